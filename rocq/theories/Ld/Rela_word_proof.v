From stdpp Require Import base list numbers.
From Coq Require Import Lia ZArith.
From Verif Require Import As.Asm_arch_model Ld.Rela_model Ld.Rela_spec Ld.Rela_proof.
From Verif Require Import As.Rv_model.
Local Open Scope Z_scope.

(** ** Bits *)
Lemma tb_bits w hi lo n : 0 <= lo <= hi ->
  Z.testbit (bits w hi lo) n = (0 <=? n) && (n <=? hi - lo) && Z.testbit w (n + lo).
Proof.
  intros H. unfold bits. destruct (Z.leb_spec 0 n); cbn [andb]; [|apply Z.testbit_neg_r; lia].
  destruct (Z.leb_spec n (hi - lo)); cbn [andb].
  - rewrite Z.mod_pow2_bits_low by lia. apply Z.div_pow2_bits; lia.
  - apply Z.mod_pow2_bits_high. lia.
Qed.
Lemma tb_IMM x t b n : 0 <= b <= t ->
  Z.testbit (IMM x t b) n = (0 <=? n) && (n <=? t - b) && Z.testbit x (n + b).
Proof.
  intros H. unfold IMM. rewrite Z.land_spec.
  destruct (Z.leb_spec 0 n); cbn [andb]; [|rewrite Z.testbit_neg_r by lia; done].
  rewrite Z.shiftr_spec, Z.shiftl_1_l by lia.
  replace (2 ^ (t - b + 1) - 1) with (Z.ones (t - b + 1)) by (rewrite Z.ones_equiv; lia).
  destruct (Z.leb_spec n (t - b)); cbn [andb].
  - rewrite Z.ones_spec_low by lia. apply andb_true_r.
  - rewrite Z.ones_spec_high by lia. apply andb_false_r.
Qed.
Lemma tb_shl a k n : 0 <= k -> Z.testbit (Z.shiftl a k) n = (k <=? n) && Z.testbit a (n - k).
Proof.
  intros. destruct (Z.leb_spec 0 n).
  - destruct (Z.leb_spec k n); cbn [andb]; [apply Z.shiftl_spec; lia|apply Z.shiftl_spec_low; lia].
  - rewrite !Z.testbit_neg_r by lia. rewrite andb_false_r. done.
Qed.
Lemma tb_shr a k n : 0 <= k -> Z.testbit (Z.shiftr a k) n = (0 <=? n) && Z.testbit a (n + k).
Proof.
  intros. destruct (Z.leb_spec 0 n); cbn [andb]; [apply Z.shiftr_spec; lia|].
  apply Z.testbit_neg_r. lia.
Qed.
Lemma tb_mod a k n : 0 <= k -> Z.testbit (a mod 2 ^ k) n = (n <? k) && Z.testbit a n.
Proof.
  intros. destruct (Z.ltb_spec n k); cbn [andb].
  - apply Z.mod_pow2_bits_low. lia.
  - apply Z.mod_pow2_bits_high. lia.
Qed.

(** Equality of two expressions that have at most [k] bits, one bit at a time. *)
Fixpoint upto (P : Z -> Prop) (k : nat) : Prop := match k with O => True | S k => P (Z.of_nat k) /\ upto P k end.
Lemma upto_spec P k : upto P k -> forall n, 0 <= n < Z.of_nat k -> P n.
Proof.
  induction k as [|k IH]; intros H n Hn; [lia|]. destruct H as [H1 H2].
  destruct (decide (n = Z.of_nat k)) as [->|]; [done|]. apply IH; [done|lia].
Qed.
Lemma bits_eq hi lo x y : 0 <= lo <= hi ->
  upto (fun n => Z.testbit x (n + lo) = Z.testbit y n) (Z.to_nat (hi - lo + 1)) ->
  (forall n, hi - lo < n -> Z.testbit y n = false) -> bits x hi lo = y.
Proof.
  intros H Hu Hy. apply Z.bits_inj'. intros n Hn. rewrite tb_bits by done.
  rewrite (proj2 (Z.leb_le 0 n)) by done. cbn [andb].
  destruct (Z.leb_spec n (hi - lo)); cbn [andb].
  - apply (upto_spec _ _ Hu). lia.
  - symmetry. apply Hy. done.
Qed.
Lemma bits_eq_bits hi lo x hi' lo' y : 0 <= lo <= hi -> 0 <= lo' -> hi' - lo' = hi - lo ->
  upto (fun n => Z.testbit x (n + lo) = Z.testbit y (n + lo')) (Z.to_nat (hi - lo + 1)) ->
  bits x hi lo = bits y hi' lo'.
Proof.
  intros H H' Hw Hu. apply Z.bits_inj'. intros n Hn. rewrite !tb_bits by lia.
  rewrite (proj2 (Z.leb_le 0 n)) by done. cbn [andb]. rewrite Hw.
  destruct (Z.leb_spec n (hi - lo)); cbn [andb]; [|done].
  apply (upto_spec _ _ Hu). lia.
Qed.
Ltac tb := rewrite ?Z.lor_spec, ?Z.land_spec; rewrite ?tb_shl, ?tb_shr, ?tb_IMM, ?tb_mod by (vm_compute; intuition discriminate).
Ltac bitwise x w :=
  match goal with |- upto _ ?k => let k' := eval vm_compute in k in change k with k' end;
  cbn [upto]; repeat progress tb;
  generalize (Z.testbit x) (Z.testbit w); intros f g;
  repeat split; vm_compute;
  repeat match goal with |- context [f ?n] => destruct (f n) | |- context [g ?n] => destruct (g n) end; reflexivity.
Ltac bb x w := apply bits_eq_bits; [lia|lia|lia|bitwise x w].

(** ** The immediates *)
Lemma jal_fields x w : let w' := Z.lor (Z.land w 0x7f) (SWIZZLE_JAL x) in
  bits w' 31 31 = bits x 20 20 /\ bits w' 19 12 = bits x 19 12 /\ bits w' 20 20 = bits x 11 11 /\ bits w' 30 21 = bits x 10 1 /\
  bits w' 6 0 = bits w 6 0.
Proof. intros w'. unfold w', SWIZZLE_JAL, Rv_model.SWIZZLE_JAL. repeat split; bb x w. Qed.
Lemma call_fields x : let w' := UTYPE (SWIZZLE_JAL x) 1 0x6f in
  bits w' 31 31 = bits x 20 20 /\ bits w' 19 12 = bits x 19 12 /\ bits w' 20 20 = bits x 11 11 /\ bits w' 30 21 = bits x 10 1 /\
  bits w' 6 0 = bits 0x6f 6 0 /\ bits w' 11 7 = bits 1 4 0.
Proof. intros w'. unfold w', UTYPE, SWIZZLE_JAL, Rv_model.SWIZZLE_JAL. repeat split; bb x x. Qed.
Lemma branch_fields x w : let w' := Z.lor (Z.land w 0x01fff07f) (SWIZZLE_BXX x) in
  bits w' 31 31 = bits x 12 12 /\ bits w' 7 7 = bits x 11 11 /\ bits w' 30 25 = bits x 10 5 /\ bits w' 11 8 = bits x 4 1 /\
  bits w' 6 0 = bits w 6 0 /\ bits w' 24 12 = bits w 24 12.
Proof. intros w'. unfold w', SWIZZLE_BXX, Rv_model.SWIZZLE_BXX. repeat split; bb x w. Qed.
Lemma cj_fields x w : let w' := Z.lor (Z.land w 0xe003) (SWIZZLE_C_J x) in
  bits w' 12 12 = bits x 11 11 /\ bits w' 8 8 = bits x 10 10 /\ bits w' 10 9 = bits x 9 8 /\ bits w' 6 6 = bits x 7 7 /\
  bits w' 7 7 = bits x 6 6 /\ bits w' 2 2 = bits x 5 5 /\ bits w' 11 11 = bits x 4 4 /\ bits w' 5 3 = bits x 3 1 /\
  bits w' 1 0 = bits w 1 0 /\ bits w' 15 13 = bits w 15 13.
Proof. intros w'. unfold w', SWIZZLE_C_J, Rv_model.SWIZZLE_C_J. repeat split; bb x w. Qed.
Lemma cb_fields x w : let w' := Z.lor (Z.land w 0xe383) (SWIZZLE_C_BXX x) in
  bits w' 12 12 = bits x 8 8 /\ bits w' 6 5 = bits x 7 6 /\ bits w' 2 2 = bits x 5 5 /\ bits w' 11 10 = bits x 4 3 /\
  bits w' 4 3 = bits x 2 1 /\
  bits w' 1 0 = bits w 1 0 /\ bits w' 9 7 = bits w 9 7 /\ bits w' 15 13 = bits w 15 13.
Proof. intros w'. unfold w', SWIZZLE_C_BXX, Rv_model.SWIZZLE_C_BXX. repeat split; bb x w. Qed.
Lemma hi_fields x w : let w' := Z.lor (Z.land w (2 ^ 12 - 1)) (Z.land (x mod 2 ^ 32) (2 ^ 32 - 2 ^ 12)) in
  bits w' 31 12 = bits x 31 12 /\ bits w' 11 0 = bits w 11 0.
Proof. intros w'. unfold w'. repeat split; bb x w. Qed.
Lemma lo_fields x w : let w' := Z.lor (Z.land w (2 ^ 20 - 1)) (Z.shiftl (Z.land (x mod 2 ^ 32) (2 ^ 12 - 1)) 20) in
  bits w' 31 20 = bits x 11 0 /\ bits w' 19 0 = bits w 19 0.
Proof. intros w'. unfold w'. repeat split; bb x w. Qed.
Lemma adrp_fields x w :
  let w' := Z.lor (Z.lor (Z.land w (Z.lxor 0x60ffffe0 (2 ^ 32 - 1))) (Z.shiftl (Z.land (x mod 2 ^ 32) 3) 29)) (Z.shiftl (Z.land (x mod 2 ^ 32) 0x1ffffc) 3) in
  bits w' 23 5 = bits x 20 2 /\ bits w' 30 29 = bits x 1 0 /\
  bits w' 4 0 = bits w 4 0 /\ bits w' 28 24 = bits w 28 24 /\ bits w' 31 31 = bits w 31 31.
Proof. intros w'. unfold w'. repeat split; bb x w. Qed.
Lemma add_fields x w : let w' := add_lo12 x w in
  bits w' 21 10 = bits x 11 0 /\ bits w' 9 0 = bits w 9 0 /\ bits w' 31 22 = bits w 31 22.
Proof. intros w'. unfold w', add_lo12. repeat split; bb x w. Qed.
Lemma bl_fields x w : let w' := Z.lor (Z.land w (2 ^ 32 - 2 ^ 26)) (Z.land (Z.shiftr x 2) (2 ^ 26 - 1)) in
  bits w' 25 0 = bits x 27 2 /\ bits w' 31 26 = bits w 31 26.
Proof. intros w'. unfold w'. repeat split; bb x w. Qed.

Lemma bits_mod w k hi lo : 0 <= lo <= hi -> hi < k -> bits (w mod 2 ^ k) hi lo = bits w hi lo.
Proof.
  intros H Hk. apply Z.bits_inj'. intros n Hn. rewrite !tb_bits by lia.
  destruct (Z.leb_spec n (hi - lo)); [|rewrite !andb_false_r; done].
  rewrite tb_mod by lia. rewrite (proj2 (Z.ltb_lt (n + lo) k)) by lia. done.
Qed.
