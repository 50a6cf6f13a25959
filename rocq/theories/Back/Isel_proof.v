(** What the instructions for one operation do. *)
From stdpp Require Import base numbers list sets.
From Coq Require Import Lia.
From Verif Require Import Back.Isel_model Back.Isel_spec.
Open Scope Z_scope.

Ltac szs k := destruct k as [|[|[|[|k]]]]; [| | | |lia].

Lemma pow_bits_pos k : 0 < 2 ^ bits k.
Proof. apply Z.pow_pos_nonneg; [lia|]. unfold bits. pose proof (Z.pow_nonneg 2 (Z.of_nat k)). lia. Qed.
Lemma low_low k v : low k (low k v) = low k v.
Proof. unfold low. apply Z.mod_mod. pose proof (pow_bits_pos k). lia. Qed.
Lemma low_range k v : 0 <= low k v < 2 ^ bits k.
Proof. unfold low. apply Z.mod_pos_bound, pow_bits_pos. Qed.
Lemma low_wr k old v : low k (wr k old v) = low k v.
Proof.
  pose proof (pow_bits_pos k) as HP.
  assert (low k (old - low k old + low k v) = low k v) as Hx.
  { unfold low.
    rewrite (Z.mod_eq old (2 ^ bits k)) by lia.
    replace (old - (old - 2 ^ bits k * (old / 2 ^ bits k)) + v mod 2 ^ bits k)
      with (v mod 2 ^ bits k + (old / 2 ^ bits k) * 2 ^ bits k) by lia.
    rewrite Z.mod_add by lia. apply Z.mod_mod. lia. }
  destruct k as [|[|k]]; [exact Hx|exact Hx|apply low_low].
Qed.

Lemma sgn_low k v : sgn k (low k v) = sgn k v.
Proof. unfold sgn. by rewrite low_low. Qed.
Lemma sgn_signed k v : sgn k v = as_signed (bits k) (low k v).
Proof. reflexivity. Qed.
Lemma low_sgn k v : low k (sgn k v) = low k v.
Proof.
  unfold sgn. cbv zeta. case_match; [apply low_low|].
  unfold low at 1. pose proof (pow_bits_pos k).
  replace (low k v - 2 ^ bits k) with (low k v + (-1) * 2 ^ bits k) by lia.
  rewrite Z.mod_add by lia. by apply low_low.
Qed.
Lemma number_cong uns k v : exists q, number uns (bits k) (low k v) = low k v + q * 2 ^ bits k.
Proof.
  unfold number, as_signed. destruct uns; [exists 0; lia|]. case_match; [exists 0; lia|exists (-1); lia].
Qed.

(** Congruences. *)
Lemma cong_add W x y q r : 0 < W -> (x + q * W + (y + r * W)) mod W = (x + y) mod W.
Proof. intros H. replace (x + q * W + (y + r * W)) with (x + y + (q + r) * W) by lia. apply Z.mod_add. lia. Qed.
Lemma cong_sub W x y q r : 0 < W -> (x + q * W - (y + r * W)) mod W = (x - y) mod W.
Proof. intros H. replace (x + q * W - (y + r * W)) with (x - y + (q - r) * W) by lia. apply Z.mod_add. lia. Qed.
Lemma cong_mul W x y q r : 0 < W -> ((x + q * W) * (y + r * W)) mod W = (x * y) mod W.
Proof.
  intros H. replace ((x + q * W) * (y + r * W)) with (x * y + (x * r + q * y + q * r * W) * W) by lia.
  apply Z.mod_add. lia.
Qed.

Lemma upd_same {A} (f : nat -> A) r v : upd f r v r = v.
Proof. unfold upd. by rewrite Nat.eqb_refl. Qed.
Lemma upd_other {A} (f : nat -> A) r v x : x <> r -> upd f r v x = f x.
Proof. intros H. unfold upd. by rewrite (proj2 (Nat.eqb_neq x r) H). Qed.

(** Code that goes on after code that does not leave. *)
Lemma run_app a b k s s1 : run k a s = Some (false, s1) -> run k (a ++ b) s = run 0 b s1.
Proof.
  revert k s. induction a as [|i a IH]; intros k s H.
  - simpl in H. destruct k; [|done]. injection H as ->. done.
  - destruct k as [|k]; [|exact (IH _ _ H)].
    destruct i; cbn [run app] in H |- *;
      repeat match goal with
      | H : (?x ≫= _) = Some _ |- _ => let E := fresh "E" in destruct x eqn:E; cbn [mbind option_bind] in H |- *; [|done]
      end; try (by apply IH).
    case_match; [done|]. by apply IH.
Qed.

Definition only (s s' : state) (d : nat) (lost : list nat) : Prop :=
  (forall r, r <> d -> r ∉ lost -> regs s' r = regs s r) /\ fregs s' = fregs s /\ stk s' = stk s.

(** ** Sources *)

Definition oval (s : state) (o : opr) : Z :=
  match o with OReg k p => low k (regs s p) | OCon k n => low k n end.
Definition osmall (o : opr) : Prop := match o with OReg _ _ => True | OCon _ n => -2 ^ 31 <= n < 2 ^ 31 end.
Lemma is_im32_ok n : -2 ^ 31 <= n < 2 ^ 31 -> is_im32 n = true.
Proof. intros H. unfold is_im32. apply andb_true_intro. split; [apply Z.leb_le|apply Z.ltb_lt]; lia. Qed.
Lemma is_im32_inv n : is_im32 n = true -> -2 ^ 31 <= n < 2 ^ 31.
Proof. unfold is_im32. intros [H1 H2]%andb_prop. apply Z.leb_le in H1. apply Z.ltb_lt in H2. lia. Qed.
Lemma gets_ok k o s : osize o = k -> osmall o -> gets k (osrc o) s = Some (oval s o).
Proof. intros <- H. destruct o; simpl; [done|]. by rewrite is_im32_ok. Qed.

Lemma arith_only f k o d s v : gets k o s = Some v ->
  exists s', arith f k o d s = Some s' /\ low k (regs s' d) = low k (f (low k (regs s d)) v) /\ only s s' d [].
Proof.
  intros H. unfold arith. rewrite H. simpl. eexists. split; [done|].
  split; [simpl; by rewrite upd_same, low_wr|]. split_and!; [|done|done].
  intros r Hr _. simpl. by rewrite upd_other.
Qed.

(** ** Counts of shifts *)
Lemma mod_mod_divide v a b : 0 < a -> 0 < b -> (v mod (a * b)) mod a = v mod a.
Proof.
  intros Ha Hb. rewrite (Z.mod_eq v (a * b)) by nia.
  replace (v - a * b * (v / (a * b))) with (v + (- (b * (v / (a * b)))) * a) by lia. apply Z.mod_add. lia.
Qed.
Lemma low_mod256 k v : (k < 4)%nat -> low k v mod 256 = v mod 256.
Proof.
  intros Hk. unfold low. szs k.
  - change (2 ^ bits 0) with (256 * 1). by apply mod_mod_divide.
  - change (2 ^ bits 1) with (256 * 2 ^ 8). by apply mod_mod_divide.
  - change (2 ^ bits 2) with (256 * 2 ^ 24). by apply mod_mod_divide.
  - change (2 ^ bits 3) with (256 * 2 ^ 56). by apply mod_mod_divide.
Qed.
Lemma count_ok k j n : (k < 4)%nat -> (j < 4)%nat -> low j n < bits k ->
  (n mod 256) mod (if Nat.eqb k 3 then 64 else 32) = low j n.
Proof.
  intros Hk Hj H. pose proof (low_range j n) as Hr. rewrite <- (low_mod256 j n Hj).
  assert (low j n < 64 /\ (k <> 3%nat -> low j n < 32)) as [H1 H2].
  { szs k; unfold bits in H; simpl in H; lia. }
  rewrite (Z.mod_small (low j n) 256) by lia.
  case_match eqn:E.
  - apply Z.mod_small. lia.
  - apply Nat.eqb_neq in E. apply Z.mod_small. split; [lia|by apply H2].
Qed.
Lemma land255 n : Z.land n 255 = n mod 256.
Proof. change 255 with (Z.ones 8). rewrite Z.land_ones by lia. done. Qed.

(** ** Division *)
Lemma wide_signed k v : (k = 2 \/ k = 3)%nat ->
  sgn (S k) (low k v + 2 ^ bits k * low k (if sgn k v <? 0 then -1 else 0)) = sgn k v.
Proof.
  intros Hk. pose proof (low_range k v) as Hr. unfold sgn. cbv zeta.
  assert (bits (S k) = 2 * bits k) as E.
  { unfold bits. rewrite Nat2Z.inj_succ, Z.pow_succ_r by lia. lia. }
  assert (forall a, low (S k) a = a mod 2 ^ (2 * bits k)) as EL by (intros; unfold low; by rewrite E).
  rewrite !EL, E. clear EL.
  set (u := low k v) in *.
  assert (forall a, 0 <= a < 2 ^ (2 * bits k) -> a mod 2 ^ (2 * bits k) = a) as Hm by (intros; by apply Z.mod_small).
  assert (2 ^ (2 * bits k) = 2 ^ bits k * 2 ^ bits k) as EW.
  { replace (2 * bits k) with (bits k + bits k) by lia. apply Z.pow_add_r; unfold bits; lia. }
  assert (2 ^ bits k = 2 * 2 ^ (bits k - 1)) as EH.
  { rewrite <- (Z.pow_succ_r 2 (bits k - 1)); [f_equal; lia|]. destruct Hk as [-> | ->]; vm_compute; discriminate. }
  assert (2 ^ (2 * bits k - 1) = 2 ^ bits k * 2 ^ (bits k - 1)) as EH2.
  { replace (2 * bits k - 1) with (bits k + (bits k - 1)) by lia.
    apply Z.pow_add_r; destruct Hk as [-> | ->]; vm_compute; discriminate. }
  assert (0 < 2 ^ (bits k - 1)) as HH by (apply Z.pow_pos_nonneg; [lia|destruct Hk as [-> | ->]; vm_compute; discriminate]).
  rewrite EH2, EW. rewrite EW in Hm.
  set (W := 2 ^ bits k) in *. set (H := 2 ^ (bits k - 1)) in *.
  destruct (u <? H) eqn:E1; [apply Z.ltb_lt in E1|apply Z.ltb_ge in E1].
  - replace (u <? 0) with false by (symmetry; apply Z.ltb_ge; lia).
    assert (low k 0 = 0) as -> by (unfold low; by rewrite Z.mod_0_l; [|fold W; lia]).
    rewrite Z.mul_0_r, Z.add_0_r, Hm by nia.
    replace (u <? W * H) with true by (symmetry; apply Z.ltb_lt; nia). done.
  - replace (u - W <? 0) with true by (symmetry; apply Z.ltb_lt; lia).
    assert (low k (-1) = W - 1) as ->.
    { unfold low. fold W. replace (-1) with (W - 1 + (-1) * W) by lia. rewrite Z.mod_add by lia. apply Z.mod_small. lia. }
    rewrite Hm by nia.
    replace (u + W * (W - 1) <? W * H) with false by (symmetry; apply Z.ltb_ge; nia). nia.
Qed.

Lemma signed_range k v : (k < 4)%nat -> - 2 ^ (bits k - 1) <= sgn k v < 2 ^ (bits k - 1).
Proof.
  intros Hk. pose proof (low_range k v) as Hr. unfold sgn. cbv zeta.
  assert (2 ^ bits k = 2 * 2 ^ (bits k - 1)) as EH.
  { rewrite <- (Z.pow_succ_r 2 (bits k - 1)); [f_equal; lia|]. szs k; vm_compute; discriminate. }
  case_match eqn:E; [apply Z.ltb_lt in E|apply Z.ltb_ge in E]; lia.
Qed.
