(** Unary operations, moves, conversions between integers, comparisons. *)
From stdpp Require Import base numbers list sets.
From Coq Require Import Lia.
From Verif Require Import Back.Isel_model Back.Isel_spec Back.Isel_proof Back.Isel_ops_proof.
Open Scope Z_scope.

Lemma good_setr s k d v i : (forall l, run 0 (i :: l) s = run 0 l (setr k d v s)) -> good s [i] k d [] (low k v).
Proof.
  intros H. exists (setr k d v s). rewrite H. split; [done|]. split; [apply low_setr|].
  split_and!; [|done|done]. intros r Hr _. by apply setr_other.
Qed.
Lemma good_nil s k d : good s [] k d [] (low k (regs s d)).
Proof. exists s. split; [done|]. split; [done|]. by split_and!. Qed.
Lemma good_unk s k d v i : (forall l, run 0 (i :: l) s = run 0 l (unk (setr k d v s))) -> good s [i] k d [] (low k v).
Proof.
  intros H. exists (unk (setr k d v s)). rewrite H. split; [done|]. split; [apply low_setr|].
  split_and!; [|done|done]. intros r Hr _. by apply setr_other.
Qed.

Lemma uop_ok o k d s : good s (emit_uop o k d) k d [] (uop_val o (bits k) (low k (regs s d))).
Proof.
  destruct o; simpl.
  - exact (good_unk s k d (- low k (regs s d)) (INeg k d) (fun _ => eq_refl)).
  - pose proof (low_range k (regs s d)).
    replace (2 ^ bits k - 1 - low k (regs s d)) with (low k (Z.lnot (low k (regs s d)))).
    + exact (good_setr s k d _ (INot k d) (fun _ => eq_refl)).
    + unfold Z.lnot. unfold low at 1. rewrite <- (Z.mod_add _ 1) by lia. rewrite Z.mod_small by lia. lia.
Qed.

Lemma mov_ok o d s : good s (emit_mov d o) (osize o) d [] (oval s o).
Proof.
  destruct o as [k p|k n]; simpl.
  - destruct (Nat.eqb_spec p d) as [->|H]; [apply good_nil|].
    pose proof (good_setr s k d (getr k p s) (IMov k (Reg p) d) (fun _ => eq_refl)) as HG.
    unfold getr in HG. rewrite low_low in HG. exact HG.
  - exact (good_setr s k d n (IMov k (Imm n) d) (fun _ => eq_refl)).
Qed.

(** 2 to the bits of a smaller size divides that of a larger. *)
Lemma bits_le a b : (a <= b)%nat -> 0 <= bits a <= bits b.
Proof.
  intros H. unfold bits. pose proof (Z.pow_le_mono_r 2 (Z.of_nat a) (Z.of_nat b)).
  pose proof (Z.pow_nonneg 2 (Z.of_nat a)). lia.
Qed.
Lemma low_of_larger a b v : (a <= b)%nat -> low a (low b v) = low a v.
Proof.
  intros H. pose proof (bits_le a b H). unfold low.
  replace (2 ^ bits b) with (2 ^ bits a * 2 ^ (bits b - bits a)) by (rewrite <- Z.pow_add_r by lia; f_equal; lia).
  apply mod_mod_divide; apply Z.pow_pos_nonneg; lia.
Qed.

Lemma cast_ok uns sd d ss p s c : (sd < 4)%nat -> (ss < 4)%nat -> emit_cast uns sd d (OReg ss p) = Some c ->
  good s c sd d [] (number uns (bits ss) (low ss (regs s p)) mod 2 ^ bits sd).
Proof.
  intros H1 H2 He. unfold emit_cast in He. destruct (Nat.eqb_spec sd ss) as [|Hne]; [done|].
  destruct (Nat.ltb_spec sd ss) as [Hlt|Hge]; injection He as <-.
  - assert (number uns (bits ss) (low ss (regs s p)) mod 2 ^ bits sd = low sd (regs s p)) as ->.
    { destruct (number_cong uns ss (regs s p)) as [q ->].
      pose proof (bits_le sd ss ltac:(lia)).
      replace (q * 2 ^ bits ss) with (q * 2 ^ (bits ss - bits sd) * 2 ^ bits sd)
        by (rewrite <- Z.mul_assoc, <- Z.pow_add_r by lia; f_equal; f_equal; lia).
      rewrite Z.mod_add by (pose proof (pow_bits_pos sd); lia). apply low_of_larger. lia. }
    destruct (Nat.eqb_spec d p) as [->|Hdp]; [apply good_nil|].
    pose proof (mov_ok (OReg sd p) d s) as HM. simpl in HM.
    rewrite (proj2 (Nat.eqb_neq p d)) in HM by done. exact HM.
  - destruct uns; simpl number.
    + destruct (Nat.eqb_spec ss 2) as [->|H2'].
      * assert (sd = 3%nat) as -> by lia. eexists. split; [done|]. split.
        -- simpl. rewrite upd_same. unfold getr.
           change (low 3 (low 2 (low 2 (regs s p))) = low 2 (regs s p) mod 2 ^ bits 3). by rewrite low_low.
        -- split_and!; [|done|done]. intros r Hr _. by apply setr_other.
      * exact (good_setr s sd d (getr ss p s) (IMovzx ss sd p d) (fun _ => eq_refl)).
    + exact (good_setr s sd d (sgn ss (regs s p)) (IMovsx ss sd p d) (fun _ => eq_refl)).
Qed.

(** ** Comparisons *)
Lemma cmp_eval k c uns a b : (k < 4)%nat ->
  cceval (cc_of uns c) (cmpflags k (low k a) (low k b)) =
  Some (holds c (number uns (bits k) (low k a)) (number uns (bits k) (low k b))).
Proof.
  intros Hk. pose proof (low_range k a) as Ra. pose proof (low_range k b) as Rb.
  assert (2 ^ bits k = 2 * 2 ^ (bits k - 1)) as EH.
  { rewrite <- (Z.pow_succ_r 2 (bits k - 1)); [f_equal; lia|]. szs k; vm_compute; discriminate. }
  assert (0 < 2 ^ (bits k - 1)) by lia.
  unfold cmpflags. cbv zeta. rewrite !sgn_low, !sgn_signed.
  assert (low k (low k a - low k b) = if low k b <=? low k a then low k a - low k b else low k a - low k b + 2 ^ bits k) as ->.
  { case_match eqn:E; [apply Z.leb_le in E; unfold low at 1; apply Z.mod_small; lia|].
    apply Z.leb_gt in E. unfold low at 1. rewrite <- (Z.mod_add _ 1) by lia. rewrite Z.mul_1_l. apply Z.mod_small. lia. }
  set (x := low k a) in *. set (y := low k b) in *.
  assert (forall u, 0 <= u < 2 ^ bits k -> number false (bits k) u = as_signed (bits k) u) as _ by done.
  unfold number, as_signed. set (H' := 2 ^ (bits k - 1)) in *. set (W := 2 ^ bits k) in *.
  destruct uns, c; cbn [cc_of cceval holds zf sf cf ovf]; f_equal;
    destruct (Z.leb_spec y x), (Z.ltb_spec x H'), (Z.ltb_spec y H');
    repeat match goal with
    | |- context [?p =? ?q] => destruct (Z.eqb_spec p q)
    | |- context [?p <? ?q] => destruct (Z.ltb_spec p q)
    | |- context [?p <=? ?q] => destruct (Z.leb_spec p q)
    end; cbn; try reflexivity; exfalso; lia.
Qed.

Lemma test_eval k c uns a : (k < 4)%nat ->
  cceval (cc_of uns c) (testflags k (low k a)) =
  Some (holds c (number uns (bits k) (low k a)) (number uns (bits k) 0)).
Proof.
  intros Hk. pose proof (low_range k a) as Ra.
  assert (2 ^ bits k = 2 * 2 ^ (bits k - 1)) as EH.
  { rewrite <- (Z.pow_succ_r 2 (bits k - 1)); [f_equal; lia|]. szs k; vm_compute; discriminate. }
  assert (0 < 2 ^ (bits k - 1)) by lia.
  unfold testflags. set (x := low k a) in *.
  unfold number, as_signed. set (H' := 2 ^ (bits k - 1)) in *. set (W := 2 ^ bits k) in *.
  assert (0 <? H' = true) as -> by (apply Z.ltb_lt; lia).
  destruct uns, c; cbn [cc_of cceval holds zf sf cf ovf]; f_equal;
    destruct (Z.ltb_spec x H');
    repeat match goal with
    | |- context [?p =? ?q] => destruct (Z.eqb_spec p q)
    | |- context [?p <? ?q] => destruct (Z.ltb_spec p q)
    | |- context [?p <=? ?q] => destruct (Z.leb_spec p q)
    end; cbn; try reflexivity; exfalso; lia.
Qed.

Lemma cmp_int_ok uns c k p o2 s : (k < 4)%nat -> osize o2 = k -> osmall o2 ->
  exists t f, cmp_int (OReg k p) o2 = Some t /\ (forall l, run 0 (t ++ l) s = run 0 l (setfl f s)) /\
  cceval (cc_of uns c) f = Some (holds c (number uns (bits k) (low k (regs s p))) (number uns (bits k) (oval s o2))).
Proof.
  intros Hk Hs Hsm. destruct o2 as [k2 p2|k2 n]; simpl in Hs; subst k2.
  - simpl. exists [ICmp k (Reg p2) p], (cmpflags k (low k (regs s p)) (low k (regs s p2))).
    split; [done|]. split; [done|]. by apply cmp_eval.
  - simpl. destruct (Z.eqb_spec n 0) as [->|Hn].
    + exists [ITest k (Reg p) p], (testflags k (low k (regs s p))).
      split; [done|]. split.
      * intros l. simpl. unfold getr. by rewrite Z.land_diag.
      * replace (low k 0) with 0; [by apply test_eval|]. unfold low. rewrite Z.mod_0_l; [done|]. pose proof (pow_bits_pos k). lia.
    + exists [ICmp k (Imm n) p], (cmpflags k (low k (regs s p)) (low k n)).
      split; [done|]. split; [|by apply cmp_eval].
      intros l. simpl. rewrite is_im32_ok by done. done.
Qed.


Lemma sgn_bool k v (b : bool) : low k v = (if b then 1 else 0) -> k = 0%nat -> sgn k v = if b then 1 else 0.
Proof. intros H ->. unfold sgn. rewrite H. by destruct b. Qed.
(** To store a condition and extend it. *)
Lemma set_ok s cc d (b : bool) : evalcc cc s = Some b ->
  good s [ISet cc d; IMovsx 0 2 d d] 2 d [] (if b then 1 else 0).
Proof.
  intros H. set (s0 := setr 0 d (if b then 1 else 0) s).
  exists (setr 2 d (sgn 0 (regs s0 d)) s0). split.
  - simpl. rewrite H. simpl. done.
  - split.
    + rewrite low_setr. rewrite (sgn_bool 0 _ b); [by destruct b| |done]. unfold s0. rewrite low_setr. by destruct b.
    + split_and!; [|done|done]. intros r Hr _. rewrite setr_other by done. unfold s0. by apply setr_other.
Qed.

Lemma cond_ok uns c k d p o2 s cd : (k < 4)%nat -> osize o2 = k -> osmall o2 ->
  emit_cond uns c d (OReg k p) o2 = Some cd ->
  good s cd 2 d [] (if holds c (number uns (bits k) (low k (regs s p))) (number uns (bits k) (oval s o2)) then 1 else 0).
Proof.
  intros Hk Hs Hsm He. destruct (cmp_int_ok uns c k p o2 s Hk Hs Hsm) as (t & f & H1 & H2 & H3).
  unfold emit_cond in He. rewrite H1 in He. simpl in He. injection He as <-.
  destruct (set_ok (setfl f s) (cc_of uns c) d _ H3) as (s' & G1 & G2 & G3).
  exists s'. rewrite H2. split; [done|]. split; [done|]. exact G3.
Qed.
Lemma jmp_ok uns c k p o2 s : (k < 4)%nat -> osize o2 = k -> osmall o2 ->
  exists cd s', emit_jmp uns c (OReg k p) o2 = Some cd /\
  run 0 cd s = Some (holds c (number uns (bits k) (low k (regs s p))) (number uns (bits k) (oval s o2)), s') /\
  regs s' = regs s /\ fregs s' = fregs s /\ stk s' = stk s.
Proof.
  intros Hk Hs Hsm. destruct (cmp_int_ok uns c k p o2 s Hk Hs Hsm) as (t & f & H1 & H2 & H3).
  unfold emit_jmp. rewrite H1. simpl. eexists _, (setfl f s). split; [done|]. split; [|done].
  rewrite H2. cbn [run]. unfold evalcc. cbn [fla setfl mbind option_bind]. rewrite H3. cbn [mbind option_bind]. by destruct (holds _ _ _).
Qed.

(** Floating point. *)
Lemma fcmp_swap a b : fcmp b a = CompOpp <$> fcmp a b.
Proof.
  destruct a as [m e|x|], b as [m' e'|y|]; simpl; try done; try (by destruct x); try (by destruct y).
  - by rewrite Z.min_comm, Z.compare_antisym.
  - by destruct x, y.
Qed.
Lemma fjmp_ok c f1 f2 s :
  exists s', run 0 (emit_fjmp c f1 f2) s = Some (fholds c (fregs s f1) (fregs s f2), s') /\
  regs s' = regs s /\ fregs s' = fregs s /\ stk s' = stk s.
Proof.
  unfold fholds. pose proof (fcmp_swap (fregs s f1) (fregs s f2)) as Hs.
  destruct c; cbn [emit_fjmp run step mbind option_bind evalcc fla setfl]; unfold fcmpflags;
    rewrite ?Hs; destruct (fcmp (fregs s f1) (fregs s f2)) as [[]|]; simpl;
    (eexists; split; [reflexivity|]; done).
Qed.
Lemma fcond_fin s d s0 (b : bool) : low 0 (regs s0 d) = (if b then 1 else 0) -> fregs s0 = fregs s -> stk s0 = stk s ->
  (forall r, r <> d -> regs s0 r = regs s r) ->
  exists s', run 0 [IMovsx 0 2 d d] s0 = Some (false, s') /\ low 2 (regs s' d) = (if b then 1 else 0) /\ only s s' d [].
Proof.
  intros Hb Hf1 Hf2 Hf3. eexists. split; [reflexivity|]. split.
  - rewrite low_setr, (sgn_bool 0 _ b) by done. by destruct b.
  - split_and!; [|done|done]. intros r Hr _. rewrite setr_other by done. by apply Hf3.
Qed.
Lemma fcond_eq s d f1 f2 (c : cc) (n : Z) b1 : cceval c (fcmpflags (fregs s f1) (fregs s f2)) = Some b1 ->
  let f := fcmpflags (fregs s f1) (fregs s f2) in
  let s1 := setfl f (setr 0 d (if b1 : bool then 1 else 0) (setfl f s)) in
  run 0 [IUcomi f2 f1; ISet c d; IUcomi f2 f1; IJcc CE 1; IMov 0 (Imm n) d; IMovsx 0 2 d d] s =
  run 0 [IMovsx 0 2 d d] (if zf f then s1 else setr 0 d n s1).
Proof.
  intros H. cbv zeta. cbn [run step mbind option_bind evalcc fla setfl]. unfold evalcc. cbn [fla setfl mbind option_bind].
  rewrite H. cbn [mbind option_bind]. cbn [fregs setr setfl fla cceval mbind option_bind].
  by destruct (zf (fcmpflags (fregs s f1) (fregs s f2))).
Qed.
Lemma regs_setfl f s : regs (setfl f s) = regs s.
Proof. done. Qed.
Lemma fcond_ok c d f1 f2 s :
  good s (emit_fcond c d f1 f2) 2 d [] (if fholds c (fregs s f1) (fregs s f2) then 1 else 0).
Proof.
  pose proof (fcmp_swap (fregs s f1) (fregs s f2)) as Hs.
  assert (forall n a f, (forall r, r <> d -> regs (setr 0 d n (setfl f (setr 0 d a (setfl f s)))) r = regs s r)) as Hf2.
  { intros n a f r Hr. rewrite setr_other by done. by apply (setr_other 0 d a (setfl f s)). }
  assert (forall a f, (forall r, r <> d -> regs (setfl f (setr 0 d a (setfl f s))) r = regs s r)) as Hf1.
  { intros a f r Hr. by apply (setr_other 0 d a (setfl f s)). }
  destruct c; unfold good, emit_fcond.
  - rewrite (fcond_eq s d f1 f2 _ _ (match fcmp (fregs s f1) (fregs s f2) with None => false | _ => true end)); [|unfold fcmpflags, cceval, pf; by destruct (fcmp (fregs s f1) (fregs s f2)) as [[]|]]. unfold fholds, fcmpflags.
    destruct (fcmp (fregs s f1) (fregs s f2)) as [[]|]; cbn [zf];
      [apply (fcond_fin s d _ true)|apply (fcond_fin s d _ false)|apply (fcond_fin s d _ false)|apply (fcond_fin s d _ false)];
      try done; try apply Hf2; try apply Hf1; by (rewrite ?regs_setfl, low_setr).
  - rewrite (fcond_eq s d f1 f2 _ _ (match fcmp (fregs s f1) (fregs s f2) with None => true | _ => false end)); [|unfold fcmpflags, cceval, pf; by destruct (fcmp (fregs s f1) (fregs s f2)) as [[]|]]. unfold fholds, fcmpflags.
    destruct (fcmp (fregs s f1) (fregs s f2)) as [[]|]; cbn [zf];
      [apply (fcond_fin s d _ false)|apply (fcond_fin s d _ true)|apply (fcond_fin s d _ true)|apply (fcond_fin s d _ true)];
      try done; try apply Hf2; try apply Hf1; by (rewrite ?regs_setfl, low_setr).
  - apply (set_ok (setfl (fcmpflags (fregs s f2) (fregs s f1)) s)). unfold evalcc, fcmpflags, fholds. cbn [fla setfl mbind option_bind swap cc_of].
    rewrite Hs. by destruct (fcmp (fregs s f1) (fregs s f2)) as [[]|].
  - apply (set_ok (setfl (fcmpflags (fregs s f2) (fregs s f1)) s)). unfold evalcc, fcmpflags, fholds. cbn [fla setfl mbind option_bind swap cc_of].
    rewrite Hs. by destruct (fcmp (fregs s f1) (fregs s f2)) as [[]|].
  - apply (set_ok (setfl (fcmpflags (fregs s f1) (fregs s f2)) s)). unfold evalcc, fcmpflags, fholds. cbn [fla setfl mbind option_bind swap cc_of].
    by destruct (fcmp (fregs s f1) (fregs s f2)) as [[]|].
  - apply (set_ok (setfl (fcmpflags (fregs s f1) (fregs s f2)) s)). unfold evalcc, fcmpflags, fholds. cbn [fla setfl mbind option_bind swap cc_of].
    by destruct (fcmp (fregs s f1) (fregs s f2)) as [[]|].
Qed.

Lemma index_ok k p s : (k < 4)%nat -> exists s', run 0 (emit_index k p) s = Some (false, s') /\
  low 3 (regs s' p) = low k (regs s p) /\ forall r, r <> p -> regs s' r = regs s r.
Proof.
  intros Hk. unfold emit_index. szs k; simpl.
  - eexists. split; [done|]. split.
    + simpl. rewrite upd_same. unfold getr. change (low 3 (low 3 (low 0 (regs s p))) = low 0 (regs s p)). rewrite low_low.
      unfold low at 1. apply Z.mod_small. pose proof (low_range 0 (regs s p)). change (2 ^ bits 0) with 256 in *. change (2 ^ bits 3) with (2 ^ 64). lia.
    + intros r Hr. by apply setr_other.
  - eexists. split; [done|]. split.
    + simpl. rewrite upd_same. unfold getr. change (low 3 (low 3 (low 1 (regs s p))) = low 1 (regs s p)). rewrite low_low.
      unfold low at 1. apply Z.mod_small. pose proof (low_range 1 (regs s p)). change (2 ^ bits 1) with 65536 in *. change (2 ^ bits 3) with (2 ^ 64). lia.
    + intros r Hr. by apply setr_other.
  - eexists. split; [done|]. split.
    + simpl. rewrite upd_same. unfold getr. change (low 3 (low 2 (low 2 (regs s p))) = low 2 (regs s p)). rewrite low_low.
      unfold low at 1. apply Z.mod_small. pose proof (low_range 2 (regs s p)). change (2 ^ bits 2) with (2 ^ 32) in *. change (2 ^ bits 3) with (2 ^ 64). lia.
    + intros r Hr. by apply setr_other.
  - exists s. done.
Qed.
