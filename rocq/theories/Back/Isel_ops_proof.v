(** The instructions for every operation on two operands. *)
From stdpp Require Import base numbers list sets.
From Coq Require Import Lia.
From Verif Require Import Back.Isel_model Back.Isel_spec Back.Isel_proof.
Open Scope Z_scope.

Definition in_free (o2 : opr) (l : list nat) : Prop := match o2 with OReg _ p => p ∉ l | OCon _ _ => True end.
Definition good (s : state) (c : list inst) (k d : nat) (lost : list nat) (z : Z) : Prop :=
  exists s', run 0 c s = Some (false, s') /\ low k (regs s' d) = z /\ only s s' d lost.

Lemma one_arith f k o d s v i z : (forall s, step i s = arith f k o d s) ->
  (forall s l, run 0 (i :: l) s = (s' ← step i s; run 0 l s')) ->
  gets k o s = Some v -> low k (f (low k (regs s d)) v) = z -> good s [i] k d [] z.
Proof.
  intros Hs Hr Hg Hz. destruct (arith_only f k o d s v Hg) as (s' & H1 & H2 & H3).
  exists s'. rewrite Hr, Hs, H1. simpl. split; [done|]. split; [congruence|done].
Qed.

Lemma low_add_mod uns k x y : low k (low k x + low k y) = (number uns (bits k) (low k x) + number uns (bits k) (low k y)) mod 2 ^ bits k.
Proof.
  destruct (number_cong uns k x) as [q ->]. destruct (number_cong uns k y) as [r ->].
  rewrite cong_add by apply pow_bits_pos. done.
Qed.
Lemma low_sub_mod uns k x y : low k (low k x - low k y) = (number uns (bits k) (low k x) - number uns (bits k) (low k y)) mod 2 ^ bits k.
Proof.
  destruct (number_cong uns k x) as [q ->]. destruct (number_cong uns k y) as [r ->].
  rewrite cong_sub by apply pow_bits_pos. done.
Qed.
Lemma low_mul_mod uns k x y : low k (low k x * low k y) = (number uns (bits k) (low k x) * number uns (bits k) (low k y)) mod 2 ^ bits k.
Proof.
  destruct (number_cong uns k x) as [q ->]. destruct (number_cong uns k y) as [r ->].
  rewrite cong_mul by apply pow_bits_pos. done.
Qed.
Lemma low_const_add k x n : low k (x + n) = low k (x + low k n).
Proof. unfold low. rewrite Z.add_mod_idemp_r; [done|]. pose proof (pow_bits_pos k). lia. Qed.
Lemma low_const_sub k x n : low k (x - n) = low k (x - low k n).
Proof. unfold low. rewrite Zminus_mod_idemp_r. done. Qed.

Lemma good_incdec k d s n i : (forall s, step i s = Some (unk (setr k d (getr k d s + n) s))) ->
  (forall s l, run 0 (i :: l) s = (s' ← step i s; run 0 l s')) ->
  good s [i] k d [] (low k (low k (regs s d) + n)).
Proof.
  intros Hs Hr. eexists. rewrite Hr, Hs. simpl. split; [done|]. split.
  - simpl. rewrite upd_same, low_wr. done.
  - split_and!; [|done|done]. intros r Hr' _. simpl. by rewrite upd_other.
Qed.

Lemma addsub_ok add uns k d o2 s z : osize o2 = k -> osmall o2 ->
  bop_val (if add : bool then Add else Sub) uns (bits k) (low k (regs s d)) (oval s o2) = Some z ->
  good s (emit_addsub add k d o2) k d [] z.
Proof.
  intros Hk Ho Hz.
  assert (z = low k (if add then low k (regs s d) + oval s o2 else low k (regs s d) - oval s o2)) as ->.
  { assert (exists v, oval s o2 = low k v) as [v Ev] by (destruct o2; simpl in *; subst; eauto). rewrite Ev in *.
    destruct add; simpl in Hz; injection Hz as <-; [symmetry; apply low_add_mod|symmetry; apply low_sub_mod]. }
  destruct o2 as [k2 p|k2 n]; simpl in Hk; subst k2.
  - destruct add.
    + apply (one_arith Z.add k (Reg p) d s (low k (regs s p))); done.
    + apply (one_arith Z.sub k (Reg p) d s (low k (regs s p))); done.
  - unfold emit_addsub. simpl oval.
    assert (forall w, (if add then w + low k n else w - low k n) = (if add then w + low k n else w - low k n)) as _ by done.
    destruct (Z.eqb_spec n 0) as [->|N0].
    { exists s. simpl. split; [done|]. split; [|by split_and!].
      destruct add; [rewrite <- low_const_add, Z.add_0_r|rewrite <- low_const_sub, Z.sub_0_r]; by rewrite low_low. }
    destruct (Z.eqb_spec n 1) as [->|N1].
    { destruct add; [rewrite <- low_const_add|rewrite <- low_const_sub];
        [by apply good_incdec|]. by apply (good_incdec k d s (-1)). }
    destruct (Z.eqb_spec n (-1)) as [->|N2].
    { destruct add; [rewrite <- low_const_add|rewrite <- low_const_sub];
        [by apply (good_incdec k d s (-1))|]. by apply (good_incdec k d s 1). }
    destruct add.
    + apply (one_arith Z.add k (Imm n) d s (low k n)); try done. simpl. by rewrite is_im32_ok.
    + apply (one_arith Z.sub k (Imm n) d s (low k n)); try done. simpl. by rewrite is_im32_ok.
Qed.

(** Shifts. *)
Lemma low_setr k d v s : low k (regs (setr k d v s) d) = low k v.
Proof. simpl. by rewrite upd_same, low_wr. Qed.
Lemma setr_other k d v s r : r <> d -> regs (setr k d v s) r = regs s r.
Proof. intros H. simpl. by rewrite upd_other. Qed.
Lemma land_bits_pow uns k x y : 0 <= y -> low k (low k x * 2 ^ y) = (number uns (bits k) (low k x) * 2 ^ y) mod 2 ^ bits k.
Proof.
  intros Hy. destruct (number_cong uns k x) as [q ->].
  replace ((low k x + q * 2 ^ bits k) * 2 ^ y) with (low k x * 2 ^ y + (q * 2 ^ y) * 2 ^ bits k) by lia.
  rewrite Z.mod_add; [done|]. pose proof (pow_bits_pos k). lia.
Qed.
Definition shift_of (o : bop) (uns : bool) : nat -> option Z -> nat -> inst :=
  match o with Shl => IShl | _ => if uns then IShr else ISar end.
Lemma shift_ok o uns k d o2 s z c : o = Shl \/ o = Shr -> (k < 4)%nat -> (osize o2 < 4)%nat ->
  emit_shift (shift_of o uns) k d o2 = Some c ->
  bop_val o uns (bits k) (low k (regs s d)) (oval s o2) = Some z ->
  good s c k d (occupied o o2) z.
Proof.
  intros Ho Hk Hk2 He Hz.
  assert (oval s o2 < bits k) as Hlt.
  { destruct Ho as [-> | ->]; simpl in Hz; destruct (oval s o2 <? bits k) eqn:E; try done; by apply Z.ltb_lt. }
  assert (forall sh s0 cnt, low k (regs s0 d) = low k (regs s d) -> sh = oval s o2 -> shcount k cnt s0 = sh ->
    exists s1, run 0 [shift_of o uns k cnt d] s0 = Some (false, s1) /\ low k (regs s1 d) = z /\ only s0 s1 d []) as Hgo.
  { intros sh s0 cnt E0 -> Ec.
    assert (0 <= oval s o2) as H0 by (destruct o2; apply low_range).
    destruct Ho as [-> | ->]; simpl in Hz; rewrite (proj2 (Z.ltb_lt _ _) Hlt) in Hz; injection Hz as <-.
    - simpl. rewrite Ec. eexists. split; [done|]. split.
      + simpl. rewrite upd_same, low_wr. unfold getr. rewrite E0. by apply land_bits_pow.
      + split_and!; [|done|done]. intros r Hr _. simpl. by rewrite upd_other.
    - destruct uns; simpl; rewrite Ec; (eexists; split; [done|]; split;
        [|split_and!; [intros r Hr _; simpl; by rewrite upd_other|done|done]]).
      + simpl. rewrite upd_same, low_wr. unfold getr. rewrite E0. done.
      + simpl. rewrite upd_same, low_wr. rewrite sgn_signed, E0. done. }
  destruct o2 as [k2 p|k2 n]; unfold emit_shift in He.
  - destruct (Nat.eqb p CREG || Nat.eqb d CREG) eqn:E; [done|]. injection He as <-.
    apply orb_false_elim in E as [E1 E2]. apply Nat.eqb_neq in E1, E2.
    set (s0 := setr 0 CREG (getr 0 p s) s).
    destruct (Hgo (oval s (OReg k2 p)) s0 None) as (s1 & H1 & H2 & H3).
    + simpl. rewrite upd_other by done. done.
    + done.
    + unfold shcount. unfold getr at 1. unfold s0. rewrite low_setr. unfold getr. rewrite low_low.
      unfold low at 1. change (2 ^ bits 0) with 256. rewrite (count_ok k k2) by done. done.
    + exists s1. split; [|split; [done|]].
      * change (run 0 ([IMov 0 (Reg p) CREG] ++ [shift_of o uns k None d]) s = Some (false, s1)).
        rewrite (run_app _ _ _ s s0); [done|done].
      * destruct H3 as (H3 & H4 & H5). split_and!; [|by rewrite H4|by rewrite H5].
        intros r Hr Hl. rewrite H3; [|done|set_solver]. unfold s0. simpl. apply upd_other.
        intros ->. apply Hl. destruct Ho as [-> | ->]; simpl; set_solver.
  - injection He as <-.
    destruct (Hgo (oval s (OCon k2 n)) s (Some (Z.land n 255))) as (s1 & H1 & H2 & H3); [done|done| |].
    + unfold shcount. rewrite land255. by apply count_ok.
    + exists s1. split; [done|]. split; [done|]. destruct Ho as [-> | ->]; exact H3.
Qed.

(** Multiplication and division. *)
Lemma regs_setr k d v s r : regs (setr k d v s) r = if Nat.eqb r d then wr k (regs s d) v else regs s r.
Proof. done. Qed.
Lemma set_wide_only k hi lo s r : r <> AREG -> r <> DREG -> regs (set_wide k hi lo s) r = regs s r.
Proof.
  intros H1 H2. unfold set_wide. destruct k; [by apply setr_other|]. rewrite setr_other by done. by apply setr_other.
Qed.
Lemma set_wide_lo k hi lo s : low k (regs (set_wide k hi lo s) AREG) = low k lo.
Proof.
  unfold set_wide. destruct k.
  - simpl. rewrite upd_same.
    assert (forall old v, low 0 (old - low 1 old + low 1 v) = low 0 v) as Hx.
    { intros old v. unfold low. change (2 ^ bits 0) with 256. change (2 ^ bits 1) with 65536.
      rewrite (Z.mod_eq old 65536), (Z.mod_eq v 65536) by lia.
      replace (old - (old - 65536 * (old / 65536)) + (v - 65536 * (v / 65536)))
        with (v + (256 * (old / 65536) - 256 * (v / 65536)) * 256) by lia. apply Z.mod_add. lia. }
    rewrite Hx. replace (low 0 lo + 2 ^ 8 * low 0 hi) with (low 0 lo + low 0 hi * 2 ^ bits 0) by (change (bits 0) with 8; lia).
    unfold low at 1. rewrite Z.mod_add by (vm_compute; discriminate). apply low_low.
  - rewrite setr_other by done. apply low_setr.
Qed.
Lemma set_wide_hi k hi lo s : (1 <= k)%nat -> low k (regs (set_wide k hi lo s) DREG) = low k hi.
Proof. intros H. unfold set_wide. destruct k; [lia|]. apply low_setr. Qed.
Lemma set_wide_frame k hi lo s : fregs (set_wide k hi lo s) = fregs s /\ stk (set_wide k hi lo s) = stk s.
Proof. unfold set_wide. by destruct k. Qed.

(** The middle of the code leaves the result in [q], which is then moved to [d]. *)
Lemma finish_ok k d q s c s1 z : d ∉ [DREG; AREG] -> q = AREG \/ q = DREG ->
  run 0 c s = Some (false, s1) -> low k (regs s1 q) = z ->
  (forall r, r <> AREG -> r <> DREG -> regs s1 r = regs s r) -> fregs s1 = fregs s -> stk s1 = stk s ->
  good s (c ++ (if Nat.eqb d q then [] else [IMov k (Reg q) d])) k d [DREG; AREG] z.
Proof.
  intros Hd Hq Hr Hz Hf H1 H2.
  assert (d <> q) as Hne by (destruct Hq as [-> | ->]; set_solver).
  rewrite (proj2 (Nat.eqb_neq d q) Hne).
  exists (setr k d (getr k q s1) s1). rewrite (run_app _ _ _ _ _ Hr). split; [done|]. split.
  - rewrite low_setr. unfold getr. by rewrite low_low.
  - split_and!; [|done|done]. intros r Hr1 Hr2. rewrite setr_other by done. apply Hf; set_solver.
Qed.

Lemma mul_ok uns k d p s z c : (k < 4)%nat -> d ∉ [DREG; AREG] -> p ∉ [DREG; AREG] ->
  emit_bop Mul uns k d (OReg k p) = Some c ->
  bop_val Mul uns (bits k) (low k (regs s d)) (low k (regs s p)) = Some z -> good s c k d [DREG; AREG] z.
Proof.
  intros Hk Hd Hp He Hz. simpl in He, Hz.
  assert (p <> AREG) as Hpa by set_solver. assert (d <> AREG) as Hda by set_solver.
  rewrite (proj2 (Nat.eqb_neq p AREG) Hpa) in He. injection He as <-. injection Hz as <-.
  unfold mov_unless. rewrite (proj2 (Nat.eqb_neq d AREG) Hda).
  set (s0 := setr k AREG (getr k d s) s).
  set (v := getr k AREG s0 * getr k p s0).
  pose proof (finish_ok k d AREG s ([IMov k (Reg d) AREG] ++ [IMul k p]) (unk (set_wide k (v / 2 ^ bits k) v s0))
    ((number uns (bits k) (low k (regs s d)) * number uns (bits k) (low k (regs s p))) mod 2 ^ bits k)) as HF.
 rewrite (proj2 (Nat.eqb_neq d AREG) Hda) in HF.
  apply HF; clear HF; try done.
  - by left.
  - simpl regs. rewrite set_wide_lo. unfold v, getr.
    rewrite <- low_mul_mod. f_equal. f_equal.
    + unfold s0. rewrite low_setr. unfold getr. apply low_low.
    + unfold s0. rewrite setr_other by done. done.
  - intros r H1 H2. simpl regs. rewrite set_wide_only by done. unfold s0. by apply setr_other.
  - simpl. rewrite (proj1 (set_wide_frame _ _ _ _)). done.
  - simpl. rewrite (proj2 (set_wide_frame _ _ _ _)). done.
Qed.

Lemma div_uns_ok k p s s0 x y : (k = 2 \/ k = 3)%nat -> p <> AREG -> p <> DREG ->
  low k (regs s0 AREG) = x -> low k (regs s0 p) = y -> y <> 0 ->
  (forall r, r <> AREG -> regs s0 r = regs s r) -> fregs s0 = fregs s -> stk s0 = stk s ->
  exists c s1, emit_divide true k p = Some c /\ run 0 c s0 = Some (false, s1) /\
  low k (regs s1 AREG) = low k (x / y) /\ low k (regs s1 DREG) = low k (x mod y) /\
  (forall r, r <> AREG -> r <> DREG -> regs s1 r = regs s r) /\ fregs s1 = fregs s /\ stk s1 = stk s.
Proof.
  intros Hk Hpa Hpd Hx Hy Hy0 Hf Hf1 Hf2.
  pose proof (low_range k (regs s0 AREG)) as Rx. rewrite Hx in Rx.
  pose proof (low_range k (regs s0 p)) as Ry. rewrite Hy in Ry.
  assert (emit_divide true k p = Some [IXor 2 (Reg DREG) DREG; IDiv k p]) as -> by (destruct Hk as [-> | ->]; done).
  set (s00 := unk (setr 2 DREG 0 s0)).
  assert (getr k DREG s00 = 0) as ED.
  { unfold getr, s00. simpl regs. rewrite upd_same. change (low 2 0) with 0. destruct Hk as [-> | ->]; done. }
  assert (get_wide k s00 = x) as EW.
  { unfold get_wide. destruct Hk as [-> | ->]; rewrite ED; unfold getr, s00; simpl regs; rewrite upd_other by done; rewrite Hx; lia. }
  assert (getr k p s00 = y) as EY.
  { unfold getr, s00. simpl regs. rewrite upd_other by done. done. }
  exists [IXor 2 (Reg DREG) DREG; IDiv k p], (unk (set_wide k (x mod y) (x / y) s00)).
  split; [done|]. split.
  { change (run 0 [IXor 2 (Reg DREG) DREG; IDiv k p] s0) with
      (s1 ← step (IXor 2 (Reg DREG) DREG) s0; s2 ← step (IDiv k p) s1; Some (false, s2)).
    assert (step (IXor 2 (Reg DREG) DREG) s0 = Some s00) as ->.
    { cbn [step]. unfold arith. cbn [gets mbind option_bind]. rewrite Z.lxor_nilpotent. done. }
    cbn [mbind option_bind step]. rewrite EW, EY.
    rewrite (proj2 (Z.eqb_neq y 0) Hy0).
    assert (x / y <= x) by (apply Z.div_le_upper_bound; nia).
    rewrite (proj2 (Z.leb_gt (2 ^ bits k) (x / y))) by lia. done. }
  split_and!.
  - simpl regs. apply set_wide_lo.
  - simpl regs. apply set_wide_hi. lia.
  - intros r H1 H2. simpl regs. rewrite set_wide_only by done. unfold s00. simpl regs. rewrite upd_other by done. by apply Hf.
  - simpl. rewrite (proj1 (set_wide_frame _ _ _ _)). done.
  - simpl. rewrite (proj2 (set_wide_frame _ _ _ _)). done.
Qed.

Lemma div_sgn_ok k p s s0 x y : (k = 2 \/ k = 3)%nat -> p <> AREG -> p <> DREG ->
  sgn k (regs s0 AREG) = x -> sgn k (regs s0 p) = y -> y <> 0 ->
  - 2 ^ (bits k - 1) <= Z.quot x y < 2 ^ (bits k - 1) ->
  (forall r, r <> AREG -> regs s0 r = regs s r) -> fregs s0 = fregs s -> stk s0 = stk s ->
  exists c s1, emit_divide false k p = Some c /\ run 0 c s0 = Some (false, s1) /\
  low k (regs s1 AREG) = low k (Z.quot x y) /\ low k (regs s1 DREG) = low k (Z.rem x y) /\
  (forall r, r <> AREG -> r <> DREG -> regs s1 r = regs s r) /\ fregs s1 = fregs s /\ stk s1 = stk s.
Proof.
  intros Hk Hpa Hpd Hx Hy Hy0 Hq Hf Hf1 Hf2.
  set (ext := if Nat.eqb k 2 then ICltd else ICqto).
  assert (emit_divide false k p = Some [ext; IIdiv k p]) as -> by (destruct Hk as [-> | ->]; done).
  set (s00 := setr k DREG (if sgn k (regs s0 AREG) <? 0 then -1 else 0) s0).
  assert (forall l, run 0 (ext :: l) s0 = run 0 l s00) as Hext by (intros l; destruct Hk as [-> | ->]; done).
  assert (sgn (S k) (get_wide k s00) = x) as EW.
  { unfold get_wide. destruct k as [|k']; [lia|]. unfold getr.
    assert (low (S k') (regs s00 AREG) = low (S k') (regs s0 AREG)) as -> by (unfold s00; by rewrite setr_other).
    assert (low (S k') (regs s00 DREG) = low (S k') (if sgn (S k') (regs s0 AREG) <? 0 then -1 else 0)) as ->
      by (unfold s00; by rewrite low_setr).
    rewrite wide_signed by done. exact Hx. }
  assert (sgn k (regs s00 p) = y) as EY by (unfold s00; rewrite setr_other by done; done).
  exists [ext; IIdiv k p], (unk (set_wide k (Z.rem x y) (Z.quot x y) s00)).
  split; [done|]. split.
  { rewrite Hext. change (run 0 [IIdiv k p] s00) with (s2 ← step (IIdiv k p) s00; Some (false, s2)).
    cbn [step]. rewrite EW, EY. rewrite (proj2 (Z.eqb_neq y 0) Hy0).
    rewrite (proj2 (Z.ltb_ge (Z.quot x y) (- 2 ^ (bits k - 1)))) by lia.
    rewrite (proj2 (Z.leb_gt (2 ^ (bits k - 1)) (Z.quot x y))) by lia. done. }
  split_and!.
  - simpl regs. apply set_wide_lo.
  - simpl regs. apply set_wide_hi. lia.
  - intros r H1 H2. simpl regs. rewrite set_wide_only by done. unfold s00. rewrite setr_other by done. by apply Hf.
  - simpl. rewrite (proj1 (set_wide_frame _ _ _ _)). done.
  - simpl. rewrite (proj2 (set_wide_frame _ _ _ _)). done.
Qed.

Lemma divide_ok uns k d p s x y : (k = 2 \/ k = 3)%nat -> d ∉ [DREG; AREG] -> p ∉ [DREG; AREG] ->
  number uns (bits k) (low k (regs s d)) = x -> number uns (bits k) (low k (regs s p)) = y ->
  (y =? 0) || negb (in_range uns (bits k) (Z.quot x y)) = false ->
  exists c s1, emit_divide uns k p = Some c /\
  run 0 ([IMov k (Reg d) AREG] ++ c) s = Some (false, s1) /\
  low k (regs s1 AREG) = low k (Z.quot x y) /\ low k (regs s1 DREG) = low k (Z.rem x y) /\
  (forall r, r <> AREG -> r <> DREG -> regs s1 r = regs s r) /\ fregs s1 = fregs s /\ stk s1 = stk s.
Proof.
  intros Hk Hd Hp Hx Hy [H0 Hq]%orb_false_elim. apply Z.eqb_neq in H0. apply negb_false_iff in Hq.
  assert (p <> AREG) as Hpa by set_solver. assert (p <> DREG) as Hpd by set_solver.
  set (s0 := setr k AREG (getr k d s) s).
  assert (low k (regs s0 AREG) = low k (regs s d)) as EA.
  { unfold s0. rewrite low_setr. unfold getr. apply low_low. }
  assert (forall c s1, run 0 c s0 = Some (false, s1) -> run 0 ([IMov k (Reg d) AREG] ++ c) s = Some (false, s1)) as Happ by done.
  assert (forall r, r <> AREG -> regs s0 r = regs s r) as Hf by (intros r H; unfold s0; by apply setr_other).
  destruct uns; simpl in Hx, Hy, Hq.
  - apply andb_prop in Hq as [Hq1 Hq2].
    pose proof (low_range k (regs s d)) as R1. pose proof (low_range k (regs s p)) as R2.
    destruct (div_uns_ok k p s s0 x y Hk Hpa Hpd) as (c & s1 & H1 & H2 & H3 & H4 & H5); try done.
    { by rewrite EA. } { by rewrite Hf. }
    exists c, s1. split; [done|]. split; [by apply Happ|].
    rewrite Z.quot_div_nonneg, Z.rem_mod_nonneg by lia. done.
  - apply andb_prop in Hq as [Hq1 Hq2]. apply Z.leb_le in Hq1. apply Z.ltb_lt in Hq2.
    destruct (div_sgn_ok k p s s0 x y Hk Hpa Hpd) as (c & s1 & H1 & H2 & H3 & H4 & H5); try done.
    { by rewrite sgn_signed, EA. } { by rewrite sgn_signed, Hf. }
    exists c, s1. split; [done|]. split; [by apply Happ|]. done.
Qed.

Lemma div_ok o uns k d p s z c : o = Div \/ o = Mod -> (2 <= k)%nat -> (k < 4)%nat -> d ∉ [DREG; AREG] -> p ∉ [DREG; AREG] ->
  emit_bop o uns k d (OReg k p) = Some c ->
  bop_val o uns (bits k) (low k (regs s d)) (low k (regs s p)) = Some z -> good s c k d [DREG; AREG] z.
Proof.
  intros Ho Hk1 Hk2 Hd Hp He Hz.
  assert (k = 2 \/ k = 3)%nat as Hk by lia.
  set (x := number uns (bits k) (low k (regs s d))). set (y := number uns (bits k) (low k (regs s p))).
  assert ((y =? 0) || negb (in_range uns (bits k) (Z.quot x y)) = false) as Hc.
  { destruct Ho as [-> | ->]; simpl in Hz; fold x y in Hz; by destruct ((y =? 0) || negb (in_range uns (bits k) (Z.quot x y))). }
  destruct (divide_ok uns k d p s x y Hk Hd Hp eq_refl eq_refl Hc) as (c' & s1 & H1 & H2 & H3 & H4 & H5 & H6 & H7).
  assert (p <> AREG) as Hpa by set_solver. assert (d <> AREG) as Hda by set_solver. assert (d <> DREG) as Hdd by set_solver.
  assert (Nat.eqb k 0 = false) as K0 by (apply Nat.eqb_neq; lia). assert (Nat.eqb k 1 = false) as K1 by (apply Nat.eqb_neq; lia).
  destruct Ho as [-> | ->]; simpl in He, Hz; fold x y in Hz; rewrite Hc in Hz; injection Hz as <-;
    rewrite (proj2 (Nat.eqb_neq p AREG) Hpa) in He; rewrite ?K0, ?K1 in He; rewrite H1 in He; simpl in He; injection He as <-;
    unfold mov_unless; rewrite (proj2 (Nat.eqb_neq d AREG) Hda).
  - pose proof (finish_ok k d AREG s ([IMov k (Reg d) AREG] ++ c') s1 (low k (Z.quot x y)) Hd (or_introl eq_refl) H2 H3 H5 H6 H7) as HF.
   rewrite (proj2 (Nat.eqb_neq d AREG) Hda) in HF.
    rewrite <- app_assoc in HF. exact HF.
  - pose proof (finish_ok k d DREG s ([IMov k (Reg d) AREG] ++ c') s1 (low k (Z.rem x y)) Hd (or_intror eq_refl) H2 H4 H5 H6 H7) as HF.
    rewrite <- app_assoc in HF. exact HF.
Qed.

(** All of them. *)
Lemma bop_ok o uns k d o2 s z c : (k < 4)%nat -> (osize o2 < 4)%nat -> (o <> Shl -> o <> Shr -> osize o2 = k) ->
  (o = Div \/ o = Mod -> (2 <= k)%nat) -> osmall o2 -> d ∉ occupied o o2 -> in_free o2 (occupied o o2) ->
  emit_bop o uns k d o2 = Some c ->
  bop_val o uns (bits k) (low k (regs s d)) (oval s o2) = Some z -> good s c k d (occupied o o2) z.
Proof.
  intros Hk Hk2 Hs Hdiv Hsm Hd Hf He Hz. destruct o.
  - injection He as <-. by apply (addsub_ok true uns); [apply Hs| |].
  - injection He as <-. by apply (addsub_ok false uns); [apply Hs| |].
  - destruct o2 as [k2 p|]; [|done]. simpl in Hs. rewrite Hs in * by done. by apply (mul_ok uns k d p).
  - destruct o2 as [k2 p|]; [|done]. simpl in Hs. rewrite Hs in * by done. apply (div_ok Div uns k d p); auto.
  - destruct o2 as [k2 p|]; [|done]. simpl in Hs. rewrite Hs in * by done. apply (div_ok Mod uns k d p); auto.
  - injection He as <-. apply (one_arith Z.land k (osrc o2) d s (oval s o2)); try done; [apply gets_ok; auto|]. by injection Hz as <-.
  - injection He as <-. apply (one_arith Z.lor k (osrc o2) d s (oval s o2)); try done; [apply gets_ok; auto|]. by injection Hz as <-.
  - injection He as <-. apply (one_arith Z.lxor k (osrc o2) d s (oval s o2)); try done; [apply gets_ok; auto|]. by injection Hz as <-.
  - apply (shift_ok Shl uns); auto.
  - apply (shift_ok Shr uns); auto.
Qed.
