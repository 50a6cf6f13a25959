(** From one operation to a block. *)
From stdpp Require Import base numbers list sets.
From Coq Require Import Lia.
From Verif Require Import Back.Isel_model Back.Isel_spec Back.Isel_proof Back.Isel_ops_proof Back.Isel_cmp_proof.
Open Scope Z_scope.

Lemma place_size ph a : osize (place ph a) = vsize a.
Proof. by destruct a. Qed.
Lemma place_val sz ph (L : nat -> Prop) e s a : sized sz a -> (forall v, v ∈ opr_vreg a -> L v) -> agree sz ph L e s ->
  oval s (place ph a) = vval e a.
Proof.
  intros Hs HL Ha. destruct a as [k v|k n]; [|done]. simpl in *. destruct Hs as [-> _]. apply Ha. apply HL. set_solver.
Qed.
Lemma place_small ph a : fits32 a -> osmall (place ph a).
Proof. by destruct a. Qed.
Lemma sized_lt sz a : sized sz a -> (vsize a < 4)%nat.
Proof. destruct a; simpl; [by intros [_ ?]|done]. Qed.

(** The destination gets the value, other registers stay. *)
Lemma good_agree sz ph i L e s c d z lost :
  good s c (sz d) (ph d) lost z -> dest i = Some d -> fits1 ph i L -> (forall r, r ∈ lost -> r ∈ scratch i) ->
  agree sz ph (fun v => v ∈ uses i \/ (L v /\ dest i <> Some v)) e s ->
  exists s', run 0 c s = Some (false, s') /\ agree sz ph L (assign e d z) s' /\ fregs s' = fregs s /\ stk s' = stk s.
Proof.
  intros (s' & H1 & H2 & H3 & H4 & H5) Hd (F1 & F2 & F3 & F4) Hl Ha. exists s'. split; [done|]. split; [|done].
  intros v Hv. unfold assign. destruct (Nat.eqb_spec v d) as [->|Hne].
  - unfold low in H2. rewrite H2. rewrite <- H2. symmetry. apply Z.mod_mod. pose proof (pow_bits_pos (sz d)). lia.
  - rewrite H3; [|by apply F1|intros Hr; by apply (F2 v Hv), Hl].
    apply Ha. right. split; [done|]. rewrite Hd. congruence.
Qed.

Lemma occupied_scratch ph o uns sz d a b r : r ∈ occupied o (place ph b) -> r ∈ scratch (VBop o uns sz d a b).
Proof. destruct o; simpl; try done; try set_solver; destruct b; simpl; set_solver. Qed.
Lemma scratch_occupied ph o uns sz d a b r : r ∉ scratch (VBop o uns sz d a b) -> r ∉ occupied o (place ph b).
Proof. intros H Hr. by eapply H, occupied_scratch. Qed.

Lemma emit_total sz ph i L : typed sz i -> prepared i -> fits1 ph i L -> exists c, emit ph i = Some c.
Proof.
  intros Ht Hp (F1 & F2 & F3 & F4). destruct i as [o uns k d a b|o k d a|uns k d a|k d a|uns c d a b|a|uns c a b]; simpl in *.
  - destruct Hp as (-> & _ & Hc). rewrite Nat.eqb_refl.
    assert (forall v kb, b = VReg kb v -> ph v ∉ scratch (VBop o uns k d (VReg k d) b)) as Hb by (intros v kb ->; apply F3; set_solver).
    specialize (F4 d eq_refl).
    destruct Ht as (_ & Hk & _ & _ & _ & _ & Hdiv).
    destruct o; simpl; try (by eexists).
    + destruct b as [kb v|]; [|by specialize (Hc (or_introl eq_refl))]. simpl. specialize (Hb v kb eq_refl). simpl in Hb.
      rewrite (proj2 (Nat.eqb_neq (ph v) AREG)) by set_solver. by eexists.
    + destruct b as [kb v|]; [|by specialize (Hc (or_intror (or_introl eq_refl)))]. simpl. specialize (Hb v kb eq_refl). simpl in Hb.
      rewrite (proj2 (Nat.eqb_neq (ph v) AREG)) by set_solver. specialize (Hdiv (or_introl eq_refl)).
      destruct k as [|[|[|[|k]]]]; try lia; destruct uns; by eexists.
    + destruct b as [kb v|]; [|by specialize (Hc (or_intror (or_intror eq_refl)))]. simpl. specialize (Hb v kb eq_refl). simpl in Hb.
      rewrite (proj2 (Nat.eqb_neq (ph v) AREG)) by set_solver. specialize (Hdiv (or_intror eq_refl)).
      destruct k as [|[|[|[|k]]]]; try lia; destruct uns; by eexists.
    + destruct b as [kb v|]; [|by eexists]. simpl. specialize (Hb v kb eq_refl). simpl in Hb, F4.
      rewrite (proj2 (Nat.eqb_neq (ph v) CREG)), (proj2 (Nat.eqb_neq (ph d) CREG)) by set_solver. by eexists.
    + destruct b as [kb v|]; [|by eexists]. simpl. specialize (Hb v kb eq_refl). simpl in Hb, F4.
      rewrite (proj2 (Nat.eqb_neq (ph v) CREG)), (proj2 (Nat.eqb_neq (ph d) CREG)) by set_solver. by eexists.
  - subst a. rewrite Nat.eqb_refl. by eexists.
  - destruct Ht as (_ & _ & _ & Hne & Hc). destruct a as [ka v|]; [|done]. simpl in *.
    rewrite (proj2 (Nat.eqb_neq k ka)) by congruence. case_match; by eexists.
  - by eexists.
  - destruct Ht as (_ & _ & _ & _ & Hc). destruct a as [ka v|]; [|done]. simpl. unfold emit_cond, cmp_int. simpl. destruct b; by eexists.
  - by eexists.
  - destruct Ht as (_ & _ & _ & Hc). destruct a as [ka v|]; [|done]. simpl. unfold emit_jmp, cmp_int. simpl. destruct b; by eexists.
Qed.

Lemma emit1_ok sz ph i L c e e' ob s : typed sz i -> prepared i -> dest i <> None -> fits1 ph i L ->
  emit ph i = Some c -> exec1 i e = Some (e', ob) ->
  agree sz ph (fun v => v ∈ uses i \/ (L v /\ dest i <> Some v)) e s ->
  exists s', run 0 c s = Some (false, s') /\ agree sz ph L e' s' /\ fregs s' = fregs s /\ stk s' = stk s.
Proof.
  intros Ht Hp Hd Hf He Hx Ha.
  assert (forall a, (forall v, v ∈ opr_vreg a -> v ∈ uses i) -> sized sz a -> oval s (place ph a) = vval e a) as Hval.
  { intros a Hin Hs. eapply place_val; [exact Hs| |exact Ha]. intros v Hv. left. by apply Hin. }
  destruct i as [o uns k d a b|o k d a|uns k d a|k d a|uns cd d a b|a|uns cd a b]; simpl dest in Hd; try done.
  - cbn [prepared] in Hp. destruct Hp as (-> & Hsm & Hc).
    destruct Ht as (Hk & Hk4 & Hsa & Hsb & _ & Hsh & Hdiv).
    cbn [exec1] in Hx. destruct (bop_val o uns (bits k) (vval e (VReg k d)) (vval e b)) as [z|] eqn:Ez; [|done]. cbn [exec1] in Hx. apply Some_inj in Hx. apply (f_equal fst) in Hx. cbn [fst] in Hx. subst e'.
    cbn [emit] in He. rewrite Nat.eqb_refl in He.
    rewrite <- (Hval (VReg k d)), <- (Hval b) in Ez; try done; try (intros ? ?; cbn [uses]; rewrite ?elem_of_app; by auto).
    pose proof Hf as (F1 & F2 & F3 & F4).
    eapply (good_agree sz ph (VBop o uns k d (VReg k d) b) L e s c d z (occupied o (place ph b))); try done.
    + rewrite <- Hk. eapply (bop_ok o uns k (ph d) (place ph b)); try done.
      * rewrite place_size. by eapply sized_lt.
      * rewrite place_size. done.
      * by apply place_small.
      * eapply scratch_occupied. by apply F4.
      * destruct b as [kb v|]; [|done]. unfold in_free. simpl place. eapply (scratch_occupied ph o uns k d (VReg k d) (VReg kb v)). apply F3. cbn [uses opr_vreg]. rewrite elem_of_app. right. by left.
    + intros r. apply occupied_scratch.
  - cbn [prepared] in Hp. subst a. destruct Ht as (Hk & Hk4 & Hsa & _). cbn [exec1] in Hx. apply Some_inj in Hx. apply (f_equal fst) in Hx. cbn [fst] in Hx. subst e'.
    cbn [emit] in He. rewrite Nat.eqb_refl in He. injection He as <-.
    rewrite <- (Hval (VReg k d)); try done; try (intros ? ?; cbn [uses]; rewrite ?elem_of_app; by auto).
    eapply (good_agree sz ph (VUop o k d (VReg k d)) L e s _ d _ []); try done.
    rewrite <- Hk. apply uop_ok.
  - destruct Ht as (Hk & Hk4 & Hsa & Hne & Hc). destruct a as [ka v|]; [|done]. cbn [exec1] in Hx. apply Some_inj in Hx. apply (f_equal fst) in Hx. cbn [fst] in Hx. subst e'.
    cbn [emit place] in He. cbn [vsize].
    rewrite <- (Hval (VReg ka v)); try done; try (intros ? ?; cbn [uses]; rewrite ?elem_of_app; by auto).
    eapply (good_agree sz ph (VCast uns k d (VReg ka v)) L e s _ d _ []); try done.
    rewrite <- Hk. apply cast_ok; try done. by apply (sized_lt sz (VReg ka v)).
  - destruct Ht as (Hk & Hk4 & Hsa & Hs). cbn [exec1] in Hx. apply Some_inj in Hx. apply (f_equal fst) in Hx. cbn [fst] in Hx. subst e'. cbn [emit] in He. injection He as <-.
    rewrite <- (Hval a); try done; try (intros ? ?; cbn [uses]; rewrite ?elem_of_app; by auto).
    eapply (good_agree sz ph (VMov k d a) L e s _ d _ []); try done.
    rewrite <- Hk, <- Hs, <- (place_size ph a). apply mov_ok.
  - destruct Ht as (Hd2 & Hsa & Hsb & Hs & Hc). destruct Hp as [_ Hsm]. destruct a as [ka v|]; [|done].
    cbn [exec1] in Hx. apply Some_inj in Hx. apply (f_equal fst) in Hx. cbn [fst] in Hx. subst e'. cbn [emit place] in He. cbn [vsize] in *.
    rewrite <- (Hval (VReg ka v)), <- (Hval b); try done; try (intros ? ?; cbn [uses]; rewrite ?elem_of_app; by auto).
    eapply (good_agree sz ph (VCond uns cd d (VReg ka v) b) L e s _ d _ []); try done.
    rewrite Hd2. apply cond_ok; try done; [by apply (sized_lt sz (VReg ka v))|by rewrite place_size|by apply place_small].
Qed.

Lemma fits_cons ph i l L : fits ph (i :: l) L <-> fits1 ph i (live_before l L) /\ fits ph l L.
Proof. done. Qed.

Lemma block_ok sz ph l L : forall e e' ob s, Forall (typed sz) l -> Forall prepared l -> straight l -> fits ph l L ->
  exec l e = Some (e', ob) -> agree sz ph (live_before l L) e s ->
  exists c s', emit_list ph l = Some c /\ run 0 c s = Some (false, s') /\ agree sz ph L e' s' /\
  fregs s' = fregs s /\ stk s' = stk s.
Proof.
  induction l as [|i l IH]; intros e e' ob s Ht Hp Hs Hf Hx Ha.
  - cbn [exec1] in Hx. apply Some_inj in Hx. apply (f_equal fst) in Hx. cbn [fst] in Hx. subst e'. exists [], s. done.
  - apply Forall_cons in Ht as [Ht1 Ht2]. apply Forall_cons in Hp as [Hp1 Hp2]. apply Forall_cons in Hs as [Hs1 Hs2].
    apply fits_cons in Hf as [Hf1 Hf2].
    cbn [exec] in Hx. destruct (exec1 i e) as [[e1 o1]|] eqn:E1; [|done]. cbn [mbind option_bind fst snd] in Hx.
    destruct (exec l e1) as [[e2 o2]|] eqn:E2; [|done]. cbn [mbind option_bind fst snd] in Hx. injection Hx as -> _.
    destruct (emit_total sz ph i _ Ht1 Hp1 Hf1) as [c1 Hc1].
    destruct (emit1_ok sz ph i _ c1 e e1 o1 s Ht1 Hp1 Hs1 Hf1 Hc1 E1 Ha) as (s1 & R1 & A1 & B1 & C1).
    destruct (IH e1 e' o2 s1 Ht2 Hp2 Hs2 Hf2 E2 A1) as (c2 & s2 & D2 & R2 & A2 & B2 & C2).
    exists (c1 ++ c2), s2. split; [cbn [emit_list]; rewrite Hc1; cbn [mbind option_bind]; by rewrite D2|].
    split; [by rewrite (run_app _ _ _ _ _ R1)|]. split; [done|]. split; congruence.
Qed.

Lemma result_ok sz ph a e s : sized sz a -> agree sz ph (fun v => v ∈ opr_vreg a) e s ->
  exists s', run 0 (emit_result (place ph a)) s = Some (false, s') /\ regs s' AREG mod 2 ^ bits (vsize a) = vval e a.
Proof.
  intros Hs Ha. destruct (mov_ok (place ph a) AREG s) as (s' & H1 & H2 & _). exists s'. split; [exact H1|].
  rewrite place_size in H2. rewrite (place_val sz ph (fun v => v ∈ opr_vreg a) e s a Hs (fun v Hv => Hv) Ha) in H2. exact H2.
Qed.
Lemma vjmp_ok sz ph uns c a b e s : typed sz (VJmp uns c a b) -> fits32 b ->
  agree sz ph (fun v => v ∈ opr_vreg a ++ opr_vreg b) e s ->
  exists cd s', emit ph (VJmp uns c a b) = Some cd /\
  run 0 cd s = Some (holds c (number uns (bits (vsize a)) (vval e a)) (number uns (bits (vsize a)) (vval e b)), s') /\
  regs s' = regs s /\ fregs s' = fregs s /\ stk s' = stk s.
Proof.
  intros (Hsa & Hsb & Hs & Hc) Hsm Ha. destruct a as [ka v|]; [|done]. cbn [vsize] in *.
  destruct (jmp_ok uns c ka (ph v) (place ph b) s) as (cd & s' & H1 & H2 & H3).
  { by apply (sized_lt sz (VReg ka v)). } { by rewrite place_size. } { by apply place_small. }
  exists cd, s'. split; [exact H1|]. split; [|done].
  rewrite (place_val sz ph (fun v0 => v0 ∈ opr_vreg (VReg ka v) ++ opr_vreg b) e s b Hsb) in H2; [|set_solver|done].
  change (low ka (regs s (ph v))) with (oval s (place ph (VReg ka v))) in H2.
  rewrite (place_val sz ph (fun v0 => v0 ∈ opr_vreg (VReg ka v) ++ opr_vreg b) e s (VReg ka v) Hsa) in H2; [|set_solver|done].
  exact H2.
Qed.
