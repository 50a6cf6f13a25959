From stdpp Require Import base list numbers.
From Verif Require Import Util.Wrap_model Front.Fold_model Back.Ir_model Back.Ir_spec Back.Opt_model Back.Opt_spec Back.Switch_proof Back.Cond_proof Back.Opt_proof Back.Opt_fold_proof.
Open Scope Z_scope.

Lemma fits_int64 v z : vsizes v -> Is_true (fits (size_of v) false z) -> int64 z.
Proof.
  intros Hv H. apply bool_decide_unpack in H.
  pose proof (view_range (size_of v) false z (size_pos v Hv)) as Hr. cbv iota in Hr. pose proof (pow_le v Hv). unfold int64. lia.
Qed.
Lemma signed_defined k v bv a b : vsizes v -> vsizes bv -> canon v false (OConst a) ->
  (if is_shift k then exists cu, canon bv cu (OConst b) else canon v false (OConst b)) ->
  is_Some (ir_op k v bv false a b) -> no_overflow k v bv a b -> exists w, fold_bop k a b false = Ok w.
Proof.
  intros Hv Hb Ha Hc [e He] Hn. pose proof (canon_s v a Hv Ha) as Ea.
  destruct k; cbn [is_shift] in Hc; cbn [fold_bop ir_op no_overflow] in *.
  1,2,3: pose proof (canon_s v b Hv Hc) as Eb; rewrite Ea, Eb in Hn; eexists; apply fix_ok_ok; by apply (fits_int64 v).
  - pose proof (canon_s v b Hv Hc) as Eb. rewrite Ea, Eb in He. case_bool_decide as H0; [done|].
    destruct (fits _ _ _) eqn:Ef; [|done]. unfold div_s. rewrite (proj2 (Z.eqb_neq b 0) H0).
    eexists. apply fix_ok_ok. apply (fits_int64 v); [done|]. by rewrite Ef.
  - pose proof (canon_s v b Hv Hc) as Eb. rewrite Ea, Eb in He. case_bool_decide as H0; [done|].
    destruct (fits _ _ _) eqn:Ef; [|done]. unfold mod_s. rewrite (proj2 (Z.eqb_neq b 0) H0).
    eexists. rewrite fix_ok_ok; [done|]. apply (fits_int64 v); [done|]. by rewrite Ef.
  - by eexists.
  - by eexists.
  - by eexists.
  - case_bool_decide as H0; [|done]. destruct Hc as [cu Hc]. destruct Hn as [H1 H2].
    destruct (count_eq v bv cu b Hv Hb Hc H0) as (E & _ & Hk). rewrite Ea in H1, H2. rewrite <- E in H2.
    unfold shl_s. rewrite Hk. rewrite (proj2 (Z.leb_le 0 a) H1). cbn [andb]. eexists. apply fix_ok_ok. by apply (fits_int64 v).
  - case_bool_decide as H0; [|done]. destruct Hc as [cu Hc].
    destruct (count_eq v bv cu b Hv Hb Hc H0) as (E & _ & Hk). unfold shr_s. rewrite Hk. by eexists.
Qed.
Lemma unsigned_defined k v bv a b : vsizes v -> vsizes bv ->
  (if is_shift k then exists cu, canon bv cu (OConst b) else canon v true (OConst b)) ->
  is_Some (ir_op k v bv true a b) -> exists w, calc_const_expr k a b true = Ok w.
Proof.
  intros Hv Hb Hc [e He]. destruct k; cbn [is_shift] in Hc; cbn [calc_const_expr ir_op] in *; try (by eexists).
  - unfold div_u. rewrite (canon_u v b) by done. case_bool_decide as H0; [done|]. rewrite (proj2 (Z.eqb_neq _ 0) H0). by eexists.
  - unfold mod_u. rewrite (canon_u v b) by done. case_bool_decide as H0; [done|]. rewrite (proj2 (Z.eqb_neq _ 0) H0). by eexists.
  - case_bool_decide as H0; [|done]. destruct Hc as [cu Hc]. destruct (count_eq v bv cu b Hv Hb Hc H0) as (E & Hr & Hk).
    assert (Eu : ufix b = b) by (unfold ufix, to_unsigned; apply Z.mod_small; lia).
    unfold shl_u. rewrite Eu, Hk. by eexists.
  - case_bool_decide as H0; [|done]. destruct Hc as [cu Hc]. destruct (count_eq v bv cu b Hv Hb Hc H0) as (E & Hr & Hk).
    assert (Eu : ufix b = b) by (unfold ufix, to_unsigned; apply Z.mod_small; lia).
    unfold shr_u. rewrite Eu, Hk. by eexists.
Qed.
Lemma cond_defined k u a b : k <> CNever -> k <> CAlways -> exists r, calc_const_cond (cond_code k u false) a b = Ok r.
Proof.
  intros H1 H2. destruct k, u; try done; unfold calc_const_cond;
      repeat match goal with |- context [Z.eqb (cond_code ?k ?u ?f) ?c] =>
        let t := eval vm_compute in (Z.eqb (cond_code k u f) c) in change (Z.eqb (cond_code k u f) c) with t end;
      cbn [orb]; by eexists.
Qed.
Lemma swap_defined k u : exists c, swap (cond_code k u false) = Some c.
Proof. destruct k, u; by eexists. Qed.

Lemma folding_defined i : plain i -> defined i -> exists i', constant_folding i = Ok i'.
Proof.
  destruct i as [k d a b v bv u|k d a v u|c d a b v|d a dv sv u|d a v|c a b v t|an t]; cbn [plain defined constant_folding].
  - intros (Hv & Hb & Ha & Hc) Hd. destruct a as [ra|l]; [by eexists|]. destruct b as [rb|r]; [by eexists|].
    destruct (is_divmod k && (r =? 0)); [by eexists|]. destruct Hd as [Hi Hn].
    assert (exists w, calc_const_expr k l r u = Ok w) as [w ->].
    { destruct u; [by apply (unsigned_defined k v bv)|]. by apply (signed_defined k v bv); [..|apply Hn]. }
    by eexists.
  - intros [Hv Ha] Hd. destruct a as [ra|l]; [by eexists|].
    assert (exists w, calc_const_unary k l u = Ok w) as [w ->]; [|by eexists].
    destruct k, u; cbn; try (by eexists). specialize (Hd eq_refl). rewrite (canon_s v l Hv Ha) in Hd.
    eexists. apply fix_ok_ok. by apply (fits_int64 v).
  - intros (Hv & k & u & -> & H1 & H2) _. destruct a as [ra|l]; [destruct b; by eexists|]. destruct b as [rb|r].
    + destruct (swap_defined k u) as [c ->]. by eexists.
    + destruct (cond_defined k u l r H1 H2) as [w ->]. by eexists.
  - destruct a; by eexists.
  - by eexists.
  - intros (Hv & k & u & -> & H1 & H2) _. destruct a as [ra|l]; [destruct b; by eexists|]. destruct b as [rb|r].
    + destruct (swap_defined k u) as [c ->]. by eexists.
    + destruct (cond_defined k u l r H1 H2) as [w ->]. by eexists.
  - by eexists.
Qed.
Lemma bop_defined k a b v bv : vsizes v -> vsizes bv -> canon v false a ->
  (if is_shift k then exists cu, canon bv cu b else canon v false b) ->
  (forall l r, a = OConst l -> b = OConst r -> is_Some (ir_op k v bv false l r) /\ no_overflow k v bv l r) ->
  exists o, new_ir_bop k a b v false = Ok o.
Proof.
  intros Hv Hb Ha Hc Hd. destruct a as [ra|l], b as [rb|r]; cbn [new_ir_bop].
  - by eexists.
  - destruct (_ && _); [by eexists|].
    destruct k; cbn [neg new_ir_unary mbind res_bind]; repeat case_match; by eexists.
  - destruct k; cbn [neg new_ir_unary mbind res_bind]; repeat case_match; by eexists.
  - destruct (_ && _); [by eexists|]. destruct (Hd l r eq_refl eq_refl) as [H1 H2].
    destruct (signed_defined k v bv l r Hv Hb Ha Hc H1 H2) as [w ->]. by eexists.
Qed.

(** Two additions. *)
Lemma peephole_ok v sub c c' c'' a d regs : vsizes v -> peephole_add sub c c' = Ok c'' -> a <> d \/ c = 0 ->
  let regs' := set regs d (cut v (regs a + c)) in
  cut v (regs' d + (if sub : bool then - c' else c')) = cut v (regs' a + c'').
Proof.
  intros Hv Hp Hd. unfold set. rewrite decide_True by done. cbv zeta.
  assert (E : c'' = c + (if sub then - c' else c')).
  { unfold peephole_add in Hp. destruct sub.
    - destruct (fix_ok (- c')) eqn:E1; cbn [mbind res_bind] in Hp; [|done]. apply fix_ok_eq in E1 as [-> _]. apply fix_ok_eq in Hp as [-> _]. lia.
    - cbn [mbind res_bind] in Hp. apply fix_ok_eq in Hp as [-> _]. lia. }
  subst c''. rewrite Z.add_assoc. apply cut_add; [done| |done].
  rewrite cut_cut by done. case_decide as H; [|done]. destruct Hd as [?| ->]; [done|]. rewrite !Z.add_0_r. symmetry. by apply cut_cut.
Qed.

(** Constants that are not their own values. *)
Lemma same_size_wrong : exists i1 z i2 i2' e e',
  constant_folding i1 = Ok (Mov 0 (OConst z) 2) /\ i1 = Cast 0 (OConst (-1)) 2 2 false /\
  i2 = Bop IR_DIV 1 (OConst z) (OConst 2) 2 2 true /\ constant_folding i2 = Ok i2' /\
  (forall regs, exec regs i2 = Some e /\ exec regs i2' = Some e') /\ e <> e'.
Proof.
  exists (Cast 0 (OConst (-1)) 2 2 false), (-1), (Bop IR_DIV 1 (OConst (-1)) (OConst 2) 2 2 true), (Mov 1 (OConst 4294967295) 2),
    (ESet 1 2 2147483647), (ESet 1 2 4294967295).
  repeat (split; [by vm_compute|]). discriminate.
Qed.
Lemma narrowing_wrong : exists i1 z i2 i2' e e',
  constant_folding i1 = Ok (Mov 0 (OConst z) 2) /\ i1 = Cast 0 (OConst 4294967297) 2 3 false /\
  i2 = Cond (cond_code CEq false false) 1 (OConst z) (OConst 1) 2 /\ constant_folding i2 = Ok i2' /\
  (forall regs, exec regs i2 = Some e /\ exec regs i2' = Some e') /\ e <> e'.
Proof.
  exists (Cast 0 (OConst 4294967297) 2 3 false), 4294967297, (Cond (cond_code CEq false false) 1 (OConst 4294967297) (OConst 1) 2), (Mov 1 (OConst 0) 2),
    (ESet 1 2 1), (ESet 1 2 0).
  repeat (split; [by vm_compute|]). discriminate.
Qed.
Lemma overflow_wrong : exists a b v, vsizes v /\ canon v true a /\ canon v true b /\
  is_Some (ir_op IR_MUL v v true (val (fun _ => 0) a) (val (fun _ => 0) b)) /\ new_ir_bop IR_MUL a b v true = Undefined.
Proof.
  exists (OConst 4294967295), (OConst 4294967295), 2. split; [by vm_compute|]. split; [by vm_compute|]. split; [by vm_compute|].
  split; [by eexists|by vm_compute].
Qed.
Lemma peephole_wrong : exists v c c' c'' a d regs, vsizes v /\ peephole_add false c c' = Ok c'' /\
  let regs' := set regs d (cut v (regs a + c)) in cut v (regs' d + c') <> cut v (regs' a + c'').
Proof. exists 2, 1, 1, 2, 0%nat, 0%nat, (fun _ => 0). split; [by vm_compute|]. split; by vm_compute. Qed.
