From stdpp Require Import base list numbers.
From Verif Require Import Util.Wrap_model Front.Fold_model Back.Ir_model Back.Ir_spec Back.Opt_model Back.Opt_spec Back.Switch_proof Back.Cond_proof Back.Opt_proof.
Open Scope Z_scope.

Lemma lnot_eq z : Z.lnot z = -1 - z.
Proof. unfold Z.lnot. lia. Qed.
Lemma unary_ok k z v u o : vsizes v -> new_ir_unary k (OConst z) v u = Ok o ->
  exists w, o = Some (OConst w) /\ cut v w = ir_una k v z.
Proof.
  intros Hv. cbn [new_ir_unary]. destruct k.
  - destruct (fix_ok (- z)) as [w|] eqn:E; cbn [mbind res_bind]; [|done]. apply fix_ok_eq in E as [-> _]. intros [= <-].
    eexists; split; [done|]. by apply cut_wrap.
  - cbn [mbind res_bind]. intros [= <-]. eexists; split; [done|]. rewrite cut_wrap by done. unfold ir_una. by rewrite lnot_eq.
Qed.

Lemma calc_ok k v bv u l r w e : good k v bv u (OConst l) (OConst r) -> calc_const_expr k l r u = Ok w ->
  ir_op k v bv u l r = Some e -> cut v w = e.
Proof.
  intros Hg Hf He. destruct u; [|by apply (fold_bop_ok k v bv false l r)].
  pose proof Hg as (Hv & Hb & Ha & Hd & Hs).
  destruct k; cbn [calc_const_expr] in Hf.
  4: by apply (fold_bop_ok IR_DIV v bv true l r).
  4: by apply (fold_bop_ok IR_MOD v bv true l r).
  all: cbn [ir_op] in He.
  - apply (f_equal (fun r => match r with Ok z => z | Undefined => 0 end)) in Hf. cbv beta iota in Hf. subst w. apply some_inj in He as <-.
    rewrite cut_sfix by done. apply cut_add; [done|by apply cut_ufix..].
  - apply (f_equal (fun r => match r with Ok z => z | Undefined => 0 end)) in Hf. cbv beta iota in Hf. subst w. apply some_inj in He as <-.
    rewrite cut_sfix by done. apply cut_sub; [done|by apply cut_ufix..].
  - apply (f_equal (fun r => match r with Ok z => z | Undefined => 0 end)) in Hf. cbv beta iota in Hf. subst w. apply some_inj in He as <-.
    rewrite cut_sfix by done. apply cut_mul; [done|by apply cut_ufix..].
  - apply (f_equal (fun r => match r with Ok z => z | Undefined => 0 end)) in Hf. cbv beta iota in Hf. subst w. apply some_inj in He as <-.
    rewrite cut_sfix by done. apply cut_mod64; [done|]. apply (bits_of_mod Z.land andb). intros; apply Z.land_spec.
  - apply (f_equal (fun r => match r with Ok z => z | Undefined => 0 end)) in Hf. cbv beta iota in Hf. subst w. apply some_inj in He as <-.
    rewrite cut_sfix by done. apply cut_mod64; [done|]. apply (bits_of_mod Z.lor orb). intros; apply Z.lor_spec.
  - apply (f_equal (fun r => match r with Ok z => z | Undefined => 0 end)) in Hf. cbv beta iota in Hf. subst w. apply some_inj in He as <-.
    rewrite cut_sfix by done. apply cut_mod64; [done|]. apply (bits_of_mod Z.lxor xorb). intros; apply Z.lxor_spec.
  - case_bool_decide as Hn; [|done]. apply some_inj in He as <-. destruct (Hs eq_refl) as [cu Hc].
    destruct (count_eq v bv cu r Hv Hb Hc Hn) as (E & Hr & Hk). rewrite <- E.
    assert (Eu : ufix r = r) by (unfold ufix, to_unsigned; apply Z.mod_small; lia).
    rewrite Eu in Hf. unfold shl_u in Hf. rewrite Hk in Hf.
    apply (f_equal (fun r => match r with Ok z => z | Undefined => 0 end)) in Hf. cbv beta iota in Hf. subst w.
    rewrite cut_sfix by done. apply cut_mul; [done|by apply cut_ufix|done].
  - case_bool_decide as Hn; [|done]. apply some_inj in He as <-. destruct (Hs eq_refl) as [cu Hc].
    destruct (count_eq v bv cu r Hv Hb Hc Hn) as (E & Hr & Hk). rewrite <- E.
    assert (Eu : ufix r = r) by (unfold ufix, to_unsigned; apply Z.mod_small; lia).
    rewrite Eu in Hf. apply (shr_case v true Hv l r (Ha eq_refl) w Hk Hf).
Qed.
Lemma calc_una_ok k v u z w : vsizes v -> calc_const_unary k z u = Ok w -> cut v w = ir_una k v z.
Proof.
  intros Hv Hf. unfold ir_una. destruct k, u; cbn [calc_const_unary] in Hf.
  - apply (f_equal (fun r => match r with Ok z => z | Undefined => 0 end)) in Hf. cbv beta iota in Hf. subst w.
    rewrite cut_sfix by done. rewrite <- (Z.sub_0_l z), <- (Z.sub_0_l (ufix z)). apply cut_sub; [done..|]. by apply cut_ufix.
  - by apply fix_ok_eq in Hf as [-> _].
  - apply (f_equal (fun r => match r with Ok z => z | Undefined => 0 end)) in Hf. cbv beta iota in Hf. subst w.
    rewrite cut_sfix by done. rewrite lnot_eq. apply cut_sub; [done..|]. by apply cut_ufix.
  - apply (f_equal (fun r => match r with Ok z => z | Undefined => 0 end)) in Hf. cbv beta iota in Hf. subst w. by rewrite lnot_eq.
Qed.

(** Comparisons. *)
Lemma b_ltb a b : (a <? b) = bool_decide (a < b).
Proof. case_bool_decide; [by apply Z.ltb_lt|apply Z.ltb_ge; lia]. Qed.
Lemma b_leb a b : (a <=? b) = bool_decide (a <= b).
Proof. case_bool_decide; [by apply Z.leb_le|apply Z.leb_gt; lia]. Qed.
Lemma b_eqb a b : (a =? b) = bool_decide (a = b).
Proof. case_bool_decide; [by apply Z.eqb_eq|by apply Z.eqb_neq]. Qed.
Lemma view_inj v u a b : vsizes v -> canon v u (OConst a) -> canon v u (OConst b) ->
  bool_decide (view (size_of v) u a = view (size_of v) u b) = bool_decide (a = b).
Proof.
  intros Hv Ha Hb. apply bool_decide_ext. split; [|by intros ->]. intros E. unfold canon in Ha, Hb. congruence.
Qed.
Lemma cond_ok k u v a b r : vsizes v -> canon v u (OConst a) -> canon v u (OConst b) ->
  calc_const_cond (cond_code k u false) a b = Ok r -> cond_holds (size_of v) (cond_code k u false) a b = r.
Proof.
  intros Hv Ha Hb. rewrite holds_code. destruct u.
  - pose proof (canon_u v a Hv Ha) as Ea. pose proof (canon_u v b Hv Hb) as Eb.
    destruct k; unfold calc_const_cond;
      repeat match goal with |- context [Z.eqb (cond_code ?k ?u ?f) ?c] =>
        let t := eval vm_compute in (Z.eqb (cond_code k u f) c) in change (Z.eqb (cond_code k u f) c) with t end;
      cbn [orb]; try discriminate; intros [= <-]; cbn [cmp_int]; rewrite ?b_eqb, ?b_ltb, ?b_leb, ?Ea, ?Eb; try done.
    + by apply view_inj.
    + rewrite bool_decide_not. f_equal. by apply view_inj.
  - pose proof (canon_s v a Hv Ha) as Ea. pose proof (canon_s v b Hv Hb) as Eb.
    destruct k; unfold calc_const_cond;
      repeat match goal with |- context [Z.eqb (cond_code ?k ?u ?f) ?c] =>
        let t := eval vm_compute in (Z.eqb (cond_code k u f) c) in change (Z.eqb (cond_code k u f) c) with t end;
      cbn [orb]; try discriminate; intros [= <-]; cbn [cmp_int]; rewrite ?b_eqb, ?b_ltb, ?b_leb, ?Ea, ?Eb; try done.
    by rewrite bool_decide_not.
Qed.

Lemma swap_holds c c' size a b k u : c = cond_code k u false -> swap c = Some c' -> cond_holds size c' b a = cond_holds size c a b.
Proof.
  intros -> Hs. unfold swap in Hs. destruct (swap_ok size k u false) as (d & E & H). rewrite E in Hs. injection Hs as <-. apply H.
Qed.
Lemma cut_cast dv sv u z : vsizes dv -> vsizes sv ->
  cut dv (if sv <? dv then wrap_value z (bytes sv) u else z) = cut dv (view (size_of sv) u z).
Proof.
  intros Hd Hs. destruct (Z.ltb_spec sv dv).
  - f_equal. sizes Hs; try (by destruct u). sizes Hd; lia.
  - symmetry. apply cut_of_mod; [done|]. destruct (view_mod (size_of sv) u z (size_pos sv Hs)) as [k E].
    assert (exists j, 2 ^ (8 * size_of sv) = j * 2 ^ (8 * size_of dv)) as [j Ej].
    { unfold size_of. exists (2 ^ (8 * 2 ^ sv - 8 * 2 ^ dv)). rewrite <- Z.pow_add_r; [f_equal; lia| |unfold vsizes in *; pose proof (Z.pow_nonneg 2 dv); lia].
      assert (2 ^ dv <= 2 ^ sv) by (apply Z.pow_le_mono_r; lia). lia. }
    exists (k * j). rewrite <- Z.mul_assoc, <- Ej. done.
Qed.

Lemma folding_ok regs i i' e : fit i -> constant_folding i = Ok i' -> exec regs i = Some e -> exec regs i' = Some e.
Proof.
  intros Hf Hc He. destruct i as [k d a b v bv u|k d a v u|c d a b v|d a dv sv u|d a v|c a b v t|an t]; cbn [constant_folding] in Hc.
  - destruct a as [ra|l]; [by injection Hc as <-|]. destruct b as [rb|r]; [by injection Hc as <-|].
    destruct (is_divmod k && (r =? 0)); [by injection Hc as <-|].
    destruct (calc_const_expr k l r u) as [w|] eqn:Ew; cbn [mbind res_bind] in Hc; [|done]. injection Hc as <-.
    cbn [exec val] in *. destruct (ir_op k v bv u l r) as [x|] eqn:Ex; [|done]. cbn in He. injection He as <-.
    rewrite cut_wrap by apply Hf. do 2 f_equal. by apply (calc_ok k v bv u l r).
  - destruct a as [ra|l]; [by injection Hc as <-|].
    destruct (calc_const_unary k l u) as [w|] eqn:Ew; cbn [mbind res_bind] in Hc; [|done]. injection Hc as <-.
    cbn [exec val] in *. rewrite cut_wrap by apply Hf. rewrite <- He. do 2 f_equal. by apply (calc_una_ok k v u).
  - destruct Hf as (Hv & k & u & Ec & Ha & Hb). destruct a as [ra|l]; [destruct b; by injection Hc as <-|]. destruct b as [rb|r].
    + destruct (swap c) as [c'|] eqn:Es; [|done]. injection Hc as <-. cbn [exec val] in *. rewrite <- He.
      by rewrite (swap_holds c c' _ _ _ k u).
    + destruct (calc_const_cond c l r) as [w|] eqn:Ew; cbn [mbind res_bind] in Hc; [|done]. injection Hc as <-.
      cbn [exec val] in *. rewrite <- He. subst c. rewrite (cond_ok k u v l r w) by done. by destruct w.
  - destruct Hf as [Hd Hs]. destruct a as [ra|l]; [by injection Hc as <-|].
    apply (f_equal (fun r => match r with Ok z => z | Undefined => Goto true 0 end)) in Hc. cbv beta iota in Hc. subst i'.
    cbn [exec val] in *. rewrite <- He. do 2 f_equal. by apply cut_cast.
  - by injection Hc as <-.
  - destruct Hf as (Hv & k & u & Ec & Ha & Hb). destruct a as [ra|l]; [destruct b; by injection Hc as <-|]. destruct b as [rb|r].
    + destruct (swap c) as [c'|] eqn:Es; [|done]. injection Hc as <-. cbn [exec val] in *. rewrite <- He.
      by rewrite (swap_holds c c' _ _ _ k u).
    + destruct (calc_const_cond c l r) as [w|] eqn:Ew; cbn [mbind res_bind] in Hc; [|done]. injection Hc as <-.
      cbn [exec val] in *. rewrite <- He. subst c. by rewrite (cond_ok k u v l r w) by done.
  - by injection Hc as <-.
Qed.
