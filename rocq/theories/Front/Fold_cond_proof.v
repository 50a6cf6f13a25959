From stdpp Require Import base list numbers.
From Coq Require Import Znumtheory Floats.SpecFloat.
From Verif Require Import Util.Wrap_model Front.Layout_model Front.Fold_model Front.Fold_spec Front.Fold_proof Front.Fold_num_proof Front.Fold_unary_proof Front.Fold_cmp_proof.
Open Scope Z_scope.

Section proof.
  Context (lp64 : bool) (hprec hemax : Z) (Hhost : host_ok hprec hemax).
  Notation wf := (wf lp64 hprec hemax). Notation eval := (eval lp64). Notation eqv := (eqv lp64). Notation refines := (refines lp64).
  Notation denote := (denote lp64).

  Lemma zero_comparable k e : wf e -> equality k -> comparable lp64 k e (zero_of (type_of e)).
  Proof.
    intros We Hk. destruct (zero_wf lp64 hprec hemax _ (wf_ntype lp64 _ _ e We)) as (Wz & Tz & Oz & Dz).
    unfold comparable. rewrite Tz. destruct (type_of e) as [te|ke] eqn:Te; cbn [Fold_spec.common_n].
    - split; [destruct e; cbn in *; try done; by left|]. split; [by left|]. intros H. by destruct H.
    - rewrite decide_False by lia. split; [destruct e; cbn in *; done|]. split; done.
  Qed.
  Lemma ne_zero a env h h' v : wf a -> env_ok lp64 env -> eval env h a = Some (h', v) ->
    eval env h (c_cmp lp64 EX_NE a (zero_of (type_of a))) = Some (h', bit (truthy v)).
  Proof.
    intros Hw He E. pose proof (eq_zero lp64 hprec hemax a env h h' v Hw He E) as H. unfold c_cmp in *. cbn [Fold_spec.eval] in *.
    destruct (eval env h (convert _ a)) as [[h1 x]|]; cbn [mbind option_bind] in *; [|done].
    destruct (eval env h1 (convert _ (zero_of _))) as [[h2 y]|]; cbn [mbind option_bind] in *; [|done].
    destruct (compare_vals x y) as [o|]; cbn [mbind option_bind] in *; [|done]. injection H as <- H. do 2 f_equal.
    destruct o as [[]|], (truthy v); cbn in H; done.
  Qed.
  Theorem not_expr_ok fuel e : wf e -> ordered e -> (ldepth e < fuel)%nat ->
    exists e', make_not_expr lp64 hprec hemax fuel e = Some e' /\ type_of e' = NFix tyBool /\ wf e' /\ refines e' (c_cmp lp64 EX_EQ e (zero_of (type_of e))).
  Proof.
    intros We Oe De. destruct (zero_wf lp64 hprec hemax _ (wf_ntype lp64 _ _ e We)) as (Wz & Tz & Oz & Dz).
    apply cmp_ok; try done; [by left|by apply zero_comparable|lia].
  Qed.
  Lemma cast_zero t : ntype_ok t -> make_cast lp64 hprec hemax t (EFix tyInt 0) = Some (zero_of t).
  Proof.
    intros Ht. unfold make_cast. case_decide as E; [by subst|]. destruct t as [t|k]; [|done]. unfold zero_of, fixlit.
    assert (wrap_value 0 (fsize lp64 t) (uns t) = 0) as ->; [|by destruct (kd t)].
    unfold wrap_value. unfold fsize. destruct lp64, t as [[] []]; reflexivity.
  Qed.
  Lemma cond_ok fuel : forall e, wf e -> (ldepth e < fuel)%nat ->
    exists e', make_cond lp64 hprec hemax fuel e = Some e' /\ type_of e' = NFix tyBool /\ wf e' /\
      forall env h h' v, env_ok lp64 env -> eval env h e = Some (h', v) -> eval env h e' = Some (h', bit (truthy v)).
  Proof.
    assert (Hother: forall e, wf e -> (ldepth e < fuel)%nat -> exists e', (z ← make_cast lp64 hprec hemax (type_of e) (EFix tyInt 0); new_expr_cmp lp64 hprec hemax fuel EX_NE e z) = Some e' /\ type_of e' = NFix tyBool /\ wf e' /\
      forall env h h' v, env_ok lp64 env -> eval env h e = Some (h', v) -> eval env h e' = Some (h', bit (truthy v))).
    { intros e We De. destruct (zero_wf lp64 hprec hemax _ (wf_ntype lp64 _ _ e We)) as (Wz & Tz & Oz & Dz). rewrite cast_zero by (by eapply wf_ntype). cbn [mbind option_bind].
      destruct (cmp_ok lp64 hprec hemax Hhost fuel EX_NE e (zero_of (type_of e)) We Wz (or_intror (conj eq_refl eq_refl))) as (e' & E & T & W & R); [by apply zero_comparable|done|lia|].
      exists e'. split; [done|]. split; [done|]. split; [done|]. intros env h h' v He Ev. apply R; [done|]. by apply ne_zero. }
    assert (Hlog: forall e, is_log e -> wf e -> exists e', Some e = Some e' /\ type_of e' = NFix tyBool /\ wf e' /\ forall env h h' v, env_ok lp64 env -> eval env h e = Some (h', v) -> eval env h e' = Some (h', bit (truthy v))).
    { intros e Hl We. exists e. split; [done|]. split; [by destruct e|]. split; [done|]. intros env h h' v He E. rewrite E. destruct (log_bit lp64 _ _ _ _ _ Hl E) as [b ->]. by destruct b. }
    induction e; intros We De; cbn [make_cond]; try (by apply Hother); try (by apply Hlog).
    - destruct (bool_lit_facts lp64 hprec hemax (negb (fixnum =? 0))) as (T & W & E). eexists. split; [done|]. split; [done|]. split; [done|].
      intros env h h' v He Ev. rewrite E. cbn in Ev. injection Ev as <- <-. do 3 f_equal. cbn. f_equal. fold (denote t fixnum).
      cbn in We. pose proof (const_fix lp64 t fixnum We) as (_ & _ & _ & H0). destruct (Z.eqb_spec fixnum 0), (Z.eqb_spec (denote t fixnum) 0); tauto.
    - destruct (bool_lit_facts lp64 hprec hemax (negb (flo_zero flonum))) as (T & W & E). eexists. split; [done|]. split; [done|]. split; [done|].
      intros env h h' v He Ev. rewrite E. cbn in Ev. injection Ev as <- <-. cbn in We. pose proof (host_zero _ _ _ _ We) as H0. cbn. by rewrite H0.
    - destruct We as [W1 W2]. cbn in De. destruct (IHe2 W2 De) as (r' & -> & T & W & R). cbn [mbind option_bind]. eexists. split; [done|]. split; [done|]. split; [done|].
      intros env h h' v He. cbn [Fold_spec.eval]. destruct (eval env h e1) as [[h1 x]|]; cbn [mbind option_bind]; [|done]. by apply R.
  Qed.

  Theorem logical_ok fuel k l r : wf l -> wf r -> (ldepth l < fuel)%nat -> (ldepth r < fuel)%nat ->
    exists e, logical lp64 hprec hemax fuel k l r = Some e /\ type_of e = NFix tyBool /\ wf e /\ refines e (ELog k l r).
  Proof.
    intros Wl Wr Dl Dr. unfold logical. destruct (cond_ok fuel l Wl Dl) as (l' & -> & Tl & Wl' & Rl). destruct (cond_ok fuel r Wr Dr) as (r' & -> & Tr & Wr' & Rr).
    cbn [mbind option_bind].
    assert (Ho: exists e, Some (ELog k l' r') = Some e /\ type_of e = NFix tyBool /\ wf e /\ refines e (ELog k l r)).
    { eexists. split; [done|]. split; [done|]. split; [done|]. intros env h [h' v] He. destruct k; cbn [Fold_spec.eval].
      all: destruct (eval env h l) as [[h1 a]|] eqn:E1; cbn [mbind option_bind]; [|done]; rewrite (Rl _ _ _ _ He E1); cbn [mbind option_bind];
        destruct (truthy a); cbn [truthy bit Z.eqb negb]; try done.
      all: destruct (eval env h1 r) as [[h2 b]|] eqn:E2; cbn [mbind option_bind]; [|done]; rewrite (Rr _ _ _ _ He E2); cbn [mbind option_bind];
        intros [= <- <-]; by destruct (truthy b). }
    destruct l' as [t z| | | | | | | | | | |] eqn:El; try exact Ho. cbn in Tl. injection Tl as ->. clear Ho.
    assert (Hz: forall env h h' v, env_ok lp64 env -> eval env h l = Some (h', v) -> h' = h /\ z = if truthy v then 1 else 0).
    { intros env h h' v He E. pose proof (Rl _ _ _ _ He E) as H. cbn in H. by injection H. }
    destruct (match k with EX_LOGAND => z =? 0 | EX_LOGIOR => negb (z =? 0) end) eqn:Ez; (eexists; split; [done|]; split; [done|]; split; [done|]); intros env h [h' v] He.
    - destruct k; cbn [Fold_spec.eval]; destruct (eval env h l) as [[h1 a]|] eqn:E1; cbn [mbind option_bind]; try done;
        destruct (Hz _ _ _ _ He E1) as [-> ->]; destruct (truthy a); cbn in Ez; try done.
    - destruct k; cbn [Fold_spec.eval]; destruct (eval env h l) as [[h1 a]|] eqn:E1; cbn [mbind option_bind]; try done;
        destruct (Hz _ _ _ _ He E1) as [-> ->]; destruct (truthy a); cbn in Ez; try done;
        (destruct (eval env h r) as [[h2 b]|] eqn:E2; cbn [mbind option_bind]; [|done]); intros [= <- <-]; by apply Rr.
  Qed.

  (** The conditional operator on integers. *)
  Definition tern_type (lt rt : fty) : nty :=
    let ty := choose_ternary_result_type (NFix lt) (NFix rt) in
    match ty with NFix ft => if below_int (kd ft) then NFix tyInt else ty | _ => ty end.
  Definition both_bool (lt rt : fty) : Prop := lt = tyBool /\ rt = tyBool.
  Definition tern_good (lt rt : fty) : Prop := exists t, tern_type lt rt = NFix t /\ type_ok t /\ kd t <> FX_BOOL /\ same_repr lp64 t (common lp64 lt rt).
  Lemma tern_types lt rt : type_ok lt -> type_ok rt -> both_signed lp64 lt rt \/ same_promoted lp64 lt rt -> ~ both_bool lt rt -> tern_good lt rt.
  Proof.
    intros Hl%all_types_in Hr%all_types_in H Hb.
    assert (forallb (fun l => forallb (fun r => (uns (promoted lp64 l) || uns (promoted lp64 r)) && negb (bool_decide (promoted lp64 l = promoted lp64 r)) || bool_decide (l = tyBool) && bool_decide (r = tyBool) ||
      match tern_type l r with NFix t => match kd t with FX_BOOL => false | FX_ENUM => negb (uns t) | _ => true end && (fixnum_size lp64 (kd t) =? fixnum_size lp64 (kd (common lp64 l r))) && eqb (uns t) (uns (common lp64 l r)) | _ => false end) all_types) all_types = true) as G.
    { unfold tern_type. destruct lp64; vm_compute; reflexivity. }
    rewrite forallb_forall in G. specialize (G lt (proj1 (elem_of_list_In _ _) Hl)). rewrite forallb_forall in G. specialize (G rt (proj1 (elem_of_list_In _ _) Hr)).
    apply orb_prop in G as [[G|G]%orb_prop|G].
    - exfalso. apply andb_prop in G as [G1 G2]. apply negb_true_iff, bool_decide_eq_false in G2. unfold both_signed, same_promoted in H.
      destruct H as [[H1 H2]|H]; [by rewrite H1, H2 in G1|done].
    - exfalso. apply andb_prop in G as [G1%bool_decide_eq_true G2%bool_decide_eq_true]. by apply Hb.
    - unfold tern_good. destruct (tern_type lt rt) as [t|]; [|done]. exists t. split; [done|]. apply andb_prop in G as [[G1 G2]%andb_prop G3]. apply Z.eqb_eq in G2. apply eqb_prop in G3.
      split; [unfold type_ok; destruct (kd t), (uns t); done|]. split; [by destruct (kd t)|]. by split.
  Qed.
  Theorem ternary_ok fuel c l r lt rt : wf c -> wf l -> wf r -> (ldepth c < fuel)%nat -> type_of l = NFix lt -> type_of r = NFix rt ->
    both_signed lp64 lt rt \/ same_promoted lp64 lt rt -> ~ both_bool lt rt ->
    exists e, ternary lp64 hprec hemax fuel c l r = Some e /\ type_like lp64 (type_of e) (NFix (common lp64 lt rt)) /\ wf e /\ refines e (c_tern lp64 c l r).
  Proof.
    intros Wc Wl Wr Dc Tl Tr H Hb. pose proof (wf_type _ _ _ l lt Wl Tl) as Ol. pose proof (wf_type _ _ _ r rt Wr Tr) as Or.
    destruct (tern_types lt rt Ol Or H Hb) as (t & Et & Ht & Hp & Hs).
    destruct (chosen_ok lp64 lt rt Ol Or) as (_ & _ & Hf). set (u := common lp64 lt rt) in *.
    unfold ternary. rewrite Tl, Tr. fold (tern_type lt rt). rewrite Et.
    destruct (make_cast_fix lp64 hprec hemax t lt l Wl Tl Ht) as (l' & -> & Tl' & Wl' & Ql). destruct (make_cast_fix lp64 hprec hemax t rt r Wr Tr Ht) as (r' & -> & Tr' & Wr' & Qr).
    cbn [mbind option_bind]. destruct (cond_ok fuel c Wc Dc) as (c' & -> & Tc & Wc' & Rc). cbn [mbind option_bind].
    assert (forall e e' s, wf e -> type_of e = NFix s -> eqv e' (ECast (NFix t) e) -> eqv e' (convert (NFix u) e)) as Hconv.
    { intros e e' s We Te Q env h He. rewrite Q by done. rewrite (convert_eqv lp64 hprec hemax e u We env h He).
      apply (same_repr_cast lp64 hprec hemax t u e s We Te Hp (proj1 (full_proper _ Hf)) Hs env h He). }
    pose proof (Hconv l l' lt Wl Tl Ql) as Ql'. pose proof (Hconv r r' rt Wr Tr Qr) as Qr'.
    assert (Hty: type_like lp64 (NFix t) (NFix u)) by done.
    assert (Hid: forall e e' env h x, wf e' -> type_of e' = NFix t -> eqv e' (convert (NFix u) e) -> env_ok lp64 env -> ('(h, b) ← eval env h (convert (NFix u) e); v ← conv lp64 (NFix u) b; Some (h, v)) = Some x -> eval env h e' = Some x).
    { intros e e' env h x We Te Q He. rewrite <-Q by done. destruct (eval env h e') as [[h1 v]|] eqn:E; cbn [mbind option_bind]; [|done].
      destruct (fix_value lp64 _ _ e' t env h h1 v We Te He E) as (z & -> & Hz). cbn. rewrite conv_id; [done|]. by apply (same_repr_range lp64 t u z Hp (proj1 (full_proper _ Hf)) Hs). }
    assert (Ho: exists e, Some (ETern (NFix t) c' l' r') = Some e /\ type_like lp64 (type_of e) (NFix u) /\ wf e /\ refines e (c_tern lp64 c l r)).
    { eexists. split; [done|]. split; [done|]. split; [by split; [|split; [|split]]|]. unfold c_tern. rewrite Tl, Tr. cbn [Fold_spec.common_n]. fold u.
      intros env h x He. cbn [Fold_spec.eval]. destruct (eval env h c) as [[h1 a]|] eqn:Ec; cbn [mbind option_bind]; [|done]. rewrite (Rc _ _ _ _ He Ec). cbn [mbind option_bind].
      assert (truthy (bit (truthy a)) = truthy a) as -> by (by destruct (truthy a)).
      assert (forall e', type_of e' = NFix t -> wf e' -> eval env h1 e' = Some x -> ('(h0, b) ← eval env h1 e'; v ← conv lp64 (NFix t) b; Some (h0, v)) = Some x) as Hc.
      { intros e' Te We E. rewrite E. destruct x as [h2 v]. cbn [mbind option_bind]. destruct (fix_value lp64 _ _ e' t env h1 h2 v We Te He E) as (z & -> & Hz). cbn. by rewrite conv_id. }
      destruct (truthy a); intros E; (apply Hc; [done|done|]); [by apply (Hid l)|by apply (Hid r)]. }
    destruct c' as [ct z| | | | | | | | | | |] eqn:Ec'; try exact Ho. clear Ho. cbn in Tc. injection Tc as ->.
    assert (Hz: forall env h h' v, env_ok lp64 env -> eval env h c = Some (h', v) -> h' = h /\ z = if truthy v then 1 else 0).
    { intros env h h' v He E. pose proof (Rc _ _ _ _ He E) as Hx. cbn in Hx. by injection Hx. }
    exists (if z =? 0 then r' else l'). split; [done|]. split; [by destruct (z =? 0); rewrite ?Tl', ?Tr'|]. split; [by destruct (z =? 0)|].
    unfold c_tern. rewrite Tl, Tr. cbn [Fold_spec.common_n]. fold u. intros env h x He. cbn [Fold_spec.eval].
    destruct (eval env h c) as [[h1 a]|] eqn:Ec; cbn [mbind option_bind]; [|done]. destruct (Hz _ _ _ _ He Ec) as [-> ->].
    destruct (truthy a); intros E; cbn [Z.eqb]; [by apply (Hid l)|by apply (Hid r)].
  Qed.
End proof.

Section common.
  Context (lp64 : bool) (hprec hemax : Z).
  Notation wf := (wf lp64 hprec hemax).
  Lemma common_ok l r lt rt : wf l -> wf r -> type_of l = NFix lt -> type_of r = NFix rt ->
    exists l' r' t, cast_numbers lp64 hprec hemax l r true = Some (l', r') /\
      type_of l' = NFix t /\ type_of r' = NFix t /\ same_repr lp64 t (common lp64 lt rt) /\
      (forall env h, env_ok lp64 env -> eval lp64 env h l' = eval lp64 env h (ECast (NFix (common lp64 lt rt)) l)) /\
      (forall env h, env_ok lp64 env -> eval lp64 env h r' = eval lp64 env h (ECast (NFix (common lp64 lt rt)) r)).
  Proof.
    intros Hl Hr Tl Tr. pose proof (wf_type lp64 _ _ l lt Hl Tl) as Ol. pose proof (wf_type lp64 _ _ r rt Hr Tr) as Or.
    destruct (chosen_ok lp64 lt rt Ol Or) as (Hrep & Hf & Hfc).
    destruct (cast_numbers_fix lp64 hprec hemax l r lt rt true Hl Hr Tl Tr) as (l' & r' & E & Tl' & Tr' & Hl' & Hr' & El & Er).
    exists l', r', (chosen lp64 true lt rt). split; [done|]. split; [done|]. split; [done|]. split; [done|].
    destruct (full_proper _ Hf) as [P1 _]. destruct (full_proper _ Hfc) as [P2 _].
    split; intros env h He; [rewrite El by done|rewrite Er by done]; by eapply same_repr_cast.
  Qed.
  Lemma common_cmp_ok l r lt rt : wf l -> wf r -> type_of l = NFix lt -> type_of r = NFix rt ->
    exists l' r' t, cmp_operands lp64 hprec hemax l r = Some (l', r') /\
      type_of l' = NFix t /\ type_of r' = NFix t /\ same_repr lp64 t (common lp64 lt rt) /\
      (forall env h, env_ok lp64 env -> eval lp64 env h l' = eval lp64 env h (ECast (NFix (common lp64 lt rt)) l)) /\
      (forall env h, env_ok lp64 env -> eval lp64 env h r' = eval lp64 env h (ECast (NFix (common lp64 lt rt)) r)).
  Proof.
    intros Hl Hr Tl Tr. destruct (cmp_operands_fix lp64 hprec hemax l r lt rt Hl Hr Tl Tr) as (l' & r' & t & E & Hf & Hs & Tl' & Tr' & Wl & Wr & Ql & Qr).
    exists l', r', t. split; [done|]. split; [done|]. split; [done|]. split; [done|].
    split; intros env h He; [rewrite Ql by done|rewrite Qr by done]; by apply (convert_eqv lp64 hprec hemax).
  Qed.
End common.
