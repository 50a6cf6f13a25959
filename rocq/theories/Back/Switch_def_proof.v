(** Acceptance, definedness and switches on constants. *)
From stdpp Require Import base list numbers sorting sets.
From Verif Require Import Util.Wrap_model Front.Layout_model Front.Fold_model Front.Fold_spec Back.Ir_model Back.Ir_spec Back.Switch_model Back.Switch_spec Back.Switch_proof Back.Switch_top_proof.
From Coq Require Import ZArith Lia.
Open Scope Z_scope.

Section def.
  Context (lp64 : bool) (t : fty).
  Notation size := (fsize lp64 t).
  Notation in_range := (in_range lp64). Notation conv_int := (conv_int lp64). Notation case_of := (case_of lp64 t).

  Lemma find_case_true cases v : find_case cases v = true -> exists c, c ∈ cases /\ value c = Some v.
  Proof.
    induction cases as [|c cs IH]; cbn; [done|]. destruct (value c) as [w|] eqn:E.
    - destruct (w =? v) eqn:Ew; cbn.
      + intros _. apply Z.eqb_eq in Ew as ->. exists c. split; [left|done].
      + intros H. destruct (IH H) as (d & Hd & Ed). exists d. split; [by right|done].
    - intros H. destruct (IH H) as (d & Hd & Ed). exists d. split; [by right|done].
  Qed.

  Lemma constants_app a b : constants (a ++ b) = constants a ++ constants b.
  Proof. apply omap_app. Qed.

  Lemma stored_inj a b : in_range t a -> in_range t b -> to_fixnum a = to_fixnum b -> a = b.
  Proof. intros Ha Hb E. rewrite <- (view_stored lp64 t a Ha), <- (view_stored lp64 t b Hb). by rewrite E. Qed.

  Lemma accepted labels : constraints lp64 t labels -> well_typed lp64 labels -> fitting lp64 t labels ->
    parse_cases lp64 t (stored <$> labels) [] = Ok (case_of <$> labels).
  Proof.
    intros Hc Hw Hf.
    assert (G : forall ls dn, labels = dn ++ ls -> parse_cases lp64 t (stored <$> ls) (case_of <$> dn) = Ok (case_of <$> labels)).
    { induction ls as [|[[[ct c]|] b] ls IH]; intros dn E.
      - rewrite app_nil_r in E. by subst.
      - cbn [fmap list_fmap stored parse_cases].
        assert (Hr : in_range ct c) by (apply (Hw ct c b); rewrite E; set_solver).
        destruct (find_case _ _) eqn:Ef.
        + exfalso. apply find_case_true in Ef as (x & Hx & Ex). apply elem_of_list_fmap in Hx as ([[[ct' c']|] b'] & -> & Hx); [|done].
          cbn in Ex. injection Ex as Ex.
          assert (Hcin : c ∈ constants labels) by (rewrite E; apply elem_constants; exists ct, b; set_solver).
          assert (Hcin' : c' ∈ constants labels) by (rewrite E; apply elem_constants; exists ct', b'; set_solver).
          assert (conv_int t c = conv_int t c').
          { rewrite <- (conv_id lp64 t (conv_int t c')) by apply conv_range. apply conv_stored; [by eapply range_wide| |done].
            pose proof (conv_range lp64 t c') as Hcr. by apply range_wide in Hcr. }
          rewrite !(fitting_conv lp64 t labels) in H by done.
          destruct Hc as [Hnd _]. rewrite E, constants_app, constants_cons_some, fmap_app, NoDup_app in Hnd. destruct Hnd as (_ & Hnd & _).
          apply (Hnd (converted lp64 t c)).
          * rewrite H. apply elem_of_list_fmap. exists c'. split; [done|]. apply elem_constants. by exists ct', b'.
          * cbn. left.
        + rewrite (cast_const lp64 t ct c Hr). specialize (IH (dn ++ [(Some (ct, c), b)])). rewrite fmap_app in IH. cbn [fmap list_fmap] in IH.
          apply IH. by rewrite E, <- app_assoc.
      - cbn [fmap list_fmap stored parse_cases]. destruct (existsb _ _) eqn:Ee.
        + exfalso. apply existsb_exists in Ee as (x & Hx & Ex). apply elem_of_list_In in Hx.
          apply elem_of_list_fmap in Hx as ([[[ct' c']|] b'] & -> & Hx); [done|].
          destruct Hc as [_ Hd]. rewrite E, filter_app, filter_cons_True, app_length in Hd by done. cbn [length] in Hd.
          assert (0 < length (filter (fun l : label => l.1 = None) dn))%nat; [|lia].
          apply elem_of_list_split in Hx as (l1 & l2 & ->). rewrite filter_app, app_length, filter_cons_True by done. cbn [length]. lia.
        + specialize (IH (dn ++ [(None, b)])). rewrite fmap_app in IH. cbn [fmap list_fmap] in IH.
          apply IH. by rewrite E, <- app_assoc. }
    apply (G labels []). done.
  Qed.

  (** An order that compare_cases follows. *)
  Definition le_case (a b : case) : Prop :=
    match value a, value b with
    | _, None => True
    | None, Some _ => False
    | Some x, Some y => x <= y
    end.
  #[local] Instance le_case_dec a b : Decision (le_case a b).
  Proof. unfold le_case. destruct (value a), (value b); apply _. Defined.
  #[local] Instance le_case_total : Total le_case.
  Proof. intros a b. unfold le_case. destruct (value a), (value b); try tauto. lia. Qed.
  #[local] Instance le_case_trans : Transitive le_case.
  Proof. intros a b c. unfold le_case. destruct (value a), (value b), (value c); try tauto. lia. Qed.

  Lemma sorted_rel {A} (R : A -> A -> Prop) l i j a b : StronglySorted R l -> (i < j)%nat -> l !! i = Some a -> l !! j = Some b -> R a b.
  Proof.
    intros H. revert i j. induction H as [|c cs Hs IH Hc]; intros i j Hij Ha Hb; [done|].
    destruct i as [|i], j as [|j]; try lia; cbn in Ha, Hb.
    - injection Ha as ->. eapply (proj1 (stdpp.list.Forall_forall _ _)); [exact Hc|]. by eapply elem_of_list_lookup_2.
    - eapply (IH i j); [lia|done|done].
  Qed.

  Lemma fix_sub_def a b : - 2 ^ 63 <= a - b < 2 ^ 63 -> fix_sub a b = Ok (a - b).
  Proof. intros H. unfold fix_sub, fix_check, fixmin, fixmax. by rewrite (proj2 (Z.leb_le _ _)), (proj2 (Z.leb_le _ _)) by lia. Qed.

  Definition near (cases : list case) : Prop := forall a b, a ∈ cases -> b ∈ cases -> val a - val b < 2 ^ 63 - 1.

  Lemma recur_defined vreg skip cf fuel : forall cases s, (length cases < fuel)%nat -> near cases -> exists r, recur vreg skip cf fuel cases s = Ok r.
  Proof.
    induction fuel as [|fuel IH]; intros cases s Hl Hn; [lia|]. cbn [recur].
    destruct (Z.of_nat (length cases) <=? 2) eqn:El; [by eexists|]. apply Z.leb_gt in El.
    destruct (list.head cases) as [cmin|] eqn:Hmin; [|rewrite head_lookup in Hmin; apply lookup_ge_None in Hmin; lia].
    destruct (list.last cases) as [cmax|] eqn:Hmax; [|rewrite last_lookup in Hmax; apply lookup_ge_None in Hmax; lia].
    rewrite head_lookup in Hmin. rewrite last_lookup in Hmax.
    assert (Hi1 : cmin ∈ cases) by (by eapply elem_of_list_lookup_2). assert (Hi2 : cmax ∈ cases) by (by eapply elem_of_list_lookup_2).
    pose proof (Hn cmax cmin Hi2 Hi1). pose proof (Hn cmin cmax Hi1 Hi2).
    rewrite (fix_sub_def (val cmax)) by lia. cbn [mbind res_bind]. rewrite fix_sub_def by lia. cbn [mbind res_bind].
    destruct (_ && _).
    - unfold table_jump. destruct s as [nb nr]. rewrite (fix_sub_def (val cmax)) by lia. cbn [mbind res_bind]. rewrite fix_sub_def by lia. cbn [mbind res_bind].
      destruct (val cmin =? 0); by eexists.
    - assert (Hm : (Z.to_nat (Z.shiftr (Z.of_nat (length cases)) 1) < length cases)%nat).
      { rewrite Z.shiftr_div_pow2 by lia. change (2 ^ 1) with 2. pose proof (Z.div_lt (Z.of_nat (length cases)) 2). lia. }
      set (m := Z.to_nat (Z.shiftr (Z.of_nat (length cases)) 1)) in *.
      destruct (cases !! m) as [c|] eqn:Hc; [|apply lookup_ge_None in Hc; lia].
      destruct s as [nb nr].
      destruct (IH (take m cases) (S (S (S nb)), nr)) as [[lower s1] E1].
      { rewrite take_length. lia. }
      { intros a b Ha Hb. apply Hn; rewrite <- (take_drop m cases); apply elem_of_app; by left. }
      rewrite E1. cbn [mbind res_bind].
      destruct (IH (drop (S m) cases) s1) as [[upper s2] E2].
      { rewrite drop_length. lia. }
      { intros a b Ha Hb. apply Hn; rewrite <- (take_drop (S m) cases); apply elem_of_app; by right. }
      rewrite E2. by eexists.
  Qed.

  Lemma near_labels labels : fitting lp64 t labels -> close lp64 t labels -> near (valued (case_of <$> labels)).
  Proof.
    intros Hf Hc a b Ha Hb. apply case_of_valued in Ha as (ct & k & b1 & Ha & ->), Hb as (ct' & k' & b2 & Hb & ->). cbn [val value].
    rewrite !(fitting_conv lp64 t labels); [|done|apply elem_constants; eauto..|done|apply elem_constants; eauto].
    apply Hc; apply elem_constants; eauto.
  Qed.

  Lemma defined labels : constraints lp64 t labels -> fitting lp64 t labels -> close lp64 t labels ->
    (exists sorted, qsorted (case_of <$> labels) sorted) /\
    forall sorted, qsorted (case_of <$> labels) sorted -> forall sw break s, exists code s',
      gen_switch_cond (uns t) sw (case_of <$> labels) sorted break s = Ok (code, s').
  Proof.
    intros Hc Hf Hcl. pose proof (near_labels labels Hf Hcl) as Hnear. split.
    - exists (merge_sort le_case (case_of <$> labels)). split; [symmetry; apply merge_sort_Permutation|].
      intros i j a b Hij Ha Hb.
      pose proof (StronglySorted_merge_sort le_case (case_of <$> labels)) as Hs.
      pose proof (sorted_rel _ _ i j a b Hs Hij Ha Hb) as Hab.
      assert (Hin : forall i a, merge_sort le_case (case_of <$> labels) !! i = Some a -> a ∈ case_of <$> labels).
      { intros i' a' H. rewrite <- (merge_sort_Permutation le_case). by eapply elem_of_list_lookup_2. }
      unfold le_case in Hab. unfold compare_cases. destruct (value a) as [x|] eqn:Ea, (value b) as [y|] eqn:Eb.
      + assert (Ha' : a ∈ valued (case_of <$> labels)) by (unfold valued; apply elem_of_list_filter; split; [by rewrite Ea|by eapply Hin]).
        assert (Hb' : b ∈ valued (case_of <$> labels)) by (unfold valued; apply elem_of_list_filter; split; [by rewrite Eb|by eapply Hin]).
        pose proof (Hnear a b Ha' Hb') as H1. pose proof (Hnear b a Hb' Ha') as H2. unfold val in H1, H2. rewrite Ea, Eb in H1, H2.
        rewrite fix_sub_def by lia. cbn [mbind res_bind]. eexists. split; [reflexivity|].
        rewrite (proj2 (Z.ltb_ge _ _)) by lia. destruct (x - y <? 0); lia.
      + exists (-1). split; [done|lia].
      + done.
      + exfalso. destruct Hc as [_ Hd]. rewrite <- (defaults lp64 t) in Hd.
        rewrite <- (filter_Permutation (fun c => value c = None) _ _ (merge_sort_Permutation le_case (case_of <$> labels))) in Hd.
        set (l := merge_sort le_case (case_of <$> labels)) in *.
        rewrite <- (take_drop_middle l i a Ha), filter_app, app_length, filter_cons_True in Hd by done. cbn [length] in Hd.
        assert (0 < length (filter (fun c => value c = None) (drop (S i) l)))%nat; [|lia].
        assert (Hb2 : b ∈ drop (S i) l).
        { apply elem_of_list_lookup. exists (j - S i)%nat. rewrite lookup_drop. by replace (S i + (j - S i))%nat with j by lia. }
        apply elem_of_list_split in Hb2 as (l1 & l2 & ->). rewrite filter_app, app_length, filter_cons_True by done. cbn [length]. lia.
    - intros sorted Hq sw break s. unfold gen_switch_cond. destruct sw as [r|v].
      + destruct (case_of <$> labels) as [|c0 cs0] eqn:Ecs; [destruct s; cbn; eauto|]. rewrite <- Ecs in *. clear Ecs.
        destruct (qsorted_default (case_of <$> labels) sorted Hq) as (len & Hlen & Hperm & Hval); [rewrite defaults; apply Hc|].
        rewrite <- Hlen. set (skip := match default_of _ with Some b => b | None => break end).
        destruct (recur_defined r skip (if uns t then COND_UNSIGNED else 0) (S len) (take len sorted) s) as [[code [nb nr]] E].
        * rewrite take_length. lia.
        * intros a b Ha Hb. rewrite <- Hperm in Ha, Hb. by apply Hnear.
        * rewrite E. cbn. eauto.
      + cbn. eauto.
  Qed.

  Lemma const_found labels d v : fitting lp64 t labels -> in_range t v ->
    const_target (case_of <$> labels) d (to_fixnum v) = match matching lp64 t labels v with Some b => Some b | None => d end.
  Proof.
    intros Hf Hv. induction labels as [|[[[ct c]|] b] ls IH]; [done|..]; cbn [fmap list_fmap const_target matching].
    - assert (Hc : c ∈ constants ((Some (ct, c), b) :: ls)) by (rewrite constants_cons_some; left).
      pose proof (fitting_conv lp64 t _ c Hf Hc) as Ec. cbn [Switch_top_proof.case_of value bb]. rewrite Ec.
      assert (Hr : in_range t (converted lp64 t c)) by (rewrite <- Ec; apply conv_range).
      case_decide as E.
      + by rewrite E, Z.eqb_refl.
      + rewrite (proj2 (Z.eqb_neq _ _)); [|intros X; apply E; by apply stored_inj].
        apply IH. intros Hk x Hx. apply Hf; [done|]. rewrite constants_cons_some. by right.
    - apply IH. intros Hk x Hx. apply Hf; [done|]. by rewrite constants_cons_none.
  Qed.

  Lemma matching_in labels v b : matching lp64 t labels v = Some b -> exists l, (l, b) ∈ labels.
  Proof.
    induction labels as [|[[[ct c]|] b'] ls IH]; cbn [matching]; [done|..].
    - case_decide; [intros [= ->]; eexists; left|]. intros H'. destruct (IH H') as [l Hl]. exists l. by right.
    - intros H'. destruct (IH H') as [l Hl]. exists l. by right.
  Qed.
  Lemma default_in labels b : default_label labels = Some b -> (None, b) ∈ labels.
  Proof. induction labels as [|[[[ct c]|] b'] ls IH]; cbn [default_label]; [done|intros H; right; by apply IH|]. intros [= ->]. left. Qed.

  Lemma const_dispatch labels break v s code s' regs cases sorted :
    well_typed lp64 labels -> fitting lp64 t labels -> blocks_below s.1 labels -> (break < s.1)%nat ->
    parse_cases lp64 t (stored <$> labels) [] = Ok cases -> in_range t v ->
    gen_switch_cond (uns t) (Const (to_fixnum v)) cases sorted break s = Ok (code, s') ->
    leaves_to size code regs (target lp64 t labels break v).
  Proof.
    intros Hw Hf Hbb Hbr Hp Hv Hg. apply parse_result in Hp; [|done]. cbn [app] in Hp. subst cases.
    cbn in Hg. injection Hg as <- <-. rewrite const_found, default_of_labels by done.
    exists 1%nat. cbn [run].
    assert (Ht : (target lp64 t labels break v < s.1)%nat).
    { unfold target. destruct (matching lp64 t labels v) as [b|] eqn:E; [apply matching_in in E as [l Hl]; by eapply Hbb|].
      destruct (default_label labels) as [b|] eqn:E'; [apply default_in in E'; by eapply Hbb|done]. }
    assert (Heq : match match matching lp64 t labels v with Some b => Some b | None => default_label labels end with Some b => b | None => break end = target lp64 t labels break v).
    { unfold target. by destruct (matching lp64 t labels v). }
    rewrite Heq. rewrite find_block_none; [done|]. cbn. intros H. set_unfold. destruct H as [H|[H|[]]]; lia.
  Qed.
End def.
