(** Proofs about versions of registers. *)
From stdpp Require Import base list numbers gmap.
From Verif Require Import Back.Unused_model Back.Unused_spec Back.Ssa_model.
From Verif Require Back.Flow_model Back.Flow_spec Back.Flow_proof.
Local Open Scope nat_scope.

Section names.
  Context {K : Type} (pinned : nat -> bool) (nv : nat).
  Hypothesis Hpin : forall v, pinned v = true -> v < nv.
  Implicit Types (σ : st) (μ : nat -> nat).

  Record inv σ : Prop := {
    inv_next : nv <= nextv σ;
    inv_orig : forall v o, origs σ !! v = Some o -> nv <= v < nextv σ /\ o < nv
  }.
  Definition good σ μ : Prop := forall x, x < nv -> μ x < nextv σ /\ orig σ (μ x) = x.
  Definition ext σ σ' : Prop := nextv σ <= nextv σ' /\ (forall v, v < nextv σ -> orig σ' v = orig σ v) /\ vers σ ⊆ vers σ'.
  (** The registers of a list are assigned between two states. *)
  Definition newnames σ σ' (l : list nat) : Prop := NoDup l /\
    forall v, v ∈ l -> nextv σ <= v < nextv σ' \/ (v < nv /\ v ∉ vers σ /\ v ∈ vers σ').

  Lemma ext_refl σ : ext σ σ. Proof using. clear Hpin pinned. split; [lia|]. split; done. Qed.
  Lemma ext_trans σ1 σ2 σ3 : ext σ1 σ2 -> ext σ2 σ3 -> ext σ1 σ3.
  Proof using. clear Hpin pinned. intros (A1 & A2 & A3) (B1 & B2 & B3). split; [lia|]. split; [|set_solver]. intros v Hv. rewrite B2 by lia. by apply A2. Qed.
  Lemma good_ext σ σ' μ : ext σ σ' -> good σ μ -> good σ' μ.
  Proof using. clear Hpin pinned. intros (A1 & A2 & _) G x Hx. destruct (G x Hx) as [G1 G2]. split; [lia|]. by rewrite A2. Qed.
  Lemma orig_old σ x : inv σ -> x < nv -> orig σ x = x.
  Proof using. clear Hpin pinned.
    intros I Hx. unfold orig. destruct (origs σ !! x) as [o|] eqn:E; [|done]. apply (inv_orig _ I) in E. lia.
  Qed.
  Lemma good_id σ : inv σ -> good σ id.
  Proof using. clear Hpin pinned. intros I x Hx. split; [pose proof (inv_next _ I); unfold id; lia|by apply orig_old]. Qed.
  Lemma good_inj σ μ x y : good σ μ -> x < nv -> y < nv -> μ x = μ y -> x = y.
  Proof using. clear Hpin pinned. intros G Hx Hy E. destruct (G x Hx) as [_ G1], (G y Hy) as [_ G2]. rewrite E in G1. congruence. Qed.

  Lemma newnames_nil σ : newnames σ σ []. Proof using. clear Hpin pinned. split; [constructor|]. intros v H. by apply elem_of_nil in H. Qed.
  Lemma newnames_app σ1 σ2 σ3 l1 l2 : nv <= nextv σ1 -> ext σ1 σ2 -> ext σ2 σ3 -> newnames σ1 σ2 l1 -> newnames σ2 σ3 l2 -> newnames σ1 σ3 (l1 ++ l2).
  Proof using. clear Hpin pinned.
    intros Hn (A1 & _ & A3) (B1 & _ & B3) [N1 H1] [N2 H2]. split.
    - apply NoDup_app. split; [done|]. split; [|done]. intros v V1 V2. specialize (H1 v V1). specialize (H2 v V2).
      destruct H1 as [H1|(H1 & H1' & H1'')], H2 as [H2|(H2 & H2' & H2'')]; try lia. set_solver.
    - intros v [V|V]%elem_of_app.
      + destruct (H1 v V) as [H|(Ha & Hb & Hc)]; [left; lia|right]. set_solver.
      + destruct (H2 v V) as [H|(Ha & Hb & Hc)]; [left; lia|right]. set_solver.
  Qed.

  Lemma newnames_mono σ0 σ σ' σ'' l : ext σ0 σ -> ext σ' σ'' -> newnames σ σ' l -> newnames σ0 σ'' l.
  Proof using.
    clear Hpin pinned. intros (A1 & _ & A3) (B1 & _ & B3) [N H]. split; [done|]. intros v Hv. destruct (H v Hv) as [H1|(H1 & H2 & H3)]; [left; lia|].
    right. split; [done|]. split; [intros H4; by apply H2, A3|by apply B3].
  Qed.

  Lemma fresh_ok σ μ x v σ' : inv σ -> good σ μ -> x < nv -> fresh σ x = (v, σ') ->
    inv σ' /\ good σ' (upd μ x v) /\ ext σ σ' /\ newnames σ σ' [v] /\ v = nextv σ /\ pinned v = false /\ orig σ' v = x.
  Proof using Hpin.
    intros I G Hx. unfold fresh. intros [= <- <-]. pose proof (inv_next _ I) as Hn.
    assert (X : ext σ (St (S (nextv σ)) ({[x]} ∪ vers σ) (<[nextv σ := x]> (origs σ)))).
    { split; [cbn; lia|]. split; [|cbn; set_solver]. intros v Hv. unfold orig. cbn. rewrite lookup_insert_ne by lia. done. }
    assert (O : orig (St (S (nextv σ)) ({[x]} ∪ vers σ) (<[nextv σ := x]> (origs σ))) (nextv σ) = x).
    { unfold orig. cbn. by rewrite lookup_insert. }
    split; [|split; [|split; [done|split; [|split; [done|split; [|done]]]]]].
    - split; cbn; [lia|]. intros v o Hv. apply lookup_insert_Some in Hv as [[<- <-]|[_ Hv]]; [lia|].
      apply (inv_orig _ I) in Hv. lia.
    - intros y Hy. unfold upd. case_decide as E.
      + subst y. split; [cbn; lia|done].
      + pose proof (good_ext _ _ _ X G) as G'. by apply G'.
    - split; [apply NoDup_singleton|]. intros v ->%elem_of_list_singleton. left. cbn. lia.
    - destruct (pinned (nextv σ)) eqn:E; [|done]. apply Hpin in E. lia.
  Qed.

  Lemma ren_dst_ok σ μ d d' σ' μ' : inv σ -> good σ μ -> (forall v, d = Some v -> v < nv) ->
    ren_dst pinned σ μ d = (d', σ', μ') ->
    inv σ' /\ good σ' μ' /\ ext σ σ' /\ newnames σ σ' (filter (fun v => pinned v = false) (option_list d')) /\
    match d with
    | None => d' = None /\ μ' = μ
    | Some x => if pinned x then d' = Some x /\ μ' = μ
                else exists v, d' = Some v /\ pinned v = false /\ μ' = upd μ x v /\ forall y, y < nv -> y <> x -> μ y <> v
    end.
  Proof using Hpin.
    intros I G Hd. unfold ren_dst. destruct d as [x|].
    2: { intros [= <- <- <-]. split; [done|]. split; [done|]. split; [apply ext_refl|]. split; [apply newnames_nil|done]. }
    assert (Hx : x < nv) by (by apply Hd). pose proof (inv_next _ I) as Hn.
    destruct (pinned x) eqn:Ep.
    { intros [= <- <- <-]. split; [done|]. split; [done|]. split; [apply ext_refl|].
      split; [|done]. cbn. rewrite decide_False by congruence. apply newnames_nil. }
    rewrite (orig_old σ x I Hx). case_decide as Ev.
    - destruct (fresh σ x) as [v σ1] eqn:Ef. intros [= <- <- <-].
      destruct (fresh_ok _ _ _ _ _ I G Hx Ef) as (F1 & F2 & F3 & F4 & F5 & F6 & F7).
      split; [done|]. split; [done|]. split; [done|]. split.
      { cbn. rewrite decide_True by done. done. }
      exists v. split; [done|]. split; [done|]. split; [done|]. intros y Hy _ E. destruct (G y Hy) as [G1 _]. lia.
    - intros [= <- <- <-].
      assert (X : ext σ (St (nextv σ) ({[x]} ∪ vers σ) (origs σ))) by (split; [cbn; lia|]; split; [done|cbn; set_solver]).
      assert (I' : inv (St (nextv σ) ({[x]} ∪ vers σ) (origs σ))) by (destruct I; by split).
      split; [done|]. split.
      { intros y Hy. unfold upd. case_decide as E; [subst y; split; [cbn; lia|by apply orig_old]|]. pose proof (good_ext _ _ _ X G) as G'. by apply G'. }
      split; [done|]. split.
      { cbn. rewrite decide_True by done. split; [apply NoDup_singleton|]. intros v ->%elem_of_list_singleton. right. cbn. set_solver. }
      exists x. split; [done|]. split; [done|]. split; [done|]. intros y Hy Hne E. destruct (G y Hy) as [_ G2].
      rewrite E, (orig_old σ x I Hx) in G2. done.
  Qed.

  Definition below (l : list (ins K)) : Prop := forall i v, i ∈ l -> v ∈ regs (oprs i) \/ dst i = Some v -> v < nv.
  Lemma assign_ok l : forall σ μ l' σ' μ', inv σ -> good σ μ -> below l -> assign pinned l σ μ = (l', σ', μ') ->
    inv σ' /\ good σ' μ' /\ ext σ σ' /\ newnames σ σ' (filter (fun v => pinned v = false) (omap dst l')) /\
    (forall x, x < nv -> pinned x = false -> x ∉ omap dst l -> μ' x = μ x) /\
    (forall x, x < nv -> pinned x = false -> x ∈ omap dst l -> μ' x ∈ omap dst l').
  Proof using Hpin.
    induction l as [|i l IH]; intros σ μ l' σ' μ' I G Hb; cbn [assign].
    - intros [= <- <- <-]. split; [done|]. split; [done|]. split; [apply ext_refl|]. split; [apply newnames_nil|].
      split; [done|]. intros x _ _ H. by apply elem_of_nil in H.
    - destruct (ren_dst pinned σ μ (dst i)) as [[d σ1] μ1] eqn:Ed. destruct (assign pinned l σ1 μ1) as [[l1 σ2] μ2] eqn:El.
      intros [= <- <- <-].
      assert (Hd : forall v, dst i = Some v -> v < nv) by (intros v Hv; apply (Hb i v); [by left|by right]).
      destruct (ren_dst_ok _ _ _ _ _ _ I G Hd Ed) as (R1 & R2 & R3 & R4 & R5).
      assert (Hb' : below l) by (intros j v Hj; apply Hb; by right).
      destruct (IH _ _ _ _ _ R1 R2 Hb' El) as (A1 & A2 & A3 & A4 & A5 & A6).
      split; [done|]. split; [done|]. split; [by eapply ext_trans|].
      assert (Eo : omap dst ({| op := op i; is_call := is_call i; dst := d; oprs := ren pinned σ μ <$> oprs i |} :: l1) = option_list d ++ omap dst l1)
        by (cbn; by destruct d).
      assert (Eo' : omap dst (i :: l) = option_list (dst i) ++ omap dst l) by (cbn; by destruct (dst i)).
      rewrite Eo, Eo'. split.
      { rewrite filter_app. apply (newnames_app σ σ1); try done. apply (inv_next _ I). }
      split.
      + intros x Hx Hp Hn. rewrite not_elem_of_app in Hn. destruct Hn as [Hn1 Hn2]. rewrite A5 by done.
        destruct (dst i) as [y|]; [|by destruct R5 as [_ ->]]. destruct (pinned y) eqn:Ey; [by destruct R5 as [_ ->]|].
        destruct R5 as (v & _ & _ & -> & _). unfold upd. rewrite decide_False; [done|]. intros ->. apply Hn1. by left.
      + intros x Hx Hp Hn. destruct (decide (x ∈ omap dst l)) as [Hi|Hi]; [apply elem_of_app; right; by apply A6|].
        apply elem_of_app in Hn as [Hn|Hn]; [|done]. rewrite A5 by done. apply elem_of_app. left.
        destruct (dst i) as [y|]; [|by apply elem_of_nil in Hn]. apply elem_of_list_singleton in Hn as ->. rewrite Hp in R5.
        destruct R5 as (v & -> & _ & -> & _). unfold upd. rewrite decide_True by done. by left.
  Qed.

  Lemma new_versions_ok v : forall σ μ v' σ' μ', inv σ -> good σ μ -> (forall x, x ∈ v -> x < nv) -> NoDup v ->
    new_versions pinned v σ μ = (v', σ', μ') ->
    inv σ' /\ good σ' μ' /\ ext σ σ' /\ v' = (fun x => if pinned x then x else μ' x) <$> v /\
    (forall y, y ∉ v -> μ' y = μ y) /\
    newnames σ σ' (filter (fun v => pinned v = false) v') /\ (forall x, x ∈ v' -> pinned x = false -> orig σ' x <> x).
  Proof using Hpin.
    induction v as [|x v IH]; intros σ μ v' σ' μ' I G Hb Hn; cbn [new_versions].
    - intros [= <- <- <-]. split; [done|]. split; [done|]. split; [apply ext_refl|]. split; [done|]. split; [done|].
      split; [apply newnames_nil|]. intros x H. by apply elem_of_nil in H.
    - apply NoDup_cons in Hn as [Hx Hn]. assert (Hxn : x < nv) by (apply Hb; by left).
      assert (Hb' : forall y, y ∈ v -> y < nv) by (intros y Hy; apply Hb; by right).
      destruct (pinned x) eqn:Ep.
      + destruct (new_versions pinned v σ μ) as [[v1 σ1] μ1] eqn:E. intros [= <- <- <-].
        destruct (IH _ _ _ _ _ I G Hb' Hn E) as (A1 & A2 & A3 & A4 & A5 & A6 & A7).
        split; [done|]. split; [done|]. split; [done|]. split; [cbn; rewrite Ep; by rewrite <- A4|].
        split; [intros y Hy; apply A5; intros Hy'; apply Hy; by right|].
        split; [rewrite filter_cons, decide_False by congruence; done|].
        intros y [->|Hy]%elem_of_cons Hp; [congruence|by apply A7].
      + rewrite (orig_old σ x I Hxn). destruct (fresh σ x) as [n σ1] eqn:Ef.
        destruct (fresh_ok _ _ _ _ _ I G Hxn Ef) as (F1 & F2 & F3 & F4 & F5 & F6 & F7).
        destruct (new_versions pinned v σ1 (upd μ x n)) as [[v1 σ2] μ2] eqn:E. intros [= <- <- <-].
        destruct (IH _ _ _ _ _ F1 F2 Hb' Hn E) as (A1 & A2 & A3 & A4 & A5 & A6 & A7).
        split; [done|]. split; [done|]. split; [by eapply ext_trans|]. split.
        { cbn. rewrite Ep, <- A4. f_equal. rewrite A5 by done. unfold upd. by rewrite decide_True. }
        split.
        { intros y Hy. rewrite not_elem_of_cons in Hy. destruct Hy as [Hy1 Hy2]. rewrite A5 by done. unfold upd. by rewrite decide_False. }
        split.
        { rewrite filter_cons, decide_True by done. apply (newnames_app σ σ1 σ2 [n]); try done. apply (inv_next _ I). }
        intros y [->|Hy]%elem_of_cons Hp; [|by apply A7]. pose proof (inv_next _ I).
        destruct A3 as (_ & A3 & _). rewrite A3 by (destruct F3 as (F3 & _); unfold fresh in Ef; injection Ef as <- <-; cbn; lia). lia.
  Qed.

  Lemma hand_over_ok σ v : forall μ, good σ μ -> (forall x, x ∈ v -> pinned x = false -> x < nextv σ) ->
    good σ (hand_over pinned σ v μ) /\
    forall x, (exists y, y ∈ v /\ pinned y = false /\ orig σ y = x) -> (forall y y', y ∈ v -> y' ∈ v -> pinned y = false -> pinned y' = false -> orig σ y = x -> orig σ y' = x -> y = y') ->
      hand_over pinned σ v μ x ∈ v /\ pinned (hand_over pinned σ v μ x) = false /\ orig σ (hand_over pinned σ v μ x) = x.
  Proof using. clear Hpin.
    unfold hand_over. induction v as [|y v IH]; intros μ G Hb; cbn [foldl].
    - split; [done|]. intros x (y & H & _). by apply elem_of_nil in H.
    - destruct (pinned y) eqn:Ep.
      + destruct (IH μ G) as [I1 I2]; [intros x Hx; apply Hb; by right|]. split; [done|].
        intros x (z & Hz & Hp & Ho) Hu. apply elem_of_cons in Hz as [->|Hz]; [congruence|].
        destruct (I2 x) as (J1 & J2 & J3); [by exists z|intros a b Ha Hb' ; apply Hu; by right|]. split; [by right|done].
      + assert (G' : good σ (upd μ (orig σ y) y)).
        { intros x Hx. unfold upd. case_decide as E; [subst x; split; [apply Hb; [by left|done]|done]|by apply G]. }
        destruct (IH _ G') as [I1 I2]; [intros x Hx; apply Hb; by right|]. split; [done|].
        intros x Hex Hu. destruct (decide (Exists (fun z => pinned z = false /\ orig σ z = x) v)) as [Hz|Hz]; rewrite Exists_exists in Hz.
        * destruct (I2 x) as (J1 & J2 & J3); [done|intros a b Ha Hb' ; apply Hu; by right|]. split; [by right|done].
        * destruct Hex as (z & Hz' & Hp & Ho). apply elem_of_cons in Hz' as [->|Hz']; [|exfalso; apply Hz; by exists z].
          assert (Hfold : forall v μ, (forall z, z ∈ v -> pinned z = false -> orig σ z <> x) ->
             foldl (fun μ x => if pinned x then μ else upd μ (orig σ x) x) μ v x = μ x).
          { clear. induction v as [|z v IH]; intros μ Hn; cbn [foldl]; [done|]. rewrite IH by (intros w Hw; apply Hn; by right).
            destruct (pinned z) eqn:E; [done|]. unfold upd. rewrite decide_False; [done|]. intros ->. by apply (Hn z); [left|..]. }
          rewrite Hfold by (intros w Hw Hpw How; apply Hz; by exists w). unfold upd. rewrite decide_True by done.
          split; [by left|done].
  Qed.
End names.
