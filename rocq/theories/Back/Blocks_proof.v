(** Simulations between lists of blocks. *)
From stdpp Require Import base list numbers gmap.
From Verif Require Import Back.Ir_model Back.Ir_spec Back.Cond_proof Back.Blocks_model Back.Blocks_spec.
Local Open Scope Z_scope.

#[global] Instance place_dec : EqDecision place. Proof. solve_decision. Defined.

Section Sim.
  Context {I R S : Type} (M : machine I R S).
  Implicit Types (bs : list (bb I R)) (s : S).
  Notation trace := (trace M). Notation step := (step M). Notation same := (same M).

  Lemma same_refl bs : same bs bs.
  Proof. intros s. split; eauto. Qed.
  Lemma same_trans bs1 bs2 bs3 : same bs1 bs2 -> same bs2 bs3 -> same bs1 bs3.
  Proof.
    intros H1 H2 s. destruct (H1 s) as [A1 B1], (H2 s) as [A2 B2]. split.
    - intros n. destruct (A1 n) as [m Hm]. destruct (A2 m) as [k Hk]. exists k. congruence.
    - intros n. destruct (B2 n) as [m Hm]. destruct (B1 m) as [k Hk]. exists k. congruence.
  Qed.

  (** [src] is a block that does nothing but pass on to [dst]; the other list takes [dst] for
      [src], here and there. *)
  Section Skip.
    Variables (bs bs' : list (bb I R)) (ok : nat -> Prop) (src : nat) (dst : nat).
    Definition rel (q q' : place) : Prop := (q = q' /\ forall l, q = At l -> ok l) \/ (q = At src /\ q' = At dst).
    Hypothesis Hsrc : forall s, step bs src s = ([], At dst, s).
    Hypothesis Hdst : ok dst.
    Hypothesis Hstep : forall l s, ok l -> let '(es, q, s1) := step bs l s in exists q', step bs' l s = (es, q', s1) /\ rel q q'.

    Lemma skip_fwd n : forall p p' s, rel p p' -> exists m, trace n bs p s = trace m bs' p' s.
    Proof.
      induction n as [|n IH]; intros p p' s Hr; [by exists 0%nat|]. cbn [Blocks_spec.trace].
      destruct Hr as [[<- Hok]|[-> ->]].
      - destruct p as [l| |]; [|by exists 1%nat..]. specialize (Hstep l s (Hok l eq_refl)).
        destruct (step bs l s) as [[es q] s1]. destruct Hstep as (q' & E & Hq). destruct (IH q q' s1 Hq) as [m Hm].
        exists (Datatypes.S m). cbn [Blocks_spec.trace]. rewrite E. by rewrite Hm.
      - rewrite Hsrc. cbn [app]. apply IH. left. split; [done|]. by intros l [= <-].
    Qed.
    Lemma skip_bwd m : forall p p' s, rel p p' -> exists n, trace m bs' p' s = trace n bs p s.
    Proof.
      induction m as [|m IH]; intros p p' s Hr; [by exists 0%nat|].
      assert (forall p, (forall l, p = At l -> ok l) -> exists n, trace (Datatypes.S m) bs' p s = trace n bs p s) as Hsame.
      { clear p p' Hr. intros p Hok. cbn [Blocks_spec.trace]. destruct p as [l| |]; [|by exists 1%nat..].
        specialize (Hstep l s (Hok l eq_refl)). destruct (step bs l s) as [[es q] s1] eqn:E1. destruct Hstep as (q' & E & Hq).
        rewrite E. destruct (IH q q' s1 Hq) as [n Hn]. exists (Datatypes.S n). cbn [Blocks_spec.trace]. rewrite E1. by rewrite Hn. }
      destruct Hr as [[<- Hok]|[-> ->]]; [by apply Hsame|].
      destruct (Hsame (At dst)) as [n Hn]; [by intros l [= <-]|]. exists (Datatypes.S n). rewrite Hn. cbn [Blocks_spec.trace]. by rewrite Hsrc.
    Qed.
    Lemma skip_same : start bs = start bs' -> (forall l, start bs = At l -> ok l) -> same bs bs'.
    Proof.
      intros E Hok s. rewrite <-E. split; intros n; [apply skip_fwd|apply skip_bwd]; by left.
    Qed.
  End Skip.
  (** The same without a block to skip. *)
  Lemma eq_same bs bs' (ok : nat -> Prop) :
    (forall l s, ok l -> step bs l s = step bs' l s /\ forall l', (step bs l s).1.2 = At l' -> ok l') ->
    start bs = start bs' -> (forall l, start bs = At l -> ok l) -> same bs bs'.
  Proof.
    intros H E Hok. assert (forall n p s, (forall l, p = At l -> ok l) -> trace n bs p s = trace n bs' p s) as Ht.
    { induction n as [|n IH]; intros p s Hp; [done|]. cbn [Blocks_spec.trace]. destruct p as [l| |]; [|done..].
      destruct (H l s (Hp l eq_refl)) as [E1 E2]. rewrite <-E1. destruct (step bs l s) as [[es q] s1]. cbn in E2. f_equal. by apply IH. }
    intros s. rewrite <-E. split; intros n; exists n; [|symmetry]; by apply Ht.
  Qed.
End Sim.

(** ** Blocks by their labels *)
Section At_label.
  Context {I R : Type}.
  Implicit Types (bs A B : list (bb I R)).
  Lemma at_label_in bs l b nx : at_label l bs = Some (b, nx) -> b ∈ bs /\ label b = l.
  Proof.
    induction bs as [|x bs IH]; cbn; [done|]. destruct (decide (label x = l)) as [E|E].
    - intros [= <- <-]. split; [by left|done].
    - intros H. destruct (IH H). split; [by right|done].
  Qed.
  Lemma at_label_none bs l : at_label l bs = None <-> l ∉ (label <$> bs).
  Proof.
    induction bs as [|x bs IH]; cbn; [split; [intros _; apply not_elem_of_nil|done]|]. rewrite not_elem_of_cons.
    destruct (decide (label x = l)) as [E|E]; [split; [done|intros [? _]; congruence]|]. rewrite IH. split; [intros H; split; [congruence|done]|tauto].
  Qed.
  Lemma at_label_app A b B : label b ∉ (label <$> A) -> at_label (label b) (A ++ b :: B) = Some (b, label <$> head B).
  Proof.
    induction A as [|x A IH]; cbn; [by rewrite decide_True|]. intros [H1 H2]%not_elem_of_cons. rewrite decide_False by (intros E; by apply H1). by apply IH.
  Qed.
  (** A block is taken out. *)
  Lemma at_label_remove A b B l : NoDup (label <$> A ++ b :: B) -> l <> label b -> exists r, at_label l (A ++ b :: B) = r /\
    at_label l (A ++ B) = (fun '(x, nx) => (x, if decide (nx = Some (label b)) then label <$> head B else nx)) <$> r.
  Proof.
    intros Hnd Hl. eexists; split; [done|]. induction A as [|x A IH]; cbn [app at_label].
    - rewrite decide_False by done. cbn in Hnd. apply NoDup_cons in Hnd as [Hni Hnd].
      destruct (at_label l B) as [[x nx]|] eqn:E; [|done]. cbn. f_equal. f_equal. rewrite decide_False; [done|].
      intros ->. apply Hni. clear -E. induction B as [|y B IH]; [done|]. cbn in E. destruct (decide (label y = l)).
      + injection E as -> E. destruct B as [|z B]; [done|]. cbn in E. injection E as <-. cbn. right. by left.
      + cbn. right. by apply IH.
    - cbn in Hnd. apply NoDup_cons in Hnd as [Hni Hnd]. destruct (decide (label x = l)) as [E|E].
      + destruct A as [|y A]; cbn.
        * by rewrite decide_True.
        * rewrite decide_False; [done|]. intros [= Hy]. cbn in Hnd. apply NoDup_cons in Hnd as [Hni' _]. apply Hni'. rewrite Hy, fmap_app. apply elem_of_app. right. by left.
      + by apply IH.
  Qed.
  (** The blocks are changed, but not their labels. *)
  Lemma at_label_fmap (f : bb I R -> bb I R) bs l : (forall b, label (f b) = label b) -> at_label l (f <$> bs) = (fun '(x, nx) => (f x, nx)) <$> at_label l bs.
  Proof.
    intros Hf. induction bs as [|x bs IH]; [done|]. cbn. rewrite Hf. destruct (decide (label x = l)); [|done]. cbn. f_equal. f_equal. destruct bs; cbn; [done|]. by rewrite Hf.
  Qed.
  Lemma at_label_next bs l b nx l' : at_label l bs = Some (b, nx) -> nx = Some l' -> exists A c B, bs = A ++ b :: c :: B /\ label c = l'.
  Proof.
    induction bs as [|x bs IH]; [done|]. cbn. destruct (decide (label x = l)).
    - intros [= -> <-] H. destruct bs as [|c B]; [done|]. injection H as <-. by exists [], c, B.
    - intros H E. destruct (IH H E) as (A & c & B & -> & Hc). by exists (x :: A), c, B.
  Qed.
End At_label.

(** ** The five changes *)
Section Changes.
  Context {I R S : Type} (M : machine I R S).
  Implicit Types (bs A B : list (bb I R)) (s : S).
  Notation trace := (trace M). Notation step := (step M). Notation same := (same M).
  Lemma start_app A b B b' B' : label b = label b' -> start (A ++ b :: B) = start (A ++ b' :: B').
  Proof. intros E. destruct A; cbn; [by unfold start; cbn; rewrite E|done]. Qed.
  Lemma start_fmap (f : bb I R -> bb I R) bs : (forall b, label (f b) = label b) -> start (f <$> bs) = start bs.
  Proof. intros H. destruct bs; [done|]. unfold start. cbn. by rewrite H. Qed.

  (** A jump to the next block. *)
  Lemma drop_same A B l bd c o y : NoDup (label <$> A ++ BB l bd (EJmp c o (label y)) :: y :: B) ->
    same (A ++ BB l bd (EJmp c o (label y)) :: y :: B) (A ++ BB l bd EFall :: y :: B).
  Proof.
    intros Hnd. apply (eq_same M _ _ (fun _ => True)); [|by apply start_app|done]. intros n s _. split; [|done].
    rewrite fmap_app in Hnd. apply NoDup_app in Hnd as (HA & Hd & _).
    assert (l ∉ (label <$> A)) as HlA. { intros H. apply (Hd l H). by left. }
    destruct (decide (n = l)) as [->|Hn].
    - unfold Blocks_spec.step. pose proof (at_label_app A (BB l bd (EJmp c o (label y))) (y :: B) HlA) as E1. pose proof (at_label_app A (BB l bd EFall) (y :: B) HlA) as E2.
      cbn in E1, E2. rewrite E1, E2. cbn [body]. destruct (perform M bd s) as [es s']. f_equal. f_equal. unfold leave. cbn. by destruct (test M c o s').
    - unfold Blocks_spec.step. assert (at_label n (A ++ BB l bd (EJmp c o (label y)) :: y :: B) = at_label n (A ++ BB l bd EFall :: y :: B)) as ->; [|done].
      clear -Hn. induction A as [|x A IH]; cbn.
      + by case_decide; [congruence|].
      + destruct (decide (label x = n)); [by destruct A|done].
  Qed.

  Definition redirect (src dst : nat) (b : bb I R) : bb I R :=
    if (label b =? src)%nat then b
    else BB (label b) (body b) match last b with EJmp c o d => EJmp c o (swap_dst src dst d) | ETab o ds => ETab o (swap_dst src dst <$> ds) | EFall => EFall end.
  Lemma redirect_label src dst b : label (redirect src dst b) = label b.
  Proof. unfold redirect. by destruct (label b =? src)%nat. Qed.
  Lemma redirect_eq bs src dst : replace_jmp_destination bs src dst = redirect src dst <$> bs.
  Proof. done. Qed.

  (** Jumps to a block that passes on to another. *)
  Lemma redirect_same bs src dst : (forall s, step bs src s = ([], At dst, s)) -> same bs (redirect src dst <$> bs).
  Proof.
    intros Hsrc. apply (skip_same M _ _ (fun _ => True) src dst Hsrc); [done| |by rewrite start_fmap by apply redirect_label|done].
    intros l s _. unfold Blocks_spec.step. rewrite at_label_fmap by apply redirect_label.
    destruct (at_label l bs) as [[b nx]|] eqn:E; [|eexists; split; [done|by left]]. cbn [fmap option_fmap option_map].
    assert (body (redirect src dst b) = body b) as ->. { unfold redirect. by destruct (_ =? _)%nat. }
    destruct (perform M (body b) s) as [es s1]. eexists; split; [done|]. unfold redirect. destruct (_ =? _)%nat; [by left|]. unfold leave. cbn [last].
    destruct (last b) as [c o d|o ds|]; [| |by left].
    - unfold swap_dst. destruct (test M c o s1); [|by left]. destruct (d =? src)%nat eqn:Ed; [|by left]. apply Nat.eqb_eq in Ed as ->. by right.
    - rewrite list_lookup_fmap. destruct (ds !! entry M o s1) as [d|]; cbn; [|by left]. unfold swap_dst. destruct (d =? src)%nat eqn:Ed; [|by left]. apply Nat.eqb_eq in Ed as ->. by right.
  Qed.

  (** No block of the list jumps to [l]. *)
  Definition targets (e : ending R) : list nat := match e with EJmp _ _ d => [d] | ETab _ ds => ds | EFall => [] end.
  Definition unjumped (l : nat) bs : Prop := forall b, b ∈ bs -> l ∉ targets (last b).
  Definition falls (e : ending R) : Prop := match e with EJmp c _ _ => c <> 1 | ETab _ _ => False | EFall => True end.

  Lemma leave_at b nx s l : leave M b nx s = At l -> l ∈ targets (last b) \/ (nx = Some l /\ falls (last b)).
  Proof.
    unfold leave. destruct (last b) as [c o d|o ds|]; cbn [targets falls].
    - destruct (test M c o s) eqn:E; [intros [= <-]; left; by apply elem_of_list_singleton|]. destruct nx; cbn; [|done]. intros [= <-]. right. split; [done|]. intros ->. by cbn in E.
    - destruct (ds !! entry M o s) as [d|] eqn:E; [|done]. intros [= <-]. left. by eapply elem_of_list_lookup_2.
    - destruct nx; cbn; [|done]. intros [= <-]. by right.
  Qed.

  (** An empty block that nothing jumps to. *)
  Lemma empty_same A b B c : A <> [] -> NoDup (label <$> A ++ b :: c :: B) -> body b = [] -> last b = EFall ->
    unjumped (label b) (A ++ c :: B) -> same (A ++ b :: c :: B) (A ++ c :: B).
  Proof.
    intros HA Hnd Hb Hl Hu. assert (label b ∉ (label <$> A)) as HbA.
    { rewrite fmap_app in Hnd. apply NoDup_app in Hnd as (_ & Hd & _). intros H. apply (Hd _ H). by left. }
    apply (skip_same M _ _ (fun l => l <> label b) (label b) (label c)).
    - intros s. unfold Blocks_spec.step. rewrite at_label_app by done. cbn. rewrite Hb. cbn. unfold leave. by rewrite Hl.
    - intros E. rewrite fmap_app in Hnd. apply NoDup_app in Hnd as (_ & _ & Hnd). cbn in Hnd. apply NoDup_cons in Hnd as [Hn _]. apply Hn. rewrite <-E. by left.
    - intros l s Hne. unfold Blocks_spec.step. destruct (at_label_remove A b (c :: B) l Hnd Hne) as (r & E & ->). rewrite E.
      destruct r as [[x nx]|]; [|eexists; split; [done|by left]]. cbn.
      destruct (perform M (body x) s) as [es s1]. eexists; split; [done|].
      apply at_label_in in E as [Hin <-]. assert (label b ∉ targets (last x)) as Hnt.
      { apply elem_of_app in Hin as [Hin|Hin]; [apply Hu, elem_of_app; by left|]. apply elem_of_cons in Hin as [->|Hin]; [by rewrite Hl; apply not_elem_of_nil|]. apply Hu, elem_of_app. by right. }
      destruct (decide (nx = Some (label b))) as [->|Hnx].
      + destruct (decide (leave M x (Some (label b)) s1 = At (label b))) as [El|El].
        * right. split; [done|]. clear -El Hnt. unfold leave in *. destruct (last x) as [cc o d|o ds|]; cbn in *.
          -- destruct (test M cc o s1); [injection El as ->; exfalso; by apply Hnt; left|done].
          -- destruct (ds !! entry M o s1) eqn:E; [|done]. injection El as ->. exfalso. apply Hnt. by eapply elem_of_list_lookup_2.
          -- done.
        * left. assert (leave M x (Some (label b)) s1 = leave M x (Some (label c)) s1) as Eq.
          { unfold leave in *. destruct (last x) as [cc o d|o ds|]; cbn in *; [destruct (test M cc o s1); [done|]|done|]; done. }
          cbn. rewrite <-Eq. split; [done|]. intros l' E ->. done.
      + left. split; [done|]. intros l' E ->. apply leave_at in E as [E|[E _]]; [done|]. by apply Hnx.
    - destruct A; [done|reflexivity].
    - intros l E ->. destruct A as [|a A]; [done|]. injection E as E. apply HbA. rewrite <-E. by left.
  Qed.
  (** A jump over a block with nothing but a jump. *)
  Lemma turn_same A B l bd c c' o y b o' d : NoDup (label <$> A ++ BB l bd (EJmp c o (label y)) :: b :: y :: B) -> body b = [] -> last b = EJmp 1 o' d -> d <> label b ->
    c <> 1 -> Z.testbit c 4 = false -> (exists k u f, c = cond_code k u f) -> invert_cond c = Some c' -> unjumped (label b) (A ++ BB l bd (EJmp c o (label y)) :: y :: B) ->
    same (A ++ BB l bd (EJmp c o (label y)) :: b :: y :: B) (A ++ BB l bd (EJmp c' o d) :: y :: B).
  Proof.
    intros Hnd Hb Hl Hd Hc Hfl (k & u & f & Hcode) Hinv Hu.
    assert (forall s, test M c' o s = negb (test M c o s)) as Htest.
    { intros s. assert (k <> CNever /\ k <> CAlways) as [Hk1 Hk2]. { subst c. destruct (decide (k = CNever \/ k = CAlways)) as [H|H]; [by rewrite invert_rejects in Hinv|tauto]. }
      unfold test. assert (Z.testbit c' 4 = false /\ c' <> 1) as [Hfl' Hc'].
      { subst c. rewrite invert_code in Hinv by done. injection Hinv as <-. clear -Hfl Hk1 Hk2. by destruct k, u, f. }
      rewrite !bool_decide_eq_false_2, Hfl, Hfl' by done. cbn [orb]. destruct (oprs M o s) as [v1 v2]. subst c. by apply invert_ok. }
    set (P := BB l bd (EJmp c o (label y))) in *. set (P' := BB l bd (EJmp c' o d)).
    assert (label b ∉ (label <$> A ++ [P])) as HbA.
    { rewrite cons_middle, app_assoc, fmap_app in Hnd. apply NoDup_app in Hnd as (_ & Hd' & _). intros H. apply (Hd' _ H). by left. }
    assert (label b <> label y) as Hby.
    { rewrite cons_middle, app_assoc, fmap_app in Hnd. apply NoDup_app in Hnd as (_ & _ & Hnd). cbn in Hnd. apply NoDup_cons in Hnd as [Hn _]. intros E. apply Hn. rewrite E. by left. }
    apply (skip_same M _ _ (fun l => l <> label b) (label b) d).
    - intros s. unfold Blocks_spec.step. rewrite cons_middle, app_assoc, at_label_app by done. cbn. rewrite Hb. cbn. unfold leave. by rewrite Hl.
    - done.
    - intros n s Hne. unfold Blocks_spec.step. rewrite (cons_middle P), app_assoc in Hnd. destruct (at_label_remove (A ++ [P]) b (y :: B) n Hnd Hne) as (r & Er & Er').
      rewrite <-app_assoc in Er, Er'. cbn [app] in Er, Er'. rewrite Er.
      destruct (decide (n = l)) as [->|Hnl].
      + assert (l ∉ (label <$> A)) as HlA. { rewrite <-app_assoc, fmap_app in Hnd. apply NoDup_app in Hnd as (_ & Hd' & _). intros H. apply (Hd' _ H). by left. }
        pose proof (at_label_app A P (b :: y :: B) HlA) as E1. pose proof (at_label_app A P' (y :: B) HlA) as E2. cbn [label P P'] in E1, E2.
        rewrite E1 in Er. subst r. rewrite E2. cbn. destruct (perform M bd s) as [es s1]. eexists; split; [done|].
        unfold leave. cbn. rewrite Htest. destruct (test M c o s1); cbn; [left|by right]. split; [done|]. by intros l' [= <-].
      + assert (at_label n (A ++ P' :: y :: B) = at_label n (A ++ P :: y :: B)) as ->.
        { clear -Hnl. induction A as [|x A IH]; cbn; [by case_decide; [congruence|]|]. destruct (decide (label x = n)); [by destruct A|done]. }
        rewrite Er'. destruct r as [[x nx]|]; [|eexists; split; [done|by left]]. cbn. destruct (perform M (body x) s) as [es s1]. eexists; split; [done|].
        assert (nx <> Some (label b)) as Hnx.
        { intros ->. pose proof Er as Er2. rewrite cons_middle, app_assoc in Er2. destruct (at_label_next _ _ _ _ _ Er2 eq_refl) as (A' & b' & B' & HE & Hlb).
          assert (b' = b /\ A' ++ [x] = A ++ [P]) as [-> HA'].
          { assert (A' ++ x :: b' :: B' = (A' ++ [x]) ++ b' :: B') as E2 by (by rewrite <-app_assoc). rewrite E2 in HE. clear -HE Hlb Hnd HbA.
            revert HE. generalize (A' ++ [x]) as L. revert HbA Hnd. generalize (A ++ [P]) as K. intros K HbK Hnd L. revert L HbK Hnd.
            induction K as [|k K IH]; intros L HbK Hnd HE; destruct L as [|z L]; cbn in *.
            - by injection HE as -> _.
            - injection HE as -> HE. apply NoDup_cons in Hnd as [Hn _]. exfalso. apply Hn. change (label z ∈ label <$> (y :: B)). rewrite HE, fmap_app. apply elem_of_app. right. rewrite <-Hlb. by left.
            - injection HE as -> HE. exfalso. apply HbK. rewrite Hlb. by left.
            - injection HE as -> HE. apply NoDup_cons in Hnd as [_ Hnd]. apply not_elem_of_cons in HbK as [_ HbK]. destruct (IH L HbK Hnd HE) as [-> ->]. done. }
          apply app_inj_tail in HA' as [_ ->]. apply at_label_in in Er as [_ El]. by apply Hnl. }
        rewrite decide_False by done. left. split; [done|]. intros l' E ->. apply leave_at in E as [E|[E _]]; [|by apply Hnx].
        apply at_label_in in Er as [Hin Hlx]. apply elem_of_app in Hin as [Hin|Hin]; [revert E; apply Hu, elem_of_app; by left|].
        apply elem_of_cons in Hin as [->|Hin]; [by apply Hnl|]. apply elem_of_cons in Hin as [->|Hin].
        * rewrite Hl in E. cbn in E. apply elem_of_list_singleton in E. by apply Hd.
        * revert E. apply Hu, elem_of_app. right. by right.
    - by apply start_app.
    - intros n E ->. assert (start (A ++ P :: b :: y :: B) = onto (Some (label (default P (head A))))) as E2 by (by destruct A). rewrite E2 in E. injection E as E. apply HbA. rewrite fmap_app.
      apply elem_of_app. destruct A; cbn in E; rewrite <-E; [right|left]; by left.
  Qed.
  (** A block that control does not reach from any other. *)
  Lemma unreached_same A b B : A <> [] -> NoDup (label <$> A ++ b :: B) -> unjumped (label b) (A ++ B) -> (forall A' p, A = A' ++ [p] -> ~ falls (last p)) ->
    same (A ++ b :: B) (A ++ B).
  Proof.
    intros HA Hnd Hu Hf. assert (label b ∉ (label <$> A)) as HbA.
    { rewrite fmap_app in Hnd. apply NoDup_app in Hnd as (_ & Hd & _). intros H. apply (Hd _ H). by left. }
    apply (eq_same M _ _ (fun l => l <> label b)).
    - intros l s Hne. unfold Blocks_spec.step. destruct (at_label_remove A b B l Hnd Hne) as (r & E0 & ->). pose proof E0 as E1.
      destruct r as [[x nx]|]; rewrite E0; [|done]. cbn. destruct (perform M (body x) s) as [es s1].
      apply at_label_in in E1 as [Hin <-]. assert (x ∈ A ++ B) as Hin2.
      { apply elem_of_app in Hin as [Hin|Hin]; [apply elem_of_app; by left|]. apply elem_of_cons in Hin as [->|Hin]; [done|]. apply elem_of_app. by right. }
      assert (nx = Some (label b) -> ~ falls (last x)) as Hnx.
      { intros ->. destruct (at_label_next _ _ _ _ _ E0 eq_refl) as (A' & b' & B' & HE & Hlb).
        assert (A' ++ [x] = A) as HA'.
        { assert (A' ++ x :: b' :: B' = (A' ++ [x]) ++ b' :: B') as E2 by (by rewrite <-app_assoc). rewrite E2 in HE. clear -HE Hlb Hnd HbA.
          revert HE. generalize (A' ++ [x]) as L. revert HbA Hnd. intros HbK Hnd L. revert L HbK Hnd.
          induction A as [|k K IH]; intros L HbK Hnd HE; destruct L as [|z L]; cbn in *.
          - done.
          - injection HE as -> HE. apply NoDup_cons in Hnd as [Hn _]. exfalso. apply Hn. rewrite HE, fmap_app. apply elem_of_app. right. rewrite <-Hlb. by left.
          - injection HE as -> HE. exfalso. apply HbK. rewrite Hlb. by left.
          - injection HE as -> HE. apply NoDup_cons in Hnd as [_ Hnd]. apply not_elem_of_cons in HbK as [_ HbK]. by rewrite (IH L HbK Hnd HE). }
        by eapply Hf. }
      assert (leave M x nx s1 = leave M x (if decide (nx = Some (label b)) then label <$> head B else nx) s1) as El.
      { destruct (decide (nx = Some (label b))) as [E|]; [|done]. specialize (Hnx E). unfold leave. destruct (last x) as [cc o d|o ds|]; cbn in Hnx; [|done|tauto].
        destruct (test M cc o s1) eqn:Et; [done|]. exfalso. apply Hnx. intros ->. by cbn in Et. }
      rewrite <-El. split; [done|]. intros l' E ->. cbn in E. apply leave_at in E as [E|[E Hfx]]; [by revert E; apply Hu|]. by apply Hnx.
    - destruct A; [done|reflexivity].
    - intros l E ->. destruct A as [|a A]; [done|]. injection E as E. apply HbA. rewrite <-E. by left.
  Qed.
End Changes.
