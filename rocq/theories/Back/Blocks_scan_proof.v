(** The rounds of remove_unnecessary_bb. *)
From stdpp Require Import base list numbers gmap.
From Verif Require Import Back.Ir_model Back.Ir_spec Back.Cond_proof Back.Blocks_model Back.Blocks_spec Back.Blocks_proof.
Local Open Scope Z_scope.

Section Scan.
  Context {I R S : Type} (M : machine I R S).
  Implicit Types (bs L pre suf : list (bb I R)) (s : S) (keep F : gset nat) (nx : option nat).
  Notation same := (same M).

  (** ** Neighbours *)
  Definition next_in L nx : option nat := match L with q :: _ => Some (label q) | [] => nx end.
  Fixpoint adj keep L nx : Prop :=
    match L with
    | [] => True
    | p :: r => (falls (last p) -> forall l, next_in r nx = Some l -> l ∈ keep) /\ adj keep r nx
    end.
  Lemma adj_app keep L1 L2 nx : adj keep (L1 ++ L2) nx <-> adj keep L1 (next_in L2 nx) /\ adj keep L2 nx.
  Proof.
    induction L1 as [|p L1 IH]; cbn; [tauto|]. rewrite IH. destruct L1; cbn; tauto.
  Qed.
  Lemma adj_mono keep keep' L nx : keep ⊆ keep' -> adj keep L nx -> adj keep' L nx.
  Proof. intros H. induction L as [|p L IH]; [done|]. cbn. intros [H1 H2]. split; [|by apply IH]. intros Hf l E. apply H. by apply (H1 Hf). Qed.
  Lemma adj_minus keep L nx l : l ∉ (label <$> tail L) -> nx <> Some l -> adj keep L nx -> adj (keep ∖ {[l]}) L nx.
  Proof.
    intros Hl Hn. revert Hl. induction L as [|p L IH]; [done|]. cbn [tail adj]. intros Hl [H1 H2]. split.
    - intros Hf l' E. apply elem_of_difference. split; [by apply (H1 Hf)|]. intros ->%elem_of_singleton. destruct L as [|q L]; cbn in E; [done|]. injection E as E. apply Hl. rewrite <-E. by left.
    - apply IH; [|done]. intros H. apply Hl. destruct L; [done|]. cbn in *. by right.
  Qed.
  Lemma adj_nx keep L nx nx' : adj keep L nx -> (forall l, nx' = Some l -> l ∈ keep) -> adj keep L nx'.
  Proof.
    intros H Hn. induction L as [|p L IH]; [done|]. cbn in *. destruct H as [H1 H2]. split; [|by apply IH]. intros Hf l E. destruct L; cbn in *; [by apply Hn|by apply H1].
  Qed.
  Lemma adj_ext keep (f : bb I R -> bb I R) L nx : (forall b, label (f b) = label b) -> (forall b, falls (last (f b)) <-> falls (last b)) -> adj keep (f <$> L) nx <-> adj keep L nx.
  Proof.
    intros H1 H2. induction L as [|p L IH]; [done|]. cbn. rewrite IH, H2. destruct L; cbn; [done|]. by rewrite H1.
  Qed.

  (** ** The blocks not marked *)
  Definition V F pre : list (bb I R) := filter (fun b => label b ∉ F) pre.
  Lemma V_app F l1 l2 : V F (l1 ++ l2) = V F l1 ++ V F l2.
  Proof. apply filter_app. Qed.
  Lemma V_fmap F (f : bb I R -> bb I R) pre : (forall b, label (f b) = label b) -> V F (f <$> pre) = f <$> V F pre.
  Proof.
    intros H. induction pre as [|b pre IH]; [done|]. rewrite fmap_cons. unfold V in *. rewrite !filter_cons, IH, H. by case_decide.
  Qed.
  Lemma V_more F pre l : l ∉ (label <$> pre) -> V (F ∪ {[l]}) pre = V F pre.
  Proof.
    induction pre as [|b pre IH]; [done|]. rewrite fmap_cons, not_elem_of_cons. intros [H1 H2]. unfold V in *. rewrite !filter_cons, (IH H2).
    assert (label b ∉ F ∪ {[l]} <-> label b ∉ F) as Hi by (rewrite not_elem_of_union, elem_of_singleton; split; [tauto|]; intros H; split; [done|congruence]).
    destruct (decide (label b ∉ F)); [rewrite decide_True by tauto|rewrite decide_False by tauto]; done.
  Qed.
  Lemma V_in F pre b : b ∈ V F pre <-> b ∈ pre /\ label b ∉ F.
  Proof. unfold V. rewrite elem_of_list_filter. tauto. Qed.
  Lemma V_NoDup F pre suf : NoDup (label <$> pre ++ suf) -> NoDup (label <$> V F pre ++ suf).
  Proof.
    induction pre as [|b pre IH]; [done|]. cbn [app]. rewrite fmap_cons, stdpp.list.NoDup_cons. intros [H1 H2]. specialize (IH H2). unfold V in *. rewrite filter_cons. case_decide; [|done].
    cbn [app]. rewrite fmap_cons. apply NoDup_cons. split; [|done]. intros Hin. apply H1. apply elem_of_list_fmap in Hin as (x & -> & Hx). apply elem_of_list_fmap_1. apply elem_of_app in Hx as [Hx|Hx]; apply elem_of_app; [left|by right].
    by apply elem_of_list_filter in Hx as [_ Hx].
  Qed.

  Lemma insert_mid {A} (l1 l2 : list A) x y : <[length l1 := x]> (l1 ++ y :: l2) = l1 ++ x :: l2.
  Proof. induction l1; [done|]. cbn. by f_equal. Qed.

  Record inv P0 pre suf keep F : Prop := {
    i_nd : NoDup (label <$> pre ++ suf);
    i_conds : conds_ok (pre ++ suf);
    i_same : same P0 (V F pre ++ suf);
    i_F : forall f, f ∈ F -> f ∉ keep /\ f ∈ (label <$> tail pre);
    i_Funj : forall f, f ∈ F -> unjumped f (V F pre ++ suf);
    i_Fshape : forall b, b ∈ pre -> label b ∈ F -> last b = EFall \/ exists o d, last b = EJmp 1 o d;
    i_tgt : forall b l, b ∈ V F pre -> l ∈ targets (last b) -> l ∈ keep;
    i_adj : adj keep (V F pre) (label <$> head suf)
  }.

  Lemma redirect_last src dst (b : bb I R) : label b <> src -> targets (last (redirect src dst b)) = swap_dst src dst <$> targets (last b).
  Proof. intros H. unfold redirect. apply Nat.eqb_neq in H as ->. cbn. by destruct (last b). Qed.
  Lemma redirect_falls src dst (b : bb I R) : falls (last (redirect src dst b)) <-> falls (last b).
  Proof. unfold redirect. destruct (_ =? _)%nat; [done|]. cbn. by destruct (last b). Qed.
  Lemma redirect_self src dst (b : bb I R) : label b = src -> redirect src dst b = b.
  Proof. intros <-. unfold redirect. by rewrite Nat.eqb_refl. Qed.
  Lemma redirect_unjumped src dst bs f : src <> dst -> f <> dst -> (forall b, b ∈ bs -> label b = src -> f ∉ targets (last b)) -> (f = src \/ unjumped f bs) -> unjumped f (redirect src dst <$> bs).
  Proof.
    intros Hsd Hfd Hs Hf b' Hb'. apply elem_of_list_fmap in Hb' as (b & -> & Hb). destruct (decide (label b = src)) as [E|E]; [rewrite redirect_self by done; by apply Hs|].
    rewrite redirect_last by done. intros H. apply elem_of_list_fmap in H as (t & -> & Ht). unfold swap_dst in *. destruct (t =? src)%nat eqn:Et; [done|]. apply Nat.eqb_neq in Et.
    destruct Hf as [Hf|Hf]; [done|]. by apply (Hf b Hb).
  Qed.
  Lemma redirect_conds src dst bs : conds_ok bs -> conds_ok (redirect src dst <$> bs).
  Proof.
    intros H b' c o d Hb' E. apply elem_of_list_fmap in Hb' as (b & -> & Hb). unfold redirect in E. destruct (_ =? _)%nat; [by eapply H|].
    cbn in E. destruct (last b) as [c1 o1 d1| |] eqn:El; [|done..]. injection E as <- <- <-. by eapply H.
  Qed.
  Lemma redirect_labels src dst bs : label <$> (redirect src dst <$> bs) = label <$> bs.
  Proof. rewrite <-list_fmap_compose. apply list_fmap_ext. intros ? b _. apply redirect_label. Qed.

  Lemma puts_tgt (b : bb I R) nx l : l ∈ targets (last b) -> l ∈ puts b nx.
  Proof.
    unfold puts. destruct (last b) as [c o d|o ds|]; cbn [targets].
    - intros ->%elem_of_list_singleton. apply elem_of_union_l. by apply elem_of_singleton.
    - intros H. apply elem_of_union_r. by apply elem_of_list_to_set.
    - by intros H%elem_of_nil.
  Qed.
  Lemma puts_nx (b : bb I R) l : falls (last b) -> l ∈ puts b (Some l).
  Proof.
    unfold puts. destruct (last b) as [c o d|o ds|]; cbn [falls option_list]; [| |intros _; apply elem_of_list_to_set; by left].
    - intros H. apply elem_of_union_r. unfold COND_ANY. rewrite decide_False by done. apply elem_of_list_to_set. by left.
    - done.
  Qed.
  Lemma puts_inv (b : bb I R) nx l : l ∈ puts b nx -> l ∈ targets (last b) \/ nx = Some l.
  Proof.
    unfold puts. destruct (last b) as [c o d|o ds|]; cbn [targets].
    - intros [H%elem_of_singleton|H]%elem_of_union; [left; by apply elem_of_list_singleton|]. case_decide; [by apply elem_of_empty in H|]. apply elem_of_list_to_set in H. destruct nx; cbn in H; [|by apply elem_of_nil in H]. apply elem_of_list_singleton in H as ->. by right.
    - intros [H|H]%elem_of_union; apply elem_of_list_to_set in H; [|by left]. destruct nx; cbn in H; [|by apply elem_of_nil in H]. apply elem_of_list_singleton in H as ->. by right.
    - intros H. apply elem_of_list_to_set in H. destruct nx; cbn in H; [|by apply elem_of_nil in H]. apply elem_of_list_singleton in H as ->. by right.
  Qed.

  Lemma label_pre P0 pre suf keep F f b : inv P0 pre (b :: suf) keep F -> f ∈ F -> f <> label b /\ f ∉ (label <$> suf).
  Proof.
    intros H Hf. destruct (i_F _ _ _ _ _ H f Hf) as [_ Hin]. pose proof (i_nd _ _ _ _ _ H) as Hnd. rewrite fmap_app in Hnd. apply NoDup_app in Hnd as (_ & Hd & _).
    assert (f ∈ (label <$> pre)) as Hin2. { destruct pre; cbn in *; [by apply elem_of_nil in Hin|by right]. }
    specialize (Hd f Hin2). cbn in Hd. apply not_elem_of_cons in Hd. done.
  Qed.
  Lemma label_b P0 pre suf keep F b : inv P0 pre (b :: suf) keep F -> label b ∉ (label <$> pre) /\ label b ∉ (label <$> suf).
  Proof.
    intros H. pose proof (i_nd _ _ _ _ _ H) as Hnd. rewrite fmap_app in Hnd. apply NoDup_app in Hnd as (_ & Hd & Hnd). cbn in Hnd. apply NoDup_cons in Hnd as [Hn _].
    split; [|done]. intros Hin. apply (Hd _ Hin). by left.
  Qed.

  Lemma inv_drop P0 pre b suf keep F : inv P0 pre (b :: suf) keep F -> inv P0 pre (drop_jmp b (label <$> head suf) :: suf) keep F.
  Proof.
    intros H. unfold drop_jmp. destruct (last b) as [c o d| |] eqn:El; [|done..]. case_decide as Ed; [|done]. destruct suf as [|y suf]; [done|]. injection Ed as Ed.
    destruct b as [l bd e]. cbn in *. subst e d. destruct H as [H1 H2 H3 H4 H5 H6 H7 H8]. constructor; cbn [label] in *; try done.
    - by rewrite fmap_app in *.
    - intros b c' o' d' Hb E. apply elem_of_app in Hb as [Hb|Hb]; [eapply H2; [apply elem_of_app; by left|done]|]. apply elem_of_cons in Hb as [->|Hb]; [done|]. eapply H2; [apply elem_of_app; right; by right|done].
    - eapply same_trans; [exact H3|]. apply drop_same. by apply (V_NoDup F) in H1.
    - intros f Hf b Hb. apply elem_of_app in Hb as [Hb|Hb]; [apply (H5 f Hf), elem_of_app; by left|]. apply elem_of_cons in Hb as [->|Hb]; [apply not_elem_of_nil|]. apply (H5 f Hf), elem_of_app. right. by right.
  Qed.
  Lemma inv_keep P0 pre b suf keep F : inv P0 pre (b :: suf) keep F -> inv P0 (pre ++ [b]) suf (keep ∪ puts b (label <$> head suf)) F.
  Proof.
    intros H. assert (HF : forall f, f ∈ F -> f <> label b /\ f ∉ (label <$> suf)) by (intros f Hf; by eapply (label_pre _ _ _ _ _ _ _ H)). destruct (label_b _ _ _ _ _ _ H) as [Hb1 Hb2].
    assert (label b ∉ F) as HbF. { intros Hf. by destruct (HF _ Hf). }
    assert (V F (pre ++ [b]) = V F pre ++ [b]) as EV. { rewrite V_app. f_equal. unfold V. rewrite filter_cons, decide_True by done. done. }
    constructor.
    - rewrite <-app_assoc. apply H.
    - rewrite <-app_assoc. apply H.
    - rewrite EV, <-app_assoc. apply H.
    - intros f Hf. destruct (i_F _ _ _ _ _ H f Hf) as [Hk Hin]. split.
      + apply not_elem_of_union. split; [done|]. intros Hp. apply puts_inv in Hp as [Hp|Hp].
        * revert Hp. apply (i_Funj _ _ _ _ _ H f Hf). apply elem_of_app. right. by left.
        * destruct (HF f Hf) as [_ Hns]. apply Hns. destruct suf; [done|]. injection Hp as <-. by left.
      + destruct pre; [by apply elem_of_nil in Hin|]. cbn. rewrite fmap_app. apply elem_of_app. by left.
    - intros f Hf. rewrite EV, <-app_assoc. by apply (i_Funj _ _ _ _ _ H f Hf).
    - intros x Hx Hf. apply elem_of_app in Hx as [Hx|Hx]; [by apply (i_Fshape _ _ _ _ _ H x)|]. by apply elem_of_list_singleton in Hx as ->.
    - intros x l Hx Hl. rewrite EV in Hx. apply elem_of_app in Hx as [Hx|Hx]; [apply elem_of_union_l; by eapply (i_tgt _ _ _ _ _ H x)|]. apply elem_of_list_singleton in Hx as ->. apply elem_of_union_r. by apply puts_tgt.
    - rewrite EV. apply adj_app. split.
      + cbn [next_in]. eapply adj_mono; [|apply H]. apply union_subseteq_l.
      + cbn. split; [|done]. intros Hf l E. apply elem_of_union_r. rewrite E. by apply puts_nx.
  Qed.
  Lemma inv_redirect P0 pre b suf keep F d : inv P0 pre (b :: suf) keep F -> (forall s, step M (V F pre ++ b :: suf) (label b) s = ([], At d, s)) -> d <> label b -> d ∉ F ->
    inv P0 (redirect (label b) d <$> pre) (b :: (redirect (label b) d <$> suf)) (keep ∪ {[d]}) F /\ unjumped (label b) (V F (redirect (label b) d <$> pre) ++ (redirect (label b) d <$> suf)).
  Proof.
    intros H Hs Hd HdF. set (f := redirect (label b) d). destruct (label_b _ _ _ _ _ _ H) as [Hb1 Hb2].
    assert (forall l1 l2, (f <$> l1) ++ b :: (f <$> l2) = f <$> (l1 ++ b :: l2)) as Eapp. { intros l1 l2. rewrite fmap_app, fmap_cons. assert (f b = b) as -> by (by apply redirect_self). done. }
    assert (forall x, x ∈ V F pre \/ x ∈ suf -> label x <> label b) as Hne.
    { intros x [Hx|Hx] E; [apply V_in in Hx as [Hx _]; apply Hb1|apply Hb2]; rewrite <-E; by apply elem_of_list_fmap_1. }
    split.
    - constructor; rewrite ?(V_fmap F f pre) by apply redirect_label; rewrite ?Eapp.
      + unfold f. rewrite redirect_labels. apply H.
      + apply redirect_conds, H.
      + eapply same_trans; [apply H|]. by apply redirect_same.
      + intros g Hg. destruct (i_F _ _ _ _ _ H g Hg) as [Hk Hin]. split; [apply not_elem_of_union; split; [done|]; intros ->%elem_of_singleton; done|]. rewrite <-fmap_tail. unfold f. by rewrite redirect_labels.
      + intros g Hg. apply redirect_unjumped; [done|intros ->; done| |right; by apply H]. intros x Hx _. by apply (i_Funj _ _ _ _ _ H g Hg).
      + intros x Hx Hf. apply elem_of_list_fmap in Hx as (y & -> & Hy). unfold f in *. rewrite redirect_label in Hf. destruct (i_Fshape _ _ _ _ _ H y Hy Hf) as [E|(o & d' & E)]; unfold redirect; destruct (_ =? _)%nat; cbn; rewrite E; eauto.
      + intros x l Hx Hl. apply elem_of_list_fmap in Hx as (y & -> & Hy). unfold f in Hl. rewrite redirect_last in Hl by (apply Hne; by left).
        apply elem_of_list_fmap in Hl as (t & -> & Ht). unfold swap_dst. destruct (_ =? _)%nat; [apply elem_of_union_r; by apply elem_of_singleton|]. apply elem_of_union_l. by eapply (i_tgt _ _ _ _ _ H y).
      + apply adj_ext; [apply redirect_label|apply redirect_falls|]. eapply adj_mono; [|apply H]. apply union_subseteq_l.
    - rewrite V_fmap by apply redirect_label. rewrite <-fmap_app. apply redirect_unjumped; [done|done| |by left]. intros x Hx E. exfalso. apply elem_of_app in Hx. by apply (Hne x).
  Qed.
  Lemma inv_empty P0 pre b c suf keep F : inv P0 pre (b :: c :: suf) keep F -> pre <> [] -> body b = [] -> last b = EFall -> unjumped (label b) (V F pre ++ c :: suf) ->
    inv P0 (pre ++ [b]) (c :: suf) ((keep ∪ puts b (Some (label c))) ∖ {[label b]}) (F ∪ {[label b]}).
  Proof.
    intros H Hpre Hb Hl Hu. destruct (label_b _ _ _ _ _ _ H) as [Hb1 Hb2].
    assert (V (F ∪ {[label b]}) (pre ++ [b]) = V F pre) as EV.
    { rewrite V_app, V_more by done. unfold V at 2. rewrite filter_cons, decide_False; [by rewrite app_nil_r|]. intros Hn. apply Hn. apply elem_of_union_r. by apply elem_of_singleton. }
    assert (label c ∈ puts b (Some (label c))) as Hc. { apply puts_nx. by rewrite Hl. }
    assert (label c <> label b) as Hcb. { intros E. apply Hb2. rewrite <-E. by left. }
    constructor; rewrite ?EV.
    - rewrite <-app_assoc. apply H.
    - rewrite <-app_assoc. apply H.
    - eapply same_trans; [apply H|]. apply empty_same; [|by apply V_NoDup, H|done..].
      destruct pre as [|p pre]; [done|]. unfold V. rewrite filter_cons, decide_True; [done|]. intros Hp. destruct (i_F _ _ _ _ _ H _ Hp) as [_ Hin]. cbn in Hin.
      pose proof (i_nd _ _ _ _ _ H) as Hnd. cbn in Hnd. apply NoDup_cons in Hnd as [Hn _]. apply Hn. rewrite fmap_app. apply elem_of_app. by left.
    - intros f [Hf|Hf%elem_of_singleton]%elem_of_union.
      + destruct (i_F _ _ _ _ _ H f Hf) as [Hk Hin]. split.
        * intros Hx. apply elem_of_difference in Hx as [Hx Hfb]. apply elem_of_union in Hx as [Hx|Hx]; [done|]. apply puts_inv in Hx as [Hx|Hx]; [rewrite Hl in Hx; by apply elem_of_nil in Hx|]. injection Hx as Hx.
          destruct (label_pre _ _ _ _ _ _ _ H Hf) as [_ Hns]. apply Hns. rewrite <-Hx. by left.
        * destruct pre; [done|]. cbn. rewrite fmap_app. apply elem_of_app. by left.
      + subst f. split; [intros Hx; apply elem_of_difference in Hx as [_ Hx]; apply Hx; by apply elem_of_singleton|]. destruct pre; [done|]. cbn. rewrite fmap_app. apply elem_of_app. right. by left.
    - intros f [Hf|Hf%elem_of_singleton]%elem_of_union; [|by subst f]. intros x Hx. apply (i_Funj _ _ _ _ _ H f Hf). apply elem_of_app in Hx as [Hx|Hx]; apply elem_of_app; [by left|right; by right].
    - intros x Hx Hf. apply elem_of_app in Hx as [Hx|Hx]; [|apply elem_of_list_singleton in Hx as ->; by left]. apply (i_Fshape _ _ _ _ _ H x Hx). apply elem_of_union in Hf as [Hf|Hf%elem_of_singleton]; [done|]. exfalso. apply Hb1. rewrite <-Hf. by apply elem_of_list_fmap_1.
    - intros x l Hx Ht. apply elem_of_difference. split; [apply elem_of_union_l; by eapply (i_tgt _ _ _ _ _ H x)|]. intros ->%elem_of_singleton. revert Ht. apply Hu. apply elem_of_app. by left.
    - apply adj_minus; [|intros [= E]; done|].
      + intros Hx. apply Hb1. assert (tail (V F pre) ⊆ pre) as Hsub. { intros x Hx'. destruct (V F pre) as [|y r] eqn:E; [by apply elem_of_nil in Hx'|]. cbn in Hx'. assert (x ∈ V F pre) as Hx2 by (rewrite E; by right). by apply V_in in Hx2 as [? _]. }
        apply elem_of_list_fmap in Hx as (x & -> & Hx). apply elem_of_list_fmap_1. by apply Hsub.
      + eapply adj_nx; [eapply adj_mono; [|apply H]; apply union_subseteq_l|]. intros l [= <-]. by apply elem_of_union_r.
  Qed.
  Lemma inv_head P0 b suf keep F : inv P0 [b] suf keep F -> last b = EFall -> inv P0 [b] suf (keep ∖ {[label b]}) F.
  Proof.
    intros H Hl. assert (forall f, f ∉ F) as HF. { intros f Hf. destruct (i_F _ _ _ _ _ H f Hf) as [_ Hin]. by apply elem_of_nil in Hin. }
    constructor; try apply H.
    - intros f Hf. by destruct (HF f).
    - intros x l Hx Ht. apply V_in in Hx as [Hx _]. apply elem_of_list_singleton in Hx as ->. rewrite Hl in Ht. by apply elem_of_nil in Ht.
    - apply adj_minus; [| |apply H].
      + unfold V. rewrite filter_cons, decide_True by apply HF. apply not_elem_of_nil.
      + pose proof (i_nd _ _ _ _ _ H) as Hnd. cbn in Hnd. apply NoDup_cons in Hnd as [Hn _]. intros E. apply Hn. destruct suf; [done|]. injection E as <-. by left.
  Qed.
  Lemma inv_turn P0 pre l bd c o y b suf keep F c' o' d : inv P0 (pre ++ [BB l bd (EJmp c o (label y))]) (b :: y :: suf) keep F -> body b = [] -> last b = EJmp 1 o' d -> d <> label b ->
    c <> 1 -> Z.testbit c 4 = false -> invert_cond c = Some c' -> unjumped (label b) (V F (pre ++ [BB l bd (EJmp c o (label y))]) ++ y :: suf) ->
    inv P0 ((pre ++ [BB l bd (EJmp c' o d)]) ++ [b]) (y :: suf) ((keep ∪ puts b (Some (label y))) ∖ {[label b]}) (F ∪ {[label b]}).
  Proof.
    intros H Hb Hl Hd Hc Hfl Hinv Hu. destruct (label_b _ _ _ _ _ _ H) as [Hb1 Hb2]. set (P := BB l bd (EJmp c o (label y))) in *. set (P' := BB l bd (EJmp c' o d)).
    assert (c' <> 1) as Hc'.
    { assert (exists k u f, c = cond_code k u f /\ k <> CNever /\ k <> CAlways) as (k & u & f & -> & Hk1 & Hk2).
      { destruct (i_conds _ _ _ _ _ H P c o (label y)) as [?|?]; [|done|done|done]. apply elem_of_app. left. apply elem_of_app. right. by left. }
      rewrite invert_code in Hinv by done. injection Hinv as <-. by destruct k, u, f. }
    assert (label P ∉ F) as HPF. { intros Hf. destruct (i_Fshape _ _ _ _ _ H P) as [E|(? & ? & E)]; [apply elem_of_app; right; by left|done|done|]. injection E as E _ _. done. }
    assert (V F (pre ++ [P]) = V F pre ++ [P]) as EV. { rewrite V_app. f_equal. unfold V. by rewrite filter_cons, decide_True. }
    rewrite EV in *. rewrite fmap_app, not_elem_of_app in Hb1. destruct Hb1 as [Hb1 HbP]. cbn [fmap list_fmap] in HbP. apply not_elem_of_cons in HbP as [HbP _].
    assert (V (F ∪ {[label b]}) ((pre ++ [P']) ++ [b]) = V F pre ++ [P']) as EV'.
    { rewrite !V_app, V_more by done. unfold V at 2 3. rewrite !filter_cons. rewrite decide_True, decide_False; [by rewrite app_nil_r| |].
      - intros Hn. apply Hn. apply elem_of_union_r. by apply elem_of_singleton.
      - apply not_elem_of_union. split; [done|]. rewrite elem_of_singleton. intros E. by apply HbP. }
    assert (label b <> label y) as Hby. { intros E. apply Hb2. rewrite E. by left. }
    assert (label y ∈ keep) as Hy. { eapply (i_tgt _ _ _ _ _ H P); [rewrite EV; apply elem_of_app; right; by left|]. by left. }
    assert (forall f, f ∈ F -> d <> f) as HdF. { intros f Hf ->. apply (i_Funj _ _ _ _ _ H f Hf b); [apply elem_of_app; right; by left|]. rewrite Hl. by left. }
    pose proof (i_same _ _ _ _ _ H) as Hsm. rewrite EV in Hsm.
    constructor; rewrite ?EV'.
    - pose proof (i_nd _ _ _ _ _ H) as Hnd. rewrite !fmap_app in *. cbn in *. by rewrite <-!app_assoc in *.
    - intros x c1 o1 d1 Hx E. assert (x ∈ pre \/ x = P' \/ x ∈ b :: y :: suf) as Hx'.
      { apply elem_of_app in Hx as [Hx|Hx]; [|right; right; by right]. apply elem_of_app in Hx as [Hx|Hx]; [|apply elem_of_list_singleton in Hx as ->; right; right; by left]. apply elem_of_app in Hx as [Hx|Hx]; [by left|]. apply elem_of_list_singleton in Hx. tauto. }
      destruct Hx' as [Hx'|[->|Hx']].
      + eapply (i_conds _ _ _ _ _ H); [apply elem_of_app; left; apply elem_of_app; by left|done].
      + injection E as <- <- <-. right. destruct (i_conds _ _ _ _ _ H P c o (label y)) as [?|(k & u & f & -> & Hk1 & Hk2)]; [apply elem_of_app; left; apply elem_of_app; right; by left|done|done|].
        rewrite invert_code in Hinv by done. injection Hinv as <-. exists (Cond_proof.inv k), u, f. split; [done|]. by destruct k.
      + eapply (i_conds _ _ _ _ _ H); [apply elem_of_app; by right|done].
    - eapply same_trans; [exact Hsm|]. rewrite <-!app_assoc. cbn [app]. eapply turn_same; try done.
      + pose proof (V_NoDup F _ _ (i_nd _ _ _ _ _ H)) as Hnd. rewrite EV, <-app_assoc in Hnd. exact Hnd.
      + destruct (i_conds _ _ _ _ _ H P c o (label y)) as [?|(k & u & f & -> & Hk1 & Hk2)]; [apply elem_of_app; left; apply elem_of_app; right; by left|done|done|eauto].
      + rewrite <-app_assoc in Hu. exact Hu.
    - intros f [Hf|Hf%elem_of_singleton]%elem_of_union.
      + destruct (i_F _ _ _ _ _ H f Hf) as [Hk Hin]. split.
        * intros Hx. apply elem_of_difference in Hx as [Hx Hfb]. apply elem_of_union in Hx as [Hx|Hx]; [done|]. apply puts_inv in Hx as [Hx|Hx].
          -- rewrite Hl in Hx. apply elem_of_list_singleton in Hx. by apply (HdF f Hf).
          -- injection Hx as Hx. destruct (label_pre _ _ _ _ _ _ _ H Hf) as [_ Hns]. apply Hns. rewrite <-Hx. by left.
        * clear -Hin. destruct pre as [|p pre]; cbn in *; [by apply elem_of_nil in Hin|]. rewrite !fmap_app in *. apply elem_of_app. by left.
      + subst f. split; [intros Hx; apply elem_of_difference in Hx as [_ Hx]; apply Hx; by apply elem_of_singleton|].
        destruct pre as [|p pre]; cbn; rewrite ?fmap_app; [by left|]. apply elem_of_app. right. by left.
    - intros f Hf x Hx. assert (x ∈ V F pre \/ x = P' \/ x ∈ y :: suf) as Hx'. { apply elem_of_app in Hx as [Hx|Hx]; [|by right; right]. apply elem_of_app in Hx as [Hx|Hx%elem_of_list_singleton]; tauto. }
      destruct Hx' as [Hx'|[->|Hx']].
      + apply elem_of_union in Hf as [Hf|Hf%elem_of_singleton]; [apply (i_Funj _ _ _ _ _ H f Hf); rewrite EV, <-app_assoc; apply elem_of_app; by left|]. subst f. apply Hu. rewrite <-app_assoc. apply elem_of_app. by left.
      + cbn. rewrite elem_of_list_singleton. apply elem_of_union in Hf as [Hf|Hf%elem_of_singleton]; [intros ->; by apply (HdF d Hf)|]. subst f. intros E. by apply Hd.
      + apply elem_of_union in Hf as [Hf|Hf%elem_of_singleton]; [apply (i_Funj _ _ _ _ _ H f Hf); apply elem_of_app; right; by right|]. subst f. apply Hu. apply elem_of_app. by right.
    - intros x Hx Hf. apply elem_of_app in Hx as [Hx|Hx%elem_of_list_singleton]; [|subst x; right; eauto]. apply elem_of_app in Hx as [Hx|Hx%elem_of_list_singleton].
      + apply (i_Fshape _ _ _ _ _ H x); [apply elem_of_app; by left|]. apply elem_of_union in Hf as [Hf|Hf%elem_of_singleton]; [done|]. exfalso. apply Hb1. rewrite <-Hf. by apply elem_of_list_fmap_1.
      + subst x. exfalso. apply elem_of_union in Hf as [Hf|Hf%elem_of_singleton]; [done|]. by apply HbP.
    - intros x t Hx Ht. apply elem_of_difference. apply elem_of_app in Hx as [Hx|Hx%elem_of_list_singleton].
      + split; [apply elem_of_union_l; eapply (i_tgt _ _ _ _ _ H x); [rewrite EV; apply elem_of_app; by left|done]|]. intros ->%elem_of_singleton. revert Ht. apply Hu. rewrite <-app_assoc. apply elem_of_app. by left.
      + subst x. cbn in Ht. apply elem_of_list_singleton in Ht as ->. split; [|by rewrite elem_of_singleton]. apply elem_of_union_r. apply puts_tgt. rewrite Hl. by left.
    - apply adj_minus; [|cbn; intros [= E]; by apply Hby|].
      + intros Hx. assert (label b ∈ (label <$> V F pre ++ [P'])) as Hx2. { destruct (V F pre ++ [P']); [done|]. by right. }
        rewrite fmap_app in Hx2. apply elem_of_app in Hx2 as [Hx2|Hx2].
        * apply elem_of_list_fmap in Hx2 as (x & E & Hx2). apply V_in in Hx2 as [Hx2 _]. apply Hb1. rewrite E. by apply elem_of_list_fmap_1.
        * cbn in Hx2. by apply elem_of_list_singleton in Hx2.
      + pose proof (i_adj _ _ _ _ _ H) as Ha. rewrite EV in Ha. apply adj_app in Ha as [Ha _]. apply adj_app. split; [eapply adj_mono; [|exact Ha]; apply union_subseteq_l|].
        cbn. split; [|done]. intros _ l' [= <-]. by apply elem_of_union_l.
  Qed.
End Scan.
