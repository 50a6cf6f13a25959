(** Proofs about the propagation of uses. *)
From stdpp Require Import base list numbers gmap.
From Verif Require Import Front.Reach_model Front.Reach_spec.
Open Scope nat_scope.

Lemma elem_of_rev {A} (x : A) l : x ∈ rev l <-> x ∈ l.
Proof. rewrite !elem_of_list_In. symmetry. apply in_rev. Qed.

Section proof.
  Context (info : nat -> global) (vars all : list nat) (Hc : closed info vars all).

  Lemma classify_push v : classify (info v) = Push <-> visible_function (info v) \/ visible_variable (info v).
  Proof.
    unfold classify, visible_function, visible_variable.
    destruct (g_func (info v)), (g_body (info v)), (g_static (info v)), (g_inline (info v)), (g_extern (info v)), (g_enum_member (info v)), (g_xtor (info v));
      cbn; (split; [intros H; try discriminate H; naive_solver|naive_solver]).
  Qed.
  Lemma classify_unused v : classify (info v) = Unused <->
    g_static (info v) = true /\ (g_func (info v) = true -> g_body (info v) = true /\ g_inline (info v) = false /\ g_xtor (info v) = false).
  Proof.
    unfold classify.
    destruct (g_func (info v)), (g_body (info v)), (g_static (info v)), (g_inline (info v)), (g_extern (info v)), (g_enum_member (info v)), (g_xtor (info v));
      cbn; (split; [intros H; try discriminate H; naive_solver|naive_solver]).
  Qed.

  (** The table of static definitions not yet found to be needed. *)
  Definition table_ok (done : list nat) (marked : list nat) (unused : gmap nat nat) : Prop :=
    forall n v, unused !! n = Some v <-> v ∈ done /\ classify (info v) = Unused /\ g_name (info v) = n /\ v ∉ marked.

  Lemma name_inj v w : v ∈ all -> w ∈ all -> g_name (info v) = g_name (info w) -> v = w.
  Proof. apply Hc. Qed.

  Lemma collect_ok vs : forall done unchecked unused uc un,
    (forall v, v ∈ done -> v ∈ all) -> (forall v, v ∈ vs -> v ∈ all) ->
    (forall v, v ∈ unchecked <-> v ∈ done /\ classify (info v) = Push) -> table_ok done [] unused ->
    collect info vs unchecked unused = (uc, un) ->
    (forall v, v ∈ uc <-> v ∈ done ++ vs /\ classify (info v) = Push) /\ table_ok (done ++ vs) [] un /\ length uc <= length unchecked + length vs.
  Proof.
    induction vs as [|v vs IH]; intros done unchecked unused uc un Hd Hv Hu Ht; cbn [collect].
    - intros [= <- <-]. rewrite app_nil_r. split; [done|split; [done|lia]].
    - assert (Hd' : forall w, w ∈ done ++ [v] -> w ∈ all) by (intros w; rewrite elem_of_app, elem_of_list_singleton; intros [?| ->]; [auto|apply Hv; left]).
      assert (Hv' : forall w, w ∈ vs -> w ∈ all) by (intros w ?; apply Hv; by right).
      intros H. rewrite cons_middle, app_assoc.
      assert (Hun : forall w, w ∈ done ++ [v] <-> w ∈ done \/ w = v) by (intros w; by rewrite elem_of_app, elem_of_list_singleton).
      destruct (classify (info v)) eqn:Ec.
      + destruct (IH (done ++ [v]) unchecked unused uc un Hd' Hv') as (?&?&?); [| |exact H|].
        * intros w. rewrite Hun, Hu. split; [tauto|]. intros [[?| ->] ?]; [tauto|congruence].
        * intros n w. rewrite (Ht n w), Hun. split; [tauto|]. intros ([?| ->]&?&?&?); [tauto|congruence].
        * cbn [length]. split; [done|split; [done|lia]].
      + destruct (IH (done ++ [v]) unchecked (<[g_name (info v) := v]> unused) uc un Hd' Hv') as (?&?&?); [| |exact H|].
        * intros w. rewrite Hun, Hu. split; [tauto|]. intros [[?| ->] ?]; [tauto|congruence].
        * intros n w. rewrite Hun. destruct (decide (n = g_name (info v))) as [->|Hne].
          -- rewrite lookup_insert. split.
             ++ intros [= <-]. split; [by right|]. split; [done|]. split; [done|]. apply not_elem_of_nil.
             ++ intros ([Hw| ->]&?&Hn&_); [|done]. f_equal. symmetry. apply name_inj; [by apply Hd|apply Hv; left|done].
          -- rewrite lookup_insert_ne by done. rewrite (Ht n w). split; [tauto|]. intros ([?| ->]&?&?&?); [tauto|congruence].
        * cbn [length]. split; [done|split; [done|lia]].
      + destruct (IH (done ++ [v]) (v :: unchecked) unused uc un Hd' Hv') as (?&?&?); [| |exact H|].
        * intros w. rewrite Hun, elem_of_cons, Hu. split; [intros [->|?]; tauto|]. intros [[?| ->] ?]; tauto.
        * intros n w. rewrite (Ht n w), Hun. split; [tauto|]. intros ([?| ->]&?&?&?); [tauto|congruence].
        * cbn [length] in *. split; [done|split; [done|lia]].
  Qed.

  (** The references of VarInfos not yet marked. *)
  Definition todo (marked : list nat) : nat :=
    sum_list ((fun v => if decide (v ∈ marked) then 0 else length (g_refs (info v))) <$> all).
  Lemma todo_mark v marked : v ∈ all -> v ∉ marked -> todo (v :: marked) + length (g_refs (info v)) <= todo marked.
  Proof.
    unfold todo. intros Hv Hm.
    assert (Hle : forall l, sum_list ((fun w => if decide (w ∈ v :: marked) then 0 else length (g_refs (info w))) <$> l) <=
                            sum_list ((fun w => if decide (w ∈ marked) then 0 else length (g_refs (info w))) <$> l)).
    { induction l as [|w l IH]; [done|]. cbn [fmap list_fmap sum_list_with] in *; unfold id in *.
      destruct (decide (w ∈ v :: marked)) as [H1|H1], (decide (w ∈ marked)) as [H2|H2]; try lia.
      exfalso. apply H1. by right. }
    clear Hc. induction all as [|w l IH]; [by apply elem_of_nil in Hv|]. cbn [fmap list_fmap sum_list_with]; unfold id.
    destruct (decide (w = v)) as [->|Hne].
    - rewrite (decide_True (P := v ∈ v :: marked)) by left. rewrite (decide_False (P := v ∈ marked)) by done. specialize (Hle l). unfold id in *. lia.
    - apply elem_of_cons in Hv as [?|Hv]; [congruence|]. specialize (IH Hv). unfold id in *.
      destruct (decide (w ∈ v :: marked)) as [H1|H1], (decide (w ∈ marked)) as [H2|H2]; try lia.
      exfalso. apply H1. by right.
  Qed.

  Lemma propagate_ok fuel : forall unchecked used unused marked,
    (forall v, v ∈ unchecked -> v ∈ all /\ reachable info vars v) ->
    (forall v, v ∈ marked -> v ∈ all /\ reachable info vars v) ->
    (forall n, n ∈ used <-> exists v, v ∈ marked /\ g_name (info v) = n) ->
    (forall v, root info vars v -> v ∈ marked \/ v ∈ unchecked) ->
    (forall v w, v ∈ marked -> w ∈ g_refs (info v) -> w ∈ marked \/ w ∈ unchecked) ->
    table_ok vars marked unused ->
    length unchecked + todo marked <= fuel ->
    exists m un, propagate info fuel unchecked used unused marked = Some (m, un) /\
      (forall v, v ∈ m <-> reachable info vars v) /\ table_ok vars m un.
  Proof.
    induction fuel as [|fuel IH]; intros unchecked used unused marked Hu Hm Hused Hroot Hcl Ht Hf.
    all: destruct unchecked as [|v rest]; cbn [propagate]; try (cbn [length] in Hf; lia).
    1,2: exists marked, unused; split; [done|]; split; [|done]; intros v; split; [apply Hm|];
      induction 1 as [v Hr|v w Hr IHr Hw];
      [destruct (Hroot v Hr) as [?|H]; [done|by apply elem_of_nil in H]|
       destruct (Hcl v w IHr Hw) as [?|H]; [done|by apply elem_of_nil in H]].
    destruct (Hu v ltac:(left)) as [Hva Hvr]. cbn [length] in Hf. cbv zeta.
    destruct (decide (g_name (info v) ∈ used)) as [Hin|Hin].
    - assert (Hvm : v ∈ marked).
      { apply Hused in Hin as (w&Hw&Hn). by rewrite <- (name_inj w v (proj1 (Hm w Hw)) Hva Hn). }
      apply IH; try done; [| | |lia].
      + intros w ?. apply Hu. by right.
      + intros w Hw. destruct (Hroot w Hw) as [?|[->|?]%elem_of_cons]; auto.
      + intros x w Hx Hw. destruct (Hcl x w Hx Hw) as [?|[->|?]%elem_of_cons]; auto.
    - assert (Hvm : v ∉ marked) by (intros H; apply Hin; apply Hused; eauto).
      pose proof (todo_mark v marked Hva Hvm).
      apply IH.
      + intros w [Hw|Hw]%elem_of_app; [|apply Hu; by right]. rewrite elem_of_rev in Hw.
        split; [exact (proj1 (proj2 Hc) v w Hva Hw)|exact (r_ref _ _ v w Hvr Hw)].
      + intros w [->|Hw]%elem_of_cons; [done|by apply Hm].
      + intros n. rewrite elem_of_union, elem_of_singleton, Hused. split.
        * intros [->|(w&?&?)]; [exists v; split; [left|done]|exists w; split; [by right|done]].
        * intros (w&[->|?]%elem_of_cons&<-); [by left|right; eauto].
      + intros w Hw. destruct (Hroot w Hw) as [?|[->|?]%elem_of_cons]; [left; by right|left; left|right; apply elem_of_app; by right].
      + intros x w [->|Hx]%elem_of_cons Hw.
        * right. apply elem_of_app. left. by rewrite elem_of_rev.
        * destruct (Hcl x w Hx Hw) as [?|[->|?]%elem_of_cons]; [left; by right|left; left|right; apply elem_of_app; by right].
      + intros n w. destruct (decide (n = g_name (info v))) as [->|Hne].
        * rewrite lookup_delete. split; [done|]. intros (Hw&_&Hn&Hnm). exfalso. apply Hnm.
          rewrite (name_inj w v); [left|by apply Hc|done|done].
        * rewrite lookup_delete_ne by done. rewrite (Ht n w), not_elem_of_cons. split; [|tauto].
          intros (?&?&Hn&?). split; [done|split; [done|split; [done|split; [|done]]]]. intros ->. congruence.
      + rewrite app_length, rev_length. lia.
  Qed.

  Lemma todo_nil : todo [] = sum_list ((fun v => length (g_refs (info v))) <$> all).
  Proof.
    unfold todo. f_equal.
  Qed.

  Lemma propagation fuel : turns info vars all <= fuel ->
    exists m un, propagate_var_used info fuel vars = Some (m, un) /\
      (forall v, v ∈ m <-> reachable info vars v) /\
      (forall v, (exists n, un !! n = Some v) <-> warnable info vars v /\ ~ reachable info vars v).
  Proof.
    unfold turns, propagate_var_used. intros Hf. destruct (collect info vars [] ∅) as [uc un0] eqn:E.
    destruct (collect_ok vars [] [] ∅ uc un0) as (Huc&Htab&Hlen); try done.
    { intros v Hv. by apply elem_of_nil in Hv. }
    { apply Hc. }
    { intros v. split; [intros Hv; by apply elem_of_nil in Hv|]. intros [Hv _]. by apply elem_of_nil in Hv. }
    { intros n v. rewrite lookup_empty. split; [done|]. intros (Hv&_). by apply elem_of_nil in Hv. }
    cbn [app length] in *.
    destruct (propagate_ok fuel uc ∅ un0 []) as (m&un&Hp&Hm&Ht).
    - intros v [Hv Hp]%Huc. split; [by apply Hc|]. apply r_root. split; [done|]. by apply classify_push.
    - intros v Hv. by apply elem_of_nil in Hv.
    - intros n. split; [set_solver|]. intros (v&Hv&_). by apply elem_of_nil in Hv.
    - intros v [Hv Hr]. right. apply Huc. split; [done|]. by apply classify_push.
    - intros v w Hv. by apply elem_of_nil in Hv.
    - done.
    - rewrite todo_nil. lia.
    - exists m, un. split; [done|]. split; [done|]. intros v. unfold warnable. cbv zeta. rewrite <- classify_unused. split.
      + intros [n Hn]. apply Ht in Hn as (?&?&?&?). by rewrite <- Hm.
      + rewrite <- Hm. intros [[? ?] ?]. exists (g_name (info v)). by apply Ht.
  Qed.
End proof.
