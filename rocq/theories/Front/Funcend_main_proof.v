(** What a return of 0 at the end of a body changes. *)
From stdpp Require Import base numbers list gmap.
From Verif Require Import Front.Funcend_model Front.Funcend_spec Front.Funcend_proof.

Definition R : stmt := Return (Some 0%Z).
Fixpoint trk (k : cont) : cont :=
  match k with
  | Kstop => Kstop
  | Kseq l Kstop => Kseq (l ++ [R]) Kstop
  | Kseq l k => Kseq l (trk k)
  | Kloop i c s k => Kloop i c s (trk k)
  | Kswitch i k => Kswitch i (trk k)
  end.
Fixpoint bt (k : cont) : Prop := match k with Kstop => False | Kseq _ Kstop => True | Kseq _ k | Kloop _ _ _ k | Kswitch _ k => bt k end.
Lemma bt_seq l k : bt k -> bt (Kseq l k). Proof. by destruct k. Qed.
Lemma trk_seq l k : bt k -> trk (Kseq l k) = Kseq l (trk k). Proof. by destruct k. Qed.
Inductive sim : conf -> conf -> Prop :=
| m_run s k : bt k -> sim (Run s k) (Run s (trk k))
| m_items l k : bt k -> sim (Items l k) (Items l (trk k))
| m_test i c s k : bt k -> sim (Test i c s k) (Test i c s (trk k))
| m_fall k : bt k -> sim (Fall k) (Fall (trk k))
| m_returned v : sim (Returned v) (Returned v)
| m_top l : sim (Items l Kstop) (Items (l ++ [R]) Kstop)
| m_end : sim (Fall Kstop) (Items [R] Kstop).
Lemma break_tr i k : bt k -> after_break i (trk k) = trk <$> after_break i k /\ forall k', after_break i k = Some k' -> bt k'.
Proof.
  induction k as [|l k IH|j c s k IH|j k IH]; cbn; [done| | |].
  - destruct k; [done| | |]; apply IH.
  - intros H. destruct (decide (i = j)); [|by apply IH]. split; [done|]. by intros k' [= <-].
  - intros H. destruct (decide (i = j)); [|by apply IH]. split; [done|]. by intros k' [= <-].
Qed.
Lemma continue_tr i k : bt k -> match after_continue i k with Some t => exists t', after_continue i (trk k) = Some t' /\ sim t t' | None => after_continue i (trk k) = None end.
Proof.
  induction k as [|l k IH|j c s k IH|j k IH]; cbn; [done| | |].
  - destruct k; [done| | |]; apply IH.
  - intros H. destruct (decide (i = j)); [|by apply IH]. eexists. split; [done|by constructor].
  - apply IH.
Qed.
Definition trs (x : stmt * cont) : stmt * cont := (x.1, trk x.2).
Lemma entries_tr p : forall s k, bt k -> entries p s (trk k) = trs <$> entries p s k /\ Forall (fun x => bt x.2) (entries p s k).
Proof.
  assert (Hm : forall s k, bt k -> (if p s then [(s, trk k)] else []) = trs <$> (if p s then [(s, k)] else []) /\ Forall (fun x => bt x.2) (if p s then [(s, k)] else [])) by (intros s k H; destruct (p s); (split; [done|]); [by apply Forall_singleton|apply Forall_nil_2]).
  assert (Hz : forall s k l l', bt k -> l' = trs <$> l /\ Forall (fun x => bt x.2) l -> (if p s then [(s, trk k)] else []) ++ l' = trs <$> ((if p s then [(s, k)] else []) ++ l) /\ Forall (fun x => bt x.2) ((if p s then [(s, k)] else []) ++ l)).
  { intros s k l l' Hk [-> Hl]. destruct (Hm s k Hk) as [E F]. rewrite fmap_app, E, Forall_app. done. }
  apply (stmt_ind' (fun s => forall k, bt k -> entries p s (trk k) = trs <$> entries p s k /\ Forall (fun x => bt x.2) (entries p s k))); intros; cbn [entries]; apply Hz; try done; try (split; [done|constructor]; fail).
  - change (lentries p (trk k) l = trs <$> lentries p k l /\ Forall (fun x => bt x.2) (lentries p k l)). induction H as [|s l Hs Hl IH]; [split; [done|constructor]|]. cbn.
    destruct (Hs (Kseq l k) (bt_seq _ _ H0)) as [E F]. rewrite trk_seq in E by done. destruct IH as [E' F']. by rewrite E, E', fmap_app, Forall_app.
  - rewrite !app_nil_r. by apply H.
  - destruct (H k H1) as [E F], (H0 k H1) as [E' F']. by rewrite E, E', fmap_app, Forall_app.
  - apply (H (Kswitch i k)). done.
  - apply (H (Kloop i c s k)). done.
  - apply (H (Kloop i c s k)). done.
  - apply (H (Kloop i (for_cond c) s k)). done.
  - by apply H.
  - by apply H.
Qed.
Lemma top_tr x l : entries (is_label x) (Block (l ++ [R])) Kstop = trs <$> entries (is_label x) (Block l) Kstop /\ Forall (fun x => bt x.2) (entries (is_label x) (Block l) Kstop).
Proof.
  cbn [entries is_label]. change (lentries (is_label x) Kstop (l ++ [R]) = trs <$> lentries (is_label x) Kstop l /\ Forall (fun x => bt x.2) (lentries (is_label x) Kstop l)).
  induction l as [|s l [IH1 IH2]]; [split; [done|constructor]|]. cbn. destruct (entries_tr (is_label x) s (Kseq l Kstop) I) as [E F]. cbn in E. by rewrite E, IH1, fmap_app, Forall_app.
Qed.
Section steps.
  Context (l0 : list stmt).
  Notation old := (step (Block l0)). Notation new := (step (Block (l0 ++ [R]))).
  Lemma sim_seq l k : bt k -> sim (Items l k) (Items l (trk k)). Proof using. by constructor. Qed.
  Lemma forward c c' d : old c c' -> sim c d -> exists d', rtc new d d' /\ sim c' d'.
  Proof using.
    intros H Hm.
    assert (Hone : forall d', new d d' -> sim c' d' -> exists d', rtc new d d' /\ sim c' d') by (intros d' Hd Hs; exists d'; split; [by apply rtc_once|done]).
    destruct H; inversion Hm; subst; try (eapply Hone; [by econstructor|by constructor]).
    - destruct (entries_tr (is_case i) s (Kswitch i k) ltac:(done)) as [E F]. eapply Hone; [apply (r_switch _ i d0 s (trk k) s' (trk k'))|constructor].
      + change (Kswitch i (trk k)) with (trk (Kswitch i k)). rewrite E. apply elem_of_list_fmap. by exists (s', k').
      + rewrite Forall_forall in F. by apply F in H.
    - destruct (break_tr i k ltac:(done)) as [E F]. eapply Hone; [apply r_break; by rewrite E, H|constructor; by apply F].
    - pose proof (continue_tr i k ltac:(done)) as E. rewrite H in E. destruct E as (t' & E & Ht). eapply Hone; [by apply r_continue|done].
    - destruct (top_tr x l0) as [E F]. eapply Hone; [apply (r_goto _ x (trk k) s' (trk k'))|constructor].
      + rewrite E. apply elem_of_list_fmap. by exists (s', k').
      + rewrite Forall_forall in F. by apply F in H.
    - exists (Items [R] Kstop). split; [done|constructor].
    - eapply Hone; [by econstructor|]. rewrite <- trk_seq by done. constructor. by apply bt_seq.
    - destruct k; [eapply Hone; [by constructor|by constructor]|..]; (rewrite trk_seq by done; eapply Hone; [by constructor|by constructor]).
  Qed.
  Lemma backward c d d' : new d d' -> sim c d -> (exists c', rtc old c c' /\ sim c' d') \/ (d' = Run R (Kseq [] Kstop) /\ rtc old c (Fall Kstop)).
  Proof using.
    intros H Hm.
    assert (Hone : forall c', old c c' -> sim c' d' -> (exists c', rtc old c c' /\ sim c' d') \/ (d' = Run R (Kseq [] Kstop) /\ rtc old c (Fall Kstop))) by (intros c' Hd Hs; left; exists c'; split; [by apply rtc_once|done]).
    destruct Hm as [s k Hk|l k Hk|i c s k Hk|k Hk|v|l|].
    - inversion H; subst; try (eapply Hone; [by econstructor|by constructor]).
      + destruct (entries_tr (is_case i) s0 (Kswitch i k) ltac:(done)) as [E F]. change (Kswitch i (trk k)) with (trk (Kswitch i k)) in *. rewrite E in *.
        match goal with X : _ ∈ trs <$> _ |- _ => apply elem_of_list_fmap in X as ([s1 k1] & [= -> ->] & Hin) end. eapply Hone; [by eapply r_switch|]. constructor. rewrite Forall_forall in F. by apply F in Hin.
      + destruct (break_tr i k Hk) as [E F]. match goal with X : after_break _ _ = _ |- _ => rewrite E in X; apply fmap_Some in X as (k1 & X & ->); eapply Hone; [by apply r_break|constructor; by apply F] end.
      + pose proof (continue_tr i k Hk) as E. destruct (after_continue i k) as [t|] eqn:Et; [|congruence]. destruct E as (t' & E & Ht). eapply Hone; [by apply r_continue|]. congruence.
      + destruct (top_tr x l0) as [E F]. rewrite E in *.
        match goal with X : _ ∈ trs <$> _ |- _ => apply elem_of_list_fmap in X as ([s1 k1] & [= -> ->] & Hin) end. eapply Hone; [by eapply r_goto|]. constructor. rewrite Forall_forall in F. by apply F in Hin.
    - inversion H; subst; [eapply Hone; by constructor|]. eapply Hone; [by constructor|]. rewrite <- trk_seq by done. constructor. by apply bt_seq.
    - inversion H; subst; [|eapply Hone; by constructor]. eapply Hone; [by constructor|]. by apply (m_run s (Kloop i c s k)).
    - destruct k as [|l k|j c s k|j k]; [done| | |].
      + destruct k; [cbn in H; inversion H; subst; eapply Hone; by constructor|..]; (rewrite trk_seq in H by done; inversion H; subst; eapply Hone; by constructor).
      + inversion H; subst. eapply Hone; by constructor.
      + inversion H; subst. eapply Hone; by constructor.
    - inversion H.
    - destruct l as [|s l]; cbn in H; inversion H; subst.
      + right. split; [done|]. apply rtc_once. constructor.
      + eapply Hone; [by constructor|]. by apply (m_run s (Kseq l Kstop)).
    - inversion H; subst. right. done.
  Qed.
  Lemma start c : rtc old (Run (Block l0) Kstop) c -> c = Run (Block l0) Kstop \/ rtc old (Items l0 Kstop) c.
  Proof using. intros H. inversion H as [|x y z Hs Hr]; subst; [by left|]. inversion Hs; subst. by right. Qed.
  Lemma forward_all c : rtc old (Items l0 Kstop) c -> exists d, rtc new (Items (l0 ++ [R]) Kstop) d /\ sim c d.
  Proof using.
    intros H. assert (Hm : sim (Items l0 Kstop) (Items (l0 ++ [R]) Kstop)) by constructor. revert Hm. generalize (Items (l0 ++ [R]) Kstop) as d.
    induction H as [c|c c1 c2 Hs _ IH]; intros d Hm; [by exists d|]. destruct (forward _ _ _ Hs Hm) as (d1 & Hd & Hm1). destruct (IH d1 Hm1) as (d2 & Hd2 & Hm2). exists d2. split; [by etrans|done].
  Qed.
  Lemma backward_all d : rtc new (Items (l0 ++ [R]) Kstop) d -> (exists c, rtc old (Items l0 Kstop) c /\ sim c d) \/ (rtc old (Items l0 Kstop) (Fall Kstop) /\ rtc new (Run R (Kseq [] Kstop)) d).
  Proof using.
    intros H. assert (Hm : sim (Items l0 Kstop) (Items (l0 ++ [R]) Kstop)) by constructor. revert Hm. generalize (Items l0 Kstop) as c.
    induction H as [d|d d1 d2 Hs Hr IH]; intros c Hm; [left; by exists c|]. destruct (backward _ _ _ Hs Hm) as [(c1 & Hc & Hm1)|[-> Hc]]; [|by right].
    destruct (IH c1 Hm1) as [(c2 & Hc2 & Hm2)|[Hc2 Hr2]]; [left; exists c2; split; [by etrans|done]|right; split; [by etrans|done]].
  Qed.
  Lemma returns_new v : returns (l0 ++ [R]) v <-> returns l0 v \/ (v = Some 0%Z /\ falls_off l0).
  Proof using.
    assert (Ho : forall c, rtc old (Items l0 Kstop) c -> rtc old (Run (Block l0) Kstop) c) by (intros c Hc; eapply rtc_l; [constructor|done]).
    unfold returns, falls_off. split.
    - intros H. inversion H as [|x y z Hs Hr]; subst. inversion Hs; subst. destruct (backward_all _ Hr) as [(c & Hc & Hm)|[Hc Hd]].
      + inversion Hm; subst. left. by apply Ho.
      + right. split; [|by apply Ho]. clear -Hd. inversion Hd as [|x y z Hs Hr]; subst. inversion Hs; subst. inversion Hr as [|x y z Hs2 Hr2]; subst; [done|inversion Hs2].
    - intros [H|[-> H]]; apply start in H as [H|H]; try done; apply forward_all in H as (d & Hd & Hm).
      + inversion Hm; subst. eapply rtc_l; [constructor|done].
      + inversion Hm; subst; [done|]. eapply rtc_l; [constructor|]. etrans; [exact Hd|]. eapply rtc_l; [constructor|]. apply rtc_once. constructor.
  Qed.
End steps.
Lemma lflow_app r l l' : (lflow r (l ++ l')).1 = (lflow (lflow r l).1 l').1.
Proof. revert r. induction l as [|s l IH]; intros r; [done|]. cbn [lflow app]. destruct (r && negb (labelled s)); [apply IH|]. specialize (IH (flow s).1). destruct (flow s) as [r1 b1]. cbn in IH. destruct (lflow r1 (l ++ l')), (lflow r1 l). exact IH. Qed.
Lemma lsight_app r l l' : lsight r (l ++ l') = lsight r l && lsight (lflow r l).1 l'.
Proof.
  revert r. induction l as [|s l IH]; intros r; [done|]. cbn [lsight app lflow]. destruct (r && negb (labelled s)); [by rewrite IH, andb_assoc|]. rewrite IH, andb_assoc. destruct (flow s) as [r1 b1]. cbn. by destruct (lflow r1 l).
Qed.
Lemma with_return f : NoDup (f ≫= ids) -> in_sight (Block f) = true -> ~ falls_off (f ++ [R]).
Proof.
  intros Hn Hs. apply rule_sound.
  - rewrite sight_block in *. rewrite lsight_app, Hs. cbn. by destruct (lflow false f).1.
  - rewrite bind_app. cbn. by rewrite app_nil_r.
  - rewrite lflow_app. cbn. by destruct (lflow false f).1.
Qed.
Definition int_main (f : func) : func := if is_main f && bool_decide (rettype f = RVoid) then Func (is_main f) RInt (noreturn f) (body f) else f.
Arguments int_main : simpl never.
Lemma main_ok f : is_main f = true -> rettype f <> ROther -> noreturn f = false -> last (body f) <> Some Asm -> NoDup (body f ≫= ids) -> in_sight (Block (body f)) = true ->
  (check_func f).2 = [] /\ ~ falls_off (body (check_func f).1) /\ forall v, returns (body (check_func f).1) v <-> returns (body f) v \/ (v = Some 0%Z /\ falls_off (body f)).
Proof.
  intros Hm Hr Hnr Ha Hn Hs. unfold check_func. rewrite check_rule by done.
  assert (Hasm : ends_with_asm (body f) = false). { unfold ends_with_asm. destruct (last (body f)) as [[]|]; done. }
  fold (int_main f). assert (Hf : is_main (int_main f) = true /\ rettype (int_main f) = RInt /\ noreturn (int_main f) = false /\ body (int_main f) = body f).
  { unfold int_main. rewrite Hm. destruct (rettype f) eqn:E; [by rewrite bool_decide_eq_true_2| |done]. rewrite bool_decide_eq_false_2 by done. done. }
  destruct Hf as (H1 & H2 & H3 & H4). rewrite H1, H2, H3, H4, Hasm. rewrite (bool_decide_eq_true_2 (RInt <> RVoid)) by done. rewrite (bool_decide_eq_false_2 (RInt <> RInt)) by (intros H; by apply H). cbn. destruct (lflow false (body f)).1 eqn:E; cbn.
  - rewrite H4. assert (Hx : ~ falls_off (body f)) by by apply rule_sound. split; [done|]. split; [done|]. tauto.
  - split; [done|]. split; [by apply with_return|]. intros v. apply returns_new.
Qed.
Lemma value_ok f : is_main f = false -> rettype f <> RVoid -> noreturn f = false -> last (body f) <> Some Asm -> NoDup (body f ≫= ids) -> in_sight (Block (body f)) = true -> falls_off (body f) -> check_func f = (f, [ReturnRequired]).
Proof.
  intros Hm Hr Hnr Ha Hn Hs Hf. unfold check_func. rewrite check_rule by done.
  assert (Hasm : ends_with_asm (body f) = false). { unfold ends_with_asm. destruct (last (body f)) as [[]|]; done. }
  rewrite Hm. cbn. rewrite Hm, Hnr, Hasm. rewrite bool_decide_eq_true_2 by done. destruct (lflow false (body f)).1 eqn:E; [|done]. by apply rule_sound in Hf.
Qed.
Lemma noreturn_ok f : is_main f = false -> noreturn f = true -> last (body f) <> Some Asm -> NoDup (body f ≫= ids) -> in_sight (Block (body f)) = true -> falls_off (body f) -> (check_func f).2 <> [].
Proof.
  intros Hm Hnr Ha Hn Hs Hf. unfold check_func. rewrite check_rule by done.
  assert (Hasm : ends_with_asm (body f) = false). { unfold ends_with_asm. destruct (last (body f)) as [[]|]; done. }
  rewrite Hm. cbn. rewrite Hnr, Hasm. destruct (bool_decide _); [done|]. destruct (lflow false (body f)).1 eqn:E; [|done]. by apply rule_sound in Hf.
Qed.

(** [switch (x) { default: return 1; if (0) { case 1: g(); } }] *)
Definition hidden_case : list stmt := [Switch 1 true (Block [Case 1 (Return (Some 1%Z)); If CFalse (Block [Case 1 Plain]) None])].
Lemma hidden_ids : NoDup (hidden_case ≫= ids). Proof. repeat constructor; set_solver. Qed.
Lemma hidden_last : last hidden_case <> Some Asm. Proof. done. Qed.
Lemma hidden_falls : falls_off hidden_case.
Proof.
  unfold falls_off. do 2 (eapply rtc_l; [constructor|]). eapply rtc_l; [eapply (r_switch _ 1); cbn; right; by left|]. do 9 (eapply rtc_l; [constructor|]). done.
Qed.
