(** The rule for statements that are not passed is sound, and the compiler follows it. *)
From stdpp Require Import base numbers list gmap.
From Verif Require Import Front.Funcend_model Front.Funcend_spec.

Section ind.
  Context (P : stmt -> Prop).
  Context (H1 : P Plain) (H2 : P Asm) (H3 : P Noreturn) (H4 : forall v, P (Return v)) (H5 : forall l, Forall P l -> P (Block l)).
  Context (H6 : forall c s, P s -> P (If c s None)) (H7 : forall c s t, P s -> P t -> P (If c s (Some t))) (H8 : forall i d s, P s -> P (Switch i d s)).
  Context (H9 : forall i c s, P s -> P (While i c s)) (H10 : forall i s c, P s -> P (DoWhile i s c)) (H11 : forall i c s, P s -> P (For i c s)).
  Context (H12 : forall i, P (Break i)) (H13 : forall i, P (Continue i)) (H14 : forall x, P (Goto x)) (H15 : forall x s, P s -> P (Label x s)) (H16 : forall i s, P s -> P (Case i s)).
  Lemma stmt_ind' : forall s, P s.
  Proof using All.
    fix IH 1. intros [| | |v|l|c s [t|]|i d s|i c s|i s c|i c s|i|i|x|x s|i s]; [exact H1|exact H2|exact H3|apply H4| | | | | | | |apply H12|apply H13|apply H14| |].
    - apply H5. induction l as [|s l IHl]; constructor; [apply IH|apply IHl].
    - apply H7; apply IH.
    - apply H6; apply IH.
    - apply H8; apply IH.
    - apply H9; apply IH.
    - apply H10; apply IH.
    - apply H11; apply IH.
    - apply H15; apply IH.
    - apply H16; apply IH.
  Qed.
End ind.
Fixpoint lflow (r : bool) (l : list stmt) : bool * list nat :=
  match l with
  | [] => (r, [])
  | s :: l => if r && negb (labelled s) then lflow r l else let (r1, b1) := flow s in let (r2, b2) := lflow r1 l in (r2, b1 ++ b2)
  end.
Fixpoint lsight (r : bool) (l : list stmt) : bool :=
  match l with
  | [] => true
  | s :: l => if r && negb (labelled s) then closed [] s && lsight r l else in_sight s && lsight (flow s).1 l
  end.
Definition lentries (p : stmt -> bool) (k : cont) : list stmt -> list (stmt * cont) := fix go l := match l with [] => [] | s :: l => entries p s (Kseq l k) ++ go l end.
Lemma flow_block l : flow (Block l) = lflow false l. Proof. done. Qed.
Lemma sight_block l : in_sight (Block l) = lsight false l. Proof. done. Qed.
Lemma lflow_cons r s l : r && negb (labelled s) = false -> lflow r (s :: l) = ((lflow (flow s).1 l).1, (flow s).2 ++ (lflow (flow s).1 l).2).
Proof. intros E. cbn [lflow]. rewrite E. destruct (flow s) as [r1 b1]. cbn. by destruct (lflow r1 l). Qed.

(** * The compiler follows the rule *)
Fixpoint lcheck (r : bool) (l : list stmt) (st : gset nat) : bool * gset nat :=
  match l with
  | [] => (r, st)
  | s :: l => if r && negb (labelled s) then lcheck r l st else let '(r, st) := check_stmt s st in lcheck r l st
  end.
Definition follows (s : stmt) : Prop := forall st, NoDup (ids s) -> (forall j, j ∈ ids s -> j ∉ st) ->
  (check_stmt s st).1 = (flow s).1 /\ forall j, j ∉ ids s -> (j ∈ (check_stmt s st).2 <-> j ∈ st /\ j ∉ (flow s).2).
Lemma in_set_if b i st j : j ∈ set_if b i st <-> (b = true /\ j = i) \/ j ∈ st.
Proof. destruct b; cbn; set_solver. Qed.
Lemma loop_follows i s st b : follows s -> NoDup (i :: ids s) -> (forall j, j ∈ i :: ids s -> j ∉ st) ->
  let st' := (check_stmt s (set_if b i st)).2 in bool_decide (i ∈ st') = b && bool_decide (i ∉ (flow s).2) /\ forall j, j ∉ i :: ids s -> (j ∈ st' <-> j ∈ st /\ j ∉ (flow s).2).
Proof.
  intros IH [Hi Hn]%NoDup_cons Hst st'. destruct (IH (set_if b i st) Hn) as [_ H].
  { intros j Hj. rewrite in_set_if. intros [[_ ->]|Hj']; [done|]. by apply (Hst j); [right|]. }
  split.
  - apply Bool.eq_true_iff_eq. rewrite andb_true_iff, !bool_decide_eq_true. unfold st'. rewrite (H i Hi), in_set_if. pose proof (Hst i ltac:(left)). tauto.
  - intros j Hj. rewrite not_elem_of_cons in Hj. destruct Hj. unfold st'. rewrite (H j) by done. rewrite in_set_if. tauto.
Qed.
Lemma check_follows : forall s, follows s.
Proof.
  apply stmt_ind'; unfold follows.
  - intros st _ _. cbn. set_solver.
  - intros st _ _. cbn. set_solver.
  - intros st _ _. cbn. set_solver.
  - intros v st _ _. cbn. set_solver.
  - intros l Hl. change (forall st, NoDup (l ≫= ids) -> (forall j, j ∈ l ≫= ids -> j ∉ st) -> (lcheck false l st).1 = (lflow false l).1 /\ forall j, j ∉ l ≫= ids -> (j ∈ (lcheck false l st).2 <-> j ∈ st /\ j ∉ (lflow false l).2)).
    generalize false as r. induction Hl as [|s l Hs Hl IH]; intros r st Hn Hst; [cbn; set_solver|].
    cbn in Hn, Hst. apply NoDup_app in Hn as (Hn1 & Hd & Hn2). cbn [lcheck]. destruct (r && negb (labelled s)) eqn:E.
    + cbn [lflow]. rewrite E. destruct (IH r st Hn2) as [H1 H2]; [intros j Hj; apply Hst; set_solver|]. split; [done|]. intros j Hj. apply H2. cbn in Hj. set_solver.
    + rewrite lflow_cons by done. destruct (Hs st Hn1) as [Hr Hb]; [intros j Hj; apply Hst; set_solver|]. destruct (check_stmt s st) as [r1 st1]. cbn in Hr, Hb. subst r1.
      destruct (IH (flow s).1 st1 Hn2) as [H1 H2]. { intros j Hj Hj'. apply Hb in Hj'; [|intros Hs'; by apply (Hd j)]. apply (Hst j); set_solver. }
      cbn [fst snd]. split; [done|]. intros j Hj. cbn in Hj. rewrite not_elem_of_app in Hj. destruct Hj. rewrite H2 by done. rewrite Hb by done. rewrite not_elem_of_app. tauto.
  - intros c s IH st Hn Hst. cbn in *. rewrite app_nil_r in *. destruct (IH st Hn Hst) as [H1 H2]. destruct (check_stmt s st) as [r st1], (flow s) as [r' b]. cbn in *. subst r'.
    rewrite app_nil_r. split; [by destruct c|done].
  - intros c s t IH IH' st Hn Hst. cbn in *. apply NoDup_app in Hn as (Hn1 & Hd & Hn2). destruct (IH st Hn1) as [H1 H2]; [intros j Hj; apply Hst; set_solver|].
    destruct (check_stmt s st) as [r st1], (flow s) as [r' b]. cbn in *. subst r'.
    destruct (IH' st1 Hn2) as [H3 H4]. { intros j Hj Hj'. apply H2 in Hj'; [|intros Hs'; by apply (Hd j)]. apply (Hst j); set_solver. }
    destruct (check_stmt t st1) as [r1 st2], (flow t) as [r1' b']. cbn in *. subst r1'. split; [by destruct c|].
    intros j Hj. rewrite not_elem_of_app in Hj. destruct Hj. rewrite H4, H2 by done. rewrite not_elem_of_app. tauto.
  - intros i d s IH st Hn Hst. cbn in *. assert (Hi : i ∉ st) by (apply Hst; left). replace (st ∖ {[i]}) with st by set_solver.
    destruct (loop_follows i s st d IH Hn Hst) as [H1 H2]. apply NoDup_cons in Hn as [Hni Hn].
    assert (H3 : (check_stmt s (set_if d i st)).1 = (flow s).1). { apply (IH (set_if d i st) Hn). intros j Hj. rewrite in_set_if. intros [[_ ->]|Hj']; [done|]. by apply (Hst j); [right|]. }
    destruct (check_stmt s (set_if d i st)) as [r st1], (flow s) as [r' b]. cbn in *. subst r'. split; [rewrite H1; destruct d, r, (bool_decide (i ∉ b)); done|].
    intros j Hj. rewrite <- (H2 j Hj). destruct r; [done|]. set_solver.
  - intros i c s IH st Hn Hst. assert (Hi : i ∉ st) by (apply Hst; left). destruct c; cbn.
    + destruct (loop_follows i s st true IH Hn Hst) as [H1 H2]. cbn in H1, H2. destruct (flow s) as [r b]. cbn in *. done.
    + split; [by rewrite bool_decide_eq_false_2|]. set_solver.
    + destruct (loop_follows i s st false IH Hn Hst) as [H1 H2]. cbn in H1, H2. destruct (flow s) as [r b]. cbn in *. done.
  - intros i s c IH st Hn Hst. destruct (loop_follows i s st (truthy c) IH Hn Hst) as [H1 H2]. cbn. destruct (flow s) as [r b]. cbn in *. split; [rewrite H1; by destruct c|done].
  - intros i c s IH st Hn Hst. assert (Hi : i ∉ st) by (apply Hst; left). destruct c as [[]|]; cbn.
    + destruct (loop_follows i s st true IH Hn Hst) as [H1 H2]. cbn in H1, H2. destruct (flow s) as [r b]. cbn in *. done.
    + split; [by rewrite bool_decide_eq_false_2|]. set_solver.
    + destruct (loop_follows i s st false IH Hn Hst) as [H1 H2]. cbn in H1, H2. destruct (flow s) as [r b]. cbn in *. done.
    + destruct (loop_follows i s st true IH Hn Hst) as [H1 H2]. cbn in H1, H2. destruct (flow s) as [r b]. cbn in *. done.
  - intros i st _ _. cbn. set_solver.
  - intros i st _ _. cbn. set_solver.
  - intros i st _ _. cbn. set_solver.
  - intros x s IH. exact IH.
  - intros i s IH. exact IH.
Qed.
Lemma check_rule l : NoDup (l ≫= ids) -> (check_stmt (Block l) ∅).1 = (lflow false l).1.
Proof. intros Hn. apply (check_follows (Block l) ∅ Hn). set_solver. Qed.

(** * The rule is sound *)
Section sound.
  Context (e : Prop).
  Fixpoint okb (k : cont) : Prop * (nat -> Prop) :=
    match k with
    | Kstop => (e, fun _ => True)
    | Kseq l k => (lsight false l = true /\ NoDup (l ≫= ids) /\ ((lflow false l).1 = false -> (okb k).1) /\ (forall j, j ∈ (lflow false l).2 -> (okb k).2 j), (okb k).2)
    | Kloop i c s k => (True, fun j => if decide (j = i) then (okb k).1 else (okb k).2 j)
    | Kswitch i k => ((okb k).1, fun j => if decide (j = i) then (okb k).1 else (okb k).2 j)
    end.
  Definition loop_ok (i : nat) (c : cond) (s : stmt) (k : cont) : Prop :=
    (may true c = true -> in_sight s = true /\ NoDup (i :: ids s) /\ forall j, j ∈ (flow s).2 -> if decide (j = i) then (okb k).1 else (okb k).2 j) /\ (may false c = true -> (okb k).1).
  Fixpoint wf (k : cont) : Prop := match k with Kstop => True | Kseq _ k | Kswitch _ k => wf k | Kloop i c s k => loop_ok i c s k /\ wf k end.
  Definition run_ok (s : stmt) (k : cont) : Prop := in_sight s = true /\ NoDup (ids s) /\ ((flow s).1 = false -> (okb k).1) /\ (forall j, j ∈ (flow s).2 -> (okb k).2 j) /\ wf k.
  Definition items_ok (r : bool) (l : list stmt) (k : cont) : Prop :=
    lsight r l = true /\ NoDup (l ≫= ids) /\ ((lflow r l).1 = false -> (okb k).1) /\ (forall j, j ∈ (lflow r l).2 -> (okb k).2 j) /\ wf k.
  Definition inv (c : conf) : Prop :=
    match c with
    | Run s k => run_ok s k
    | Items l k => items_ok false l k
    | Test i c s k => loop_ok i c s k /\ wf k
    | Fall k => (okb k).1 /\ wf k
    | Returned _ => True
    end.
  Lemma break_ok i k k' : (okb k).2 i -> wf k -> after_break i k = Some k' -> (okb k').1 /\ wf k'.
  Proof using. induction k as [|l k IH|j c s k IH|j k IH]; cbn; [done|done| |]. - intros H [_ Hw]. destruct (decide (i = j)); [by intros [= <-]|by apply IH]. - intros H Hw. destruct (decide (i = j)); [by intros [= <-]|by apply IH]. Qed.
  Lemma continue_ok i k t : wf k -> after_continue i k = Some t -> inv t.
  Proof using. induction k as [|l k IH|j c s k IH|j k IH]; cbn; [done|done| |done]. intros [Hl Hw]. destruct (decide (i = j)); [by intros [= <-]|by apply IH]. Qed.
  Lemma item_ok r s l k : r && negb (labelled s) = false -> items_ok r (s :: l) k -> run_ok s (Kseq l k) /\ items_ok (flow s).1 l k.
  Proof using.
    intros E (Hs & Hn & Hf & Hb & Hw). rewrite lflow_cons in Hf, Hb by done. cbn [lsight] in Hs. rewrite E in Hs. apply andb_true_iff in Hs as [Hs1 Hs2]. cbn in Hn. apply NoDup_app in Hn as (Hn1 & _ & Hn2). cbn [fst snd] in Hf, Hb.
    split.
    - split; [done|]. split; [done|]. cbn. split; [|split; [intros j Hj; apply Hb; set_solver|done]]. intros Hr. rewrite Hr in *. split; [done|]. split; [done|]. split; [done|]. intros j Hj. apply Hb. set_solver.
    - split; [done|]. split; [done|]. split; [done|]. split; [|done]. intros j Hj. apply Hb. set_solver.
  Qed.
  Lemma skipped_ok r s l k : r && negb (labelled s) = true -> items_ok r (s :: l) k -> closed [] s = true /\ items_ok r l k.
  Proof using.
    intros E (Hs & Hn & Hf & Hb & Hw). cbn [lsight lflow] in *. rewrite E in *. apply andb_true_iff in Hs as [Hs1 Hs2]. cbn in Hn. apply NoDup_app in Hn as (Hn1 & _ & Hn2). done.
  Qed.
  Lemma switch_ok i d s k : run_ok (Switch i d s) k -> run_ok s (Kswitch i k).
  Proof using.
    intros (Hs & Hn & Hf & Hb & Hw). cbn in *. destruct (flow s) as [r b] eqn:Ef. cbn in *. unfold run_ok. rewrite Ef. cbn. apply NoDup_cons in Hn as [Hi Hn]. split; [done|]. split; [done|]. split; [|split; [|done]].
    - intros ->. apply Hf. by rewrite andb_false_r.
    - intros j Hj. destruct (decide (j = i)) as [->|]; [|by apply Hb]. apply Hf. rewrite bool_decide_eq_false_2 by tauto. by rewrite andb_false_r.
  Qed.
  Lemma body_ok i c s k : in_sight s = true -> NoDup (i :: ids s) -> (bool_decide (c = CTrue) && bool_decide (i ∉ (flow s).2) = false -> (okb k).1) -> (forall j, j ∈ (flow s).2 -> (okb k).2 j) -> wf k -> loop_ok i c s k /\ run_ok s (Kloop i c s k).
  Proof using.
    intros Hs Hn Hf Hb Hw.
    assert (Hj : forall j, j ∈ (flow s).2 -> if decide (j = i) then (okb k).1 else (okb k).2 j).
    { intros j Hj. destruct (decide (j = i)) as [->|]; [|by apply Hb]. apply Hf. rewrite (bool_decide_eq_false_2 (i ∉ _)) by tauto. by rewrite andb_false_r. }
    assert (Hl : loop_ok i c s k). { split; [done|]. intros Hc. apply Hf. by destruct c. }
    split; [done|]. split; [done|]. split; [by apply NoDup_cons in Hn as []|]. done.
  Qed.
  Lemma while_ok' i c s k : c <> CFalse -> run_ok (While i c s) k -> loop_ok i c s k /\ run_ok s (Kloop i c s k).
  Proof using.
    intros Hc (Hs & Hn & Hf & Hb & Hw). apply body_ok; [by destruct c|done| | |done].
    - intros H. apply Hf. destruct c; [|done|]; cbn in *; by destruct (flow s).
    - intros j Hj. apply Hb. destruct c; [|done|]; cbn in *; by destruct (flow s).
  Qed.
  Lemma while_ok i c s k : c <> CFalse -> run_ok (While i c s) k -> run_ok s (Kloop i c s k).
  Proof using. intros Hc H. by apply while_ok' in H as []. Qed.
  Lemma do_ok i s c k : run_ok (DoWhile i s c) k -> run_ok s (Kloop i c s k).
  Proof using.
    intros (Hs & Hn & Hf & Hb & Hw). apply body_ok; [done|done| | |done].
    - intros H. apply Hf. cbn in *; by destruct (flow s).
    - intros j Hj. apply Hb. cbn in *; by destruct (flow s).
  Qed.
  Lemma for_ok' i c s k : c <> Some CFalse -> run_ok (For i c s) k -> loop_ok i (for_cond c) s k /\ run_ok s (Kloop i (for_cond c) s k).
  Proof using.
    intros Hc (Hs & Hn & Hf & Hb & Hw). apply body_ok; [by destruct c as [[]|]|done| | |done].
    - intros H. apply Hf. destruct c as [[]|]; try done; cbn in *; by destruct (flow s).
    - intros j Hj. apply Hb. destruct c as [[]|]; try done; cbn in *; by destruct (flow s).
  Qed.
  Lemma for_ok i c s k : c <> Some CFalse -> run_ok (For i c s) k -> run_ok s (Kloop i (for_cond c) s k).
  Proof using. intros Hc H. by apply for_ok' in H as []. Qed.
  Section entries.
    Context (p : stmt -> bool) (av : list nat).
    Context (Hp : forall s, p s = true -> exists t, (exists x, s = Label x t) \/ (exists i, s = Case i t /\ i ∈ av)).
    Lemma closed_none : forall s own k, closed own s = true -> (forall a, a ∈ av -> a ∉ own /\ a ∉ ids s) -> entries p s k = [].
    Proof using Hp.
      assert (Hq : forall s, match s with Label _ _ | Case _ _ => True | _ => p s = false end).
      { intros s. destruct s; try done; (destruct (p _) eqn:E; [|done]); apply Hp in E as (? & [(? & ?)|(? & ? & ?)]); done. }
      apply (stmt_ind' (fun s => forall own k, closed own s = true -> (forall a, a ∈ av -> a ∉ own /\ a ∉ ids s) -> entries p s k = []));
        try (intros; cbn [entries]; match goal with |- (if p ?s then _ else _) ++ _ = _ => by rewrite (Hq s) end).
      - intros l Hl own k Hc Ha. cbn [entries]. rewrite (Hq (Block l)). cbn [app]. change (lentries p k l = []). cbn in Hc, Ha.
        induction Hl as [|s l Hs Hl IH]; [done|]. cbn in Hc, Ha |- *. apply andb_true_iff in Hc as [Hc1 Hc2]. rewrite (Hs own) by (done || set_solver). apply IH; [done|set_solver].
      - intros c s IH own k Hc Ha. cbn [entries]. rewrite (Hq (If c s None)). cbn [app] in *. cbn in Hc, Ha. rewrite andb_true_r in Hc. rewrite (IH own) by (done || set_solver). done.
      - intros c s t IH IH' own k Hc Ha. cbn [entries]. rewrite (Hq (If c s (Some t))). cbn in *. apply andb_true_iff in Hc as [Hc1 Hc2]. rewrite (IH own), (IH' own) by (done || set_solver). done.
      - intros i d s IH own k Hc Ha. cbn [entries]. rewrite (Hq (Switch i d s)). cbn in *. apply (IH (i :: own)); [done|set_solver].
      - intros i c s IH own k Hc Ha. cbn [entries]. rewrite (Hq (While i c s)). cbn in *. apply (IH own); [done|set_solver].
      - intros i s c IH own k Hc Ha. cbn [entries]. rewrite (Hq (DoWhile i s c)). cbn in *. apply (IH own); [done|set_solver].
      - intros i c s IH own k Hc Ha. cbn [entries]. rewrite (Hq (For i c s)). cbn in *. apply (IH own); [done|set_solver].
      - done.
      - intros i s IH own k Hc Ha. cbn in Hc, Ha. apply andb_true_iff in Hc as [Hc1%bool_decide_eq_true Hc2]. cbn [entries]. destruct (p (Case i s)) eqn:E; [|by apply (IH own)].
        apply Hp in E as (? & [(? & ?)|(j & [= -> _] & Hj)]); [done|]. by destruct (Ha j Hj).
    Qed.
    Lemma entries_ok : forall s k s' k', run_ok s k -> (forall a, a ∈ av -> a ∉ ids s) -> (s', k') ∈ entries p s k -> run_ok s' k'.
    Proof using Hp.
      assert (Hme : forall s k s' k', run_ok s k -> (s', k') ∈ (if p s then [(s, k)] else []) -> run_ok s' k').
      { intros s k s' k' H. destruct (p s); [|intros []%not_elem_of_nil]. intros [= -> ->]%elem_of_list_singleton. done. }
      apply (stmt_ind' (fun s => forall k s' k', run_ok s k -> (forall a, a ∈ av -> a ∉ ids s) -> (s', k') ∈ entries p s k -> run_ok s' k'));
        try (intros; match goal with H : _ ∈ entries _ _ _ |- _ => cbn [entries] in H; rewrite app_nil_r in H; by eapply Hme end).
      - intros l Hl k s' k' Hr Ha H. cbn [entries] in H. apply elem_of_app in H as [H|H]; [by eapply Hme|]. change ((s', k') ∈ lentries p k l) in H. assert (Hi : items_ok false l k) by exact Hr. clear Hr. revert Hi. generalize false as r.
        cbn in Ha. induction Hl as [|s l Hs Hl IH]; [by intros; apply elem_of_nil in H|]. cbn in H, Ha. intros r Hi. destruct (r && negb (labelled s)) eqn:E.
        + apply skipped_ok in Hi as [Hc Hi]; [|done]. rewrite (closed_none s []) in H; [|done|set_solver]. apply (IH ltac:(set_solver) ltac:(set_solver) r Hi).
        + apply item_ok in Hi as [Hr Hi]; [|done]. apply elem_of_app in H as [H|H]; [apply (Hs _ _ _ Hr); [set_solver|done]|]. apply (IH ltac:(set_solver) ltac:(set_solver) _ Hi).
      - intros c s IH k s' k' Hr Ha H. cbn [entries] in H. apply elem_of_app in H as [H|H]; [by eapply Hme|]. destruct Hr as (Hs & Hn & Hf & Hb & Hw). cbn in *. rewrite app_nil_r in *. rewrite andb_true_r in Hs. destruct (flow s) as [r b] eqn:Ef. cbn in *. rewrite app_nil_r in *.
        destruct c; cbn in *.
        + apply (IH _ _ _ ltac:(unfold run_ok; by rewrite Ef) Ha H).
        + rewrite (closed_none s []) in H by (done || set_solver). by apply elem_of_nil in H.
        + apply (IH k s' k'); [|done|done]. unfold run_ok. rewrite Ef. cbn. split; [done|]. split; [done|]. split; [intros ->; by apply Hf|done].
      - intros c s t IH IH' k s' k' Hr Ha H. cbn [entries] in H. apply elem_of_app in H as [H|H]; [by eapply Hme|]. destruct Hr as (Hs & Hn & Hf & Hb & Hw). cbn in Hs, Hn, Hf, Hb, Ha. apply andb_true_iff in Hs as [Hs1 Hs2]. apply NoDup_app in Hn as (Hn1 & _ & Hn2).
        destruct (flow s) as [r b] eqn:Ef. destruct (flow t) as [r' b'] eqn:Ef'. cbn in Hf, Hb. apply elem_of_app in H as [H|H].
        + destruct c; cbn in *; [|rewrite (closed_none s []) in H by (done || set_solver); by apply elem_of_nil in H|]; (apply (IH k s' k'); [|set_solver|done]); unfold run_ok; rewrite Ef; cbn; (split; [done|]; split; [done|]).
          * split; [done|]. split; [set_solver|done].
          * split; [intros ->; by apply Hf|]. split; [set_solver|done].
        + destruct c; cbn in *; [rewrite (closed_none t []) in H by (done || set_solver); by apply elem_of_nil in H| |]; (apply (IH' k s' k'); [|set_solver|done]); unfold run_ok; rewrite Ef'; cbn; (split; [done|]; split; [done|]).
          * split; [done|]. split; [set_solver|done].
          * split; [intros ->; apply Hf, andb_false_r|]. split; [set_solver|done].
      - intros i d s IH k s' k' Hr Ha H. cbn [entries] in H. apply elem_of_app in H as [H|H]; [by eapply Hme|]. apply (IH _ _ _ (switch_ok i d s k Hr)); [cbn in Ha; set_solver|done].
      - intros i c s IH k s' k' Hr Ha H. cbn [entries] in H. apply elem_of_app in H as [H|H]; [by eapply Hme|]. destruct c; [|cbn in Hr; rewrite (closed_none s []) in H; [by apply elem_of_nil in H|apply Hr|cbn in Ha; set_solver]|].
        + apply (IH _ _ _ (while_ok i CTrue s k ltac:(done) Hr)); [cbn in Ha; set_solver|done].
        + apply (IH _ _ _ (while_ok i CAny s k ltac:(done) Hr)); [cbn in Ha; set_solver|done].
      - intros i s c IH k s' k' Hr Ha H. cbn [entries] in H. apply elem_of_app in H as [H|H]; [by eapply Hme|]. apply (IH _ _ _ (do_ok i s c k Hr)); [cbn in Ha; set_solver|done].
      - intros i c s IH k s' k' Hr Ha H. cbn [entries] in H. apply elem_of_app in H as [H|H]; [by eapply Hme|]. destruct c as [[]|]; [|cbn in Hr; rewrite (closed_none s []) in H; [by apply elem_of_nil in H|apply Hr|cbn in Ha; set_solver]| |].
        + apply (IH _ _ _ (for_ok i (Some CTrue) s k ltac:(done) Hr)); [cbn in Ha; set_solver|done].
        + apply (IH _ _ _ (for_ok i (Some CAny) s k ltac:(done) Hr)); [cbn in Ha; set_solver|done].
        + apply (IH _ _ _ (for_ok i None s k ltac:(done) Hr)); [cbn in Ha; set_solver|done].
      - intros x s IH k s' k' Hr Ha H. cbn [entries] in H. apply elem_of_app in H as [H|H]; [by eapply Hme|]. apply (IH k); done.
      - intros i s IH k s' k' Hr Ha H. cbn [entries] in H. apply elem_of_app in H as [H|H]; [by eapply Hme|]. apply (IH k); done.
    Qed.
  End entries.
  Lemma step_ok body : run_ok body Kstop -> forall c c', step body c c' -> inv c -> inv c'.
  Proof using.
    intros Hbody c c' Hs. destruct Hs; cbn [inv]; try done.
    - intros (_ & _ & H & _ & Hw). split; [by apply H|done].
    - intros (_ & _ & H & _ & Hw). split; [by apply H|done].
    - intros (Hs & Hn & Hf & Hb & Hw). cbn in *. apply andb_true_iff in Hs as [Hs _]. apply NoDup_app in Hn as (Hn & _ & _). unfold run_ok. destruct (flow s) as [r b]. destruct (match t with Some t => flow t | None => (false, []) end) as [r' b']. cbn in *.
      destruct c; cbn in *; try done; (split; [done|]; split; [done|]; split; [|split; [set_solver|done]]); [done|]. intros ->. by apply Hf.
    - intros (Hs & Hn & Hf & Hb & Hw). cbn in *. apply andb_true_iff in Hs as [_ Hs]. apply NoDup_app in Hn as (_ & _ & Hn). unfold run_ok. destruct (flow s) as [r b]. destruct (flow t) as [r' b']. cbn in *.
      destruct c; cbn in *; try done; (split; [done|]; split; [done|]; split; [|split; [set_solver|done]]); [done|]. intros ->. apply Hf, andb_false_r.
    - intros (Hs & Hn & Hf & Hb & Hw). split; [|done]. apply Hf. cbn. destruct (flow s) as [r b]. destruct c; cbn; try done. apply andb_false_r.
    - intros Hr. apply (entries_ok (is_case i) [i]) with (s := s) (k := Kswitch i k); [| |  |done].
      + intros s0. destruct s0; try done. cbn. intros ->%bool_decide_eq_true. eexists. right. eexists. split; [done|by left].
      + by eapply switch_ok.
      + intros a ->%elem_of_list_singleton. destruct Hr as (_ & Hn & _). by apply NoDup_cons in Hn as [].
    - intros (Hs & Hn & Hf & Hb & Hw). split; [|done]. apply Hf. cbn. by destruct (flow s).
    - intros Hr. assert (Hw : wf k) by apply Hr. split; [|done]. destruct (decide (c = CFalse)) as [->|Hc]; [|by apply while_ok' in Hr as []]. split; [done|]. intros _. by apply Hr.
    - intros Hr. by eapply do_ok.
    - intros Hr. assert (Hw : wf k) by apply Hr. split; [|done]. destruct (decide (c = Some CFalse)) as [->|Hc]; [|by apply for_ok' in Hr as []]. split; [done|]. intros _. by apply Hr.
    - intros [[Hl Hl'] Hw]. destruct (Hl ltac:(done)) as (Hs & Hn & Hb). split; [done|]. split; [by apply NoDup_cons in Hn as []|]. done.
    - intros [[_ Hl] Hw]. split; [by apply Hl|done].
    - intros (_ & _ & _ & Hb & Hw). eapply break_ok; [|done|done]. apply Hb. cbn. by left.
    - intros (_ & _ & _ & _ & Hw). by eapply continue_ok.
    - intros _. apply (entries_ok (is_label x) []) with (s := body) (k := Kstop); [|done| |done].
      + intros s0. destruct s0; try done. cbn. intros ->%bool_decide_eq_true. eexists. left. by eexists.
      + intros a []%elem_of_nil.
    - intros (_ & _ & H & _ & Hw). split; [by apply H|done].
    - intros H. by apply (item_ok false) in H as [].
    - intros [(H1 & H2 & H3 & H4) Hw]. done.
    - intros [_ [Hl Hw]]. done.
  Qed.
End sound.
Theorem rule_sound l : in_sight (Block l) = true -> NoDup (l ≫= ids) -> (lflow false l).1 = true -> ~ falls_off l.
Proof.
  intros Hs Hn Hf H. assert (Hb : run_ok False (Block l) Kstop). { split; [done|]. split; [done|]. split; [|done]. rewrite flow_block, Hf. done. }
  assert (Hi : inv False (Fall Kstop)); [|by destruct Hi].
  unfold falls_off in H. revert H. generalize (Fall Kstop). intros c H. remember (Run (Block l) Kstop) as c0 eqn:E. assert (H0 : inv False c0) by by rewrite E. clear E.
  induction H as [|c0 c1 c2 Hst _ IH]; [done|]. apply IH. by eapply step_ok.
Qed.
