From stdpp Require Import base list numbers.
From Coq Require Import Lia ZArith.
From Verif Require Import Util.Path_model Util.Path_spec.
Local Open Scope Z_scope.

(* Splitting *)
Definition name_ok (w : list Z) : Prop := w <> [] /\ 47 ∉ w.

Lemma split_acc_word w : 47 ∉ w -> forall cur p, split_acc cur (w ++ p) = split_acc (rev w ++ cur) p.
Proof.
  induction w as [|c w IH]; intros Hw cur p; [done|].
  apply not_elem_of_cons in Hw as [Hc Hw]. cbn [app split_acc].
  rewrite decide_False by done. rewrite IH by done. simpl. rewrite <- app_assoc. done.
Qed.

Lemma comps_word w : name_ok w -> comps w = [w].
Proof.
  intros [Hne Hw]. unfold comps. rewrite <- (app_nil_r w) at 1. rewrite split_acc_word by done.
  simpl. rewrite app_nil_r. rewrite decide_False.
  - rewrite rev_involutive. done.
  - intros H. apply Hne. rewrite <- (rev_involutive w), H. done.
Qed.

Lemma comps_word_slash w p : name_ok w -> comps (w ++ 47 :: p) = w :: comps p.
Proof.
  intros [Hne Hw]. unfold comps. rewrite split_acc_word by done.
  cbn [split_acc]. rewrite decide_True by done. rewrite app_nil_r. rewrite decide_False.
  - rewrite rev_involutive. done.
  - intros H. apply Hne. rewrite <- (rev_involutive w), H. done.
Qed.

Lemma comps_slash p : comps (47 :: p) = comps p.
Proof. reflexivity. Qed.

Lemma skip_comps p : comps (skip_slashes p) = comps p.
Proof.
  induction p as [|c p IH]; [done|].
  destruct (decide (c = 47)) as [->|]; [rewrite comps_slash, <- IH; done|].
  cbn [skip_slashes]. rewrite decide_False by done. done.
Qed.

Lemma skip_head p : match skip_slashes p with [] => True | c :: _ => c <> 47 end.
Proof.
  induction p as [|c p IH]; [done|].
  destruct (decide (c = 47)) as [->|]; [exact IH|].
  cbn [skip_slashes]. rewrite decide_False by done. done.
Qed.

Lemma skip_length p : (length (skip_slashes p) <= length p)%nat.
Proof.
  induction p as [|c p IH]; [done|].
  destruct (decide (c = 47)) as [->|]; [simpl in *; lia|].
  cbn [skip_slashes]. rewrite decide_False by done. done.
Qed.

Lemma upto_spec p : forall w q, upto_slash p = (w, q) ->
  p = w ++ q /\ 47 ∉ w /\ (q = [] \/ exists q', q = 47 :: q').
Proof.
  induction p as [|c p IH]; intros w q H; cbn [upto_slash] in H.
  - injection H as <- <-. split; [done|]. split; [apply not_elem_of_nil|by left].
  - destruct (decide (c = 47)) as [->|Hc].
    + injection H as <- <-. split; [done|]. split; [apply not_elem_of_nil|]. right. eauto.
    + destruct (upto_slash p) as [w' q'] eqn:E. injection H as <- <-.
      destruct (IH _ _ eq_refl) as (-> & Hw & Hq). split; [done|]. split; [|done].
      apply not_elem_of_cons. done.
Qed.

(* The loop over one path is a fold over its components. *)
Fixpoint fold_comps (s : jstate) (ws : list (list Z)) : option jstate :=
  match ws with
  | [] => Some s
  | w :: ws => match step_comp s w with Some s => fold_comps s ws | None => None end
  end.

Lemma path_loop_fold : forall fuel p s, (length p < fuel)%nat ->
  path_loop fuel s p = Some (fold_comps s (comps p)).
Proof.
  induction fuel as [|fuel IH]; intros p s Hf; [lia|].
  cbn [path_loop]. rewrite <- (skip_comps p).
  pose proof (skip_head p) as Hh. pose proof (skip_length p) as Hl.
  destruct (skip_slashes p) as [|c p'] eqn:E; [done|].
  destruct (upto_slash (c :: p')) as [w q] eqn:Eu.
  destruct (upto_spec _ _ _ Eu) as (Hp & Hw & Hq).
  assert (Hok : name_ok w).
  { split; [|done]. intros ->. simpl in Hp. destruct Hq as [->|[q' ->]]; simplify_eq. }
  rewrite Hp. destruct Hq as [->|[q' ->]].
  - rewrite app_nil_r, comps_word by done. cbn [fold_comps].
    destruct (step_comp s w); done.
  - rewrite comps_word_slash by done. cbn [fold_comps].
    destruct (step_comp s w) as [s'|]; [|done].
    rewrite IH; [rewrite comps_slash; done|].
    apply (f_equal length) in Hp. rewrite app_length in Hp. simpl in *.
    destruct w; [by destruct Hok|]. simpl in *. lia.
Qed.

(* State invariant: elements are ordinary names; a root state has no "..". *)
Definition jinv (s : jstate) : Prop :=
  Forall (fun w => name_ok w /\ ordinary w) (elems s) /\
  (jtop s = ROOTDIR -> parent_count s = 0%nat).

(* Meaning of the state from [cwd]. *)
Fixpoint ups (l : loc) (n : nat) {struct n} : option loc :=
  match n with O => Some l | S n => match l with [] => None | _ :: l => ups l n end end.
Definition start (s : jstate) (cwd : loc) : option loc :=
  match jtop s with ROOTDIR => Some [] | _ => ups cwd (parent_count s) end.
Definition meaning (s : jstate) (cwd : loc) : option loc :=
  match start s cwd with Some l => Some (rev (elems s) ++ l) | None => None end.

Lemma ups_S l n : ups l (S n) = match ups l n with Some (_ :: l) => Some l | _ => None end.
Proof.
  revert l. induction n as [|n IH]; intros l. { destruct l; reflexivity. }
  destruct l as [|x l]; [done|]. change (ups (x :: l) (S (S n))) with (ups l (S n)).
  rewrite IH. done.
Qed.

Lemma comps_ok : forall p cur, 47 ∉ cur -> Forall name_ok (split_acc cur p).
Proof.
  assert (Hr : forall cur : list Z, cur <> [] -> 47 ∉ cur -> name_ok (rev cur)).
  { intros cur Hne Hn. split.
    - intros H. apply Hne. rewrite <- (rev_involutive cur), H. done.
    - rewrite elem_of_list_In, <- in_rev, <- elem_of_list_In. done. }
  induction p as [|c p IH]; intros cur Hn; cbn [split_acc].
  - destruct (decide (cur = [])); constructor; [apply Hr; done|constructor].
  - destruct (decide (c = 47)).
    + destruct (decide (cur = [])); [apply IH, not_elem_of_nil|].
      constructor; [apply Hr; done|apply IH, not_elem_of_nil].
    + apply IH. apply not_elem_of_cons. done.
Qed.

Lemma step_comp_ok s w s' : jinv s -> name_ok w -> step_comp s w = Some s' ->
  jinv s' /\ forall cwd, meaning s' cwd =
    match meaning s cwd with Some l => walk1 l w | None => None end.
Proof.
  intros [He Ht] Hw H. unfold step_comp in H. unfold walk1.
  destruct (decide (w = [46])) as [Hdot|Hdot].
  - injection H as <-.
    assert (Hm : forall e n t1 t2 cwd, t1 <> ROOTDIR -> t2 <> ROOTDIR ->
      meaning (JState e n t1) cwd = meaning (JState e n t2) cwd).
    { intros e n t1 t2 cwd H1 H2. unfold meaning, start. cbn. destruct t1, t2; done. }
    destruct (decide (elems s = [])) as [Hemp|Hne].
    + destruct s as [e n t]; cbn [elems parent_count jtop] in *. destruct t.
      * split; [split; [done|done]|]. intros cwd. rewrite (Hm e n CURDIR OTHER cwd) by done.
        destruct (meaning _ _); done.
      * split; [split; done|]. intros cwd. destruct (meaning _ _); done.
      * split; [split; done|]. intros cwd. destruct (meaning _ _); done.
    + split; [split; done|]. intros cwd. destruct (meaning _ _); done.
  - destruct (decide (w = [46; 46])) as [Hdd|Hdd].
    + destruct (decide (elems s = [])) as [Hemp|Hne].
      * assert (Hs' : jtop s <> ROOTDIR /\ s' = JState [] (S (parent_count s)) OTHER).
        { destruct (jtop s); try discriminate; injection H as <-; done. }
        destruct Hs' as [Hroot ->]. split; [split; [constructor|done]|].
        intros cwd. unfold meaning, start. cbn [jtop elems parent_count]. rewrite ups_S, Hemp.
        destruct (jtop s); try done; simpl; destruct (ups cwd (parent_count s)) as [[|]|]; done.
      * injection H as <-.
        destruct (elems s) as [|x e] eqn:Ee using rev_ind; [done|]. clear IHe.
        rewrite removelast_last.
        apply Forall_app in He as [He1 He2]. split; [split; [done|done]|].
        intros cwd. unfold meaning, start. cbn [jtop elems parent_count]. rewrite Ee.
        rewrite rev_app_distr. simpl.
        destruct (match jtop s with ROOTDIR => _ | _ => _ end); done.
    + injection H as <-. split.
      * split; [|done]. cbn [elems]. apply Forall_app. split; [done|]. constructor; [|constructor].
        split; [done|]. split; done.
      * intros cwd. unfold meaning, start. cbn [jtop elems parent_count].
        rewrite rev_app_distr. simpl.
        destruct (match jtop s with ROOTDIR => _ | _ => _ end); done.
Qed.

Lemma step_comp_none s w : jinv s -> step_comp s w = None ->
  forall cwd, exists l, meaning s cwd = Some l /\ walk1 l w = None /\ jtop s = ROOTDIR.
Proof.
  intros [He Ht] H cwd. unfold step_comp in H.
  destruct (decide (w = [46])) as [Hdot|Hdot].
  { destruct (decide _); [destruct (jtop s)|]; done. }
  destruct (decide (w = [46; 46])) as [->|Hdd]; [|done].
  destruct (decide (elems s = [])) as [Hemp|Hne]; [|done].
  destruct (jtop s) eqn:Et; try done.
  exists []. unfold meaning, start. rewrite Et, Hemp. done.
Qed.

Lemma walk_app l ws1 ws2 : walk l (ws1 ++ ws2) =
  match walk l ws1 with Some l => walk l ws2 | None => None end.
Proof.
  revert l; induction ws1 as [|w ws1 IH]; intros l; simpl; [done|].
  destruct (walk1 l w); [apply IH|done].
Qed.

Lemma fold_comps_ok ws : forall s s', jinv s -> Forall name_ok ws -> fold_comps s ws = Some s' ->
  jinv s' /\ forall cwd, meaning s' cwd = match meaning s cwd with Some l => walk l ws | None => None end.
Proof.
  induction ws as [|w ws IH]; intros s s' Hi Hw H; cbn [fold_comps] in H.
  - injection H as <-. split; [done|]. intros cwd. destruct (meaning s cwd); done.
  - destruct (step_comp s w) as [s1|] eqn:E; [|done].
    apply List.Forall_cons_iff in Hw as [Hw1 Hw].
    destruct (step_comp_ok _ _ _ Hi Hw1 E) as [Hi1 Hm1].
    destruct (IH _ _ Hi1 Hw H) as [Hi2 Hm2]. split; [done|].
    intros cwd. rewrite Hm2, Hm1. destruct (meaning s cwd); done.
Qed.

Lemma fold_comps_none ws : forall s, jinv s -> Forall name_ok ws -> fold_comps s ws = None ->
  jtop s = ROOTDIR /\ forall cwd, exists l, meaning s cwd = Some l /\ walk l ws = None.
Proof.
  induction ws as [|w ws IH]; intros s Hi Hw H; cbn [fold_comps] in H; [done|].
  apply List.Forall_cons_iff in Hw as [Hw1 Hw].
  destruct (step_comp s w) as [s1|] eqn:E.
  - destruct (step_comp_ok _ _ _ Hi Hw1 E) as [Hi1 Hm1].
    destruct (IH _ Hi1 Hw H) as [Hr Hx].
    assert (Hr0 : jtop s = ROOTDIR).
    { revert E. unfold step_comp. clear -Hr. destruct s as [e0 n0 t0].
      cbn [elems parent_count jtop].
      repeat (destruct (decide _)); destruct t0; intros [= <-]; cbn in Hr; congruence. }
    split; [done|]. intros cwd. destruct (Hx cwd) as (l & Hl & Hwk). rewrite Hm1 in Hl.
    destruct (meaning s cwd) as [l0|]; [|done]. exists l0. split; [done|]. simpl. rewrite Hl. done.
  - destruct (step_comp_none _ _ Hi E []) as (_ & _ & _ & Hr). split; [done|].
    intros cwd. destruct (step_comp_none _ _ Hi E cwd) as (l & Hl & Hn & _).
    exists l. split; [done|]. simpl. rewrite Hn. done.
Qed.

Lemma start_path_ok s p : jinv s -> jinv (start_path s p) /\
  forall cwd, meaning (start_path s p) cwd = if is_abs p then Some [] else meaning s cwd.
Proof.
  intros Hi. unfold start_path, is_abs. destruct p as [|c p]; [done|].
  destruct (decide (c = 47)) as [->|Hc]; [split; [split; [constructor|done]|done]|].
  rewrite bool_decide_false by done. done.
Qed.

Lemma paths_loop_ok ps : forall s, jinv s ->
  match paths_loop s ps with
  | None => False
  | Some None => exists ps1 p ps2, ps = ps1 ++ p :: ps2 /\
      forall cwd, resolve_seq (meaning s cwd) (ps1 ++ [p]) = None
  | Some (Some s') => jinv s' /\ forall cwd, meaning s' cwd = resolve_seq (meaning s cwd) ps
  end.
Proof.
  induction ps as [|p ps IH]; intros s Hi; [done|]. cbn [paths_loop].
  rewrite path_loop_fold by lia. cbn [mbind option_bind].
  destruct (start_path_ok s p Hi) as [Hi0 Hm0].
  assert (Hw : Forall name_ok (comps p)) by (apply comps_ok, not_elem_of_nil).
  assert (Hstep : forall cwd, (if is_abs p then walk [] (comps p)
                 else match meaning s cwd with Some l => walk l (comps p) | None => None end)
      = match meaning (start_path s p) cwd with Some l => walk l (comps p) | None => None end).
  { intros cwd. rewrite Hm0. destruct (is_abs p); done. }
  destruct (fold_comps (start_path s p) (comps p)) as [s1|] eqn:E.
  - destruct (fold_comps_ok _ _ _ Hi0 Hw E) as [Hi1 Hm1].
    specialize (IH s1 Hi1). destruct (paths_loop s1 ps) as [[s2|]|]; [| |done].
    + destruct IH as [Hi2 Hm2]. split; [done|]. intros cwd. rewrite Hm2, Hm1. cbn [resolve_seq].
      rewrite Hstep. done.
    + destruct IH as (ps1 & q & ps2 & -> & Hn). exists (p :: ps1), q, ps2. split; [done|].
      intros cwd. specialize (Hn cwd). cbn [app resolve_seq]. rewrite Hstep, <- Hm1. done.
  - destruct (fold_comps_none _ _ Hi0 Hw E) as [_ Hn]. exists [], p, ps. split; [done|].
    intros cwd. cbn [app resolve_seq]. rewrite Hstep.
    destruct (Hn cwd) as (l & -> & Hx). rewrite Hx. done.
Qed.

(* Joining *)
Lemma comps_join es : Forall name_ok es -> comps (sb_join es [47]) = es.
Proof.
  induction es as [|e es IH]; intros H; [done|].
  apply List.Forall_cons_iff in H as [He H]. destruct es as [|e' es].
  - simpl. apply comps_word. done.
  - change (sb_join (e :: e' :: es) [47]) with (e ++ [47] ++ sb_join (e' :: es) [47]).
    cbn [app]. rewrite comps_word_slash by done. rewrite IH by done. done.
Qed.

Lemma is_abs_join es : Forall name_ok es -> is_abs (sb_join es [47]) = false.
Proof.
  intros H. destruct es as [|e es]; [done|]. apply List.Forall_cons_iff in H as [[Hne He] H].
  destruct e as [|c e]; [done|]. apply not_elem_of_cons in He as [Hc _].
  assert (Hx : forall r, is_abs (c :: r) = false).
  { intros r. apply bool_decide_false. done. }
  destruct es as [|e' es]; [apply Hx|].
  change (sb_join ((c :: e) :: e' :: es) [47]) with (c :: (e ++ [47] ++ sb_join (e' :: es) [47])).
  apply Hx.
Qed.

Lemma dotdot_ok : name_ok [46; 46].
Proof. split; [done|]. rewrite elem_of_list_In. simpl. lia. Qed.
Lemma dot_ok : name_ok [46].
Proof. split; [done|]. rewrite elem_of_list_In. simpl. lia. Qed.

Lemma walk_dotdots n l : walk l (replicate n [46; 46]) = ups l n.
Proof.
  revert l. induction n as [|n IH]; intros l; [done|]. cbn [replicate walk].
  unfold walk1. rewrite decide_False by done. rewrite decide_True by done.
  destruct l; [done|]. apply IH.
Qed.

Lemma walk_names es : Forall ordinary es -> forall l, walk l es = Some (rev es ++ l).
Proof.
  induction es as [|e es IH]; intros H l; [done|].
  apply List.Forall_cons_iff in H as [[H1 H2] H]. cbn [walk]. unfold walk1.
  rewrite !decide_False by done. rewrite IH by done. simpl. rewrite <- app_assoc. done.
Qed.

Lemma join_ok s : jinv s ->
  let es := replicate (parent_count s) [46; 46] ++ elems s in
  let es' := match jtop s with
              | CURDIR => [46] :: es
              | ROOTDIR => (if decide (es = []) then [47] else []) :: es
              | OTHER => es
              end in
  normalised (sb_join es' [47]) /\ forall cwd, resolve cwd (sb_join es' [47]) = meaning s cwd.
Proof.
  intros [He Ht] es es'.
  assert (Hes : Forall name_ok es).
  { apply Forall_app. split; [apply Forall_replicate, dotdot_ok|].
    eapply List.Forall_impl; [|exact He]. intros w [? _]. done. }
  assert (Hord : Forall ordinary (elems s)).
  { eapply List.Forall_impl; [|exact He]. intros w [_ ?]. done. }
  assert (Hwalk : forall l, walk l es = match ups l (parent_count s) with
     Some l => Some (rev (elems s) ++ l) | None => None end).
  { intros l. unfold es. rewrite walk_app, walk_dotdots. destruct (ups l _); [|done].
    apply walk_names. done. }
  unfold resolve, meaning, start. unfold es'. clear es'. destruct (jtop s) eqn:Et.
  - rewrite is_abs_join by done. rewrite comps_join by done. split; [|done].
    exists [], (parent_count s), (elems s). split; [by left|]. split; [done|].
    rewrite comps_join by done. split; [done|]. rewrite is_abs_join by done. done.
  - assert (Hpc : parent_count s = 0%nat) by (apply Ht; done).
    unfold es in *. rewrite Hpc in *. cbn [replicate app] in *.
    assert (Hca : comps (sb_join ((if decide (elems s = []) then [47] else []) :: elems s) [47]) = elems s
      /\ is_abs (sb_join ((if decide (elems s = []) then [47] else []) :: elems s) [47]) = true).
    { destruct (elems s) as [|e es0] eqn:Ee; [done|]. rewrite decide_False by done.
      change (sb_join ([] :: e :: es0) [47]) with (47 :: sb_join (e :: es0) [47]).
      rewrite comps_slash, comps_join by done. done. }
    destruct Hca as [Hc Ha]. rewrite Hc, Ha. split; [|intros; rewrite walk_names by done; done].
    exists [], 0%nat, (elems s). rewrite Hc. split; [by left|]. done.
  - assert (Hes2 : Forall name_ok ([46] :: es)) by (constructor; [apply dot_ok|done]).
    rewrite is_abs_join by done. rewrite comps_join by done. split; [|done].
    exists [[46]], (parent_count s), (elems s). split; [by right|]. split; [done|].
    rewrite comps_join by done. split; [done|]. rewrite is_abs_join by done. done.
Qed.

Lemma join_paths_ok ps :
  match join_paths ps with
  | None => False
  | Some None => exists ps1 p ps2, ps = ps1 ++ p :: ps2 /\
      forall cwd, resolve_seq (Some cwd) (ps1 ++ [p]) = None
  | Some (Some r) => normalised r /\ forall cwd, resolve cwd r = resolve_seq (Some cwd) ps
  end.
Proof.
  unfold join_paths.
  assert (Hi : jinv (JState [] 0 OTHER)) by (split; [constructor|done]).
  pose proof (paths_loop_ok ps _ Hi) as H.
  destruct (paths_loop _ ps) as [[s|]|]; cbn [mbind option_bind]; [| |done].
  - destruct H as [Hi' Hm]. destruct (join_ok s Hi') as [Hn Hr]. split; [exact Hn|].
    intros cwd. rewrite Hr. apply Hm.
  - exact H.
Qed.
