From stdpp Require Import base list numbers.
From Coq Require Import Lia ZArith.
From Verif Require Import Util.Line_model Util.Line_spec.
Local Open Scope Z_scope.

Lemma rev_nil_inv {A} (l : list A) : rev l = [] -> l = [].
Proof. intros H. rewrite <- (rev_involutive l), H. done. Qed.
Lemma rev_cons_inv {A} (l : list A) x r : rev l = x :: r -> l = rev r ++ [x].
Proof. intros H. rewrite <- (rev_involutive l), H. done. Qed.

Lemma chomp_app c l : chomp1 c (l ++ [c]) = l.
Proof.
  unfold chomp1. rewrite rev_app_distr. cbn [rev app]. rewrite decide_True by done.
  apply removelast_last.
Qed.
Lemma chomp_other c l : (forall r, l <> r ++ [c]) -> chomp1 c l = l.
Proof.
  intros H. unfold chomp1. destruct (rev l) as [|x r] eqn:E; [done|].
  destruct (decide (x = c)) as [->|]; [|done]. apply rev_cons_inv in E. exfalso. eapply H; done.
Qed.
Lemma chomp_strip l : chomp1 13 l = strip_cr (rev l).
Proof.
  unfold chomp1, strip_cr. destruct (rev l) as [|x r] eqn:E.
  - apply rev_nil_inv in E as ->. done.
  - destruct (decide (x = 13)) as [->|].
    + apply rev_cons_inv in E as ->. apply removelast_last.
    + rewrite <- E, rev_involutive. done.
Qed.

(* getline and the physical lines *)
Lemma getline_spec : forall s l r, getline s = (l, r) -> s <> [] ->
  (exists l', l = l' ++ [10] /\ 10 ∉ l' /\ s = l' ++ 10 :: r) \/ (10 ∉ l /\ s = l /\ r = [] /\ l <> []).
Proof.
  induction s as [|c s IH]; intros l r H Hne; [done|]. cbn [getline] in H.
  destruct (decide (c = 10)) as [->|Hc].
  - injection H as <- <-. left. exists []. split; [done|]. split; [apply not_elem_of_nil|done].
  - destruct (getline s) as [l0 r0] eqn:E. injection H as <- <-.
    destruct s as [|c' s'].
    + simpl in E. injection E as <- <-. right. split; [|done].
      apply not_elem_of_cons. split; [done|apply not_elem_of_nil].
    + destruct (IH l0 r0 eq_refl) as [(l' & -> & Hn & Hs)|(Hn & Hs & -> & Hl0)]; [done| |].
      * left. exists (c :: l'). split; [done|]. split; [apply not_elem_of_cons; done|].
        simpl. rewrite Hs. done.
      * right. split; [apply not_elem_of_cons; done|]. split; [rewrite Hs; done|]. done.
Qed.

Lemma phys_word w : 10 ∉ w -> forall cur s, phys cur (w ++ s) = phys (rev w ++ cur) s.
Proof.
  induction w as [|c w IH]; intros Hw cur s; [done|].
  apply not_elem_of_cons in Hw as [Hc Hw]. cbn [app phys].
  rewrite decide_False by done. rewrite IH by done. simpl. rewrite <- app_assoc. done.
Qed.

Lemma getline_chomp_spec s :
  match getline_chomp s with
  | None => s = []
  | Some (l, r) => physical_lines s = l :: physical_lines r /\ (length r < length s)%nat
  end.
Proof.
  unfold getline_chomp. destruct s as [|c s]; [done|].
  destruct (getline (c :: s)) as [l r] eqn:E.
  destruct (getline_spec _ _ _ E) as [(l' & -> & Hn & Hs)|(Hn & Hs & -> & Hne)]; [done| |].
  - rewrite chomp_app, Hs. split.
    + unfold physical_lines. rewrite phys_word by done. cbn [phys]. rewrite decide_True by done.
      rewrite app_nil_r, chomp_strip. done.
    + rewrite app_length. simpl. lia.
  - rewrite Hs. split; [|rewrite <- Hs; simpl; lia].
    rewrite (chomp_other 10).
    + unfold physical_lines. rewrite <- (app_nil_r l) at 1. rewrite phys_word by done.
      rewrite app_nil_r. cbn [phys]. destruct (rev l) as [|x q] eqn:Er.
      * apply rev_nil_inv in Er. done.
      * rewrite chomp_strip, Er. done.
    + intros q ->. apply Hn. apply elem_of_app. right. apply elem_of_list_singleton. done.
Qed.

Lemma phys_nil_iff s : physical_lines s = [] -> s = [].
Proof.
  intros H. pose proof (getline_chomp_spec s) as G. destruct (getline_chomp s) as [[l r]|]; [|done].
  destruct G as [G _]. rewrite H in G. done.
Qed.

Lemma head_rev_unsplice l : head (rev l) = Some 92 <-> is_Some (unsplice l).
Proof.
  unfold unsplice. destruct (rev l) as [|c r]; simpl; [split; [done|intros [? ?]; done]|].
  destruct (decide (c = 92)) as [->|]; split; [eauto|done|intros [= ->]; done|intros [? ?]; done].
Qed.
Lemma unsplice_removelast l l' : unsplice l = Some l' -> removelast l = l'.
Proof.
  unfold unsplice. destruct (rev l) as [|c r] eqn:E; [done|].
  destruct (decide (c = 92)) as [->|]; [|done]. intros [= <-].
  apply rev_cons_inv in E as ->. apply removelast_last.
Qed.
Lemma unsplice_app pre l : l <> [] ->
  unsplice (pre ++ l) = match unsplice l with Some l' => Some (pre ++ l') | None => None end.
Proof.
  intros Hl. unfold unsplice. rewrite rev_app_distr. destruct (rev l) as [|c r] eqn:E.
  { apply rev_nil_inv in E. done. }
  simpl. destruct (decide (c = 92)); [|done]. rewrite rev_app_distr, rev_involutive. done.
Qed.

(* the continuation loop *)
Lemma cont_loop_ok : forall fuel rest pre l n,
  (length (physical_lines rest) < fuel)%nat -> unsplice pre = None ->
  Forall no_double_backslash (l :: physical_lines rest) ->
  exists line rest' n', cont_loop fuel (pre ++ l) rest n = Some (line, rest', n') /\
    logical pre (l :: physical_lines rest) n = (line, n') :: logical [] (physical_lines rest') n' /\
    (n' - n + length (physical_lines rest') = S (length (physical_lines rest)))%nat /\ (n < n')%nat /\
    (length rest' <= length rest)%nat /\ Forall no_double_backslash (physical_lines rest').
Proof.
  induction fuel as [|fuel IH]; intros rest pre l n Hf Hpre Hall; [lia|].
  apply List.Forall_cons_iff in Hall as [Hl Hall].
  assert (Huns : unsplice (pre ++ l) =
    match unsplice l with Some l' => Some (pre ++ l') | None => None end).
  { destruct (decide (l = [])) as [->|]; [rewrite app_nil_r, Hpre; done|apply unsplice_app; done]. }
  cbn [cont_loop logical].
  destruct (unsplice l) as [l'|] eqn:El.
  - rewrite decide_True by (apply head_rev_unsplice; rewrite Huns; eauto).
    rewrite (unsplice_removelast _ _ Huns).
    pose proof (getline_chomp_spec rest) as G.
    destruct (getline_chomp rest) as [[nx r]|].
    + destruct G as [G Glen]. rewrite G.
      assert (Hp' : unsplice (pre ++ l') = None).
      { destruct (decide (l' = [])) as [->|]; [rewrite app_nil_r; done|].
        rewrite unsplice_app by done. rewrite (Hl l') by done. done. }
      rewrite G in Hf, Hall. simpl in Hf.
      destruct (IH r (pre ++ l') nx (S n)) as (line & rest' & n' & H1 & H2 & H3 & H4 & H5 & H6);
        [lia|done|done|].
      exists line, rest', n'. split; [done|]. split; [done|]. simpl. split; [lia|]. split; [lia|].
      split; [lia|done].
    + subst rest. exists (pre ++ l'), [], (S n). split; [done|]. split; [done|].
      split; [change (physical_lines []) with ([] : list (list Z)); simpl; lia|].
      split; [lia|]. split; [lia|]. done.
  - rewrite decide_False by (rewrite head_rev_unsplice, Huns; intros [? ?]; done).
    exists (pre ++ l), rest, (S n). split; [done|]. split; [done|]. split; [lia|]. split; [lia|].
    split; [lia|done].
Qed.

Lemma phys_length s : (length (physical_lines s) <= length s)%nat.
Proof.
  unfold physical_lines.
  assert (H : forall s cur, (length (phys cur s) <= length s + (match cur with [] => 0 | _ => 1 end))%nat).
  { clear. induction s as [|c s IH]; intros cur; cbn [phys length].
    - destruct cur; simpl; lia.
    - destruct (decide (c = 10)).
      + specialize (IH []). simpl in *. lia.
      + specialize (IH (c :: cur)). simpl in IH. lia. }
  specialize (H s []). simpl in H. lia.
Qed.

Lemma read_all_ok : forall fuel s n, (length s < fuel)%nat ->
  Forall no_double_backslash (physical_lines s) ->
  read_all fuel s n = Some (logical_lines s n).
Proof.
  induction fuel as [|fuel IH]; intros s n Hf Hall; [lia|].
  cbn [read_all]. unfold getline_cont. pose proof (getline_chomp_spec s) as G.
  destruct (getline_chomp s) as [[l r]|].
  - destruct G as [G Glen]. rewrite G in Hall.
    destruct (cont_loop_ok (S (length s)) r [] l n) as (line & rest' & n' & H1 & H2 & H3 & H4 & H5 & H6);
      [pose proof (phys_length r); lia|done|done|].
    cbn [app] in H1. rewrite H1. cbn [mbind option_bind].
    unfold logical_lines. rewrite G, H2. rewrite IH by (done || lia). done.
  - subst s. done.
Qed.

(* The line counter, without any assumption on backslashes. *)
Lemma cont_loop_count : forall fuel rest line n l r n',
  cont_loop fuel line rest n = Some (l, r, n') ->
  (n' + length (physical_lines r) = n + 1 + length (physical_lines rest))%nat.
Proof.
  induction fuel as [|fuel IH]; intros rest line n l r n' H; [done|]. cbn [cont_loop] in H.
  destruct (decide _).
  - pose proof (getline_chomp_spec rest) as G. destruct (getline_chomp rest) as [[nx r0]|].
    + destruct G as [G _]. apply IH in H. rewrite G. simpl. lia.
    + injection H as <- <- <-. lia.
  - injection H as <- <- <-. lia.
Qed.

Lemma getline_cont_count s n l r n' : getline_cont s n = Some (Some (l, r, n')) ->
  (n' + length (physical_lines r) = n + length (physical_lines s))%nat.
Proof.
  unfold getline_cont. pose proof (getline_chomp_spec s) as G.
  destruct (getline_chomp s) as [[l0 r0]|]; [|done]. destruct G as [G _].
  destruct (cont_loop _ l0 r0 n) as [[[l1 r1] n1]|] eqn:E; [|done]. simpl. intros [= <- <- <-].
  apply cont_loop_count in E. rewrite G. simpl. lia.
Qed.

Lemma getline_cont_total s n : exists r, getline_cont s n = Some r.
Proof.
  unfold getline_cont. pose proof (getline_chomp_spec s) as G.
  destruct (getline_chomp s) as [[l0 r0]|]; [|eauto]. destruct G as [_ Glen].
  assert (H : forall fuel line rest n, (length rest < fuel)%nat -> exists r, cont_loop fuel line rest n = Some r).
  { clear. induction fuel as [|fuel IH]; intros line rest n Hf; [lia|]. cbn [cont_loop].
    destruct (decide _); [|eauto]. pose proof (getline_chomp_spec rest) as G.
    destruct (getline_chomp rest) as [[nx r0]|]; [|eauto]. destruct G as [_ G]. apply IH. lia. }
  destruct (H (S (length s)) l0 r0 n) as [r ->]; [lia|]. simpl. eauto.
Qed.

Lemma cont_loop_lt : forall fuel rest line n l r n',
  cont_loop fuel line rest n = Some (l, r, n') -> (n < n')%nat.
Proof.
  induction fuel as [|fuel IH]; intros rest line n l r n' H; [done|]. cbn [cont_loop] in H.
  destruct (decide _).
  - destruct (getline_chomp rest) as [[nx r0]|].
    + apply IH in H. lia.
    + injection H as <- <- <-. lia.
  - injection H as <- <- <-. lia.
Qed.

Lemma line_counter s n : exists res, getline_cont s n = Some res /\
  match res with
  | None => s = []
  | Some (l, r, n') => (n' + length (physical_lines r) = n + length (physical_lines s))%nat /\
                       (n < n')%nat
  end.
Proof.
  destruct (getline_cont_total s n) as [res H]. exists res. split; [done|].
  destruct res as [[[l r] n']|].
  - split; [eapply getline_cont_count; done|].
    unfold getline_cont in H. destruct (getline_chomp s) as [[l0 r0]|]; [|done].
    destruct (cont_loop _ l0 r0 n) as [[[l1 r1] n1]|] eqn:E; [|done]. simpl in H.
    injection H as <- <- <-. eapply cont_loop_lt; done.
  - unfold getline_cont in H. pose proof (getline_chomp_spec s) as G.
    destruct (getline_chomp s) as [[l0 r0]|]; [|done].
    destruct (cont_loop _ l0 r0 n); done.
Qed.

Lemma read_all_logical s n : Forall no_double_backslash (physical_lines s) ->
  read_all (S (length s)) s n = Some (logical_lines s n).
Proof. apply read_all_ok. lia. Qed.

(* two backslashes, newline, empty line, "x": the spliced line is spliced again. *)
Lemma double_splice_refuted : exists s,
  read_all (S (length s)) s 0 = Some [([120], 3%nat)] /\
  logical_lines s 0 = [([92], 2%nat); ([120], 3%nat)].
Proof. exists [92; 92; 10; 10; 120; 10]. vm_compute. done. Qed.
