(** Operators and identifiers. *)
From Coq Require Import Ascii String.
From stdpp Require Import base list numbers.
From Verif Require Import Cpp.Cond_model Front.Lexer_model Front.Lexer_spec.
Open Scope Z_scope.

Lemma assoc_in {A} x (l : list (str * A)) a : assoc x l = Some a -> (x, a) ∈ l.
Proof.
  induction l as [|[y b] l IH]; cbn; [done|]. case_decide as E; intros H.
  - injection H as ->. subst. by left.
  - right. by apply IH.
Qed.
Lemma assoc_none {A} x (l : list (str * A)) a : (x, a) ∈ l -> assoc x l <> None.
Proof.
  induction l as [|[y b] l IH]; cbn; [by rewrite elem_of_nil|]. rewrite elem_of_cons. intros [H|H].
  - injection H as -> ->. by rewrite decide_True.
  - case_decide; [done|]. by apply IH.
Qed.

Ltac in_list H := repeat (rewrite elem_of_cons in H; destruct H as [H|H]); [..|by rewrite elem_of_nil in H].

Lemma multi_in_table pp op k : (op, k) ∈ kMultiOperators -> (op, k) ∈ table pp.
Proof.
  assert (Hc: forallb (fun x => bool_decide (x ∈ punctuators)) kMultiOperators = true) by (vm_compute; reflexivity).
  intros H. rewrite forallb_forall in Hc. specialize (Hc (op, k)). apply elem_of_list_In in H. apply Hc in H.
  apply bool_decide_eq_true in H. destruct pp; [|done]. cbn [table]. apply elem_of_app. by left.
Qed.
Lemma single_in_table pp c k : kOperatorMap c = Some k \/ kPunctMap c = Some k -> ([c], k) ∈ table pp.
Proof.
  intros H. assert (H': ([c], k) ∈ punctuators); [|destruct pp; [apply elem_of_app; by left|done]].
  assert (Hz: forall d, (0 <= d < 128)%nat -> (forall k, kOperatorMap (Z.of_nat d) = Some k \/ kPunctMap (Z.of_nat d) = Some k -> ([Z.of_nat d], k) ∈ punctuators)).
  { assert (Hb: forallb (fun d => match kOperatorMap (Z.of_nat d) with Some k => bool_decide (([Z.of_nat d], k) ∈ punctuators) | None => true end &&
       match kPunctMap (Z.of_nat d) with Some k => bool_decide (([Z.of_nat d], k) ∈ punctuators) | None => true end) (seq 0 128) = true) by (vm_compute; reflexivity).
    intros d Hd k' Hk'. rewrite forallb_forall in Hb. specialize (Hb d). rewrite in_seq in Hb.
    specialize (Hb ltac:(lia)). apply andb_true_iff in Hb as [H1 H2].
    destruct Hk' as [->| ->] in H1, H2; by apply bool_decide_eq_true in H1 || apply bool_decide_eq_true in H2. }
  assert (0 <= c < 128).
  { destruct H as [H|H]; unfold kOperatorMap, kPunctMap in H; repeat (case_match; try done). }
  specialize (Hz (Z.to_nat c)). rewrite Z2Nat.id in Hz by lia. apply Hz; [lia|done].
Qed.

(** Where the entries of the table come from. *)
Lemma table_cases pp op k : (op, k) ∈ table pp ->
  (op, k) ∈ kMultiOperators \/ (exists c, op = [c] /\ (kOperatorMap c = Some k \/ kPunctMap c = Some k)) \/
  (pp = true /\ (op = [35] /\ k = PPTK_STRINGIFY \/ op = [35; 35] /\ k = PPTK_CONCAT)).
Proof.
  intros H.
  assert (Hp: forall op k, (op, k) ∈ punctuators -> (op, k) ∈ kMultiOperators \/ (exists c, op = [c] /\ (kOperatorMap c = Some k \/ kPunctMap c = Some k))).
  { assert (Hb: forallb (fun x => bool_decide (x ∈ kMultiOperators) ||
        match x.1 with [c] => bool_decide (kOperatorMap c = Some x.2) || bool_decide (kPunctMap c = Some x.2) | _ => false end) punctuators = true) by (vm_compute; reflexivity).
    intros op' k' H'. rewrite forallb_forall in Hb. specialize (Hb (op', k')). rewrite <-elem_of_list_In in Hb. apply Hb in H'.
    apply orb_true_iff in H' as [H'|H']; [left; by apply bool_decide_eq_true in H'|right].
    cbn in H'. destruct op' as [|c [|]]; try done. exists c. split; [done|].
    apply orb_true_iff in H' as [H'|H']; apply bool_decide_eq_true in H'; tauto. }
  destruct pp; cbn [table] in H.
  - apply elem_of_app in H as [H|H]; [destruct (Hp _ _ H); tauto|].
    right. right. split; [done|]. rewrite !elem_of_cons, elem_of_nil in H. destruct H as [H|[H|[]]]; injection H as -> ->; [left|right]; done.
  - destruct (Hp _ _ H); tauto.
Qed.

Lemma multi_shape op k : (op, k) ∈ kMultiOperators ->
  (exists a b, op = [a; b] /\ op_char a = true /\ op_char b = true) \/
  (exists a b c, op = [a; b; c] /\ op_char a = true /\ op_char b = true /\ op_char c = true).
Proof.
  assert (Hb: forallb (fun x : str * opk => match x.1 with [a; b] => op_char a && op_char b | [a; b; c] => op_char a && op_char b && op_char c | _ => false end) kMultiOperators = true)
    by (vm_compute; reflexivity).
  intros H. rewrite forallb_forall in Hb. specialize (Hb (op, k)). rewrite <-elem_of_list_In in Hb. apply Hb in H. cbn in H.
  destruct op as [|a [|b [|c [|]]]]; try done.
  - left. exists a, b. apply andb_true_iff in H as [? ?]. done.
  - right. exists a, b, c. apply andb_true_iff in H as [H ?]. apply andb_true_iff in H as [? ?]. done.
Qed.

Lemma op_not_punct c : op_char c = true -> kPunctMap c = None.
Proof. unfold op_char, kOperatorMap. intros H. repeat (case_match; try done); by subst. Qed.
Lemma op_not_hash c : op_char c = true -> c <> 35.
Proof. intros H ->. done. Qed.
Lemma punct_not_hash c k : kPunctMap c = Some k -> c <> 35.
Proof. intros H ->. done. Qed.

Lemma hd0_cons c p : hd0 (c :: p) = c. Proof. done. Qed.

(** get_op_token takes the longest operator. *)
Lemma op_longest pp p k n : get_op_token pp p = Some (k, n) -> longest pp p k (drop n p) /\ (0 < n)%nat.
Proof.
  destruct p as [|c p]; [done|]. unfold get_op_token.
  destruct (pp && (c =? 35)) eqn:Eh.
  { apply andb_true_iff in Eh as [-> Ec]. apply Z.eqb_eq in Ec as ->.
    assert (Hl: forall op' k', (op', k') ∈ table true -> op' `prefix_of` 35 :: p -> (length op' <= 2)%nat /\ (hd0 p <> 35 -> (length op' <= 1)%nat)).
    { intros op' k' H [q E]. apply table_cases in H as [H|[(d & -> & H)|(_ & [[-> _]|[-> _]])]].
      - apply multi_shape in H as [(a & b & -> & Ha & _)|(a & b & d & -> & Ha & _)]; injection E as <- _; done.
      - cbn. lia.
      - cbn; lia.
      - injection E as ->. cbn. split; [lia|done]. }
    destruct (hd0 p =? 35) eqn:E2; intros H; injection H as <- <-; (split; [|lia]).
    - apply Z.eqb_eq in E2. destruct p as [|d p]; [done|]. cbn in E2. subst d.
      exists [35; 35]. split; [done|]. split; [by apply (bool_decide_unpack _); vm_compute|].
      intros op' k' H1 H2. by apply (Hl _ _ H1 H2).
    - apply Z.eqb_neq in E2. exists [35]. split; [done|]. split; [by apply (bool_decide_unpack _); vm_compute|].
      intros op' k' H1 H2. by apply (Hl _ _ H1 H2). }
  assert (Hnh: forall op k, (op, k) ∈ table pp -> op `prefix_of` c :: p ->
     (op, k) ∈ kMultiOperators \/ (exists c, op = [c] /\ (kOperatorMap c = Some k \/ kPunctMap c = Some k))).
  { intros op' k' H1 [q E]. apply table_cases in H1 as [H|[H|(-> & H)]]; [tauto|tauto|].
    exfalso. cbn in Eh. apply Z.eqb_neq in Eh. destruct H as [[-> _]|[-> _]]; injection E as -> _; done. }
  destruct (kPunctMap c) as [k'|] eqn:Ep.
  { intros H. injection H as -> <-. split; [|lia]. exists [c]. split; [done|]. split; [by apply single_in_table; right|].
    intros op' k' H1 H2. destruct (Hnh _ _ H1 H2) as [H|(d & -> & _)]; [|done].
    exfalso. destruct H2 as [q E].
    apply multi_shape in H as [(a & b & -> & Ha & _)|(a & b & d & -> & Ha & _)]; injection E as <- _; apply op_not_punct in Ha; congruence. }
  destruct (kOperatorMap c) as [single|] eqn:Ek; [|done].
  set (n0 := if op_char (hd0 p) then _ else _).
  destruct (if bool_decide (3 <= n0)%nat then reserved_op (take 3 (c :: p)) else None) as [k3|] eqn:E3.
  { intros H. injection H as -> <-. split; [|lia]. case_bool_decide as Hn; [|done].
    apply assoc_in in E3. exists (take 3 (c :: p)). split; [by rewrite take_drop|]. split; [by apply multi_in_table|].
    intros op' k' H1 H2. assert (length (take 3 (c :: p)) = 3%nat) as ->.
    { apply multi_shape in E3 as [(a & b & E & _)|(a & b & d & E & _)]; rewrite E; [|done].
      exfalso. destruct p as [|d [|e p]]; cbn in E; try done. unfold n0 in Hn. cbn in Hn. destruct (op_char d); cbn in Hn; lia. }
    destruct (Hnh _ _ H1 H2) as [H|(d & -> & _)]; [|cbn; lia].
    apply multi_shape in H as [(a & b & -> & _)|(a & b & d & -> & _)]; cbn; lia. }
  destruct (if bool_decide (2 <= n0)%nat then reserved_op (take 2 (c :: p)) else None) as [k2|] eqn:E2.
  { intros H. injection H as -> <-. split; [|lia]. case_bool_decide as Hn; [|done].
    apply assoc_in in E2. exists (take 2 (c :: p)). split; [by rewrite take_drop|]. split; [by apply multi_in_table|].
    intros op' k' H1 H2. assert (length (take 2 (c :: p)) = 2%nat) as ->.
    { destruct p; [|done]. unfold n0 in Hn. cbn in Hn. lia. }
    destruct (Hnh _ _ H1 H2) as [H|(d & -> & _)]; [|cbn; lia].
    destruct (multi_shape _ _ H) as [(a & b & -> & _)|(a & b & d & -> & Ha & Hb & Hd)]; [cbn; lia|].
    exfalso. destruct H2 as [q E]. injection E as -> ->. cbn in n0. unfold n0 in E3. cbn [hd0 head default app skipn firstn id] in E3.
    rewrite Hb, Hd in E3. cbn [take app] in E3. rewrite bool_decide_true in E3 by lia. apply assoc_none in H. done. }
  intros H. injection H as -> <-. split; [|lia]. exists [c]. split; [done|]. split; [by apply single_in_table; left|].
  intros op' k' H1 H2. destruct (Hnh _ _ H1 H2) as [H|(d & -> & _)]; [|done]. exfalso. destruct H2 as [q E].
  destruct (multi_shape _ _ H) as [(a & b & -> & Ha & Hb)|(a & b & d & -> & Ha & Hb & Hd)].
  - injection E as -> ->. unfold n0 in E2. cbn [hd0 head default app skipn firstn id] in E2. rewrite Hb in E2.
    rewrite bool_decide_true in E2 by (repeat case_match; lia). apply assoc_none in H. done.
  - injection E as -> ->. unfold n0 in E3. cbn [hd0 head default app skipn firstn id] in E3. rewrite Hb, Hd in E3.
    rewrite bool_decide_true in E3 by lia. apply assoc_none in H. done.
Qed.

Lemma op_found pp p op k : (op, k) ∈ table pp -> op `prefix_of` p -> exists k' n, get_op_token pp p = Some (k', n).
Proof.
  intros H [q ->].
  assert (Hc: exists c r, op ++ q = c :: r /\ ((exists k, kOperatorMap c = Some k \/ kPunctMap c = Some k) \/ (pp = true /\ c = 35))).
  { apply table_cases in H as [H|[(c & -> & H)|(-> & H)]].
    - apply multi_shape in H as [(a & b & -> & Ha & _)|(a & b & d & -> & Ha & _)]; eexists; eexists; (split; [done|]); left;
        unfold op_char in Ha; destruct (kOperatorMap a) as [k'|] eqn:E; try done; exists k'; tauto.
    - eexists; eexists; (split; [done|]). left. by exists k.
    - destruct H as [[-> _]|[-> _]]; eexists; eexists; (split; [done|]); by right. }
  destruct Hc as (c & r & -> & H'). unfold get_op_token.
  destruct (pp && (c =? 35)) eqn:Eh; [destruct (hd0 r =? 35); eauto|].
  destruct H' as [[k' H']|[-> ->]]; [|done].
  destruct (kPunctMap c) as [k2|] eqn:Ep; [eauto|]. destruct H' as [H'|H']; [|congruence]. rewrite H'.
  repeat case_match; eauto.
Qed.

(** *** At the level of tokens *)
Lemma op_first pp c p k n : get_op_token pp (c :: p) = Some (k, n) ->
  c <> 76 /\ c <> 39 /\ c <> 34 /\ isdigit c = false /\ isspace c = false.
Proof.
  intros H. destruct (op_longest _ _ _ _ H) as [(op & E & Hin & _) _].
  assert (Hh: is_Some (kOperatorMap c) \/ is_Some (kPunctMap c) \/ c = 35).
  { apply table_cases in Hin as [Hin|[(d & -> & Hin)|(_ & [[-> _]|[-> _]])]].
    - apply multi_shape in Hin as [(a & b & -> & Ha & _)|(a & b & d & -> & Ha & _)]; injection E as -> _;
        left; unfold op_char in Ha; destruct (kOperatorMap a); done.
    - injection E as -> _. destruct Hin as [->| ->]; eauto.
    - injection E as -> _. tauto.
    - injection E as -> _. tauto. }
  destruct Hh as [[x Hh]|[[x Hh]|Hh]]; unfold kOperatorMap, kPunctMap in Hh; repeat (case_match; try done); by subst.
Qed.

Theorem token_op pp strtold p ls k n : get_op_token pp p = Some (k, n) ->
  ~ (exists d q, p = 46 :: d :: q /\ decimal d) ->
  token_at pp strtold p ls = Ok (TOp k, drop n p, ls).
Proof.
  intros H Hnum. destruct p as [|c p]; [done|]. destruct (op_first _ _ _ _ _ H) as (H1 & H2 & H3 & H4 & _).
  unfold token_at. rewrite hd0_cons.
  assert (Hn: (c =? 46) && isdigit (hd0 (drop 1 (c :: p))) = false).
  { apply andb_false_iff. destruct (c =? 46) eqn:E; [right|by left]. apply Z.eqb_eq in E as ->. change (drop 1 (46 :: p)) with p. destruct p as [|d p]; [done|].
    rewrite hd0_cons. apply not_true_is_false. intros Hd. apply Hnum. exists d, p. split; [done|]. unfold isdigit in Hd. unfold decimal. lia. }
  rewrite H4, Hn, H. clear -H1 H2 H3. destruct c as [|c|c]; try done. repeat (destruct c as [c|c|]; try done).
Qed.

(** No white space: punctuators only. *)
Lemma skip_none pp p ls c : punctuator_char pp c -> (forall d q, p = d :: q -> c = 47 -> d <> 42 /\ d <> 47) ->
  skip_whitespace_or_comment (c :: p) ls = Ok (Some (c :: p, ls)).
Proof.
  intros [k Hk] Hc. destruct (op_found pp (c :: p) [c] k Hk) as (k' & n & H); [by exists p|].
  destruct (op_first _ _ _ _ _ H) as (_ & _ & _ & _ & Hs).
  unfold skip_whitespace_or_comment. cbn [skip_ws skip_whitespaces]. rewrite Hs.
  destruct (decide (c = 47)) as [->|Hn].
  - destruct p as [|d q]; [done|]. destruct (Hc d q eq_refl eq_refl) as [H1 H2].
    destruct d as [|d|d]; try done. repeat (destruct d as [d|d|]; try done).
  - destruct c as [|c|c]; try done. repeat (destruct c as [c|c|]; try done).
Qed.

Lemma no_comment_drop n p : no_comment p -> no_comment (drop n p).
Proof.
  intros H a b c E. apply (H (take n p ++ a) b c). rewrite <-app_assoc, <-E. by rewrite take_drop.
Qed.

Theorem lex_punctuators pp strtold p : Forall (punctuator_char pp) p -> no_comment p ->
  exists ts, lex_all pp strtold (S (length p)) p [] = Ok ts /\ cut pp p ts.
Proof.
  remember (length p) as m eqn:Em. revert p Em. induction m as [m IH] using lt_wf_ind. intros p Em Hp Hc.
  destruct p as [|c p].
  { subst m. exists []. split; [done|constructor]. }
  apply Forall_cons_1 in Hp as Hp'. destruct Hp' as [Hc1 _].
  destruct Hc1 as [k Hk]. destruct (op_found pp (c :: p) [c] k Hk) as (k' & n & H); [by exists p|].
  destruct (op_longest _ _ _ _ H) as [Hl Hn].
  destruct (IH (length (drop n (c :: p))) ) with (p := drop n (c :: p)) as (ts & E & Hcut); [|done|by apply Forall_drop|by apply no_comment_drop|].
  { rewrite drop_length. cbn. cbn in Em. lia. }
  assert (Hmono: forall f1 q ls ts, lex_all pp strtold f1 q ls = Ok ts -> forall f2, (f1 <= f2)%nat -> lex_all pp strtold f2 q ls = Ok ts).
  { clear. induction f1 as [|f1 IH]; [done|]. intros q ls ts H f2 Hf. destruct f2 as [|f2]; [lia|]. cbn [lex_all] in *.
    destruct (get_token pp strtold q ls) as [[[t q'] ls']| | |]; try done. cbn [bindr] in *.
    destruct t; try done; destruct (lex_all pp strtold f1 q' ls') as [ts'| | |] eqn:E; try done; rewrite (IH _ _ _ E f2) by lia; done. }
  exists (TOp k' :: ts). split; [|by econstructor].
  cbn [lex_all]. unfold get_token. rewrite (skip_none pp p [] c); [|by exists k|].
  2:{ intros d q -> ->. apply (Hc [] q d). done. }
  cbn [bindr]. rewrite (token_op pp strtold (c :: p) [] k' n H).
  2:{ intros (d & q & E' & Hd). injection E' as -> ->. apply Forall_cons_1 in Hp as [_ Hp]. apply Forall_cons_1 in Hp as [[kd Hkd] _].
      destruct (op_found pp [d] [d] kd Hkd) as (k3 & n3 & H3); [by exists []|].
      apply op_first in H3 as (_ & _ & _ & H3 & _). unfold decimal in Hd. unfold isdigit in H3. lia. }
  cbn [bindr]. rewrite (Hmono _ _ _ _ E); [done|]. rewrite drop_length. cbn in *. lia.
Qed.
