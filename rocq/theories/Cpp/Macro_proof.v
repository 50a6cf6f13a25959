(** Object-like macros: termination, and the result when there is no mutual
    recursion. *)
From stdpp Require Import base list numbers gmap sets relations.
From Verif Require Import Cpp.Macro_model Cpp.Macro_spec.
Open Scope nat_scope.

(** ** Hide sets only grow *)
Lemma hsadd1_mono hs h t p : default ∅ (h !! p) ⊆ default ∅ (hsadd1 hs h t !! p).
Proof.
  unfold hsadd1. destruct (knd t); try done;
    (destruct (decide (ptr t = p)) as [->|]; [rewrite lookup_insert|by rewrite lookup_insert_ne];
     destruct (h !! p); cbn; set_solver).
Qed.
Lemma hsadd_mono hs h ts p : default ∅ (h !! p) ⊆ default ∅ (hsadd hs h ts !! p).
Proof.
  unfold hsadd. revert h. induction ts as [|t ts IH]; intros h; cbn [foldl]; [done|].
  etrans; [apply (hsadd1_mono hs h t)|apply IH].
Qed.
Lemma hsadd_new hs h ts t : t ∈ ts -> knd t = KIdent -> hs ⊆ default ∅ (hsadd hs h ts !! ptr t).
Proof.
  unfold hsadd. revert h. induction ts as [|t' ts IH]; intros h Hin Hk; [by apply elem_of_nil in Hin|].
  cbn [foldl]. apply elem_of_cons in Hin as [<-|Hin]; [|by apply IH].
  etrans; [|apply (hsadd_mono hs _ ts)]. unfold hsadd1. rewrite Hk, lookup_insert.
  destruct (h !! ptr t); cbn; set_solver.
Qed.
(** Only members of [hs] are added, and only to the tokens at hand. *)
Lemma hsadd_from hs h ts p x : x ∈ default ∅ (hsadd hs h ts !! p) ->
  x ∈ default ∅ (h !! p) \/ (x ∈ hs /\ exists t, t ∈ ts /\ ptr t = p).
Proof.
  unfold hsadd. revert h. induction ts as [|t ts IH]; intros h Hx; cbn [foldl] in Hx; [by left|].
  destruct (IH _ Hx) as [Hx'|(Hs & t' & Ht' & Hp)]; [|right; split; [done|]; exists t'; by rewrite elem_of_cons; auto].
  unfold hsadd1 in Hx'.
  assert (Hi: x ∈ default ∅ (<[ptr t := match h !! ptr t with Some h' => h' ∪ hs | None => hs end]> h !! p) ->
    x ∈ default ∅ (h !! p) \/ (x ∈ hs /\ exists t0, t0 ∈ t :: ts /\ ptr t0 = p)).
  { destruct (decide (ptr t = p)) as [<-|]; [rewrite lookup_insert|rewrite lookup_insert_ne by done; by left].
    destruct (h !! ptr t) as [h'|]; cbn; intros Hx2.
    - apply elem_of_union in Hx2 as [?|?]; [by left|right]. split; [done|]. exists t. split; [|done]. apply elem_of_cons. by left.
    - right. split; [done|]. exists t. split; [|done]. apply elem_of_cons. by left. }
  destruct (knd t); auto.
Qed.

Lemma glue1_snoc s os t1 t2 : glue1 s (os ++ [t1]) t2 =
  (os ++ [Tok (fresh s) KIdent (txt t1 ++ txt t2)], St (hid s) (S (fresh s)) (src s)).
Proof. unfold glue1. rewrite reverse_snoc, reverse_cons, reverse_involutive. done. Qed.

(** ** The replacement list of an object-like macro *)
Section subst.
  Context (expand : list tok -> st -> res (list tok * st)) (m : macro).
  Hypothesis (Hobj : m_params m = None) (Hva : m_va m = None).

  Lemma param_none t : param m t = None.
  Proof. unfold param, param_index. rewrite Hobj. by destruct (decide _). Qed.

  (** The pieces of the result are body tokens or new objects. *)
  Definition from_body (f0 : nat) (body : list tok) (t : tok) : Prop := t ∈ body \/ f0 <= ptr t.

  Lemma subst_loop_obj fuel body os cache s : length body < fuel ->
    exists os' s', subst_loop expand m [] fuel body os cache s = Ok (os', s') /\
      length os' <= length os + length body /\ hid s' = hid s /\ src s' = src s /\ fresh s <= fresh s' /\
      (forall t, t ∈ os' -> t ∈ os \/ t ∈ body \/ fresh s <= ptr t < fresh s').
  Proof.
    revert body os s. induction fuel as [|fuel IH]; intros body os s Hf; [lia|].
    destruct body as [|t rest].
    { exists os, s. cbn. split_and!; [done|lia|done|done|done|]. auto. }
    cbn [length] in Hf.
    assert (Hpush: exists os' s', subst_loop expand m [] fuel rest (os ++ [t]) cache s = Ok (os', s') /\
      length os' <= length os + length (t :: rest) /\ hid s' = hid s /\ src s' = src s /\ fresh s <= fresh s' /\
      (forall t0, t0 ∈ os' -> t0 ∈ os \/ t0 ∈ t :: rest \/ fresh s <= ptr t0 < fresh s')).
    { destruct (IH rest (os ++ [t]) s) as (os' & s' & E & Hl & Hh & Hsrc & Hfr & Hin); [lia|].
      exists os', s'. rewrite app_length in Hl. cbn [length] in *. split_and!; try done; [lia|].
      intros t0 Ht0. apply Hin in Ht0 as [Ht0|[Ht0|Ht0]]; [|set_solver|set_solver].
      apply elem_of_app in Ht0 as [Ht0|Ht0]; set_solver. }
    cbn [subst_loop]. rewrite !param_none, !Hva. destruct (knd t) eqn:Ek; try exact Hpush.
    - destruct rest as [|next rest']; [exact Hpush|]. rewrite param_none. exact Hpush.
    - destruct os as [|o os]; [exact Hpush|]. destruct rest as [|next rest']; [exact Hpush|].
      rewrite param_none. unfold glue1.
      destruct (reverse (o :: os)) as [|t1 ros] eqn:Er.
      { apply (f_equal length) in Er. rewrite reverse_length in Er. cbn in Er. lia. }
      assert (Hos: o :: os = reverse (t1 :: ros)) by (rewrite <-Er; by rewrite reverse_involutive).
      destruct (IH rest' (reverse (Tok (fresh s) KIdent (txt t1 ++ txt next) :: ros))
        (St (hid s) (S (fresh s)) (src s))) as (os' & s' & E & Hl & Hh & Hsrc & Hfr & Hin); [cbn in *; lia|].
      exists os', s'. cbn [hid src fresh] in *. rewrite reverse_length in Hl. rewrite Hos, reverse_length. cbn [length] in *.
      split_and!; try done; [lia|lia|].
      intros t0 Ht0. apply Hin in Ht0 as [Ht0|[Ht0|Ht0]].
      + rewrite elem_of_reverse in *. apply elem_of_cons in Ht0 as [->|Ht0]; [right; right; cbn; lia|].
        left. set_solver.
      + right. left. set_solver.
      + right. right. lia.
  Qed.

  Lemma subst_loop_replacement body b : replacement body b -> forall t1 ts os0 fuel cache s,
    body = shape_of t1 :: shapes ts -> length ts < fuel ->
    exists os1 s', subst_loop expand m [] fuel ts (os0 ++ [t1]) cache s = Ok (os0 ++ os1, s') /\ shapes os1 = b.
  Proof.
    induction 1 as [|t rest out Ht Hhd H IH|t1' c t2 rest out H1 Hc H2 H IH]; intros t1 ts os0 fuel cache s E Hf.
    - done.
    - injection E as -> ->. destruct fuel as [|fuel]; [lia|].
      destruct ts as [|t2 ts].
      { inversion H; subst. exists [t1], s. done. }
      destruct (IH t2 ts (os0 ++ [t1]) fuel cache s eq_refl) as (os1 & s' & E1 & Eb); [cbn in *; lia|].
      exists (t1 :: os1), s'. split; [|cbn; by rewrite <-Eb].
      replace (os0 ++ t1 :: os1) with ((os0 ++ [t1]) ++ os1) by (by rewrite <-app_assoc). rewrite <-E1.
      cbn [subst_loop]. rewrite !param_none, !Hva.
      assert (knd t2 <> KCat) by (apply (Hhd (shape_of t2)); done).
      destruct (knd t2); try done. destruct ts as [|t3 ts]; [done|]. by rewrite param_none.
    - injection E as -> E. destruct ts as [|tc [|t2' ts]]; try done. cbn in E. injection E as -> -> ->.
      destruct fuel as [|fuel]; [lia|]. cbn [subst_loop shape_of fst snd] in *. rewrite Hc.
      destruct (os0 ++ [t1]) as [|x y] eqn:Eos; [by destruct os0|]. rewrite <-Eos. clear x y Eos.
      rewrite param_none, glue1_snoc.
      apply (IH (Tok (fresh s) KIdent (txt t1 ++ txt t2'))); [done|cbn in *; lia].
  Qed.

  Lemma subst_replacement b hs s : replacement (shapes (m_body m)) b ->
    exists os s', subst expand m [] hs s = Ok (os, s') /\ shapes os = b.
  Proof.
    intros Hb. unfold subst. destruct (m_body m) as [|t ts] eqn:Eb.
    { inversion Hb; subst. cbn. eauto. }
    assert (Ht: knd t <> KCat).
    { inversion Hb; subst; done. }
    destruct (subst_loop_replacement _ _ Hb t ts [] (length (t :: ts)) ∅ s eq_refl) as (os & s' & E & Es); [cbn; lia|].
    cbn [app] in E. exists os.
    assert (E2: subst_loop expand m [] (S (length (t :: ts))) (t :: ts) [] ∅ s = Ok (os, s')).
    { rewrite <-E. cbn [length]. cbn [subst_loop]. rewrite !param_none, !Hva.
      destruct (knd t); try done. destruct ts as [|t3 ts']; [done|]. by rewrite param_none. }
    rewrite E2. cbn. eauto.
  Qed.

  Lemma subst_obj hs s : exists os s', subst expand m [] hs s = Ok (os, s') /\
    length os <= length (m_body m) /\ hid s' = hsadd hs (hid s) os /\ src s' = src s /\ fresh s <= fresh s' /\
    (forall t, t ∈ os -> t ∈ m_body m \/ fresh s <= ptr t < fresh s').
  Proof.
    unfold subst. destruct (subst_loop_obj (S (length (m_body m))) (m_body m) [] ∅ s) as
      (os & s' & E & Hl & Hh & Hsrc & Hf & Hin); [lia|].
    rewrite E. cbn. exists os. eexists. split; [done|]. cbn. rewrite Hh, Hsrc. split_and!; try done.
    intros t Ht. apply Hin in Ht as [Ht|[Ht|Ht]]; [by apply elem_of_nil in Ht|auto|auto].
  Qed.
End subst.

Lemma subst_loop_any e1 e2 m : m_params m = None -> m_va m = None -> forall k body os cache s,
  subst_loop e1 m [] k body os cache s = subst_loop e2 m [] k body os cache s.
Proof.
  intros Hp Hv. induction k as [|k IH]; intros body os cache s; [done|].
  destruct body as [|t rest]; [done|]. cbn [subst_loop].
  rewrite !(param_none m Hp), !Hv. destruct (knd t); auto; destruct rest; auto; rewrite ?(param_none m Hp); auto;
    destruct os; auto; destruct (glue1 _ _ _); auto.
Qed.

(** ** Termination *)
Section terminate.
  Context (table : gmap str macro).
  Hypothesis Hobj : object_like table.

  Definition longest : nat := map_fold (fun _ m n => Nat.max (length (m_body m)) n) 1 table.
  Lemma longest_ge x m : table !! x = Some m -> length (m_body m) <= longest.
  Proof.
    unfold longest. revert x m.
    apply (map_fold_ind (fun n tb => forall x m, tb !! x = Some m -> length (m_body m) <= n)); [by intros|].
    intros i m0 tb r Hi IH x m. destruct (decide (i = x)) as [->|].
    - rewrite lookup_insert. intros [= ->]. lia.
    - rewrite lookup_insert_ne by done. intros H. apply IH in H. lia.
  Qed.
  Lemma longest_pos : 1 <= longest.
  Proof. unfold longest. apply (map_fold_ind (fun n tb => 1 <= n)); [done|]. intros. lia. Qed.

  Fixpoint w (d : nat) : nat := match d with O => 1 | S d => S (longest * w d) end.
  Lemma w_pos d : 1 <= w d.
  Proof. destruct d; cbn; lia. Qed.
  Lemma w_mono d1 d2 : d1 <= d2 -> w d1 <= w d2.
  Proof.
    induction 1 as [|d2 H IH]; [done|]. cbn. pose proof longest_pos. nia.
  Qed.

  Definition unhidden (h : gmap nat (gset str)) (t : tok) : nat := size (dom table ∖ default ∅ (h !! ptr t)).
  Definition weight (h : gmap nat (gset str)) (t : tok) : nat :=
    if decide (knd t = KIdent) then w (unhidden h t) else 1.
  Definition total (h : gmap nat (gset str)) (ts : list tok) : nat := sum_list (weight h <$> ts).

  Lemma weight_pos h t : 1 <= weight h t.
  Proof. unfold weight. destruct (decide _); [apply w_pos|lia]. Qed.
  Lemma weight_mono h h' t : (forall p, default ∅ (h !! p) ⊆ default ∅ (h' !! p)) -> weight h' t <= weight h t.
  Proof.
    intros H. unfold weight. destruct (decide _); [|done]. apply w_mono. unfold unhidden. apply subseteq_size.
    specialize (H (ptr t)). set_solver.
  Qed.
  Lemma total_mono h h' ts : (forall p, default ∅ (h !! p) ⊆ default ∅ (h' !! p)) -> total h' ts <= total h ts.
  Proof.
    intros H. unfold total. induction ts as [|t ts IH]; cbn; [done|]. pose proof (weight_mono h h' t H). lia.
  Qed.
  Lemma total_app h t1 t2 : total h (t1 ++ t2) = total h t1 + total h t2.
  Proof. unfold total. rewrite fmap_app. by rewrite sum_list_with_app || (induction t1; cbn; lia). Qed.
  Lemma total_bound h ts b : (forall t, t ∈ ts -> weight h t <= b) -> total h ts <= length ts * b.
  Proof.
    unfold total. induction ts as [|t ts IH]; intros H; cbn; [done|].
    pose proof (H t ltac:(by left)). assert (forall t0, t0 ∈ ts -> weight h t0 <= b) by (intros; apply H; by right).
    specialize (IH H1). lia.
  Qed.

  Lemma expand_ends fuel : forall out todo s, total (hid s) todo < fuel ->
    exists r, macro_expand table fuel out todo s = Ok r.
  Proof.
    induction fuel as [|fuel IH]; intros out todo s Hf; [lia|].
    destruct todo as [|t rest]; [by eexists|]. cbn [macro_expand].
    change (total (hid s) (t :: rest)) with (weight (hid s) t + total (hid s) rest) in Hf.
    pose proof (weight_pos (hid s) t) as Hw.
    assert (Hkeep: exists r, macro_expand table fuel (out ++ [t]) rest s = Ok r).
    { apply IH. lia. }
    destruct (knd t) eqn:Ek; try exact Hkeep.
    destruct (table !! txt t) as [m|] eqn:Em; [|exact Hkeep].
    case_bool_decide as Hh; [exact Hkeep|].
    destruct (Hobj _ _ Em) as [Hp Hv]. rewrite Hp.
    destruct (subst_obj (macro_expand table fuel []) m Hp Hv (default ∅ (get_hideset s t) ∪ {[txt t]}) s)
      as (os & s' & -> & Hl & Hhid & _ & _ & _).
    cbn [bindr]. apply IH. rewrite total_app.
    assert (Hm: forall p, default ∅ (hid s !! p) ⊆ default ∅ (hid s' !! p)).
    { intros p. rewrite Hhid. apply hsadd_mono. }
    pose proof (total_mono _ _ rest Hm) as Hr.
    unfold get_hideset in *.
    assert (Hd: exists d, unhidden (hid s) t = S d /\ total (hid s') os <= length os * w d).
    { assert (Hin: txt t ∈ dom table) by (by eapply elem_of_dom_2).
      assert (Hpos: 0 < unhidden (hid s) t).
      { unfold unhidden. apply size_pos_elem_of || idtac.
        destruct (decide (size (dom table ∖ default ∅ (hid s !! ptr t)) = 0)) as [E0|]; [|lia].
        apply size_empty_inv in E0. set_solver. }
      exists (unhidden (hid s) t - 1). split; [lia|]. apply total_bound. intros t0 Ht0.
      unfold weight. destruct (decide (knd t0 = KIdent)) as [Ek0|]; [|apply w_pos].
      apply w_mono. rewrite Hhid. unfold unhidden.
      pose proof (hsadd_new (default ∅ (hid s !! ptr t) ∪ {[txt t]}) (hid s) os t0 Ht0 Ek0) as Hn.
      assert (Hsub: dom table ∖ default ∅ (hsadd (default ∅ (hid s !! ptr t) ∪ {[txt t]}) (hid s) os !! ptr t0)
        ⊂ dom table ∖ default ∅ (hid s !! ptr t)).
      { split; [set_solver|]. intros Hc. assert (txt t ∈ dom table ∖ default ∅ (hid s !! ptr t)) as H1 by set_solver.
        apply Hc in H1. set_solver. }
      apply subset_size in Hsub. lia. }
    destruct Hd as (d & Ed & Hos). unfold weight in Hf. rewrite decide_True in Hf by done. rewrite Ed in Hf. cbn [w] in Hf.
    pose proof (longest_ge _ _ Em). assert (length os * w d <= longest * w d) by (apply Nat.mul_le_mono_r; lia). lia.
  Qed.

  Lemma expand_more fuel : forall fuel' out todo s, fuel <= fuel' ->
    (exists r, macro_expand table fuel out todo s = Ok r) ->
    macro_expand table fuel' out todo s = macro_expand table fuel out todo s.
  Proof.
    induction fuel as [|fuel IH]; intros fuel' out todo s Hle [r Hr]; [done|].
    destruct fuel' as [|fuel']; [lia|]. destruct todo as [|t rest]; [done|].
    cbn [macro_expand] in *. 
    assert (Hk: (exists r, macro_expand table fuel (out ++ [t]) rest s = Ok r) ->
      macro_expand table fuel' (out ++ [t]) rest s = macro_expand table fuel (out ++ [t]) rest s).
    { intros. apply IH; [lia|done]. }
    destruct (knd t); eauto.
    destruct (table !! txt t) as [m|] eqn:Em; [|eauto].
    destruct (bool_decide _); [eauto|].
    destruct (Hobj _ _ Em) as [Hp Hv]. rewrite Hp in *.
    assert (Es: forall e1 e2 hs s, subst e1 m [] hs s = subst e2 m [] hs s).
    { intros e1 e2 hs s0. unfold subst. by rewrite (subst_loop_any e1 e2 m Hp Hv). }
    rewrite (Es (macro_expand table fuel' []) (macro_expand table fuel [])).
    destruct (subst (macro_expand table fuel []) m [] _ s) as [[os s']| | |]; try done.
    cbn [bindr] in *. apply IH; [lia|eauto].
  Qed.

  Theorem terminates out todo s : exists n r, forall fuel, n <= fuel -> macro_expand table fuel out todo s = Ok r.
  Proof.
    destruct (expand_ends (S (total (hid s) todo)) out todo s ltac:(lia)) as [r Hr].
    exists (S (total (hid s) todo)), r. intros fuel Hle. rewrite <-Hr. apply expand_more; eauto.
  Qed.
End terminate.
