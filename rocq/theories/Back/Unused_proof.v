From stdpp Require Import base list numbers gmap sets.
From Verif Require Import Back.Unused_model Back.Unused_spec.
Local Open Scope nat_scope.

Section Sim.
  Context {K J W : Type} (M : machine K J W) (pinned : nat -> bool) (index : nat -> nat -> nat).
  Notation rd := (rd M pinned). Notation wr := (wr M pinned).
  Notation state := (state W).
  (** The states agree on the registers that are read, and on the world. *)
  Definition agree (read : gset nat) (s t : state) : Prop := s.2 = t.2 /\ forall v, v ∈ read -> s.1 v = t.1 v.

  Lemma rd_agree read s t o : agree read s t -> (forall v, o = inr v -> v ∈ read) -> rd o s = rd o t.
  Proof. intros [H1 H2] Ho. destruct o as [z|v]; [done|]. unfold Unused_spec.rd. rewrite H1. destruct (pinned v); [done|]. by apply H2, Ho. Qed.
  Lemma in_regs v l : v ∈ regs l <-> inr v ∈ l.
  Proof.
    unfold regs. rewrite elem_of_list_bind. split.
    - intros (o & Hv & Ho). destruct o; [by apply elem_of_nil in Hv|]. by apply elem_of_list_singleton in Hv as ->.
    - intros H. exists (inr v). split; [by left|done].
  Qed.
  Lemma rds_agree read s t l : agree read s t -> (forall v, v ∈ regs l -> v ∈ read) -> (fun o => rd o s) <$> l = (fun o => rd o t) <$> l.
  Proof.
    intros H Hl. apply list_fmap_ext. intros i o Ho. apply (rd_agree read); [done|]. intros v ->. apply Hl, in_regs. by apply elem_of_list_lookup_2 in Ho.
  Qed.
  Lemma wr_agree read s t v x : agree read s t -> agree read (wr v x s) (wr v x t).
  Proof. intros [H1 H2]. unfold Unused_spec.wr. destruct (pinned v); split; cbn; [by rewrite H1|done|done|]. intros u Hu. case_decide; [done|by apply H2]. Qed.
  (** A register that is not read and not in memory. *)
  Lemma wr_skip read s t v x : agree read s t -> v ∉ read -> pinned v = false -> agree read (wr v x s) t.
  Proof. intros [H1 H2] Hv Hp. unfold Unused_spec.wr. rewrite Hp. split; [done|]. cbn. intros u Hu. case_decide; [by subst|by apply H2]. Qed.

  Section Round.
    Context (read : gset nat) (Hpin : forall v, pinned v = true -> v ∈ read).
    Lemma exec_agree i s t : agree read s t -> (forall v, v ∈ regs (oprs i) -> v ∈ read) -> (seen M (op i) = true -> dst i = None \/ is_call i = true) ->
      (exec M pinned i s).1 = (execs M pinned (keep_ins read i) t).1 /\ agree read (exec M pinned i s).2 (execs M pinned (keep_ins read i) t).2.
    Proof.
      intros H Hr He. unfold keep_ins. pose proof (rds_agree read s t (oprs i) H Hr) as El.
      assert (forall i', op i' = op i -> oprs i' = oprs i -> (dst i' = dst i \/ exists d, dst i = Some d /\ d ∉ read /\ dst i' = None) ->
        (exec M pinned i s).1 = (execs M pinned [i'] t).1 /\ agree read (exec M pinned i s).2 (execs M pinned [i'] t).2) as Hkeep.
      { intros i' E1 E2 E3. cbn. unfold exec. rewrite E1, E2, El. destruct H as [Hw Hl]. rewrite Hw. destruct (act M (op i) _ t.2) as [x w]. cbn. rewrite app_nil_r. split; [done|].
        destruct E3 as [->|(d & -> & Hd & ->)].
        - destruct (dst i) as [d|]; [apply wr_agree|]; done.
        - apply wr_skip; [done|done|]. destruct (pinned d) eqn:Ep; [|done]. by apply Hpin in Ep. }
      destruct (dst i) as [d|] eqn:Ed; [|apply Hkeep; [done|done|left; congruence]]. case_decide as Hd; [apply Hkeep; [done|done|left; congruence]|].
      destruct (is_call i) eqn:Ec; [apply Hkeep; [done|done|right; by exists d]|].
      assert (seen M (op i) = false) as Es. { destruct (seen M (op i)); [|done]. by destruct (He eq_refl). }
      cbn. unfold exec. destruct (act M (op i) ((fun o => rd o s) <$> oprs i) s.2) as [x w] eqn:Ea. rewrite Es, Ed. cbn. split; [done|].
      pose proof (silent M (op i) ((fun o => rd o s) <$> oprs i) s.2 Es) as Ew. rewrite Ea in Ew. cbn in Ew. subst w. destruct s as [l w]. cbn. apply wr_skip; [done|done|]. destruct (pinned d) eqn:Ep; [|done]. by apply Hpin in Ep.
    Qed.
    Lemma execs_app l1 l2 (s : state) : execs M pinned (l1 ++ l2) s = let '(e1, s1) := execs M pinned l1 s in let '(e2, s2) := execs M pinned l2 s1 in (e1 ++ e2, s2).
    Proof.
      revert s. induction l1 as [|i l1 IH]; intros s; cbn; [by destruct (execs M pinned l2 s)|]. destruct (exec M pinned i s) as [e s1]. rewrite IH.
      destruct (execs M pinned l1 s1) as [e1 s2]. destruct (execs M pinned l2 s2). by rewrite app_assoc.
    Qed.
    Lemma execs_agree l : forall s t, agree read s t -> (forall i v, i ∈ l -> v ∈ regs (oprs i) -> v ∈ read) -> (forall i, i ∈ l -> seen M (op i) = true -> dst i = None \/ is_call i = true) ->
      (execs M pinned l s).1 = (execs M pinned (l ≫= keep_ins read) t).1 /\ agree read (execs M pinned l s).2 (execs M pinned (l ≫= keep_ins read) t).2.
    Proof.
      induction l as [|i l IH]; intros s t H Hr He; [done|]. rewrite bind_cons, execs_app. cbn [execs].
      destruct (exec_agree i s t H) as [E1 A1]; [intros v; apply Hr; by left|apply He; by left|]. destruct (exec M pinned i s) as [e1 s1]. destruct (execs M pinned (keep_ins read i) t) as [e2 t1]. cbn in E1, A1. subst e2.
      destruct (IH s1 t1 A1) as [E2 A2]; [intros j v Hj; apply Hr; by right|intros j Hj; apply He; by right|]. destruct (execs M pinned l s1) as [e3 s2]. destruct (execs M pinned (l ≫= keep_ins read) t1) as [e4 t2]. cbn in *. by subst e4.
    Qed.
    Lemma enter_agree ps k s t : agree read s t -> (forall p v, p ∈ ps -> v ∈ regs (params p) -> v ∈ read) ->
      agree read (enter M pinned ps k s) (enter M pinned (filter (fun p => pdst p ∈ read) ps) k t).
    Proof.
      intros H. unfold enter. induction ps as [|p ps IH]; intros Hr; [done|]. assert (agree read (foldr (fun p s' => wr (pdst p) (rd (default (inl 0%Z) (params p !! k)) s) s') s ps)
        (foldr (fun p s' => wr (pdst p) (rd (default (inl 0%Z) (params p !! k)) t) s') t (filter (fun p => pdst p ∈ read) ps))) as IH' by (apply IH; intros q v Hq; apply Hr; by right).
      cbn [foldr]. rewrite filter_cons. case_decide as Hp.
      - cbn [foldr]. assert (rd (default (inl 0%Z) (params p !! k)) s = rd (default (inl 0%Z) (params p !! k)) t) as ->.
        { apply (rd_agree read); [done|]. intros v Ev. apply (Hr p v); [by left|]. apply in_regs. destruct (params p !! k) as [o|] eqn:Eo; cbn in Ev; [subst o; by apply elem_of_list_lookup_2 in Eo|done]. }
        by apply wr_agree.
      - apply wr_skip; [done|done|]. destruct (pinned (pdst p)) eqn:Ep; [|done]. by apply Hpin in Ep.
    Qed.
    Lemma trace_agree bs n : (forall b v, b ∈ bs -> v ∈ used b -> v ∈ read) -> effects_plain M bs ->
      forall a b s t, agree read s t -> trace M pinned index n bs a b s = trace M pinned index n (prune read <$> bs) a b t.
    Proof.
      intros Hr He. induction n as [|n IH]; intros a b s t H; [done|]. cbn [trace]. rewrite list_lookup_fmap. destruct (bs !! b) as [x|] eqn:Ex; cbn [fmap option_fmap option_map]; [|by destruct H as [-> _]].
      assert (x ∈ bs) as Hx by (by apply elem_of_list_lookup_2 in Ex). cbn [prune phis irs exit].
      assert (forall v, v ∈ used x -> v ∈ read) as Hu by (intros v; by apply Hr). unfold used in Hu.
      destruct (execs_agree (irs x) (enter M pinned (phis x) (index a b) s) (enter M pinned (filter (fun p => pdst p ∈ read) (phis x)) (index a b) t)) as [E1 A1].
      - apply enter_agree; [done|]. intros p v Hp Hv. apply Hu. apply elem_of_app. left. apply elem_of_list_bind. by exists p.
      - intros i v Hi Hv. apply Hu. apply elem_of_app. right. apply elem_of_app. left. apply elem_of_list_bind. by exists i.
      - intros i Hi. by apply (He x).
      - destruct (execs M pinned (irs x) _) as [e1 s1]. destruct (execs M pinned (irs x ≫= keep_ins read) _) as [e2 t1]. cbn in E1, A1. subst e2.
        assert (match exit x with Some (j, l) => default (S b) (target M j ((fun o => rd o s1) <$> l) s1.2) | None => S b end =
                match exit x with Some (j, l) => default (S b) (target M j ((fun o => rd o t1) <$> l) t1.2) | None => S b end) as ->.
        { destruct (exit x) as [[j l]|] eqn:Ej; [|done]. rewrite (rds_agree read s1 t1 l A1); [by destruct A1 as [-> _]|]. intros v Hv. apply Hu. apply elem_of_app. right. apply elem_of_app. by right. }
        f_equal. by apply IH.
    Qed.
  End Round.

  (** The registers that count as read. *)
  Context (keep : nat -> bool).
  Lemma read_kept alive (bs : list (blk K J)) v : pinned_alive keep alive -> keep v = true -> v ∈ vreg_read keep alive bs.
  Proof. intros H Hp. apply elem_of_union_l, elem_of_list_to_set, elem_of_list_filter. pose proof (H v Hp) as E. split; [done|]. apply elem_of_list_In, in_seq. apply lookup_lt_Some in E. lia. Qed.
  Lemma read_used alive (bs : list (blk K J)) b v : b ∈ bs -> v ∈ used b -> v ∈ vreg_read keep alive bs.
  Proof. intros Hb Hv. apply elem_of_union_r, elem_of_list_to_set, elem_of_list_bind. by exists b. Qed.
  Lemma prune_plain read (bs : list (blk K J)) : effects_plain M bs -> effects_plain M (prune read <$> bs).
  Proof.
    intros H b i Hb Hi Hs. apply elem_of_list_fmap in Hb as (x & -> & Hx). cbn in Hi. apply elem_of_list_bind in Hi as (j & Hi & Hj). unfold keep_ins in Hi.
    destruct (dst j) as [d|] eqn:Ed; [|apply elem_of_list_singleton in Hi as ->; by left]. case_decide; [apply elem_of_list_singleton in Hi as ->; by apply (H x)|].
    destruct (is_call j); [|by apply elem_of_nil in Hi]. apply elem_of_list_singleton in Hi as ->. by right.
  Qed.
  Lemma mark_alive alive (bs : list (blk K J)) : pinned_alive keep alive -> pinned_alive keep (mark (vreg_read keep alive bs) alive).
  Proof. intros H v Hp. unfold mark. rewrite list_lookup_imap, (H v Hp). cbn. f_equal. apply bool_decide_true. by apply read_kept. Qed.
  Definition live_count (alive : list bool) : nat := length (filter (fun b => b = true) alive).
  Lemma live_le alive : live_count alive <= length alive.
  Proof. unfold live_count. induction alive as [|b l IH]; [done|]. rewrite filter_cons. case_decide; cbn [length]; lia. Qed.
  Lemma mark_count (f : nat -> bool) alive : let alive' := imap (fun v a => a && f v) alive in alive' = alive \/ live_count alive' < live_count alive.
  Proof.
    cbn. revert f. induction alive as [|b l IH]; intros f; [by left|]. rewrite imap_cons. specialize (IH (f ∘ S)). unfold compose in *. unfold live_count in *. rewrite !filter_cons.
    destruct b, (f 0); cbn [andb]; repeat (case_decide; [|done] || case_decide; try done); cbn [length]; destruct IH as [->|IH]; try (by left); right; try lia.
  Qed.
  Lemma rounds_ok fuel : forall alive (bs : list (blk K J)), live_count alive < fuel -> pinned_alive keep alive -> (forall v, pinned v = true -> keep v = true) -> effects_plain M bs ->
    exists bs', unused_rounds keep fuel alive bs = Some bs' /\ forall n a b s, trace M pinned index n bs a b s = trace M pinned index n bs' a b s.
  Proof.
    induction fuel as [|fuel IH]; intros alive bs Hf Hp Hk He; [lia|]. cbn [unused_rounds]. set (read := vreg_read keep alive bs).
    assert (forall n a b s, trace M pinned index n bs a b s = trace M pinned index n (prune read <$> bs) a b s) as H1.
    { intros n a b s. apply (trace_agree read).
      - intros v Hv. by apply read_kept, Hk.
      - intros x v Hx Hv. by apply (read_used alive bs x).
      - done.
      - by split. }
    case_decide as Hd; [by eexists|]. destruct (IH (mark read alive) (prune read <$> bs)) as (bs' & E & H2).
    - destruct (mark_count (fun v => bool_decide (v ∈ read)) alive) as [E|E]; [done|]. unfold mark. lia.
    - by apply mark_alive.
    - done.
    - by apply prune_plain.
    - exists bs'. split; [done|]. intros n a b s. by rewrite H1, H2.
  Qed.
End Sim.

Lemma unused_same : forall (K J : Type) keep alive (bs : list (blk K J)), pinned_alive keep alive ->
  exists bs', remove_unused_vregs keep alive bs = Some bs' /\
  forall (W : Type) (M : machine K J W) pinned, effects_plain M bs -> (forall v, pinned v = true -> keep v = true) ->
  forall index n a b s, trace M pinned index n bs a b s = trace M pinned index n bs' a b s.
Proof.
  intros K J keep alive bs Hp.
  assert (forall k l (w : unit), false = false -> ((fun (_ : K) (_ : list Z) (w : unit) => (0%Z, w)) k l w).2 = w) as Hsil by done.
  set (M0 := Machine (K := K) (J := J) (fun _ _ w => (0%Z, w)) (fun _ => false) Hsil (fun _ _ _ => None) (fun _ _ => 0%Z) (fun w _ _ => w)).
  pose proof (live_le alive) as Hl. destruct (rounds_ok M0 keep (fun _ _ => 0) keep (S (length alive)) alive bs ltac:(lia) Hp) as (bs' & E & _); [done|by intros ? ? ? ? ?|].
  exists bs'. split; [done|]. intros W M pinned He Hk index n a b s. destruct (rounds_ok M pinned index keep (S (length alive)) alive bs ltac:(lia) Hp Hk He) as (bs2 & E2 & H). unfold remove_unused_vregs in *. rewrite E in E2. injection E2 as <-. apply H.
Qed.
Lemma observable_lost : forall (K J W : Type) (M : machine K J W) (k : K) (w : W), seen M k = true ->
  exists alive (bs bs' : list (blk K J)), pinned_alive (fun _ => false) alive /\ remove_unused_vregs (fun _ => false) alive bs = Some bs' /\
  exists index n a b s, trace M (fun _ => false) index n bs a b s <> trace M (fun _ => false) index n bs' a b s.
Proof.
  intros K J W M k w Hs. exists [true], [Blk [] [Ins k false (Some 0) []] None], [Blk [] [] None]. split; [done|]. split.
  - unfold remove_unused_vregs. cbn [length unused_rounds]. match goal with |- context [vreg_read ?p ?a ?b] => set (r := vreg_read p a b); assert (r = ∅) as Er by (unfold r, vreg_read; cbn; set_solver) end.
    clearbody r. subst r. vm_compute. reflexivity.
  - exists (fun _ _ => 0), 1, 0, 0, (fun _ => 0%Z, w). cbn. unfold exec. cbn. rewrite Hs. by destruct (act M k [] w).
Qed.
