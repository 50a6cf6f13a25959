(** Proofs about functions in SSA form, put together. *)
From stdpp Require Import base list numbers gmap.
From Verif Require Import Back.Unused_model Back.Unused_spec Back.Ssa_model Back.Ssa_spec Back.Ssa_name_proof Back.Ssa_visit_proof Back.Ssa_phi_proof Back.Ssa_proof.
From Verif Require Back.Flow_model Back.Flow_spec Back.Flow_proof Back.Flow_live_proof.
Local Open Scope nat_scope.

(** What a block and its counterpart have in common. *)
Definition akin {K J} (f : list nat) (x y : blk K J) : Prop :=
  fst <$> exit y = fst <$> exit x /\ (length f < 2 -> phis y = []) /\
  (forall p i k a, p ∈ phis y -> f !! i = Some a -> f !! k = Some a -> params p !! i = params p !! k) /\
  (forall i, i ∈ irs y -> exists j, j ∈ irs x /\ op i = op j /\ is_call i = is_call j /\ (dst j = None -> dst i = None)).
Lemma assign_akin {K} pinned (l : list (ins K)) : forall σ μ l' σ' μ', assign pinned l σ μ = (l', σ', μ') ->
  forall i, i ∈ l' -> exists j, j ∈ l /\ op i = op j /\ is_call i = is_call j /\ (dst j = None -> dst i = None).
Proof.
  induction l as [|j l IH]; intros σ μ l' σ' μ'; cbn [assign]; [intros [= <- _ _] i Hi; by apply elem_of_nil in Hi|].
  destruct (ren_dst pinned σ μ (dst j)) as [[d σ1] μ1] eqn:Ed. destruct (assign pinned l σ1 μ1) as [[l1 σ2] μ2] eqn:El. intros [= <- _ _] i Hi.
  apply elem_of_cons in Hi as [->|Hi].
  - exists j. split; [by left|]. split; [done|]. split; [done|]. intros E. rewrite E in Ed. cbn in Ed. by injection Ed as <- _ _.
  - destruct (IH _ _ _ _ _ El i Hi) as (j' & Hj & H). exists j'. split; [by right|done].
Qed.
Section all.
  Context {K J : Type} (endof : J -> Flow_model.ending) (pinned param : nat -> bool) (nv : nat) (bs : list (blk K J)).
  Hypothesis Hplain : plain endof nv bs.
  Hypothesis Hne : 0 < length bs.
  Hypothesis Hpin : forall v, pinned v = true -> v < nv.
  Lemma ssa_ok : exists bs' from, make_ssa endof pinned param nv bs = Some bs' /\ length bs' = length bs /\ Flow_model.detect_from_bbs (flow endof bs) = Some from /\
    (forall index, (forall a b f, from !! b = Some f -> a ∈ f -> f !! index a b = Some a) ->
      (forall W (M : machine K J W) n a s, jumps_as_said endof M -> trace M pinned index n bs' a 0 s = trace M pinned index n bs a 0 s) /\
      (unreached_empty endof bs -> initialised endof pinned param index bs -> initialised endof pinned param index bs')) /\
    (unreached_empty endof bs -> (forall v, param v = true -> v < nv) -> assigned_once pinned param bs') /\
    (forall a b, edge endof bs' a b <-> edge endof bs a b) /\ preds_of endof bs' from /\ phis_full pinned from bs' /\
    (forall b y, bs' !! b = Some y -> exists x f, bs !! b = Some x /\ from !! b = Some f /\ akin f x y).
  Proof using All.
    pose proof (plain_jumps _ _ _ Hplain) as Hwf.
    destruct (Flow_live_proof.liveness_ok _ Hwf) as (from & sets & Ef & Es & Hsl & Hsets).
    destruct (Flow_live_proof.predecessors_ok _ Hwf) as (from2 & Ef2 & Hfl & Hfrom). assert (from2 = from) as -> by congruence.
    assert (Hlf : length (flow endof bs) = length bs) by (unfold flow; by rewrite fmap_length). rewrite Hlf in *.
    unfold make_ssa. fold (flow endof bs). rewrite Ef. cbn [mbind option_bind]. rewrite Es. cbn [mbind option_bind].
    assert (HV : exists D σ, visit endof pinned bs from sets (visit_fuel endof bs) [0] (start pinned param nv) ∅ = Some (D, σ) /\ vinv endof pinned param nv bs from sets [] σ D).
    { eapply visit_ok; try done.
      - split.
        + split; [done|]. intros v o Hv. cbn in Hv. by rewrite lookup_empty in Hv.
        + apply ext_refl.
        + split; [intros b d H; by rewrite lookup_empty in H|intros b1 d1 b2 d2 v H; by rewrite lookup_empty in H].
        + intros b Hb. left. by apply elem_of_list_singleton in Hb.
        + intros a b [d H]. by rewrite lookup_empty in H.
        + left. by left.
      - unfold visit_fuel, Flow_model.detect_fuel, vpot. fold (flow endof bs). cbn [length].
        match goal with |- 1 + ?a <= 2 + ?b => assert (a <= b); [|lia] end.
        apply Flow_proof.sum_le. intros i x _. case_decide; lia. }
    destruct HV as (D & σ & EV & V). rewrite EV. cbn [mbind option_bind].
    assert (HI : exists r, insert_phis pinned bs from sets (length bs) 0 σ D ∅ = Some r /\ length r = length bs /\ forall i y, r !! i = Some y -> blk_ok pinned nv bs from sets D (0 + i) y)
      by (eapply insert_phis_ok; done).
    destruct HI as (bs' & EI & Hlen & Hblk). exists bs', from. split; [done|]. split; [done|]. split; [done|].
    assert (Hedge : forall a b, edge endof bs' a b <-> edge endof bs a b) by (intros a b; eapply (edge_same (W := unit)); done).
    assert (Hrch : forall a, reach endof bs' a <-> reach endof bs a) by (intros a; eapply (reach_same (W := unit)); done).
    split; [|split; [|split; [done|split; [|split; [split|]]]]].
    - intros index Hidx. split.
      + intros W M n a s HJ. eapply trace_same; try done; [constructor; lia|]. left. done.
      + intros Hun Hin. eapply (keeps_initialised (W := unit)); done.
    - intros Hun Hpar. eapply (single (W := unit)); done.
    - split; [by rewrite Hlen|]. intros a b. rewrite Hedge, Hrch. apply Hfrom.
    - intros b f x p Hf Hx Hp. eapply (phis_are (W := unit)); done.
    - intros x Hx. eapply (phis_zero (W := unit)); done.
    - intros b y Hy. destruct (Hblk b y Hy) as (x & f & Hx & Hf & Hie & Hno & Hph). exists x, f. split; [done|]. split; [done|]. unfold akin. rewrite Nat.add_0_l in *.
      split; [|split; [done|split]].
      + destruct (D !! b) as [d|] eqn:Ed; injection Hie as _ ->; [|done].
        assert (HP : exists σ0 μ0 σ1 μ1, proc pinned nv bs from sets D b d σ0 μ0 σ1 μ1 /\ Ssa_name_proof.ext σ0 σ1 /\ inv nv σ1 /\ good nv σ1 μ1 /\ ext σ1 σ) by (eapply done_proc; done).
        destruct HP as (σ0 & μ0 & σ1 & μ1 & [(x' & s' & Hx' & _ & _ & -> & _) _ _] & _). assert (x' = x) as -> by congruence. by destruct (exit x) as [[j l]|].
      + intros p i k a Hp Hi Hk. destruct (le_lt_dec 2 (length f)) as [H2|H2]; [|rewrite (Hno H2) in Hp; by apply elem_of_nil in Hp].
        destruct (Hph H2) as (d & s & Hd & Hs & _ & Hpar). destruct (Hpar p Hp) as (z & _ & _ & _ & Hz & _).
        destruct (Hz i a Hi) as (v & -> & Hv). destruct (Hz k a Hk) as (v' & -> & Hv').
        pose proof Hv as (da & sa & ia & Hda & _).
        assert (HP : exists σ0 μ0 σ1 μ1, proc pinned nv bs from sets D a da σ0 μ0 σ1 μ1 /\ Ssa_name_proof.ext σ0 σ1 /\ inv nv σ1 /\ good nv σ1 μ1 /\ ext σ1 σ) by (eapply done_proc; done).
        destruct HP as (σ0 & μ0 & σ1 & μ1 & P & _).
        assert (H1 : z < nv /\ v = (if pinned z then z else μ1 z)) by (eapply is_ver; done). assert (H1' : z < nv /\ v' = (if pinned z then z else μ1 z)) by (eapply is_ver; done).
        destruct H1 as [_ ->]. by destruct H1' as [_ ->].
      + intros i Hi. destruct (D !! b) as [d|] eqn:Ed; injection Hie as Hie _; rewrite Hie in Hi; [|by exists i].
        assert (HP : exists σ0 μ0 σ1 μ1, proc pinned nv bs from sets D b d σ0 μ0 σ1 μ1 /\ Ssa_name_proof.ext σ0 σ1 /\ inv nv σ1 /\ good nv σ1 μ1 /\ ext σ1 σ) by (eapply done_proc; done).
        destruct HP as (σ0 & μ0 & σ1 & μ1 & [(x' & s' & Hx' & _ & Ha & _) _ _] & _). assert (x' = x) as -> by congruence. by eapply assign_akin.
  Qed.
End all.
Lemma ssa_total {K J} endof pinned param nv (bs : list (blk K J)) : plain endof nv bs -> bs <> [] -> (forall v, pinned v = true -> v < nv) ->
  is_Some (make_ssa endof pinned param nv bs).
Proof.
  intros H1 H2 H3. destruct (ssa_ok endof pinned param nv bs H1) as (bs' & from & E & _); [destruct bs; [done|cbn; lia]|done|]. by exists bs'.
Qed.
Lemma make_ne {K J} endof pinned param nv (bs bs' : list (blk K J)) : make_ssa endof pinned param nv bs = Some bs' -> 0 < length bs.
Proof. destruct bs; [intros E; vm_compute in E; congruence|cbn; lia]. Qed.
Lemma ssa_same {K J} endof pinned param nv (bs bs' : list (blk K J)) : plain endof nv bs -> (forall v, pinned v = true -> v < nv) ->
  make_ssa endof pinned param nv bs = Some bs' -> forall W (M : machine K J W) index n a s, jumps_as_said endof M -> index_ok endof bs index ->
  trace M pinned index n bs' a 0 s = trace M pinned index n bs a 0 s.
Proof.
  intros H1 H3 E W M index n a s HJ (from2 & Ef2 & Hidx). pose proof (make_ne _ _ _ _ _ _ E) as Hne.
  destruct (ssa_ok endof pinned param nv bs H1 Hne H3) as (bs2 & from & E2 & _ & Ef & H & _).
  assert (bs2 = bs') as -> by congruence. assert (from2 = from) as -> by congruence. by apply (H index Hidx).
Qed.
Lemma ssa_single {K J} endof pinned param nv (bs bs' : list (blk K J)) : plain endof nv bs -> (forall v, pinned v = true -> v < nv) -> (forall v, param v = true -> v < nv) ->
  unreached_empty endof bs -> make_ssa endof pinned param nv bs = Some bs' -> assigned_once pinned param bs'.
Proof.
  intros H1 H3 H4 Hu E. pose proof (make_ne _ _ _ _ _ _ E) as Hne. destruct (ssa_ok endof pinned param nv bs H1 Hne H3) as (bs2 & from & E2 & _ & Ef & _ & H & _).
  assert (bs2 = bs') as -> by congruence. by apply H.
Qed.
Lemma ssa_initialised {K J} endof pinned param nv (bs bs' : list (blk K J)) index : plain endof nv bs -> (forall v, pinned v = true -> v < nv) ->
  unreached_empty endof bs -> index_ok endof bs index -> make_ssa endof pinned param nv bs = Some bs' -> initialised endof pinned param index bs ->
  initialised endof pinned param index bs'.
Proof.
  intros H1 H3 Hu (from2 & Ef2 & Hidx) E Hi. pose proof (make_ne _ _ _ _ _ _ E) as Hne. destruct (ssa_ok endof pinned param nv bs H1 Hne H3) as (bs2 & from & E2 & _ & Ef & H & _).
  assert (bs2 = bs') as -> by congruence. assert (from2 = from) as -> by congruence. by apply (H index Hidx).
Qed.
Lemma ssa_edges {K J} endof pinned param nv (bs bs' : list (blk K J)) : plain endof nv bs -> (forall v, pinned v = true -> v < nv) ->
  make_ssa endof pinned param nv bs = Some bs' -> length bs' = length bs /\ forall a b, edge endof bs' a b <-> edge endof bs a b.
Proof.
  intros H1 H3 E. pose proof (make_ne _ _ _ _ _ _ E) as Hne. destruct (ssa_ok endof pinned param nv bs H1 Hne H3) as (bs2 & from & E2 & Hl & Ef & _ & _ & H & _).
  assert (bs2 = bs') as -> by congruence. done.
Qed.
Lemma ssa_phis {K J} endof pinned param nv (bs bs' : list (blk K J)) from : plain endof nv bs -> (forall v, pinned v = true -> v < nv) ->
  make_ssa endof pinned param nv bs = Some bs' -> Flow_model.detect_from_bbs (flow endof bs) = Some from ->
  preds_of endof bs' from /\ phis_full pinned from bs'.
Proof.
  intros H1 H3 E Ef'. pose proof (make_ne _ _ _ _ _ _ E) as Hne. destruct (ssa_ok endof pinned param nv bs H1 Hne H3) as (bs2 & from2 & E2 & Hl & Ef & _ & _ & _ & H).
  assert (bs2 = bs') as -> by congruence. assert (from2 = from) as -> by congruence. destruct H as (H5 & H6 & _). by split.
Qed.
Lemma ssa_akin {K J} endof pinned param nv (bs bs' : list (blk K J)) from : plain endof nv bs -> (forall v, pinned v = true -> v < nv) ->
  make_ssa endof pinned param nv bs = Some bs' -> Flow_model.detect_from_bbs (flow endof bs) = Some from ->
  length bs' = length bs /\ forall b y, bs' !! b = Some y -> exists x f, bs !! b = Some x /\ from !! b = Some f /\ akin f x y.
Proof.
  intros H1 H3 E Ef'. pose proof (make_ne _ _ _ _ _ _ E) as Hne. destruct (ssa_ok endof pinned param nv bs H1 Hne H3) as (bs2 & from2 & E2 & Hl & Ef & _ & _ & _ & _ & _ & H).
  assert (bs2 = bs') as -> by congruence. assert (from2 = from) as -> by congruence. done.
Qed.
