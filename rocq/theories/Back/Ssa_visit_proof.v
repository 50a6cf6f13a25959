(** Proofs about the traversal of the blocks. *)
From Coq Require Import Sorted.
From stdpp Require Import base list numbers gmap.
From Verif Require Import Back.Unused_model Back.Ssa_model Back.Ssa_spec Back.Ssa_name_proof.
From Verif Require Back.Flow_model Back.Flow_spec Back.Flow_proof Back.Flow_live_proof.
Local Open Scope nat_scope.

Section visit.
  Context {K J : Type} (endof : J -> Flow_model.ending) (pinned param : nat -> bool) (nv : nat).
  Hypothesis Hpin : forall v, pinned v = true -> v < nv.
  Context (bs : list (blk K J)) (from : list (list nat)) (sets : list Flow_model.sets).
  Hypothesis Hplain : plain endof nv bs.
  Hypothesis Hfrom_len : length from = length bs.
  Hypothesis Hfrom : forall a b, (exists f, from !! b = Some f /\ a ∈ f) <-> reach endof bs a /\ edge endof bs a b.
  Hypothesis Hsets_len : length sets = length bs.
  Hypothesis Hsets : forall b s, sets !! b = Some s ->
    (forall r, r ∈ Flow_model.ins s -> Flow_spec.live (flow endof bs) r b) /\
    (forall r, r ∈ Flow_model.outs s -> Flow_spec.live_out (flow endof bs) r b) /\
    (reach endof bs b -> (forall r, Flow_spec.live (flow endof bs) r b -> r ∈ Flow_model.ins s) /\
                         (forall r, Flow_spec.live_out (flow endof bs) r b -> r ∈ Flow_model.outs s)) /\
    StronglySorted lt (Flow_model.ins s) /\ StronglySorted lt (Flow_model.outs s).

  Lemma sorted_NoDup l : StronglySorted lt l -> NoDup l.
  Proof.
    induction 1 as [|x l _ IH H]; constructor; [|done]. intros Hx. rewrite stdpp.list.Forall_forall in H. specialize (H x Hx). lia.
  Qed.
  Lemma flow_lookup b x : bs !! b = Some x -> flow endof bs !! b = Some (flow_blk endof x).
  Proof. intros H. unfold flow. rewrite list_lookup_fmap, H. done. Qed.
  Lemma flow_lookup_inv b y : flow endof bs !! b = Some y -> exists x, bs !! b = Some x /\ y = flow_blk endof x.
  Proof. unfold flow. rewrite list_lookup_fmap. destruct (bs !! b) as [x|]; cbn; [|done]. intros [= <-]. by exists x. Qed.
  Lemma flow_regs (x : blk K J) r i : i ∈ Flow_model.irs (flow_blk endof x) -> r ∈ Flow_model.oprs i -> r ∈ names x.
  Proof.
    cbn [flow_blk Flow_model.irs]. intros [Hi|Hi]%elem_of_app Hr; unfold names, used; rewrite !elem_of_app.
    - apply elem_of_list_fmap in Hi as (j & -> & Hj). right. right. left. cbn in Hr. apply elem_of_list_bind. by exists j.
    - right. right. right. destruct (exit x) as [[j l]|]; cbn in Hi; [|by apply elem_of_nil in Hi].
      apply elem_of_list_singleton in Hi as ->. done.
  Qed.
  Lemma live_below r b : Flow_spec.live (flow endof bs) r b -> r < nv.
  Proof using All.
    induction 1 as [a y Hy (pre & i & post & E & Hr & _)|]; [|done]. apply flow_lookup_inv in Hy as (x & Hx & ->).
    apply (plain_regs _ _ _ Hplain a x); [done|]. apply (flow_regs x r i); [|done]. rewrite E. set_solver.
  Qed.
  Lemma block_below b x : bs !! b = Some x -> below nv (irs x).
  Proof using All.
    intros Hx i v Hi Hv. apply (plain_regs _ _ _ Hplain b x); [done|]. unfold names, defs, used. rewrite !elem_of_app.
    destruct Hv as [Hv|Hv].
    - right. right. left. apply elem_of_list_bind. by exists i.
    - left. right. apply elem_of_list_omap. by exists i.
  Qed.
  Lemma reach_lookup b : reach endof bs b -> exists x f s, bs !! b = Some x /\ from !! b = Some f /\ sets !! b = Some s.
  Proof using All.
    intros H. apply Flow_live_proof.reach_lt in H. unfold flow in H. rewrite fmap_length in H.
    destruct (lookup_lt_is_Some_2 bs b) as [x ?]; [lia|]. destruct (lookup_lt_is_Some_2 from b) as [f ?]; [lia|].
    destruct (lookup_lt_is_Some_2 sets b) as [s ?]; [lia|]. by exists x, f, s.
  Qed.
  Lemma from_0 f : from !! 0 = Some f -> f = [].
  Proof using All.
    intros H. destruct f as [|a f]; [done|]. exfalso. assert (X : exists f', from !! 0 = Some f' /\ a ∈ f') by (eexists; split; [done|by left]).
    apply Hfrom in X as [_ X]. by apply (plain_start _ _ _ Hplain a).
  Qed.

  (** What the version of a register is at the end of a block. *)
  Definition out_ver (D : gmap nat (@done K J)) (a x v : nat) : Prop :=
    exists d s i, D !! a = Some d /\ sets !! a = Some s /\ Flow_model.outs s !! i = Some x /\ d_outs d !! i = Some v.
  (** The versions at the start of a block. *)
  Definition entry_ok (D : gmap nat (@done K J)) (b : nat) (d : @done K J) (s : Flow_model.sets) σ0 (μ : nat -> nat) : Prop :=
    match from !! b with
    | Some [] => forall x, μ x = x
    | Some [a] => is_Some (D !! a) /\ forall x v, out_ver D a x v -> pinned x = false -> μ x = v
    | Some _ => d_ins d = (fun x => if pinned x then x else μ x) <$> Flow_model.ins s /\
                (forall x, x ∈ d_ins d -> pinned x = false -> orig σ0 x <> x)
    | None => False
    end.
  (** The registers a block is given. *)
  Definition dnames (b : nat) (d : @done K J) : list nat :=
    match from !! b with
    | Some (_ :: _ :: _) => filter (fun v => pinned v = false) (d_ins d)
    | _ => []
    end ++ filter (fun v => pinned v = false) (omap dst (d_irs d)).
  Record proc (D : gmap nat (@done K J)) (b : nat) (d : @done K J) (σ0 : st) (μ0 : nat -> nat) (σ1 : st) (μ1 : nat -> nat) : Prop := {
    proc_blk : exists x s, bs !! b = Some x /\ sets !! b = Some s /\ assign pinned (irs x) σ0 μ0 = (d_irs d, σ1, μ1) /\
      d_exit d = (fun e : J * list (Z + nat) => (e.1, ren pinned σ1 μ1 <$> e.2)) <$> exit x /\ d_outs d = replace_set pinned σ1 μ1 (Flow_model.outs s) /\
      entry_ok D b d s σ0 μ0;
    proc_inv : inv nv σ0;
    proc_good : good nv σ0 μ0;
  }.
  Lemma out_ver_is D a d σ0 μ0 σ1 μ1 x v : D !! a = Some d -> proc D a d σ0 μ0 σ1 μ1 -> out_ver D a x v ->
    x < nv /\ v = (if pinned x then x else μ1 x).
  Proof using All.
    intros Hd [(y & s & Hy & Hs & Ha & He & Ho & Hen) I G] (d' & s' & i & Hd' & Hs' & Hx & Hv).
    assert (d' = d) as -> by congruence. assert (s' = s) as -> by congruence. rewrite Ho in Hv. unfold replace_set in Hv.
    rewrite list_lookup_fmap, Hx in Hv. cbn in Hv. injection Hv as <-.
    assert (Hl : Flow_spec.live_out (flow endof bs) x a) by (apply (Hsets a s Hs); by apply elem_of_list_lookup_2 in Hx).
    destruct Hl as (b & _ & Hl). apply live_below in Hl. split; [done|]. destruct (pinned x) eqn:E; [done|].
    destruct (assign_ok pinned nv Hpin _ _ _ _ _ _ I G (block_below a y Hy) Ha) as (A1 & _). by rewrite (orig_old nv).
  Qed.
  Lemma out_ver_ex D a d σ0 μ0 σ1 μ1 x : D !! a = Some d -> proc D a d σ0 μ0 σ1 μ1 -> reach endof bs a -> Flow_spec.live_out (flow endof bs) x a ->
    exists v, out_ver D a x v.
  Proof using All.
    intros Hd [(y & s & Hy & Hs & Ha & He & Ho & Hen) I G] Hr Hl. destruct (Hsets a s Hs) as (_ & _ & S3 & _).
    destruct (S3 Hr) as [_ S4]. specialize (S4 x Hl). apply elem_of_list_lookup in S4 as [i Hi].
    eexists. exists d, s, i. split; [done|]. split; [done|]. split; [done|]. rewrite Ho. unfold replace_set.
    rewrite list_lookup_fmap, Hi. done.
  Qed.

  Definition all (D : gmap nat (@done K J)) (σ : st) : Prop :=
    (forall b d, D !! b = Some d -> reach endof bs b /\ exists σ0 μ0 σ1 μ1, proc D b d σ0 μ0 σ1 μ1 /\ ext σ1 σ /\ ext (start pinned param nv) σ0 /\
       newnames nv (start pinned param nv) σ (dnames b d)) /\
    (forall b1 d1 b2 d2 v, D !! b1 = Some d1 -> D !! b2 = Some d2 -> b1 <> b2 -> v ∈ dnames b1 d1 -> v ∉ dnames b2 d2).
  Record vinv (U : list nat) (σ : st) (D : gmap nat (@done K J)) : Prop := {
    vi_inv : inv nv σ;
    vi_start : ext (start pinned param nv) σ;
    vi_all : all D σ;
    vi_U : forall b, b ∈ U -> b = 0 \/ exists a, is_Some (D !! a) /\ edge endof bs a b;
    vi_next : forall a b, is_Some (D !! a) -> edge endof bs a b -> b ∈ U \/ is_Some (D !! b);
    vi_zero : 0 ∈ U \/ is_Some (D !! 0)
  }.
  Lemma out_ver_mono D b d a x v : D !! b = None -> out_ver D a x v -> out_ver (<[b := d]> D) a x v.
  Proof.
    intros Hb (d' & s & i & Hd & H). exists d', s, i. split; [|done]. rewrite lookup_insert_ne; [done|]. intros ->. congruence.
  Qed.
  Lemma out_ver_mono_inv D b d a x v : is_Some (D !! a) -> D !! b = None -> out_ver (<[b := d]> D) a x v -> out_ver D a x v.
  Proof.
    intros [e He] Hb (d' & s & i & Hd & H). exists d', s, i. split; [|done]. rewrite lookup_insert_ne in Hd; [done|]. intros ->. congruence.
  Qed.
  Lemma proc_mono D b d c d' σ0 μ0 σ1 μ1 : D !! b = None -> proc D c d' σ0 μ0 σ1 μ1 -> proc (<[b := d]> D) c d' σ0 μ0 σ1 μ1.
  Proof.
    intros Hb [(x & s & H1 & H2 & H3 & H4 & H5 & H6) I G]. split; [|done|done].
    exists x, s. split; [done|]. split; [done|]. split; [done|]. split; [done|]. split; [done|].
    unfold entry_ok in *. destruct (from !! c) as [[|a [|? ?]]|]; try done. destruct H6 as [H6 H7]. split.
    - destruct (decide (a = b)) as [->|Hne]; [rewrite lookup_insert; by eexists|by rewrite lookup_insert_ne].
    - intros y v Hv. apply H7. by eapply out_ver_mono_inv.
  Qed.

  Lemma block_ok U σ D b f : vinv U σ D -> b ∈ U -> from !! b = Some f -> ~ (f = [] /\ b <> 0) -> D !! b = None ->
    exists d σ', block pinned bs from sets b σ D = Some (d, σ') /\ inv nv σ' /\ ext σ σ' /\ reach endof bs b /\
      (exists σ0 μ0 μ1, proc D b d σ0 μ0 σ' μ1 /\ ext (start pinned param nv) σ0) /\ newnames nv σ σ' (dnames b d).
  Proof using All.
    intros V HbU Hf Hnf HDb.
    assert (Hr : reach endof bs b).
    { destruct (vi_U _ _ _ V b HbU) as [->|(a & [da Ha] & Hab)].
      - constructor. apply lookup_lt_Some in Hf. unfold flow. rewrite fmap_length. lia.
      - apply Flow_spec.reach_step with a; [|done]. by apply (proj1 (vi_all _ _ _ V)) in Ha as [? _]. }
    destruct (reach_lookup b Hr) as (x & f' & s & Hx & Hf' & Hs). assert (f' = f) as -> by congruence. clear Hf'.
    unfold block. rewrite Hx, Hf, Hs. cbn [mbind option_bind].
    destruct (Hsets b s Hs) as (S1 & S2 & S3 & S4 & S5).
    assert (Hin : forall r, r ∈ Flow_model.ins s -> r < nv) by (intros r Hr'; by apply (live_below r b), S1).
    pose proof (vi_inv _ _ _ V) as I. pose proof (block_below b x Hx) as Hb.
    assert (Hgo : exists v σ0 μ0,
       (match f with
        | [] => Some (Flow_model.ins s, σ, id)
        | [a] => o ← outs_now sets D a; Some (replace_set pinned σ (hand_over pinned σ o id) (Flow_model.ins s), σ, hand_over pinned σ o id)
        | _ => Some (new_versions pinned (Flow_model.ins s) σ id)
        end) = Some (v, σ0, μ0) /\ inv nv σ0 /\ good nv σ0 μ0 /\ ext σ σ0 /\ (forall l e o, entry_ok D b (Done v l e o) s σ0 μ0) /\
        newnames nv σ σ0 (match f with _ :: _ :: _ => filter (fun v => pinned v = false) v | _ => [] end)).
    { destruct f as [|a [|a' f]].
      - exists (Flow_model.ins s), σ, id. split; [done|]. split; [done|]. split; [by apply good_id|]. split; [apply ext_refl|].
        split; [|apply newnames_nil]. intros l e o. unfold entry_ok. by rewrite Hf.
      - assert (Ha : is_Some (D !! a)).
        { destruct (vi_U _ _ _ V b HbU) as [->|(a' & Ha & Hab)].
          - apply from_0 in Hf. done.
          - assert (X : reach endof bs a' /\ edge endof bs a' b) by (split; [|done]; destruct Ha as [da Ha]; by apply (proj1 (vi_all _ _ _ V)) in Ha as [? _]).
            apply Hfrom in X as (f & Hf2 & Hf3). assert (f = [a]) as -> by congruence. by apply elem_of_list_singleton in Hf3 as ->. }
        destruct Ha as [da Ha]. unfold outs_now. rewrite Ha. cbn [mbind option_bind].
        destruct (proj1 (vi_all _ _ _ V) a da Ha) as (Hra & σ0 & μ0 & σ1 & μ1 & P & X & _).
        pose proof P as [(y & sa & Hy & Hsa & Hass & _ & Ho & _) Ia Ga].
        destruct (assign_ok pinned nv Hpin _ _ _ _ _ _ Ia Ga (block_below a y Hy) Hass) as (A1 & A2 & _).
        assert (Hov : forall v, v ∈ d_outs da -> pinned v = false -> exists x, out_ver D a x v /\ pinned x = false /\ v = μ1 x /\ x < nv /\ orig σ v = x /\ v < nextv σ).
        { intros v Hv Hp. rewrite Ho in Hv. unfold replace_set in Hv. apply elem_of_list_lookup in Hv as [i Hi].
          pose proof Hi as Hi'. rewrite list_lookup_fmap in Hi. destruct (Flow_model.outs sa !! i) as [z|] eqn:Ez; [|done].
          exists z. assert (Hov : out_ver D a z v) by (exists da, sa, i; rewrite Ho; done).
          split; [done|]. destruct (out_ver_is _ _ _ _ _ _ _ _ _ Ha P Hov) as [Hz Hvz].
          destruct (pinned z) eqn:Epz; [subst v; congruence|]. split; [done|]. split; [done|]. split; [done|].
          pose proof (good_ext _ _ _ _ X A2 z Hz) as [G1 G2]. rewrite Hvz. done. }
        destruct (hand_over_ok pinned nv σ (d_outs da) id) as [H1 H2].
        { by apply good_id. }
        { intros v Hv Hp. by destruct (Hov v Hv Hp) as (z & _ & _ & _ & _ & _ & ?). }
        eexists _, σ, _. split; [done|]. split; [done|]. split; [done|]. split; [apply ext_refl|]. split; [|apply newnames_nil].
        intros l e o. unfold entry_ok. rewrite Hf. split; [by eexists|]. intros z v Hzv Hpz.
        destruct (out_ver_is _ _ _ _ _ _ _ _ _ Ha P Hzv) as [Hz Hvz]. rewrite Hpz in Hvz.
        pose proof (good_ext _ _ _ _ X A2 z Hz) as [G1 G2].
        assert (Hvin : v ∈ d_outs da).
        { destruct Hzv as (da' & ? & i & ? & _ & _ & Hi). assert (da' = da) as -> by congruence. by eapply elem_of_list_lookup_2. }
        assert (Hpv : pinned v = false).
        { destruct (pinned v) eqn:E; [|done]. assert (v < nv) by (by apply Hpin). rewrite <- Hvz in G2. rewrite (orig_old nv) in G2 by done. congruence. }
        destruct (H2 z) as (J1 & J2 & J3).
        { exists v. split; [done|]. split; [done|]. by rewrite Hvz. }
        { intros y1 y2 Y1 Y2 P1 P2 O1 O2. destruct (Hov y1 Y1 P1) as (z1 & _ & _ & -> & _ & E1 & _).
          destruct (Hov y2 Y2 P2) as (z2 & _ & _ & -> & _ & E2 & _). congruence. }
        destruct (Hov _ J1 J2) as (z1 & _ & _ & E1 & _ & E2 & _). rewrite E1. rewrite J3 in E2. subst z1. done.
      - destruct (new_versions pinned (Flow_model.ins s) σ id) as [[v σ0] μ0] eqn:E. exists v, σ0, μ0. split; [done|].
        destruct (new_versions_ok pinned nv Hpin _ _ _ _ _ _ I (good_id nv σ I) Hin (sorted_NoDup _ S4) E) as (N1 & N2 & N3 & N4 & N5 & N6 & N7).
        split; [done|]. split; [done|]. split; [done|]. split; [|done]. intros l e o. unfold entry_ok. rewrite Hf. done. }
    destruct Hgo as (v & σ0 & μ0 & -> & I0 & G0 & X0 & En & N0). cbn [mbind option_bind].
    destruct (assign pinned (irs x) σ0 μ0) as [[l σ1] μ1] eqn:Ea.
    destruct (assign_ok pinned nv Hpin _ _ _ _ _ _ I0 G0 Hb Ea) as (A1 & A2 & A3 & A4 & A5 & A6).
    eexists _, σ1. split; [done|]. split; [done|]. split; [by eapply ext_trans|]. split; [done|]. split.
    - exists σ0, μ0, μ1. split; [|exact (ext_trans _ _ _ (vi_start _ _ _ V) X0)]. split; [|done|done].
      exists x, s. split; [done|]. split; [done|]. split; [done|]. split; [done|]. split; [done|]. apply En.
    - unfold dnames. rewrite Hf. cbn [d_ins d_irs]. eapply newnames_app; [apply (inv_next _ _ I)|done|done| |done].
      destruct f as [|? [|? ?]]; done.
  Qed.

  Lemma vinv_step U σ D b f d σ' x : vinv (b :: U) σ D -> from !! b = Some f -> D !! b = None -> bs !! b = Some x ->
    inv nv σ' -> ext σ σ' -> reach endof bs b -> (exists σ0 μ0 μ1, proc D b d σ0 μ0 σ' μ1 /\ ext (start pinned param nv) σ0) -> newnames nv σ σ' (dnames b d) ->
    vinv (reverse (Flow_model.succs (flow endof bs) b (flow_blk endof x)) ++ U) σ' (<[b := d]> D).
  Proof using All.
    intros V Hf HDb Hx I X Hr (σ0 & μ0 & μ1 & P & XS) N. pose proof (vi_start _ _ _ V) as XS'.
    pose proof (Flow_live_proof.succs_edge (flow endof bs) b (flow_blk endof x)) as Hse.
    assert (Hse' : forall c, c ∈ Flow_model.succs (flow endof bs) b (flow_blk endof x) <-> edge endof bs b c)
      by (intros c; apply Hse; [apply (plain_jumps _ _ _ Hplain)|by apply flow_lookup]).
    split.
    - done.
    - by eapply ext_trans.
    - destruct (vi_all _ _ _ V) as [V1 V2]. split.
      + intros c d' Hc. apply lookup_insert_Some in Hc as [[<- <-]|[Hne Hc]].
        * split; [done|]. exists σ0, μ0, σ', μ1. split; [by apply proc_mono|]. split; [apply ext_refl|]. split; [done|].
          exact (newnames_mono _ _ _ _ _ _ XS' (ext_refl _) N).
        * destruct (V1 c d' Hc) as (R & s0 & m0 & s1 & m1 & P' & X1 & X2 & N'). split; [done|]. exists s0, m0, s1, m1.
          split; [by apply proc_mono|]. split; [by eapply ext_trans|]. split; [done|]. exact (newnames_mono _ _ _ _ _ _ (ext_refl _) X N').
      + assert (Hdis : forall c d' v, D !! c = Some d' -> v ∈ dnames c d' -> v ∈ dnames b d -> False).
        { intros c d' v Hc Hv Hv2. destruct (V1 c d' Hc) as (R & s0 & m0 & s1 & m1 & P' & X1 & X2 & N'). destruct N' as [_ N1]. destruct N as [_ N2].
          pose proof (inv_next _ _ (vi_inv _ _ _ V)). specialize (N1 v Hv). specialize (N2 v Hv2). cbn in N1.
          destruct N1 as [N1|(N1 & N1' & N1'')], N2 as [N2|(N2 & N2' & N2'')]; first [lia|by apply N2']. }
        intros b1 d1 b2 d2 v H1 H2 Hne Hv1 Hv2. apply lookup_insert_Some in H1 as [[<- <-]|[Hne1 H1]], H2 as [[<- <-]|[Hne2 H2]]; try done.
        * exact (Hdis _ _ _ H2 Hv2 Hv1).
        * exact (Hdis _ _ _ H1 Hv1 Hv2).
        * exact (V2 _ _ _ _ _ H1 H2 Hne Hv1 Hv2).
    - intros c Hc. apply elem_of_app in Hc as [Hc|Hc].
      + rewrite elem_of_reverse in Hc. right. exists b. split; [rewrite lookup_insert; by eexists|by apply Hse'].
      + destruct (vi_U _ _ _ V c) as [->|(a & Ha & Hac)]; [by right|by left|]. right. exists a. split; [|done].
        destruct (decide (a = b)) as [->|Hne]; [rewrite lookup_insert; by eexists|by rewrite lookup_insert_ne].
    - intros a c Ha Hac. destruct (decide (c = b)) as [->|Hcb]; [right; rewrite lookup_insert; by eexists|].
      rewrite (lookup_insert_ne _ b c) by done. destruct (decide (a = b)) as [->|Hne].
      + left. apply elem_of_app. left. rewrite elem_of_reverse. by apply Hse'.
      + rewrite lookup_insert_ne in Ha by done. destruct (vi_next _ _ _ V a c Ha Hac) as [H|H]; [|by right].
        apply elem_of_cons in H as [->|H]; [done|]. left. apply elem_of_app. by right.
    - destruct (decide (b = 0)) as [->|Hne]; [right; rewrite lookup_insert; by eexists|]. rewrite lookup_insert_ne by done.
      destruct (vi_zero _ _ _ V) as [H|H]; [|by right]. left. apply elem_of_app. right. apply elem_of_cons in H as [H|H]; [by subst b|done].
  Qed.
  Lemma vinv_skip U σ D b f : vinv (b :: U) σ D -> from !! b = Some f -> (f = [] /\ b <> 0) \/ is_Some (D !! b) -> vinv U σ D.
  Proof using All.
    intros V Hf Hskip.
    assert (Hb : is_Some (D !! b)).
    { destruct Hskip as [[-> Hb]|H]; [|done]. exfalso. destruct (vi_U _ _ _ V b) as [->|(a & [da Ha] & Hab)]; [by left|done|].
      assert (X : reach endof bs a /\ edge endof bs a b) by (split; [by apply (proj1 (vi_all _ _ _ V)) in Ha as [? _]|done]).
      apply Hfrom in X as (f & Hf2 & Hf3). assert (f = []) as -> by congruence. by apply elem_of_nil in Hf3. }
    destruct V as [V1 V2 V3 V4 V5 V6]. split; try done.
    - intros c Hc. apply V4. by right.
    - intros a c Ha Hac. destruct (V5 a c Ha Hac) as [H|H]; [|by right]. apply elem_of_cons in H as [->|H]; [by right|by left].
    - destruct V6 as [H|H]; [|by right]. apply elem_of_cons in H as [H|H]; [right; by subst b|by left].
  Qed.

  Definition vpot (D : gmap nat (@done K J)) : nat :=
    Flow_model.sum (imap (fun i b => if decide (is_Some (D !! i)) then 0 else length (Flow_model.succs (flow endof bs) i b)) (flow endof bs)).
  Lemma visit_ok (Hne : 0 < length bs) fuel : forall U σ D, vinv U σ D -> length U + vpot D <= fuel ->
    exists D' σ', visit endof pinned bs from sets fuel U σ D = Some (D', σ') /\ vinv [] σ' D'.
  Proof using All.
    induction fuel as [|fuel IH]; intros U σ D V Hf.
    - destruct U; [by exists D, σ|cbn in Hf; lia].
    - destruct U as [|b U]; [by exists D, σ|]. cbn [visit]. cbn [length] in Hf.
      assert (Hr : reach endof bs b \/ (b = 0)).
      { destruct (vi_U _ _ _ V b) as [->|(a & [da Ha] & Hab)]; [by left|by right|]. left.
        apply Flow_spec.reach_step with a; [|done]. by apply (proj1 (vi_all _ _ _ V)) in Ha as [? _]. }
      assert (Hfb : exists f x, from !! b = Some f /\ bs !! b = Some x).
      { destruct Hr as [Hr| ->].
        - destruct (reach_lookup b Hr) as (x & f & s & ? & ? & _). by exists f, x.
        - destruct (lookup_lt_is_Some_2 bs 0) as [x ?]; [lia|]. destruct (lookup_lt_is_Some_2 from 0) as [f ?]; [lia|]. by exists f, x. }
      destruct Hfb as (f & x & Hfb & Hx). rewrite Hfb. cbn [mbind option_bind].
      destruct (bool_decide (f = [] /\ b <> 0) || bool_decide (is_Some (D !! b))) eqn:Esk.
      + apply IH; [|lia]. eapply vinv_skip; [done|done|]. apply orb_true_iff in Esk as [E|E]; apply bool_decide_eq_true in E; [by left|by right].
      + apply orb_false_iff in Esk as [E1 E2]. apply bool_decide_eq_false in E1, E2. apply eq_None_not_Some in E2.
        destruct (block_ok _ _ _ b f V (elem_of_list_here _ _) Hfb E1 E2) as (d & σ' & Hbk & I & X & Hrb & P & N).
        rewrite Hx. cbn [mbind option_bind]. rewrite Hbk. cbn [mbind option_bind].
        apply IH; [by eapply (vinv_step U σ D b f d σ' x)|].
        rewrite app_length, reverse_length.
        pose proof (Flow_proof.sum_dec (flow endof bs) (fun j y => if decide (is_Some (<[b := d]> D !! j)) then 0 else length (Flow_model.succs (flow endof bs) j y))
          (fun j y => if decide (is_Some (D !! j)) then 0 else length (Flow_model.succs (flow endof bs) j y)) b (flow_blk endof x) (flow_lookup b x Hx)) as Hd.
        cbv beta in Hd. rewrite (decide_True (P := is_Some (<[b := d]> D !! b))) in Hd by (rewrite lookup_insert; by eexists).
        rewrite (decide_False (P := is_Some (D !! b))) in Hd by (rewrite E2; by intros [? ?]).
        unfold vpot in *. specialize (Hd eq_refl).
        match type of Hd with ?A -> _ => assert A as HA end.
        { intros j y _. destruct (decide (j = b)) as [->|Hjb]; [rewrite (decide_True (P := is_Some (<[b := d]> D !! b))) by (rewrite lookup_insert; by eexists); lia|].
          rewrite lookup_insert_ne by done. lia. }
        specialize (Hd HA). unfold flow in *. lia.
  Qed.
End visit.
