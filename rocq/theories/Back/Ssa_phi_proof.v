(** Proofs about the phis that are inserted. *)
From Coq Require Import Sorted.
From stdpp Require Import base list numbers gmap.
From Verif Require Import Back.Unused_model Back.Ssa_model Back.Ssa_spec Back.Ssa_name_proof Back.Ssa_visit_proof.
From Verif Require Back.Flow_model Back.Flow_spec Back.Flow_proof Back.Flow_live_proof.
Local Open Scope nat_scope.

Lemma last_take {A} (v : list A) y : last v = Some y -> v = take (pred (length v)) v ++ [y].
Proof.
  intros H. rewrite last_lookup in H. symmetry. rewrite <- (take_S_r v (pred (length v)) y H). apply take_ge. lia.
Qed.
Lemma targets_perm pinned n : forall v, length v <= n -> phi_targets pinned n v ≡ₚ filter (fun x => pinned x = false) v.
Proof.
  induction n as [|n IH]; intros v Hv; [destruct v; [done|cbn in Hv; lia]|]. destruct v as [|x v]; [done|]. cbn [phi_targets]. cbn in Hv.
  rewrite filter_cons. destruct (pinned x) eqn:E.
  - rewrite decide_False by done. destruct (last v) as [y|] eqn:El.
    + pose proof (last_take v y El) as Ev. assert (Hl : 0 < length v) by (destruct v; [done|cbn; lia]).
      rewrite IH by (cbn; rewrite take_length; lia).
      assert (HP : y :: take (pred (length v)) v ≡ₚ v) by (rewrite Permutation_cons_append; by rewrite <- Ev). by rewrite HP.
    + apply last_None in El as ->. done.
  - rewrite decide_True by done. f_equiv. apply IH. lia.
Qed.
Lemma fold_insert_some (σ : st) (o : list nat) : forall (m : gmap nat nat) x v, v ∈ o -> orig σ v = x ->
  exists v', foldl (fun (m : gmap nat nat) v => <[orig σ v := v]> m) m o !! x = Some v' /\ v' ∈ o /\ orig σ v' = x.
Proof.
  assert (Hno : forall (o' : list nat) (m : gmap nat nat) x, (forall v, v ∈ o' -> orig σ v <> x) -> foldl (fun (m : gmap nat nat) v => <[orig σ v := v]> m) m o' !! x = m !! x).
  { clear o. induction o' as [|u o IH]; intros m x H; cbn [foldl]; [done|]. rewrite IH by (intros v Hv; apply H; by right).
    apply lookup_insert_ne. apply H. by left. }
  induction o as [|u o IH]; intros m x v Hv Ho; [by apply elem_of_nil in Hv|]. cbn [foldl].
  destruct (decide (Exists (fun v => orig σ v = x) o)) as [He|He].
  - apply Exists_exists in He as (w & Hw & Hwx). destruct (IH (<[orig σ u := u]> m) x w Hw Hwx) as (v' & E1 & E2 & E3). exists v'.
    split; [done|]. split; [by right|done].
  - apply elem_of_cons in Hv as [->|Hv]; [|exfalso; apply He, Exists_exists; by exists v].
    rewrite Hno by (intros w Hw Hwx; apply He, Exists_exists; by exists w). rewrite Ho, lookup_insert. exists u. split; [done|]. split; [by left|done].
Qed.

Section phi.
  Context {K J : Type} (endof : J -> Flow_model.ending) (pinned param : nat -> bool) (nv : nat).
  Hypothesis Hpin : forall v, pinned v = true -> v < nv.
  Context (bs : list (blk K J)) (from : list (list nat)) (sets : list Flow_model.sets).
  Hypothesis Hplain : plain endof nv bs.
  Hypothesis Hfrom_len : length from = length bs.
  Hypothesis Hfrom : forall a b, (exists f, from !! b = Some f /\ a ∈ f) <-> reach endof bs a /\ edge endof bs a b.
  Hypothesis Hsets_len : length sets = length bs.
  Hypothesis Hsets : forall b s, sets !! b = Some s ->
    (forall r, r ∈ Flow_model.ins s -> Flow_spec.live (flow endof bs) r b) /\
    (forall r, r ∈ Flow_model.outs s -> Flow_spec.live_out (flow endof bs) r b) /\
    (reach endof bs b -> (forall r, Flow_spec.live (flow endof bs) r b -> r ∈ Flow_model.ins s) /\
                         (forall r, Flow_spec.live_out (flow endof bs) r b -> r ∈ Flow_model.outs s)) /\
    StronglySorted lt (Flow_model.ins s) /\ StronglySorted lt (Flow_model.outs s).
  Hypothesis Hne : 0 < length bs.
  Context (D : gmap nat (@done K J)) (σ : st).
  Hypothesis V : vinv endof pinned param nv bs from sets [] σ D.
  Notation proc := (proc pinned nv bs from sets).
  Notation out_ver := (out_ver sets).

  Lemma done_reach b : reach endof bs b <-> is_Some (D !! b).
  Proof using All.
    split.
    - induction 1 as [H|a b _ IH Hab].
      + destruct (vi_zero _ _ _ _ _ _ _ _ _ _ V) as [H0|H0]; [by apply elem_of_nil in H0|done].
      + destruct (vi_next _ _ _ _ _ _ _ _ _ _ V a b IH Hab) as [H0|H0]; [by apply elem_of_nil in H0|done].
    - intros [d Hd]. by apply (proj1 (vi_all _ _ _ _ _ _ _ _ _ _ V)) in Hd as [? _].
  Qed.
  Lemma done_proc b d : D !! b = Some d -> exists σ0 μ0 σ1 μ1, proc D b d σ0 μ0 σ1 μ1 /\ ext σ0 σ1 /\ inv nv σ1 /\ good nv σ1 μ1 /\ ext σ1 σ.
  Proof using All.
    intros Hd. destruct (proj1 (vi_all _ _ _ _ _ _ _ _ _ _ V) b d Hd) as (_ & σ0 & μ0 & σ1 & μ1 & P & X & _). exists σ0, μ0, σ1, μ1. split; [done|].
    destruct P as [(x & s & Hx & Hs & Ha & _) I G].
    assert (Hb : below nv (irs x)) by (eapply block_below; done).
    destruct (assign_ok pinned nv Hpin _ _ _ _ _ _ I G Hb Ha) as (A1 & A2 & A3 & _). done.
  Qed.
  Lemma is_ver a d σ0 μ0 σ1 μ1 x v : D !! a = Some d -> proc D a d σ0 μ0 σ1 μ1 -> out_ver D a x v -> x < nv /\ v = (if pinned x then x else μ1 x).
  Proof using All. intros Hd P H. eapply out_ver_is; done. Qed.
  Lemma has_ver a x : reach endof bs a -> Flow_spec.live_out (flow endof bs) x a -> exists v, out_ver D a x v.
  Proof using All.
    intros Hr Hl. pose proof Hr as Hd. apply done_reach in Hd as [d Hd]. destruct (done_proc a d Hd) as (σ0 & μ0 & σ1 & μ1 & P & _).
    eapply out_ver_ex; done.
  Qed.

  Lemma from_maps_ok f : forall m, (forall a, a ∈ f -> reach endof bs a) -> exists ms, from_maps sets σ D f m = Some ms /\ length ms = length f /\
    forall k a mk x, f !! k = Some a -> ms !! k = Some mk -> Flow_spec.live_out (flow endof bs) x a -> exists v, mk !! x = Some v /\ out_ver D a x v.
  Proof using All.
    induction f as [|a f IH]; intros m Hf; cbn [from_maps]; [by exists []|].
    assert (Hra : reach endof bs a) by (apply Hf; by left). pose proof Hra as Hd. apply done_reach in Hd as [d Hd].
    unfold outs_now. rewrite Hd. cbn [mbind option_bind].
    destruct (IH (foldl (fun (m : gmap nat nat) v => <[orig σ v := v]> m) m (d_outs d))) as (ms & Ems & Hl & H); [intros c Hc; apply Hf; by right|].
    rewrite Ems. cbn [mbind option_bind]. eexists. split; [done|]. split; [cbn; by rewrite Hl|].
    intros k c mk x Hk Hmk Hlive. destruct k as [|k]; [|by eapply H]. cbn in Hk, Hmk. injection Hk as ->. injection Hmk as <-.
    destruct (has_ver c x Hra Hlive) as [v Hv]. destruct (done_proc c d Hd) as (σ0 & μ0 & σ1 & μ1 & P & _ & I1 & G1 & X).
    destruct (is_ver _ _ _ _ _ _ _ _ Hd P Hv) as [Hx Hvx].
    pose proof (vi_inv _ _ _ _ _ _ _ _ _ _ V) as I.
    assert (Horig : forall y w, out_ver D c y w -> orig σ w = y).
    { intros y w Hw. destruct (is_ver _ _ _ _ _ _ _ _ Hd P Hw) as [Hy ->]. destruct (pinned y) eqn:E; [by apply (orig_old nv)|].
      destruct (good_ext _ _ _ _ X G1 y Hy) as [_ ?]. done. }
    assert (Hvin : v ∈ d_outs d).
    { destruct Hv as (d' & ? & i & ? & _ & _ & Hi). assert (d' = d) as -> by congruence. by eapply elem_of_list_lookup_2. }
    destruct (fold_insert_some σ (d_outs d) m x v Hvin (Horig x v Hv)) as (v' & E1 & E2 & E3). exists v'. split; [done|].
    apply elem_of_list_lookup in E2 as [i Hi].
    destruct P as [(y & s & Hy & Hs & _ & _ & Ho & _) _ _]. pose proof Hi as Hi'. rewrite Ho in Hi'. unfold replace_set in Hi'. rewrite list_lookup_fmap in Hi'.
    destruct (Flow_model.outs s !! i) as [z|] eqn:Ez; [|done].
    assert (Hz : out_ver D c z v') by (by exists d, s, i). rewrite (Horig z v' Hz) in E3. subst z. done.
  Qed.

  (** What becomes of a block. *)
  Definition blk_ok (b : nat) (y : blk K J) : Prop := exists x f, bs !! b = Some x /\ from !! b = Some f /\
    (irs y, exit y) = match D !! b with Some d => (d_irs d, d_exit d) | None => (irs x, exit x) end /\
    (length f < 2 -> phis y = []) /\
    (2 <= length f -> exists d s, D !! b = Some d /\ sets !! b = Some s /\
       pdst <$> phis y ≡ₚ filter (fun v => pinned v = false) (d_ins d) /\
       forall p, p ∈ phis y -> exists x, x ∈ Flow_model.ins s /\ pinned x = false /\
         (forall σ0 μ0 σ1 μ1, proc D b d σ0 μ0 σ1 μ1 -> pdst p = μ0 x) /\
         (forall k a, f !! k = Some a -> exists v, params p !! k = Some (inr v) /\ out_ver D a x v) /\ length (params p) = length f).
  Lemma insert_phis_ok n : forall b m, b + n = length bs -> exists r, insert_phis pinned bs from sets n b σ D m = Some r /\ length r = n /\
    forall i y, r !! i = Some y -> blk_ok (b + i) y.
  Proof using All.
    induction n as [|n IH]; intros b m Hb; cbn [insert_phis]; [by exists []|].
    destruct (lookup_lt_is_Some_2 bs b) as [x Hx]; [lia|]. destruct (lookup_lt_is_Some_2 from b) as [f Hf]; [lia|].
    destruct (lookup_lt_is_Some_2 sets b) as [s Hs]; [lia|].
    rewrite Hx, Hf. cbn [mbind option_bind].
    destruct (match D !! b with Some d => (d_irs d, d_exit d) | None => (irs x, exit x) end) as [l e] eqn:Ele.
    pose proof (plain_phis _ _ _ Hplain b x Hx) as Hph.
    destruct (bool_decide (2 <= length f) && bool_decide (b <> 0)) eqn:Ec.
    2: { destruct (IH (S b) m) as (r & Er & Hl & H); [lia|]. rewrite Er. cbn [mbind option_bind]. eexists. split; [done|]. split; [cbn; by rewrite Hl|].
      intros [|i] y Hi; cbn in Hi; [injection Hi as <-|rewrite Nat.add_succ_r; by apply (H i)]. rewrite Nat.add_0_r.
      exists x, f. split; [done|]. split; [done|]. split; [by rewrite Ele|]. split; [done|]. intros H2. exfalso.
      apply andb_false_iff in Ec as [E|E]; apply bool_decide_eq_false in E; [done|]. destruct (decide (b = 0)) as [->|]; [|done].
      assert (f = []) as -> by (eapply from_0; done). cbn in H2. lia. }
    apply andb_true_iff in Ec as [E1 E2]. apply bool_decide_eq_true in E1, E2. rewrite Hs. cbn [mbind option_bind].
    assert (Hfr : forall a, a ∈ f -> reach endof bs a /\ edge endof bs a b) by (intros a Ha; apply Hfrom; by exists f).
    assert (Hrb : reach endof bs b).
    { destruct f as [|a f]; [cbn in E1; lia|]. destruct (Hfr a) as [? ?]; [by left|]. by apply Flow_spec.reach_step with a. }
    pose proof Hrb as Hd. apply done_reach in Hd as [d Hd]. rewrite Hd in *.
    destruct (from_maps_ok f m) as (ms & Ems & Hml & Hms); [intros a Ha; by apply Hfr|]. rewrite Ems. cbn [mbind option_bind].
    pose proof (targets_perm pinned (length (d_ins d)) (d_ins d) (le_n _)) as Hperm.
    set (ts := phi_targets pinned (length (d_ins d)) (d_ins d)) in *.
    destruct (done_proc b d Hd) as (σ0 & μ0 & σ1 & μ1 & P & X0 & I1 & G1 & X).
    pose proof P as [(x' & s' & Hx' & Hs' & _ & _ & _ & Hen) I0 G0]. assert (s' = s) as -> by congruence.
    unfold entry_ok in Hen. rewrite Hf in Hen. destruct f as [|a1 [|a2 f]]; [cbn in E1; lia..|]. destruct Hen as [Hen1 Hen2].
    assert (Hts : forall t, t ∈ ts -> exists z, z ∈ Flow_model.ins s /\ z < nv /\ pinned z = false /\ t = μ0 z /\ orig σ t = z /\ orig σ t <> t).
    { intros t Ht. rewrite Hperm in Ht. apply elem_of_list_filter in Ht as [Hp Ht]. pose proof Ht as Ht'. rewrite Hen1 in Ht.
      apply elem_of_list_fmap in Ht as (z & -> & Hz). exists z. split; [done|].
      assert (Hzn : z < nv) by (eapply live_below; [done..|]; by apply (Hsets b s Hs)).
      split; [done|]. destruct (pinned z) eqn:Epz; [congruence|]. split; [done|]. split; [done|].
      pose proof (G0 z Hzn) as [G2 G3]. destruct (ext_trans _ _ _ X0 X) as (_ & Xo & _). rewrite Xo by done. split; [done|].
      by apply Hen2. }
    match goal with |- context [mapM ?g ts] => set (F := g) end.
    assert (HF : forall t, t ∈ ts -> exists p, F t = Some p /\ pdst p = t /\ exists x, x ∈ Flow_model.ins s /\ pinned x = false /\ t = μ0 x /\
       (forall k a, (a1 :: a2 :: f) !! k = Some a -> exists v, params p !! k = Some (inr v) /\ out_ver D a x v) /\ length (params p) = length (a1 :: a2 :: f)).
    { intros t Ht. destruct (Hts t Ht) as (z & Hz & Hzn & Hpz & -> & Ho & Hno). unfold F. rewrite decide_False by done.
      assert (Hlo : forall k a, (a1 :: a2 :: f) !! k = Some a -> Flow_spec.live_out (flow endof bs) z a).
      { intros k a Ha. exists b. split; [|by apply (Hsets b s Hs)]. apply (Hfr a). by eapply elem_of_list_lookup_2. }
      destruct (mapM_is_Some_2 (fun m0 : gmap nat nat => m0 !! orig σ (μ0 z)) ms) as [ps Hps].
      { apply stdpp.list.Forall_forall. intros mk Hmk. apply elem_of_list_lookup in Hmk as [k Hk].
        destruct (lookup_lt_is_Some_2 (a1 :: a2 :: f) k) as [a Ha]; [rewrite <- Hml; by eapply lookup_lt_Some|].
        destruct (Hms k a mk z Ha Hk (Hlo k a Ha)) as (v & Hv & _). rewrite Ho. by exists v. }
      rewrite Hps. cbn [mbind option_bind]. eexists. split; [done|]. split; [done|]. exists z. split; [done|]. split; [done|]. split; [done|].
      split; [|cbn [params]; rewrite fmap_length, <- Hml; symmetry; eapply Forall2_length; by apply mapM_Some].
      intros k a Ha. apply mapM_Some in Hps. destruct (lookup_lt_is_Some_2 ms k) as [mk Hk]; [rewrite Hml; by eapply lookup_lt_Some|].
      destruct (Hms k a mk z Ha Hk (Hlo k a Ha)) as (v & Hv & Hov). exists v. split; [|done]. cbn [params].
      rewrite list_lookup_fmap. destruct (Forall2_lookup_l _ _ _ _ _ Hps Hk) as (v' & Hv' & E). rewrite Hv'. cbn. rewrite Ho in E. congruence. }
    destruct (mapM_is_Some_2 F ts) as [ps Hps].
    { apply stdpp.list.Forall_forall. intros t Ht. destruct (HF t Ht) as (p & E & _). by exists p. }
    rewrite Hps. cbn [mbind option_bind]. destruct (IH (S b) (default m (last ms))) as (r & Er & Hl & H); [lia|]. rewrite Er. cbn [mbind option_bind].
    eexists. split; [done|]. split; [cbn; by rewrite Hl|].
    intros [|i] y Hi; cbn in Hi; [injection Hi as <-|rewrite Nat.add_succ_r; by apply (H i)]. rewrite Nat.add_0_r.
    exists x, (a1 :: a2 :: f). split; [done|]. split; [done|]. rewrite Hd. split; [done|]. split; [cbn; lia|]. intros _. exists d, s. split; [done|].
    split; [done|]. apply mapM_Some in Hps.
    assert (Hpd : pdst <$> ps = ts).
    { apply list_eq. intros k. rewrite list_lookup_fmap. destruct (ts !! k) as [t|] eqn:Et.
      - destruct (Forall2_lookup_l _ _ _ _ _ Hps Et) as (p & Hp & E). rewrite Hp. cbn.
        destruct (HF t) as (p' & E' & <- & _); [by eapply elem_of_list_lookup_2|]. congruence.
      - apply lookup_ge_None in Et. rewrite (Forall2_length _ _ _ Hps) in Et. apply lookup_ge_None in Et. by rewrite Et. }
    split; [cbn [phis]; by rewrite Hpd|]. intros p Hp. cbn [phis] in Hp. apply elem_of_list_lookup in Hp as [k Hk].
    destruct (Forall2_lookup_r _ _ _ _ _ Hps Hk) as (t & Ht & E). destruct (HF t) as (p' & E' & Hpt & z & Hz & Hpz & Htz & Hpar); [by eapply elem_of_list_lookup_2|].
    assert (p' = p) as -> by congruence. exists z. split; [done|]. split; [done|]. split; [|done].
    intros s0 m0 s1 m1 P'. destruct P' as [(x2 & s2 & _ & Hs2 & _ & _ & _ & Hen') I0' G0']. assert (s2 = s) as -> by congruence.
    unfold entry_ok in Hen'. rewrite Hf in Hen'. destruct Hen' as [Hen1' _]. rewrite Hen1 in Hen1'.
    apply elem_of_list_lookup in Hz as [j Hj]. apply (f_equal (fun l => l !! j)) in Hen1'. rewrite !list_lookup_fmap, Hj in Hen1'. cbn in Hen1'.
    rewrite Hpz in Hen1'. injection Hen1' as Hen1'. congruence.
  Qed.
End phi.
