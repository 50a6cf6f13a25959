(** Proofs that functions in SSA form do the same. *)
From Coq Require Import Sorted.
From stdpp Require Import base list numbers gmap.
From Verif Require Import Back.Unused_model Back.Unused_spec Back.Ssa_model Back.Ssa_spec Back.Ssa_name_proof Back.Ssa_visit_proof Back.Ssa_phi_proof.
From Verif Require Back.Flow_model Back.Flow_spec Back.Flow_proof Back.Flow_live_proof.
Local Open Scope nat_scope.

Section exec.
  Context {K J W : Type} (M : machine K J W) (pinned : nat -> bool) (nv : nat).
  Hypothesis Hpin : forall v, pinned v = true -> v < nv.

  Definition rel (X : nat -> Prop) (μ : nat -> nat) (s s' : state W) : Prop :=
    s'.2 = s.2 /\ forall x, X x -> x < nv -> pinned x = false -> s'.1 (μ x) = s.1 x.
  Lemma good_free σ μ x : inv nv σ -> good nv σ μ -> x < nv -> pinned x = false -> pinned (μ x) = false.
  Proof using Hpin.
    intros I G Hx Hp. destruct (pinned (μ x)) eqn:E; [|done]. pose proof (Hpin _ E) as Hlt. destruct (G x Hx) as [_ G2].
    rewrite (orig_old nv) in G2 by done. congruence.
  Qed.
  Lemma rd_ren X σ μ o s s' : inv nv σ -> good nv σ μ -> rel X μ s s' -> (forall v, o = inr v -> X v /\ v < nv) -> rd M pinned (ren pinned σ μ o) s' = rd M pinned o s.
  Proof using Hpin.
    intros I G [R1 R2] Ho. destruct o as [z|v]; [done|]. destruct (Ho v eq_refl) as [Xv Hv]. cbn [ren]. destruct (pinned v) eqn:E; cbn [rd].
    - by rewrite E, R1.
    - rewrite (orig_old nv) by done. rewrite (good_free σ μ v) by done. rewrite E. by apply R2.
  Qed.
  Lemma regs_in l v : inr v ∈ l -> v ∈ regs l.
  Proof. intros H. unfold regs. apply elem_of_list_bind. exists (inr v). split; [by left|done]. Qed.
  Lemma rds_ren X σ μ l s s' : inv nv σ -> good nv σ μ -> rel X μ s s' -> (forall v, v ∈ regs l -> X v /\ v < nv) ->
    (fun o => rd M pinned o s') <$> (ren pinned σ μ <$> l) = (fun o => rd M pinned o s) <$> l.
  Proof using Hpin.
    intros I G R H. rewrite <- list_fmap_compose. apply list_fmap_ext. intros i o Ho. cbn. eapply rd_ren; try done.
    intros v ->. apply H. apply regs_in. by eapply elem_of_list_lookup_2.
  Qed.
  Lemma exec_ren X i σ μ d' σ' μ' s s' : inv nv σ -> good nv σ μ -> rel X μ s s' -> below nv [i] -> (forall r, r ∈ regs (oprs i) -> X r) ->
    ren_dst pinned σ μ (dst i) = (d', σ', μ') ->
    (exec M pinned (Ins (op i) (is_call i) d' (ren pinned σ μ <$> oprs i)) s').1 = (exec M pinned i s).1 /\
    rel (fun x => X x \/ dst i = Some x) μ' (exec M pinned i s).2 (exec M pinned (Ins (op i) (is_call i) d' (ren pinned σ μ <$> oprs i)) s').2.
  Proof using Hpin.
    intros I G R Hb Hr Hd.
    assert (Hds : forall v, dst i = Some v -> v < nv) by (intros v Hv; apply (Hb i v); [by left|by right]).
    destruct (ren_dst_ok pinned nv Hpin _ _ _ _ _ _ I G Hds Hd) as (_ & _ & _ & _ & H5).
    assert (El : (fun o => rd M pinned o s') <$> (ren pinned σ μ <$> oprs i) = (fun o => rd M pinned o s) <$> oprs i).
    { eapply rds_ren; try done. intros v Hv. split; [by apply Hr|]. apply (Hb i v); [by left|by left]. }
    unfold exec. cbn [op oprs dst]. rewrite El. pose proof R as [R1 R2]. rewrite R1.
    destruct (act M (op i) ((fun o => rd M pinned o s) <$> oprs i) s.2) as [x w]. split; [done|]. cbn [snd].
    destruct (dst i) as [y|].
    - destruct (pinned y) eqn:Ey.
      + destruct H5 as [-> ->]. unfold wr. rewrite Ey. split; [done|]. cbn. intros z [Hz|[= <-]] Hzn Hzp; [by apply R2|congruence].
      + destruct H5 as (v & -> & Hpv & -> & Hne). unfold wr. rewrite Ey, Hpv. split; [done|]. cbn [fst]. intros z Hz Hzn Hzp. unfold upd.
        destruct (decide (z = y)) as [->|Hzy]; [by rewrite !decide_True|].
        rewrite (decide_False (P := μ z = v)) by (by apply Hne). destruct Hz as [Hz|[= ->]]; [|done]. by apply R2.
    - destruct H5 as [-> ->]. split; [done|]. cbn. intros z [Hz|Hz] Hzn Hzp; [by apply R2|done].
  Qed.
  Lemma execs_ren l : forall X σ μ l' σ' μ' s s', inv nv σ -> good nv σ μ -> rel X μ s s' -> below nv l ->
    (forall r, Flow_spec.reads_first (flow_ins <$> l) r -> X r) -> assign pinned l σ μ = (l', σ', μ') ->
    (execs M pinned l' s').1 = (execs M pinned l s).1 /\ rel (fun x => X x \/ x ∈ omap dst l) μ' (execs M pinned l s).2 (execs M pinned l' s').2.
  Proof using Hpin.
    induction l as [|i l IH]; intros X σ μ l' σ' μ' s s' I G R Hb Hr; cbn [assign].
    - intros [= <- <- <-]. split; [done|]. cbn. destruct R as [R1 R2]. split; [done|]. intros x [Hx|Hx]; [by apply R2|by apply elem_of_nil in Hx].
    - destruct (ren_dst pinned σ μ (dst i)) as [[d σ1] μ1] eqn:Ed. destruct (assign pinned l σ1 μ1) as [[l1 σ2] μ2] eqn:El.
      intros [= <- <- <-].
      assert (Hds : forall v, dst i = Some v -> v < nv) by (intros v Hv; apply (Hb i v); [by left|by right]).
      destruct (ren_dst_ok pinned nv Hpin _ _ _ _ _ _ I G Hds Ed) as (I1 & G1 & _).
      destruct (exec_ren X i σ μ d σ1 μ1 s s' I G R) as [E1 E2].
      { intros j v Hj%elem_of_list_singleton. subst j. apply Hb. by left. }
      { intros r Hrr. apply Hr. rewrite fmap_cons. apply Flow_proof.reads_cons. by left. }
      { done. }
      cbn [execs]. destruct (exec M pinned i s) as [e1 t] eqn:Et.
      destruct (exec M pinned {| op := op i; is_call := is_call i; dst := d; oprs := ren pinned σ μ <$> oprs i |} s') as [e1' t'] eqn:Et'.
      cbn [fst snd] in E1, E2. subst e1'.
      destruct (IH (fun x => X x \/ dst i = Some x) σ1 μ1 l1 σ2 μ2 t t' I1 G1 E2) as [F1 F2].
      { intros j v Hj. apply Hb. by right. }
      { intros r Hrr. destruct (decide (dst i = Some r)) as [Er|Er]; [by right|left]. apply Hr. rewrite fmap_cons. apply Flow_proof.reads_cons. right. done. }
      { done. }
      destruct (execs M pinned l t) as [e2 u] eqn:Eu. destruct (execs M pinned l1 t') as [e2' u'] eqn:Eu'. cbn [fst snd] in *. subst e2'.
      split; [done|]. destruct F2 as [F2 F3]. split; [done|]. intros x Hx. apply F3. destruct Hx as [Hx|Hx]; [left; by left|].
      cbn in Hx. destruct (dst i) as [y|]; [|by right]. apply elem_of_cons in Hx as [->|Hx]; [left; by right|by right].
  Qed.
  Lemma enter_ok (ps : list phi) k s : NoDup (pdst <$> ps) -> (forall p, p ∈ ps -> pinned (pdst p) = false) ->
    (enter M pinned ps k s).2 = s.2 /\ (forall p, p ∈ ps -> (enter M pinned ps k s).1 (pdst p) = rd M pinned (default (inl 0%Z) (params p !! k)) s) /\
    forall v, v ∉ pdst <$> ps -> (enter M pinned ps k s).1 v = s.1 v.
  Proof using.
    clear Hpin nv. unfold enter. induction ps as [|p ps IH]; intros Hn Hp.
    - split; [done|]. split; [|done]. intros p H. by apply elem_of_nil in H.
    - rewrite fmap_cons in Hn. apply NoDup_cons in Hn as [Hn1 Hn2]. destruct IH as (I1 & I2 & I3); [done|intros q Hq; apply Hp; by right|].
      cbn [foldr]. unfold wr at 1 3 5. rewrite (Hp p) by (by left). cbn [fst snd]. split; [done|]. split.
      + intros q [->|Hq]%elem_of_cons; [by rewrite decide_True|]. rewrite decide_False; [by apply I2|].
        intros E. apply Hn1. rewrite <- E. by apply elem_of_list_fmap_1.
      + intros v Hv. rewrite fmap_cons, not_elem_of_cons in Hv. destruct Hv as [Hv1 Hv2]. rewrite decide_False by done. by apply I3.
  Qed.
End exec.

Section main.
  Context {K J W : Type} (endof : J -> Flow_model.ending) (pinned param : nat -> bool) (nv : nat).
  Hypothesis Hpin : forall v, pinned v = true -> v < nv.
  Context (bs : list (blk K J)) (from : list (list nat)) (sets : list Flow_model.sets).
  Hypothesis Hplain : plain endof nv bs.
  Hypothesis Hfrom_len : length from = length bs.
  Hypothesis Hfrom : forall a b, (exists f, from !! b = Some f /\ a ∈ f) <-> reach endof bs a /\ edge endof bs a b.
  Hypothesis Hsets_len : length sets = length bs.
  Hypothesis Hsets : forall b s, sets !! b = Some s ->
    (forall r, r ∈ Flow_model.ins s -> Flow_spec.live (flow endof bs) r b) /\
    (forall r, r ∈ Flow_model.outs s -> Flow_spec.live_out (flow endof bs) r b) /\
    (reach endof bs b -> (forall r, Flow_spec.live (flow endof bs) r b -> r ∈ Flow_model.ins s) /\
                         (forall r, Flow_spec.live_out (flow endof bs) r b -> r ∈ Flow_model.outs s)) /\
    StronglySorted lt (Flow_model.ins s) /\ StronglySorted lt (Flow_model.outs s).
  Hypothesis Hne : 0 < length bs.
  Context (D : gmap nat (@done K J)) (σ : st).
  Hypothesis V : vinv endof pinned param nv bs from sets [] σ D.
  Notation proc := (proc pinned nv bs from sets).
  Notation out_ver := (out_ver sets).
  Context (bs' : list (blk K J)).
  Hypothesis Hlen : length bs' = length bs.
  Hypothesis Hblk : forall b y, bs' !! b = Some y -> blk_ok pinned nv bs from sets D b y.

  Lemma dr b : reach endof bs b <-> is_Some (D !! b).
  Proof using All. eapply done_reach; done. Qed.
  (** A block that is reached, before and after. *)
  Definition facts b x y f d s σ0 μ0 σ1 μ1 : Prop :=
    bs !! b = Some x /\ bs' !! b = Some y /\ from !! b = Some f /\ D !! b = Some d /\ sets !! b = Some s /\
    proc D b d σ0 μ0 σ1 μ1 /\ inv nv σ0 /\ good nv σ0 μ0 /\ inv nv σ1 /\ good nv σ1 μ1 /\ ext σ0 σ1 /\
    assign pinned (irs x) σ0 μ0 = (irs y, σ1, μ1) /\ exit y = (fun e : J * list (Z + nat) => (e.1, ren pinned σ1 μ1 <$> e.2)) <$> exit x /\
    NoDup (pdst <$> phis y) /\ (forall p, p ∈ phis y -> pinned (pdst p) = false) /\
    match f with
    | [] => (forall x, μ0 x = x) /\ phis y = []
    | [a] => (forall x v, out_ver D a x v -> pinned x = false -> μ0 x = v) /\ phis y = []
    | _ => (forall x, Flow_spec.live (flow endof bs) x b -> pinned x = false -> μ0 x ∈ pdst <$> phis y) /\
           (forall p, p ∈ phis y -> exists x, pdst p = μ0 x /\ Flow_spec.live (flow endof bs) x b /\ pinned x = false /\
             forall k a, f !! k = Some a -> exists v, params p !! k = Some (inr v) /\ out_ver D a x v)
    end.
  Lemma proc_facts b d σ0 μ0 σ1 μ1 : reach endof bs b -> D !! b = Some d -> proc D b d σ0 μ0 σ1 μ1 -> exists x y f s, facts b x y f d s σ0 μ0 σ1 μ1.
  Proof using All.
    intros Hr Hd P. assert (Hl : exists x f s, bs !! b = Some x /\ from !! b = Some f /\ sets !! b = Some s) by (eapply reach_lookup; done).
    destruct Hl as (x & f & s & Hx & Hf & Hs).
    destruct (lookup_lt_is_Some_2 bs' b) as [y Hy]; [rewrite Hlen; by eapply lookup_lt_Some|].
    assert (Hax : ext σ0 σ1 /\ inv nv σ1 /\ good nv σ1 μ1).
    { destruct P as [(x2 & s2 & Hx2 & Hs2 & Ha & _) I G]. assert (Hb : below nv (irs x2)) by (eapply block_below; done).
      destruct (assign_ok pinned nv Hpin _ _ _ _ _ _ I G Hb Ha) as (A1 & A2 & A3 & _). done. }
    destruct Hax as (X0 & I1 & G1).
    exists x, y, f, s. split; [done|]. split; [done|]. split; [done|]. split; [done|]. split; [done|]. split; [done|].
    pose proof P as [(x' & s' & Hx' & Hs' & Ha & He & Ho & Hen) I0 G0]. assert (x' = x) as -> by congruence. assert (s' = s) as -> by congruence.
    split; [done|]. split; [done|]. split; [done|]. split; [done|]. split; [done|].
    destruct (Hblk b y Hy) as (x2 & f2 & Hx2 & Hf2 & Hie & Hp1 & Hp2). assert (x2 = x) as -> by congruence. assert (f2 = f) as -> by congruence.
    rewrite Hd in Hie. injection Hie as Hi Hex. split; [by rewrite Hi|]. split; [by rewrite Hex|].
    unfold entry_ok in Hen. rewrite Hf in Hen.
    destruct f as [|a1 [|a2 f]].
    - rewrite Hp1 by (cbn; lia). split; [constructor|]. split; [intros p H; by apply elem_of_nil in H|]. done.
    - rewrite Hp1 by (cbn; lia). split; [constructor|]. split; [intros p H; by apply elem_of_nil in H|]. split; [apply Hen|done].
    - destruct Hp2 as (d2 & s2 & Hd2 & Hs2 & Hperm & Hpar); [cbn; lia|]. assert (d2 = d) as -> by congruence. assert (s2 = s) as -> by congruence.
      destruct Hen as [Hen1 Hen2]. destruct (Hsets b s Hs) as (S1 & S2 & S3 & S4 & S5).
      split; [|split; [|split]].
      + rewrite Hperm. destruct (proj1 (vi_all _ _ _ _ _ _ _ _ _ _ V) b d Hd) as (_ & ? & ? & ? & ? & _ & _ & _ & [N _]).
        unfold dnames in N. rewrite Hf in N. by apply NoDup_app in N as (? & _).
      + intros p Hp. assert (Hpi : pdst p ∈ pdst <$> phis y) by (by apply elem_of_list_fmap_1). rewrite Hperm in Hpi. by apply elem_of_list_filter in Hpi as [? _].
      + intros z Hz Hpz. assert (Hzn : z < nv) by (eapply live_below; done). rewrite Hperm. apply elem_of_list_filter.
        split; [by eapply good_free|]. rewrite Hen1. apply elem_of_list_fmap. exists z. rewrite Hpz. split; [done|]. by apply S3.
      + intros p Hp. destruct (Hpar p Hp) as (z & Hz & Hpz & Hpd & Hk & _). exists z. split; [by eapply Hpd|]. split; [by apply S1|]. done.
  Qed.

  Lemma block_facts b : reach endof bs b -> exists x y f d s σ0 μ0 σ1 μ1, facts b x y f d s σ0 μ0 σ1 μ1.
  Proof using All.
    intros Hr. assert (Hd : is_Some (D !! b)) by (eapply done_reach; done). destruct Hd as [d Hd].
    assert (Hdp : exists σ0 μ0 σ1 μ1, proc D b d σ0 μ0 σ1 μ1 /\ ext σ0 σ1 /\ inv nv σ1 /\ good nv σ1 μ1 /\ ext σ1 σ) by (eapply done_proc; done).
    destruct Hdp as (σ0 & μ0 & σ1 & μ1 & P & _). destruct (proc_facts b d σ0 μ0 σ1 μ1 Hr Hd P) as (x & y & f & s & H). by exists x, y, f, d, s, σ0, μ0, σ1, μ1.
  Qed.

  Definition along (a : nat) (s s' : state W) : Prop := s'.2 = s.2 /\ forall x v, out_ver D a x v -> pinned x = false -> s'.1 v = s.1 x.
  Lemma live_read x b r : bs !! b = Some x -> Flow_spec.reads_first ((flow_ins <$> irs x) ++ flow_exit (exit x)) r -> Flow_spec.live (flow endof bs) r b.
  Proof using. intros Hx H. eapply Flow_spec.live_here; [by apply flow_lookup|]. done. Qed.
  Lemma reads_app l l' r : Flow_spec.reads_first l r -> Flow_spec.reads_first (l ++ l') r.
  Proof using. intros (pre & i & post & -> & H). exists pre, i, (post ++ l'). split; [by rewrite <- app_assoc|done]. Qed.
  Lemma reads_exit (l : list (ins K)) j lo r : r ∈ regs lo -> r ∉ omap dst l -> Flow_spec.reads_first ((flow_ins <$> l) ++ flow_exit (Some (j : J, lo))) r.
  Proof using.
    intros Hr Hn. exists (flow_ins <$> l), (Flow_model.Ir (regs lo) None), []. split; [done|]. split; [done|].
    intros i Hi E. apply elem_of_list_fmap in Hi as (i' & -> & Hi'). apply Hn. apply elem_of_list_omap. by exists i'.
  Qed.
  Lemma live_through x b r : bs !! b = Some x -> Flow_spec.live_out (flow endof bs) r b -> r ∉ omap dst (irs x) -> Flow_spec.live (flow endof bs) r b.
  Proof using.
    intros Hx (c & Hbc & Hl) Hn. eapply Flow_spec.live_later; [by apply flow_lookup| |done|done]. intros (i & Hi & E).
    cbn [flow_blk Flow_model.irs] in Hi. apply elem_of_app in Hi as [Hi|Hi].
    - apply elem_of_list_fmap in Hi as (i' & -> & Hi'). apply Hn, elem_of_list_omap. by exists i'.
    - destruct (exit x) as [[j l]|]; [|by apply elem_of_nil in Hi]. apply elem_of_list_singleton in Hi as ->. done.
  Qed.

  Lemma trace_same (M : machine K J W) index : jumps_as_said endof M -> (forall a b f, from !! b = Some f -> a ∈ f -> f !! index a b = Some a) ->
    forall n a b s s', reach endof bs b -> (b = 0 /\ s' = s) \/ (reach endof bs a /\ edge endof bs a b /\ along a s s') ->
    trace M pinned index n bs' a b s' = trace M pinned index n bs a b s.
  Proof using All.
    intros HJ Hidx. induction n as [|n IH]; intros a b s s' Hr Hin; [done|]. cbn [trace].
    destruct (block_facts b Hr) as (x & y & f & d & st & σ0 & μ0 & σ1 & μ1 & F). unfold facts in F.
    destruct F as (Hx & Hy & Hf & Hd & Hs & P & I0 & G0 & I1 & G1 & X & Ha & He & Hnd & Hnp & Hm).
    rewrite Hx, Hy.
    assert (Henter : rel pinned nv (fun r => Flow_spec.live (flow endof bs) r b) μ0 (enter M pinned (phis x) (index a b) s) (enter M pinned (phis y) (index a b) s')).
    { rewrite (plain_phis _ _ _ Hplain b x Hx). cbn [enter foldr].
      destruct (enter_ok M pinned (phis y) (index a b) s' Hnd Hnp) as (E1 & E2 & E3).
      assert (Hold : (b = 0 -> s' = s) -> rel pinned nv (fun r => Flow_spec.live (flow endof bs) r b) μ0 s (enter M pinned (phis y) (index a b) s')).
      2: { apply Hold. intros ->. destruct Hin as [[_ ->]|(_ & Hab & _)]; [done|]. by apply (plain_start _ _ _ Hplain) in Hab. }
      intros H0. destruct Hin as [[-> ->]|(Hra & Hab & Hw & Hal)].
      - assert (f = []) as -> by (eapply from_0; done). destruct Hm as [Hm ->]. split; [done|]. intros z _ _ _. by rewrite Hm.
      - split; [by rewrite E1|]. intros z Hz Hzn Hzp.
        assert (Haf : a ∈ f).
        { assert (Xe : exists f, from !! b = Some f /\ a ∈ f) by (by apply Hfrom). destruct Xe as (f2 & Hf2 & ?). congruence. }
        destruct f as [|a1 [|a2 f]].
        + by apply elem_of_nil in Haf.
        + apply elem_of_list_singleton in Haf as <-. destruct Hm as [Hm ->]. cbn [enter foldr].
          assert (Hv : exists v, out_ver D a z v) by (eapply has_ver; try done; by exists b). destruct Hv as [v Hv].
          rewrite (Hm z v Hv Hzp). by apply Hal.
        + destruct Hm as [Hm1 Hm2]. specialize (Hm1 z Hz Hzp). apply elem_of_list_fmap in Hm1 as (p & Hp1 & Hp2). rewrite Hp1. rewrite E2 by done.
          destruct (Hm2 p Hp2) as (z' & Hz' & Hlz' & Hpz' & Hk).
          assert (z' = z) as -> by (apply (good_inj nv σ0 μ0); try done; [eapply live_below; done|congruence]).
          destruct (Hk (index a b) a) as (v & Hv1 & Hv2); [by apply (Hidx a b (a1 :: a2 :: f))|]. rewrite Hv1. change (rd M pinned (inr v) s' = s.1 z). unfold rd.
          assert (Hda : exists da σa μa σa' μa', D !! a = Some da /\ proc D a da σa μa σa' μa' /\ ext σa σa' /\ inv nv σa' /\ good nv σa' μa').
          { assert (Hda : is_Some (D !! a)) by (eapply done_reach; done). destruct Hda as [da Hda].
            assert (Hdp : exists σ0 μ0 σ1 μ1, proc D a da σ0 μ0 σ1 μ1 /\ ext σ0 σ1 /\ inv nv σ1 /\ good nv σ1 μ1 /\ ext σ1 σ) by (eapply done_proc; done).
            destruct Hdp as (q1 & q2 & q3 & q4 & ? & ? & ? & ? & _). by exists da, q1, q2, q3, q4. }
          destruct Hda as (da & q1 & q2 & q3 & q4 & Hda & Pa & _ & Ia & Ga).
          assert (Hv : z < nv /\ v = (if pinned z then z else q4 z)) by (eapply is_ver; done). destruct Hv as [_ Hv]. rewrite Hzp in Hv.
          rewrite Hv. rewrite (good_free pinned nv Hpin q3 q4 z) by done. rewrite <- Hv. by apply Hal. }
    destruct (execs_ren M pinned nv Hpin (irs x) _ _ _ _ _ _ _ _ I0 G0 Henter ltac:(eapply block_below; done)
      ltac:(intros r Hrr; eapply live_read; [done|]; by apply reads_app) Ha) as [Ee Re].
    destruct (execs M pinned (irs x) (enter M pinned (phis x) (index a b) s)) as [es t] eqn:Et.
    destruct (execs M pinned (irs y) (enter M pinned (phis y) (index a b) s')) as [es' t'] eqn:Et'.
    cbn [fst snd] in Ee, Re. subst es'. f_equal.
    assert (Ec : match exit y with Some (j, l) => default (S b) (target M j ((fun o => rd M pinned o t') <$> l) t'.2) | None => S b end =
                 match exit x with Some (j, l) => default (S b) (target M j ((fun o => rd M pinned o t) <$> l) t.2) | None => S b end).
    { rewrite He. destruct (exit x) as [[j l]|] eqn:Eex; [|done]. cbn.
      rewrite (rds_ren M pinned nv Hpin _ σ1 μ1 l t t' I1 G1 Re); [destruct Re as [-> _]; done|].
      intros v Hv. split.
      - destruct (decide (v ∈ omap dst (irs x))) as [Hin'|Hni]; [by right|left]. eapply live_read; [done|]. rewrite Eex. by apply reads_exit.
      - apply (plain_regs _ _ _ Hplain b x); [done|]. unfold names, used. rewrite Eex, !elem_of_app. right. right. by right. }
    rewrite Ec. match goal with |- trace _ _ _ _ _ _ ?cc _ = _ => set (c := cc) in * end.
    assert (Hw : t'.2 = t.2) by apply Re.
    destruct (decide (c < length bs)) as [Hc|Hc].
    2: { destruct n as [|n]; [done|]. cbn [trace]. rewrite !(proj2 (lookup_ge_None _ _)) by lia. by rewrite Hw. }
    assert (Hbc : edge endof bs b c).
    { exists (flow_blk endof x). split; [by apply flow_lookup|]. split; [unfold flow; by rewrite fmap_length|]. cbn [flow_blk Flow_model.last].
      subst c. destruct (exit x) as [[j l]|]; [|done]. specialize (HJ j ((fun o => rd M pinned o t) <$> l) t.2).
      destruct (endof j) as [|u|u|us].
      - by rewrite HJ.
      - by rewrite HJ.
      - destruct HJ as [-> | ->]; [by left|by right].
      - destruct HJ as (u & Hu & ->). done. }
    apply IH.
    - by apply Flow_spec.reach_step with b.
    - right. split; [done|]. split; [done|]. split; [done|]. intros z v Hv Hzp.
      assert (Hvz : z < nv /\ v = (if pinned z then z else μ1 z)) by (eapply is_ver; done). destruct Hvz as [Hzn ->]. rewrite Hzp.
      destruct Re as [_ Re]. apply Re; [|done|done]. destruct (decide (z ∈ omap dst (irs x))) as [Hin'|Hni]; [by right|left].
      eapply live_through; [done| |done]. destruct Hv as (d2 & s2 & i & _ & Hs2 & Hi & _). apply (Hsets b s2 Hs2). by eapply elem_of_list_lookup_2.
  Qed.

  Lemma last_same b : Flow_model.last <$> flow endof bs' !! b = Flow_model.last <$> flow endof bs !! b.
  Proof using All.
    unfold flow. rewrite !list_lookup_fmap. destruct (bs' !! b) as [y|] eqn:Hy; cbn.
    - destruct (Hblk b y Hy) as (x & f & Hx & Hf & Hie & _). rewrite Hx. cbn. f_equal. destruct (D !! b) as [d|] eqn:Hd.
      + assert (Hdp : exists σ0 μ0 σ1 μ1, proc D b d σ0 μ0 σ1 μ1 /\ ext σ0 σ1 /\ inv nv σ1 /\ good nv σ1 μ1 /\ ext σ1 σ) by (eapply done_proc; done).
        destruct Hdp as (σ0 & μ0 & σ1 & μ1 & [(x2 & s2 & Hx2 & _ & _ & He & _) _ _] & _). injection Hie as _ ->. rewrite He.
        assert (x2 = x) as -> by congruence. by destruct (exit x) as [[j l]|].
      + injection Hie as _ ->. done.
    - apply lookup_ge_None in Hy. rewrite (proj2 (lookup_ge_None _ _)) by lia. done.
  Qed.
  Lemma edge_same a b : edge endof bs' a b <-> edge endof bs a b.
  Proof using All.
    unfold edge, Flow_spec.edge. pose proof (last_same a) as H.
    assert (Hl : length (flow endof bs') = length (flow endof bs)) by (unfold flow; by rewrite !fmap_length). rewrite Hl.
    split; intros (x & Hx & Hb & He); rewrite Hx in H; cbn in H.
    - destruct (flow endof bs !! a) as [x2|]; [|done]. injection H as H. exists x2. rewrite <- H. done.
    - destruct (flow endof bs' !! a) as [x2|]; [|done]. injection H as H. exists x2. rewrite H. done.
  Qed.
  Lemma reach_same b : reach endof bs' b <-> reach endof bs b.
  Proof using All.
    split; (induction 1 as [H|a b _ IH Hab]; [constructor; unfold flow in *; rewrite fmap_length in *; lia|]).
    - apply Flow_spec.reach_step with a; [done|]. by apply edge_same.
    - apply Flow_spec.reach_step with a; [done|]. by apply edge_same.
  Qed.
  Lemma index_same index : (forall a b f, from !! b = Some f -> a ∈ f -> f !! index a b = Some a) ->
    forall a b, reach endof bs a -> edge endof bs a b -> exists f, from !! b = Some f /\ f !! index a b = Some a.
  Proof using All.
    intros H a b Hr He. assert (X : exists f, from !! b = Some f /\ a ∈ f) by (by apply Hfrom). destruct X as (f & Hf & Ha). exists f. split; [done|]. by eapply H.
  Qed.

  (** Single assignment. *)
  Lemma filter_pos (P : nat -> bool) (l : list nat) : NoDup (filter (fun v => P v = false) l) -> forall p1 p2 v, P v = false ->
    l !! p1 = Some v -> l !! p2 = Some v -> p1 = p2.
  Proof using.
    clear. induction l as [|x l IH]; intros Hn p1 p2 v Hv H1 H2; [done|]. rewrite filter_cons in Hn.
    assert (Hin : forall p, l !! p = Some v -> v ∈ filter (fun v => P v = false) l) by (intros p Hp; apply elem_of_list_filter; split; [done|by eapply elem_of_list_lookup_2]).
    destruct p1 as [|p1], p2 as [|p2]; cbn in H1, H2; [done| | |].
    - injection H1 as ->. rewrite decide_True in Hn by done. apply NoDup_cons in Hn as [Hn _]. exfalso. by apply Hn, (Hin p2).
    - injection H2 as ->. rewrite decide_True in Hn by done. apply NoDup_cons in Hn as [Hn _]. exfalso. by apply Hn, (Hin p1).
    - f_equal. apply (IH ltac:(destruct (decide (P x = false)); [by apply NoDup_cons in Hn as [_ ?]|done]) p1 p2 v); done.
  Qed.
  Lemma dnames_defs b y : bs' !! b = Some y -> reach endof bs b -> exists d, D !! b = Some d /\ filter (fun v => pinned v = false) (defs y) ≡ₚ dnames pinned from b d.
  Proof using All.
    intros Hy Hr. assert (Hd : is_Some (D !! b)) by (eapply done_reach; done). destruct Hd as [d Hd]. exists d. split; [done|].
    destruct (Hblk b y Hy) as (x & f & Hx & Hf & Hie & Hp1 & Hp2). rewrite Hd in Hie. injection Hie as Hi _.
    unfold dnames, defs. rewrite Hf, filter_app, Hi. destruct f as [|a1 [|a2 f]].
    - rewrite Hp1 by (cbn; lia). done.
    - rewrite Hp1 by (cbn; lia). done.
    - destruct Hp2 as (d2 & s & Hd2 & _ & Hperm & Hp); [cbn; lia|]. assert (d2 = d) as -> by congruence. f_equiv. rewrite <- Hperm.
      rewrite Hperm. clear. induction (d_ins d) as [|v l IH]; [done|]. rewrite (filter_cons _ v l). case_decide as E; [|done].
      rewrite filter_cons, decide_True by done. by f_equiv.
  Qed.
  Lemma single (Hpar : forall v, param v = true -> v < nv) : unreached_empty endof bs -> assigned_once pinned param bs'.
  Proof using All.
    intros Hun. pose proof (vi_all _ _ _ _ _ _ _ _ _ _ V) as [V1 V2].
    assert (Hreach : forall b y v, bs' !! b = Some y -> v ∈ defs y -> reach endof bs b).
    { intros b y v Hy Hv. destruct (decide (is_Some (D !! b))) as [Hd|Hd]; [by apply dr|]. exfalso.
      assert (Hnr : ~ reach endof bs b) by (intros Hr; by apply Hd, dr).
      destruct (Hblk b y Hy) as (x & f & Hx & Hf & Hie & Hp1 & Hp2). apply eq_None_not_Some in Hd. rewrite Hd in Hie. injection Hie as Hi _.
      destruct (Hun b x Hx Hnr) as [Hi' _]. unfold defs in Hv. rewrite Hi, Hi' in Hv. rewrite Hp1 in Hv; [by apply elem_of_nil in Hv|].
      destruct f as [|a f]; [cbn; lia|]. exfalso. apply Hnr. assert (X : reach endof bs a /\ edge endof bs a b) by (apply Hfrom; exists (a :: f); split; [done|by left]).
      destruct X. by apply Flow_spec.reach_step with a. }
    split.
    - intros b1 x1 p1 b2 x2 p2 v H1 H2 Hp D1 D2.
      assert (R1 : reach endof bs b1) by (eapply Hreach; [done|by eapply elem_of_list_lookup_2]).
      assert (R2 : reach endof bs b2) by (eapply Hreach; [done|by eapply elem_of_list_lookup_2]).
      destruct (dnames_defs b1 x1 H1 R1) as (d1 & Hd1 & P1). destruct (dnames_defs b2 x2 H2 R2) as (d2 & Hd2 & P2).
      assert (I1 : v ∈ dnames pinned from b1 d1) by (rewrite <- P1; apply elem_of_list_filter; split; [done|by eapply elem_of_list_lookup_2]).
      assert (I2 : v ∈ dnames pinned from b2 d2) by (rewrite <- P2; apply elem_of_list_filter; split; [done|by eapply elem_of_list_lookup_2]).
      assert (b1 = b2) as <-.
      { destruct (decide (b1 = b2)) as [|Hn]; [done|]. exfalso. exact (V2 _ _ _ _ _ Hd1 Hd2 Hn I1 I2). }
      split; [done|]. assert (x2 = x1) as -> by congruence. apply (filter_pos pinned (defs x1)) with v; try done. rewrite P1.
      by destruct (V1 b1 d1 Hd1) as (_ & ? & ? & ? & ? & _ & _ & _ & [N _]).
    - intros b y v Hy Hv Hp. destruct (param v) eqn:Ep; [|done]. exfalso. pose proof (Hpar v Ep) as Hvn.
      assert (R : reach endof bs b) by (by eapply Hreach). destruct (dnames_defs b y Hy R) as (d & Hd & P).
      assert (I : v ∈ dnames pinned from b d) by (rewrite <- P; by apply elem_of_list_filter).
      destruct (V1 b d Hd) as (_ & ? & ? & ? & ? & _ & _ & _ & [_ N]). destruct (N v I) as [Hc|(_ & Hc & _)].
      + cbn in Hc. lia.
      + apply Hc. cbn [start vers]. apply elem_of_list_to_set, elem_of_list_filter. rewrite Ep, orb_true_r. split; [done|].
        apply elem_of_list_In, in_seq. lia.
  Qed.

  (** Every path assigns before. *)
  Lemma defs_plain b x v : bs !! b = Some x -> v ∈ defs x <-> v ∈ omap dst (irs x).
  Proof using Hplain. intros Hx. unfold defs. rewrite (plain_phis _ _ _ Hplain b x Hx). done. Qed.
  Lemma live_not_lacks index : initialised endof pinned param index bs -> forall r b, pinned r = false -> Flow_spec.live (flow endof bs) r b -> ~ lacks endof param bs r b.
  Proof using All.
    intros [H1 _] r b Hp. induction 1 as [a z Hz Hrd|a b z Hz Hna Hab Hl IH]; apply flow_lookup_inv in Hz as (x & Hx & ->).
    - apply (H1 a x r Hx Hp). split; [|done]. rewrite (plain_phis _ _ _ Hplain a x Hx). intros Hn. by apply elem_of_nil in Hn.
    - intros Hla. apply IH. eapply lacks_step; [done|done| |done]. rewrite (defs_plain a x) by done. intros Hv. apply Hna.
      apply elem_of_list_omap in Hv as (i & Hi & E). exists (flow_ins i). split; [|done]. cbn [flow_blk Flow_model.irs]. apply elem_of_app. left.
      by apply elem_of_list_fmap_1.
  Qed.
  Lemma lacks_reach v b : lacks endof param bs' v b -> reach endof bs b.
  Proof using All.
    intros H. apply reach_same. induction H as [|a b w Ha IH Hw _ Hab]; [constructor; unfold flow; rewrite fmap_length; lia|by apply Flow_spec.reach_step with a].
  Qed.
  Lemma lacks_old v b : lacks endof param bs' v b -> forall z d y σ0 μ0 σ1 μ1, Flow_spec.live (flow endof bs) z b -> pinned z = false -> D !! b = Some d -> proc D b d σ0 μ0 σ1 μ1 ->
    bs' !! b = Some y -> v = μ0 z -> v ∉ pdst <$> phis y -> lacks endof param bs z b.
  Proof using All.
    induction 1 as [Hp|a b w Ha IH Hw Hnd Hab]; intros z d y σ0 μ0 σ1 μ1 Hl Hpz Hd P Hy Hv Hn.
    - assert (Hr : reach endof bs 0) by (apply dr; by eexists).
      destruct (proc_facts 0 d σ0 μ0 σ1 μ1 Hr Hd P) as (x & y2 & f & s & F). unfold facts in F.
      destruct F as (Hx & Hy2 & Hf & _ & Hs & _ & I0 & G0 & I1 & G1 & X & Has & He & Hnd & Hnp & Hm).
      assert (f = []) as -> by (eapply from_0; done). destruct Hm as [Hm _]. rewrite Hm in Hv. subst v. by constructor.
    - assert (Hr : reach endof bs b) by (apply dr; by eexists).
      destruct (proc_facts b d σ0 μ0 σ1 μ1 Hr Hd P) as (x & y2 & f & s & F). unfold facts in F.
      destruct F as (Hx & Hy2 & Hf & _ & Hs & _ & I0 & G0 & I1 & G1 & X & Has & He & Hnd2 & Hnp & Hm). assert (y2 = y) as -> by congruence.
      apply edge_same in Hab.
      assert (Hra : reach endof bs a).
      { by eapply lacks_reach. }
      assert (Haf : a ∈ f).
      { assert (Xe : exists f, from !! b = Some f /\ a ∈ f) by (by apply Hfrom). destruct Xe as (f2 & Hf2 & ?). congruence. }
      destruct f as [|a1 [|a2 f]]; [by apply elem_of_nil in Haf| |].
      + apply elem_of_list_singleton in Haf as <-. destruct Hm as [Hm _].
        assert (Hlo : Flow_spec.live_out (flow endof bs) z a) by (by exists b).
        assert (Hov : exists u, out_ver D a z u) by (eapply has_ver; done). destruct Hov as [u Hu].
        destruct (block_facts a Hra) as (xa & ya & fa & da & sa & s0 & m0 & s1 & m1 & F). unfold facts in F.
        destruct F as (Hxa & Hya & Hfa & Hda & Hsa & Pa & I0a & G0a & I1a & G1a & Xa & Hasa & Hea & Hnda & Hnpa & Hma).
        assert (ya = w) as -> by congruence.
        assert (Huz : z < nv /\ u = (if pinned z then z else m1 z)) by (eapply is_ver; done). destruct Huz as [Hzn Huz]. rewrite Hpz in Huz.
        assert (Hvu : v = m1 z) by (rewrite Hv, (Hm z u Hu Hpz); done).
        assert (Hb : below nv (irs xa)) by (eapply block_below; done).
        destruct (assign_ok pinned nv Hpin _ _ _ _ _ _ I0a G0a Hb Hasa) as (_ & _ & _ & _ & A5 & A6).
        assert (Hzi : z ∉ omap dst (irs xa)).
        { intros Hzi. apply Hnd. unfold defs. apply elem_of_app. right. rewrite Hvu. by apply A6. }
        eapply lacks_step; [|done| |done].
        * apply (IH z da w s0 m0 s1 m1); try done.
          -- by eapply live_through.
          -- rewrite Hvu. by apply A5.
          -- intros Hin. apply Hnd. unfold defs. apply elem_of_app. by left.
        * by rewrite (defs_plain a xa).
      + destruct Hm as [Hm _]. exfalso. apply Hn. rewrite Hv. by apply Hm.
  Qed.
  Lemma reads_ren (l : list (ins K)) : forall σ0 μ0 l' σ1 μ1 r (e e' : list Flow_model.ir), inv nv σ0 -> good nv σ0 μ0 -> below nv l -> assign pinned l σ0 μ0 = (l', σ1, μ1) -> pinned r = false ->
    (Flow_spec.reads_first e' r -> exists z, Flow_spec.reads_first e z /\ pinned z = false /\ z < nv /\ μ1 z = r) ->
    Flow_spec.reads_first ((flow_ins <$> l') ++ e') r -> exists z, Flow_spec.reads_first ((flow_ins <$> l) ++ e) z /\ pinned z = false /\ z < nv /\ μ0 z = r.
  Proof using Hpin.
    induction l as [|i l IH]; intros σ0 μ0 l' σ1 μ1 r e e' I G Hb; cbn [assign].
    - intros [= <- <- <-] Hp H Hr. by apply H.
    - destruct (ren_dst pinned σ0 μ0 (dst i)) as [[dd σa] μa] eqn:Ed. destruct (assign pinned l σa μa) as [[l1 σb] μb] eqn:El.
      intros [= <- <- <-] Hp H Hr. rewrite fmap_cons in *. cbn [app] in *. apply Flow_proof.reads_cons in Hr.
      assert (Hds : forall v, dst i = Some v -> v < nv) by (intros v Hv; apply (Hb i v); [by left|by right]).
      destruct (ren_dst_ok pinned nv Hpin _ _ _ _ _ _ I G Hds Ed) as (Ia & Ga & _ & _ & H5).
      assert (Hop : r ∈ Flow_model.oprs (flow_ins (Ins (op i) (is_call i) dd (ren pinned σ0 μ0 <$> oprs i))) -> exists z, z ∈ regs (oprs i) /\ pinned z = false /\ z < nv /\ μ0 z = r).
      { cbn [flow_ins Flow_model.oprs oprs]. unfold regs at 1. intros Hin. apply elem_of_list_bind in Hin as (o & Ho & Ho').
        apply elem_of_list_fmap in Ho' as (o0 & -> & Ho0). destruct o0 as [zc|z]; [by apply elem_of_nil in Ho|]. cbn [ren] in Ho.
        assert (Hz : z ∈ regs (oprs i)) by (by apply regs_in). assert (Hzn : z < nv) by (apply (Hb i z); [by left|by left]).
        destruct (pinned z) eqn:Ez; apply elem_of_list_singleton in Ho as ->; [congruence|]. exists z. rewrite (orig_old nv) by done. done. }
      destruct Hr as [Hr|[Hr1 Hr2]].
      + destruct (Hop Hr) as (z & Hz & Hz1 & Hz2 & Hz3). exists z. split; [|done]. apply Flow_proof.reads_cons. by left.
      + destruct (IH σa μa l1 σb μb r e e' Ia Ga ltac:(intros j v Hj; apply Hb; by right) El Hp H Hr2) as (z & Hz & Hz1 & Hz2 & Hz3).
        exists z. cbn in Hr1. destruct (dst i) as [x|] eqn:Edi.
        * destruct (pinned x) eqn:Epx.
          -- destruct H5 as [-> ->]. split; [|done]. apply Flow_proof.reads_cons. right. split; [|done]. cbn. rewrite Edi. intros [= ->]. congruence.
          -- destruct H5 as (v & -> & Hpv & -> & Hnv). unfold upd in Hz3. case_decide as Ezx; [subst; congruence|].
             split; [|done]. apply Flow_proof.reads_cons. right. split; [|done]. cbn. rewrite Edi. congruence.
        * destruct H5 as [-> ->]. split; [|done]. apply Flow_proof.reads_cons. right. split; [|done]. cbn. by rewrite Edi.
  Qed.
  Lemma reads_one l o r : Flow_spec.reads_first [Flow_model.Ir l o] r <-> r ∈ l.
  Proof using. split; [intros H; apply Flow_proof.reads_cons in H as [H|[_ H]]; [done|by apply Flow_proof.reads_nil in H]|intros H; apply Flow_proof.reads_cons; by left]. Qed.
  Lemma keeps_initialised index : (forall a b f, from !! b = Some f -> a ∈ f -> f !! index a b = Some a) -> unreached_empty endof bs ->
    initialised endof pinned param index bs -> initialised endof pinned param index bs'.
  Proof using All.
    intros Hidx Hun Hin.
    split.
    - intros b y v Hy Hp [Hn Hrd] Hl. assert (Hr : reach endof bs b) by (by eapply lacks_reach).
      destruct (block_facts b Hr) as (x & y2 & f & d & s & σ0 & μ0 & σ1 & μ1 & F). unfold facts in F.
      destruct F as (Hx & Hy2 & Hf & Hd & Hs & P & I0 & G0 & I1 & G1 & X & Has & He & Hnd & Hnp & Hm). assert (y2 = y) as -> by congruence.
      cbn [flow_blk Flow_model.irs] in Hrd.
      destruct (reads_ren (irs x) σ0 μ0 (irs y) σ1 μ1 v (flow_exit (exit x)) (flow_exit (exit y)) I0 G0 ltac:(eapply block_below; done) Has Hp) as (z & Hz & Hz1 & Hz2 & Hz3).
      { rewrite He. destruct (exit x) as [[j l]|] eqn:Eex; cbn; [|intros Hc; by apply Flow_proof.reads_nil in Hc]. rewrite reads_one. unfold regs at 1.
        intros Hi. apply elem_of_list_bind in Hi as (o & Ho & Ho'). apply elem_of_list_fmap in Ho' as (o0 & -> & Ho0).
        destruct o0 as [zc|z]; [by apply elem_of_nil in Ho|]. cbn [ren] in Ho. assert (Hz : z ∈ regs l) by (by apply regs_in).
        assert (Hzn : z < nv). { apply (plain_regs _ _ _ Hplain b x); [done|]. unfold names, used. rewrite Eex, !elem_of_app. right. right. by right. }
        destruct (pinned z) eqn:Ez; apply elem_of_list_singleton in Ho as ->; [congruence|]. exists z. rewrite reads_one, (orig_old nv) by done. done. }
      { done. }
      assert (Hlive : Flow_spec.live (flow endof bs) z b) by (by eapply live_read).
      apply (live_not_lacks index Hin z b Hz1 Hlive). eapply lacks_old; [done|done|done|done|done|done|done|done].
    - intros a b xa y p v Hab Hra Hxa Hy Hp Hk Hpv Hl. apply edge_same in Hab. apply reach_same in Hra.
      assert (Hr : reach endof bs b) by (by apply Flow_spec.reach_step with a).
      destruct (index_same index Hidx a b Hra Hab) as (f2 & Hf2 & Hi).
      destruct (block_facts b Hr) as (x & y2 & f & d & s & σ0 & μ0 & σ1 & μ1 & F). unfold facts in F.
      destruct F as (Hx & Hy2 & Hf & Hd & Hs & P & I0 & G0 & I1 & G1 & X & Has & He & Hnd & Hnp & Hm). assert (y2 = y) as -> by congruence.
      assert (f2 = f) as -> by congruence.
      destruct f as [|a1 [|a2 f]]; [by destruct Hm as [_ Hm]; rewrite Hm in Hp; apply elem_of_nil in Hp..|].
      destruct Hm as [_ Hm]. destruct (Hm p Hp) as (z & Hz1 & Hz2 & Hz3 & Hz4). destruct (Hz4 _ _ Hi) as (u & Hu & Hov).
      assert (u = v) as -> by congruence.
      destruct (block_facts a Hra) as (x0 & y0 & fa & da & sa & s0 & m0 & s1 & m1 & F). unfold facts in F.
      destruct F as (Hxa0 & Hya & Hfa & Hda & Hsa & Pa & I0a & G0a & I1a & G1a & Xa & Hasa & Hea & Hnda & Hnpa & Hma). assert (y0 = xa) as -> by congruence.
      assert (Huz : z < nv /\ v = (if pinned z then z else m1 z)) by (eapply is_ver; done). destruct Huz as [Hzn Huz]. rewrite Hz3 in Huz.
      assert (Hb : below nv (irs x0)) by (eapply block_below; done).
      destruct (assign_ok pinned nv Hpin _ _ _ _ _ _ I0a G0a Hb Hasa) as (_ & _ & _ & _ & A5 & A6).
      destruct (decide (v ∈ defs xa)) as [|Hnv]; [done|]. exfalso.
      assert (Hzi : z ∉ omap dst (irs x0)).
      { intros Hzi. apply Hnv. unfold defs. apply elem_of_app. right. rewrite Huz. by apply A6. }
      apply (live_not_lacks index Hin z b Hz3 Hz2). eapply lacks_step; [|done| |done].
      + eapply lacks_old; [done| |done|done|done|done| |].
        * eapply live_through; [done| |done]. by exists b.
        * rewrite Huz. by apply A5.
        * intros Hin2. apply Hnv. unfold defs. apply elem_of_app. by left.
      + by rewrite (defs_plain a x0).
  Qed.

  (** The phis. *)
  Lemma phis_are b f y p : from !! b = Some f -> bs' !! b = Some y -> p ∈ phis y ->
    length (params p) = length f /\ pinned (pdst p) = false /\ forall v, inr v ∈ params p -> pinned v = false.
  Proof using All.
    intros Hf Hy Hp. destruct (Hblk b y Hy) as (x & f2 & Hx & Hf2 & _ & Hp1 & Hp2). assert (f2 = f) as -> by congruence.
    pose proof (plain_phis _ _ _ Hplain b x Hx) as Hpl. destruct (decide (2 <= length f)) as [H2|H2]; [|rewrite Hp1 in Hp by lia; by apply elem_of_nil in Hp].
    destruct (Hp2 H2) as (d & s & Hd & Hs & Hperm & Hpar). destruct (Hpar p Hp) as (z & Hz & Hpz & _ & Hk & Hl). split; [done|]. split.
    - assert (Hpi : pdst p ∈ pdst <$> phis y) by (by apply elem_of_list_fmap_1). rewrite Hperm in Hpi. by apply elem_of_list_filter in Hpi as [? _].
    - intros v Hv. apply elem_of_list_lookup in Hv as [k Hv]. destruct (lookup_lt_is_Some_2 f k) as [a Ha]; [rewrite <- Hl; by eapply lookup_lt_Some|].
      destruct (Hk k a Ha) as (v' & Hv' & Hov). assert (v' = v) as -> by congruence.
      assert (Hra : reach endof bs a) by (eapply Hfrom; exists f; split; [done|]; by eapply elem_of_list_lookup_2).
      destruct (block_facts a Hra) as (xa & ya & fa & da & sa & σ0 & μ0 & σ1 & μ1 & (_ & _ & _ & Hda & _ & P & _ & _ & I1 & G1 & _)).
      assert (Hver : z < nv /\ v = (if pinned z then z else μ1 z)) by (eapply is_ver; done).
      destruct Hver as [Hzn ->]. rewrite Hpz. by eapply good_free.
  Qed.
  Lemma phis_zero y : bs' !! 0 = Some y -> phis y = [].
  Proof using All.
    intros Hy. destruct (Hblk 0 y Hy) as (x & f & Hx & Hf & _ & Hp1 & _). apply Hp1. assert (f = []) as -> by (eapply from_0; done). cbn. lia.
  Qed.
End main.
