(** What each step keeps. *)
From stdpp Require Import base list numbers gmap.
From Verif Require Import Back.Unused_model Back.Unused_spec Back.Ssa_spec Back.Cprop_model Back.Cprop_spec Back.Cprop_inv_proof.
From Verif Require Back.Flow_model.
Local Open Scope nat_scope.

Section Step.
  Context {K J W : Type}.
  Context (endof : J -> Flow_model.ending) (pinned param : nat -> bool) (index : nat -> nat -> nat) (E : nat -> nat -> Prop).
  Context (M : machine K J W) (is_copy : K -> bool).
  Hypothesis Hjumps : jumps_as_said endof M.
  Hypothesis Hcopy : copies_as_said M is_copy.
  Implicit Types bs : list (blk K J).
  Notation good := (good pinned param index E). Notation lk := (lk param E). Notation lke := (lke param E).

  Definition leads (e : option (J * list (Z + nat))) (b c : nat) : Prop :=
    match e with
    | None => c = S b
    | Some (j, _) => match endof j with Flow_model.Falls => c = S b | Flow_model.Jump t => c = t | Flow_model.CJump t => c = t \/ c = S b | Flow_model.Table ts => c ∈ ts end
    end.
  Definition flw bs : Prop := forall b x c, rr E b -> bs !! b = Some x -> c < length bs -> leads (exit x) b c -> E b c.
  Lemma flw_dyn bs : flw bs -> dyn M pinned E bs.
  Proof using Hjumps.
    intros Hf b x s Hr Hb Hc. apply lookup_lt_is_Some in Hc. apply (Hf b x _ Hr Hb Hc). unfold nxt, leads. destruct (exit x) as [[j l]|]; [|done].
    pose proof (Hjumps j ((fun o => rd M pinned o s) <$> l) s.2) as Hj. destruct (endof j); cbn in Hj.
    - by rewrite Hj. - by rewrite Hj. - destruct Hj as [-> | ->]; [by left|by right]. - by destruct Hj as (t & Ht & ->).
  Qed.
  Lemma lk_mono bs bs' u b : (forall a, dfs bs' a u -> dfs bs a u) -> lk bs u b -> lk bs' u b.
  Proof using.
    intros H Hl. induction Hl as [|a b Hl IH Hn He]; [by constructor|]. apply lk_step with a; [done| |done]. intros Hd. by apply Hn, H.
  Qed.
  Lemma lke_mono bs bs' u b : (forall a, dfs bs' a u <-> dfs bs a u) -> lke bs u b -> lke bs' u b.
  Proof using. intros H [H1 H2]. split; [eapply lk_mono; [|done]; intros a; apply H|]. intros Hd. by apply H2, H. Qed.

  (** Copies of itself only occur where control never gets. *)
  Lemma no_self bs b0 d : good bs -> pinned d = false -> dfs bs b0 d ->
    (lk bs d b0 -> b0 = 0 \/ (exists a, E a b0 /\ lke bs d a) -> False) -> ~ rr E b0.
  Proof using.
    intros G Hd Hdf Hx. assert (Hall : forall b, rr E b -> lk bs d b /\ b <> b0).
    { intros b Hr. induction Hr as [|a b Hr IH He].
      - assert (Hl : lk bs d 0) by (constructor; by eapply (g_param _ _ _ _ _ G)). split; [done|]. intros <-. by apply Hx; [|left].
      - destruct IH as [I1 I2]. assert (Hle : lke bs d a) by (split; [done|]; intros Hda; by apply I2, (g_apart _ _ _ _ _ G a b0 d)).
        assert (Hl : lk bs d b) by (destruct Hle; by eapply lk_step). split; [done|]. intros ->. apply Hx; [done|]. right. by exists a. }
    intros Hr. by destruct (Hall b0 Hr).
  Qed.
  Lemma no_self_phi bs b x p : good bs -> rr E b -> bs !! b = Some x -> p ∈ phis x -> Forall (fun o => o = inr (pdst p)) (params p) -> False.
  Proof using.
    intros G Hr Hb Hp Hf. pose proof (proj1 (g_free _ _ _ _ _ G _ _ _ Hb Hp)) as Hpin.
    eapply (no_self bs b (pdst p)); [done|done| | |done].
    { exists x. split; [done|]. unfold defs. apply elem_of_app. left. apply elem_of_list_fmap. by exists p. }
    intros _ [H0|(a & He & Hl)].
    - subst b. rewrite (g_zero _ _ _ _ _ G _ Hb) in Hp. by apply elem_of_nil in Hp.
    - destruct (g_full _ _ _ _ _ G _ _ _ _ He Hb Hp) as [o Ho]. rewrite stdpp.list.Forall_forall in Hf. rewrite (Hf o) in Ho by (by eapply elem_of_list_lookup_2).
      by eapply (g_phi _ _ _ _ _ G).
  Qed.
  Lemma no_self_ins bs b x i d : good bs -> rr E b -> bs !! b = Some x -> i ∈ irs x -> dst i = Some d -> oprs i = [inr d] -> pinned d = false -> False.
  Proof using.
    intros G Hr Hb Hi Hdi Ho Hd. assert (Hin : dfs bs b d).
    { exists x. split; [done|]. unfold defs. apply elem_of_app. right. apply elem_of_list_omap. by exists i. }
    eapply (no_self bs b d); [done|done|done| |done]. intros Hl _. revert Hl. apply (g_read _ _ _ _ _ G b x d Hb Hd).
    apply elem_of_list_split in Hi as (pre & post & Hi). pose proof (g_nodup _ _ _ _ _ G _ _ Hb) as Hn. unfold defs in Hn. rewrite Hi in Hn.
    assert (Hin' : forall l, d ∈ l -> d ∈ filter (fun u => pinned u = false) l) by (intros l Hl; by apply elem_of_list_filter).
    rewrite omap_app in Hn. replace (omap dst (i :: post)) with ([d] ++ omap dst post) in Hn by (cbn; by rewrite Hdi). rewrite !filter_app in Hn.
    assert (Hmid : d ∈ filter (fun u => pinned u = false) [d]) by (apply Hin'; left).
    apply NoDup_app in Hn as (_ & Hn1 & Hn). apply NoDup_app in Hn as (_ & Hn2 & _). split.
    - intros H. eapply Hn1; [apply Hin', H|]. apply elem_of_app. right. apply elem_of_app. by left.
    - left. exists pre, i, post. split; [done|]. split; [rewrite Ho; left|]. intros H. eapply Hn2; [apply Hin', H|]. apply elem_of_app. by left.
  Qed.

  (** Every definition of [d] is the same one. *)
  Lemma only_mov bs b x i d v : good bs -> pinned d = false -> bs !! b = Some x -> i ∈ irs x -> dst i = Some d -> is_copy (op i) = true -> oprs i = [v] ->
    (forall b' x' p, bs !! b' = Some x' -> p ∈ phis x' -> pdst p = d -> Forall (fun o => o = v \/ o = inr d) (params p)) /\
    (forall b' x' i', bs !! b' = Some x' -> i' ∈ irs x' -> dst i' = Some d -> is_copy (op i') = true /\ oprs i' = [v]) /\ dfs bs b d.
  Proof using.
    intros G Hd Hb Hi Hdi Hc Ho. assert (Hin : dfs bs b d).
    { exists x. split; [done|]. unfold defs. apply elem_of_app. right. apply elem_of_list_omap. by exists i. }
    pose proof (g_nodup _ _ _ _ _ G _ _ Hb) as Hn. unfold defs in Hn. rewrite filter_app in Hn.
    assert (Hin' : forall l, d ∈ l -> d ∈ filter (fun u => pinned u = false) l) by (intros l Hl; by apply elem_of_list_filter).
    apply NoDup_app in Hn as (_ & Hn1 & Hn2). assert (Hdo : forall i', i' ∈ irs x -> dst i' = Some d -> d ∈ omap dst (irs x)) by (intros i' H1 H2; apply elem_of_list_omap; by exists i').
    split; [|split; [|done]].
    - intros b' x' p Hb' Hp Hpd. assert (b' = b) as ->. { apply (g_apart _ _ _ _ _ G b' b d Hd); [|done]. exists x'. split; [done|]. unfold defs. apply elem_of_app. left. apply elem_of_list_fmap. by exists p. }
      assert (x' = x) as -> by congruence. exfalso. eapply Hn1; [apply Hin'; apply elem_of_list_fmap; by exists p|]. apply Hin'. by eapply Hdo.
    - intros b' x' i' Hb' Hi' Hdi'. assert (b' = b) as ->. { apply (g_apart _ _ _ _ _ G b' b d Hd); [|done]. exists x'. split; [done|]. unfold defs. apply elem_of_app. right. apply elem_of_list_omap. by exists i'. }
      assert (x' = x) as -> by congruence. assert (i' = i) as ->; [|done].
      clear -Hn2 Hi Hi' Hdi Hdi' Hin'. revert Hn2 Hi Hi'. induction (irs x) as [|k l IH]; intros Hn Hi Hi'; [by apply elem_of_nil in Hi|].
      apply elem_of_cons in Hi as [Hi|Hi]; apply elem_of_cons in Hi' as [Hi'|Hi'].
      + congruence.
      + subst k. exfalso. cbn in Hn. rewrite Hdi in Hn. change (d :: _) with ([d] ++ omap dst l) in Hn. rewrite filter_app in Hn. apply NoDup_app in Hn as (_ & Hn & _). eapply Hn; [apply Hin'; left|]. apply Hin'. apply elem_of_list_omap. by exists i'.
      + subst k. exfalso. cbn in Hn. rewrite Hdi' in Hn. change (d :: _) with ([d] ++ omap dst l) in Hn. rewrite filter_app in Hn. apply NoDup_app in Hn as (_ & Hn & _). eapply Hn; [apply Hin'; left|]. apply Hin'. apply elem_of_list_omap. by exists i.
      + apply IH; [|done|done]. cbn in Hn. destruct (dst k) as [u|]; [|done]. rewrite filter_cons in Hn. destruct (decide _); [by apply NoDup_cons in Hn as [_ ?]|done].
  Qed.
  Lemma only_phi bs b x p d v : good bs -> bs !! b = Some x -> p ∈ phis x -> pdst p = d -> Forall (fun o => o = v \/ o = inr d) (params p) ->
    (forall b' x' p', bs !! b' = Some x' -> p' ∈ phis x' -> pdst p' = d -> Forall (fun o => o = v \/ o = inr d) (params p')) /\
    (forall b' x' i', bs !! b' = Some x' -> i' ∈ irs x' -> dst i' = Some d -> is_copy (op i') = true /\ oprs i' = [v]) /\ dfs bs b d.
  Proof using.
    intros G Hb Hp Hpd Hf. pose proof (proj1 (g_free _ _ _ _ _ G _ _ _ Hb Hp)) as Hd. rewrite Hpd in Hd. assert (Hin : dfs bs b d).
    { exists x. split; [done|]. unfold defs. apply elem_of_app. left. apply elem_of_list_fmap. by exists p. }
    pose proof (g_nodup _ _ _ _ _ G _ _ Hb) as Hn. unfold defs in Hn. rewrite filter_app in Hn.
    assert (Hin' : forall l, d ∈ l -> d ∈ filter (fun u => pinned u = false) l) by (intros l Hl; by apply elem_of_list_filter).
    apply NoDup_app in Hn as (Hn0 & Hn1 & Hn2).
    split; [|split; [|done]].
    - intros b' x' p' Hb' Hp' Hpd'. assert (b' = b) as ->. { apply (g_apart _ _ _ _ _ G b' b d Hd); [|done]. exists x'. split; [done|]. unfold defs. apply elem_of_app. left. apply elem_of_list_fmap. by exists p'. }
      assert (x' = x) as -> by congruence. assert (p' = p) as ->; [|done].
      clear -Hn0 Hp Hp' Hpd Hpd' Hin'. revert Hn0 Hp Hp'. induction (phis x) as [|k l IH]; intros Hn Hi Hi'; [by apply elem_of_nil in Hi|].
      rewrite fmap_cons in Hn.
      apply elem_of_cons in Hi as [Hi|Hi]; apply elem_of_cons in Hi' as [Hi'|Hi'].
      + congruence.
      + subst k. exfalso. rewrite Hpd in Hn. change (d :: _) with ([d] ++ (pdst <$> l)) in Hn. rewrite filter_app in Hn. apply NoDup_app in Hn as (_ & Hn & _). eapply Hn; [apply Hin'; left|]. apply Hin'. apply elem_of_list_fmap. by exists p'.
      + subst k. exfalso. rewrite Hpd' in Hn. change (d :: _) with ([d] ++ (pdst <$> l)) in Hn. rewrite filter_app in Hn. apply NoDup_app in Hn as (_ & Hn & _). eapply Hn; [apply Hin'; left|]. apply Hin'. apply elem_of_list_fmap. by exists p.
      + apply IH; [|done|done]. rewrite filter_cons in Hn. destruct (decide _); [by apply NoDup_cons in Hn as [_ ?]|done].
    - intros b' x' i' Hb' Hi' Hdi'. assert (b' = b) as ->. { apply (g_apart _ _ _ _ _ G b' b d Hd); [|done]. exists x'. split; [done|]. unfold defs. apply elem_of_app. right. apply elem_of_list_omap. by exists i'. }
      assert (x' = x) as -> by congruence. exfalso. eapply Hn1; [apply Hin'; apply elem_of_list_fmap; by exists p|]. apply Hin'. apply elem_of_list_omap. by exists i'.
  Qed.

  (** Only operands change. *)
  Lemma good_less bs bs' : length bs' = length bs ->
    (forall b x x', bs !! b = Some x -> bs' !! b = Some x' -> defs x' = defs x /\ phis x' = phis x /\ forall u, fr x' u -> fr x u) ->
    good bs -> good bs'.
  Proof using.
    intros Hlen Hx G. assert (Hget : forall b x', bs' !! b = Some x' -> exists x, bs !! b = Some x /\ defs x' = defs x /\ phis x' = phis x /\ forall u, fr x' u -> fr x u).
    { intros b x' Hb. destruct (lookup_lt_is_Some_2 bs b) as [x Hb']; [rewrite <- Hlen; by eapply lookup_lt_Some|]. exists x. split; [done|]. by eapply Hx. }
    assert (Hdf : forall a u, dfs bs' a u <-> dfs bs a u).
    { intros a u. split.
      - intros (x' & Hb & Hu). destruct (Hget _ _ Hb) as (x & Hb' & Hde & _). exists x. by rewrite <- Hde.
      - intros (x & Hb & Hu). destruct (lookup_lt_is_Some_2 bs' a) as [x' Hb']; [rewrite Hlen; by eapply lookup_lt_Some|]. exists x'. split; [done|]. by destruct (Hx _ _ _ Hb Hb') as [-> _]. }
    assert (Hlk : forall u b, lk bs' u b -> lk bs u b) by (intros u b; apply lk_mono; intros a; apply Hdf).
    split.
    - intros b x' Hb. destruct (Hget _ _ Hb) as (x & Hb' & -> & _). by eapply (g_nodup _ _ _ _ _ G).
    - intros b1 b2 u Hu H1 H2. apply Hdf in H1, H2. by eapply (g_apart _ _ _ _ _ G).
    - intros b u Hu H. apply Hdf in H. by eapply (g_param _ _ _ _ _ G).
    - intros b x' u Hb Hu Hf Hl. destruct (Hget _ _ Hb) as (x & Hb' & _ & _ & Hfr). eapply (g_read _ _ _ _ _ G b x u Hb' Hu); [by apply Hfr|by apply Hlk].
    - intros a b x' p u He Hb Hp Hpar Hl. destruct (Hget _ _ Hb) as (x & Hb' & _ & Hps & _). rewrite Hps in Hp. eapply (g_phi _ _ _ _ _ G a b x p u); [done|done|done|done|].
      eapply lke_mono; [|exact Hl]. intros c. symmetry. apply Hdf.
    - intros b x' p Hb Hp. destruct (Hget _ _ Hb) as (x & Hb' & _ & Hps & _). rewrite Hps in Hp. by eapply (g_free _ _ _ _ _ G).
    - intros a b x' p He Hb Hp. destruct (Hget _ _ Hb) as (x & Hb' & _ & Hps & _). rewrite Hps in Hp. by eapply (g_full _ _ _ _ _ G).
    - intros x' Hb. destruct (Hget _ _ Hb) as (x & Hb' & _ & Hps & _). rewrite Hps. by eapply (g_zero _ _ _ _ _ G).
  Qed.

  Lemma omap_sub d v (l : list (ins K)) : omap dst (sub_ins d v <$> l) = omap dst l.
  Proof using. induction l as [|i l IH]; [done|]. cbn. change (list_fmap _ _ (sub_ins d v) l) with (sub_ins d v <$> l). by rewrite IH. Qed.
  Lemma phis_sub d v (ps : list phi) : pdst <$> (sub_phi d v <$> ps) = pdst <$> ps.
  Proof using. induction ps as [|p l IH]; [done|]. cbn. f_equal. exact IH. Qed.
  Lemma defs_sub d v (x : blk K J) : defs (sub_blk d v x) = defs x.
  Proof using. unfold defs. cbn [phis irs sub_blk]. by rewrite omap_sub, phis_sub. Qed.
  Lemma regs_sub d v l u : v <> inr d -> u ∈ regs (sub d v <$> l) -> (u ∈ regs l /\ u <> d) \/ (v = inr u /\ d ∈ regs l).
  Proof using.
    intros Hne Hu. apply regs_in, elem_of_list_fmap in Hu as (o & Ho & Hin). unfold sub in Ho. destruct (decide (o = inr d)) as [->|Hd].
    - right. split; [done|]. by apply regs_in.
    - left. subst o. split; [by apply regs_in|]. congruence.
  Qed.

  Section Sub.
    Context (bs : list (blk K J)) (G : good bs) (d : nat) (v : Z + nat).
    Hypothesis Hd : pinned d = false.
    Hypothesis Hv : is_pinned pinned v = false.
    Hypothesis Hdv : v <> inr d.
    Hypothesis Hphi : forall b x p, bs !! b = Some x -> p ∈ phis x -> pdst p = d -> Forall (fun o => o = v \/ o = inr d) (params p).
    Hypothesis Hins : forall b x i, bs !! b = Some x -> i ∈ irs x -> dst i = Some d -> is_copy (op i) = true /\ oprs i = [v].
    Hypothesis Hdef : exists b, dfs bs b d.
    Lemma dfs_sub a u : dfs (sub_blk d v <$> bs) a u <-> dfs bs a u.
    Proof using.
      unfold dfs. split.
      - intros (x & Hx & Hu). rewrite list_lookup_fmap in Hx. destruct (bs !! a) as [y|]; [|done]. injection Hx as <-. rewrite defs_sub in Hu. by exists y.
      - intros (x & Hx & Hu). exists (sub_blk d v x). rewrite list_lookup_fmap, Hx. by rewrite defs_sub.
    Qed.
    Lemma good_sub : good (sub_blk d v <$> bs).
    Proof using All.
      assert (Hget : forall b x', (sub_blk d v <$> bs) !! b = Some x' -> exists x, bs !! b = Some x /\ x' = sub_blk d v x).
      { intros b x' Hb. rewrite list_lookup_fmap in Hb. destruct (bs !! b) as [x|]; [|done]. injection Hb as <-. by exists x. }
      assert (Hlk : forall u b, lk (sub_blk d v <$> bs) u b -> lk bs u b) by (intros u b; apply lk_mono; intros a; apply dfs_sub).
      assert (Hlke : forall u b, lke (sub_blk d v <$> bs) u b -> lke bs u b) by (intros u b; apply lke_mono; intros a; symmetry; apply dfs_sub).
      split.
      - intros b x' Hb. destruct (Hget _ _ Hb) as (x & Hb' & ->). rewrite defs_sub. by eapply (g_nodup _ _ _ _ _ G).
      - intros b1 b2 u Hu H1 H2. apply dfs_sub in H1, H2. by eapply (g_apart _ _ _ _ _ G).
      - intros b u Hu H. apply dfs_sub in H. by eapply (g_param _ _ _ _ _ G).
      - intros b x' u Hb Hu Hf Hl. destruct (Hget _ _ Hb) as (x & Hb' & ->). apply Hlk in Hl. destruct Hf as [Hf1 Hf2]. cbn [phis sub_blk] in Hf1. rewrite phis_sub in Hf1.
        (* a read of [d] where the copied register may be missing *)
        assert (Hbad : v = inr u -> forall pre post, irs x = pre ++ post -> u ∉ omap dst pre -> lk bs d b /\ d ∉ pdst <$> phis x /\ d ∉ omap dst pre).
        { intros Hvu pre post Hi Hn. destruct (lk_copy pinned param index E M is_copy Hcopy bs G d v Hd Hv Hdv Hphi Hins Hdef u b Hvu Hl) as [L1 L2].
          split; [done|]. split; [by apply L2|]. by eapply (not_dst_pre pinned param index E M is_copy Hcopy bs G d v Hd Hv Hdv Hphi Hins Hdef u b x pre post). }
        cbn [irs exit sub_blk] in Hf2. destruct Hf2 as [(pre & i & post & Hi & Hr & Hn)|(j & l & He & Hr & Hn)].
        + apply fmap_app_inv in Hi as (pre' & r' & -> & Hi2 & Hi). destruct r' as [|i' post']; [done|]. injection Hi2 as -> ->.
          rewrite omap_sub in Hn. cbn [oprs sub_ins] in Hr. destruct (regs_sub d v _ u Hdv Hr) as [[Hr' _]|[Hvu Hr']].
          * eapply (g_read _ _ _ _ _ G b x u Hb' Hu); [|done]. split; [done|]. left. by exists pre', i', post'.
          * destruct (Hbad Hvu pre' _ Hi Hn) as (L1 & L2 & L3). eapply (g_read _ _ _ _ _ G b x d Hb' Hd); [|done]. split; [done|]. left. by exists pre', i', post'.
        + rewrite omap_sub in Hn. destruct (exit x) as [[j' l']|] eqn:Ex; [|done]. injection He as -> <-. destruct (regs_sub d v _ u Hdv Hr) as [[Hr' _]|[Hvu Hr']].
          * eapply (g_read _ _ _ _ _ G b x u Hb' Hu); [|done]. split; [done|]. right. by exists j, l'.
          * destruct (Hbad Hvu (irs x) [] (eq_sym (app_nil_r _)) Hn) as (L1 & L2 & L3). eapply (g_read _ _ _ _ _ G b x d Hb' Hd); [|done]. split; [done|]. right. by exists j, l'.
      - intros a b x' p u He Hb Hp Hpar Hl. destruct (Hget _ _ Hb) as (x & Hb' & ->). apply Hlke in Hl. cbn [phis sub_blk] in Hp. apply elem_of_list_fmap in Hp as (q & -> & Hq).
        cbn [params sub_phi] in Hpar. rewrite list_lookup_fmap in Hpar. destruct (params q !! index a b) as [o|] eqn:Ho; [|done]. change (Some (sub d v o) = Some (inr u)) in Hpar. injection Hpar as Hpar.
        unfold sub in Hpar. destruct (decide (o = inr d)) as [->|Hne].
        + eapply (g_phi _ _ _ _ _ G a b x q d); [done|done|done|done|]. by eapply (lke_copy pinned param index E M is_copy Hcopy bs G d v Hd Hv Hdv Hphi Hins Hdef u a).
        + subst o. by eapply (g_phi _ _ _ _ _ G a b x q u).
      - intros b x' p Hb Hp. destruct (Hget _ _ Hb) as (x & Hb' & ->). cbn [phis sub_blk] in Hp. apply elem_of_list_fmap in Hp as (q & -> & Hq).
        destruct (g_free _ _ _ _ _ G b x q Hb' Hq) as [F1 F2]. split; [done|]. intros u Hu. cbn [params sub_phi] in Hu. apply regs_in in Hu.
        destruct (regs_sub d v _ u Hdv Hu) as [[Hr _]|[Hvu _]]; [apply F2; by apply regs_in|]. by rewrite Hvu in Hv.
      - intros a b x' p He Hb Hp. destruct (Hget _ _ Hb) as (x & Hb' & ->). cbn [phis sub_blk] in Hp. apply elem_of_list_fmap in Hp as (q & -> & Hq).
        cbn [params sub_phi]. rewrite list_lookup_fmap. destruct (g_full _ _ _ _ _ G a b x q He Hb' Hq) as [o ->]. by eexists.
      - intros x' Hb. destruct (Hget _ _ Hb) as (x & Hb' & ->). cbn [phis sub_blk]. by rewrite (g_zero _ _ _ _ _ G _ Hb').
    Qed.
  End Sub.

  Section One.
    Context (bs : list (blk K J)) (G : good bs) (d : nat) (v : Z + nat).
    Hypothesis Hd : pinned d = false.
    Hypothesis Hv : is_pinned pinned v = false.
    Hypothesis Hdv : v <> inr d.
    Hypothesis Hphi : forall b x p, bs !! b = Some x -> p ∈ phis x -> pdst p = d -> Forall (fun o => o = v \/ o = inr d) (params p).
    Hypothesis Hins : forall b x i, bs !! b = Some x -> i ∈ irs x -> dst i = Some d -> is_copy (op i) = true /\ oprs i = [v].
    Hypothesis Hdef : exists b, dfs bs b d.
    Context (mov : K) (b0 : nat) (x0 : blk K J) (ps1 ps2 : list phi) (p0 : phi).
    Hypothesis Hb0 : bs !! b0 = Some x0.
    Hypothesis Hps : phis x0 = ps1 ++ p0 :: ps2.
    Hypothesis Hp0 : pdst p0 = d.
    Notation y0 := (x0' d v mov x0 ps1 ps2).
    Lemma defs_one : defs y0 ≡ₚ defs x0.
    Proof using Hps Hp0.
      unfold defs. cbn [phis irs x0']. rewrite Hps, !fmap_app, fmap_cons. cbn. rewrite Hp0, <- !app_assoc. apply Permutation_app_head. symmetry. apply Permutation_middle.
    Qed.
    Lemma dfs_one a u : dfs (<[b0 := y0]> bs) a u <-> dfs bs a u.
    Proof using Hps Hp0 Hb0.
      pose proof (lookup_lt_Some _ _ _ Hb0) as Hl. unfold dfs. destruct (decide (a = b0)) as [->|Hne].
      - rewrite list_lookup_insert by done. split.
        + intros (x & Hx & Hu). injection Hx as <-. rewrite defs_one in Hu. by exists x0.
        + intros (x & Hx & Hu). assert (x = x0) as -> by congruence. exists y0. by rewrite defs_one.
      - by rewrite list_lookup_insert_ne.
    Qed.
    Lemma sub_phis p : p ∈ ps1 ++ ps2 -> p ∈ phis x0.
    Proof using Hps. rewrite Hps. intros Hp. apply elem_of_app in Hp as [Hp|Hp]; apply elem_of_app; [by left|right; by right]. Qed.
    Lemma good_one : good (<[b0 := y0]> bs).
    Proof using All.
      pose proof (lookup_lt_Some _ _ _ Hb0) as Hlt.
      assert (Hget : forall b x', <[b0 := y0]> bs !! b = Some x' -> (b = b0 /\ x' = y0) \/ (b <> b0 /\ bs !! b = Some x')).
      { intros b x' Hb. destruct (decide (b = b0)) as [->|Hne]; [rewrite list_lookup_insert in Hb by done; left; split; [done|congruence]|rewrite list_lookup_insert_ne in Hb by done; by right]. }
      assert (Hlk : forall u b, lk (<[b0 := y0]> bs) u b -> lk bs u b) by (intros u b; apply lk_mono; intros a; apply dfs_one).
      assert (Hlke : forall u b, lke (<[b0 := y0]> bs) u b -> lke bs u b) by (intros u b; apply lke_mono; intros a; symmetry; apply dfs_one).
      assert (Hin0 : p0 ∈ phis x0) by (rewrite Hps; apply elem_of_app; right; by left).
      split.
      - intros b x' Hb. destruct (Hget _ _ Hb) as [[-> ->]|[_ Hb']]; [rewrite defs_one|]; by eapply (g_nodup _ _ _ _ _ G).
      - intros b1 b2 u Hu H1 H2. apply dfs_one in H1, H2. by eapply (g_apart _ _ _ _ _ G).
      - intros b u Hu H. apply dfs_one in H. by eapply (g_param _ _ _ _ _ G).
      - intros b x' u Hb Hu Hf Hl. apply Hlk in Hl. destruct (Hget _ _ Hb) as [[-> ->]|[_ Hb']]; [|by eapply (g_read _ _ _ _ _ G b x' u)].
        destruct Hf as [Hf1 Hf2]. cbn [phis x0'] in Hf1.
        assert (Hrest : u <> d -> u ∉ pdst <$> phis x0).
        { intros Hne H. apply Hf1. rewrite Hps, fmap_app, fmap_cons in H. rewrite fmap_app. apply elem_of_app in H as [H|H]; apply elem_of_app; [by left|]. apply elem_of_cons in H as [H|H]; [congruence|by right]. }
        cbn [irs exit x0'] in Hf2. destruct Hf2 as [(pre & i & post & Hi & Hr & Hn)|(j & l & He & Hr & Hn)].
        + destruct pre as [|i' pre].
          * injection Hi as <- <-. cbn [oprs] in Hr. apply regs_in in Hr. apply elem_of_list_singleton in Hr as Hr. symmetry in Hr.
            destruct (lk_copy pinned param index E M is_copy Hcopy bs G d v Hd Hv Hdv Hphi Hins Hdef u b0 Hr Hl) as [_ L2].
            apply (L2 x0 Hb0). apply elem_of_list_fmap. by exists p0.
          * injection Hi as <- Hi. cbn in Hn. apply not_elem_of_cons in Hn as [Hn1 Hn2]. eapply (g_read _ _ _ _ _ G b0 x0 u Hb0 Hu); [|done]. split; [by apply Hrest|]. left. by exists pre, i, post.
        + cbn in Hn. apply not_elem_of_cons in Hn as [Hn1 Hn2]. eapply (g_read _ _ _ _ _ G b0 x0 u Hb0 Hu); [|done]. split; [by apply Hrest|]. right. by exists j, l.
      - intros a b x' p u He Hb Hp Hpar Hl. apply Hlke in Hl. destruct (Hget _ _ Hb) as [[-> ->]|[_ Hb']]; [|by eapply (g_phi _ _ _ _ _ G a b x' p u)].
        eapply (g_phi _ _ _ _ _ G a b0 x0 p u); [done|done|by apply sub_phis|done|done].
      - intros b x' p Hb Hp. destruct (Hget _ _ Hb) as [[-> ->]|[_ Hb']]; [|by eapply (g_free _ _ _ _ _ G)]. eapply (g_free _ _ _ _ _ G b0 x0); [done|by apply sub_phis].
      - intros a b x' p He Hb Hp. destruct (Hget _ _ Hb) as [[-> ->]|[_ Hb']]; [|by eapply (g_full _ _ _ _ _ G)]. eapply (g_full _ _ _ _ _ G a b0 x0); [done|done|by apply sub_phis].
      - intros x' Hb. destruct (Hget _ _ Hb) as [[H1 ->]|[_ Hb']]; [|by eapply (g_zero _ _ _ _ _ G)]. subst b0. rewrite (g_zero _ _ _ _ _ G _ Hb0) in Hps. by destruct ps1.
    Qed.
  End One.
End Step.
