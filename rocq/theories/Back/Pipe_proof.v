(** Proofs about the passes in turn. *)
From stdpp Require Import base list numbers gmap.
From Verif Require Import Back.Unused_model Back.Unused_spec Back.Unused_proof Back.Ssa_model Back.Ssa_spec Back.Ssa_all_proof Back.Cprop_model Back.Cprop_spec Back.Cprop_all_proof Back.Unphi_model Back.Unphi_spec Back.Unphi_more_proof Back.Pipe_model Back.Pipe_spec Back.Pipe_clear_proof Back.Pipe_keep_proof.
From Verif Require Back.Flow_model Back.Flow_spec Back.Flow_live_proof.
Local Open Scope nat_scope.

Lemma free_jumps {K C W} (M : machine K (jmp C) W) inv : labels_free M inv -> jumps_as_said ends M.
Proof.
  intros (H1 & (holds & H2 & _) & (pick & H3) & H4) j l w. destruct j as [t|c t|[|t ts]]; cbn [ends]; [apply H1| |apply H4|].
  - rewrite H2. destruct (holds c l w); [by left|by right].
  - destruct (H3 (t :: ts) l w) as [Hl ->]; [done|]. apply lookup_lt_is_Some_2 in Hl as [u Hu]. exists u. split; [by eapply elem_of_list_lookup_2|done].
Qed.
Lemma names_phi {K J} (x : blk K J) p v : p ∈ phis x -> pdst p = v \/ inr v ∈ params p -> v ∈ names x.
Proof.
  intros Hp [<-|Hv]; unfold names, defs, used; rewrite !elem_of_app, !elem_of_list_bind.
  - left. left. apply elem_of_list_fmap. by exists p.
  - right. left. exists p. split; [by apply in_regs|done].
Qed.
Lemma names_ins {K J} (x : blk K J) i v : i ∈ irs x -> dst i = Some v \/ inr v ∈ oprs i -> v ∈ names x.
Proof.
  intros Hi [Hv|Hv]; unfold names, defs, used; rewrite !elem_of_app, !elem_of_list_bind.
  - left. right. apply elem_of_list_omap. by exists i.
  - right. right. left. exists i. split; [by apply in_regs|done].
Qed.
Lemma names_exit {K J} (x : blk K J) j l v : exit x = Some (j, l) -> inr v ∈ l -> v ∈ names x.
Proof. intros He Hv. unfold names, defs, used. rewrite !elem_of_app, He. right. right. right. by apply in_regs. Qed.
Lemma sub_in d v (l : list (Z + nat)) u : inr u ∈ sub d v <$> l -> inr u ∈ l \/ v = inr u.
Proof. intros H. apply elem_of_list_fmap in H as (o & E & Ho). unfold sub in E. case_decide; [by right|by left; subst]. Qed.

Section Pipe.
  Context {K C W : Type} (M : machine K (jmp C) W) (mov : K) (is_copy : K -> bool) (fold_ins : ins K -> ins K) (fold_exit : jmp C -> list (Z + nat) -> option (jmp C * list (Z + nat))) (inv : C -> C).
  Context (pinned param keep : nat -> bool) (nv : nat) (bs : list (blk K (jmp C))) (index : nat -> nat -> nat).
  Hypothesis HL : labels_free M inv.
  Hypothesis Hcopies : copies_as_said M is_copy.
  Hypothesis Hmov : is_copy mov = true.
  Hypothesis Hfi : folds_ins M pinned fold_ins.
  Hypothesis Hfc : forall i, is_call (fold_ins i) = is_call i.
  Hypothesis Hfe : folds_exit ends M pinned fold_exit.
  Hypothesis Hplain : plain ends nv bs.
  Hypothesis Hne : bs <> [].
  Hypothesis Hends : ends_plainly bs.
  Hypothesis Hpin : forall v, pinned v = true -> keep v = true.
  Hypothesis Hparam : forall v, param v = true -> v < nv.
  Hypothesis Hkeep : forall v, keep v = true -> v < nv.
  Hypothesis Heff : effects_plain M bs.
  Hypothesis Hidx : index_ok ends bs index.
  Hypothesis Hini : initialised ends pinned param index bs.

  Lemma seen_fold i (w : W) : seen M (op (fold_ins i)) = seen M (op i).
  Proof using Hfi.
    destruct (Hfi i) as (_ & _ & H). specialize (H (fun _ => 0%Z, w)). unfold exec in H.
    destruct (act M (op (fold_ins i)) _ _) as [x1 w1]. destruct (act M (op i) _ _) as [x2 w2]. injection H as H _. by destruct (seen M (op (fold_ins i))), (seen M (op i)).
  Qed.

  Section Stages.
    Context (from : list (list nat)) (bs1 bs2 : list (blk K (jmp C))) (nv' : nat).
    Hypothesis Hfrom : Flow_model.detect_from_bbs (flow ends bs) = Some from.
    Hypothesis H1 : make_ssa ends pinned param nv (clear from bs) = Some bs1.
    Hypothesis H2 : copy_propagation mov is_copy fold_ins fold_exit pinned from bs1 = Some bs2.
    Hypothesis Hnv : nv <= nv'.
    Hypothesis Hnum : numbered nv' bs1.

    Lemma pinned_lt v : pinned v = true -> v < nv. Proof using Hpin Hkeep. clear -Hpin Hkeep. intros H. by apply Hkeep, Hpin. Qed.
    Lemma plain0 : plain ends nv (clear from bs). Proof using Hplain Hfrom. by apply clear_plain. Qed.
    Lemma from0 : Flow_model.detect_from_bbs (flow ends (clear from bs)) = Some from. Proof using Hplain Hfrom. by eapply clear_from. Qed.
    Lemma index0 : index_ok ends (clear from bs) index.
    Proof using Hplain Hfrom Hidx. destruct Hidx as (f & Hf & H). exists f. rewrite from0. assert (f = from) as -> by congruence. done. Qed.
    Lemma index_at a b f : from !! b = Some f -> a ∈ f -> f !! index a b = Some a.
    Proof using Hfrom Hidx. destruct Hidx as (f' & Hf & H). assert (f' = from) as -> by congruence. apply H. Qed.
    Lemma akin1 b y : bs1 !! b = Some y -> exists x f, clear from bs !! b = Some x /\ from !! b = Some f /\ akin f x y.
    Proof using Hplain Hfrom H1 Hpin Hkeep. intros Hy. by apply (ssa_akin ends pinned param nv (clear from bs) bs1 from plain0 pinned_lt H1 from0). Qed.
    Lemma full1 : preds_of ends bs1 from /\ phis_full pinned from bs1.
    Proof using Hplain Hfrom H1 Hpin Hkeep. eapply ssa_phis; [exact plain0|exact pinned_lt|exact H1|exact from0]. Qed.
    Lemma form1 : assigned_once pinned param bs1 /\ initialised ends pinned param index bs1.
    Proof using Hplain Hne Hparam Hfrom H1 Hpin Hkeep Hidx Hini.
      split; [eapply ssa_single; [exact plain0|exact pinned_lt|done|by apply clear_unreached with nv|exact H1]|].
      eapply ssa_initialised; [exact plain0|exact pinned_lt|by apply clear_unreached with nv|exact index0|exact H1|by apply clear_init with nv].
    Qed.
    Lemma trace1 n a s : trace M pinned index n bs1 a 0 s = trace M pinned index n bs a 0 s.
    Proof using HL Hplain Hne Hfrom H1 Hpin Hkeep Hidx.
      pose proof (free_jumps M inv HL) as HJ. rewrite (ssa_same ends pinned param nv (clear from bs) bs1 plain0 pinned_lt H1 W M index n a s HJ index0).
      eapply clear_trace; [exact Hplain|exact Hfrom|exact HJ|]. left. constructor. rewrite flow_len. clear -Hne. destruct bs; [done|cbn; lia].
    Qed.
    Lemma stage2 : (length bs2 = length bs1 /\ forall n a s, trace M pinned index n bs2 a 0 s = trace M pinned index n bs1 a 0 s) /\
      assigned_once pinned param bs2 /\ initialised ends pinned param index bs2.
    Proof using All.
      clear Hnum Hnv. pose proof (free_jumps M inv HL) as HJ. destruct full1 as [F1 F2]. destruct form1 as [F3 F4].
      split; [eapply copy_same|eapply copy_form]; eauto using index_at.
    Qed.
    (** What holds for phis, instructions and jumps after propagation. *)
    Definition Q (b : nat) (p : phi) : Prop := (pdst p < nv' /\ forall v, inr v ∈ params p -> v < nv') /\ with_phis from b = true /\
      exists f, from !! b = Some f /\ (length (params p) = length f /\ pinned (pdst p) = false /\ forall v, inr v ∈ params p -> pinned v = false) /\
      forall i k a, f !! i = Some a -> f !! k = Some a -> params p !! i = params p !! k.
    Definition P (i : ins K) : Prop := (forall v, dst i = Some v \/ inr v ∈ oprs i -> v < nv') /\ (W -> seen M (op i) = true -> dst i = None \/ is_call i = true).
    Definition E (l : list (Z + nat)) : Prop := forall v, inr v ∈ l -> v < nv'.
    Definition ok (v : Z + nat) : Prop := forall u, v = inr u -> u < nv' /\ pinned u = false.
    Lemma inv1 : all_inv Q P E bs1.
    Proof using Hplain Hfrom H1 Hpin Hkeep Hnum Heff Hne.
      intros b y Hy. destruct (akin1 b y Hy) as (x & f & Hx & Hf & A1 & A2 & A3 & A4). destruct full1 as [_ [F1 F2]]. split; [|split].
      - intros p Hp. split; [|split].
        + split; [eapply (Hnum b y); [done|]; eapply names_phi; [done|by left]|]. intros v Hv. eapply (Hnum b y); [done|]. eapply names_phi; [done|by right].
        + unfold with_phis. apply bool_decide_true. rewrite Hf. cbn. split; [intros E0; rewrite E0 in Hy; rewrite (F2 y Hy) in Hp; by apply elem_of_nil in Hp|].
          destruct (le_lt_dec 2 (length f)) as [|Hlt]; [done|]. rewrite (A2 Hlt) in Hp. by apply elem_of_nil in Hp.
        + exists f. split; [done|]. split; [by apply (F1 b f y p)|]. intros i k a. by apply A3.
      - intros i Hi. split; [intros v Hv; eapply (Hnum b y); [done|]; by eapply names_ins|]. intros _ Hs. destruct (A4 i Hi) as (j & Hj & Eo & Ec & Ed). rewrite Eo in Hs. rewrite Ec.
        assert (Hx' : x ∈ clear from bs) by (by eapply elem_of_list_lookup_2).
        destruct (clear_effects bs nv from Hplain Hfrom M Heff x j Hx' Hj Hs) as [Hd|Hd]; [left; by apply Ed|by right].
      - intros j l He v Hv. eapply (Hnum b y); [done|]. by eapply names_exit.
    Qed.
    Lemma inv2 : all_inv Q P E bs2.
    Proof using All.
      eapply (propagation_inv mov is_copy fold_ins fold_exit pinned Q P E ok); [| | | | | | |exact H2|exact inv1].
      - intros b p d v Hv ((Q1 & Q2) & Q3 & f & Q4 & (Q5 & Q6 & Q7) & Q8). split; [split; [done|]; intros u Hu; cbn in Hu; apply sub_in in Hu as [Hu|Hu]; [by apply Q2|by apply (Hv u)]|].
        split; [done|]. exists f. split; [done|]. split; [split; [cbn; by rewrite fmap_length|]; split; [done|]; intros u Hu; cbn in Hu; apply sub_in in Hu as [Hu|Hu]; [by apply Q7|by apply (Hv u)]|].
        intros i k a Hi Hk. cbn. rewrite !list_lookup_fmap. by rewrite (Q8 i k a).
      - intros i d v Hv (P1 & P2). split; [|done]. intros u [Hu|Hu]; cbn in Hu; [apply P1; by left|]. apply sub_in in Hu as [Hu|Hu]; [apply P1; by right|by apply (Hv u)].
      - intros l d v Hv He u Hu. apply sub_in in Hu as [Hu|Hu]; [by apply He|by apply (Hv u)].
      - intros i (P1 & P2). destruct (Hfi i) as (F1 & F2 & _). split.
        + intros v [Hv|Hv]; [apply P1; left; by rewrite <- F1|]. apply P1. right. apply in_regs, F2, in_regs. done.
        + intros w Hs. rewrite (seen_fold i w) in Hs. rewrite Hfc, F1. by apply P2.
      - intros j l j' l' He Hf v Hv. destruct (Hfe j l) as (_ & F & _). apply He, in_regs, (F v j' l' Hf), in_regs, Hv.
      - intros b p v rest ((Q1 & Q2) & _) Hp. split; [|intros _; cbn; by rewrite (proj1 (Hcopies mov Hmov))]. intros u [[= <-]|Hu]; [done|]. cbn in Hu. apply elem_of_list_singleton in Hu as <-.
        apply Q2. rewrite Hp. by left.
      - intros i d v (P1 & _) Hd Ho Hp u E0. rewrite E0 in *. split; [|done]. apply P1. right. rewrite Ho. by left.
    Qed.
    Lemma len2 : length bs2 = length bs.
    Proof using All. destruct stage2 as [[-> _] _]. destruct (ssa_akin ends pinned param nv (clear from bs) bs1 from plain0 pinned_lt H1 from0) as [-> _]. apply clear_len. Qed.

    Lemma stage3 : exists bs3, remove_unused_vregs keep (replicate nv' true) bs2 = Some bs3 /\ forall n a s, trace M pinned index n bs3 a 0 s = trace M pinned index n bs a 0 s.
    Proof using All.
      destruct (unused_same K (jmp C) keep (replicate nv' true) bs2) as (bs3 & E3 & H3).
      { intros v Hv. apply lookup_replicate. split; [done|]. apply Hkeep in Hv. lia. }
      exists bs3. split; [done|]. intros n a s. rewrite <- (H3 W M pinned).
      - destruct stage2 as [[_ ->] _]. apply trace1.
      - intros x i Hx Hi Hs. apply elem_of_list_lookup in Hx as [b Hx]. destruct (inv2 b x Hx) as (_ & I & _). destruct (I i Hi) as [_ I2]. by apply (I2 s.2).
      - exact Hpin.
    Qed.
    Section Resolve.
      Context (bs3 : list (blk K (jmp C))).
      Hypothesis H3 : remove_unused_vregs keep (replicate nv' true) bs2 = Some bs3.
      Hypothesis Hkept : kept (clear from bs) bs2.
      Lemma len3 : length bs3 = length bs. Proof using All. destruct (unused_less keep _ _ _ H3) as [-> _]. apply len2. Qed.
      Lemma less3 b y : bs3 !! b = Some y -> exists x z, clear from bs !! b = Some x /\ bs2 !! b = Some z /\ less z y /\
        match exit x, exit y with None, None => True | Some (j, _), Some (j', _) => ends j' = ends j | _, _ => False end.
      Proof using All.
        intros Hy. destruct (unused_less keep _ _ _ H3) as [_ H]. destruct (H b y Hy) as (z & Hz & Hl). destruct (lookup_lt_is_Some_2 (clear from bs) b) as [x Hx].
        { rewrite clear_len, <- len3. by eapply lookup_lt_Some. }
        exists x, z. split; [done|]. split; [done|]. split; [done|]. pose proof (Hkept b x z Hx Hz) as Hk. destruct Hl as (_ & _ & ->). done.
      Qed.
      Lemma last3 b u v : flow ends (clear from bs) !! b = Some u -> flow ends bs3 !! b = Some v -> Flow_model.last v = Flow_model.last u.
      Proof using All.
        rewrite !flow_at. destruct (bs3 !! b) as [y|] eqn:Ey; [|done]. destruct (less3 b y Ey) as (x & z & -> & _ & _ & Hk). intros [= <-] [= <-]. cbn.
        by destruct (exit x) as [[j l]|], (exit y) as [[j' l']|].
      Qed.
      Lemma edge3 a b : edge ends bs3 a b -> edge ends (clear from bs) a b.
      Proof using All.
        intros (v & Hv & Hb & He). rewrite flow_len, len3 in Hb. destruct (lookup_lt_is_Some_2 (flow ends (clear from bs)) a) as [u Hu].
        { apply lookup_lt_Some in Hv. rewrite flow_len in *. rewrite clear_len, <- len3. done. }
        exists u. split; [done|]. rewrite flow_len, clear_len. rewrite (last3 a u v Hu Hv) in He. done.
      Qed.
      Lemma prepared3 : prepared pinned (with_phis from) nv' bs3 from.
      Proof using All.
        pose proof plain0 as P0. pose proof (clear_ends bs nv from Hplain Hfrom Hends) as [Z1 Z2].
        assert (HQ : forall b y p, bs3 !! b = Some y -> p ∈ phis y -> Q b p).
        { intros b y p Hy Hp. destruct (less3 b y Hy) as (x & z & _ & Hz & [[L1 _] _] & _). apply (proj1 (inv2 b z Hz)). by apply L1. }
        split.
        - intros E3. pose proof len3 as Hl. rewrite E3 in Hl. clear -Hl Hne. by destruct bs.
        - intros a v Hv. destruct (lookup_lt_is_Some_2 (flow ends (clear from bs)) a) as [u Hu].
          { apply lookup_lt_Some in Hv. rewrite flow_len in *. rewrite clear_len, <- len3. done. }
          rewrite (last3 a u v Hu Hv). pose proof (plain_jumps _ _ _ P0 a u Hu) as H. rewrite flow_len, clear_len in H. by rewrite flow_len, len3.
        - intros a He. apply edge3 in He. by eapply plain_start.
        - assert (Hwf : Flow_spec.wf (flow ends bs3)).
          { intros a v Hv. destruct (lookup_lt_is_Some_2 (flow ends (clear from bs)) a) as [u Hu].
            { apply lookup_lt_Some in Hv. rewrite flow_len in *. rewrite clear_len, <- len3. done. }
            rewrite (last3 a u v Hu Hv). pose proof (plain_jumps _ _ _ P0 a u Hu) as H. rewrite flow_len, clear_len in H. by rewrite flow_len, len3. }
          destruct (Flow_live_proof.predecessors_ok _ Hwf) as (f & Ef & _). rewrite Ef. f_equal.
          eapply (detects_agree (flow ends (clear from bs)) (flow ends bs3)); [by eapply plain_jumps|by rewrite !flow_len, clear_len, len3| |exact from0|done].
          intros i u v _. apply last3.
        - split.
          + intros b y ts l Hy He. destruct (less3 b y Hy) as (x & z & Hx & _ & _ & Hk). rewrite He in Hk. destruct (exit x) as [[j l0]|] eqn:Ej; [|done]. intros E0. rewrite E0 in Hk. cbn in Hk.
            destruct j as [t|c t|[|t ts0]]; try done. by apply (Z1 b x [] l0 Hx Ej).
          + intros b y j l Hy Hb He. destruct (less3 b y Hy) as (x & z & Hx & _ & _ & Hk). rewrite He in Hk. destruct (exit x) as [[j0 l0]|] eqn:Ej; [|done].
            destruct (Z2 b x j0 l0 Hx) as [t Et]; [by rewrite clear_len, <- len3|done|]. rewrite Et in Hk. cbn in Hk. exists t. destruct j as [t'|c t'|[|t' ts0]]; cbn in Hk; congruence.
        - split.
          + intros b f y p Hf Hy Hp. destruct (HQ b y p Hy Hp) as (_ & _ & f' & Hf' & Hq & _). assert (f' = f) as E0 by congruence. by rewrite E0 in Hq.
          + intros y Hy. destruct (phis y) as [|p ps] eqn:Ep; [done|]. destruct (HQ 0 y p Hy) as (_ & Hw & _); [rewrite Ep; by left|]. unfold with_phis in Hw. apply bool_decide_eq_true in Hw as [? _]. done.
        - intros b f y p i k a Hf Hy Hp. destruct (HQ b y p Hy Hp) as (_ & _ & f' & Hf' & _ & Hq). assert (f' = f) as E0 by congruence. rewrite E0 in Hq. apply Hq.
        - split; [|split; [|split]].
          + intros b y Hy. destruct (less3 b y Hy) as (x & z & _ & Hz & [[_ L2] _] & _). apply L2. destruct stage2 as (_ & [O1 _] & _).
            destruct (inv2 b z Hz) as (Iq & _). clear -O1 Hz Iq. apply NoDup_alt. intros i k d Hi Hk.
            assert (Hd : pinned d = false). { rewrite list_lookup_fmap in Hi. destruct (phis z !! i) as [p|] eqn:Ep; [|done]. injection Hi as <-. apply elem_of_list_lookup_2 in Ep. by destruct (Iq p Ep) as (_ & _ & f & _ & (_ & ? & _) & _). }
            destruct (O1 b z i b z k d Hz Hz Hd) as [_ ?]; [unfold defs; by apply lookup_app_l_Some..|done].
          + intros b y p Hy Hp. by destruct (HQ b y p Hy Hp) as [? _].
          + intros b y i v Hy Hi Hv. destruct (less3 b y Hy) as (x & z & _ & Hz & (_ & L & _) & _). destruct (L i Hi) as (j & Hj & _ & Eo & Ed). destruct (inv2 b z Hz) as (_ & I & _). destruct (I j Hj) as [I1 _]. apply I1.
            rewrite Eo in Hv. destruct Hv as [Hv|Hv]; [|by right]. destruct Ed as [Ed|Ed]; [left; congruence|congruence].
          + intros b y j l v Hy He Hv. destruct (less3 b y Hy) as (x & z & _ & Hz & (_ & _ & L) & _). destruct (inv2 b z Hz) as (_ & _ & I). rewrite L in He. by apply (I j l He).
        - intros v Hv. apply pinned_lt in Hv. lia.
        - intros b y Hy Hw. destruct (phis y) as [|p ps] eqn:Ep; [done|]. destruct (HQ b y p Hy) as (_ & Hw' & _); [rewrite Ep; by left|]. congruence.
      Qed.
    End Resolve.
  End Stages.

  Lemma pipe_total : exists from bs1 bs2, Flow_model.detect_from_bbs (flow ends bs) = Some from /\ make_ssa ends pinned param nv (clear from bs) = Some bs1 /\
    copy_propagation mov is_copy fold_ins fold_exit pinned from bs1 = Some bs2.
  Proof using All.
    destruct (Flow_live_proof.predecessors_ok _ (plain_jumps _ _ _ Hplain)) as (from & Hfrom & _). exists from.
    assert (Hc : clear from bs <> []). { intros E0. apply (f_equal length) in E0. rewrite clear_len in E0. clear -E0 Hne. by destruct bs. }
    destruct (ssa_total ends pinned param nv (clear from bs)) as [bs1 H1]; [by apply clear_plain|done|intros v Hv; by apply Hkeep, Hpin|]. exists bs1.
    pose proof (free_jumps M inv HL) as HJ. destruct (full1 from bs1 Hfrom H1) as [F1 F2]. destruct (form1 from bs1 Hfrom H1) as [F3 F4].
    destruct (copy_total ends pinned param index from M mov is_copy fold_ins fold_exit bs1) as [bs2 H2]; [done..|by apply index_at|done|done|done|]. by exists bs2.
  Qed.
  Lemma pipe_reduced from nv' : Flow_model.detect_from_bbs (flow ends bs) = Some from -> nv <= nv' -> (forall bs1, make_ssa ends pinned param nv (clear from bs) = Some bs1 -> numbered nv' bs1) ->
    exists bs3, reduced mov is_copy fold_ins fold_exit pinned param keep from nv nv' bs = Some bs3 /\ forall n a s, trace M pinned index n bs3 a 0 s = trace M pinned index n bs a 0 s.
  Proof using All.
    intros Hf Hnv Hnum. destruct pipe_total as (from' & bs1 & bs2 & Hf' & H1 & H2). assert (from' = from) as E0 by congruence. rewrite E0 in *.
    destruct (stage3 from bs1 bs2 nv' Hf H1 H2 Hnv (Hnum bs1 H1)) as (bs3 & H3 & Ht). exists bs3. unfold reduced, propagated. rewrite H1. cbn [mbind option_bind]. rewrite H2. cbn [mbind option_bind]. done.
  Qed.
  Lemma pipe_same from bs2 nv' : Flow_model.detect_from_bbs (flow ends bs) = Some from -> nv <= nv' -> (forall bs1, make_ssa ends pinned param nv (clear from bs) = Some bs1 -> numbered nv' bs1) ->
    propagated mov is_copy fold_ins fold_exit pinned param from nv bs = Some bs2 -> kept (clear from bs) bs2 ->
    (forall bs3 b x, remove_unused_vregs keep (replicate nv' true) bs2 = Some bs3 -> bs3 !! b = Some x -> easy (phis x)) ->
    exists f, optimized mov is_copy fold_ins fold_exit inv pinned param keep nv nv' bs = Some f /\ (forall i l x, body f !! i = Some (l, x) -> phis x = []) /\
    forall n a s, exists m, n <= m /\ ltrace M pinned m (body f) (fst <$> head (body f)) s = trace M pinned index n bs a 0 s.
  Proof using All.
    intros Hf Hnv Hnum Hp Hk He. destruct pipe_total as (from' & bs1 & bs2' & Hf' & H1 & H2). assert (from' = from) as E0 by congruence. rewrite E0 in *.
    assert (bs2' = bs2) as E2. { unfold propagated in Hp. rewrite H1 in Hp. cbn [mbind option_bind] in Hp. congruence. } rewrite E2 in *.
    destruct (stage3 from bs1 bs2 nv' Hf H1 H2 Hnv (Hnum bs1 H1)) as (bs3 & H3 & Ht).
    assert (Hmv : moves_as_said M mov) by exact (Hcopies mov Hmov).
    destruct (easy_whole M pinned inv mov HL Hmv (with_phis from) nv' bs3 from index) as (f & Hr & Hg & Hs).
    - by eapply (prepared3 from bs1 bs2 nv' Hf H1 H2 Hnv (Hnum bs1 H1) bs3 H3).
    - intros b x. by apply He.
    - by apply index_at.
    - exists f. split; [|split; [done|]].
      + unfold optimized, reduced. change (flow_blk ends <$> bs) with (flow ends bs). rewrite Hf. cbn [mbind option_bind]. rewrite Hp. cbn [mbind option_bind]. rewrite H3. done.
      + intros n a s. destruct (Hs n a s) as (m & Hm & E1). exists m. split; [done|]. by rewrite E1.
  Qed.
End Pipe.
