From stdpp Require Import base list numbers sorting.
From Coq Require Import Lia.
From Verif Require Import Back.Flow_model Back.Flow_spec Back.Flow_proof Back.Flow_prop_proof.
Open Scope nat_scope.

Section each.
  Context (from : list (list nat)) (st0 : list sets).
  Hypothesis Hin : forall b f, from !! b = Some f -> inside from f.
  Context (P Q : nat -> nat -> Prop).
  Hypothesis HQP : forall x a, Q x a -> x ∉ A st0 a -> P x a.
  Hypothesis HPQ : forall x b f a, P x b -> from !! b = Some f -> a ∈ f -> Q x a.

  Definition closed (st : list sets) (x b : nat) : Prop := forall f a, from !! b = Some f -> a ∈ f -> sat st x a.
  Record inv (i : nat) (st : list sets) : Prop := {
    v_len : length st = length from;
    v_ok : all_ok st;
    v_A : forall b, A st b = A st0 b;
    v_I : forall b x, x ∈ I st0 b -> x ∈ I st b;
    v_P : forall b x, x ∈ I st b -> P x b;
    v_Q : forall b x, x ∈ O_ st b -> Q x b;
    v_closed : forall b x, x ∈ I st b -> (i <= b \/ x ∉ I st0 b) -> closed st x b;
  }.

  Lemma each_reg_ok i f : from !! i = Some f -> forall fuel j st, inv (S i) st ->
    length (I st i) <= j + fuel ->
    (forall k x, k < j -> I st i !! k = Some x -> closed st x i) ->
    exists st', each_reg fuel from i j st = Some st' /\ inv i st'.
  Proof.
    intros Hf. induction fuel as [|fuel IH]; intros j st V Hfuel Hdone.
    - destruct (lookup_lt_is_Some_2 st i) as [s Hs]; [rewrite (v_len _ _ V); by apply lookup_lt_Some in Hf|].
      assert (EI : I st i = ins s) by (unfold I; by rewrite Hs). cbn [each_reg]. rewrite Hs. cbn [mbind option_bind].
      rewrite <- EI, (lookup_ge_None_2 (I st i) j) by lia. exists st. split; [done|].
      destruct V; split; try done. intros b x Hx Hb. destruct (decide (b = i)) as [->|Hne]; [|apply v_closed0; [done|]; destruct Hb as [Hb|Hb]; [left; lia|by right]].
      apply elem_of_list_lookup in Hx as [k Hk]. apply (Hdone k); [|done]. apply lookup_lt_Some in Hk. lia.
    - destruct (lookup_lt_is_Some_2 st i) as [s Hs]; [rewrite (v_len _ _ V); by apply lookup_lt_Some in Hf|].
      assert (EI : I st i = ins s) by (unfold I; by rewrite Hs). cbn [each_reg]. rewrite Hs. cbn [mbind option_bind].
      rewrite <- EI. destruct (I st i !! j) as [v|] eqn:Ej.
      2: { exists st. split; [done|]. apply lookup_ge_None in Ej.
        destruct V; split; try done. intros b x Hx Hb. destruct (decide (b = i)) as [->|Hne]; [|apply v_closed0; [done|]; destruct Hb as [Hb|Hb]; [left; lia|by right]].
        apply elem_of_list_lookup in Hx as [k Hk]. apply (Hdone k); [|done]. apply lookup_lt_Some in Hk. lia. }
      rewrite Hf. cbn [mbind option_bind].
      assert (Hv : v ∈ I st i) by (by apply elem_of_list_lookup_2 in Ej).
      destruct (propagate_ok from v Hin (P v) (Q v) (prop_fuel from f) (reverse f) st) as (st' & -> & G & S1 & S2 & S3).
      + by apply (v_len _ _ V).
      + by apply (v_ok _ _ V).
      + intros a Ha. apply (Hin i f Hf). by apply elem_of_reverse.
      + unfold prop_fuel. rewrite reverse_length. pose proof (pot_max from v st). lia.
      + cbn [mbind option_bind]. destruct S3 as [S3 S4].
        { intros a Ha. apply (HPQ v i f a); [by apply (v_P _ _ V)|done|by apply elem_of_reverse]. }
        { intros a Ha. rewrite (v_A _ _ V). by apply HQP. }
        { intros b g a. by apply HPQ. }
        assert (Egrow : forall x b, closed st x b -> closed st' x b).
        { intros x b Hc g a Hg Ha. apply (sat_grows' v x st); [done|]. by apply (Hc g). }
        apply IH.
        * split.
          -- rewrite (g_len _ _ _ G). by apply (v_len _ _ V).
          -- apply (g_ok _ _ _ G). by apply (v_ok _ _ V).
          -- intros b. rewrite (g_A _ _ _ G). by apply (v_A _ _ V).
          -- intros b x Hx. apply (g_I _ _ _ G). by apply (v_I _ _ V).
          -- intros b x Hx. destruct (g_Inew _ _ _ G b x Hx) as [H| ->]; [by apply (v_P _ _ V)|].
             destruct (S3 b Hx) as [H|H]; [by apply (v_P _ _ V)|done].
          -- intros b x Hx. destruct (g_Onew _ _ _ G b x Hx) as [H| ->]; [by apply (v_Q _ _ V)|].
             destruct (S4 b Hx) as [H|H]; [by apply (v_Q _ _ V)|done].
          -- intros b x Hx Hb. destruct (decide (x ∈ I st b)) as [H|H].
             ++ apply Egrow. by apply (v_closed _ _ V).
             ++ destruct (g_Inew _ _ _ G b x Hx) as [H'| ->]; [done|]. intros g a. by apply S2.
        * rewrite (g_same _ _ _ G) by done. lia.
        * intros k x Hk. rewrite (g_same _ _ _ G) by done. intros Ex.
          destruct (decide (k = j)) as [->|Hne].
          -- assert (x = v) as -> by congruence. intros g a Hg Ha. assert (g = f) as -> by congruence. apply S1. by apply elem_of_reverse.
          -- apply Egrow. apply (Hdone k); [lia|done].
  Qed.

  Lemma each_bb_ok i : forall st, inv i st -> i <= length from -> exists st', each_bb from i st = Some st' /\ inv 0 st'.
  Proof.
    induction i as [|i IH]; intros st V Hi; cbn [each_bb]; [by exists st|].
    destruct (lookup_lt_is_Some_2 st i) as [s Hs]; [rewrite (v_len _ _ V); lia|]. rewrite Hs. cbn [mbind option_bind].
    destruct (lookup_lt_is_Some_2 from i) as [f Hf]; [lia|].
    destruct (each_reg_ok i f Hf (length (ins s)) 0 st V) as (st' & -> & V').
    - unfold I. rewrite Hs. cbn. lia.
    - intros k x Hk. lia.
    - cbn [mbind option_bind]. apply IH; [done|lia].
  Qed.
End each.

(** The predecessors found. *)
Lemma succs_edge bbs a x b : wf bbs -> bbs !! a = Some x -> b ∈ succs bbs a x <-> edge bbs a b.
Proof.
  intros Hwf Hx. specialize (Hwf a x Hx). unfold succs, edge, next.
  split.
  - intros H. exists x. split; [done|]. destruct (last x) as [|t|t|ts].
    + destruct (S a <? length bbs) eqn:E; [|by apply elem_of_nil in H]. apply Nat.ltb_lt in E. apply elem_of_list_singleton in H as ->. done.
    + apply elem_of_list_singleton in H as ->. done.
    + apply elem_of_cons in H as [->|H]; [split; [done|by left]|]. destruct (S a <? length bbs) eqn:E; [|by apply elem_of_nil in H].
      apply Nat.ltb_lt in E. apply elem_of_list_singleton in H as ->. split; [done|by right].
    + split; [by apply Hwf|done].
  - intros (y & Hy & Hb & H). assert (y = x) as -> by congruence. destruct (last x) as [|t|t|ts].
    + subst b. apply Nat.ltb_lt in Hb. rewrite Hb. by left.
    + subst b. by left.
    + destruct H as [->| ->]; [by left|]. apply Nat.ltb_lt in Hb. rewrite Hb. right. by left.
    + done.
Qed.

Definition F (from : list (list nat)) (b : nat) : list nat := default [] (from !! b).
Lemma fold_alter_len (i : nat) ss from : length (foldl (fun (from : list (list nat)) s => alter (fun l => l ++ [i]) s from) from ss) = length from.
Proof. revert from. induction ss as [|s ss IH]; intros from; cbn; [done|]. rewrite IH. by rewrite alter_length. Qed.
Lemma fold_alter_in (i : nat) ss from b a : (forall s, s ∈ ss -> s < length from) ->
  a ∈ F (foldl (fun (from : list (list nat)) s => alter (fun l => l ++ [i]) s from) from ss) b <->
  a ∈ F from b \/ (a = i /\ b ∈ ss).
Proof.
  revert from. induction ss as [|s ss IH]; intros from Hs; cbn [foldl].
  - split; [by left|]. intros [H|[_ H]]; [done|by apply elem_of_nil in H].
  - rewrite IH by (intros t Ht; rewrite alter_length; apply Hs; by right).
    assert (Ha : a ∈ F (alter (fun l => l ++ [i]) s from) b <-> a ∈ F from b \/ (a = i /\ b = s)).
    { unfold F. destruct (decide (b = s)) as [->|Hne].
      - rewrite list_lookup_alter. destruct (lookup_lt_is_Some_2 from s) as [l ->]; [apply Hs; by left|]. cbn.
        rewrite elem_of_app, elem_of_list_singleton. tauto.
      - rewrite list_lookup_alter_ne by done. tauto. }
    rewrite Ha, elem_of_cons. tauto.
Qed.

Section det.
  Context (bbs : list bb).
  Hypothesis Hwf : wf bbs.
  Definition dpot (checked : list nat) : nat :=
    sum (imap (fun i b => if decide (i ∈ checked) then 0 else length (succs bbs i b)) bbs).

  Record dinv (W C : list nat) (from : list (list nat)) : Prop := {
    d_len : length from = length bbs;
    d_W : forall a, a ∈ W -> reach bbs a;
    d_C : forall a, a ∈ C -> reach bbs a;
    d_from : forall a b, a ∈ F from b <-> a ∈ C /\ edge bbs a b;
    d_next : forall a b, a ∈ C -> edge bbs a b -> b ∈ C \/ b ∈ W;
    d_zero : 0 < length bbs -> 0 ∈ C \/ 0 ∈ W;
  }.
  Lemma reach_lt a : reach bbs a -> a < length bbs.
  Proof. destruct 1 as [|a b _ (x & _ & H & _)]; done. Qed.

  Lemma detect_ok fuel : forall W C from, dinv W C from -> length W + dpot C <= fuel ->
    exists from' C', detect fuel bbs W C from = Some from' /\ dinv [] C' from'.
  Proof.
    induction fuel as [|fuel IH]; intros W C from D Hf.
    - destruct W; [by exists from, C|cbn in Hf; lia].
    - destruct W as [|i W]; [by exists from, C|]. cbn [detect]. cbn in Hf.
      case_decide as Hc.
      + apply IH; [|lia]. destruct D; split; try done.
        * intros a Ha. apply d_W0. by right.
        * intros a b Ha Hb. destruct (d_next0 a b Ha Hb) as [H|H]; [by left|]. apply elem_of_cons in H as [->|H]; [by left|by right].
        * intros H0. destruct (d_zero0 H0) as [H|H]; [by left|]. apply elem_of_cons in H as [->|H]; [by left|by right].
      + assert (Hr : reach bbs i) by (apply (d_W _ _ _ D); by left).
        destruct (lookup_lt_is_Some_2 bbs i (reach_lt i Hr)) as [x Hx]. rewrite Hx. cbn [mbind option_bind].
        apply IH.
        * destruct D; split.
          -- by rewrite fold_alter_len.
          -- intros a Ha. apply elem_of_app in Ha as [Ha|Ha]; [|apply d_W0; by right]. rewrite elem_of_reverse in Ha.
             apply (reach_step bbs i); [done|]. apply (succs_edge bbs i x a Hwf Hx); exact Ha.
          -- intros a Ha. apply elem_of_cons in Ha as [->|Ha]; [done|by apply d_C0].
          -- intros a b. rewrite fold_alter_in.
             2: { intros s Hs. rewrite d_len0. apply (succs_edge bbs i x s Hwf Hx) in Hs. by destruct Hs as (? & _ & ? & _). }
             rewrite d_from0, (succs_edge bbs i x b Hwf Hx), elem_of_cons. split; [|intros [[->|H1] H2]; tauto].
             intros [[H1 H2]|[-> H]]; tauto.
          -- intros a b Ha Hb. rewrite elem_of_cons, elem_of_app. apply elem_of_cons in Ha as [->|Ha].
             ++ right. left. apply elem_of_reverse. by apply (succs_edge bbs i x _ Hwf Hx).
             ++ destruct (d_next0 a b Ha Hb) as [H|H]; [left; by right|]. apply elem_of_cons in H as [->|H]; [left; by left|right; by right].
          -- intros H0. rewrite elem_of_cons, elem_of_app. destruct (d_zero0 H0) as [H|H]; [left; by right|].
             apply elem_of_cons in H as [H|H]; [left; by left|right; by right].
        * rewrite app_length, reverse_length.
          pose proof (sum_dec bbs (fun j b => if decide (j ∈ i :: C) then 0 else length (succs bbs j b))
            (fun j b => if decide (j ∈ C) then 0 else length (succs bbs j b)) i x Hx) as Hd. cbv beta in Hd.
          rewrite (decide_True (P := i ∈ i :: C)) in Hd by (by left). rewrite (decide_False (P := i ∈ C)) in Hd by done.
          unfold dpot in *. specialize (Hd eq_refl).
          match type of Hd with ?A -> _ => assert A as HA end.
          { intros j y _. repeat case_decide; try lia. exfalso. rewrite elem_of_cons in *. tauto. }
          specialize (Hd HA). lia.
  Qed.
End det.

Lemma detect_from_bbs_ok bbs : wf bbs -> exists from, detect_from_bbs bbs = Some from /\ length from = length bbs /\
  (forall a b, a ∈ F from b <-> reach bbs a /\ edge bbs a b).
Proof.
  intros Hwf. unfold detect_from_bbs. destruct (length bbs =? 0) eqn:E.
  - apply Nat.eqb_eq in E. destruct bbs; [|done]. exists []. split; [done|]. split; [done|]. intros a b. unfold F. cbn.
    split; [intros H; by apply elem_of_nil in H|]. intros [_ (x & H & _)]. done.
  - apply Nat.eqb_neq in E. destruct (detect_ok bbs Hwf (detect_fuel bbs) [0] [] (replicate (length bbs) [])) as (from & C & -> & D).
    + split.
      * by rewrite replicate_length.
      * intros a ->%elem_of_list_singleton. constructor. lia.
      * intros a H. by apply elem_of_nil in H.
      * intros a b. unfold F. destruct (replicate (length bbs) [] !! b) as [l|] eqn:El; cbn.
        -- apply lookup_replicate in El as [-> _]. split; [intros H; by apply elem_of_nil in H|]. intros [H _]. by apply elem_of_nil in H.
        -- split; [intros H; by apply elem_of_nil in H|]. intros [H _]. by apply elem_of_nil in H.
      * intros a b H. by apply elem_of_nil in H.
      * intros _. right. by left.
    + unfold detect_fuel, dpot. cbn [length]. apply (Nat.le_trans _ (1 + sum (imap (λ (i : nat) (b : bb), length (succs bbs i b)) bbs))); [|lia].
      apply le_n_S, sum_le. intros i x _. case_decide; lia.
    + exists from. split; [done|]. split; [by apply (d_len _ _ _ _ D)|]. intros a b. rewrite (d_from _ _ _ _ D).
      split; intros [H1 H2]; (split; [|done]); [by apply (d_C _ _ _ _ D)|].
      clear b H2. induction H1 as [H|a b _ IH Hab].
      * destruct (d_zero _ _ _ _ D H) as [?|H']; [done|]. by apply elem_of_nil in H'.
      * destruct (d_next _ _ _ _ D a b IH Hab) as [?|H']; [done|]. by apply elem_of_nil in H'.
Qed.

(** The first pass. *)
Lemma mapM_scan bbs : exists st, mapM (fun b => scan (irs b) (Sets [] [] [])) bbs = Some st /\ length st = length bbs /\ all_ok st /\
  forall i x, bbs !! i = Some x -> exists s, st !! i = Some s /\ outs s = [] /\
    (forall r, r ∈ assigned s <-> assigns (irs x) r) /\ (forall r, r ∈ ins s <-> reads_first (irs x) r).
Proof.
  induction bbs as [|x bbs (st & E & Hl & Hok & H)].
  - exists []. split; [done|]. split; [done|]. split; [intros b s Hs; done|]. intros i y Hi. done.
  - destruct (scan_ok (irs x) (Sets [] [] [])) as (s & Es & Hs & Ho & Ha & Hi); [repeat split; constructor|].
    exists (s :: st). cbn [mapM]. rewrite Es. cbn [mbind option_bind]. rewrite E. cbn. split; [done|]. split; [by rewrite Hl|].
    split.
    + intros [|b] y Hy; cbn in Hy; [by injection Hy as <-|by apply (Hok b)].
    + intros [|i] y Hy; cbn in Hy.
      * injection Hy as <-. exists s. split; [done|]. split; [done|]. split; intros r.
        -- rewrite Ha. cbn. split; [intros [H'|H']; [by apply elem_of_nil in H'|done]|by right].
        -- rewrite Hi. cbn. split; [intros [H'|[H' _]]; [by apply elem_of_nil in H'|done]|]. intros Hr. right. split; [done|]. intros H'. by apply elem_of_nil in H'.
      * by apply H.
Qed.

Lemma flow_ok bbs : wf bbs -> exists from st, detect_from_bbs bbs = Some from /\ analyze_reg_flow bbs from = Some st /\
  length st = length bbs /\
  forall b s, st !! b = Some s -> set_ok s /\
    (forall r, r ∈ ins s -> live bbs r b) /\ (forall r, r ∈ outs s -> live_out bbs r b) /\
    (reach bbs b -> (forall r, live bbs r b -> r ∈ ins s) /\ (forall r, live_out bbs r b -> r ∈ outs s)).
Proof.
  intros Hwf. destruct (detect_from_bbs_ok bbs Hwf) as (from & -> & Hlen & Hfrom). exists from.
  unfold analyze_reg_flow. destruct (mapM_scan bbs) as (st0 & -> & Hl0 & Hok0 & H0). cbn [mbind option_bind].
  assert (HF : forall b f, from !! b = Some f -> F from b = f) by (intros b f Hf; unfold F; by rewrite Hf).
  assert (HA : forall x a, bbs !! a = Some x -> forall r, r ∈ A st0 a <-> assigns (irs x) r).
  { intros x a Hx r. destruct (H0 a x Hx) as (s & Hs & _ & Ha & _). unfold A. rewrite Hs. apply Ha. }
  assert (HI : forall x a, bbs !! a = Some x -> forall r, r ∈ I st0 a <-> reads_first (irs x) r).
  { intros x a Hx r. destruct (H0 a x Hx) as (s & Hs & _ & _ & Hi). unfold I. rewrite Hs. apply Hi. }
  destruct (each_bb_ok from st0) with (P := fun r a => live bbs r a) (Q := fun r a => live_out bbs r a) (i := length bbs) (st := st0) as (st & E & V).
  - intros b f Hf a Ha. rewrite <- (HF b f Hf) in Ha. apply Hfrom in Ha as [Ha _]. rewrite Hlen. by apply reach_lt in Ha.
  - intros r a (b & He & Hb) Hn. destruct He as (x & Hx & He). apply (live_later bbs r a b x); [done| |by exists x|done].
    intros H. apply Hn. by apply (HA x a Hx).
  - intros r b f a Hb Hf Ha. rewrite <- (HF b f Hf) in Ha. apply Hfrom in Ha as [_ Ha]. by exists b.
  - split; try done.
    + by rewrite Hl0.
    + intros b r Hr. destruct (bbs !! b) as [x|] eqn:Hx; [|apply lookup_ge_None in Hx; unfold I in Hr; rewrite lookup_ge_None_2 in Hr by lia; by apply elem_of_nil in Hr].
      apply (live_here bbs r b x Hx). by apply (HI x b Hx).
    + intros b r Hr. exfalso. unfold O_ in Hr. destruct (bbs !! b) as [x|] eqn:Hx.
      * destruct (H0 b x Hx) as (s & Hs & Ho & _). rewrite Hs in Hr. cbn in Hr. rewrite Ho in Hr. by apply elem_of_nil in Hr.
      * apply lookup_ge_None in Hx. rewrite lookup_ge_None_2 in Hr by lia. by apply elem_of_nil in Hr.
    + intros b r Hr [Hb|Hb]; [|done]. unfold I in Hr. rewrite lookup_ge_None_2 in Hr by lia. by apply elem_of_nil in Hr.
  - lia.
  - exists st. split; [done|]. split; [done|]. split; [by rewrite (v_len _ _ _ _ _ _ V)|].
    assert (HL : forall r b, live bbs r b -> reach bbs b -> r ∈ I st b).
    { induction 1 as [a x Hx Hr|a b x Hx Hn He Hl IH]; intros Hrb.
      - apply (v_I _ _ _ _ _ _ V). by apply (HI x a Hx).
      - assert (Hb : reach bbs b) by (by apply (reach_step bbs a)).
        assert (Ha : a ∈ F from b) by (by apply Hfrom). unfold F in Ha. destruct (from !! b) as [f|] eqn:Hf; [|by apply elem_of_nil in Ha].
        destruct (v_closed _ _ _ _ _ _ V b r (IH Hb) (or_introl (Nat.le_0_l b)) f a Hf Ha) as [_ [H|H]]; [|done].
        rewrite (v_A _ _ _ _ _ _ V) in H. by apply (HA x a Hx) in H. }
    intros b s Hs. assert (EI : I st b = ins s) by (unfold I; by rewrite Hs). assert (EO : O_ st b = outs s) by (unfold O_; by rewrite Hs).
    split; [by apply (v_ok _ _ _ _ _ _ V b)|]. split; [intros r Hr; rewrite <- EI in Hr; by apply (v_P _ _ _ _ _ _ V)|].
    split; [intros r Hr; rewrite <- EO in Hr; by apply (v_Q _ _ _ _ _ _ V)|].
    intros Hrb. split; [intros r Hr; rewrite <- EI; by apply HL|].
    intros r (c & He & Hc). rewrite <- EO.
    assert (Hrc : reach bbs c) by (by apply (reach_step bbs b)).
    assert (Ha : b ∈ F from c) by (by apply Hfrom). unfold F in Ha. destruct (from !! c) as [f|] eqn:Hf; [|by apply elem_of_nil in Ha].
    by destruct (v_closed _ _ _ _ _ _ V c r (HL r c Hc Hrc) (or_introl (Nat.le_0_l c)) f b Hf Ha) as [H _].
Qed.

Lemma predecessors_ok bbs : wf bbs -> exists from, detect_from_bbs bbs = Some from /\ length from = length bbs /\
  forall a b, (exists f, from !! b = Some f /\ a ∈ f) <-> reach bbs a /\ edge bbs a b.
Proof.
  intros Hwf. destruct (detect_from_bbs_ok bbs Hwf) as (from & E & Hl & H). exists from. split; [done|]. split; [done|].
  intros a b. rewrite <- H. unfold F. split.
  - intros (f & -> & Ha). done.
  - destruct (from !! b) as [f|]; [|intros Hn; by apply elem_of_nil in Hn]. intros Ha. by exists f.
Qed.
Lemma liveness_ok bbs : wf bbs ->
  exists from st, detect_from_bbs bbs = Some from /\ analyze_reg_flow bbs from = Some st /\ length st = length bbs /\
  forall b s, st !! b = Some s ->
    (forall r, r ∈ ins s -> live bbs r b) /\ (forall r, r ∈ outs s -> live_out bbs r b) /\
    (reach bbs b -> (forall r, live bbs r b -> r ∈ ins s) /\ (forall r, live_out bbs r b -> r ∈ outs s)) /\
    StronglySorted lt (ins s) /\ StronglySorted lt (outs s).
Proof.
  intros Hwf. destruct (flow_ok bbs Hwf) as (from & st & E1 & E2 & Hl & H). exists from, st.
  split; [done|]. split; [done|]. split; [done|]. intros b s Hs. destruct (H b s Hs) as ((K1 & K2 & _) & H1 & H2 & H3).
  split; [done|]. split; [done|]. split; [done|]. split; done.
Qed.
