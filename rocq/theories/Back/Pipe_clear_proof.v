(** Proofs about emptying the blocks that cannot be reached. *)
From stdpp Require Import base list numbers.
From Verif Require Import Back.Unused_model Back.Unused_spec Back.Ssa_model Back.Ssa_spec Back.Unphi_model Back.Unphi_spec Back.Pipe_model.
From Verif Require Back.Flow_model Back.Flow_spec Back.Flow_live_proof.
Local Open Scope nat_scope.

Lemma next_in (bbs : list Flow_model.bb) i t : t ∈ Flow_model.next bbs i -> t = S i /\ S i < length bbs.
Proof. unfold Flow_model.next. case_match eqn:E; [|by intros ?%elem_of_nil]. apply Nat.ltb_lt in E. by intros ->%elem_of_list_singleton. Qed.
Lemma succs_edge (bbs : list Flow_model.bb) i b t : Flow_spec.wf bbs -> bbs !! i = Some b -> t ∈ Flow_model.succs bbs i b -> Flow_spec.edge bbs i t.
Proof.
  intros Hwf Hb Ht. pose proof (Hwf i b Hb) as Hw. exists b. split; [done|]. unfold Flow_model.succs in Ht. destruct (Flow_model.last b) as [|u|u|us].
  - by apply next_in in Ht as [-> ?].
  - by apply elem_of_list_singleton in Ht as ->.
  - apply elem_of_cons in Ht as [->|Ht]; [split; [done|by left]|]. apply next_in in Ht as [-> ?]. split; [done|by right].
  - split; [by apply Hw|done].
Qed.
Lemma detect_agree bbs bbs' : Flow_spec.wf bbs -> length bbs' = length bbs ->
  (forall i x x', Flow_spec.reach bbs i -> bbs !! i = Some x -> bbs' !! i = Some x' -> Flow_model.last x' = Flow_model.last x) ->
  forall fuel fuel' un checked from r r', (forall i, i ∈ un -> Flow_spec.reach bbs i) ->
  Flow_model.detect fuel bbs un checked from = Some r -> Flow_model.detect fuel' bbs' un checked from = Some r' -> r' = r.
Proof.
  intros Hwf Hl Hlast. induction fuel as [|fuel IH]; intros fuel' un checked from r r' Hun E E'.
  - destruct un; [|done]. destruct fuel'; cbn [Flow_model.detect] in E, E'; rewrite E in E'; by injection E'.
  - destruct un as [|i un]; [destruct fuel'; cbn [Flow_model.detect] in E, E'; rewrite E in E'; by injection E'|]. destruct fuel' as [|fuel']; [done|]. cbn [Flow_model.detect] in E, E'.
    case_decide as Hi; [eapply IH; [|done|done]; intros j Hj; apply Hun; by right|].
    destruct (bbs !! i) as [b|] eqn:Eb; [|done]. destruct (bbs' !! i) as [b'|] eqn:Eb'; [|done]. cbn [mbind option_bind] in E, E'.
    assert (Hr : Flow_spec.reach bbs i) by (apply Hun; by left).
    assert (Flow_model.succs bbs' i b' = Flow_model.succs bbs i b) as Es by (unfold Flow_model.succs, Flow_model.next; by rewrite (Hlast i b b'), Hl). rewrite Es in E'.
    eapply IH; [|exact E|exact E']. intros j Hj. apply elem_of_app in Hj as [Hj|Hj]; [|apply Hun; by right]. rewrite elem_of_reverse in Hj.
    apply Flow_spec.reach_step with i; [done|]. by eapply succs_edge.
Qed.
Lemma detects_agree bbs bbs' from from' : Flow_spec.wf bbs -> length bbs' = length bbs ->
  (forall i x x', Flow_spec.reach bbs i -> bbs !! i = Some x -> bbs' !! i = Some x' -> Flow_model.last x' = Flow_model.last x) ->
  Flow_model.detect_from_bbs bbs = Some from -> Flow_model.detect_from_bbs bbs' = Some from' -> from' = from.
Proof.
  intros Hwf Hl Hlast. unfold Flow_model.detect_from_bbs. rewrite Hl. destruct (length bbs =? 0) eqn:E0; [congruence|]. apply Nat.eqb_neq in E0. intros E E'.
  eapply (detect_agree bbs bbs' Hwf Hl Hlast); [|exact E|exact E']. intros i Hi. apply elem_of_list_singleton in Hi as ->. constructor. lia.
Qed.

Section Clear.
  Context {K C : Type} (bs : list (blk K (jmp C))) (nv : nat) (from : list (list nat)).
  Hypothesis Hplain : plain ends nv bs.
  Hypothesis Hfrom : Flow_model.detect_from_bbs (flow ends bs) = Some from.
  Notation bs' := (clear from bs).
  Lemma clear_len : length bs' = length bs. Proof using. clear. apply imap_length. Qed.
  Lemma flow_len (l : list (blk K (jmp C))) : length (flow ends l) = length l. Proof using. clear. apply fmap_length. Qed.
  Lemma preds : length from = length bs /\ forall a b, (exists f, from !! b = Some f /\ a ∈ f) <-> reach ends bs a /\ edge ends bs a b.
  Proof using All.
    destruct (Flow_live_proof.predecessors_ok _ (plain_jumps _ _ _ Hplain)) as (f & E & Hl & H). assert (f = from) as -> by congruence. rewrite flow_len in Hl. done.
  Qed.
  Lemma reach_lt b : reach ends bs b -> b < length bs.
  Proof using. clear. intros H. destruct H as [H|a b _ (x & _ & H & _)]; by rewrite flow_len in H. Qed.
  Lemma reached b : b < length bs -> reach ends bs b <-> ~ (b <> 0 /\ from !! b = Some []).
  Proof using All.
    intros Hb. destruct preds as [Hl Hp]. split.
    - intros Hr [H0 Hf]. destruct Hr as [?|a b Ha Hab]; [done|]. destruct (proj2 (Hp a b)) as (f & Hf' & Hin); [done|]. rewrite Hf in Hf'. injection Hf' as <-. by apply elem_of_nil in Hin.
    - intros H. destruct (decide (b = 0)) as [->|H0]; [constructor; by rewrite flow_len|].
      destruct (lookup_lt_is_Some_2 from b) as [f Hf]; [lia|]. destruct f as [|a f]; [by destruct H|].
      destruct (proj1 (Hp a b)) as [Ha Hab]; [exists (a :: f); split; [done|by left]|]. by apply Flow_spec.reach_step with a.
  Qed.
  Lemma clear_at b : reach ends bs b -> bs' !! b = bs !! b.
  Proof using All.
    intros Hr. pose proof (reach_lt b Hr) as Hb. apply reached in Hr; [|done]. unfold clear. rewrite list_lookup_imap. destruct (bs !! b); [|done]. cbn. by rewrite bool_decide_false.
  Qed.
  Lemma clear_else b x : bs' !! b = Some x -> bs !! b = Some x \/ (~ reach ends bs b /\ x = Blk [] [] None).
  Proof using All.
    unfold clear. rewrite list_lookup_imap. destruct (bs !! b) as [y|] eqn:Ey; [|done]. cbn. intros [= <-]. case_bool_decide as H; [right|by left].
    split; [|by rewrite (plain_phis _ _ _ Hplain b y Ey)]. rewrite reached by (by eapply lookup_lt_Some). tauto.
  Qed.
  Lemma flow_at (l : list (blk K (jmp C))) a : flow ends l !! a = flow_blk ends <$> l !! a.
  Proof using. clear. apply list_lookup_fmap. Qed.
  Lemma clear_edge a b : reach ends bs a -> edge ends bs' a b <-> edge ends bs a b.
  Proof using All.
    intros Ha. unfold edge, Flow_spec.edge. rewrite !flow_len, clear_len. setoid_rewrite flow_at. by setoid_rewrite (clear_at a Ha).
  Qed.
  Lemma clear_edge_un a b : ~ reach ends bs a -> edge ends bs' a b -> b = S a.
  Proof using All.
    intros Ha (x & Hx & _ & He). rewrite flow_at in Hx. destruct (bs' !! a) as [y|] eqn:Ey; [|done]. injection Hx as <-.
    assert (y = Blk [] [] None) as ->; [|done]. unfold clear in Ey. rewrite list_lookup_imap in Ey. destruct (bs !! a) as [z|] eqn:Ez; [|done]. cbn in Ey. injection Ey as <-.
    rewrite bool_decide_true; [by rewrite (plain_phis _ _ _ Hplain a z Ez)|]. apply dec_stable. intros H. apply Ha. apply reached; [by eapply lookup_lt_Some|done].
  Qed.
  Lemma clear_reach b : reach ends bs' b <-> reach ends bs b.
  Proof using All.
    split.
    - induction 1 as [H|a b _ IH Hab]; [constructor; rewrite !flow_len, clear_len in *; done|]. apply Flow_spec.reach_step with a; [done|]. by apply clear_edge.
    - induction 1 as [H|a b Ha IH Hab]; [constructor; rewrite !flow_len, clear_len in *; done|]. apply Flow_spec.reach_step with a; [done|]. by apply clear_edge.
  Qed.
  Lemma clear_plain : plain ends nv bs'.
  Proof using All.
    split.
    - intros b x [Hx|[_ ->]]%clear_else; [by eapply plain_phis|done].
    - intros b x v [Hx|[_ ->]]%clear_else; [by eapply plain_regs|by intros ?%elem_of_nil].
    - intros a x Hx. rewrite flow_at in Hx. destruct (bs' !! a) as [y|] eqn:Ey; [|done]. injection Hx as <-. rewrite flow_len, clear_len. apply clear_else in Ey as [Ey|[_ ->]]; [|done].
      pose proof (plain_jumps _ _ _ Hplain a (flow_blk ends y)) as H. rewrite flow_at, Ey, flow_len in H. by apply H.
    - intros a He. assert (Hr : ~ reach ends bs a); [|by apply clear_edge_un in He]. intros Hr. apply clear_edge in He; [|done]. by eapply plain_start.
  Qed.
  Lemma clear_from : Flow_model.detect_from_bbs (flow ends bs') = Some from.
  Proof using All.
    destruct (Flow_live_proof.predecessors_ok _ (plain_jumps _ _ _ clear_plain)) as (f & E & _). rewrite E. f_equal.
    eapply (detects_agree (flow ends bs) (flow ends bs')); [by eapply plain_jumps|by rewrite !flow_len, clear_len| |done|done].
    intros i x x' Hr Hx Hx'. rewrite flow_at in Hx, Hx'. rewrite clear_at in Hx' by done. congruence.
  Qed.
  Lemma clear_unreached : unreached_empty ends bs'.
  Proof using All.
    intros b x Hx Hn. pose proof Hx as Hx'. rewrite clear_reach in Hn. unfold clear in Hx. rewrite list_lookup_imap in Hx. destruct (bs !! b) as [y|] eqn:Ey; [|done]. cbn in Hx. injection Hx as <-.
    case_bool_decide as H; [split; [done|]; cbn; by eapply plain_phis|]. exfalso. apply Hn. apply reached; [by eapply lookup_lt_Some|done].
  Qed.
  Lemma clear_lacks param v b : lacks ends param bs' v b -> bs <> [] -> reach ends bs b /\ lacks ends param bs v b.
  Proof using All.
    intros H Hne. induction H as [H|a b x _ [IH1 IH2] Hx Hv Hab].
    - split; [constructor; rewrite flow_len; destruct bs; [done|cbn; lia]|by constructor].
    - apply clear_edge in Hab; [|done]. rewrite clear_at in Hx by done. split; [by apply Flow_spec.reach_step with a|by eapply lacks_step].
  Qed.
  Lemma clear_init pinned param index : bs <> [] -> initialised ends pinned param index bs -> initialised ends pinned param index bs'.
  Proof using All.
    intros Hne [H1 H2]. split.
    - intros b x v Hx Hv Hr Hl. apply clear_lacks in Hl as [Hb Hl]; [|done]. rewrite clear_at in Hx by done. by eapply H1.
    - intros a b x y p v Hab Ha Hx Hy Hp Hpar Hv Hl. apply clear_reach in Ha. apply clear_edge in Hab; [|done]. apply clear_lacks in Hl as [_ Hl]; [|done].
      rewrite clear_at in Hx by done. rewrite clear_at in Hy by (by apply Flow_spec.reach_step with a). by eapply (H2 a b x y p v).
  Qed.
  Lemma clear_ends : ends_plainly bs -> ends_plainly bs'.
  Proof using All.
    intros [H1 H2]. split.
    - intros b x ts l [Hx|[_ ->]]%clear_else; [by eapply H1|done].
    - intros b x j l [Hx|[_ ->]]%clear_else Hb; [|done]. rewrite clear_len in Hb. by eapply H2.
  Qed.
  Lemma clear_trace {W} (M : machine K (jmp C) W) pinned index n : jumps_as_said ends M -> forall a b s, reach ends bs b \/ length bs <= b ->
    trace M pinned index n bs' a b s = trace M pinned index n bs a b s.
  Proof using All.
    intros HJ. induction n as [|n IH]; intros a b s Hb; [done|]. cbn [trace]. destruct Hb as [Hr|Hb].
    2: { by rewrite !lookup_ge_None_2 by (by rewrite ?clear_len). }
    rewrite clear_at by done. destruct (bs !! b) as [x|] eqn:Ex; [|done]. destruct (execs M pinned (irs x) _) as [es s1]. f_equal. apply IH.
    assert (Hnext : Flow_spec.edge (flow ends bs) b (S b) \/ (S b < length bs -> False) -> reach ends bs (S b) \/ length bs <= S b).
    { intros [H|H]; [left; by apply Flow_spec.reach_step with b|right; lia]. }
    assert (Hto : forall t, t < length bs -> match Flow_model.last (flow_blk ends x) with Flow_model.Falls => t = S b | Flow_model.Jump u => t = u | Flow_model.CJump u => t = u \/ t = S b | Flow_model.Table us => t ∈ us end -> reach ends bs t).
    { intros t Ht H. apply Flow_spec.reach_step with b; [done|]. exists (flow_blk ends x). by rewrite flow_at, Ex, flow_len. }
    pose proof (plain_jumps _ _ _ Hplain b (flow_blk ends x)) as Hw. rewrite flow_at, Ex, flow_len in Hw. specialize (Hw eq_refl). cbn [flow_blk Flow_model.last] in Hw, Hto.
    destruct (exit x) as [[j l]|].
    2: { destruct (decide (S b < length bs)); [left; by apply Hto|right; lia]. }
    set (l' := (fun o => rd M pinned o s1) <$> l). pose proof (HJ j l' s1.2) as HT. destruct (ends j) as [|t|t|ts].
    - rewrite HT. cbn. destruct (decide (S b < length bs)); [left; by apply Hto|right; lia].
    - rewrite HT. cbn. left. by apply Hto.
    - destruct HT as [->| ->]; cbn; [left; apply Hto; [done|by left]|]. destruct (decide (S b < length bs)); [left; apply Hto; [done|by right]|right; lia].
    - destruct HT as (t & Ht & ->). cbn. left. apply Hto; [by apply Hw|done].
  Qed.
  Lemma clear_effects {W} (M : machine K (jmp C) W) : effects_plain M bs -> effects_plain M bs'.
  Proof using All.
    intros H x i Hx Hi. apply elem_of_list_lookup in Hx as [b Hx]. apply clear_else in Hx as [Hx|[_ ->]]; [|by apply elem_of_nil in Hi]. apply (H x); [by eapply elem_of_list_lookup_2|done].
  Qed.
End Clear.
