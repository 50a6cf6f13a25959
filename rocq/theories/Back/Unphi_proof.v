(** All blocks of a function. *)
From stdpp Require Import base list numbers list_numbers.
From Verif Require Import Back.Unused_model Back.Unused_spec Back.Unphi_model Back.Unphi_spec Back.Unphi_look_proof Back.Unphi_sim_proof Back.Unphi_moves_proof Back.Unphi_edit_proof Back.Unphi_insert_proof Back.Unphi_edges_proof.
From Verif Require Back.Phi_model Back.Phi_spec Back.Flow_model Back.Flow_spec Back.Flow_live_proof Back.Labels_proof Back.Ssa_model Back.Ssa_spec.
Local Open Scope nat_scope.

Section Loop.
  Context {K C W : Type} (M : machine K (jmp C) W) (pinned : nat -> bool) (inv : C -> C) (mov : K).
  Hypothesis HL : labels_free M inv.
  Hypothesis Hmov : moves_as_said M mov.
  Context (has : nat -> bool) (from : nat -> list nat) (L nv : nat) (R0 : nat -> Prop).
  Hypothesis Hhas : forall l, L <= l -> has l = false.
  Hypothesis Hpin : forall v, pinned v = true -> v < nv.
  Notation ok := (ok pinned). Notation sim := (sim M pinned). Notation wt := (wt has from). Notation later := (later has from nv R0).

  Lemma resolve_ok fuel : forall ibb (f : @fn K C) (R : nat -> Prop) fr dn, ok R (body f) fr dn (newl f) (newv f) -> nv <= newv f -> L <= newl f -> (forall l, newl f <= l -> dn l = 0) ->
    (fst <$> body f) !! 0 = Some 0 -> (forall l, R0 l -> R l) -> (forall i l x, i < ibb -> body f !! i = Some (l, x) -> phis x = []) -> (forall i l x, ibb <= i -> body f !! i = Some (l, x) -> later fr dn l x) ->
    wt (drop ibb (fst <$> body f)) < fuel ->
    exists f' R' fr' dn', resolve mov inv has from fuel ibb f = Some f' /\ ok R' (body f') fr' dn' (newl f') (newv f') /\ (fst <$> body f') !! 0 = Some 0 /\ (forall i l x, body f' !! i = Some (l, x) -> phis x = []) /\
      sim R (body f) fr dn R' (body f') fr' dn'.
  Proof using HL Hmov Hhas Hpin.
    induction fuel as [|fuel IH]; intros ibb f R fr dn O Hnv HLn Hnew Hhead HR Hb Ha Hw; [lia|]. cbn [resolve]. destruct (body f !! ibb) as [[to x]|] eqn:Ei.
    - assert (Hd : drop ibb (fst <$> body f) = to :: drop (S ibb) (fst <$> body f)) by (apply drop_S; by rewrite list_lookup_fmap, Ei). rewrite Hd in Hw. cbn [Unphi_edges_proof.wt] in Hw. unfold weight in Hw.
      destruct (Ha ibb to x (le_n _) Ei) as (L1 & L2 & L3). destruct (has to) eqn:Eh.
      + destruct (L3 eq_refl) as (Q1 & Q2 & Q3).
        assert (I : inv_ pinned has from L nv R0 R f fr dn ibb to x (phis x) 0).
        { split; try done.
          - intros H. rewrite Q2 in H. destruct (Q3 H). split; [by apply HR|done].
          - intros i l y Hi Hy. apply (Ha i); [lia|done]. }
        destruct (edges_ok M pinned inv mov HL Hmov has from L nv R0 Hhas Hpin (from to) 0 R f fr dn ibb to x (phis x) I) as (f1 & ibb1 & R1 & fr1 & dn1 & y1 & ps1 & E & I1 & Hp1 & Hd1 & Hs1 & Hw1); [by rewrite Q2|].
        rewrite E. cbn [mbind option_bind]. pose proof (i_to _ _ _ _ _ _ _ _ _ _ _ _ _ _ _ I1) as Ht1. rewrite Ht1. cbn [mbind option_bind]. pose proof (i_ok _ _ _ _ _ _ _ _ _ _ _ _ _ _ _ I1) as O1.
        assert (Hc : length (fr1 to) <= dn1 to \/ phis y1 = []).
        { left. rewrite (i_dn _ _ _ _ _ _ _ _ _ _ _ _ _ _ _ I1). apply (f_equal length) in Hd1. rewrite drop_length in Hd1. cbn [length] in Hd1. lia. }
        set (f2 := Fn (<[ibb1 := (to, Blk [] (irs y1) (exit y1))]> (body f1)) (newl f1) (newv f1)).
        assert (Hat : forall j b z, body f2 !! j = Some (b, z) -> (j = ibb1 /\ phis z = []) \/ (j <> ibb1 /\ body f1 !! j = Some (b, z))).
        { intros j b z H. cbn [body f2] in H. destruct (decide (j = ibb1)) as [->|Hne]; [rewrite list_lookup_insert in H by (by eapply lookup_lt_Some); injection H as <- <-; by left|]. rewrite list_lookup_insert_ne in H by done. by right. }
        assert (Hlab : fst <$> body f2 = fst <$> body f1) by (by eapply set_labels).
        destruct (IH (S ibb1) f2 R1 fr1 dn1) as (f' & R' & fr' & dn' & E' & O' & Hh' & Hp' & Hs').
        * by apply (clear_ok pinned R1 (body f1) fr1 dn1 (newl f1) (newv f1) ibb1 to y1).
        * apply I1.
        * apply I1.
        * apply I1.
        * rewrite Hlab. apply I1.
        * intros l Hl. apply Hs1. by apply HR.
        * intros i l z Hi Hz. apply Hat in Hz as [[_ H]|[Hne Hz]]; [done|]. eapply (i_before _ _ _ _ _ _ _ _ _ _ _ _ _ _ _ I1); [|exact Hz]. lia.
        * intros i l z Hi Hz. apply Hat in Hz as [[Hq _]|[Hne Hz]]; [lia|]. eapply (i_after _ _ _ _ _ _ _ _ _ _ _ _ _ _ _ I1); [|exact Hz]. lia.
        * rewrite Hlab. lia.
        * exists f', R', fr', dn'. split; [exact E'|]. split; [done|]. split; [done|]. split; [done|].
          eapply sim_trans; [exact Hs1|]. eapply sim_trans; [|exact Hs']. split; [done|]. intros c s n Hc'. exists n. split; [done|]. by eapply (clear_sim M pinned inv HL R1).
      + destruct (IH (S ibb) f R fr dn) as (f' & R' & fr' & dn' & E' & H'); try done.
        * intros i l z Hi Hz. destruct (decide (i = ibb)) as [->|]; [|apply (Hb i l z); [lia|done]]. rewrite Ei in Hz. injection Hz as <- <-. by apply L2.
        * intros i l z Hi Hz. apply (Ha i); [lia|done].
        * lia.
        * by exists f', R', fr', dn'.
    - exists f, R, fr, dn. split; [done|]. split; [done|]. split; [done|]. split; [|apply sim_refl]. intros i l z Hz. apply (Hb i l z); [|done]. apply lookup_lt_Some in Hz. apply lookup_ge_None in Ei. lia.
  Qed.
End Loop.

(** The function before. *)
Section Base.
  Context {K C W : Type} (M : machine K (jmp C) W) (pinned : nat -> bool) (inv : C -> C).
  Hypothesis HL : labels_free M inv.
  Context (has : nat -> bool) (nv : nat) (bs : list (blk K (jmp C))) (from : list (list nat)).
  Hypothesis P : prepared pinned has nv bs from.
  Notation fr := (fun b => default [] (from !! b)).
  Notation R0 := (Ssa_spec.reach ends bs).
  Notation fl := (Ssa_spec.flow ends bs).
  Definition nxt (b : nat) : option nat := if decide (S b < length bs) then Some (S b) else None.
  Lemma lab_at i l x : labelled bs !! i = Some (l, x) <-> i = l /\ bs !! i = Some x.
  Proof using. clear. unfold labelled. rewrite list_lookup_imap. destruct (bs !! i) as [y|]; cbn; split; [intros [= <- <-]; done|intros [<- [= <-]]; done|done|by intros [_ H]]. Qed.
  Lemma lab_labels : fst <$> labelled bs = seq 0 (length bs).
  Proof using.
    clear. apply list_eq. intros i. rewrite list_lookup_fmap. unfold labelled. rewrite list_lookup_imap. destruct (bs !! i) as [y|] eqn:E; cbn.
    - apply lookup_lt_Some in E. rewrite lookup_seq_lt by done. done.
    - apply lookup_ge_None in E. by rewrite lookup_seq_ge.
  Qed.
  Lemma lab_nd : NoDup (fst <$> labelled bs). Proof using. rewrite lab_labels. apply NoDup_ListNoDup, seq_NoDup. Qed.
  Lemma look_lab b : look (labelled bs) b = match bs !! b with Some x => Some (x, nxt b) | None => None end.
  Proof using.
    destruct (bs !! b) as [x|] eqn:E.
    - rewrite (look_at _ b b x lab_nd) by (by apply lab_at). f_equal. f_equal. unfold nxt. rewrite <- list_lookup_fmap, lab_labels. case_decide; [by rewrite lookup_seq_lt|rewrite lookup_seq_ge; [done|lia]].
    - destruct (look (labelled bs) b) as [[x nx]|] eqn:E2; [|done]. apply look_inv in E2 as (i & Hi & _). apply lab_at in Hi as [-> Hi]. congruence.
  Qed.
  Lemma look_lab_inv b x nx : look (labelled bs) b = Some (x, nx) -> bs !! b = Some x /\ nx = nxt b.
  Proof using. rewrite look_lab. destruct (bs !! b); [by intros [= <- <-]|done]. Qed.
  Lemma flow_at b x : bs !! b = Some x -> fl !! b = Some (Ssa_model.flow_blk ends x).
  Proof using. clear. intros H. unfold Ssa_spec.flow. by rewrite list_lookup_fmap, H. Qed.
  Lemma flow_len : length fl = length bs. Proof using. apply fmap_length. Qed.
  Lemma last_of (x : blk K (jmp C)) : Flow_model.last (Ssa_model.flow_blk ends x) = match exit x with None => Flow_model.Falls | Some (j, _) => ends j end.
  Proof using. clear. unfold Ssa_model.flow_blk. cbn. by destruct (exit x) as [[j l]|]. Qed.
  Lemma leads_edge b x c : bs !! b = Some x -> leads (exit x) (nxt b) c <-> Ssa_spec.edge ends bs b c.
  Proof using P.
    intros Hb. pose proof (p_jumps _ _ _ _ _ P b _ (flow_at b x Hb)) as Hw. unfold Ssa_spec.edge, Flow_spec.edge. rewrite last_of in Hw.
    assert (He : forall l, exit x <> Some (Multi [], l)) by (intros l E; by apply (proj1 (p_ends _ _ _ _ _ P) b x [] l Hb E)).
    assert (Hn : nxt b = Some c <-> c = S b /\ c < length bs) by (unfold nxt; case_decide; split; [intros [= <-]; done|intros [-> _]; done|done|intros [-> ?]; lia]).
    rewrite flow_len in *. split.
    - intros H. exists (Ssa_model.flow_blk ends x). split; [by apply flow_at|]. rewrite last_of. destruct (exit x) as [[[t|d t|[|t ts]] l]|]; cbn in *.
      + by subst.
      + destruct H as [->|H]; [split; [done|by left]|]. apply Hn in H as [-> H]. split; [done|by right].
      + by destruct (He l).
      + split; [by apply Hw|done].
      + apply Hn in H as [-> H]. done.
    - intros (y & Hy & Hc & H). rewrite (flow_at b x Hb) in Hy. injection Hy as <-. rewrite last_of in H. destruct (exit x) as [[[t|d t|[|t ts]] l]|]; cbn in *; [done| |by destruct (He l)|done|].
      + destruct H as [->| ->]; [by left|right; by apply Hn].
      + by apply Hn.
  Qed.
  Lemma reach_lt b : R0 b -> b < length bs.
  Proof using. clear. intros H. rewrite <- flow_len. destruct H as [H|a b _ (x & _ & H & _)]; done. Qed.
  Lemma preds : length from = length bs /\ forall a b, a ∈ fr b <-> R0 a /\ Ssa_spec.edge ends bs a b.
  Proof using P.
    destruct (Flow_live_proof.predecessors_ok fl (p_jumps _ _ _ _ _ P)) as (from' & E & Hl & H). rewrite (p_from _ _ _ _ _ P) in E. injection E as <-. rewrite flow_len in Hl. split; [done|].
    intros a b. specialize (H a b). etransitivity; [|exact H]. cbn beta. destruct (from !! b) as [f|] eqn:Ef; cbn; split.
    - intros Ha. by exists f.
    - by intros (f' & [= <-] & Ha).
    - by intros ?%elem_of_nil.
    - by intros (f' & ? & _).
  Qed.
  Lemma cnt_occ a l : Labels_proof.cnt a l = occ a l.
  Proof using. clear. unfold occ. induction l as [|b l IH]; [done|]. cbn [Labels_proof.cnt]. rewrite filter_cons, IH. destruct (decide (b = a)); cbn; lia. Qed.
  Lemma base_count a x c : R0 a -> bs !! a = Some x -> multi (exit x) = false -> occ a (fr c) = times (exit x) (nxt a) c.
  Proof using P.
    intros Ha Hx Hm. destruct preds as [Hl Hp]. destruct (decide (a ∈ fr c)) as [Hin|Hni].
    - destruct (from !! c) as [f|] eqn:Ef; [|by apply elem_of_nil in Hin]. cbn [default from_option id] in Hin |- *; change (id f) with f in *; try unfold id in Hin |- *.
      rewrite <- cnt_occ. rewrite (Labels_proof.detect_times fl from a c _ f (p_from _ _ _ _ _ P) (flow_at a x Hx) Ef Hin); [|rewrite flow_len, <- Hl; by eapply lookup_lt_Some].
      rewrite cnt_occ. unfold Flow_model.succs. rewrite last_of.
      assert (Hn : occ c (Flow_model.next fl a) = is1 (nxt a) c).
      { unfold Flow_model.next, nxt, is1. rewrite flow_len. destruct (S a <? length bs) eqn:E; [apply Nat.ltb_lt in E|apply Nat.ltb_ge in E].
        - rewrite (decide_True (P := S a < length bs)) by done. unfold occ. rewrite filter_cons. case_decide; case_decide; try done; naive_solver.
        - rewrite (decide_False (P := S a < length bs)) by lia. by rewrite decide_False. }
      assert (H1 : forall t l, occ c (t :: l) = is1 (Some t) c + occ c l) by (intros t l; unfold occ, is1; rewrite filter_cons; case_decide; case_decide; naive_solver).
      destruct (exit x) as [[[t|d t|ts] l]|]; cbn [ends times]; [by rewrite H1|by rewrite H1, Hn|done|done].
    - assert (Hz : ~ leads (exit x) (nxt a) c) by (rewrite (leads_edge a x c Hx); intros He; by apply Hni, Hp).
      rewrite leads_times in Hz by done. assert (Ho : ~ 0 < occ a (fr c)) by (by rewrite occ_elem). cbn beta in Ho |- *. lia.
  Qed.
  Lemma base_ok : ok pinned R0 (labelled bs) fr (fun _ => 0) (length bs) nv.
  Proof using P.
    destruct preds as [Hl Hp]. destruct (p_regs _ _ _ _ _ P) as (G1 & G2 & G3 & G4). destruct (p_full _ _ _ _ _ P) as [F1 F2]. split.
    - exact lab_nd.
    - intros i l x Hi. apply lab_at in Hi as [-> Hi]. by eapply lookup_lt_Some.
    - intros a Ha. rewrite look_lab. apply reach_lt in Ha. by destruct (lookup_lt_is_Some_2 bs a Ha) as [x ->].
    - intros a x nx c Ha Hx Hc. apply look_lab_inv in Hx as [Hx ->]. apply Flow_spec.reach_step with a; [done|]. by eapply leads_edge; [exact Hx|].
    - intros a x nx c Ha Hx Hm. apply look_lab_inv in Hx as [Hx ->]. by apply base_count.
    - intros a x nx c Ha Hx _ Hc. apply look_lab_inv in Hx as [Hx ->]. apply Hp. split; [done|]. by eapply leads_edge; [exact Hx|].
    - intros a c Hc. by apply Hp in Hc as [? _].
    - intros c i k a _ _ H. lia.
    - intros c x nx p i k a Hx Hq H1 H2. apply look_lab_inv in Hx as [Hx _]. cbn beta in H1, H2. destruct (from !! c) as [f|] eqn:Ef; [|done]. by eapply (p_alike _ _ _ _ _ P).
    - intros c x nx p Hc Hx Hq. apply look_lab_inv in Hx as [Hx _]. apply reach_lt in Hc. rewrite <- Hl in Hc. destruct (lookup_lt_is_Some_2 from c Hc) as [f Ef]. cbn beta. rewrite Ef. by eapply F1.
    - intros i l x j q Hi Hlast Hx. apply lab_at in Hi as [-> Hi]. eapply (proj2 (p_ends _ _ _ _ _ P)); [done| |done]. unfold labelled in Hlast. by rewrite imap_length in Hlast.
    - intros i l x ts q Hi Hx. apply lab_at in Hi as [-> Hi]. by eapply (proj1 (p_ends _ _ _ _ _ P)).
    - intros i l x Hi. apply lab_at in Hi as [-> Hi]. split; [by eapply G1| |by intros; eapply G3|by intros; eapply G4].
      intros p Hq. destruct (G2 l x p Hi Hq) as [H1 H2]. assert (Hlt : l < length from) by (rewrite Hl; by eapply lookup_lt_Some). destruct (lookup_lt_is_Some_2 from l Hlt) as [f Ef].
      destruct (F1 l f x p Ef Hi Hq) as (_ & H3 & H4). split; [done|]. split; [done|]. intros v Hv. split; [by apply H2|by apply H4].
  Qed.
  Context (index : nat -> nat -> nat).
  Hypothesis Hidx : forall a b f, from !! b = Some f -> a ∈ f -> f !! index a b = Some a.
  Lemma base_trace n : forall a b x s, R0 b -> bs !! b = Some x -> trace M pinned index n bs a b s = gtrace M pinned n (labelled bs) fr (fun _ => 0) (Some b) (enter M pinned (phis x) (index a b) s).
  Proof using P HL Hidx.
    induction n as [|n IH]; intros a b x s Hb Hx; [done|]. cbn [trace gtrace]. rewrite look_lab, Hx. destruct (execs M pinned (irs x) (enter M pinned (phis x) (index a b) s)) as [es s1]. f_equal.
    assert (Hg : match exit x with Some (j, l) => default (S b) (target M j ((fun o => rd M pinned o s1) <$> l) s1.2) | None => S b end = default (S b) (goes M pinned x (nxt b) s1) /\ (goes M pinned x (nxt b) s1 = None -> S b >= length bs)).
    { unfold goes. assert (Hn : default (S b) (nxt b) = S b /\ (nxt b = None -> S b >= length bs)) by (unfold nxt; case_decide; split; try done; lia).
      destruct (exit x) as [[j l]|]; [|split; [symmetry; apply Hn|apply Hn]]. destruct (target M j _ s1.2); [done|]. split; [symmetry; apply Hn|apply Hn]. }
    destruct Hg as [-> Hg2]. destruct (goes M pinned x (nxt b) s1) as [c|] eqn:Eg; cbn [from_option]; try unfold id.
    - assert (Hle : leads (exit x) (nxt b) c) by (eapply goes_leads; [exact HL| |exact Eg]; intros ts q; by eapply (proj1 (p_ends _ _ _ _ _ P))).
      apply leads_edge in Hle; [|done]. assert (Hc : R0 c) by (by eapply Flow_spec.reach_step). pose proof (reach_lt c Hc) as Hlt. destruct (lookup_lt_is_Some_2 bs c Hlt) as [y Hy].
      rewrite (IH b c y s1 Hc Hy). f_equal. unfold pass. cbn [mbind option_bind]. rewrite look_lab, Hy. unfold ent. cbn [take]. rewrite decide_False by (by intros ?%elem_of_nil).
      assert (Hin : b ∈ fr c) by (by apply preds). cbn beta in Hin |- *. destruct (from !! c) as [f|] eqn:Ef; [|by apply elem_of_nil in Hin]. cbn [default from_option id] in Hin |- *; change (id f) with f in *; try unfold id in Hin |- *. apply enter_same.
      intros p Hp. eapply (p_alike _ _ _ _ _ P); [exact Ef|exact Hy|done|by apply Hidx|by apply place_ok].
    - destruct n as [|n]; [done|]. cbn [trace gtrace]. specialize (Hg2 eq_refl). by rewrite (lookup_ge_None_2 bs (S b)).
  Qed.
End Base.

Lemma wt_seq has (from : list (list nat)) k : forall n, wt has (fun b => default [] (from !! b)) (seq k n) <= n + length (concat (take n (drop k from))).
Proof.
  intros n. revert k. induction n as [|n IH]; intros k; [done|]. cbn [seq wt]. unfold weight. specialize (IH (S k)). destruct (from !! k) as [f|] eqn:E.
  - rewrite (drop_S from f k E). cbn [take concat]. rewrite app_length. cbn. destruct (has k); lia.
  - cbn. apply lookup_ge_None in E. rewrite (drop_ge from k E). rewrite (drop_ge from (S k)) in IH by lia. rewrite !take_nil in *. destruct (has k); lia.
Qed.
Lemma concat_take {A} n (l : list (list A)) : length (concat (take n l)) <= length (concat l).
Proof. rewrite <- (take_drop n l) at 2. rewrite concat_app, app_length. lia. Qed.

Section Whole.
  Context {K C W : Type} (M : machine K (jmp C) W) (pinned : nat -> bool) (inv : C -> C) (mov : K).
  Hypothesis HL : labels_free M inv.
  Hypothesis Hmov : moves_as_said M mov.
  Lemma resolve_all has nv bs from : prepared pinned has nv bs from -> (forall b x, bs !! b = Some x -> resolvable nv (phis x)) ->
    exists f R fr dn, resolve_phis mov inv has from nv bs = Some f /\ ok pinned R (body f) fr dn (newl f) (newv f) /\ (fst <$> body f) !! 0 = Some 0 /\ (forall i l x, body f !! i = Some (l, x) -> phis x = []) /\
      sim M pinned (Ssa_spec.reach ends bs) (labelled bs) (fun b => default [] (from !! b)) (fun _ => 0) R (body f) fr dn.
  Proof using HL Hmov.
    intros P Hr. unfold resolve_phis. set (L := length bs). assert (H0 : 0 < L) by (pose proof (p_some _ _ _ _ _ P); unfold L; destruct bs; [done|cbn; lia]).
    destruct (resolve_ok M pinned inv mov HL Hmov (fun l => has l && (l <? L)) (fun b => default [] (from !! b)) L nv (Ssa_spec.reach ends bs)) with
      (fuel := S (L + length (concat from))) (ibb := 0) (f := Fn (labelled bs) L nv) (R := Ssa_spec.reach ends bs) (fr := fun b => default [] (from !! b)) (dn := fun _ : nat => 0) as (f & R & fr & dn & E & H); cbn [body newl newv].
    - intros l Hl. apply andb_false_iff. right. by apply Nat.ltb_ge.
    - apply P.
    - by eapply base_ok.
    - done.
    - done.
    - done.
    - rewrite lab_labels. by rewrite lookup_seq_lt.
    - done.
    - lia.
    - intros i l x _ Hi. apply lab_at in Hi as [-> Hi]. split; [done|]. assert (Hl : l < L) by (by eapply lookup_lt_Some). rewrite (proj2 (Nat.ltb_lt l L) Hl), andb_true_r. split; [by apply (p_has _ _ _ _ _ P)|].
      intros _. split; [by eapply Hr|]. split; [done|]. intros Hf. destruct (default [] (from !! l)) as [|a t] eqn:Ea; [done|]. destruct (preds pinned has nv bs from P) as [_ Hp]. destruct (proj1 (Hp a l)) as [H1 H2]; [rewrite Ea; by left|].
      split; [by eapply Flow_spec.reach_step|]. intros ->. by apply (p_start _ _ _ _ _ P a).
    - rewrite lab_labels. change (drop 0 (seq 0 (length bs))) with (seq 0 (length bs)).
      eapply Nat.le_lt_trans; [apply (wt_seq (fun l => has l && (l <? L)) from 0 (length bs))|]. pose proof (concat_take (length bs) from). change (drop 0 from) with from. unfold L. lia.
    - exists f, R, fr, dn. done.
  Qed.
  Lemma resolve_total has nv bs from : prepared pinned has nv bs from -> (forall b x, bs !! b = Some x -> resolvable nv (phis x)) -> is_Some (resolve_phis mov inv has from nv bs).
  Proof using HL Hmov. intros P Hr. destruct (resolve_all has nv bs from P Hr) as (f & _ & _ & _ & E & _). by exists f. Qed.
  Lemma resolve_gone has nv bs from f : prepared pinned has nv bs from -> (forall b x, bs !! b = Some x -> resolvable nv (phis x)) -> resolve_phis mov inv has from nv bs = Some f ->
    NoDup (fst <$> body f) /\ (fst <$> body f) !! 0 = Some 0 /\ forall i l x, body f !! i = Some (l, x) -> phis x = [].
  Proof using HL Hmov. intros P Hr Ef. destruct (resolve_all has nv bs from P Hr) as (f' & R & fr & dn & E & O & H0 & Hp & _). rewrite Ef in E. injection E as <-. split; [apply O|done]. Qed.
  Lemma resolve_same has nv bs from f index : prepared pinned has nv bs from -> (forall b x, bs !! b = Some x -> resolvable nv (phis x)) -> (forall a b f, from !! b = Some f -> a ∈ f -> f !! index a b = Some a) ->
    resolve_phis mov inv has from nv bs = Some f -> forall n a s, exists m, n <= m /\ ltrace M pinned m (body f) (fst <$> head (body f)) s = trace M pinned index n bs a 0 s.
  Proof using HL Hmov.
    intros P Hr Hi Ef n a s. destruct (resolve_all has nv bs from P Hr) as (f' & R & fr & dn & E & O & H0 & Hp & Hs). rewrite Ef in E. injection E as <-.
    assert (Hr0 : Ssa_spec.reach ends bs 0) by (constructor; rewrite flow_len; pose proof (p_some _ _ _ _ _ P); destruct bs; [done|cbn; lia]).
    destruct (lookup_lt_is_Some_2 bs 0) as [x Hx]; [pose proof (p_some _ _ _ _ _ P); destruct bs; [done|cbn; lia]|].
    destruct (proj2 Hs 0 s n Hr0) as (m & Hm & Eq). exists m. split; [done|].
    assert (fst <$> head (body f) = Some 0) as -> by (rewrite head_lookup, <- list_lookup_fmap; exact H0).
    rewrite <- (gtrace_ltrace M pinned (body f) fr dn Hp), Eq. rewrite (base_trace M pinned inv HL has nv bs from P index Hi n a 0 x s Hr0 Hx).
    rewrite (proj2 (p_full _ _ _ _ _ P) x Hx). done.
  Qed.
End Whole.
