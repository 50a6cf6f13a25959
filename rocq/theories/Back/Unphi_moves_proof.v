(** The moves that replace the phis of one edge. *)
From stdpp Require Import base list numbers.
From Verif Require Import Back.Unused_model Back.Unused_spec Back.Unphi_model Back.Unphi_spec Back.Unphi_look_proof Back.Unphi_sim_proof.
From Verif Require Back.Phi_model Back.Phi_spec Back.Phi_proof Back.Phi_frame_proof.
Local Open Scope nat_scope.

Section From.
  Import Phi_model.
  Lemma cycle_from T (c ps : list phi) d s : (forall p, p ∈ c -> p ∈ ps) -> (d, s) ∈ cycle_moves T c -> (d ∈ dst <$> ps \/ d = T) /\ (s ∈ src <$> ps \/ s = T).
  Proof.
    intros H. destruct c as [|p c]; cbn; [by intros ?%elem_of_nil|]. assert (Hp : p ∈ ps) by (apply H; by left). intros Hin.
    apply elem_of_cons in Hin as [[= -> ->]|Hin]; [split; [by right|left; by apply elem_of_list_fmap_1]|]. apply elem_of_app in Hin as [Hin|Hin].
    - apply elem_of_list_fmap in Hin as (q & [= -> ->] & Hq). assert (q ∈ ps) by (apply H; by right). split; left; by apply elem_of_list_fmap_1.
    - apply elem_of_list_singleton in Hin as [= -> ->]. split; [left; by apply elem_of_list_fmap_1|by right].
  Qed.
  Lemma cycles_from cs : forall T (ps : list phi) d s, (forall c p, c ∈ cs -> p ∈ c -> p ∈ ps) -> (d, s) ∈ cycles_moves T cs ->
    (d ∈ dst <$> ps \/ T <= d < T + length cs) /\ (s ∈ src <$> ps \/ T <= s < T + length cs).
  Proof.
    induction cs as [|c cs IH]; intros T ps d s H Hin; cbn [cycles_moves] in Hin; [by apply elem_of_nil in Hin|]. cbn [length]. apply elem_of_app in Hin as [Hin|Hin].
    - destruct (cycle_from T c ps d s) as [H1 H2]; [intros p; apply H; by left|done|]. split; [destruct H1; [by left|right; lia]|destruct H2; [by left|right; lia]].
    - destruct (IH (S T) ps d s) as [H1 H2]; [intros c' p Hc; apply H; by right|done|]. split; [destruct H1; [by left|right; lia]|destruct H2; [by left|right; lia]].
  Qed.
  Lemma moves_from T ps moves l cyc d s : replace_phis T ps = Some moves -> extract_cyclic_dependency ps = Some (l, cyc) -> (d, s) ∈ moves ->
    (d ∈ dst <$> ps \/ T <= d < T + length cyc) /\ (s ∈ src <$> ps \/ T <= s < T + length cyc).
  Proof.
    unfold replace_phis. intros H E. rewrite E in H. destruct (mapM id l) as [qs|] eqn:Em; [|done]. injection H as <-. pose proof (extract_perm _ _ _ _ E Em) as Hp. intros Hin. apply elem_of_app in Hin as [Hin|Hin].
    - apply elem_of_list_fmap in Hin as (q & [= -> ->] & Hq). assert (q ∈ ps) by (rewrite <- Hp; apply elem_of_app; by left). split; left; by apply elem_of_list_fmap_1.
    - apply (cycles_from cyc T ps d s); [|done]. intros c p Hc Hpc. rewrite <- Hp. apply elem_of_app. right. apply elem_of_list_In, in_concat. exists c. split; by apply elem_of_list_In.
  Qed.
  Lemma run_ext moves : forall r1 r2 : nat -> Z, (forall v, r1 v = r2 v) -> forall v, Phi_spec.run moves r1 v = Phi_spec.run moves r2 v.
  Proof. induction moves as [|[d s] moves IH]; intros r1 r2 H v; [apply H|]. cbn. apply IH. intros u. unfold Phi_spec.upd. rewrite (H s). by destruct (u =? d). Qed.
End From.

Section Moves.
  Context {K C W : Type} (M : machine K (jmp C) W) (pinned : nat -> bool) (mov : K).
  Hypothesis Hmov : moves_as_said M mov.
  Context (tmp k : nat) (ps : list phi).
  Hypothesis Hpin : forall v, pinned v = true -> v < tmp.
  Hypothesis Hnd : NoDup (pdst <$> ps).
  Hypothesis Hps : forall p, p ∈ ps -> pdst p < tmp /\ pinned (pdst p) = false /\ forall v, inr v ∈ params p -> v < tmp /\ pinned v = false.
  Context (cs : list Phi_model.phi) (moves : list (nat * nat)) (l : Phi_model.phis) (cyc : list (list Phi_model.phi)).
  Hypothesis Hcs : coded tmp k ps = Some cs.
  Hypothesis Hmoves : Phi_model.replace_phis (tmp + length ps) cs = Some moves.
  Hypothesis Hex : Phi_model.extract_cyclic_dependency cs = Some (l, cyc).
  Hypothesis Hpar : Phi_spec.parallel cs moves.
  Notation n := (length ps).
  Lemma coded_at i p : ps !! i = Some p -> exists o, params p !! k = Some o /\ cs !! i = Some (Phi_model.Phi (pdst p) (match o with inr v => v | inl _ => tmp + i end)).
  Proof using Hcs.
    intros Hp. apply mapM_Some_1 in Hcs. assert (Hi : imap pair ps !! i = Some (i, p)) by (by rewrite list_lookup_imap, Hp).
    destruct (Forall2_lookup_l _ _ _ _ _ Hcs Hi) as (c & Hc & E). cbn in E. destruct (params p !! k) as [o|] eqn:Eo; [|done]. cbn in E. injection E as <-. by exists o.
  Qed.
  Lemma coded_inv i c : cs !! i = Some c -> exists p o, ps !! i = Some p /\ params p !! k = Some o /\ c = Phi_model.Phi (pdst p) (match o with inr v => v | inl _ => tmp + i end).
  Proof using Hcs.
    intros Hc. pose proof Hcs as H. apply mapM_Some_1 in H. destruct (Forall2_lookup_r _ _ _ _ _ H Hc) as ([i' p] & Hi & E). rewrite list_lookup_imap in Hi.
    destruct (ps !! i) as [q|] eqn:Ep; [|done]. cbn in Hi. injection Hi as <- <-. cbn in E. destruct (params q !! k) as [o|] eqn:Eo; [|done]. injection E as <-. by exists q, o.
  Qed.
  Lemma dsts_coded : Phi_model.dst <$> cs = pdst <$> ps.
  Proof using Hcs.
    apply list_eq. intros i. rewrite !list_lookup_fmap. destruct (ps !! i) as [p|] eqn:Ep.
    - destruct (coded_at i p Ep) as (o & _ & ->). done.
    - destruct (cs !! i) as [c|] eqn:Ec; [|done]. destruct (coded_inv i c Ec) as (p & o & H & _). congruence.
  Qed.
  Definition value (s : state W) (v : nat) : Z :=
    if v <? tmp then s.1 v else if v <? tmp + n then match decoded tmp k ps v with inl z => z | inr _ => 0%Z end else s.1 (v - n).
  Lemma value_src s c : c ∈ cs -> rd M pinned (decoded tmp k ps (Phi_model.src c)) s = value s (Phi_model.src c).
  Proof using Hps Hcs.
    intros Hc. apply elem_of_list_lookup in Hc as [i Hi]. destruct (coded_inv i c Hi) as (p & o & Hp & Ho & ->). cbn [Phi_model.src]. unfold value, decoded.
    destruct (Hps p) as (_ & _ & Hv); [by eapply elem_of_list_lookup_2|]. destruct o as [z|v].
    - assert (i < n) by (by eapply lookup_lt_Some). replace (tmp + i <? tmp) with false by (symmetry; apply Nat.ltb_ge; lia). replace (tmp + i <? tmp + n) with true by (symmetry; apply Nat.ltb_lt; lia).
      replace (tmp + i - tmp) with i by lia. rewrite Hp. cbn [mbind option_bind]. by rewrite Ho.
    - destruct (Hv v) as [H1 H2]; [by eapply elem_of_list_lookup_2|]. replace (v <? tmp) with true by (symmetry; by apply Nat.ltb_lt). cbn [rd]. by rewrite H2.
  Qed.
  Definition fair (ds : nat * nat) : Prop := (ds.1 ∈ Phi_model.dst <$> cs \/ tmp + n <= ds.1 < tmp + n + length cyc) /\ (ds.2 ∈ Phi_model.src <$> cs \/ tmp + n <= ds.2 < tmp + n + length cyc).
  Lemma all_fair : Forall fair moves.
  Proof using Hmoves Hex. apply stdpp.list.Forall_forall. intros [d s] H. by eapply moves_from. Qed.
  Lemma value_fair s ds : fair ds -> rd M pinned (decoded tmp k ps ds.2) s = value s ds.2.
  Proof using Hps Hcs Hpin.
    intros [_ [H|H]].
    - apply elem_of_list_fmap in H as (c & -> & Hc). by apply value_src.
    - unfold value, decoded. replace (ds.2 <? tmp) with false by (symmetry; apply Nat.ltb_ge; lia). replace (ds.2 <? tmp + n) with false by (symmetry; apply Nat.ltb_ge; lia). cbn [rd].
      destruct (pinned (ds.2 - n)) eqn:E; [|done]. apply Hpin in E. lia.
  Qed.
  Lemma dst_fair ds : fair ds -> pinned (decoded_reg tmp n ds.1) = false /\ (ds.1 < tmp \/ tmp + n <= ds.1).
  Proof using Hps Hcs Hpin.
    intros [[H|H] _].
    - rewrite dsts_coded in H. apply elem_of_list_fmap in H as (p & -> & Hp). destruct (Hps p Hp) as (H1 & H2 & _). unfold decoded_reg. replace (pdst p <? tmp) with true by (symmetry; by apply Nat.ltb_lt). split; [done|by left].
    - unfold decoded_reg. replace (ds.1 <? tmp) with false by (symmetry; apply Nat.ltb_ge; lia). split; [|right; lia]. destruct (pinned (ds.1 - n)) eqn:E; [|done]. apply Hpin in E. lia.
  Qed.
  Lemma run_moves ms : Forall fair ms -> forall s, exists s', execs M pinned (move mov tmp k ps <$> ms) s = ([], s') /\ s'.2 = s.2 /\ forall v, value s' v = Phi_spec.run ms (value s) v.
  Proof using Hps Hcs Hpin Hmov.
    induction ms as [|ds ms IH]; intros Hf s; [by exists s|]. apply stdpp.list.Forall_cons in Hf as [Hd Hf]. destruct (dst_fair ds Hd) as [Hp Hr].
    rewrite fmap_cons. cbn [execs]. destruct Hmov as [Hseen Hact].
    set (s1 := wr M pinned (decoded_reg tmp n ds.1) (value s ds.2) s).
    assert (E1 : exec M pinned (move mov tmp k ps ds) s = ([], s1)).
    { unfold exec, move. cbn [op oprs dst fmap list_fmap]. rewrite (value_fair s ds Hd), Hact, Hseen. unfold s1. by destruct s. }
    rewrite E1. destruct (IH Hf s1) as (s' & E & Hw & Hv). rewrite E. exists s'. split; [done|].
    assert (Hs1 : s1 = (fun u => if decide (u = decoded_reg tmp n ds.1) then value s ds.2 else s.1 u, s.2)) by (unfold s1, wr; by rewrite Hp).
    split; [by rewrite Hw, Hs1|]. intros v. rewrite Hv. destruct ds as [d sc]. cbn [Phi_spec.run fst snd] in *. apply run_ext. intros u. unfold Phi_spec.upd.
    unfold value at 1. rewrite Hs1. cbn [fst]. unfold decoded_reg. destruct (u =? d) eqn:Eu.
    - apply Nat.eqb_eq in Eu as ->. destruct (d <? tmp) eqn:Ed; [by rewrite decide_True|]. apply Nat.ltb_ge in Ed. destruct Hr as [Hr|Hr]; [lia|].
      replace (d <? tmp + n) with false by (symmetry; apply Nat.ltb_ge; lia). by rewrite decide_True.
    - apply Nat.eqb_neq in Eu. assert (Hu : value s u = if u <? tmp then s.1 u else if u <? tmp + n then match decoded tmp k ps u with inl z => z | inr _ => 0%Z end else s.1 (u - n)) by reflexivity. rewrite Hu. clear Hu. destruct (u <? tmp) eqn:E2; [|destruct (u <? tmp + n) eqn:E3; [done|]].
      + rewrite decide_False; [done|]. apply Nat.ltb_lt in E2. destruct (d <? tmp) eqn:Ed; [done|]. apply Nat.ltb_ge in Ed. lia.
      + rewrite decide_False; [done|]. apply Nat.ltb_ge in E2, E3. destruct (d <? tmp) eqn:Ed; [apply Nat.ltb_lt in Ed|apply Nat.ltb_ge in Ed]; lia.
  Qed.
  Lemma enter_world (qs : list phi) s s0 : (forall p, p ∈ qs -> pinned (pdst p) = false) ->
    (foldr (fun p s' => wr M pinned (pdst p) (rd M pinned (default (inl 0%Z) (params p !! k)) s) s') s0 qs).2 = s0.2.
  Proof using. clear. induction qs as [|q qs IH]; intros H; [done|]. cbn. unfold wr at 1. rewrite (H q) by (by left). cbn. apply IH. intros p Hp. apply H. by right. Qed.
  Lemma enter_other (qs : list phi) s s0 v : (forall p, p ∈ qs -> pinned (pdst p) = false) -> v ∉ pdst <$> qs ->
    (foldr (fun p s' => wr M pinned (pdst p) (rd M pinned (default (inl 0%Z) (params p !! k)) s) s') s0 qs).1 v = s0.1 v.
  Proof using.
    clear. induction qs as [|q qs IH]; intros H Hv; [done|]. cbn. unfold wr at 1. rewrite (H q) by (by left). cbn. rewrite fmap_cons, not_elem_of_cons in Hv.
    rewrite decide_False by tauto. apply IH; [|tauto]. intros p Hp. apply H. by right.
  Qed.
  Lemma enter_dst (qs : list phi) s s0 p : (forall p, p ∈ qs -> pinned (pdst p) = false) -> NoDup (pdst <$> qs) -> p ∈ qs ->
    (foldr (fun p s' => wr M pinned (pdst p) (rd M pinned (default (inl 0%Z) (params p !! k)) s) s') s0 qs).1 (pdst p) = rd M pinned (default (inl 0%Z) (params p !! k)) s.
  Proof using.
    clear. induction qs as [|q qs IH]; intros H Hn Hp; [by apply elem_of_nil in Hp|]. cbn. unfold wr at 1. rewrite (H q) by (by left). cbn. rewrite fmap_cons in Hn. apply stdpp.list.NoDup_cons in Hn as [Hn1 Hn2].
    apply elem_of_cons in Hp as [->|Hp]; [by rewrite decide_True|]. rewrite decide_False; [|intros E; apply Hn1; rewrite <- E; by apply elem_of_list_fmap_1].
    apply IH; [|done|done]. intros p' Hp'. apply H. by right.
  Qed.
  Lemma moves_ok (qs : list phi) s : qs ≡ₚ ps -> exists s', execs M pinned (move mov tmp k ps <$> moves) s = ([], s') /\ s'.2 = s.2 /\ (enter M pinned qs k s).2 = s.2 /\
    forall v, v < tmp -> s'.1 v = (enter M pinned qs k s).1 v.
  Proof using All.
    intros Hq. assert (Hup : forall p, p ∈ qs -> pinned (pdst p) = false) by (intros p Hp; apply Hps; by rewrite <- Hq).
    destruct (run_moves moves all_fair s) as (s' & E & Hw & Hv). exists s'. split; [done|]. split; [done|]. split; [by apply enter_world|]. intros v Hlt.
    assert (Hval : forall t, value t v = t.1 v) by (intros t; unfold value; by replace (v <? tmp) with true by (symmetry; by apply Nat.ltb_lt)).
    rewrite <- Hval, Hv. destruct (decide (v ∈ pdst <$> ps)) as [Hin|Hni].
    - apply elem_of_list_fmap in Hin as (p & -> & Hp). unfold enter. rewrite enter_dst; [|done|by rewrite Hq|by rewrite Hq].
      pose proof Hp as Hp'. apply elem_of_list_lookup in Hp' as [i Hi]. destruct (coded_at i p Hi) as (o & Ho & Hc). assert (Hcin : Phi_model.Phi (pdst p) (match o with inr v => v | inl _ => tmp + i end) ∈ cs) by (by eapply elem_of_list_lookup_2).
      pose proof (Hpar (value s) _ Hcin) as H. cbn [Phi_model.dst] in H. rewrite H. rewrite <- value_src by done. rewrite Ho. cbn [default from_option]. f_equal.
      unfold decoded. cbn [Phi_model.src]. destruct o as [z|v].
      + assert (i < n) by (by eapply lookup_lt_Some). replace (tmp + i <? tmp) with false by (symmetry; apply Nat.ltb_ge; lia). replace (tmp + i <? tmp + n) with true by (symmetry; apply Nat.ltb_lt; lia).
        replace (tmp + i - tmp) with i by lia. rewrite Hi. cbn [mbind option_bind]. by rewrite Ho.
      + destruct (Hps p Hp) as (_ & _ & Hr). destruct (Hr v) as [H1 H2]; [by eapply elem_of_list_lookup_2|]. by replace (v <? tmp) with true by (symmetry; by apply Nat.ltb_lt).
    - rewrite (Phi_frame_proof.replace_frame _ _ _ Hmoves (value s) v); [|lia|by rewrite dsts_coded]. rewrite Hval. unfold enter. rewrite enter_other; [done|done|]. by rewrite Hq.
  Qed.
  Lemma moves_names i v : i ∈ (move mov tmp k ps <$> moves) -> dst i = Some v \/ inr v ∈ oprs i -> v < tmp + length cyc.
  Proof using All.
    intros Hi Hv. apply elem_of_list_fmap in Hi as (ds & -> & Hds). pose proof all_fair as F. rewrite stdpp.list.Forall_forall in F. specialize (F ds Hds). cbn [dst oprs move] in Hv. destruct Hv as [[= <-]|Hv].
    - destruct F as [[H|H] _]; unfold decoded_reg.
      + rewrite dsts_coded in H. apply elem_of_list_fmap in H as (p & -> & Hp). destruct (Hps p Hp) as (H1 & _). replace (pdst p <? tmp) with true by (symmetry; by apply Nat.ltb_lt). lia.
      + replace (ds.1 <? tmp) with false by (symmetry; apply Nat.ltb_ge; lia). lia.
    - apply elem_of_list_singleton in Hv. destruct F as [_ [H|H]]; unfold decoded in Hv.
      + apply elem_of_list_fmap in H as (c & E & Hc). apply elem_of_list_lookup in Hc as [j Hj]. destruct (coded_inv j c Hj) as (p & o & Hp & Ho & ->). rewrite E in Hv. cbn [Phi_model.src] in Hv.
        destruct (Hps p) as (_ & _ & Hr); [by eapply elem_of_list_lookup_2|]. destruct o as [z|u].
        * assert (j < n) by (by eapply lookup_lt_Some). replace (tmp + j <? tmp) with false in Hv by (symmetry; apply Nat.ltb_ge; lia). replace (tmp + j <? tmp + n) with true in Hv by (symmetry; apply Nat.ltb_lt; lia).
          replace (tmp + j - tmp) with j in Hv by lia. rewrite Hp in Hv. cbn [mbind option_bind] in Hv. by rewrite Ho in Hv.
        * destruct (Hr u) as [H1 _]; [by eapply elem_of_list_lookup_2|]. replace (u <? tmp) with true in Hv by (symmetry; by apply Nat.ltb_lt). injection Hv as ->. lia.
      + replace (ds.2 <? tmp) with false in Hv by (symmetry; apply Nat.ltb_ge; lia). replace (ds.2 <? tmp + n) with false in Hv by (symmetry; apply Nat.ltb_ge; lia). injection Hv as ->. lia.
  Qed.
End Moves.
