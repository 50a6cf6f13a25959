(** Moves at the end of a block instead of the phis of the next; phis that are not needed any more. *)
From stdpp Require Import base list numbers.
From Verif Require Import Back.Unused_model Back.Unused_spec Back.Unphi_model Back.Unphi_spec Back.Unphi_look_proof Back.Unphi_sim_proof.
Local Open Scope nat_scope.

Section Edit.
  Context {K C W : Type} (M : machine K (jmp C) W) (pinned : nat -> bool) (inv : C -> C).
  Hypothesis HL : labels_free M inv.
  Implicit Types f : list (nat * blk K (jmp C)).
  Implicit Types x y : blk K (jmp C).
  Implicit Types fr : nat -> list nat.
  Implicit Types dn : nat -> nat.
  Notation gtrace := (gtrace M pinned). Notation ok := (ok pinned). Notation tidy := (tidy pinned).

  Lemma look_set f i l x y b : NoDup (fst <$> f) -> f !! i = Some (l, x) -> look (<[i := (l, y)]> f) b = if decide (b = l) then Some (y, fst <$> f !! S i) else look f b.
  Proof.
    intros Hn Hi. assert (Hn2 : NoDup (fst <$> <[i := (l, y)]> f)) by (by rewrite (set_labels f i l x y Hi)). assert (Hlt : i < length f) by (by eapply lookup_lt_Some).
    case_decide as E; [subst b|].
    - rewrite (look_at _ i l y Hn2) by (by apply list_lookup_insert). rewrite list_lookup_insert_ne by lia. done.
    - destruct (look f b) as [[z nz]|] eqn:Ez.
      + apply look_inv in Ez as (j & Hj & ->). assert (i <> j) by (intros ->; congruence). rewrite (look_at _ j b z Hn2) by (by rewrite list_lookup_insert_ne). f_equal. f_equal.
        destruct (decide (S j = i)) as [<-|Hne]; [|by rewrite list_lookup_insert_ne by done]. rewrite list_lookup_insert by done. by rewrite Hi.
      + destruct (look (<[i := (l, y)]> f) b) as [[z nz]|] eqn:E2; [|done]. apply look_inv in E2 as (j & Hj & _). exfalso. destruct (decide (i = j)) as [->|Hne].
        * rewrite list_lookup_insert in Hj by done. congruence.
        * rewrite list_lookup_insert_ne in Hj by done. by apply (look_none _ _ Ez j z).
  Qed.
  Lemma tidy_more nv nv2 x : nv <= nv2 -> tidy nv x -> tidy nv2 x.
  Proof.
    intros Hle [H1 H2 H3 H4]. split; [done| | |].
    - intros p Hp. destruct (H2 p Hp) as (H5 & H6 & H7). split; [lia|]. split; [done|]. intros v Hv. destruct (H7 v Hv). split; [lia|done].
    - intros i v Hi Hv. specialize (H3 i v Hi Hv). lia.
    - intros j l v Hj Hv. specialize (H4 j l v Hj Hv). lia.
  Qed.
  (** A block is replaced by one that ends the same way. *)
  Lemma edit_ok R f fr dn dn2 nl nv nv2 i l x y : ok R f fr dn nl nv -> nv <= nv2 -> f !! i = Some (l, x) -> exit y = exit x -> (phis y = phis x \/ phis y = []) -> tidy nv2 y ->
    (forall c i k a, fr c !! i = Some a -> fr c !! k = Some a -> i < dn2 c -> i = k) -> ok R (<[i := (l, y)]> f) fr dn2 nl nv2.
  Proof.
    intros O Hle Hi He Hph Ht Hdn. assert (Hlt : i < length f) by (by eapply lookup_lt_Some). pose proof (look_at f i l x (o_nd _ _ _ _ _ _ _ O) Hi) as Hl.
    assert (Hlook : forall b z nz, look (<[i := (l, y)]> f) b = Some (z, nz) -> exists z0, look f b = Some (z0, nz) /\ exit z = exit z0 /\ (phis z = phis z0 \/ phis z = [])).
    { intros b z nz. rewrite (look_set f i l x y b (o_nd _ _ _ _ _ _ _ O) Hi). case_decide as E; [subst b; intros [= <- <-]; by exists x|]. intros H. exists z. split; [done|]. split; [done|by left]. }
    assert (Hat : forall j m z, <[i := (l, y)]> f !! j = Some (m, z) -> exists z0, f !! j = Some (m, z0) /\ exit z = exit z0 /\ (z = z0 \/ z = y)).
    { intros j m z Hj. destruct (decide (i = j)) as [<-|Hne]; [rewrite list_lookup_insert in Hj by done; injection Hj as <- <-; exists x; split; [done|]; split; [done|by right]|].
      rewrite list_lookup_insert_ne in Hj by done. exists z. split; [done|]. split; [done|by left]. }
    split.
    - rewrite (set_labels f i l x y Hi). apply O.
    - intros j m z Hj. destruct (Hat j m z Hj) as (z0 & H & _). by eapply (o_lab _ _ _ _ _ _ _ O).
    - intros a Ha. rewrite (look_set f i l x y a (o_nd _ _ _ _ _ _ _ O) Hi). case_decide; [done|]. by apply O.
    - intros a z nz c Ha Hz Hc. destruct (Hlook a z nz Hz) as (z0 & H0 & E & _). rewrite E in Hc. by eapply (o_step _ _ _ _ _ _ _ O).
    - intros a z nz c Ha Hz Hm. destruct (Hlook a z nz Hz) as (z0 & H0 & E & _). rewrite E in *. by eapply (o_count _ _ _ _ _ _ _ O).
    - intros a z nz c Ha Hz Hm Hc. destruct (Hlook a z nz Hz) as (z0 & H0 & E & _). rewrite E in *. by eapply (o_multi _ _ _ _ _ _ _ O).
    - apply O.
    - exact Hdn.
    - intros c z nz p i1 k a Hz Hp H1 H2. destruct (Hlook c z nz Hz) as (z0 & H0 & _ & [E|E]); rewrite E in Hp; [|by apply elem_of_nil in Hp]. by eapply (o_alike _ _ _ _ _ _ _ O).
    - intros c z nz p Hc Hz Hp. destruct (Hlook c z nz Hz) as (z0 & H0 & _ & [E|E]); rewrite E in Hp; [|by apply elem_of_nil in Hp]. by eapply (o_len _ _ _ _ _ _ _ O).
    - intros j m z q1 q2 Hj. destruct (Hat j m z Hj) as (z0 & H & E & _). rewrite insert_length, E. by eapply (o_last _ _ _ _ _ _ _ O).
    - intros j m z ts q Hj. destruct (Hat j m z Hj) as (z0 & H & E & _). rewrite E. by eapply (o_table _ _ _ _ _ _ _ O).
    - intros j m z Hj. destruct (Hat j m z Hj) as (z0 & H & E & [->| ->]); [|done]. eapply tidy_more; [done|]. by eapply (o_tidy _ _ _ _ _ _ _ O).
  Qed.

  (** States that agree on the registers in use. *)
  Definition agree (nv : nat) (s s' : state W) : Prop := s.2 = s'.2 /\ forall v, v < nv -> s.1 v = s'.1 v.
  Lemma rd_agree nv s s' (o : Z + nat) : agree nv s s' -> (forall v, o = inr v -> v < nv) -> rd M pinned o s = rd M pinned o s'.
  Proof. intros [H1 H2] Hv. destruct o as [z|v]; [done|]. cbn. rewrite H1. destruct (pinned v); [done|]. apply H2. by apply Hv. Qed.
  Lemma rds_agree nv s s' (l : list (Z + nat)) : agree nv s s' -> (forall v, inr v ∈ l -> v < nv) -> (fun o => rd M pinned o s) <$> l = (fun o => rd M pinned o s') <$> l.
  Proof. intros Ha Hl. apply list_fmap_ext. intros i o Ho. apply (rd_agree nv); [done|]. intros v ->. apply Hl. by eapply elem_of_list_lookup_2. Qed.
  Lemma wr_agree nv s s' d z : agree nv s s' -> agree nv (wr M pinned d z s) (wr M pinned d z s').
  Proof. intros [H1 H2]. unfold wr. destruct (pinned d); split; cbn; [by rewrite H1|done|done|]. intros v Hv. case_decide; [done|by apply H2]. Qed.
  Lemma exec_agree nv s s' (i : ins K) : agree nv s s' -> (forall v, inr v ∈ oprs i -> v < nv) -> (exec M pinned i s).1 = (exec M pinned i s').1 /\ agree nv (exec M pinned i s).2 (exec M pinned i s').2.
  Proof.
    intros Ha Hi. unfold exec. rewrite (rds_agree nv s s' (oprs i) Ha Hi). destruct Ha as [H1 H2]. rewrite H1. destruct (act M (op i) _ s'.2) as [z w]. cbn. split; [done|].
    assert (Hag : agree nv (s.1, w) (s'.1, w)) by (by split). destruct (dst i) as [d|]; [by apply wr_agree|done].
  Qed.
  Lemma execs_agree nv (l : list (ins K)) : forall s s', agree nv s s' -> (forall i v, i ∈ l -> inr v ∈ oprs i -> v < nv) -> (execs M pinned l s).1 = (execs M pinned l s').1 /\ agree nv (execs M pinned l s).2 (execs M pinned l s').2.
  Proof.
    induction l as [|i l IH]; intros s s' Ha Hl; [done|]. cbn [execs]. destruct (exec_agree nv s s' i Ha) as [H1 H2]; [intros v; apply Hl; by left|].
    destruct (exec M pinned i s) as [e1 s1], (exec M pinned i s') as [e1' s1']. cbn in H1, H2. subst e1'. destruct (IH s1 s1' H2) as [H3 H4]; [intros j v Hj; apply Hl; by right|].
    destruct (execs M pinned l s1) as [e2 s2], (execs M pinned l s1') as [e2' s2']. cbn in *. by subst.
  Qed.
  Lemma execs_app (l1 l2 : list (ins K)) s : execs M pinned (l1 ++ l2) s = let '(e1, s1) := execs M pinned l1 s in let '(e2, s2) := execs M pinned l2 s1 in (e1 ++ e2, s2).
  Proof.
    revert s. induction l1 as [|i l1 IH]; intros s; cbn [app execs]; [by destruct (execs M pinned l2 s)|]. destruct (exec M pinned i s) as [e s0]. rewrite IH.
    destruct (execs M pinned l1 s0) as [e1 s1]. destruct (execs M pinned l2 s1) as [e2 s2]. by rewrite app_assoc.
  Qed.
  Lemma goes_agree nv s s' x nx : agree nv s s' -> tidy nv x -> goes M pinned x nx s = goes M pinned x nx s'.
  Proof. intros Ha Ht. unfold goes. destruct (exit x) as [[j l]|] eqn:E; [|done]. rewrite (rds_agree nv s s' l Ha); [by rewrite (proj1 Ha)|]. intros v. by eapply (t_exit _ _ _ Ht). Qed.
  Lemma enter_agree nv s s' (ps : list phi) k : agree nv s s' -> (forall p v, p ∈ ps -> inr v ∈ params p -> v < nv) -> agree nv (enter M pinned ps k s) (enter M pinned ps k s').
  Proof.
    intros Ha Hp. unfold enter. assert (G : forall t t', agree nv t t' -> agree nv (foldr (fun p s0 => wr M pinned (pdst p) (rd M pinned (default (inl 0%Z) (params p !! k)) s) s0) t ps)
      (foldr (fun p s0 => wr M pinned (pdst p) (rd M pinned (default (inl 0%Z) (params p !! k)) s') s0) t' ps)); [|by apply G].
    intros t t' Ht. induction ps as [|p ps IH]; [done|]. cbn. rewrite (rd_agree nv s s'); [|done|].
    - apply wr_agree. apply IH. intros q v Hq. apply Hp. by right.
    - intros v E. destruct (params p !! k) as [o|] eqn:Eo; [|done]. cbn in E. subst o. apply (Hp p); [by left|]. by eapply elem_of_list_lookup_2.
  Qed.

  Section Mv.
    Context (R : nat -> Prop) f fr dn (nl nv nv2 P to j i : nat) x y (ny : option nat) (mv : list (ins K)).
    Hypothesis O : ok R f fr dn nl nv.
    Hypothesis Hj : fr to !! j = Some P.
    Hypothesis Hdn : dn to = j.
    Hypothesis Hi : f !! i = Some (P, x).
    Hypothesis Hex : forall q1 q2, exit x = Some (q1, q2) -> exists t, q1 = Goto t.
    Hypothesis Hto : look f to = Some (y, ny).
    Hypothesis Hmv : forall s, exists s', execs M pinned mv s = ([], s') /\ s'.2 = s.2 /\ (enter M pinned (phis y) j s).2 = s.2 /\ forall v, v < nv -> s'.1 v = (enter M pinned (phis y) j s).1 v.
    Hypothesis Hle : nv <= nv2.
    Hypothesis Hnames : forall i v, i ∈ mv -> dst i = Some v \/ inr v ∈ oprs i -> v < nv2.
    Definition x2 := Blk (phis x) (irs x ++ mv) (exit x).
    Definition f2 := <[i := (P, x2)]> f.
    Definition dn2 (c : nat) : nat := if decide (c = to) then S j else dn c.
    Lemma RP : R P. Proof using All. eapply (o_fr _ _ _ _ _ _ _ O). by eapply elem_of_list_lookup_2. Qed.
    Lemma Px : look f P = Some (x, fst <$> f !! S i). Proof using All. apply look_at; [apply O|done]. Qed.
    Lemma Pmulti : multi (exit x) = false. Proof using All. destruct (exit x) as [[[t|d t|ts] l]|] eqn:E; try done. by destruct (Hex _ _ eq_refl) as (t & Ht). Qed.
    Lemma Ponce k : fr to !! k = Some P -> k = j.
    Proof using All.
      intros Hk. eapply (occ_uniq P (fr to)); [|done|done]. rewrite (o_count _ _ _ _ _ _ _ O P x _ to RP Px Pmulti). unfold times, is1.
      destruct (exit x) as [[[t|d t|ts] l]|] eqn:E; [case_decide; lia| |lia|case_decide; lia]. by destruct (Hex _ _ eq_refl) as (t' & Ht).
    Qed.
    Lemma Pgoes s : goes M pinned x (fst <$> f !! S i) s = Some to.
    Proof using All.
      assert (Hl : leads (exit x) (fst <$> f !! S i) to).
      { apply leads_times; [exact Pmulti|]. rewrite <- (o_count _ _ _ _ _ _ _ O P x _ to RP Px Pmulti). apply occ_elem. by eapply elem_of_list_lookup_2. }
      unfold goes, leads in *. destruct (exit x) as [[[t|d t|ts] l]|] eqn:E; [| | |done].
      - rewrite (proj1 HL). by subst.
      - by destruct (Hex _ _ eq_refl) as (t' & Ht).
      - by destruct (Hex _ _ eq_refl) as (t' & Ht).
    Qed.
    Lemma mv_ok : ok R f2 fr dn2 nl nv2.
    Proof using All.
      apply (edit_ok R f fr dn dn2 nl nv nv2 i P x x2); try done; [by left| |].
      - destruct (tidy_more nv nv2 x Hle (o_tidy _ _ _ _ _ _ _ O _ _ _ Hi)) as [H1 H2 H3 H4]. split; [done|done| |done].
        intros q v Hq Hv. cbn [irs x2] in Hq. apply elem_of_app in Hq as [Hq|Hq]; [by eapply H3|by eapply Hnames].
      - intros c q k a Hq Hk Hlt. unfold dn2 in Hlt. case_decide as E; [subst c|by eapply (o_done _ _ _ _ _ _ _ O)]. destruct (decide (q = j)) as [->|Hne].
        + rewrite Hj in Hq. injection Hq as <-. symmetry. by apply Ponce.
        + eapply (o_done _ _ _ _ _ _ _ O); [done|done|]. rewrite Hdn. lia.
    Qed.
    Lemma look_f2 b : look f2 b = if decide (b = P) then Some (x2, fst <$> f !! S i) else look f b.
    Proof using All. unfold f2. eapply look_set; [apply O|done]. Qed.
    Lemma phis_f2 b z nz : look f2 b = Some (z, nz) -> exists z0, look f b = Some (z0, nz) /\ phis z = phis z0.
    Proof using All. rewrite look_f2. case_decide as E; [subst b; intros [= <- <-]; exists x; split; [exact Px|done]|]. intros H. by exists z. Qed.
    Lemma ent_f2 b c : ~ (b = P /\ c = to) -> ent fr dn2 b c = ent fr dn b c.
    Proof using All.
      intros Hn. unfold ent, dn2. destruct (decide (c = to)) as [->|]; [|done]. rewrite Hdn. rewrite (take_S_r _ _ _ Hj). apply decide_ext. rewrite elem_of_app, elem_of_list_singleton.
      split; [intros [H| ->]; [done|by destruct Hn]|by left].
    Qed.
    Lemma pass_f2 b c s s' : ~ (b = P /\ c = to) -> agree nv s s' -> R c -> agree nv (pass M pinned f fr dn b (Some c) s) (pass M pinned f2 fr dn2 b (Some c) s').
    Proof using All.
      intros Hn Ha Hc. unfold pass. cbn [mbind option_bind]. destruct (o_exist _ _ _ _ _ _ _ mv_ok c Hc) as [[z nz] Hz]. rewrite Hz. destruct (phis_f2 c z nz Hz) as (z0 & Hz0 & ->). rewrite Hz0, ent_f2 by done.
      destruct (ent fr dn b c) as [k|]; [|done]. apply enter_agree; [done|]. intros p v Hp Hv. apply look_inv in Hz0 as (q & Hq & _). by apply (t_phi _ _ _ (o_tidy _ _ _ _ _ _ _ O _ _ _ Hq) p Hp).
    Qed.
    Lemma mv_sim n : forall b s s', R b -> agree nv s s' -> gtrace n f2 fr dn2 (Some b) s' = gtrace n f fr dn (Some b) s.
    Proof using All.
      induction n as [|n IH]; intros b s s' Hb Ha; [done|]. cbn [Unphi_sim_proof.gtrace]. destruct (o_exist _ _ _ _ _ _ _ O b Hb) as [[z nz] Hz]. rewrite Hz, look_f2.
      pose proof Hz as Hz'. apply look_inv in Hz' as (q & Hq & _). pose proof (o_tidy _ _ _ _ _ _ _ O _ _ _ Hq) as Htz.
      destruct (execs_agree nv (irs z) s s' Ha) as [He Hs]; [intros i0 v H1 H2; eapply (t_ins _ _ _ Htz); [done|by right]|].
      case_decide as E.
      - subst b. rewrite Px in Hz. injection Hz as <- <-. cbn [irs x2]. rewrite execs_app.
        destruct (execs M pinned (irs x) s) as [es s1], (execs M pinned (irs x) s') as [es' s1']. cbn in He, Hs. subst es'.
        destruct (Hmv s1') as (s2 & E2 & Hw & Hw2 & Hv). rewrite E2, app_nil_r.
        assert (Hgo : forall t, goes M pinned x2 (fst <$> f !! S i) t = Some to) by (intros t; apply (Pgoes t)). rewrite Hgo, Pgoes. f_equal.
        assert (HRto : R to) by (eapply (o_step _ _ _ _ _ _ _ O P x _ to RP Px); eapply goes_leads; [exact HL| |exact (Pgoes s1)]; intros ts q0; by eapply (o_table _ _ _ _ _ _ _ O)).
        apply IH; [done|]. unfold pass. cbn [mbind option_bind]. rewrite Hto. destruct (o_exist _ _ _ _ _ _ _ mv_ok to HRto) as [[z nz] Hz]. rewrite Hz.
        assert (HPt : P ∈ fr to) by (by eapply elem_of_list_lookup_2). unfold ent.
        rewrite decide_False; [|intros H; apply elem_of_take in H as (q0 & Hq0 & Hlt); apply Ponce in Hq0; lia].
        rewrite decide_True; [|unfold dn2; rewrite decide_True by done; rewrite (take_S_r _ _ _ Hj); apply elem_of_app; right; by left].
        assert (place P (fr to) = j) as -> by (apply Ponce, place_ok, HPt).
        destruct (enter_agree nv s1 s1' (phis y) j Hs) as [Ha1 Ha2].
        + intros p v Hp Hpv. pose proof Hto as Hto'. apply look_inv in Hto' as (q0 & Hq0 & _). by apply (t_phi _ _ _ (o_tidy _ _ _ _ _ _ _ O _ _ _ Hq0) p Hp).
        + split; [by rewrite Ha1, Hw2, Hw|]. intros v Hvl. rewrite Ha2 by done. by rewrite Hv.
      - rewrite Hz. destruct (execs M pinned (irs z) s) as [es s1], (execs M pinned (irs z) s') as [es' s1']. cbn in He, Hs. subst es'. rewrite <- (goes_agree nv s1 s1' z nz Hs Htz). f_equal.
        destruct (goes M pinned z nz s1) as [c|] eqn:Eg.
        + assert (HRc : R c) by (eapply (o_step _ _ _ _ _ _ _ O b z nz c Hb Hz); eapply goes_leads; [exact HL| |exact Eg]; intros ts q0; by eapply (o_table _ _ _ _ _ _ _ O)).
          apply IH; [done|]. apply pass_f2; [|done|done]. by intros [-> _].
        + destruct n; [done|]. cbn. f_equal. f_equal. symmetry. apply Hs.
    Qed.
  End Mv.

  (** The phis of a block are dropped once all its predecessors have moves. *)
  Lemma clear_ok R f fr dn nl nv i to x : ok R f fr dn nl nv -> f !! i = Some (to, x) -> ok R (<[i := (to, Blk [] (irs x) (exit x))]> f) fr dn nl nv.
  Proof.
    intros O Hi. eapply edit_ok; [done|done|done|done|by right| |apply O]. destruct (o_tidy _ _ _ _ _ _ _ O _ _ _ Hi) as [H1 H2 H3 H4].
    split; [constructor|by intros p ?%elem_of_nil|exact H3|exact H4].
  Qed.
  Lemma clear_sim R f fr dn nl nv i to x n : ok R f fr dn nl nv -> f !! i = Some (to, x) -> (length (fr to) <= dn to \/ phis x = []) ->
    forall b s, R b -> gtrace n (<[i := (to, Blk [] (irs x) (exit x))]> f) fr dn (Some b) s = gtrace n f fr dn (Some b) s.
  Proof using HL.
    intros O Hi Hd. set (f3 := <[i := (to, Blk [] (irs x) (exit x))]> f). pose proof (look_at f i to x (o_nd _ _ _ _ _ _ _ O) Hi) as Hl.
    assert (Hlook : forall b, look f3 b = if decide (b = to) then Some (Blk [] (irs x) (exit x), fst <$> f !! S i) else look f b) by (intros b; eapply look_set; [apply O|done]).
    assert (Hpass : forall b c s, b ∈ fr c -> pass M pinned f3 fr dn b (Some c) s = pass M pinned f fr dn b (Some c) s).
    { intros b c s Hb. unfold pass. cbn [mbind option_bind]. rewrite Hlook. case_decide as E; [subst c|done]. rewrite Hl. cbn [phis]. destruct Hd as [Hd|Hd]; [|by rewrite Hd].
      unfold ent. rewrite take_ge by done. by rewrite decide_True. }
    induction n as [|n IH]; intros b s Hb; [done|]. cbn [Unphi_sim_proof.gtrace]. destruct (o_exist _ _ _ _ _ _ _ O b Hb) as [[z nz] Hz].
    assert (Hsame : exists z3, look f3 b = Some (z3, nz) /\ irs z3 = irs z /\ exit z3 = exit z).
    { rewrite Hlook. case_decide as E; [subst b; rewrite Hl in Hz; injection Hz as <- <-; by eexists|by exists z]. }
    destruct Hsame as (z3 & -> & Ei & Ee). rewrite Hz, Ei. destruct (execs M pinned (irs z) s) as [es s1]. assert (goes M pinned z3 nz s1 = goes M pinned z nz s1) as -> by (unfold goes; by rewrite Ee). f_equal.
    destruct (goes M pinned z nz s1) as [c|] eqn:Eg; [|by destruct n].
    assert (Hle : leads (exit z) nz c) by (eapply goes_leads; [exact HL| |exact Eg]; intros ts q0; apply look_inv in Hz as (q & Hq & _); by eapply (o_table _ _ _ _ _ _ _ O)).
    rewrite Hpass by (by eapply in_fr). apply IH. by eapply (o_step _ _ _ _ _ _ _ O).
  Qed.
  (** No phis are left. *)
  Lemma gtrace_ltrace f fr dn : (forall i l x, f !! i = Some (l, x) -> phis x = []) -> forall n b s, gtrace n f fr dn b s = ltrace M pinned n f b s.
  Proof.
    intros H. induction n as [|n IH]; intros b s; [done|]. cbn [Unphi_sim_proof.gtrace ltrace]. destruct b as [l|]; [|done]. cbn [mbind option_bind]. destruct (look f l) as [[x nx]|]; [|done].
    destruct (execs M pinned (irs x) s) as [es s1]. rewrite IH. f_equal. f_equal. unfold pass. destruct (goes M pinned x nx s1) as [c|]; [|done]. cbn [mbind option_bind].
    destruct (look f c) as [[y ny]|] eqn:E; [|done]. apply look_inv in E as (i & Hi & _). rewrite (H _ _ _ Hi). by destruct (ent fr dn l c).
  Qed.
End Edit.
