(** The predecessors of one block. *)
From stdpp Require Import base list numbers.
From Verif Require Import Back.Unused_model Back.Unused_spec Back.Unphi_model Back.Unphi_spec Back.Unphi_look_proof Back.Unphi_sim_proof Back.Unphi_moves_proof Back.Unphi_edit_proof Back.Unphi_insert_proof.
From Verif Require Back.Phi_model Back.Phi_spec.
Local Open Scope nat_scope.

Section Order.
  Implicit Types ps : list phi.
  Lemma by_dst_own ps p : NoDup (pdst <$> ps) -> p ∈ ps -> by_dst ps (pdst p) = Some p.
  Proof.
    intros Hn Hp. unfold by_dst. destruct (list_find (fun q => pdst q = pdst p) ps) as [[i q]|] eqn:E.
    - apply list_find_Some in E as (E1 & E2 & _). cbn. f_equal. apply elem_of_list_lookup in Hp as [k Hk]. assert (i = k) as -> by (eapply NoDup_lookup; [exact Hn| |]; rewrite list_lookup_fmap; [rewrite E1|rewrite Hk]; [cbn; by rewrite E2|done]). congruence.
    - apply list_find_None in E. rewrite stdpp.list.Forall_forall in E. by destruct (E p Hp).
  Qed.
  Lemma by_dst_perm ps qs ds : NoDup (pdst <$> ps) -> ds ≡ₚ pdst <$> ps -> mapM (by_dst ps) ds = Some qs -> qs ≡ₚ ps.
  Proof.
    intros Hn Hp Hm. assert (G : forall rs, (forall p, p ∈ rs -> p ∈ ps) -> mapM (by_dst ps) (pdst <$> rs) = Some rs).
    { induction rs as [|r rs IH]; intros H; [done|]. cbn. rewrite by_dst_own by (done || (apply H; by left)). cbn. rewrite IH; [done|]. intros p Hr. apply H. by right. }
    apply Permutation_map_inv in Hp as (rs & -> & Hr). change (map pdst rs) with (pdst <$> rs) in Hm. rewrite (G rs) in Hm; [injection Hm as <-; by symmetry|]. intros p. by rewrite Hr.
  Qed.
  Lemma by_dst_total ps ds : NoDup (pdst <$> ps) -> ds ≡ₚ pdst <$> ps -> exists qs, mapM (by_dst ps) ds = Some qs.
  Proof.
    intros Hn Hp. apply mapM_is_Some_2. apply stdpp.list.Forall_forall. intros d Hd. rewrite Hp in Hd. apply elem_of_list_fmap in Hd as (p & -> & H). exists p. by apply by_dst_own.
  Qed.
  Lemma coded_total tmp k ps : (forall p, p ∈ ps -> k < length (params p)) -> exists cs, coded tmp k ps = Some cs.
  Proof.
    intros H. unfold coded. apply mapM_is_Some_2. apply stdpp.list.Forall_forall. intros [i p] Hi. apply elem_of_list_lookup in Hi as [q Hq]. rewrite list_lookup_imap in Hq.
    destruct (ps !! q) as [r|] eqn:E; [|done]. cbn in Hq. injection Hq as -> ->. cbn. destruct (lookup_lt_is_Some_2 (params p) k) as [o Ho]; [apply H; by eapply elem_of_list_lookup_2|]. exists (Phi_model.Phi (pdst p) (match o with inr v => v | inl _ => tmp + i end)). cbn [fst snd]. by rewrite Ho.
  Qed.
  Lemma drop_put {A} m k (b : A) l : m <= k -> k <= length l -> drop m (take k l ++ b :: drop k l) = take (k - m) (drop m l) ++ b :: drop (k - m) (drop m l).
  Proof.
    intros H1 H2. rewrite drop_app_le by (rewrite take_length; lia). rewrite take_drop_commute, drop_drop. by replace (m + (k - m)) with k by lia.
  Qed.
End Order.

Section Edges.
  Context {K C W : Type} (M : machine K (jmp C) W) (pinned : nat -> bool) (inv : C -> C) (mov : K).
  Hypothesis HL : labels_free M inv.
  Hypothesis Hmov : moves_as_said M mov.
  Context (has : nat -> bool) (from : nat -> list nat) (L nv : nat) (R0 : nat -> Prop).
  Hypothesis Hhas : forall l, L <= l -> has l = false.
  Hypothesis Hpin : forall v, pinned v = true -> v < nv.
  Implicit Types f : @fn K C.
  Implicit Types x y : blk K (jmp C).
  Implicit Types fr : nat -> list nat.
  Implicit Types dn : nat -> nat.
  Implicit Types R : nat -> Prop.
  Notation gtrace := (gtrace M pinned). Notation ok := (ok pinned).

  Definition sim R (b : list (nat * blk K (jmp C))) fr dn R' b' fr' dn' : Prop :=
    (forall c, R c -> R' c) /\ forall c s n, R c -> exists m, n <= m /\ gtrace m b' fr' dn' (Some c) s = gtrace n b fr dn (Some c) s.
  Lemma sim_refl R b fr dn : sim R b fr dn R b fr dn. Proof. split; [done|]. intros c s n _. by exists n. Qed.
  Lemma sim_trans R1 b1 fr1 dn1 R2 b2 fr2 dn2 R3 b3 fr3 dn3 : sim R1 b1 fr1 dn1 R2 b2 fr2 dn2 -> sim R2 b2 fr2 dn2 R3 b3 fr3 dn3 -> sim R1 b1 fr1 dn1 R3 b3 fr3 dn3.
  Proof.
    intros [H1 H2] [H3 H4]. split; [auto|]. intros c s n Hc. destruct (H2 c s n Hc) as (m & Hm & E). destruct (H4 c s m (H1 c Hc)) as (m' & Hm' & E'). exists m'. split; [lia|congruence].
  Qed.
  Definition weight (l : nat) : nat := S (if has l then length (from l) else 0).
  Fixpoint wt (ls : list nat) : nat := match ls with [] => 0 | l :: ls => weight l + wt ls end.
  Lemma wt_perm l1 l2 : l1 ≡ₚ l2 -> wt l1 = wt l2.
  Proof. induction 1; cbn [wt]; lia. Qed.

  Definition later fr dn (l : nat) x : Prop :=
    dn l = 0 /\ (has l = false -> phis x = []) /\ (has l = true -> resolvable nv (phis x) /\ fr l = from l /\ (from l <> [] -> R0 l /\ l <> 0)).
  Record inv_ R f fr dn (ibb to : nat) y (ps : list phi) (k : nat) : Prop := {
    i_ok : ok R (body f) fr dn (newl f) (newv f);
    i_nv : nv <= newv f;
    i_L : L <= newl f;
    i_new : forall l, newl f <= l -> dn l = 0;
    i_to : body f !! ibb = Some (to, y);
    i_ps : ps ≡ₚ phis y;
    i_dn : dn to = k;
    i_head : (fst <$> body f) !! 0 = Some 0;
    i_R : fr to <> [] -> R to /\ to <> 0;
    i_res : resolvable nv (phis y);
    i_before : forall i l x, i < ibb -> body f !! i = Some (l, x) -> phis x = [];
    i_after : forall i l x, ibb < i -> body f !! i = Some (l, x) -> later fr dn l x
  }.
  Definition moved (ibb : nat) (at_ : option nat) : nat := match at_ with Some at_ => if at_ <=? ibb then S ibb else ibb | None => ibb end.

  Lemma insert_step R f fr dn ibb to y ps k a ifrom x e l : inv_ R f fr dn ibb to y ps k -> fr to !! k = Some a -> body f !! ifrom = Some (a, x) -> exit x = Some (e, l) -> (forall t, e <> Goto t) ->
    exists f2 at_ R2 fr2 y2 iP xP, insert_bb inv f ibb ifrom e l = Some (f2, newl f, at_) /\ inv_ R2 f2 fr2 dn (moved ibb (Some at_)) to y2 ps k /\ phis y2 = phis y /\ fr2 to = <[k := newl f]> (fr to) /\
      body f2 !! iP = Some (newl f, xP) /\ (forall q1 q2, exit xP = Some (q1, q2) -> exists t, q1 = Goto t) /\ sim R (body f) fr dn R2 (body f2) fr2 dn /\
      wt (drop (S (moved ibb (Some at_))) (fst <$> body f2)) <= S (wt (drop (S ibb) (fst <$> body f))) /\ newl f2 = S (newl f) /\ newv f2 = newv f.
  Proof using HL Hhas.
    intros I Ha Hi He Hg. pose proof (i_ok _ _ _ _ _ _ _ _ _ I) as O. pose proof (i_to _ _ _ _ _ _ _ _ _ I) as Hto. pose proof (i_dn _ _ _ _ _ _ _ _ _ I) as Hdn.
    assert (HR : R to /\ to <> 0) by (apply (i_R _ _ _ _ _ _ _ _ _ I); intros E; by rewrite E in Ha). destruct HR as [HR H0].
    destruct (insert_total M pinned inv HL R f fr dn (newv f) a to k ibb ifrom x y e l O Ha Hdn HR Hto Hi He Hg) as (e' & at_ & Eq & Hat & Hat2 & Hturn & Hprev).
    set (b2 := f2 f a to ibb ifrom x l e' at_) in *.
    pose proof (built_split M pinned inv HL R f fr dn (newv f) a to k ibb ifrom x y e l O Ha Hdn HR Hto Hi He Hg e' at_ Hat Hat2 Hturn Hprev) as Hs. fold b2 in Hs.
    pose proof (built_pre M pinned inv HL R f fr dn (newv f) a to k ibb ifrom x y e l O Ha Hdn HR Hto Hi He Hg e' at_ Hat Hat2 Hturn Hprev) as (P1 & P2 & P3 & P4 & P5). fold b2 in P1, P2, P3, P4, P5.
    pose proof (built_to M pinned inv HL R f fr dn (newv f) a to k ibb ifrom x y e l O Ha Hdn HR Hto Hi He Hg e' at_ Hat Hat2 Hturn Hprev) as (y2 & T1 & T2 & T3). fold b2 in T1, T3. unfold ito2 in T1. change (if at_ <=? ibb then S ibb else ibb) with (moved ibb (Some at_)) in T1.
    pose proof (built_in M pinned inv HL R f fr dn (newv f) a to k ibb ifrom x y e l O Ha Hdn HR Hto Hi He Hg e' at_ Hat Hat2 Hturn Hprev) as Hin. fold b2 in Hin.
    set (fr' := fr2 fr (newl f) a to k). set (R' := R2 R (newl f)).
    pose proof (insert_ok M pinned inv HL R (body f) b2 fr dn (newl f) (newv f) a to k O Ha Hdn Hs P1 P2 P3 P4 P5 HR) as O2. fold fr' R' in O2.
    pose proof (fun n => insert_sim M pinned inv HL R (body f) b2 fr dn (newl f) (newv f) a to k O Ha Hdn Hs P1 P2 P3 P4 P5 HR n) as S2. fold fr' in S2.
    assert (Hfrto : fr' to = <[k := newl f]> (fr to)) by (unfold fr', fr2; by rewrite decide_True).
    assert (Hlen : at_ <= length (f1 f a ifrom x l e')) by (unfold f1; rewrite insert_length; lia).
    assert (HatN : b2 !! at_ = Some (newl f, bN to ibb at_)) by (by apply put_eq).
    assert (Hpos : forall i b z, b2 !! i = Some (b, z) -> (i = at_ /\ b = newl f /\ phis z = []) \/ exists i' z', (i' < at_ /\ i = i' \/ at_ <= i' /\ i = S i') /\ body f !! i' = Some (b, z') /\ phis z = phis z').
    { intros i b z H. apply Hin in H as [(-> & -> & ->)|(i' & Hi' & [(-> & -> & ->)|[_ H]])]; [by left|right; by exists ifrom, x|right; by exists i', z]. }
    exists (Fn b2 (S (newl f)) (newv f)), at_, R', fr', y2, at_, (bN to ibb at_). split; [done|]. cbn [body newl newv].
    assert (Hmv : moved ibb (Some at_) = if at_ <=? ibb then S ibb else ibb) by done.
    split; [split; cbn [body newl newv]|].
    - done.
    - apply I.
    - pose proof (i_L _ _ _ _ _ _ _ _ _ I). lia.
    - intros l' Hl'. apply (i_new _ _ _ _ _ _ _ _ _ I). lia.
    - done.
    - rewrite T2. apply I.
    - done.
    - assert (Hb0 : 0 < ibb).
      { destruct ibb as [|ibb]; [|lia]. pose proof (i_head _ _ _ _ _ _ _ _ _ I) as H. rewrite list_lookup_fmap, Hto in H. by injection H as ->. }
      assert (0 < at_) by (destruct Hat2; lia). rewrite list_lookup_fmap. unfold b2, f2. rewrite put_lt by done. rewrite <- list_lookup_fmap. unfold f1. rewrite (set_labels (body f) ifrom a x _ Hi). apply I.
    - intros _. split; [by left|done].
    - rewrite T2. apply I.
    - intros i b z Hlt H. destruct (Hpos i b z H) as [(_ & _ & E)|(i' & z' & Hc & Hb & ->)]; [done|]. eapply (i_before _ _ _ _ _ _ _ _ _ I); [|exact Hb].
      rewrite Hmv in Hlt. destruct (at_ <=? ibb) eqn:E; [apply Nat.leb_le in E|apply Nat.leb_gt in E]; lia.
    - intros i b z Hlt H. destruct (Hpos i b z H) as [(_ & -> & E)|(i' & z' & Hc & Hb & E)].
      + split; [by apply (i_new _ _ _ _ _ _ _ _ _ I)|]. split; [done|]. rewrite Hhas by apply I. done.
      + assert (Hgt : ibb < i') by (rewrite Hmv in Hlt; destruct (at_ <=? ibb) eqn:E2; [apply Nat.leb_le in E2|apply Nat.leb_gt in E2]; lia).
        destruct (i_after _ _ _ _ _ _ _ _ _ I i' b z' Hgt Hb) as (L1 & L2 & L3). split; [done|]. rewrite E. split; [done|]. intros Hh. destruct (L3 Hh) as (Q1 & Q2 & Q3). split; [done|]. split; [|done].
        unfold fr', fr2. rewrite decide_False; [|intros ->; assert (ibb = i') by (eapply (label_inj (body f)); [apply O|done|done]); lia].
        rewrite decide_False; [done|]. intros ->. rewrite Hhas in Hh by apply I. done.
    - split; [done|]. split; [done|]. split; [done|]. split; [|split; [split|]].
      + unfold bN. cbn [exit]. intros q1 q2 H. destruct (at_ =? ibb); [done|]. injection H as <- _. by exists to.
      + intros c Hc. by left.
      + intros c s n Hc. destruct (S2 n c s Hc) as (m & Hm & E). by exists m.
      + split; [|done]. assert (Hl1 : fst <$> f1 f a ifrom x l e' = fst <$> body f) by (by eapply set_labels).
        assert (Hl2 : fst <$> b2 = take at_ (fst <$> body f) ++ newl f :: drop at_ (fst <$> body f)) by (unfold b2, f2, put; rewrite fmap_app, fmap_cons, fmap_take, fmap_drop, Hl1; done). rewrite Hl2, Hmv.
        assert (Hlb : at_ <= length (fst <$> body f)) by (rewrite fmap_length; lia).
        destruct (at_ <=? ibb) eqn:E; [apply Nat.leb_le in E|apply Nat.leb_gt in E].
        * rewrite drop_app_ge by (rewrite take_length; lia). rewrite take_length. replace (S (S ibb) - at_ `min` length (fst <$> body f)) with (S (S ibb - at_)) by lia.
          change (drop (S (S ibb - at_)) (newl f :: drop at_ (fst <$> body f))) with (drop (S ibb - at_) (drop at_ (fst <$> body f))). rewrite drop_drop. replace (at_ + (S ibb - at_)) with (S ibb) by lia. lia.
        * rewrite drop_put by lia. rewrite (wt_perm _ (newl f :: drop (S ibb) (fst <$> body f))) by (rewrite <- Permutation_middle, take_drop; done).
          cbn [wt]. unfold weight at 1. rewrite Hhas by apply I. lia.
  Qed.

  Lemma make_from_step R f fr dn ibb to y ps k a : inv_ R f fr dn ibb to y ps k -> fr to !! k = Some a ->
    exists f2 P at_ R2 fr2 y2 iP xP, make_from inv f ibb a = Some (f2, P, at_) /\ inv_ R2 f2 fr2 dn (moved ibb at_) to y2 ps k /\ phis y2 = phis y /\ fr2 to = <[k := P]> (fr to) /\
      body f2 !! iP = Some (P, xP) /\ (forall q1 q2, exit xP = Some (q1, q2) -> exists t, q1 = Goto t) /\ sim R (body f) fr dn R2 (body f2) fr2 dn /\
      wt (drop (S (moved ibb at_)) (fst <$> body f2)) <= S (wt (drop (S ibb) (fst <$> body f))).
  Proof using HL Hhas.
    intros I Ha. pose proof (i_ok _ _ _ _ _ _ _ _ _ I) as O. assert (HRa : R a) by (eapply (o_fr _ _ _ _ _ _ _ O); by eapply elem_of_list_lookup_2).
    destruct (o_exist _ _ _ _ _ _ _ O a HRa) as [[x nx] Hx]. apply look_inv in Hx as (i & Hi & _). unfold make_from. rewrite (pos_at _ _ _ _ (o_nd _ _ _ _ _ _ _ O) Hi). cbn [mbind option_bind]. rewrite Hi. cbn [mbind option_bind].
    assert (Hdec : (exists e l, exit x = Some (e, l) /\ forall t, e <> Goto t) \/ ~ (exists e l, exit x = Some (e, l) /\ forall t, e <> Goto t)).
    { destruct (exit x) as [[[t|c t|ts] l]|] eqn:E.
      - right. intros (e & l' & E' & H). injection E' as <- _. by apply (H t).
      - left. exists (Cond c t), l. by split.
      - left. exists (Multi ts), l. by split.
      - right. intros (e & l' & E' & H). done. }
    destruct Hdec as [Hd|Hd].
    - destruct Hd as (e & l & He & Hg). destruct (insert_step R f fr dn ibb to y ps k a i x e l I Ha Hi He Hg) as (f2 & at_ & R2 & fr2 & y2 & iP & xP & E & H1 & H2 & H3 & H4 & H5 & H6 & H7 & _).
      exists f2, (newl f), (Some at_), R2, fr2, y2, iP, xP. split; [|by repeat split_and]. rewrite He. destruct e as [t|c t|ts]; [by destruct (Hg t)|by rewrite E|by rewrite E].
    - exists f, a, None, R, fr, y, i, x. split.
      { destruct (exit x) as [[[t|c t|ts] l]|] eqn:E; [done| | |done]; destruct Hd; [by exists (Cond c t), l|by exists (Multi ts), l]. }
      split; [done|]. split; [done|]. split; [by rewrite list_insert_id|]. split; [done|]. split.
      { intros q1 q2 E. destruct q1 as [t|c t|ts]; [by exists t|destruct Hd; by exists (Cond c t), q2|destruct Hd; by exists (Multi ts), q2]. }
      split; [apply sim_refl|]. cbn [moved]. lia.
  Qed.

  Lemma replace_step R f fr dn ibb to y ps k P i x : inv_ R f fr dn ibb to y ps k -> fr to !! k = Some P -> body f !! i = Some (P, x) -> (forall q1 q2, exit x = Some (q1, q2) -> exists t, q1 = Goto t) ->
    exists f2 ps2 dn2 y2, replace_phis mov f P k ps = Some (f2, ps2) /\ inv_ R f2 fr dn2 ibb to y2 ps2 (S k) /\ phis y2 = phis y /\ sim R (body f) fr dn R (body f2) fr dn2 /\ (fst <$> body f2) = (fst <$> body f).
  Proof using HL Hmov Hpin.
    intros I Hk Hi Hex. pose proof (i_ok _ _ _ _ _ _ _ _ _ I) as O. pose proof (i_to _ _ _ _ _ _ _ _ _ I) as Hto. pose proof (i_dn _ _ _ _ _ _ _ _ _ I) as Hdn. pose proof (i_ps _ _ _ _ _ _ _ _ _ I) as Hps. pose proof (i_nv _ _ _ _ _ _ _ _ _ I) as Hnv.
    assert (HR : R to /\ to <> 0) by (apply (i_R _ _ _ _ _ _ _ _ _ I); intros E; by rewrite E in Hk). destruct HR as [HR H0].
    pose proof (look_at _ _ _ _ (o_nd _ _ _ _ _ _ _ O) Hto) as Hl. pose proof (o_tidy _ _ _ _ _ _ _ O _ _ _ Hto) as Ty.
    assert (Hnd : NoDup (pdst <$> ps)) by (rewrite Hps; apply Ty).
    assert (Hin : forall p, p ∈ ps -> p ∈ phis y) by (intros p; by rewrite Hps).
    destruct (coded_total (newv f) k ps) as [cs Hcs].
    { intros p Hp. rewrite (o_len _ _ _ _ _ _ _ O to y _ p HR Hl (Hin p Hp)). by eapply lookup_lt_Some. }
    destruct (i_res _ _ _ _ _ _ _ _ _ I (newv f) k ps cs) as (moves & Hmoves & Hpar); [done|done|done|].
    pose proof Hmoves as Hm2. unfold Phi_model.replace_phis in Hm2. destruct (Phi_model.extract_cyclic_dependency cs) as [[l cyc]|] eqn:Eex; [|done]. destruct (mapM id l) as [l'|] eqn:Em; [|done]. clear Hm2.
    pose proof (extract_perm cs l l' cyc Eex Em) as Hperm.
    assert (Hds : Phi_model.dst <$> l' ++ concat cyc ≡ₚ pdst <$> ps) by (rewrite Hperm; by rewrite (dsts_coded (newv f) k ps cs Hcs)).
    destruct (by_dst_total ps _ Hnd Hds) as [ps2 Hps2]. pose proof (by_dst_perm ps ps2 _ Hnd Hds Hps2) as Hpp.
    set (mv := move mov (newv f) k ps <$> moves). set (dn' := dn2 dn to k).
    exists (Fn (<[i := (P, Blk (phis x) (irs x ++ mv) (exit x))]> (body f)) (newl f) (newv f + length cyc)), ps2, dn'.
    assert (Hpin' : forall v, pinned v = true -> v < newv f) by (intros v Hv; apply Hpin in Hv; lia).
    assert (Htps : forall p, p ∈ ps -> pdst p < newv f /\ pinned (pdst p) = false /\ (forall v, inr v ∈ params p -> v < newv f /\ pinned v = false)) by (intros p Hp; apply Ty; by apply Hin).
    assert (Hmvok : forall s, exists s', execs M pinned mv s = ([], s') /\ s'.2 = s.2 /\ (enter M pinned (phis y) k s).2 = s.2 /\ forall v, v < newv f -> s'.1 v = (enter M pinned (phis y) k s).1 v).
    { intros s. apply (moves_ok M pinned mov Hmov (newv f) k ps Hpin' Hnd Htps cs moves l cyc Hcs Hmoves Eex Hpar (phis y) s). by rewrite Hps. }
    assert (Hnm : forall q v, q ∈ mv -> dst q = Some v \/ inr v ∈ oprs q -> v < newv f + length cyc).
    { intros q v. apply (moves_names M pinned mov Hmov (newv f) k ps Hpin' Hnd Htps cs moves l cyc Hcs Hmoves Eex Hpar). }
    assert (Hle : newv f <= newv f + length cyc) by lia.
    pose proof (mv_ok M pinned inv HL R (body f) fr dn (newl f) (newv f) (newv f + length cyc) P to k i x y _ mv O Hk Hdn Hi Hex Hl Hmvok Hle Hnm) as O2.
    pose proof (fun n => mv_sim M pinned inv HL R (body f) fr dn (newl f) (newv f) (newv f + length cyc) P to k i x y _ mv O Hk Hdn Hi Hex Hl Hmvok Hle Hnm n) as S2.
    change (Unphi_edit_proof.f2 (body f) P i x mv) with (<[i := (P, Blk (phis x) (irs x ++ mv) (exit x))]> (body f)) in O2, S2. fold dn' in O2, S2.
    assert (Hilt : i < length (body f)) by (by eapply lookup_lt_Some).
    assert (Hat : forall j b z, <[i := (P, Blk (phis x) (irs x ++ mv) (exit x))]> (body f) !! j = Some (b, z) -> exists z', body f !! j = Some (b, z') /\ phis z = phis z').
    { intros j b z H. destruct (decide (i = j)) as [<-|Hne]; [rewrite list_lookup_insert in H by done; injection H as <- <-; by exists x|]. rewrite list_lookup_insert_ne in H by done. by exists z. }
    assert (Hy2 : exists y2, <[i := (P, Blk (phis x) (irs x ++ mv) (exit x))]> (body f) !! ibb = Some (to, y2) /\ phis y2 = phis y).
    { destruct (decide (i = ibb)) as [->|Hne]; [rewrite Hto in Hi; injection Hi as <- <-; eexists; split; [by apply list_lookup_insert|done]|]. exists y. by rewrite list_lookup_insert_ne. }
    destruct Hy2 as (y2 & Hy2 & Hph). exists y2. split; [|split; [split; cbn [body newl newv]|]].
    - unfold replace_phis. rewrite (pos_at _ _ _ _ (o_nd _ _ _ _ _ _ _ O) Hi). cbn [mbind option_bind]. rewrite Hi. cbn [mbind option_bind]. rewrite Hcs. cbn [mbind option_bind]. rewrite Eex. cbn [mbind option_bind]. rewrite Em. cbn [mbind option_bind].
      rewrite Hmoves. cbn [mbind option_bind]. rewrite Hps2. done.
    - done.
    - lia.
    - apply I.
    - intros b Hb. unfold dn', dn2. rewrite decide_False; [by apply (i_new _ _ _ _ _ _ _ _ _ I)|]. intros ->. pose proof (o_lab _ _ _ _ _ _ _ O _ _ _ Hto). lia.
    - done.
    - rewrite Hph, <- Hps. exact Hpp.
    - unfold dn', dn2. by rewrite decide_True.
    - rewrite (set_labels (body f) i P x _ Hi). apply I.
    - apply I.
    - rewrite Hph. apply I.
    - intros j b z Hj H. destruct (Hat j b z H) as (z' & H' & ->). by eapply (i_before _ _ _ _ _ _ _ _ _ I).
    - intros j b z Hj H. destruct (Hat j b z H) as (z' & H' & E). destruct (i_after _ _ _ _ _ _ _ _ _ I j b z' Hj H') as (L1 & L2 & L3). unfold later. rewrite E. split; [|done].
      unfold dn', dn2. rewrite decide_False; [done|]. intros ->. assert (ibb = j) by (eapply (label_inj (body f)); [apply O|done|done]). lia.
    - split; [done|]. split; [|cbn [body]; by eapply set_labels]. split; [done|]. intros c s n Hc. exists n. split; [done|]. cbn [body]. apply S2; [done|]. by split.
  Qed.

  Lemma edges_ok rest : forall k R f fr dn ibb to y ps, inv_ R f fr dn ibb to y ps k -> drop k (fr to) = rest ->
    exists f' ibb' R' fr' dn' y' ps', edges_loop mov inv k rest f ibb ps = Some (f', ibb') /\ inv_ R' f' fr' dn' ibb' to y' ps' (k + length rest) /\ phis y' = phis y /\ drop (k + length rest) (fr' to) = [] /\
      sim R (body f) fr dn R' (body f') fr' dn' /\ wt (drop (S ibb') (fst <$> body f')) <= wt (drop (S ibb) (fst <$> body f)) + length rest.
  Proof using HL Hhas Hmov Hpin.
    induction rest as [|a rest IH]; intros k R f fr dn ibb to y ps I Hd.
    { exists f, ibb, R, fr, dn, y, ps. cbn [length]. rewrite Nat.add_0_r. split; [done|]. split; [done|]. split; [done|]. split; [done|]. split; [apply sim_refl|lia]. }
    assert (Ha : fr to !! k = Some a) by (rewrite <- (Nat.add_0_r k), <- lookup_drop, Hd; done).
    destruct (make_from_step R f fr dn ibb to y ps k a I Ha) as (f2 & P & at_ & R2 & fr2 & y2 & iP & xP & E & I2 & Hp2 & Hfr2 & HiP & Hex & Hs2 & Hw).
    assert (HkP : fr2 to !! k = Some P) by (rewrite Hfr2; apply list_lookup_insert; by eapply lookup_lt_Some).
    destruct (replace_step R2 f2 fr2 dn (moved ibb at_) to y2 ps k P iP xP I2 HkP HiP Hex) as (f3 & ps3 & dn3 & y3 & E3 & I3 & Hp3 & Hs3 & Hl3).
    destruct (IH (S k) R2 f3 fr2 dn3 (moved ibb at_) to y3 ps3 I3) as (f' & ibb' & R' & fr' & dn' & y' & ps' & E' & I' & Hp' & Hd' & Hs' & Hw').
    { rewrite Hfr2, drop_insert_gt by lia. replace (S k) with (k + 1) by lia. rewrite <- drop_drop, Hd. done. }
    exists f', ibb', R', fr', dn', y', ps'. cbn [edges_loop]. rewrite E. cbn [mbind option_bind]. fold (moved ibb at_). rewrite E3. cbn [mbind option_bind].
    split; [done|]. replace (k + length (a :: rest)) with (S k + length rest) by (cbn [length]; lia). split; [done|]. split; [congruence|]. split; [done|].
    split; [eapply sim_trans; [exact Hs2|]; eapply sim_trans; [exact Hs3|exact Hs']|]. rewrite Hl3 in Hw'. cbn [length]. lia.
  Qed.
End Edges.
