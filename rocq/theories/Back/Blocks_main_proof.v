(** The result of remove_unnecessary_bb does the same. *)
From stdpp Require Import base list numbers gmap.
From Verif Require Import Back.Ir_model Back.Ir_spec Back.Cond_proof Back.Blocks_model Back.Blocks_spec Back.Blocks_proof Back.Blocks_scan_proof.
Local Open Scope Z_scope.

Section Main.
  Context {I R S : Type} (M : machine I R S).
  Implicit Types (bs L pre suf : list (bb I R)) (s : S) (keep F : gset nat) (nx : option nat).
  Notation same := (same M). Notation inv := (inv M).

  Lemma flo_bit c : Z.land c COND_FLONUM = 0 -> Z.testbit c 4 = false.
  Proof. intros H. assert (Z.testbit (Z.land c COND_FLONUM) 4 = false) as E by (by rewrite H, Z.bits_0). rewrite Z.land_spec in E. by rewrite andb_true_r in E. Qed.

  Lemma scan1_ok P0 pre b0 suf keep F : inv P0 pre (b0 :: suf) keep F ->
    exists pre' suf' keep' F', scan1 (pre ++ b0 :: suf) keep (length pre) = Some (pre' ++ suf', keep') /\ length pre' = Datatypes.S (length pre) /\ length suf' = length suf /\ inv P0 pre' suf' keep' F'.
  Proof.
    intros H. unfold scan1. rewrite list_lookup_middle by done. cbn [mbind option_bind]. unfold next_of.
    assert ((pre ++ b0 :: suf) !! Datatypes.S (length pre) = head suf) as ->.
    { rewrite lookup_app_r by lia. replace (Datatypes.S (length pre) - length pre)%nat with 1%nat by lia. by destruct suf. }
    apply inv_drop in H. set (b := drop_jmp b0 (label <$> head suf)) in *. rewrite insert_mid. unfold skip_block.
    assert (exists pre' suf' keep' F', Some (pre ++ b :: suf, keep ∪ puts b (label <$> head suf)) = Some (pre' ++ suf', keep') /\ length pre' = Datatypes.S (length pre) /\ length suf' = length suf /\ inv P0 pre' suf' keep' F') as Hplain.
    { exists (pre ++ [b]), suf, (keep ∪ puts b (label <$> head suf)), F. split; [by rewrite <-app_assoc|]. rewrite app_length. cbn. split; [lia|]. split; [done|]. by apply inv_keep. }
    assert (forall f, f ∈ F -> f ∉ targets (last b)) as HbF. { intros f Hf. apply (i_Funj _ _ _ _ _ _ H f Hf). apply elem_of_app. right. by left. }
    destruct (label_b _ _ _ _ _ _ _ H) as [Hb1 Hb2].
    assert (forall d : nat, step M (V F pre ++ b :: suf) (label b) = fun s => let '(es, s') := perform M (body b) s in (es, leave M b (label <$> head suf) s', s')) as Hstep.
    { intros _. unfold step. rewrite at_label_app; [done|]. intros Hin. apply Hb1. apply elem_of_list_fmap in Hin as (x & -> & Hx). apply elem_of_list_fmap_1. by apply V_in in Hx as [? _]. }
    destruct (body b) as [|i0 bd0] eqn:Ebd; [|destruct (last b); exact Hplain].
    destruct (last b) as [c o d|o ds|] eqn:El; [|by destruct suf|].
    - (* a jump *)
      destruct (bool_decide (c = COND_ANY) && bool_decide (d <> label b)) eqn:Ec; [|destruct suf; exact Hplain].
      apply andb_true_iff in Ec as [Ec%bool_decide_eq_true Ed%bool_decide_eq_true]. unfold COND_ANY in Ec. subst c.
      assert (d ∉ F) as HdF. { intros Hf. apply (HbF d Hf). by left. }
      destruct (inv_redirect M P0 pre b suf keep F d H) as [H1 Hu]; [|done|done|].
      { intros s. rewrite (Hstep d). cbn. unfold leave. by rewrite El. }
      rewrite redirect_eq, fmap_app, fmap_cons, (redirect_self (label b) d b eq_refl).
      set (pre1 := redirect (label b) d <$> pre) in *. set (suf1 := redirect (label b) d <$> suf) in *.
      assert (label <$> head suf = label <$> head suf1) as Ehd. { unfold suf1. destruct suf; [done|]. cbn. by rewrite redirect_label. }
      assert (length pre1 = length pre /\ length suf1 = length suf) as [Elp Els] by (split; apply fmap_length).
      assert (d ∈ puts b (label <$> head suf1)) as Hdp. { apply puts_tgt. rewrite El. by left. }
      assert (keep ∪ {[d]} ∪ puts b (label <$> head suf1) = keep ∪ puts b (label <$> head suf1)) as Ek.
      { apply leibniz_equiv. intros x. rewrite !elem_of_union, elem_of_singleton. split; [intros [[?| ->]|?]; tauto|tauto]. }
      assert (exists pre' suf' keep' F', Some (pre1 ++ b :: suf1, keep ∪ puts b (label <$> head suf1)) = Some (pre' ++ suf', keep') /\ length pre' = Datatypes.S (length pre) /\ length suf' = length suf /\ inv P0 pre' suf' keep' F') as Hplain1.
      { exists (pre1 ++ [b]), suf1, (keep ∪ puts b (label <$> head suf1)), F. split; [by rewrite <-app_assoc|]. rewrite app_length. cbn. split; [lia|]. split; [done|]. rewrite <-Ek. by apply inv_keep. }
      rewrite Ehd. clear Hplain. unfold turn_jmp. rewrite <-Elp in Hplain1 |- *.
      destruct pre1 as [|q pre2 _] using rev_ind; [exact Hplain1|].
      rewrite app_length in Hplain1 |- *. cbn [length] in Hplain1 |- *. rewrite Nat.add_1_r in Hplain1 |- *. rewrite <-app_assoc. cbn [app]. rewrite list_lookup_middle by done.
      destruct q as [l bd [c0 o0 d0| |]]; [|rewrite <-app_assoc in Hplain1; exact Hplain1..].
      destruct (bool_decide (c0 <> COND_ANY) && bool_decide (label <$> head suf1 = Some d0) && bool_decide (Z.land c0 COND_FLONUM = 0)) eqn:Et; [|rewrite <-app_assoc in Hplain1; exact Hplain1].
      apply andb_true_iff in Et as [[Et1%bool_decide_eq_true Et2%bool_decide_eq_true]%andb_true_iff Et3%bool_decide_eq_true].
      destruct suf1 as [|y suf2]; [done|]. cbn in Et2. injection Et2 as <-. apply flo_bit in Et3.
      assert (exists c', invert_cond c0 = Some c') as [c' Hinv].
      { destruct (i_conds _ _ _ _ _ _ H1 (BB l bd (EJmp c0 o0 (label y))) c0 o0 (label y)) as [?|(k & u & f & -> & Hk1 & Hk2)]; [apply elem_of_app; left; apply elem_of_app; right; by left|done|done|].
        eexists. by apply invert_code. }
      rewrite Hinv. cbn [mbind option_bind]. rewrite insert_mid.
      exists ((pre2 ++ [BB l bd (EJmp c' o0 d)]) ++ [b]), (y :: suf2). eexists _, _. split; [|split; [|split; [|eapply inv_turn; [exact H1|done..]]]].
      + change (Some (label y)) with (label <$> head (y :: suf2)). rewrite Ek. by rewrite <-!app_assoc.
      + rewrite !app_length in *. cbn in *. lia.
      + done.
    - (* empty *)
      destruct suf as [|y suf]; [exact Hplain|]. cbn [head fmap option_fmap option_map] in *.
      assert (label y <> label b) as Hyb. { intros E. apply Hb2. rewrite <-E. by left. }
      assert (label y ∉ F) as HyF. { intros Hf. destruct (label_pre _ _ _ _ _ _ _ _ H Hf) as [_ Hn]. apply Hn. by left. }
      destruct (inv_redirect M P0 pre b (y :: suf) keep F (label y) H) as [H1 Hu]; [|done|done|].
      { intros s. rewrite (Hstep 0%nat). cbn. unfold leave. by rewrite El. }
      cbn [mbind option_bind]. rewrite redirect_eq, fmap_app, fmap_cons, (redirect_self (label b) (label y) b eq_refl).
      set (pre1 := redirect (label b) (label y) <$> pre) in *. rewrite fmap_cons in *. set (suf1 := redirect (label b) (label y) <$> suf) in *.
      set (y1 := redirect (label b) (label y) y) in *. assert (label y = label y1) as Ey by (unfold y1; by rewrite redirect_label).
      assert (length pre1 = length pre /\ length suf1 = length suf) as [Elp Els] by (split; apply fmap_length).
      assert (label y ∈ puts b (Some (label y1))) as Hyp. { rewrite <-Ey. apply puts_nx. by rewrite El. }
      assert (keep ∪ {[label y]} ∪ puts b (Some (label y1)) = keep ∪ puts b (Some (label y1))) as Ek.
      { apply leibniz_equiv. intros x. rewrite !elem_of_union, elem_of_singleton. split; [intros [[?| ->]|?]; tauto|tauto]. }
      exists (pre1 ++ [b]), (y1 :: suf1), ((keep ∪ puts b (Some (label y1))) ∖ {[label b]}). destruct (decide (pre1 = [])) as [Ep|Ep].
      + exists F. split; [by rewrite <-app_assoc, <-Ey|]. rewrite app_length. cbn. split; [lia|]. split; [lia|]. rewrite Ep in *. cbn [app]. apply inv_head; [|done].
        rewrite <-Ek. apply (inv_keep M P0 [] b (y1 :: suf1) _ F). exact H1.
      + eexists. split; [by rewrite <-app_assoc, <-Ey|]. rewrite app_length. cbn. split; [lia|]. split; [lia|]. rewrite <-Ek. eapply inv_empty; done.
  Qed.

  Lemma scan_ok P0 n : forall pre suf keep F, length suf = n -> inv P0 pre suf keep F -> exists bs' keep' F', scan n (pre ++ suf) keep (length pre) = Some (bs', keep') /\
    length bs' = (length pre + n)%nat /\ inv P0 bs' [] keep' F'.
  Proof.
    induction n as [|n IH]; intros pre suf keep F Hn H.
    - destruct suf; [|done]. exists pre, keep, F. split; [by rewrite app_nil_r|]. split; [lia|done].
    - destruct suf as [|b suf]; [done|]. cbn in Hn. cbn [scan]. destruct (scan1_ok P0 pre b suf keep F H) as (pre' & suf' & keep' & F' & -> & E1 & E2 & H').
      cbn [mbind option_bind]. rewrite <-E1. destruct (IH pre' suf' keep' F') as (bs' & keep'' & F'' & E & E3 & H''); [lia|done|]. exists bs', keep'', F''. split; [done|]. split; [lia|done].
  Qed.

  (** The blocks that are not kept are not reached. *)
  Lemma sweep_same keep : forall B A, A <> [] -> NoDup (label <$> A ++ B) -> (forall b l, b ∈ A ++ B -> l ∈ targets (last b) -> l ∈ keep) -> adj keep (A ++ B) None ->
    same (A ++ B) (A ++ filter (fun x => label x ∈ keep) B).
  Proof.
    induction B as [|b B IH]; intros A HA Hnd Ht Ha; [apply same_refl|]. rewrite filter_cons. case_decide as Hk.
    - specialize (IH (A ++ [b])). rewrite <-!app_assoc in IH. apply IH; try done. by destruct A.
    - assert (forall x, x ∈ A ++ B -> x ∈ A ++ b :: B) as Hsub. { intros x Hx. apply elem_of_app in Hx as [Hx|Hx]; apply elem_of_app; [by left|right; by right]. }
      eapply same_trans; [apply (unreached_same M A b B); try done|].
      + intros x Hx Hl. apply Hk. by eapply Ht; [apply Hsub|].
      + intros A' p -> Hf. rewrite <-app_assoc in Ha. apply adj_app in Ha as [_ Ha]. cbn in Ha. apply Hk. by apply (proj1 Ha).
      + apply IH; [done| | |].
        * rewrite fmap_app in *. apply NoDup_app in Hnd as (H1 & H2 & H3). cbn in H3. apply NoDup_cons in H3 as [_ H3]. apply NoDup_app. split; [done|]. split; [|done]. intros x Hx Hx2. apply (H2 x Hx). by right.
        * intros x l Hx. apply Ht. by apply Hsub.
        * apply adj_app in Ha as [Ha1 Ha2]. apply adj_app. cbn in Ha1, Ha2. split; [|by destruct Ha2].
          destruct A as [|p A' _] using rev_ind; [done|]. apply adj_app in Ha1 as [Ha1 Hp]. apply adj_app. split; [exact Ha1|]. cbn in *. split; [|done]. intros Hf. exfalso. apply Hk. by apply (proj1 Hp Hf).
  Qed.
  Lemma filter_length_le (P : bb I R -> Prop) `{!forall x, Decision (P x)} l : (length (filter P l) <= length l)%nat.
  Proof. induction l as [|x l IH]; [done|]. rewrite filter_cons. case_decide; cbn [length]; lia. Qed.
  Lemma filter_sub_NoDup (P : bb I R -> Prop) `{!forall x, Decision (P x)} l : NoDup (label <$> l) -> NoDup (label <$> filter P l).
  Proof.
    induction l as [|x l IH]; [done|]. rewrite fmap_cons, stdpp.list.NoDup_cons. intros [H1 H2]. rewrite filter_cons. case_decide; [|by apply IH]. rewrite fmap_cons. apply NoDup_cons. split; [|by apply IH].
    intros H3. apply H1. apply elem_of_list_fmap in H3 as (y & -> & Hy). apply elem_of_list_fmap_1. by apply elem_of_list_filter in Hy as [_ ?].
  Qed.
  Lemma sweep_ok P0 bs keep F : inv P0 bs [] keep F -> same P0 (sweep keep bs) /\ NoDup (label <$> sweep keep bs) /\ conds_ok (sweep keep bs).
  Proof.
    intros H. destruct H as [H1 H2 H3 H4 H5 H6 H7 H8]. rewrite !app_nil_r in *. destruct bs as [|b r]; [done|]. cbn [sweep].
    assert (label b ∉ F) as HbF. { intros Hf. destruct (H4 _ Hf) as [_ Hin]. cbn in H1, Hin. by apply NoDup_cons in H1 as [Hn _]. }
    assert (V F (b :: r) = b :: V F r) as EV. { unfold V. by rewrite filter_cons, decide_True. }
    assert (filter (fun x => label x ∈ keep) r = filter (fun x => label x ∈ keep) (V F r)) as Er.
    { assert (forall f, f ∈ F -> f ∉ keep) as Hd by (intros f Hf; by apply H4). clear -Hd. induction r as [|x r IH]; [done|]. unfold V in *. rewrite !filter_cons. case_decide as Hx.
      - rewrite (decide_True (P := label x ∉ F)) by (intros Hf; by apply (Hd _ Hf)). rewrite filter_cons, decide_True by done. by f_equal.
      - case_decide as Hx2; [rewrite filter_cons, decide_False by done|]; done. }
    split; [|split].
    - eapply same_trans; [exact H3|]. rewrite EV, Er. change (same ([b] ++ V F r) ([b] ++ filter (fun x => label x ∈ keep) (V F r))). apply sweep_same; [done| | |].
      + change ([b] ++ V F r) with (b :: V F r). rewrite <-EV. rewrite <-(app_nil_r (V F (b :: r))). apply V_NoDup. by rewrite app_nil_r.
      + change ([b] ++ V F r) with (b :: V F r). rewrite <-EV. exact H7.
      + change ([b] ++ V F r) with (b :: V F r). rewrite <-EV. exact H8.
    - cbn in H1 |- *. apply NoDup_cons in H1 as [Hn Hnd]. apply NoDup_cons. split; [|by apply filter_sub_NoDup]. intros Hin. apply Hn. apply elem_of_list_fmap in Hin as (x & -> & Hx). apply elem_of_list_fmap_1. by apply elem_of_list_filter in Hx as [_ ?].
    - intros x c o d Hx E. eapply H2; [|done]. apply elem_of_cons in Hx as [->|Hx]; [by left|]. right. by apply elem_of_list_filter in Hx as [_ ?].
  Qed.
  Lemma inv_start bs : NoDup (label <$> bs) -> conds_ok bs -> inv bs [] bs ∅ ∅.
  Proof.
    intros H1 H2. constructor; try done.
    - cbn. apply same_refl.
    - intros b l Hb. by apply elem_of_nil in Hb.
  Qed.
  Lemma rounds_ok fuel : forall bs, (length bs < fuel)%nat -> NoDup (label <$> bs) -> conds_ok bs -> exists bs', rounds fuel bs = Some bs' /\ same bs bs' /\ NoDup (label <$> bs') /\ (length bs' <= length bs)%nat.
  Proof.
    induction fuel as [|fuel IH]; intros bs Hlen Hnd Hc; [lia|]. cbn [rounds].
    destruct (scan_ok bs (length bs) [] bs ∅ ∅ eq_refl (inv_start bs Hnd Hc)) as (bs1 & keep & F & E & El & H). cbn in El. change (length (@nil (bb I R))) with 0%nat in E. cbn [app] in E. rewrite E. cbn [mbind option_bind].
    destruct (sweep_ok bs bs1 keep F H) as (Hs & Hnd1 & Hc1).
    assert (length (sweep keep bs1) <= length bs1)%nat as Hle. { destruct bs1 as [|b r]; [done|]. cbn. pose proof (filter_length_le (fun x => label x ∈ keep) r). lia. }
    case_decide as Hd; [exists (sweep keep bs1); split; [done|split; [done|split; [done|lia]]]|].
    destruct (IH (sweep keep bs1)) as (bs2 & E2 & Hs2 & Hnd2 & Hl2); [lia|done|done|]. exists bs2. split; [done|]. split; [by eapply same_trans|]. split; [done|lia].
  Qed.
  Lemma remove_ok bs : NoDup (label <$> bs) -> conds_ok bs -> exists bs', remove_unnecessary_bb bs = Some bs' /\ same bs bs' /\ NoDup (label <$> bs') /\ (length bs' <= length bs)%nat.
  Proof. intros H1 H2. apply rounds_ok; [lia|done|done]. Qed.
End Main.
Lemma remove_same : forall (I R : Type) (bs : list (bb I R)), NoDup (label <$> bs) -> conds_ok bs ->
  exists bs', remove_unnecessary_bb bs = Some bs' /\ NoDup (label <$> bs') /\ (length bs' <= length bs)%nat /\
  forall (S : Type) (M : machine I R S), same M bs bs'.
Proof.
  intros I R bs H1 H2. set (M0 := Machine (fun (_ : I) (s : unit) => s) (fun _ : R => 4) (fun _ _ => (0, 0)) (fun _ _ _ => true) (fun _ _ => 0%nat)).
  destruct (remove_ok M0 bs H1 H2) as (bs' & E & _ & Hn & Hl). exists bs'. split; [done|]. split; [done|]. split; [done|].
  intros S M. destruct (remove_ok M bs H1 H2) as (bs2 & E2 & Hs & _). rewrite E in E2. by injection E2 as <-.
Qed.
