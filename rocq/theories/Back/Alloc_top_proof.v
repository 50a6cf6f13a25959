From stdpp Require Import base list numbers sorting.
From Coq Require Import Lia.
From Verif Require Import Back.Flow_model Back.Flow_spec Back.Flow_proof Back.Flow_live_proof Back.Alloc_model Back.Alloc_spec Back.Alloc_proof Back.Alloc_occ_proof.
Open Scope Z_scope.

Section top.
  Context (se : settings) (vs : list vinfo) (bbs : list rbb).
  Hypothesis Hse : settings_ok se vs.
  Let iv := check_live_interval vs bbs.
  Let occ := detect_flags se vs iv bbs.

  Lemma range_of_settings : range_ok se vs.
  Proof. destruct Hse as (_ & _ & H). intros v i ip r Hv Hp Hr. unfold max_of. by apply (H v i ip r). Qed.
  Lemma temp_of_settings c : (temp_of se c <= max_of se c)%nat.
  Proof. destruct Hse as (? & ? & _). unfold temp_of, max_of. by destruct c. Qed.
  Definition x0 : regset * regset * list place := (RS [] 0 0, RS [] 0 0, (fun i => if vspilled i then Spill else NotYet) <$> vs).
  Lemma x0_inv : all_inv se vs iv occ [] (-1) x0.
  Proof.
    unfold x0, all_inv. cbn [fst snd]. split; [by rewrite fmap_length|].
    assert (Hno : forall v r, ((fun i => if vspilled i then Spill else NotYet) <$> vs) !! v <> Some (Reg r)).
    { intros v r H. rewrite list_lookup_fmap in H. destruct (vs !! v) as [i|]; [|done]. cbn in H. by destruct (vspilled i). }
    split; split; cbn [active inuse used].
    all: try (by apply NoDup_nil_2).
    all: try (intros b Hb; by rewrite N.bits_0 in Hb).
    all: try (intros v Hv; by apply elem_of_nil in Hv).
    all: try (intros u v r Hu; by apply elem_of_nil in Hu).
    all: try (intros v r Hv; by destruct (Hno v r)).
    all: intros u v r _ _ Hv; by destruct (Hno u r).
  Qed.
  Lemma order_facts : StronglySorted (before iv) (sorted_intervals vs iv) /\ NoDup (sorted_intervals vs iv) /\
    (forall v, v ∈ sorted_intervals vs iv <-> (v < length vs)%nat).
  Proof.
    destruct (sorted_ok vs iv) as [Hs Hp]. split; [done|]. split.
    - rewrite Hp. apply NoDup_ListNoDup, seq_NoDup.
    - intros v. rewrite (elem_of_Permutation_proper v _ _ Hp), elem_of_list_In, in_seq. lia.
  Qed.
  Lemma start_min v : (v < length vs)%nat -> -1 <= start_of iv v.
  Proof.
    intros Hv. unfold iv, check_live_interval.
    destruct (check_bbs_ok vs bbs 0 (replicate (length vs) (-1, -1))) as ((n & H1) & H2 & _ & _); [done| |].
    { intros w s e Hw. apply lookup_replicate in Hw as [[= -> ->] _]. lia. }
    rewrite replicate_length in H2. unfold start_of. destruct (lookup_lt_is_Some_2 _ v ltac:(by rewrite H2)) as [[s e] E]. rewrite E. specialize (H1 v s e E). lia.
  Qed.

  Lemma allocate_inv ps iu fu : allocate se vs bbs = Some (ps, iu, fu) ->
    exists done cur ir fr, all_inv se vs iv occ done cur (ir, fr, ps) /\ iu = used ir /\ fu = used fr /\
      (forall v i, vs !! v = Some i -> present i = true -> ps !! v <> Some NotYet).
  Proof.
    unfold allocate, linear_scan. fold iv. fold occ. fold x0.
    destruct (scan se vs iv occ (sorted_intervals vs iv) x0) as [[[ir fr] ps']|] eqn:E; [|done]. cbn [mbind option_bind]. intros [= -> <- <-].
    destruct order_facts as (O1 & O2 & O3).
    assert (Hl : forall v, v ∈ sorted_intervals vs iv -> (v < length vs)%nat /\ v ∉ [] /\ -1 <= start_of iv v).
    { intros v Hv. apply O3 in Hv. split; [done|]. split; [intros H; by apply elem_of_nil in H|by apply start_min]. }
    assert (Hb : forall u v : nat, u ∈ [] -> v ∈ sorted_intervals vs iv -> before iv u v) by (intros u v Hu; by apply elem_of_nil in Hu).
    destruct (scan_ok se vs iv occ range_of_settings temp_of_settings (flags_mono se vs bbs) (sorted_intervals vs iv) [] (-1) x0 _ O1 Hb Hl O2 x0_inv E) as (cur & HI).
    eexists _, cur, ir, fr. split; [done|]. split; [done|]. split; [done|].
    destruct (scan_settled se vs iv occ range_of_settings temp_of_settings (flags_mono se vs bbs) (sorted_intervals vs iv) [] (-1) x0 (ir, fr, ps) O1 Hb Hl O2 x0_inv) as [K1 _]; [|done|].
    { intros v i Hv Hs. unfold x0, settled. cbn [snd]. rewrite Hv, list_lookup_fmap, Hv. cbn. rewrite Hs. done. }
    intros v i Hv Hp Hn. assert (settled vs ps v) as Hset. { apply K1, O3. by apply lookup_lt_Some in Hv. }
    unfold settled in Hset. rewrite Hv, Hn in Hset. by apply Hset.
  Qed.

  Lemma disjoint_ok ps iu fu u v r : allocate se vs bbs = Some (ps, iu, fu) -> u <> v -> flo_of vs u = flo_of vs v ->
    ps !! u = Some (Reg r) -> ps !! v = Some (Reg r) -> end_of iv u <= start_of iv v \/ end_of iv v <= start_of iv u.
  Proof.
    intros E Hne Hf Hu Hv. destruct (allocate_inv ps iu fu E) as (done & cur & ir & fr & (_ & Hi & Hfr) & _). cbn [fst snd] in *.
    destruct (Z.le_ge_cases (start_of iv u) (start_of iv v)) as [Hle|Hle].
    - left. destruct (flo_of vs u) eqn:Ef; [apply (ci_pair _ _ _ _ _ _ _ _ _ Hfr u v r)|apply (ci_pair _ _ _ _ _ _ _ _ _ Hi u v r)]; done.
    - right. destruct (flo_of vs u) eqn:Ef; [apply (ci_pair _ _ _ _ _ _ _ _ _ Hfr v u r)|apply (ci_pair _ _ _ _ _ _ _ _ _ Hi v u r)]; done.
  Qed.
  Lemma reg_ok ps iu fu v r : allocate se vs bbs = Some (ps, iu, fu) -> ps !! v = Some (Reg r) ->
    (v < length vs)%nat /\ N.testbit (occ_of occ v) (N.of_nat r) = false /\
    N.testbit (if flo_of vs v then fu else iu) (N.of_nat r) = true /\ (r < if flo_of vs v then fphys_max se else phys_max se)%nat.
  Proof.
    intros E Hv. destruct (allocate_inv ps iu fu E) as (done & cur & ir & fr & (Hlen & Hi & Hfr) & -> & -> & _). cbn [fst snd] in *.
    split; [apply lookup_lt_Some in Hv; lia|].
    destruct (flo_of vs v) eqn:Ef.
    - destruct (ci_done _ _ _ _ _ _ _ _ _ Hfr v r Hv Ef) as (_ & A2 & A3 & A4 & _). done.
    - destruct (ci_done _ _ _ _ _ _ _ _ _ Hi v r Hv Ef) as (_ & A2 & A3 & A4 & _). done.
  Qed.
  Lemma event_ok ps iu fu v r n : allocate se vs bbs = Some (ps, iu, fu) -> ps !! v = Some (Reg r) -> 
    event se vs iv (code bbs) n v (N.of_nat r) -> False.
  Proof.
    intros E Hv He. destruct (reg_ok ps iu fu v r E Hv) as (Hlt & Ho & _).
    assert (N.testbit (occ_of occ v) (N.of_nat r) = true); [|congruence]. apply flags_ok; [done|]. exists n. split; [|done].
    destruct He as (i & Hi & _). by apply lookup_lt_Some in Hi.
  Qed.
  Lemma occupied_ok ps iu fu v r n i : allocate se vs bbs = Some (ps, iu, fu) -> ps !! v = Some (Reg r) -> code bbs !! n = Some i ->
    start_of iv v < Z.of_nat n <= end_of iv v ->
    (flo_of vs v = false -> N.testbit (rextra i) (N.of_nat r) = false) /\ ~ arg_taken se (code bbs) n (flo_of vs v) r /\
    (reff i = Call -> Z.of_nat n < end_of iv v -> ((if flo_of vs v then ftemporary se else temporary se) <= r)%nat).
  Proof.
    intros E Hv Hi Hn. destruct (reg_ok ps iu fu v r E Hv) as (Hlt & _).
    assert (Ha : act_at vs iv (Z.of_nat n) v) by (split; [done|lia]).
    split; [|split].
    - intros Hf. apply not_true_is_false. intros Hb. apply (event_ok ps iu fu v r n E Hv). exists i. split; [done|]. split; [done|]. left. done.
    - intros Ht. apply (event_ok ps iu fu v r n E Hv). exists i. split; [done|]. split; [done|]. right. left. by rewrite Nat2N.id.
    - intros Hc Hend. destruct (decide ((if flo_of vs v then ftemporary se else temporary se) <= r)%nat) as [?|Hno]; [done|]. exfalso.
      apply (event_ok ps iu fu v r n E Hv). exists i. split; [done|]. split; [done|]. right. right. rewrite Nat2N.id. split; [done|]. split; [done|lia].
  Qed.

  Lemma total_ok : free_int se bbs -> free_flo se bbs -> exists ps iu fu, allocate se vs bbs = Some (ps, iu, fu) /\ length ps = length vs /\
    (forall v i, vs !! v = Some i -> present i = true -> ps !! v <> Some NotYet).
  Proof.
    intros (ri & Hri & Hex & Hmap) (rf & Hrf & Hpush).
    assert (Hlen' : length occ = length vs).
    { unfold occ, detect_flags. rewrite detect_bbs_code.
      assert (Hl : forall l nip d, length (docc (detect_irs se vs iv nip l d)) = length (docc d)).
      { induction l as [|i l IH]; intros nip d; cbn [detect_irs]; [done|]. rewrite IH. unfold detect_ir.
        destruct (activate _ _ _ _). cbn. destruct (reff i); by rewrite !occupy_len. }
      rewrite Hl. cbn. apply replicate_length. }
    assert (Hnever : forall c, never_occupied se vs occ c).
    { intros c. exists (if c then rf else ri). split; [unfold temp_of, max_of; by destruct c|].
      intros v Hv. apply not_true_is_false. intros Hb.
      assert (Hlt : (v < length vs)%nat).
      { destruct (decide (v < length vs)%nat); [done|]. unfold occ_of in Hb. rewrite lookup_ge_None_2 in Hb by lia. cbn in Hb. by rewrite ?N.bits_0 in Hb. }
      apply flags_ok in Hb as (m & _ & i & Hi & _ & He); [|done]. rewrite Hv, Nat2N.id in He.
      assert (Hin : forall k x, code bbs !! k = Some x -> x ∈ code bbs) by (intros k x Hx; by apply elem_of_list_lookup_2 in Hx).
      destruct He as [[-> He]|[(k & x & idx & _ & Hx & Hp & Hr & _)|(_ & _ & Hr)]].
      - rewrite (Hex i (Hin _ _ Hi)) in He. done.
      - destruct c; cbn in Hr; [injection Hr as ->; by apply (Hpush x rf (Hin _ _ Hx))|by apply (Hmap idx)].
      - destruct c; lia. }
    destruct order_facts as (O1 & O2 & O3).
    assert (Hl : forall v, v ∈ sorted_intervals vs iv -> (v < length vs)%nat /\ v ∉ [] /\ -1 <= start_of iv v).
    { intros v Hv. apply O3 in Hv. split; [done|]. split; [intros H; by apply elem_of_nil in H|by apply start_min]. }
    assert (Hb : forall u v : nat, u ∈ [] -> v ∈ sorted_intervals vs iv -> before iv u v) by (intros u v Hu; by apply elem_of_nil in Hu).
    destruct (scan_total se vs iv occ range_of_settings temp_of_settings (flags_mono se vs bbs) (sorted_intervals vs iv) Hnever [] (-1) x0 O1 Hb Hl O2 x0_inv) as [[[ir fr] ps] E].
    assert (EA : allocate se vs bbs = Some (ps, used ir, used fr)).
    { unfold allocate, linear_scan. fold iv. fold occ. fold x0. rewrite E. done. }
    exists ps, (used ir), (used fr). split; [done|]. destruct (allocate_inv _ _ _ EA) as (? & ? & ? & ? & (Hlen & _) & _ & _ & H). done.
  Qed.

  (** The program. *)
  Context (prog : list bb).
  Hypothesis Hsame : same_code prog bbs.
  Hypothesis Hcov : covers prog bbs.
  Hypothesis Hknown : known vs bbs.

  Lemma code_pos b rb j i : bbs !! b = Some rb -> rirs rb !! j = Some i -> code bbs !! (length (code (take b bbs)) + j)%nat = Some i.
  Proof.
    intros Hb Hj. rewrite (f_equal code (eq_sym (take_drop_middle bbs b rb Hb))). unfold code. rewrite fmap_app, concat_app. cbn [fmap list_fmap concat].
    rewrite lookup_app_r by lia. rewrite Nat.add_comm, Nat.add_sub. rewrite lookup_app_l; [done|]. by apply lookup_lt_Some in Hj.
  Qed.
  Lemma code_pos_inv n i : code bbs !! n = Some i -> exists b rb j, bbs !! b = Some rb /\ rirs rb !! j = Some i /\ n = (length (code (take b bbs)) + j)%nat.
  Proof.
    unfold code. clear. revert n. induction bbs as [|x l IH]; intros n Hn; cbn in Hn; [done|].
    apply lookup_app_Some in Hn as [Hn|[Hle Hn]].
    - exists 0%nat, x, n. done.
    - destruct (IH _ Hn) as (b & rb & j & H1 & H2 & H3). exists (S b), rb, j. split; [done|]. split; [done|]. cbn. rewrite app_length. lia.
  Qed.
  Lemma block_same b rb : bbs !! b = Some rb -> exists x, prog !! b = Some x /\ irs x = plain <$> rirs rb.
  Proof. intros Hb. destruct (Forall2_lookup_r _ _ _ _ _ Hsame Hb) as (x & Hx & E). by exists x. Qed.

  Lemma mention_interval n i v : code bbs !! n = Some i -> (rdst i = Some v \/ v ∈ roprs i) -> (v < length vs)%nat /\ start_of iv v <= Z.of_nat n <= end_of iv v.
  Proof.
    intros Hn Hv. destruct (code_pos_inv n i Hn) as (b & rb & j & Hb & Hj & ->).
    assert (Hlt : (v < length vs)%nat).
    { destruct (Hknown rb ltac:(by apply elem_of_list_lookup_2 in Hb)) as [_ Hk]. apply (Hk i v); [by apply elem_of_list_lookup_2 in Hj|done]. }
    split; [done|]. destruct (intervals_ok vs bbs) as (_ & _ & H). destruct (H b rb Hb) as (_ & _ & H3). rewrite Nat2Z.inj_add. apply (H3 j i v Hj); [|done].
    unfold regs_of. destruct Hv as [->|Hv]; [by left|]. apply elem_of_app. by right.
  Qed.
  Lemma drop_lookup {A} (l : list A) (k j : nat) (y : A) : drop k l !! j = Some y -> l !! (k + j)%nat = Some y.
  Proof. by rewrite lookup_drop. Qed.

  (** What is live after an instruction other than its destination has an interval around it. *)
  Lemma live_interval b rb j i v : bbs !! b = Some rb -> reach prog b -> rirs rb !! j = Some i -> live_after prog b j v ->
    let n := Z.of_nat (length (code (take b bbs)) + j) in
    n + 1 <= end_of iv v /\
    (rdst i <> Some v -> start_of iv v <= n /\ ((0 < j)%nat \/ mentioned bbs b j v \/ is_param vs v -> start_of iv v < n)).
  Proof.
    intros Hb Hr Hj (x & Hx & Hlive). cbn zeta. destruct (block_same b rb Hb) as (y & Hy & Ey). assert (y = x) as -> by congruence.
    destruct (intervals_ok vs bbs) as (_ & _ & HI). destruct (HI b rb Hb) as (I1 & I2 & I3). fold iv in I1, I2, I3.
    destruct (Hcov b rb Hb Hr) as [C1 C2].
    destruct (Hknown rb ltac:(by apply elem_of_list_lookup_2 in Hb)) as [K1 K2].
    assert (Hjl : (j < length (rirs rb))%nat) by (by apply lookup_lt_Some in Hj).
    assert (Hrd : forall k l, reads_first (drop k (irs x)) v -> k = l -> exists m z, (l <= m)%nat /\ rirs rb !! m = Some z /\ v ∈ roprs z).
    { intros k l (pre & z & post & E & Hv & _) <-. assert (Hz : drop k (irs x) !! length pre = Some z) by (rewrite E; by apply list_lookup_middle).
      apply drop_lookup in Hz. rewrite Ey, list_lookup_fmap in Hz. destruct (rirs rb !! (k + length pre)%nat) as [z'|] eqn:Ez; [|done].
      injection Hz as <-. exists (k + length pre)%nat, z'. split; [lia|]. split; [done|]. done. }
    split.
    - destruct Hlive as [Hread|[_ Hout]].
      + destruct (Hrd _ (S j) Hread eq_refl) as (m & z & Hm & Hz & Hv). pose proof (code_pos b rb m z Hb Hz) as Hc.
        destruct (mention_interval _ z v Hc (or_intror Hv)) as [_ H]. lia.
      + specialize (I2 v (C2 v Hout) (K1 v (or_intror (C2 v Hout)))). unfold count in I2. lia.
    - intros Hd.
      assert (Hcase : (exists m z, (m < j)%nat /\ rirs rb !! m = Some z /\ rdst z = Some v) \/ live prog v b).
      { destruct (decide (Exists (fun z => rdst z = Some v) (take j (rirs rb)))) as [Hex|Hnex].
        - left. apply Exists_exists in Hex as (z & Hz & Hzv). apply elem_of_list_lookup in Hz as [m Hm]. apply lookup_take_Some in Hm as [Hm Hlt]. exists m, z. done.
        - right. rewrite <- Forall_Exists_neg in Hnex.
          assert (Hpre : forall z, z ∈ take (S j) (irs x) -> odst z <> Some v).
          { intros z Hz. apply elem_of_list_lookup in Hz as [m Hm]. apply lookup_take_Some in Hm as [Hm Hlt]. rewrite Ey, list_lookup_fmap in Hm.
            destruct (rirs rb !! m) as [w|] eqn:Ew; [|done]. injection Hm as <-. cbn. destruct (decide (m = j)) as [->|Hne].
            - assert (w = i) as -> by congruence. done.
            - apply (proj1 (stdpp.list.Forall_forall _ _) Hnex). apply (elem_of_list_lookup_2 _ m). rewrite lookup_take by lia. done. }
          assert (Hsplit : irs x = take (S j) (irs x) ++ drop (S j) (irs x)) by (by rewrite take_drop).
          destruct Hlive as [(pre & z & post & E & Hv & Hp)|[Hna Hout]].
          + apply (live_here prog v b x Hx). exists (take (S j) (irs x) ++ pre), z, post. split; [rewrite <- app_assoc, <- E; done|]. split; [done|].
            intros w Hw. apply elem_of_app in Hw as [Hw|Hw]; [by apply Hpre|by apply Hp].
          + destruct Hout as (c & He & Hl). apply (live_later prog v b c x Hx); [|done|done].
            intros (z & Hz & Ez). rewrite Hsplit in Hz. apply elem_of_app in Hz as [Hz|Hz]; [by apply (Hpre z)|]. apply Hna. by exists z. }
      assert (Hbase : start_of iv v <= Z.of_nat (length (code (take b bbs)) + j) /\ ((0 < j)%nat -> start_of iv v < Z.of_nat (length (code (take b bbs)) + j))).
      { destruct Hcase as [(m & z & Hm & Hz & Hzv)|Hl].
        - pose proof (code_pos b rb m z Hb Hz) as Hc. destruct (mention_interval _ z v Hc (or_introl Hzv)) as [_ H]. lia.
        - specialize (I1 v (C1 v Hl) (K1 v (or_introl (C1 v Hl)))). lia. }
      split; [by apply Hbase|]. intros [H|[(n & z & Hn & Hz & Hv)|(k & Hk & Hp)]]; [by apply Hbase| |].
      + destruct (mention_interval n z v Hz Hv) as [_ H]. lia.
      + assert (start_of iv v < 0); [|lia]. apply param_start. unfold is_p. by rewrite Hk.
  Qed.

  Lemma dst_ok ps iu fu b rb j i d v r : allocate se vs bbs = Some (ps, iu, fu) ->
    bbs !! b = Some rb -> reach prog b -> rirs rb !! j = Some i -> rdst i = Some d -> live_after prog b j v -> v <> d ->
    flo_of vs v = flo_of vs d ->
    live_after prog b j d \/ (0 < j)%nat \/ mentioned bbs b j v \/ is_param vs v ->
    ps !! d = Some (Reg r) -> ps !! v = Some (Reg r) -> False.
  Proof.
    intros E Hb Hr Hj Hd Hl Hne Hf Hc Pd Pv.
    destruct (live_interval b rb j i v Hb Hr Hj Hl) as [V1 V2]. destruct V2 as [V2 V3]; [congruence|].
    destruct (mention_interval _ i d (code_pos b rb j i Hb Hj) (or_introl Hd)) as [_ D1].
    destruct (disjoint_ok ps iu fu v d r E Hne Hf Pv Pd) as [H|H]; [lia|].
    destruct Hc as [Hc|Hc].
    - destruct (live_interval b rb j i d Hb Hr Hj Hc) as [D2 _]. lia.
    - specialize (V3 Hc). lia.
  Qed.
  Lemma call_ok ps iu fu b rb j i v r : allocate se vs bbs = Some (ps, iu, fu) ->
    bbs !! b = Some rb -> reach prog b -> rirs rb !! j = Some i -> rdst i <> Some v -> live_after prog b j v ->
    (0 < j)%nat \/ mentioned bbs b j v \/ is_param vs v ->
    ps !! v = Some (Reg r) ->
    (reff i = Call -> ((if flo_of vs v then ftemporary se else temporary se) <= r)%nat) /\
    (flo_of vs v = false -> N.testbit (rextra i) (N.of_nat r) = false).
  Proof.
    intros E Hb Hr Hj Hd Hl Hc Pv.
    destruct (live_interval b rb j i v Hb Hr Hj Hl) as [V1 V2]. destruct V2 as [V2 V3]; [done|]. specialize (V3 Hc).
    destruct (occupied_ok ps iu fu v r _ i E Pv (code_pos b rb j i Hb Hj)) as (O1 & O2 & O3); [fold iv; lia|].
    split; [|done]. intros HC. apply O3; [done|]. fold iv. lia.
  Qed.
  Lemma arg_ok ps iu fu n i i' d r : allocate se vs bbs = Some (ps, iu, fu) ->
    code bbs !! n = Some i -> code bbs !! S n = Some i' -> reff i <> Call -> rdst i = Some d ->
    arg_taken se (code bbs) n (flo_of vs d) r -> ps !! d <> Some (Reg r).
  Proof.
    intros E Hi Hi' Hc Hd Ht Pd. destruct (mention_interval n i d Hi (or_introl Hd)) as [Hlt H].
    destruct (decide (start_of iv d < Z.of_nat n)) as [Hs|Hs].
    - apply (event_ok ps iu fu d r n E Pd). exists i. split; [done|]. split; [split; [done|]; lia|]. right. left. by rewrite Nat2N.id.
    - apply (event_ok ps iu fu d r (S n) E Pd). exists i'. split; [done|]. split; [split; [done|]; lia|]. right. left. rewrite Nat2N.id.
      apply (arg_step se (code bbs) n i); [done|]. by left.
  Qed.
End top.

(** The registers noted by the analysis of flow before the first round. *)
Lemma covers_flow prog bbs from st : wf prog -> length bbs = length prog ->
  detect_from_bbs prog = Some from -> analyze_reg_flow prog from = Some st ->
  (forall b rb s, bbs !! b = Some rb -> st !! b = Some s -> rin rb = ins s /\ rout rb = outs s) -> covers prog bbs.
Proof.
  intros Hw Hl Hf Ha Hs. destruct (liveness_ok prog Hw) as (from' & st' & Hf' & Ha' & Hlen & H).
  assert (from' = from) as -> by congruence. assert (st' = st) as -> by congruence.
  intros b rb Hb Hr. destruct (lookup_lt_is_Some_2 st b) as [s Es]; [apply lookup_lt_Some in Hb; lia|].
  destruct (Hs b rb s Hb Es) as [-> ->]. destruct (H b s Es) as (_ & _ & H3 & _). by apply H3.
Qed.
