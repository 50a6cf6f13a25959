From stdpp Require Import base list numbers list_numbers gmap.
From Coq Require Import Lia ZArith Bool.
From Verif Require Import Lib.Malloc_model Lib.Malloc_spec Lib.Malloc_proof Lib.Malloc_alloc_proof.
Local Open Scope Z_scope.

Definition blk (x : Z * Z) : block := (x.1 / 16 - 1, nunits x.2).
Definition live_ok (x : Z * Z) : Prop := x.1 mod 16 = 0 /\ 0 < x.1 /\ 0 <= x.2 <= max_request.
Definition CInv (s : st) (live : list (Z * Z)) : Prop :=
  (exists rest, Inv s rest (blk <$> live)) /\ Forall live_ok live.

Lemma nunits_ok n : 0 <= n <= max_request ->
  1 <= nunits n /\ n <= 16 * (nunits n - 1) < n + 16 /\ nunits n * 16 + 4095 < 2^63.
Proof.
  unfold max_request, nunits. intros Hn. rewrite Z.mod_small by lia.
  pose proof (Z.div_mod (n + 15) 16 ltac:(lia)). pose proof (Z.mod_pos_bound (n + 15) 16 ltac:(lia)). lia.
Qed.

Lemma Inv_perm s rest l l' : l ≡ₚ l' -> Inv s rest l -> Inv s rest l'.
Proof.
  intros Hp I. constructor; try apply I.
  - rewrite <- (i_tile _ _ _ I). apply all_units_perm. apply Permutation_app_head. done.
  - rewrite <- Hp. apply I.
Qed.

Lemma live_unit s rest l b u (I : Inv s rest l) : b ∈ l -> u ∈ units b -> u <> base s /\ u ∉ all_units rest /\ lo s <= u < hi s.
Proof.
  intros Hb Hu. destruct b as [a k]. destruct (inv_live _ _ _ I _ _ Hb) as (?&?&?). apply elem_units in Hu. cbn in Hu.
  pose proof (i_base _ _ _ I). split; [lia|]. split; [|lia]. intros Hr.
  apply elem_all_units in Hr as ([c j] & Hc & Hu'). apply elem_units in Hu'. cbn in Hu'.
  destruct (inv_rest_live _ _ _ I _ _ _ _ Hc Hb); lia.
Qed.
Lemma live_disj s rest l1 b l2 b' (I : Inv s rest (l1 ++ b :: l2)) : b' ∈ l1 ++ l2 -> b.1 + b.2 <= b'.1 \/ b'.1 + b'.2 <= b.1.
Proof.
  intros Hb'. destruct b as [a k], b' as [c j]. cbn.
  assert (0 < k) by (apply (inv_live _ _ _ I a k); apply elem_of_app; right; left).
  assert (0 < j) by (apply (inv_live _ _ _ I c j); apply elem_of_app in Hb' as [?|?]; apply elem_of_app; [by left|right; by right]).
  apply elem_of_Permutation in Hb' as (o & Ho).
  eapply (tile_disj s _ a k c j (rest ++ o) (i_tile _ _ _ I)); [|done|done].
  rewrite <- Permutation_middle, Ho. rewrite (Permutation_app_comm rest). cbn. do 2 f_equiv. apply Permutation_app_comm.
Qed.

(** All units of the listed blocks keep their contents. *)
Definition keep_live (s s' : st) (live : list (Z * Z)) : Prop :=
  forall x u, x ∈ live -> u ∈ units (blk x) -> mem s' !! u = mem s !! u.

Lemma malloc_ok s live n : CInv s live -> 0 <= n <= max_request ->
  exists s' p, malloc s n = Some (s', p) /\ same_env s s' /\ keep_live s s' live /\
    (p = 0 /\ s' = s /\ limit s < cur s + pages (nunits n) \/ p <> 0 /\ CInv s' ((p, n) :: live)) /\
    (forall rest, Inv s rest (blk <$> live) -> Exists (fun x : block => nunits n <= x.2) rest -> p <> 0 /\ cur s' = cur s).
Proof.
  intros [[rest I] Hok] Hn. destruct (nunits_ok n Hn) as (Hn1 & Hn2 & Hn3).
  destruct (malloc_loop_ok _ _ _ _ I Hn1 Hn3) as (nx & fs & s' & r & Hg & Hloop & Hk & He & _ & Hr).
  unfold malloc. rewrite Hg. cbn [mbind option_bind]. rewrite Hloop. cbn [mbind option_bind].
  assert (Hkl : keep_live s s' live).
  { intros x u Hx Hu. destruct (live_unit _ _ _ (blk x) u I) as (?&?&?); [by apply elem_of_list_fmap_1|done|]. apply Hk; [done|done|lia]. }
  destruct r as [u|].
  - destruct Hr as [rest' I']. exists s', (16 * (u + 1)). split; [done|]. split; [done|]. split; [done|].
    assert (Hu : lo s' <= u) by (apply (inv_live _ _ _ I' u (nunits n)); left).
    assert (0 <= lo s') by (destruct (i_lim _ _ _ I') as (_ & ? & _); unfold lo; apply Z.div_pos; lia).
    assert (Hblk : blk (16 * (u + 1), n) = (u, nunits n)).
    { unfold blk. cbn [fst snd]. rewrite (Z.mul_comm 16), Z.div_mul by lia. f_equal. lia. }
    split.
    + right. split; [lia|]. split.
      * exists rest'. cbn [fmap list_fmap]. rewrite Hblk. done.
      * apply List.Forall_cons; [|done]. unfold live_ok. cbn [fst snd]. rewrite (Z.mul_comm 16), Z.mod_mul by lia. lia.
    + intros rest0 I0 Hex. destruct (malloc_loop_ok _ _ _ _ I0 Hn1 Hn3) as (nx0 & fs0 & s0 & r0 & Hg0 & Hloop0 & _ & _ & Hex0 & _).
      rewrite Hg in Hg0. injection Hg0 as <- <-. rewrite Hloop in Hloop0. injection Hloop0 as <- <-.
      split; [lia|]. apply Hex0. done.
  - destruct Hr as [-> Hlim]. exists s, 0. split; [done|]. split; [done|]. split; [done|]. split; [left; done|].
    intros rest0 I0 Hex. destruct (malloc_loop_ok _ _ _ _ I0 Hn1 Hn3) as (nx0 & fs0 & s0 & r0 & Hg0 & Hloop0 & _ & _ & Hex0 & _).
    rewrite Hg in Hg0. injection Hg0 as <- <-. rewrite Hloop in Hloop0. injection Hloop0 as <- <-.
    destruct (Hex0 Hex) as [? _]. done.
Qed.

Lemma free_ok s l1 p n l2 : CInv s (l1 ++ (p, n) :: l2) ->
  exists s', free s p = Some s' /\ same_env s s' /\ cur s' = cur s /\ keep_live s s' (l1 ++ l2) /\ CInv s' (l1 ++ l2).
Proof.
  intros [[rest I] Hok]. rewrite fmap_app in I. cbn [fmap list_fmap] in I.
  pose proof (proj1 (Forall_app _ _ _) Hok) as [Hok1 Hok2]. apply Forall_cons_1 in Hok2 as [Hp Hok2].
  destruct Hp as (Hp1 & Hp2 & Hp3). cbn in Hp1, Hp2, Hp3.
  assert (I2 : Inv s rest ((p / 16 - 1, nunits n) :: (blk <$> l1) ++ (blk <$> l2))).
  { eapply Inv_perm; [|exact I]. rewrite <- Permutation_middle. done. }
  destruct (free_block_ok _ _ _ _ _ I2) as (s' & rest' & Hf & I' & Hk & Hb & Hs & Hc & Hl & _).
  exists s'. unfold free. rewrite decide_False by lia. split; [done|]. split; [done|]. split; [done|]. split.
  - intros x u Hx Hu.
    assert (Hin : blk x ∈ (blk <$> l1) ++ (blk <$> l2)) by (rewrite <- fmap_app; by apply elem_of_list_fmap_1).
    assert (Hin2 : blk x ∈ (p / 16 - 1, nunits n) :: (blk <$> l1) ++ (blk <$> l2)) by (by right).
    destruct (live_unit _ _ _ (blk x) u I2) as (?&?&?); [done|done|].
    apply Hk; [done|done|]. apply elem_units in Hu.
    destruct (inv_live _ _ _ I2 (p / 16 - 1) (nunits n)) as (?&?&?); [left|].
    pose proof (live_disj _ _ _ (blk (p, n)) _ (blk x) I Hin) as Hd. 
    change ((blk (p, n)).1) with (p / 16 - 1) in Hd. change ((blk (p, n)).2) with (nunits n) in Hd.
    destruct (blk x) as [c j]. cbn [fst snd] in *. lia.
  - split; [|apply Forall_app; done]. exists rest'. rewrite fmap_app. done.
Qed.

Lemma copy_ok rest live a k : forall n s d src, Inv s rest live -> (a, k) ∈ live -> a < d -> d + Z.of_nat n <= a + k ->
  (forall j, 0 <= j < Z.of_nat n -> mapped s (src + j) = true) ->
  (src + Z.of_nat n <= d \/ d + Z.of_nat n <= src) ->
  exists s', copy_units s d src n = Some s' /\ Inv s' rest live /\ same_env s s' /\ cur s' = cur s /\
    (forall u, u < d \/ d + Z.of_nat n <= u -> mem s' !! u = mem s !! u) /\
    (forall j, 0 <= j < Z.of_nat n -> content s' (d + j) = content s (src + j)).
Proof.
  induction n as [|n IH]; intros s d src I Hin Had Hd Hmap Hdis.
  - exists s. cbn. split; [done|]. split; [done|]. split; [done|]. split; [done|]. split; [done|]. lia.
  - cbn [copy_units]. pose proof (Hmap 0 ltac:(lia)) as Hm0. rewrite Z.add_0_r in Hm0. rewrite Hm0.
    destruct (inv_live _ _ _ I _ _ Hin) as (?&?&?). destruct (i_al _ _ _ I) as [Ha1 Ha2].
    rewrite (mapped_in s d) by (done || lia). cbn [andb].
    set (v := default (Data 0) (mem s !! src)).
    destruct (IH (upd s d v) (d + 1) (src + 1)) as (s' & Hc & I' & He & Hcur & Ho & Hj).
    + eapply write_ok; [done|done|lia].
    + done.
    + lia.
    + lia.
    + intros j Hj. rewrite mapped_upd. replace (src + 1 + j) with (src + (j + 1)) by lia. apply Hmap. lia.
    + lia.
    + exists s'. split; [done|]. split; [done|]. split; [done|]. split; [done|]. split.
      * intros u Hu. rewrite Ho by lia. cbn. apply lookup_insert_ne. lia.
      * intros j Hj2. destruct (decide (j = 0)) as [->|Hne].
        -- rewrite !Z.add_0_r. unfold content. rewrite Ho by lia. cbn. rewrite lookup_insert. done.
        -- replace (d + j) with (d + 1 + (j - 1)) by lia. rewrite Hj by lia. unfold content. cbn.
           rewrite lookup_insert_ne by lia. do 2 f_equal. lia.
Qed.

Lemma same_env_trans s1 s2 s3 : same_env s1 s2 -> same_env s2 s3 -> same_env s1 s3.
Proof. intros (a & b & c) (d & e & f). unfold same_env. rewrite d, e, f. done. Qed.

Lemma realloc_ok s l1 p n0 l2 n : CInv s (l1 ++ (p, n0) :: l2) -> 0 <= n <= max_request ->
  exists s' q, realloc s p n = Some (s', q) /\ same_env s s' /\ keep_live s s' (l1 ++ l2) /\
    (n = 0 /\ CInv s' (l1 ++ l2) \/
     n <> 0 /\ q = 0 /\ s' = s \/
     n <> 0 /\ q <> 0 /\ CInv s' ((q, n) :: l1 ++ l2) /\
       forall k, 0 <= 16 * k < Z.min n n0 -> content s' (q / 16 + k) = content s (p / 16 + k)).
Proof.
  intros HC Hn. pose proof HC as [[rest I] Hok].
  pose proof (proj1 (Forall_app _ _ _) Hok) as [_ Hok2]. apply Forall_cons_1 in Hok2 as [Hp _].
  destruct Hp as (Hp1 & Hp2 & Hp3). cbn in Hp1, Hp2, Hp3.
  unfold realloc. destruct (decide (n = 0)) as [->|Hn0].
  - destruct (free_ok _ _ _ _ _ HC) as (s' & Hf & He & Hc & Hk & HC'). rewrite Hf. cbn [mbind option_bind].
    exists s', 0. split; [done|]. split; [done|]. split; [done|]. left. done.
  - rewrite decide_False by lia. destruct (malloc_ok _ _ n HC Hn) as (s1 & q & Hm & He1 & Hk1 & Hr & _).
    rewrite Hm. cbn [mbind option_bind]. destruct Hr as [(-> & -> & _)|[Hq HC1]].
    + rewrite decide_False by lia. exists s, 0. split; [done|]. split; [done|]. split; [done|]. right. left. done.
    + rewrite decide_True by done. pose proof HC1 as [[rest1 I1] Hok1].
      assert (Hpin : blk (p, n0) ∈ blk <$> (q, n) :: l1 ++ (p, n0) :: l2).
      { apply elem_of_list_fmap_1. right. apply elem_of_app. right. left. }
      destruct (inv_get_live _ _ _ I1 _ _ Hpin) as [x Hg]. cbn [fst snd] in Hg. rewrite Hg. cbn [mbind option_bind].
      destruct (nunits_ok n Hn) as (Hn1 & Hn2 & Hn3). destruct (nunits_ok n0 Hp3) as (Hm1 & Hm2 & Hm3).
      rewrite Z.mod_small by (unfold max_request in *; lia).
      set (old := (nunits n0 - 1) * 16). set (cnt := (Z.min n old + 15) / 16).
      assert (Hcnt : 0 <= cnt /\ cnt <= nunits n - 1 /\ cnt <= nunits n0 - 1 /\ Z.min n n0 <= 16 * cnt).
      { unfold cnt, old. pose proof (Z.div_mod (Z.min n ((nunits n0 - 1) * 16) + 15) 16 ltac:(lia)).
        pose proof (Z.mod_pos_bound (Z.min n ((nunits n0 - 1) * 16) + 15) 16 ltac:(lia)). lia. }
      assert (Hq1 : q mod 16 = 0 /\ 0 < q) by (apply Forall_cons_1 in Hok1 as [(?&?&?) _]; done).
      destruct Hq1 as [Hq1 Hq2].
      pose proof (i_al _ _ _ I1) as [Ha1 Ha2].
      destruct (inv_live _ _ _ I1 _ _ Hpin) as (Hb1 & Hb2 & Hb3). cbn [fst snd] in Hb1, Hb2, Hb3.
      assert (Hqin : blk (q, n) ∈ blk <$> (q, n) :: l1 ++ (p, n0) :: l2) by (apply elem_of_list_fmap_1; left).
      assert (Hdis : q / 16 - 1 + nunits n <= p / 16 - 1 \/ p / 16 - 1 + nunits n0 <= q / 16 - 1).
      { cbn [fmap list_fmap] in I1. pose proof (live_disj _ _ [] (blk (q, n)) _ (blk (p, n0)) I1) as Hd.
        cbn [app blk fst snd] in Hd. apply Hd. apply (elem_of_list_fmap_1 blk _ (p, n0)). apply elem_of_app. right. left. }
      destruct (copy_ok rest1 _ (q / 16 - 1) (nunits n) (Z.to_nat cnt) s1 (q / 16) (p / 16) I1 Hqin) as (s2 & Hc & I2 & He2 & Hcur & Ho & Hj).
      { lia. } { lia. }
      { intros j Hj. apply mapped_in; [done|done|]. lia. }
      { lia. }
      rewrite Hc. cbn [mbind option_bind].
      assert (HC2 : CInv s2 (((q, n) :: l1) ++ (p, n0) :: l2)) by (split; [exists rest1; exact I2|exact Hok1]).
      destruct (free_ok _ _ _ _ _ HC2) as (s3 & Hf & He3 & Hc3 & Hk3 & HC3). rewrite Hf. cbn [mbind option_bind].
      exists s3, q. split; [done|]. split; [eapply same_env_trans; [done|]; eapply same_env_trans; done|]. split.
      * intros y u Hy Hu. rewrite (Hk3 y u) by (try done; cbn [app]; by right). rewrite Ho.
        -- apply (Hk1 y); [|done]. apply elem_of_app in Hy as [?|?]; apply elem_of_app; [by left|right; by right].
        -- cbn [fmap list_fmap] in I1. pose proof (live_disj _ _ [] (blk (q, n)) _ (blk y) I1) as Hd. cbn [app] in Hd.
           assert (Hy' : blk y ∈ blk <$> l1 ++ (p, n0) :: l2).
           { apply elem_of_list_fmap_1. apply elem_of_app in Hy as [?|?]; apply elem_of_app; [by left|right; by right]. }
           specialize (Hd Hy'). apply elem_units in Hu. cbn [blk fst snd] in Hd, Hu. lia.
      * right. right. split; [done|]. split; [done|]. split; [exact HC3|].
        intros k Hk. unfold content. rewrite (Hk3 (q, n)).
        -- change (content s2 (q / 16 + k) = content s (p / 16 + k)). rewrite Hj by lia. unfold content.
           rewrite (Hk1 (p, n0)); [done|apply elem_of_app; right; left|]. apply elem_units. cbn [blk fst snd]. lia.
        -- cbn [app]. left.
        -- apply elem_units. cbn [blk fst snd]. lia.
Qed.

Lemma delete_split {A} (l : list A) i x : l !! i = Some x -> l = take i l ++ x :: drop (S i) l /\ delete i l = take i l ++ drop (S i) l.
Proof. intros H. split; [symmetry; by apply take_drop_middle|]. by rewrite delete_take_drop. Qed.

Lemma step_ok s live o : CInv s live -> op_ok o ->
  exists s' live', step s live o = Some (s', live') /\ CInv s' live' /\ same_env s s' /\
    (forall i p n, live !! i = Some (p, n) -> ~ touches o i ->
       (p, n) ∈ live' /\ forall k, 0 <= 16 * k < n -> content s' (p / 16 + k) = content s (p / 16 + k)).
Proof.
  intros HC Ho. pose proof HC as [[rest I] Hok].
  assert (Hunit : forall p n k, (p, n) ∈ live -> 0 <= 16 * k < n -> p / 16 + k ∈ units (blk (p, n))).
  { intros p n k Hin Hk. pose proof (proj1 (Forall_forall _ _) Hok _ Hin) as (_ & _ & H). cbn in H.
    destruct (nunits_ok n H) as (?&?&?). apply elem_units. cbn [blk fst snd]. lia. }
  destruct o as [n|i|i n|i k v]; cbn [step op_ok touches] in *.
  - destruct (malloc_ok _ _ n HC Ho) as (s' & p & Hm & He & Hk & Hr & _). rewrite Hm. cbn [mbind option_bind].
    destruct Hr as [(-> & -> & _)|[Hp HC']].
    + rewrite decide_True by done. exists s, live. split; [done|]. split; [done|]. split; [done|].
      intros j p' n' Hj _. split; [by eapply elem_of_list_lookup_2|done].
    + rewrite decide_False by done. exists s', ((p, n) :: live). split; [done|]. split; [done|]. split; [done|].
      intros j p' n' Hj _. apply elem_of_list_lookup_2 in Hj. split; [by right|].
      intros k' Hk'. unfold content. rewrite (Hk (p', n')); [done|done|by apply Hunit].
  - destruct (live !! i) as [[p n]|] eqn:Ei.
    2:{ exists s, live. split; [done|]. split; [done|]. split; [done|]. intros j p' n' Hj _. split; [by eapply elem_of_list_lookup_2|done]. }
    destruct (delete_split _ _ _ Ei) as [E1 E2]. rewrite E2. rewrite E1 in HC.
    destruct (free_ok _ _ _ _ _ HC) as (s' & Hf & He & Hc & Hk & HC'). rewrite Hf. cbn [mbind option_bind].
    exists s', (take i live ++ drop (S i) live). split; [done|]. split; [done|]. split; [done|].
    intros j p' n' Hj Hne. assert (Hin : (p', n') ∈ take i live ++ drop (S i) live).
    { rewrite <- E2. apply elem_of_list_lookup. destruct (decide (j < i)%nat).
      - exists j. rewrite lookup_delete_lt by done. done.
      - exists (j - 1)%nat. rewrite lookup_delete_ge by lia. replace (S (j - 1)) with j by lia. done. }
    split; [done|]. intros k' Hk'. unfold content. rewrite (Hk (p', n')); [done|done|].
    apply Hunit; [by eapply elem_of_list_lookup_2|done].
  - destruct (live !! i) as [[p n1]|] eqn:Ei.
    2:{ exists s, live. split; [done|]. split; [done|]. split; [done|]. intros j p' n' Hj _. split; [by eapply elem_of_list_lookup_2|done]. }
    destruct (delete_split _ _ _ Ei) as [E1 E2]. rewrite E2. pose proof HC as HC0. rewrite E1 in HC.
    destruct (realloc_ok _ _ _ _ _ n HC Ho) as (s' & q & Hf & He & Hk & Hr). rewrite Hf. cbn [mbind option_bind].
    assert (Hoth : forall j p' n', live !! j = Some (p', n') -> j <> i -> (p', n') ∈ take i live ++ drop (S i) live).
    { intros j p' n' Hj Hne. rewrite <- E2. apply elem_of_list_lookup. destruct (decide (j < i)%nat).
      - exists j. rewrite lookup_delete_lt by done. done.
      - exists (j - 1)%nat. rewrite lookup_delete_ge by lia. replace (S (j - 1)) with j by lia. done. }
    assert (Hcon : forall j p' n', live !! j = Some (p', n') -> j <> i -> forall k, 0 <= 16 * k < n' -> content s' (p' / 16 + k) = content s (p' / 16 + k)).
    { intros j p' n' Hj Hne k' Hk'. unfold content. rewrite (Hk (p', n')); [done|by eapply Hoth|].
      apply Hunit; [by eapply elem_of_list_lookup_2|done]. }
    destruct Hr as [[-> HC']|[(Hn & -> & ->)|(Hn & Hq & HC' & _)]].
    + rewrite decide_True by done. exists s', (take i live ++ drop (S i) live). split; [done|]. split; [done|]. split; [done|].
      intros j p' n' Hj Hne. split; [by eapply Hoth|by eapply Hcon].
    + rewrite decide_False by done. rewrite decide_True by done. exists s, live. split; [done|]. split; [done|]. split; [done|].
      intros j p' n' Hj Hne. split; [by eapply elem_of_list_lookup_2|done].
    + rewrite decide_False by done. rewrite decide_False by done. exists s', ((q, n) :: take i live ++ drop (S i) live).
      split; [done|]. split; [done|]. split; [done|].
      intros j p' n' Hj Hne. split; [right; by eapply Hoth|by eapply Hcon].
  - destruct (live !! i) as [[p n1]|] eqn:Ei.
    2:{ exists s, live. split; [done|]. split; [done|]. split; [done|]. intros j p' n' Hj _. split; [by eapply elem_of_list_lookup_2|done]. }
    destruct (decide (0 <= 16 * k < n1)) as [Hk|Hk].
    2:{ exists s, live. split; [done|]. split; [done|]. split; [done|]. intros j p' n' Hj _. split; [by eapply elem_of_list_lookup_2|done]. }
    exists (upd s (p / 16 + k) v), live. split; [done|].
    pose proof (elem_of_list_lookup_2 _ _ _ Ei) as Hin. pose proof (Hunit p n1 k Hin Hk) as Hu. apply elem_units in Hu. cbn [blk fst snd] in Hu.
    split.
    + split; [|done]. exists rest. eapply (write_ok _ _ _ (p / 16 - 1) (nunits n1)); [done|exact (elem_of_list_fmap_1 blk _ _ Hin)|lia].
    + split; [done|]. intros j p' n' Hj Hne. pose proof (elem_of_list_lookup_2 _ _ _ Hj) as Hin'. split; [done|].
      intros k' Hk'. unfold content. cbn. rewrite lookup_insert_ne; [done|].
      pose proof (Hunit p' n' k' Hin' Hk') as Hu'. apply elem_units in Hu'. cbn [blk fst snd] in Hu'.
      destruct (delete_split _ _ _ Ei) as [E1 E2].
      assert (Hin2 : (p', n') ∈ take i live ++ drop (S i) live).
      { rewrite <- E2. apply elem_of_list_lookup. destruct (decide (j < i)%nat).
        - exists j. rewrite lookup_delete_lt by done. done.
        - exists (j - 1)%nat. rewrite lookup_delete_ge by lia. replace (S (j - 1)) with j by lia. done. }
      rewrite E1 in I. rewrite fmap_app in I. cbn [fmap list_fmap] in I.
      pose proof (live_disj _ _ _ (blk (p, n1)) _ (blk (p', n')) I) as Hd.
      change (list_fmap _ _ blk (drop (S i) live)) with (blk <$> drop (S i) live) in Hd. rewrite <- fmap_app in Hd.
      specialize (Hd (elem_of_list_fmap_1 blk _ _ Hin2)). cbn [blk fst snd] in Hd. lia.
Qed.

Lemma init_ok b lo0 hi0 : env_ok b lo0 hi0 -> CInv (init b lo0 hi0) [].
Proof.
  intros (H1 & H2 & H3 & H4 & H5 & H6). split; [|constructor]. exists []. unfold init.
  constructor; cbn [mem freep base start cur limit fmap list_fmap app].
  - done.
  - lia.
  - done.
  - cbn [seg hd_addr]. split; [apply lookup_singleton|done].
  - done.
  - unfold lo, hi. cbn. rewrite Z.sub_diag. done.
  - left.
  - constructor.
Qed.

Lemma run_ok ops : forall s live, CInv s live -> Forall op_ok ops ->
  exists s' live', run s live ops = Some (s', live') /\ CInv s' live' /\ same_env s s'.
Proof.
  induction ops as [|o ops IH]; intros s live HC Ho; [by exists s, live|].
  apply Forall_cons_1 in Ho as [Ho Hos]. destruct (step_ok _ _ _ HC Ho) as (s1 & l1 & Hst & HC1 & He1 & _).
  cbn [run]. rewrite Hst. cbn [mbind option_bind]. destruct (IH _ _ HC1 Hos) as (s2 & l2 & Hr & HC2 & He2).
  exists s2, l2. split; [done|]. split; [done|]. eapply same_env_trans; done.
Qed.

Lemma placed s live : CInv s live -> well_placed (start s) (cur s) live /\ cur s <= limit s.
Proof.
  intros [[rest I] Hok]. destruct (i_lim _ _ _ I) as (Hl & _). destruct (i_al _ _ _ I) as [Ha1 Ha2]. split; [|lia]. split.
  - intros p n Hin. pose proof (proj1 (Forall_forall _ _) Hok _ Hin) as (H1 & H2 & H3). cbn in H1, H2, H3.
    destruct (inv_live _ _ _ I _ _ (elem_of_list_fmap_1 blk _ _ Hin)) as (H4 & H5 & H6). cbn [blk fst snd] in *.
    destruct (nunits_ok n H3) as (?&?&?).
    unfold lo, hi in *. pose proof (Z.div_mod (start s) 16 ltac:(lia)). pose proof (Z.div_mod (cur s) 16 ltac:(lia)).
    pose proof (Z.div_mod p 16 ltac:(lia)). lia.
  - intros i j p n q m Hne Hi Hj.
    pose proof (proj1 (Forall_forall _ _) Hok _ (elem_of_list_lookup_2 _ _ _ Hi)) as (H1 & H2 & H3).
    pose proof (proj1 (Forall_forall _ _) Hok _ (elem_of_list_lookup_2 _ _ _ Hj)) as (H4 & H5 & H6). cbn in *.
    destruct (nunits_ok n H3) as (?&?&?). destruct (nunits_ok m H6) as (?&?&?).
    destruct (delete_split _ _ _ Hi) as [E1 E2].
    assert (Hin2 : (q, m) ∈ take i live ++ drop (S i) live).
    { rewrite <- E2. apply elem_of_list_lookup. destruct (decide (j < i)%nat).
      - exists j. rewrite lookup_delete_lt by done. done.
      - exists (j - 1)%nat. rewrite lookup_delete_ge by lia. replace (S (j - 1)) with j by lia. done. }
    rewrite E1 in I. rewrite fmap_app in I. cbn [fmap list_fmap] in I.
    pose proof (live_disj _ _ _ (blk (p, n)) _ (blk (q, m)) I) as Hd.
    change (list_fmap _ _ blk (drop (S i) live)) with (blk <$> drop (S i) live) in Hd. rewrite <- fmap_app in Hd.
    specialize (Hd (elem_of_list_fmap_1 blk _ _ Hin2)). cbn [blk fst snd] in Hd.
    pose proof (Z.div_mod p 16 ltac:(lia)). pose proof (Z.div_mod q 16 ltac:(lia)). lia.
Qed.

(* everything freed: one block again *)
Lemma all_free s rest : Inv s rest [] -> lo s < hi s -> rest = [(lo s, hi s - lo s)].
Proof.
  intros I Hlt. pose proof (i_tile _ _ _ I) as Ht. rewrite app_nil_r in Ht. pose proof (i_srt _ _ _ I) as Hs.
  destruct rest as [|[a n] R].
  { assert (Hx : lo s ∈ seqZ (lo s) (hi s - lo s)) by (apply elem_of_seqZ; lia). rewrite <- Ht in Hx. by apply elem_of_nil in Hx. }
  cbn in Hs. destruct Hs as (H1 & H2 & H3).
  destruct (inv_rest _ _ _ I a n ltac:(left)) as (H4 & H5 & _).
  assert (a = lo s) as ->.
  { assert (Hx : lo s ∈ seqZ (lo s) (hi s - lo s)) by (apply elem_of_seqZ; lia). rewrite <- Ht in Hx.
    apply elem_all_units in Hx as ([b k] & Hin & Hu). apply elem_units in Hu. cbn in Hu.
    apply elem_of_cons in Hin as [[= -> ->]|Hin]; [lia|]. pose proof (srt_lb _ _ _ _ H3 Hin). lia. }
  assert (lo s + n = hi s) as Hn.
  { destruct (Z.lt_ge_cases (lo s + n) (hi s)) as [Hl|]; [|lia].
    assert (Hx : lo s + n ∈ seqZ (lo s) (hi s - lo s)) by (apply elem_of_seqZ; lia). rewrite <- Ht in Hx.
    apply elem_all_units in Hx as ([b k] & Hin & Hu). apply elem_units in Hu. cbn in Hu.
    apply elem_of_cons in Hin as [[= -> ->]|Hin]; [lia|]. pose proof (srt_lb _ _ _ _ H3 Hin). lia. }
  destruct R as [|[b k] R].
  - do 2 f_equal. lia.
  - cbn in H3. destruct (inv_rest _ _ _ I b k ltac:(right; left)) as (?&?&?). lia.
Qed.

Lemma reuse_ok s n : CInv s [] -> 0 <= n <= max_request -> n + 32 <= cur s - start s ->
  exists s' p, malloc s n = Some (s', p) /\ p <> 0 /\ cur s' = cur s.
Proof.
  intros HC Hn Hsz. destruct (malloc_ok _ _ n HC Hn) as (s' & p & Hm & _ & _ & _ & Hre).
  exists s', p. split; [done|]. destruct HC as [[rest I] _]. apply (Hre rest I).
  destruct (i_al _ _ _ I) as [Ha1 Ha2]. destruct (nunits_ok n Hn) as (?&?&?).
  pose proof (Z.div_mod (start s) 16 ltac:(lia)). pose proof (Z.div_mod (cur s) 16 ltac:(lia)).
  rewrite (all_free s rest I) by (unfold lo, hi; lia). left. cbn. unfold lo, hi. lia.
Qed.

(* the property statements *)
Lemma history_lemma : forall b lo hi ops, env_ok b lo hi -> Forall op_ok ops ->
  exists s live, run (init b lo hi) [] ops = Some (s, live) /\
    well_placed lo (cur s) live /\ cur s <= hi.
Proof.
  intros b lo hi ops He Ho. destruct (run_ok ops _ _ (init_ok _ _ _ He) Ho) as (s & live & Hr & HC & (_ & Es & El)).
  exists s, live. split; [exact Hr|]. destruct (placed _ _ HC) as [Hp Hc]. rewrite Es in Hp. rewrite El in Hc. split; [exact Hp|exact Hc].
Qed.

Lemma contents_kept_lemma : forall b lo hi ops s live o, env_ok b lo hi -> Forall op_ok ops -> op_ok o ->
  run (init b lo hi) [] ops = Some (s, live) ->
  exists s' live', step s live o = Some (s', live') /\
    forall i p n, live !! i = Some (p, n) -> ~ touches o i ->
      (p, n) ∈ live' /\ forall k, 0 <= 16 * k < n -> content s' (p / 16 + k) = content s (p / 16 + k).
Proof.
  intros b lo hi ops s live o He Ho Hop Hr. destruct (run_ok ops _ _ (init_ok _ _ _ He) Ho) as (s1 & l1 & Hr1 & HC & _).
  rewrite Hr in Hr1. injection Hr1 as <- <-. destruct (step_ok _ _ _ HC Hop) as (s' & live' & Hs & _ & _ & Hk).
  exists s', live'. split; [exact Hs|exact Hk].
Qed.

Lemma realloc_lemma : forall b lo hi ops s live i p n0 n, env_ok b lo hi -> Forall op_ok ops ->
  run (init b lo hi) [] ops = Some (s, live) -> live !! i = Some (p, n0) -> 0 < n <= max_request ->
  exists s' q, realloc s p n = Some (s', q) /\
    (q = 0 /\ s' = s \/
     q <> 0 /\ forall k, 0 <= 16 * k < Z.min n n0 -> content s' (q / 16 + k) = content s (p / 16 + k)).
Proof.
  intros b lo hi ops s live i p n0 n He Ho Hr Hi Hn. destruct (run_ok ops _ _ (init_ok _ _ _ He) Ho) as (s1 & l1 & Hr1 & HC & _).
  rewrite Hr in Hr1. injection Hr1 as <- <-. destruct (delete_split _ _ _ Hi) as [E1 _]. rewrite E1 in HC.
  destruct (realloc_ok _ _ _ _ _ n HC) as (s' & q & Hq & _ & _ & H).
  { split; [apply Z.lt_le_incl|]; apply Hn. }
  exists s', q. split; [exact Hq|]. destruct H as [[-> _]|[(_ & H1 & H2)|(_ & H1 & _ & H2)]].
  - destruct Hn. discriminate.
  - left. split; assumption.
  - right. split; assumption.
Qed.

Lemma null_only_when_exhausted_lemma : forall b lo hi ops s live n, env_ok b lo hi -> Forall op_ok ops ->
  run (init b lo hi) [] ops = Some (s, live) -> 0 <= n <= max_request ->
  exists s' p, malloc s n = Some (s', p) /\ (p = 0 -> s' = s /\ hi < cur s + pages (nunits n)).
Proof.
  intros b lo hi ops s live n He Ho Hr Hn. destruct (run_ok ops _ _ (init_ok _ _ _ He) Ho) as (s1 & l1 & Hr1 & HC & (_ & _ & El)).
  rewrite Hr in Hr1. injection Hr1 as <- <-. destruct (malloc_ok _ _ n HC Hn) as (s' & p & Hm & _ & _ & H & _).
  exists s', p. split; [exact Hm|]. intros ->. destruct H as [(_ & H1 & H2)|[H _]]; [|congruence].
  rewrite El in H2. split; [exact H1|exact H2].
Qed.

Lemma memory_is_reused_lemma : forall b lo hi ops s n, env_ok b lo hi -> Forall op_ok ops ->
  run (init b lo hi) [] ops = Some (s, []) -> 0 <= n <= max_request -> n + 32 <= cur s - lo ->
  exists s' p, malloc s n = Some (s', p) /\ p <> 0 /\ cur s' = cur s.
Proof.
  intros b lo hi ops s n He Ho Hr Hn Hsz. destruct (run_ok ops _ _ (init_ok _ _ _ He) Ho) as (s1 & l1 & Hr1 & HC & (_ & Es & _)).
  rewrite Hr in Hr1. injection Hr1 as <- <-. apply reuse_ok; [exact HC|exact Hn|]. rewrite Es. exact Hsz.
Qed.

Lemma huge_request_witness :
  exists s' p, malloc (init 1 4096 65536) (2^64 - 1) = Some (s', p) /\ p <> 0 /\ get s' (p / 16 - 1) = Some (0, 1).
Proof. eexists _, 8192. split; [vm_compute; reflexivity|]. split; [discriminate|vm_compute; reflexivity]. Qed.

Lemma negative_sbrk_witness : malloc (init 1 4096 65536) (2^64 - 8192) = None.
Proof. vm_compute. reflexivity. Qed.

Lemma calloc_overflow_witness : exists nmemb size,
  0 <= nmemb < 2^64 /\ 0 <= size < 2^64 /\ calloc_bytes nmemb size < nmemb * size /\
  exists s' p, malloc (init 1 4096 65536) (calloc_bytes nmemb size) = Some (s', p) /\ p <> 0.
Proof.
  exists (2^32), (2^32). split; [split; [discriminate|reflexivity]|]. split; [split; [discriminate|reflexivity]|].
  split; [reflexivity|]. eexists _, 8192. split; [vm_compute; reflexivity|discriminate].
Qed.
