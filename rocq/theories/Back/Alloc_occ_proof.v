From stdpp Require Import base list numbers sorting.
From Coq Require Import Lia.
From Verif Require Import Back.Flow_model Back.Flow_spec Back.Alloc_model Back.Alloc_spec Back.Alloc_proof.
Open Scope Z_scope.

(** Live intervals. *)
Definition is_p (vs : list vinfo) (v : nat) : bool := match vs !! v with Some i => param i | None => false end.
Definition ival_ok (nip : Z) (iv : ivals) : Prop := forall v s e, iv !! v = Some (s, e) -> -1 <= s <= e /\ e <= nip.
Definition cov (vs : list vinfo) (v : nat) (n : Z) (iv : ivals) : Prop :=
  exists s e, iv !! v = Some (s, e) /\ s <= n <= e /\ (0 <= s \/ is_p vs v = true).

Lemma inout1_ok vs nip iv r : 0 <= nip -> ival_ok nip iv ->
  ival_ok nip (inout1 vs nip iv r) /\ length (inout1 vs nip iv r) = length iv /\
  (forall v n, cov vs v n iv -> cov vs v n (inout1 vs nip iv r)) /\
  ((r < length iv)%nat -> cov vs r nip (inout1 vs nip iv r)).
Proof.
  intros H0 Hok. unfold inout1.
  assert (Hat : forall v s e, alter (fun '(s, e) => (if is_p vs r then s else if (s <? 0) || (nip <? s) then nip else s, if e <? nip then nip else e)) r iv !! v = Some (s, e) ->
    exists s0 e0, iv !! v = Some (s0, e0) /\ ((v <> r /\ s = s0 /\ e = e0) \/
      (v = r /\ s = (if is_p vs r then s0 else if (s0 <? 0) || (nip <? s0) then nip else s0) /\ e = if e0 <? nip then nip else e0))).
  { intros v s e Hv. destruct (decide (v = r)) as [->|Hne].
    - rewrite list_lookup_alter in Hv. destruct (iv !! r) as [[s0 e0]|]; [|done]. cbn in Hv. injection Hv as <- <-. exists s0, e0. split; [done|]. by right.
    - rewrite list_lookup_alter_ne in Hv by done. exists s, e. split; [done|]. by left. }
  fold (is_p vs r). split; [|split; [apply alter_length|split]].
  - intros v s e Hv. destruct (Hat v s e Hv) as (s0 & e0 & E & [(_ & -> & ->)|(_ & -> & ->)]); [by apply (Hok v)|].
    specialize (Hok v s0 e0 E). destruct (is_p vs r), (Z.ltb_spec e0 nip), (Z.ltb_spec s0 0), (Z.ltb_spec nip s0); cbn; lia.
  - intros v n (s & e & E & Hn & Hp). destruct (decide (v = r)) as [->|Hne].
    + unfold cov. setoid_rewrite list_lookup_alter. rewrite E. cbn. specialize (Hok r s e E).
      eexists _, _. split; [done|]. destruct (is_p vs r) eqn:Ep.
      * destruct (Z.ltb_spec e nip); split; try lia; by right.
      * destruct Hp as [Hp|]; [|done]. destruct (Z.ltb_spec e nip), (Z.ltb_spec s 0), (Z.ltb_spec nip s); cbn; lia.
    + exists s, e. rewrite list_lookup_alter_ne by done. done.
  - intros Hr. destruct (lookup_lt_is_Some_2 iv r Hr) as [[s e] E]. unfold cov. setoid_rewrite list_lookup_alter. rewrite E. cbn. specialize (Hok r s e E).
    eexists _, _. split; [done|]. destruct (is_p vs r) eqn:Ep; destruct (Z.ltb_spec e nip), (Z.ltb_spec s 0), (Z.ltb_spec nip s); cbn; try lia; (split; [lia|tauto]).
Qed.
Lemma occur1_ok vs nip iv r : 0 <= nip -> ival_ok nip iv ->
  ival_ok nip (occur1 vs nip iv r) /\ length (occur1 vs nip iv r) = length iv /\
  (forall v n, cov vs v n iv -> cov vs v n (occur1 vs nip iv r)) /\
  ((r < length iv)%nat -> cov vs r nip (occur1 vs nip iv r)).
Proof.
  intros H0 Hok.
  assert (E : occur1 vs nip iv r = inout1 vs nip iv r); [|rewrite E; by apply inout1_ok].
  unfold occur1, inout1. fold (is_p vs r). apply list_eq. intros v. destruct (decide (v = r)) as [->|Hne].
  - rewrite !list_lookup_alter. destruct (iv !! r) as [[s e]|] eqn:E; [|done]. cbn. specialize (Hok r s e E).
    do 2 f_equal. destruct (is_p vs r), (Z.ltb_spec s 0), (Z.ltb_spec nip s); cbn; try done; lia.
  - by rewrite !list_lookup_alter_ne by done.
Qed.
Lemma fold_ok vs nip (f : ivals -> nat -> ivals) : 0 <= nip ->
  (forall iv r, ival_ok nip iv -> ival_ok nip (f iv r) /\ length (f iv r) = length iv /\
    (forall v n, cov vs v n iv -> cov vs v n (f iv r)) /\ ((r < length iv)%nat -> cov vs r nip (f iv r))) ->
  forall rs iv, ival_ok nip iv -> ival_ok nip (foldl f iv rs) /\ length (foldl f iv rs) = length iv /\
    (forall v n, cov vs v n iv -> cov vs v n (foldl f iv rs)) /\
    (forall r, r ∈ rs -> (r < length iv)%nat -> cov vs r nip (foldl f iv rs)).
Proof.
  intros H0 Hf rs. induction rs as [|r rs IH]; intros iv Hok; cbn [foldl].
  - split; [done|]. split; [done|]. split; [done|]. intros r Hr. by apply elem_of_nil in Hr.
  - destruct (Hf iv r Hok) as (A1 & A2 & A3 & A4). destruct (IH _ A1) as (B1 & B2 & B3 & B4).
    split; [done|]. split; [by rewrite B2|]. split; [by auto|].
    intros x Hx Hlt. apply elem_of_cons in Hx as [->|Hx]; [by apply B3, A4|]. apply B4; [done|by rewrite A2].
Qed.
Lemma ival_ok_mono a b iv : a <= b -> ival_ok a iv -> ival_ok b iv.
Proof. intros H Hok v s e Hv. specialize (Hok v s e Hv). lia. Qed.
Lemma check_irs_ok vs l : forall nip iv, 0 <= nip -> ival_ok nip iv ->
  let iv' := check_irs vs nip l iv in
  ival_ok (nip + Z.of_nat (length l)) iv' /\ length iv' = length iv /\ (forall v n, cov vs v n iv -> cov vs v n iv') /\
  (forall j i r, l !! j = Some i -> r ∈ regs_of i -> (r < length iv)%nat -> cov vs r (nip + Z.of_nat j) iv').
Proof.
  induction l as [|i l IH]; intros nip iv H0 Hok; cbn [check_irs length].
  - rewrite Z.add_0_r. split; [done|]. split; [done|]. split; done.
  - destruct (fold_ok vs nip (occur1 vs nip) H0 (fun iv r => occur1_ok vs nip iv r H0) (regs_of i) iv Hok) as (A1 & A2 & A3 & A4).
    destruct (IH (nip + 1) _ ltac:(lia) (ival_ok_mono nip (nip + 1) _ ltac:(lia) A1)) as (B1 & B2 & B3 & B4).
    split; [by replace (nip + Z.of_nat (S (length l))) with (nip + 1 + Z.of_nat (length l)) by lia|].
    split; [by rewrite B2|]. split; [by auto|].
    intros [|j] x r Hx Hr Hlt; cbn in Hx.
    + injection Hx as ->. rewrite Z.add_0_r. apply B3, A4; done.
    + replace (nip + Z.of_nat (S j)) with (nip + 1 + Z.of_nat j) by lia. apply (B4 j x); [done|done|by rewrite A2].
Qed.
Lemma check_bbs_ok vs bbs : forall nip iv, 0 <= nip -> ival_ok nip iv ->
  let iv' := check_bbs vs nip bbs iv in
  (exists n, ival_ok n iv') /\ length iv' = length iv /\ (forall v n, cov vs v n iv -> cov vs v n iv') /\
  (forall b rb, bbs !! b = Some rb -> 
    let k := nip + Z.of_nat (length (code (take b bbs))) in
    (forall r, r ∈ rin rb -> (r < length iv)%nat -> cov vs r k iv') /\
    (forall r, r ∈ rout rb -> (r < length iv)%nat -> cov vs r (k + count rb) iv') /\
    (forall j i r, rirs rb !! j = Some i -> r ∈ regs_of i -> (r < length iv)%nat -> cov vs r (k + Z.of_nat j) iv')).
Proof.
  induction bbs as [|x bbs IH]; intros nip iv H0 Hok; cbn [check_bbs].
  - split; [by exists nip|]. split; [done|]. split; done.
  - destruct (fold_ok vs nip (inout1 vs nip) H0 (fun iv r => inout1_ok vs nip iv r H0) (rin x) iv Hok) as (A1 & A2 & A3 & A4).
    destruct (check_irs_ok vs (rirs x) nip _ H0 A1) as (B1 & B2 & B3 & B4).
    assert (Hc : 0 <= nip + count x) by (unfold count; lia).
    destruct (fold_ok vs (nip + count x) (inout1 vs (nip + count x)) Hc (fun iv r => inout1_ok vs (nip + count x) iv r Hc) (rout x) _ B1) as (C1 & C2 & C3 & C4).
    destruct (IH (nip + count x) _ Hc C1) as (D1 & D2 & D3 & D4).
    split; [done|]. split; [by rewrite D2, C2, B2, A2|]. split; [by auto|].
    intros [|b] rb Hb; cbn in Hb.
    + injection Hb as ->. cbn [take]. unfold code. cbn [fmap list_fmap concat length]. cbn zeta. rewrite Z.add_0_r.
      split; [by auto|]. split; [|intros j i r Hj Hr Hlt; apply D3, C3, (B4 j i r Hj Hr); by rewrite A2].
      intros r Hr Hlt. apply D3, C4; [done|]. by rewrite B2, A2.
    + specialize (D4 b rb Hb). cbn zeta in *. rewrite !C2, !B2, !A2 in D4.
      replace (nip + Z.of_nat (length (code (take (S b) (x :: bbs))))) with (nip + count x + Z.of_nat (length (code (take b bbs)))); [done|].
      unfold code. cbn [take fmap list_fmap concat]. rewrite app_length. unfold count. lia.
Qed.

Lemma intervals_ok vs bbs : let iv := check_live_interval vs bbs in
  (forall v, (v < length vs)%nat -> start_of iv v <= end_of iv v) /\
  length iv = length vs /\
  (forall b rb, bbs !! b = Some rb -> 
    let k := Z.of_nat (length (code (take b bbs))) in
    (forall r, r ∈ rin rb -> (r < length vs)%nat -> start_of iv r <= k <= end_of iv r) /\
    (forall r, r ∈ rout rb -> (r < length vs)%nat -> start_of iv r <= k + count rb <= end_of iv r) /\
    (forall j i r, rirs rb !! j = Some i -> r ∈ regs_of i -> (r < length vs)%nat -> start_of iv r <= k + Z.of_nat j <= end_of iv r)).
Proof.
  unfold check_live_interval.
  destruct (check_bbs_ok vs bbs 0 (replicate (length vs) (-1, -1))) as ((n & H1) & H2 & _ & H3); [done| |].
  { intros v s e Hv. apply lookup_replicate in Hv as [[= -> ->] _]. lia. }
  rewrite replicate_length in H2, H3. cbn zeta.
  assert (Hcov : forall v m, cov vs v m (check_bbs vs 0 bbs (replicate (length vs) (-1, -1))) ->
    start_of (check_bbs vs 0 bbs (replicate (length vs) (-1, -1))) v <= m <= end_of (check_bbs vs 0 bbs (replicate (length vs) (-1, -1))) v).
  { intros v m (s & e & E & Hm & _). unfold start_of, end_of. by rewrite E. }
  split; [|split; [done|]].
  - intros v Hv. unfold start_of, end_of. destruct (lookup_lt_is_Some_2 _ v ltac:(by rewrite H2)) as [[s e] E]. rewrite E. specialize (H1 v s e E). lia.
  - intros b rb Hb. destruct (H3 b rb Hb) as (A1 & A2 & A3). rewrite Z.add_0_l in *. split; [by auto|]. split; [by auto|]. intros j i r Hj Hr Hlt. apply Hcov. by apply (A3 j i).
Qed.
Lemma param_start vs bbs v : is_p vs v = true -> start_of (check_live_interval vs bbs) v < 0.
Proof.
  intros Hp. unfold check_live_interval.
  assert (H : forall l nip iv, start_of iv v < 0 -> start_of (foldl (inout1 vs nip) iv l) v < 0).
  { induction l as [|r l IH]; intros nip iv H; cbn; [done|]. apply IH. unfold inout1, start_of in *. fold (is_p vs r). destruct (decide (v = r)) as [->|Hne].
    - rewrite list_lookup_alter. destruct (iv !! r) as [[s e]|]; [|done]. cbn. by rewrite Hp.
    - by rewrite list_lookup_alter_ne. }
  assert (H' : forall l nip iv, start_of iv v < 0 -> start_of (foldl (occur1 vs nip) iv l) v < 0).
  { induction l as [|r l IH]; intros nip iv H1; cbn; [done|]. apply IH. unfold occur1, start_of in *. fold (is_p vs r). destruct (decide (v = r)) as [->|Hne].
    - rewrite list_lookup_alter. destruct (iv !! r) as [[s e]|]; [|done]. cbn. rewrite Hp. cbn. by rewrite andb_false_r.
    - by rewrite list_lookup_alter_ne. }
  assert (H'' : forall l nip iv, start_of iv v < 0 -> start_of (check_irs vs nip l iv) v < 0).
  { induction l as [|r l IH]; intros nip iv H1; cbn; [done|]. apply IH. by apply H'. }
  assert (H3 : forall l nip iv, start_of iv v < 0 -> start_of (check_bbs vs nip l iv) v < 0).
  { induction l as [|r l IH]; intros nip iv H1; cbn; [done|]. apply IH, H, H'', H. done. }
  apply H3. unfold start_of. destruct (replicate (length vs) (-1, -1) !! v) as [[s e]|] eqn:E; [|done]. apply lookup_replicate in E as [[= -> ->] _]. done.
Qed.

(** Occupied registers. *)
Section occ.
  Context (se : settings) (vs : list vinfo) (iv : ivals) (all : list rir).
  Local Notation st := (start_of iv).
  Local Notation en := (end_of iv).
  Local Notation fl := (flo_of vs).

  Lemma occupy_len act i f occ : length (occupy vs act i f occ) = length occ.
  Proof. unfold occupy. revert occ. induction act as [|v act IH]; intros occ; cbn; [done|]. by rewrite IH, alter_length. Qed.
  Lemma occupy_ok act i f occ v r : (v < length occ)%nat ->
    N.testbit (occ_of (occupy vs act i f occ) v) r = true <->
    N.testbit (occ_of occ v) r = true \/ (v ∈ act /\ N.testbit (if fl v then f else i) r = true).
  Proof.
    unfold occupy. revert occ. induction act as [|u act IH]; intros occ Hv; cbn [foldl].
    - split; [by left|]. intros [?|[H _]]; [done|by apply elem_of_nil in H].
    - rewrite IH by (by rewrite alter_length). rewrite elem_of_cons. unfold occ_of.
      destruct (decide (v = u)) as [->|Hne].
      + rewrite list_lookup_alter. destruct (lookup_lt_is_Some_2 occ u Hv) as [o ->]. cbn. rewrite N.lor_spec, orb_true_iff. tauto.
      + rewrite list_lookup_alter_ne by done. tauto.
  Qed.

  Definition act_at (n : Z) (v : nat) : Prop :=
    (v < length vs)%nat /\ 0 <= en v /\ st v < n /\ (n <= en v \/ n <= st v + 1).
  Definition event (n : nat) (v : nat) (r : N) : Prop :=
    exists i, all !! n = Some i /\ act_at (Z.of_nat n) v /\
    ((fl v = false /\ N.testbit (rextra i) r = true) \/ arg_taken se all n (fl v) (N.to_nat r) \/
     (reff i = Call /\ Z.of_nat n < en v /\ (N.to_nat r < if fl v then ftemporary se else temporary se)%nat)).
  Record dinv (n : nat) (d : dstate) : Prop := {
    di_act : forall v, v ∈ actives d <-> act_at (Z.of_nat n) v;
    di_in : forall v, v ∈ inactives d <-> (v < length vs)%nat /\ 0 <= en v /\ Z.of_nat n <= st v;
    di_sort : StronglySorted (before iv) (inactives d);
    di_iarg : forall r, N.testbit (iarg d) r = true <-> arg_taken se all n false (N.to_nat r);
    di_farg : forall r, N.testbit (farg d) r = true <-> arg_taken se all n true (N.to_nat r);
    di_len : length (docc d) = length vs;
    di_occ : forall v r, (v < length vs)%nat -> N.testbit (occ_of (docc d) v) r = true <-> exists m, (m < n)%nat /\ event m v r;
  }.

  Lemma activate_ok nip l : StronglySorted (before iv) l -> forall act,
    let p := activate iv nip l act in
    (forall v, v ∈ p.2 <-> v ∈ act \/ (v ∈ l /\ st v <= nip)) /\ (forall v, v ∈ p.1 <-> v ∈ l /\ nip < st v) /\ StronglySorted (before iv) p.1.
  Proof.
    induction 1 as [|v l Hs IH Hf]; intros act; cbn [activate].
    - cbn. split; [|split; [|constructor]]; intros v; [split; [by left|intros [?|[H _]]; [done|by apply elem_of_nil in H]]|].
      split; [intros H; by apply elem_of_nil in H|intros [H _]; by apply elem_of_nil in H].
    - destruct (nip <? st v) eqn:E.
      + apply Z.ltb_lt in E. cbn [fst snd].
        assert (Hall : forall x, x ∈ v :: l -> nip < st x).
        { intros x Hx. apply elem_of_cons in Hx as [->|Hx]; [done|]. assert (before iv v x) as [?|[? _]] by (by apply (proj1 (stdpp.list.Forall_forall _ _) Hf)); lia. }
        split; [|split; [|by constructor]]; intros x.
        * split; [by left|]. intros [?|[Hx Hle]]; [done|]. specialize (Hall x Hx). lia.
        * split; [intros Hx; split; [done|by apply Hall]|by intros [? _]].
      + apply Z.ltb_ge in E. destruct (IH (act ++ [v])) as (A1 & A2 & A3). cbn zeta. split; [|split; [|done]]; intros x.
        * rewrite A1, elem_of_app, elem_of_list_singleton, elem_of_cons. split; [|intros [?|[[->|?] ?]]; tauto].
          intros [[?| ->]|?]; tauto.
        * rewrite A2, elem_of_cons. split; [tauto|]. intros [[->|?] ?]; [lia|done].
  Qed.

  Lemma arg_step n i c r : all !! n = Some i -> arg_taken se all (S n) c r <->
    ((reff i <> Call /\ arg_taken se all n c r) \/ (exists idx, reff i = Pusharg c idx /\ arg_reg se c idx = Some r)).
  Proof.
    intros Hi. split.
    - intros (k & x & idx & Hk & Hx & He & Hr & Hc). destruct (decide (k = n)) as [->|Hne].
      + right. exists idx. split; [|done]. congruence.
      + left. split; [apply (Hc n); [lia|done]|]. exists k, x, idx. split; [lia|]. repeat (split; [done|]). intros k' i' Hk'. apply Hc. lia.
    - intros [[Hn (k & x & idx & Hk & Hx & He & Hr & Hc)]|(idx & He & Hr)].
      + exists k, x, idx. split; [lia|]. repeat (split; [done|]). intros k' i' Hk' Hi'. destruct (decide (k' = n)) as [->|Hne]; [by replace i' with i by congruence|].
        apply (Hc k'); [lia|done].
      + exists n, i, idx. split; [lia|]. repeat (split; [done|]). intros k' i' Hk'. lia.
  Qed.

  Lemma detect_ir_ok n i d : all !! n = Some i -> dinv n d -> dinv (S n) (detect_ir se vs iv (Z.of_nat n) i d).
  Proof.
    intros Hi D. unfold detect_ir.
    set (act := filter (fun v => Z.of_nat n < en v) (actives d)).
    pose proof (activate_ok (Z.of_nat n) (inactives d) (di_sort _ _ D) act) as (A1 & A2 & A3).
    destruct (activate iv (Z.of_nat n) (inactives d) act) as [inact act'] eqn:E. cbn [fst snd] in A1, A2, A3.
    assert (Hact : forall v, v ∈ act <-> Z.of_nat n < en v /\ act_at (Z.of_nat n) v).
    { intros v. unfold act. rewrite elem_of_list_filter, (di_act _ _ D). done. }
    split; cbn [actives inactives iarg farg docc].
    - intros v. rewrite A1, Hact, (di_in _ _ D). unfold act_at. lia.
    - intros v. rewrite A2, (di_in _ _ D). lia.
    - done.
    - intros r. rewrite (arg_step n i false (N.to_nat r) Hi). destruct (reff i) as [|[] idx|] eqn:Er.
      + rewrite (di_iarg _ _ D). split; [by left|]. intros [[_ ?]|(? & ? & _)]; done.
      + rewrite (di_iarg _ _ D). split; [by left|]. intros [[_ ?]|(? & ? & _)]; done.
      + unfold arg_reg. destruct (mapping se idx) as [q|] eqn:Em.
        * rewrite N.setbit_iff, (di_iarg _ _ D). split.
          -- intros [<-|?]; [right; exists idx; split; [done|]; by rewrite Nat2N.id|by left].
          -- intros [[_ ?]|(x & [= <-] & Hx)]; [by right|]. left. rewrite Em in Hx. injection Hx as ->. by rewrite N2Nat.id.
        * rewrite (di_iarg _ _ D). split; [by left|]. intros [[_ ?]|(x & [= <-] & Hx)]; [done|congruence].
      + rewrite N.bits_0. split; [done|]. intros [[? _]|(? & ? & _)]; done.
    - intros r. rewrite (arg_step n i true (N.to_nat r) Hi). destruct (reff i) as [|[] idx|] eqn:Er.
      + rewrite (di_farg _ _ D). split; [by left|]. intros [[_ ?]|(? & ? & _)]; done.
      + unfold arg_reg. rewrite N.setbit_iff, (di_farg _ _ D). split.
        * intros [<-|?]; [right; exists idx; split; [done|]; by rewrite Nat2N.id|by left].
        * intros [[_ ?]|(x & [= <-] & [= Hx])]; [by right|]. left. rewrite Hx. by rewrite N2Nat.id.
      + rewrite (di_farg _ _ D). split; [by left|]. intros [[_ ?]|(? & ? & _)]; done.
      + rewrite N.bits_0. split; [done|]. intros [[? _]|(? & ? & _)]; done.
    - destruct (reff i); rewrite ?occupy_len; apply (di_len _ _ D).
    - intros v r Hv. pose proof (di_len _ _ D) as Hlen.
      assert (Hev : (exists m, (m < S n)%nat /\ event m v r) <-> (exists m, (m < n)%nat /\ event m v r) \/ event n v r).
      { split.
        - intros (m & Hm & He). destruct (decide (m = n)) as [->|Hne]; [by right|]. left. exists m. split; [lia|done].
        - intros [(m & Hm & He)|He]; [exists m; split; [lia|done]|exists n; split; [lia|done]]. }
      rewrite Hev, <- (di_occ _ _ D v r Hv).
      assert (Hargs : N.testbit (if fl v then farg d else iarg d) r = true <-> arg_taken se all n (fl v) (N.to_nat r)).
      { destruct (fl v); [apply (di_farg _ _ D)|apply (di_iarg _ _ D)]. }
      assert (Hev' : event n v r <-> (v ∈ actives d /\ N.testbit (if fl v then 0%N else rextra i) r = true) \/
        (v ∈ actives d /\ N.testbit (if fl v then farg d else iarg d) r = true) \/
        (reff i = Call /\ v ∈ act /\ N.testbit (if fl v then N.ones (N.of_nat (ftemporary se)) else N.ones (N.of_nat (temporary se))) r = true)).
      { unfold event. rewrite Hargs, (di_act _ _ D), Hact.
        assert (Hones : forall t, N.testbit (N.ones (N.of_nat t)) r = true <-> (N.to_nat r < t)%nat).
        { intros t. rewrite N.ones_spec_iff. lia. }
        destruct (fl v).
        - rewrite N.bits_0, Hones. split.
          + intros (x & Hx & Ha & [[? _]|[?|(? & ? & ?)]]); [done|tauto|]. assert (x = i) as -> by congruence. tauto.
          + intros [[_ ?]|[?|(? & ? & ?)]]; [done|exists i; tauto|exists i; tauto].
        - rewrite Hones. split.
          + intros (x & Hx & Ha & H). assert (x = i) as -> by congruence. tauto.
          + intros H. exists i. tauto. }
      rewrite Hev'. destruct (reff i) eqn:Er; rewrite !occupy_ok by (rewrite ?occupy_len; lia); intuition congruence.
  Qed.
  Lemma detect_irs_ok l : forall n d, (forall j i, l !! j = Some i -> all !! (n + j)%nat = Some i) -> dinv n d ->
    dinv (n + length l) (detect_irs se vs iv (Z.of_nat n) l d).
  Proof.
    induction l as [|i l IH]; intros n d Hl D; cbn [detect_irs length]; [by rewrite Nat.add_0_r|].
    replace (n + S (length l))%nat with (S n + length l)%nat by lia. replace (Z.of_nat n + 1) with (Z.of_nat (S n)) by lia.
    apply IH; [|apply detect_ir_ok; [by rewrite <- (Nat.add_0_r n); apply (Hl 0%nat)|done]].
    intros j x Hx. replace (S n + j)%nat with (n + S j)%nat by lia. by apply Hl.
  Qed.
  Lemma detect_irs_app nip l1 l2 d : detect_irs se vs iv nip (l1 ++ l2) d = detect_irs se vs iv (nip + Z.of_nat (length l1)) l2 (detect_irs se vs iv nip l1 d).
  Proof.
    revert nip d. induction l1 as [|i l1 IH]; intros nip d; cbn [detect_irs app length]; [by rewrite Z.add_0_r|].
    rewrite IH. f_equal. lia.
  Qed.
End occ.

Lemma detect_bbs_code se vs iv bbs : forall nip d, detect_bbs se vs iv nip bbs d = detect_irs se vs iv nip (code bbs) d.
Proof.
  induction bbs as [|b bbs IH]; intros nip d; cbn [detect_bbs]; [done|].
  unfold code. cbn [fmap list_fmap concat]. rewrite detect_irs_app. apply IH.
Qed.

Lemma ss_filter {A} (R : A -> A -> Prop) (P : A -> Prop) `{!forall x, Decision (P x)} l : StronglySorted R l -> StronglySorted R (filter P l).
Proof.
  induction 1 as [|x l Hs IH Hf]; [constructor|]. rewrite filter_cons. case_decide; [|done]. constructor; [done|].
  apply stdpp.list.Forall_forall. intros y Hy. apply elem_of_list_filter in Hy as [_ Hy]. by apply (proj1 (stdpp.list.Forall_forall _ _) Hf).
Qed.
Lemma flags_ok se vs iv bbs v r : (v < length vs)%nat ->
  N.testbit (occ_of (detect_flags se vs iv bbs) v) r = true <-> exists m, (m < length (code bbs))%nat /\ event se vs iv (code bbs) m v r.
Proof.
  intros Hv. unfold detect_flags. rewrite detect_bbs_code.
  destruct (sorted_ok vs iv) as [Hs Hp].
  assert (Hin : forall x, x ∈ sorted_intervals vs iv <-> (x < length vs)%nat).
  { intros x. rewrite (elem_of_Permutation_proper x _ _ Hp), elem_of_list_In, in_seq. lia. }
  match goal with |- context [detect_irs se vs iv 0 _ ?d0] => set (d := d0) end.
  assert (D : dinv se vs iv (code bbs) 0 d).
  { split; cbn [d actives inactives iarg farg docc].
    - intros x. rewrite !elem_of_list_filter, Hin. unfold act_at. lia.
    - intros x. rewrite !elem_of_list_filter, Hin. lia.
    - by do 2 apply ss_filter.
    - intros x. rewrite N.bits_0. split; [done|]. intros (k & ? & ? & ? & _). lia.
    - intros x. rewrite N.bits_0. split; [done|]. intros (k & ? & ? & ? & _). lia.
    - apply replicate_length.
    - intros x y Hx. unfold occ_of. rewrite lookup_replicate_2 by done. cbn. split; [done|]. intros (m & ? & _). lia. }
  apply (detect_irs_ok se vs iv (code bbs) (code bbs) 0 d) in D; [|done]. rewrite (di_occ _ _ _ _ _ _ D v r Hv). done.
Qed.
Lemma flags_mono se vs bbs : let iv := check_live_interval vs bbs in forall u v r, flo_of vs u = flo_of vs v ->
  start_of iv u <= start_of iv v -> end_of iv v < end_of iv u ->
  N.testbit (occ_of (detect_flags se vs iv bbs) v) r = true -> N.testbit (occ_of (detect_flags se vs iv bbs) u) r = true.
Proof.
  cbn zeta. intros u v r Hf Hs He H. destruct (intervals_ok vs bbs) as (Hle & Hlen & _). cbn zeta in Hle, Hlen.
  assert (Hlv : forall w, (length vs <= w)%nat -> end_of (check_live_interval vs bbs) w = -1).
  { intros w Hw. unfold end_of. by rewrite lookup_ge_None_2 by lia. }
  assert (Hlen' : length (detect_flags se vs (check_live_interval vs bbs) bbs) = length vs).
  { unfold detect_flags. rewrite detect_bbs_code.
    assert (Hl : forall l nip d, length (docc (detect_irs se vs (check_live_interval vs bbs) nip l d)) = length (docc d)).
    { induction l as [|i l IH]; intros nip d; cbn [detect_irs]; [done|]. rewrite IH. unfold detect_ir.
      destruct (activate _ _ _ _). cbn. destruct (reff i); by rewrite !occupy_len. }
    rewrite Hl. cbn. apply replicate_length. }
  assert (Hv : (v < length vs)%nat).
  { destruct (decide (v < length vs)%nat); [done|]. unfold occ_of in H. rewrite lookup_ge_None_2 in H by lia. cbn in H. by rewrite ?N.bits_0 in H. }
  apply flags_ok in H as (m & Hm & i & Hi & (A1 & A2 & A3 & A4) & E); [|done].
  assert (Hu : (u < length vs)%nat).
  { destruct (decide (u < length vs)%nat); [done|]. specialize (Hlv u ltac:(lia)). lia. }
  apply flags_ok; [done|]. exists m. split; [done|]. exists i. split; [done|]. specialize (Hle v Hv). split.
  - split; [done|]. lia.
  - rewrite Hf. destruct E as [E|[E|(E1 & E2 & E3)]]; [by left|by right; left|]. right. right. split; [done|]. split; [lia|done].
Qed.
