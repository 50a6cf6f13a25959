From stdpp Require Import base list numbers gmap.
From Coq Require Import Lia.
From Verif Require Import Util.Table_model Util.Mem Util.Table_proof Util.Name_model Util.Name_proof.
From Verif Require Import As.Strtab_model As.Strtab_spec.

Lemma of_to_ptr o : of_ptr (to_ptr o) = Some o.
Proof. destruct o; [done|]. unfold to_ptr, of_ptr. rewrite Nat2N.id. done. Qed.

Section Names.
Context (hash : N -> N) (chars : N -> list N).
Local Notation img := (image chars).

Lemma img_app a b : img (a ++ b) = img a ++ img b.
Proof. unfold image. apply bind_app. Qed.
Lemma img_one k : img [k] = chars k ++ [0%N].
Proof. unfold image. cbn. rewrite app_nil_r. done. Qed.

Record sinv (s : strtab) (ord : list N) : Prop := {
  si_m : exists m, tinv hash (offsets s) m /\
    (forall k v, m !! k = Some v <-> exists pre post, ord = pre ++ k :: post /\ v = to_ptr (length (img pre)));
  si_nd : NoDup ord;
  si_size : size s = length (img ord) }.

Lemma sinv_init : sinv strtab_init [].
Proof.
  split; [|constructor|done]. exists ∅. split; [apply tinv_init|].
  intros k v. rewrite lookup_empty. split; [done|]. intros (pre & post & H & _).
  destruct pre; done.
Qed.

Lemma nodup_split (k : N) a b a' b' : NoDup (a ++ k :: b) -> a ++ k :: b = a' ++ k :: b' -> a = a'.
Proof.
  revert a'. induction a as [|x a IH]; intros [|y a'] Hn He; cbn in *; [done| | |].
  - injection He as <- ->. apply stdpp.list.NoDup_cons in Hn as [Hn _]. set_solver.
  - injection He as -> <-. apply stdpp.list.NoDup_cons in Hn as [Hn _]. set_solver.
  - injection He as <- He. apply stdpp.list.NoDup_cons in Hn as [_ Hn]. f_equal. eauto.
Qed.

Definition add1 (ord : list N) (k : N) := if decide (k ∈ ord) then ord else ord ++ [k].

Lemma add_ok s ord k : sinv s ord ->
  exists s' o pre post, strtab_add hash chars s k = Some (s', o) /\ sinv s' (add1 ord k) /\
    add1 ord k = pre ++ k :: post /\ o = length (img pre).
Proof.
  intros [(m & Ht & Hm) Hnd Hsz]. unfold strtab_add.
  rewrite (table_try_get_ok hash _ m _ Ht). cbn [mbind option_bind].
  destruct (m !! k) as [v|] eqn:E.
  - apply Hm in E as (pre & post & -> & ->). rewrite of_to_ptr. cbn [mbind option_bind].
    unfold add1. rewrite decide_True by set_solver.
    exists s, (length (img pre)), pre, post. split; [done|]. split; [|done].
    split; [|done|done]. exists m. done.
  - assert (k ∉ ord) as Hk.
    { intros Hk. apply elem_of_list_split in Hk as (pre & post & ->).
      assert (m !! k = Some (to_ptr (length (img pre)))) as E'; [|congruence].
      apply Hm. eauto. }
    destruct (table_put_ok hash _ m k (to_ptr (size s)) Ht) as (t' & Hp & Ht').
    rewrite Hp. cbn [mbind option_bind]. unfold add1. rewrite decide_False by done.
    eexists _, _, ord, []. split; [done|]. split; [|done]. split.
    + exists (<[k := to_ptr (size s)]> m). split; [done|]. intros j v.
      rewrite lookup_insert_Some. split.
      * intros [[<- <-]|[Hj Hv]].
        -- exists ord, []. split; [done|]. congruence.
        -- apply Hm in Hv as (pre & post & -> & ->). exists pre, (post ++ [k]).
           rewrite <- app_assoc. done.
      * intros (pre & post & He & ->).
        destruct (decide (k = j)) as [<-|Hj].
        -- left. split; [done|]. rewrite Hsz. do 2 f_equal. f_equal.
           eapply nodup_split; [|exact He]. apply stdpp.list.NoDup_app. split; [done|].
           split; [set_solver|]. apply NoDup_singleton.
        -- right. split; [done|]. apply Hm.
           destruct post as [|z post _] using rev_ind.
           { apply app_inj_tail in He as [_ ->]. done. }
           rewrite app_comm_cons, app_assoc in He. apply app_inj_tail in He as [-> _]. eauto.
    + apply stdpp.list.NoDup_app. split; [done|]. split; [set_solver|]. apply NoDup_singleton.
    + cbn [size]. rewrite img_app, img_one, !app_length, Hsz. cbn [length]. lia.
Qed.

Lemma add1_prefix ord k : exists e, add1 ord k = ord ++ e.
Proof. unfold add1. destruct (decide _); [exists []; rewrite app_nil_r|exists [k]]; done. Qed.
Lemma foldl_prefix ks : forall ord, exists e, foldl add1 ord ks = ord ++ e.
Proof.
  induction ks as [|k ks IH]; intros ord; cbn; [exists []; rewrite app_nil_r; done|].
  destruct (IH (add1 ord k)) as [e ->]. destruct (add1_prefix ord k) as [e' ->].
  exists (e' ++ e). rewrite app_assoc. done.
Qed.

Lemma adds_ok ks : forall s ord, sinv s ord ->
  exists s' os, strtab_adds hash chars s ks = Some (s', os) /\ sinv s' (foldl add1 ord ks) /\
    length os = length ks /\
    forall i k o, ks !! i = Some k -> os !! i = Some o -> exists pre post,
      foldl add1 ord ks = pre ++ k :: post /\ o = length (img pre).
Proof.
  induction ks as [|k ks IH]; intros s ord Hi; cbn [strtab_adds].
  - exists s, []. split; [done|]. split; [done|]. split; [done|]. intros i k o H. done.
  - destruct (add_ok s ord k Hi) as (s1 & o & pre & post & -> & Hi1 & Hsplit & Ho).
    cbn [mbind option_bind]. destruct (IH s1 _ Hi1) as (s2 & os & -> & Hi2 & Hl & Hp).
    cbn [mbind option_bind foldl]. exists s2, (o :: os). split; [done|]. split; [done|].
    split; [cbn; lia|]. intros [|i] k' o' Hk Hos; cbn in Hk, Hos.
    + injection Hk as <-. injection Hos as <-.
      destruct (foldl_prefix ks (add1 ord k)) as [e ->]. rewrite Hsplit.
      exists pre, (post ++ e). rewrite <- app_assoc. done.
    + eauto.
Qed.

(** ** The dump *)
Section Dump.
Context (im : list N).
Definition good (buf : list (option N)) : Prop :=
  length buf = length im /\ forall i b, buf !! i = Some (Some b) -> im !! i = Some b.
Definition filled (buf : list (option N)) (i : nat) : Prop := exists b, buf !! i = Some (Some b).

Lemma splice_good buf o seg : good buf -> (forall j b, seg !! j = Some b -> im !! (o + j) = Some b) ->
  o + length seg <= length im ->
  exists buf', splice buf o (Some <$> seg) = Some buf' /\ good buf' /\
    (forall i, filled buf i -> filled buf' i) /\ (forall i, o <= i < o + length seg -> filled buf' i).
Proof.
  intros [Hl Hg] Hs Ho. unfold splice. rewrite fmap_length, decide_True by lia.
  eexists. split; [reflexivity|].
  assert (forall i, (take o buf ++ (Some <$> seg) ++ drop (o + length seg) buf) !! i =
    if decide (o <= i < o + length seg) then Some <$> (seg !! (i - o)) else buf !! i) as Hlk.
  { intros i. destruct (decide (i < o)) as [Hi|Hi].
    - rewrite lookup_app_l, lookup_take by (rewrite ?take_length; lia).
      rewrite decide_False by lia. done.
    - rewrite lookup_app_r by (rewrite take_length; lia). rewrite take_length.
      replace (o `min` length buf) with o by lia.
      destruct (decide (i < o + length seg)) as [Hj|Hj].
      + rewrite lookup_app_l by (rewrite fmap_length; lia). rewrite decide_True by lia.
        rewrite list_lookup_fmap. done.
      + rewrite lookup_app_r by (rewrite fmap_length; lia). rewrite decide_False by lia.
        rewrite fmap_length, lookup_drop. f_equal. lia. }
  assert (forall i, o <= i < o + length seg -> exists b, seg !! (i - o) = Some b) as Hin.
  { intros i Hi. apply lookup_lt_is_Some. lia. }
  split; [split|split].
  - rewrite !app_length, take_length, fmap_length, drop_length. lia.
  - intros i b. rewrite Hlk. destruct (decide _) as [Hi|Hi]; [|apply Hg].
    intros Hb. destruct (seg !! (i - o)) as [b'|] eqn:E; cbn in Hb; [|done]. injection Hb as ->.
    specialize (Hs _ _ E). replace (o + (i - o)) with i in Hs by lia. done.
  - intros i [b Hb]. unfold filled. rewrite Hlk. destruct (decide _) as [Hi|Hi]; [|eauto].
    destruct (Hin _ Hi) as [b' ->]. cbn. eauto.
  - intros i Hi. unfold filled. rewrite Hlk, decide_True by done.
    destruct (Hin _ Hi) as [b' ->]. cbn. eauto.
Qed.
End Dump.

Lemma dump_one_ok ord pre k post buf : ord = pre ++ k :: post -> good (img ord) buf ->
  exists buf', dump_one chars buf (k, to_ptr (length (img pre))) = Some buf' /\ good (img ord) buf' /\
    (forall i, filled buf i -> filled buf' i) /\
    (forall i, length (img pre) <= i < length (img pre) + (length (chars k) + 1) -> filled buf' i).
Proof.
  intros Hord Hg. unfold dump_one. cbn [snd fst]. rewrite of_to_ptr. cbn [mbind option_bind].
  assert (img ord = img pre ++ (chars k ++ [0%N]) ++ img post) as Him.
  { rewrite Hord, cons_middle, img_app, img_app, img_one. done. }
  assert (length (img ord) >= length (img pre) + (length (chars k) + 1)) as Hlen.
  { rewrite Him, !app_length. cbn [length]. lia. }
  edestruct (splice_good (img ord) buf (length (img pre)) (chars k) Hg) as (b1 & -> & Hg1 & Hf1 & Hc1).
  { intros j b Hb. rewrite Him, lookup_app_r by lia.
    replace (length (img pre) + j - length (img pre)) with j by lia.
    assert (j < length (chars k)) by (eapply lookup_lt_Some; exact Hb).
    rewrite lookup_app_l by (rewrite app_length; cbn; lia).
    rewrite lookup_app_l by lia. done. }
  { lia. }
  cbn [mbind option_bind].
  edestruct (splice_good (img ord) b1 (length (img pre) + length (chars k)) [0%N] Hg1)
    as (b2 & Hs & Hg2 & Hf2 & Hc2).
  { intros j b Hb. apply list_lookup_singleton_Some in Hb as [-> <-].
    rewrite Him, lookup_app_r by lia.
    rewrite lookup_app_l by (rewrite app_length; cbn; lia).
    rewrite lookup_app_r by lia.
    replace (_ - _ - _) with 0 by lia. done. }
  { cbn [length]. lia. }
  cbn [fmap list_fmap] in Hs. rewrite Hs. exists b2. split; [done|]. split; [done|].
  split; [eauto|]. intros i Hi. cbn [length] in Hc2.
  destruct (decide (i < length (img pre) + length (chars k))).
  - apply Hf2, Hc1. lia.
  - apply Hc2. lia.
Qed.

Lemma dump_loop_ok ord l : forall buf, good (img ord) buf ->
  (forall k v, (k, v) ∈ l -> exists pre post, ord = pre ++ k :: post /\ v = to_ptr (length (img pre))) ->
  exists buf', dump_loop chars buf l = Some buf' /\ good (img ord) buf' /\
    (forall i, filled buf i -> filled buf' i) /\
    (forall k v pre post, (k, v) ∈ l -> ord = pre ++ k :: post -> NoDup ord -> forall i,
      length (img pre) <= i < length (img pre) + (length (chars k) + 1) -> filled buf' i).
Proof.
  induction l as [|[k v] l IH]; intros buf Hg Hl; cbn [dump_loop].
  - exists buf. split; [done|]. split; [done|]. split; [done|]. intros k v pre post H.
    apply elem_of_nil in H. done.
  - destruct (Hl k v) as (pre & post & Hord & Hv); [set_solver|].
    destruct (dump_one_ok ord pre k post buf Hord Hg) as (b1 & E1 & Hg1 & Hf1 & Hc1).
    rewrite Hv, E1. cbn [mbind option_bind].
    destruct (IH b1 Hg1) as (b2 & E2 & Hg2 & Hf2 & Hc2); [set_solver|].
    exists b2. split; [done|]. split; [done|]. split; [eauto|].
    intros k' v' pre' post' Hin Hord' Hnd i Hi. apply elem_of_cons in Hin as [Hin|Hin]; [|eauto].
    injection Hin as -> ->. apply Hf2, Hc1.
    rewrite Hord in Hnd. assert (pre = pre') as ->; [|done].
    eapply nodup_split; [exact Hnd|]. rewrite <- Hord; exact Hord'.
Qed.

Lemma in_image ord : forall i, i < length (img ord) -> exists pre k post, ord = pre ++ k :: post /\
  length (img pre) <= i < length (img pre) + (length (chars k) + 1).
Proof.
  induction ord as [|k ord IH] using rev_ind; intros i Hi; [cbn in Hi; lia|].
  rewrite img_app, img_one, !app_length in Hi. cbn [length] in Hi.
  destruct (decide (i < length (img ord))) as [Hlt|Hge].
  - destruct (IH i Hlt) as (pre & k' & post & -> & H). exists pre, k', (post ++ [k]).
    rewrite <- app_assoc. done.
  - exists ord, k, []. split; [done|]. lia.
Qed.

Lemma dump_ok s ord : sinv s ord -> strtab_dump chars s = Some (Some <$> img ord).
Proof.
  intros [(m & Ht & Hm) Hnd Hsz]. unfold strtab_dump.
  assert (ainv hash (entries (offsets s)) (capacity (offsets s)) m) as Ha by apply Ht.
  rewrite (iterate_all_ok (offsets s)); [|apply Ht|lia|lia]. cbn [mbind option_bind].
  rewrite drop_0. destruct (live_pairs_perm hash _ _ _ Ha) as [_ Hp].
  set (l := live_pairs _) in *.
  assert (forall k v, (k, v) ∈ l <-> m !! k = Some v) as Hl.
  { intros k v. rewrite Hp. apply elem_of_map_to_list. }
  edestruct (dump_loop_ok ord l (replicate (size s) None)) as (buf & -> & [Hlen Hg] & _ & Hc).
  { split; [rewrite replicate_length; done|]. intros i b Hb.
    apply lookup_replicate in Hb as [? _]. done. }
  { intros k v Hin. apply Hm, Hl. done. }
  f_equal. apply list_eq. intros i. rewrite list_lookup_fmap.
  destruct (img ord !! i) as [b|] eqn:E; cbn.
  - assert (i < length (img ord)) as Hi by (eapply lookup_lt_Some; done).
    destruct (in_image ord i Hi) as (pre & k & post & Hord & Hr).
    destruct (Hc k (to_ptr (length (img pre))) pre post) with (i := i) as [b' Hb']; [|done|done|done|].
    { apply Hl, Hm. eauto. }
    rewrite Hb'. apply Hg in Hb'. congruence.
  - apply lookup_ge_None in E. apply lookup_ge_None. lia.
Qed.

Lemma strtab_ok names : exists s os,
  strtab_adds hash chars strtab_init names = Some (s, os) /\ length os = length names /\
  strtab_dump chars s = Some (Some <$> img (firsts names)) /\ size s = length (img (firsts names)) /\
  (forall i n o, names !! i = Some n -> os !! i = Some o ->
    exists rest, drop o (img (firsts names)) = chars n ++ 0%N :: rest) /\
  (forall i j n o o', names !! i = Some n -> names !! j = Some n ->
    os !! i = Some o -> os !! j = Some o' -> o = o').
Proof.
  destruct (adds_ok names strtab_init [] sinv_init) as (s & os & E & Hi & Hl & Hp).
  exists s, os. split; [done|]. split; [done|].
  change (foldl add1 [] names) with (firsts names) in *.
  split; [apply dump_ok; done|]. split; [apply Hi|]. split.
  - intros i n o Hn Ho. destruct (Hp i n o Hn Ho) as (pre & post & -> & ->).
    exists (img post). rewrite cons_middle, img_app, img_app, img_one.
    rewrite drop_app, <- app_assoc. done.
  - intros i j n o o' H1 H2 H3 H4. destruct (Hp i n o H1 H3) as (pre & post & E1 & ->).
    destruct (Hp j n o' H2 H4) as (pre' & post' & E2 & ->). do 2 f_equal.
    eapply nodup_split; [|rewrite <- E1; exact E2]. rewrite <- E1. apply Hi.
Qed.
End Names.

Lemma cstring_app s rest : 0%N ∉ s -> cstring (s ++ 0%N :: rest) = Some s.
Proof.
  induction s as [|b s IH]; intros H; cbn; [done|]. rewrite decide_False by set_solver.
  rewrite IH by set_solver. done.
Qed.

Lemma strtab_strings ss : exists st ps s os buf,
  alloc_names name_init ss = Some (st, ps) /\
  strtab_adds (hash_of (names st)) (chars_of st) strtab_init ps = Some (s, os) /\
  strtab_dump (chars_of st) s = Some (Some <$> buf) /\ length os = length ss /\
  forall i x o, ss !! i = Some x -> os !! i = Some o ->
    (0%N ∉ x -> string_at buf o = Some x) /\
    forall j y o', ss !! j = Some y -> os !! j = Some o' -> (x = y -> o = o') /\ (0%N ∉ x -> 0%N ∉ y -> o = o' -> x = y).
Proof.
  destruct (alloc_names_ok ss name_init ninv_init) as (st & ps & E & Hi & Hl & _ & Hps).
  destruct (strtab_ok (hash_of (names st)) (chars_of st) ps) as (s & os & E1 & Hlo & E2 & _ & H1 & H2).
  exists st, ps, s, os, (image (chars_of st) (firsts ps)).
  split; [done|]. split; [done|]. split; [done|]. split; [lia|].
  assert (forall i x o, ss !! i = Some x -> os !! i = Some o -> exists p n, ps !! i = Some p /\
    names st !! N.to_nat p = Some n /\ Name_model.chars n = x /\ chars_of st p = x) as Hn.
  { intros i x o Hx Ho. assert (i < length ps) as Hlt.
    { rewrite Hl. eapply lookup_lt_Some. done. }
    apply lookup_lt_is_Some in Hlt as [p Hp]. destruct (Hps i p Hp) as (n & Hn & Hc).
    exists p, n. rewrite Hx in Hc. injection Hc as ->. unfold chars_of. rewrite Hn. done. }
  assert (forall i x o, ss !! i = Some x -> os !! i = Some o -> 0%N ∉ x ->
    string_at (image (chars_of st) (firsts ps)) o = Some x) as Hat.
  { intros i x o Hx Ho Hz. destruct (Hn i x o Hx Ho) as (p & n & Hp & _ & _ & Hc).
    destruct (H1 i p o Hp Ho) as [rest Hr]. unfold string_at. rewrite Hr, Hc.
    apply cstring_app. done. }
  intros i x o Hx Ho. split; [eauto|]. intros j y o' Hy Ho'. split.
  - intros <-. destruct (Hn i x o Hx Ho) as (p & n & Hp & Hn1 & Hc1 & _).
    destruct (Hn j x o' Hy Ho') as (q & n' & Hq & Hn2 & Hc2 & _).
    assert (p = q) as <-.
    { assert (N.to_nat p = N.to_nat q); [|lia]. eapply (ni_uniq _ Hi); [done|done|congruence]. }
    eauto.
  - intros Hz Hz' <-. assert (Some x = Some y) as [=]; [|done].
    rewrite <- (Hat i x o), <- (Hat j y o); done.
Qed.
