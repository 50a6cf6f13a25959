(** Every initialiser with a meaning is accepted, and the meaning is unique. *)
From stdpp Require Import base list numbers.
From Verif Require Import Front.Static_model Front.Flatten_model Front.Flatten_spec Front.Flatten_proof Front.Flatten_term_proof
  Front.Flatten_store_proof Front.Flatten_sound_proof.
Local Open Scope Z_scope.

Scheme means_mut := Minimality for means Sort Prop with items_mut := Minimality for items Sort Prop.
Combined Scheme means_items_ind from means_mut, items_mut.

Lemma earlier_cons a p b q : earlier (a :: p) (b :: q) -> a < b \/ (a = b /\ earlier p q).
Proof.
  intros [(i & s & E)|(c & i & s & j & s' & E1 & E2 & Hlt)].
  - injection E as -> ->. right. split; [done|]. left. eauto.
  - destruct c as [|x c]; cbn in E1, E2; injection E1 as -> ->; injection E2 as -> ->; [auto|].
    right. split; [done|]. right. eauto 10.
Qed.
Lemma earlier_asym p : forall q, earlier p q -> earlier q p -> False.
Proof.
  induction p as [|a p IH]; intros q H1 H2.
  - destruct H2 as [(i & s & E)|(c & i & s & j & s' & _ & E & _)]; [by destruct q|by destruct c].
  - destruct q as [|b q].
    + destruct H1 as [(i & s & E)|(c & i & s & j & s' & _ & E & _)]; [done|by destruct c].
    + apply earlier_cons in H1 as [|[-> H1]]; apply earlier_cons in H2 as [|[? H2]]; try lia. eauto.
Qed.

Section full.
  Context (obj : iexpr -> option fty) (same : fty -> fty -> bool).

  Lemma next_fun t p r q1 t1 q2 t2 : next obj same t p r q1 t1 -> next obj same t p r q2 t2 -> q1 = q2 /\ t1 = t2.
  Proof.
    intros (A1 & T1 & M1) (A2 & T2 & M2).
    assert (q1 = q2) as ->.
    { destruct (M1 _ _ A2 T2) as [|H1]; [done|]. destruct (M2 _ _ A1 T1) as [|H2]; [done|]. by destruct (earlier_asym _ _ H1 H2). }
    split; [done|]. apply after_sub in A1, A2. by eapply sub_fun.
  Qed.
  Lemma dotted_fun t l q1 t1 : dotted t l q1 t1 -> forall q2 t2, dotted t l q2 t2 -> q1 = q2 /\ t1 = t2.
  Proof.
    induction 1 as [u ms i m t E|u ms i m t l p t' E Hd IH]; intros q2 t2 H2.
    - inversion H2 as [? ? ? ? ? E2|? ? ? ? ? ? ? ? E2 H3]; subst; [by simplify_eq|inversion H3].
    - inversion H2 as [? ? ? ? ? E2|? ? ? ? ? ? ? ? E2 H3]; subst; [inversion Hd|]. simplify_eq.
      destruct (IH _ _ H3) as [-> ->]. done.
  Qed.
  Lemma designated_fun t ds q1 t1 : designated t ds q1 t1 -> forall q2 t2, designated t ds q2 t2 -> q1 = q2 /\ t1 = t2.
  Proof.
    induction 1 as [t|t len i ds p t' Hp Hd IH|t l p t' ds p' t'' Hd Hd' IH]; intros q2 t2 H2.
    - inversion H2; subst. done.
    - inversion H2 as [|? ? ? ? ? ? ? H3|]; subst. destruct (IH _ _ H3) as [-> ->]. done.
    - inversion H2 as [| |? ? ? ? ? ? ? H3 H4]; subst. destruct (dotted_fun _ _ _ _ Hd _ _ H3) as [-> ->].
      destruct (IH _ _ H4) as [-> ->]. done.
  Qed.
  Lemma string_of_fun t l e1 e2 : string_of t l e1 -> string_of t l e2 -> e1 = e2.
  Proof. intros (? & ? & ? & -> & -> & ->) (? & ? & ? & -> & _ & [= -> ->]). done. Qed.
  Lemma string_of_multi t l e : string_of t l e -> is_multi t = true.
  Proof. by intros (? & ? & ? & -> & -> & ->). Qed.

  Lemma means_unique st :
    (forall t r o1, means obj same st t r o1 -> forall o2, means obj same st t r o2 -> o1 = o2) /\
    (forall t p l o1, items obj same st t p l o1 -> forall o2, items obj same st t p l o2 -> o1 = o2).
  Proof.
    apply (means_items_ind obj same st (fun t r o1 => forall o2, means obj same st t r o2 -> o1 = o2)
      (fun t p l o1 => forall o2, items obj same st t p l o2 -> o1 = o2)).
    - intros t e _ o2 H. inversion H; subst; done.
    - intros t Hm o2 H. inversion H as [| | |? ? ? Hs|? ? ? Hm']; subst; [done| |congruence]. apply string_of_multi in Hs. congruence.
    - intros t e Hm o2 H. inversion H as [| | |? ? ? Hs|? ? ? Hm']; subst; [done| |congruence]. apply string_of_multi in Hs. congruence.
    - intros t l e Hs o2 H. assert (Hm := string_of_multi _ _ _ Hs). inversion H as [| | |? ? ? Hs2|? ? ? Hm' Hn]; subst; [congruence|congruence| |].
      + by rewrite (string_of_fun _ _ _ _ Hs Hs2).
      + by destruct (Hn e).
    - intros t l out Hm Hn _ IH o2 H. inversion H as [| | |? ? ? Hs|? ? ? Hm' Hn' Hi]; subst; [congruence|congruence|by destruct (Hn e)|].
      by rewrite (IH _ Hi).
    - intros t p o2 H. by inversion H.
    - intros t p r l q t' o1 o2 Hn _ IH1 _ IH2 o3 H. inversion H as [|? ? ? ? q2 t2 ? ? Hn2 Hm2 Hi2|? ? ? ? ? ? ? ? ? Hne|? ? ? ? ? ? ? ? ? ? ? Hne]; subst; [|done|done].
      destruct (next_fun _ _ _ _ _ _ _ Hn Hn2) as [-> ->]. by rewrite (IH1 _ Hm2), (IH2 _ Hi2).
    - intros t p ds r l q t' o1 o2 Hne Hd Ht _ _ IH1 _ IH2 o3 H. inversion H as [|? ? ? ? q2 t2 ? ? Hn2 Hm2 Hi2|? ? ? ? ? q2 t2 ? ? Hne2 Hd2 Ht2 _ Hm2 Hi2|? ? ? ? ? c2 t2 q2 t3 ? ? Hne2 Hd2 Ht2]; subst; [done| |].
      + destruct (designated_fun _ _ _ _ Hd _ _ Hd2) as [-> ->]. by rewrite (IH1 _ Hm2), (IH2 _ Hi2).
      + by destruct (designated_fun _ _ _ _ Hd _ _ Hd2) as [-> ->].
    - intros t p ds e l c t0 q t' o1 o2 Hne Hd Ht _ Hn _ IH1 _ IH2 o3 H.
      inversion H as [|? ? ? ? q2 t2 ? ? Hn2 Hm2 Hi2|? ? ? ? ? q2 t2 ? ? Hne2 Hd2 Ht2 _ Hm2 Hi2|? ? ? ? ? c2 t2 q2 t3 ? ? Hne2 Hd2 Ht2 _ Hn2 Hm2 Hi2]; subst; [done| |].
      + by destruct (designated_fun _ _ _ _ Hd _ _ Hd2) as [-> ->].
      + destruct (designated_fun _ _ _ _ Hd _ _ Hd2) as [-> ->]. destruct (next_fun _ _ _ _ _ _ _ Hn Hn2) as [-> ->].
        by rewrite (IH1 _ Hm2), (IH2 _ Hi2).
  Qed.

  Lemma means_weaken :
    (forall t r o, means obj same true t r o -> means obj same false t r o) /\
    (forall t p l o, items obj same true t p l o -> items obj same false t p l o).
  Proof.
    apply (means_items_ind obj same true (fun t r o => means obj same false t r o) (fun t p l o => items obj same false t p l o));
      intros; [by apply me_expr|by apply me_zero|by apply me_braced|by apply me_string|by apply me_list|by apply it_nil|by eapply it_next|by eapply it_there|by eapply it_part].
  Qed.

  (** ** More fuel changes nothing *)
  Lemma locate_le f f' t path ds r : (f <= f')%nat -> forall x, locate obj same f t path ds r = Done x -> locate obj same f' t path ds r = Done x.
  Proof.
    intros Hle x. assert (Hs : forall p, search obj same f t p r = Done x -> search obj same f' t p r = Done x).
    { intros p E. rewrite (search_le obj same t r f f' p Hle); [done|by rewrite E]. }
    destruct ds as [|d ds]; [apply Hs|]. unfold locate. destruct (walk t [] (d :: ds)) as [[p t1]| | | |]; try done. cbn [bind].
    destruct r as [e|l]; [|done]. destruct (is_multi t1 && _); [apply Hs|done].
  Qed.
  Lemma flatten_le f f' r : (f <= f')%nat -> forall t v, flatten obj same f r t = Done v -> flatten obj same f' r t = Done v.
  Proof.
    intros Hle. induction r as [e|l IH] using raw_ind'; intros t v; [done|]. cbn [flatten].
    destruct (is_multi t); [|done]. destruct (lone_string t l); [done|]. destruct (reserve t) as [tree|]; [|done].
    clear - IH Hle. revert tree. generalize [-1] as path. induction IH as [|[ds r] l Hr _ IHl]; intros path tree; [done|]. cbn [snd] in Hr. cbn [item_loop].
    destruct (locate obj same f t path ds r) as [[p t']| | | |] eqn:El; try done. rewrite (locate_le f f' t path ds r Hle _ El). cbn [bind].
    destruct (flatten obj same f r t') as [v1| | | |] eqn:Ef; try done. rewrite (Hr _ _ Ef). cbn [bind].
    destruct (check (store t tree (reverse p) v1)) as [tree1| | | |]; try done. cbn [bind]. apply IHl.
  Qed.

  (** ** Acceptance *)
  Lemma dots_designated t l q t' acc : dotted t l q t' -> dots t acc l = Done (reverse q ++ acc, t').
  Proof.
    intros H. revert acc. induction H as [u ms i m t E|u ms i m t l p t' E _ IH]; intros acc; cbn [dots]; rewrite E; [done|].
    rewrite IH, reverse_cons, <- app_assoc. done.
  Qed.
  Lemma walk_designated t ds q t' acc : designated t ds q t' -> walk t acc ds = Done (reverse q ++ acc, t').
  Proof.
    intros H. revert acc. induction H as [t|t len i ds p t' Hp _ IH|t l p t' ds p' t'' Hd _ IH]; intros acc; cbn [walk].
    - done.
    - rewrite IH, reverse_cons, <- app_assoc. done.
    - assert (exists u ms i l', t = FStruct u ms /\ l = i :: l') as (u & ms & i & l' & -> & ->) by (destruct Hd; eauto 10).
      rewrite (dots_designated _ _ _ _ _ Hd). cbn [bind]. rewrite IH, reverse_app, <- app_assoc. done.
  Qed.

  Lemma search_next t r p q t' i up : ok t -> pos_ok t (i :: up) -> p = reverse (i :: up) -> next obj same t p r q t' ->
    exists n, forall f, (n <= f)%nat -> search obj same f t (i + 1 :: up) r = Done (reverse q, t').
  Proof.
    intros Hok (i' & up' & t0 & [= <- <-] & Hs & Hm & Hi) -> Hn.
    destruct (search_ends obj same t r Hok up (i + 1) t0 Hs Hm ltac:(lia)) as (n & res & Hr & Hf).
    exists n. intros f Hle. replace f with (n + (f - n))%nat by lia. rewrite Hf.
    assert (H := search_spec obj same t r Hok (n + 0) (i + 1) up t0 Hs Hm ltac:(lia)). rewrite Hf in H.
    replace (i + 1 - 1) with i in H by lia. rewrite <- reverse_cons in H.
    destruct res as [[q2 t2]| | | |]; try done.
    - destruct (next_fun _ _ _ _ _ _ _ Hn H) as [-> ->]. by rewrite reverse_involutive.
    - destruct Hn as (Ha & Ht & _). by destruct (H _ _ Ha).
  Qed.

  Lemma accepted :
    (forall t r o, means obj same true t r o -> ok t -> exists N v, forall f, (N <= f)%nat -> flatten obj same f r t = Done v) /\
    (forall t p l o, items obj same true t p l o -> ok t -> forall path tree, p = reverse path -> pos_ok t path -> shape t (IMulti tree) ->
      exists N v, forall f, (N <= f)%nat -> item_loop obj same f (flatten obj same f) t l path tree = Done v).
  Proof.
    (* the step after the place is known *)
    assert (Hstep : forall t path tree ds r l q t' N0, ok t -> shape t (IMulti tree) -> sub t q t' -> q <> [] ->
      (forall f, (N0 <= f)%nat -> locate obj same f t path ds r = Done (reverse q, t')) ->
      (ok t' -> exists N v, forall f, (N <= f)%nat -> flatten obj same f r t' = Done v) ->
      (forall path tree, q = reverse path -> pos_ok t path -> shape t (IMulti tree) ->
        exists N v, forall f, (N <= f)%nat -> item_loop obj same f (flatten obj same f) t l path tree = Done v) ->
      exists N v, forall f, (N <= f)%nat -> item_loop obj same f (flatten obj same f) t ((ds, r) :: l) path tree = Done v).
    { intros t path tree ds r l q t' N0 Hok Hsh Hs Hne Hloc Hfl Hrest. assert (Hok' := ok_sub _ _ _ Hok Hs).
      destruct (Hfl Hok') as (N1 & v1 & Hv1).
      destruct (flatten_sound obj same N1 r t' v1 Hok' (Hv1 N1 ltac:(lia))) as (o & _ & Hsh1 & _).
      destruct (store_spec q t tree v1 t' Hsh Hs Hne Hsh1) as (tree1 & Est & Hsh' & _).
      assert (reverse q <> []) as Hne' by (intros E; apply (f_equal reverse) in E; by rewrite reverse_involutive in E).
      destruct (Hrest (reverse q) tree1) as (N2 & v & Hv).
      - by rewrite reverse_involutive.
      - eapply pos_sub; [|exact Hne']. by rewrite reverse_involutive.
      - done.
      - exists (N0 + N1 + N2)%nat, v. intros f Hf. cbn [item_loop]. rewrite Hloc by lia. cbn [bind]. rewrite Hv1 by lia. cbn [bind].
        rewrite reverse_involutive, Est. cbn [check bind]. apply Hv. lia. }
    apply (means_items_ind obj same true
      (fun t r o => ok t -> exists N v, forall f, (N <= f)%nat -> flatten obj same f r t = Done v)
      (fun t p l o => ok t -> forall path tree, p = reverse path -> pos_ok t path -> shape t (IMulti tree) ->
        exists N v, forall f, (N <= f)%nat -> item_loop obj same f (flatten obj same f) t l path tree = Done v)).
    - intros t e Ht _. exists O, (ISingle e). intros f _. cbn [flatten]. apply stops_takes in Ht. by rewrite Ht.
    - intros t Hm _. exists O, (ISingle (zero t)). intros f _. cbn [flatten]. by rewrite Hm.
    - intros t e Hm _. exists O, (ISingle e). intros f _. cbn [flatten]. by rewrite Hm.
    - intros t l e Hs _. exists O, (ISingle e). intros f _. cbn [flatten]. rewrite (string_of_multi _ _ _ Hs).
      apply lone_string_spec in Hs. by rewrite Hs.
    - intros t l out Hm Hn _ IH Hok. destruct (reserve_multi _ Hm) as [tree Hr].
      destruct (IH Hok [-1] tree) as (N & v & Hv).
      + done.
      + exists (-1), [], t. repeat split; [constructor|done|lia].
      + by apply reserve_shape in Hr as [? _].
      + exists N, v. intros f Hf. cbn [flatten]. rewrite Hm, Hr. destruct (lone_string t l) as [e|] eqn:E; [|by apply Hv].
        apply lone_string_spec in E. by destruct (Hn e).
    - intros t p _ path tree _ _ _. exists O, (IMulti tree). done.
    - intros t p r l q t' o1 o2 Hn _ IH1 _ IH2 Hok path tree Hp Hpos Hsh.
      assert (sub t q t') as Hs by (by eapply after_sub; apply Hn).
      destruct path as [|i up]; [by destruct Hpos as (? & ? & ? & ? & _)|].
      destruct (search_next t r p q t' i up Hok Hpos Hp Hn) as [N0 HN0].
      eapply Hstep; [done|done|exact Hs|by eapply next_nonempty|exact HN0|done|by apply IH2].
    - intros t p ds r l q t' o1 o2 Hne Hd Ht Hstr _ IH1 _ IH2 Hok path tree Hp Hpos Hsh.
      assert (Hs := designated_sub _ _ _ _ Hd).
      eapply (Hstep t path tree ds r l q t' O); [done|done|exact Hs|by eapply designated_nil| |done|by apply IH2].
      intros f _. unfold locate. destruct ds as [|d ds]; [done|]. rewrite (walk_designated _ _ _ _ _ Hd), app_nil_r. cbn [bind].
      destruct r as [e|lr].
      + destruct (is_multi t') eqn:Em; [|done]. cbn. destruct (whole obj e) as [|] eqn:Ew; [done|].
        apply stops_takes in Ht. unfold stops in Ht. rewrite Em, Ew, orb_false_r in Ht. destruct t' as [| |[]|], e; done.
      + destruct (Hstr eq_refl) as [-> |[e He]]; done.
    - intros t p ds e l c t0 q t' o1 o2 Hne Hd Ht Hstr Hn _ IH1 _ IH2 Hok path tree Hp Hpos Hsh.
      assert (Hs := designated_sub _ _ _ _ Hd). assert (is_multi t0 = true) as Hm by (destruct t0; [destruct Ht; cbn; by destruct e|destruct Ht; cbn; by destruct e|done|done]).
      assert (sub t q t') as Hsq by (by eapply after_sub; apply Hn).
      assert (Hpos' : pos_ok t (-1 :: reverse c)).
      { exists (-1), (reverse c), t0. rewrite reverse_involutive. repeat split; [done|done|lia]. }
      destruct (search_next t (RSingle e) (c ++ [-1]) q t' (-1) (reverse c) Hok Hpos') as [N0 HN0]; [by rewrite reverse_cons, reverse_involutive|done|].
      eapply (Hstep t path tree ds (RSingle e) l q t' N0); [done|done|exact Hsq|by eapply next_nonempty| |done|by apply IH2].
      intros f Hf. unfold locate. destruct ds as [|d ds]; [done|]. rewrite (walk_designated _ _ _ _ _ Hd), app_nil_r. cbn [bind].
      rewrite Hm, (Hstr eq_refl). cbn. apply HN0. done.
  Qed.

  (** ** It always ends *)
  Lemma dots_ok l : forall t acc p t', ok t -> dots t acc l = Done (p, t') -> ok t'.
  Proof.
    induction l as [|i l IH]; intros t acc p t' Hok H; cbn in H; [by injection H as _ <-|].
    destruct t as [w|f|t len|u ms]; try done. destruct (ms !! i) as [[m t]|] eqn:E; [|done].
    apply IH in H; [done|]. apply ok_struct in Hok as [Hok _]. apply (Forall_lookup_1 _ _ _ _ Hok E).
  Qed.
  Lemma dots_done l : forall t acc, dots t acc l <> NoFuel.
  Proof. induction l as [|i l IH]; intros t acc; cbn; [done|]. destruct t; try done. destruct (ms !! i) as [[m t]|]; [apply IH|done]. Qed.
  Lemma walk_ok ds : forall t acc p t', ok t -> walk t acc ds = Done (p, t') -> ok t'.
  Proof.
    induction ds as [|[l|i] ds IH]; intros t acc p t' Hok H; cbn in H; [by injection H as _ <-| |].
    - destruct t as [w|f|t len|u ms]; try done. destruct l as [|j l]; [done|].
      destruct (dots (FStruct u ms) acc (j :: l)) as [[p1 t1]| | | |] eqn:Ed; try done. cbn [bind] in H.
      apply dots_ok in Ed; [|done]. by apply IH in H.
    - destruct t as [w|f|t len|u ms]; try done. apply IH in H; [done|]. destruct len; [done|apply Hok].
  Qed.
  Lemma walk_done ds : forall t acc, walk t acc ds <> NoFuel.
  Proof.
    induction ds as [|[l|i] ds IH]; intros t acc; cbn; [done| |].
    - destruct t; try done. destruct l as [|j l]; [done|]. assert (H := dots_done (j :: l) (FStruct is_union ms) acc).
      destruct (dots _ acc (j :: l)) as [[p1 t1]| | | |]; try done. apply IH.
    - destruct t; done || apply IH.
  Qed.

  Lemma search_settles t r path : ok t -> pos_ok t path ->
    exists N res, res <> NoFuel /\ (forall p t', res = Done (p, t') -> ok t') /\ forall f, (N <= f)%nat -> search obj same f t (next_index path) r = res.
  Proof.
    intros Hok (i & up & t0 & -> & Hs & Hm & Hi).
    destruct (search_ends obj same t r Hok up (i + 1) t0 Hs Hm ltac:(lia)) as (n & res & Hr & Hf).
    exists n, res. split; [done|]. split.
    - intros p t' ->. assert (H := search_spec obj same t r Hok (n + 0) (i + 1) up t0 Hs Hm ltac:(lia)). rewrite Hf in H.
      destruct H as (H & _). eapply ok_sub; [done|]. by eapply after_sub.
    - intros f Hle. cbn [next_index]. replace f with (n + (f - n))%nat by lia. apply Hf.
  Qed.
  Lemma locate_settles t path ds r : ok t -> pos_ok t path ->
    exists N res, res <> NoFuel /\ (forall p t', res = Done (p, t') -> ok t') /\ forall f, (N <= f)%nat -> locate obj same f t path ds r = res.
  Proof.
    intros Hok Hpos. destruct ds as [|d ds]; [by apply search_settles|]. unfold locate.
    assert (Hd := walk_done (d :: ds) t []).
    destruct (walk t [] (d :: ds)) as [[p1 t1]| | | |] eqn:Ew; cbn [bind]; [|by eexists O, _|by eexists O, _|by eexists O, _|done].
    assert (Hok1 := walk_ok _ _ _ _ _ Hok Ew).
    destruct r as [e|lr].
    - destruct (is_multi t1 && _) eqn:Eb.
      + apply andb_true_iff in Eb as [Hm1 _]. destruct (type_at t (reverse p1)) as [tx|] eqn:Etx.
        * apply type_at_sub in Etx as Hs. apply walk_spec in Ew as (q & -> & Hq). rewrite app_nil_r in *. rewrite reverse_involutive in Hs.
          destruct (Hq _ Hs) as [-> _].
          apply (search_settles t (RSingle e) (-1 :: reverse q) Hok). exists (-1), (reverse q), t1. rewrite reverse_involutive. repeat split; [done|done|lia].
        * exists 1%nat, Crash. split; [done|]. split; [done|]. intros [|f] Hf; [lia|]. cbn [search]. by rewrite Etx.
      + exists O, (Done (p1, t1)). split; [done|]. split; [|done]. by intros p t' [= <- <-].
    - destruct (is_multi t1).
      + exists O, (Done (p1, t1)). split; [done|]. split; [|done]. by intros p t' [= <- <-].
      + by exists O, Crash.
  Qed.
  Lemma flatten_ends r : forall t, ok t -> exists N res, res <> NoFuel /\ forall f, (N <= f)%nat -> flatten obj same f r t = res.
  Proof.
    induction r as [e|l IH] using raw_ind'; intros t Hok.
    { exists O, (flatten obj same O (RSingle e) t). split; [|done]. cbn. destruct (stops _ _ _ _); [done|]. by destruct t. }
    destruct (is_multi t) eqn:Em.
    2: { exists O. eexists. split; [|intros f _; cbn [flatten]; rewrite Em; done]. by destruct l as [|[[|d ds] [e|l']] [|y l]]. }
    destruct (lone_string t l) as [e|] eqn:Els.
    { exists O, (Done (ISingle e)). split; [done|]. intros f _. cbn [flatten]. by rewrite Em, Els. }
    destruct (reserve_multi _ Em) as [tree Hr].
    assert (forall path tree, pos_ok t path -> shape t (IMulti tree) -> exists N res, res <> NoFuel /\
      forall f, (N <= f)%nat -> item_loop obj same f (flatten obj same f) t l path tree = res) as Hloop.
    { clear - IH Hok. induction IH as [|[ds r] l Hr _ IHl]; intros path tree Hpos Hsh; [by exists O, (Done (IMulti tree))|]. cbn [snd] in Hr.
      destruct (locate_settles t path ds r Hok Hpos) as (N0 & res0 & Hn0 & Hok0 & H0).
      destruct res0 as [[p t']| | | |]; [|exists N0; eexists; split; [|intros f Hf; cbn [item_loop]; rewrite (H0 f Hf); cbn [bind]; reflexivity]; done..|done].
      specialize (Hok0 _ _ eq_refl). destruct (Hr _ Hok0) as (N1 & res1 & Hn1 & H1).
      destruct res1 as [v| | | |]; [|exists (N0 + N1)%nat; eexists; split; [|intros f Hf; cbn [item_loop]; rewrite H0 by lia; cbn [bind]; rewrite H1 by lia; cbn [bind]; reflexivity]; done..|done].
      destruct (store t tree (reverse p) v) as [tree1|] eqn:Est.
      - assert (Hs := item_step obj same (N0 + N1) t path ds r p t' v tree tree1 l) .
        destruct (flatten_sound obj same (N0 + N1) r t' v Hok0) as (o & Hme & Hshv & _); [apply H1; lia|].
        destruct (Hs o [] Hok Hpos Hsh ltac:(apply H0; lia) ltac:(apply H1; lia) Est (fun _ => Hme)) as (Hsub & Hne & _).
        destruct (store_spec (reverse p) t tree v t' Hsh Hsub) as (tree2 & Es2 & Hsh2 & _); [|done|].
        { intros E0. apply (f_equal reverse) in E0. rewrite reverse_involutive in E0. done. }
        assert (tree2 = tree1) as -> by congruence.
        destruct (IHl p tree1) as (N2 & res2 & Hn2 & H2); [by eapply pos_sub|done|].
        exists (N0 + N1 + N2)%nat, res2. split; [done|]. intros f Hf. cbn [item_loop]. rewrite H0 by lia. cbn [bind]. rewrite H1 by lia.
        cbn [bind]. rewrite Est. cbn [check bind]. apply H2. lia.
      - exists (N0 + N1)%nat, Crash. split; [done|]. intros f Hf. cbn [item_loop]. rewrite H0 by lia. cbn [bind]. rewrite H1 by lia.
        cbn [bind]. by rewrite Est. }
    destruct (Hloop [-1] tree) as (N & res & Hn & HN).
    - exists (-1), [], t. repeat split; [constructor|done|lia].
    - by apply reserve_shape in Hr as [? _].
    - exists N, res. split; [done|]. intros f Hf. cbn [flatten]. rewrite Em, Els, Hr. by apply HN.
  Qed.
End full.
