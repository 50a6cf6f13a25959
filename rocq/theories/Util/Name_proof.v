(** Proofs for name interning. *)
From stdpp Require Import base list numbers gmap.
From Coq Require Import Lia.
From Verif Require Import Util.Table_model Util.Table_spec Util.Table_proof Util.Name_model.

Lemma path_ext h1 h2 cap k : h1 k = h2 k -> forall d, path h1 cap k d = path h2 cap k d.
Proof. intros H d. unfold path, start_index. rewrite H. done. Qed.

Lemma ainv_ext h1 h2 es cap m : (forall k v, m !! k = Some v -> h1 k = h2 k) ->
  ainv h1 es cap m -> ainv h2 es cap m.
Proof.
  intros Hh [H1 H2 H3 H4 H5]. split; try done.
  intros i k v Hi. destruct (H5 i k v Hi) as (d & Hd & Hp & Hr).
  pose proof (Hh _ _ (H3 _ _ _ Hi)) as Hk.
  exists d. split; [done|]. rewrite <- (path_ext _ _ cap k Hk). split; [done|].
  intros d' Hd'. rewrite <- (path_ext _ _ cap k Hk). apply Hr; done.
Qed.

Lemma tinv_ext h1 h2 t m : (forall k v, m !! k = Some v -> h1 k = h2 k) ->
  tinv h1 t m -> tinv h2 t m.
Proof. intros Hh [Ha]. split; try done. eapply ainv_ext; done. Qed.

(* All names allocated so far are in the table, spelled differently. *)
Record ninv (st : nstate) : Prop := {
  ni_m : exists m, tinv (hash_of (names st)) (name_table st) m /\
         forall p, is_Some (m !! p) <-> N.to_nat p < length (names st);
  ni_hash : forall i n, names st !! i = Some n -> nhash n = hash_string (chars n);
  ni_uniq : forall i j n1 n2, names st !! i = Some n1 -> names st !! j = Some n2 ->
            chars n1 = chars n2 -> i = j }.

Lemma ninv_init : ninv name_init.
Proof.
  split; simpl.
  - exists ∅. split; [apply tinv_init|]. intros p. rewrite lookup_empty. split; [|lia].
    intros [? ?]. done.
  - intros i n H. rewrite lookup_nil in H. done.
  - intros i j n1 n2 H. rewrite lookup_nil in H. done.
Qed.

Definition matches (ns : list name) (s : list N) (e : entry) : Prop :=
  exists p n, e_key e = Some p /\ ns !! N.to_nat p = Some n /\ chars n = s.

Lemma find_name_loop_ok ns es cap s h (Hlen : length es = cap)
  (Hh : forall i n, ns !! i = Some n -> nhash n = hash_string (chars n))
  (Hs : h = hash_string s)
  (Hkeys : forall i k v, es !! i = Some (Entry (Some k) v) -> N.to_nat k < length ns) :
  let pa := path (fun _ => h) cap 0%N in
  forall n d, n + d = cap ->
  (forall d', d' < d -> exists e, es !! pa d' = Some e /\ nonempty e = true /\ ~ matches ns s e) ->
  (exists d', d <= d' < cap /\ es !! pa d' = Some empty_entry) ->
  exists r, find_name_loop n ns es cap s h (pa d) = Some r /\
    match r with
    | Some p => exists nm, ns !! N.to_nat p = Some nm /\ chars nm = s
    | None => exists d0, d0 < cap /\ es !! pa d0 = Some empty_entry /\
        forall d', d' < d0 -> exists e, es !! pa d' = Some e /\ nonempty e = true /\ ~ matches ns s e
    end.
Proof.
  intros pa. induction n as [|n IH]; intros d Hn Hbefore [de [Hde Hempty]]; [lia|].
  assert (0 < cap) by lia. simpl.
  destruct (lookup_lt_is_Some_2 es (pa d)) as [e He].
  { rewrite Hlen. apply path_lt; lia. }
  rewrite He. cbn [mbind option_bind].
  assert (Hstep : nonempty e = true -> ~ matches ns s e ->
    exists r, find_name_loop n ns es cap s h ((pa d + 1) mod cap) = Some r /\
    match r with
    | Some p => exists nm, ns !! N.to_nat p = Some nm /\ chars nm = s
    | None => exists d0, d0 < cap /\ es !! pa d0 = Some empty_entry /\
        forall d', d' < d0 -> exists e, es !! pa d' = Some e /\ nonempty e = true /\ ~ matches ns s e
    end).
  { intros Hne Hnm. unfold pa. rewrite path_S by lia. apply IH; [lia| |].
    - intros d' Hd'. destruct (decide (d' = d)) as [->|]; [eauto|apply Hbefore; lia].
    - exists de. split; [|done]. split; [|lia].
      destruct (decide (de = d)) as [->|]; [|lia].
      rewrite He in Hempty. injection Hempty as ->. done. }
  destruct e as [[k|] v]; cbn [e_key e_val].
  - destruct (lookup_lt_is_Some_2 ns (N.to_nat k)) as [nm Hnm]; [eapply Hkeys; done|].
    rewrite Hnm. cbn [mbind option_bind].
    destruct (decide _) as [(_ & _ & Hc)|Hc].
    + eexists; split; [reflexivity|]. exists nm. done.
    + apply Hstep; [done|]. intros (p & n1 & Hp & Hn1 & Hcn). simpl in Hp. injection Hp as <-.
      rewrite Hnm in Hn1. injection Hn1 as <-. apply Hc.
      rewrite Hcn, (Hh _ _ Hnm), Hcn. done.
  - destruct v as [|p|].
    + eexists; split; [reflexivity|]. exists d. split; [lia|]. split; [done|]. done.
    + apply Hstep; [done|]. intros (? & ? & ? & _). done.
    + apply Hstep; [done|]. intros (? & ? & ? & _). done.
Qed.

Lemma find_name_ok st s : ninv st ->
  exists r, find_name_table (names st) (name_table st) s (hash_string s) = Some r /\
    match r with
    | Some p => exists nm, names st !! N.to_nat p = Some nm /\ chars nm = s
    | None => forall i nm, names st !! i = Some nm -> chars nm <> s
    end.
Proof.
  intros [(m & Hi & Hm) Hh Hu]. unfold find_name_table.
  destruct (decide (count (name_table st) = 0)) as [H0|H0].
  - exists None. split; [done|]. intros i nm Hnm.
    pose proof (count0 _ _ _ Hi H0) as ->.
    apply lookup_lt_Some in Hnm. exfalso.
    assert (is_Some ((∅ : gmap N cval) !! N.of_nat i)) as [? Hx].
    { apply Hm. rewrite Nat2N.id. done. }
    rewrite lookup_empty in Hx. done.
  - pose proof (tinv_nonzero _ _ _ Hi H0) as Hlt.
    pose proof (ti_a _ _ _ Hi) as Ha.
    set (es := entries (name_table st)) in *. set (cap := capacity (name_table st)) in *.
    set (h := hash_string s).
    assert (0 < cap) by lia.
    assert (Hkeys : forall i k v, es !! i = Some (Entry (Some k) v) -> N.to_nat k < length (names st)).
    { intros i k v Hk. apply Hm. rewrite (ai_in _ _ _ _ Ha _ _ _ Hk). eauto. }
    destruct (find_name_loop_ok (names st) es cap s h (ai_len _ _ _ _ Ha) Hh eq_refl Hkeys cap 0)
      as (r & Hr & Hspec); [lia|intros; lia| |].
    { destruct (has_empty (fun _ => h) es 0%N cap (ai_len _ _ _ _ Ha) Hlt) as (d & Hd & He).
      exists d. split; [lia|done]. }
    rewrite path_0 in Hr by lia. unfold start_index in Hr.
    exists r. split; [exact Hr|]. destruct r as [p|]; [done|].
    destruct Hspec as (d0 & Hd0 & He0 & Hb).
    intros i nm Hnm Hc.
    assert (is_Some (m !! N.of_nat i)) as [v Hv].
    { apply Hm. rewrite Nat2N.id. eapply lookup_lt_Some; done. }
    destruct (ai_out _ _ _ _ Ha _ _ Hv) as (j & Hj).
    destruct (ai_reach _ _ _ _ Ha _ _ _ Hj) as (d & Hd & Hp & Hreach).
    assert (Hsame : forall x, path (hash_of (names st)) cap (N.of_nat i) x = path (fun _ => h) cap 0%N x).
    { intros x. unfold path, start_index, hash_of. rewrite Nat2N.id, Hnm, (Hh _ _ Hnm), Hc. done. }
    rewrite Hsame in Hp. subst j.
    destruct (decide (d < d0)) as [Hx|Hx].
    + destruct (Hb d Hx) as (e & He & _ & Hnm'). rewrite Hj in He. injection He as <-.
      apply Hnm'. exists (N.of_nat i), nm. rewrite Nat2N.id. done.
    + destruct (decide (d = d0)) as [->|].
      * rewrite Hj in He0. done.
      * destruct (Hreach d0) as (e & He & Hne); [lia|]. rewrite Hsame, He0 in He.
        injection He as <-. done.
Qed.

Lemma alloc_name_ok st s : ninv st ->
  exists st' p n, alloc_name st s = Some (st', p) /\ ninv st' /\
    names st' !! N.to_nat p = Some n /\ chars n = s /\
    (exists extra, names st' = names st ++ extra).
Proof.
  intros Hi. unfold alloc_name.
  destruct (find_name_ok st s Hi) as (r & -> & Hr). cbn [mbind option_bind].
  destruct r as [p|].
  - destruct Hr as (nm & Hnm & Hc). exists st, p, nm. repeat split; try done.
    all: try apply Hi. exists []. rewrite app_nil_r. done.
  - destruct Hi as [(m & Hi & Hm) Hh Hu].
    set (p := N.of_nat (length (names st))). set (ns := names st ++ [Name s (hash_string s)]).
    assert (Hi' : tinv (hash_of ns) (name_table st) m).
    { eapply tinv_ext; [|done]. intros k v Hk. unfold hash_of, ns.
      rewrite lookup_app_l; [done|]. apply Hm. eauto. }
    destruct (table_put_ok (hash_of ns) _ _ p (VPtr p) Hi') as (t' & -> & Hi2).
    cbn [mbind option_bind].
    eexists _, p, _. split; [reflexivity|].
    split.
    + split; cbn [names name_table].
      * eexists; split; [exact Hi2|]. intros q. unfold ns. rewrite app_length. simpl.
        destruct (decide (q = p)) as [->|Hne].
        -- rewrite lookup_insert. unfold p. split; [lia|eauto].
        -- rewrite lookup_insert_ne by done. rewrite Hm. unfold p in Hne. lia.
      * intros i n. unfold ns. intros [H|[_ H]]%lookup_app_Some; [by eapply Hh|].
        apply list_lookup_singleton_Some in H as [_ <-]. done.
      * intros i j n1 n2. unfold ns. intros H1 H2 Hc.
        apply lookup_app_Some in H1 as [H1|[Hl1 H1]]; apply lookup_app_Some in H2 as [H2|[Hl2 H2]].
        -- eapply Hu; done.
        -- apply list_lookup_singleton_Some in H2 as [_ <-]. simpl in Hc.
           exfalso. eapply Hr; done.
        -- apply list_lookup_singleton_Some in H1 as [_ <-]. simpl in Hc.
           exfalso. eapply Hr; done.
        -- apply list_lookup_singleton_Some in H1 as [H1 _].
           apply list_lookup_singleton_Some in H2 as [H2 _]. lia.
    + cbn [names]. unfold ns, p. rewrite Nat2N.id. split.
      * rewrite lookup_app_r by lia. rewrite Nat.sub_diag. reflexivity.
      * split; [done|]. eauto.
Qed.

Lemma alloc_names_ok ss : forall st, ninv st ->
  exists st' ps, alloc_names st ss = Some (st', ps) /\ ninv st' /\ length ps = length ss /\
    (exists extra, names st' = names st ++ extra) /\
    (forall i p, ps !! i = Some p -> exists n, names st' !! N.to_nat p = Some n /\ ss !! i = Some (chars n)).
Proof.
  induction ss as [|s ss IH]; intros st Hi; simpl.
  - exists st, []. split; [done|]. split; [done|]. split; [done|].
    split; [exists []; rewrite app_nil_r; done|]. intros i p H. rewrite lookup_nil in H. done.
  - destruct (alloc_name_ok st s Hi) as (st1 & p & n & -> & Hi1 & Hp & Hc & ex1 & Hex1).
    cbn [mbind option_bind].
    destruct (IH st1 Hi1) as (st2 & ps & -> & Hi2 & Hl & [ex2 Hex2] & Hps).
    cbn [mbind option_bind].
    exists st2, (p :: ps). split; [done|]. split; [done|]. split; [simpl; lia|].
    split; [exists (ex1 ++ ex2); rewrite Hex2, Hex1, app_assoc; done|].
    intros [|i] q Hq; simpl in Hq.
    + injection Hq as <-. exists n. split; [|rewrite Hc; done].
      rewrite Hex2. apply lookup_app_l_Some. done.
    + apply Hps. done.
Qed.

Lemma intern_identity ss :
  exists st ps, alloc_names name_init ss = Some (st, ps) /\ length ps = length ss /\
  forall i j p q s t, ps !! i = Some p -> ps !! j = Some q -> ss !! i = Some s -> ss !! j = Some t ->
    (p = q <-> s = t).
Proof.
  destruct (alloc_names_ok ss name_init ninv_init) as (st & ps & H & Hi & Hl & _ & Hps).
  exists st, ps. split; [done|]. split; [done|].
  intros i j p q s t Hp Hq Hs Ht.
  destruct (Hps _ _ Hp) as (n1 & Hn1 & Hs'). rewrite Hs in Hs'. injection Hs' as ->.
  destruct (Hps _ _ Hq) as (n2 & Hn2 & Ht'). rewrite Ht in Ht'. injection Ht' as ->.
  split.
  - intros <-. rewrite Hn1 in Hn2. injection Hn2 as ->. done.
  - intros Hc. assert (N.to_nat p = N.to_nat q) by (eapply (ni_uniq _ Hi); done). lia.
Qed.
