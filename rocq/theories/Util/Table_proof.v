(** Proofs for the hash table: refinement to a finite map. *)
From stdpp Require Import base list numbers gmap.
From Coq Require Import Lia.
From Verif Require Import Util.Table_model Util.Table_spec.

Definition nonempty (e : entry) : bool :=
  match e_key e, e_val e with None, VNull => false | _, _ => true end.

Fixpoint nused (es : list entry) : nat :=
  match es with [] => 0 | e :: es => (if nonempty e then 1 else 0) + nused es end.

Definition live (e : entry) : bool := match e_key e with None => false | Some _ => true end.
Fixpoint nlive (es : list entry) : nat :=
  match es with [] => 0 | e :: es => (if live e then 1 else 0) + nlive es end.

Lemma nused_insert es i e e' :
  es !! i = Some e ->
  nused (<[i:=e']> es) + (if nonempty e then 1 else 0) = nused es + (if nonempty e' then 1 else 0).
Proof.
  revert i; induction es as [|x es IH]; intros [|i]; simpl; try discriminate.
  - intros [= ->]. lia.
  - intros H. specialize (IH _ H). change (list_insert i e' es) with (<[i:=e']> es). lia.
Qed.

Lemma nlive_le_nused es : nlive es <= nused es.
Proof.
  induction es as [|x es IH]; simpl; [lia|].
  unfold live, nonempty. destruct (e_key x); destruct (e_val x); lia.
Qed.

Lemma nused_full es : (forall i e, es !! i = Some e -> nonempty e = true) -> nused es = length es.
Proof.
  induction es as [|x es IH]; simpl; intros H; [done|].
  rewrite (H 0 x eq_refl), IH; [done|]. intros i e He. exact (H (S i) e He).
Qed.

Lemma nused_replicate n : nused (replicate n empty_entry) = 0.
Proof. induction n; simpl; [done|]. exact IHn. Qed.

Section WithHash.
Context (hash : N -> N).

Definition path (cap : nat) (k : N) (d : nat) : nat := (start_index hash cap k + d) mod cap.

Lemma path_lt cap k d : 0 < cap -> path cap k d < cap.
Proof. intros. apply Nat.mod_upper_bound. lia. Qed.

Lemma path_S cap k d : 0 < cap -> (path cap k d + 1) mod cap = path cap k (S d).
Proof.
  intros. unfold path. rewrite Nat.add_mod_idemp_l by lia. f_equal. lia.
Qed.

Lemma start_index_lt cap k : 0 < cap -> start_index hash cap k < cap.
Proof.
  intros. unfold start_index.
  pose proof (N.mod_upper_bound (hash k) (N.of_nat cap)). lia.
Qed.

Lemma path_0 cap k : 0 < cap -> path cap k 0 = start_index hash cap k.
Proof.
  intros. unfold path. rewrite Nat.add_0_r. apply Nat.mod_small, start_index_lt; done.
Qed.

(* Every slot is on the probe path of every key. *)
Lemma path_onto cap k i : i < cap -> exists d, d < cap /\ path cap k d = i.
Proof.
  intros Hi. assert (Hs : start_index hash cap k < cap) by (apply start_index_lt; lia).
  unfold path. set (s := start_index hash cap k) in *.
  destruct (decide (s <= i)).
  - exists (i - s). split; [lia|]. rewrite Nat.mod_small; lia.
  - exists (i + cap - s). split; [lia|].
    replace (s + (i + cap - s)) with (i + 1 * cap) by lia.
    rewrite Nat.mod_add by lia. apply Nat.mod_small. lia.
Qed.

Record ainv (es : list entry) (cap : nat) (m : gmap N cval) : Prop := {
  ai_len : length es = cap;
  ai_uniq : forall i j k v w, es !! i = Some (Entry (Some k) v) ->
            es !! j = Some (Entry (Some k) w) -> i = j;
  ai_in : forall i k v, es !! i = Some (Entry (Some k) v) -> m !! k = Some v;
  ai_out : forall k v, m !! k = Some v -> exists i, es !! i = Some (Entry (Some k) v);
  ai_reach : forall i k v, es !! i = Some (Entry (Some k) v) ->
     exists d, d < cap /\ path cap k d = i /\
       forall d', d' < d -> exists e, es !! path cap k d' = Some e /\ nonempty e = true }.

(* What find_entry returns: the first [d] where the key or an empty slot is. *)
Definition not_here (key : N) (e : entry) : Prop :=
  nonempty e = true /\ e_key e <> Some key.

Definition found (es : list entry) (cap : nat) (key : N) (r : nat) : Prop :=
  exists d, d < cap /\
    (forall d', d' < d -> exists e, es !! path cap key d' = Some e /\ not_here key e) /\
    ((exists v, es !! path cap key d = Some (Entry (Some key) v) /\ r = path cap key d) \/
     (es !! path cap key d = Some empty_entry /\
      exists d0 e0, d0 <= d /\ r = path cap key d0 /\ es !! r = Some e0 /\ e_key e0 = None)).

Lemma find_loop_ok es cap key (Hlen : length es = cap) : forall n d tomb,
  n + d = cap ->
  (forall d', d' < d -> exists e, es !! path cap key d' = Some e /\ not_here key e) ->
  (match tomb with None => True | Some t =>
     exists d0 e0, d0 < d /\ t = path cap key d0 /\ es !! t = Some e0 /\ e_key e0 = None end) ->
  (exists d', d <= d' < cap /\ es !! path cap key d' = Some empty_entry) ->
  exists r, find_loop n es cap key (path cap key d) tomb = Some r /\ found es cap key r.
Proof.
  induction n as [|n IH]; intros d tomb Hn Hbefore Htomb [de [Hde Hempty]]; [lia|].
  assert (0 < cap) by lia.
  simpl.
  destruct (lookup_lt_is_Some_2 es (path cap key d)) as [e He].
  { rewrite Hlen. apply path_lt; lia. }
  rewrite He. simpl.
  destruct e as [[k|] v]; simpl.
  - destruct (decide (k = key)) as [->|Hk].
    + eexists; split; [reflexivity|]. exists d. split; [lia|]. split; [done|].
      left. eauto.
    + rewrite path_S by lia. apply IH; [lia| | |].
      * intros d' Hd'. destruct (decide (d' = d)) as [->|]; [|apply Hbefore; lia].
        eexists; split; [exact He|]. split; [done|]. simpl. congruence.
      * destruct tomb; [|done]. destruct Htomb as (d0 & e0 & ? & ? & ? & ?).
        exists d0, e0. split; [lia|done].
      * exists de. split; [|done]. split; [|lia].
        destruct (decide (de = d)) as [->|]; [|lia].
        rewrite He in Hempty. discriminate.
  - destruct v as [|p|].
    + eexists; split; [reflexivity|]. exists d. split; [lia|]. split; [done|].
      right. split; [done|].
      destruct tomb as [t|]; simpl.
      * destruct Htomb as (d0 & e0 & ? & ? & ? & ?). exists d0, e0. split; [lia|done].
      * exists d, empty_entry. done.
    + rewrite path_S by lia. apply IH; [lia| | |].
      * intros d' Hd'. destruct (decide (d' = d)) as [->|]; [|apply Hbefore; lia].
        eexists; split; [exact He|]. split; done.
      * destruct tomb; [destruct Htomb as (d0 & e0 & ? & ? & ? & ?); exists d0, e0; split; [lia|done]|].
        eexists d, _. split; [lia|]. split; [done|]. split; [exact He|done].
      * exists de. split; [|done]. split; [|lia].
        destruct (decide (de = d)) as [->|]; [|lia].
        rewrite He in Hempty. discriminate.
    + rewrite path_S by lia. apply IH; [lia| | |].
      * intros d' Hd'. destruct (decide (d' = d)) as [->|]; [|apply Hbefore; lia].
        eexists; split; [exact He|]. split; done.
      * destruct tomb; [destruct Htomb as (d0 & e0 & ? & ? & ? & ?); exists d0, e0; split; [lia|done]|].
        eexists d, _. split; [lia|]. split; [done|]. split; [exact He|done].
      * exists de. split; [|done]. split; [|lia].
        destruct (decide (de = d)) as [->|]; [|lia].
        rewrite He in Hempty. discriminate.
Qed.

Lemma nonempty_false e : nonempty e = false -> e = empty_entry.
Proof. destruct e as [[k|] [| |]]; simpl; try discriminate. done. Qed.

Lemma has_empty es key cap : length es = cap -> nused es < cap ->
  exists d, d < cap /\ es !! path cap key d = Some empty_entry.
Proof.
  intros Hlen Hu.
  assert (exists i, i < cap /\ es !! i = Some empty_entry) as (i & Hi & He).
  { clear key. revert cap Hlen Hu. induction es as [|x es IH]; simpl; intros cap Hlen Hu; [lia|].
    destruct (nonempty x) eqn:Hx.
    - destruct (IH (length es)) as (i & Hi & He); [done|lia|].
      exists (S i). split; [lia|done].
    - apply nonempty_false in Hx as ->. exists 0. split; [lia|done]. }
  destruct (path_onto cap key i Hi) as (d & Hd & <-). eauto.
Qed.

Lemma find_entry_ok es cap key : length es = cap -> nused es < cap ->
  exists r, find_entry hash es cap key = Some r /\ found es cap key r.
Proof.
  intros Hlen Hu. unfold find_entry.
  rewrite <- path_0 by lia.
  apply find_loop_ok; [done|lia|intros; lia|done|].
  destruct (has_empty es key cap Hlen Hu) as (d & Hd & He). exists d. split; [lia|done].
Qed.

(* The entry found holds the key iff the map has it. *)
Lemma found_entry es cap m key r : ainv es cap m -> found es cap key r ->
  exists e, es !! r = Some e /\
    match m !! key with
    | Some v => e = Entry (Some key) v
    | None => e_key e = None
    end.
Proof.
  intros Hi (d & Hd & Hbefore & [(v & He & ->) | (He & d0 & e0 & Hd0 & -> & He0 & Hk0)]).
  - eexists; split; [exact He|]. rewrite (ai_in _ _ _ Hi _ _ _ He). done.
  - eexists; split; [exact He0|].
    destruct (m !! key) as [v|] eqn:Hm; [|done].
    destruct (ai_out _ _ _ Hi _ _ Hm) as (i & Hk).
    destruct (ai_reach _ _ _ Hi _ _ _ Hk) as (dk & Hdk & <- & Hr).
    exfalso. destruct (decide (dk < d)) as [Hlt|Hge].
    + destruct (Hbefore dk Hlt) as (e & He' & _ & Hne). rewrite Hk in He'. injection He' as <-.
      apply Hne. done.
    + destruct (decide (dk = d)) as [->|].
      * rewrite Hk in He. discriminate.
      * destruct (Hr d) as (e & He' & Hne); [lia|]. rewrite He in He'. injection He' as <-.
        discriminate.
Qed.

(* Storing at the found entry. *)
Lemma ainv_put es cap m key v r : ainv es cap m -> found es cap key r ->
  ainv (<[r := Entry (Some key) v]> es) cap (<[key := v]> m).
Proof.
  intros Hi Hf. destruct (found_entry _ _ _ _ _ Hi Hf) as (e & Her & Hem).
  assert (Hrl : r < length es) by (eapply lookup_lt_Some; done).
  (* the key occurs nowhere else *)
  assert (Helse : forall j w, es !! j = Some (Entry (Some key) w) -> j = r).
  { intros j w Hj. rewrite (ai_in _ _ _ Hi _ _ _ Hj) in Hem. subst e.
    eapply (ai_uniq _ _ _ Hi); done. }
  assert (Hother : forall k w, k <> key -> es !! r <> Some (Entry (Some k) w)).
  { intros k w Hk He. rewrite Her in He. injection He as ->.
    destruct (m !! key); simplify_eq/=. }
  assert (Hne : forall i0 e0, es !! i0 = Some e0 -> nonempty e0 = true ->
     exists e1, <[r := Entry (Some key) v]> es !! i0 = Some e1 /\ nonempty e1 = true).
  { intros i0 e0 H0 H1. destruct (decide (i0 = r)) as [->|].
    - rewrite list_lookup_insert by done. eauto.
    - rewrite list_lookup_insert_ne by done. eauto. }
  assert (Hcases : forall i k w, <[r := Entry (Some key) v]> es !! i = Some (Entry (Some k) w) ->
     (i = r /\ k = key /\ w = v) \/ (i <> r /\ k <> key /\ es !! i = Some (Entry (Some k) w))).
  { intros i k w Hik. destruct (decide (i = r)) as [->|Hir].
    - rewrite list_lookup_insert in Hik by done. left. split; [done|]. split; congruence.
    - rewrite list_lookup_insert_ne in Hik by done. right. split; [done|]. split; [|done].
      intros ->. apply Hir. eapply Helse; done. }
  split.
  - rewrite insert_length. apply Hi.
  - intros i j k w1 w2 H1 H2.
    destruct (Hcases _ _ _ H1) as [(?&?&?)|(?&?&H1')];
    destruct (Hcases _ _ _ H2) as [(?&?&?)|(?&?&H2')]; simplify_eq/=; try done.
    eapply (ai_uniq _ _ _ Hi); done.
  - intros i k w H1. destruct (Hcases _ _ _ H1) as [(->&->&->)|(?&?&H1')].
    + apply lookup_insert.
    + rewrite lookup_insert_ne by done. eapply (ai_in _ _ _ Hi); done.
  - intros k w Hk. destruct (decide (k = key)) as [->|Hk'].
    + rewrite lookup_insert in Hk. injection Hk as ->. exists r. apply list_lookup_insert. done.
    + rewrite lookup_insert_ne in Hk by done.
      destruct (ai_out _ _ _ Hi _ _ Hk) as (i & H1). exists i.
      rewrite list_lookup_insert_ne; [done|]. intros <-. eapply Hother; done.
  - intros i k w H1. destruct (Hcases _ _ _ H1) as [(->&->&->)|(?&?&H1')].
    + destruct Hf as (d & Hd & Hbefore & Hf).
      assert (exists d0, d0 <= d /\ r = path cap key d0) as (d0 & Hd0 & ->).
      { destruct Hf as [(? & _ & ->)|(_ & d0 & ? & ? & -> & _)]; eauto. }
      exists d0. split; [lia|]. split; [done|]. intros d' Hd'.
      destruct (Hbefore d') as (e1 & He1 & Hn1 & _); [lia|]. eapply Hne; done.
    + destruct (ai_reach _ _ _ Hi _ _ _ H1') as (d & Hd & <- & Hr).
      exists d. split; [done|]. split; [done|]. intros d' Hd'.
      destruct (Hr d' Hd') as (e1 & He1 & Hn1). eapply Hne; done.
Qed.

Lemma ainv_delete es cap m key v r : ainv es cap m -> es !! r = Some (Entry (Some key) v) ->
  ainv (<[r := Entry None VEntry]> es) cap (delete key m).
Proof.
  intros Hi Hr.
  assert (Hrl : r < length es) by (eapply lookup_lt_Some; done).
  assert (Hcases : forall i k w, <[r := Entry None VEntry]> es !! i = Some (Entry (Some k) w) ->
     i <> r /\ k <> key /\ es !! i = Some (Entry (Some k) w)).
  { intros i k w Hik. destruct (decide (i = r)) as [->|Hir].
    - rewrite list_lookup_insert in Hik by done. discriminate.
    - rewrite list_lookup_insert_ne in Hik by done. split; [done|]. split; [|done].
      intros ->. apply Hir. eapply (ai_uniq _ _ _ Hi); done. }
  split.
  - rewrite insert_length. apply Hi.
  - intros i j k w1 w2 H1 H2. destruct (Hcases _ _ _ H1) as (_&_&H1').
    destruct (Hcases _ _ _ H2) as (_&_&H2'). eapply (ai_uniq _ _ _ Hi); done.
  - intros i k w H1. destruct (Hcases _ _ _ H1) as (_&Hk&H1').
    rewrite lookup_delete_ne by done. eapply (ai_in _ _ _ Hi); done.
  - intros k w Hk. destruct (decide (k = key)) as [->|Hk'].
    + rewrite lookup_delete in Hk. discriminate.
    + rewrite lookup_delete_ne in Hk by done.
      destruct (ai_out _ _ _ Hi _ _ Hk) as (i & H1). exists i.
      rewrite list_lookup_insert_ne; [done|]. intros <-. rewrite H1 in Hr. congruence.
  - intros i k w H1. destruct (Hcases _ _ _ H1) as (_&Hk&H1').
    destruct (ai_reach _ _ _ Hi _ _ _ H1') as (d & Hd & <- & Hrr).
    exists d. split; [done|]. split; [done|]. intros d' Hd'.
    destruct (Hrr d' Hd') as (e1 & He1 & Hn1).
    destruct (decide (path cap k d' = r)) as [->|].
    + rewrite list_lookup_insert by done. eauto.
    + rewrite list_lookup_insert_ne by done. eauto.
Qed.

Lemma ainv_empty cap : ainv (replicate cap empty_entry) cap ∅.
Proof.
  split.
  - apply replicate_length.
  - intros i j k v w H. apply lookup_replicate in H as [H _]. discriminate.
  - intros i k v H. apply lookup_replicate in H as [H _]. discriminate.
  - intros k v H. rewrite lookup_empty in H. discriminate.
  - intros i k v H. apply lookup_replicate in H as [H _]. discriminate.
Qed.

(* Rehashing. *)
Lemma rehash_ok cap : forall old new m n,
  ainv new cap m -> size m = n -> nused new <= n -> n + nlive old < cap ->
  (forall i j k v w, old !! i = Some (Entry (Some k) v) -> old !! j = Some (Entry (Some k) w) -> i = j) ->
  (forall i k v, old !! i = Some (Entry (Some k) v) -> m !! k = None) ->
  exists es m', rehash_loop hash old new cap n = Some (es, n + nlive old) /\
    ainv es cap m' /\ size m' = n + nlive old /\ nused es <= n + nlive old /\
    (forall k v, m' !! k = Some v <-> m !! k = Some v \/ exists i, old !! i = Some (Entry (Some k) v)).
Proof.
  induction old as [|e old IH]; intros new m n Hi Hsz Hu Hn Huniq Hfresh.
  - exists new, m. simpl in *. rewrite Nat.add_0_r in *.
    split; [done|]. split; [done|]. split; [done|]. split; [done|].
    intros k v. split; [by left|]. intros [?|[i H]]; [done|]. rewrite lookup_nil in H. done.
  - assert (Huniq' : forall i j k v w, old !! i = Some (Entry (Some k) v) ->
        old !! j = Some (Entry (Some k) w) -> i = j).
    { intros i j k v w H1 H2. assert (S i = S j) by (eapply (Huniq (S i) (S j)); done). lia. }
    assert (Hfresh' : forall i k v, old !! i = Some (Entry (Some k) v) -> m !! k = None).
    { intros i k v H. exact (Hfresh (S i) k v H). }
    destruct e as [[key|] v]; cbn [rehash_loop e_key e_val nlive live] in *.
    + destruct (find_entry_ok new cap key) as (r & Hfe & Hf);
        [apply Hi | lia |].
      rewrite Hfe. cbn [mbind option_bind].
      destruct (found_entry _ _ _ _ _ Hi Hf) as (e0 & He0 & Hem).
      assert (Hmk : m !! key = None) by exact (Hfresh 0 key v eq_refl).
      rewrite Hmk in Hem.
      pose proof (nused_insert _ _ _ (Entry (Some key) v) He0) as Hcnt.
      cbn in Hcnt.
      destruct (IH (<[r:=Entry (Some key) v]> new) (<[key:=v]> m) (S n))
        as (es & m' & H1 & H2 & H3 & H4 & H5).
      * apply ainv_put; done.
      * rewrite map_size_insert_None by done. lia.
      * destruct (nonempty e0); lia.
      * lia.
      * done.
      * intros i k w Hk. rewrite lookup_insert_ne; [eapply Hfresh'; done|].
        intros <-. assert (S i = 0) by (eapply (Huniq (S i) 0 key w v); done). lia.
      * exists es, m'. replace (n + (1 + nlive old)) with (S n + nlive old) by lia.
        split; [done|]. split; [done|]. split; [lia|]. split; [lia|].
        intros k w. rewrite H5. split.
        -- intros [Hk|[i Hk]].
           ++ destruct (decide (k = key)) as [->|Hne].
              ** rewrite lookup_insert in Hk. injection Hk as ->. right. exists 0. done.
              ** rewrite lookup_insert_ne in Hk by done. by left.
           ++ right. exists (S i). done.
        -- intros [Hk|[[|i] Hk]].
           ++ left. rewrite lookup_insert_ne; [done|]. intros <-. congruence.
           ++ simpl in Hk. injection Hk as -> ->. left. apply lookup_insert.
           ++ right. exists i. done.
    + destruct (IH new m n) as (es & m' & H1 & H2 & H3 & H4 & H5); try done.
      exists es, m'. split; [done|]. split; [done|]. split; [lia|]. split; [lia|].
      intros k w. rewrite H5. split.
      * intros [Hk|[i Hk]]; [by left|]. right. exists (S i). done.
      * intros [Hk|[[|i] Hk]]; [by left|simpl in Hk; discriminate|]. right. exists i. done.
Qed.

Record tinv (t : table) (m : gmap N cval) : Prop := {
  ti_a : ainv (entries t) (capacity t) m;
  ti_cap : capacity t = 0 \/ 15 <= capacity t;
  ti_used : nused (entries t) <= used t;
  ti_half : used t <= capacity t / 2;
  ti_count : count t = size m }.

Lemma tinv_init : tinv table_init ∅.
Proof.
  split; simpl; try lia.
  - exact (ainv_empty 0).
  - done.
Qed.

Lemma half_lt n : 0 < n -> n / 2 < n.
Proof. intros. apply Nat.div_lt; lia. Qed.

Lemma tinv_nonzero t m : tinv t m -> count t <> 0 -> nused (entries t) < capacity t.
Proof.
  intros [Ha Hc Hu Hh Hn] H0.
  destruct Hc as [Hc|Hc].
  - exfalso. apply H0. rewrite Hn. apply map_size_empty_iff.
    apply map_eq. intros k. rewrite lookup_empty.
    destruct (m !! k) as [v|] eqn:E; [|done].
    destruct (ai_out _ _ _ Ha _ _ E) as (i & Hi). apply lookup_lt_Some in Hi.
    rewrite (ai_len _ _ _ Ha) in Hi. lia.
  - pose proof (half_lt (capacity t)). lia.
Qed.

Lemma count0 t m : tinv t m -> count t = 0 -> m = ∅.
Proof. intros Hi H0. apply map_size_empty_iff. rewrite <- (ti_count _ _ Hi). done. Qed.

Lemma table_try_get_ok t m k : tinv t m -> table_try_get hash t k = Some (m !! k).
Proof.
  intros Hi. unfold table_try_get. destruct (decide (count t = 0)) as [H0|H0].
  - rewrite (count0 _ _ Hi H0), lookup_empty. done.
  - destruct (find_entry_ok (entries t) (capacity t) k) as (r & Hr & Hf).
    { apply Hi. } { eapply tinv_nonzero; done. }
    rewrite Hr. simpl. destruct (found_entry _ _ _ _ _ (ti_a _ _ Hi) Hf) as (e & He & Hm).
    rewrite He. simpl. destruct (m !! k) as [v|]; [subst e; done|]. rewrite Hm. done.
Qed.

Lemma table_get_ok t m k : tinv t m -> table_get hash t k = Some (default VNull (m !! k)).
Proof.
  intros Hi. unfold table_get. destruct (decide (count t = 0)) as [H0|H0].
  - rewrite (count0 _ _ Hi H0), lookup_empty. done.
  - destruct (find_entry_ok (entries t) (capacity t) k) as (r & Hr & Hf).
    { apply Hi. } { eapply tinv_nonzero; done. }
    rewrite Hr. simpl. destruct (found_entry _ _ _ _ _ (ti_a _ _ Hi) Hf) as (e & He & Hm).
    rewrite He. simpl. destruct (m !! k) as [v|]; [subst e; done|]. rewrite Hm. done.
Qed.

Lemma table_delete_ok t m k : tinv t m ->
  exists t', table_delete hash t k =
    Some (t', match m !! k with None => false | Some _ => true end) /\ tinv t' (delete k m).
Proof.
  intros Hi. unfold table_delete. destruct (decide (count t = 0)) as [H0|H0].
  - pose proof (count0 _ _ Hi H0) as ->. rewrite lookup_empty, delete_empty. eauto.
  - destruct (find_entry_ok (entries t) (capacity t) k) as (r & Hr & Hf).
    { apply Hi. } { eapply tinv_nonzero; done. }
    rewrite Hr. simpl. destruct (found_entry _ _ _ _ _ (ti_a _ _ Hi) Hf) as (e & He & Hm).
    rewrite He. simpl. destruct (m !! k) as [v|] eqn:Hk.
    + subst e. simpl. eexists; split; [reflexivity|].
      pose proof (nused_insert _ _ _ (Entry None VEntry) He) as Hcnt. cbn in Hcnt.
      destruct Hi as [Ha Hc Hu Hh Hn]. split; simpl.
      * eapply ainv_delete; done.
      * done.
      * lia.
      * done.
      * rewrite map_size_delete, Hk. simpl. lia.
    + rewrite Hm. eexists; split; [reflexivity|]. rewrite delete_notin by done. done.
Qed.

Lemma grow_ok t m : tinv t m -> capacity t / 2 <= used t ->
  exists t', adjust_capacity hash t (Nat.max 15 (capacity t * 2 - 1)) = Some t' /\
    tinv t' m /\ used t' < capacity t' / 2.
Proof.
  intros [Ha Hc Hu Hh Hn] Hg. unfold adjust_capacity.
  set (nc := Nat.max 15 (capacity t * 2 - 1)).
  assert (Hnl := nlive_le_nused (entries t)).
  assert (Hlt : nlive (entries t) < nc / 2).
  { unfold nc. destruct Hc as [Hc|Hc].
    - rewrite Hc in *. change (0 / 2) with 0 in Hh. simpl. change (15 / 2) with 7. lia.
    - rewrite Nat.max_r by lia.
      assert ((capacity t * 2 - 1) / 2 = capacity t - 1) as ->.
      { symmetry. apply (Nat.div_unique _ _ _ 1); lia. }
      assert (capacity t / 2 < capacity t - 1).
      { apply Nat.div_lt_upper_bound; lia. }
      lia. }
  assert (15 <= nc) by (unfold nc; lia).
  assert (nc / 2 < nc) by (apply half_lt; lia).
  destruct (rehash_ok nc (entries t) (replicate nc empty_entry) ∅ 0)
    as (es & m' & H1 & H2 & H3 & H4 & H5).
  - apply ainv_empty.
  - apply map_size_empty.
  - rewrite nused_replicate. lia.
  - lia.
  - intros. eapply (ai_uniq _ _ _ Ha); done.
  - intros. apply lookup_empty.
  - rewrite H1. simpl. eexists; split; [reflexivity|].
    assert (m' = m) as ->.
    { apply map_eq. intros k. destruct (m !! k) as [v|] eqn:Hk.
      - apply H5. right. apply (ai_out _ _ _ Ha). done.
      - destruct (m' !! k) as [v|] eqn:Hk'; [|done].
        apply H5 in Hk' as [Hk'|[i Hi]]; [rewrite lookup_empty in Hk'; done|].
        rewrite (ai_in _ _ _ Ha _ _ _ Hi) in Hk. done. }
    clearbody nc. split; [split; cbn [capacity used entries count]; [done|by right|lia|lia|lia]|]. exact Hlt.
Qed.

Lemma table_put_ok t m k v : tinv t m ->
  exists t', table_put hash t k v =
    Some (t', match m !! k with None => true | Some _ => false end) /\ tinv t' (<[k := v]> m).
Proof.
  intros Hi. unfold table_put.
  assert (exists t1, (if decide (capacity t / 2 <= used t)
       then adjust_capacity hash t (Nat.max 15 (capacity t * 2 - 1)) else Some t) = Some t1 /\
       tinv t1 m /\ used t1 < capacity t1 / 2) as (t1 & -> & Hi1 & Hlt).
  { destruct (decide (capacity t / 2 <= used t)) as [Hg|Hg].
    - apply grow_ok; done.
    - exists t. split; [done|]. split; [done|lia]. }
  clear Hi t. cbn [mbind option_bind].
  assert (0 < capacity t1) as Hpos.
  { destruct (capacity t1); [simpl in Hlt; lia|lia]. }
  pose proof (half_lt _ Hpos) as Hhalf.
  destruct (find_entry_ok (entries t1) (capacity t1) k) as (r & Hr & Hf).
  { apply Hi1. } { destruct Hi1. lia. }
  rewrite Hr. cbn [mbind option_bind].
  destruct (found_entry _ _ _ _ _ (ti_a _ _ Hi1) Hf) as (e & He & Hm).
  rewrite He. cbn [mbind option_bind].
  pose proof (ainv_put _ _ _ _ v _ (ti_a _ _ Hi1) Hf) as Hput.
  pose proof (nused_insert _ _ _ (Entry (Some k) v) He) as Hcnt. cbn in Hcnt.
  destruct Hi1 as [Ha Hc Hu Hh Hn].
  destruct (m !! k) as [w|] eqn:Hk.
  - subst e. eexists; split; [reflexivity|]. cbn in *. split; simpl; try done; try lia.
    rewrite map_size_insert, Hk. simpl. lia.
  - destruct e as [ek ev]. simpl in Hm. subst ek. simpl. eexists; split; [reflexivity|].
    cbn in *. split; simpl; try done.
    + destruct ev; lia.
    + destruct ev; lia.
    + rewrite map_size_insert_None by done. lia.
Qed.

Lemma step_ok t m o : tinv t m ->
  exists t', step hash t o = Some (t', snd (sstep m o)) /\ tinv t' (fst (sstep m o)).
Proof.
  intros Hi. destruct o as [k v|k|k|k]; simpl.
  - destruct (table_put_ok t m k v Hi) as (t' & -> & Hi'). simpl. eauto.
  - destruct (table_delete_ok t m k Hi) as (t' & -> & Hi'). simpl. eauto.
  - rewrite (table_get_ok t m k Hi). simpl. eauto.
  - rewrite (table_try_get_ok t m k Hi). simpl. eauto.
Qed.

Lemma run_ok ops : forall t m, tinv t m ->
  exists t', run hash t ops = Some (t', snd (srun m ops)) /\ tinv t' (fst (srun m ops)).
Proof.
  induction ops as [|o ops IH]; intros t m Hi; simpl; [eauto|].
  destruct (step_ok t m o Hi) as (t1 & -> & Hi1).
  destruct (sstep m o) as [m1 r1]. simpl in *.
  destruct (IH t1 m1 Hi1) as (t2 & -> & Hi2).
  destruct (srun m1 ops) as [m2 rs]. simpl in *. eauto.
Qed.

End WithHash.

(* Iteration. *)
Definition live_pairs (es : list entry) : list (N * cval) :=
  omap (fun e => match e_key e with Some k => Some (k, e_val e) | None => None end) es.

Lemma iterate_from_drop es : forall fuel it, it + fuel = length es ->
  match iterate_from es it fuel with
  | None => live_pairs (drop it es) = []
  | Some (it', k, v) => it < it' <= length es /\
      live_pairs (drop it es) = (k, v) :: live_pairs (drop it' es)
  end.
Proof.
  induction fuel as [|fuel IH]; intros it Hl; simpl.
  - rewrite drop_ge by lia. done.
  - destruct (lookup_lt_is_Some_2 es it) as [e He]; [lia|].
    rewrite He. specialize (IH (S it)).
    rewrite (drop_S es e it He).
    destruct e as [[k|] v]; simpl.
    + split; [lia|]. done.
    + assert (Hs : S it + fuel = length es) by lia. specialize (IH Hs).
      destruct (iterate_from es (S it) fuel) as [[[it' k'] v']|].
      * destruct IH as [? ?]. split; [lia|]. done.
      * done.
Qed.

Lemma iterate_all_ok t : length (entries t) = capacity t ->
  forall fuel it, it <= capacity t -> capacity t - it < fuel ->
  iterate_all t it fuel = Some (live_pairs (drop it (entries t))).
Proof.
  intros Hlen. induction fuel as [|fuel IH]; intros it Hle Hf; [lia|].
  simpl. unfold table_iterate.
  pose proof (iterate_from_drop (entries t) (capacity t - it) it) as H.
  destruct (iterate_from (entries t) it (capacity t - it)) as [[[it' k] v]|].
  - destruct H as [H1 H2]; [lia|]. rewrite IH by lia. simpl. rewrite H2. done.
  - rewrite H by lia. done.
Qed.

Lemma live_pairs_perm hash es cap m : ainv hash es cap m ->
  NoDup (live_pairs es).*1 /\ live_pairs es ≡ₚ map_to_list m.
Proof.
  intros Hi.
  assert (Hin : forall k v, (k, v) ∈ live_pairs es <-> exists i, es !! i = Some (Entry (Some k) v)).
  { intros k v. unfold live_pairs. rewrite elem_of_list_omap. split.
    - intros ([ek ev] & He & Hx). simpl in Hx. destruct ek; simplify_eq.
      apply elem_of_list_lookup in He. done.
    - intros [i Hi']. eexists. split; [eapply elem_of_list_lookup_2; done|]. done. }
  assert (Hnd : NoDup (live_pairs es).*1).
  { pose proof (ai_uniq _ _ _ _ Hi) as Huniq. clear Hi Hin. unfold live_pairs.
    induction es as [|[ek ev] es IH]; simpl; [constructor|].
    assert (IH' : NoDup (live_pairs es).*1).
    { apply IH. intros i j k v w H1 H2.
      assert (S i = S j) by (eapply (Huniq (S i) (S j)); done). lia. }
    destruct ek as [k|]; [|exact IH']. cbn. constructor; [|exact IH'].
    intros Hk. apply elem_of_list_fmap in Hk as ([k' w] & Hkk & Hw). simpl in Hkk. subst k'.
    unfold live_pairs in Hw. apply elem_of_list_omap in Hw as ([ek2 ev2] & He2 & Hx).
    simpl in Hx. destruct ek2 as [k2|]; simplify_eq/=.
    apply elem_of_list_lookup in He2 as [i Hi].
    assert (0 = S i) by (eapply (Huniq 0 (S i) k); [done|exact Hi]). lia. }
  split; [done|].
  apply NoDup_Permutation.
  - apply (NoDup_fmap_1 fst). done.
  - apply NoDup_map_to_list.
  - intros [k v]. rewrite Hin, elem_of_map_to_list. split.
    + intros [i H]. eapply (ai_in _ _ _ _ Hi); done.
    + intros H. eapply (ai_out _ _ _ _ Hi); done.
Qed.

(* Main lemmas. *)
Lemma table_refines_map hash ops :
  exists t, run hash table_init ops = Some (t, snd (srun ∅ ops)).
Proof.
  destruct (run_ok hash ops table_init ∅ (tinv_init hash)) as (t & H & _). eauto.
Qed.

Lemma table_iteration_exact hash ops t rs :
  run hash table_init ops = Some (t, rs) ->
  exists l, iterate_all t 0 (S (capacity t)) = Some l /\
    NoDup l.*1 /\ l ≡ₚ map_to_list (fst (srun ∅ ops)).
Proof.
  intros H. destruct (run_ok hash ops table_init ∅ (tinv_init hash)) as (t' & H' & Hi).
  rewrite H in H'. injection H' as -> _.
  eexists. split.
  - apply iterate_all_ok; [apply Hi|lia|lia].
  - rewrite drop_0. eapply live_pairs_perm. apply Hi.
Qed.
