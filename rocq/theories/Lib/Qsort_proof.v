From stdpp Require Import base list numbers.
From Coq Require Import Lia ZArith.
From Verif Require Import Lib.Qsort_model Lib.Qsort_spec.

Section Sort.
Context {A : Type} (cmp : A -> A -> Z) (Hord : ordering cmp).
Notation le x y := (cmp x y <= 0)%Z.

Lemma not_lt_le x y : ~ (cmp x y < 0)%Z -> le y x.
Proof. intros H. destruct (Z_le_gt_dec (cmp y x) 0); [done|]. exfalso. apply H, (ord_sym _ Hord). lia. Qed.
Lemma lt_le x y : (cmp x y < 0)%Z -> le x y.
Proof. lia. Qed.
Lemma le_refl x : le x x.
Proof. apply not_lt_le. intros H. pose proof (proj1 (ord_sym _ Hord x x) H). lia. Qed.
Lemma lt_not_le x y : (cmp x y < 0)%Z -> ~ le y x.
Proof. intros H1 H2. apply (ord_sym _ Hord) in H1. lia. Qed.

Definition all_le (a : list A) (i : nat) (v : A) := forall k y, k < i -> a !! k = Some y -> le y v.
Definition all_ge (a : list A) (j : nat) (v : A) := forall k y, j < k -> a !! k = Some y -> le v y.

Lemma scan_up_ok a px v k y : a !! px = Some v -> a !! k = Some y -> le v y ->
  forall fuel i, i <= k -> k - i < fuel -> all_le a i v ->
  exists i', scan_up cmp fuel a px i = Some i' /\ i <= i' <= k /\ all_le a i' v /\
    (forall m z, i <= m < i' -> a !! m = Some z -> (cmp z v < 0)%Z) /\
    (exists z, a !! i' = Some z /\ le v z).
Proof.
  intros Hpx Hk Hle. induction fuel as [|fuel IH]; intros i Hi Hf Hall; [lia|].
  cbn [scan_up]. assert (Hlen : i < length a) by (apply lookup_lt_Some in Hk; lia).
  apply lookup_lt_is_Some in Hlen as [z Hz]. rewrite Hz, Hpx. cbn [mbind option_bind].
  destruct (decide _) as [Hlt|Hge].
  - assert (i <> k).
    { intros ->. rewrite Hk in Hz. injection Hz as ->. eapply lt_not_le; done. }
    destruct (IH (S i)) as (i' & H1 & H2 & H3 & H4 & H5); [lia|lia| |].
    { intros m w Hm Hw. destruct (decide (m = i)) as [->|].
      - rewrite Hz in Hw. injection Hw as <-. lia.
      - eapply Hall; [|done]. lia. }
    exists i'. split; [done|]. split; [lia|]. split; [done|]. split; [|done].
    intros m w Hm Hw. destruct (decide (m = i)) as [->|]; [congruence|]. eapply H4; [|done]. lia.
  - exists i. split; [done|]. split; [lia|]. split; [done|]. split; [intros; lia|].
    exists z. split; [done|]. apply not_lt_le. done.
Qed.

Lemma scan_down_ok a px v k y : a !! px = Some v -> a !! k = Some y -> le y v ->
  forall fuel j, k <= j < length a -> j - k < fuel -> all_ge a j v ->
  exists j', scan_down cmp fuel a px j = Some j' /\ k <= j' <= j /\ all_ge a j' v /\
    (forall m z, j' < m <= j -> a !! m = Some z -> (cmp v z < 0)%Z) /\
    (exists z, a !! j' = Some z /\ le z v).
Proof.
  intros Hpx Hk Hle. induction fuel as [|fuel IH]; intros j Hj Hf Hall; [lia|].
  cbn [scan_down]. assert (is_Some (a !! j)) as [z Hz] by (apply lookup_lt_is_Some; lia).
  rewrite Hpx, Hz. cbn [mbind option_bind].
  destruct (decide _) as [Hlt|Hge].
  - assert (j <> k).
    { intros ->. rewrite Hk in Hz. injection Hz as ->. eapply lt_not_le; done. }
    destruct j as [|j]; [lia|].
    destruct (IH j) as (j' & H1 & H2 & H3 & H4 & H5); [lia|lia| |].
    { intros m w Hm Hw. destruct (decide (m = S j)) as [->|].
      - rewrite Hz in Hw. injection Hw as <-. lia.
      - eapply Hall; [|done]. lia. }
    exists j'. split; [done|]. split; [lia|]. split; [done|]. split; [|done].
    intros m w Hm Hw. destruct (decide (m = S j)) as [->|]; [congruence|]. eapply H4; [|done]. lia.
  - exists j. split; [done|]. split; [lia|]. split; [done|]. split; [intros; lia|].
    exists z. split; [done|]. apply not_lt_le. done.
Qed.

Lemma swap_perm (a : list A) i j x y : a !! i = Some x -> a !! j = Some y -> i < j ->
  <[j := x]> (<[i := y]> a) ≡ₚ a.
Proof.
  intros Hi Hj Hne.
  rewrite <- (take_drop_middle _ _ _ Hi) in Hj |- *.
  assert (Hti : length (take i a) = i) by (apply take_length_le; apply lookup_lt_Some in Hi; lia).
  rewrite lookup_app_r in Hj by lia. rewrite Hti in Hj.
  replace (j - i) with (S (j - S i)) in Hj by lia. cbn in Hj.
  rewrite (insert_app_r_alt (take i a) _ i) by lia. rewrite Hti.
  replace (i - i) with 0 by lia. change (<[0:=y]> (x :: drop (S i) a)) with (y :: drop (S i) a).
  rewrite (insert_app_r_alt (take i a) _ j) by lia. rewrite Hti.
  replace (j - i) with (S (j - S i)) by lia.
  change (<[S (j - S i):=x]> (y :: drop (S i) a)) with (y :: <[j - S i:=x]> (drop (S i) a)).
  rewrite <- (take_drop_middle _ _ _ Hj) at 2.
  rewrite insert_take_drop by (apply lookup_lt_Some in Hj; lia).
  apply Permutation_app_head.
  rewrite <- !Permutation_middle. apply perm_swap.
Qed.

Lemma part_loop_ok v : forall fuel a px i j,
  a !! px = Some v -> all_le a i v -> all_ge a j v -> j < length a -> i <= S j ->
  (exists k y, i <= k /\ a !! k = Some y /\ le v y) ->
  (exists k y, k <= j /\ a !! k = Some y /\ le y v) ->
  S j - i < fuel ->
  exists a' i' j', part_loop cmp fuel a px i j = Some (a', i', j') /\ a' ≡ₚ a /\
    i' < length a /\ j' <= i' <= S j' /\ all_le a' i' v /\ all_ge a' j' v /\
    (i' = j' -> exists y, a' !! i' = Some y /\ le y v /\ le v y).
Proof.
  induction fuel as [|fuel IH]; intros a px i j Hpx Hi Hj Hlen Hij (ki & yi & Hki1 & Hki2 & Hki3)
    (kj & yj & Hkj1 & Hkj2 & Hkj3) Hf; [lia|].
  cbn [part_loop].
  pose proof (lookup_lt_Some _ _ _ Hki2) as Hkil.
  destruct (scan_up_ok a px v ki yi Hpx Hki2 Hki3 (S (length a)) i) as (i1 & Hu & Hib & Hil & Hi4 & zi & Hzi & Hzi2);
    [lia|lia|done|].
  destruct (scan_down_ok a px v kj yj Hpx Hkj2 Hkj3 (S (length a)) j) as (j1 & Hd & Hjb & Hjl & Hj4 & zj & Hzj & Hzj2);
    [lia|lia|done|].
  rewrite Hu. cbn [mbind option_bind]. rewrite Hd. cbn [mbind option_bind].
  assert (Hi1 : i1 <= S j1).
  { destruct (decide (i1 <= S j1)); [done|]. exfalso.
    (* position S j1 < i1 *)
    assert (Hz : is_Some (a !! (S j1))) by (apply lookup_lt_is_Some; apply lookup_lt_Some in Hzi; lia).
    destruct Hz as [z Hz].
    destruct (decide (S j1 < i)) as [Hlt|Hge].
    - (* j1 < i - 1 *) assert (S j1 <= j) by lia.
      pose proof (Hi (S j1) z Hlt Hz) as L. pose proof (Hj4 (S j1) z ltac:(lia) Hz) as G.
      eapply lt_not_le; done.
    - pose proof (Hi4 (S j1) z ltac:(lia) Hz) as L.
      pose proof (Hjl (S j1) z ltac:(lia) Hz) as G. eapply lt_not_le; done. }
  destruct (decide (j1 <= i1)) as [Hdone|Hcont].
  - exists a, i1, j1. split; [done|]. split; [done|]. split; [apply lookup_lt_Some in Hzi; lia|].
    split; [lia|]. split; [done|]. split; [done|].
    intros ->. exists zi. split; [done|]. rewrite Hzi in Hzj. injection Hzj as <-. done.
  - unfold swap. rewrite Hzi. cbn [mbind option_bind]. rewrite Hzj. cbn [mbind option_bind].
    set (a' := <[j1:=zi]> (<[i1:=zj]> a)).
    destruct j1 as [|j1]; [lia|].
    pose proof (lookup_lt_Some _ _ _ Hzi) as Hzil. pose proof (lookup_lt_Some _ _ _ Hzj) as Hzjl.
    assert (Hlen' : length a' = length a) by (unfold a'; rewrite !insert_length; done).
    assert (Ha'j : a' !! (S j1) = Some zi) by (apply list_lookup_insert; rewrite insert_length; lia).
    assert (Ha'i : a' !! i1 = Some zj).
    { unfold a'. rewrite list_lookup_insert_ne by lia. apply list_lookup_insert. lia. }
    assert (Ha'o : forall m, m <> i1 -> m <> S j1 -> a' !! m = a !! m).
    { intros m H1 H2. unfold a'. rewrite !list_lookup_insert_ne by lia. done. }
    assert (Hp : a' ≡ₚ a) by (apply swap_perm; [done|done|lia]).
    destruct (IH a' (if decide (px = i1) then S j1 else if decide (px = S j1) then i1 else px) (S i1) j1)
      as (a2 & i2 & j2 & H1 & H2 & H3 & H4).
    + destruct (decide (px = i1)) as [->|]; [rewrite Ha'j; congruence|].
      destruct (decide (px = S j1)) as [->|]; [rewrite Ha'i; congruence|]. rewrite Ha'o; done.
    + intros m z Hm Hz. destruct (decide (m = i1)) as [->|]; [congruence|].
      rewrite Ha'o in Hz by lia. eapply Hil; [|done]. lia.
    + intros m z Hm Hz. destruct (decide (m = S j1)) as [->|]; [congruence|].
      rewrite Ha'o in Hz by lia. eapply Hjl; [|done]. lia.
    + lia.
    + lia.
    + exists (S j1), zi. split; [lia|done].
    + exists i1, zj. split; [lia|done].
    + lia.
    + exists a2, i2, j2. split; [done|]. split; [etrans; done|]. rewrite Hlen' in H3. done.
Qed.

Lemma sorted_app l1 l2 v : sorted_by cmp l1 -> sorted_by cmp l2 ->
  Forall (fun y => le y v) l1 -> Forall (fun y => le v y) l2 -> sorted_by cmp (l1 ++ l2).
Proof.
  intros H1 H2 F1 F2 i j x y Hij Hx Hy.
  apply lookup_app_Some in Hx as [Hx|[Hil Hx]], Hy as [Hy|[Hjl Hy]].
  - eapply (H1 i j); done.
  - apply (ord_trans _ Hord _ v).
    + rewrite Forall_lookup in F1. eapply F1; done.
    + rewrite Forall_lookup in F2. eapply F2; done.
  - apply lookup_lt_Some in Hy. lia.
  - eapply (H2 (i - length l1) (j - length l1)); [lia|done|done].
Qed.

Lemma sorted_short l : length l <= 1 -> sorted_by cmp l.
Proof. intros H i j x y Hij Hx Hy. apply lookup_lt_Some in Hx, Hy. lia. Qed.

Lemma Forall_perm (P : A -> Prop) l l' : l ≡ₚ l' -> Forall P l -> Forall P l'.
Proof. intros H. rewrite H. done. Qed.

(* A recursive call, or nothing for fewer than two elements. *)
Lemma sub_ok (b : bool) fuel (l : list A) : (b = false -> length l <= 1) ->
  (forall l0, length l0 < fuel -> exists l', qsort cmp fuel l0 = Some l' /\ l' ≡ₚ l0 /\ sorted_by cmp l') ->
  length l < fuel ->
  exists l', (if b then qsort cmp fuel l else Some l) = Some l' /\ l' ≡ₚ l /\ sorted_by cmp l'.
Proof.
  intros Hb IH Hl. destruct b; [apply IH; done|].
  exists l. split; [done|]. split; [done|]. apply sorted_short; auto.
Qed.

Lemma qsort_ok : forall fuel a, length a < fuel ->
  exists a', qsort cmp fuel a = Some a' /\ a' ≡ₚ a /\ sorted_by cmp a'.
Proof.
  induction fuel as [|fuel IH]; intros a Hf; [lia|]. cbn [qsort].
  destruct (decide (length a <= 1)) as [Hs|Hs].
  { exists a. split; [done|]. split; [done|]. apply sorted_short. done. }
  assert (Hd2 : Nat.div2 (length a) < length a) by (apply Nat.lt_div2; lia).
  assert (is_Some (a !! Nat.div2 (length a))) as [v Hv] by (apply lookup_lt_is_Some; done).
  destruct (part_loop_ok v (S (length a)) a (Nat.div2 (length a)) 0 (length a - 1))
    as (a1 & i & j & H1 & H2 & H3 & H4 & H5 & H6 & H7); [done| | |lia|lia| | |lia|].
  { intros k y Hk. lia. }
  { intros k y Hk Hy. apply lookup_lt_Some in Hy. lia. }
  { exists (Nat.div2 (length a)), v. split; [lia|]. split; [done|apply le_refl]. }
  { exists (Nat.div2 (length a)), v. split; [lia|]. split; [done|apply le_refl]. }
  rewrite H1. cbn [mbind option_bind].
  assert (Hl1 : length a1 = length a) by (apply Permutation_length; done).
  (* left part *)
  destruct (sub_ok (bool_decide (1 < i)) fuel (take i a1)) as (l1 & E1 & P1 & S1).
  { intros Hb. apply bool_decide_eq_false in Hb. rewrite take_length. lia. }
  { intros l0 Hl0. apply IH; lia. }
  { rewrite take_length. lia. }
  assert (Hll1 : length l1 = i).
  { apply Permutation_length in P1. rewrite P1, take_length. lia. }
  assert (E1' : (if decide (1 < i) then l ← qsort cmp fuel (take i a1); Some (l ++ drop i a1) else Some a1)
                = Some (l1 ++ drop i a1)).
  { destruct (decide (1 < i)) as [Hi|Hi].
    - rewrite bool_decide_true in E1 by done. rewrite E1. done.
    - rewrite bool_decide_false in E1 by done. injection E1 as <-. rewrite take_drop. done. }
  rewrite E1'. cbn [mbind option_bind].
  assert (Hdr : drop (j + 1) (l1 ++ drop i a1) = drop (j + 1) a1).
  { rewrite drop_app_ge by lia. rewrite drop_drop. f_equal. lia. }
  assert (Htk : take (j + 1) (l1 ++ drop i a1) = l1 ++ take (j + 1 - i) (drop i a1)).
  { rewrite take_app_ge by lia. rewrite Hll1. done. }
  destruct (sub_ok (bool_decide (j + 2 < length a)) fuel (drop (j + 1) a1)) as (l2 & E2 & P2 & S2).
  { intros Hb. apply bool_decide_eq_false in Hb. rewrite drop_length. lia. }
  { intros l0 Hl0. apply IH; lia. }
  { rewrite drop_length. lia. }
  set (mid := take (j + 1 - i) (drop i a1)) in *.
  assert (E2' : (if decide (j + 2 < length a)
     then l ← qsort cmp fuel (drop (j + 1) (l1 ++ drop i a1)); Some (take (j + 1) (l1 ++ drop i a1) ++ l)
     else Some (l1 ++ drop i a1)) = Some (l1 ++ mid ++ l2)).
  { rewrite Hdr, Htk. destruct (decide (j + 2 < length a)) as [Hj|Hj].
    - rewrite bool_decide_true in E2 by done. rewrite E2. cbn [mbind option_bind].
      rewrite <- app_assoc. done.
    - rewrite bool_decide_false in E2 by done. injection E2 as <-.
      f_equal. f_equal. unfold mid. rewrite <- (take_drop (j + 1 - i) (drop i a1)) at 1.
      f_equal. rewrite drop_drop. f_equal. lia. }
  rewrite E2'. eexists. split; [done|].
  assert (Hmid : mid ++ drop (j + 1) a1 = drop i a1).
  { unfold mid. rewrite <- (take_drop (j + 1 - i) (drop i a1)) at 2.
    f_equal. rewrite drop_drop. f_equal. lia. }
  split.
  - rewrite <- H2, P1, P2, Hmid, take_drop. done.
  - assert (F1 : Forall (fun y => le y v) l1).
    { eapply Forall_perm; [symmetry; exact P1|]. apply Forall_lookup. intros k y Hk.
      apply lookup_take_Some in Hk as [Hk Hki]. eapply H5; done. }
    assert (F2 : Forall (fun y => le v y) l2).
    { eapply Forall_perm; [symmetry; exact P2|]. apply Forall_lookup. intros k y Hk.
      rewrite lookup_drop in Hk. eapply H6; [|done]. lia. }
    destruct (decide (i = j)) as [->|Hne].
    + destruct (H7 eq_refl) as (y & Hy & Hy1 & Hy2).
      assert (Em : mid = [y]).
      { unfold mid. replace (j + 1 - j) with 1 by lia.
        rewrite (drop_S _ _ _ Hy). done. }
      rewrite Em. apply (sorted_app _ _ v).
      * done.
      * apply (sorted_app [y] l2 v); [apply sorted_short; simpl; lia|done|by constructor|done].
      * done.
      * constructor; done.
    + assert (Em : mid = []) by (unfold mid; replace (j + 1 - i) with 0 by lia; done).
      rewrite Em. apply (sorted_app _ _ v); done.
Qed.
End Sort.

Lemma qsort_sorts {A} (cmp : A -> A -> Z) a : ordering cmp ->
  exists a', qsort cmp (S (length a)) a = Some a' /\ a' ≡ₚ a /\ sorted_by cmp a'.
Proof. intros H. apply qsort_ok; [done|lia]. Qed.

Section Search.
Context {K A : Type} (cmp : K -> A -> Z).

Lemma bsearch_loop_ok key (a : list A) : partitioned cmp key a ->
  forall fuel base n, n < fuel -> base + n <= length a ->
  (forall k y, a !! k = Some y -> (cmp key y = 0)%Z -> base <= k < base + n) ->
  exists r, bsearch_loop cmp fuel key a base n = Some r /\
    match r with
    | Some p => exists y, a !! p = Some y /\ (cmp key y = 0)%Z
    | None => forall k y, a !! k = Some y -> (cmp key y <> 0)%Z
    end.
Proof.
  intros (l1 & l2 & l3 & -> & F1 & F2 & F3).
  set (a := l1 ++ l2 ++ l3).
  assert (Hmono : forall k m y z, k < m -> a !! k = Some y -> a !! m = Some z ->
     ((cmp key y < 0 -> cmp key z < 0) /\ (0 < cmp key z -> 0 < cmp key y))%Z).
  { rewrite Forall_lookup in F1, F2, F3. intros k m y z Hkm Hy Hz. unfold a in Hy, Hz.
    apply lookup_app_Some in Hy as [Hy|[Hk Hy]]; [apply F1 in Hy|apply lookup_app_Some in Hy as [Hy|[Hk' Hy]]; [apply F2 in Hy|apply F3 in Hy]];
    (apply lookup_app_Some in Hz as [Hz|[Hm Hz]]; [apply lookup_lt_Some in Hz as Hzl; apply F1 in Hz|apply lookup_app_Some in Hz as [Hz|[Hm' Hz]]; [apply lookup_lt_Some in Hz as Hzl; apply F2 in Hz|apply F3 in Hz]]); try lia. }
  induction fuel as [|fuel IH]; intros base n Hf Hb Hin; [lia|]. cbn [bsearch_loop].
  destruct (decide (0 < n)) as [Hn|Hn].
  - assert (Hd : Nat.div2 n < n) by (apply Nat.lt_div2; done).
    assert (is_Some (a !! (base + Nat.div2 n))) as [y Hy] by (apply lookup_lt_is_Some; lia).
    rewrite Hy. cbn [mbind option_bind].
    destruct (decide (cmp key y < 0)%Z) as [Hlt|Hge].
    + apply IH; [lia|lia|]. intros k z Hk Hz. split; [eapply Hin; done|].
      destruct (decide (k < base + Nat.div2 n)); [done|]. exfalso.
      destruct (decide (k = base + Nat.div2 n)) as [->|]; [rewrite Hy in Hk; injection Hk as <-; lia|].
      pose proof (Hmono (base + Nat.div2 n) k y z ltac:(lia) Hy Hk). lia.
    + destruct (decide (0 < cmp key y)%Z) as [Hgt|Hle].
      * apply IH; [lia|lia|]. intros k z Hk Hz. pose proof (Hin k z Hk Hz). split; [|lia].
        destruct (decide (base + Nat.div2 n + 1 <= k)); [done|]. exfalso.
        destruct (decide (k = base + Nat.div2 n)) as [->|]; [rewrite Hy in Hk; injection Hk as <-; lia|].
        pose proof (Hmono k (base + Nat.div2 n) z y ltac:(lia) Hk Hy). lia.
      * eexists. split; [done|]. exists y. split; [done|]. lia.
  - eexists. split; [done|]. intros k y Hk Hy. pose proof (Hin k y Hk Hy). lia.
Qed.

Lemma bsearch_finds key (a : list A) : partitioned cmp key a ->
  exists r, bsearch cmp key a = Some r /\
    match r with
    | Some p => exists y, a !! p = Some y /\ (cmp key y = 0)%Z
    | None => forall k y, a !! k = Some y -> (cmp key y <> 0)%Z
    end.
Proof.
  intros H. apply bsearch_loop_ok; [done|lia|lia|]. intros k y Hk _. apply lookup_lt_Some in Hk. lia.
Qed.
End Search.
