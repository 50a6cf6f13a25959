From stdpp Require Import base list numbers sorting.
From Coq Require Import Lia.
From Verif Require Import Back.Flow_model Back.Flow_spec.
Open Scope nat_scope.

Notation sorted := (StronglySorted lt).
Lemma sorted_lookup l i j x y : sorted l -> i < j -> l !! i = Some x -> l !! j = Some y -> x < y.
Proof.
  intros Hs. revert i j. induction Hs as [|a l Hs IH Hf]; intros i j Hij Hi Hj; [done|].
  destruct j as [|j]; [lia|]. cbn in Hj. destruct i as [|i]; cbn in Hi.
  - injection Hi as <-. apply (proj1 (stdpp.list.Forall_forall _ _) Hf). by apply elem_of_list_lookup_2 in Hj.
  - apply (IH i j); [lia|done..].
Qed.
Lemma sorted_app l1 l2 : sorted l1 -> sorted l2 -> (forall x y, x ∈ l1 -> y ∈ l2 -> x < y) -> sorted (l1 ++ l2).
Proof.
  intros H1 H2 H. induction H1 as [|a l Hs IH Hf]; [done|]. cbn. constructor.
  - apply IH. intros x y Hx Hy. apply H; [by right|done].
  - apply stdpp.list.Forall_forall. intros y Hy. apply elem_of_app in Hy as [Hy|Hy].
    + by apply (proj1 (stdpp.list.Forall_forall _ _) Hf).
    + apply H; [by left|done].
Qed.
Lemma sorted_take n l : sorted l -> sorted (take n l).
Proof.
  intros H. revert n. induction H as [|a l Hs IH Hf]; intros [|n]; cbn; try constructor; [apply IH|]. by apply Forall_take.
Qed.
Lemma sorted_drop n l : sorted l -> sorted (drop n l).
Proof. intros H. revert n. induction H as [|a l Hs IH Hf]; intros [|n]; cbn; [constructor..|by constructor|apply IH]. Qed.

Lemma bsearch_ok fuel lo hi v r : sorted v -> lo < hi -> hi <= S (length v) -> hi - lo <= S fuel ->
  (forall k x, S k <= lo -> v !! k = Some x -> x < r) -> (forall k x, hi <= S k -> v !! k = Some x -> r < x) ->
  (exists p, bsearch fuel lo hi v r = Some (Some p) /\ p <= length v /\
     (forall k x, k < p -> v !! k = Some x -> x < r) /\ (forall k x, p <= k -> v !! k = Some x -> r < x)) \/
  (bsearch fuel lo hi v r = Some None /\ r ∈ v).
Proof.
  intros Hs. revert lo hi. induction fuel as [|fuel IH]; intros lo hi Hlt Hlen Hf Hlo Hhi; cbn [bsearch].
  - rewrite (proj2 (Nat.leb_le (hi - lo) 1)) by lia. left. exists (pred hi). split; [done|]. split; [lia|]. split.
    + intros k x Hk. apply Hlo. lia.
    + intros k x Hk. apply Hhi. lia.
  - destruct (Nat.leb_spec (hi - lo) 1) as [Hle|Hgt].
    { left. exists (pred hi). split; [done|]. split; [lia|]. split; intros k x Hk; [apply Hlo|apply Hhi]; lia. }
    set (m := lo + (hi - lo) / 2).
    assert (Hm : lo < m < hi).
    { unfold m. pose proof (Nat.div_lt (hi - lo) 2 ltac:(lia) ltac:(lia)).
      pose proof (Nat.div_le_lower_bound (hi - lo) 2 1 ltac:(lia) ltac:(lia)). lia. }
    destruct (lookup_lt_is_Some_2 v (pred m) ltac:(lia)) as [mid Hmid]. rewrite Hmid. cbn [mbind option_bind].
    destruct (Nat.ltb_spec mid r) as [H1|H1].
    + apply IH; try lia; [|done]. intros k x Hk Hx. destruct (decide (k = pred m)) as [->|]; [congruence|].
      enough (x < mid) by lia. apply (sorted_lookup v k (pred m)); [done|lia|done..].
    + destruct (Nat.ltb_spec r mid) as [H2|H2].
      * apply IH; try lia; [done|]. intros k x Hk Hx. destruct (decide (k = pred m)) as [->|]; [congruence|].
        enough (mid < x) by lia. apply (sorted_lookup v (pred m) k); [done|lia|done..].
      * right. split; [done|]. assert (mid = r) as -> by lia. by apply elem_of_list_lookup_2 in Hmid.
Qed.

Lemma insert_ok v r : sorted v -> exists v' b, insert_vreg v r = Some (v', b) /\ sorted v' /\
  (forall x, x ∈ v' <-> x = r \/ x ∈ v) /\ (b = true -> r ∉ v) /\ (b = false -> r ∈ v /\ v' = v).
Proof.
  intros Hs. unfold insert_vreg.
  destruct (bsearch_ok (S (length v)) 0 (S (length v)) v r Hs) as [(p & -> & Hp & H1 & H2)|[-> Hin]]; try lia.
  - intros k x Hk Hx. apply lookup_lt_Some in Hx. lia.
  - cbn. eexists _, true. split; [done|].
    assert (Hlt : forall x, x ∈ take p v -> x < r).
    { intros x Hx. apply elem_of_list_lookup in Hx as [k Hk]. apply lookup_take_Some in Hk as [Hk ?]. by apply (H1 k). }
    assert (Hgt : forall x, x ∈ drop p v -> r < x).
    { intros x Hx. apply elem_of_list_lookup in Hx as [k Hk]. rewrite lookup_drop in Hk. apply (H2 (p + k)); [lia|done]. }
    split; [|split; [|split; [|done]]].
    + apply sorted_app; [by apply sorted_take| |].
      * constructor; [by apply sorted_drop|]. apply stdpp.list.Forall_forall. apply Hgt.
      * intros x y Hx Hy. apply elem_of_cons in Hy as [->|Hy]; [by apply Hlt|]. transitivity r; [by apply Hlt|by apply Hgt].
    + intros x. rewrite <- (take_drop p v) at 3. rewrite !elem_of_app, elem_of_cons. tauto.
    + intros _ Hin. rewrite <- (take_drop p v) in Hin. apply elem_of_app in Hin as [Hin|Hin]; [apply Hlt in Hin|apply Hgt in Hin]; lia.
  - cbn. eexists _, false. split; [done|]. split; [done|]. split; [|done]. intros x. split; [tauto|]. by intros [->|].
Qed.

(** Scanning a block. *)
Definition set_ok (s : sets) : Prop := sorted (ins s) /\ sorted (outs s) /\ sorted (assigned s).
Lemma scan_oprs_ok rs s : set_ok s -> exists s', scan_oprs rs s = Some s' /\ set_ok s' /\
  outs s' = outs s /\ assigned s' = assigned s /\ (forall r, r ∈ ins s' <-> r ∈ ins s \/ (r ∈ rs /\ r ∉ assigned s)).
Proof.
  revert s. induction rs as [|r rs IH]; intros s Hs; cbn [scan_oprs].
  - exists s. split; [done|]. split; [done|]. split; [done|]. split; [done|]. intros r. split; [tauto|]. intros [?|[H _]]; [done|by apply elem_of_nil in H].
  - case_decide as Hd.
    + destruct (IH s Hs) as (s' & E & H1 & H2 & H3 & H4). exists s'. rewrite E. split; [done|]. split; [done|]. split; [done|]. split; [done|].
      intros x. rewrite H4, elem_of_cons. split; [tauto|]. intros [?|[[->|?] ?]]; tauto.
    + destruct Hs as (Hi & Ho & Ha). destruct (insert_ok (ins s) r Hi) as (v & b & -> & Hv & Hin & _). cbn.
      destruct (IH (Sets v (outs s) (assigned s)) (conj Hv (conj Ho Ha))) as (s' & E & H1 & H2 & H3 & H4). cbn in *.
      exists s'. rewrite E. split; [done|]. split; [done|]. split; [done|]. split; [done|].
      intros x. rewrite H4, Hin, elem_of_cons. split; [intros [[->|?]|?]; tauto|intros [?|[[->|?] ?]]; tauto].
Qed.
Lemma reads_cons i l r : reads_first (i :: l) r <-> r ∈ oprs i \/ (odst i <> Some r /\ reads_first l r).
Proof.
  split.
  - intros (pre & j & post & E & Hr & Hp). destruct pre as [|p pre]; cbn in E.
    + injection E as <- <-. by left.
    + injection E as <- ->. right. split; [apply Hp; by left|]. exists pre, j, post. split; [done|]. split; [done|]. intros k Hk. apply Hp. by right.
  - intros [H|[H1 (pre & j & post & -> & Hr & Hp)]].
    + exists [], i, l. split; [done|]. split; [done|]. intros j Hj. by apply elem_of_nil in Hj.
    + exists (i :: pre), j, post. split; [done|]. split; [done|]. intros k Hk. apply elem_of_cons in Hk as [->|Hk]; [done|by apply Hp].
Qed.
Lemma reads_nil r : ~ reads_first [] r.
Proof. intros (pre & j & post & E & _). by destruct pre. Qed.
Lemma assigns_cons i l r : assigns (i :: l) r <-> odst i = Some r \/ assigns l r.
Proof.
  split.
  - intros (j & Hj & E). apply elem_of_cons in Hj as [->|Hj]; [by left|right; by exists j].
  - intros [H|(j & Hj & E)]; [exists i; split; [by left|done]|exists j; split; [by right|done]].
Qed.
Lemma scan_ok l s : set_ok s -> exists s', scan l s = Some s' /\ set_ok s' /\ outs s' = outs s /\
  (forall r, r ∈ assigned s' <-> r ∈ assigned s \/ assigns l r) /\
  (forall r, r ∈ ins s' <-> r ∈ ins s \/ (reads_first l r /\ r ∉ assigned s)).
Proof.
  revert s. induction l as [|i l IH]; intros s Hs; cbn [scan].
  - exists s. split; [done|]. split; [done|]. split; [done|]. split.
    + intros r. split; [tauto|]. intros [?|(j & Hj & _)]; [done|by apply elem_of_nil in Hj].
    + intros r. split; [tauto|]. intros [?|[H _]]; [done|by apply reads_nil in H].
  - destruct (scan_oprs_ok (oprs i) s Hs) as (s1 & E1 & K1 & O1 & A1 & I1). rewrite E1. cbn [mbind option_bind].
    destruct (odst i) as [d|] eqn:Ed.
    + destruct K1 as (Hi & Ho & Ha). destruct (insert_ok (assigned s1) d Ha) as (v & b & -> & Hv & Hin & _). cbn [mbind option_bind].
      destruct (IH (Sets (ins s1) (outs s1) v) (conj Hi (conj Ho Hv))) as (s' & E & H1 & H2 & H3 & H4). cbn in *.
      exists s'. rewrite E. split; [done|]. split; [done|]. split; [congruence|]. split.
      * intros r. rewrite H3, Hin, A1, assigns_cons, Ed. split; [intros [[->|?]|?]; tauto|]. intros [?|[[= ->]|?]]; tauto.
      * intros r. rewrite H4, I1, Hin, A1, reads_cons, Ed. destruct (decide (r = d)) as [->|Hne]; [|assert (Some d <> Some r) by congruence]; tauto.
    + cbn [mbind option_bind]. destruct (IH s1 K1) as (s' & E & H1 & H2 & H3 & H4). exists s'. rewrite E. split; [done|]. split; [done|]. split; [congruence|]. split.
      * intros r. rewrite H3, A1, assigns_cons, Ed. split; [tauto|]. intros [?|[?|?]]; [tauto|congruence|tauto].
      * intros r. rewrite H4, I1, A1, reads_cons, Ed. assert (None <> Some r) by congruence. tauto.
Qed.

(** Sums that decrease. *)
Lemma sum_app a b : sum (a ++ b) = sum a + sum b.
Proof. unfold sum. induction a as [|x a IH]; cbn; [done|]. rewrite IH. lia. Qed.
Lemma sum_le {A} (l : list A) (f g : nat -> A -> nat) : (forall i x, l !! i = Some x -> f i x <= g i x) -> sum (imap f l) <= sum (imap g l).
Proof.
  revert f g. induction l as [|a l IH]; intros f g H; cbn; [done|].
  pose proof (H 0 a eq_refl). specialize (IH (f ∘ S) (g ∘ S)). unfold sum in *. cbn.
  assert (foldr Nat.add 0 (imap (f ∘ S) l) <= foldr Nat.add 0 (imap (g ∘ S) l)); [|lia]. apply IH. intros i x Hi. by apply (H (S i)).
Qed.
Lemma sum_dec {A} (l : list A) (f g : nat -> A -> nat) j y : l !! j = Some y -> f j y = 0 ->
  (forall i x, l !! i = Some x -> f i x <= g i x) -> sum (imap f l) + g j y <= sum (imap g l).
Proof.
  revert f g j. induction l as [|a l IH]; intros f g j Hj H0 H; [done|].
  pose proof (H 0 a eq_refl) as Ha. destruct j as [|j]; cbn in Hj.
  - injection Hj as ->. cbn. rewrite H0. pose proof (sum_le l (f ∘ S) (g ∘ S) ltac:(intros i x Hi; by apply (H (S i)))).
    unfold sum in *. lia.
  - pose proof (IH (f ∘ S) (g ∘ S) j Hj H0 ltac:(intros i x Hi; by apply (H (S i)))). cbn in *. unfold sum in *. lia.
Qed.
