(** The relocations of a section in groups, one group for each item, each within its item's bytes. *)
From stdpp Require Import base list list_numbers numbers.
From Verif Require Import As.Asm_arch_model Ld.Rela_model Ld.Rela_spec Ld.Rela_proof Ld.Rela_main_proof.
From Coq Require Import Lia.
Local Open Scope Z_scope.

(** A group that can be looked at on its own. *)
Definition gwf (g : list rela) : Prop := forall j r, g !! j = Some r ->
  match r_type r with R_RELAX => (1 <= j)%nat | R_PCREL_LO12_I | R_LO12_I => (2 <= j)%nat | _ => True end.
Definition gin (o n : nat) (g : list rela) : Prop := forall j r, g !! j = Some r ->
  (field g j r).2 = 0%nat \/ (o <= (field g j r).1 /\ (field g j r).1 + (field g j r).2 <= o + n)%nat.
Definition group_ok (o n : nat) (g : list rela) : Prop := gwf g /\ gin o n g /\ all_apart g.

Definition linked (sec : Z) (o n : nat) (g : list rela) (c c' : list Z) : Prop :=
  (forall i, (o <= i < o + n)%nat -> (forall j r, g !! j = Some r -> ~ in_field i (field g j r)) -> c' !! i = c !! i) /\
  (forall j r, g !! j = Some r -> achieves sec g j r c c') /\
  (forall j r, g !! j = Some r -> exists w',
    new_word sec g j r (at_ (field g j r).2 c (field g j r).1) = Some w' /\
    take (field g j r).2 (drop (field g j r).1 c') = le (field g j r).2 w').

Lemma shift_lookup (g0 g g1 : list rela) j : (j < length g)%nat -> (g0 ++ g ++ g1) !! (length g0 + j)%nat = g !! j.
Proof. intros H. rewrite lookup_app_r by lia. replace (length g0 + j - length g0)%nat with j by lia. by rewrite lookup_app_l. Qed.
Lemma field_shift g0 g g1 j r : gwf g -> g !! j = Some r -> field (g0 ++ g ++ g1) (length g0 + j) r = field g j r.
Proof.
  intros Hw Hr. specialize (Hw j r Hr). pose proof (lookup_lt_Some _ _ _ Hr) as Hl. unfold field. destruct (r_type r); try done.
  replace (pred (length g0 + j)) with (length g0 + pred j)%nat by lia. rewrite shift_lookup by lia. done.
Qed.
Lemma new_word_shift sec g0 g g1 j r : gwf g -> g !! j = Some r -> new_word sec (g0 ++ g ++ g1) (length g0 + j) r = new_word sec g j r.
Proof.
  intros Hw Hr. specialize (Hw j r Hr). pose proof (lookup_lt_Some _ _ _ Hr) as Hl. unfold new_word. destruct (r_type r); try done.
  - destruct j as [|j]; [lia|]. by replace (length g0 + S j)%nat with (S (length g0 + j)) by lia.
  - destruct j as [|[|j]]; [lia|lia|]. replace (length g0 + S (S j))%nat with (S (S (length g0 + j))) by lia. rewrite shift_lookup by lia. done.
  - destruct j as [|[|j]]; [lia|lia|]. replace (length g0 + S (S j))%nat with (S (S (length g0 + j))) by lia. rewrite shift_lookup by lia. done.
Qed.
Lemma achieves_shift sec g0 g g1 j r c c' : gwf g -> g !! j = Some r -> achieves sec (g0 ++ g ++ g1) (length g0 + j) r c c' -> achieves sec g j r c c'.
Proof.
  intros Hw Hr. specialize (Hw j r Hr). pose proof (lookup_lt_Some _ _ _ Hr) as Hl. unfold achieves. cbv zeta. destruct (r_type r); try done.
  - replace (pred (length g0 + j)) with (length g0 + pred j)%nat by lia. rewrite shift_lookup by lia. done.
  - intros (H1 & hi & H2 & H3). split; [done|]. exists hi. split; [|done]. replace (length g0 + j - 2)%nat with (length g0 + (j - 2))%nat in H2 by lia. rewrite shift_lookup in H2 by lia. done.
  - intros (H1 & hi & H2 & H3). split; [done|]. exists hi. split; [|done]. replace (length g0 + j - 2)%nat with (length g0 + (j - 2))%nat in H2 by lia. rewrite shift_lookup in H2 by lia. done.
Qed.

(** Groups side by side: [gs] gives the number of bytes and the relocations of each. *)
Fixpoint groups_ok (o : nat) (gs : list (nat * list rela)) : Prop :=
  match gs with [] => True | (n, g) :: gs => group_ok o n g /\ groups_ok (o + n) gs end.
Fixpoint all_relas (gs : list (nat * list rela)) : list rela := match gs with [] => [] | (_, g) :: gs => g ++ all_relas gs end.

Lemma groups_inside o gs : groups_ok o gs -> forall j r, all_relas gs !! j = Some r ->
  exists g0 n g g1 k o1, all_relas gs = g0 ++ g ++ g1 /\ group_ok o1 n g /\ (o <= o1)%nat /\ g !! k = Some r /\ j = (length g0 + k)%nat.
Proof.
  revert o. induction gs as [|[n g] gs IH]; intros o Hg j r Hj; [done|]. cbn in *. destruct Hg as [Hg Hgs].
  destruct (decide (j < length g)%nat) as [Hl|Hl].
  - rewrite lookup_app_l in Hj by done. exists [], n, g, (all_relas gs), j, o. split_and!; done || lia.
  - rewrite lookup_app_r in Hj by lia. destruct (IH _ Hgs _ _ Hj) as (g0 & n' & g' & g1 & k & o1 & H1 & H2 & H3 & H4 & H5).
    exists (g ++ g0), n', g', g1, k, o1. rewrite H1, app_length, <- app_assoc. split_and!; try done; lia.
Qed.
Lemma groups_apart o gs : groups_ok o gs -> all_apart (all_relas gs).
Proof.
  assert (K : forall gs o, groups_ok o gs -> forall g0 j k r r', (j < k)%nat -> all_relas gs !! j = Some r -> all_relas gs !! k = Some r' ->
    apart (field (g0 ++ all_relas gs) (length g0 + j) r) (field (g0 ++ all_relas gs) (length g0 + k) r')).
  { clear. induction gs as [|[n g] gs IH]; intros o Hg g0 j k r r' Hjk Hj Hk; [done|]. cbn in *. destruct Hg as [(Hw & Hi & Ha) Hgs].
    destruct (decide (j < length g)%nat) as [Hl|Hl]; [rewrite lookup_app_l in Hj by done|rewrite lookup_app_r in Hj by lia].
    - rewrite field_shift by done. destruct (decide (k < length g)%nat) as [Hl'|Hl']; [rewrite lookup_app_l in Hk by done|rewrite lookup_app_r in Hk by lia].
      + rewrite field_shift by done. apply (Ha j k); [lia|done|done].
      + destruct (groups_inside _ _ Hgs _ _ Hk) as (h0 & n' & h & h1 & k' & o1 & H1 & (Hw' & Hi' & _) & H3 & H4 & H5).
        rewrite H1. replace (g0 ++ g ++ h0 ++ h ++ h1) with ((g0 ++ g ++ h0) ++ h ++ h1) by (by rewrite <- !app_assoc).
        replace (length g0 + k)%nat with (length (g0 ++ g ++ h0) + k')%nat by (rewrite !app_length; lia). rewrite field_shift by done.
        specialize (Hi j r Hj). specialize (Hi' k' r' H4). unfold apart. lia.
    - rewrite lookup_app_r in Hk by lia. specialize (IH _ Hgs (g0 ++ g) (j - length g)%nat (k - length g)%nat r r' ltac:(lia) Hj Hk).
      rewrite <- app_assoc, app_length in IH.
      replace (length g0 + length g + (j - length g))%nat with (length g0 + j)%nat in IH by lia.
      by replace (length g0 + length g + (k - length g))%nat with (length g0 + k)%nat in IH by lia. }
  intros Hg j k r r' Hjk Hj Hk. destruct (decide (j < k)%nat).
  - exact (K gs o Hg [] j k r r' ltac:(lia) Hj Hk).
  - pose proof (K gs o Hg [] k j r' r ltac:(lia) Hk Hj) as H. unfold apart in *. cbn in H. lia.
Qed.
Lemma groups_inside' o gs : groups_ok o gs -> forall n g g0 gs0 gs1, gs = gs0 ++ (n, g) :: gs1 -> g0 = all_relas gs0 ->
  exists o1, o1 = (o + sum_list_with fst gs0)%nat /\ group_ok o1 n g /\ groups_ok (o1 + n) gs1 /\ all_relas gs = g0 ++ g ++ all_relas gs1.
Proof.
  intros Hg n g g0 gs0 gs1 -> ->. revert o Hg. induction gs0 as [|[n0 h] gs0 IH]; intros o Hg; cbn in *.
  - exists o. split; [lia|]. split_and!; try done; apply Hg.
  - destruct Hg as [_ Hg]. destruct (IH _ Hg) as (o1 & -> & H1 & H2 & H3). exists (o + n0 + sum_list_with fst gs0)%nat. split; [lia|]. split; [done|]. split; [done|].
    by rewrite H3, <- app_assoc.
Qed.
(** A byte of one item is in no field of another one. *)
Lemma groups_outside o gs : groups_ok o gs -> forall gs0 n g gs1 i, gs = gs0 ++ (n, g) :: gs1 ->
  (o + sum_list_with fst gs0 <= i < o + sum_list_with fst gs0 + n)%nat ->
  (forall j r, g !! j = Some r -> ~ in_field i (field g j r)) ->
  forall h0 k r, all_relas gs !! k = Some r -> ~ in_field i (field (h0 ++ all_relas gs) (length h0 + k) r).
Proof.
  revert o. induction gs as [|[m h] gs IH]; intros o Hg gs0 n g gs1 i Hgs Hi Hn h0 k r Hr; [done|].
  cbn in Hg. destruct Hg as [(Hw & Hin & Ha) Hg]. cbn in Hr |- *. destruct gs0 as [|[m' h'] gs0]; cbn in Hgs; injection Hgs as <- <- ->; cbn in Hi.
  - destruct (decide (k < length h)%nat) as [Hl|Hl]; [rewrite lookup_app_l in Hr by done|rewrite lookup_app_r in Hr by lia].
    + rewrite field_shift by done. by apply Hn.
    + destruct (groups_inside _ _ Hg _ _ Hr) as (g0 & n' & g' & g1 & k' & o1 & H1 & (Hw' & Hi' & _) & H3 & H4 & H5).
      rewrite H1. replace (h0 ++ h ++ g0 ++ g' ++ g1) with ((h0 ++ h ++ g0) ++ g' ++ g1) by (by rewrite <- !app_assoc).
      replace (length h0 + k)%nat with (length (h0 ++ h ++ g0) + k')%nat by (rewrite !app_length; lia). rewrite field_shift by done.
      specialize (Hi' k' r H4). unfold in_field. lia.
  - destruct (decide (k < length h)%nat) as [Hl|Hl]; [rewrite lookup_app_l in Hr by done|rewrite lookup_app_r in Hr by lia].
    + rewrite field_shift by done. specialize (Hin k r Hr). unfold in_field. lia.
    + specialize (IH _ Hg gs0 n g gs1 i eq_refl ltac:(lia) Hn (h0 ++ h) (k - length h)%nat r Hr).
      rewrite <- app_assoc, app_length in IH. by replace (length h0 + length h + (k - length h))%nat with (length h0 + k)%nat in IH by lia.
Qed.

Lemma groups_linked sec gs c c' : groups_ok 0 gs -> targets_ok (all_relas gs) -> bytes_ok c ->
  apply_relas sec (all_relas gs) c = Ok (c', 0%nat) ->
  length c' = length c /\
  forall gs0 n g gs1, gs = gs0 ++ (n, g) :: gs1 -> linked sec (sum_list_with fst gs0) n g c c'.
Proof.
  intros Hg Ht Hb H. pose proof (groups_apart _ _ Hg) as Ha.
  destruct (relocated _ _ _ _ Ht Ha Hb H) as (H1 & H2 & H3). destruct (apply_from_ok sec _ Ha _ 0 c c' eq_refl H) as (_ & _ & H4).
  split; [done|]. intros gs0 n g gs1 E. destruct (groups_inside' _ _ Hg n g _ gs0 gs1 E eq_refl) as (o1 & Ho & (Hw & Hi & Hap) & _ & Er). cbn in Ho.
  assert (L : forall j r, g !! j = Some r -> all_relas gs !! (length (all_relas gs0) + j)%nat = Some r).
  { intros j r Hr. rewrite Er, shift_lookup; [done|]. by eapply lookup_lt_Some. }
  split; [|split].
  - intros i Hi' Hn. apply H2. intros k r Hr. exact (groups_outside 0 gs Hg gs0 n g gs1 i E ltac:(lia) Hn [] k r Hr).
  - intros j r Hr. specialize (H3 _ _ (L j r Hr)). rewrite Er in H3. by apply achieves_shift in H3.
  - intros j r Hr. specialize (H4 _ _ (Nat.le_0_l _) (L j r Hr)). rewrite Er in H4. rewrite !field_shift, new_word_shift in H4 by done. exact H4.
Qed.
Lemma unlinked sec o n b b' : linked sec o n [] b b' -> take n (drop o b') = take n (drop o b).
Proof. intros [H _]. apply slice_ext. intros i Hi. apply H; [lia|done]. Qed.
