From stdpp Require Import base list numbers.
From Coq Require Import Lia ZArith.
From Verif Require Import As.Asm_arch_model Ld.Rela_model Ld.Rela_spec.
From Verif Require As.Asm_arch_proof.
Local Open Scope Z_scope.

(** ** Bytes *)
Lemma le_length n x : length (le n x) = n.
Proof. unfold le. rewrite fmap_length, seq_length. done. Qed.

Lemma le_S n x : le (S n) x = x mod 256 :: le n (x / 256).
Proof.
  unfold le. cbn [seq fmap list_fmap]. f_equal.
  - change (8 * Z.of_nat 0) with 0. rewrite Z.shiftr_0_r. apply (Z.land_ones x 8). lia.
  - rewrite <- seq_shift. rewrite <- list_fmap_compose. apply list_fmap_ext. intros i k _. unfold compose.
    f_equal. rewrite !Z.shiftr_div_pow2 by lia.
    replace (8 * Z.of_nat (S k)) with (8 + 8 * Z.of_nat k) by lia.
    rewrite Z.pow_add_r by lia. change (2 ^ 8) with 256. rewrite Z.div_div by lia. done.
Qed.

Lemma word_app n a b : length a = n -> word n (a ++ b) = word n a.
Proof. intros <-. unfold word. rewrite take_app. rewrite firstn_all. done. Qed.

Lemma word_le n : forall x, word n (le n x) = x mod 2 ^ (8 * Z.of_nat n).
Proof.
  induction n as [|n IH]; intros x; [cbn; rewrite Z.mod_1_r; done|].
  rewrite le_S. unfold word in *. cbn [take foldr].
  rewrite IH. replace (8 * Z.of_nat (S n)) with (8 + 8 * Z.of_nat n) by lia.
  rewrite Z.pow_add_r by lia. change (2 ^ 8) with 256.
  rewrite Z.rem_mul_r by lia. done.
Qed.

Lemma word_range n : forall c, bytes_ok c -> 0 <= word n c < 2 ^ (8 * Z.of_nat n).
Proof.
  induction n as [|n IH]; intros c Hc; [unfold word; rewrite take_0; cbn; lia|].
  replace (8 * Z.of_nat (S n)) with (8 + 8 * Z.of_nat n) by lia.
  rewrite Z.pow_add_r by lia. change (2 ^ 8) with 256.
  assert (0 < 2 ^ (8 * Z.of_nat n)) by (apply Z.pow_pos_nonneg; lia).
  destruct c as [|b c]; [cbn [word take foldr]; unfold word; cbn; lia|]. apply stdpp.list.Forall_cons in Hc as [Hb Hc].
  specialize (IH c Hc). unfold word in *. cbn [take foldr]. lia.
Qed.

Lemma put_length o bs c : (o + length bs <= length c)%nat -> length (put o bs c) = length c.
Proof. intros. unfold put. rewrite !app_length, take_length, drop_length. lia. Qed.

Lemma put_same o bs c : (o + length bs <= length c)%nat -> take (length bs) (drop o (put o bs c)) = bs.
Proof.
  intros. unfold put.
  rewrite drop_app_alt by (rewrite take_length; lia). rewrite take_app_alt; done.
Qed.

Lemma put_other o bs c i : (o + length bs <= length c)%nat -> (i < o \/ o + length bs <= i)%nat ->
  put o bs c !! i = c !! i.
Proof.
  intros Hl Hi. unfold put. destruct Hi as [Hi|Hi].
  - rewrite lookup_app_l by (rewrite take_length; lia). rewrite lookup_take by lia. done.
  - rewrite lookup_app_r by (rewrite take_length; lia).
    rewrite lookup_app_r by (rewrite take_length; lia).
    rewrite lookup_drop, take_length. f_equal. lia.
Qed.

Lemma slice_ext (c c' : list Z) o n : (forall i, (o <= i < o + n)%nat -> c !! i = c' !! i) ->
  take n (drop o c) = take n (drop o c').
Proof.
  intros H. apply list_eq. intros i. destruct (decide (i < n)%nat) as [Hi|Hi].
  - rewrite !lookup_take, !lookup_drop by lia. apply H. lia.
  - rewrite !lookup_take_ge by lia. done.
Qed.

Lemma word_take n c : word n c = word n (take n c).
Proof. unfold word. rewrite take_take, Nat.min_id. done. Qed.

(** ** One relocation as a function on the word it patches *)
Definition new_word (sec : Z) (relas : list rela) (j : nat) (r : rela) : Z -> option Z :=
  let pc := u64 (sec + Z.of_nat (r_offset r)) in
  let target := r_target r in
  match r_type r with
  | X_64 | A_ABS64 | R_64 => fun _ => Some target
  | X_PC32 | X_PLT32 => fun _ => Some (u64 (target - pc))
  | A_PG_HI21 => fun w => Some (pg_hi21 target pc w)
  | A_ADD_LO12 => fun w => Some (add_lo12 target w)
  | A_CALL26 => fun w => Some (call26 target pc w)
  | A_GOT | ROther => fun _ => None
  | R_CALL => fun _ => rv_call target pc
  | R_RELAX => fun _ => match j with O => None | S _ => Some P_NOP end
  | R_PCREL_HI20 => rv_hi20 target pc
  | R_HI20 => rv_hi20 target 0
  | R_PCREL_LO12_I => fun w =>
    match j with
    | S (S j') => match relas !! j' with
      | Some h => if decide (r_type h = R_PCREL_HI20) then rv_lo12 (r_target h) (u64 (sec + Z.of_nat (r_offset h))) w else None
      | None => None end
    | _ => None end
  | R_LO12_I => fun w =>
    match j with
    | S (S j') => match relas !! j' with
      | Some h => if decide (r_type h = R_HI20) then rv_lo12 (r_target h) 0 w else None
      | None => None end
    | _ => None end
  | R_RVC_JUMP => rv_rvc_jump target pc
  | R_JAL => rv_jal target pc
  | R_RVC_BRANCH => rv_rvc_branch target pc
  | R_BRANCH => rv_branch target pc
  end.

Definition changed (f : Z -> option Z) (fl : nat * nat) (c c' : list Z) : Prop :=
  exists w', f (at_ fl.2 c fl.1) = Some w' /\
  ((fl.2 = 0%nat /\ c' = c) \/ ((fl.1 + fl.2 <= length c)%nat /\ c' = put fl.1 (le fl.2 w') c)).

Lemma patch_changed n c o f c' : patch n c o f = Ok c' -> changed f (o, n) c c'.
Proof.
  unfold patch, changed, at_. cbn [fst snd]. destruct (Nat.leb_spec (o + n) (length c)); [|done].
  destruct (f _) as [w'|]; [|done]. intros [= <-]. exists w'. split; [done|]. right. done.
Qed.

Lemma apply1_changed sec relas j r c c' : apply1 sec relas j r c = (Ok c', false) ->
  changed (new_word sec relas j r) (field relas j r) c c'.
Proof.
  unfold apply1, new_word, field, store. destruct (r_type r).
  all: try (intros [= H]; apply patch_changed in H; exact H).
  all: try done.
  - (* RELAX *)
    destruct j as [|j]; [done|]. cbn [pred].
    destruct (r_type <$> relas !! j) as [t|]; [|done].
    destruct t; try done; intros [= H]; try (apply patch_changed in H; exact H);
    exists P_NOP; (split; [done|left; done]).
  - (* PCREL_LO12 *)
    destruct j as [|[|j]]; [done|done|]. destruct (relas !! j) as [h|] eqn:E; [|done].
    destruct (r_type h) eqn:Eh; try done. intros [= H]. apply patch_changed in H.
    destruct H as (w' & H & H'). exists w'. split; [|exact H'].
    rewrite decide_True by done. exact H.
  - destruct j as [|[|j]]; [done|done|]. destruct (relas !! j) as [h|] eqn:E; [|done].
    destruct (r_type h) eqn:Eh; try done. intros [= H]. apply patch_changed in H.
    destruct H as (w' & H & H'). exists w'. split; [|exact H'].
    rewrite decide_True by done. exact H.
Qed.

Lemma changed_frame f fl c c' i : changed f fl c c' -> ~ in_field i fl -> c' !! i = c !! i.
Proof.
  intros (w' & _ & [[_ ->]|[Hl ->]]) Hi; [done|]. unfold in_field in Hi.
  apply put_other; rewrite le_length; lia.
Qed.
Lemma changed_length f fl c c' : changed f fl c c' -> length c' = length c.
Proof. intros (w' & _ & [[_ ->]|[Hl ->]]); [done|]. apply put_length. rewrite le_length. lia. Qed.
Lemma changed_word f fl c c' : changed f fl c c' -> exists w', f (at_ fl.2 c fl.1) = Some w' /\
  take fl.2 (drop fl.1 c') = le fl.2 w'.
Proof.
  intros (w' & Hw & H). exists w'. split; [done|]. destruct H as [[-> ->]|[Hl ->]].
  - rewrite take_0. done.
  - rewrite <- (le_length fl.2 w') at 1. apply put_same. rewrite le_length. lia.
Qed.

(** ** All of them *)
Lemma apply_from_ok sec relas : all_apart relas -> forall l j c c',
  l = drop j relas -> apply_from sec relas j l c = Ok (c', 0%nat) ->
  length c' = length c /\
  (forall i, (forall k r, (j <= k)%nat -> relas !! k = Some r -> ~ in_field i (field relas k r)) -> c' !! i = c !! i) /\
  (forall k r, (j <= k)%nat -> relas !! k = Some r -> exists w',
    new_word sec relas k r (at_ (field relas k r).2 c (field relas k r).1) = Some w' /\
    take (field relas k r).2 (drop (field relas k r).1 c') = le (field relas k r).2 w').
Proof.
  intros Hap. induction l as [|r l IH]; intros j c c' Hl H.
  - cbn in H. injection H as <-. split; [done|]. split; [done|]. intros k r Hk Hr.
    assert (relas !! k = None); [|congruence]. apply lookup_ge_None.
    assert (length (drop j relas) = 0)%nat by (rewrite <- Hl; done). rewrite drop_length in *. lia.
  - cbn [apply_from] in H. destruct (apply1 sec relas j r c) as [[c1| |] e] eqn:E1; [|done|done].
    destruct (apply_from sec relas (S j) l c1) as [[c2 n]| |] eqn:E2; [|done|done].
    destruct e; [done|]. injection H as -> ->.
    assert (relas !! j = Some r) as Hr.
    { replace j with (j + 0)%nat by lia. rewrite <- lookup_drop, <- Hl. done. }
    destruct (IH (S j) c1 c') as (Hlen & Hfr & Hw); [|done|].
    { replace (S j) with (j + 1)%nat by lia. rewrite <- drop_drop, <- Hl. done. }
    pose proof (apply1_changed _ _ _ _ _ _ E1) as Hc.
    split; [rewrite Hlen; eapply changed_length; done|]. split.
    + intros i Hi. rewrite Hfr.
      * eapply changed_frame; [done|]. apply (Hi j); [lia|done].
      * intros k r' Hk. apply Hi. lia.
    + intros k r' Hk Hr'. destruct (decide (k = j)) as [->|Hne].
      * assert (r' = r) as -> by congruence.
        destruct (changed_word _ _ _ _ Hc) as (w' & Hw' & Ht). exists w'. split; [done|].
        rewrite <- Ht. apply slice_ext. intros i Hi. apply Hfr. intros k r' Hk' Hr'' Hin.
        destruct (Hap j k r r') as [Ha|[Ha|[Ha|Ha]]]; try done; unfold in_field in Hin; try lia.
      * destruct (Hw k r') as (w' & Hw' & Ht); [lia|done|]. exists w'. split; [|done].
        rewrite <- Hw'. f_equal. unfold at_. rewrite word_take, (word_take _ (drop _ c1)). f_equal.
        apply slice_ext. intros i Hi. symmetry. eapply changed_frame; [done|]. intros Hin.
        destruct (Hap j k r r') as [Ha|[Ha|[Ha|Ha]]]; try done; unfold in_field in Hin; try lia.
Qed.

Lemma all_ok sec relas c c' : all_apart relas -> apply_relas sec relas c = Ok (c', 0%nat) ->
  length c' = length c /\
  (forall i, (forall k r, relas !! k = Some r -> ~ in_field i (field relas k r)) -> c' !! i = c !! i) /\
  (forall k r, relas !! k = Some r -> exists w',
    new_word sec relas k r (at_ (field relas k r).2 c (field relas k r).1) = Some w' /\
    at_ (field relas k r).2 c' (field relas k r).1 = w' mod 2 ^ (8 * Z.of_nat (field relas k r).2)).
Proof.
  intros Hap H. destruct (apply_from_ok sec relas Hap relas 0 c c') as (H1 & H2 & H3); [done|exact H|].
  split; [done|]. split.
  - intros i Hi. apply H2. eauto.
  - intros k r Hr. destruct (H3 k r) as (w' & Hw & Ht); [lia|done|]. exists w'. split; [done|].
    unfold at_. rewrite word_take, Ht. apply word_le.
Qed.
