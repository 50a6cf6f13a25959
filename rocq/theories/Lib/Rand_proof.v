(** Proofs about [Rand_model]. *)
From stdpp Require Import base numbers list.
From Coq Require Import Znumtheory Zpow_facts.
From Verif Require Import Lib.Rand_model Lib.Rand_spec.
Local Open Scope Z.

Lemma lor_add a b n : 0 <= n -> 0 <= a < 2 ^ n -> Z.lor a (Z.shiftl b n) = a + 2 ^ n * b.
Proof.
  intros Hn Ha.
  assert (Z.land a (Z.shiftl b n) = 0) as E.
  { apply Z.bits_inj'. intros k Hk. rewrite Z.land_spec, Z.bits_0.
    destruct (Z.lt_ge_cases k n) as [H|H].
    - rewrite Z.shiftl_spec_low by done. apply andb_false_r.
    - rewrite <- (Z.mod_small a (2 ^ n)) by done. rewrite Z.mod_pow2_bits_high by lia. done. }
  rewrite <- Z.lxor_lor, <- Z.add_nocarry_lxor by done. rewrite Z.shiftl_mul_pow2 by done. lia.
Qed.
Lemma number_or s : valid s -> x0 s .| (x1 s .<< 16) .| (x2 s .<< 32) = number s.
Proof.
  intros (H0 & H1 & H2). unfold number. rewrite (lor_add (x0 s)) by lia. rewrite (lor_add _ _ 32); [done|lia|lia].
Qed.
Lemma number_range s : valid s -> 0 <= number s < 2 ^ 48.
Proof. intros (H0 & H1 & H2). unfold number. lia. Qed.
Lemma number_shorts x : number (X (ushort x) (ushort (x .>> 16)) (ushort (x .>> 32))) = x mod 2 ^ 48.
Proof.
  unfold number, ushort. cbn [x0 x1 x2]. rewrite !Z.shiftr_div_pow2 by lia.
  change (2 ^ 48) with (2 ^ 16 * (2 ^ 16 * 2 ^ 16)). rewrite (Z.rem_mul_r x), (Z.rem_mul_r (x / 2 ^ 16)) by done.
  rewrite Z.div_div by done. change (2 ^ 16 * 2 ^ 16) with (2 ^ 32). lia.
Qed.
Lemma nrand48_ok s : valid s ->
  fst (nrand48 s) = next (number s) / 2 ^ 17 /\ number (snd (nrand48 s)) = next (number s) /\ valid (snd (nrand48 s)).
Proof.
  intros V. unfold nrand48. cbn [fst snd]. rewrite number_or by done. unfold A, C, next.
  rewrite (Z.mul_comm (number s)). set (y := 25214903917 * number s + 11).
  change (0x5deece66d * number s + 0x0b) with y.
  assert ((y mod 2 ^ 64) mod 2 ^ 48 = y mod 2 ^ 48) as M.
  { symmetry. apply Zmod_div_mod; [done|done|]. by exists (2 ^ 16). }
  split_and!.
  - change (2 ^ 31 - 1) with (Z.ones 31). rewrite Z.land_ones by lia. rewrite Z.shiftr_div_pow2 by lia.
    change (48 - 31) with 17. rewrite <- M. generalize (y mod 2 ^ 64). intros z.
    change (2 ^ 48) with (2 ^ 17 * 2 ^ 31). rewrite Z.rem_mul_r by done.
    rewrite (Z.mul_comm (2 ^ 17)), Z.div_add by done. rewrite (Z.div_small (z mod 2 ^ 17)) by (apply Z.mod_pos_bound; done). done.
  - by rewrite number_shorts.
  - unfold valid, ushort. cbn [x0 x1 x2]. split_and!; try apply Z.mod_pos_bound; done.
Qed.
Lemma next_range x : 0 <= next x < 2 ^ 48.
Proof. apply Z.mod_pos_bound. done. Qed.
Lemma rand_ok s : valid s ->
  fst (rand s) = next (number s) / 2 ^ 17 /\ number (snd (rand s)) = next (number s) /\ valid (snd (rand s)).
Proof.
  intros V. destruct (nrand48_ok s V) as (P & Q & R). unfold rand, lrand48. destruct (nrand48 s) as [v t]. cbn [fst snd] in *.
  split_and!; [|done|done]. subst v. pose proof (next_range (number s)) as N.
  assert (0 <= next (number s) / 2 ^ 17 < 2 ^ 31).
  { split; [apply Z.div_pos; lia|]. apply Z.div_lt_upper_bound; [lia|]. change (2 ^ 17 * 2 ^ 31) with (2 ^ 48). lia. }
  rewrite Z.mod_small; lia.
Qed.
Lemma rands_ok n : forall s, valid s ->
  fst (rands n s) = sequence n (number s) /\ number (snd (rands n s)) = nth_number n (number s) /\ valid (snd (rands n s)).
Proof.
  induction n as [|n IH]; intros s V; [done|]. destruct (rand_ok s V) as (P & Q & R). cbn [rands sequence nth_number].
  destruct (rand s) as [v t]. cbn [fst snd] in *. specialize (IH t R). rewrite Q in IH.
  destruct (rands n t) as [vs u]. cbn [fst snd] in *. destruct IH as (I1 & I2 & I3). split_and!; [|done|done]. by f_equal.
Qed.
Lemma sequence_range n : forall x, Forall (fun v => 0 <= v <= RAND_MAX) (sequence n x).
Proof.
  induction n as [|n IH]; intros x; [constructor|]. cbn [sequence]. constructor; [|apply IH].
  pose proof (next_range x). unfold RAND_MAX. split; [apply Z.div_pos; lia|].
  apply Z.lt_succ_r. apply Z.div_lt_upper_bound; [lia|]. change (2 ^ 17 * Z.succ (2 ^ 31 - 1)) with (2 ^ 48). lia.
Qed.

(** ** The period *)
Section Period.
Definition a := 25214903917.
(** 1 + a + ... + a^(n-1) *)
Fixpoint sum (n : nat) : Z := match n with O => 0 | S n => a * sum n + 1 end.
Fixpoint pw (n : nat) : Z := match n with O => 1 | S n => a * pw n end.
Lemma pw_sum n : pw n - 1 = (a - 1) * sum n.
Proof. induction n as [|n IH]; [done|]. cbn [pw sum]. lia. Qed.
Lemma sum_add n k : sum (n + k) = sum n * pw k + sum k.
Proof. induction n as [|n IH]; [cbn; lia|]. cbn [Nat.add sum]. rewrite IH. pose proof (pw_sum k). lia. Qed.
Lemma pw_mod n : exists k, pw n = 4 * k + 1.
Proof. induction n as [|n [k IH]]; [by exists 0|]. cbn [pw]. rewrite IH. exists (a * k + 6303725979). unfold a. lia. Qed.
Lemma sum_parity n : exists k, sum n = 2 * k + Z.of_nat n.
Proof. induction n as [|n [k IH]]; [by exists 0|]. cbn [sum]. rewrite IH. exists (a * k + 12607451958 * Z.of_nat n). unfold a. lia. Qed.
Lemma odd_coprime k o : 0 <= k -> Z.gcd (2 ^ k) (2 * o + 1) = 1.
Proof.
  intros Hk. apply Zgcd_1_rel_prime. apply rel_prime_sym, rel_prime_Zpower_r; [done|].
  apply Zgcd_1_rel_prime. rewrite Z.gcd_comm, Z.add_comm, Z.mul_comm, Z.gcd_add_mult_diag_r. done.
Qed.
Lemma sum_divide k : forall n, (2 ^ Z.of_nat k | sum n) <-> (2 ^ Z.of_nat k | Z.of_nat n).
Proof.
  induction k as [|k IH]; intros n; [split; intros _; apply Z.divide_1_l|].
  assert (forall z, (2 ^ Z.of_nat (S k) | z) -> exists q, z = 2 * q) as Even.
  { intros z [q ->]. exists (q * 2 ^ Z.of_nat k). rewrite Nat2Z.inj_succ, Z.pow_succ_r by lia. lia. }
  destruct (Nat.Even_or_Odd n) as [[h ->]|[h ->]].
  - replace (2 * h)%nat with (h + h)%nat by lia. rewrite sum_add.
    destruct (pw_mod h) as [j Hj]. rewrite Nat2Z.inj_succ, Z.pow_succ_r by lia.
    replace (sum h * pw h + sum h) with (2 * ((2 * j + 1) * sum h)) by lia.
    replace (Z.of_nat (h + h)) with (2 * Z.of_nat h) by lia.
    rewrite !Z.mul_divide_cancel_l by lia. rewrite <- IH. split; intros D.
    + eapply Z.gauss; [exact D|]. apply odd_coprime. lia.
    + by apply Z.divide_mul_r.
  - destruct (sum_parity (2 * h + 1)) as [j Hj]. split; intros D; apply Even in D as [q Hq]; lia.
Qed.
Lemma nth_number_eq n : forall x, (nth_number n x - (pw n * x + 11 * sum n)) mod 2 ^ 48 = 0.
Proof.
  induction n as [|n IH]; intros x; [cbn [nth_number pw sum]; by replace (x - (1 * x + 11 * 0)) with 0 by lia|].
  cbn [nth_number pw sum]. specialize (IH (next x)).
  apply Z.mod_divide in IH; [|done]. apply Z.mod_divide; [done|].
  unfold next in *. fold a in *. rewrite (Zmod_eq (a * x + 11)) in IH |- * by done.
  set (q := (a * x + 11) / 2 ^ 48) in *. pose proof (pw_sum n) as P.
  destruct IH as [r Hr]. exists (r - pw n * q).
  assert (sum n * a + 1 = sum n + pw n) as Hs by lia. 
  transitivity (r * 2 ^ 48 - pw n * (q * 2 ^ 48)); [|lia]. rewrite <- Hr. lia.
Qed.
Lemma nth_number_range n x : 0 <= x < 2 ^ 48 -> 0 <= nth_number n x < 2 ^ 48.
Proof. revert x. induction n as [|n IH]; intros x Hx; [done|]. cbn [nth_number]. apply IH, next_range. Qed.
Lemma period n x : 0 <= x < 2 ^ 48 -> (nth_number n x = x <-> (2 ^ 48 | Z.of_nat n)).
Proof.
  intros Hx. pose proof (nth_number_eq n x) as E. pose proof (nth_number_range n x Hx) as R.
  apply Z.mod_divide in E; [|done]. pose proof (sum_divide 48 n) as D. change (Z.of_nat 48) with 48 in D. rewrite <- D.
  pose proof (pw_sum n) as P.
  assert (pw n * x + 11 * sum n - x = (2 * (12607451958 * x + 5) + 1) * sum n) as F.
  { replace (pw n) with ((a - 1) * sum n + 1) by lia. unfold a. lia. }
  split; intros H.
  - rewrite H in E. eapply Z.gauss; [|apply (odd_coprime 48 (12607451958 * x + 5)); lia].
    rewrite <- F. destruct E as [q Hq]. exists (- q). lia.
  - assert (2 ^ 48 | nth_number n x - x) as [q Hq].
    { replace (nth_number n x - x) with ((nth_number n x - (pw n * x + 11 * sum n)) + (pw n * x + 11 * sum n - x)) by lia.
      apply Z.divide_add_r; [done|]. rewrite F. by apply Z.divide_mul_r. }
    assert (q = 0) by lia. lia.
Qed.
End Period.

Lemma number_inj s t : valid s -> valid t -> number s = number t -> s = t.
Proof.
  intros (A0 & A1 & A2) (B0 & B1 & B2) E. unfold number in E. destruct s as [s0 s1 s2], t as [t0 t1 t2]. cbn [x0 x1 x2] in *.
  assert (s0 = t0) by lia. assert (s1 = t1) by lia. assert (s2 = t2) by lia. by subst.
Qed.
Lemma rands_period n s : valid s -> (snd (rands n s) = s <-> (2 ^ 48 | Z.of_nat n)).
Proof.
  intros V. destruct (rands_ok n s V) as (_ & E & W). rewrite <- (period n (number s)) by (by apply number_range). rewrite <- E.
  split; [by intros -> | intros H; by apply number_inj].
Qed.
Lemma srand_valid seed : valid (srand seed).
Proof. unfold valid, srand, srand48, ushort. cbn [x0 x1 x2]. split_and!; try apply Z.mod_pos_bound; done. Qed.
Lemma srand_number seed : 0 <= seed < 2 ^ 32 -> number (srand seed) = 2 ^ 16 * seed + 13070.
Proof.
  intros H. unfold number, srand, srand48, ushort. cbn [x0 x1 x2]. rewrite Z.shiftr_div_pow2 by lia.
  rewrite (Z.mod_small (seed / 2 ^ 16)); [|split; [apply Z.div_pos; lia|apply Z.div_lt_upper_bound; lia]].
  pose proof (Z.div_mod seed (2 ^ 16) ltac:(done)). lia.
Qed.
