(** C147: pseudo-random numbers. *)
From stdpp Require Import base numbers list.
From Verif Require Import Lib.Rand_model Lib.Rand_spec Lib.Rand_proof.
Local Open Scope Z.

(** The numbers are those POSIX prescribes for lrand48, for any number of calls. *)
Theorem C147_sequence : forall n s, valid s ->
  fst (rands n s) = sequence n (number s) /\ number (snd (rands n s)) = nth_number n (number s) /\ valid (snd (rands n s)).
Proof. exact rands_ok. Qed.
Print Assumptions C147_sequence.

(** rand gives numbers from 0 to RAND_MAX. *)
Theorem C147_range : forall n s, valid s -> Forall (fun v => 0 <= v <= RAND_MAX) (fst (rands n s)).
Proof. intros n s V. rewrite (proj1 (rands_ok n s V)). apply sequence_range. Qed.
Print Assumptions C147_range.

(** The generator is back in a state exactly after 2^48 calls and multiples. *)
Theorem C147_period : forall n s, valid s -> (snd (rands n s) = s <-> (2 ^ 48 | Z.of_nat n)).
Proof. exact rands_period. Qed.
Print Assumptions C147_period.

(** srand sets the state that POSIX prescribes for srand48. *)
Theorem C147_srand : forall seed, 0 <= seed < 2 ^ 32 -> valid (srand seed) /\ number (srand seed) = 2 ^ 16 * seed + 13070.
Proof. intros seed H. split; [apply srand_valid|by apply srand_number]. Qed.
Print Assumptions C147_srand.

(** Without srand the numbers are to be those after srand(1) (C11 7.22.2.2p2);
    the first one is another. *)
Theorem C147_start_refuted : valid start /\ exists n, fst (rands n start) <> fst (rands n (srand 1)).
Proof. split; [unfold valid; cbn; lia|]. exists 1%nat. vm_compute. discriminate. Qed.
Print Assumptions C147_start_refuted.

(** The first numbers after srand(1), as other C libraries have them for srand48(1). *)
Example C147_example : fst (rands 3 (srand 1)) = [89400484; 976015093; 1792756325].
Proof. vm_compute. reflexivity. Qed.
