(** C105: objects are copied and cleared whole. *)
From stdpp Require Import base list numbers.
From Verif Require Import Front.Local_model Back.Copy_model Back.Copy_spec Back.Copy_proof.
Local Open Scope Z_scope.

(** Assigning a structure: the destination holds what the source held, no other byte changes, and
    the loop ends after at most [size] rounds. *)
Theorem C105_copy fuel size align dst src m : sized size align -> Forall byte m -> Z.of_nat (length m) <= 2 ^ 64 ->
  within dst size m -> within src size m -> apart size dst src -> size < Z.of_nat fuel ->
  exists m', copy fuel size align dst src m = Some m' /\ written dst (piece src size m) m m'.
Proof. exact (copy_ok fuel size align dst src m). Qed.

(** Clearing an object of any size and alignment. *)
Theorem C105_clear size align a m : sized size align -> within a size m ->
  exists m', clear size align a m = Some m' /\ written a (replicate (Z.to_nat size) 0) m m'.
Proof. exact (cleared size align a m). Qed.

(** A structure of 12 bytes aligned to 4, and one of 32 aligned to 16. *)
Example C105_example :
  sized 12 4 /\ sized 32 16 /\
  copy 20 12 4 14 1 (Z.of_nat <$> seq 0 30) = Some (Z.of_nat <$> (seq 0 14 ++ seq 1 12 ++ seq 26 4)) /\
  clear 32 16 1 (replicate 40 7) = Some ([7] ++ replicate 32 0 ++ replicate 7 7).
Proof. repeat split; try done; try (right; exists 3; done); right; exists 2; done. Qed.

Print Assumptions C105_copy.
Print Assumptions C105_clear.
