(** What copying and clearing an object ought to do. *)
From stdpp Require Import base list numbers.
Local Open Scope Z_scope.

(** The [n] bytes from [a] on. *)
Definition piece (a n : Z) (m : list Z) : list Z := take (Z.to_nat n) (drop (Z.to_nat a) m).
(** [m'] is [m] with the bytes [bs] from [a] on. *)
Definition written (a : Z) (bs m m' : list Z) : Prop :=
  length m' = length m /\
  forall i : nat, m' !! i = if decide (a <= Z.of_nat i < a + Z.of_nat (length bs)) then bs !! (i - Z.to_nat a)%nat else m !! i.
(** An alignment a size may have: its multiple, unless the object is smaller than that. *)
Definition sized (size align : Z) : Prop := 0 <= size /\ 0 < align /\ (size <= align \/ (align | size)).
Definition byte (b : Z) : Prop := 0 <= b < 256.
(** As C allows: the same object, or two that share nothing. *)
Definition apart (size dst src : Z) : Prop := dst = src \/ dst + size <= src \/ src + size <= dst.
Definition within (a n : Z) (m : list Z) : Prop := 0 <= a /\ a + n <= Z.of_nat (length m).
