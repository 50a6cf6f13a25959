(** POSIX: X(n+1) = (a X(n) + c) mod 2^48, and the 31 high bits of X are the
    result. *)
From stdpp Require Import base numbers list.
From Verif Require Import Lib.Rand_model.
Local Open Scope Z.

(** The number that three shorts are. *)
Definition number (s : xsubi) : Z := x0 s + 2 ^ 16 * x1 s + 2 ^ 32 * x2 s.
Definition valid (s : xsubi) : Prop := 0 <= x0 s < 2 ^ 16 /\ 0 <= x1 s < 2 ^ 16 /\ 0 <= x2 s < 2 ^ 16.
Definition next (x : Z) : Z := (25214903917 * x + 11) mod 2 ^ 48.
Fixpoint nth_number (n : nat) (x : Z) : Z :=
  match n with O => x | S n => nth_number n (next x) end.
(** The results of [n] calls. *)
Fixpoint sequence (n : nat) (x : Z) : list Z :=
  match n with O => [] | S n => next x / 2 ^ 17 :: sequence n (next x) end.
(** C11 7.22.2.1: rand gives numbers from 0 to RAND_MAX (include/stdlib.h). *)
Definition RAND_MAX := 2 ^ 31 - 1.
