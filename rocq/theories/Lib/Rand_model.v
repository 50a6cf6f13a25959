(** libsrc/stdlib/nrand48.c, lrand48.c, rand.c, srand.c: pseudo-random numbers. *)
From stdpp Require Import base numbers list.
Local Open Scope Z.
Infix ".|" := Z.lor (at level 50, left associativity).
Infix ".&" := Z.land (at level 40, left associativity).
Infix ".<<" := Z.shiftl (at level 35).
Infix ".>>" := Z.shiftr (at level 35).

(** unsigned short xsubi[3]. *)
Record xsubi := X { x0 : Z; x1 : Z; x2 : Z }.
Definition ushort (v : Z) : Z := v mod 2 ^ 16.
(** nrand48.c:6-15: arithmetic in uint64_t, the result is a long of 64 bits. *)
Definition A := 0x5deece66d.
Definition C := 0x0b.
Definition nrand48 (s : xsubi) : Z * xsubi :=
  let x := x0 s .| (x1 s .<< 16) .| (x2 s .<< 32) in
  let x := (x * A + C) mod 2 ^ 64 in
  ((x .>> (48 - 31)) .& (2 ^ 31 - 1), X (ushort x) (ushort (x .>> 16)) (ushort (x .>> 32))).

(** lrand48.c:4: the state at the start of a program. *)
Definition start : xsubi := X 0xdeec 0x1053 0x1db2.
(** lrand48.c:7-10, rand.c:3-5: the conversion to int. *)
Definition lrand48 : xsubi -> Z * xsubi := nrand48.
Definition rand (s : xsubi) : Z * xsubi :=
  let '(v, s) := lrand48 s in ((v + 2 ^ 31) mod 2 ^ 32 - 2 ^ 31, s).
(** lrand48.c:12-16; [seedval] is a long. *)
Definition srand48 (seedval : Z) : xsubi := X 0x330e (ushort seedval) (ushort (seedval .>> 16)).
(** srand.c:3-5; [seed] is an unsigned int. *)
Definition srand (seed : Z) : xsubi := srand48 seed.

(** [n] calls of rand: the results and the state. *)
Fixpoint rands (n : nat) (s : xsubi) : list Z * xsubi :=
  match n with
  | O => ([], s)
  | S n => let '(v, s) := rand s in let '(vs, s) := rands n s in (v :: vs, s)
  end.
