From Coq Require Import ZArith.
Local Open Scope Z_scope.

(** Specification of integer conversion, independent of the model: the value
    of the type congruent to [v]. *)
Definition type_min (size : Z) (u : bool) : Z := if u then 0 else - 2^(8*size-1).
Definition type_max (size : Z) (u : bool) : Z := if u then 2^(8*size) - 1 else 2^(8*size-1) - 1.
Definition converts (size : Z) (u : bool) (v w : Z) : Prop :=
  type_min size u <= w <= type_max size u /\ exists k, v - w = k * 2^(8*size).

