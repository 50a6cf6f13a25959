(** What the instructions of the intermediate representation compute, stated
    independently of how the compiler transforms them. *)
From stdpp Require Import base list numbers.
From Coq Require Import Floats.SpecFloat.
Open Scope Z_scope.

(** The integer a register of [size] bytes stands for, signed or unsigned; registers are
    known modulo 2^(8*size). *)
Definition view (size : Z) (uns : bool) (z : Z) : Z :=
  let n := 8 * size in
  if uns then z mod 2 ^ n else (z + 2 ^ (n - 1)) mod 2 ^ n - 2 ^ (n - 1).

(** The six comparisons, and always and never. *)
Inductive cmp := CNever | CAlways | CEq | CNe | CLt | CLe | CGe | CGt.
Definition cmp_int (c : cmp) (a b : Z) : bool :=
  match c with
  | CNever => false | CAlways => true
  | CEq => bool_decide (a = b) | CNe => bool_decide (a <> b)
  | CLt => bool_decide (a < b) | CLe => bool_decide (a <= b)
  | CGe => bool_decide (b <= a) | CGt => bool_decide (b < a)
  end.
(** IEEE comparisons: with a NaN only `not equal' holds. *)
Definition cmp_float (c : cmp) (a b : spec_float) : bool :=
  match c, SFcompare a b with
  | CNever, _ => false | CAlways, _ => true
  | CEq, Some Eq => true
  | CNe, Some Eq => false | CNe, _ => true
  | CLt, Some Lt => true
  | CLe, Some (Lt | Eq) => true
  | CGe, Some (Gt | Eq) => true
  | CGt, Some Gt => true
  | _, _ => false
  end.

(** How a comparison and its two flags are written as a number. *)
Definition cmps : list cmp := [CNever; CAlways; CEq; CNe; CLt; CLe; CGe; CGt].
Definition code (k : cmp) : Z :=
  match k with
  | CNever => 0 | CAlways => 1 | CEq => 2 | CNe => 3 | CLt => 4 | CLe => 5 | CGe => 6 | CGt => 7
  end.
Definition cond_code (k : cmp) (uns flo : bool) : Z := code k + (if uns then 8 else 0) + (if flo then 16 else 0).

(** The comparison of two registers of [size] bytes under a condition code. *)
Definition cond_holds (size : Z) (cond : Z) (a b : Z) : bool :=
  match cmps !! Z.to_nat (cond mod 8) with
  | Some k => let u := Z.testbit cond 3 in cmp_int k (view size u a) (view size u b)
  | None => false
  end.
