(** src/cc/backend/ir.h and ir.c: condition codes of the intermediate representation. *)
From stdpp Require Import base list numbers.
Open Scope Z_scope.

(** ir.h:113-122 enum ConditionKind, 123-127. *)
Definition COND_NONE := 0.
Definition COND_ANY := 1.
Definition COND_EQ := 2.
Definition COND_NE := 3.
Definition COND_LT := 4.
Definition COND_LE := 5.
Definition COND_GE := 6.
Definition COND_GT := 7.
Definition COND_MASK := 7.
Definition COND_UNSIGNED := Z.shiftl 1 3.
Definition COND_FLONUM := Z.shiftl 1 4.

(** ir.c:21-26; [None]: the assertion. *)
Definition swap_cond (cond : Z) : option Z :=
  if Z.land cond (Z.lnot COND_MASK) =? 0 then
    Some (if COND_LT <=? cond then COND_GT + COND_LT - cond else cond)
  else None.

(** ir.c:28-34 *)
Definition invert_cond (cond : Z) : option Z :=
  let c := Z.land cond COND_MASK in
  if (COND_EQ <=? c) && (c <=? COND_GT) then
    let ic := if c <=? COND_NE then COND_NE + COND_EQ - c else Z.lxor c 2 in
    Some (Z.lor ic (Z.land cond (Z.lnot COND_MASK)))
  else None.
