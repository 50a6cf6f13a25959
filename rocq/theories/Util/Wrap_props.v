(** Property theorem C10: integer narrowing. *)
From Coq Require Import ZArith.
From Verif Require Import Util.Wrap_model Util.Wrap_spec Util.Wrap_proof.
Local Open Scope Z_scope.

(** C10: conversion to every integer type whose values a Fixnum (int64_t) can
    hold: the unique congruent value in the type's range. *)
Theorem C10_wrap_is_conversion : forall v size u, -2^63 <= v < 2^63 ->
  size = 1 \/ size = 2 \/ size = 4 \/ (size = 8 /\ u = false) ->
  converts size u v (wrap_value v size u) /\
  forall w, converts size u v w -> w = wrap_value v size u.
Proof. exact wrap_is_the_conversion. Qed.
Print Assumptions C10_wrap_is_conversion.

(** Unsigned 64-bit values are carried in an int64_t: unchanged. *)
Theorem C10_wrap_u64 : forall v, -2^63 <= v < 2^63 -> wrap_value v 8 true = v.
Proof. exact wrap_u64. Qed.
Print Assumptions C10_wrap_u64.

Theorem C10_wrap_idempotent : forall v size u, -2^63 <= v < 2^63 ->
  size = 1 \/ size = 2 \/ size = 4 \/ size = 8 ->
  wrap_value (wrap_value v size u) size u = wrap_value v size u.
Proof. exact wrap_idempotent. Qed.
Print Assumptions C10_wrap_idempotent.

(** The immediate-range predicates test the range of the type. *)
Theorem C10_is_imm_range : forall x,
  (is_im8 x = true <-> -2^7 <= x < 2^7) /\ (is_im16 x = true <-> -2^15 <= x < 2^15) /\
  (is_im32 x = true <-> -2^31 <= x < 2^31).
Proof. exact is_imm_ok. Qed.
Print Assumptions C10_is_imm_range.

Example C10_example :
  wrap_value 200 1 false = -56 /\ wrap_value (-1) 2 true = 65535 /\ wrap_value (2^31) 4 false = -2^31.
Proof. vm_compute. auto. Qed.
