(** C11 7.22.1.4: digit sequences and their values. *)
From stdpp Require Import base list numbers.
Local Open Scope Z_scope.

(** The value of a character as a digit: 0-9, then letters of either case. *)
Definition digit_value (c : Z) : option Z :=
  if (48 <=? c) && (c <=? 57) then Some (c - 48)
  else if (65 <=? c) && (c <=? 90) then Some (c - 65 + 10)
  else if (97 <=? c) && (c <=? 122) then Some (c - 97 + 10)
  else None.
Definition is_digit (base c : Z) : Prop := exists v, digit_value c = Some v /\ v < base.

(** The number written by a digit string, most significant digit first. *)
Definition num (base : Z) (ds : list Z) : Z :=
  fold_left (fun acc c => acc * base + default 0 (digit_value c)) ds 0.

Definition is_space (c : Z) : Prop := c = 32 \/ 9 <= c <= 13.

Definition clamp (lo hi v : Z) : Z := Z.max lo (Z.min hi v).

(** [rest] starts with no digit. *)
Definition no_digit (base : Z) (rest : list Z) : Prop :=
  match rest with [] => True | c :: _ => ~ is_digit base c end.
