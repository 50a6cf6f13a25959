(** src/util/util.c:334-351 wrap_value: the casts to (u)intN_t. *)
From Coq Require Import ZArith Lia.
Local Open Scope Z_scope.

(** Conversion to an unsigned type of [n] bits. *)
Definition to_unsigned (n v : Z) : Z := v mod 2^n.
(** Conversion to a signed type of [n] bits (two's complement, as gcc/clang do). *)
Definition to_signed (n v : Z) : Z := (v + 2^(n-1)) mod 2^n - 2^(n-1).

Definition wrap_value (value size : Z) (is_unsigned : bool) : Z :=
  if is_unsigned then
    (if size =? 1 then to_unsigned 8 value
     else if size =? 2 then to_unsigned 16 value
     else if size =? 4 then to_unsigned 32 value
     else value)
  else
    (if size =? 1 then to_signed 8 value
     else if size =? 2 then to_signed 16 value
     else if size =? 4 then to_signed 32 value
     else value).

(** src/util/util.c:300-310 is_im8, is_im16, is_im32. *)
Definition is_im8 (x : Z) : bool := (x <=? 127) && (-128 <=? x).
Definition is_im16 (x : Z) : bool := (x <=? 32767) && (-32768 <=? x).
Definition is_im32 (x : Z) : bool := (x <=? 2147483647) && (-2147483648 <=? x).
