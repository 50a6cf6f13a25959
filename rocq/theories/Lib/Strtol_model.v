(** libsrc/stdlib/_strtoull_sub.c, strtol.c, strtoll.c, strtoul.c, strtoull.c,
    _parse_sign.c and libsrc/misc/{isspace,tolower,isupper}.c.

    A pointer into a NUL-terminated string is the list of bytes from there to
    the terminator (excluded); reading at the end gives NUL.  [long] and
    [long long] have 64 bits. *)
From stdpp Require Import base list numbers.
From Verif Require Import Lib.Cmem.
Local Open Scope Z_scope.

(** [*p] as a [char]. *)
Definition cur (p : list Z) : Z := match p with [] => 0 | b :: _ => schar b end.

(** libsrc/misc/isspace.c:3-6. *)
Definition isspace (c : Z) : bool :=
  (c =? 32) || (c =? 9) || (c =? 10) || (c =? 13) || (c =? 12) || (c =? 11).

(** libsrc/misc/tolower.c:3-5. *)
Definition tolower (c : Z) : Z := if (65 <=? c) && (c <=? 90) then c + 32 else c.

(** libsrc/stdlib/_strtoull_sub.c:11-19: the digit value, or [None] (break). *)
Definition digit (base c : Z) : option Z :=
  let digimax := 48 + (if base <=? 10 then base else 10) in
  let hexmax := 97 - 10 + base in
  if (48 <=? c) && (c <? digimax) then Some (c - 48)
  else
    let c := tolower c in
    if (97 <=? c) && (c <? hexmax) then Some (c - 97 + 10) else None.

(** libsrc/stdlib/_strtoull_sub.c:20-27: accumulate one digit; unsigned long long
    arithmetic wraps. *)
Definition accumulate (base max premax result n : Z) : Z :=
  if premax <? result then max
  else
    let r := (result * base) mod 2^64 in
    let d := (max - r) mod 2^64 in
    if n <? d then (r + n) mod 2^64 else max.

Fixpoint sub_loop (base max premax : Z) (p : list Z) (result : Z) : Z * list Z :=
  match p with
  | [] => (result, [])
  | b :: p' =>
    match digit base (schar b) with
    | None => (result, p)
    | Some n => sub_loop base max premax p' (accumulate base max premax result n)
    end
  end.

(** libsrc/stdlib/_strtoull_sub.c:3-34; [max / base] with base 0 is undefined. *)
Definition strtoull_sub (p : list Z) (base max : Z) : option (Z * list Z) :=
  if decide (base = 0) then None
  else Some (sub_loop base max (max / base) p 0).

(** libsrc/stdlib/strtol.c:12-13. *)
Fixpoint skip_space (p : list Z) : list Z :=
  match p with
  | [] => []
  | b :: p' => if isspace (schar b) then skip_space p' else p
  end.

(** libsrc/stdlib/_parse_sign.c:3-9. *)
Definition parse_sign (p : list Z) : bool * list Z :=
  let c := cur p in
  (c =? 45, if (c =? 43) || (c =? 45) then tail p else p).

Definition to_s64 (v : Z) : Z := (v + 2^63) mod 2^64 - 2^63.

(** libsrc/stdlib/strtol.c:9-26 and strtoll.c:9-26.  [q == p] is tested on the
    remaining length.  [-(long)2^63] overflows in ISO C; modelled with the
    wrap-around the code relies on. *)
Definition strtol (p : list Z) (base : Z) : option (Z * list Z) :=
  let orig := p in
  let p := skip_space p in
  let '(neg, p) := parse_sign p in
  '(result, q) ← (if neg : bool then strtoull_sub p base (2^63)
                  else strtoull_sub p base (2^63 - 1));
  Some (if neg then to_s64 (- to_s64 result) else to_s64 result,
        if decide (length q = length p) then orig else q).

(** libsrc/stdlib/strtoul.c:5-14: no white space, no '-'. *)
Definition strtoul (p : list Z) (base : Z) : option (Z * list Z) :=
  let orig := p in
  let p := if cur p =? 43 then tail p else p in
  '(result, q) ← strtoull_sub p base (2^64 - 1);
  Some (result, if decide (length q = length p) then orig else q).

(** libsrc/stdlib/strtoull.c:6-19: white space, no '-'. *)
Definition strtoull (p : list Z) (base : Z) : option (Z * list Z) :=
  let orig := p in
  let p := skip_space p in
  let p := if cur p =? 43 then tail p else p in
  '(result, q) ← strtoull_sub p base (2^64 - 1);
  Some (result, if decide (length q = length p) then orig else q).

(** libsrc/stdlib/atoi.c:5-24: [int] arithmetic; overflow is undefined ([None]). *)
Definition int_ok (v : Z) : option Z := if decide (-2^31 <= v < 2^31) then Some v else None.
Fixpoint atoi_loop (p : list Z) (n : Z) : option Z :=
  match p with
  | [] => Some n
  | b :: p =>
    let c := schar b in
    if (48 <=? c) && (c <=? 57) then
      n10 ← int_ok (n * 10); n ← int_ok (n10 + (c - 48)); atoi_loop p n
    else Some n
  end.
Definition atoi (p : list Z) : option Z :=
  let p := skip_space p in
  let c := cur p in
  let p := if (c =? 45) || (c =? 43) then tail p else p in
  n ← atoi_loop p 0;
  if c =? 45 then int_ok (- n) else Some n.
