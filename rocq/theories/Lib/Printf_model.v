(** libsrc/stdio/vfprintf.c.

    The stream accepts everything: a function returns the bytes it sends and
    its result.  The format is the list of its bytes without the NUL; a
    position in it is the list from there on, so [[]] is the NUL.  Undefined
    behaviour (reading past the NUL, missing arguments, signed overflow,
    overrunning a local array) is [None]. *)
From stdpp Require Import base list numbers.
Local Open Scope Z_scope.

(** What va_arg finds: the raw 64-bit value of an integer or pointer, a string
    (NULL or its bytes without NUL), or a floating-point number.  Floating-point
    arithmetic is not modelled: a number is given by what the code computes
    from it. *)
Record flo := Flo {
  f_finite : bool; f_nan : bool; f_signbit : bool;
  f_parts : Z -> Z * Z;        (* suborder -> int_part, fraction (printfloat) *)
  f_exp : Z;                   (* normalize_float *)
  f_sparts : Z -> Z * Z }.     (* suborder -> int_part, fraction (printscientific) *)
Inductive arg := AInt (raw : Z) | AStr (s : option (list Z)) | AFlo (f : flo).

Definition out := (list Z * Z)%type.
Definition cat (a b : out) : out := (a.1 ++ b.1, a.2 + b.2).

Definition lower_digits : list Z := [48;49;50;51;52;53;54;55;56;57;97;98;99;100;101;102].
Definition upper_digits : list Z := [48;49;50;51;52;53;54;55;56;57;65;66;67;68;69;70].

(** libsrc/stdio/vfprintf.c:47-50 and 62-66: the do-while loop filling a local
    array from its end; [room] is the number of bytes left in it. *)
Fixpoint digits_loop (room : nat) (x base : Z) (digits : list Z) (acc : list Z) : option (list Z) :=
  match room with
  | O => None
  | S room =>
    d ← digits !! Z.to_nat (x mod base);
    let acc := d :: acc in
    if decide (x / base <> 0) then digits_loop room (x / base) base digits acc else Some acc
  end.

(** libsrc/stdio/vfprintf.c:28-39 putpadding ([m] is an int). *)
Definition padding_bytes (m padding : Z) : list Z :=
  if decide (m <= 0) then [] else replicate (Z.to_nat m) padding.

Definition to_u32 (v : Z) : Z := v mod 2^32.
Definition to_s32 (v : Z) : Z := (v + 2^31) mod 2^32 - 2^31.
Definition to_s64 (v : Z) : Z := (v + 2^63) mod 2^64 - 2^63.

(** libsrc/stdio/vfprintf.c:41-58 snprintullong. *)
Definition snprintullong (x base : Z) (digits : list Z) (order padding : Z) : option out :=
  ds ← digits_loop 32 x base digits [];
  let i := Z.of_nat (length ds) in
  Some (if decide (i < to_u32 order) then
          let d := to_u32 (to_u32 order - i) in
          (padding_bytes (to_s32 d) padding ++ ds, to_s32 (d + i))
        else (ds, i)).

(** libsrc/stdio/vfprintf.c:60-68 snprintullong2: one byte is taken by the NUL. *)
Definition snprintullong2 (x base : Z) (digits : list Z) : option (list Z) :=
  digits_loop 31 x base digits [].

(** libsrc/stdio/vfprintf.c:70-89 snprintstr. *)
Definition snprintstr (s : list Z) (order suborder : Z) (leftalign : bool) (padding : Z) : out :=
  let len := Z.of_nat (length s) in
  let len := if decide (0 < suborder) then Z.min len suborder else len in
  let body := take (Z.to_nat len) s in
  if decide (order <= 0 \/ order <= len) then (body, len)
  else if leftalign then (body ++ padding_bytes (order - len) padding, order)
  else (padding_bytes (order - len) padding ++ body, order).

(** libsrc/stdio/vfprintf.c:90-102 sprintsign: output and the new order. *)
Definition sprintsign (negative force : bool) (order : Z) : out * Z :=
  let s := if negative then [45] else if force then [43] else [] in
  let o := Z.of_nat (length s) in
  ((s, o), if decide (1 < order /\ 0 < o) then order - o else order).

(** libsrc/stdio/vfprintf.c:117-121. *)
Definition printnonfinite (f : flo) (order suborder : Z) (sign leftalign : bool) : out :=
  let '(o, order) := sprintsign (f_signbit f) sign order in
  cat o (snprintstr (if f_nan f then [110;97;110] else [105;110;102]) order suborder leftalign 32).

(** libsrc/stdio/vfprintf.c:123-145. *)
Definition printfloat (f : flo) (order suborder : Z) (sign leftalign : bool) (padding : Z) : option out :=
  if f_finite f then
    let '(o, order) := sprintsign (f_signbit f) sign order in
    let suborder := if decide (0 < suborder) then suborder else 6 in
    let '(int_part, fraction) := f_parts f suborder in
    a ← snprintullong int_part 10 lower_digits order padding;
    b ← snprintullong fraction 10 lower_digits suborder 48;
    Some (cat (cat (cat o a) ([46], 1)) b)
  else Some (printnonfinite f order suborder sign leftalign).

(** libsrc/stdio/vfprintf.c:185-188. *)
Fixpoint strip_zeros (fuel : nat) (fraction suborder : Z) : option (Z * Z) :=
  match fuel with
  | O => None
  | S fuel =>
    if decide (fraction mod 10 = 0 /\ 0 < suborder) then strip_zeros fuel (fraction / 10) (suborder - 1)
    else Some (fraction, suborder)
  end.

(** libsrc/stdio/vfprintf.c:166-202. *)
Definition printscientific (f : flo) (order suborder : Z) (sign leftalign : bool) (padding : Z) : option out :=
  if f_finite f then
    let '(o, order) := sprintsign (f_signbit f) sign order in
    let suborder := if decide (0 < suborder) then suborder else 6 in
    let '(int_part, fraction) := f_sparts f suborder in
    '(fraction, suborder) ← strip_zeros (S (Z.to_nat suborder)) fraction suborder;
    a ← snprintullong int_part 10 lower_digits order padding;
    b ← (if decide (fraction <> 0) then
           b ← snprintullong fraction 10 lower_digits suborder 48; Some (cat ([46], 1) b)
         else Some ([], 0));
    c ← (if decide (f_exp f <> 0) then
           let '(s, _) := sprintsign (bool_decide (f_exp f < 0)) true order in
           e ← snprintullong (Z.abs (f_exp f)) 10 lower_digits 2 48;
           Some (cat (cat ([101], 1) s) e)
         else Some ([], 0));
    Some (cat (cat (cat o a) b) c)
  else Some (printnonfinite f order suborder sign leftalign).

Definition cur (p : list Z) : Z := match p with [] => 0 | c :: _ => c end.
(** [++i]; never past the NUL. *)
Definition adv (p : list Z) : option (list Z) := match p with [] => None | _ :: p => Some p end.

Definition isdigit (c : Z) : bool := (48 <=? c) && (c <=? 57).
Definition tolower (c : Z) : Z := if (65 <=? c) && (c <=? 90) then c + 32 else c.

(** The digit loops of lines 243-245 and 253-255; [int] overflow is undefined. *)
Fixpoint number (p : list Z) (n : Z) : option (Z * list Z) :=
  match p with
  | [] => Some (n, p)
  | c :: p' =>
    if isdigit c then
      let n := n * 10 + (c - 48) in
      if decide (n < 2^31) then number p' n else None
    else Some (n, p)
  end.

Definition next_int (args : list arg) : option (Z * list arg) :=
  match args with AInt v :: args => Some (v, args) | _ => None end.

Record spec := Spec { padding : Z; order : Z; suborder : Z; sign : bool; leftalign : bool; sizez : bool; nlong : Z }.

(** libsrc/stdio/vfprintf.c:223-272: flags, width, precision and length
    modifier; the position of the conversion character. *)
Definition parse_spec (p : list Z) (args : list arg) : option (spec * list Z * list arg) :=
  '(sign, leftalign, p) ← (if decide (cur p = 43) then p ← adv p; Some (true, false, p)
                           else if decide (cur p = 45) then p ← adv p; Some (false, true, p)
                           else Some (false, false, p));
  '(padding, p) ← (if decide (cur p = 48) then p ← adv p; Some (48, p) else Some (32, p));
  '(order, p, args) ← (if (49 <=? cur p) && (cur p <=? 57) then
                         '(n, p) ← number p 0; Some (n, p, args)
                       else if decide (cur p = 42) then
                         '(v, args) ← next_int args; p ← adv p; Some (to_s32 v, p, args)
                       else Some (0, p, args));
  '(suborder, p, args) ← (if decide (cur p = 46) then
                            p ← adv p;
                            if isdigit (cur p) then '(n, p) ← number p 0; Some (n, p, args)
                            else if decide (cur p = 42) then
                              '(v, args) ← next_int args; p ← adv p; Some (to_s32 v, p, args)
                            else Some (0, p, args)
                          else Some (0, p, args));
  '(nlong, sizez, p) ← (if decide (tolower (cur p) = 108) then
                          p ← adv p;
                          if decide (tolower (cur p) = 108) then p ← adv p; Some (2, false, p)
                          else Some (1, false, p)
                        else if decide (cur p = 122) then p ← adv p; Some (0, true, p)
                        else Some (0, false, p));
  Some (Spec padding order suborder sign leftalign sizez nlong, p, args).

(** va_arg of the signed and unsigned types selected by the length modifier
    (lines 278-286 and 298-306). *)
Definition signed_arg (s : spec) (raw : Z) : Z :=
  if sizez s then to_s64 raw else if decide (nlong s = 0) then to_s32 raw else to_s64 raw.
Definition unsigned_arg (s : spec) (raw : Z) : Z :=
  if sizez s then raw mod 2^64 else if decide (nlong s = 0) then raw mod 2^32 else raw mod 2^64.

(** libsrc/stdio/vfprintf.c:274-386: the conversion; [c] is not NUL here.
    [-x] of LLONG_MIN overflows in ISO C; modelled as wrap-around. *)
Definition convert (s : spec) (c : Z) (args : list arg) : option (out * list arg) :=
  if decide (c = 100) then
    '(raw, args) ← next_int args;
    let x := signed_arg s raw in
    let negative := bool_decide (x < 0) in
    let ux := (if negative then - x else x) mod 2^64 in
    let '(o, order) := if negative || bool_decide (0 < order s) || sign s
                       then sprintsign negative (sign s) (order s) else (([], 0), order s) in
    ds ← snprintullong2 ux 10 lower_digits;
    Some (cat o (snprintstr ds order (suborder s) (leftalign s) (padding s)), args)
  else if decide (c = 117) then
    '(raw, args) ← next_int args;
    ds ← snprintullong2 (unsigned_arg s raw) 10 lower_digits;
    let ds := if sign s then 43 :: ds else ds in
    Some (snprintstr ds (order s) (suborder s) (leftalign s) (padding s), args)
  else if decide (c = 120 \/ c = 88) then
    '(raw, args) ← next_int args;
    r ← snprintullong (unsigned_arg s raw) 16 (if decide (c = 120) then lower_digits else upper_digits)
                      (order s) (padding s);
    Some (r, args)
  else if decide (c = 112) then
    '(raw, args) ← next_int args;
    ds ← snprintullong2 (raw mod 2^64) 16 lower_digits;
    Some (snprintstr (48 :: 120 :: ds) (order s) (suborder s) (leftalign s) (padding s), args)
  else if decide (c = 115) then
    match args with
    | AStr str :: args =>
      Some (snprintstr (default [40;110;117;108;108;41] str) (order s) (suborder s) (leftalign s) 32, args)
    | _ => None
    end
  else if decide (c = 99) then
    '(raw, args) ← next_int args; Some (([raw mod 256], 1), args)
  else if decide (c = 37) then Some (([37], 1), args)
  else if decide (c = 102) then
    match args with
    | AFlo f :: args =>
      r ← printfloat f (order s) (suborder s) (sign s) (leftalign s) (padding s); Some (r, args)
    | _ => None
    end
  else if decide (c = 103) then
    match args with
    | AFlo f :: args =>
      r ← printscientific f (order s) (suborder s) (sign s) (leftalign s) (padding s); Some (r, args)
    | _ => None
    end
  else Some (([37; c], 2), args).

(** libsrc/stdio/vfprintf.c:205-390.  With a NUL as conversion character the
    loop continues behind the NUL (lines 214, 377-385): undefined. *)
Fixpoint vf_loop (fuel : nat) (p : list Z) (args : list arg) : option out :=
  match fuel with
  | O => None
  | S fuel =>
    match p with
    | [] => Some ([], 0)
    | c :: p =>
      if decide (c <> 37) then r ← vf_loop fuel p args; Some (cat ([c], 1) r)
      else
        '(s, p, args) ← parse_spec p args;
        match p with
        | [] => None
        | c :: p =>
          '(o, args) ← convert s c args;
          r ← vf_loop fuel p args; Some (cat o r)
        end
    end
  end.
Definition vfprintf (fmt : list Z) (args : list arg) : option out := vf_loop (S (length fmt)) fmt args.
