(** String escaping by the compiler (src/util/util.c:614-661) and unescaping by
    the assembler (src/as/parse_asm.c:702-750).

    Characters are bytes, [Z] in [0,256); a C [char] above 127 is negative on
    the targets, so [c < 0x20 || c >= 0x7f] holds for it. *)
From stdpp Require Import base list numbers.
Local Open Scope Z_scope.

Definition hexdigit (v : Z) : Z := if v <? 10 then 48 + v else 97 + (v - 10).

(** src/util/util.c:614-618 escape_hex: "\\x%02x". *)
Definition escape_hex (c : Z) : list Z := [92; 120; hexdigit (c / 16); hexdigit (c mod 16)].

(** src/util/util.c:620-633 escape; [None] is NULL. *)
Definition escape (c : Z) : option (list Z) :=
  if c =? 0 then Some [92; 48]
  else if c =? 10 then Some [92; 110]
  else if c =? 13 then Some [92; 114]
  else if c =? 9 then Some [92; 116]
  else if c =? 34 then Some [92; 34]
  else if c =? 92 then Some [92; 92]
  else if (c <? 32) || (127 <=? c) then Some (escape_hex c)
  else None.

(** C [isxdigit] in the "C" locale (a negative char is no digit). *)
Definition isxdigit (c : Z) : bool :=
  ((48 <=? c) && (c <=? 57)) || ((65 <=? c) && (c <=? 70)) || ((97 <=? c) && (c <=? 102)).

(** src/util/util.c:635-661 escape_string.  [run] is the pending text [s..p)
    not yet appended; the result is the concatenation of the pieces appended
    to the StringBuffer.  [None] is the failing assert of line 658. *)
Fixpoint escape_loop (str : list Z) (run : list Z) (hex : bool) : option (list Z) :=
  match str with
  | [] => match run with
          | [] => Some []
          | _ => if hex then None else Some run
          end
  | c :: str =>
    match (if hex && isxdigit c then Some (escape_hex c) else escape c) with
    | None => escape_loop str (run ++ [c]) false
    | Some e =>
      out ← escape_loop str [] (bool_decide (e !! 1%nat = Some 120));
      Some (run ++ e ++ out)
    end
  end.
Definition escape_string (str : list Z) : option (list Z) := escape_loop str [] false.

(** src/util/util.c:41-46 xvalue; -1 is [None]. *)
Definition xvalue (c : Z) : option Z :=
  if (48 <=? c) && (c <=? 57) then Some (c - 48)
  else if (65 <=? c) && (c <=? 70) then Some (c - 55)
  else if (97 <=? c) && (c <=? 102) then Some (c - 87)
  else None.

(** src/as/parse_asm.c:707-718: up to two hex digits. *)
Fixpoint hex_loop (i : nat) (p : list Z) (c : Z) : Z * list Z :=
  match i, p with
  | S i, d :: p' =>
    match xvalue d with
    | Some v => hex_loop i p' (Z.lor (c * 16) v mod 256)
    | None => (c, p)
    end
  | _, _ => (c, p)
  end.

(** src/as/parse_asm.c:702-733 unescape_char: the text after the backslash gives
    the character and the text after the escape.  [None]: parse error. *)
Definition unescape_char (p : list Z) : option (Z * list Z) :=
  match p with
  | [] => None
  | c :: p =>
    if c =? 48 then Some (0, p)
    else if c =? 120 then Some (hex_loop 2 p 0)
    else if c =? 97 then Some (7, p)
    else if c =? 98 then Some (8, p)
    else if c =? 102 then Some (12, p)
    else if c =? 110 then Some (10, p)
    else if c =? 114 then Some (13, p)
    else if c =? 116 then Some (9, p)
    else if c =? 118 then Some (11, p)
    else if (c =? 39) || (c =? 34) || (c =? 92) then Some (c, p)
    else None
  end.

(** src/as/parse_asm.c:735-750 unescape_string, from just after the opening
    quote: the characters and the text after the closing quote.  [fuel] bounds
    the text length; [None] is a parse error (NUL before the closing quote,
    illegal escape). *)
Fixpoint unescape_loop (fuel : nat) (p : list Z) : option (list Z * list Z) :=
  match fuel with
  | O => None
  | S fuel =>
    match p with
    | [] => None
    | c :: p =>
      if c =? 34 then Some ([], p)
      else if c =? 0 then None
      else if c =? 92 then
        '(c, p) ← unescape_char p;
        '(s, rest) ← unescape_loop fuel p;
        Some (c :: s, rest)
      else
        '(s, rest) ← unescape_loop fuel p;
        Some (c :: s, rest)
    end
  end.
Definition unescape_string (p : list Z) : option (list Z * list Z) :=
  unescape_loop (S (length p)) p.
