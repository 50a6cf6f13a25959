(** Model of the lexer: /repo/src/cc/frontend/lexer.c, with the character
    classes of /repo/src/util/util.c.

    A text is the list of its bytes (0..255) without the final NUL; reading at the
    end gives 0.  The input is the rest of the current line and the lines after it.
    Simplifications: line numbers and file names are left out; no
    lex_eof_callback; strtold is a parameter that says how many bytes it takes; a
    floating literal keeps its spelling; token positions (begin, end) are kept as
    the number of bytes left. *)
From stdpp Require Import base list numbers.
From Verif Require Import Cpp.Cond_model.
Open Scope Z_scope.

Inductive res (A : Type) := Ok (a : A) | Err | Undef | NoFuel.
Arguments Ok {A}. Arguments Err {A}. Arguments Undef {A}. Arguments NoFuel {A}.
Definition bindr {A B} (m : res A) (f : A -> res B) : res B :=
  match m with Ok a => f a | Err => Err | Undef => Undef | NoFuel => NoFuel end.
Notation "'let!' p := m 'in' k" := (bindr m (fun p => k))
  (at level 200, p pattern, m at level 100, k at level 200, right associativity).

(** *p, NUL at the end. *)
Definition hd0 (p : str) : Z := default 0 (head p).

(** ast.h:47-149 enum TokenKind, operators and punctuators. *)
Inductive opk :=
| TK_ADD | TK_SUB | TK_MUL | TK_DIV | TK_MOD | TK_AND | TK_OR | TK_HAT | TK_NOT
| TK_LPAR | TK_RPAR | TK_LBRACE | TK_RBRACE | TK_LBRACKET | TK_RBRACKET | TK_ASSIGN
| TK_COLON | TK_SEMICOL | TK_COMMA | TK_DOT | TK_QUESTION | TK_TILDA
| TK_LSHIFT | TK_RSHIFT | TK_EQ | TK_NE | TK_LT | TK_LE | TK_GE | TK_GT
| TK_LOGAND | TK_LOGIOR | TK_ARROW
| TK_ADD_ASSIGN | TK_SUB_ASSIGN | TK_MUL_ASSIGN | TK_DIV_ASSIGN | TK_MOD_ASSIGN
| TK_AND_ASSIGN | TK_OR_ASSIGN | TK_HAT_ASSIGN | TK_LSHIFT_ASSIGN | TK_RSHIFT_ASSIGN
| TK_INC | TK_DEC | TK_ELLIPSIS
| PPTK_CONCAT | PPTK_STRINGIFY.
#[global] Instance opk_eq_dec : EqDecision opk.
Proof. solve_decision. Defined.

(** Keywords. *)
Inductive kwk :=
| TK_IF | TK_ELSE | TK_SWITCH | TK_CASE | TK_DEFAULT | TK_DO | TK_WHILE | TK_FOR | TK_BREAK | TK_CONTINUE
| TK_GOTO | TK_RETURN | TK_VOID | TK_CHAR | TK_SHORT | TK_INT | TK_LONG | TK_CONST | TK_UNSIGNED | TK_SIGNED
| TK_STATIC | TK_INLINE | TK_EXTERN | TK_VOLATILE | TK_RESTRICT | TK_AUTO | TK_REGISTER | TK_STRUCT | TK_UNION
| TK_ENUM | TK_BOOL | TK_SIZEOF | TK_ALIGNOF | TK_TYPEDEF | TK_ASM | TK_FLOAT | TK_DOUBLE | TK_ATTRIBUTE
| TK_NORETURN | TK_GENERIC | TK_AUTO_TYPE | TK_TYPEOF.
#[global] Instance kwk_eq_dec : EqDecision kwk.
Proof. solve_decision. Defined.

(** ast.h:151-160 the flags of an integer literal, taken apart: how many l, u,
    character constant, base (10 is TKF_KIND_PLANE). *)
Record intflag := IntFlag { f_long : Z; f_unsigned : bool; f_char : bool; f_base : Z }.
Inductive flok := TK_FLOATLIT | TK_DOUBLELIT | TK_LDOUBLELIT.

Inductive token :=
| TEof
| TOp (k : opk)
| TKey (k : kwk)
| TIdent (name : str)
| TInt (value : Z) (flag : intflag)      (* value: Fixnum, int64_t *)
| TFlo (k : flok) (text : str)
| TStr (bytes : str)                     (* str.buf, with the final NUL *)
| TWstr (chars : list Z)
| TOtherChar (text : str).

(** lexer.c:20-65 kReservedWords, as bytes. *)
Definition kReservedWords : list (str * kwk) :=
  [([105;102], TK_IF); ([101;108;115;101], TK_ELSE); ([115;119;105;116;99;104], TK_SWITCH);
   ([99;97;115;101], TK_CASE); ([100;101;102;97;117;108;116], TK_DEFAULT); ([100;111], TK_DO);
   ([119;104;105;108;101], TK_WHILE); ([102;111;114], TK_FOR); ([98;114;101;97;107], TK_BREAK);
   ([99;111;110;116;105;110;117;101], TK_CONTINUE); ([103;111;116;111], TK_GOTO);
   ([114;101;116;117;114;110], TK_RETURN); ([118;111;105;100], TK_VOID); ([99;104;97;114], TK_CHAR);
   ([115;104;111;114;116], TK_SHORT); ([105;110;116], TK_INT); ([108;111;110;103], TK_LONG);
   ([99;111;110;115;116], TK_CONST); ([117;110;115;105;103;110;101;100], TK_UNSIGNED);
   ([115;105;103;110;101;100], TK_SIGNED); ([115;116;97;116;105;99], TK_STATIC);
   ([105;110;108;105;110;101], TK_INLINE); ([101;120;116;101;114;110], TK_EXTERN);
   ([118;111;108;97;116;105;108;101], TK_VOLATILE); ([114;101;115;116;114;105;99;116], TK_RESTRICT);
   ([97;117;116;111], TK_AUTO); ([114;101;103;105;115;116;101;114], TK_REGISTER);
   ([115;116;114;117;99;116], TK_STRUCT); ([117;110;105;111;110], TK_UNION); ([101;110;117;109], TK_ENUM);
   ([95;66;111;111;108], TK_BOOL); ([115;105;122;101;111;102], TK_SIZEOF);
   ([95;65;108;105;103;110;111;102], TK_ALIGNOF); ([116;121;112;101;100;101;102], TK_TYPEDEF);
   ([95;95;97;115;109], TK_ASM); ([102;108;111;97;116], TK_FLOAT); ([100;111;117;98;108;101], TK_DOUBLE);
   ([95;95;97;116;116;114;105;98;117;116;101;95;95], TK_ATTRIBUTE);
   ([95;78;111;114;101;116;117;114;110], TK_NORETURN); ([95;71;101;110;101;114;105;99], TK_GENERIC);
   ([95;95;97;117;116;111;95;116;121;112;101], TK_AUTO_TYPE); ([116;121;112;101;111;102], TK_TYPEOF);
   ([95;95;116;121;112;101;111;102;95;95], TK_TYPEOF)].

(** lexer.c:67-93 kMultiOperators. *)
Definition kMultiOperators : list (str * opk) :=
  [([60;60;61], TK_LSHIFT_ASSIGN); ([62;62;61], TK_RSHIFT_ASSIGN); ([46;46;46], TK_ELLIPSIS);
   ([61;61], TK_EQ); ([33;61], TK_NE); ([60;61], TK_LE); ([62;61], TK_GE);
   ([43;61], TK_ADD_ASSIGN); ([45;61], TK_SUB_ASSIGN); ([42;61], TK_MUL_ASSIGN); ([47;61], TK_DIV_ASSIGN);
   ([37;61], TK_MOD_ASSIGN); ([38;61], TK_AND_ASSIGN); ([124;61], TK_OR_ASSIGN); ([94;61], TK_HAT_ASSIGN);
   ([43;43], TK_INC); ([45;45], TK_DEC); ([45;62], TK_ARROW); ([38;38], TK_LOGAND); ([124;124], TK_LOGIOR);
   ([60;60], TK_LSHIFT); ([62;62], TK_RSHIFT)].

(** lexer.c:95-109 kOperatorMap, 111-123 kPunctMap. *)
Definition kOperatorMap (c : Z) : option opk :=
  match c with
  | 43 => Some TK_ADD | 45 => Some TK_SUB | 42 => Some TK_MUL | 47 => Some TK_DIV | 37 => Some TK_MOD
  | 38 => Some TK_AND | 124 => Some TK_OR | 94 => Some TK_HAT | 60 => Some TK_LT | 62 => Some TK_GT
  | 33 => Some TK_NOT | 61 => Some TK_ASSIGN | 46 => Some TK_DOT
  | _ => None
  end.
Definition kPunctMap (c : Z) : option opk :=
  match c with
  | 40 => Some TK_LPAR | 41 => Some TK_RPAR | 123 => Some TK_LBRACE | 125 => Some TK_RBRACE
  | 91 => Some TK_LBRACKET | 93 => Some TK_RBRACKET | 58 => Some TK_COLON | 59 => Some TK_SEMICOL
  | 44 => Some TK_COMMA | 63 => Some TK_QUESTION | 126 => Some TK_TILDA
  | _ => None
  end.

Fixpoint assoc {A} (x : str) (l : list (str * A)) : option A :=
  match l with [] => None | (y, a) :: l => if decide (x = y) then Some a else assoc x l end.

(** util.c:18-46. *)
Definition isutf8first (c : Z) : nat :=
  if c <? 0xc0 then 0 else if 0xfc <=? c then 6 else if 0xf8 <=? c then 5
  else if 0xf0 <=? c then 4 else if 0xe0 <=? c then 3 else 2.
Definition isutf8follow (c : Z) : bool := (0x80 <=? c) && (c <? 0xc0).
Definition isoctal (c : Z) : bool := (48 <=? c) && (c <=? 55).
Definition xvalue (c : Z) : option Z :=
  if (48 <=? c) && (c <=? 57) then Some (c - 48)
  else if (65 <=? c) && (c <=? 70) then Some (c - 55)
  else if (97 <=? c) && (c <=? 102) then Some (c - 87) else None.
Definition isalpha (c : Z) : bool := (65 <=? c) && (c <=? 90) || (97 <=? c) && (c <=? 122).
Definition tolower (c : Z) : Z := if (65 <=? c) && (c <=? 90) then c + 32 else c.

(** char, signed. *)
Definition schar (z : Z) : Z := (z + 128) mod 256 - 128.

(** lexer.c:177-182 and 190-195. *)
Fixpoint octals (n : nat) (vv : Z) (p : str) : Z * str :=
  match n, p with
  | S n, c :: p' => if isoctal c then octals n (schar (Z.lor (Z.shiftl vv 3) (c - 48))) p' else (vv, p)
  | _, _ => (vv, p)
  end.
Fixpoint hexes (n : nat) (vv : Z) (p : str) : Z * str :=
  match n, p with
  | S n, c :: p' => match xvalue c with
                    | Some v => hexes n (schar (Z.lor (Z.shiftl vv 4) v)) p'
                    | None => (vv, p)
                    end
  | _, _ => (vv, p)
  end.

(** lexer.c:167-213 backslash; [p] is the text after [c]; gives the value and the
    text after the escape. *)
Definition backslash (c : Z) (is_wide : bool) (p : str) : res (Z * str) :=
  if (c =? 48) && negb (isoctal (hd0 p)) then Ok (0, p)
  else if isoctal c then Ok (octals (if is_wide then 11 else 2) (c - 48) p)
  else match c with
       | 120 => Ok (hexes (if is_wide then 8 else 2) 0 p)
       | 97 => Ok (7, p) | 98 => Ok (8, p) | 102 => Ok (12, p) | 110 => Ok (10, p)
       | 114 => Ok (13, p) | 116 => Ok (9, p) | 118 => Ok (11, p)
       | 39 | 34 | 92 => Ok (c, p)
       | _ => Err
       end.

(** lexer.c:303-340 read_next_line: lines that start with # are line markers. *)
Fixpoint read_next_line (lines : list str) : option (str * list str) :=
  match lines with
  | [] => None
  | l :: ls => if hd0 l =? 35 then read_next_line ls else Some (l, ls)
  end.

(** lexer.c:342-352 skip_block_comment. *)
Fixpoint skip_block_comment (fuel : nat) (p : str) (ls : list str) : res (str * list str) :=
  match fuel with
  | O => NoFuel
  | S fuel =>
    match block_comment_end p with
    | Some q => Ok (q, ls)
    | None => match read_next_line ls with
              | None => Err
              | Some (l, ls') => skip_block_comment fuel l ls'
              end
    end
  end.

(** lexer.c:358-390 skip_whitespace_or_comment; [None] is NULL. *)
Fixpoint skip_ws (fuel : nat) (p : str) (ls : list str) : res (option (str * list str)) :=
  match fuel with
  | O => NoFuel
  | S fuel =>
    let next := match read_next_line ls with
                | None => Ok None
                | Some (l, ls') => skip_ws fuel l ls'
                end in
    match skip_whitespaces p with
    | [] => next
    | (47 :: 42 :: q) => let! (q', ls') := skip_block_comment (S (length ls)) q ls in skip_ws fuel q' ls'
    | (47 :: 47 :: _) => next
    | p' => Ok (Some (p', ls))
    end
  end.
Definition skip_whitespace_or_comment (p : str) (ls : list str) : res (option (str * list str)) :=
  skip_ws (S (total_length p ls + length ls)) p ls.

(** C11 7.22.1.4 strtoull for a given base: the value and the text left. *)
Definition digit_in (base : Z) (c : Z) : option Z :=
  let v := if isdigit c then Some (c - 48) else if (97 <=? tolower c) && (tolower c <=? 122) then Some (tolower c - 87) else None in
  match v with Some v => if v <? base then Some v else None | None => None end.
Fixpoint digits (base : Z) (v : Z) (p : str) : Z * str :=
  match p with
  | c :: p' => match digit_in base c with Some d => digits base (v * base + d) p' | None => (v, p) end
  | [] => (v, [])
  end.
Definition is_some {A} (o : option A) : bool := match o with Some _ => true | None => false end.
Definition strtoull (p : str) (base : Z) : Z * str :=
  let q := skip_whitespaces p in
  let '(neg, q) := match q with 45 :: q => (true, q) | 43 :: q => (false, q) | _ => (false, q) end in
  let q := match q with
           | 48 :: x :: c :: r => if (base =? 16) && (tolower x =? 120) && is_some (digit_in 16 c) then c :: r else q
           | _ => q
           end in
  if is_some (digit_in base (hd0 q)) then
    let '(v, r) := digits base 0 q in
    let v := if v <? 2 ^ 64 then (if neg : bool then (- v) mod 2 ^ 64 else v) else 2 ^ 64 - 1 in
    (v, r)
  else (0, p).

(** fixnum.value = val: unsigned long long to int64_t. *)
Definition to_int64 (v : Z) : Z := (v + 2 ^ 63) mod 2 ^ 64 - 2 ^ 63.

Section lexer.
  (** for_preprocess. *)
  Context (for_preprocess : bool).
  (** How many bytes strtold takes. *)
  Context (strtold : str -> nat).

  (** lexer.c:162-165 reserved_word. *)
  Definition reserved_op (s : str) : option opk := assoc s kMultiOperators.
  Definition reserved_key (s : str) : option kwk := if for_preprocess then None else assoc s kReservedWords.

  (** lexer.c:393-432 read_flonum. *)
  Definition read_flonum (p : str) (base : Z) : res (token * str) :=
    let n := strtold p in
    let next := drop n p in
    let '(k, n') := if tolower (hd0 next) =? 102 then (TK_FLOATLIT, S n)
                    else if tolower (hd0 next) =? 108 then (TK_LDOUBLELIT, S n) else (TK_DOUBLELIT, n) in
    if (base =? 16) && negb (existsb (fun c => tolower c =? 112) (take n' p)) then Err
    else Ok (TFlo k (take n' p), drop n' p).

  (** lexer.c:472-487 the suffix: counts of u and l. *)
  Fixpoint suffix (p : str) (u l : Z) : res (Z * Z * str) :=
    match p with
    | c :: p' =>
      if tolower c =? 117 then if 0 <? u then Err else suffix p' (u + 1) l
      else if tolower c =? 108 then if 1 <? l then Err else suffix p' u (l + 1)
      else Ok (u, l, p)
    | [] => Ok (u, l, [])
    end.

  (** lexer.c:436-457 the base, and where the digits start. *)
  Definition num_base (start : str) : Z * str :=
    match start with
    | 48 :: c :: p => if tolower c =? 120 then (16, p)
                      else if tolower c =? 98 then (2, p)
                      else if isdigit (tolower c) then (8, start) else (10, start)
    | _ => (10, start)
    end.
  (** lexer.c:435-493 read_num. *)
  Definition read_num (start : str) : res (token * str) :=
    let '(base, p) := num_base start in
    if (base =? 16) && (hd0 p =? 46) then read_flonum start 16
    else
      let '(val, r) := strtoull p base in
      if decide (length r = length p) then Err
      else if (base =? 16) && ((hd0 r =? 46) || (tolower (hd0 r) =? 112)) then read_flonum start 16
      else if (hd0 r =? 46) || (tolower (hd0 r) =? 101) then
        if negb (base =? 10) then Err else read_flonum start 10
      else
        let! (u, l, r') := suffix r 0 0 in
        Ok (TInt (to_int64 val) (IntFlag l (0 <? u) false base), r').

  (** lexer.c:495-517 read_ident, after the first byte: [ucc] bytes must follow. *)
  Fixpoint ident_rest (ucc : nat) (p : str) : res (str * str) :=
    match p with
    | [] => match ucc with O => Ok ([], []) | _ => Err end
    | c :: p' =>
      match ucc with
      | S u => if isutf8follow c then let! (a, b) := ident_rest u p' in Ok (c :: a, b) else Err
      | O => match isutf8first c with
             | S (S u) => let! (a, b) := ident_rest (S u) p' in Ok (c :: a, b)
             | _ => if isalnum_ c then let! (a, b) := ident_rest 0 p' in Ok (c :: a, b) else Ok ([], p)
             end
      end
    end.
  (** The identifier and the rest; [None] is NULL. *)
  Definition read_ident (p : str) : res (option (str * str)) :=
    match p with
    | [] => Ok None
    | c :: p' =>
      let ucc := (isutf8first c - 1)%nat in
      if bool_decide (0 < ucc)%nat || isalpha c || (c =? 95)
      then let! (a, b) := ident_rest ucc p' in Ok (Some (c :: a, b))
      else Ok None
    end.

  (** lexer.c:533-539 the continuation bytes; an int that overflows is undefined. *)
  Fixpoint utf8_rest (n : nat) (c : Z) (p : str) : res (Z * str) :=
    match n with
    | O => Ok (c, p)
    | S n => match p with
             | c2 :: p' => if isutf8follow c2
                           then let v := Z.lor (Z.shiftl c 6) (Z.land c2 0x3f) in
                                if v <? 2 ^ 31 then utf8_rest n v p' else Undef
                           else Err
             | [] => Err
             end
    end.

  (** lexer.c:519-545 read_utf8_char; at the end of the text the character is NUL and
      the pointer one past it ([None]). *)
  Definition read_utf8_char (p : str) (is_wide : bool) : res (Z * option str) :=
    match p with
    | [] => Ok (0, None)
    | 92 :: [] => Ok (0, Some [])
    | 92 :: c :: p' => let! (v, r) := backslash (schar c) is_wide p' in Ok (v, Some r)
    | c :: p' => match isutf8first c with
                 | O => Ok (schar c, Some p')
                 | S n => let! (v, r) := utf8_rest n (Z.land c (2 ^ (8 - Z.of_nat (S n)) - 1)) p' in Ok (v, Some r)
                 end
    end.

  (** lexer.c:547-573 read_char; [p] is the text after the opening quote. *)
  Definition read_char (is_wide : bool) (p : str) : res (token * str) :=
    match p with
    | 39 :: _ => Err
    | _ =>
      let! (c, q) := read_utf8_char p is_wide in
      match q with
      | Some (39 :: r) => Ok (TInt c (IntFlag (if is_wide then 1 else 0) is_wide true 10), r)
      | Some _ => Err
      | None => Undef
      end
    end.

  (** lexer.c:576-598 convert_str_to_wstr. *)
  Fixpoint wide (fuel : nat) (p : str) : res (list Z) :=
    match fuel with
    | O => NoFuel
    | S fuel =>
      let! (c, q) := read_utf8_char p true in
      if c =? 0 then Ok [0]
      else match q with
           | Some r => let! cs := wide fuel r in Ok (c :: cs)
           | None => Undef
           end
    end.
  (** The buffer stops at its first NUL. *)
  Fixpoint until_nul (s : str) : str :=
    match s with c :: s' => if c =? 0 then [] else c :: until_nul s' | [] => [] end.

  (** lexer.c:619-636 the characters of one literal. *)
  Fixpoint string_body (fuel : nat) (is_wide : bool) (p : str) (acc : str) : res (str * str) :=
    match fuel with
    | O => NoFuel
    | S fuel =>
      match p with
      | [] => Err
      | 34 :: r => Ok (acc, r)
      | 92 :: [] => Err
      | 92 :: c :: p' => let! (v, r) := backslash c is_wide p' in
                         string_body fuel is_wide r (acc ++ [v mod 256])
      | c :: p' => string_body fuel is_wide p' (acc ++ [c])
      end
    end.
  (** lexer.c:601-666 read_string, with the lines that are left. *)
  Fixpoint read_string (fuel : nat) (is_wide : bool) (p : str) (ls : list str) (acc : str) :
      res (token * str * list str) :=
    match fuel with
    | O => NoFuel
    | S fuel =>
      let is_wide' := is_wide || (hd0 p =? 76) in
      let body := match p with
                  | 76 :: 34 :: b => Ok b
                  | 76 :: _ => Err
                  | _ :: b => Ok b
                  | [] => Undef
                  end in
      let! b := body in
      let! (acc', r) := string_body (S (length b)) is_wide' b acc in
      let finish (q : str) (ls' : list str) :=
        if is_wide' then let! cs := wide (S (length acc')) (until_nul acc') in Ok (TWstr cs, q, ls')
        else Ok (TStr (acc' ++ [0]), q, ls') in
      if for_preprocess then finish r ls
      else
        let! o := skip_whitespace_or_comment r ls in
        match o with
        | None => finish r []
        | Some (q, ls') =>
          match q with
          | 34 :: _ | 76 :: 34 :: _ => read_string fuel is_wide' q ls' acc'
          | _ => finish q ls'
          end
        end
    end.

  (** lexer.c:668-718 get_op_token: the kind and how many bytes. *)
  Definition op_char (c : Z) : bool := is_some (kOperatorMap c).
  Definition get_op_token (p : str) : option (opk * nat) :=
    match p with
    | [] => None
    | c :: p' =>
      if for_preprocess && (c =? 35) then
        Some (if hd0 p' =? 35 then (PPTK_CONCAT, 2%nat) else (PPTK_STRINGIFY, 1%nat))
      else match kPunctMap c with
      | Some k => Some (k, 1%nat)
      | None =>
        match kOperatorMap c with
        | None => None
        | Some single =>
          let n := if op_char (hd0 p') then if op_char (hd0 (drop 1 p')) then 3%nat else 2%nat else 1%nat in
          match (if bool_decide (3 <= n)%nat then reserved_op (take 3 p) else None) with
          | Some k => Some (k, 3%nat)
          | None =>
            match (if bool_decide (2 <= n)%nat then reserved_op (take 2 p) else None) with
            | Some k => Some (k, 2%nat)
            | None => Some (single, 1%nat)
            end
          end
        end
      end
    end.

  (** lexer.c:733-781 get_token, after white space: [p] is not empty. *)
  Definition token_at (p : str) (ls : list str) : res (token * str * list str) :=
    let keep (m : res (token * str)) := let! (t, r) := m in Ok (t, r, ls) in
    match p with
    | 76 :: 39 :: r => keep (read_char true r)
    | 76 :: 34 :: _ => read_string (S (total_length p ls)) false p ls []
    | 39 :: r => keep (read_char false r)
    | 34 :: _ => read_string (S (total_length p ls)) false p ls []
    | _ =>
      if isdigit (hd0 p) then keep (read_num p)
      else if (hd0 p =? 46) && isdigit (hd0 (drop 1 p)) then keep (read_flonum p 10)
      else match get_op_token p with
           | Some (k, n) => Ok (TOp k, drop n p, ls)
           | None =>
             let! o := read_ident p in
             match o with
             | Some (name, r) =>
               Ok (match reserved_key name with Some k => TKey k | None => TIdent name end, r, ls)
             | None =>
               if negb for_preprocess then Err
               else match p with
                    | [] => Undef
                    | c :: p' => (* 768-772: a signed char is never isutf8follow *)
                      Ok (TOtherChar [c], p', ls)
                    end
             end
           end
    end.
  Definition get_token (p : str) (ls : list str) : res (token * str * list str) :=
    let! o := skip_whitespace_or_comment p ls in
    match o with
    | None => Ok (TEof, [], [])
    | Some (p', ls') => token_at p' ls'
    end.

  (** All tokens to the end. *)
  Fixpoint lex_all (fuel : nat) (p : str) (ls : list str) : res (list token) :=
    match fuel with
    | O => NoFuel
    | S fuel =>
      let! (t, p', ls') := get_token p ls in
      match t with
      | TEof => Ok []
      | _ => let! ts := lex_all fuel p' ls' in Ok (t :: ts)
      end
    end.
End lexer.

(** lexer.c:783-807 the tokens handed out and given back: [fetched] is
    lexer.fetched[0..idx], last first. *)
Record stream := Stream { fetched : list token; ahead : list token }.
Definition is_eof (t : token) : bool := match t with TEof => true | _ => false end.
Definition produce (s : stream) : token * list token :=
  match ahead s with [] => (TEof, []) | t :: ts => (t, ts) end.
Definition fetch_token (s : stream) : token * stream :=
  match fetched s with
  | t :: _ => (t, s)
  | [] => let '(t, ts) := produce s in (t, Stream [t] ts)
  end.
(** match(kind); [accept] is the comparison with kind, or true for -1. *)
Definition match_token (accept : token -> bool) (s : stream) : option token * stream :=
  let '(t, s') := fetch_token s in
  if accept t then (Some t, if is_eof t then s' else Stream (tail (fetched s')) (ahead s'))
  else (None, s').
(** unget_token: [None] is the assertion, MAX_LEX_LOOKAHEAD 3. *)
Definition unget_token (t : token) (s : stream) : option stream :=
  if is_eof t then Some s
  else if bool_decide (length (fetched s) < 3)%nat then Some (Stream (t :: fetched s) (ahead s)) else None.

(** type.h:17-23 the kinds of integer literals; type.c:9-10 sizes on a 64-bit target. *)
Inductive fxk := FX_CHAR | FX_INT | FX_LONG | FX_LLONG.
#[global] Instance fxk_dec : EqDecision fxk. Proof. solve_decision. Defined.
Definition fx_size (k : fxk) : Z := match k with FX_CHAR => 1 | FX_INT => 4 | _ => 8 end.
(** (UFixnum)1U << n: a shift by 64 is undefined. *)
Definition shl1 (n : Z) : option Z := if n <? 64 then Some (2 ^ n) else None.
(** parser_expr.c:282-295 the loop; [fxs] are the kinds still to try before long long. *)
Fixpoint auto_upgrade (fxs : list fxk) (u : bool) (kind : bool) (value : Z) : res (fxk * bool) :=
  match fxs with
  | [] => Ok (FX_LLONG, u)
  | fx :: fxs =>
    let bits := fx_size fx * 8 - (if u then 0 else 1) in
    match shl1 bits with
    | None => Undef
    | Some m =>
      if (value <=? m - 1) && (u || (- 2 ^ (bits - 1) <=? to_int64 value)) then Ok (fx, u)
      else if u then auto_upgrade fxs u kind value
      else match shl1 (bits + 1) with
           | None => Undef
           | Some m => if (value <=? m - 1) && kind then Ok (fx, true) else auto_upgrade fxs u kind value
           end
    end
  end.
(** parser_expr.c:261-306 literal, the type of an integer token: kind and unsigned. *)
Definition literal_type (v : Z) (f : intflag) : res (fxk * bool) :=
  if f_char f then
    match f_long f with 0 => Ok (FX_CHAR, f_unsigned f) | 1 => Ok (FX_INT, f_unsigned f) | _ => Undef end
  else
    let value := v mod 2 ^ 64 in
    let! fxs := match f_long f with 0 => Ok [FX_INT; FX_LONG] | 1 => Ok [FX_LONG] | 2 => Ok [] | _ => Undef end in
    let! (fx, u) := auto_upgrade fxs (f_unsigned f) (negb (f_base f =? 10)) value in
    if negb u && bool_decide (fx = FX_LLONG) then Ok (fx, 2 ^ 63 - 1 <? value) else Ok (fx, u).
