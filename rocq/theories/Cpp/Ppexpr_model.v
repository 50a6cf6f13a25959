(** Model of the #if expression evaluator: /repo/src/cpp/pp_parser.c, a Pratt
    parser that computes values while it parses.

    Tokens are those the lexer delivers (after macro expansion of the line).
    Simplifications: no floating literals and no string literals (neither may
    occur in an #if expression; the code converts the former and asserts on the
    latter); comments between tokens have been removed (pp_match skips them);
    [defined X] reads X as a token, where the code reads it as raw text. *)
From stdpp Require Import base list numbers.
Open Scope Z_scope.

Inductive op :=
| Add | Sub | Mul | Div | Mod | Shl | Shr | Band | Bor | Bxor
| Eq | Ne | Lt | Le | Ge | Gt | Land | Lor | Comma | Not | Tilda.

(** TInt carries the value strtoull gave (lexer.c:452-454, 0 <= v < 2^64, or the
    int of a character constant) and whether there was a u suffix. *)
Inductive tok :=
| TInt (u : bool) (v : Z)
| TId (name : nat)
| TDefined
| TOp (o : op)
| TLpar | TRpar | TQuestion | TColon
| TOther.

(** Outcome: a value; a diagnosed error (the process exits with a message); a
    failed assert or an operation C leaves undefined (signed overflow, shift
    count, INT64_MIN / -1 traps); or not enough fuel. *)
Inductive res (A : Type) := Ok (a : A) | Err | Undef | NoFuel.
Arguments Ok {A}. Arguments Err {A}. Arguments Undef {A}. Arguments NoFuel {A}.
Definition bindr {A B} (m : res A) (f : A -> res B) : res B :=
  match m with Ok a => f a | Err => Err | Undef => Undef | NoFuel => NoFuel end.
Notation "'let!' p := m 'in' k" := (bindr m (fun p => k))
  (at level 200, p pattern, m at level 100, k at level 200, right associativity).

Definition min64 : Z := - 2 ^ 63.
Definition max64 : Z := 2 ^ 63 - 1.
Definition in64 (z : Z) : bool := (min64 <=? z) && (z <=? max64).
Definition arith (z : Z) : res Z := if in64 z then Ok z else Undef.

(** lexer.c:482 fixnum.value = val: unsigned long long to int64_t. *)
Definition to_int64 (v : Z) : Z := (v + 2 ^ 63) mod 2 ^ 64 - 2 ^ 63.

(** pp_parser.c:245-261 enum Precedence. *)
Definition PREC_NONE := 0.
Definition PREC_COMMA := 1.
Definition PREC_ASSIGN := 2.
Definition PREC_TERNARY := 3.
Definition PREC_LOGIOR := 4.
Definition PREC_LOGAND := 5.
Definition PREC_BITOR := 6.
Definition PREC_BITXOR := 7.
Definition PREC_BITAND := 8.
Definition PREC_EQ := 9.
Definition PREC_CMP := 10.
Definition PREC_SHIFT := 11.
Definition PREC_TERM := 12.
Definition PREC_FACTOR := 13.
Definition PREC_POSTFIX := 14.

(** pp_parser.c:390-440 get_rule: the precedence column. *)
Definition op_precedence (o : op) : Z :=
  match o with
  | Mul | Div | Mod => PREC_FACTOR
  | Add | Sub => PREC_TERM
  | Shl | Shr => PREC_SHIFT
  | Lt | Le | Ge | Gt => PREC_CMP
  | Eq | Ne => PREC_EQ
  | Band => PREC_BITAND
  | Bxor => PREC_BITXOR
  | Bor => PREC_BITOR
  | Land => PREC_LOGAND
  | Lor => PREC_LOGIOR
  | Comma => PREC_COMMA
  | Not | Tilda => PREC_NONE
  end.
Definition precedence (t : tok) : Z :=
  match t with TOp o => op_precedence o | TQuestion => PREC_TERNARY | _ => PREC_NONE end.

Definition of_bool (b : bool) : Z := if b then 1 else 0.

(** pp_parser.c:320-331 unary, after the operand; the default case asserts. *)
Definition unary (o : op) (v : Z) : res Z :=
  match o with
  | Add => Ok v
  | Sub => arith (- v)
  | Not => Ok (if v =? 0 then 1 else 0)
  | Tilda => Ok (Z.lnot v)
  | _ => Undef
  end.

(** pp_parser.c:333-375 binary, after both operands. *)
Definition binary (o : op) (lhs rhs : Z) : res Z :=
  match o with
  | Add => arith (lhs + rhs)
  | Sub => arith (lhs - rhs)
  | Mul => arith (lhs * rhs)
  | Div => if rhs =? 0 then Ok lhs else arith (Z.quot lhs rhs)
  | Mod => if rhs =? 0 then Ok lhs
           else if in64 (Z.quot lhs rhs) then Ok (Z.rem lhs rhs) else Undef
  | Shl => if (0 <=? rhs) && (rhs <? 64) && (0 <=? lhs) then arith (Z.shiftl lhs rhs) else Undef
  | Shr => if (0 <=? rhs) && (rhs <? 64) then Ok (Z.shiftr lhs rhs) else Undef
  | Band => Ok (Z.land lhs rhs)
  | Bor => Ok (Z.lor lhs rhs)
  | Bxor => Ok (Z.lxor lhs rhs)
  | Eq => Ok (of_bool (lhs =? rhs))
  | Ne => Ok (of_bool (negb (lhs =? rhs)))
  | Lt => Ok (of_bool (lhs <? rhs))
  | Le => Ok (of_bool (lhs <=? rhs))
  | Ge => Ok (of_bool (lhs >=? rhs))
  | Gt => Ok (of_bool (lhs >? rhs))
  | Land => Ok (of_bool (negb (lhs =? 0) && negb (rhs =? 0)))
  | Lor => Ok (of_bool (negb (lhs =? 0) || negb (rhs =? 0)))
  | Comma => Ok rhs
  | Not | Tilda => Undef
  end.

(** The prefix column of get_rule for operators. *)
Definition has_unary (o : op) : bool :=
  match o with Mul | Add | Sub | Band | Not | Tilda => true | _ => false end.

(** pp_consume: the rest, or a diagnosed error. *)
Definition consume (t : tok) (same : tok -> bool) (ts : list tok) : res (list tok) :=
  match ts with t' :: ts' => if same t' then Ok ts' else Err | [] => Err end.
Definition is_rpar (t : tok) : bool := match t with TRpar => true | _ => false end.
Definition is_colon (t : tok) : bool := match t with TColon => true | _ => false end.

Section env.
  (** macro_get(name) != NULL. *)
  Context (defined : nat -> bool).

  (** pp_parser.c:143-158 parse_defined. *)
  Definition parse_defined (ts : list tok) : res (Z * list tok) :=
    match ts with
    | TLpar :: TId n :: ts' =>
      let! ts'' := consume TRpar is_rpar ts' in Ok (of_bool (defined n), ts'')
    | TId n :: ts' => Ok (of_bool (defined n), ts')
    | _ => Err
    end.

  (** pp_parser.c:279-302 parse_precedence: [parse] is the part before the loop,
      [loop] the loop; 377-388 ternary, grouping; 442-444 pp_expr. *)
  Fixpoint parse (fuel : nat) (prec : Z) (ts : list tok) : res (Z * list tok) :=
    match fuel with
    | O => NoFuel
    | S fuel =>
      match ts with
      | [] => Err
      | t :: ts' =>
        let! (v, rest) :=
          match t with
          | TInt _ v => Ok (to_int64 v, ts')
          | TId _ => Ok (0, ts')
          | TDefined => parse_defined ts'
          | TLpar => let! (v, ts1) := parse fuel PREC_COMMA ts' in
                     let! ts2 := consume TRpar is_rpar ts1 in Ok (v, ts2)
          | TOp o => if has_unary o
                     then let! (v, ts1) := parse fuel PREC_POSTFIX ts' in
                          let! v' := unary o v in Ok (v', ts1)
                     else Err
          | _ => Err
          end in
        loop fuel prec v rest
      end
    end
  with loop (fuel : nat) (prec : Z) (expr : Z) (ts : list tok) : res (Z * list tok) :=
    match fuel with
    | O => NoFuel
    | S fuel =>
      match ts with
      | [] => Ok (expr, [])
      | t :: ts' =>
        if prec >? precedence t then Ok (expr, ts)
        else match t with
             | TOp o => let! (rhs, ts1) := parse fuel (op_precedence o + 1) ts' in
                        let! v := binary o expr rhs in
                        loop fuel prec v ts1
             | TQuestion => let! (tval, ts1) := parse fuel PREC_COMMA ts' in
                            let! ts2 := consume TColon is_colon ts1 in
                            let! (fval, ts3) := parse fuel PREC_TERNARY ts2 in
                            loop fuel prec (if expr =? 0 then fval else tval) ts3
             | _ => Undef   (* assert(infixRule != NULL) *)
             end
      end
    end.

  Definition pp_expr (ts : list tok) : res (Z * list tok) :=
    parse (S (length ts)) PREC_COMMA ts.
End env.
