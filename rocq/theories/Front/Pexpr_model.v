(** src/cc/frontend/parser_expr.c:25-49, 206-259, 341-834: how expressions are parsed.
    Simplifications: a type name between parentheses, which parse_var_def recognises, is one token, and so
    is what stands between braces, brackets included; all literals are alike; _Generic and the names of builtins are left out; the
    tree is the one before types are found out and constants are folded, and errors found by that are left
    out; the parser goes on after an error it reports, so an error is a flag of the result. *)
From stdpp Require Import base list numbers.
Local Open Scope nat_scope.

(** Operator tokens; [Assign (Some o)] is the compound assignment with [o]. *)
Inductive bop := Mul | Div | Mod | Add | Sub | Shl | Shr | And | Hat | Or.
Inductive rop := Lt | Le | Ge | Gt | Eq | Ne | Land | Lor.
Inductive op := B (o : bop) | R (o : rop) | Comma | Assign (o : option bop) | Not | Tilda | Inc | Dec.
(** [TType]: a type name; [TBrace]: from a left brace to its right brace; [TOther]: any other token, no part of an expression. *)
Inductive tok := TId (n : nat) | TLit (n : nat) | TOp (o : op) | TDot | TArrow | TLpar | TRpar | TLbr | TRbr | TQuestion | TColon
  | TSizeof (align : bool) | TType (n : nat) | TBrace (n : nat) | TOther (n : nat).

Inductive ex :=
| Var (n : nat) | Lit (n : nat)
| Un (o : op) (e : ex)
| Bin (o : op) (a b : ex)
| Cond (a b c : ex)
| Post (o : op) (e : ex)
| Mem (arrow : bool) (e : ex) (n : nat)
| Index (a b : ex)
| Call (f : ex) (l : list ex)
| Cast (t : nat) (e : ex)
| SizeE (align : bool) (e : ex)
| SizeT (align : bool) (t : nat)
| Complit (t i : nat)
| Block (i : nat).

(** parser_expr.c:208-224 *)
Definition PREC_NONE := 0. Definition PREC_COMMA := 1. Definition PREC_ASSIGN := 2. Definition PREC_TERNARY := 3. Definition PREC_LOGIOR := 4.
Definition PREC_LOGAND := 5. Definition PREC_BITOR := 6. Definition PREC_BITXOR := 7. Definition PREC_BITAND := 8. Definition PREC_EQ := 9.
Definition PREC_CMP := 10. Definition PREC_SHIFT := 11. Definition PREC_TERM := 12. Definition PREC_FACTOR := 13. Definition PREC_POSTFIX := 14.
(** parser_expr.c:742-813 get_rule: the precedence. *)
Definition prec (t : tok) : nat :=
  match t with
  | TLpar | TDot | TArrow | TLbr | TOp Inc | TOp Dec => PREC_POSTFIX
  | TOp (B (Mul | Div | Mod)) => PREC_FACTOR
  | TOp (B (Add | Sub)) => PREC_TERM
  | TOp (B (Shl | Shr)) => PREC_SHIFT
  | TOp (R (Lt | Le | Ge | Gt)) => PREC_CMP
  | TOp (R (Eq | Ne)) => PREC_EQ
  | TOp (B And) => PREC_BITAND
  | TOp (B Hat) => PREC_BITXOR
  | TOp (B Or) => PREC_BITOR
  | TOp (R Land) => PREC_LOGAND
  | TOp (R Lor) => PREC_LOGIOR
  | TQuestion => PREC_TERNARY
  | TOp (Assign _) => PREC_ASSIGN
  | TOp Comma => PREC_COMMA
  | _ => PREC_NONE
  end.
(** Of the next token; TK_EOF has PREC_NONE. *)
Definition prec_next (ts : list tok) : nat := match ts with [] => PREC_NONE | t :: _ => prec t end.
(** parser_expr.c:742-813 get_rule: the operators whose prefix rule is unary. *)
Definition is_unary (o : op) : bool :=
  match o with B (Mul | Add | Sub | And) | Not | Tilda | Inc | Dec => true | _ => false end.

(** What a function returns, the tokens that remain, and whether an error was reported; [Crash]: NULL is dereferenced. *)
Inductive res (A : Type) := Done (a : A) (rest : list tok) (err : bool) | Crash | NoFuel.
Arguments Done {A}. Arguments Crash {A}. Arguments NoFuel {A}.
Definition bind {A B} (r : res A) (k : A -> list tok -> res B) : res B :=
  match r with
  | Done a rest err =>
    match k a rest with
    | Done b rest err' => Done b rest (err || err')
    | Crash => Crash
    | NoFuel => NoFuel
    end
  | Crash => Crash
  | NoFuel => NoFuel
  end.
Notation "'let*' a , ts := r 'in' k" := (bind r (fun a ts => k)) (at level 200, a name, ts name, r at level 100, k at level 200).

Definition tok_eqb (a b : tok) : bool :=
  match a, b with
  | TRpar, TRpar | TRbr, TRbr | TColon, TColon | TOp Comma, TOp Comma => true
  | _, _ => false
  end.
(** parser.c:22-27 consume: NULL, here [false], and an error if another token is next. *)
Definition consume (t : tok) (ts : list tok) : res bool :=
  match ts with
  | t' :: ts' => if tok_eqb t' t then Done true ts' false else Done false ts true
  | [] => Done false ts true
  end.
(** fe_misc.c:495-498 mark_var_used_sub: the argument must not be NULL. *)
Notation "'use' a := r 'in' k" := (match r with Some a => k | None => Crash end) (at level 200, a name, r at level 100, k at level 200).

(** match, lexer.c:792-799, for one kind of token. *)
Definition as_type (ts : list tok) : option (nat * list tok) := match ts with TType t :: ts => Some (t, ts) | _ => None end.
Definition as_brace (ts : list tok) : option (nat * list tok) := match ts with TBrace i :: ts => Some (i, ts) | _ => None end.
Definition as_name (ts : list tok) : option (nat * list tok) := match ts with TId n :: ts => Some (n, ts) | _ => None end.
Definition as_rpar (ts : list tok) : option (list tok) := match ts with TRpar :: ts => Some ts | _ => None end.
Definition as_paren_type (ts : list tok) : option (nat * list tok) := match ts with TLpar :: ts => as_type ts | _ => None end.
(** parser_expr.c:237-259 parse_precedence *)
Fixpoint parse_precedence (fuel : nat) (p : nat) (ts : list tok) {struct fuel} : res (option ex) :=
  match fuel with
  | O => NoFuel
  | S fuel =>
    match ts with
    | [] => Done None [] true
    | TId n :: ts => infixes fuel p (Some (Var n)) ts
    | TLit n :: ts => infixes fuel p (Some (Lit n)) ts
    | TLpar :: ts =>
      (* parser_expr.c:605-650 lparen *)
      match as_type ts, as_brace ts with
      | Some (t, ts), _ =>
        let* _, ts := consume TRpar ts in
        match as_brace ts with
        | Some (i, ts) => infixes fuel p (Some (Complit t i)) ts
        | None => let* e, ts := parse_precedence fuel PREC_POSTFIX ts in use e := e in infixes fuel p (Some (Cast t e)) ts
        end
      | None, Some (i, ts) => let* _, ts := consume TRpar ts in infixes fuel p (Some (Block i)) ts
      | None, None =>
        (* parser_expr.c:599-603 grouping *)
        let* e, ts := parse_precedence fuel PREC_COMMA ts in let* _, ts := consume TRpar ts in infixes fuel p e ts
      end
    | TSizeof k :: ts =>
      (* parser_expr.c:685-735 size_align_of *)
      match as_paren_type ts with
      | Some (t, ts) => let* _, ts := consume TRpar ts in infixes fuel p (Some (SizeT k t)) ts
      | None => let* e, ts := parse_precedence fuel PREC_POSTFIX ts in use e := e in infixes fuel p (Some (SizeE k e)) ts
      end
    | TOp o :: ts' =>
      (* parser_expr.c:341-425 unary *)
      if is_unary o then let* e, ts := parse_precedence fuel PREC_POSTFIX ts' in use e := e in infixes fuel p (Some (Un o e)) ts
      else Done None ts true
    | _ => Done None ts true
    end
  end
(** parser_expr.c:248-257 *)
with infixes (fuel : nat) (p : nat) (lhs : option ex) (ts : list tok) {struct fuel} : res (option ex) :=
  match fuel with
  | O => NoFuel
  | S fuel =>
    if (prec_next ts <? p) then Done lhs ts false
    else
      match ts with
      (* parser_expr.c:652-683 funcall *)
      | TLpar :: ts => let* l, ts := parse_args fuel ts in use f := lhs in use l := mapM id l in infixes fuel p (Some (Call f l)) ts
      (* parser_expr.c:562-573 postfix, 43-45 parse_member_access *)
      | TOp ((Inc | Dec) as o) :: ts => use e := lhs in infixes fuel p (Some (Post o e)) ts
      | TDot :: ts => use e := lhs in match as_name ts with Some (n, ts) => infixes fuel p (Some (Mem false e n)) ts | None => let* e, ts := infixes fuel p (Some e) ts in Done e ts true end
      | TArrow :: ts => use e := lhs in match as_name ts with Some (n, ts) => infixes fuel p (Some (Mem true e n)) ts | None => let* e, ts := infixes fuel p (Some e) ts in Done e ts true end
      (* parser_expr.c:575-597 array_index *)
      | TLbr :: ts =>
        let* i, ts := parse_precedence fuel PREC_COMMA ts in let* _, ts := consume TRbr ts in
        use e := lhs in use i := i in infixes fuel p (Some (Index e i)) ts
      (* parser_expr.c:427-484 binary *)
      | TOp ((B _ | R _ | Comma) as o) :: ts =>
        let* r, ts := parse_precedence fuel (S (prec (TOp o))) ts in use e := lhs in use r := r in infixes fuel p (Some (Bin o e r)) ts
      (* parser_expr.c:486-520 ternary *)
      | TQuestion :: ts =>
        let* a, ts := parse_precedence fuel PREC_COMMA ts in let* _, ts := consume TColon ts in let* b, ts := parse_precedence fuel PREC_TERNARY ts in
        use e := lhs in use a := a in use b := b in infixes fuel p (Some (Cond e a b)) ts
      (* parser_expr.c:522-560 assign *)
      | TOp (Assign o) :: ts => let* r, ts := parse_precedence fuel PREC_ASSIGN ts in use r := r in use e := lhs in infixes fuel p (Some (Bin (Assign o) e r)) ts
      | _ => Crash
      end
  end
(** parser_expr.c:25-41 *)
with parse_args (fuel : nat) (ts : list tok) {struct fuel} : res (list (option ex)) :=
  match fuel with
  | O => NoFuel
  | S fuel => match as_rpar ts with Some ts => Done [] ts false | None => more_args fuel ts end
  end
with more_args (fuel : nat) (ts : list tok) {struct fuel} : res (list (option ex)) :=
  match fuel with
  | O => NoFuel
  | S fuel =>
    let* e, ts := parse_precedence fuel PREC_ASSIGN ts in
    match as_rpar ts with
    | Some ts => Done [e] ts false
    | None => let* c, ts := consume (TOp Comma) ts in if c : bool then let* l, ts := more_args fuel ts in Done (e :: l) ts false else Done [e] ts false
    end
  end.

(** parser_expr.c:815-834 *)
Definition fuel_for (ts : list tok) : nat := 4 * length ts + 4.
Definition parse_expr (ts : list tok) : res (option ex) := parse_precedence (fuel_for ts) PREC_COMMA ts.
Definition parse_assign (ts : list tok) : res (option ex) := parse_precedence (fuel_for ts) PREC_ASSIGN ts.
Definition parse_const_fixnum (ts : list tok) : res (option ex) := parse_precedence (fuel_for ts) PREC_LOGIOR ts.
