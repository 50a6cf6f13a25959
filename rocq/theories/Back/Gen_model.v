(** src/cc/backend/codegen_expr.c and codegen.c:304-660: from expressions and statements to
    instructions.
    Simplifications: operands are integers or pointers; a register is a number, and the
    register of a local variable is the number of the variable.  Blocks are the instructions
    between two [Lab], in the order in which set_curbb puts them.  A block of statements is
    nested [SSeq].  A call has the name of a function, arguments in registers and a result.
    The instructions that find the case of a switch (C28) are one, [Switch].  Global and
    static variables are reached through an address ([EDeref], [EStore]).  Types of 1, 2, 4 and 8
    bytes; _Bool has 4 (type.c:43) and its values are those of comparisons. *)
From stdpp Require Import base list numbers.
From Verif Require Import Util.Wrap_model Back.Ir_model Back.Opt_model.
Local Open Scope Z_scope.

(** A type: the logarithm of its size (to_vsize, codegen_expr.c:20-27) and is_unsigned. *)
Record ty := Ty { tsz : Z; tuns : bool }.
Definition ty_bool : ty := Ty 2 false.
(** ast.h: EX_EQ to EX_GT *)
Inductive rel := REq | RNe | RLt | RLe | RGe | RGt.

Inductive expr :=
| EFix (z : Z) (t : ty)
| EVar (x : nat) (t : ty)
| EBop (k : bkind) (t : ty) (e1 e2 : expr)
| ERel (c : rel) (t : ty) (e1 e2 : expr) (* [t]: of the operands *)
| EAnd (e1 e2 : expr)
| EOr (e1 e2 : expr)
| EComma (e1 e2 : expr)
| EAssign (x : nat) (t : ty) (e : expr)
| EIncVar (post dec : bool) (t : ty) (step : Z) (x : nat)
| EIncMem (post dec : bool) (t : ty) (step : Z) (e : expr) (* of what [e] points to *)
| EUna (k : ukind) (t : ty) (e : expr)
| EPos (e : expr)
| ECast (t ts : ty) (e : expr) (* to [t] from [ts] *)
| ETern (t : ty) (c e1 e2 : expr)
| EDeref (t : ty) (e : expr)
| EStore (t : ty) (e1 e2 : expr) (* to where [e1] points, the value of [e2] *)
| ECall (f : nat) (t : ty) (args : exprs)
with exprs := ANil | ACons (e : expr) (es : exprs).

Inductive stmt :=
| SEmpty
| SExpr (e : expr)
| SReturn (e : option expr)
| SSeq (s1 s2 : stmt)
| SIf (c : expr) (s1 : stmt) (s2 : option stmt)
| SSwitch (e : expr) (t : ty) (cases : list (Z * nat)) (def : option nat) (s : stmt)
| SLabel (id : nat) (s : stmt) (* also a case *)
| SWhile (c : expr) (s : stmt)
| SDo (s : stmt) (c : expr)
| SFor (pre c post : option expr) (s : stmt)
| SBreak
| SContinue
| SGoto (id : nat).

(** Labels of blocks: made for a construct, or of a label or case. *)
Inductive lbl := LNew (n : nat) | LUser (id : nat).
#[global] Instance lbl_dec : EqDecision lbl. Proof. solve_decision. Defined.

Inductive item :=
| Lab (l : lbl)
| Ins (i : instr)
| Load (dst : nat) (a : opr) (vsize : Z)
| Store (a v : opr) (vsize : Z)
| Push (n : nat) (o : opr) (vsize : Z)
| Call (f n dst : nat) (vsize : Z)
| Result (o : opr) (vsize : Z)
| Jump (l : lbl)
| CJump (cond : Z) (a b : opr) (vsize : Z) (l : lbl)
| Switch (o : opr) (vsize : Z) (uns : bool) (cases : list (Z * lbl)) (def : lbl).

(** A VReg as an operand with its size; instructions; the next register and label. *)
Notation gres := (option (opr * Z * list item * nat * nat)) (only parsing).

(** ir.c:80-215 new_ir_bop, with the register of the result *)
Definition put_bop (k : bkind) (a : opr) (sa : Z) (b : opr) (sb : Z) (v : Z) (u : bool) (r : nat) : option (opr * Z * list item * nat) :=
  match new_ir_bop k a b v u with
  | Ok (Val o) =>
    let s := match a, b with OConst _, OConst _ => v | _, _ => if decide (o = a) then sa else sb end in
    Some (o, s, [], r)
  | Ok (Neg o) => let s := if decide (o = a) then sa else sb in Some (OReg r, s, [Ins (Una IR_NEG r o s u)], S r)
  | Ok Instr => Some (OReg r, v, [Ins (Bop k r a b v sb u)], S r)
  | Undefined => None
  end.
(** ir.c:217-232 new_ir_unary *)
Definition put_una (k : ukind) (o : opr) (v : Z) (u : bool) (r : nat) : option (opr * Z * list item * nat) :=
  match new_ir_unary k o v u with
  | Ok (Some o) => Some (o, v, [], r)
  | Ok None => Some (OReg r, v, [Ins (Una k r o v u)], S r)
  | Undefined => None
  end.

(** codegen_expr.c:64, kind + (COND_EQ - EX_EQ) *)
Definition rel_cond (c : rel) : Z :=
  match c with REq => COND_EQ | RNe => COND_NE | RLt => COND_LT | RLe => COND_LE | RGe => COND_GE | RGt => COND_GT end.
(** codegen_expr.c:99-116: of constants *)
Definition compare_const (c : rel) (u : bool) (a b : Z) : bool :=
  let a := if u then ufix a else a in
  let b := if u then ufix b else b in
  match c with
  | REq => a =? b | RNe => negb (a =? b) | RLt => a <? b | RLe => a <=? b | RGe => b <=? a | RGt => b <? a
  end.
(** codegen_expr.c:60-128 gen_compare_expr, once the operands are there: known, or a condition with its
    operands. *)
Definition compare (c : rel) (u : bool) (a : opr) (sa : Z) (b : opr) (sb : Z) : option (bool + (Z * opr * opr * Z)) :=
  let flag := if u then COND_UNSIGNED else 0 in
  match a, b with
  | OConst x, OConst y => Some (inl (compare_const c u x y))
  | OConst _, OReg _ => cond ← swap_cond (rel_cond c); Some (inr (Z.lor cond flag, b, a, sb))
  | _, _ => Some (inr (Z.lor (rel_cond c) flag, a, b, sa))
  end.
(** ir.c:289-298 new_ir_cjmp *)
Definition cjmp (cmp : bool + (Z * opr * opr * Z)) (l : lbl) : list item :=
  match cmp with inl true => [Jump l] | inl false => [] | inr (cond, a, b, s) => [CJump cond a b s l] end.

(** codegen_expr.c:188-204: a constant cast to [t] *)
Definition cast_const (z sv : Z) (t : ty) : Z :=
  if tsz t <? sv then
    let bit := 8 * 2 ^ tsz t in
    if negb (tuns t) && Z.testbit z (bit - 1) then Z.lor z (- 2 ^ bit) else Z.land z (2 ^ bit - 1)
  else z.

(** codegen_expr.c gen_expr (without [m]) and gen_cond_jmp, 130-171 (with [m], where to go); [None]: a failed
    assertion or undefined behaviour of the compiler.  Lines: 542-550 gen_fixnum, 278-289 gen_variable, 748-752
    gen_expr_bop, 721-730 gen_relation, 732-746 gen_expr_logandor, 609-612 gen_comma, 614-625 and 633-655
    gen_assign_sub, 662-705 gen_expr_incdec, 707-719 gen_pos, gen_neg, gen_bitnot, 173-220 gen_cast, 308-334
    gen_ternary, 578-586 gen_deref, 347-530 gen_funcall. *)
Fixpoint gen (m : option (lbl * lbl)) (e : expr) (r l : nat) {struct e} : gres :=
  match e with
  | EFix z t =>
    match m with
    | None => Some (OConst z, tsz t, [], r, l)
    | Some (tb, fb) => Some (OConst 0, 0, [Jump (if z =? 0 then fb else tb)], r, l)
    end
  | ERel c t e1 e2 =>
    '(a, sa, c1, r, l) ← gen None e1 r l;
    '(b, sb, c2, r, l) ← gen None e2 r l;
    cmp ← compare c (tuns t) a sa b sb;
    match m with
    | Some (tb, fb) => Some (OConst 0, 0, c1 ++ c2 ++ cjmp cmp tb ++ [Lab (LNew l); Jump fb], r, S l)
    | None =>
      match cmp with
      | inl v => Some (OConst (Z.b2z v), tsz ty_bool, c1 ++ c2, r, l)
      | inr (cond, a, b, s) => Some (OReg r, tsz ty_bool, c1 ++ c2 ++ [Ins (Cond cond r a b s)], S r, l)
      end
    end
  | EAnd e1 e2 =>
    match m with
    | Some (tb, fb) =>
      '(_, _, c1, r, l') ← gen (Some (LNew l, fb)) e1 r (S l);
      '(_, _, c2, r, l') ← gen (Some (tb, fb)) e2 r l';
      Some (OConst 0, 0, c1 ++ [Lab (LNew l)] ++ c2, r, l')
    | None =>
      let tb := LNew l in let fb := LNew (S l) in let nb := LNew (S (S l)) in
      let b1 := S (S (S l)) in
      '(_, _, c1, r, l') ← gen (Some (LNew b1, fb)) e1 r (S b1);
      '(_, _, c2, r, l') ← gen (Some (tb, fb)) e2 r l';
      Some (OReg r, tsz ty_bool,
            (c1 ++ [Lab (LNew b1)] ++ c2) ++
            [Lab tb; Ins (Mov r (OConst 1) (tsz ty_bool)); Jump nb; Lab fb; Ins (Mov r (OConst 0) (tsz ty_bool)); Lab nb], S r, l')
    end
  | EOr e1 e2 =>
    match m with
    | Some (tb, fb) =>
      '(_, _, c1, r, l') ← gen (Some (tb, LNew l)) e1 r (S l);
      '(_, _, c2, r, l') ← gen (Some (tb, fb)) e2 r l';
      Some (OConst 0, 0, c1 ++ [Lab (LNew l)] ++ c2, r, l')
    | None =>
      let tb := LNew l in let fb := LNew (S l) in let nb := LNew (S (S l)) in
      let b1 := S (S (S l)) in
      '(_, _, c1, r, l') ← gen (Some (tb, LNew b1)) e1 r (S b1);
      '(_, _, c2, r, l') ← gen (Some (tb, fb)) e2 r l';
      Some (OReg r, tsz ty_bool,
            (c1 ++ [Lab (LNew b1)] ++ c2) ++
            [Lab tb; Ins (Mov r (OConst 1) (tsz ty_bool)); Jump nb; Lab fb; Ins (Mov r (OConst 0) (tsz ty_bool)); Lab nb], S r, l')
    end
  | EComma e1 e2 =>
    '(_, _, c1, r, l) ← gen None e1 r l;
    '(o, s, c2, r, l) ← gen m e2 r l;
    Some (o, s, c1 ++ c2, r, l)
  | _ =>
    match m with
    | Some _ => None
    | None =>
      match e with
      | EVar x t => Some (OReg x, tsz t, [], r, l)
      | EBop k t e1 e2 =>
        '(a, sa, c1, r, l) ← gen None e1 r l;
        '(b, sb, c2, r, l) ← gen None e2 r l;
        '(o, s, c3, r) ← put_bop k a sa b sb (tsz t) (tuns t) r;
        Some (o, s, c1 ++ c2 ++ c3, r, l)
      | EAssign x t e =>
        '(o, s, c, r, l) ← gen None e r l;
        Some (o, s, c ++ [Ins (Mov x o (tsz t))], r, l)
      | EIncVar post dec t step x =>
        let before := OReg r in
        let '(c1, r) := if (post : bool) then ([Ins (Mov r (OReg x) (tsz t))], S r) else ([], r) in
        '(o, s, c2, r) ← put_bop (if dec then IR_SUB else IR_ADD) (OReg x) (tsz t) (OConst step) (tsz t) (tsz t) (tuns t) r;
        Some (if post then before else o, if post then tsz t else s, c1 ++ c2 ++ [Ins (Mov x o (tsz t))], r, l)
      | EIncMem post dec t step e =>
        '(a, _, c1, r, l) ← gen None e r l;
        let val := OReg r in
        '(o, s, c2, r') ← put_bop (if dec then IR_SUB else IR_ADD) val (tsz t) (OConst step) (tsz t) (tsz t) (tuns t) (S r);
        Some (if post then val else o, if post then tsz t else s, c1 ++ [Load r a (tsz t)] ++ c2 ++ [Store a o s], r', l)
      | EUna k t e =>
        '(o, _, c, r, l) ← gen None e r l;
        '(o, s, c2, r) ← put_una k o (tsz t) (tuns t) r;
        Some (o, s, c ++ c2, r, l)
      | EPos e => gen None e r l
      | ECast t ts e =>
        '(o, sv, c, r, l) ← gen None e r l;
        match o with
        | OConst z => Some (OConst (cast_const z sv t), tsz t, c, r, l)
        | OReg _ => if tsz t =? sv then Some (o, sv, c, r, l)
                    else Some (OReg r, tsz t, c ++ [Ins (Cast r o (tsz t) sv (tuns ts))], S r, l)
        end
      | ETern t cnd e1 e2 =>
        let tb := LNew l in let fb := LNew (S l) in let nb := LNew (S (S l)) in
        let res := r in
        '(_, _, c0, r, l) ← gen (Some (tb, fb)) cnd (S r) (S (S (S l)));
        '(o1, _, c1, r, l) ← gen None e1 r l;
        '(o2, _, c2, r, l) ← gen None e2 r l;
        Some (OReg res, tsz t,
              c0 ++ [Lab tb] ++ c1 ++ [Ins (Mov res o1 (tsz t)); Jump nb; Lab fb] ++ c2 ++ [Ins (Mov res o2 (tsz t)); Lab nb], r, l)
      | EDeref t e =>
        '(a, _, c, r, l) ← gen None e r l;
        Some (OReg r, tsz t, c ++ [Load r a (tsz t)], S r, l)
      | EStore t e1 e2 =>
        '(v, s, c1, r, l) ← gen None e2 r l;
        '(a, _, c2, r, l) ← gen None e1 r l;
        Some (v, s, c1 ++ c2 ++ [Store a v s], r, l)
      | ECall f t args =>
        '(n, c, r, l) ← gen_args args 0 r l;
        Some (OReg r, tsz t, c ++ [Call f n r (tsz t)], S r, l)
      | _ => None
      end
    end
  end
(** The last argument first; [i] is the number of the first. *)
with gen_args (es : exprs) (i : nat) (r l : nat) {struct es} : option (nat * list item * nat * nat) :=
  match es with
  | ANil => Some (i, [], r, l)
  | ACons e es =>
    '(n, c1, r, l) ← gen_args es (S i) r l;
    '(o, s, c2, r, l) ← gen None e r l;
    Some (n, c1 ++ c2 ++ [Push i o s], r, l)
  end.

(** codegen.c:36-61 and ret_bb: where break, continue and return go. *)
Record env := Env { e_brk : option lbl; e_cnt : option lbl; e_ret : lbl }.

(** codegen.c:640-660 gen_stmt, and 304-638; instructions, the next register and label. *)
Fixpoint gen_stmt (E : env) (s : stmt) (r l : nat) {struct s} : option (list item * nat * nat) :=
  match s with
  | SEmpty => Some ([], r, l)
  | SExpr e => '(_, _, c, r, l) ← gen None e r l; Some (c, r, l)
  | SReturn e =>
    let bb := LNew l in
    match e with
    | None => Some ([Jump (e_ret E); Lab bb], r, S l)
    | Some e => '(o, sz, c, r, l) ← gen None e r (S l); Some (c ++ [Result o sz; Jump (e_ret E); Lab bb], r, l)
    end
  | SSeq s1 s2 =>
    '(c1, r, l) ← gen_stmt E s1 r l;
    '(c2, r, l) ← gen_stmt E s2 r l;
    Some (c1 ++ c2, r, l)
  | SIf c s1 s2 =>
    let tb := LNew l in let fb := LNew (S l) in
    '(_, _, c0, r, l) ← gen (Some (tb, fb)) c r (S (S l));
    '(c1, r, l) ← gen_stmt E s1 r l;
    match s2 with
    | None => Some (c0 ++ [Lab tb] ++ c1 ++ [Lab fb], r, l)
    | Some s2 =>
      let nb := LNew l in
      '(c2, r, l) ← gen_stmt E s2 r (S l);
      Some (c0 ++ [Lab tb] ++ c1 ++ [Jump nb; Lab fb] ++ c2 ++ [Lab nb], r, l)
    end
  | SSwitch e t cases def s =>
    let brk := LNew l in
    '(o, sz, c0, r, l) ← gen None e r (S l);
    let c1 := [Switch o sz (tuns t) ((fun p => (p.1, LUser p.2)) <$> cases) (match def with Some id => LUser id | None => brk end); Lab (LNew l)] in
    '(c2, r, l) ← gen_stmt (Env (Some brk) (e_cnt E) (e_ret E)) s r (S l);
    Some (c0 ++ c1 ++ c2 ++ [Lab brk], r, l)
  | SLabel id s =>
    '(c, r, l) ← gen_stmt E s r l;
    Some ([Lab (LUser id)] ++ c, r, l)
  | SWhile c s =>
    let loop := LNew l in let cond := LNew (S l) in let next := LNew (S (S l)) in
    '(c1, r, l) ← gen_stmt (Env (Some next) (Some cond) (e_ret E)) s r (S (S (S l)));
    '(_, _, c2, r, l) ← gen (Some (loop, next)) c r l;
    Some ([Jump cond; Lab loop] ++ c1 ++ [Lab cond] ++ c2 ++ [Lab next], r, l)
  | SDo s c =>
    let loop := LNew l in let cond := LNew (S l) in let next := LNew (S (S l)) in
    '(c1, r, l) ← gen_stmt (Env (Some next) (Some cond) (e_ret E)) s r (S (S (S l)));
    '(_, _, c2, r, l) ← gen (Some (loop, next)) c r l;
    Some ([Lab loop] ++ c1 ++ [Lab cond] ++ c2 ++ [Lab next], r, l)
  | SFor pre c post s =>
    let loop := LNew l in let cont := LNew (S l) in let cond := LNew (S (S l)) in let next := LNew (S (S (S l))) in
    '(c0, r, l) ← match pre with None => Some ([], r, S (S (S (S l))))
                 | Some e => '(_, _, c, r, l) ← gen None e r (S (S (S (S l)))); Some (c, r, l) end;
    '(c1, r, l) ← gen_stmt (Env (Some next) (Some cont) (e_ret E)) s r l;
    '(c2, r, l) ← match post with None => Some ([], r, l) | Some e => '(_, _, c, r, l) ← gen None e r l; Some (c, r, l) end;
    '(c3, r, l) ← match c with None => Some ([Jump loop], r, l) | Some c => '(_, _, c, r, l) ← gen (Some (loop, next)) c r l; Some (c, r, l) end;
    Some (c0 ++ [Jump cond; Lab loop] ++ c1 ++ [Lab cont] ++ c2 ++ [Lab cond] ++ c3 ++ [Lab next], r, l)
  | SBreak => b ← e_brk E; Some ([Jump b; Lab (LNew l)], r, S l)
  | SContinue => b ← e_cnt E; Some ([Jump b; Lab (LNew l)], r, S l)
  | SGoto id => Some ([Jump (LUser id); Lab (LNew l)], r, S l)
  end.

(** codegen.c:902-923 gen_defun, the statements of a function with [nv] variables. *)
Definition gen_body (nv : nat) (s : stmt) : option (list item) :=
  let ret := LNew 1 in
  '(c, _, _) ← gen_stmt (Env None None ret) s nv 2;
  Some ([Lab (LNew 0)] ++ c ++ [Lab ret]).
