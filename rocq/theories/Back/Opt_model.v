(** src/cc/backend/ir.c:80-232 and optimize.c:251-487: folding and simplification of
    instructions with constant operands, and optimize.c:516-534 of two additions.
    Simplifications: floating-point operands are left out; a register is a number, and all
    operands but a shift count have the size of the result.  Allocating the result register
    is left out. *)
From stdpp Require Import base list numbers.
From Verif Require Import Util.Wrap_model Front.Fold_model Back.Ir_model.
Open Scope Z_scope.

(** The compiler's own behaviour: [Undefined] stands for signed overflow, a shift out of range
    and failed assertions. *)
Inductive res (A : Type) := Ok (a : A) | Undefined.
Arguments Ok {A}. Arguments Undefined {A}.
#[global] Instance res_bind : MBind res := fun A B f r => match r with Ok a => f a | Undefined => Undefined end.

(** ir.h:69-108, the operators. *)
Inductive bkind := IR_ADD | IR_SUB | IR_MUL | IR_DIV | IR_MOD | IR_BITAND | IR_BITOR | IR_BITXOR | IR_LSHIFT | IR_RSHIFT.
Inductive ukind := IR_NEG | IR_BITNOT.
Inductive opr := OReg (r : nat) | OConst (fixnum : Z).
#[global] Instance opr_dec : EqDecision opr. Proof. solve_decision. Defined.

(** int64_t and uint64_t arithmetic. *)
Definition fix_ok (z : Z) : res Z := match fix_check z with Some z => Ok z | None => Undefined end.
Definition ufix (z : Z) : Z := to_unsigned 64 z.
Definition sfix (z : Z) : Z := to_signed 64 z.

Definition div_s (a b : Z) : res Z := if b =? 0 then Undefined else fix_ok (Z.quot a b).
Definition mod_s (a b : Z) : res Z := if b =? 0 then Undefined else q ← fix_ok (Z.quot a b); Ok (Z.rem a b).
Definition div_u (a b : Z) : res Z := if ufix b =? 0 then Undefined else Ok (sfix (ufix a / ufix b)).
Definition mod_u (a b : Z) : res Z := if ufix b =? 0 then Undefined else Ok (sfix (ufix a mod ufix b)).
Definition count_ok (n : Z) : bool := (0 <=? n) && (n <? 64).
(** A negative operand shifted to the left is undefined. *)
Definition shl_s (a n : Z) : res Z := if count_ok n && (0 <=? a) then fix_ok (a * 2 ^ n) else Undefined.
Definition shr_s (a n : Z) : res Z := if count_ok n then Ok (a / 2 ^ n) else Undefined.
Definition shl_u (a n : Z) : res Z := if count_ok n then Ok (sfix (ufix a * 2 ^ n)) else Undefined.
Definition shr_u (a n : Z) : res Z := if count_ok n then Ok (sfix (ufix a / 2 ^ n)) else Undefined.

Definition bytes (vsize : Z) : Z := Z.shiftl 1 vsize.

(** What new_ir_bop gives: a constant or an operand, the negation of one, or the
    instruction. *)
Inductive out := Val (o : opr) | Neg (o : opr) | Instr.

(** ir.c:217-232 new_ir_unary *)
Definition new_ir_unary (k : ukind) (o : opr) (vsize : Z) (uns : bool) : res (option opr) :=
  match o with
  | OConst z =>
    v ← match k with IR_NEG => fix_ok (- z) | IR_BITNOT => Ok (Z.lnot z) end;
    Ok (Some (OConst (wrap_value v (bytes vsize) uns)))
  | OReg _ => Ok None
  end.
(** The negation of an operand: folded, or an instruction. *)
Definition neg (o : opr) (vsize : Z) (uns : bool) : res out :=
  r ← new_ir_unary IR_NEG o vsize uns; Ok (match r with Some o => Val o | None => Neg o end).

(** ir.c:88-120 *)
Definition fold_bop (k : bkind) (l r : Z) (uns : bool) : res Z :=
  match k with
  | IR_ADD => fix_ok (l + r)
  | IR_SUB => fix_ok (l - r)
  | IR_MUL => fix_ok (l * r)
  | IR_DIV => if uns then div_u l r else div_s l r
  | IR_MOD => if uns then mod_u l r else mod_s l r
  | IR_BITAND => Ok (Z.land l r)
  | IR_BITOR => Ok (Z.lor l r)
  | IR_BITXOR => Ok (Z.lxor l r)
  | IR_LSHIFT => shl_s l r
  | IR_RSHIFT => if uns then shr_u l r else shr_s l r
  end.

(** ir.c:80-215 new_ir_bop *)
Definition is_divmod (k : bkind) : bool := match k with IR_DIV | IR_MOD => true | _ => false end.
Definition new_ir_bop (k : bkind) (a b : opr) (vsize : Z) (uns : bool) : res out :=
  match a, b with
  | OConst l, OConst r =>
    if (r =? 0) && is_divmod k then Ok Instr
    else v ← fold_bop k l r uns; Ok (Val (OConst (wrap_value v (bytes vsize) uns)))
  | OConst l, OReg _ =>
    match k with
    | IR_ADD => if l =? 0 then Ok (Val b) else Ok Instr
    | IR_SUB => if l =? 0 then neg b vsize uns else Ok Instr
    | IR_MUL => if l =? 1 then Ok (Val b) else if l =? 0 then Ok (Val a)
                else if (l =? -1) && negb uns then neg b vsize uns else Ok Instr
    | IR_DIV | IR_MOD => if l =? 0 then Ok (Val a) else Ok Instr
    | IR_BITAND => if l =? 0 then Ok (Val a) else Ok Instr
    | IR_BITOR | IR_BITXOR => if l =? 0 then Ok (Val b) else Ok Instr
    | IR_LSHIFT | IR_RSHIFT => if l =? 0 then Ok (Val a) else Ok Instr
    end
  | OReg _, OConst r =>
    if (r =? 0) && is_divmod k then Ok Instr
    else
      match k with
      | IR_ADD | IR_SUB => if r =? 0 then Ok (Val a) else Ok Instr
      | IR_DIV | IR_MUL => if r =? 1 then Ok (Val a) else if r =? 0 then Ok (Val b)
                           else if (r =? -1) && negb uns then neg a vsize uns else Ok Instr
      | IR_BITAND => if r =? 0 then Ok (Val b) else Ok Instr
      | IR_BITOR | IR_BITXOR => if r =? 0 then Ok (Val a) else Ok Instr
      | IR_LSHIFT | IR_RSHIFT => if r =? 0 then Ok (Val a) else Ok Instr
      | IR_MOD => Ok Instr
      end
  | OReg _, OReg _ => Ok Instr
  end.

(** optimize.c:335-369 calc_const_expr *)
Definition calc_const_expr (k : bkind) (a b : Z) (uns : bool) : res Z :=
  if uns then
    match k with
    | IR_ADD => Ok (sfix (ufix a + ufix b))
    | IR_SUB => Ok (sfix (ufix a - ufix b))
    | IR_MUL => Ok (sfix (ufix a * ufix b))
    | IR_DIV => div_u a b
    | IR_MOD => mod_u a b
    | IR_BITAND => Ok (sfix (Z.land (ufix a) (ufix b)))
    | IR_BITOR => Ok (sfix (Z.lor (ufix a) (ufix b)))
    | IR_BITXOR => Ok (sfix (Z.lxor (ufix a) (ufix b)))
    | IR_LSHIFT => shl_u a (ufix b)
    | IR_RSHIFT => shr_u a (ufix b)
    end
  else
    match k with
    | IR_ADD => fix_ok (a + b)
    | IR_SUB => fix_ok (a - b)
    | IR_MUL => fix_ok (a * b)
    | IR_DIV => div_s a b
    | IR_MOD => mod_s a b
    | IR_BITAND => Ok (Z.land a b)
    | IR_BITOR => Ok (Z.lor a b)
    | IR_BITXOR => Ok (Z.lxor a b)
    | IR_LSHIFT => shl_s a b
    | IR_RSHIFT => shr_s a b
    end.
Definition calc_const_unary (k : ukind) (a : Z) (uns : bool) : res Z :=
  match k with
  | IR_NEG => if uns then Ok (sfix (- ufix a)) else fix_ok (- a)
  | IR_BITNOT => if uns then Ok (sfix (Z.lnot (ufix a))) else Ok (Z.lnot a)
  end.

(** optimize.c:251-292 calc_const_cond, of integers *)
Definition calc_const_cond (cond a b : Z) : res bool :=
  if (cond =? Z.lor COND_EQ COND_UNSIGNED) || (cond =? COND_EQ) then Ok (a =? b)
  else if (cond =? Z.lor COND_NE COND_UNSIGNED) || (cond =? COND_NE) then Ok (negb (a =? b))
  else if cond =? COND_LT then Ok (a <? b)
  else if cond =? COND_GT then Ok (b <? a)
  else if cond =? COND_LE then Ok (a <=? b)
  else if cond =? COND_GE then Ok (b <=? a)
  else if cond =? Z.lor COND_LT COND_UNSIGNED then Ok (ufix a <? ufix b)
  else if cond =? Z.lor COND_GT COND_UNSIGNED then Ok (ufix b <? ufix a)
  else if cond =? Z.lor COND_LE COND_UNSIGNED then Ok (ufix a <=? ufix b)
  else if cond =? Z.lor COND_GE COND_UNSIGNED then Ok (ufix b <=? ufix a)
  else Undefined.

(** Instructions that constant_folding rewrites, with their results and the sizes of operands. *)
Inductive instr :=
| Bop (k : bkind) (dst : nat) (a b : opr) (vsize bsize : Z) (* of the second operand *) (uns : bool)
| Una (k : ukind) (dst : nat) (a : opr) (vsize : Z) (uns : bool)
| Cond (cond : Z) (dst : nat) (a b : opr) (vsize : Z) (* of the operands *)
| Cast (dst : nat) (a : opr) (dsize ssize : Z) (uns : bool)
| Mov (dst : nat) (a : opr) (vsize : Z)
| Jmp (cond : Z) (a b : opr) (vsize : Z) (target : nat)
| Goto (any : bool) (target : nat). (* COND_ANY or COND_NONE *)

(** optimize.c:304, 326: exchange the operands *)
Definition swap (cond : Z) : option Z :=
  match swap_cond (Z.land cond COND_MASK) with
  | Some c => Some (Z.lor c (Z.land cond (Z.lnot COND_MASK)))
  | None => None
  end.

(** optimize.c:294-333, 392-487 constant_folding *)
Definition constant_folding (i : instr) : res instr :=
  match i with
  | Bop k dst (OConst a) (OConst b) vsize _ uns =>
    if is_divmod k && (b =? 0) then Ok i
    else v ← calc_const_expr k a b uns; Ok (Mov dst (OConst (wrap_value v (bytes vsize) uns)) vsize)
  | Una k dst (OConst a) vsize uns =>
    v ← calc_const_unary k a uns; Ok (Mov dst (OConst (wrap_value v (bytes vsize) uns)) vsize)
  | Cond cond dst (OConst a) (OConst b) vsize =>
    r ← calc_const_cond cond a b; Ok (Mov dst (OConst (Z.b2z r)) 2)
  | Cond cond dst (OConst a) b vsize =>
    match swap cond with Some c => Ok (Cond c dst b (OConst a) vsize) | None => Undefined end
  | Cast dst (OConst a) dsize ssize uns =>
    Ok (Mov dst (OConst (if ssize <? dsize then wrap_value a (bytes ssize) uns else a)) dsize)
  | Jmp cond (OConst a) (OConst b) vsize target =>
    r ← calc_const_cond cond a b; Ok (Goto r target)
  | Jmp cond (OConst a) b vsize target =>
    match swap cond with Some c => Ok (Jmp c b (OConst a) vsize target) | None => Undefined end
  | _ => Ok i
  end.

(** optimize.c:516-533 the part of peephole about additions: [dst = a + c; dst' = dst +- c'] *)
Definition peephole_add (sub : bool) (c c' : Z) : res Z :=
  v ← (if sub then fix_ok (- c') else Ok c'); fix_ok (v + c).
