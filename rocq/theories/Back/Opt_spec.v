(** What the arithmetic instructions compute, on registers known modulo 2^(8*size). *)
From stdpp Require Import base list numbers.
From Verif Require Import Back.Ir_spec Back.Opt_model.
Open Scope Z_scope.

Definition size_of (vsize : Z) : Z := 2 ^ vsize.
Definition cut (vsize : Z) (z : Z) : Z := z mod 2 ^ (8 * size_of vsize).
(** A quotient that does not fit its type is not defined. *)
Definition fits (size : Z) (uns : bool) (z : Z) : bool := bool_decide (view size uns z = z).

(** [None]: the machine traps or the result depends on it: division by zero, a quotient out of
    range, a shift count not below the width. *)
Definition ir_op (k : bkind) (vsize bsize : Z) (uns : bool) (a b : Z) : option Z :=
  let size := size_of vsize in
  let x := view size uns a in
  let y := view size uns b in
  let n := view (size_of bsize) true b in
  match k with
  | IR_ADD => Some (cut vsize (a + b))
  | IR_SUB => Some (cut vsize (a - b))
  | IR_MUL => Some (cut vsize (a * b))
  | IR_DIV => if bool_decide (y = 0) then None
              else if fits size uns (Z.quot x y) then Some (cut vsize (Z.quot x y)) else None
  | IR_MOD => if bool_decide (y = 0) then None
              else if fits size uns (Z.quot x y) then Some (cut vsize (Z.rem x y)) else None
  | IR_BITAND => Some (cut vsize (Z.land a b))
  | IR_BITOR => Some (cut vsize (Z.lor a b))
  | IR_BITXOR => Some (cut vsize (Z.lxor a b))
  | IR_LSHIFT => if bool_decide (n < 8 * size) then Some (cut vsize (a * 2 ^ n)) else None
  | IR_RSHIFT => if bool_decide (n < 8 * size) then Some (cut vsize (x / 2 ^ n)) else None
  end.
Definition ir_una (k : ukind) (vsize : Z) (a : Z) : Z :=
  cut vsize match k with IR_NEG => - a | IR_BITNOT => -1 - a end.

(** The values of operands. *)
Definition val (regs : nat -> Z) (o : opr) : Z := match o with OReg r => regs r | OConst z => z end.

(** The effect of an instruction: a new value of a register, modulo its size, or whether it
    jumps and where. *)
Inductive effect := ESet (dst : nat) (vsize v : Z) | EJump (taken : bool) (target : nat).
Definition exec (regs : nat -> Z) (i : instr) : option effect :=
  match i with
  | Bop k dst a b vsize bsize uns => v ← ir_op k vsize bsize uns (val regs a) (val regs b); Some (ESet dst vsize v)
  | Una k dst a vsize uns => Some (ESet dst vsize (ir_una k vsize (val regs a)))
  | Cond cond dst a b vsize => Some (ESet dst 2 (Z.b2z (cond_holds (size_of vsize) cond (val regs a) (val regs b))))
  | Cast dst a dsize ssize uns => Some (ESet dst dsize (cut dsize (view (size_of ssize) uns (val regs a))))
  | Mov dst a vsize => Some (ESet dst vsize (cut vsize (val regs a)))
  | Jmp cond a b vsize target => Some (EJump (cond_holds (size_of vsize) cond (val regs a) (val regs b)) target)
  | Goto taken target => Some (EJump taken target)
  end.

(** A constant written as its own value: the one its size and signedness give (modulo 2^64,
    as constants are 64-bit signed numbers). *)
Definition canon (vsize : Z) (uns : bool) (o : opr) : Prop :=
  match o with OReg _ => True | OConst z => view 8 false (view (size_of vsize) uns z) = z end.

(** Registers have 1, 2, 4 or 8 bytes, and constants are 64-bit numbers. *)
Definition vsizes (v : Z) : Prop := 0 <= v <= 3.
Definition int64 (z : Z) : Prop := - 2 ^ 63 <= z < 2 ^ 63.
Definition ofix (o : opr) : Prop := match o with OReg _ => True | OConst z => int64 z end.

(** The exact result of a signed operation fits its type (C's rule for the absence of
    overflow; a negative number is not shifted to the left). *)
Definition no_overflow (k : bkind) (vsize bsize a b : Z) : Prop :=
  let size := size_of vsize in
  let x := view size false a in
  let y := view size false b in
  let n := view (size_of bsize) true b in
  match k with
  | IR_ADD => fits size false (x + y)
  | IR_SUB => fits size false (x - y)
  | IR_MUL => fits size false (x * y)
  | IR_LSHIFT => 0 <= x /\ fits size false (x * 2 ^ n)
  | _ => True
  end.
(** The instruction is defined for these constants. *)
Definition defined (i : instr) : Prop :=
  match i with
  | Bop k _ (OConst a) (OConst b) v bv u =>
    is_Some (ir_op k v bv u a b) /\ (u = false -> no_overflow k v bv a b)
  | Una IR_NEG _ (OConst a) v u => u = false -> fits (size_of v) false (- view (size_of v) false a)
  | _ => True
  end.

(** The operators whose result depends on more than the operands modulo the size. *)
Definition sensitive (k : bkind) : bool := match k with IR_DIV | IR_MOD | IR_RSHIFT => true | _ => false end.
Definition is_shift (k : bkind) : bool := match k with IR_LSHIFT | IR_RSHIFT => true | _ => false end.
Definition good (k : bkind) (v bv : Z) (u : bool) (a b : opr) : Prop :=
  vsizes v /\ vsizes bv /\
  (sensitive k = true -> canon v u a) /\
  (is_divmod k = true -> canon v u b) /\
  (is_shift k = true -> exists cu, canon bv cu b).

(** What the result of new_ir_bop stands for. *)
Definition out_val (regs : nat -> Z) (k : bkind) (v bv : Z) (u : bool) (a b : opr) (o : out) : option Z :=
  match o with
  | Val o => Some (cut v (val regs o))
  | Neg o => Some (ir_una IR_NEG v (val regs o))
  | Instr => ir_op k v bv u (val regs a) (val regs b)
  end.

(** The hypothesis about the constants of an instruction. *)
Definition fit (i : instr) : Prop :=
  match i with
  | Bop k _ a b v bv u => good k v bv u a b
  | Una _ _ _ v _ => vsizes v
  | Cond c _ a b v | Jmp c a b v _ => vsizes v /\ exists k u, c = cond_code k u false /\ canon v u a /\ canon v u b
  | Cast _ _ dv sv _ => vsizes dv /\ vsizes sv
  | Mov _ _ _ | Goto _ _ => True
  end.

(** All the constants are their own values. *)
Definition plain (i : instr) : Prop :=
  match i with
  | Bop k _ a b v bv u => vsizes v /\ vsizes bv /\ canon v u a /\
      (if is_shift k then exists cu, canon bv cu b else canon v u b)
  | Una _ _ a v u => vsizes v /\ canon v u a
  | Cond c _ a b v | Jmp c a b v _ => vsizes v /\ exists k u, c = cond_code k u false /\ k <> CNever /\ k <> CAlways
  | _ => True
  end.

Definition set (regs : nat -> Z) (d : nat) (z : Z) : nat -> Z := fun r => if decide (r = d) then z else regs r.
