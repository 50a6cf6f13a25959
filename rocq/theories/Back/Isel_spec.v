(** What operations on integers of a given number of bits mean in C, and what the operations of a
    block do with virtual registers. *)
From stdpp Require Import base numbers list.
From Verif Require Import Back.Isel_model.
Open Scope Z_scope.

(** The bits [u] of [w] bits as a signed number. *)
Definition as_signed (w u : Z) : Z := if u <? 2 ^ (w - 1) then u else u - 2 ^ w.
Definition number (uns : bool) (w u : Z) : Z := if uns then u else as_signed w u.
Definition in_range (uns : bool) (w z : Z) : bool :=
  if uns then (0 <=? z) && (z <? 2 ^ w) else (- 2 ^ (w - 1) <=? z) && (z <? 2 ^ (w - 1)).

(** The result of an operation on the bits [x] and [y] ([y] is the count for shifts), as bits;
    None where C leaves the result undefined (but signed overflow of +, - and * wraps around, and
    so do shifts of and into the sign). *)
Definition bop_val (o : bop) (uns : bool) (w x y : Z) : option Z :=
  let a := number uns w x in let b := number uns w y in
  let bit z := Some (z mod 2 ^ w) in
  match o with
  | Add => bit (a + b)
  | Sub => bit (a - b)
  | Mul => bit (a * b)
  | Div => if (b =? 0) || negb (in_range uns w (Z.quot a b)) then None else bit (Z.quot a b)
  | Mod => if (b =? 0) || negb (in_range uns w (Z.quot a b)) then None else bit (Z.rem a b)
  | And => bit (Z.land x y)
  | Or => bit (Z.lor x y)
  | Xor => bit (Z.lxor x y)
  | Shl => if y <? w then bit (a * 2 ^ y) else None
  | Shr => if y <? w then bit (a / 2 ^ y) else None
  end.
Definition uop_val (o : uop) (w x : Z) : Z :=
  match o with Neg => (- x) mod 2 ^ w | Not => 2 ^ w - 1 - x end.
Definition holds (c : cond) (a b : Z) : bool :=
  match c with
  | EQ => a =? b | NE => negb (a =? b) | LT => a <? b | LE => a <=? b | GT => b <? a | GE => b <=? a
  end.
(** Comparison of floating-point numbers: false, but for !=, if one is not a number. *)
Definition fholds (c : cond) (a b : fl) : bool :=
  match fcmp a b, c with
  | None, NE => true
  | None, _ => false
  | Some Eq, (EQ | LE | GE) => true
  | Some Lt, (NE | LT | LE) => true
  | Some Gt, (NE | GT | GE) => true
  | _, _ => false
  end.

(** ** Virtual registers *)

Notation env := (nat -> Z).
(** The bits of an operand. *)
Definition vval (e : env) (a : vopr) : Z :=
  match a with VReg sz v => e v mod 2 ^ bits sz | VCon sz n => n mod 2 ^ bits sz end.
Definition assign (e : env) (d : nat) (z : Z) : env := fun v => if Nat.eqb v d then z else e v.

Inductive obs := OResult (z : Z) | OJump (taken : bool).
(** What one operation does. *)
Definition exec1 (i : vir) (e : env) : option (env * list obs) :=
  match i with
  | VBop o uns sz d a b => z ← bop_val o uns (bits sz) (vval e a) (vval e b); Some (assign e d z, [])
  | VUop o sz d a => Some (assign e d (uop_val o (bits sz) (vval e a)), [])
  | VCast uns sz d a => Some (assign e d (number uns (bits (vsize a)) (vval e a) mod 2 ^ bits sz), [])
  | VMov sz d a => Some (assign e d (vval e a), [])
  | VCond uns c d a b =>
      let w := bits (vsize a) in
      Some (assign e d (if holds c (number uns w (vval e a)) (number uns w (vval e b)) then 1 else 0), [])
  | VResult a => Some (e, [OResult (vval e a)])
  | VJmp uns c a b =>
      let w := bits (vsize a) in
      Some (e, [OJump (holds c (number uns w (vval e a)) (number uns w (vval e b)))])
  end.
Fixpoint exec (l : list vir) (e : env) : option (env * list obs) :=
  match l with
  | [] => Some (e, [])
  | i :: l => r ← exec1 i e; r' ← exec l r.1; Some (r'.1, r.2 ++ r'.2)
  end.

Definition opr_vreg (a : vopr) : list nat := match a with VReg _ v => [v] | VCon _ _ => [] end.
Definition uses (i : vir) : list nat :=
  match i with
  | VBop _ _ _ _ a b | VCond _ _ _ a b | VJmp _ _ a b => opr_vreg a ++ opr_vreg b
  | VUop _ _ _ a | VCast _ _ _ a | VMov _ _ a | VResult a => opr_vreg a
  end.
Definition dest (i : vir) : option nat :=
  match i with
  | VBop _ _ _ d _ _ | VUop _ _ d _ | VCast _ _ d _ | VMov _ d _ | VCond _ _ d _ _ => Some d
  | VResult _ | VJmp _ _ _ _ => None
  end.

(** [sz v] is the size of register [v].  Operands of an operation have its size, but for the count
    of a shift; division is of 4 or 8 bytes since C makes int of smaller operands (C21). *)
Definition sized (sz : nat -> nat) (a : vopr) : Prop :=
  match a with VReg k v => k = sz v /\ (k < 4)%nat | VCon k _ => (k < 4)%nat end.
Definition typed (sz : nat -> nat) (i : vir) : Prop :=
  match i with
  | VBop o _ k d a b =>
      k = sz d /\ (k < 4)%nat /\ sized sz a /\ sized sz b /\ vsize a = k /\
      (o <> Shl -> o <> Shr -> vsize b = k) /\ (o = Div \/ o = Mod -> (2 <= k)%nat)
  | VUop _ k d a => k = sz d /\ (k < 4)%nat /\ sized sz a /\ vsize a = k
  | VCast _ k d a => k = sz d /\ (k < 4)%nat /\ sized sz a /\ vsize a <> k /\ is_con a = false
  | VMov k d a => k = sz d /\ (k < 4)%nat /\ sized sz a /\ vsize a = k
  | VCond _ _ d a b =>
      sz d = 2%nat /\ sized sz a /\ sized sz b /\ vsize b = vsize a /\ is_con a = false
  | VResult a => sized sz a
  | VJmp _ _ a b => sized sz a /\ sized sz b /\ vsize b = vsize a /\ is_con a = false
  end.
(** The destination is not also the second operand. *)
Definition second_free (i : vir) : Prop :=
  match i with VBop _ _ _ d _ b => d ∉ opr_vreg b | _ => True end.

(** Only virtual registers below [n] occur. *)
Definition known (n : nat) (i : vir) : Prop := forall v, v ∈ uses i \/ dest i = Some v -> (v < n)%nat.

(** ** Allocation of registers *)

(** Registers whose contents are lost, and in which operands must not be. *)
Definition scratch (i : vir) : list nat :=
  match i with
  | VBop (Mul | Div | Mod) _ _ _ _ _ => [AREG; DREG]
  | VBop (Shl | Shr) _ _ _ _ b => match b with VReg _ _ => [CREG] | VCon _ _ => [] end
  | _ => []
  end.
(** What is needed later, if [L] is needed at the end. *)
Fixpoint live_before (l : list vir) (L : nat -> Prop) : nat -> Prop :=
  match l with
  | [] => L
  | i :: l => fun v => v ∈ uses i \/ (live_before l L v /\ dest i <> Some v)
  end.
(** The registers given by [ph] can be used for the operation, if [L] is needed afterwards. *)
Definition fits1 (ph : nat -> nat) (i : vir) (L : nat -> Prop) : Prop :=
  (forall d v, dest i = Some d -> L v -> v <> d -> ph v <> ph d) /\
  (forall v, L v -> ph v ∉ scratch i) /\
  (forall v, v ∈ uses i -> ph v ∉ scratch i) /\
  (forall d, dest i = Some d -> ph d ∉ scratch i).
Fixpoint fits (ph : nat -> nat) (l : list vir) (L : nat -> Prop) : Prop :=
  match l with
  | [] => True
  | i :: l => fits1 ph i (live_before l L) /\ fits ph l L
  end.
(** The physical registers hold the values of the virtual registers [L]. *)
Definition agree (sz ph : nat -> nat) (L : nat -> Prop) (e : env) (s : state) : Prop :=
  forall v, L v -> (regs s (ph v)) mod 2 ^ bits (sz v) = e v mod 2 ^ bits (sz v).
(** No jump and no return in the list. *)
Definition straight (l : list vir) : Prop := Forall (fun i => dest i <> None) l.

(** Two-operand form: the destination is the first operand, what is multiplied or divided with is
    in a register, and other constants have 32 bits. *)
Definition fits32 (a : vopr) : Prop := match a with VReg _ _ => True | VCon _ n => - 2 ^ 31 <= n < 2 ^ 31 end.
Definition prepared (i : vir) : Prop :=
  match i with
  | VBop o _ sz d a b => a = VReg sz d /\ fits32 b /\ (o = Mul \/ o = Div \/ o = Mod -> is_con b = false)
  | VUop _ sz d a => a = VReg sz d
  | VMov _ _ _ => True
  | VCast _ _ _ a | VResult a => fits32 a
  | VCond _ _ _ a b | VJmp _ _ a b => fits32 a /\ fits32 b
  end.

(** ** Floating-point numbers *)

(** Integers with at most [p] binary digits, but for zeros behind. *)
Definition representable (p z : Z) : Prop := exists m e, 0 <= e /\ Z.abs m < 2 ^ p /\ z = m * 2 ^ e.
(** [v] is a neighbour of [z] among them, or [z] itself (C11 6.3.1.4). *)
Definition neighbour (p z v : Z) : Prop :=
  representable p v /\ forall u, representable p u -> ~ (v < u <= z) /\ ~ (z <= u < v).
Definition is_int (f : fl) (z : Z) : Prop := exists m e, f = Fin m e /\ 0 <= e /\ z = m * 2 ^ e.
(** [z] is the number without what is behind the point. *)
Definition truncated (f : fl) (z : Z) : Prop :=
  exists m e, f = Fin m e /\
  (0 <= e -> z = m * 2 ^ e) /\
  (e < 0 -> Z.abs (z * 2 ^ (- e)) <= Z.abs m /\ Z.abs (m - z * 2 ^ (- e)) < 2 ^ (- e) /\ 0 <= z * m).
