(** #if expressions by the standard (C11 6.10.1, 6.5, 6.6): the grammar, and the
    value with intmax_t / uintmax_t operands.  Shares only the token type. *)
From stdpp Require Import base list numbers.
From Verif Require Import Cpp.Ppexpr_model.
Open Scope Z_scope.

Inductive expr :=
| Num (u : bool) (v : Z)
| Ident (n : nat)
| Defined (n : nat)
| Un (o : op) (e : expr)
| Bin (o : op) (e1 e2 : expr)
| Cond (e1 e2 e3 : expr).

(** The non-terminals of 6.5, loosest first. *)
Inductive nt :=
| expression | conditional | logical_or | logical_and | inclusive_or | exclusive_or
| and_nt | equality | relational | shift | additive | multiplicative | unary_nt | primary.

(** The binary operators of each left-recursive rule, and its operand. *)
Definition rule (n : nt) : list op * nt :=
  match n with
  | expression => ([Comma], conditional)
  | conditional => ([], logical_or)
  | logical_or => ([Lor], logical_and)
  | logical_and => ([Land], inclusive_or)
  | inclusive_or => ([Bor], exclusive_or)
  | exclusive_or => ([Bxor], and_nt)
  | and_nt => ([Band], equality)
  | equality => ([Eq; Ne], relational)
  | relational => ([Lt; Gt; Le; Ge], shift)
  | shift => ([Shl; Shr], additive)
  | additive => ([Add; Sub], multiplicative)
  | multiplicative => ([Mul; Div; Mod], unary_nt)
  | unary_nt => ([], primary)
  | primary => ([], primary)
  end.

Inductive derives : nt -> list tok -> expr -> Prop :=
| d_num u v : derives primary [TInt u v] (Num u v)
| d_ident n : derives primary [TId n] (Ident n)
| d_paren ts e : derives expression ts e -> derives primary ([TLpar] ++ ts ++ [TRpar]) e
| d_defined n : derives primary [TDefined; TId n] (Defined n)
| d_defined_paren n : derives primary [TDefined; TLpar; TId n; TRpar] (Defined n)
| d_unary o ts e : o ∈ [Add; Sub; Not; Tilda] -> derives unary_nt ts e ->
    derives unary_nt ([TOp o] ++ ts) (Un o e)
| d_binary n o ts1 e1 ts2 e2 : o ∈ (rule n).1 ->
    derives n ts1 e1 -> derives (rule n).2 ts2 e2 ->
    derives n (ts1 ++ [TOp o] ++ ts2) (Bin o e1 e2)
| d_conditional ts1 e1 ts2 e2 ts3 e3 :
    derives logical_or ts1 e1 -> derives expression ts2 e2 -> derives conditional ts3 e3 ->
    derives conditional (ts1 ++ [TQuestion] ++ ts2 ++ [TColon] ++ ts3) (Cond e1 e2 e3)
| d_up n ts e : derives (rule n).2 ts e -> derives n ts e.

(** ** Values.  Type: unsigned or not (6.10.1p4: intmax_t and uintmax_t). *)
Fixpoint unsigned (e : expr) : bool :=
  match e with
  | Num u v => u || (2 ^ 63 <=? v)
  | Ident _ | Defined _ => false
  | Un Not _ => false
  | Un _ e => unsigned e
  | Bin (Eq | Ne | Lt | Le | Gt | Ge | Land | Lor) _ _ => false
  | Bin Comma _ e2 => unsigned e2
  | Bin (Shl | Shr) e1 _ => unsigned e1
  | Bin _ e1 e2 => unsigned e1 || unsigned e2
  | Cond _ e2 e3 => unsigned e2 || unsigned e3
  end.

(** A mathematical result in the type: modulo for unsigned, undefined when a
    signed one does not fit. *)
Definition fit (u : bool) (z : Z) : option Z :=
  if u then Some (z mod 2 ^ 64)
  else if (- 2 ^ 63 <=? z) && (z <? 2 ^ 63) then Some z else None.
(** Conversion of a value to the common type. *)
Definition conv (u : bool) (z : Z) : Z := if u then z mod 2 ^ 64 else z.

Definition bool_val (b : bool) : Z := if b then 1 else 0.
Definition truth (z : Z) : bool := negb (z =? 0).

(** The arithmetic of one operator, operands already in the common type [u]
    (for shifts, the type of the left one). *)
Definition arith_op (o : op) (u : bool) (a b : Z) : option Z :=
  match o with
  | Add => fit u (a + b)
  | Sub => fit u (a - b)
  | Mul => fit u (a * b)
  | Div => if b =? 0 then None else fit u (Z.quot a b)
  | Mod => if b =? 0 then None
           else match fit u (Z.quot a b) with Some q => Some (a - q * b) | None => None end
  | Shl => if (b <? 0) || (64 <=? b) then None
           else if u then fit u (a * 2 ^ b)
           else if a <? 0 then None else fit u (a * 2 ^ b)
  | Shr => if (b <? 0) || (64 <=? b) then None else Some (a / 2 ^ b)
  | Band => Some (Z.land a b)
  | Bor => Some (Z.lor a b)
  | Bxor => Some (Z.lxor a b)
  | Eq => Some (bool_val (a =? b))
  | Ne => Some (bool_val (negb (a =? b)))
  | Lt => Some (bool_val (a <? b))
  | Le => Some (bool_val (a <=? b))
  | Gt => Some (bool_val (b <? a))
  | Ge => Some (bool_val (b <=? a))
  | Comma => Some b
  | _ => None
  end.

Definition common (o : op) (u1 u2 : bool) : bool :=
  match o with Shl | Shr => u1 | Comma => u2 | _ => u1 || u2 end.

Definition unary_op (o : op) (u : bool) (a : Z) : option Z :=
  match o with
  | Add => Some a
  | Sub => fit u (- a)
  | Not => Some (bool_val (negb (truth a)))
  | Tilda => if u then Some (2 ^ 64 - 1 - a) else Some (- a - 1)
  | _ => None
  end.

Section env.
  Context (defined : nat -> bool).

  (** The value; [None] when C gives none.  The unselected operands of &&, || and
      ?: are not evaluated. *)
  Fixpoint value (e : expr) : option Z :=
    match e with
    | Num u v => Some v
    | Ident _ => Some 0
    | Defined n => Some (bool_val (defined n))
    | Un o e => a ← value e; unary_op o (unsigned e) a
    | Bin Land e1 e2 =>
      a ← value e1; if truth a then b ← value e2; Some (bool_val (truth b)) else Some 0
    | Bin Lor e1 e2 =>
      a ← value e1; if truth a then Some 1 else b ← value e2; Some (bool_val (truth b))
    | Bin o e1 e2 =>
      a ← value e1; b ← value e2;
      let u := common o (unsigned e1) (unsigned e2) in
      arith_op o u (conv u a) (match o with Shl | Shr => b | _ => conv u b end)
    | Cond e1 e2 e3 =>
      a ← value e1;
      let u := unsigned e2 || unsigned e3 in
      if truth a then b ← value e2; Some (conv u b) else c ← value e3; Some (conv u c)
    end.

  (** No operand has an unsigned type. *)
  Fixpoint all_signed (e : expr) : Prop :=
    match e with
    | Num u v => u = false /\ - 2 ^ 63 <= v < 2 ^ 63
    | Ident _ | Defined _ => True
    | Un _ e => all_signed e
    | Bin _ e1 e2 => all_signed e1 /\ all_signed e2
    | Cond e1 e2 e3 => all_signed e1 /\ all_signed e2 /\ all_signed e3
    end.

  (** Every operand evaluated, selected or not, with x / 0 and x % 0 giving x;
      [None] when there is an overflow or a bad shift anywhere. *)
  Fixpoint eager (e : expr) : option Z :=
    match e with
    | Num u v => Some v
    | Ident _ => Some 0
    | Defined n => Some (bool_val (defined n))
    | Un o e => a ← eager e; unary_op o false a
    | Bin o e1 e2 =>
      a ← eager e1; b ← eager e2;
      match o with
      | Land => Some (bool_val (truth a && truth b))
      | Lor => Some (bool_val (truth a || truth b))
      | Div | Mod => if b =? 0 then Some a else arith_op o false a b
      | _ => arith_op o false a b
      end
    | Cond e1 e2 e3 =>
      a ← eager e1; b ← eager e2; c ← eager e3; Some (if truth a then b else c)
    end.
  Definition no_overflow_anywhere (e : expr) : Prop := eager e <> None.
End env.
