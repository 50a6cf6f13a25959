(** src/as/parse_asm.c:432-558 and 1074-1142: expressions in directives of the assembler.
    Simplifications: the input is a list of tokens; a label is a number; floating point
    constants are left out; label->address is given by a function, [None] for a label that is
    not in the table. *)
From stdpp Require Import base list numbers.
Open Scope Z_scope.

(** [Undef]: the assembler's own arithmetic overflows; [Reject]: an error is reported. *)
Inductive res (A : Type) := Ok (a : A) | Undef | Reject | NoFuel.
Arguments Ok {A}. Arguments Undef {A}. Arguments Reject {A}. Arguments NoFuel {A}.
#[global] Instance res_bind : MBind res := fun A B f r => match r with Ok a => f a | Undef => Undef | Reject => Reject | NoFuel => NoFuel end.

(** parse_asm.c:267-277 *)
Inductive token := TLabel (n : nat) | TFix (z : Z) | TAdd | TSub | TMul | TDiv | TOther.
(** parse_asm.h:104-142 *)
Inductive expr := ELabel (n : nat) | EFix (z : Z) | EPos (e : expr) | ENeg (e : expr)
  | EAdd (l r : expr) | ESub (l r : expr) | EMul (l r : expr) | EDiv (l r : expr).

(** int64_t arithmetic *)
Definition i64 (z : Z) : res Z := if (- 2 ^ 63 <=? z) && (z <? 2 ^ 63) then Ok z else Undef.

(** parse_asm.c:432-492 prim and unary; [None] is the result NULL. *)
Fixpoint unary (ts : list token) : res (option expr * list token) :=
  match ts with
  | TAdd :: ts =>
    '(e, ts) ← unary ts;
    Ok (match e with None => None | Some (EFix z) => Some (EFix z) | Some e => Some (EPos e) end, ts)
  | TSub :: ts =>
    '(e, ts) ← unary ts;
    match e with
    | None => Ok (None, ts)
    | Some (EFix z) => z ← i64 (- z); Ok (Some (EFix z), ts)
    | Some e => Ok (Some (ENeg e), ts)
    end
  | TLabel n :: ts => Ok (Some (ELabel n), ts)
  | TFix z :: ts => Ok (Some (EFix z), ts)
  | _ => Ok (None, ts)
  end.

(** parse_asm.c:508-518 *)
Definition mul_op (dv : bool) (l r : expr) : res expr :=
  match l, r with
  | EFix a, EFix b => z ← (if dv then i64 (a + b) else i64 (a * b)); Ok (EFix z)
  | _, _ => Ok (if dv then EDiv l r else EMul l r)
  end.
Definition mul_token (ts : list token) : option (bool * list token) :=
  match ts with TMul :: ts => Some (false, ts) | TDiv :: ts => Some (true, ts) | _ => None end.
(** parse_asm.c:499-520 *)
Fixpoint mul_loop (fuel : nat) (e : expr) (ts : list token) : res (expr * list token) :=
  match fuel with
  | O => NoFuel
  | S fuel =>
    match mul_token ts with
    | None => Ok (e, ts)
    | Some (dv, ts) =>
      '(r, ts) ← unary ts;
      match r with
      | None => Reject
      | Some r => e ← mul_op dv e r; mul_loop fuel e ts
      end
    end
  end.
(** parse_asm.c:494-522 *)
Definition parse_mul (ts : list token) : res (option expr * list token) :=
  '(e, ts) ← unary ts;
  match e with
  | None => Ok (None, ts)
  | Some e => '(e, ts) ← mul_loop (S (length ts)) e ts; Ok (Some e, ts)
  end.

(** parse_asm.c:538-550 *)
Definition add_op (sub : bool) (l r : expr) : res expr :=
  match l, r with
  | EFix a, EFix b => z ← (if sub then i64 (a + b) else i64 (a + b)); Ok (EFix z)
  | _, _ => Ok (if sub then ESub l r else EAdd l r)
  end.
Definition add_token (ts : list token) : option (bool * list token) :=
  match ts with TAdd :: ts => Some (false, ts) | TSub :: ts => Some (true, ts) | _ => None end.
(** parse_asm.c:529-551 *)
Fixpoint add_loop (fuel : nat) (e : expr) (ts : list token) : res (expr * list token) :=
  match fuel with
  | O => NoFuel
  | S fuel =>
    match add_token ts with
    | None => Ok (e, ts)
    | Some (sub, ts) =>
      '(r, ts) ← parse_mul ts;
      match r with
      | None => Reject
      | Some r => e ← add_op sub e r; add_loop fuel e ts
      end
    end
  end.
(** parse_asm.c:524-558 parse_add, parse_expr; no expression is an error of the directive
    (938-941). *)
Definition parse_expr (ts : list token) : res (expr * list token) :=
  '(e, ts) ← parse_mul ts;
  match e with
  | None => Reject
  | Some e => add_loop (S (length ts)) e ts
  end.

(** Value: a label, if any, and an offset. *)
Record val := Val { vlabel : option nat; voffset : Z }.
Section calc.
  (** label_table: addresses are uint64_t. *)
  Context (table : nat -> option Z).
  Definition sub_labels (l r : nat) : res val :=
    match table l, table r with
    | Some a, Some b => let d := (a - b) mod 2 ^ 64 in Ok (Val None (if d <? 2 ^ 63 then d else d - 2 ^ 64))
    | _, _ => Reject
    end.
  (** parse_asm.c:1082-1122 *)
  Definition calc_bop (is_add is_sub : bool) (op : Z -> Z -> res Z) (l r : val) : res val :=
    match vlabel r with
    | Some rn =>
      match vlabel l with
      | Some ln => if is_sub then sub_labels ln rn else Reject
      | None => if is_add then z ← i64 (voffset l + voffset r); Ok (Val (Some rn) z) else Reject
      end
    | None =>
      match vlabel l with
      | Some ln => if is_add then z ← i64 (voffset l + voffset r); Ok (Val (Some ln) z) else Reject
      | None => z ← op (voffset l) (voffset r); Ok (Val None z)
      end
    end.
  (** parse_asm.c:1074-1142 calc_expr *)
  Fixpoint calc (e : expr) : res val :=
    match e with
    | ELabel n => Ok (Val (Some n) 0)
    | EFix z => Ok (Val None z)
    | EAdd l r => l ← calc l; r ← calc r; calc_bop true false (fun a b => i64 (a + b)) l r
    | ESub l r => l ← calc l; r ← calc r; calc_bop false true (fun a b => i64 (a - b)) l r
    | EMul l r => l ← calc l; r ← calc r; calc_bop false false (fun a b => i64 (a * b)) l r
    | EDiv l r => l ← calc l; r ← calc r;
                  calc_bop false false (fun a b => if b =? 0 then Undef else i64 (Z.quot a b)) l r
    | EPos e => v ← calc e; match vlabel v with Some _ => Reject | None => Ok v end
    | ENeg e => v ← calc e; match vlabel v with Some _ => Reject | None => z ← i64 (- voffset v); Ok (Val None z) end
    end.
End calc.

(** parse_asm.c:945-952: the bytes of a constant. *)
Definition bytes_of (size : nat) (z : Z) : list Z := (fun i => (z / 2 ^ (8 * Z.of_nat i)) mod 256) <$> seq 0 size.
