(** What a layout must be: C11 6.7.2.1, stated on offsets, sizes and bits. *)
From stdpp Require Import base list numbers.
From Verif Require Import Front.Layout_model.
Open Scope Z_scope.

(** [y] is the least multiple of [a] that is not below [x]. *)
Definition least_multiple (a x y : Z) : Prop :=
  (a | y) /\ x <= y /\ forall z, (a | z) -> x <= z -> y <= z.

(** Members, given by size and alignment, placed in order from [e]: each at the first
    multiple of its alignment. *)
Inductive in_order : Z -> list (Z * Z) -> list Z -> Z -> Prop :=
| io_nil e : in_order e [] [] e
| io_cons e s a ms o os e' : least_multiple a e o -> in_order (o + s) ms os e' -> in_order e ((s, a) :: ms) (o :: os) e'.
Definition largest (l : list Z) (m : Z) : Prop := m ∈ l /\ Forall (fun x => x <= m) l.

(** Bits from, to. *)
Definition range := (Z * Z)%type.
Definition disjoint (x y : range) : Prop := snd x <= fst y \/ snd y <= fst x.

Section spec.
  Context (lp64 : bool).
  (** The types a program may use: no negative lengths; a bit-field has an integer type other
      than _Bool and is not wider than its type. *)
  Inductive legal : ty -> Prop :=
  | lg_void : legal TyVoid
  | lg_func : legal TyFunc
  | lg_ptr : legal TyPtr
  | lg_fix k : legal (TyFix k)
  | lg_flo k : legal (TyFlo k)
  | lg_arr t n : legal t -> 0 <= n -> legal (TyArr t n)
  | lg_fam t : legal t -> legal (TyFam t)
  | lg_struct u ms : legal_members ms -> legal (TyStruct u ms)
  with legal_members : list (ty * option Z) -> Prop :=
  | lm_nil : legal_members []
  | lm_plain t ms : legal t -> legal_members ms -> legal_members ((t, None) :: ms)
  | lm_bits k w ms : k <> FX_BOOL -> 0 <= w <= 8 * fixnum_size lp64 k -> legal_members ms ->
      legal_members ((TyFix k, Some w) :: ms).

  (** The bits of a member at its place; a zero-width field has none. *)
  Definition bits_of (m : ty * option Z) (p : placed) : option range :=
    match snd m with
    | Some w => if w =? 0 then None else Some (8 * offset p + position p, 8 * offset p + position p + w)
    | None => match size_align lp64 (fst m) with
              | Some (s, _) => Some (8 * offset p, 8 * (offset p + s))
              | None => None
              end
    end.
  (** A member is aligned, inside the struct, and a bit-field inside its storage unit. *)
  Definition member_ok (size align : Z) (m : ty * option Z) (p : placed) : Prop :=
    match snd m with
    | Some w =>
      if w =? 0 then True
      else let u := fixnum_size lp64 (base_kind p) in
           (u | offset p) /\ (u | align) /\ 0 <= offset p /\ offset p + u <= size /\ 0 <= position p /\ position p + w <= 8 * u
    | None => exists s a, size_align lp64 (fst m) = Some (s, a) /\ (a | offset p) /\ (a | align) /\
                0 <= offset p /\ offset p + s <= size
    end.
End spec.
