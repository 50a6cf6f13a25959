(** src/cc/frontend/type.c: comparison of types and which conversions are allowed.
    Simplifications: names are numbers (they are interned, C03) and so are the StructInfo
    pointers; TY_AUTO, which no complete declaration keeps, is left out; the expression of a
    variable length array is left out, its length is LEN_VLA. *)
From stdpp Require Import base list numbers.
From Verif Require Import Front.Layout_model.
Open Scope Z_scope.

(** type.h:48-53. *)
Record quals := Quals { q_const : bool; q_volatile : bool; q_restrict : bool }.
Definition noq : quals := Quals false false false.
Definition constq : quals := Quals true false false.

(** type.h:78-115; an array length below 0 is LEN_UND, LEN_FAM or LEN_VLA. [params] is None
    for a function declared with (), which also has [vaargs] (parser_type.c:603-613). *)
Inductive ty :=
| TVoid (q : quals)
| TFixnum (q : quals) (k : fk) (is_unsigned : bool) (enum_ident : option nat)
| TFlonum (q : quals) (k : flk)
| TPtr (q : quals) (ptrof : ty)
| TArray (q : quals) (ptrof : ty) (length : Z)
| TFunc (q : quals) (ret : ty) (params : option (list ty)) (vaargs : bool)
| TStruct (q : quals) (name : option nat) (info : option nat).

Definition qual_of (t : ty) : quals :=
  match t with
  | TVoid q | TFixnum q _ _ _ | TFlonum q _ | TPtr q _ | TArray q _ _ | TFunc q _ _ _ | TStruct q _ _ => q
  end.
Definition is_const (t : ty) : bool := q_const (qual_of t).

Definition fk_eqb (a b : fk) : bool :=
  match a, b with
  | FX_CHAR, FX_CHAR | FX_SHORT, FX_SHORT | FX_INT, FX_INT | FX_LONG, FX_LONG
  | FX_LLONG, FX_LLONG | FX_ENUM, FX_ENUM | FX_BOOL, FX_BOOL => true
  | _, _ => false
  end.
Definition flk_eqb (a b : flk) : bool :=
  match a, b with
  | FL_FLOAT, FL_FLOAT | FL_DOUBLE, FL_DOUBLE | FL_LDOUBLE, FL_LDOUBLE => true
  | _, _ => false
  end.

(** type.c:431-438. *)
Definition same_struct (n1 i1 n2 i2 : option nat) : bool :=
  match i1, i2 with
  | Some a, Some b => Nat.eqb a b
  | _, _ => match n1, n2 with Some a, Some b => Nat.eqb a b | _, _ => false end
  end.

(** type.c:391-442 same_type_without_qualifier; the loop over pointers and arrays is a
    recursive call. same_type_func_param (387-389) is the call with [true]. *)
Fixpoint same_type_wq (t1 t2 : ty) (ignore_qualifier : bool) : bool :=
  (ignore_qualifier || eqb (is_const t1) (is_const t2)) &&
  match t1, t2 with
  | TVoid _, TVoid _ => true
  | TFixnum _ k1 u1 _, TFixnum _ k2 u2 _ => fk_eqb k1 k2 && eqb u1 u2
  | TFlonum _ k1, TFlonum _ k2 => flk_eqb k1 k2
  | TPtr _ t1, TPtr _ t2 => same_type_wq t1 t2 ignore_qualifier
  | TArray _ t1 l1, TArray _ t2 l2 =>
    ((l1 =? l2) || (l1 <? 0) || (l2 <? 0)) && same_type_wq t1 t2 ignore_qualifier
  | TFunc _ r1 ps1 v1, TFunc _ r2 ps2 v2 =>
    same_type_wq r1 r2 true && eqb v1 v2 &&
    match ps1, ps2 with
    | None, None => true
    | Some ps1, Some ps2 =>
      (fix params (l1 l2 : list ty) : bool :=
         match l1, l2 with
         | [], [] => true
         | p1 :: l1, p2 :: l2 => same_type_wq p1 p2 true && params l1 l2
         | _, _ => false
         end) ps1 ps2
    | _, _ => false
    end
  | TStruct _ n1 i1, TStruct _ n2 i2 => same_struct n1 i1 n2 i2
  | _, _ => false
  end.

(** type.h:168. *)
Definition same_type (t1 t2 : ty) : bool := same_type_wq t1 t2 false.

(** type.c:300-308 array_to_ptr. *)
Definition array_to_ptr (t : ty) : ty := match t with TArray _ t' _ => TPtr noq t' | _ => t end.

(** parser_expr.c:191-204, the end of parse_generic: the index of the association chosen,
    None for the default. *)
Fixpoint generic_choice (types : list ty) (target : ty) : option nat :=
  match types with
  | [] => None
  | t :: types => if same_type t target then Some 0%nat else S <$> generic_choice types target
  end.
Definition generic (types : list ty) (target : ty) : option nat := generic_choice types (array_to_ptr target).

(** type.c:504-520: from a function to a pointer. *)
Definition can_cast_func (target src : ty) (is_explicit : bool) : bool :=
  is_explicit ||
  match target with
  | TFunc _ r ps _ =>
    same_type target src ||
    match src with
    | TFunc _ r' ps' _ => same_type r r' && match ps, ps' with Some _, Some _ => false | _, _ => true end
    | _ => false
    end
  | TVoid _ => true
  | _ => false
  end.
(** type.c:489-503: from a pointer to, or an array of, [s] to a pointer to [target]; the
    recursive call at line 502 has a function as its source. *)
Definition can_cast_ptr (dst target s : ty) (is_explicit : bool) : bool :=
  is_explicit ||
  (negb (is_const s && negb (is_const target)) &&
   match target, s with
   | TVoid _, _ | _, TVoid _ => true
   | _, TFunc _ _ _ _ => same_type_wq dst s false || can_cast_func target s is_explicit
   | _, _ => same_type_wq target s true
   end).

(** type.c:444-541 can_cast. *)
Definition can_cast (dst src : ty) (zero is_explicit : bool) : bool :=
  same_type_wq dst src (match dst with TStruct _ _ _ => true | _ => false end) ||
  match dst, src with
  | TVoid _, TVoid _ => true
  | TVoid _, _ => is_explicit
  | _, TVoid _ => false
  | TFixnum _ _ _ _, TFixnum _ _ _ _ | TFixnum _ _ _ _, TFlonum _ _ => true
  | TFixnum _ _ _ _, TPtr _ _ | TFixnum _ _ _ _, TArray _ _ _ | TFixnum _ _ _ _, TFunc _ _ _ _ => is_explicit
  | TFlonum _ _, TFixnum _ _ _ _ | TFlonum _ _, TFlonum _ _ => true
  | TPtr _ _, TFixnum _ _ _ _ => zero || is_explicit
  | TPtr _ target, TArray _ s _ | TPtr _ target, TPtr _ s => can_cast_ptr dst target s is_explicit
  | TPtr _ target, TFunc _ _ _ _ => can_cast_func target src is_explicit
  | TArray _ _ _, TPtr _ _ | TArray _ _ _, TArray _ _ _ => is_explicit
  | _, _ => false
  end.
