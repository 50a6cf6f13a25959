(** What C prescribes: types of operators (C11 6.3.1) and values of expressions. *)
From stdpp Require Import base list numbers.
From Coq Require Import Floats.SpecFloat.
From Verif Require Import Front.Layout_model Front.Fold_model.
Open Scope Z_scope.

(** A value: an integer, or a floating-point number. *)
Inductive val := VI (z : Z) | VF (f : spec_float).

Section spec.
  Context (lp64 : bool).

  (** The values of an integer type. *)
  Definition width (t : fty) : Z := 8 * fixnum_size lp64 (kd t).
  Definition lo (t : fty) : Z := match kd t with FX_BOOL => 0 | _ => if uns t then 0 else - 2 ^ (width t - 1) end.
  Definition hi (t : fty) : Z := match kd t with FX_BOOL => 1 | _ => if uns t then 2 ^ width t - 1 else 2 ^ (width t - 1) - 1 end.
  Definition in_range (t : fty) (z : Z) : Prop := lo t <= z <= hi t.
  #[global] Instance in_range_dec t z : Decision (in_range t z).
  Proof. unfold in_range. apply _. Defined.

  (** 6.3.1.1: conversion rank and the integer promotions. *)
  Definition rank (t : fty) : Z :=
    match kd t with FX_BOOL => 0 | FX_CHAR => 1 | FX_SHORT => 2 | FX_INT | FX_ENUM => 3 | FX_LONG => 4 | FX_LLONG => 5 end.
  Definition promoted (t : fty) : fty :=
    if decide (rank t <= rank tyInt) then
      (if decide (lo tyInt <= lo t /\ hi t <= hi tyInt) then tyInt else Fty FX_INT true)
    else t.
  (** 6.3.1.8: the usual arithmetic conversions of integers. *)
  Definition common (a b : fty) : fty :=
    let a := promoted a in
    let b := promoted b in
    if decide (uns a = uns b) then (if decide (rank a < rank b) then b else a)
    else
      let '(u, s) := if uns a then (a, b) else (b, a) in
      if decide (rank s <= rank u) then u
      else if decide (lo s <= lo u /\ hi u <= hi s) then s
      else Fty (kd s) true.
  Definition common_n (a b : nty) : nty :=
    match a, b with
    | NFix a, NFix b => NFix (common a b)
    | NFix _, NFlo k | NFlo k, NFix _ => NFlo k
    | NFlo k, NFlo k' => NFlo (if decide (flk_index k < flk_index k') then k' else k)
    end.
  (** Types of the same size and signedness. *)
  Definition same_repr (t u : fty) : Prop := fixnum_size lp64 (kd t) = fixnum_size lp64 (kd u) /\ uns t = uns u.

  (** 6.3.1.2-5: conversions.  Floats have 24 bits of precision, the other kinds 53. *)
  Definition conv_int (t : fty) (z : Z) : Z :=
    match kd t with
    | FX_BOOL => if decide (z = 0) then 0 else 1
    | _ => if uns t then z mod 2 ^ width t else (z + 2 ^ (width t - 1)) mod 2 ^ width t - 2 ^ (width t - 1)
    end.
  Definition prec (k : flk) : Z := match k with FL_FLOAT => 24 | _ => 53 end.
  Definition emax (k : flk) : Z := match k with FL_FLOAT => 128 | _ => 1024 end.
  Definition round (k : flk) (f : spec_float) : spec_float :=
    match f with S754_finite s m e => binary_round (prec k) (emax k) s m e | _ => f end.
  Definition conv (t : nty) (v : val) : option val :=
    match t, v with
    | NFix t, VI z => Some (VI (conv_int t z))
    | NFix t, VF f =>
      match kd t with
      | FX_BOOL => Some (VI (if flo_zero f then 0 else 1))
      | _ => z ← trunc f; if decide (in_range t z) then Some (VI z) else None
      end
    | NFlo k, VI z => Some (VF (binary_normalize (prec k) (emax k) z 0 false))
    | NFlo k, VF f => Some (VF (round k f))
    end.

  (** 6.5: results.  Unsigned arithmetic wraps around; signed overflow is undefined. *)
  Definition norm (t : fty) (z : Z) : option Z :=
    if uns t then Some (z mod 2 ^ width t) else if decide (in_range t z) then Some z else None.
  Definition arith (t : fty) (k : bop) (a b : Z) : option Z :=
    match k with
    | EX_ADD => norm t (a + b)
    | EX_SUB => norm t (a - b)
    | EX_MUL => norm t (a * b)
    | EX_DIV => if decide (b = 0) then None else norm t (Z.quot a b)
    | EX_MOD => if decide (b = 0) then None else norm t (Z.quot a b) ≫= fun _ => norm t (Z.rem a b)
    | EX_BITAND => norm t (Z.land a b)
    | EX_BITOR => norm t (Z.lor a b)
    | EX_BITXOR => norm t (Z.lxor a b)
    | EX_LSHIFT =>
      if decide (0 <= b < width t) then (if uns t then norm t (a * 2 ^ b) else if decide (0 <= a) then norm t (a * 2 ^ b) else None)
      else None
    | EX_RSHIFT => if decide (0 <= b < width t) then norm t (a / 2 ^ b) else None
    end.
  Definition farith (k : flk) (o : bop) (a b : spec_float) : option spec_float :=
    match o with
    | EX_ADD => Some (SFadd (prec k) (emax k) a b)
    | EX_SUB => Some (SFsub (prec k) (emax k) a b)
    | EX_MUL => Some (SFmul (prec k) (emax k) a b)
    | EX_DIV => Some (SFdiv (prec k) (emax k) a b)
    | _ => None
    end.
  Definition holds (k : cmpop) (c : option comparison) : bool :=
    match k with
    | EX_EQ => bool_decide (c = Some Eq)
    | EX_NE => bool_decide (c <> Some Eq)
    | EX_LT => bool_decide (c = Some Lt)
    | EX_LE => bool_decide (c = Some Lt \/ c = Some Eq)
    | EX_GE => bool_decide (c = Some Gt \/ c = Some Eq)
    | EX_GT => bool_decide (c = Some Gt)
    end.
  Definition compare_vals (a b : val) : option (option comparison) :=
    match a, b with
    | VI a, VI b => Some (Some (a ?= b))
    | VF a, VF b => Some (SFcompare a b)
    | _, _ => None
    end.
  Definition truthy (v : val) : bool := match v with VI z => negb (z =? 0) | VF f => negb (flo_zero f) end.
  Definition bit (b : bool) : val := VI (if b then 1 else 0).

  (** The value of an expression after the effects [h]; [env] gives that of the opaque
      expressions, whose evaluation is an effect.  [None]: undefined. *)
  Context (env : nty -> list nat -> nat -> val).
  Fixpoint eval (h : list nat) (e : expr) : option (list nat * val) :=
    match e with
    | EFix t z => Some (h, VI (if uns t then z mod 2 ^ width t else z))
    | EFlo k f => Some (h, VF (round k f))
    | EOpaque t n => Some (h ++ [n], env t h n)
    | EBop k t l r =>
      '(h, a) ← eval h l; '(h, b) ← eval h r;
      match t, a, b with
      | NFix t, VI a, VI b => z ← arith t k a b; Some (h, VI z)
      | NFlo fk, VF a, VF b => f ← farith fk k a b; Some (h, VF f)
      | _, _, _ => None
      end
    | ECmp k l r =>
      '(h, a) ← eval h l; '(h, b) ← eval h r;
      c ← compare_vals a b; Some (h, bit (holds k c))
    | ELog EX_LOGAND l r =>
      '(h, a) ← eval h l;
      if truthy a then '(h, b) ← eval h r; Some (h, bit (truthy b)) else Some (h, bit false)
    | ELog EX_LOGIOR l r =>
      '(h, a) ← eval h l;
      if truthy a then Some (h, bit true) else '(h, b) ← eval h r; Some (h, bit (truthy b))
    | ENeg t e =>
      '(h, a) ← eval h e;
      match t, a with
      | NFix t, VI a => z ← norm t (- a); Some (h, VI z)
      | NFlo _, VF f => Some (h, VF (SFopp f))
      | _, _ => None
      end
    | ENot t e =>
      '(h, a) ← eval h e;
      match t, a with
      | NFix t, VI a => z ← norm t (Z.lnot a); Some (h, VI z)
      | _, _ => None
      end
    | EPos t e => '(h, a) ← eval h e; v ← conv t a; Some (h, v)
    | ECast t e => '(h, a) ← eval h e; v ← conv t a; Some (h, v)
    | EComma l r => '(h, _) ← eval h l; eval h r
    | ETern t c l r =>
      '(h, a) ← eval h c;
      '(h, b) ← (if truthy a then eval h l else eval h r); v ← conv t b; Some (h, v)
    end.
End spec.

(** Values belong to types. *)
Definition has_type (lp64 : bool) (t : nty) (v : val) : Prop :=
  match t, v with NFix t, VI z => in_range lp64 t z | NFlo _, VF _ => True | _, _ => False end.
Definition env_ok (lp64 : bool) (env : nty -> list nat -> nat -> val) : Prop := forall t h n, has_type lp64 t (env t h n).
(** _Bool and enumerations are signed in the compiler's tables (type.c:17, 377-382). *)
Definition type_ok (t : fty) : Prop := match kd t with FX_BOOL | FX_ENUM => uns t = false | _ => True end.
Definition ntype_ok (t : nty) : Prop := match t with NFix t => type_ok t | NFlo _ => True end.
(** Expressions whose constants are Fixnums that represent a value of their type, and
    floating constants that are exact in their type. *)
Section wf.
  Context (lp64 : bool) (hprec hemax : Z).
  Definition const_ok (t : fty) (z : Z) : Prop :=
    type_ok t /\ if decide (width lp64 t = 64) then - 2 ^ 63 <= z < 2 ^ 63 else in_range lp64 t z.
  Definition host (f : spec_float) : spec_float :=
    match f with S754_finite s m e => binary_round hprec hemax s m e | _ => f end.
  Fixpoint wf (e : expr) : Prop :=
    match e with
    | EFix t z => const_ok t z
    | EFlo k f => host (round k f) = f
    | EOpaque t _ => ntype_ok t
    | EBop _ t l r => ntype_ok t /\ wf l /\ wf r
    | ECmp _ l r | ELog _ l r => wf l /\ wf r
    | EComma l r => wf l /\ wf r
    | ENeg t e | ENot t e | EPos t e | ECast t e => ntype_ok t /\ wf e
    | ETern t c l r => ntype_ok t /\ wf c /\ wf l /\ wf r
    end.
End wf.

(** [e'] does what [e] does, wherever C defines [e]. *)
Definition refines (lp64 : bool) (e' e : expr) : Prop :=
  forall env h x, env_ok lp64 env -> eval lp64 env h e = Some x -> eval lp64 env h e' = Some x.
(** C defines [e] for some values of the opaque expressions. *)
Definition defined (lp64 : bool) (e : expr) : Prop := exists env h, env_ok lp64 env /\ eval lp64 env h e <> None.

(** The expressions C prescribes, with nothing folded. *)
Definition c_bop (lp64 : bool) (k : bop) (l r : expr) : expr :=
  let t := common_n lp64 (type_of l) (type_of r) in EBop k t (ECast t l) (ECast t r).
Definition c_shift (lp64 : bool) (k : bop) (l r : expr) : expr :=
  let t := match type_of l with NFix t => NFix (promoted lp64 t) | t => t end in EBop k t (ECast t l) r.
Definition convert (t : nty) (e : expr) : expr := if decide (type_of e = t) then e else ECast t e.
Definition c_cmp (lp64 : bool) (k : cmpop) (l r : expr) : expr :=
  let t := common_n lp64 (type_of l) (type_of r) in ECmp k (convert t l) (convert t r).
Definition c_neg (lp64 : bool) (e : expr) : expr :=
  let t := match type_of e with NFix t => NFix (promoted lp64 t) | t => t end in ENeg t (convert t e).
Definition c_pos (lp64 : bool) (e : expr) : expr :=
  let t := match type_of e with NFix t => NFix (promoted lp64 t) | t => t end in convert t e.
Definition c_not (lp64 : bool) (e : expr) : expr :=
  let t := match type_of e with NFix t => NFix (promoted lp64 t) | t => t end in ENot t (convert t e).
Definition c_tern (lp64 : bool) (c l r : expr) : expr :=
  let t := common_n lp64 (type_of l) (type_of r) in ETern t c (convert t l) (convert t r).
(** An operand that C leaves signed, and two operands that C leaves of the same type. *)
Definition both_signed (lp64 : bool) (lt rt : fty) : Prop := uns (promoted lp64 lt) = false /\ uns (promoted lp64 rt) = false.
Definition same_promoted (lp64 : bool) (lt rt : fty) : Prop := promoted lp64 lt = promoted lp64 rt.
Definition is_fix (t : nty) : Prop := match t with NFix _ => True | NFlo _ => False end.
Definition type_like (lp64 : bool) (t u : nty) : Prop :=
  match t, u with NFix t, NFix u => same_repr lp64 t u | NFlo k, NFlo k' => k = k' | _, _ => False end.
(** No < <= > >= on floating-point operands. *)
Fixpoint ordered (e : expr) : Prop :=
  match e with
  | EFix _ _ | EFlo _ _ | EOpaque _ _ => True
  | ECmp k l r => (match k with EX_EQ | EX_NE => True | _ => is_fix (type_of l) /\ is_fix (type_of r) end) /\ ordered l /\ ordered r
  | EBop _ _ l r | ELog _ l r | EComma l r => ordered l /\ ordered r
  | ENeg _ e | ENot _ e | EPos _ e | ECast _ e => ordered e
  | ETern _ c l r => ordered c /\ ordered l /\ ordered r
  end.

(** An operand of a comparison in type [t] that is no constant needing to be rounded. *)
Definition plain (t : nty) (e : expr) : Prop :=
  match e with EFix _ z => is_fix t \/ z = 0 | EFlo k _ => t = NFlo k | _ => True end.
Definition is_zero (e : expr) : Prop := match e with EFix _ z => z = 0 | EFlo _ f => flo_zero f = true | _ => False end.
Definition equality (k : cmpop) : Prop := match k with EX_EQ | EX_NE => True | _ => False end.
(** Comparisons that fold no two floating-point constants, except for == 0 and != 0. *)
Definition comparable (lp64 : bool) (k : cmpop) (l r : expr) : Prop :=
  let t := common_n lp64 (type_of l) (type_of r) in
  plain t l /\ plain t r /\ (~ is_fix t -> is_const l = true -> is_const r = true -> equality k /\ is_zero r).
(** How deep && and || are nested. *)
Fixpoint ldepth (e : expr) : nat :=
  match e with ECast _ e | EComma _ e => ldepth e | ELog _ a b => S (ldepth a `max` ldepth b) | _ => O end.
(** The long double of x64 and that of the other hosts. *)
Definition host_ok (hprec hemax : Z) : Prop := (hprec = 64 /\ hemax = 16384) \/ (hprec = 53 /\ hemax = 1024).
