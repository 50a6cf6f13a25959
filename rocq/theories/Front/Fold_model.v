(** src/cc/frontend/fe_misc.c and parser_expr.c: how the expressions of numeric operators
    are built, with the folding of constants and the simplifications.
    Simplifications: pointers, strings, qualifiers and error reports are left out; an
    expression that is none of those below (a variable, a call, ...) is [EOpaque]; in-place
    changes of an operand (make_cast on a constant, new_expr_cmp flipping a comparison) are
    new expressions here. *)
From stdpp Require Import base list numbers.
From Coq Require Import Floats.SpecFloat.
From Verif Require Import Util.Wrap_model Front.Layout_model.
Open Scope Z_scope.

(** An integer type, and a numeric type. *)
Record fty := Fty { kd : fk; uns : bool }.
#[global] Instance fty_dec : EqDecision fty. Proof. solve_decision. Defined.
#[global] Instance flk_dec : EqDecision flk. Proof. solve_decision. Defined.
Inductive nty := NFix (t : fty) | NFlo (k : flk).
#[global] Instance nty_dec : EqDecision nty. Proof. solve_decision. Defined.
(** type.c:12-17. *)
Definition tyInt := Fty FX_INT false.
Definition tyBool := Fty FX_BOOL false.

(** ast.h:190-240, in the order of the source. *)
Inductive bop := EX_ADD | EX_SUB | EX_MUL | EX_DIV | EX_MOD | EX_BITAND | EX_BITOR | EX_BITXOR | EX_LSHIFT | EX_RSHIFT.
Inductive cmpop := EX_EQ | EX_NE | EX_LT | EX_LE | EX_GE | EX_GT.
Inductive logop := EX_LOGAND | EX_LOGIOR.
#[global] Instance cmpop_dec : EqDecision cmpop. Proof. solve_decision. Defined.

Inductive expr :=
| EFix (t : fty) (fixnum : Z) (* a Fixnum, int64_t *)
| EFlo (k : flk) (flonum : spec_float)
| EOpaque (t : nty) (n : nat)
| EBop (k : bop) (t : nty) (l r : expr)
| ECmp (k : cmpop) (l r : expr)
| ELog (k : logop) (l r : expr)
| ENeg (t : nty) (e : expr)
| ENot (t : nty) (e : expr) (* EX_BITNOT *)
| EPos (t : nty) (e : expr)
| ECast (t : nty) (e : expr)
| EComma (l r : expr)
| ETern (t : nty) (c l r : expr).

Fixpoint type_of (e : expr) : nty :=
  match e with
  | EFix t _ => NFix t | EFlo k _ => NFlo k | EOpaque t _ => t
  | EBop _ t _ _ | ENeg t _ | ENot t _ | EPos t _ | ECast t _ | ETern t _ _ _ => t
  | ECmp _ _ _ | ELog _ _ _ => NFix tyBool
  | EComma _ r => type_of r
  end.

(** int64_t. *)
Definition fixmin : Z := - 2 ^ 63.
Definition fixmax : Z := 2 ^ 63 - 1.
Definition to_fixnum (z : Z) : Z := to_signed 64 z.
Definition to_ufixnum (z : Z) : Z := to_unsigned 64 z.
(** Fixnum arithmetic of the compiler: overflow is undefined. *)
Definition fix_check (z : Z) : option Z := if (fixmin <=? z) && (z <=? fixmax) then Some z else None.

(** The host's long double (ast.h:26), of [prec] bits of precision. *)
Section fold.
  Context (lp64 : bool).
  (** The first word of the union of an Expr other than a constant: a pointer. *)
  Context (first_word : expr -> Z).
  (** prec, emax of the host's long double. *)
  Context (hprec hemax : Z).

  Definition fsize (t : fty) : Z := fixnum_size lp64 (kd t).
  Definition fixlit (t : fty) (z : Z) : expr :=
    EFix t (match kd t with FX_BOOL => if z =? 0 then 0 else 1 | _ => z end).

  (** ast.c:30-42 *)
  Definition is_const (e : expr) : bool := match e with EFix _ _ | EFlo _ _ => true | _ => false end.
  (** ast.c:76-80 *)
  Fixpoint strip_cast (e : expr) : expr := match e with ECast _ e => strip_cast e | _ => e end.

  (** Flonum from an integer; a Flonum converted to Fixnum is undefined out of range. *)
  Definition flo_of_Z (z : Z) : spec_float := binary_normalize hprec hemax z 0 false.
  Definition flo_zero (f : spec_float) : bool := match f with S754_zero _ => true | _ => false end.
  Definition trunc (f : spec_float) : option Z :=
    match f with
    | S754_zero _ => Some 0
    | S754_finite s m e =>
      let a := if 0 <=? e then Z.pos m * 2 ^ e else Z.pos m / 2 ^ (- e) in
      Some (if s then - a else a)
    | _ => None
    end.
  Definition fix_of_flo (f : spec_float) : option Z := z ← trunc f; fix_check z.

  (** fe_misc.c:346-417 make_cast.  [None]: the compiler's own behaviour is undefined.  The
      x64 variant for casts from double to uint64_t (395-413) is left out. *)
  Definition make_cast (t : nty) (e : expr) : option expr :=
    if decide (t = type_of e) then Some e
    else
      match e, t with
      | EFlo _ f, NFix ft =>
        match kd ft with
        | FX_BOOL => Some (EFix ft (if flo_zero f then 0 else 1))
        | _ => z ← fix_of_flo f; Some (fixlit ft (wrap_value z (fsize ft) (uns ft)))
        end
      | EFlo _ f, NFlo k => Some (EFlo k f)
      | EFix st z, NFlo k => Some (EFlo k (flo_of_Z (if uns st then to_ufixnum z else z)))
      | EFix st z, NFix ft =>
        match kd ft with
        | FX_BOOL => Some (EFix ft (if z =? 0 then 0 else 1))
        | _ => Some (EFix ft (wrap_value z (fsize ft) (uns ft)))
        end
      | _, _ => Some (ECast t e)
      end.

  (** fe_misc.c:740-746 *)
  Definition promote_to_int (e : expr) : option expr :=
    match type_of e with
    | NFix t =>
      match kd t with
      | FX_INT | FX_LONG | FX_LLONG => Some e
      | _ => make_cast (NFix tyInt) e
      end
    | NFlo _ => None (* assertion *)
    end.

  Definition below_int (k : fk) : bool := match k with FX_CHAR | FX_SHORT => true | _ => false end.
  (** >= FX_ENUM *)
  Definition enum_or_bool (k : fk) : bool := match k with FX_ENUM | FX_BOOL => true | _ => false end.
  Definition flk_index (k : flk) : Z := match k with FL_FLOAT => 0 | FL_DOUBLE => 1 | FL_LDOUBLE => 2 end.
  Definition fk_index (k : fk) : Z :=
    match k with FX_CHAR => 0 | FX_SHORT => 1 | FX_INT => 2 | FX_LONG => 3 | FX_LLONG => 4 | FX_ENUM => 5 | FX_BOOL => 6 end.

  (** fe_misc.c:441-493 cast_numbers. *)
  Definition cast_numbers (lhs rhs : expr) (make_int : bool) : option (expr * expr) :=
    match type_of lhs, type_of rhs with
    | NFix lt, NFix rt =>
      let changed := enum_or_bool (kd lt) || enum_or_bool (kd rt) in
      let lt := if enum_or_bool (kd lt) then tyInt else lt in
      let rt := if enum_or_bool (kd rt) then tyInt else rt in
      if make_int && below_int (kd lt) && below_int (kd rt) then
        l ← promote_to_int lhs; r ← promote_to_int rhs; Some (l, r)
      else if changed || negb (bool_decide (lt = rt)) then
        let l := Z.lor (Z.shiftl (fsize lt) 1) (if uns lt then 1 else 0) in
        let r := Z.lor (Z.shiftl (fsize rt) 1) (if uns rt then 1 else 0) in
        let t := if r <=? l then lt else rt in
        l ← make_cast (NFix t) lhs; r ← make_cast (NFix t) rhs; Some (l, r)
      else Some (lhs, rhs)
    | NFlo lk, NFlo rk =>
      let dir := flk_index rk - flk_index lk in
      if dir <? 0 then r ← make_cast (NFlo lk) rhs; Some (lhs, r)
      else if 0 <? dir then l ← make_cast (NFlo rk) lhs; Some (l, rhs)
      else Some (lhs, rhs)
    | NFlo lk, NFix _ => r ← make_cast (NFlo lk) rhs; Some (lhs, r)
    | NFix _, NFlo rk => l ← make_cast (NFlo rk) lhs; Some (l, rhs)
    end.

  (** The CALC macro (fe_misc.c:783-792) on UFixnum and on Fixnum. *)
  Definition calc_u (k : bop) (l r : Z) : option Z :=
    match k with
    | EX_MUL => Some (to_fixnum (l * r))
    | EX_DIV => if r =? 0 then None else Some (to_fixnum (l / r))
    | EX_MOD => if r =? 0 then None else Some (to_fixnum (l mod r))
    | EX_BITAND => Some (to_fixnum (Z.land l r))
    | EX_BITOR => Some (to_fixnum (Z.lor l r))
    | EX_BITXOR => Some (to_fixnum (Z.lxor l r))
    | _ => None
    end.
  Definition calc_s (k : bop) (l r : Z) : option Z :=
    match k with
    | EX_MUL => fix_check (l * r)
    | EX_DIV => if r =? 0 then None else fix_check (Z.quot l r)
    | EX_MOD => if r =? 0 then None else if (l =? fixmin) && (r =? -1) then None else fix_check (Z.rem l r)
    | EX_BITAND => Some (Z.land l r)
    | EX_BITOR => Some (Z.lor l r)
    | EX_BITXOR => Some (Z.lxor l r)
    | _ => None
    end.

  (** fe_misc.c:748-908 new_expr_num_bop. *)
  Definition new_expr_num_bop (k : bop) (lhs rhs : expr) : option expr :=
    '(lhs, rhs) ← cast_numbers lhs rhs true;
    let otherwise := Some (EBop k (type_of lhs) lhs rhs) in
    match rhs with
    | EFix rt rval =>
      match lhs with
      | EFix lt lval =>
        if (match k with EX_DIV | EX_MOD => true | _ => false end) && (rval =? 0) then otherwise
        else
          value ← (if uns lt then calc_u k (to_ufixnum lval) (to_ufixnum rval) else calc_s k lval rval);
          let t := if fk_index (kd rt) <=? fk_index (kd lt) then lt else rt in
          let t := if below_int (kd t) then tyInt else t in
          Some (fixlit t (wrap_value value (fsize t) (uns t)))
      | EFlo _ _ => None (* cast_numbers made both floating *)
      | _ =>
        match k with
        | EX_MUL =>
          if rval =? 0 then Some (EComma lhs rhs)
          else if rval =? -1 then Some (ENeg (type_of lhs) lhs)
          else if rval =? 1 then Some lhs
          else otherwise
        | EX_DIV => if rval =? 1 then Some lhs else otherwise
        | EX_BITAND => if rval =? 0 then Some (EComma lhs rhs) else otherwise
        | EX_BITOR | EX_BITXOR => if rval =? 0 then Some lhs else otherwise
        | _ => otherwise
        end
      end
    | EFlo rk rval =>
      match lhs with
      | EFlo lk lval =>
        match k with
        | EX_MUL => Some (EFlo rk (SFmul hprec hemax lval rval))
        | EX_DIV => Some (EFlo rk (SFdiv hprec hemax lval rval))
        | _ => None
        end
      | EFix _ _ => None
      | _ =>
        match k with
        | EX_MUL =>
          if flo_zero rval then Some (EComma lhs rhs)
          else if SFeqb rval (flo_of_Z (-1)) then Some (ENeg (type_of lhs) lhs)
          else if SFeqb rval (flo_of_Z 1) then Some lhs
          else otherwise
        | EX_DIV => if SFeqb rval (flo_of_Z 1) then Some lhs else otherwise
        | _ => otherwise
        end
      end
    | _ =>
      match lhs with
      | EFix lt _ =>
        let lval := first_word rhs in (* line 871 reads rhs->fixnum *)
        match k with
        | EX_MUL =>
          if lval =? 0 then Some (EComma rhs lhs)
          else if lval =? -1 then Some (ENeg (type_of rhs) rhs)
          else if lval =? 1 then Some rhs
          else otherwise
        | EX_DIV => if lval =? 1 then Some rhs else otherwise
        | EX_BITAND => if lval =? 0 then Some (EComma rhs lhs) else otherwise
        | EX_BITOR | EX_BITXOR => if lval =? 0 then Some rhs else otherwise
        | _ => otherwise
        end
      | EFlo lk lval =>
        match k with
        | EX_MUL =>
          if flo_zero lval then Some (EComma rhs lhs)
          else if SFeqb lval (flo_of_Z 1) then Some rhs
          else if SFeqb lval (flo_of_Z (-1)) then Some (ENeg (type_of rhs) rhs)
          else otherwise
        | _ => otherwise
        end
      | _ => otherwise
      end
    end.

  (** fe_misc.c:918-982 and 1055 new_expr_addsub, on numbers; [k] is EX_ADD or EX_SUB. *)
  Definition new_expr_addsub (k : bop) (lhs rhs : expr) : option expr :=
    match lhs, rhs with
    | EFix lt lval, EFix rt rval =>
      let lt := if enum_or_bool (kd lt) then tyInt else lt in
      let rt := if enum_or_bool (kd rt) then tyInt else rt in
      value ← match k with EX_ADD => fix_check (lval + rval) | EX_SUB => fix_check (lval - rval) | _ => None end;
      let t := if fk_index (kd rt) <=? fk_index (kd lt) then lt else rt in
      let t := if below_int (kd t) then tyInt else t in
      Some (fixlit t (wrap_value value (fsize t) (uns t)))
    | EFix _ _, EFlo _ _ | EFlo _ _, EFix _ _ | EFlo _ _, EFlo _ _ =>
      let flo e := match e with EFlo _ f => f | EFix _ z => flo_of_Z z | _ => S754_nan end in
      value ← match k with
              | EX_ADD => Some (SFadd hprec hemax (flo lhs) (flo rhs))
              | EX_SUB => Some (SFsub hprec hemax (flo lhs) (flo rhs))
              | _ => None
              end;
      match rhs, lhs with
      | EFlo k _, _ | _, EFlo k _ => Some (EFlo k value)
      | _, _ => None
      end
    | _, _ =>
      '(l, r) ← cast_numbers lhs rhs true;
      Some (EBop k (type_of l) l r)
    end.

  (** parser_expr.c:346-371 unary plus and minus; [kind]: minus. *)
  Definition unary_sign (minus : bool) (e : expr) : option expr :=
    e ← match type_of e with NFix _ => promote_to_int e | NFlo _ => Some e end;
    match e with
    | EFix t z => if minus then v ← fix_check (- z); Some (EFix t (wrap_value v (fsize t) (uns t))) else Some e
    | EFlo k f => if minus then Some (EFlo k (SFopp f)) else Some e
    | _ => Some ((if minus then ENeg else EPos) (type_of e) e)
    end.
  (** parser_expr.c:384-395 *)
  Definition unary_not (e : expr) : option expr :=
    e ← promote_to_int e;
    match e with
    | EFix t z => Some (EFix t (wrap_value (Z.lnot z) (fsize t) (uns t)))
    | _ => Some (ENot (type_of e) e)
    end.
  (** parser_expr.c:441-465; [left]: <<.  A count of 64 or more or a negative one is undefined,
      as is << of a negative or unrepresentable Fixnum. *)
  Definition shift (left : bool) (lhs rhs : expr) : option expr :=
    lhs ← promote_to_int lhs;
    match lhs, rhs with
    | EFix t l, EFix _ r =>
      value ← (if uns t then
                 let rv := to_ufixnum r in
                 if rv <? 64 then Some (to_fixnum (if left then Z.shiftl (to_ufixnum l) rv mod 2 ^ 64 else Z.shiftr (to_ufixnum l) rv)) else None
               else if (0 <=? r) && (r <? 64) then
                 (if left then (if 0 <=? l then fix_check (Z.shiftl l r) else None) else Some (Z.shiftr l r))
               else None);
      Some (fixlit t (wrap_value value (fsize t) (uns t)))
    | _, _ => Some (EBop (if left then EX_LSHIFT else EX_RSHIFT) (type_of lhs) lhs rhs)
    end.

  (** The JUDGE macro (fe_misc.c:1217-1226). *)
  Definition judge (k : cmpop) (c : option comparison) : bool :=
    match k, c with
    | EX_EQ, Some Eq => true | EX_EQ, _ => false
    | EX_NE, Some Eq => false | EX_NE, _ => true
    | EX_LT, Some Lt => true | EX_LT, _ => false
    | EX_LE, Some (Lt | Eq) => true | EX_LE, _ => false
    | EX_GE, Some (Gt | Eq) => true | EX_GE, _ => false
    | EX_GT, Some Gt => true | EX_GT, _ => false
    end.
  Definition bool_lit (b : bool) : expr := EFix tyBool (if b then 1 else 0).
  (** EX_EQ + EX_NE - k, and EX_LT + ((k - EX_LT) ^ 2). *)
  Definition flip (k : cmpop) : cmpop :=
    match k with EX_EQ => EX_NE | EX_NE => EX_EQ | EX_LT => EX_GE | EX_GE => EX_LT | EX_LE => EX_GT | EX_GT => EX_LE end.

  (** What a constant is compared with (1297-1318): 0, 1, or never a truth value. *)
  Definition truth_value (c : expr) : option bool :=
    match c with
    | EFlo _ f => if flo_zero f then Some false else if SFeqb f (flo_of_Z 1) then Some true else None
    | EFix _ z => if z =? 0 then Some false else if z =? 1 then Some true else None
    | _ => None
    end.

  (** The zero of make_not_expr (1449-1459). *)
  Definition zero_of (t : nty) : expr := match t with NFlo k => EFlo k (S754_zero false) | NFix t => fixlit t 0 end.

  (** fe_misc.c:1198-1210, 1212-1291: the conversion of the operands and the constant case. *)
  Definition cmp_operands (lhs rhs : expr) : option (expr * expr) :=
    '(l, r) ← match type_of lhs, type_of rhs with
              | NFix lt, NFix rt =>
                l ← (if below_int (kd lt) then promote_to_int lhs else Some lhs);
                r ← (if below_int (kd rt) then promote_to_int rhs else Some rhs);
                Some (l, r)
              | _, _ => Some (lhs, rhs)
              end;
    cast_numbers l r false.
  Definition cmp_const (k : cmpop) (lhs rhs : expr) : option expr :=
    match lhs, rhs with
    | EFix lt l, EFix rt r =>
      Some (bool_lit (judge k (Some (if uns lt || uns rt then to_ufixnum l ?= to_ufixnum r else l ?= r))))
    | EFlo _ l, EFlo _ r => Some (bool_lit (judge k (SFcompare l r)))
    | _, _ => None
    end.

  (** fe_misc.c:1191-1398 new_expr_cmp and 1444-1459 make_not_expr. [fuel] bounds the depth of
      && and || below a negation. *)
  Fixpoint new_expr_cmp (fuel : nat) (k : cmpop) (lhs rhs : expr) : option expr :=
    match fuel with
    | O => None
    | S fuel =>
      '(lhs, rhs) ← cmp_operands lhs rhs;
      let otherwise := Some (ECmp k lhs rhs) in
      match cmp_const k lhs rhs with
      | Some e => Some e
      | None =>
        match k with
        | EX_EQ | EX_NE =>
          if is_const rhs || is_const lhs then
            let '(v, c) := if is_const lhs then (rhs, lhs) else (lhs, rhs) in
            let p := strip_cast v in
            match truth_value c with
            | Some b =>
              let k' := if b then flip k else k in
              match p with
              | ECmp pk a b => Some (ECmp (match k' with EX_EQ => flip pk | _ => pk end) a b)
              | ELog pk a b =>
                match k' with
                | EX_EQ =>
                  a ← new_expr_cmp fuel EX_EQ a (zero_of (type_of a));
                  b ← new_expr_cmp fuel EX_EQ b (zero_of (type_of b));
                  Some (ELog (match pk with EX_LOGAND => EX_LOGIOR | EX_LOGIOR => EX_LOGAND end) a b)
                | _ => Some p
                end
              | _ => otherwise
              end
            | None =>
              match p with
              | ECmp _ _ _ | ELog _ _ _ => Some (EComma v (bool_lit (match k with EX_EQ => false | _ => true end)))
              | _ => otherwise
              end
            end
          else otherwise
        | _ => otherwise
        end
      end
    end.

  Definition make_not_expr (fuel : nat) (e : expr) : option expr := new_expr_cmp fuel EX_EQ e (zero_of (type_of e)).

  (** fe_misc.c:1402-1442 make_cond. *)
  Fixpoint make_cond (fuel : nat) (e : expr) : option expr :=
    match e with
    | EFix _ z => Some (bool_lit (negb (z =? 0)))
    | EFlo _ f => Some (bool_lit (negb (flo_zero f)))
    | ECmp _ _ _ | ELog _ _ _ => Some e
    | EComma l r => r ← make_cond fuel r; Some (EComma l r)
    | _ =>
      z ← make_cast (type_of e) (EFix tyInt 0);
      new_expr_cmp fuel EX_NE e z
    end.

  (** parser_expr.c:470-476. *)
  Definition logical (fuel : nat) (k : logop) (lhs rhs : expr) : option expr :=
    lhs ← make_cond fuel lhs; rhs ← make_cond fuel rhs;
    match lhs with
    | EFix _ z => Some (if match k with EX_LOGAND => z =? 0 | EX_LOGIOR => negb (z =? 0) end then lhs else rhs)
    | _ => Some (ELog k lhs rhs)
    end.

  (** fe_misc.c:1541-1592 choose_ternary_result_type, on numbers. *)
  Definition choose_ternary_result_type (t f : nty) : nty :=
    if decide (t = f) then t else
    match t, f with
    | NFlo _, _ => t
    | NFix _, NFlo _ => f
    | NFix t1, NFix f1 =>
      let t1 := if enum_or_bool (kd t1) then tyInt else t1 in
      let f1 := if enum_or_bool (kd f1) then tyInt else f1 in
      NFix (if fk_index (kd f1) <? fk_index (kd t1) then t1 else f1)
    end.
  (** parser_expr.c:484-520 ternary, on numbers. *)
  Definition ternary (fuel : nat) (c t f : expr) : option expr :=
    let ty := choose_ternary_result_type (type_of t) (type_of f) in
    let ty := match ty with NFix ft => if below_int (kd ft) then NFix tyInt else ty | _ => ty end in
    t ← make_cast ty t; f ← make_cast ty f;
    c ← make_cond fuel c;
    match c with
    | EFix _ z => Some (if z =? 0 then f else t)
    | _ => Some (ETern ty c t f)
    end.
End fold.
