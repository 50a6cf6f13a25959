(** Properties C21-C24 and C88-C92: the expressions the compiler builds for operators mean
    what C says. *)
From stdpp Require Import base list numbers.
From Coq Require Import Floats.SpecFloat.
From Verif Require Import Util.Wrap_model Front.Layout_model Front.Fold_model Front.Fold_spec Front.Fold_proof Front.Fold_num_proof Front.Fold_unary_proof Front.Fold_cmp_proof Front.Fold_cond_proof.
Open Scope Z_scope.

Definition uint := Fty FX_INT true.
Definition long := Fty FX_LONG false.
Definition ulong := Fty FX_LONG true.
Definition llong := Fty FX_LLONG false.
Definition uchar := Fty FX_CHAR true.
Definition ptrs (e : expr) : Z := 4096.
Definition var (t : nty) (n : nat) : expr := EOpaque t n.
Definition ints : nty -> list nat -> nat -> val := fun t _ n => match t with NFix _ => VI (if decide (n = 1)%nat then 1 else 0) | NFlo _ => VF (S754_zero false) end.
Definition nans : nty -> list nat -> nat -> val := fun t _ n => match t with NFix _ => VI 0 | NFlo _ => VF S754_nan end.
Definition zeros (s : bool) : nty -> list nat -> nat -> val := fun t _ n => match t with NFix _ => VI 0 | NFlo _ => VF (S754_zero s) end.
Definition dbl (z e : Z) : spec_float := binary_normalize 64 16384 z e false.

(** C21.  The operands of * / % & | ^ and of comparisons get the type, and the values, of C's
    usual arithmetic conversions. *)
Theorem C21_operands : forall lp64 hprec hemax l r lt rt,
  wf lp64 hprec hemax l -> wf lp64 hprec hemax r -> type_of l = NFix lt -> type_of r = NFix rt ->
  exists l' r' t, cast_numbers lp64 hprec hemax l r true = Some (l', r') /\
    type_of l' = NFix t /\ type_of r' = NFix t /\ same_repr lp64 t (common lp64 lt rt) /\
    (forall env h, env_ok lp64 env -> eval lp64 env h l' = eval lp64 env h (ECast (NFix (common lp64 lt rt)) l)) /\
    (forall env h, env_ok lp64 env -> eval lp64 env h r' = eval lp64 env h (ECast (NFix (common lp64 lt rt)) r)).
Proof. exact common_ok. Qed.
Print Assumptions C21_operands.
Theorem C21_comparison : forall lp64 hprec hemax l r lt rt,
  wf lp64 hprec hemax l -> wf lp64 hprec hemax r -> type_of l = NFix lt -> type_of r = NFix rt ->
  exists l' r' t, cmp_operands lp64 hprec hemax l r = Some (l', r') /\
    type_of l' = NFix t /\ type_of r' = NFix t /\ same_repr lp64 t (common lp64 lt rt) /\
    (forall env h, env_ok lp64 env -> eval lp64 env h l' = eval lp64 env h (ECast (NFix (common lp64 lt rt)) l)) /\
    (forall env h, env_ok lp64 env -> eval lp64 env h r' = eval lp64 env h (ECast (NFix (common lp64 lt rt)) r)).
Proof. exact common_cmp_ok. Qed.
Print Assumptions C21_comparison.
Example C21_example :
  cast_numbers true 64 16384 (var (NFix uchar) 0) (EFix uint 5) true = Some (ECast (NFix uint) (var (NFix uchar) 0), EFix uint 5) /\
  cmp_operands true 64 16384 (EFix tyInt (-1)) (var (NFix ulong) 0) = Some (EFix ulong (-1), var (NFix ulong) 0) /\
  common true uchar uint = uint /\ common true tyInt ulong = ulong /\ common false uint long = ulong /\ common true uint long = long.
Proof. by vm_compute. Qed.

(** C22.  Sums and differences.  Not covered: two constants whose promoted types are not both
    signed, unless the types are the same and narrower than 64 bits. *)
Theorem C22_addsub_partial : forall lp64 hprec hemax k l r lt rt, (k = EX_ADD \/ k = EX_SUB) ->
  wf lp64 hprec hemax l -> wf lp64 hprec hemax r -> type_of l = NFix lt -> type_of r = NFix rt ->
  (is_const l = true -> is_const r = true ->
    both_signed lp64 lt rt \/ (same_promoted lp64 lt rt /\ width lp64 (promoted lp64 lt) < 64)) ->
  defined lp64 (c_bop lp64 k l r) ->
  exists e, new_expr_addsub lp64 hprec hemax k l r = Some e /\
    type_like lp64 (type_of e) (NFix (common lp64 lt rt)) /\ wf lp64 hprec hemax e /\ refines lp64 e (c_bop lp64 k l r).
Proof. exact addsub_ok. Qed.
Print Assumptions C22_addsub_partial.
Example C22_example :
  new_expr_addsub true 64 16384 EX_ADD (EFix uint (2 ^ 32 - 1)) (EFix uint 2) = Some (EFix uint 1) /\
  new_expr_addsub true 64 16384 EX_SUB (EFix uchar 3) (EFix uchar 5) = Some (EFix tyInt (-2)) /\
  new_expr_addsub true 64 16384 EX_SUB (EFix tyInt 7) (EFix long 2) = Some (EFix long 5).
Proof. by vm_compute. Qed.
(** 0 - 1u is the int -1; an unsigned long and a long long give a long long; the sum
    0x7fffffffffffffffUL + 1 is undefined in the compiler. *)
Theorem C22_unsigned_refuted : exists l r e,
  new_expr_addsub true 64 16384 EX_SUB l r = Some e /\ wf true 64 16384 l /\ wf true 64 16384 r /\
  type_of e = NFix tyInt /\ common_n true (type_of l) (type_of r) = NFix uint /\
  eval true ints [] e = Some ([], VI (-1)) /\ eval true ints [] (c_bop true EX_SUB l r) = Some ([], VI 4294967295).
Proof. by exists (EFix tyInt 0), (EFix uint 1), (EFix tyInt (-1)). Qed.
Print Assumptions C22_unsigned_refuted.
Theorem C22_rank_refuted : exists l r e,
  new_expr_addsub true 64 16384 EX_ADD l r = Some e /\ type_of e = NFix llong /\
  common_n true (type_of l) (type_of r) = NFix (Fty FX_LLONG true).
Proof. by exists (EFix ulong 1), (EFix llong 1), (EFix llong 2). Qed.
Print Assumptions C22_rank_refuted.
Theorem C22_overflow_refuted : exists l r,
  wf true 64 16384 l /\ wf true 64 16384 r /\ new_expr_addsub true 64 16384 EX_ADD l r = None /\
  eval true ints [] (c_bop true EX_ADD l r) = Some ([], VI (2 ^ 63)).
Proof. by exists (EFix ulong (2 ^ 63 - 1)), (EFix ulong 1). Qed.
Print Assumptions C22_overflow_refuted.

(** C23.  * / % & | ^: folded and simplified expressions have C's type and value wherever C
    defines them.  The hypothesis on [first_word] says that a pointer is not 0, 1 or -1. *)
Theorem C23_num_bop : forall lp64 first_word hprec hemax,
  (forall e, first_word e <> 0 /\ first_word e <> 1 /\ first_word e <> -1) ->
  forall k l r lt rt, muls k = true -> wf lp64 hprec hemax l -> wf lp64 hprec hemax r -> type_of l = NFix lt -> type_of r = NFix rt ->
  defined lp64 (c_bop lp64 k l r) ->
  exists e, new_expr_num_bop lp64 first_word hprec hemax k l r = Some e /\
    type_like lp64 (type_of e) (NFix (common lp64 lt rt)) /\ wf lp64 hprec hemax e /\ refines lp64 e (c_bop lp64 k l r).
Proof. exact num_bop_ok. Qed.
Print Assumptions C23_num_bop.
Example C23_example :
  new_expr_num_bop true ptrs 64 16384 EX_MUL (EFix uint (2 ^ 31)) (EFix uint 3) = Some (EFix uint (2 ^ 31)) /\
  new_expr_num_bop true ptrs 64 16384 EX_DIV (EFix tyInt (-7)) (EFix uint 2) = Some (EFix uint 2147483644) /\
  new_expr_num_bop true ptrs 64 16384 EX_MOD (EFix tyInt (-7)) (EFix tyInt 2) = Some (EFix tyInt (-1)) /\
  new_expr_num_bop true ptrs 64 16384 EX_BITAND (var (NFix uchar) 0) (EFix tyInt 0) = Some (EComma (ECast (NFix tyInt) (var (NFix uchar) 0)) (EFix tyInt 0)) /\
  muls EX_BITXOR = true.
Proof. by vm_compute. Qed.

(** C24.  Comparisons, with the rewriting of (a op b) == 0 and the like.  Not covered: < <= >
    >= of floating-point numbers below such a rewriting (except for != 0), and comparing two floating constants
    other than with == 0 and != 0. *)
Theorem C24_comparison_partial : forall lp64 hprec hemax, host_ok hprec hemax -> forall fuel k l r,
  wf lp64 hprec hemax l -> wf lp64 hprec hemax r ->
  (ordered l /\ ordered r \/ k = EX_NE /\ r = zero_of (type_of l)) -> comparable lp64 k l r ->
  (ldepth l < fuel)%nat -> (ldepth r < fuel)%nat ->
  exists e, new_expr_cmp lp64 hprec hemax fuel k l r = Some e /\ type_of e = NFix tyBool /\
    wf lp64 hprec hemax e /\ refines lp64 e (c_cmp lp64 k l r).
Proof. exact cmp_ok. Qed.
Print Assumptions C24_comparison_partial.
Theorem C24_not_partial : forall lp64 hprec hemax, host_ok hprec hemax -> forall fuel e,
  wf lp64 hprec hemax e -> ordered e -> (ldepth e < fuel)%nat ->
  exists e', make_not_expr lp64 hprec hemax fuel e = Some e' /\ type_of e' = NFix tyBool /\
    wf lp64 hprec hemax e' /\ refines lp64 e' (c_cmp lp64 EX_EQ e (zero_of (type_of e))).
Proof. exact not_expr_ok. Qed.
Print Assumptions C24_not_partial.
Example C24_example :
  let a := var (NFix tyInt) 0 in let b := var (NFix tyInt) 1 in
  new_expr_cmp true 64 16384 2 EX_EQ (ECmp EX_LT a b) (EFix tyInt 0) = Some (ECmp EX_GE a b) /\
  new_expr_cmp true 64 16384 2 EX_NE (ECmp EX_LT a b) (EFix tyInt 1) = Some (ECmp EX_GE a b) /\
  new_expr_cmp true 64 16384 2 EX_EQ (ECmp EX_LT a b) (EFix tyInt 2) = Some (EComma (ECast (NFix tyInt) (ECmp EX_LT a b)) (EFix tyBool 0)) /\
  make_not_expr true 64 16384 2 (ELog EX_LOGAND (ECmp EX_LT a b) (ECmp EX_EQ a b)) = Some (ELog EX_LOGIOR (ECmp EX_GE a b) (ECmp EX_NE a b)).
Proof. by vm_compute. Qed.
(** (a < b) == 0 becomes a >= b, which is different for a NaN. *)
Theorem C24_nan_refuted : exists e e',
  wf true 64 16384 e /\ make_not_expr true 64 16384 2 e = Some e' /\ env_ok true nans /\
  eval true nans [] (c_cmp true EX_EQ e (zero_of (type_of e))) = Some ([0; 1]%nat, VI 1) /\
  eval true nans [] e' = Some ([0; 1]%nat, VI 0).
Proof.
  exists (ECmp EX_LT (var (NFlo FL_DOUBLE) 0) (var (NFlo FL_DOUBLE) 1)), (ECmp EX_GE (var (NFlo FL_DOUBLE) 0) (var (NFlo FL_DOUBLE) 1)).
  split; [done|]. split; [done|]. split; [|done]. intros [t|k] h n; [|done]. apply (bool_decide_unpack _). destruct t as [[] []]; by vm_compute.
Qed.
Print Assumptions C24_nan_refuted.

(** C88.  Unary + - ~ and shifts.  Not covered: - of the constant 2^63 of an unsigned 64-bit
    type. *)
Theorem C88_neg_partial : forall lp64 hprec hemax e t, wf lp64 hprec hemax e -> type_of e = NFix t -> defined lp64 (c_neg lp64 e) ->
  (forall s z, e = EFix s z -> uns s = true -> width lp64 s = 64 -> denote lp64 s z <> 2 ^ 63) ->
  exists e', unary_sign lp64 hprec hemax true e = Some e' /\ type_of e' = NFix (promoted lp64 t) /\ wf lp64 hprec hemax e' /\ refines lp64 e' (c_neg lp64 e).
Proof. exact neg_ok. Qed.
Print Assumptions C88_neg_partial.
Theorem C88_pos : forall lp64 hprec hemax e t, wf lp64 hprec hemax e -> type_of e = NFix t ->
  exists e', unary_sign lp64 hprec hemax false e = Some e' /\ type_of e' = NFix (promoted lp64 t) /\ wf lp64 hprec hemax e' /\ refines lp64 e' (c_pos lp64 e).
Proof. exact pos_ok. Qed.
Print Assumptions C88_pos.
Theorem C88_not : forall lp64 hprec hemax e t, wf lp64 hprec hemax e -> type_of e = NFix t ->
  exists e', unary_not lp64 hprec hemax e = Some e' /\ type_of e' = NFix (promoted lp64 t) /\ wf lp64 hprec hemax e' /\ refines lp64 e' (c_not lp64 e).
Proof. exact not_ok. Qed.
Print Assumptions C88_not.
Theorem C88_shift : forall lp64 hprec hemax (left : bool) l r lt rt, let k := if left then EX_LSHIFT else EX_RSHIFT in
  wf lp64 hprec hemax l -> wf lp64 hprec hemax r -> type_of l = NFix lt -> type_of r = NFix rt -> defined lp64 (c_shift lp64 k l r) ->
  exists e, shift lp64 hprec hemax left l r = Some e /\ type_of e = NFix (promoted lp64 lt) /\ wf lp64 hprec hemax e /\ refines lp64 e (c_shift lp64 k l r).
Proof. exact shift_ok. Qed.
Print Assumptions C88_shift.
Example C88_example :
  unary_sign true 64 16384 true (EFix uint 1) = Some (EFix uint 4294967295) /\ unary_not true 64 16384 (EFix uchar 1) = Some (EFix tyInt (-2)) /\
  shift true 64 16384 true (EFix ulong 3) (EFix tyInt 63) = Some (EFix ulong (- 2 ^ 63)) /\
  shift true 64 16384 false (EFix ulong (- 2 ^ 63)) (EFix ulong 63) = Some (EFix ulong 1) /\
  shift true 64 16384 false (EFix tyInt (-5)) (EFix uchar 1) = Some (EFix tyInt (-3)).
Proof. by vm_compute. Qed.
(** -0x8000000000000000UL is undefined in the compiler. *)
Theorem C88_neg_refuted : exists e, wf true 64 16384 e /\ unary_sign true 64 16384 true e = None /\
  eval true ints [] (c_neg true e) = Some ([], VI (2 ^ 63)).
Proof. by exists (EFix ulong (- 2 ^ 63)). Qed.
Print Assumptions C88_neg_refuted.

(** C89.  The conditional operator on integers.  Not covered: operands whose promoted types
    differ and are not both signed, and two operands of type _Bool. *)
Theorem C89_conditional_partial : forall lp64 hprec hemax, host_ok hprec hemax -> forall fuel c l r lt rt,
  wf lp64 hprec hemax c -> wf lp64 hprec hemax l -> wf lp64 hprec hemax r -> (ldepth c < fuel)%nat ->
  type_of l = NFix lt -> type_of r = NFix rt ->
  both_signed lp64 lt rt \/ same_promoted lp64 lt rt -> ~ (lt = tyBool /\ rt = tyBool) ->
  exists e, ternary lp64 hprec hemax fuel c l r = Some e /\ type_like lp64 (type_of e) (NFix (common lp64 lt rt)) /\
    wf lp64 hprec hemax e /\ refines lp64 e (c_tern lp64 c l r).
Proof. exact ternary_ok. Qed.
Print Assumptions C89_conditional_partial.
Example C89_example :
  ternary true 64 16384 2 (var (NFix tyInt) 0) (EFix uchar 200) (EFix long 3) =
    Some (ETern (NFix long) (ECmp EX_NE (var (NFix tyInt) 0) (EFix tyInt 0)) (EFix long 200) (EFix long 3)) /\
  ternary true 64 16384 2 (EFix tyInt 0) (EFix uchar 200) (EFix tyInt 3) = Some (EFix tyInt 3).
Proof. by vm_compute. Qed.
(** c ? 1u : -1 has type int, so that (0 ? 1u : -1) > 0 is false. *)
Theorem C89_unsigned_refuted : exists l r e,
  ternary true 64 16384 2 (EFix tyInt 0) l r = Some e /\ type_of e = NFix tyInt /\ common_n true (type_of l) (type_of r) = NFix uint /\
  eval true ints [] e = Some ([], VI (-1)) /\ eval true ints [] (c_tern true (EFix tyInt 0) l r) = Some ([], VI 4294967295).
Proof. by exists (EFix uint 1), (EFix tyInt (-1)), (EFix tyInt (-1)). Qed.
Print Assumptions C89_unsigned_refuted.
(** c ? 1.0f : d has type float: the double d is rounded. *)
Theorem C89_floating_refuted : exists c l r e,
  ternary true 64 16384 2 c l r = Some e /\ type_of e = NFlo FL_FLOAT /\ common_n true (type_of l) (type_of r) = NFlo FL_DOUBLE.
Proof. by eexists (var (NFix tyInt) 0), (EFlo FL_FLOAT (dbl 1 0)), (var (NFlo FL_DOUBLE) 1), _. Qed.
Print Assumptions C89_floating_refuted.
(** Two _Bool operands give a _Bool, not an int. *)
Theorem C89_bool_refuted : exists c l r e,
  ternary true 64 16384 2 c l r = Some e /\ type_of e = NFix tyBool /\ common_n true (type_of l) (type_of r) = NFix tyInt.
Proof. by eexists (var (NFix tyInt) 0), (var (NFix tyBool) 1), (var (NFix tyBool) 2), _. Qed.
Print Assumptions C89_bool_refuted.

(** C90.  A floating constant is not rounded to its type: (float)16777217 == 16777217.0 is
    folded to true and (int)(float)16777217 to 16777217, where C says false and 16777216. *)
Theorem C90_rounding_refuted : exists z f e,
  make_cast true 64 16384 (NFlo FL_FLOAT) (EFix tyInt z) = Some f /\
  new_expr_cmp true 64 16384 2 EX_EQ f (EFlo FL_DOUBLE (dbl z 0)) = Some (EFix tyBool 1) /\
  eval true ints [] (ECmp EX_EQ (ECast (NFlo FL_DOUBLE) (ECast (NFlo FL_FLOAT) (EFix tyInt z))) (EFlo FL_DOUBLE (dbl z 0))) = Some ([], VI 0) /\
  make_cast true 64 16384 (NFix tyInt) f = Some e /\ eval true ints [] e = Some ([], VI 16777217) /\
  eval true ints [] (ECast (NFix tyInt) (ECast (NFlo FL_FLOAT) (EFix tyInt z))) = Some ([], VI 16777216).
Proof. exists 16777217. eexists _, _. split; [by vm_compute|]. split; [by vm_compute|]. split; [by vm_compute|]. split; [by vm_compute|]. split; by vm_compute. Qed.
Print Assumptions C90_rounding_refuted.

(** C91.  x * 0.0 becomes (x, 0.0), which is wrong for a negative x and for NaN; 1.0 + 1.0f
    has type float. *)
Theorem C91_times_zero_refuted : exists x e,
  new_expr_num_bop true ptrs 64 16384 EX_MUL x (EFlo FL_DOUBLE (S754_zero false)) = Some e /\
  env_ok true nans /\ env_ok true (zeros true) /\
  eval true nans [] (EBop EX_MUL (NFlo FL_DOUBLE) x (EFlo FL_DOUBLE (S754_zero false))) = Some ([0%nat], VF S754_nan) /\
  eval true nans [] e = Some ([0%nat], VF (S754_zero false)) /\
  eval true (zeros true) [] (EBop EX_MUL (NFlo FL_DOUBLE) x (EFlo FL_DOUBLE (S754_zero false))) = Some ([0%nat], VF (S754_zero true)) /\
  eval true (zeros true) [] e = Some ([0%nat], VF (S754_zero false)).
Proof.
  exists (var (NFlo FL_DOUBLE) 0). eexists. split; [by vm_compute|]. split; [|split; [|by vm_compute]].
  all: intros [t|k] h n; [|done]; apply (bool_decide_unpack _); destruct t as [[] []]; by vm_compute.
Qed.
Print Assumptions C91_times_zero_refuted.
Theorem C91_sum_type_refuted : exists l r e,
  new_expr_addsub true 64 16384 EX_ADD l r = Some e /\ type_of e = NFlo FL_FLOAT /\ common_n true (type_of l) (type_of r) = NFlo FL_DOUBLE.
Proof. by eexists (EFlo FL_DOUBLE (dbl 1 0)), (EFlo FL_FLOAT (dbl 1 0)), _. Qed.
Print Assumptions C91_sum_type_refuted.

(** C92.  && and ||: the value is C's, the right operand is evaluated when C says so. *)
Theorem C92_logical : forall lp64 hprec hemax, host_ok hprec hemax -> forall fuel k l r,
  wf lp64 hprec hemax l -> wf lp64 hprec hemax r -> (ldepth l < fuel)%nat -> (ldepth r < fuel)%nat ->
  exists e, logical lp64 hprec hemax fuel k l r = Some e /\ type_of e = NFix tyBool /\
    wf lp64 hprec hemax e /\ refines lp64 e (ELog k l r).
Proof. exact logical_ok. Qed.
Print Assumptions C92_logical.
Example C92_example :
  let a := var (NFix tyInt) 0 in
  logical true 64 16384 2 EX_LOGAND (EFix tyInt 0) a = Some (EFix tyBool 0) /\
  logical true 64 16384 2 EX_LOGIOR (EFix tyInt 0) a = Some (ECmp EX_NE a (EFix tyInt 0)) /\
  logical true 64 16384 2 EX_LOGAND a (EFix tyInt 1) = Some (ELog EX_LOGAND (ECmp EX_NE a (EFix tyInt 0)) (EFix tyBool 1)).
Proof. by vm_compute. Qed.
