(** C30, C99: inverting a condition code, and exchanging the operands. *)
From stdpp Require Import base list numbers.
From Coq Require Import Floats.SpecFloat.
From Verif Require Import Back.Ir_model Back.Ir_spec Back.Cond_proof.
Open Scope Z_scope.

(** Each of the six comparisons can be inverted, and the result holds exactly when the
    comparison does not, for all integers of every size and signedness. *)
Theorem C30_invert : forall k u f, k <> CNever -> k <> CAlways ->
  exists c, invert_cond (cond_code k u f) = Some c /\ invert_cond c = Some (cond_code k u f) /\
    forall size a b, cond_holds size c a b = negb (cond_holds size (cond_code k u f) a b).
Proof.
  exact (fun k u f H1 H2 => ex_intro _ _ (conj (invert_code k u f H1 H2)
    (conj (invert_twice k u f _ (invert_code k u f H1 H2))
      (fun size a b => invert_ok size k u f _ a b (invert_code k u f H1 H2))))).
Qed.

(** Exchanging the operands: the flags are kept and the result is the same. *)
Theorem C30_swap : forall size k u f, exists c,
  swap_cond (Z.land (cond_code k u f) COND_MASK) = Some c /\
  forall a b, cond_holds size (Z.lor c (Z.land (cond_code k u f) (Z.lnot COND_MASK))) b a =
    cond_holds size (cond_code k u f) a b.
Proof. exact swap_ok. Qed.

(** The same for floating-point numbers, infinities and NaNs. *)
Theorem C99_swap_float : forall k u, exists k',
  swap_cond (Z.land (cond_code k u true) COND_MASK) = Some (cond_code k' false false) /\
  Z.lor (cond_code k' false false) (Z.land (cond_code k u true) (Z.lnot COND_MASK)) = cond_code k' u true /\
  forall a b, cmp_float k' b a = cmp_float k a b.
Proof. exact swap_float_ok. Qed.

(** Inverting a comparison of floating-point numbers is right when neither is a NaN, and for
    == and != always. *)
Theorem C99_invert_float_partial : forall k k' u a b, invert_cond (cond_code k u true) = Some (cond_code k' u true) ->
  (k = CEq \/ k = CNe \/ SFcompare a b <> None) -> cmp_float k' a b = negb (cmp_float k a b).
Proof. exact invert_float. Qed.

(** With a NaN it is not, and splitting an edge (ssa.c:227) inverts such jumps. *)
Theorem C99_invert_float_refuted : exists k k' a b,
  invert_cond (cond_code k false true) = Some (cond_code k' false true) /\
  cmp_float k a b = false /\ cmp_float k' a b = false.
Proof. exact (ex_intro _ CLt (ex_intro _ CGe (ex_intro _ S754_nan (ex_intro _ S754_nan (conj eq_refl (conj eq_refl eq_refl)))))). Qed.

Example C30_example :
  invert_cond (cond_code CLt true false) = Some (cond_code CGe true false) /\
  cond_holds 4 (cond_code CLt true false) (-1) 1 = false /\
  cond_holds 4 (cond_code CLt false false) (-1) 1 = true /\
  cond_holds 4 (cond_code CGe true false) (-1) 1 = true.
Proof. vm_compute. by split_and!. Qed.

Example C99_example :
  cmp_float CLe (S754_infinity true) (S754_zero false) = true /\ cmp_float CGe (S754_zero false) (S754_infinity true) = true /\
  cmp_float CNe S754_nan S754_nan = true /\ cmp_float CEq (S754_zero true) (S754_zero false) = true.
Proof. vm_compute. by split_and!. Qed.

Print Assumptions C30_invert.
Print Assumptions C30_swap.
Print Assumptions C99_swap_float.
Print Assumptions C99_invert_float_partial.
Print Assumptions C99_invert_float_refuted.
