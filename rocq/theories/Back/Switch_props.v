(** C28: the code of a switch transfers control to the matching case. *)
From stdpp Require Import base list numbers sorting sets.
From Verif Require Import Util.Wrap_model Front.Layout_model Front.Fold_model Front.Fold_spec Back.Ir_model Back.Ir_spec Back.Switch_model Back.Switch_spec
  Back.Switch_proof Back.Switch_top_proof Back.Switch_def_proof Back.Switch_ref_proof.
Open Scope Z_scope.

(** The value is in a register.  Partial: constants of a type narrower than int have to be
    values of that type, and those of a 64-bit unsigned type on one side of 2^63. *)
Theorem C28_dispatch_partial : forall lp64 t labels break v s code s' regs cases sorted r,
  constraints lp64 t labels -> well_typed lp64 labels -> fitting lp64 t labels -> same_half lp64 t labels ->
  blocks_below s.1 labels -> (break < s.1)%nat -> (r < s.2)%nat ->
  parse_cases lp64 t (stored <$> labels) [] = Ok cases -> qsorted cases sorted ->
  gen_switch_cond (uns t) (Reg r) cases sorted break s = Ok (code, s') ->
  in_range lp64 t v -> view (fsize lp64 t) (uns t) (regs r) = v ->
  leaves_to (fsize lp64 t) code regs (target lp64 t labels break v).
Proof. exact dispatch. Qed.
Print Assumptions C28_dispatch_partial.

(** The value is a constant. *)
Theorem C28_constant_partial : forall lp64 t labels break v s code s' regs cases sorted,
  well_typed lp64 labels -> fitting lp64 t labels -> blocks_below s.1 labels -> (break < s.1)%nat ->
  parse_cases lp64 t (stored <$> labels) [] = Ok cases -> in_range lp64 t v ->
  gen_switch_cond (uns t) (Const (to_fixnum v)) cases sorted break s = Ok (code, s') ->
  leaves_to (fsize lp64 t) code regs (target lp64 t labels break v).
Proof. exact const_dispatch. Qed.
Print Assumptions C28_constant_partial.

(** A switch that meets the constraints is accepted. *)
Theorem C28_accepted_partial : forall lp64 t labels,
  constraints lp64 t labels -> well_typed lp64 labels -> fitting lp64 t labels ->
  exists cases, parse_cases lp64 t (stored <$> labels) [] = Ok cases.
Proof. exact (fun lp64 t labels Hc Hw Hf => ex_intro _ _ (accepted lp64 t labels Hc Hw Hf)). Qed.
Print Assumptions C28_accepted_partial.

(** The compiler sorts and generates code without overflow when the constants are close. *)
Theorem C28_defined_partial : forall lp64 t labels,
  constraints lp64 t labels -> fitting lp64 t labels -> close lp64 t labels ->
  (exists sorted, qsorted (case_of lp64 t <$> labels) sorted) /\
  forall sorted, qsorted (case_of lp64 t <$> labels) sorted -> forall sw break s, exists code s',
    gen_switch_cond (uns t) sw (case_of lp64 t <$> labels) sorted break s = Ok (code, s').
Proof. exact defined. Qed.
Print Assumptions C28_defined_partial.

(** Cases 0, 5 and ULONG_MAX of an unsigned long: ULONG_MAX goes to the end. *)
Theorem C28_unsigned_refuted : exists labels cases sorted code s' regs,
  constraints true tULong labels /\ well_typed true labels /\ fitting true tULong labels /\ close true tULong labels /\
  blocks_below 10 labels /\
  parse_cases true tULong (stored <$> labels) [] = Ok cases /\ qsorted cases sorted /\
  gen_switch_cond true (Reg 0) cases sorted 4 (10%nat, 1%nat) = Ok (code, s') /\
  view 8 true (regs 0%nat) = 2 ^ 64 - 1 /\ target true tULong labels 4 (2 ^ 64 - 1) = 3%nat /\
  leaves_to 8 code regs 4.
Proof. exact unsigned_wrong. Qed.
Print Assumptions C28_unsigned_refuted.

(** Comparing LONG_MIN and 1 while sorting overflows. *)
Theorem C28_overflow_refuted : exists labels cases,
  constraints true tLong labels /\ well_typed true labels /\ fitting true tLong labels /\
  parse_cases true tLong (stored <$> labels) [] = Ok cases /\
  exists a b, a ∈ cases /\ b ∈ cases /\ compare_cases a b = Undefined.
Proof. exact overflow_wrong. Qed.
Print Assumptions C28_overflow_refuted.

(** Case 256 of an unsigned char is taken for 0: the value is not promoted. *)
Theorem C28_narrow_refuted : exists labels cases sorted code s' regs,
  constraints true tUChar labels /\ well_typed true labels /\ blocks_below 10 labels /\
  parse_cases true tUChar (stored <$> labels) [] = Ok cases /\ qsorted cases sorted /\
  gen_switch_cond true (Reg 0) cases sorted 4 (10%nat, 1%nat) = Ok (code, s') /\
  view 1 true (regs 0%nat) = 0 /\ target true tUChar labels 4 0 = 2%nat /\
  leaves_to 1 code regs 1.
Proof. exact narrow_wrong. Qed.
Print Assumptions C28_narrow_refuted.

(** Cases 4294967295 and -1 of an unsigned int are not reported as duplicates. *)
Theorem C28_duplicate_refuted : exists labels cases,
  ~ constraints true tUInt labels /\ well_typed true labels /\ fitting true tUInt labels /\
  parse_cases true tUInt (stored <$> labels) [] = Ok cases.
Proof. exact twice_accepted. Qed.
Print Assumptions C28_duplicate_refuted.

(** Cases 257 and 1 of an unsigned char are. *)
Theorem C28_accepted_refuted : exists labels, constraints true tUChar labels /\ well_typed true labels /\
  parse_cases true tUChar (stored <$> labels) [] = Err.
Proof. exact distinct_rejected. Qed.
Print Assumptions C28_accepted_refuted.

(** A table, comparisons and a default. *)
Example C28_example :
  parse_cases true tyInt (stored <$> ex_labels) [] = Ok (case_of true tyInt <$> ex_labels) /\
  in_order ex_sorted = true /\ existsb (fun i => match i with TJMP _ _ => true | _ => false end) ex_code = true /\
  ex_run <$> [-501; -500; 19; 20; 21; 22; 23; 24; 25; 26; 27; 28] =
    Some <$> [3; 9; 3; 2; 5; 1; 8; 7; 4; 11; 6; 3]%nat /\
  (target true tyInt ex_labels 10 <$> [-501; -500; 19; 20; 21; 22; 23; 24; 25; 26; 27; 28]) =
    [3; 9; 3; 2; 5; 1; 8; 7; 4; 11; 6; 3]%nat.
Proof. vm_compute. repeat split. Qed.
