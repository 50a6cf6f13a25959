(** C29: folding and simplifying instructions with constant operands. *)
From stdpp Require Import base list numbers.
From Verif Require Import Back.Ir_model Back.Ir_spec Back.Opt_model Back.Opt_spec Back.Opt_proof Back.Opt_fold_proof Back.Opt_def_proof.
Open Scope Z_scope.

(** Building an arithmetic instruction with a constant operand gives what the instruction
    computes, for every content of the registers.  The constants of a division, a remainder
    and a shift to the right must be their own values ([good], [canon]): see the
    refutations. *)
Theorem C29_build_partial : forall regs k v bv u a b o e, good k v bv u a b -> new_ir_bop k a b v u = Ok o ->
  ir_op k v bv u (val regs a) (val regs b) = Some e -> out_val regs k v bv u a b o = Some e.
Proof. exact bop_ok. Qed.

Theorem C29_build_unary : forall k z v u o, vsizes v -> new_ir_unary k (OConst z) v u = Ok o ->
  exists w, o = Some (OConst w) /\ cut v w = ir_una k v z.
Proof. exact unary_ok. Qed.

(** Folding an instruction (arithmetic, comparison, conversion or jump) keeps its effect, for
    every content of the registers. *)
Theorem C29_fold_partial : forall regs i i' e, fit i -> constant_folding i = Ok i' ->
  exec regs i = Some e -> exec regs i' = Some e.
Proof. exact folding_ok. Qed.

(** The compiler computes without overflow of its own when the program's operation is
    defined. *)
Theorem C29_fold_defined : forall i, plain i -> defined i -> exists i', constant_folding i = Ok i'.
Proof. exact folding_defined. Qed.
Theorem C29_build_defined_partial : forall k a b v bv, vsizes v -> vsizes bv -> canon v false a ->
  (if is_shift k then exists cu, canon bv cu b else canon v false b) ->
  (forall l r, a = OConst l -> b = OConst r -> is_Some (ir_op k v bv false l r) /\ no_overflow k v bv l r) ->
  exists o, new_ir_bop k a b v false = Ok o.
Proof. exact bop_defined. Qed.

(** For unsigned operands it does not: 4294967295u * 4294967295u. *)
Theorem C29_build_defined_refuted : exists a b v, vsizes v /\ canon v true a /\ canon v true b /\
  is_Some (ir_op IR_MUL v v true (val (fun _ => 0) a) (val (fun _ => 0) b)) /\ new_ir_bop IR_MUL a b v true = Undefined.
Proof. exact overflow_wrong. Qed.

(** A conversion of int -1 to unsigned keeps the constant -1, and dividing that by 2 gives
    4294967295. *)
Theorem C29_same_size_refuted : exists i1 z i2 i2' e e',
  constant_folding i1 = Ok (Mov 0 (OConst z) 2) /\ i1 = Cast 0 (OConst (-1)) 2 2 false /\
  i2 = Bop IR_DIV 1 (OConst z) (OConst 2) 2 2 true /\ constant_folding i2 = Ok i2' /\
  (forall regs, exec regs i2 = Some e /\ exec regs i2' = Some e') /\ e <> e'.
Proof. exact same_size_wrong. Qed.

(** A conversion of 0x100000001 to int keeps the constant, which is then not equal to 1. *)
Theorem C29_narrowing_refuted : exists i1 z i2 i2' e e',
  constant_folding i1 = Ok (Mov 0 (OConst z) 2) /\ i1 = Cast 0 (OConst 4294967297) 2 3 false /\
  i2 = Cond (cond_code CEq false false) 1 (OConst z) (OConst 1) 2 /\ constant_folding i2 = Ok i2' /\
  (forall regs, exec regs i2 = Some e /\ exec regs i2' = Some e') /\ e <> e'.
Proof. exact narrowing_wrong. Qed.

Example C29_example :
  constant_folding (Bop IR_DIV 7 (OConst (-9)) (OConst 2) 2 2 false) = Ok (Mov 7 (OConst (-4)) 2) /\
  constant_folding (Bop IR_MUL 7 (OConst 65537) (OConst 65537) 1 1 true) = Ok (Mov 7 (OConst 1) 1) /\
  constant_folding (Jmp (cond_code CLt true false) (OConst 3) (OReg 4) 2 9) = Ok (Jmp (cond_code CGt true false) (OReg 4) (OConst 3) 2 9) /\
  new_ir_bop IR_MUL (OConst (-1)) (OReg 4) 2 false = Ok (Neg (OReg 4)) /\
  new_ir_bop IR_DIV (OReg 4) (OConst 0) 2 false = Ok Instr.
Proof. vm_compute. by split_and!. Qed.

Print Assumptions C29_build_partial.
Print Assumptions C29_build_unary.
Print Assumptions C29_fold_partial.
Print Assumptions C29_fold_defined.
Print Assumptions C29_build_defined_partial.
Print Assumptions C29_build_defined_refuted.
Print Assumptions C29_same_size_refuted.
Print Assumptions C29_narrowing_refuted.
