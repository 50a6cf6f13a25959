(** C14, C68: #if expressions. *)
From stdpp Require Import base list numbers.
From Verif Require Import Cpp.Ppexpr_model Cpp.Ppexpr_spec Cpp.Ppexpr_proof.
Open Scope Z_scope.

(** A token sequence derived by C's expression grammar, with signed operands and
    no overflow, is consumed entirely and gives the value C gives it. *)
Theorem C14_value_of_expression :
  forall (defined : nat -> bool) (ts : list tok) (e : expr) (v : Z),
    derives expression ts e -> all_signed e -> no_overflow_anywhere defined e ->
    value defined e = Some v -> pp_expr defined ts = Ok (v, []).
Proof. exact evaluates. Qed.
Print Assumptions C14_value_of_expression.

(** Nothing outside the grammar is accepted. *)
Theorem C14_accepted_is_grammatical :
  forall (defined : nat -> bool) (ts : list tok) (v : Z),
    pp_expr defined ts = Ok (v, []) -> exists e, derives expression ts e.
Proof. exact accepted_is_grammatical. Qed.
Print Assumptions C14_accepted_is_grammatical.

(** Parsing ends on every token sequence. *)
Theorem C14_terminates :
  forall (defined : nat -> bool) (ts : list tok), pp_expr defined ts <> NoFuel.
Proof. exact terminates. Qed.
Print Assumptions C14_terminates.

(** 10 - 2 - 3 * -1 << 1 > 20 ? defined X && 1 / 0 : (4, 7) with X not defined is
    (((10 - 2) - 3 * -1) << 1) > 20, true, so defined X && 1 / 0, which is 0. *)
Example C14_example :
  pp_expr (fun _ => false)
    [TInt false 10; TOp Sub; TInt false 2; TOp Sub; TInt false 3; TOp Mul; TOp Sub;
     TInt false 1; TOp Shl; TInt false 1; TOp Gt; TInt false 20; TQuestion; TDefined;
     TId 0; TOp Land; TInt false 1; TOp Div; TInt false 0; TColon; TLpar; TInt false 4;
     TOp Comma; TInt false 7; TRpar] = Ok (0, []).
Proof. vm_compute. reflexivity. Qed.

Example C14_example_left_associative :
  derives expression [TInt false 10; TOp Sub; TInt false 2; TOp Sub; TInt false 3]
    (Bin Sub (Bin Sub (Num false 10) (Num false 2)) (Num false 3)) /\
  value (fun _ => false) (Bin Sub (Bin Sub (Num false 10) (Num false 2)) (Num false 3)) = Some 5 /\
  pp_expr (fun _ => false) [TInt false 10; TOp Sub; TInt false 2; TOp Sub; TInt false 3] = Ok (5, []).
Proof.
  split; [|split; vm_compute; reflexivity].
  do 10 (apply d_up; cbn [rule snd]).
  assert (H: forall v, derives multiplicative [TInt false v] (Num false v)).
  { intros v. do 2 (apply d_up; cbn [rule snd]). constructor. }
  apply (d_binary additive Sub [TInt false 10; TOp Sub; TInt false 2]); [cbn; repeat constructor| |apply H].
  apply (d_binary additive Sub [TInt false 10]); [cbn; repeat constructor|apply d_up; apply H|apply H].
Qed.

(** C68: unsigned operands are compared as signed. -1 < 0u is false in C. *)
Theorem C68_unsigned_refuted :
  exists (defined : nat -> bool) (ts : list tok) (e : expr) (v w : Z),
    derives expression ts e /\ value defined e = Some v /\
    pp_expr defined ts = Ok (w, []) /\ v <> w.
Proof. exact unsigned_wrong. Qed.
Print Assumptions C68_unsigned_refuted.

(** The operand that && does not evaluate is evaluated: here a division that
    overflows, on which the processor traps. *)
Theorem C68_unevaluated_operand_refuted :
  exists (defined : nat -> bool) (ts : list tok) (e : expr) (v : Z),
    derives expression ts e /\ all_signed e /\ value defined e = Some v /\
    pp_expr defined ts = Undef.
Proof. exact unevaluated_traps. Qed.
Print Assumptions C68_unevaluated_operand_refuted.

(** An evaluated division by zero has no value, but is accepted with one. *)
Theorem C68_division_by_zero_refuted :
  exists (defined : nat -> bool) (ts : list tok) (e : expr) (w : Z),
    derives expression ts e /\ value defined e = None /\ pp_expr defined ts = Ok (w, []).
Proof. exact zero_division_accepted. Qed.
Print Assumptions C68_division_by_zero_refuted.
