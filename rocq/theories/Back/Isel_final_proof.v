(** Facts for the statements in Isel_props.v. *)
From stdpp Require Import base numbers list sets.
From Coq Require Import Lia.
From Verif Require Import Back.Isel_model Back.Isel_spec Back.Isel_proof Back.Isel_ops_proof Back.Isel_cmp_proof.
Open Scope Z_scope.

Lemma fcond_full c d f1 f2 s :
  exists s', run 0 (emit_fcond c d f1 f2) s = Some (false, s') /\
  regs s' d mod 2 ^ 32 = (if fholds c (fregs s f1) (fregs s f2) then 1 else 0) /\
  (forall r, r <> d -> regs s' r = regs s r) /\ fregs s' = fregs s /\ stk s' = stk s.
Proof.
  destruct (fcond_ok c d f1 f2 s) as (s' & H1 & H2 & H3). exists s'. split; [exact H1|]. split; [exact H2|].
  destruct H3 as (H3 & H4 & H5). split; [|done]. intros r Hr. apply H3; [done|set_solver].
Qed.
