(** C100: merging two additions. *)
From stdpp Require Import base list numbers.
From Verif Require Import Back.Opt_model Back.Opt_spec Back.Opt_def_proof.
Open Scope Z_scope.

(** [d = a + c; e = d + c'] becomes [d = a + c; e = a + c''] with the same result, if the first
    addition does not overwrite its operand (or adds nothing). *)
Theorem C100_merge_partial : forall v sub c c' c'' a d regs, vsizes v -> peephole_add sub c c' = Ok c'' -> a <> d \/ c = 0 ->
  let regs' := set regs d (cut v (regs a + c)) in
  cut v (regs' d + (if sub : bool then - c' else c')) = cut v (regs' a + c'').
Proof. exact peephole_ok. Qed.

(** The code does not check that: [a = a + 1; e = a + 1] becomes [a = a + 1; e = a + 2]. *)
Theorem C100_merge_refuted : exists v c c' c'' a d regs, vsizes v /\ peephole_add false c c' = Ok c'' /\
  let regs' := set regs d (cut v (regs a + c)) in cut v (regs' d + c') <> cut v (regs' a + c'').
Proof. exact peephole_wrong. Qed.

Example C100_example : peephole_add true 5 8 = Ok (-3) /\
  cut 2 (set (fun _ => 10) 1 (cut 2 (10 + 5)) 1 - 8) = 7.
Proof. by vm_compute. Qed.

Print Assumptions C100_merge_partial.
Print Assumptions C100_merge_refuted.
