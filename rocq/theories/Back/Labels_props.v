(** C110. *)
From stdpp Require Import base list numbers.
From Verif Require Back.Blocks_model Back.Ir_spec.
From Verif Require Import Back.Flow_model Back.Flow_spec Back.Labels_model Back.Labels_spec Back.Labels_proof.
Open Scope nat_scope.

(** Every label that a jump or a table names is emitted, once, if every block that control does
    not reach is without jumps and no block ends with a jump to the next.
    What is missing: the two conditions do not always hold after blocks are removed. *)
Theorem C110_emitted_partial : forall bbs, wf bbs -> first_free bbs -> no_jump_on bbs -> dead_silent bbs ->
  exists ls, labels bbs = Some ls /\ NoDup ls /\ forall a x t, bbs !! a = Some x -> t ∈ named x -> t ∈ ls.
Proof. exact labels_ok. Qed.
Print Assumptions C110_emitted_partial.

(** Jumps of blocks that control reaches to blocks other than the next. *)
Theorem C110_reached : forall bbs from a x t, wf bbs -> detect_from_bbs bbs = Some from -> reach bbs a -> bbs !! a = Some x ->
  t ∈ named x -> t <> 0 -> last x <> Jump (S a) -> t ∈ emitted bbs from.
Proof. exact named_emitted. Qed.
Print Assumptions C110_reached.

(** int z = 0; if (z) { do { g(); if (h()) goto Y; } while (k()); } a(); Y: b();
    after the condition is known: the jump at 0 skips the loop in 1 and 2, which stays, and
    the label at 4 is not emitted, as control reaches it only from 3. *)
Definition dead_loop : list (Blocks_model.bb nat nat) :=
  [Blocks_model.BB 0 [] (Blocks_model.EJmp 1 0 3);
   Blocks_model.BB 1 [10; 11] (Blocks_model.EJmp (Ir_spec.cond_code Ir_spec.CNe false false) 0 4);
   Blocks_model.BB 2 [12] (Blocks_model.EJmp (Ir_spec.cond_code Ir_spec.CNe false false) 0 1);
   Blocks_model.BB 3 [13] Blocks_model.EFall;
   Blocks_model.BB 4 [14] Blocks_model.EFall].
Theorem C110_dead_refuted : exists (bs : list (Blocks_model.bb nat nat)) bbs ls, finish bs = Some (bbs, ls) /\ wf bbs /\ first_free bbs /\
  exists a x t, bbs !! a = Some x /\ t ∈ named x /\ t ∉ ls.
Proof. exact (dead_ok dead_loop eq_refl). Qed.
Print Assumptions C110_dead_refuted.

(** All blocks are reached: 0 jumps to 2, which only jumps to 1, which jumps to 3.  The jump at 0
    is led to 1, the next block, and stays; 2 stays as well, unreached. *)
Definition stale : list (Blocks_model.bb nat nat) :=
  [Blocks_model.BB 0 [10] (Blocks_model.EJmp 1 0 2);
   Blocks_model.BB 1 [11] (Blocks_model.EJmp 1 0 3);
   Blocks_model.BB 2 [] (Blocks_model.EJmp 1 0 1);
   Blocks_model.BB 3 [12] Blocks_model.EFall].
Theorem C110_stale_refuted : exists (bs : list (Blocks_model.bb nat nat)) bbs ls, (forall a, a < length (flow bs) -> reach (flow bs) a) /\
  finish bs = Some (bbs, ls) /\ wf bbs /\ first_free bbs /\ exists a x t, bbs !! a = Some x /\ t ∈ named x /\ t ∉ ls.
Proof. exact (stale_ok stale eq_refl). Qed.
Print Assumptions C110_stale_refuted.

(** A loop with a table: 0; 1: switch to 2 or 3; 2: goto 4; 3; 4: loop to 1; 5. *)
Definition loop : list bb := [BB [] Falls; BB [] (Table [2; 3; 2]); BB [] (Jump 4); BB [] Falls; BB [] (CJump 1); BB [] Falls].
Example C110_example : wf loop /\ first_free loop /\ no_jump_on loop /\ dead_silent loop /\ labels loop = Some [1; 2; 3; 4].
Proof. exact (loop_ok loop eq_refl). Qed.
