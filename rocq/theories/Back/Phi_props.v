(** C31: the moves that replace the phis of a block. *)
From stdpp Require Import base list numbers.
From Verif Require Import Back.Phi_model Back.Phi_spec Back.Phi_proof Back.Phi_small_proof Back.Phi_frame_proof Back.Phi_long_proof.

(** The full statement is [wf ps tmp -> exists moves, replace_phis tmp ps = Some moves /\
    parallel ps moves]; it holds for up to three phis, whatever their registers. *)
Theorem C31_three_phis_partial : forall tmp ps, wf ps tmp -> length ps <= 3 ->
  exists moves, replace_phis tmp ps = Some moves /\ parallel ps moves.
Proof. exact at_most_three. Qed.

(** For any number of phis it holds when no cycle is found after the reordering. *)
Theorem C31_no_cycle_partial : forall tmp ps moves l, NoDup (dst <$> ps) ->
  extract_cyclic_dependency ps = Some (l, []) -> replace_phis tmp ps = Some moves -> parallel ps moves.
Proof. exact no_cycle. Qed.

(** In particular when no phi reads what an earlier one assigns, *)
Theorem C31_in_order_partial : forall tmp ps, NoDup (dst <$> ps) -> in_order ps ->
  exists moves, replace_phis tmp ps = Some moves /\ parallel ps moves.
Proof. exact ordered_ok. Qed.
(** and when one, [m], reads what an earlier one, [p], assigns, and may be put before that one. *)
Theorem C31_late_partial : forall tmp A B C p m, NoDup (dst <$> A ++ p :: B ++ m :: C) -> src m = dst p -> in_order (A ++ m :: p :: B ++ C) ->
  exists moves, replace_phis tmp (A ++ p :: B ++ m :: C) = Some moves /\ parallel (A ++ p :: B ++ m :: C) moves.
Proof. exact one_late. Qed.
(** It holds for one cycle of any length. *)
Theorem C31_rotation_partial : forall tmp ds, NoDup ds -> 2 <= length ds -> wf (rotation ds) tmp ->
  exists moves, replace_phis tmp (rotation ds) = Some moves /\ parallel (rotation ds) moves.
Proof. exact rotation_ok. Qed.

(** Other registers keep their values, for any number of phis. *)
Theorem C31_frame : forall tmp ps moves, replace_phis tmp ps = Some moves -> frame ps tmp moves.
Proof. exact replace_frame. Qed.

(** Two independent swaps: the second is done by two moves in sequence. *)
Theorem C31_two_swaps_refuted : exists ps tmp moves, wf ps tmp /\ replace_phis tmp ps = Some moves /\ ~ parallel ps moves.
Proof. exact two_swaps. Qed.

(** [a = b; b = x; c = b; d = a], in parallel: the compiler follows a null pointer. *)
Theorem C31_crash_refuted : exists ps tmp, wf ps tmp /\ replace_phis tmp ps = None.
Proof. exact crashes. Qed.

Example C31_example :
  replace_phis 9 [Phi 0 2; Phi 1 0; Phi 2 1] = Some [(9, 0); (0, 2); (2, 1); (1, 9)] /\
  replace_phis 9 [Phi 0 5; Phi 1 0; Phi 2 6; Phi 3 2] = Some [(1, 0); (0, 5); (3, 2); (2, 6)].
Proof. by vm_compute. Qed.
Example C31_example_rotation :
  replace_phis 9 (rotation [4; 2; 7; 5; 8]) = Some [(9, 4); (4, 2); (2, 7); (7, 5); (5, 8); (8, 9)] /\
  run [(9, 4); (4, 2); (2, 7); (7, 5); (5, 8); (8, 9)] (fun r => Z.of_nat r) 8 = 4%Z.
Proof. by vm_compute. Qed.

Print Assumptions C31_three_phis_partial.
Print Assumptions C31_no_cycle_partial.
Print Assumptions C31_in_order_partial.
Print Assumptions C31_late_partial.
Print Assumptions C31_rotation_partial.
Print Assumptions C31_frame.
Print Assumptions C31_two_swaps_refuted.
Print Assumptions C31_crash_refuted.
