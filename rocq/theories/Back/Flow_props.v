(** C32. *)
From stdpp Require Import base list numbers sorting.
From Verif Require Import Back.Flow_model Back.Flow_spec Back.Flow_live_proof.
Open Scope nat_scope.

(** The predecessors of a block are the blocks from which control can pass to it, of those
    that control reaches. *)
Theorem C32_predecessors : forall bbs, wf bbs ->
  exists from, detect_from_bbs bbs = Some from /\ length from = length bbs /\
  forall a b, (exists f, from !! b = Some f /\ a ∈ f) <-> reach bbs a /\ edge bbs a b.
Proof. exact predecessors_ok. Qed.
Print Assumptions C32_predecessors.

(** The analysis always ends.  In every block that control reaches, the registers said to be
    live at its start and at its end are exactly those that some path from there reads before
    assigning them; in other blocks they are among them.  They are kept without duplicates, in
    the order of their numbers. *)
Theorem C32_liveness : forall bbs, wf bbs ->
  exists from st, detect_from_bbs bbs = Some from /\ analyze_reg_flow bbs from = Some st /\ length st = length bbs /\
  forall b s, st !! b = Some s ->
    (forall r, r ∈ ins s -> live bbs r b) /\ (forall r, r ∈ outs s -> live_out bbs r b) /\
    (reach bbs b -> (forall r, live bbs r b -> r ∈ ins s) /\ (forall r, live_out bbs r b -> r ∈ outs s)) /\
    StronglySorted lt (ins s) /\ StronglySorted lt (outs s).
Proof. exact liveness_ok. Qed.
Print Assumptions C32_liveness.

(** A loop: 0: r0 := ..; 1: if (r0) goto 3; 2: r1 := r0 + r2; r0 := r1; goto 1; 3: use r0. *)
Definition loop : list bb :=
  [BB [Ir [] (Some 0)] Falls;
   BB [Ir [0] None] (CJump 3);
   BB [Ir [0; 2] (Some 1); Ir [1] (Some 0)] (Jump 1);
   BB [Ir [0] None] Falls].
Example loop_flow : wf loop /\ (from ← detect_from_bbs loop; analyze_reg_flow loop from) =
  Some [Sets [2] [0; 2] [0]; Sets [0; 2] [0; 2] []; Sets [0; 2] [0; 2] [0; 1]; Sets [0] [] []].
Proof.
  split; [|by vm_compute]. intros a x Hx.
  repeat (destruct a as [|a]; [by injection Hx as <-; cbn; try lia|]). done.
Qed.
