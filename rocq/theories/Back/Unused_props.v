(** C111. *)
From stdpp Require Import base list numbers gmap.
From Verif Require Import Back.Unused_model Back.Unused_spec Back.Unused_proof.
Open Scope nat_scope.

(** Removing instructions whose results are unused ends, and the function then does the same.
    The registers to keep, which are parameters or have their address taken, include those in memory.
    What is missing: observable instructions that have results and are not calls. *)
Theorem C111_same_partial : forall (K J : Type) keep alive (bs : list (blk K J)), pinned_alive keep alive ->
  exists bs', remove_unused_vregs keep alive bs = Some bs' /\
  forall (W : Type) (M : machine K J W) pinned, effects_plain M bs -> (forall v, pinned v = true -> keep v = true) ->
  forall index n a b s, trace M pinned index n bs a b s = trace M pinned index n bs' a b s.
Proof. exact unused_same. Qed.
Print Assumptions C111_same_partial.

(** Any observable instruction, such as a load through a pointer to volatile, an assignment to a
    volatile variable or an asm statement, is lost when its result is not used. *)
Theorem C111_observable_refuted : forall (K J W : Type) (M : machine K J W) (k : K) (w : W), seen M k = true ->
  exists alive (bs bs' : list (blk K J)), pinned_alive (fun _ => false) alive /\ remove_unused_vregs (fun _ => false) alive bs = Some bs' /\
  exists index n a b s, trace M (fun _ => false) index n bs a b s <> trace M (fun _ => false) index n bs' a b s.
Proof. exact observable_lost. Qed.
Print Assumptions C111_observable_refuted.

(** r0 := ..; r1 := r0 + 1; r2 := r1 + r1; r3 := call(5), in a loop with a phi for r4 = (7, r5), and
    r5 := r4 + 1; only r4 and the call are used in the jump at the end, and r6 is a parameter. *)
Definition sample : list (blk nat nat) :=
  [Blk [] [Ins 0 false (Some 0) [inl 3%Z]; Ins 1 false (Some 1) [inr 0; inl 1%Z]; Ins 1 false (Some 2) [inr 1; inr 1]; Ins 0 false (Some 6) [inl 9%Z]] None;
   Blk [Phi 4 [inl 7%Z; inr 5]; Phi 7 [inr 1; inr 2]] [Ins 1 false (Some 5) [inr 4; inl 1%Z]; Ins 2 true (Some 3) [inl 5%Z]] (Some (8, [inr 4]))].
Example C111_example : remove_unused_vregs (fun v => v =? 6) (replicate 8 true) sample = Some
  [Blk [] [Ins 0 false (Some 6) [inl 9%Z]] None;
   Blk [Phi 4 [inl 7%Z; inr 5]] [Ins 1 false (Some 5) [inr 4; inl 1%Z]; Ins 2 true None [inl 5%Z]] (Some (8, [inr 4]))].
Proof. vm_compute. reflexivity. Qed.
