(** C116. *)
From stdpp Require Import base list numbers gmap.
From Verif Require Import Back.Unused_model Back.Unused_spec Back.Unphi_model Back.Unphi_spec Back.Unphi_proof Back.Unphi_more_proof.
From Verif Require Back.Flow_model Back.Flow_spec Back.Ssa_model Back.Ssa_spec Back.Cprop_model Back.Cprop_spec.
Open Scope nat_scope.

(** Whenever the phis of every block can be replaced by moves, replacing them all ends and no assertion of it fails. *)
Theorem C116_total : forall (K C W : Type) (M : machine K (jmp C) W) pinned inv mov, labels_free M inv -> moves_as_said M mov ->
  forall has nv (bs : list (blk K (jmp C))) from, prepared pinned has nv bs from -> (forall b x, bs !! b = Some x -> resolvable nv (phis x)) ->
  is_Some (resolve_phis mov inv has from nv bs).
Proof. exact @resolve_total. Qed.
Print Assumptions C116_total.

(** The function then does the same. *)
Theorem C116_same : forall (K C W : Type) (M : machine K (jmp C) W) pinned inv mov, labels_free M inv -> moves_as_said M mov ->
  forall has nv (bs : list (blk K (jmp C))) from f index, prepared pinned has nv bs from -> (forall b x, bs !! b = Some x -> resolvable nv (phis x)) ->
  (forall a b f, from !! b = Some f -> a ∈ f -> f !! index a b = Some a) -> resolve_phis mov inv has from nv bs = Some f ->
  forall n a s, exists m, n <= m /\ ltrace M pinned m (body f) (fst <$> head (body f)) s = trace M pinned index n bs a 0 s.
Proof. exact @resolve_same. Qed.
Print Assumptions C116_same.

(** No phi is left, the blocks are known by different labels, and the first block is still the first one. *)
Theorem C116_gone : forall (K C W : Type) (M : machine K (jmp C) W) pinned inv mov, labels_free M inv -> moves_as_said M mov ->
  forall has nv (bs : list (blk K (jmp C))) from f, prepared pinned has nv bs from -> (forall b x, bs !! b = Some x -> resolvable nv (phis x)) ->
  resolve_phis mov inv has from nv bs = Some f ->
  NoDup (fst <$> body f) /\ (fst <$> body f) !! 0 = Some 0 /\ forall i l x, body f !! i = Some (l, x) -> phis x = [].
Proof. exact @resolve_gone. Qed.
Print Assumptions C116_gone.

(** All of this holds if each block has at most three phis, or phis that do not depend on one another.
    Missing: blocks with four or more phis that do; two swaps in one block are resolved wrongly (C31). *)
Theorem C116_easy_partial : forall (K C W : Type) (M : machine K (jmp C) W) pinned inv mov, labels_free M inv -> moves_as_said M mov ->
  forall has nv (bs : list (blk K (jmp C))) from index, prepared pinned has nv bs from -> (forall b x, bs !! b = Some x -> easy (phis x)) ->
  (forall a b f, from !! b = Some f -> a ∈ f -> f !! index a b = Some a) ->
  exists f, resolve_phis mov inv has from nv bs = Some f /\ (forall i l x, body f !! i = Some (l, x) -> phis x = []) /\
    forall n a s, exists m, n <= m /\ ltrace M pinned m (body f) (fst <$> head (body f)) s = trace M pinned index n bs a 0 s.
Proof. exact @easy_whole. Qed.
Print Assumptions C116_easy_partial.

(** The predecessors must be those of the function as it is now.  When propagation has removed a jump on a constant, those found
    before are still used: a move for the edge that is gone is executed nevertheless, and the function prints another value. *)
Theorem C116_stale_refuted : exists (bs : list (blk nat (jmp bool))) from bs1 bs2 bs3 f, Ssa_spec.plain ends 4 bs /\ Ssa_spec.unreached_empty ends bs /\ Ssa_spec.index_ok ends bs second /\ Ssa_spec.initialised ends no first second bs /\
  Flow_model.detect_from_bbs (Ssa_spec.flow ends bs) = Some from /\ Ssa_model.make_ssa ends no first 4 bs = Some bs1 /\
  Cprop_model.copy_propagation 0 (fun k => k =? 0) id fold_jump no from bs1 = Some bs2 /\ remove_unused_vregs no (replicate 10 true) bs2 = Some bs3 /\
  resolve_phis 0 negb (fun b => b =? 1) from 10 bs3 = Some f /\
  exists n s, forall m, n <= m -> ltrace toy no m (body f) (fst <$> head (body f)) s <> trace toy no second n bs 0 0 s.
Proof. exact stale_wrong. Qed.
Print Assumptions C116_stale_refuted.
(** The folding is one that keeps behaviour. *)
Example C116_stale_folds : Cprop_spec.folds_exit ends toy no fold_jump.
Proof. exact fold_toy. Qed.

(** if (r0) { r1 := 0; r2 := r0; r3 := r0; do { print r1, r2; r3 := r3 - 1; swap r1 and r2 } while (r3) ...} print 0 or r1. *)
Definition sample : list (blk nat (jmp bool)) :=
  [Blk [] [] (Some (Cond true 2, [inr 0]));
   Blk [] [] (Some (Goto 3, []));
   Blk [Phi 1 [inl 0%Z; inr 2]; Phi 2 [inr 0; inr 1]; Phi 3 [inr 0; inr 4]] [Ins 3 true None [inr 1; inr 2]; Ins 1 false (Some 4) [inr 3; inl (-1)%Z]] (Some (Cond true 2, [inr 4]));
   Blk [Phi 5 [inl 0%Z; inr 1]] [Ins 3 true None [inr 5]] None].
Definition preds : list (list nat) := [[]; [0]; [0; 2]; [1; 2]].
Definition joins (b : nat) : bool := 2 <=? b.
(** Three blocks are put in, for the jump into the loop, for the jump back and for the way out of it; a condition is inverted. *)
Example C116_example : resolve_phis 0 negb joins preds 6 sample = Some {| newl := 7; newv := 7; body :=
  [(0, Blk [] [] (Some (Cond true 4, [inr 0])));
   (1, Blk [] [Ins 0 false (Some 5) [inl 0%Z]] (Some (Goto 3, [])));
   (4, Blk [] [Ins 0 false (Some 1) [inl 0%Z]; Ins 0 false (Some 2) [inr 0]; Ins 0 false (Some 3) [inr 0]] None);
   (2, Blk [] [Ins 3 true None [inr 1; inr 2]; Ins 1 false (Some 4) [inr 3; inl (-1)%Z]] (Some (Cond false 6, [inr 4])));
   (5, Blk [] [Ins 0 false (Some 3) [inr 4]; Ins 0 false (Some 6) [inr 1]; Ins 0 false (Some 1) [inr 2]; Ins 0 false (Some 2) [inr 6]] (Some (Goto 2, [])));
   (6, Blk [] [Ins 0 false (Some 5) [inr 1]] None);
   (3, Blk [] [Ins 3 true None [inr 5]] None)] |}.
Proof. reflexivity. Qed.
Example C116_example_prepared : prepared no joins 6 sample preds /\ (forall b x, sample !! b = Some x -> easy (phis x)) /\ labels_free toy negb /\ moves_as_said toy 0.
Proof.
  split; [|split; [intros [|[|[|[|b]]]] x [= <-]; left; cbn; lia|split; [exact toy_labels|exact toy_moves]]].
  split; [done| | |reflexivity| | | | |done|by intros [|[|[|[|b]]]] x [= <-]].
  - intros [|[|[|[|b]]]] e He; [injection He as <-; cbn..|done]; unfold Ssa_spec.flow; cbn; try lia; exact I.
  - intros a (x & Ha & _ & H). destruct a as [|[|[|[|a]]]]; [injection Ha as <-; cbn in H; lia..|done].
  - split; [by intros [|[|[|[|b]]]] x ts l [= <-]|]. intros [|[|[|[|b]]]] x j l [= <-]; by cbn.
  - split; [|by intros x [= <-]]. intros b f x p Hf Hx Hp.
    destruct b as [|[|[|[|b]]]]; [injection Hf as <-; injection Hx as <-; cbn in Hp; repeat (apply elem_of_cons in Hp as [->|Hp]; [done|]); by apply elem_of_nil in Hp..|done].
  - intros b f x p i k a Hf Hx Hp Hi Hk. assert (NoDup f) by (destruct b as [|[|[|[|b]]]]; [injection Hf as <-; by refine (bool_decide_unpack _ _)..|done]). by rewrite (NoDup_lookup f i k a).
  - split; [|split; [|split]].
    + intros [|[|[|[|b]]]] x [= <-]; by refine (bool_decide_unpack _ _).
    + intros [|[|[|[|b]]]] x p [= <-] Hp; cbn in Hp; repeat (apply elem_of_cons in Hp as [->|Hp]; [split; [cbn; lia|]; intros v Hv; apply elem_of_list_In in Hv; cbn in Hv; naive_solver lia|]); by apply elem_of_nil in Hp.
    + intros [|[|[|[|b]]]] x i v [= <-] Hi Hv; apply elem_of_list_In in Hi; cbn in Hi; rewrite elem_of_list_In in Hv; naive_solver lia.
    + intros [|[|[|[|b]]]] x j l v [= <-] He Hv; try done; injection He as <- <-; apply elem_of_list_In in Hv; cbn in Hv; naive_solver lia.
Qed.
