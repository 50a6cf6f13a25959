(** C115. *)
From stdpp Require Import base list numbers gmap.
From Verif Require Import Back.Unused_model Back.Unused_spec Back.Ssa_model Back.Ssa_spec Back.Cprop_model Back.Cprop_spec Back.Cprop_all_proof.
From Verif Require Back.Flow_model Back.Flow_spec.
Open Scope nat_scope.

(** The propagation of copies ends and no assertion of it fails. *)
Theorem C115_total : forall (K J W : Type) endof pinned param index from (M : machine K J W) mov is_copy fold_ins fold_exit (bs : list (blk K J)),
  jumps_as_said endof M -> copies_as_said M is_copy -> is_copy mov = true -> folds_ins M pinned fold_ins -> folds_exit endof M pinned fold_exit ->
  preds_of endof bs from -> (forall a b f, from !! b = Some f -> a ∈ f -> f !! index a b = Some a) -> phis_full pinned from bs ->
  assigned_once pinned param bs -> initialised endof pinned param index bs ->
  is_Some (copy_propagation mov is_copy fold_ins fold_exit pinned from bs).
Proof. exact @copy_total. Qed.
Print Assumptions C115_total.

(** The function then does the same. *)
Theorem C115_same : forall (K J W : Type) endof pinned param index from (M : machine K J W) mov is_copy fold_ins fold_exit (bs bs' : list (blk K J)),
  jumps_as_said endof M -> copies_as_said M is_copy -> is_copy mov = true -> folds_ins M pinned fold_ins -> folds_exit endof M pinned fold_exit ->
  preds_of endof bs from -> (forall a b f, from !! b = Some f -> a ∈ f -> f !! index a b = Some a) -> phis_full pinned from bs ->
  assigned_once pinned param bs -> initialised endof pinned param index bs ->
  copy_propagation mov is_copy fold_ins fold_exit pinned from bs = Some bs' ->
  length bs' = length bs /\ forall n a s, trace M pinned index n bs' a 0 s = trace M pinned index n bs a 0 s.
Proof. exact @copy_same. Qed.
Print Assumptions C115_same.

(** Still every register is assigned in one place, and nothing is read before it is assigned. *)
Theorem C115_form : forall (K J W : Type) endof pinned param index from (M : machine K J W) mov is_copy fold_ins fold_exit (bs bs' : list (blk K J)),
  jumps_as_said endof M -> copies_as_said M is_copy -> is_copy mov = true -> folds_ins M pinned fold_ins -> folds_exit endof M pinned fold_exit ->
  preds_of endof bs from -> (forall a b f, from !! b = Some f -> a ∈ f -> f !! index a b = Some a) -> phis_full pinned from bs ->
  assigned_once pinned param bs -> initialised endof pinned param index bs ->
  copy_propagation mov is_copy fold_ins fold_exit pinned from bs = Some bs' ->
  assigned_once pinned param bs' /\ initialised endof pinned param index bs'.
Proof. exact @copy_form. Qed.
Print Assumptions C115_form.

(** A function is brought into single assignment form and its copies are propagated: both end, and it does the same. *)
Theorem C115_after_ssa : forall (K J W : Type) endof pinned param nv index (M : machine K J W) mov is_copy fold_ins fold_exit (bs : list (blk K J)),
  jumps_as_said endof M -> copies_as_said M is_copy -> is_copy mov = true -> folds_ins M pinned fold_ins -> folds_exit endof M pinned fold_exit ->
  plain endof nv bs -> bs <> [] -> (forall v, pinned v = true -> v < nv) -> (forall v, param v = true -> v < nv) -> unreached_empty endof bs ->
  index_ok endof bs index -> initialised endof pinned param index bs ->
  exists from bs1 bs2, Flow_model.detect_from_bbs (flow endof bs) = Some from /\ make_ssa endof pinned param nv bs = Some bs1 /\
    copy_propagation mov is_copy fold_ins fold_exit pinned from bs1 = Some bs2 /\
    forall n a s, trace M pinned index n bs2 a 0 s = trace M pinned index n bs a 0 s.
Proof. exact @copy_after. Qed.
Print Assumptions C115_after_ssa.

(** If a register can be read before it is assigned, the propagation may not end, whatever the number of rounds. *)
Theorem C115_ends_refuted : exists (bs : list (blk nat nat)) from bs1, plain Flow_model.CJump 2 bs /\ unreached_empty Flow_model.CJump bs /\
  Flow_model.detect_from_bbs (flow Flow_model.CJump bs) = Some from /\ make_ssa Flow_model.CJump (fun _ => false) (fun _ => false) 2 bs = Some bs1 /\
  forall fuel, copy_rounds 0 (fun k => k =? 0) id (fun j l => Some (j, l)) (fun _ => false) fuel from bs1 = None.
Proof. exact swap_hangs. Qed.
Print Assumptions C115_ends_refuted.

(** Operation 0 copies, 1 adds, 2 subtracts, 3 prints; a jump is taken unless its operand is 0. *)
Definition calc (k : nat) (l : list Z) : Z :=
  match k, l with 0, [x] => x | 1, [x; y] => (x + y)%Z | 2, [x; y] => (x - y)%Z | _, _ => 0%Z end.
Definition toy : machine nat nat (list Z) := {|
  act := fun k l w => (calc k l, if k =? 3 then w ++ l else w); seen := fun k => k =? 3;
  silent := fun k l w H => match k =? 3 as b return (b = false -> (if b then w ++ l else w) = w) with true => fun H => match diff_true_false H with end | false => fun _ => eq_refl end H;
  target := fun j l w => match l with [x] => if (x =? 0)%Z then None else Some j | _ => None end;
  peek := fun w v => 0%Z; poke := fun w v x => w |}.
Definition fold_toy (i : ins nat) : ins nat :=
  match op i, oprs i with
  | 1, [inl x; inl y] => Ins 0 (is_call i) (dst i) [inl (x + y)%Z]
  | _, _ => i
  end.
Definition fold_jump (j : nat) (l : list (Z + nat)) : option (nat * list (Z + nat)) := match l with [inl 0%Z] => None | _ => Some (j, l) end.
(** r0 is a parameter: r1 := 0; r2 := r0; r3 := 5; do { r4 := r3; r1 := r1 + r4; r5 := r4 + 2; r2 := r2 - 1 } while (r2); if (0) goto 2; print r1, r3, r4, r5. *)
Definition sample : list (blk nat nat) :=
  [Blk [] [Ins 0 false (Some 1) [inl 0%Z]; Ins 0 false (Some 2) [inr 0]; Ins 0 false (Some 3) [inl 5%Z]] None;
   Blk [] [Ins 0 false (Some 4) [inr 3]; Ins 1 false (Some 1) [inr 1; inr 4]; Ins 1 false (Some 5) [inr 4; inl 2%Z]; Ins 2 false (Some 2) [inr 2; inl 1%Z]] (Some (1, [inr 2]));
   Blk [] [Ins 0 false (Some 6) [inl 0%Z]] (Some (2, [inr 6]));
   Blk [] [Ins 3 true None [inr 1; inr 3; inr 4; inr 5]] None].
Definition no : nat -> bool := fun _ => false.
Definition first : nat -> bool := fun v => v =? 0.
(** Copies and the phis of registers that do not change disappear, sums of constants are computed and the jump that is not taken is removed. *)
Example C115_example : (from ← Flow_model.detect_from_bbs (flow Flow_model.CJump sample); bs ← make_ssa Flow_model.CJump no first 7 sample;
    copy_propagation 0 (fun k => k =? 0) fold_toy fold_jump no from bs) = Some
  [Blk [] [Ins 0 false (Some 1) [inl 0%Z]; Ins 0 false (Some 2) [inr 0]; Ins 0 false (Some 3) [inl 5%Z]] None;
   Blk [Phi 7 [inl 0%Z; inr 10]; Phi 8 [inr 0; inr 11]]
     [Ins 0 false (Some 9) [inl 5%Z]; Ins 0 false (Some 4) [inl 5%Z]; Ins 1 false (Some 10) [inr 7; inl 5%Z]; Ins 0 false (Some 5) [inl 7%Z]; Ins 2 false (Some 11) [inr 8; inl 1%Z]] (Some (1, [inr 11]));
   Blk [] [Ins 0 false (Some 15) [inl 7%Z]; Ins 0 false (Some 14) [inl 5%Z]; Ins 0 false (Some 13) [inl 5%Z]; Ins 0 false (Some 12) [inr 10]; Ins 0 false (Some 6) [inl 0%Z]] None;
   Blk [] [Ins 3 true None [inr 10; inl 5%Z; inl 5%Z; inl 7%Z]] None].
Proof. vm_compute. reflexivity. Qed.
(** The hypotheses hold for it. *)
Example C115_example_machine : jumps_as_said Flow_model.CJump toy /\ copies_as_said toy (fun k => k =? 0) /\ folds_ins toy no fold_toy /\ folds_exit Flow_model.CJump toy no fold_jump.
Proof.
  split; [|split; [|split]].
  - intros j l w. cbn. destruct l as [|x [|y l]]; [by right| |by right]. destruct (x =? 0)%Z; [by right|by left].
  - intros k Hk. apply Nat.eqb_eq in Hk as ->. done.
  - intros [k c d l]. unfold fold_toy. cbn [op oprs is_call dst].
    destruct k as [|[|k]]; [done| |done]. destruct l as [|[x|x] [|[y|y] [|z l]]]; try done.
  - intros j l. unfold fold_jump. destruct l as [|[[|x|x]|x] [|y l]]; (split; [done|split; [intros v j' l' E Hv; try by injection E as <- <-|]]); try done; try (by left). right. exists j. split; [done|by left].
Qed.
Example C115_example_plain : plain Flow_model.CJump 7 sample /\ unreached_empty Flow_model.CJump sample.
Proof.
  split.
  - split.
    + intros b x Hb. do 4 (destruct b as [|b]; [by injection Hb as <-|]). done.
    + intros b x v Hb Hv. do 4 (destruct b as [|b]; [injection Hb as <-; vm_compute in Hv; repeat (apply elem_of_cons in Hv as [->|Hv]; [lia|]); by apply elem_of_nil in Hv|]). done.
    + intros b x Hb. do 4 (destruct b as [|b]; [injection Hb as <-; cbn; (exact I || lia)|]). done.
    + intros a (x & Ha & _ & H). do 4 (destruct a as [|a]; [injection Ha as <-; cbn in H; lia|]). done.
  - intros b x Hb Hn. exfalso. apply Hn. clear Hn.
    assert (H0 : reach Flow_model.CJump sample 0) by (constructor; cbn; lia).
    assert (H1 : reach Flow_model.CJump sample 1) by (apply Flow_spec.reach_step with 0; [done|]; eexists; split; [done|]; split; [cbn; lia|done]).
    assert (H2 : reach Flow_model.CJump sample 2) by (apply Flow_spec.reach_step with 1; [done|]; eexists; split; [done|]; split; [cbn; lia|by right]).
    assert (H3 : reach Flow_model.CJump sample 3) by (apply Flow_spec.reach_step with 2; [done|]; eexists; split; [done|]; split; [cbn; lia|by right]).
    do 4 (destruct b as [|b]; [done|]). done.
Qed.
(** The predecessors: a block that is its own comes second. *)
Definition place (a b : nat) : nat := if a =? b then 1 else 0.
Example C115_example_initialised : index_ok Flow_model.CJump sample place /\ initialised Flow_model.CJump no first place sample.
Proof.
  split.
  - eexists. split; [vm_compute; reflexivity|]. intros a b f Hf Ha.
    do 4 (destruct b as [|b]; [injection Hf as <-; repeat (apply elem_of_cons in Ha as [->|Ha]; [done|]); by apply elem_of_nil in Ha|]). done.
  - split; [|intros a b x y p v _ _ _ Hy Hp; exfalso; do 4 (destruct b as [|b]; [injection Hy as <-; by apply elem_of_nil in Hp|]); done].
    intros b x v Hb _ Hr Hl.
    assert (H : first v = false /\ (b = 0 \/ v ∉ [1; 2; 3]) /\ (b <= 1 \/ v ∉ [1; 2; 4; 5])).
    { clear x Hb Hr. induction Hl as [H|a b x Hl IH Hx Hn (y & Hy & Hb & He)]; [split; [done|split; [by left|left; lia]]|]. destruct IH as (I1 & I2 & I3). split; [done|].
      destruct a as [|[|[|[|a]]]]; [injection Hx as <-; injection Hy as <-; cbn in He, Hb..|done].
      - subst b. split; [by right|left; lia].
      - split; [right; destruct I2; done|]. right. cbn in Hn. rewrite !elem_of_cons, elem_of_nil in Hn |- *. naive_solver.
      - split; [right; destruct I2; done|]. right. destruct I3; [lia|done].
      - lia. }
    destruct H as (I1 & I2 & I3). destruct Hr as (_ & pre & i & post & E & Hi & Hpre).
    assert (Hv : forall w : nat, w <> v -> v ∈ [w] -> False) by (intros w H H'; apply elem_of_list_singleton in H'; congruence).
    destruct b as [|[|[|[|b]]]]; [injection Hb as <-; cbn in E..|done].
    + do 3 (destruct pre as [|j pre]; [injection E as <- ?; cbn in Hi; apply elem_of_list_In in Hi; cbn in Hi; destruct Hi as [|[]] || destruct Hi; subst; done|injection E as <- E]).
      by destruct pre.
    + destruct I2 as [|I2]; [done|]. cbn in I2. rewrite !elem_of_cons, elem_of_nil in I2.
      destruct pre as [|j1 pre]; [injection E as <- _; cbn in Hi; apply elem_of_list_singleton in Hi; naive_solver|injection E as <- E]. assert (v <> 4) by (intros ->; apply (Hpre _ (elem_of_list_here _ _)); done).
      destruct pre as [|j2 pre]; [injection E as <- _; cbn in Hi; rewrite !elem_of_cons, elem_of_nil in Hi; naive_solver|injection E as <- E].
      destruct pre as [|j3 pre]; [injection E as <- _; cbn in Hi; rewrite !elem_of_cons, elem_of_nil in Hi; naive_solver|injection E as <- E].
      destruct pre as [|j4 pre]; [injection E as <- _; cbn in Hi; rewrite !elem_of_cons, elem_of_nil in Hi; naive_solver|injection E as <- E].
      destruct pre as [|j5 pre]; [injection E as <- _; cbn in Hi; rewrite !elem_of_cons, elem_of_nil in Hi; naive_solver|injection E as <- E].
      by destruct pre.
    + destruct pre as [|j1 pre]; [injection E as <- _; cbn in Hi; by apply elem_of_nil in Hi|injection E as <- E].
      destruct pre as [|j2 pre]; [injection E as <- _; cbn in Hi; apply elem_of_list_singleton in Hi; subst v; apply (Hpre _ (elem_of_list_here _ _)); done|injection E as <- E].
      by destruct pre.
    + destruct I3 as [|I3]; [lia|]. destruct I2 as [|I2]; [done|]. rewrite !elem_of_cons, elem_of_nil in I2. rewrite !elem_of_cons, elem_of_nil in I3.
      destruct pre as [|j1 pre]; [injection E as <- _; cbn in Hi; rewrite !elem_of_cons, elem_of_nil in Hi; naive_solver|injection E as <- E]. by destruct pre.
Qed.
