(** C114. *)
From stdpp Require Import base list numbers gmap.
From Verif Require Import Back.Unused_model Back.Unused_spec Back.Ssa_model Back.Ssa_spec Back.Ssa_all_proof.
From Verif Require Back.Flow_model.
Open Scope nat_scope.

(** The transformation ends and no assertion of it fails. *)
Theorem C114_total : forall (K J : Type) endof pinned param nv (bs : list (blk K J)), plain endof nv bs -> bs <> [] -> (forall v, pinned v = true -> v < nv) ->
  is_Some (make_ssa endof pinned param nv bs).
Proof. exact @ssa_total. Qed.
Print Assumptions C114_total.

(** The function then does the same, whatever its registers held before. *)
Theorem C114_same : forall (K J : Type) endof pinned param nv (bs bs' : list (blk K J)), plain endof nv bs -> (forall v, pinned v = true -> v < nv) ->
  make_ssa endof pinned param nv bs = Some bs' -> forall W (M : machine K J W) index n a s, jumps_as_said endof M -> index_ok endof bs index ->
  trace M pinned index n bs' a 0 s = trace M pinned index n bs a 0 s.
Proof. exact @ssa_same. Qed.
Print Assumptions C114_same.

(** Every register is assigned in one place, parameters in none. *)
Theorem C114_once : forall (K J : Type) endof pinned param nv (bs bs' : list (blk K J)), plain endof nv bs -> (forall v, pinned v = true -> v < nv) -> (forall v, param v = true -> v < nv) ->
  unreached_empty endof bs -> make_ssa endof pinned param nv bs = Some bs' -> assigned_once pinned param bs'.
Proof. exact @ssa_single. Qed.
Print Assumptions C114_once.

(** If nothing is read before it is assigned, that stays so. *)
Theorem C114_initialised : forall (K J : Type) endof pinned param nv (bs bs' : list (blk K J)) index, plain endof nv bs -> (forall v, pinned v = true -> v < nv) ->
  unreached_empty endof bs -> index_ok endof bs index -> make_ssa endof pinned param nv bs = Some bs' -> initialised endof pinned param index bs ->
  initialised endof pinned param index bs'.
Proof. exact @ssa_initialised. Qed.
Print Assumptions C114_initialised.

(** The flow of control is that of before. *)
Theorem C114_flow : forall (K J : Type) endof pinned param nv (bs bs' : list (blk K J)), plain endof nv bs -> (forall v, pinned v = true -> v < nv) ->
  make_ssa endof pinned param nv bs = Some bs' -> length bs' = length bs /\ forall a b, edge endof bs' a b <-> edge endof bs a b.
Proof. exact @ssa_edges. Qed.
Print Assumptions C114_flow.

(** Each phi has a parameter for each predecessor. *)
Theorem C114_phis : forall (K J : Type) endof pinned param nv (bs bs' : list (blk K J)) from, plain endof nv bs -> (forall v, pinned v = true -> v < nv) ->
  make_ssa endof pinned param nv bs = Some bs' -> Flow_model.detect_from_bbs (flow endof bs) = Some from ->
  preds_of endof bs' from /\ phis_full pinned from bs'.
Proof. exact @ssa_phis. Qed.
Print Assumptions C114_phis.

(** r0 is a parameter, r3 is in memory: r1 := 0; r2 := r0; do { r1 := r1 + r2; r3 := r1; r2 := r2 - 1 } while (r2); print r1, r3. *)
Definition sample : list (blk nat nat) :=
  [Blk [] [Ins 0 false (Some 1) [inl 0%Z]; Ins 0 false (Some 2) [inr 0]] None;
   Blk [] [Ins 1 false (Some 1) [inr 1; inr 2]; Ins 0 false (Some 3) [inr 1]; Ins 2 false (Some 2) [inr 2; inl 1%Z]] (Some (1, [inr 2]));
   Blk [] [Ins 3 true None [inr 1; inr 3]] None].
Example C114_example : make_ssa Flow_model.CJump (fun v => v =? 3) (fun v => v =? 0) 4 sample = Some
  [Blk [] [Ins 0 false (Some 1) [inl 0%Z]; Ins 0 false (Some 2) [inr 0]] None;
   Blk [Phi 4 [inr 1; inr 6]; Phi 5 [inr 2; inr 7]]
     [Ins 1 false (Some 6) [inr 4; inr 5]; Ins 0 false (Some 3) [inr 6]; Ins 2 false (Some 7) [inr 5; inl 1%Z]] (Some (1, [inr 7]));
   Blk [] [Ins 3 true None [inr 6; inr 3]] None].
Proof. vm_compute. reflexivity. Qed.
(** The hypotheses hold for it. *)
Example C114_example_plain : plain Flow_model.CJump 4 sample /\ unreached_empty Flow_model.CJump sample.
Proof.
  split.
  - split.
    + intros b x Hb. do 3 (destruct b as [|b]; [by injection Hb as <-|]). done.
    + intros b x v Hb Hv. do 3 (destruct b as [|b]; [injection Hb as <-; vm_compute in Hv; repeat (apply elem_of_cons in Hv as [->|Hv]; [lia|]); by apply elem_of_nil in Hv|]). done.
    + intros b x Hb. do 3 (destruct b as [|b]; [injection Hb as <-; cbn; (exact I || lia)|]). done.
    + intros a (x & Ha & _ & H). do 3 (destruct a as [|a]; [injection Ha as <-; cbn in H; lia|]). done.
  - intros b x Hb Hn. exfalso. apply Hn. clear Hn.
    assert (H0 : reach Flow_model.CJump sample 0) by (constructor; cbn; lia).
    assert (H1 : reach Flow_model.CJump sample 1) by (apply Flow_spec.reach_step with 0; [done|]; eexists; split; [done|]; split; [cbn; lia|done]).
    assert (H2 : reach Flow_model.CJump sample 2) by (apply Flow_spec.reach_step with 1; [done|]; eexists; split; [done|]; split; [cbn; lia|by right]).
    do 3 (destruct b as [|b]; [done|]). done.
Qed.
