(** C117. *)
From stdpp Require Import base list numbers gmap.
From Verif Require Import Back.Unused_model Back.Unused_spec Back.Ssa_model Back.Ssa_spec Back.Cprop_model Back.Cprop_spec Back.Unphi_model Back.Unphi_spec Back.Unphi_more_proof Back.Pipe_model Back.Pipe_spec Back.Pipe_proof.
From Verif Require Back.Flow_model Back.Flow_spec.
Open Scope nat_scope.

(** Unreachable blocks are emptied, registers are renamed, copies are propagated and unused results are removed: all of that ends, no assertion fails,
    and the function does the same as before. *)
Theorem C117_reduced : forall (K C W : Type) (M : machine K (jmp C) W) mov is_copy fold_ins fold_exit inv pinned param keep nv (bs : list (blk K (jmp C))) index,
  labels_free M inv -> copies_as_said M is_copy -> is_copy mov = true -> folds_ins M pinned fold_ins -> (forall i, is_call (fold_ins i) = is_call i) ->
  folds_exit ends M pinned fold_exit -> plain ends nv bs -> bs <> [] -> ends_plainly bs -> (forall v, pinned v = true -> keep v = true) ->
  (forall v, param v = true -> v < nv) -> (forall v, keep v = true -> v < nv) -> effects_plain M bs -> index_ok ends bs index ->
  initialised ends pinned param index bs ->
  forall from nv', Flow_model.detect_from_bbs (flow ends bs) = Some from -> nv <= nv' ->
  (forall bs1, make_ssa ends pinned param nv (clear from bs) = Some bs1 -> numbered nv' bs1) ->
  exists bs3, reduced mov is_copy fold_ins fold_exit pinned param keep from nv nv' bs = Some bs3 /\
    forall n a s, trace M pinned index n bs3 a 0 s = trace M pinned index n bs a 0 s.
Proof. exact @pipe_reduced. Qed.
Print Assumptions C117_reduced.

(** Then the phis are replaced by moves: the result has no phis and does the same as the function did at first.
    Missing: functions in which a jump was removed because its condition was constant ([kept] does not hold for them, and C116_stale_refuted shows
    that the result may be wrong), and blocks with four phis or more that depend on one another (see C31). *)
Theorem C117_same_partial : forall (K C W : Type) (M : machine K (jmp C) W) mov is_copy fold_ins fold_exit inv pinned param keep nv (bs : list (blk K (jmp C))) index,
  labels_free M inv -> copies_as_said M is_copy -> is_copy mov = true -> folds_ins M pinned fold_ins -> (forall i, is_call (fold_ins i) = is_call i) ->
  folds_exit ends M pinned fold_exit -> plain ends nv bs -> bs <> [] -> ends_plainly bs -> (forall v, pinned v = true -> keep v = true) ->
  (forall v, param v = true -> v < nv) -> (forall v, keep v = true -> v < nv) -> effects_plain M bs -> index_ok ends bs index ->
  initialised ends pinned param index bs ->
  forall from bs2 nv', Flow_model.detect_from_bbs (flow ends bs) = Some from -> nv <= nv' ->
  (forall bs1, make_ssa ends pinned param nv (clear from bs) = Some bs1 -> numbered nv' bs1) ->
  propagated mov is_copy fold_ins fold_exit pinned param from nv bs = Some bs2 -> kept (clear from bs) bs2 ->
  (forall bs3 b x, remove_unused_vregs keep (replicate nv' true) bs2 = Some bs3 -> bs3 !! b = Some x -> easy (phis x)) ->
  exists f, optimized mov is_copy fold_ins fold_exit inv pinned param keep nv nv' bs = Some f /\ (forall i l x, body f !! i = Some (l, x) -> phis x = []) /\
    forall n a s, exists m, n <= m /\ ltrace M pinned m (body f) (fst <$> head (body f)) s = trace M pinned index n bs a 0 s.
Proof. exact @pipe_same. Qed.
Print Assumptions C117_same_partial.

(** r0 is a parameter: r1 := 0; r2 := r0; goto 2; print 9; 2: r3 := r1; r1 := r3 + r2; r4 := 7; r2 := r2 - 1; if (r2) goto 2; print r1, r3. *)
Definition sample : list (blk nat (jmp bool)) :=
  [Blk [] [Ins 0 false (Some 1) [inl 0%Z]; Ins 0 false (Some 2) [inr 0]] (Some (Goto 2, []));
   Blk [] [Ins 3 true None [inl 9%Z]] None;
   Blk [] [Ins 0 false (Some 3) [inr 1]; Ins 1 false (Some 1) [inr 3; inr 2]; Ins 0 false (Some 4) [inl 7%Z]; Ins 1 false (Some 2) [inr 2; inl (-1)%Z]] (Some (Cond true 2, [inr 2]));
   Blk [] [Ins 3 true None [inr 1; inr 3]] None].
(** The value printed second is that of the register in the last round, not the one for the next. *)
Example C117_example : optimized 0 (fun k => k =? 0) id fold_jump negb no first first 5 9 sample = Some {| newl := 5; newv := 9; body :=
  [(0, Blk [] [Ins 0 false (Some 5) [inl 0%Z]; Ins 0 false (Some 6) [inr 0]] (Some (Goto 2, [])));
   (1, Blk [] [] None);
   (2, Blk [] [Ins 1 false (Some 7) [inr 5; inr 6]; Ins 1 false (Some 8) [inr 6; inl (-1)%Z]] (Some (Cond false 3, [inr 8])));
   (4, Blk [] [Ins 0 false (Some 5) [inr 7]; Ins 0 false (Some 6) [inr 8]] (Some (Goto 2, [])));
   (3, Blk [] [Ins 3 true None [inr 7; inr 5]] None)] |}.
Proof. vm_compute. reflexivity. Qed.
(** A block that is its own predecessor is the second one. *)
Example C117_example_holds : labels_free toy negb /\ copies_as_said toy (fun k => k =? 0) /\ folds_ins toy no id /\ folds_exit ends toy no fold_jump /\
  plain ends 5 sample /\ ends_plainly sample /\ effects_plain toy sample /\ index_ok ends sample second /\ initialised ends no first second sample.
Proof.
  split; [exact toy_labels|]. split; [intros k Hk; by apply Nat.eqb_eq in Hk as ->|]. split; [by intros [k c d l]|]. split; [exact fold_toy|].
  split; [|split; [|split; [|split; [|split]]]].
  - split.
    + by intros [|[|[|[|b]]]] x [= <-].
    + intros b x v Hb Hv. destruct b as [|[|[|[|b]]]]; [injection Hb as <-; vm_compute in Hv; repeat (apply elem_of_cons in Hv as [->|Hv]; [lia|]); by apply elem_of_nil in Hv..|done].
    + intros [|[|[|[|b]]]] x [= <-]; cbn; (exact I || lia).
    + intros a (x & Ha & _ & H). destruct a as [|[|[|[|a]]]]; [injection Ha as <-; cbn in H; lia..|done].
  - split; [by intros [|[|[|[|b]]]] x ts l [= <-]|]. intros [|[|[|[|b]]]] x j l [= <-]; by cbn.
  - intros x i Hx Hi. apply elem_of_list_In in Hx. cbn in Hx. destruct Hx as [<-|[<-|[<-|[<-|[]]]]]; apply elem_of_list_In in Hi; cbn in Hi; (naive_solver).
  - eexists. split; [vm_compute; reflexivity|]. intros a b f Hf Ha.
    destruct b as [|[|[|[|b]]]]; [injection Hf as <-; repeat (apply elem_of_cons in Ha as [->|Ha]; [done|]); by apply elem_of_nil in Ha..|done].
  - intros b x v Hb _ Hr Hl.
    assert (H : first v = false /\ (b = 0 \/ b <> 1 /\ v ∉ [1; 2]) /\ (b <= 2 \/ v ∉ [1; 2; 3])).
    { clear x Hb Hr. induction Hl as [H|a b x Hl IH Hx Hn (y & Hy & Hb & He)]; [split; [done|split; [by left|left; lia]]|]. destruct IH as (I1 & I2 & I3). split; [done|].
      destruct a as [|[|[|[|a]]]]; [injection Hx as <-; injection Hy as <-; cbn in He, Hb..|done].
      - subst b. split; [by right|left; lia].
      - destruct I2 as [|[? _]]; done.
      - destruct I2 as [|[_ I2]]; [done|]. split; [right; split; [lia|done]|]. right. cbn in Hn. set_solver.
      - lia. }
    destruct H as (I1 & I2 & I3). destruct Hr as (_ & pre & i & post & E & Hi & Hpre).
    destruct b as [|[|[|[|b]]]]; [injection Hb as <-; cbn in E..|done].
    + do 3 (destruct pre as [|j pre]; [injection E as <- ?; cbn in Hi; apply elem_of_list_In in Hi; cbn in Hi; destruct Hi as [|[]] || destruct Hi; subst; done|injection E as <- E]).
      by destruct pre.
    + destruct I2 as [|[? _]]; done.
    + destruct I2 as [|[_ I2]]; [done|]. rewrite !elem_of_cons, elem_of_nil in I2.
      destruct pre as [|j1 pre]; [injection E as <- _; cbn in Hi; rewrite ?elem_of_cons, ?elem_of_nil in Hi; naive_solver|injection E as <- E]. assert (v <> 3) by (intros ->; apply (Hpre _ (elem_of_list_here _ _)); done).
      do 4 (destruct pre as [|j2 pre]; [injection E as <- _; cbn in Hi; rewrite ?elem_of_cons, ?elem_of_nil in Hi; naive_solver|injection E as <- E]). by destruct pre.
    + destruct I3 as [|I3]; [lia|]. rewrite !elem_of_cons, elem_of_nil in I3.
      destruct pre as [|j1 pre]; [injection E as <- _; cbn in Hi; rewrite ?elem_of_cons, ?elem_of_nil in Hi; naive_solver|injection E as <- E]. by destruct pre.
  - intros a b x y p v _ _ _ Hy Hp. exfalso. destruct b as [|[|[|[|b]]]]; [injection Hy as <-; by apply elem_of_nil in Hp..|done].
Qed.
(** No jump was removed, and each block has at most two phis; the registers are numbered up to 8. *)
Example C117_example_kept : exists from bs1 bs2 bs3, Flow_model.detect_from_bbs (flow ends sample) = Some from /\ make_ssa ends no first 5 (clear from sample) = Some bs1 /\ numbered 9 bs1 /\
  propagated 0 (fun k => k =? 0) id fold_jump no first from 5 sample = Some bs2 /\ kept (clear from sample) bs2 /\
  remove_unused_vregs first (replicate 9 true) bs2 = Some bs3 /\ forall b x, bs3 !! b = Some x -> easy (phis x).
Proof.
  eexists _, _, _, _. split; [vm_compute; reflexivity|]. split; [vm_compute; reflexivity|]. split; [|split; [vm_compute; reflexivity|split; [|split; [vm_compute; reflexivity|]]]].
  - intros b x v Hb Hv. destruct b as [|[|[|[|b]]]]; [injection Hb as <-; vm_compute in Hv; repeat (apply elem_of_cons in Hv as [->|Hv]; [lia|]); by apply elem_of_nil in Hv..|done].
  - intros [|[|[|[|b]]]] x y Hx Hy; [injection Hx as <-; injection Hy as <-; done..|done].
  - intros [|[|[|[|b]]]] x Hx; [injection Hx as <-; left; cbn; lia..|done].
Qed.
