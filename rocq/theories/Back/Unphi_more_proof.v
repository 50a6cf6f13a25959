(** Phis that are resolved correctly; predecessors that are out of date. *)
From stdpp Require Import base list numbers gmap.
From Verif Require Import Back.Unused_model Back.Unused_spec Back.Unphi_model Back.Unphi_spec Back.Unphi_moves_proof Back.Unphi_proof.
From Verif Require Back.Phi_model Back.Phi_spec Back.Phi_proof Back.Phi_small_proof Back.Phi_long_proof Back.Flow_model Back.Flow_spec Back.Ssa_model Back.Ssa_spec Back.Cprop_model Back.Cprop_spec.
Local Open Scope nat_scope.

Lemma easy_resolvable nv (ps : list phi) : NoDup (pdst <$> ps) -> (forall p, p ∈ ps -> pdst p < nv /\ forall v, inr v ∈ params p -> v < nv) -> easy ps -> resolvable nv ps.
Proof.
  intros Hn Hb He tmp k ps' cs Ht Hp Hc. assert (Hn' : NoDup (pdst <$> ps')) by (by rewrite Hp). assert (Hd : NoDup (Phi_model.dst <$> cs)) by (by rewrite (dsts_coded tmp k ps' cs Hc)).
  destruct He as [He|He].
  - apply Phi_small_proof.at_most_three.
    + split; [done|]. intros c Hin. apply elem_of_list_lookup in Hin as [i Hi]. destruct (coded_inv tmp k ps' cs Hc i c Hi) as (p & o & Hpi & Ho & ->). cbn.
      destruct (Hb p) as [H1 H2]; [rewrite <- Hp; by eapply elem_of_list_lookup_2|]. apply lookup_lt_Some in Hpi. split; [lia|]. destruct o as [z|v]; [lia|]. assert (v < nv) by (apply H2; by eapply elem_of_list_lookup_2). lia.
    + apply Permutation_length in Hp. assert (length cs = length ps') as ->; [|lia].
      rewrite <- (fmap_length Phi_model.dst cs), (dsts_coded tmp k ps' cs Hc). apply fmap_length.
  - apply Phi_long_proof.ordered_ok; [done|]. intros i j c d Hi Hj Hlt. destruct (coded_inv tmp k ps' cs Hc i c Hi) as (p & o & Hpi & Ho & ->). destruct (coded_inv tmp k ps' cs Hc j d Hj) as (q & o' & Hqj & _ & ->). cbn.
    assert (Hpin : p ∈ ps) by (rewrite <- Hp; by eapply elem_of_list_lookup_2). assert (Hqin : q ∈ ps) by (rewrite <- Hp; by eapply elem_of_list_lookup_2).
    destruct o as [z|v]; [destruct (Hb q Hqin); lia|]. intros E. assert (p = q) as -> by (apply He; [done|done|]; rewrite E; by eapply elem_of_list_lookup_2).
    assert (i = j); [|lia]. eapply NoDup_lookup; [exact Hn'| |]; rewrite list_lookup_fmap; [rewrite Hpi|rewrite Hqj]; done.
Qed.
Lemma easy_all {K C} (bs : list (blk K (jmp C))) nv : phis_regs bs nv -> (forall b x, bs !! b = Some x -> easy (phis x)) -> forall b x, bs !! b = Some x -> resolvable nv (phis x).
Proof. intros (H1 & H2 & _) He b x Hx. apply easy_resolvable; [by eapply H1|by intros; eapply H2|by eapply He]. Qed.

Section Easy.
  Context {K C W : Type} (M : machine K (jmp C) W) (pinned : nat -> bool) (inv : C -> C) (mov : K).
  Hypothesis HL : labels_free M inv.
  Hypothesis Hmov : moves_as_said M mov.
  Lemma easy_total has nv bs from : prepared pinned has nv bs from -> (forall b x, bs !! b = Some x -> easy (phis x)) -> is_Some (resolve_phis mov inv has from nv bs).
  Proof using All. intros P He. eapply resolve_total; [done|done|exact P|]. eapply easy_all; [apply P|done]. Qed.
  Lemma easy_gone has nv bs from f : prepared pinned has nv bs from -> (forall b x, bs !! b = Some x -> easy (phis x)) -> resolve_phis mov inv has from nv bs = Some f ->
    NoDup (fst <$> body f) /\ (fst <$> body f) !! 0 = Some 0 /\ forall i l x, body f !! i = Some (l, x) -> phis x = [].
  Proof using All. intros P He. eapply resolve_gone; [done|done|exact P|]. eapply easy_all; [apply P|done]. Qed.
  Lemma easy_same has nv bs from f index : prepared pinned has nv bs from -> (forall b x, bs !! b = Some x -> easy (phis x)) -> (forall a b f, from !! b = Some f -> a ∈ f -> f !! index a b = Some a) ->
    resolve_phis mov inv has from nv bs = Some f -> forall n a s, exists m, n <= m /\ ltrace M pinned m (body f) (fst <$> head (body f)) s = trace M pinned index n bs a 0 s.
  Proof using All. intros P He Hi Hf. eapply resolve_same; [done|done|exact P| |done|done]. eapply easy_all; [apply P|done]. Qed.
  Lemma easy_whole has nv bs from index : prepared pinned has nv bs from -> (forall b x, bs !! b = Some x -> easy (phis x)) -> (forall a b f, from !! b = Some f -> a ∈ f -> f !! index a b = Some a) ->
    exists f, resolve_phis mov inv has from nv bs = Some f /\ (forall i l x, body f !! i = Some (l, x) -> phis x = []) /\
    forall n a s, exists m, n <= m /\ ltrace M pinned m (body f) (fst <$> head (body f)) s = trace M pinned index n bs a 0 s.
  Proof using All.
    intros P He Hi. destruct (easy_total has nv bs from P He) as [f Hf]. exists f. split; [done|]. split; [by apply (easy_gone has nv bs from f P He Hf)|by apply (easy_same has nv bs from f index P He Hi Hf)].
  Qed.
End Easy.

(** A machine: operation 0 copies, 1 adds, 3 prints; a condition is whether the operand is not 0. *)
Definition calc (k : nat) (l : list Z) : Z :=
  match k, l with 0, [x] => x | 1, [x; y] => (x + y)%Z | _, _ => 0%Z end.
Definition cond_holds (c : bool) (l : list Z) : bool := Bool.eqb c (match l with [x] => negb (x =? 0)%Z | _ => false end).
Definition toy : machine nat (jmp bool) (list Z) := {|
  act := fun k l w => (calc k l, if k =? 3 then w ++ l else w); seen := fun k => k =? 3;
  silent := fun k l w H => match k =? 3 as b return (b = false -> (if b then w ++ l else w) = w) with true => fun H => match diff_true_false H with end | false => fun _ => eq_refl end H;
  target := fun j l w => match j with Goto t => Some t | Cond c t => if cond_holds c l then Some t else None | Multi ts => head ts end;
  peek := fun w v => 0%Z; poke := fun w v x => w |}.
Lemma toy_labels : labels_free toy negb.
Proof.
  split; [done|]. split.
  - exists (fun c l _ => cond_holds c l). split; [done|]. intros c l w. unfold cond_holds. destruct c; [by destruct (match l with [x] => negb (x =? 0)%Z | _ => false end)..].
  - split; [|done]. exists (fun _ _ _ => 0). intros ts l w Ht. destruct ts as [|t ts]; [done|]. split; [cbn; lia|done].
Qed.
Lemma toy_moves : moves_as_said toy 0. Proof. done. Qed.
Lemma toy_jumps : Ssa_spec.jumps_as_said ends toy.
Proof.
  intros [t|c t|[|t ts]] l w; cbn; [done|destruct (cond_holds c l); [by left|by right]|done|]. exists t. split; [by left|done].
Qed.
Definition no : nat -> bool := fun _ => false.
Definition first : nat -> bool := fun v => v =? 0.
(** A jump on a constant that is 0 is left out. *)
Definition fold_jump (j : jmp bool) (l : list (Z + nat)) : option (jmp bool * list (Z + nat)) :=
  match j, l with Cond true _, [inl 0%Z] => None | _, _ => Some (j, l) end.
(** int f(int p) { int x = p, y, c = 0; do { y = x; x = x + 1; } while (c); return y; } *)
Definition once : list (blk nat (jmp bool)) :=
  [Blk [] [Ins 0 false (Some 1) [inr 0]; Ins 0 false (Some 3) [inl 0%Z]] None;
   Blk [] [Ins 0 false (Some 2) [inr 1]; Ins 1 false (Some 1) [inr 1; inl 1%Z]] (Some (Cond true 1, [inr 3]));
   Blk [] [Ins 3 true None [inr 2]] None].
(** A block that is its own predecessor is the second one. *)
Definition second (a b : nat) : nat := if a =? b then 1 else 0.
Lemma once_plain : Ssa_spec.plain ends 4 once /\ Ssa_spec.unreached_empty ends once.
Proof.
  split.
  - split.
    + intros b x Hb. do 3 (destruct b as [|b]; [by injection Hb as <-|]). done.
    + intros b x v Hb Hv. do 3 (destruct b as [|b]; [injection Hb as <-; vm_compute in Hv; repeat (apply elem_of_cons in Hv as [->|Hv]; [lia|]); by apply elem_of_nil in Hv|]). done.
    + intros b x Hb. do 3 (destruct b as [|b]; [injection Hb as <-; cbn; (exact I || lia)|]). done.
    + intros a (x & Ha & _ & H). do 3 (destruct a as [|a]; [injection Ha as <-; cbn in H; lia|]). done.
  - intros b x Hb Hn. exfalso. apply Hn. clear Hn.
    assert (H0 : Ssa_spec.reach ends once 0) by (constructor; cbn; lia).
    assert (H1 : Ssa_spec.reach ends once 1) by (apply Flow_spec.reach_step with 0; [done|]; eexists; split; [done|]; split; [cbn; lia|done]).
    assert (H2 : Ssa_spec.reach ends once 2) by (apply Flow_spec.reach_step with 1; [done|]; eexists; split; [done|]; split; [cbn; lia|by right]).
    do 3 (destruct b as [|b]; [done|]). done.
Qed.
Lemma once_index : Ssa_spec.index_ok ends once second.
Proof.
  eexists. split; [vm_compute; reflexivity|]. intros a b f Hf Ha.
  do 3 (destruct b as [|b]; [injection Hf as <-; repeat (apply elem_of_cons in Ha as [->|Ha]; [done|]); by apply elem_of_nil in Ha|]). done.
Qed.
Lemma once_initialised : Ssa_spec.initialised ends no first second once.
Proof.
  split; [|intros a b x y p v _ _ _ Hy Hp; exfalso; do 3 (destruct b as [|b]; [injection Hy as <-; by apply elem_of_nil in Hp|]); done].
  intros b x v Hb _ Hr Hl.
  assert (H : first v = false /\ (b = 0 \/ v ∉ [1; 3]) /\ (b <= 1 \/ v ∉ [1; 2])).
  { clear x Hb Hr. induction Hl as [H|a b x Hl IH Hx Hn (y & Hy & Hb & He)]; [split; [done|split; [by left|left; lia]]|]. destruct IH as (I1 & I2 & I3). split; [done|].
    destruct a as [|[|[|a]]]; [injection Hx as <-; injection Hy as <-; cbn in He, Hb..|done].
    - subst b. split; [by right|left; lia].
    - split; [right; destruct I2; done|]. right. cbn in Hn. rewrite !elem_of_cons, elem_of_nil in Hn |- *. naive_solver.
    - lia. }
  destruct H as (I1 & I2 & I3). destruct Hr as (_ & pre & i & post & E & Hi & Hpre).
  destruct b as [|[|[|b]]]; [injection Hb as <-; cbn in E..|done].
  - do 2 (destruct pre as [|j pre]; [injection E as <- ?; cbn in Hi; apply elem_of_list_In in Hi; cbn in Hi; destruct Hi as [|[]] || destruct Hi; subst; done|injection E as <- E]).
    by destruct pre.
  - destruct I2 as [|I2]; [done|]. rewrite !elem_of_cons, elem_of_nil in I2.
    do 3 (destruct pre as [|j1 pre]; [injection E as <- _; cbn in Hi; rewrite ?elem_of_cons, ?elem_of_nil in Hi; naive_solver|injection E as <- E]). by destruct pre.
  - destruct I3 as [|I3]; [lia|]. rewrite !elem_of_cons, elem_of_nil in I3.
    destruct pre as [|j1 pre]; [injection E as <- _; cbn in Hi; rewrite ?elem_of_cons, ?elem_of_nil in Hi; naive_solver|injection E as <- E]. by destruct pre.
Qed.
Lemma fold_toy : Cprop_spec.folds_exit ends toy no fold_jump.
Proof.
  intros j l. cbv zeta. assert (G : fold_jump j l = Some (j, l) \/ exists t, j = Cond true t /\ l = [inl 0%Z] /\ fold_jump j l = None).
  { unfold fold_jump. destruct j as [t|[] t|ts]; [by left| |by left|by left]. destruct l as [|[[|z|z]|v] [|o l]]; try by left. right. by exists t. }
  destruct G as [->|(t & -> & -> & ->)].
  - split; [done|]. split; [by intros v j' l' [= <- <-]|by left].
  - split; [done|]. split; [done|]. right. exists t. split; [done|by left].
Qed.
Lemma stale_wrong : exists (bs : list (blk nat (jmp bool))) from bs1 bs2 bs3 f, Ssa_spec.plain ends 4 bs /\ Ssa_spec.unreached_empty ends bs /\ Ssa_spec.index_ok ends bs second /\ Ssa_spec.initialised ends no first second bs /\
  Flow_model.detect_from_bbs (Ssa_spec.flow ends bs) = Some from /\ Ssa_model.make_ssa ends no first 4 bs = Some bs1 /\
  Cprop_model.copy_propagation 0 (fun k => k =? 0) id fold_jump no from bs1 = Some bs2 /\ remove_unused_vregs no (replicate 10 true) bs2 = Some bs3 /\
  resolve_phis 0 negb (fun b => b =? 1) from 10 bs3 = Some f /\
  exists n s, forall m, n <= m -> ltrace toy no m (body f) (fst <$> head (body f)) s <> trace toy no second n bs 0 0 s.
Proof.
  exists once. do 5 eexists. split; [apply once_plain|]. split; [apply once_plain|]. split; [exact once_index|]. split; [exact once_initialised|].
  split; [vm_compute; reflexivity|]. split; [vm_compute; reflexivity|]. split; [vm_compute; reflexivity|]. split; [vm_compute; reflexivity|]. split; [vm_compute; reflexivity|].
  exists 4, (fun _ => 5%Z, []). intros m Hm. do 4 (destruct m as [|m]; [lia|]). vm_compute. discriminate.
Qed.
