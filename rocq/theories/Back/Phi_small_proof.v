From stdpp Require Import base list numbers sets.
From Verif Require Import Back.Phi_model Back.Phi_spec Back.Phi_proof.

(** Decide every comparison the evaluation gets stuck on. *)
Ltac step :=
  match goal with
  | |- context [Nat.eqb ?a ?b] =>
    match a with context [Nat.eqb] => fail 1 | _ => idtac end;
    first [ constr_eq a b; rewrite (Nat.eqb_refl a)
          | match goal with H : a <> b |- _ => rewrite (proj2 (Nat.eqb_neq a b) H) end
          | match goal with H : b <> a |- _ => rewrite (proj2 (Nat.eqb_neq a b) (not_eq_sym H)) end
          | destruct (Nat.eqb_spec a b) as [?|?]; [subst; try congruence; try lia|] ]
  end.
Ltac evals := repeat (cbn -[Nat.eqb]; step); cbn -[Nat.eqb].

Lemma three d0 s0 d1 s1 d2 s2 tmp : d0 <> d1 -> d0 <> d2 -> d1 <> d2 ->
  d0 < tmp -> d1 < tmp -> d2 < tmp -> s0 < tmp -> s1 < tmp -> s2 < tmp ->
  exists moves, replace_phis tmp [Phi d0 s0; Phi d1 s1; Phi d2 s2] = Some moves /\
    forall regs, run moves regs d0 = regs s0 /\ run moves regs d1 = regs s1 /\ run moves regs d2 = regs s2.
Proof.
  intros H01 H02 H12 L0 L1 L2 L3 L4 L5. unfold replace_phis, extract_cyclic_dependency.
  assert (tmp <> d0) by lia. assert (tmp <> d1) by lia. assert (tmp <> d2) by lia.
  assert (tmp <> s0) by lia. assert (tmp <> s1) by lia. assert (tmp <> s2) by lia.
  clear L0 L1 L2 L3 L4 L5.
  evals.
  all: eexists; (split; [reflexivity|]); intros regs; cbn [run app fmap list_fmap mv dst src]; unfold upd.
  all: evals; repeat split; done.
Qed.
Lemma two d0 s0 d1 s1 tmp : d0 <> d1 ->
  d0 < tmp -> d1 < tmp -> s0 < tmp -> s1 < tmp ->
  exists moves : list (nat * nat), replace_phis tmp (Phi d0 s0 :: [Phi d1 s1]) = Some moves /\
    forall regs, run moves regs d0 = regs s0 /\ run moves regs d1 = regs s1.
Proof.
  intros H01 L0 L1 L3 L4. unfold replace_phis, extract_cyclic_dependency.
  assert (tmp <> d0) by lia. assert (tmp <> d1) by lia.
  assert (tmp <> s0) by lia. assert (tmp <> s1) by lia.
  clear L0 L1 L3 L4.
  evals.
  all: eexists; (split; [reflexivity|]); intros regs; cbn [run app fmap list_fmap mv dst src]; unfold upd.
  all: evals; repeat split; done.
Qed.

Lemma at_most_three tmp ps : wf ps tmp -> length ps <= 3 ->
  exists moves, replace_phis tmp ps = Some moves /\ parallel ps moves.
Proof.
  intros [Hnd Hw] Hl.
  destruct ps as [|[d0 s0] [|[d1 s1] [|[d2 s2] [|]]]]; cbn in Hl; try lia.
  - exists []. split; [done|]. intros regs p Hp. by apply elem_of_nil in Hp.
  - exists [(d0, s0)]. split; [done|]. intros regs p Hp. apply elem_of_list_singleton in Hp as ->. cbn. unfold upd. by rewrite Nat.eqb_refl.
  - cbn in Hnd. apply NoDup_cons in Hnd as [H1 _].
    destruct (Hw (Phi d0 s0)) as [? ?]; [set_solver|]. destruct (Hw (Phi d1 s1)) as [? ?]; [set_solver|]. cbn in *.
    destruct (two d0 s0 d1 s1 tmp) as (moves & E & H'); [set_solver|done..|]. exists moves. split; [done|].
    intros regs p Hp. destruct (H' regs) as [? ?]. apply elem_of_cons in Hp as [-> |Hp]; [done|]. by apply elem_of_list_singleton in Hp as ->.
  - cbn in Hnd. apply NoDup_cons in Hnd as [H1 Hnd]. apply NoDup_cons in Hnd as [H2 _].
    destruct (Hw (Phi d0 s0)) as [? ?]; [set_solver|]. destruct (Hw (Phi d1 s1)) as [? ?]; [set_solver|].
    destruct (Hw (Phi d2 s2)) as [? ?]; [set_solver|]. cbn in *.
    destruct (three d0 s0 d1 s1 d2 s2 tmp) as (moves & E & H'); [set_solver..|done|done|done|done|done|done|]. exists moves. split; [done|].
    intros regs p Hp. destruct (H' regs) as (? & ? & ?).
    apply elem_of_cons in Hp as [-> |Hp]; [done|]. apply elem_of_cons in Hp as [-> |Hp]; [done|]. by apply elem_of_list_singleton in Hp as ->.
Qed.

(** More than three. *)
Lemma two_swaps : exists ps tmp moves, wf ps tmp /\ replace_phis tmp ps = Some moves /\ ~ parallel ps moves.
Proof.
  exists [Phi 0 1; Phi 1 0; Phi 2 3; Phi 3 2], 4, [(2, 3); (3, 2); (4, 0); (0, 1); (1, 4)].
  split; [|split; [by vm_compute|]].
  - split; [by apply (bool_decide_unpack _); vm_compute|]. intros p Hp.
    repeat (apply elem_of_cons in Hp as [-> |Hp]; [cbn; lia|]). by apply elem_of_nil in Hp.
  - intros H. specialize (H (fun r => Z.of_nat r) (Phi 3 2) ltac:(set_solver)). by vm_compute in H.
Qed.
Lemma crashes : exists ps tmp, wf ps tmp /\ replace_phis tmp ps = None.
Proof.
  exists [Phi 0 1; Phi 1 4; Phi 2 1; Phi 3 0], 5. split; [|by vm_compute].
  split; [by apply (bool_decide_unpack _); vm_compute|]. intros p Hp.
  repeat (apply elem_of_cons in Hp as [-> |Hp]; [cbn; lia|]). by apply elem_of_nil in Hp.
Qed.
