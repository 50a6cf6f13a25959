(** C109. *)
From stdpp Require Import base list numbers.
From Verif Require Import Back.Ir_spec Back.Blocks_model Back.Blocks_spec Back.Blocks_main_proof.
Open Scope Z_scope.

(** Removing blocks ends, and leaves a function that executes the same instructions on the same
    states, in the same order, and ends if and only if the first does, on every machine. *)
Theorem C109_same : forall (I R : Type) (bs : list (bb I R)), NoDup (label <$> bs) -> conds_ok bs ->
  exists bs', remove_unnecessary_bb bs = Some bs' /\ NoDup (label <$> bs') /\ (length bs' <= length bs)%nat /\
  forall (S : Type) (M : machine I R S), same M bs bs'.
Proof. exact remove_same. Qed.
Print Assumptions C109_same.

(** while (a < b) { if (c) continue; g(); } return: the test at 1, the body at 3 with the
    continue at 4, an empty block 5, g() at 6, and an unreachable block 8. *)
Definition sample : list (bb nat nat) :=
  [BB 0 [10%nat] (EJmp 1 0%nat 1%nat);
   BB 1 [11%nat] (EJmp (cond_code CLt false false) 1%nat 3%nat);
   BB 2 [] (EJmp 1 0%nat 9%nat);
   BB 3 [12%nat] (EJmp (cond_code CEq false false) 2%nat 5%nat);
   BB 4 [] (EJmp 1 0%nat 7%nat);
   BB 5 [] EFall;
   BB 6 [13%nat] EFall;
   BB 7 [] (EJmp 1 0%nat 1%nat);
   BB 8 [14%nat] (EJmp 1 0%nat 9%nat);
   BB 9 [15%nat] EFall].
Example C109_example : NoDup (label <$> sample) /\ conds_ok sample /\
  remove_unnecessary_bb sample = Some
    [BB 0 [10%nat] EFall;
     BB 1 [11%nat] (EJmp (cond_code CGe false false) 1%nat 9%nat);
     BB 3 [12%nat] (EJmp (cond_code CNe false false) 2%nat 1%nat);
     BB 6 [13%nat] EFall;
     BB 7 [] (EJmp 1 0%nat 1%nat);
     BB 9 [15%nat] EFall].
Proof.
  split; [|split; [|by vm_compute]].
  - match goal with |- ?P => refine (bool_decide_eq_true_1 P _) end. by vm_compute.
  - intros b c o d Hb E. unfold sample in Hb. repeat (apply elem_of_cons in Hb as [->|Hb]; [cbn in E; try done; injection E as <- _ _; try (by left); right; by eexists _, _, _|]). by apply elem_of_nil in Hb.
Qed.
