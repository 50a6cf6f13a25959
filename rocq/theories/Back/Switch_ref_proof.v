(** Switches the compiler gets wrong, and an example. *)
From stdpp Require Import base list numbers sorting sets.
From Verif Require Import Util.Wrap_model Front.Layout_model Front.Fold_model Front.Fold_spec Back.Ir_model Back.Ir_spec Back.Switch_model Back.Switch_spec.
From Coq Require Import ZArith Lia.
Open Scope Z_scope.

Definition lbl (t : fty) (c : Z) (b : nat) : label := (Some (t, c), b).
Definition tULong := Fty FX_LONG true.
Definition tLong := Fty FX_LONG false.
Definition tUChar := Fty FX_CHAR true.

(** Pairs in order. *)
Fixpoint in_order (l : list case) : bool :=
  match l with
  | [] => true
  | a :: l => forallb (fun b => match compare_cases a b with Ok d => d <=? 0 | _ => false end) l && in_order l
  end.
Lemma in_order_ok l : in_order l = true -> forall i j a b, (i < j)%nat -> l !! i = Some a -> l !! j = Some b -> exists d, compare_cases a b = Ok d /\ d <= 0.
Proof.
  induction l as [|x l IH]; intros H i j a b Hij Ha Hb; [done|]. cbn in H. apply andb_true_iff in H as [H1 H2].
  destruct i as [|i], j as [|j]; try lia; cbn in Ha, Hb.
  - injection Ha as ->. assert (Hin : b ∈ l) by (by eapply elem_of_list_lookup_2). apply elem_of_list_In in Hin.
    rewrite forallb_forall in H1. specialize (H1 b Hin). destruct (compare_cases a b) as [d| | |]; try done. exists d. split; [done|]. by apply Z.leb_le.
  - apply (IH H2 i j a b); [lia|done|done].
Qed.

(** [unsigned long]: 0, 5 and ULONG_MAX; the last is not found. *)
Definition ex_unsigned : list label := [lbl tyInt 0 1; lbl tyInt 5 2; lbl tULong (2 ^ 64 - 1) 3].
Lemma unsigned_wrong : exists labels cases sorted code s' regs,
  constraints true tULong labels /\ well_typed true labels /\ fitting true tULong labels /\ close true tULong labels /\
  blocks_below 10 labels /\
  parse_cases true tULong (stored <$> labels) [] = Ok cases /\ qsorted cases sorted /\
  gen_switch_cond true (Reg 0) cases sorted 4 (10%nat, 1%nat) = Ok (code, s') /\
  view 8 true (regs 0%nat) = 2 ^ 64 - 1 /\ target true tULong labels 4 (2 ^ 64 - 1) = 3%nat /\
  leaves_to 8 code regs 4.
Proof.
  exists ex_unsigned. do 2 eexists.
  exists [CJMP 0 0 10 1; LABEL 10; CJMP 0 0 15 12; LABEL 11; CJMP 0 (-1) 10 3; LABEL 13; JMP 4; LABEL 12;
          CJMP 0 5 10 2; LABEL 14; JMP 4; LABEL 15], (16%nat, 1%nat), (fun _ => -1).
  split. { split; [by apply (bool_decide_unpack _); vm_compute|]. vm_compute. lia. }
  split. { intros ct c b H. unfold ex_unsigned, lbl in H. set_unfold. destruct H as [H|[H|[H|[]]]]; injection H as -> -> ->; by apply (bool_decide_unpack _); vm_compute. }
  split. { intros [H|[H|H]]; done. }
  split. { intros a b Ha Hb. unfold ex_unsigned, constants in *. cbn in Ha, Hb. set_unfold.
    destruct Ha as [->|[->|[->|[]]]], Hb as [->|[->|[->|[]]]]; vm_compute; done. }
  split. { intros l b H. unfold ex_unsigned, lbl in H. set_unfold. destruct H as [H|[H|[H|[]]]]; injection H as -> ->; lia. }
  split; [vm_compute; reflexivity|].
  split. { split; [|apply in_order_ok; instantiate (1 := [Case (Some (-1)) 3; Case (Some 0) 1; Case (Some 5) 2]); done].
    apply (Permutation_app_comm [Case (Some 0) 1; Case (Some 5) 2] [Case (Some (-1)) 3]). }
  split; [vm_compute; reflexivity|]. split; [done|]. split; [done|]. exists 20%nat. vm_compute. done.
Qed.

(** [long]: sorting LONG_MIN and 1 overflows in the compiler. *)
Definition ex_far : list label := [lbl tyInt 1 1; lbl tLong (- 2 ^ 63) 2].
Lemma overflow_wrong : exists labels cases,
  constraints true tLong labels /\ well_typed true labels /\ fitting true tLong labels /\
  parse_cases true tLong (stored <$> labels) [] = Ok cases /\
  exists a b, a ∈ cases /\ b ∈ cases /\ compare_cases a b = Undefined.
Proof.
  exists ex_far. eexists.
  split. { split; [by apply (bool_decide_unpack _); vm_compute|]. vm_compute. lia. }
  split. { intros ct c b H. unfold ex_far, lbl in H. set_unfold. destruct H as [H|[H|[]]]; injection H as -> -> ->; by apply (bool_decide_unpack _); vm_compute. }
  split. { intros [H|[H|H]]; done. }
  split; [vm_compute; reflexivity|]. exists (Case (Some 1) 1), (Case (Some (- 2 ^ 63)) 2).
  split; [set_solver|]. split; [set_solver|]. done.
Qed.

(** [unsigned char]: the constant 256 never matches, but the compiler's code goes there for 0. *)
Definition ex_narrow : list label := [lbl tyInt 256 1; (None, 2%nat)].
Lemma narrow_wrong : exists labels cases sorted code s' regs,
  constraints true tUChar labels /\ well_typed true labels /\ blocks_below 10 labels /\
  parse_cases true tUChar (stored <$> labels) [] = Ok cases /\ qsorted cases sorted /\
  gen_switch_cond true (Reg 0) cases sorted 4 (10%nat, 1%nat) = Ok (code, s') /\
  view 1 true (regs 0%nat) = 0 /\ target true tUChar labels 4 0 = 2%nat /\
  leaves_to 1 code regs 1.
Proof.
  exists ex_narrow. do 2 eexists.
  exists [CJMP 0 0 10 1; LABEL 10; JMP 2; LABEL 11], (12%nat, 1%nat), (fun _ => 0).
  split. { split; [by apply (bool_decide_unpack _); vm_compute|]. vm_compute. lia. }
  split. { intros ct c b H. unfold ex_narrow, lbl in H. set_unfold. destruct H as [H|[H|[]]]; [|done]. injection H as -> -> ->; by apply (bool_decide_unpack _); vm_compute. }
  split. { intros l b H. unfold ex_narrow, lbl in H. set_unfold. destruct H as [H|[H|[]]]; injection H as -> ->; lia. }
  split; [vm_compute; reflexivity|].
  split. { split; [reflexivity|]. apply in_order_ok. done. }
  split; [vm_compute; reflexivity|]. split; [done|]. split; [by vm_compute|]. exists 20%nat. vm_compute. done.
Qed.

(** [unsigned]: the same constant twice. *)
Definition tUInt := Fty FX_INT true.
Definition ex_twice : list label := [lbl tUInt (2 ^ 32 - 1) 1; lbl tyInt (-1) 2].
Lemma twice_accepted : exists labels cases, ~ constraints true tUInt labels /\ well_typed true labels /\ fitting true tUInt labels /\
  parse_cases true tUInt (stored <$> labels) [] = Ok cases.
Proof.
  exists ex_twice. eexists.
  split. { intros [H _]. by apply (bool_decide_pack _) in H; vm_compute in H. }
  split. { intros ct c b H. unfold ex_twice, lbl in H. set_unfold. destruct H as [H|[H|[]]]; injection H as -> -> ->; by apply (bool_decide_unpack _); vm_compute. }
  split. { intros [H|[H|H]]; done. }
  vm_compute. reflexivity.
Qed.

(** [unsigned char]: 257 and 1 are different constants, but rejected. *)
Definition ex_rejected : list label := [lbl tyInt 257 1; lbl tyInt 1 2].
Lemma distinct_rejected : exists labels, constraints true tUChar labels /\ well_typed true labels /\
  parse_cases true tUChar (stored <$> labels) [] = Err.
Proof.
  exists ex_rejected.
  split. { split; [by apply (bool_decide_unpack _); vm_compute|]. vm_compute. lia. }
  split. { intros ct c b H. unfold ex_rejected, lbl in H. set_unfold. destruct H as [H|[H|[]]]; injection H as -> -> ->; by apply (bool_decide_unpack _); vm_compute. }
  vm_compute. reflexivity.
Qed.

(** A switch with a table, comparisons and a default. *)
Definition ex_labels : list label :=
  [lbl tyInt 22 1; lbl tyInt 20 2; (None, 3%nat); lbl tyInt 25 4; lbl tyInt 21 5; lbl tyInt 27 6; lbl tyInt 24 7; lbl tyInt 23 8; lbl tyInt (-500) 9; lbl tyInt 26 11].
Definition ex_sorted : list case :=
  [Case (Some (-500)) 9; Case (Some 20) 2; Case (Some 21) 5; Case (Some 22) 1; Case (Some 23) 8; Case (Some 24) 7; Case (Some 25) 4; Case (Some 26) 11; Case (Some 27) 6; Case None 3].
Definition ex_code : list ir := match gen_switch_cond false (Reg 0) ex_sorted ex_sorted 10 (20%nat, 1%nat) with Ok (c, _) => c | _ => [] end.
Definition ex_run (v : Z) : option nat := run 40 4 ex_code ex_code (fun _ => v).
