(** C33. *)
From stdpp Require Import base list numbers sorting.
From Verif Require Import Back.Flow_model Back.Flow_spec Back.Alloc_model Back.Alloc_spec Back.Alloc_top_proof Back.Alloc_live_proof.
Open Scope Z_scope.

(** Two virtual registers of the same class get the same physical register only if the interval
    of one ends no later than the other's starts. *)
Theorem C33_disjoint : forall se vs bbs, settings_ok se vs ->
  forall ps iu fu u v r, allocate se vs bbs = Some (ps, iu, fu) -> u <> v -> flo_of vs u = flo_of vs v ->
  ps !! u = Some (Reg r) -> ps !! v = Some (Reg r) ->
  let iv := check_live_interval vs bbs in
  end_of iv u <= start_of iv v \/ end_of iv v <= start_of iv u.
Proof. exact disjoint_ok. Qed.
Print Assumptions C33_disjoint.

(** Intervals include all mentions of the register. *)
Theorem C33_interval : forall vs bbs, known vs bbs ->
  forall n i v, code bbs !! n = Some i -> rdst i = Some v \/ v ∈ roprs i ->
  (v < length vs)%nat /\ start_of (check_live_interval vs bbs) v <= Z.of_nat n <= end_of (check_live_interval vs bbs) v.
Proof. exact mention_interval. Qed.
Print Assumptions C33_interval.

(** A register whose interval has an instruction in it, other than as its start, is not in a
    physical register that the instruction uses for itself, not in one that holds an argument of
    a call to come, and, if the instruction is a call and not the end of the interval, not in
    one that the called function may overwrite. *)
Theorem C33_occupied : forall se vs bbs, settings_ok se vs ->
  forall ps iu fu v r n i, allocate se vs bbs = Some (ps, iu, fu) -> ps !! v = Some (Reg r) -> code bbs !! n = Some i ->
  start_of (check_live_interval vs bbs) v < Z.of_nat n <= end_of (check_live_interval vs bbs) v ->
  (flo_of vs v = false -> N.testbit (rextra i) (N.of_nat r) = false) /\
  ~ arg_taken se (code bbs) n (flo_of vs v) r /\
  (reff i = Call -> Z.of_nat n < end_of (check_live_interval vs bbs) v ->
   ((if flo_of vs v then ftemporary se else temporary se) <= r)%nat).
Proof. exact occupied_ok. Qed.
Print Assumptions C33_occupied.

(** Between passing an argument in a register and the call, no instruction has this register as
    its destination. *)
Theorem C33_arguments : forall se vs bbs, settings_ok se vs -> known vs bbs ->
  forall ps iu fu n i i' d r, allocate se vs bbs = Some (ps, iu, fu) ->
  code bbs !! n = Some i -> code bbs !! S n = Some i' -> reff i <> Call -> rdst i = Some d ->
  arg_taken se (code bbs) n (flo_of vs d) r -> ps !! d <> Some (Reg r).
Proof. exact arg_ok. Qed.
Print Assumptions C33_arguments.

(** Physical registers are those that exist, and are noted as used by the function. *)
Theorem C33_used : forall se vs bbs, settings_ok se vs ->
  forall ps iu fu v r, allocate se vs bbs = Some (ps, iu, fu) -> ps !! v = Some (Reg r) ->
  N.testbit (if flo_of vs v then fu else iu) (N.of_nat r) = true /\
  (r < if flo_of vs v then fphys_max se else phys_max se)%nat.
Proof. intros se vs bbs Hs ps iu fu v r E Hv. exact (proj2 (proj2 (reg_ok se vs bbs Hs ps iu fu v r E Hv))). Qed.
Print Assumptions C33_used.

(** The allocation does not fail if some register is free of special uses; all registers that
    exist get a place. *)
Theorem C33_total : forall se vs bbs, settings_ok se vs -> free_int se bbs -> free_flo se bbs ->
  exists ps iu fu, allocate se vs bbs = Some (ps, iu, fu) /\ length ps = length vs /\
  forall v i, vs !! v = Some i -> present i = true -> ps !! v <> Some NotYet.
Proof. exact total_ok. Qed.
Print Assumptions C33_total.

(** f(a, b) { c = a * b; d = g(c); return d + a; } *)
Definition f_vs : list vinfo :=
  [V true false true (Some 0%nat) false; V true false true (Some 1%nat) false;
   V true false false None false; V true false false None false; V true false false None false].
Definition f_code : list rbb :=
  [RBB [RIr [0; 1]%nat (Some 2%nat) Plain 9; RIr [2]%nat None (Pusharg false 0) 0; RIr [] (Some 3%nat) Call 0;
        RIr [3; 0]%nat (Some 4%nat) Plain 0; RIr [4]%nat None Plain 0] [0; 1]%nat []].
Example f_alloc : settings_ok x64 f_vs /\ known f_vs f_code /\ free_int x64 f_code /\ free_flo x64 f_code /\
  allocate x64 f_vs f_code = Some ([Reg 7; Reg 2; Reg 0; Reg 0; Reg 0], 133%N, 0%N).
Proof.
  split; [by apply settings_b_ok|]. split; [by apply known_b_ok|]. split; [|split; [|by vm_compute]].
  - exists 10%nat. split; [cbn; lia|]. split; [|intros idx; cbn; case_match; [|done]; intros [= E]; apply Nat.leb_le in H; lia].
    intros i Hi. cbn in Hi. repeat (apply elem_of_cons in Hi as [->|Hi]; [done|]). by apply elem_of_nil in Hi.
  - exists 10%nat. split; [cbn; lia|]. intros i idx Hi. cbn in Hi. repeat (apply elem_of_cons in Hi as [->|Hi]; [done|]). by apply elem_of_nil in Hi.
Qed.
