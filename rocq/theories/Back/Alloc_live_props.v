(** C101. *)
From stdpp Require Import base list numbers sorting.
From Verif Require Import Back.Flow_model Back.Flow_spec Back.Alloc_model Back.Alloc_spec Back.Alloc_top_proof Back.Alloc_live_proof.
Open Scope nat_scope.

(** No instruction overwrites a value that is needed after it.  What is missing: the value may
    be lost if the instruction is the first of its block, its own result is not used, and the
    value is assigned only further down in the code. *)
Theorem C101_result_partial : forall se vs bbs, settings_ok se vs ->
  forall prog, same_code prog bbs -> covers prog bbs -> known vs bbs ->
  forall ps iu fu b rb j i d v r, allocate se vs bbs = Some (ps, iu, fu) ->
  bbs !! b = Some rb -> reach prog b -> rirs rb !! j = Some i -> rdst i = Some d -> live_after prog b j v -> v <> d ->
  flo_of vs v = flo_of vs d ->
  live_after prog b j d \/ 0 < j \/ mentioned bbs b j v \/ is_param vs v ->
  ps !! d = Some (Reg r) -> ps !! v = Some (Reg r) -> False.
Proof. exact dst_ok. Qed.
Print Assumptions C101_result_partial.

(** Values needed after a call are not in registers the called function may overwrite, and those
    needed after any instruction are not in registers it uses for itself.  What is missing: the
    value may be lost if the instruction is the first of its block and the value is assigned
    only further down in the code. *)
Theorem C101_call_partial : forall se vs bbs, settings_ok se vs ->
  forall prog, same_code prog bbs -> covers prog bbs -> known vs bbs ->
  forall ps iu fu b rb j i v r, allocate se vs bbs = Some (ps, iu, fu) ->
  bbs !! b = Some rb -> reach prog b -> rirs rb !! j = Some i -> rdst i <> Some v -> live_after prog b j v ->
  0 < j \/ mentioned bbs b j v \/ is_param vs v ->
  ps !! v = Some (Reg r) ->
  (reff i = Call -> (if flo_of vs v then ftemporary se else temporary se) <= r) /\
  (flo_of vs v = false -> N.testbit (rextra i) (N.of_nat r) = false).
Proof. exact call_ok. Qed.
Print Assumptions C101_call_partial.

(** The analysis of flow notes all registers that are live at the starts and ends of blocks. *)
Theorem C101_flow : forall prog bbs from st, wf prog -> length bbs = length prog ->
  detect_from_bbs prog = Some from -> analyze_reg_flow prog from = Some st ->
  (forall b rb s, bbs !! b = Some rb -> st !! b = Some s -> rin rb = ins s /\ rout rb = outs s) -> covers prog bbs.
Proof. exact covers_flow. Qed.
Print Assumptions C101_flow.

(** Both fail otherwise. *)
Theorem C101_call_refuted : exists se vs bbs prog from st ps iu fu b rb i v r,
  settings_ok se vs /\ wf prog /\ same_code prog bbs /\ known vs bbs /\
  detect_from_bbs prog = Some from /\ analyze_reg_flow prog from = Some st /\
  (forall b rb s, bbs !! b = Some rb -> st !! b = Some s -> rin rb = ins s /\ rout rb = outs s) /\
  allocate se vs bbs = Some (ps, iu, fu) /\ bbs !! b = Some rb /\ reach prog b /\
  rirs rb !! 0 = Some i /\ reff i = Call /\ live_after prog b 0 v /\ rdst i <> Some v /\
  flo_of vs v = false /\ ps !! v = Some (Reg r) /\ r < temporary se.
Proof. exact call_first. Qed.
Print Assumptions C101_call_refuted.
Theorem C101_result_refuted : exists se vs bbs prog from st ps iu fu b rb i d v r,
  settings_ok se vs /\ wf prog /\ same_code prog bbs /\ known vs bbs /\
  detect_from_bbs prog = Some from /\ analyze_reg_flow prog from = Some st /\
  (forall b rb s, bbs !! b = Some rb -> st !! b = Some s -> rin rb = ins s /\ rout rb = outs s) /\
  allocate se vs bbs = Some (ps, iu, fu) /\ bbs !! b = Some rb /\ reach prog b /\
  rirs rb !! 0 = Some i /\ rdst i = Some d /\ live_after prog b 0 v /\ d <> v /\
  flo_of vs d = flo_of vs v /\ ps !! d = Some (Reg r) /\ ps !! v = Some (Reg r).
Proof. exact result_first. Qed.
Print Assumptions C101_result_refuted.
