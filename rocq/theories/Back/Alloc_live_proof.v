From stdpp Require Import base list numbers sorting.
From Coq Require Import Lia.
From Verif Require Import Back.Flow_model Back.Flow_spec Back.Alloc_model Back.Alloc_spec.
Open Scope nat_scope.

(** Decision procedures for concrete programs. *)
Definition known_b (vs : list vinfo) (bbs : list rbb) : bool :=
  forallb (fun b => forallb (fun v => v <? length vs) (rin b ++ rout b) &&
                    forallb (fun i => forallb (fun v => v <? length vs) (regs_of i)) (rirs b)) bbs.
Lemma known_b_ok vs bbs : known_b vs bbs = true -> known vs bbs.
Proof.
  intros H b Hb. unfold known_b in H. rewrite forallb_forall in H. specialize (H b ltac:(by apply elem_of_list_In)).
  apply andb_true_iff in H as [H1 H2]. rewrite forallb_forall in H1. rewrite forallb_forall in H2. split.
  - intros v Hv. apply Nat.ltb_lt, H1, elem_of_list_In, elem_of_app. tauto.
  - intros i v Hi Hv. specialize (H2 i ltac:(by apply elem_of_list_In)). rewrite forallb_forall in H2. apply Nat.ltb_lt, H2, elem_of_list_In.
    unfold regs_of. destruct Hv as [->|Hv]; [by left|apply elem_of_app; by right].
Qed.
Definition settings_b (se : settings) (vs : list vinfo) : bool :=
  (temporary se <=? phys_max se) && (ftemporary se <=? fphys_max se) &&
  forallb (fun i => match pindex i with Some ip => match arg_reg se (flo i) ip with Some r => r <? (if flo i then fphys_max se else phys_max se) | None => true end | None => true end) vs.
Lemma settings_b_ok se vs : settings_b se vs = true -> settings_ok se vs.
Proof.
  intros H. apply andb_true_iff in H as [H H3]. apply andb_true_iff in H as [H1 H2]. apply Nat.leb_le in H1. apply Nat.leb_le in H2.
  split; [done|]. split; [done|]. intros v i ip r Hv Hp Hr. rewrite forallb_forall in H3. specialize (H3 i ltac:(apply elem_of_list_In; by apply elem_of_list_lookup_2 in Hv)).
  rewrite Hp, Hr in H3. by apply Nat.ltb_lt.
Qed.
Definition wf_b (bbs : list bb) : bool :=
  forallb (fun x => match last x with Falls => true | Jump t | CJump t => t <? length bbs | Table ts => forallb (fun t => t <? length bbs) ts end) bbs.
Lemma wf_b_ok bbs : wf_b bbs = true -> wf bbs.
Proof.
  intros H a x Hx. unfold wf_b in H. rewrite forallb_forall in H. specialize (H x ltac:(apply elem_of_list_In; by apply elem_of_list_lookup_2 in Hx)).
  destruct (last x); [done|by apply Nat.ltb_lt..|]. rewrite forallb_forall in H. intros t Ht. by apply Nat.ltb_lt, H, elem_of_list_In.
Qed.

(** The settings for x86-64 (arch_config.h:8-11, ir_x64.c:37). *)
Definition x64 : settings := Settings (fun n => if n <? 6 then Some (S n) else None) 15 7 16 8.
Definition ri (o : list nat) (d : option nat) : rir := RIr o d Plain 0%N.
Definition info (p : bool) (k : option nat) : vinfo := V true false p k false.
Definition plain_bb (b : rbb) (e : ending) : bb := BB (plain <$> rirs b) e.

(** n = 0; while ((c = *p++) != 0) [ g(); n += c; ] return n;
    p: 0, n: 1, c: 2. *)
Definition loop_vs : list vinfo := info true (Some 0) :: replicate 5 (info false None).
Definition loop_body : rbb := RBB [RIr [] None Call 0%N; ri [1; 2] (Some 5); ri [5] (Some 1)] [0; 1; 2] [0; 1].
Definition loop_bbs : list rbb :=
  [RBB [ri [] (Some 1); ri [] None] [0] [0; 1]; loop_body;
   RBB [ri [0] (Some 3); ri [0] (Some 0); ri [3] (Some 4); ri [4] (Some 2); ri [2] None] [0; 1] [0; 1; 2];
   RBB [ri [1] None] [1] []].
Definition loop_prog : list bb := zip_with plain_bb loop_bbs [Jump 2; Falls; CJump 1; Falls].

(** goto L2; L1: d = 5; return v; L2: v = ..; goto L1; with d: 0, v: 1. *)
Definition back_body : rbb := RBB [ri [] (Some 0); ri [1] None] [1] [].
Definition back_bbs : list rbb :=
  [RBB [ri [] (Some 0); ri [0] None; ri [] None] [] []; back_body; RBB [ri [] (Some 1); ri [] None] [] [1]; RBB [] [] []].
Definition back_prog : list bb := zip_with plain_bb back_bbs [Jump 2; Jump 3; Jump 1; Falls].

Lemma call_first : exists se vs bbs prog from st ps iu fu b rb i v r,
  settings_ok se vs /\ wf prog /\ same_code prog bbs /\ known vs bbs /\
  detect_from_bbs prog = Some from /\ analyze_reg_flow prog from = Some st /\
  (forall b rb s, bbs !! b = Some rb -> st !! b = Some s -> rin rb = ins s /\ rout rb = outs s) /\
  allocate se vs bbs = Some (ps, iu, fu) /\ bbs !! b = Some rb /\ reach prog b /\
  rirs rb !! 0 = Some i /\ reff i = Call /\ live_after prog b 0 v /\ rdst i <> Some v /\
  flo_of vs v = false /\ ps !! v = Some (Reg r) /\ r < temporary se.
Proof.
  exists x64, loop_vs, loop_bbs, loop_prog, [[]; [2]; [0; 1]; [2]].
  eexists _, _, _, _, 1, loop_body, (RIr [] None Call 0%N), 2, 0.
  split; [by apply settings_b_ok|]. split; [by apply wf_b_ok|]. split; [repeat constructor|]. split; [by apply known_b_ok|].
  split; [vm_compute; reflexivity|]. split; [vm_compute; reflexivity|].
  split; [intros b rb s Hb Hs; do 4 (destruct b as [|b]; [injection Hb as <-; injection Hs as <-; done|]); done|].
  split; [vm_compute; reflexivity|]. split; [done|].
  split.
  - apply (reach_step _ 2); [apply (reach_step _ 0)|].
    + apply reach_0. cbn. lia.
    + eexists. split; [done|]. split; [cbn; lia|done].
    + eexists. split; [done|]. split; [cbn; lia|]. by left.
  - split; [done|]. split; [done|]. split.
    + eexists. split; [done|]. left. exists [], (Ir [1; 2] (Some 5)). eexists. split; [done|]. split; [by right; left|]. intros j Hj. by apply elem_of_nil in Hj.
    + split; [done|]. split; [done|]. split; [done|]. cbn. lia.
Qed.
Lemma result_first : exists se vs bbs prog from st ps iu fu b rb i d v r,
  settings_ok se vs /\ wf prog /\ same_code prog bbs /\ known vs bbs /\
  detect_from_bbs prog = Some from /\ analyze_reg_flow prog from = Some st /\
  (forall b rb s, bbs !! b = Some rb -> st !! b = Some s -> rin rb = ins s /\ rout rb = outs s) /\
  allocate se vs bbs = Some (ps, iu, fu) /\ bbs !! b = Some rb /\ reach prog b /\
  rirs rb !! 0 = Some i /\ rdst i = Some d /\ live_after prog b 0 v /\ d <> v /\
  flo_of vs d = flo_of vs v /\ ps !! d = Some (Reg r) /\ ps !! v = Some (Reg r).
Proof.
  exists x64, (replicate 2 (info false None)), back_bbs, back_prog, [[]; [2]; [0]; [1]].
  eexists _, _, _, _, 1, back_body, (ri [] (Some 0)), 0, 1, 0.
  split; [by apply settings_b_ok|]. split; [by apply wf_b_ok|]. split; [repeat constructor|]. split; [by apply known_b_ok|].
  split; [vm_compute; reflexivity|]. split; [vm_compute; reflexivity|].
  split; [intros b rb s Hb Hs; do 4 (destruct b as [|b]; [injection Hb as <-; injection Hs as <-; done|]); done|].
  split; [vm_compute; reflexivity|]. split; [done|].
  split.
  - apply (reach_step _ 2); [apply (reach_step _ 0)|].
    + apply reach_0. cbn. lia.
    + eexists. split; [done|]. split; [cbn; lia|done].
    + eexists. split; [done|]. split; [cbn; lia|]. done.
  - split; [done|]. split; [done|]. split.
    + eexists. split; [done|]. left. exists [], (Ir [1] None), []. split; [done|]. split; [by left|]. intros j Hj. by apply elem_of_nil in Hj.
    + split; [done|]. split; [done|]. split; done.
Qed.
