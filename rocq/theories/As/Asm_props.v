(** C37 and C38. *)
From stdpp Require Import base list numbers gmap.
From Verif Require Import As.Asm_model As.Asm_arch_model As.Asm_spec As.Asm_res_proof As.Asm_arch_proof As.Asm_a64_proof As.Asm_rv_proof As.Asm_rv_main_proof.
From Verif Require As.Rv_model As.Rv_spec.
Open Scope Z_scope.

(** ** C37: every label has the address of the byte that follows it, every other item (except
    alignment itself) the one where its bytes go, and sections follow one another aligned. *)
Theorem C37_x64 : forall fuel a ss t ss' t' us, parsed x64_fresh ss t ->
  settle x64_step fuel a ss t = Done ss' t' us -> placed a ss' t'.
Proof. intros fuel a ss t ss' t' us Hp E. exact (proj1 (x64_done fuel a ss t ss' t' us Hp E)). Qed.
Print Assumptions C37_x64.
Theorem C37_aarch64 : forall fuel a ss t ss' t' us, parsed a64_fresh ss t ->
  settle a64_step fuel a ss t = Done ss' t' us -> placed a ss' t'.
Proof. intros fuel a ss t ss' t' us Hp E. exact (proj1 (a64_done fuel a ss t ss' t' us Hp E)). Qed.
Print Assumptions C37_aarch64.
Theorem C37_riscv64 : forall fuel a ss t ss' t' us, parsed rv_fresh ss t ->
  settle rv_step fuel a ss t = Done ss' t' us -> placed a ss' t'.
Proof. intros fuel a ss t ss' t' us Hp E. exact (proj1 (rv_done fuel a ss t ss' t' us Hp E)). Qed.
Print Assumptions C37_riscv64.

(** ** C38: the loop ends. *)
Theorem C38_x64_ends : forall a ss t, exists n, forall fuel, (n < fuel)%nat -> settle x64_step fuel a ss t <> NoFuel.
Proof. intros a ss t. exists (S (mu_sections x64_mu ss)). intros fuel. exact (x64_ends fuel a ss t). Qed.
Print Assumptions C38_x64_ends.
Theorem C38_aarch64_ends : forall fuel a ss t, (1 < fuel)%nat -> settle a64_step fuel a ss t <> NoFuel.
Proof. exact a64_ends. Qed.
Print Assumptions C38_aarch64_ends.
Theorem C38_riscv64_ends : forall a ss t, exists n, forall fuel, (n < fuel)%nat -> settle rv_step fuel a ss t <> NoFuel.
Proof. intros a ss t. exists (S (mu_sections rv_mu ss)). intros fuel. exact (rv_ends fuel a ss t). Qed.
Print Assumptions C38_riscv64_ends.

(** Then jumps go where they should. *)
Theorem C38_x64 : forall fuel a ss t ss' t' us, parsed x64_fresh ss t ->
  settle x64_step fuel a ss t = Done ss' t' us -> rewritten_all (x64_right t') ss ss'.
Proof. intros fuel a ss t ss' t' us Hp E. exact (proj2 (x64_done fuel a ss t ss' t' us Hp E)). Qed.
Print Assumptions C38_x64.
Theorem C38_aarch64 : forall fuel a ss t ss' t' us, parsed a64_fresh ss t ->
  settle a64_step fuel a ss t = Done ss' t' us -> rewritten_all (a64_right t') ss ss'.
Proof. intros fuel a ss t ss' t' us Hp E. exact (proj2 (a64_done fuel a ss t ss' t' us Hp E)). Qed.
Print Assumptions C38_aarch64.
(** What is missing: compressed jumps ([rv_right] says nothing of them), see below. *)
Theorem C38_riscv64_partial : forall fuel a ss t ss' t' us, parsed rv_fresh ss t ->
  settle rv_step fuel a ss t = Done ss' t' us -> rewritten_all (rv_right t') ss ss'.
Proof. intros fuel a ss t ss' t' us Hp E. exact (proj2 (rv_done fuel a ss t ss' t' us Hp E)). Qed.
Print Assumptions C38_riscv64_partial.

(** ** Programs *)
Definition sec1 {I} (l : list (item I)) : list (section I) := [Sec false 1 0 ((fun i => IR i 0) <$> l)].
Definition to (n : nat) : value := Value (Some n) 0.
Definition unknown : table := {[1%nat := 0; 2%nat := 0]}.

(** A compressed jump over a branch that grows keeps a bit of its first offset, 126: the second
    one is 128 and comes out as 192.  (The reference left for the linker makes it right.) *)
Definition stale : list (section rinst) :=
  sec1 [ICode (rv_j (to 1)); IZero 122; ICode (rv_bxx Rv_model.BNE 10 0 (to 2)); ILabel 1; IZero 300; ILabel 2].
Theorem C38_jump_refuted : exists fuel ss' t' us a c, parsed rv_fresh stale unknown /\
  settle rv_step fuel LOAD_ADDRESS stale unknown = Done ss' t' us /\
  (ss' ≫= irs) !! 0%nat = Some (IR (ICode c) a) /\ inst c = RJ (to 1) /\ destination t' (to 1) = Some (a + 128) /\
  forall r, exec1 r a (buf c) = Some (a + 192).
Proof.
  exists 5%nat. destruct (settle rv_step 5 LOAD_ADDRESS stale unknown) as [ss' t' us| |] eqn:E; vm_compute in E; [|done..].
  exists ss', t', us, LOAD_ADDRESS, (Code (RJ (to 1)) false [0xc1; 0xa0]). 
  split; [|split; [by f_equal|]].
  - split; [|split].
    + intros s Hs. apply elem_of_list_singleton in Hs as ->. split; [done|]. intros x Hx. cbn in Hx. repeat (apply elem_of_cons in Hx as [Hx|Hx]; [done|]). by apply elem_of_nil in Hx.
    + apply (bool_decide_unpack _). by vm_compute.
    + intros s c Hs Hc. apply elem_of_list_singleton in Hs as ->. cbn in Hc. repeat (apply elem_of_cons in Hc as [Hc|Hc]; [try done; injection Hc as ->|]); [| |by apply elem_of_nil in Hc].
      * split; [done|]. by eexists.
      * split; [done|]. split; [done|]. split; [done|]. by eexists.
  - injection E as <- <- <-. split; [done|]. split; [done|]. split; [done|]. intros r. done.
Qed.
Print Assumptions C38_jump_refuted.

(** A jump that does not fit 8 bits becomes long, and one over it too. *)
Definition grows : list (section xinst) :=
  sec1 [ICode (Code (XJcc 4 (to 2)) false [0x74; 0]); ICode (Code (XJmp (to 1)) false [0xeb; 0]); IZero 120; IAlign 16; IZero 5; ILabel 2; IZero 20; ILabel 1].
Example C38_example : parsed x64_fresh grows unknown /\ exists ss' t' us,
  settle x64_step 4 LOAD_ADDRESS grows unknown = Done ss' t' us /\
  (buf <$> (ss' ≫= fun s => omap (fun x => match kind x with ICode c => Some c | _ => None end) (irs s))) = [[0x0f; 0x84; 0x8f; 0; 0; 0]; [0xe9; 0x9e; 0; 0; 0]].
Proof.
  split.
  - split; [|split].
    + intros s Hs. apply elem_of_list_singleton in Hs as ->. split; [done|]. intros x Hx. cbn in Hx.
      repeat (apply elem_of_cons in Hx as [Hx|Hx]; [try done; injection Hx as ->; by exists 4|]). by apply elem_of_nil in Hx.
    + apply (bool_decide_unpack _). by vm_compute.
    + intros s c Hs Hc. apply elem_of_list_singleton in Hs as ->. cbn in Hc. repeat (apply elem_of_cons in Hc as [Hc|Hc]; [try done; injection Hc as ->; done|]). by apply elem_of_nil in Hc.
  - destruct (settle x64_step 4 LOAD_ADDRESS grows unknown) as [ss' t' us| |] eqn:E; vm_compute in E; [|done..].
    exists ss', t', us. split; [done|]. injection E as <- <- <-. vm_compute. done.
Qed.
