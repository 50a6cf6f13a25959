(** C107 and C108. *)
From stdpp Require Import base list numbers gmap.
From Verif Require Import As.Asm_model As.Asm_arch_model As.Asm_spec As.Refs_model As.Refs_spec As.Refs_x64_proof As.Refs_a64_proof As.Refs_rv_proof As.Refs_sym_proof.
From Verif Require As.Rv_model As.Rv_spec Ld.Rela_model Ld.Rela_spec.
Local Open Scope Z_scope.

(** ** C107: assembled and linked, the bytes of a section are its items in order, and whatever
    names a symbol leads to the address of that symbol plus the offset. *)
(** What is missing: conditional jumps to symbols of other objects and sections, jumps to labels
    of other sections of the same file, loads that name a symbol, [.long] and shorter with a
    symbol; see the refutations. *)
Theorem C107_x64_partial : forall sym sec fuel a ss t ss' t' us k s0 s u b relas b',
  parsed x64_fresh ss t -> settle x64_step fuel a ss t = Done ss' t' us ->
  ss !! k = Some s0 -> ss' !! k = Some s -> us !! k = Some u -> bss s = false ->
  emit s = Some (b, 0) -> start s + Z.of_nat (length b) < 2 ^ 64 -> Rela_spec.bytes_ok b ->
  exprs_ok (items s0) -> own_labels sym sec (items s) ->
  mapM (x64_rela sym) u = Some relas -> Rela_model.apply_relas sec relas b = Rela_model.Ok (b', 0%nat) ->
  loaded (piece sym sec (x64_image sym (fun n => n ∈ labels (items s0)) (fun n => is_Some (t' !! n)))) (u64 sec) (items s0) b'.
Proof. exact x64_refs. Qed.
Print Assumptions C107_x64_partial.
(** What is missing: branches to labels of other sections, and GOT references, which this linker
    stops at. *)
Theorem C107_aarch64_partial : forall sym sec fuel a ss t ss' t' us k s0 s u b relas b',
  parsed a64_fresh ss t -> settle a64_step fuel a ss t = Done ss' t' us ->
  ss !! k = Some s0 -> ss' !! k = Some s -> us !! k = Some u -> bss s = false ->
  emit s = Some (b, 0) -> start s + Z.of_nat (length b) < 2 ^ 64 -> Rela_spec.bytes_ok b ->
  (forall c, ICode c ∈ items s0 -> a64_words c) -> exprs_ok (items s0) -> own_labels sym sec (items s) ->
  mapM (a64_rela sym) u = Some relas -> Rela_model.apply_relas sec relas b = Rela_model.Ok (b', 0%nat) ->
  loaded (piece sym sec (a64_image sym (fun n => n ∈ labels (items s0)))) (u64 sec) (items s0) b'.
Proof. exact a64_refs. Qed.
Print Assumptions C107_aarch64_partial.
(** What is missing: conditional branches to symbols the assembler does not know ([rv_words]). *)
Theorem C107_riscv64_partial : forall sym sec fuel a ss t ss' t' us k s0 s u b relas b',
  parsed rv_fresh ss t -> settle rv_step fuel a ss t = Done ss' t' us ->
  ss !! k = Some s0 -> ss' !! k = Some s -> us !! k = Some u -> bss s = false ->
  emit s = Some (b, 0) -> start s + Z.of_nat (length b) < 2 ^ 64 -> Rela_spec.bytes_ok b ->
  (forall c, ICode c ∈ items s0 -> rv_words t' c) -> exprs_ok (items s0) -> own_labels sym sec (items s) ->
  mapM (rv_rela sym) u = Some relas -> Rela_model.apply_relas sec relas b = Rela_model.Ok (b', 0%nat) ->
  loaded (piece sym sec (rv_image sym (fun n => n ∈ labels (items s0)))) (u64 sec) (items s0) b'.
Proof. exact rv_refs. Qed.
Print Assumptions C107_riscv64_partial.

(** ** Programs *)
Definition one {I} (l : list (item I)) : list (section I) := [Sec false 1 0 ((fun i => IR i 0) <$> l)].
Definition to (n : nat) : value := Value (Some n) 0.
Definition known : table := {[1%nat := 0]}.
(** A program of one section, assembled; its bytes, and those after linking at [sec]. *)
Definition assembled {I} step rel (sym : nat -> Z) (sec : Z) (ss : list (section I)) (b b' : list Z) : Prop :=
  exists ss' t' us s u relas, settle step 5 LOAD_ADDRESS ss known = Done ss' t' us /\ ss' !! 0%nat = Some s /\ us !! 0%nat = Some u /\
  emit s = Some (b, 0) /\ mapM (rel sym) u = Some relas /\ Rela_model.apply_relas sec relas b = Rela_model.Ok (b', 0%nat).
Ltac assemble :=
  match goal with |- context [settle ?st 5 LOAD_ADDRESS ?p known] =>
    let E := fresh in destruct (settle st 5 LOAD_ADDRESS p known) as [ss' t' us| |] eqn:E; vm_compute in E; [|done..];
    injection E as <- <- <-; do 6 eexists; split; [reflexivity|]; split; [reflexivity|]; split; [reflexivity|]; split; [reflexivity|]; split; [reflexivity|]
  end.
Ltac fresh_ok :=
  let s := fresh in let c := fresh in let Hs := fresh in let Hc := fresh in
  intros s c Hs Hc; apply elem_of_list_singleton in Hs as ->; cbn in Hc;
  repeat (apply elem_of_cons in Hc as [Hc|Hc]; [try done; injection Hc as ->|]); try (by apply elem_of_nil in Hc).
Ltac is_parsed := split; [intros ? Hs; apply elem_of_list_singleton in Hs as ->; split; [done|]; intros ? Hx; cbn in Hx;
  repeat (apply elem_of_cons in Hx as [Hx|Hx]; [done|]); by apply elem_of_nil in Hx|split; [apply (bool_decide_unpack _); by vm_compute|fresh_ok]].
(** Symbol 1 at 16 bytes into the section at 0x400000, symbol 2 elsewhere. *)
Definition at_ (n : nat) : Z := if (n =? 1)%nat then 0x400010 else 0x412345.

(** A call and an address of another object, a jump, and a pointer. *)
Definition xcalls : list (section xinst) :=
  one [ICode (Code (XCall (to 2)) false [0xe8; 0; 0; 0; 0]); ICode (Code (XLea (Value (Some 2%nat) 8)) false [0x48; 0x8d; 0x05; 0; 0; 0; 0]);
       ICode (Code (XJmp (to 1)) false [0xeb; 0]); ICode (Code XOther false [0xc9; 0xc3]); ILabel 1; IExpr 3 (to 1)].
Example C107_x64_example : parsed x64_fresh xcalls known /\ exists b, assembled x64_step x64_rela at_ 0x400000 xcalls b
  ([0xe8; 0x40; 0x23; 0x01; 0; 0x48; 0x8d; 0x05; 0x41; 0x23; 0x01; 0; 0xeb; 0x02; 0xc9; 0xc3; 0x10; 0; 0x40; 0; 0; 0; 0; 0]).
Proof. split; [is_parsed; done|]. eexists. unfold assembled. assemble. by vm_compute. Qed.
(** [bl f; adrp x0, f; add x0, x0, :lo12:f; b .L1]. *)
Definition acalls : list (section ainst) :=
  one [ICode (Code (ABl (to 2)) false (le 4 0x94000000)); ICode (Code (ARef UPcrelHi (to 2)) false (le 4 0x90000000)); ICode (Code (ARef UPcrelLo (to 2)) false (le 4 0x91000000));
       ICode (Code (AB (to 1)) false (le 4 0x14000000)); ILabel 1; ICode (Code AOther false (le 4 0xd65f03c0))].
Example C107_aarch64_example : parsed a64_fresh acalls known /\ exists b, assembled a64_step a64_rela (fun n => if (n =? 1)%nat then 0x400010 else 0x412344) 0x400000 acalls b
  (le 4 0x940048d1 ++ le 4 0xd0000080 ++ le 4 0x910d1000 ++ le 4 0x14000001 ++ le 4 0xd65f03c0).
Proof. split; [is_parsed; done|]. eexists. unfold assembled. assemble. vm_compute. reflexivity. Qed.
Definition rcalls : list (section rinst) :=
  one [ILabel 1; ICode (Code (RLa (to 2)) false (Rv_model.W 0x517 ++ Rv_model.W 0x50513)); ICode (Code (RCall (to 2)) false (Rv_model.W 0x97 ++ Rv_model.W 0x80e7)); ICode (rv_bxx Rv_model.BEQ 10 0 (to 1)); ICode (rv_j (to 1))].
Example C107_riscv64_example : parsed rv_fresh rcalls known /\ exists b b', assembled rv_step rv_rela (fun n => if (n =? 1)%nat then 0x400000 else 0x412344) 0x400000 rcalls b b' /\
  Rv_spec.decodes b' [Rv_spec.BAuipc 10 0x12000; Rv_spec.BI Rv_model.ADDI 10 10 0x344; Rv_spec.BJal 1 (0x12344 - 8); Rv_spec.BI Rv_model.ADDI 0 0 0;
    Rv_spec.BBr Rv_model.BEQ 10 0 (-16); Rv_spec.BJal 0 (-18)].
Proof.
  split; [is_parsed; try done; repeat split; done || by eexists|]. do 2 eexists. split; [unfold assembled; assemble; vm_compute; reflexivity|]. by vm_compute.
Qed.

(** ** What goes wrong *)
(** [je] to a symbol of another object: the reference is one byte too low, so the linker writes
    over the condition. *)
Definition xjcc : list (section xinst) := one [ICode (Code (XJcc 4 (to 2)) false [0x74; 0]); ICode (Code XOther false [0xc3])].
Theorem C107_jcc_refuted : parsed x64_fresh xjcc known /\ exists b, assembled x64_step x64_rela at_ 0x400000 xjcc b [0x0f; 0x40; 0x23; 0x01; 0; 255; 0xc3].
Proof. split; [is_parsed; done|]. eexists. unfold assembled. assemble. by vm_compute. Qed.
Print Assumptions C107_jcc_refuted.
(** A load that names a symbol of the same file: no reference is left, whatever the address is. *)
Definition xmov : list (section xinst) := one [ICode (Code (XGot (to 1)) false [0x48; 0x8b; 0x05; 0; 0; 0; 0]); ICode (Code XOther false [0xc3]); ILabel 1; IZero 8].
Theorem C107_mov_refuted : parsed x64_fresh xmov known /\ forall sym sec, assembled x64_step x64_rela sym sec xmov
  ([0x48; 0x8b; 0x05; 0; 0; 0; 0; 0xc3] ++ replicate 8 0) ([0x48; 0x8b; 0x05; 0; 0; 0; 0; 0xc3] ++ replicate 8 0).
Proof. split; [is_parsed; done|]. intros sym sec. unfold assembled. assemble. done. Qed.
Print Assumptions C107_mov_refuted.
(** A jump to a label of another section: the distance between the sections is taken to be that
    of the assembler, and no reference is left. *)
Definition xfar : list (section xinst) :=
  [Sec false 1 0 [IR (ICode (Code (XJmp (to 1)) false [0xeb; 0])) 0]; Sec false 1 0 [IR (IZero 3) 0; IR (ILabel 1) 0; IR (ICode (Code XOther false [0xc3])) 0]].
Theorem C107_far_refuted : parsed x64_fresh xfar known /\ forall sym sec, assembled x64_step x64_rela sym sec xfar [0xeb; 3] [0xeb; 3].
Proof.
  split; [|intros sym sec; unfold assembled; assemble; done]. split; [|split].
  - intros s Hs. apply elem_of_cons in Hs as [->|Hs%elem_of_list_singleton]; [|subst s]; (split; [done|]; intros ? Hx; cbn in Hx; repeat (apply elem_of_cons in Hx as [Hx|Hx]; [done|]); by apply elem_of_nil in Hx).
  - apply (bool_decide_unpack _). by vm_compute.
  - intros s c Hs Hc. apply elem_of_cons in Hs as [->|Hs%elem_of_list_singleton]; [|subst s]; cbn in Hc; repeat (apply elem_of_cons in Hc as [Hc|Hc]; [try done; injection Hc as ->; done|]); by apply elem_of_nil in Hc.
Qed.
Print Assumptions C107_far_refuted.
(** [.long] with a symbol: eight bytes are written, also over what follows. *)
Definition xlong : list (section xinst) := one [IExpr 2 (to 2); IData [1; 2; 3; 4]].
Theorem C107_long_refuted : parsed x64_fresh xlong known /\
  assembled x64_step x64_rela at_ 0x400000 xlong [0; 0; 0; 0; 1; 2; 3; 4] [0x45; 0x23; 0x41; 0; 0; 0; 0; 0].
Proof. split; [is_parsed; done|]. unfold assembled. assemble. by vm_compute. Qed.
Print Assumptions C107_long_refuted.
(** [beqz a0] to a symbol of another object: the instruction is the compressed one, the reference
    for the long one, and the linker changes the next instruction. *)
Definition rbranch : list (section rinst) := one [ICode (rv_bxx Rv_model.BEQ 10 0 (to 2)); ICode (Code ROther false [0x82; 0x80])].
Theorem C107_branch_refuted : parsed rv_fresh rbranch known /\ exists b, assembled rv_step rv_rela (fun _ => 0x400800) 0x400000 rbranch b [0x81; 0xc0; 0x82; 0x00] /\ drop 2 b = [0x82; 0x80].
Proof. split; [is_parsed; try done; repeat split; done || by eexists|]. eexists. split; [unfold assembled; assemble; by vm_compute|done]. Qed.
Print Assumptions C107_branch_refuted.

(** ** C108: in the object each label has as its value the number of bytes before it in its
    section. *)
(** What is missing: objects with an empty section. *)
Theorem C108_x64_partial : forall fuel a ss t ss' t' us w, parsed x64_fresh ss t -> settle x64_step fuel a ss t = Done ss' t' us ->
  written a ss' = Some w -> none_empty w -> values_right (symbol_value t') w.
Proof. exact x64_values. Qed.
Print Assumptions C108_x64_partial.
Theorem C108_aarch64_partial : forall fuel a ss t ss' t' us w, parsed a64_fresh ss t -> settle a64_step fuel a ss t = Done ss' t' us ->
  written a ss' = Some w -> none_empty w -> values_right (symbol_value t') w.
Proof. exact a64_values. Qed.
Print Assumptions C108_aarch64_partial.
Theorem C108_riscv64_partial : forall fuel a ss t ss' t' us w, parsed rv_fresh ss t -> settle rv_step fuel a ss t = Done ss' t' us ->
  written a ss' = Some w -> none_empty w -> values_right (symbol_value t') w.
Proof. exact rv_values. Qed.
Print Assumptions C108_riscv64_partial.
(** So the linker, which adds the address of the section, finds each label at its bytes, as C107
    asks. *)
Theorem C108_own_labels : forall I (value : Z -> nat -> option Z) w (s : section I) o st sym sec, values_right value w -> (s, o, st) ∈ w -> bss s = false ->
  (forall n x, n ∈ labels (items s) -> value st n = Some x -> sym n = u64 (sec + x)) -> own_labels sym sec (items s).
Proof. intros I. exact values_own. Qed.
Print Assumptions C108_own_labels.

(** A byte of code, an empty section with an alignment, and a variable at the start of its
    section, whose value comes out as 7. *)
Definition empties : list (section xinst) :=
  [Sec false 1 0 [IR (ICode (Code XOther false [0xc3])) 0]; Sec false 1 0 [IR (IAlign 8) 0]; Sec false 1 0 [IR (ILabel 1) 0; IR (IData [42]) 0]].
Theorem C108_empty_refuted : parsed x64_fresh empties known /\ exists ss' t' us w s st,
  settle x64_step 5 LOAD_ADDRESS empties known = Done ss' t' us /\ written LOAD_ADDRESS ss' = Some w /\
  w !! 2%nat = Some (s, ([42], 0), st) /\ items s = [ILabel 1; IData [42]] /\ symbol_value t' st 1 = Some 7.
Proof.
  split.
  - split; [|split].
    + intros s Hs. repeat (apply elem_of_cons in Hs as [->|Hs]); [| | |by apply elem_of_nil in Hs]; (split; [done|]; intros ? Hx; cbn in Hx; repeat (apply elem_of_cons in Hx as [Hx|Hx]; [try done; injection Hx as ->; by exists 3|]); by apply elem_of_nil in Hx).
    + apply (bool_decide_unpack _). by vm_compute.
    + intros s c Hs Hc. repeat (apply elem_of_cons in Hs as [->|Hs]); [| | |by apply elem_of_nil in Hs]; cbn in Hc; repeat (apply elem_of_cons in Hc as [Hc|Hc]; [try done; injection Hc as ->; done|]); by apply elem_of_nil in Hc.
  - destruct (settle x64_step 5 LOAD_ADDRESS empties known) as [ss' t' us| |] eqn:E; vm_compute in E; [|done..].
    injection E as <- <- <-. do 6 eexists. split; [reflexivity|]. split; [vm_compute; reflexivity|]. split; [reflexivity|]. split; [reflexivity|]. by vm_compute.
Qed.
Print Assumptions C108_empty_refuted.
Example C108_example : exists ss' t' us w s st,
  settle x64_step 5 LOAD_ADDRESS xcalls known = Done ss' t' us /\ written LOAD_ADDRESS ss' = Some w /\ none_empty w /\
  w !! 0%nat = Some (s, st) /\ symbol_value t' LOAD_ADDRESS 1 = Some 16.
Proof.
  destruct (settle x64_step 5 LOAD_ADDRESS xcalls known) as [ss' t' us| |] eqn:E; vm_compute in E; [|done..].
  injection E as <- <- <-. do 6 eexists. split; [reflexivity|]. split; [vm_compute; reflexivity|]. split; [|split; [reflexivity|by vm_compute]].
  intros s o st Hin. apply elem_of_list_singleton in Hin. injection Hin as -> -> ->. by vm_compute.
Qed.
