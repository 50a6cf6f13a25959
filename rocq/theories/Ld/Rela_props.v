(** C40: relocations applied by the linker. *)
From stdpp Require Import base list numbers.
From Verif Require Import As.Asm_arch_model Ld.Rela_model Ld.Rela_spec Ld.Rela_main_proof Ld.Rela_ref_proof.
Local Open Scope Z_scope.

(** If the linker accepts the relocations of a section, each patched field leads to its target,
    provided the target is within the reach of the instruction where the code does not check that
    itself (x86-64, AArch64, the RISC-V conditional branch and the upper end of HI20), and the
    displacement is even (a multiple of 4 on AArch64).  Without the proviso the statement is false:
    see the refutations below. *)
Theorem C40_relocated_partial sec relas c c' j r :
  targets_ok relas -> all_apart relas -> bytes_ok c ->
  apply_relas sec relas c = Ok (c', 0%nat) -> relas !! j = Some r -> achieves sec relas j r c c'.
Proof. intros Ht Ha Hb H Hr. exact (proj2 (proj2 (relocated sec relas c c' Ht Ha Hb H)) j r Hr). Qed.
Print Assumptions C40_relocated_partial.

(** Bytes that belong to no field are left alone, and the section keeps its size. *)
Theorem C40_frame sec relas c c' :
  targets_ok relas -> all_apart relas -> bytes_ok c ->
  apply_relas sec relas c = Ok (c', 0%nat) ->
  length c' = length c /\
  forall i, (forall k r, relas !! k = Some r -> ~ in_field i (field relas k r)) -> c' !! i = c !! i.
Proof. intros Ht Ha Hb H. exact (conj (proj1 (relocated sec relas c c' Ht Ha Hb H)) (proj1 (proj2 (relocated sec relas c c' Ht Ha Hb H)))). Qed.
Print Assumptions C40_frame.

(** AArch64: the page address of ADRP and the low bits of ADD together are the target. *)
Theorem C40_adrp_add sec relas c c' j k r r' :
  targets_ok relas -> all_apart relas -> bytes_ok c ->
  apply_relas sec relas c = Ok (c', 0%nat) ->
  relas !! j = Some r -> relas !! k = Some r' -> r_type r = A_PG_HI21 -> r_type r' = A_ADD_LO12 -> r_target r' = r_target r ->
  fits 33 (s64 (page (r_target r) - page (place sec r))) ->
  u64 (page (place sec r) + adrp_imm (at_ 4 c' (r_offset r))) + add_imm (at_ 4 c' (r_offset r')) = r_target r.
Proof. exact (adrp_add sec relas c c' j k r r'). Qed.
Print Assumptions C40_adrp_add.

(** A 32-bit field of x86-64 is cut without a check: the call goes elsewhere. *)
Theorem C40_pc32_range_refuted : exists sec r c c',
  r_type r = X_PC32 /\ apply_relas sec [r] c = Ok (c', 0%nat) /\
  u64 (place sec r + sext 32 (at_ 4 c' (r_offset r))) <> r_target r.
Proof. exact pc32_range. Qed.
Print Assumptions C40_pc32_range_refuted.

(** ADRP and BL of AArch64 likewise, and BL to an address that is not a multiple of 4. *)
Theorem C40_adrp_range_refuted : exists sec r c c',
  r_type r = A_PG_HI21 /\ apply_relas sec [r] c = Ok (c', 0%nat) /\
  u64 (page (place sec r) + adrp_imm (at_ 4 c' (r_offset r))) <> page (r_target r).
Proof. exact adrp_range. Qed.
Print Assumptions C40_adrp_range_refuted.
Theorem C40_bl_range_refuted : exists sec r c c',
  r_type r = A_CALL26 /\ distance sec r mod 4 = 0 /\ apply_relas sec [r] c = Ok (c', 0%nat) /\
  u64 (place sec r + bl_disp (at_ 4 c' (r_offset r))) <> r_target r.
Proof. exact bl_range. Qed.
Print Assumptions C40_bl_range_refuted.
Theorem C40_bl_unaligned_refuted : exists sec r c c',
  r_type r = A_CALL26 /\ fits 28 (distance sec r) /\ apply_relas sec [r] c = Ok (c', 0%nat) /\
  u64 (place sec r + bl_disp (at_ 4 c' (r_offset r))) <> r_target r.
Proof. exact bl_unaligned. Qed.
Print Assumptions C40_bl_unaligned_refuted.

(** RISC-V: the range check of the conditional branch is twice too wide. *)
Theorem C40_branch_range_refuted : exists sec r c c',
  r_type r = R_BRANCH /\ distance sec r mod 2 = 0 /\ apply_relas sec [r] c = Ok (c', 0%nat) /\
  u64 (place sec r + branch_disp (at_ 4 c' (r_offset r))) <> r_target r.
Proof. exact branch_range. Qed.
Print Assumptions C40_branch_range_refuted.

(** RISC-V: an odd displacement is cut without a message. *)
Theorem C40_jal_odd_refuted : exists sec r c c',
  r_type r = R_JAL /\ apply_relas sec [r] c = Ok (c', 0%nat) /\
  u64 (place sec r + jal_disp (at_ 4 c' (r_offset r))) <> r_target r.
Proof. exact jal_odd. Qed.
Print Assumptions C40_jal_odd_refuted.

(** RISC-V: the rounding of AUIPC overflows just below 2 GB, and the pair gives an address 4 GB away. *)
Theorem C40_hi20_range_refuted : exists sec h x l c c',
  r_type h = R_PCREL_HI20 /\ r_type l = R_PCREL_LO12_I /\ fits 32 (distance sec h) /\
  apply_relas sec [h; x; l] c = Ok (c', 0%nat) /\
  u64 (place sec h + u_imm (at_ 4 c' (r_offset h)) + i_imm (at_ 4 c' (r_offset l))) <> r_target h.
Proof. exact hi20_range. Qed.
Print Assumptions C40_hi20_range_refuted.

(** RISC-V: JAL loses its link register. *)
Theorem C40_jal_rd_refuted : exists sec r c c',
  r_type r = R_JAL /\ apply_relas sec [r] c = Ok (c', 0%nat) /\
  bits (at_ 4 c' (r_offset r)) 11 7 <> bits (at_ 4 c (r_offset r)) 11 7.
Proof. exact jal_rd. Qed.
Print Assumptions C40_jal_rd_refuted.

(** RISC-V: a tail call (AUIPC t1; JALR zero, t1) becomes a call with link register [ra]. *)
Theorem C40_tail_call_refuted : exists sec r x c c',
  r_type r = R_CALL /\ r_type x = R_RELAX /\ apply_relas sec [r; x] c = Ok (c', 0%nat) /\
  bits (at_ 4 c (r_offset r + 4)) 11 7 = 0 /\ bits (at_ 4 c' (r_offset r)) 6 0 = 0x6f /\
  bits (at_ 4 c' (r_offset r)) 11 7 = 1.
Proof. exact tail_call. Qed.
Print Assumptions C40_tail_call_refuted.

(** RISC-V: the low part takes the relocation two places before it to be its high part, whatever label it
    names.  Here two AUIPCs are followed by the low part of the first: it gets the
    offset of the second. *)
Theorem C40_lo12_pair_refuted : exists sec ha hb x l c c',
  r_type ha = R_PCREL_HI20 /\ r_type hb = R_PCREL_HI20 /\ r_type x = R_RELAX /\ r_type l = R_PCREL_LO12_I /\
  (* the low part refers to the label of [ha] *)
  r_target l = place sec ha /\
  apply_relas sec [ha; x; hb; x; l] c = Ok (c', 0%nat) /\
  u64 (place sec ha + u_imm (at_ 4 c' (r_offset ha)) + i_imm (at_ 4 c' (r_offset l))) <> r_target ha.
Proof. exact lo12_pair. Qed.
Print Assumptions C40_lo12_pair_refuted.

(** A section with several relocations: an AUIPC/ADDI pair, a call, a compressed jump and a pointer. *)
Example C40_example : exists c',
  let relas := [Rela R_PCREL_HI20 0 0x20ffe; Rela R_RELAX 0 0; Rela R_PCREL_LO12_I 4 0x10000; Rela R_RELAX 4 0;
                Rela R_CALL 8 0x10100; Rela R_RELAX 8 0; Rela R_RVC_JUMP 16 0xfff0; Rela R_64 24 0x123456789a] in
  let c := le 4 0x517 ++ le 4 0x50513 ++ le 4 0x97 ++ le 4 0x80e7 ++ le 2 0xa001 ++ replicate 14 0 in
  apply_relas 0x10000 relas c = Ok (c', 0%nat) /\
  u64 (0x10000 + u_imm (at_ 4 c' 0) + i_imm (at_ 4 c' 4)) = 0x20ffe /\
  u64 (0x10008 + jal_disp (at_ 4 c' 8)) = 0x10100 /\ at_ 4 c' 12 = 0x13 /\
  u64 (0x10010 + cj_disp (at_ 2 c' 16)) = 0xfff0 /\ at_ 8 c' 24 = 0x123456789a.
Proof. eexists. split; [vm_compute; reflexivity|]. vm_compute. repeat split. Qed.
