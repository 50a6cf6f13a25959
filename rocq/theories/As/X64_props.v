(** Properties of the encoder of x64 instructions. *)
From stdpp Require Import base numbers list.
From Verif Require Import As.X64_model As.X64_spec As.X64_reg_proof As.X64_mem_proof As.X64_len_proof.
Open Scope Z_scope.

Definition rax := Reg 3 0 0. Definition rcx := Reg 3 1 0. Definition rsp := Reg 3 4 0. Definition rbp := Reg 3 5 0.
Definition r8 := Reg 3 0 1. Definition r12 := Reg 3 4 1. Definition r13 := Reg 3 5 1.
Definition al := Reg 0 0 0. Definition ah := Reg 0 4 0. Definition sil := Reg 0 6 2. Definition ecx := Reg 2 1 0.

(** C140.  Registers and constants are encoded as written: ah to bh with some instructions, neg and not of bytes,
    and constants that are too big are left out. *)
Theorem C140_encoded_partial i : parsed i = true -> fine_reg i = true -> encoded i.
Proof. exact (reg_encoded i). Qed.
Print Assumptions C140_encoded_partial.

(* cmp $-200, %r12 *)
Example C140_sample : assemble (AluImR Cmp (-200) r12) = Bytes [0x49; 0x81; 0xfc; 0x38; 0xff; 0xff; 0xff] /\
  decode [0x49; 0x81; 0xfc; 0x38; 0xff; 0xff; 0xff] = Some (D CMP 3 [OImm (2 ^ 64 - 200); OReg 3 12], []) /\
  parsed (AluImR Cmp (-200) r12) = true /\ fine_reg (AluImR Cmp (-200) r12) = true.
Proof. vm_compute. done. Qed.

(** not %al is encoded as not %eax. *)
Theorem C140_not_byte_refuted : exists i l, parsed i = true /\ i = Not al /\ assemble i = Bytes l /\
  decode l = Some (D NOT 2 [OReg 2 0], []) /\ meaning i = D NOT 0 [OReg 0 0].
Proof. exists (Not al), [0xf7; 0xd0]. vm_compute. done. Qed.
Print Assumptions C140_not_byte_refuted.

(** mov $1, %ah is encoded as mov $1, %spl. *)
Theorem C140_high_byte_refuted : exists i l, parsed i = true /\ i = MovImR 1 ah /\ assemble i = Bytes l /\
  decode l = Some (D MOV 0 [OImm 1; OReg 0 4], []) /\ meaning i = D MOV 0 [OImm 1; OHigh 0].
Proof. exists (MovImR 1 ah), [0x40; 0xb4; 0x01]. vm_compute. done. Qed.
Print Assumptions C140_high_byte_refuted.

(** movzx %ah, %ecx is encoded as movzx %spl, %ecx. *)
Theorem C140_extend_high_byte_refuted : exists i l, parsed i = true /\ i = Movx false ah ecx /\ assemble i = Bytes l /\
  decode l = Some (D MOVZX 2 [OReg 0 4; OReg 2 1], []) /\ meaning i = D MOVZX 2 [OHigh 0; OReg 2 1].
Proof. exists (Movx false ah ecx), [0x40; 0x0f; 0xb6; 0xcc]. vm_compute. done. Qed.
Print Assumptions C140_extend_high_byte_refuted.

(** C141.  Operands in memory are encoded as written, but for the combinations below. *)
Theorem C141_encoded_partial i : parsed i = true -> fine_mem i = true -> encoded i.
Proof. exact (mem_encoded i). Qed.
Print Assumptions C141_encoded_partial.

(* mov 1000(%r13), %sil and movq $7, (%rsp) *)
Example C141_sample : assemble (MovIR 1000 r13 sil) = Bytes [0x41; 0x8a; 0xb5; 0xe8; 0x03; 0x00; 0x00] /\
  decode [0x41; 0x8a; 0xb5; 0xe8; 0x03; 0x00; 0x00] =
    Some (D MOV 0 [OMem (Mem false false (Some 13) None) 1000; OReg 0 6], []) /\
  parsed (MovIR 1000 r13 sil) = true /\ fine_mem (MovIR 1000 r13 sil) = true /\
  assemble (MovImI 3 7 0 rsp) = Bytes [0x48; 0xc7; 0x04; 0x24; 0x07; 0x00; 0x00; 0x00] /\
  parsed (MovImI 3 7 0 rsp) = true /\ fine_mem (MovImI 3 7 0 rsp) = true.
Proof. vm_compute. done. Qed.

(** subq $1, 8(%rax) is encoded as addq $1, 8(%rax). *)
Theorem C141_subq_refuted : exists i l, parsed i = true /\ i = AluQ true 1 8 rax /\ assemble i = Bytes l /\
  decode l = Some (D ADD 3 [OImm 1; OMem (Mem false false (Some 0) None) 8], []) /\
  meaning i = D SUB 3 [OImm 1; OMem (Mem false false (Some 0) None) 8].
Proof. exists (AluQ true 1 8 rax), [0x48; 0x83; 0x40; 0x08; 0x01]. vm_compute. done. Qed.
Print Assumptions C141_subq_refuted.

(** lea 8(%r12), %rax lacks the byte SIB: whatever follows is taken as a part of it. *)
Theorem C141_r12_refuted : exists i l, parsed i = true /\ i = LeaIR 8 r12 rax /\ assemble i = Bytes l /\
  decode l = None /\ decode (l ++ [0xc3]) = Some (D LEA 3 [OMem (Mem false false (Some 8) (Some (1, 1))) (-61); OReg 3 0], []).
Proof. exists (LeaIR 8 r12 rax), [0x49; 0x8d; 0x44; 0x08]. vm_compute. done. Qed.
Print Assumptions C141_r12_refuted.

(** mov (%rax,%r8), %ecx is encoded as mov (%rax,%r8), %rcx. *)
Theorem C141_index_size_refuted : exists i l, parsed i = true /\ i = MovIIR 0 rax r8 None ecx /\ assemble i = Bytes l /\
  decode l = Some (D MOV 3 [OMem (Mem false false (Some 0) (Some (8, 1))) 0; OReg 3 1], []) /\
  meaning i = D MOV 2 [OMem (Mem false false (Some 0) (Some (8, 1))) 0; OReg 2 1].
Proof. exists (MovIIR 0 rax r8 None ecx), [0x4a; 0x8b; 0x0c; 0x00]. vm_compute. done. Qed.
Print Assumptions C141_index_size_refuted.

(** mov (%rbp,%rcx), %rax lacks the offset: the next 4 bytes are taken for it, and rbp is not added. *)
Theorem C141_rbp_refuted : exists i l, parsed i = true /\ i = MovIIR 0 rbp rcx None rax /\ assemble i = Bytes l /\
  decode (l ++ [1; 0; 0; 0]) = Some (D MOV 3 [OMem (Mem false false None (Some (1, 1))) 1; OReg 3 0], []).
Proof. exists (MovIIR 0 rbp rcx None rax), [0x48; 0x8b; 0x04; 0x0d]. vm_compute. done. Qed.
Print Assumptions C141_rbp_refuted.

(** mov label, %r8 is encoded as mov label, %rax. *)
Theorem C141_direct_refuted : exists i l, parsed i = true /\ i = MovDR r8 /\ assemble i = Bytes l /\
  decode l = Some (D MOV 3 [OMem (Mem false false None None) 0; OReg 3 0], []) /\
  meaning i = D MOV 3 [OMem (Mem false false None None) 0; OReg 3 8].
Proof. exists (MovDR r8), [0x48; 0x8b; 0x04; 0x25; 0; 0; 0; 0]. vm_compute. done. Qed.
Print Assumptions C141_direct_refuted.

(** mov %fs:0, %rcx is encoded as mov %fs:0, %rax. *)
Theorem C141_segment_refuted : exists i l, parsed i = true /\ i = MovSR 0 rcx /\ assemble i = Bytes l /\
  decode l = Some (D MOV 3 [OMem (Mem true false None None) 0; OReg 3 0], []) /\
  meaning i = D MOV 3 [OMem (Mem true false None None) 0; OReg 3 1].
Proof. exists (MovSR 0 rcx), [0x64; 0x48; 0x8b; 0x04; 0x25; 0; 0; 0; 0]. vm_compute. done. Qed.
Print Assumptions C141_segment_refuted.

(** mov 0x100000008(%rax), %rax is accepted, and encoded as mov 8(%rax), %rax with an offset of 4 bytes. *)
Theorem C141_offset_refuted : exists i l, parsed i = true /\ i = MovIR (2 ^ 32 + 8) rax rax /\ assemble i = Bytes l /\
  decode l = Some (D MOV 3 [OMem (Mem false false (Some 0) None) 8; OReg 3 0], []).
Proof. exists (MovIR (2 ^ 32 + 8) rax rax), [0x48; 0x8b; 0x80; 8; 0; 0; 0]. vm_compute. done. Qed.
Print Assumptions C141_offset_refuted.

(** C142.  Whatever the operands, the bytes fit the room for an instruction. *)
Theorem C142_room i l : assemble i = Bytes l -> (length l <= 14)%nat.
Proof. exact (assemble_length i l). Qed.
Print Assumptions C142_room.

(* movq $0x12345678, 1000(%r12): 12 bytes *)
Example C142_sample : exists l, assemble (MovImI 3 0x12345678 1000 r12) = Bytes l /\ length l = 12%nat.
Proof. eexists. vm_compute. done. Qed.

(** add (%rax,%rcx,8), %rax stops the assembler with a failed assert. *)
Theorem C142_abort_refuted : exists i, parsed i = true /\ i = AluIIR false 0 rax rcx (Some 8) rax /\ assemble i = Abort.
Proof. exists (AluIIR false 0 rax rcx (Some 8) rax). vm_compute. done. Qed.
Print Assumptions C142_abort_refuted.
