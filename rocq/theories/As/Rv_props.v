(** C34 and C35: the code the assembler emits for RISC-V instructions. *)
From stdpp Require Import base list numbers.
From Verif Require Import As.Rv_model As.Rv_spec As.Rv_main_proof.
Local Open Scope Z_scope.

(** [li rd, imm] assembles, in at most 26 bytes, to code that leaves imm in rd
    and every other register as it was, for every 64-bit imm.  Missing: a
    constant outside -2048..2047 for sp (refuted below), or for x0. *)
Theorem C34_li_partial : forall rd imm,
  reg_ok rd -> - 2 ^ 63 <= imm < 2 ^ 63 -> ~ (rd = 0 \/ rd = 2) \/ fits12 imm ->
  exists bs l, asm (ILi rd imm) = Some bs /\ (length bs <= 26)%nat /\ decodes bs l /\
    forall r, regs_ok r -> exists r', run r l = Some r' /\
      (forall n, n <> rd -> r' n = r n) /\ (rd <> 0 -> r' rd = imm mod 2 ^ 64).
Proof. exact li_fits. Qed.
Print Assumptions C34_li_partial.

(** [li sp, 0x10000] becomes c.addi16sp and moves the stack pointer instead. *)
Theorem C34_li_sp_refuted : operands_ok (ILi 2 0x10000) /\ ~ assembled_right (ILi 2 0x10000).
Proof. exact li_sp_wrong. Qed.
Print Assumptions C34_li_sp_refuted.

Example C34_example :
  match asm (ILi 10 0x123456789abcdef0) with
  | Some bs => length bs = 26%nat /\
      match decode (length bs) bs with
      | Some l => match run (fun n => 7 * n) l with
          | Some r => r 10 = 0x123456789abcdef0 /\ r 11 = 77
          | None => False end
      | None => False end
  | None => False end.
Proof. vm_compute. done. Qed.

(** Every instruction with operands the instruction set allows is assembled to
    bytes that decode to it, or to something with the same effect on the
    registers, except for the combinations of [troublesome]. *)
Theorem C35_encoding_partial : forall i,
  operands_ok i -> ~ troublesome i -> assembled_right i.
Proof. exact all_right. Qed.
Print Assumptions C35_encoding_partial.

(** An immediate that does not fit is rejected, except shift amounts of
    srliw and sraiw. *)
Theorem C35_rejects_partial : forall o rd rs imm,
  - 2 ^ 63 <= imm < 2 ^ 63 -> ~ imm_ok o imm ->
  (match o with SRLIW | SRAIW => ~ (32 <= imm < 64) | _ => True end) ->
  asm (I2i o rd rs imm) = None.
Proof. exact rejected. Qed.
Print Assumptions C35_rejects_partial.

(** [add t0, t0, zero] becomes a call through t0. *)
Theorem C35_add_zero_refuted : operands_ok (I3 ADD 5 5 0) /\ ~ assembled_right (I3 ADD 5 5 0).
Proof. exact add_zero_wrong. Qed.
Print Assumptions C35_add_zero_refuted.

(** A word store from one of x8..x15 through another at an offset 4, 12, 20, ...
    below 128 writes four bytes too low. *)
Theorem C35_sw_refuted : forall rs2 rs1 ofs,
  8 <= rs2 <= 15 -> 8 <= rs1 <= 15 -> 0 <= ofs < 128 -> ofs mod 8 = 4 ->
  exists bs, asm (ISd SW rs2 ofs rs1) = Some bs /\ decodes bs [BStore SW rs2 rs1 (ofs - 4)].
Proof. exact sw_all_wrong. Qed.
Print Assumptions C35_sw_refuted.

(** An offset of 4096 is assembled as 0. *)
Theorem C35_offset_refuted : exists bs,
  asm (ILd LB 10 4096 11) = Some bs /\ decodes bs [BLoad LB 10 11 0].
Proof. exact ofs_cut_wrong. Qed.
Print Assumptions C35_offset_refuted.

(** [srliw a0, a1, 40] is assembled to a reserved encoding. *)
Theorem C35_srliw_refuted : exists bs,
  asm (I2i SRLIW 10 11 40) = Some bs /\ decode (length bs) bs = None.
Proof. exact srliw_wrong. Qed.
Print Assumptions C35_srliw_refuted.

(** With x0 as the destination, reserved encodings come out. *)
Theorem C35_zero_refuted :
  (operands_ok (I2i ADDIW 0 0 1) /\ ~ assembled_right (I2i ADDIW 0 0 1)) /\
  (operands_ok (I2 SEXT_W 0 0) /\ ~ assembled_right (I2 SEXT_W 0 0)) /\
  (operands_ok (ILi 0 0x10000) /\ ~ assembled_right (ILi 0 0x10000)) /\
  (operands_ok (ILd LD 0 8 2) /\ ~ assembled_right (ILd LD 0 8 2)) /\
  (operands_ok (IJr 0) /\ ~ assembled_right (IJr 0)) /\
  (operands_ok (IJalr 0) /\ ~ assembled_right (IJalr 0)).
Proof.
  exact (conj addiw_zero_wrong (conj sextw_zero_wrong (conj li_zero_wrong
    (conj ld_zero_wrong (conj jr_zero_wrong jalr_zero_wrong))))).
Qed.
Print Assumptions C35_zero_refuted.

Example C35_example :
  asm (I3 SUB 10 11 12) = Some [0x33; 0x85; 0xc5; 0x40] /\
  decodes [0x33; 0x85; 0xc5; 0x40] [BR SUB 10 11 12] /\
  asm (I3 AND 8 15 8) = Some [0x7d; 0x8c] /\ decodes [0x7d; 0x8c] [BR AND 8 8 15] /\
  asm (ILd LD 1 40 2) = Some [0xa2; 0x70] /\ decodes [0xa2; 0x70] [BLoad LD 1 2 40].
Proof. vm_compute. done. Qed.
