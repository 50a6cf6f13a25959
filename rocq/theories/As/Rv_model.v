(** Model of the RISC-V 64 instruction encoder of the assembler:
    src/as/arch/riscv64/riscv64_code.h and src/as/arch/riscv64/asm_code.c.

    The C code appends 16-bit and 32-bit words to [code->buf] and returns
    the buffer, or NULL for "Illegal operand" (asm_code.c:665-687).  Here an
    instruction is assembled to a list of bytes, [None] standing for the
    NULL result.

    Simplifications.
    - The operand tags are part of the type of the instruction (the C code
      asserts them, the parser establishes them).
    - [code->inst] and [code->flag] are not modelled here; the flag only
      matters to the relaxation pass.
    - [funct7 << 25] with [funct7 >= 0x40] shifts into the sign bit of an
      [int]; the value stored is then converted to [unsigned int], and here
      it is computed without a width.  All words are shown to fit.
    - An operand offset that is not a constant makes [asm_ld] and its
      siblings return NULL; offsets here are constants. *)
From stdpp Require Import base list numbers.
Open Scope Z_scope.

(** ** Instruction words *)

(** riscv64_code.h:9 IMM(imm, t, b) *)
Definition IMM (imm t b : Z) : Z :=
  Z.land (Z.shiftr imm b) (Z.shiftl 1 (t - b + 1) - 1).

(** riscv64_code.h:12 *)
Definition RTYPE (funct7 rs2 rs1 funct3 rd opcode : Z) : Z :=
  Z.lor (Z.lor (Z.lor (Z.lor (Z.lor (Z.shiftl funct7 25) (Z.shiftl rs2 20))
    (Z.shiftl rs1 15)) (Z.shiftl funct3 12)) (Z.shiftl rd 7)) opcode.

(** riscv64_code.h:13 *)
Definition ITYPE (imm rs1 funct3 rd opcode : Z) : Z :=
  Z.lor (Z.lor (Z.lor (Z.lor (Z.shiftl (IMM imm 11 0) 20) (Z.shiftl rs1 15))
    (Z.shiftl funct3 12)) (Z.shiftl rd 7)) opcode.

(** riscv64_code.h:14 *)
Definition STYPE (imm rs2 rs1 funct3 opcode : Z) : Z :=
  Z.lor (Z.lor (Z.lor (Z.lor (Z.lor (Z.shiftl (IMM imm 11 5) 25) (Z.shiftl rs2 20))
    (Z.shiftl rs1 15)) (Z.shiftl funct3 12)) (Z.shiftl (IMM imm 4 0) 7)) opcode.

(** riscv64_code.h:16 *)
Definition UTYPE (imm rd opcode : Z) : Z :=
  Z.lor (Z.lor (Z.shiftl (IMM imm 31 12) 12) (Z.shiftl rd 7)) opcode.

(** riscv64_code.h:183-186 *)
Definition SWIZZLE_C_J (ofs : Z) : Z :=
  Z.lor (Z.lor (Z.lor (Z.lor (Z.lor (Z.lor (Z.lor
    (Z.shiftl (IMM ofs 11 11) 12) (Z.shiftl (IMM ofs 4 4) 11))
    (Z.shiftl (IMM ofs 9 8) 9)) (Z.shiftl (IMM ofs 10 10) 8))
    (Z.shiftl (IMM ofs 6 6) 7)) (Z.shiftl (IMM ofs 7 7) 6))
    (Z.shiftl (IMM ofs 3 1) 3)) (Z.shiftl (IMM ofs 5 5) 2).

(** riscv64_code.h:187-189 *)
Definition SWIZZLE_C_BXX (ofs : Z) : Z :=
  Z.lor (Z.lor (Z.lor (Z.lor
    (Z.shiftl (IMM ofs 8 8) 12) (Z.shiftl (IMM ofs 4 3) 10))
    (Z.shiftl (IMM ofs 7 6) 5)) (Z.shiftl (IMM ofs 2 1) 3))
    (Z.shiftl (IMM ofs 5 5) 2).

(** riscv64_code.h:190-192 *)
Definition SWIZZLE_BXX (ofs : Z) : Z :=
  Z.lor (Z.lor (Z.lor
    (Z.shiftl (IMM ofs 12 12) 31) (Z.shiftl (IMM ofs 10 5) 25))
    (Z.shiftl (IMM ofs 4 1) 8)) (Z.shiftl (IMM ofs 11 11) 7).

(** riscv64_code.h:193 *)
Definition SWIZZLE_JAL (ofs : Z) : Z :=
  Z.lor (Z.lor (Z.lor
    (Z.shiftl (IMM ofs 20 20) 31) (Z.shiftl (IMM ofs 10 1) 21))
    (Z.shiftl (IMM ofs 11 11) 20)) (Z.shiftl (IMM ofs 19 12) 12).

(** riscv64_code.h:195-198 *)
Definition is_rvc_reg (r : Z) : bool := (8 <=? r) && (r <=? 15).
Definition to_rvc_reg (r : Z) : Z := r - 8.

(** asm_code.c:28-38 *)
Definition is_im6 (x : Z) : bool := (x <=? 31) && (-32 <=? x).
(** The argument is converted to uint64_t, so a negative one is large. *)
Definition is_uim6 (x : Z) : bool := x mod 2 ^ 64 <=? 63.
Definition is_im12 (x : Z) : bool := (x <=? 2047) && (-2048 <=? x).
(** src/util/util.c:309-311 *)
Definition is_im32 (x : Z) : bool := (x <=? 2 ^ 31 - 1) && (- 2 ^ 31 <=? x).

(** ** The code buffer *)

(** asm_code.c:14-19 make_code16: two bytes, little endian (memcpy on a
    little-endian host). *)
Definition H (h : Z) : list Z := [h mod 256; h / 256 mod 256].
(** asm_code.c:21-26 make_code32 *)
Definition W (w : Z) : list Z :=
  [w mod 256; w / 256 mod 256; w / 65536 mod 256; w / 16777216 mod 256].

(** ** Compressed instructions, riscv64_code.h:128-160 *)
Notation "a .| b" := (Z.lor a b) (at level 45, left associativity).
Notation "a .<< b" := (Z.shiftl a b) (at level 44, left associativity).

Definition C_MV (rd rs : Z) := H (0x8002 .| rd .<< 7 .| rs .<< 2).
Definition C_LI (rd imm : Z) :=
  H (0x4001 .| IMM imm 5 5 .<< 12 .| rd .<< 7 .| IMM imm 4 0 .<< 2).
Definition C_LUI (rd imm : Z) :=
  H (0x6001 .| IMM imm 17 17 .<< 12 .| rd .<< 7 .| IMM imm 16 12 .<< 2).
Definition C_ADD (rd rs : Z) := H (0x9002 .| rd .<< 7 .| rs .<< 2).
Definition C_ADDW (rd rs : Z) :=
  H (0x9c21 .| to_rvc_reg rd .<< 7 .| to_rvc_reg rs .<< 2).
Definition C_ADDI (rd imm : Z) :=
  H (0x0001 .| IMM imm 5 5 .<< 12 .| rd .<< 7 .| IMM imm 4 0 .<< 2).
Definition C_ADDIW (rd imm : Z) :=
  H (0x2001 .| IMM imm 5 5 .<< 12 .| rd .<< 7 .| IMM imm 4 0 .<< 2).
Definition C_ADDI16SP (imm : Z) :=
  H (0x6101 .| IMM imm 9 9 .<< 12 .| IMM imm 4 4 .<< 6 .| IMM imm 6 6 .<< 5
     .| IMM imm 8 7 .<< 3 .| IMM imm 5 5 .<< 2).
Definition C_SUB (rd rs : Z) :=
  H (0x8c01 .| to_rvc_reg rd .<< 7 .| to_rvc_reg rs .<< 2).
Definition C_SUBW (rd rs : Z) :=
  H (0x9c01 .| to_rvc_reg rd .<< 7 .| to_rvc_reg rs .<< 2).
Definition C_AND (rd rs : Z) :=
  H (0x8c61 .| to_rvc_reg rd .<< 7 .| to_rvc_reg rs .<< 2).
Definition C_ANDI (rd imm : Z) :=
  H (0x8801 .| IMM imm 5 5 .<< 12 .| to_rvc_reg rd .<< 7 .| IMM imm 4 0 .<< 2).
Definition C_OR (rd rs : Z) :=
  H (0x8c41 .| to_rvc_reg rd .<< 7 .| to_rvc_reg rs .<< 2).
Definition C_XOR (rd rs : Z) :=
  H (0x8c21 .| to_rvc_reg rd .<< 7 .| to_rvc_reg rs .<< 2).
Definition C_SLLI (rd imm : Z) :=
  H (0x0002 .| IMM imm 5 5 .<< 12 .| rd .<< 7 .| IMM imm 4 0 .<< 2).
Definition C_SRLI (rd imm : Z) :=
  H (0x8001 .| IMM imm 5 5 .<< 12 .| to_rvc_reg rd .<< 7 .| IMM imm 4 0 .<< 2).
Definition C_SRAI (rd imm : Z) :=
  H (0x8401 .| IMM imm 5 5 .<< 12 .| to_rvc_reg rd .<< 7 .| IMM imm 4 0 .<< 2).
Definition C_LW (rd imm rs : Z) :=
  H (0x4000 .| IMM imm 5 3 .<< 10 .| to_rvc_reg rs .<< 7 .| IMM imm 2 2 .<< 6
     .| IMM imm 6 6 .<< 5 .| to_rvc_reg rd .<< 2).
Definition C_LD (rd imm rs : Z) :=
  H (0x6000 .| IMM imm 5 3 .<< 10 .| to_rvc_reg rs .<< 7 .| IMM imm 7 6 .<< 5
     .| to_rvc_reg rd .<< 2).
(** No [IMM imm 2 2], unlike [C_LW]: riscv64_code.h:147. *)
Definition C_SW (rs2 imm rs1 : Z) :=
  H (0xc000 .| IMM imm 5 3 .<< 10 .| to_rvc_reg rs1 .<< 7 .| IMM imm 7 6 .<< 5
     .| to_rvc_reg rs2 .<< 2).
Definition C_SD (rs2 imm rs1 : Z) :=
  H (0xe000 .| IMM imm 5 3 .<< 10 .| to_rvc_reg rs1 .<< 7 .| IMM imm 7 6 .<< 5
     .| to_rvc_reg rs2 .<< 2).
Definition C_LDSP (rd imm : Z) :=
  H (0x6002 .| IMM imm 5 5 .<< 12 .| rd .<< 7 .| IMM imm 4 3 .<< 5
     .| IMM imm 8 6 .<< 2).
Definition C_SDSP (rs imm : Z) :=
  H (0xe002 .| IMM imm 5 3 .<< 10 .| IMM imm 8 6 .<< 7 .| rs .<< 2).
(** The jump and branch words carry a zero offset; the relaxation pass ORs
    the offset in (ir_asm_riscv64.c:265, 317). *)
Definition C_J_word : Z := 0xa001.
Definition C_J := H C_J_word.
Definition C_JR (rs : Z) := H (0x8002 .| rs .<< 7).
Definition C_JALR (rs : Z) := H (0x9002 .| rs .<< 7).
Definition C_BEQZ_word (rs : Z) : Z := 0xc001 .| to_rvc_reg rs .<< 7.
Definition C_BNEZ_word (rs : Z) : Z := 0xe001 .| to_rvc_reg rs .<< 7.
Definition C_FLD (rd imm rs : Z) :=
  H (0x2000 .| IMM imm 5 3 .<< 10 .| to_rvc_reg rs .<< 7 .| IMM imm 7 6 .<< 5
     .| to_rvc_reg rd .<< 2).
Definition C_FSD (rs2 imm rs1 : Z) :=
  H (0xa000 .| IMM imm 5 3 .<< 10 .| to_rvc_reg rs1 .<< 7 .| IMM imm 7 6 .<< 5
     .| to_rvc_reg rs2 .<< 2).
Definition C_FLDSP (rd imm : Z) :=
  H (0x2002 .| IMM imm 5 5 .<< 12 .| rd .<< 7 .| IMM imm 4 3 .<< 5
     .| IMM imm 8 6 .<< 2).
Definition C_FSDSP (rs imm : Z) :=
  H (0xa002 .| IMM imm 5 3 .<< 10 .| IMM imm 8 6 .<< 7 .| rs .<< 2).

(** ** Instructions, inst.h:7-64 *)

Inductive op3 :=
  | ADD | ADDW | SUB | SUBW | MUL | MULW | DIV | DIVU | DIVW | DIVUW
  | REM | REMU | REMW | REMUW | AND | OR | XOR
  | SLL | SLLW | SRL | SRLW | SRA | SRAW | SLT | SLTU.
Inductive op2i :=
  | ADDI | ADDIW | ANDI | ORI | XORI | SLTI | SLTIU
  | SLLI | SLLIW | SRLI | SRLIW | SRAI | SRAIW.
Inductive op2 :=
  | NEG | NOT | SEXT_B | SEXT_H | SEXT_W | ZEXT_B | ZEXT_H | ZEXT_W
  | SEQZ | SNEZ | SLTZ | SGTZ.
Inductive ldop := LB | LH | LW | LD | LBU | LHU | LWU.
Inductive sdop := SB | SH | SW | SD.
Inductive brop := BEQ | BNE | BLT | BGE | BLTU | BGEU.
Inductive f3op :=
  | FADD_D | FSUB_D | FMUL_D | FDIV_D | FADD_S | FSUB_S | FMUL_S | FDIV_S
  | FSGNJ_D | FSGNJN_D | FSGNJX_D | FSGNJ_S | FSGNJN_S | FSGNJX_S.
Inductive f2op :=
  | FSQRT_D | FSQRT_S | FMV_D | FNEG_D | FMV_S | FNEG_S | FCVT_D_S | FCVT_S_D.
Inductive fcop := FEQ_D | FLT_D | FLE_D | FEQ_S | FLT_S | FLE_S.
Inductive fiop :=
  | FCVT_D_W | FCVT_D_WU | FCVT_D_L | FCVT_D_LU
  | FCVT_S_W | FCVT_S_WU | FCVT_S_L | FCVT_S_LU.
Inductive ifop :=
  | FMV_X_D | FMV_X_W
  | FCVT_W_D | FCVT_WU_D | FCVT_L_D | FCVT_LU_D
  | FCVT_W_S | FCVT_WU_S | FCVT_L_S | FCVT_LU_S.

Inductive inst :=
  | I3 (o : op3) (rd rs1 rs2 : Z)
  | I2i (o : op2i) (rd rs imm : Z)
  | I2 (o : op2) (rd rs : Z)
  | INoop
  | IMv (rd rs : Z)
  | ILi (rd imm : Z)
  | ILa (rd : Z)
  | ILd (o : ldop) (rd ofs rs : Z)
  | ISd (o : sdop) (rs2 ofs rs1 : Z)
  | IJ
  | IJr (rs : Z)
  | IJalr (rs : Z)
  | IB (o : brop) (rs1 rs2 : Z)
  | ICall
  | IRet
  | IEcall
  | IF3 (o : f3op) (rd rs1 rs2 : Z)
  | IF2 (o : f2op) (rd rs : Z)
  | IFcmp (o : fcop) (rd rs1 rs2 : Z)
  | IFld (dbl : bool) (rd ofs rs : Z)          (* FLD / FLW *)
  | IFsd (dbl : bool) (rs2 ofs rs1 : Z)        (* FSD / FSW *)
  | IFi (o : fiop) (rd rs : Z)
  | IIf (o : ifop) (rd rs : Z) (rm : option Z).

#[global] Instance op3_eq : EqDecision op3. Proof. solve_decision. Defined.
#[global] Instance op2i_eq : EqDecision op2i. Proof. solve_decision. Defined.

(** The 32-bit forms of the three-register instructions,
    riscv64_code.h:20-55 *)
Definition w_op3 (o : op3) (rd rs1 rs2 : Z) : list Z :=
  let r f7 f3 opc := W (RTYPE f7 rs2 rs1 f3 rd opc) in
  match o with
  | ADD => r 0x00 0x00 0x33 | ADDW => r 0x00 0x00 0x3b
  | SUB => r 0x20 0x00 0x33 | SUBW => r 0x20 0x00 0x3b
  | MUL => r 0x01 0x00 0x33 | MULW => r 0x01 0x00 0x3b
  | DIV => r 0x01 0x04 0x33 | DIVU => r 0x01 0x05 0x33
  | DIVW => r 0x01 0x04 0x3b | DIVUW => r 0x01 0x05 0x3b
  | REM => r 0x01 0x06 0x33 | REMU => r 0x01 0x07 0x33
  | REMW => r 0x01 0x06 0x3b | REMUW => r 0x01 0x07 0x3b
  | AND => r 0x00 0x07 0x33 | OR => r 0x00 0x06 0x33 | XOR => r 0x00 0x04 0x33
  | SLL => r 0x00 0x01 0x33 | SLLW => r 0x00 0x01 0x3b
  | SRL => r 0x00 0x05 0x33 | SRLW => r 0x00 0x05 0x3b
  | SRA => r 0x20 0x05 0x33 | SRAW => r 0x20 0x05 0x3b
  | SLT => r 0x00 0x02 0x33 | SLTU => r 0x00 0x03 0x33
  end.

(** asm_code.c:47-117 asm_3r *)
Definition asm_3r (o : op3) (rd rs1 rs2 : Z) : list Z :=
  let short :=
    if rd =? rs1 then
      if is_rvc_reg rd && is_rvc_reg rs2 then
        match o with
        | ADD => Some (C_ADD rd rs2) | ADDW => Some (C_ADDW rd rs2)
        | SUB => Some (C_SUB rd rs2) | SUBW => Some (C_SUBW rd rs2)
        | AND => Some (C_AND rd rs2) | OR => Some (C_OR rd rs2)
        | XOR => Some (C_XOR rd rs2) | _ => None
        end
      else None
    else if rd =? rs2 then
      if is_rvc_reg rd && is_rvc_reg rs1 then
        match o with
        | ADD => Some (C_ADD rd rs1) | ADDW => Some (C_ADDW rd rs1)
        | AND => Some (C_AND rd rs1) | OR => Some (C_OR rd rs1)
        | XOR => Some (C_XOR rd rs1) | _ => None
        end
      else None
    else None in
  match short with
  | Some c => c
  | None =>
      match o with
      | ADD => if rd =? rs1 then C_ADD rd rs2
               else if rd =? rs2 then C_ADD rd rs1
               else w_op3 ADD rd rs1 rs2
      | _ => w_op3 o rd rs1 rs2
      end
  end.

(** asm_code.c:231-239 asm_mv *)
Definition asm_mv (rd rs : Z) : list Z :=
  if rs =? 0 then C_LI rd 0 else C_MV rd rs.

(** The 32-bit forms of the register-immediate instructions,
    riscv64_code.h:22-57 *)
Definition w_op2i (o : op2i) (rd rs imm : Z) : list Z :=
  let i im f3 opc := W (ITYPE im rs f3 rd opc) in
  match o with
  | ADDI => i imm 0x00 0x13 | ADDIW => i imm 0x00 0x1b
  | ANDI => i imm 0x07 0x13 | ORI => i imm 0x06 0x13 | XORI => i imm 0x04 0x13
  | SLTI => i imm 0x02 0x13 | SLTIU => i imm 0x03 0x13
  | SLLI => i (Z.land imm 63) 0x01 0x13
  | SLLIW => i (Z.land imm 31) 0x01 0x1b
  | SRLI => i (Z.land imm 63) 0x05 0x13
  | SRLIW => i (Z.land imm 63) 0x05 0x1b
  | SRAI => i (0x400 .| Z.land imm 63) 0x05 0x13
  | SRAIW => i (0x400 .| Z.land imm 63) 0x05 0x1b
  end.

(** asm_code.c:119-200 asm_2ri *)
Definition asm_2ri (o : op2i) (rd rs imm : Z) : option (list Z) :=
  if bool_decide (o = ADDI) && (imm =? 0) then
    Some (if rd =? rs then [] else asm_mv rd rs)
  else
    let s1 := if (rd =? rs) && is_im6 imm then
        match o with
        | ADDI => if imm =? 0 then None else Some (C_ADDI rd imm)
        | ADDIW => Some (C_ADDIW rd imm)
        | ANDI => if is_rvc_reg rd then Some (C_ANDI rd imm) else None
        | _ => None
        end else None in
    let s2 := if (rd =? rs) && is_uim6 imm then
        match o with
        | SLLI => if negb (rd =? 0) && negb (imm =? 0) then Some (C_SLLI rd imm) else None
        | SRLI => if is_rvc_reg rd then Some (C_SRLI rd imm) else None
        | SRAI => if is_rvc_reg rd then Some (C_SRAI rd imm) else None
        | _ => None
        end else None in
    let s3 := if (rd =? rs) && bool_decide (o = ADDI) && (rd =? 2)
                 && is_im6 (Z.shiftr imm 4) && (Z.land imm 0xf =? 0)
                 && negb (imm =? 0)
              then Some (C_ADDI16SP imm) else None in
    match s1 with
    | Some c => Some c
    | None =>
    match s2 with
    | Some c => Some c
    | None =>
    match s3 with
    | Some c => Some c
    | None =>
        match o with
        | ADDI | ADDIW | ANDI | ORI | XORI | SLTI | SLTIU =>
            if (2048 <=? imm) || (imm <? -2048) then None
            else Some (w_op2i o rd rs imm)
        | SLLI | SLLIW | SRLI | SRLIW | SRAI | SRAIW =>
            if (64 <=? imm) || (bool_decide (o = SLLIW) && (32 <=? imm)) || (imm <? 0)
            then None
            else Some (w_op2i o rd rs imm)
        end
    end end end.

(** The two-shift pseudo instructions, riscv64_code.h:167-172 *)
Definition P_shift2 (right_c : Z -> Z -> list Z) (right_w : Z -> Z -> list Z)
    (rd rs n : Z) : list Z :=
  (if rd =? rs then C_SLLI rd n else w_op2i SLLI rd rs n)
  ++ (if is_rvc_reg rd then right_c rd n else right_w rd n).
Definition P_sext := P_shift2 C_SRAI (fun rd n => w_op2i SRAI rd rd n).
Definition P_zext := P_shift2 C_SRLI (fun rd n => w_op2i SRLI rd rd n).

(** asm_code.c:202-223 asm_2r, riscv64_code.h:165-176 *)
Definition asm_2r (o : op2) (rd rs : Z) : list Z :=
  match o with
  | NEG => w_op3 SUB rd 0 rs
  | NOT => w_op2i XORI rd rs (-1)
  | SEXT_B => P_sext rd rs 56
  | SEXT_H => P_sext rd rs 48
  | SEXT_W => if rd =? rs then C_ADDIW rd 0 else w_op2i ADDIW rd rs 0
  | ZEXT_B => w_op2i ANDI rd rs 0xff
  | ZEXT_H => P_zext rd rs 48
  | ZEXT_W => P_zext rd rs 32
  | SEQZ => w_op2i SLTIU rd rs 1
  | SNEZ => w_op3 SLTU rd 0 rs
  | SLTZ => w_op3 SLT rd rs 0
  | SGTZ => w_op3 SLT rd 0 rs
  end.

(** asm_code.c:241-275 li_sub.  The recursion shifts the immediate right by
    12 bits each time; [fuel] bounds it. *)
Fixpoint li_sub (fuel : nat) (rd imm : Z) : option (list Z) :=
  if is_im6 imm then Some (C_LI rd imm)
  else if is_im12 imm then Some (w_op2i ADDI rd 0 imm)
  else if is_im32 imm then
    let l := Z.land imm 0xfff in
    let l' := if 0x800 <=? l then l - 0x1000 else l in
    let imm' := if 0x800 <=? l then imm + 2 ^ 12 else imm in
    Some ((if is_im6 (Z.shiftr imm' 12) then C_LUI rd imm'
           else W (UTYPE imm' rd 0x37))
          ++ (if is_im6 l' then C_ADDIW rd l' else w_op2i ADDIW rd rd l'))
  else
    match fuel with
    | O => None
    | S fuel' =>
        let l := Z.land imm 0xfff in
        let l' := if 0x800 <=? l then l - 0x1000 else l in
        let imm' := if 0x800 <=? l then Z.shiftr imm 12 + 1 else Z.shiftr imm 12 in
        match li_sub fuel' rd imm' with
        | None => None
        | Some c =>
            Some (c ++ C_SLLI rd 12
                    ++ (if is_im6 l' then C_ADDI rd l' else w_op2i ADDI rd rd l'))
        end
    end.

(** asm_code.c:277-280 asm_li.  [make_code16] and [make_code32] assert that
    the 26-byte buffer (src/as/asm_code.h) is not overrun: overrunning is
    [None] here. *)
Definition code_buf_size : nat := 26.
Definition asm_li (rd imm : Z) : option (list Z) :=
  match li_sub 64 rd imm with
  | Some c => if (length c <=? code_buf_size)%nat then Some c else None
  | None => None
  end.

(** riscv64_code.h:58-64 *)
Definition w_ld (o : ldop) (rd ofs rs : Z) : list Z :=
  let f3 := match o with
    | LB => 0 | LH => 1 | LW => 2 | LD => 3 | LBU => 4 | LHU => 5 | LWU => 6 end in
  W (ITYPE ofs rs f3 rd 0x03).
(** riscv64_code.h:65-68 *)
Definition w_sd (o : sdop) (rs2 ofs rs1 : Z) : list Z :=
  let f3 := match o with SB => 0 | SH => 1 | SW => 2 | SD => 3 end in
  W (STYPE ofs rs2 rs1 f3 0x23).

(** [ofs >= 0 && ofs < (1 << n) && (ofs & m) == 0] *)
Definition ofs_ok (n m ofs : Z) : bool :=
  (0 <=? ofs) && (ofs <? 2 ^ n) && (Z.land ofs m =? 0).

(** asm_code.c:289-340 asm_ld *)
Definition asm_ld (o : ldop) (rd ofs rs : Z) : list Z :=
  match o with
  | LW => if ofs_ok 7 3 ofs && is_rvc_reg rd && is_rvc_reg rs then C_LW rd ofs rs
          else w_ld LW rd ofs rs
  | LD => if ofs_ok 9 7 ofs && (rs =? 2) then C_LDSP rd ofs
          else if ofs_ok 8 7 ofs && is_rvc_reg rd && is_rvc_reg rs then C_LD rd ofs rs
          else w_ld LD rd ofs rs
  | _ => w_ld o rd ofs rs
  end.

(** asm_code.c:342-381 asm_sd *)
Definition asm_sd (o : sdop) (rs2 ofs rs1 : Z) : list Z :=
  match o with
  | SW => if ofs_ok 7 3 ofs && is_rvc_reg rs1 && is_rvc_reg rs2 then C_SW rs2 ofs rs1
          else w_sd SW rs2 ofs rs1
  | SD => if ofs_ok 9 7 ofs && (rs1 =? 2) then C_SDSP rs2 ofs
          else if ofs_ok 8 7 ofs && is_rvc_reg rs1 && is_rvc_reg rs2 then C_SD rs2 ofs rs1
          else w_sd SD rs2 ofs rs1
  | _ => w_sd o rs2 ofs rs1
  end.

(** asm_code.c:401-406, 419 *)
Definition br_funct3 (o : brop) : Z :=
  match o with BEQ => 0 | BNE => 1 | BLT => 4 | BGE => 5 | BLTU => 6 | BGEU => 7 end.

(** riscv64_code.h:73 W_BXX and ir_asm_riscv64.c's patched word *)
Definition W_BXX_word (o : brop) (rs1 rs2 ofs : Z) : Z :=
  STYPE 0 rs2 rs1 (br_funct3 o) 0x63 .| SWIZZLE_BXX ofs.
(** riscv64_code.h:71 W_JAL *)
Definition W_JAL_word (rd ofs : Z) : Z := UTYPE (SWIZZLE_JAL ofs) rd 0x6f.

(** asm_code.c:408-423 asm_bxx *)
Definition asm_bxx (o : brop) (rs1 rs2 : Z) : list Z :=
  match o with
  | BEQ => if (rs2 =? 0) && is_rvc_reg rs1 then H (C_BEQZ_word rs1)
           else W (W_BXX_word o rs1 rs2 0)
  | BNE => if (rs2 =? 0) && is_rvc_reg rs1 then H (C_BNEZ_word rs1)
           else W (W_BXX_word o rs1 rs2 0)
  | _ => W (W_BXX_word o rs1 rs2 0)
  end.

(** asm_code.c:441-467 asm_3fr, riscv64_code.h:76-83, 96-101 *)
Definition asm_3fr (o : f3op) (rd rs1 rs2 : Z) : list Z :=
  let r f7 f3 := W (RTYPE f7 rs2 rs1 f3 rd 0x53) in
  match o with
  | FADD_D => r 0x01 7 | FSUB_D => r 0x05 7 | FMUL_D => r 0x09 7 | FDIV_D => r 0x0d 7
  | FADD_S => r 0x00 7 | FSUB_S => r 0x04 7 | FMUL_S => r 0x08 7 | FDIV_S => r 0x0c 7
  | FSGNJ_D => r 0x11 0 | FSGNJN_D => r 0x11 1 | FSGNJX_D => r 0x11 2
  | FSGNJ_S => r 0x10 0 | FSGNJN_S => r 0x10 1 | FSGNJX_S => r 0x10 2
  end.

(** asm_code.c:469-487 asm_2fr, riscv64_code.h:84-85, 121-122, 178-181 *)
Definition asm_2fr (o : f2op) (rd rs : Z) : list Z :=
  let r f7 rs2 f3 := W (RTYPE f7 rs2 rs f3 rd 0x53) in
  match o with
  | FSQRT_D => r 0x2d 0 7 | FSQRT_S => r 0x2c 0 7
  | FMV_D => asm_3fr FSGNJ_D rd rs rs | FNEG_D => asm_3fr FSGNJN_D rd rs rs
  | FMV_S => asm_3fr FSGNJ_S rd rs rs | FNEG_S => asm_3fr FSGNJN_S rd rs rs
  | FCVT_D_S => r 0x21 0 0 | FCVT_S_D => r 0x20 1 7
  end.

(** asm_code.c:489-506 asm_fcmp, riscv64_code.h:86-91.  The destination is
    read through the [freg] member of the operand union although the parser
    stored it in [reg.no]; on a little-endian host with zeroed operands this
    is the same number. *)
Definition asm_fcmp (o : fcop) (rd rs1 rs2 : Z) : list Z :=
  let r f7 f3 := W (RTYPE f7 rs2 rs1 f3 rd 0x53) in
  match o with
  | FEQ_D => r 0x51 2 | FLT_D => r 0x51 1 | FLE_D => r 0x51 0
  | FEQ_S => r 0x50 2 | FLT_S => r 0x50 1 | FLE_S => r 0x50 0
  end.

(** asm_code.c:508-533 asm_fld *)
Definition asm_fld (dbl : bool) (rd ofs rs : Z) : list Z :=
  if dbl then
    if ofs_ok 9 7 ofs && (rs =? 2) then C_FLDSP rd ofs
    else if ofs_ok 8 7 ofs && is_rvc_reg rd && is_rvc_reg rs then C_FLD rd ofs rs
    else W (ITYPE ofs rs 3 rd 0x07)
  else W (ITYPE ofs rs 2 rd 0x07).

(** asm_code.c:535-560 asm_fsd *)
Definition asm_fsd (dbl : bool) (rs2 ofs rs1 : Z) : list Z :=
  if dbl then
    if ofs_ok 9 7 ofs && (rs1 =? 2) then C_FSDSP rs2 ofs
    else if ofs_ok 8 7 ofs && is_rvc_reg rs1 && is_rvc_reg rs2 then C_FSD rs2 ofs rs1
    else W (STYPE ofs rs2 rs1 3 0x27)
  else W (STYPE ofs rs2 rs1 2 0x27).

(** asm_code.c:562-579 asm_fi, riscv64_code.h:103-110 *)
Definition asm_fi (o : fiop) (rd rs : Z) : list Z :=
  let r f7 n f3 := W (RTYPE f7 n rs f3 rd 0x53) in
  match o with
  | FCVT_D_W => r 0x69 0 0 | FCVT_D_WU => r 0x69 1 0
  | FCVT_D_L => r 0x69 2 7 | FCVT_D_LU => r 0x69 3 7
  | FCVT_S_W => r 0x68 0 7 | FCVT_S_WU => r 0x68 1 7
  | FCVT_S_L => r 0x68 2 7 | FCVT_S_LU => r 0x68 3 7
  end.

(** asm_code.c:581-601 asm_if, riscv64_code.h:112-125 *)
Definition asm_if (o : ifop) (rd rs : Z) (rm : option Z) : list Z :=
  let m := match rm with Some m => m | None => 0 end in
  let r f7 n f3 := W (RTYPE f7 n rs f3 rd 0x53) in
  match o with
  | FMV_X_D => r 0x71 0 0 | FMV_X_W => r 0x70 0 0
  | FCVT_W_D => r 0x61 0 m | FCVT_WU_D => r 0x61 1 m
  | FCVT_L_D => r 0x61 2 m | FCVT_LU_D => r 0x61 3 m
  | FCVT_W_S => r 0x60 0 m | FCVT_WU_S => r 0x60 1 m
  | FCVT_L_S => r 0x60 2 m | FCVT_LU_S => r 0x60 3 m
  end.

(** asm_code.c:607-687 the table and assemble_inst.  [ILa], [IJ], [IB] and
    [ICall] are assembled with a zero offset, to be filled in later. *)
Definition asm (i : inst) : option (list Z) :=
  match i with
  | I3 o rd rs1 rs2 => Some (asm_3r o rd rs1 rs2)
  | I2i o rd rs imm => asm_2ri o rd rs imm
  | I2 o rd rs => Some (asm_2r o rd rs)
  | INoop => Some []
  | IMv rd rs => Some (asm_mv rd rs)
  | ILi rd imm => asm_li rd imm
  | ILa rd => Some (W (UTYPE 0 rd 0x17) ++ w_op2i ADDI rd rd 0)
  | ILd o rd ofs rs => Some (asm_ld o rd ofs rs)
  | ISd o rs2 ofs rs1 => Some (asm_sd o rs2 ofs rs1)
  | IJ => Some C_J
  | IJr rs => Some (C_JR rs)
  | IJalr rs => Some (C_JALR rs)
  | IB o rs1 rs2 => Some (asm_bxx o rs1 rs2)
  | ICall => Some (W (UTYPE 0 1 0x17) ++ W (ITYPE 0 1 0 1 0x67))
  | IRet => Some (C_JR 1)
  | IEcall => Some (W (UTYPE 0 0 0x73))
  | IF3 o rd rs1 rs2 => Some (asm_3fr o rd rs1 rs2)
  | IF2 o rd rs => Some (asm_2fr o rd rs)
  | IFcmp o rd rs1 rs2 => Some (asm_fcmp o rd rs1 rs2)
  | IFld d rd ofs rs => Some (asm_fld d rd ofs rs)
  | IFsd d rs2 ofs rs1 => Some (asm_fsd d rs2 ofs rs1)
  | IFi o rd rs => Some (asm_fi o rd rs)
  | IIf o rd rs rm => Some (asm_if o rd rs rm)
  end.
