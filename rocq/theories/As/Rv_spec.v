(** What the bytes mean: a decoder for the RISC-V instructions that matter
    here (RV64I, M, the F and D instructions the assembler knows, and C),
    written from the instruction set manual in terms of bit fields read by
    division, and what the integer computations do to the registers.

    Only the mnemonics (the enumerations of Rv_model) are shared with the
    model of the assembler. *)
From stdpp Require Import base list numbers option.
From Verif Require Import As.Rv_model.
Open Scope Z_scope.

(** ** Instructions after decoding *)
Inductive base :=
  | BR (o : op3) (rd rs1 rs2 : Z)
  | BI (o : op2i) (rd rs1 imm : Z)
  | BLui (rd v : Z)                      (* rd := v *)
  | BAuipc (rd v : Z)                    (* rd := pc + v *)
  | BLoad (o : ldop) (rd rs1 imm : Z)
  | BStore (o : sdop) (rs2 rs1 imm : Z)
  | BBr (o : brop) (rs1 rs2 ofs : Z)
  | BJal (rd ofs : Z)
  | BJalr (rd rs1 ofs : Z)
  | BEcall
  | BEbreak
  | BF3 (o : f3op) (rd rs1 rs2 : Z)
  | BFsqrt (dbl : bool) (rd rs : Z)
  | BFcvtF (to_dbl : bool) (rd rs : Z)   (* between the float formats *)
  | BFcmp (o : fcop) (rd rs1 rs2 : Z)
  | BFload (dbl : bool) (rd rs1 imm : Z)
  | BFstore (dbl : bool) (rs2 rs1 imm : Z)
  | BFi (o : fiop) (rd rs : Z)
  | BIf (o : ifop) (rd rs rm : Z).       (* rm = 0 for the moves *)

(** Bits [hi..lo] of a word, as a number. *)
Definition bits (w hi lo : Z) : Z := w / 2 ^ lo mod 2 ^ (hi - lo + 1).
(** The number denoted by [n] bits read as two's complement. *)
Definition sext (n x : Z) : Z := if x <? 2 ^ (n - 1) then x else x - 2 ^ n.

(** ** 32-bit instructions *)
Definition decode32 (w : Z) : option base :=
  let opc := bits w 6 0 in
  let rd := bits w 11 7 in
  let f3 := bits w 14 12 in
  let rs1 := bits w 19 15 in
  let rs2 := bits w 24 20 in
  let f7 := bits w 31 25 in
  let immI := sext 12 (bits w 31 20) in
  let immS := sext 12 (bits w 31 25 * 32 + bits w 11 7) in
  let immB := sext 13 (bits w 31 31 * 4096 + bits w 7 7 * 2048
                       + bits w 30 25 * 32 + bits w 11 8 * 2) in
  let immU := sext 32 (bits w 31 12 * 4096) in
  let immJ := sext 21 (bits w 31 31 * 2 ^ 20 + bits w 19 12 * 4096
                       + bits w 20 20 * 2048 + bits w 30 21 * 2) in
  let r o := Some (BR o rd rs1 rs2) in
  let i o := Some (BI o rd rs1 immI) in
  if opc =? 51 then              (* OP *)
    match f7, f3 with
    | 0, 0 => r ADD | 32, 0 => r SUB | 0, 1 => r SLL | 0, 2 => r SLT
    | 0, 3 => r SLTU | 0, 4 => r XOR | 0, 5 => r SRL | 32, 5 => r SRA
    | 0, 6 => r OR | 0, 7 => r AND
    | 1, 0 => r MUL | 1, 4 => r DIV | 1, 5 => r DIVU | 1, 6 => r REM | 1, 7 => r REMU
    | _, _ => None
    end
  else if opc =? 59 then         (* OP-32 *)
    match f7, f3 with
    | 0, 0 => r ADDW | 32, 0 => r SUBW | 0, 1 => r SLLW | 0, 5 => r SRLW
    | 32, 5 => r SRAW
    | 1, 0 => r MULW | 1, 4 => r DIVW | 1, 5 => r DIVUW | 1, 6 => r REMW | 1, 7 => r REMUW
    | _, _ => None
    end
  else if opc =? 19 then         (* OP-IMM; the 64-bit shifts have 6-bit amounts *)
    match f3 with
    | 0 => i ADDI | 2 => i SLTI | 3 => i SLTIU | 4 => i XORI | 6 => i ORI | 7 => i ANDI
    | 1 => if bits w 31 26 =? 0 then Some (BI SLLI rd rs1 (bits w 25 20)) else None
    | 5 => if bits w 31 26 =? 0 then Some (BI SRLI rd rs1 (bits w 25 20))
           else if bits w 31 26 =? 16 then Some (BI SRAI rd rs1 (bits w 25 20))
           else None
    | _ => None
    end
  else if opc =? 27 then         (* OP-IMM-32; 5-bit amounts *)
    match f3 with
    | 0 => i ADDIW
    | 1 => if f7 =? 0 then Some (BI SLLIW rd rs1 rs2) else None
    | 5 => if f7 =? 0 then Some (BI SRLIW rd rs1 rs2)
           else if f7 =? 32 then Some (BI SRAIW rd rs1 rs2) else None
    | _ => None
    end
  else if opc =? 3 then          (* LOAD *)
    let l o := Some (BLoad o rd rs1 immI) in
    match f3 with
    | 0 => l LB | 1 => l LH | 2 => l LW | 3 => l LD | 4 => l LBU | 5 => l LHU | 6 => l LWU
    | _ => None
    end
  else if opc =? 35 then         (* STORE *)
    let s o := Some (BStore o rs2 rs1 immS) in
    match f3 with 0 => s SB | 1 => s SH | 2 => s SW | 3 => s SD | _ => None end
  else if opc =? 55 then Some (BLui rd immU)
  else if opc =? 23 then Some (BAuipc rd immU)
  else if opc =? 111 then Some (BJal rd immJ)
  else if opc =? 103 then (if f3 =? 0 then Some (BJalr rd rs1 immI) else None)
  else if opc =? 99 then         (* BRANCH *)
    let b o := Some (BBr o rs1 rs2 immB) in
    match f3 with
    | 0 => b BEQ | 1 => b BNE | 4 => b BLT | 5 => b BGE | 6 => b BLTU | 7 => b BGEU
    | _ => None
    end
  else if opc =? 115 then        (* SYSTEM *)
    if w =? 115 then Some BEcall
    else if w =? 1048691 then Some BEbreak else None
  else if opc =? 7 then          (* LOAD-FP *)
    match f3 with
    | 2 => Some (BFload false rd rs1 immI) | 3 => Some (BFload true rd rs1 immI)
    | _ => None
    end
  else if opc =? 39 then         (* STORE-FP *)
    match f3 with
    | 2 => Some (BFstore false rs2 rs1 immS) | 3 => Some (BFstore true rs2 rs1 immS)
    | _ => None
    end
  else if opc =? 83 then         (* OP-FP *)
    let dyn o := if f3 =? 7 then Some (BF3 o rd rs1 rs2) else None in
    let cvt o := if f3 =? 7 then Some (BFi o rd rs1) else None in
    (* an exact conversion: any valid rounding mode will do *)
    let exact b := if (f3 <? 5) || (f3 =? 7) then Some b else None in
    let rmv o := if (f3 <? 5) || (f3 =? 7) then Some (BIf o rd rs1 f3) else None in
    match f7 with
    | 0 => dyn FADD_S | 1 => dyn FADD_D | 4 => dyn FSUB_S | 5 => dyn FSUB_D
    | 8 => dyn FMUL_S | 9 => dyn FMUL_D | 12 => dyn FDIV_S | 13 => dyn FDIV_D
    | 16 => match f3 with
            | 0 => Some (BF3 FSGNJ_S rd rs1 rs2) | 1 => Some (BF3 FSGNJN_S rd rs1 rs2)
            | 2 => Some (BF3 FSGNJX_S rd rs1 rs2) | _ => None end
    | 17 => match f3 with
            | 0 => Some (BF3 FSGNJ_D rd rs1 rs2) | 1 => Some (BF3 FSGNJN_D rd rs1 rs2)
            | 2 => Some (BF3 FSGNJX_D rd rs1 rs2) | _ => None end
    | 32 => if (rs2 =? 1) && (f3 =? 7) then Some (BFcvtF false rd rs1) else None
    | 33 => if rs2 =? 0 then exact (BFcvtF true rd rs1) else None
    | 44 => if (rs2 =? 0) && (f3 =? 7) then Some (BFsqrt false rd rs1) else None
    | 45 => if (rs2 =? 0) && (f3 =? 7) then Some (BFsqrt true rd rs1) else None
    | 80 => match f3 with
            | 0 => Some (BFcmp FLE_S rd rs1 rs2) | 1 => Some (BFcmp FLT_S rd rs1 rs2)
            | 2 => Some (BFcmp FEQ_S rd rs1 rs2) | _ => None end
    | 81 => match f3 with
            | 0 => Some (BFcmp FLE_D rd rs1 rs2) | 1 => Some (BFcmp FLT_D rd rs1 rs2)
            | 2 => Some (BFcmp FEQ_D rd rs1 rs2) | _ => None end
    | 96 => match rs2 with
            | 0 => rmv FCVT_W_S | 1 => rmv FCVT_WU_S | 2 => rmv FCVT_L_S
            | 3 => rmv FCVT_LU_S | _ => None end
    | 97 => match rs2 with
            | 0 => rmv FCVT_W_D | 1 => rmv FCVT_WU_D | 2 => rmv FCVT_L_D
            | 3 => rmv FCVT_LU_D | _ => None end
    | 104 => match rs2 with
            | 0 => cvt FCVT_S_W | 1 => cvt FCVT_S_WU | 2 => cvt FCVT_S_L
            | 3 => cvt FCVT_S_LU | _ => None end
    | 105 => match rs2 with
            | 0 => exact (BFi FCVT_D_W rd rs1) | 1 => exact (BFi FCVT_D_WU rd rs1)
            | 2 => cvt FCVT_D_L | 3 => cvt FCVT_D_LU | _ => None end
    | 112 => if (rs2 =? 0) && (f3 =? 0) then Some (BIf FMV_X_W rd rs1 0) else None
    | 113 => if (rs2 =? 0) && (f3 =? 0) then Some (BIf FMV_X_D rd rs1 0) else None
    | _ => None
    end
  else None.

(** ** 16-bit instructions: the base instruction each expands to.  Reserved
    encodings are [None]; the hints (writes to x0) are kept. *)
Definition decode16 (h : Z) : option base :=
  let f3 := bits h 15 13 in
  let rd := bits h 11 7 in
  let rs2 := bits h 6 2 in
  let rd' := 8 + bits h 4 2 in            (* also rs2' *)
  let rs1' := 8 + bits h 9 7 in
  let imm6 := sext 6 (bits h 12 12 * 32 + bits h 6 2) in
  let sh6 := bits h 12 12 * 32 + bits h 6 2 in
  let uw := bits h 5 5 * 64 + bits h 12 10 * 8 + bits h 6 6 * 4 in
  let ud := bits h 6 5 * 64 + bits h 12 10 * 8 in
  let usp := bits h 4 2 * 64 + bits h 12 12 * 32 + bits h 6 5 * 8 in
  let ussp := bits h 9 7 * 64 + bits h 12 10 * 8 in
  let jimm := sext 12 (bits h 12 12 * 2048 + bits h 11 11 * 16 + bits h 10 9 * 256
      + bits h 8 8 * 1024 + bits h 7 7 * 64 + bits h 6 6 * 128 + bits h 5 3 * 2
      + bits h 2 2 * 32) in
  let bimm := sext 9 (bits h 12 12 * 256 + bits h 11 10 * 8 + bits h 6 5 * 64
      + bits h 4 3 * 2 + bits h 2 2 * 32) in
  match bits h 1 0 with
  | 0 =>
    match f3 with
    | 0 => let u := bits h 10 7 * 64 + bits h 12 11 * 16 + bits h 5 5 * 8 + bits h 6 6 * 4 in
           if u =? 0 then None else Some (BI ADDI rd' 2 u)
    | 1 => Some (BFload true rd' rs1' ud)
    | 2 => Some (BLoad LW rd' rs1' uw)
    | 3 => Some (BLoad LD rd' rs1' ud)
    | 5 => Some (BFstore true rd' rs1' ud)
    | 6 => Some (BStore SW rd' rs1' uw)
    | 7 => Some (BStore SD rd' rs1' ud)
    | _ => None
    end
  | 1 =>
    match f3 with
    | 0 => Some (BI ADDI rd rd imm6)
    | 1 => if rd =? 0 then None else Some (BI ADDIW rd rd imm6)
    | 2 => Some (BI ADDI rd 0 imm6)
    | 3 => if rd =? 2 then
             let n := sext 10 (bits h 12 12 * 512 + bits h 4 3 * 128 + bits h 5 5 * 64
                               + bits h 2 2 * 32 + bits h 6 6 * 16) in
             if n =? 0 then None else Some (BI ADDI 2 2 n)
           else if imm6 =? 0 then None else Some (BLui rd (imm6 * 4096))
    | 4 => match bits h 11 10 with
           | 0 => Some (BI SRLI rs1' rs1' sh6)
           | 1 => Some (BI SRAI rs1' rs1' sh6)
           | 2 => Some (BI ANDI rs1' rs1' imm6)
           | _ => let o o := Some (BR o rs1' rs1' rd') in
                  match bits h 12 12, bits h 6 5 with
                  | 0, 0 => o SUB | 0, 1 => o XOR | 0, 2 => o OR | 0, _ => o AND
                  | _, 0 => o SUBW | _, 1 => o ADDW | _, _ => None
                  end
           end
    | 5 => Some (BJal 0 jimm)
    | 6 => Some (BBr BEQ rs1' 0 bimm)
    | _ => Some (BBr BNE rs1' 0 bimm)
    end
  | 2 =>
    match f3 with
    | 0 => Some (BI SLLI rd rd sh6)
    | 1 => Some (BFload true rd 2 usp)
    | 2 => if rd =? 0 then None
           else Some (BLoad LW rd 2 (bits h 3 2 * 64 + bits h 12 12 * 32 + bits h 6 4 * 4))
    | 3 => if rd =? 0 then None else Some (BLoad LD rd 2 usp)
    | 4 => if bits h 12 12 =? 0 then
             if rs2 =? 0 then (if rd =? 0 then None else Some (BJalr 0 rd 0))
             else Some (BR ADD rd 0 rs2)
           else if rs2 =? 0 then (if rd =? 0 then Some BEbreak else Some (BJalr 1 rd 0))
           else Some (BR ADD rd rd rs2)
    | 5 => Some (BFstore true rs2 2 ussp)
    | 6 => Some (BStore SW rs2 2 (bits h 8 7 * 64 + bits h 12 9 * 4))
    | _ => Some (BStore SD rs2 2 ussp)
    end
  | _ => None
  end.

(** A byte sequence is a sequence of little-endian parcels; the two low bits
    of an instruction give its length. *)
Fixpoint decode (fuel : nat) (bs : list Z) : option (list base) :=
  match fuel with
  | O => match bs with [] => Some [] | _ => None end
  | S f =>
    match bs with
    | [] => Some []
    | b0 :: b1 :: r =>
        if b0 mod 4 =? 3 then
          match r with
          | b2 :: b3 :: r' =>
              match decode32 (b0 + b1 * 256 + b2 * 65536 + b3 * 16777216), decode f r' with
              | Some b, Some l => Some (b :: l)
              | _, _ => None
              end
          | _ => None
          end
        else
          match decode16 (b0 + b1 * 256), decode f r with
          | Some b, Some l => Some (b :: l)
          | _, _ => None
          end
    | _ => None
    end
  end.
Definition decodes (bs : list Z) (l : list base) : Prop :=
  decode (length bs) bs = Some l.

(** ** Registers and integer computation *)

(** Register contents are numbers below 2^64; x0 always reads as 0. *)
Definition regs := Z -> Z.
Definition regs_ok (r : regs) : Prop :=
  (forall n, 0 <= r n < 2 ^ 64) /\ r 0 = 0.
Definition wr (r : regs) (n v : Z) : regs :=
  fun m => if (m =? n) && negb (n =? 0) then v else r m.

Definition u64 (x : Z) : Z := x mod 2 ^ 64.
Definition u32 (x : Z) : Z := x mod 2 ^ 32.
Definition s64 (x : Z) : Z := sext 64 (u64 x).
Definition s32 (x : Z) : Z := sext 32 (u32 x).
Definition b2z (b : bool) : Z := if b then 1 else 0.

(** Division as the manual defines it: toward zero; by zero gives all ones
    or the dividend; the overflowing case wraps. *)
Definition divS (x y : Z) : Z := if y =? 0 then -1 else Z.quot x y.
Definition remS (x y : Z) : Z := if y =? 0 then x else Z.rem x y.

Definition alu3 (o : op3) (a b : Z) : Z :=
  match o with
  | ADD => u64 (a + b) | SUB => u64 (a - b) | MUL => u64 (a * b)
  | ADDW => u64 (s32 (a + b)) | SUBW => u64 (s32 (a - b)) | MULW => u64 (s32 (a * b))
  | DIV => u64 (divS (s64 a) (s64 b)) | REM => u64 (remS (s64 a) (s64 b))
  | DIVU => u64 (divS a b) | REMU => u64 (remS a b)
  | DIVW => u64 (s32 (divS (s32 a) (s32 b))) | REMW => u64 (s32 (remS (s32 a) (s32 b)))
  | DIVUW => u64 (s32 (divS (u32 a) (u32 b))) | REMUW => u64 (s32 (remS (u32 a) (u32 b)))
  | AND => Z.land a b | OR => Z.lor a b | XOR => Z.lxor a b
  | SLL => u64 (a * 2 ^ (b mod 64)) | SLLW => u64 (s32 (a * 2 ^ (b mod 32)))
  | SRL => a / 2 ^ (b mod 64) | SRLW => u64 (s32 (u32 a / 2 ^ (b mod 32)))
  | SRA => u64 (s64 a / 2 ^ (b mod 64)) | SRAW => u64 (s32 a / 2 ^ (b mod 32))
  | SLT => b2z (s64 a <? s64 b) | SLTU => b2z (a <? b)
  end.

(** A register-immediate instruction is the register-register one with the
    sign-extended immediate as the second operand. *)
Definition alu2i (o : op2i) (a imm : Z) : Z :=
  alu3 match o with
       | ADDI => ADD | ADDIW => ADDW | ANDI => AND | ORI => OR | XORI => XOR
       | SLTI => SLT | SLTIU => SLTU | SLLI => SLL | SLLIW => SLLW | SRLI => SRL
       | SRLIW => SRLW | SRAI => SRA | SRAIW => SRAW
       end a (u64 imm).

Definition step (r : regs) (b : base) : option regs :=
  match b with
  | BR o rd rs1 rs2 => Some (wr r rd (alu3 o (r rs1) (r rs2)))
  | BI o rd rs1 imm => Some (wr r rd (alu2i o (r rs1) imm))
  | BLui rd v => Some (wr r rd (u64 v))
  | _ => None                       (* not a computation on registers *)
  end.
Fixpoint run (r : regs) (l : list base) : option regs :=
  match l with
  | [] => Some r
  | b :: l' => match step r b with Some r' => run r' l' | None => None end
  end.

(** ** What the assembly instructions mean *)

(** The value an instruction that computes on integer registers puts into
    its destination. *)
Definition computes (i : inst) (r : regs) : option (Z * Z) :=
  match i with
  | I3 o rd rs1 rs2 => Some (rd, alu3 o (r rs1) (r rs2))
  | I2i o rd rs imm => Some (rd, alu2i o (r rs) imm)
  | IMv rd rs => Some (rd, r rs)
  | ILi rd imm => Some (rd, u64 imm)
  | I2 o rd rs =>
      let x := r rs in
      Some (rd, match o with
      | NEG => u64 (- x)
      | NOT => 2 ^ 64 - 1 - x
      | SEXT_B => u64 (sext 8 (x mod 2 ^ 8))
      | SEXT_H => u64 (sext 16 (x mod 2 ^ 16))
      | SEXT_W => u64 (sext 32 (x mod 2 ^ 32))
      | ZEXT_B => x mod 2 ^ 8
      | ZEXT_H => x mod 2 ^ 16
      | ZEXT_W => x mod 2 ^ 32
      | SEQZ => b2z (x =? 0)
      | SNEZ => b2z (negb (x =? 0))
      | SLTZ => b2z (s64 x <? 0)
      | SGTZ => b2z (0 <? s64 x)
      end)
  | _ => None
  end.

(** The decoded form required of the others.  A jump, branch, address or
    call still has offset zero. *)
Definition stands_for (i : inst) : option (list base) :=
  match i with
  | INoop => Some []
  | ILd o rd ofs rs => Some [BLoad o rd rs ofs]
  | ISd o rs2 ofs rs1 => Some [BStore o rs2 rs1 ofs]
  | IJ => Some [BJal 0 0]
  | IJr rs => Some [BJalr 0 rs 0]
  | IJalr rs => Some [BJalr 1 rs 0]
  | IB o rs1 rs2 => Some [BBr o rs1 rs2 0]
  | IRet => Some [BJalr 0 1 0]
  | ICall => Some [BAuipc 1 0; BJalr 1 1 0]
  | ILa rd => Some [BAuipc rd 0; BI ADDI rd rd 0]
  | IEcall => Some [BEcall]
  | IF3 o rd rs1 rs2 => Some [BF3 o rd rs1 rs2]
  | IF2 o rd rs => Some [match o with
      | FSQRT_D => BFsqrt true rd rs | FSQRT_S => BFsqrt false rd rs
      | FMV_D => BF3 FSGNJ_D rd rs rs | FMV_S => BF3 FSGNJ_S rd rs rs
      | FNEG_D => BF3 FSGNJN_D rd rs rs | FNEG_S => BF3 FSGNJN_S rd rs rs
      | FCVT_D_S => BFcvtF true rd rs | FCVT_S_D => BFcvtF false rd rs
      end]
  | IFcmp o rd rs1 rs2 => Some [BFcmp o rd rs1 rs2]
  | IFld d rd ofs rs => Some [BFload d rd rs ofs]
  | IFsd d rs2 ofs rs1 => Some [BFstore d rs2 rs1 ofs]
  | IFi o rd rs => Some [BFi o rd rs]
  | IIf o rd rs rm => Some [BIf o rd rs
      (match o with FMV_X_D | FMV_X_W => 0 | _ => default 0 rm end)]
  | _ => None
  end.

(** ** Operands *)
Definition reg_ok (r : Z) : Prop := 0 <= r < 32.
Definition fits12 (x : Z) : Prop := -2048 <= x < 2048.
Definition is_shift (o : op2i) : bool :=
  match o with SLLI | SLLIW | SRLI | SRLIW | SRAI | SRAIW => true | _ => false end.
Definition is_shiftw (o : op2i) : bool :=
  match o with SLLIW | SRLIW | SRAIW => true | _ => false end.
Definition imm_ok (o : op2i) (imm : Z) : Prop :=
  if is_shiftw o then 0 <= imm < 32
  else if is_shift o then 0 <= imm < 64 else fits12 imm.

(** Operands the instruction set has an encoding for. *)
Definition operands_ok (i : inst) : Prop :=
  match i with
  | I3 _ rd rs1 rs2 => reg_ok rd /\ reg_ok rs1 /\ reg_ok rs2
  | I2i o rd rs imm => reg_ok rd /\ reg_ok rs /\ imm_ok o imm
  | I2 _ rd rs | IMv rd rs => reg_ok rd /\ reg_ok rs
  | ILi rd imm => reg_ok rd /\ - 2 ^ 63 <= imm < 2 ^ 63
  | ILa rd => reg_ok rd
  | ILd _ rd ofs rs => reg_ok rd /\ fits12 ofs /\ reg_ok rs
  | ISd _ rs2 ofs rs1 => reg_ok rs2 /\ fits12 ofs /\ reg_ok rs1
  | IJr rs | IJalr rs => reg_ok rs
  | IB _ rs1 rs2 => reg_ok rs1 /\ reg_ok rs2
  | INoop | IJ | ICall | IRet | IEcall => True
  | IF3 _ rd rs1 rs2 | IFcmp _ rd rs1 rs2 => reg_ok rd /\ reg_ok rs1 /\ reg_ok rs2
  | IF2 _ rd rs | IFi _ rd rs => reg_ok rd /\ reg_ok rs
  | IFld _ rd ofs rs => reg_ok rd /\ fits12 ofs /\ reg_ok rs
  | IFsd _ rs2 ofs rs1 => reg_ok rs2 /\ fits12 ofs /\ reg_ok rs1
  | IIf _ rd rs rm => reg_ok rd /\ reg_ok rs /\ match rm with Some m => 0 <= m < 5 | None => True end
  end.

(** ** Correct assembly *)
Definition assembled_right (i : inst) : Prop :=
  exists bs l, asm i = Some bs /\ decodes bs l /\
    match stands_for i with
    | Some l' => l = l'
    | None => forall r, regs_ok r -> exists rd v r',
        computes i r = Some (rd, v) /\ run r l = Some r' /\
        forall n, r' n = wr r rd v n
    end.

(** The operand combinations excluded below.  For each kind there is a
    refutation showing that it is assembled wrongly (for [li], for some of
    the constants). *)
Definition troublesome (i : inst) : Prop :=
  match i with
  (* adding x0 to a register in place *)
  | I3 ADD rd rs1 rs2 => (rd = rs1 /\ rs2 = 0) \/ (rd = rs2 /\ rs1 = 0)
  (* [addiw] and [sext.w] on x0 in place *)
  | I2i ADDIW rd rs imm => rd = 0 /\ rs = 0 /\ -32 <= imm < 32
  | I2 SEXT_W rd rs => rd = 0 /\ rs = 0
  (* a large constant into x0 or the stack pointer *)
  | ILi rd imm => ~ fits12 imm /\ (rd = 0 \/ rd = 2)
  (* a doubleword loaded from the stack into x0 *)
  | ILd LD rd ofs rs => rd = 0 /\ rs = 2 /\ 0 <= ofs < 512 /\ ofs mod 8 = 0
  (* a word stored at an offset that is an odd multiple of four *)
  | ISd SW rs2 ofs rs1 =>
      8 <= rs1 <= 15 /\ 8 <= rs2 <= 15 /\ 0 <= ofs < 128 /\ ofs mod 8 = 4
  (* a jump through x0 *)
  | IJr rs | IJalr rs => rs = 0
  | _ => False
  end.
