(** What x64 machine code means: a decoder after the Intel 64 Software Developer's Manual, volume 2 (2.1 and 2.2:
    prefixes, REX, ModRM, SIB, displacement, immediate; 3 to 5 and appendix A: opcodes), and what an instruction as
    written in assembly language stands for.  Nothing here uses the encoder, but for the type of instructions. *)
From stdpp Require Import base numbers list.
From Verif Require Import As.X64_model.
Open Scope Z_scope.

Inductive mn :=
| MOV | MOVSX | MOVZX | LEA | ADD | OR | ADC | SBB | AND | SUB | XOR | CMP | TEST | NOT | NEG | MUL | IMUL | DIV | IDIV
| INC | DEC | ROL | ROR | RCL | RCR | SHL | SHR | SAR | PUSH | POP | CALL | JMP | JCC (cc : Z) | SET (cc : Z) | RET | INT
| CONVA | CONVD | SYSCALL | ENDBR64
| MOVS | ADDS | MULS | SUBS | DIVS | SQRTS | XORP | UCOMIS | COMIS | CVTSI2S | CVTTS2SI | CVTS2S.

(** fs segment, relative to the instruction pointer, base, index and scale *)
Record mem := Mem { mfs : bool; mrip : bool; mbase : option Z; mindex : option (Z * Z) }.

(** Operands: a general register by size (0 to 3: 1 to 8 bytes) and number, one of ah ch dh bh, an xmm register,
    memory with its displacement, a constant. *)
Inductive opd := OReg (sz n : Z) | OHigh (n : Z) | OXmm (n : Z) | OMem (m : mem) (d : Z) | OImm (v : Z).

(** An instruction: name, size of the operation, operands with the destination last. *)
Record dinst := D { dmn : mn; dsize : Z; dops : list opd }.

(** ** Decoding *)

(** The header of an instruction tells the operands but for the displacement and the immediate constant: [TMem] and
    [TIm], which has the size it is meant for. *)
Inductive tmpl := TOp (o : opd) | TMem (m : mem) | TIm (sz : Z).
Record shape := Sh { smn : mn; ssize : Z; sops : list tmpl; sdisp : nat; simm : nat }.

Record pre := Pre { p66 : bool; pf2 : bool; pf3 : bool; pfs : bool }.

Fixpoint prefixes (p : pre) (l : list Z) : option ((pre * option Z) * list Z) :=
  match l with
  | [] => None
  | b :: r =>
    if b =? 0x66 then prefixes (Pre true (pf2 p) (pf3 p) (pfs p)) r
    else if b =? 0xf2 then prefixes (Pre (p66 p) true (pf3 p) (pfs p)) r
    else if b =? 0xf3 then prefixes (Pre (p66 p) (pf2 p) true (pfs p)) r
    else if b =? 0x64 then prefixes (Pre (p66 p) (pf2 p) (pf3 p) true) r
    else if (0x40 <=? b) && (b <? 0x50) then Some ((p, Some b), r)
    else Some ((p, None), l)
  end.

Definition rexw (x : option Z) : bool := match x with Some b => Z.testbit b 3 | None => false end.
Definition rexb (x : option Z) (k : Z) : Z := match x with Some b => if Z.testbit b k then 8 else 0 | None => 0 end.
Definition osize (p : pre) (x : option Z) : Z := if rexw x then 3 else if p66 p then 1 else 2.
(** Without REX, byte registers 4 to 7 are the second bytes of registers 0 to 3. *)
Definition oreg (x : option Z) (sz n : Z) : opd :=
  match x with None => if (sz =? 0) && (4 <=? n) then OHigh (n - 4) else OReg sz n | Some _ => OReg sz n end.

Inductive rmop := RmReg (n : Z) | RmMem (m : mem) (d : nat).

Definition modrm (p : pre) (x : option Z) (l : list Z) : option ((Z * rmop) * list Z) :=
  match l with
  | [] => None
  | b :: r =>
    let md := b / 64 in
    let rg := b / 8 mod 8 + rexb x 2 in
    let rm := b mod 8 in
    let n := if md =? 0 then 0%nat else if md =? 1 then 1%nat else 4%nat in
    if md =? 3 then Some ((rg, RmReg (rm + rexb x 0)), r)
    else if rm =? 4 then
      match r with
      | [] => None
      | s :: r' =>
        let ix := s / 8 mod 8 + rexb x 1 in
        let idx := if ix =? 4 then None else Some (ix, 2 ^ (s / 64)) in
        if (s mod 8 =? 5) && (md =? 0) then Some ((rg, RmMem (Mem (pfs p) false None idx) 4), r')
        else Some ((rg, RmMem (Mem (pfs p) false (Some (s mod 8 + rexb x 0)) idx) n), r')
      end
    else if (rm =? 5) && (md =? 0) then Some ((rg, RmMem (Mem (pfs p) true None None) 4), r)
    else Some ((rg, RmMem (Mem (pfs p) false (Some (rm + rexb x 0)) None) n), r)
  end.

(** An instruction with ModRM: [k] has the reg field and the operand of the rm field, a register as [f] has it. *)
Definition with_rm (p : pre) (x : option Z) (f : Z -> opd) (k : Z -> tmpl -> option (mn * Z * list tmpl * nat))
    (l : list Z) : option (shape * list Z) :=
  match modrm p x l with
  | None => None
  | Some ((rg, rm), r) =>
    let '(t, d) := match rm with RmReg n => (TOp (f n), 0%nat) | RmMem m d => (TMem m, d) end in
    match k rg t with
    | Some (m, sz, ops, i) => Some (Sh m sz ops d i, r)
    | None => None
    end
  end.

Definition nth_mn (l : list mn) (n : Z) : option mn := l !! Z.to_nat n.
Definition alus : list mn := [ADD; OR; ADC; SBB; AND; SUB; XOR; CMP].
Definition is_mem (t : tmpl) : bool := match t with TMem _ => true | _ => false end.
(** Bytes of an immediate that is not of 8 bytes. *)
Definition imz (sz : Z) : nat := if sz =? 0 then 1 else if sz =? 1 then 2 else 4.

(** Opcodes of one byte. *)
Definition one (p : pre) (x : option Z) (b : Z) (l : list Z) : option (shape * list Z) :=
  let v := osize p x in
  let sz := if b mod 2 =? 0 then 0 else v in
  let R := oreg x sz in
  let breg := b mod 8 + rexb x 0 in
  if (b <? 0x40) && (b mod 8 <? 6) then
    match nth_mn alus (b / 8) with
    | None => None
    | Some m =>
      if b mod 8 <? 2 then with_rm p x R (fun rg t => Some (m, sz, [TOp (R rg); t], 0%nat)) l
      else if b mod 8 <? 4 then with_rm p x R (fun rg t => Some (m, sz, [t; TOp (R rg)], 0%nat)) l
      else Some (Sh m sz [TIm sz; TOp (OReg sz 0)] 0 (imz sz), l)
    end
  else if b / 8 =? 10 then Some (Sh PUSH 3 [TOp (OReg 3 breg)] 0 0, l)
  else if b / 8 =? 11 then Some (Sh POP 3 [TOp (OReg 3 breg)] 0 0, l)
  else if b =? 0x63 then
    if rexw x then with_rm p x (OReg 2) (fun rg t => Some (MOVSX, 3, [t; TOp (OReg 3 rg)], 0%nat)) l else None
  else if b =? 0x68 then Some (Sh PUSH 3 [TIm 3] 0 4, l)
  else if b =? 0x6a then Some (Sh PUSH 3 [TIm 3] 0 1, l)
  else if b / 16 =? 7 then Some (Sh (JCC (b mod 16)) 3 [TIm 3] 0 1, l)
  else if (b =? 0x80) || (b =? 0x81) || (b =? 0x83) then
    with_rm p x R (fun rg t => match nth_mn alus (rg mod 8) with
      | Some m => Some (m, sz, [TIm sz; t], if b =? 0x81 then imz sz else 1%nat) | None => None end) l
  else if (b =? 0x84) || (b =? 0x85) then with_rm p x R (fun rg t => Some (TEST, sz, [TOp (R rg); t], 0%nat)) l
  else if (b =? 0x88) || (b =? 0x89) then with_rm p x R (fun rg t => Some (MOV, sz, [TOp (R rg); t], 0%nat)) l
  else if (b =? 0x8a) || (b =? 0x8b) then with_rm p x R (fun rg t => Some (MOV, sz, [t; TOp (R rg)], 0%nat)) l
  else if b =? 0x8d then with_rm p x R (fun rg t => if is_mem t then Some (LEA, sz, [t; TOp (R rg)], 0%nat) else None) l
  else if b =? 0x98 then Some (Sh CONVA v [] 0 0, l)
  else if b =? 0x99 then Some (Sh CONVD v [] 0 0, l)
  else if b / 8 =? 22 then Some (Sh MOV 0 [TIm 0; TOp (oreg x 0 breg)] 0 1, l)
  else if b / 8 =? 23 then Some (Sh MOV v [TIm v; TOp (OReg v breg)] 0 (if v =? 3 then 8%nat else imz v), l)
  else if (b =? 0xc0) || (b =? 0xc1) || ((0xd0 <=? b) && (b <=? 0xd3)) then
    with_rm p x R (fun rg t =>
      match nth_mn [ROL; ROR; RCL; RCR; SHL; SHR; SHL; SAR] (rg mod 8) with
      | Some m => if b <? 0xd0 then Some (m, sz, [TIm 0; t], 1%nat)
                  else if b <? 0xd2 then Some (m, sz, [TOp (OImm 1); t], 0%nat)
                  else Some (m, sz, [TOp (OReg 0 1); t], 0%nat)
      | None => None end) l
  else if b =? 0xc3 then Some (Sh RET 3 [] 0 0, l)
  else if (b =? 0xc6) || (b =? 0xc7) then
    with_rm p x R (fun rg t => if rg mod 8 =? 0 then Some (MOV, sz, [TIm sz; t], imz sz) else None) l
  else if b =? 0xcd then Some (Sh INT 0 [TIm 0] 0 1, l)
  else if b =? 0xe8 then Some (Sh CALL 3 [TIm 3] 0 4, l)
  else if b =? 0xeb then Some (Sh JMP 3 [TIm 3] 0 1, l)
  else if (b =? 0xf6) || (b =? 0xf7) then
    with_rm p x R (fun rg t =>
      if rg mod 8 <? 2 then Some (TEST, sz, [TIm sz; t], imz sz)
      else match nth_mn [NOT; NEG; MUL; IMUL; DIV; IDIV] (rg mod 8 - 2) with
           | Some m => Some (m, sz, [t], 0%nat) | None => None end) l
  else if (b =? 0xfe) || ((b =? 0xff) && (match l with c :: _ => c / 8 mod 8 <? 2 | [] => false end)) then
    with_rm p x R (fun rg t => match nth_mn [INC; DEC] (rg mod 8) with
      | Some m => Some (m, sz, [t], 0%nat) | None => None end) l
  else if b =? 0xff then
    with_rm p x (OReg 3) (fun rg t =>
      if rg mod 8 =? 2 then Some (CALL, 3, [t], 0%nat)
      else if rg mod 8 =? 4 then Some (JMP, 3, [t], 0%nat)
      else if rg mod 8 =? 6 then Some (PUSH, 3, [t], 0%nat) else None) l
  else None.

(** Opcodes after 0f; the precision of floating point is 3 (double) or 2 (single). *)
Definition fprec (p : pre) : option Z :=
  match pf2 p, pf3 p with true, false => Some 3 | false, true => Some 2 | _, _ => None end.
Definition two (p : pre) (x : option Z) (b : Z) (l : list Z) : option (shape * list Z) :=
  let v := osize p x in
  let sse m := match fprec p with
    | Some f => with_rm p x OXmm (fun rg t => Some (m, f, [t; TOp (OXmm rg)], 0%nat)) l | None => None end in
  let packed m := if pf2 p || pf3 p then None
    else with_rm p x OXmm (fun rg t => Some (m, if p66 p then 3 else 2, [t; TOp (OXmm rg)], 0%nat)) l in
  if b =? 0x05 then Some (Sh SYSCALL 3 [] 0 0, l)
  else if b =? 0x1e then
    match l with c :: r => if (c =? 0xfa) && pf3 p then Some (Sh ENDBR64 3 [] 0 0, r) else None | [] => None end
  else if b =? 0x10 then sse MOVS
  else if b =? 0x11 then
    match fprec p with Some f => with_rm p x OXmm (fun rg t => Some (MOVS, f, [TOp (OXmm rg); t], 0%nat)) l | None => None end
  else if b =? 0x2a then
    match fprec p with Some f => with_rm p x (OReg v) (fun rg t => Some (CVTSI2S, f, [t; TOp (OXmm rg)], 0%nat)) l | None => None end
  else if b =? 0x2c then
    match fprec p with Some f => with_rm p x OXmm (fun rg t => Some (CVTTS2SI, f, [t; TOp (OReg v rg)], 0%nat)) l | None => None end
  else if b =? 0x2e then packed UCOMIS
  else if b =? 0x2f then packed COMIS
  else if b =? 0x57 then packed XORP
  else if b =? 0x51 then sse SQRTS
  else if b =? 0x58 then sse ADDS
  else if b =? 0x59 then sse MULS
  else if b =? 0x5a then sse CVTS2S
  else if b =? 0x5c then sse SUBS
  else if b =? 0x5e then sse DIVS
  else if b / 16 =? 9 then with_rm p x (oreg x 0) (fun _ t => Some (SET (b mod 16), 0, [t], 0%nat)) l
  else if (b =? 0xb6) || (b =? 0xbe) then
    with_rm p x (oreg x 0) (fun rg t => Some (if b =? 0xb6 then MOVZX else MOVSX, v, [t; TOp (OReg v rg)], 0%nat)) l
  else if (b =? 0xb7) || (b =? 0xbf) then
    with_rm p x (OReg 1) (fun rg t => Some (if b =? 0xb7 then MOVZX else MOVSX, v, [t; TOp (OReg v rg)], 0%nat)) l
  else None.

Definition header (l : list Z) : option (shape * list Z) :=
  match prefixes (Pre false false false false) l with
  | Some ((p, x), b :: r) =>
    if b =? 0x0f then match r with c :: r' => two p x c r' | [] => None end else one p x b r
  | _ => None
  end.

(** Little endian numbers, and their reading as signed ones. *)
Fixpoint take_le (n : nat) (l : list Z) : option (Z * list Z) :=
  match n, l with
  | O, _ => Some (0, l)
  | S k, b :: r => match take_le k r with Some (v, r') => Some (b + 256 * v, r') | None => None end
  | S _, [] => None
  end.
Definition to_signed (n : nat) (v : Z) : Z :=
  match n with O => 0 | _ => if v <? 2 ^ (8 * Z.of_nat n - 1) then v else v - 2 ^ (8 * Z.of_nat n) end.
Definition bits (sz : Z) : Z := 8 * 2 ^ sz.
(** A constant as an operand of this size. *)
Definition const (sz v : Z) : opd := OImm (v mod 2 ^ bits sz).

Definition fill (d i : Z) (t : tmpl) : opd :=
  match t with TOp o => o | TMem m => OMem m d | TIm sz => const sz i end.

(** The first instruction of the bytes, and what is left of them. *)
Definition decode (l : list Z) : option (dinst * list Z) :=
  match header l with
  | None => None
  | Some (s, r) =>
    match take_le (sdisp s) r with
    | None => None
    | Some (d, r') =>
      match take_le (simm s) r' with
      | None => None
      | Some (i, r'') => Some (D (smn s) (ssize s) (map (fill (to_signed (sdisp s) d) (to_signed (simm s) i)) (sops s)), r'')
      end
    end
  end.

(** ** Instructions as written *)

Definition name (r : reg) : opd :=
  if size r =? 0 then
    if (x r =? 0) && (4 <=? no r) then OHigh (no r - 4) else if x r =? 2 then OReg 0 (no r) else OReg 0 (no r + 8 * x r)
  else OReg (size r) (no r + 8 * x r).
Definition num (r : reg) : Z := no r + 8 * x r.
Definition at_base (off : Z) (b : reg) : opd := OMem (Mem false false (Some (num b)) None) off.
Definition at_index (off : Z) (b i : reg) (sc : option Z) : opd :=
  OMem (Mem false false (Some (num b)) (Some (num i, match sc with Some s => s | None => 1 end))) off.
(** A label: patched by the assembler, 0 until then. *)
Definition at_rip : opd := OMem (Mem false true None None) 0.
Definition at_addr (fs : bool) (a : Z) : opd := OMem (Mem fs false None None) a.
Definition mn_alu (o : alu) : mn := match o with Add => ADD | Or => OR | And => AND | Sub => SUB | Xor => XOR | Cmp => CMP end.
Definition mn_shift (o : shift) : mn := match o with Shl => SHL | Shr => SHR | Sar => SAR end.
Definition mn_fop (o : fop) : mn := match o with FAdd => ADDS | FMul => MULS | FSub => SUBS | FDiv => DIVS end.
Definition prec (single : bool) : Z := if single then 2 else 3.
Definition mn_as (sub : bool) : mn := if sub then SUB else ADD.

Definition meaning (i : inst) : dinst :=
  match i with
  | MovRR s d => D MOV (size d) [name s; name d]
  | MovImR v d => D MOV (size d) [const (size d) v; name d]
  | MovIR off b d => D MOV (size d) [at_base off b; name d]
  | MovRI s off b => D MOV (size s) [name s; at_base off b]
  | MovIIR off b i sc d => D MOV (size d) [at_index off b i sc; name d]
  | MovRipR d => D MOV (size d) [at_rip; name d]
  | MovDR d => D MOV (size d) [at_addr false 0; name d]
  | MovRD s => D MOV (size s) [name s; at_addr false 0]
  | MovSR v d => D MOV 3 [at_addr true v; name d]
  | MovImI sz v off b => D MOV sz [const sz v; at_base off b]
  | MovImD sz v a => D MOV sz [const sz v; at_addr false a]
  | Movx sx s d => D (if sx then MOVSX else MOVZX) (size d) [name s; name d]
  | LeaIR off b d => D LEA 3 [at_base off b; name d]
  | LeaRipR d => D LEA 3 [at_rip; name d]
  | LeaIIR off b i sc d => D LEA 3 [at_index off b i sc; name d]
  | AluRR o s d => D (mn_alu o) (size d) [name s; name d]
  | AluImR o v d => D (mn_alu o) (size d) [const (size d) v; name d]
  | AluIR sub off b d => D (mn_as sub) (size d) [at_base off b; name d]
  | AluIIR sub off b i sc d => D (mn_as sub) (size d) [at_index off b i sc; name d]
  | AluQ sub v off b => D (mn_as sub) 3 [const 3 v; at_base off b]
  | Mul r => D MUL (size r) [name r] | Div r => D DIV (size r) [name r] | Idiv r => D IDIV (size r) [name r]
  | Neg r => D NEG (size r) [name r] | Not r => D NOT (size r) [name r]
  | Inc r => D INC (size r) [name r] | Dec r => D DEC (size r) [name r]
  | IncI sz off b => D INC sz [at_base off b] | DecI sz off b => D DEC sz [at_base off b]
  | ShiftCl o d => D (mn_shift o) (size d) [OReg 0 1; name d]
  | ShiftIm o v d => D (mn_shift o) (size d) [OImm v; name d]
  | Test s d => D TEST (size d) [name s; name d]
  | Cwtl => D CONVA 2 [] | Cltd => D CONVD 2 [] | Cqto => D CONVD 3 []
  | SetCc cc r => D (SET cc) 0 [name r]
  | JmpD => D JMP 3 [OImm 0] | JccD cc => D (JCC cc) 3 [OImm 0] | CallD => D CALL 3 [OImm 0]
  | JmpDer r => D JMP 3 [name r] | CallDer r => D CALL 3 [name r]
  | JmpDei off b => D JMP 3 [at_base off b]
  | JmpDeii off b i sc => D JMP 3 [at_index off b i sc]
  | Ret => D RET 3 [] | PushR r => D PUSH 3 [name r] | Pop r => D POP 3 [name r]
  | PushIm v => D PUSH 3 [const 3 v] | IntIm v => D INT 0 [OImm v]
  | Syscall => D SYSCALL 3 [] | Endbr64 => D ENDBR64 3 []
  | MovsXX s a b => D MOVS (prec s) [OXmm a; OXmm b]
  | MovsIX s off b d => D MOVS (prec s) [at_base off b; OXmm d]
  | MovsXI s r off b => D MOVS (prec s) [OXmm r; at_base off b]
  | Fop o s a b => D (mn_fop o) (prec s) [OXmm a; OXmm b]
  | Sqrtsd a b => D SQRTS 3 [OXmm a; OXmm b]
  | Xorp s a b => D XORP (prec s) [OXmm a; OXmm b]
  | Comis u s a b => D (if u then UCOMIS else COMIS) (prec s) [OXmm a; OXmm b]
  | Cvtsi2s s r d => D CVTSI2S (prec s) [name r; OXmm d]
  | Cvtts2si s a r => D CVTTS2SI (prec s) [OXmm a; name r]
  | Cvts2s s a b => D CVTS2S (prec s) [OXmm a; OXmm b]
  end.

Definition byte (b : Z) : Prop := 0 <= b < 256.
(** The bytes an instruction is assembled to are the instruction as written, whatever follows them. *)
Definition encoded (i : inst) : Prop :=
  exists l, assemble i = Bytes l /\ Forall byte l /\ forall tl, decode (l ++ tl) = Some (meaning i, tl).

(** ** Where the assembler is right *)

(** One of ah ch dh bh; one of the registers that need REX. *)
Definition high (r : reg) : bool := (size r =? 0) && (x r =? 0) && (4 <=? no r).
Definition ext (r : reg) : bool := negb (x r =? 0).
(** ah to bh cannot be used with REX. *)
Definition together (a b : reg) : bool := negb (high a && ext b) && negb (high b && ext a).
(** 32 bits, signed *)
Definition fits32 (v : Z) : bool := (- 2 ^ 31 <=? v) && (v <? 2 ^ 31).
Definition index_ok (i : reg) (sc : option Z) : bool :=
  negb (num i =? 4) && match sc with None => true | Some s => (s =? 1) || (s =? 2) || (s =? 4) || (s =? 8) end.

(** Instructions without operands in memory that are encoded as written. *)
Definition fine_reg (i : inst) : bool :=
  match i with
  | MovRR s d | AluRR _ s d | Test s d => together s d
  | MovImR _ r | Mul r | Div r | Idiv r | SetCc _ r => negb (high r)
  | Movx sx s d => negb (high s) && (sx || (size s <? 2))
  | AluImR (Add | Sub) v _ => fits32 v
  | AluImR (And | Or | Xor) v d => (size d <=? 2) || fits32 v
  | AluImR Cmp v d => (size d <=? 2) || fits32 ((v + 2 ^ 63) mod 2 ^ 64 - 2 ^ 63)
  | Neg r | Not r => negb (size r =? 0)
  | ShiftIm _ v _ | IntIm v => (0 <=? v) && (v <? 256)
  | PushIm v => fits32 v
  | ShiftCl _ _ | Inc _ | Dec _ | Cwtl | Cltd | Cqto | JmpD | JmpDer _ | JccD _ | CallD | CallDer _ | Ret | PushR _ | Pop _
  | Syscall | Endbr64 | MovsXX _ _ _ | Fop _ _ _ _ | Sqrtsd _ _ | Xorp _ _ _ | Comis _ _ _ _ | Cvtsi2s _ _ _
  | Cvtts2si _ _ _ | Cvts2s _ _ _ => true
  | _ => false
  end.

(** Instructions with an operand in memory that are encoded as written. *)
Definition fine_mem (i : inst) : bool :=
  match i with
  | MovIR off b r | MovRI r off b => fits32 off && together r b
  | MovIIR off b i sc d =>
    fits32 off && index_ok i sc && (negb (no b =? 5) || negb (off =? 0)) &&
    ((size d =? 3) || negb (ext b || ext i || ext d))
  | MovRipR d => size d =? 3
  | MovDR r | MovRD r => negb (ext r)
  | MovSR v d => fits32 v && (num d =? 0)
  | MovImI sz v off b => fits32 off && ((sz <=? 2) || fits32 v)
  | MovImD sz v a => fits32 a && ((sz <=? 2) || fits32 v)
  | LeaIR off b _ => fits32 off && negb (num b =? 12) && (negb (num b =? 13) || negb (off =? 0))
  | LeaRipR _ => true
  | LeaIIR off b i sc _ => fits32 off && index_ok i sc && negb (num b =? 4) && (negb (num b =? 13) || negb (off =? 0))
  | AluIR _ off b r => fits32 off && negb (high r) && negb (num b =? 12) && (negb (num b =? 13) || negb (off =? 0))
  | AluIIR _ off b i sc d =>
    (off =? 0) && (size d =? 3) && negb (num i =? 4) && negb (no b =? 5) &&
    match sc with None => true | Some s => (s =? 2) || (s =? 4) end
  | AluQ sub v off b => fits32 v && fits32 off && (negb sub || ((off =? 0) && negb (no b =? 5)))
  | IncI sz off b => fits32 off && negb (num b =? 12) && (negb (num b =? 13) || negb (off =? 0))
  | DecI sz off b => fits32 off && negb (num b =? 12) && (negb (num b =? 13) || negb (off =? 0))
  | JmpDei off b => fits32 off && negb (no b =? 4) && (negb (no b =? 5) || negb (off =? 0))
  | JmpDeii off b i sc => fits32 off && index_ok i sc
  | MovsIX _ off _ _ | MovsXI _ _ off _ => fits32 off
  | _ => false
  end.
