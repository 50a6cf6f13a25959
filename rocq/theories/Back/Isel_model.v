(** The x64 instructions for integer operations, comparisons and conversions.
    Modelled from src/cc/arch/x64/ir_x64.c lines 18-38 (registers), 53-76 (detect_extra_occupied),
    198-231 (cmp_vregs), 325-595 (ei_add to ei_rshift), 597-651 (ei_neg and ei_bitnot for
    integers), 653-755 (ei_cast), 757-787 (emit_mov, ei_mov, ei_result), 789-917 (ei_cond,
    ei_jmp), 919-930 (the first part of ei_tjmp), 1073-1116 (convert_3to2), 1118-1179 (tweak_irs),
    src/cc/backend/ir.c insert_tmp_mov.
    Simplifications: instructions are terms instead of text for the assembler; labels that are
    only jumped to from a few lines above are numbers of instructions to skip; floating-point
    operands occur in comparisons and conversions to and from integers only.  What the
    instructions do is from the Intel manual; flags that an instruction leaves undefined, or that
    nobody reads, are unknown afterwards, and to read an unknown flag is an error. *)
From stdpp Require Import base numbers list.
Open Scope Z_scope.

(** ** The machine *)

(** Sizes are those of ir.h lines 23-28: 0, 1, 2, 3 for 1, 2, 4 and 8 bytes. *)
Definition bits (sz : nat) : Z := 8 * 2 ^ Z.of_nat sz.
Definition low (sz : nat) (v : Z) : Z := v mod 2 ^ bits sz.
(** The same bits as a two's complement number. *)
Definition sgn (sz : nat) (v : Z) : Z :=
  let u := low sz v in if u <? 2 ^ (bits sz - 1) then u else u - 2 ^ bits sz.

(** A floating-point number, [Fin m e] is m times 2 to the e. *)
Inductive fl := Fin (m e : Z) | Inf (neg : bool) | NaN.

Record flags := Flags { zf : bool; sf : bool; cf : bool; ovf : bool; pf : option bool }.

(** Registers by their index in kRegSizeTable (ir_x64.c 18-23). *)
Record state := St { regs : nat -> Z; fregs : nat -> fl; stk : list Z; fla : option flags }.

Definition AREG : nat := 0.
Definition DREG : nat := 3.
Definition CREG : nat := 4.

Inductive src := Imm (n : Z) | Reg (r : nat).
Inductive cc := CE | CNE | CL | CG | CLE | CGE | CB | CA | CBE | CAE | CS | CP | CNP.

(** Operands are in the order of the assembler: source, destination. *)
Inductive inst :=
| IMov (sz : nat) (s : src) (d : nat)
| IMovsx (ss sd : nat) (s d : nat)
| IMovzx (ss sd : nat) (s d : nat)
| IAdd (sz : nat) (s : src) (d : nat)
| ISub (sz : nat) (s : src) (d : nat)
| IAnd (sz : nat) (s : src) (d : nat)
| IOr (sz : nat) (s : src) (d : nat)
| IXor (sz : nat) (s : src) (d : nat)
| ICmp (sz : nat) (s : src) (d : nat)
| ITest (sz : nat) (s : src) (d : nat)
| IInc (sz : nat) (d : nat)
| IDec (sz : nat) (d : nat)
| INeg (sz : nat) (d : nat)
| INot (sz : nat) (d : nat)
| IMul (sz : nat) (s : nat)
| IDiv (sz : nat) (s : nat)
| IIdiv (sz : nat) (s : nat)
| ICwtl | ICltd | ICqto
| IMovAhAl
| IShl (sz : nat) (c : option Z) (d : nat)   (* None is the register cl *)
| IShr (sz : nat) (c : option Z) (d : nat)
| ISar (sz : nat) (c : option Z) (d : nat)
| ISet (c : cc) (d : nat)
| IPush (r : nat)
| IPop (r : nat)
| IUcomi (s d : nat)                          (* ucomiss, ucomisd, comiss, comisd *)
| ICvtsi2f (p : Z) (ss : nat) (s d : nat)     (* cvtsi2ss (p = 24) and cvtsi2sd (p = 53) *)
| ICvtt (sd : nat) (s d : nat)                (* cvttss2si and cvttsd2si *)
| IFdouble (d : nat)                          (* addss d, d and addsd d, d *)
| IJcc (c : cc) (n : nat)                     (* skip n instructions *)
| IJmp (n : nat)
| IJto (c : cc).                              (* leave for the label of the operation *)

Definition upd {A} (f : nat -> A) (r : nat) (v : A) : nat -> A := fun x => if Nat.eqb x r then v else f x.

(** To write 4 bytes clears the upper half of the register, to write 1 or 2 keeps the rest. *)
Definition wr (sz : nat) (old v : Z) : Z :=
  match sz with
  | 0%nat | 1%nat => old - low sz old + low sz v
  | _ => low sz v
  end.
Definition setr (sz : nat) (d : nat) (v : Z) (s : state) : state :=
  St (upd (regs s) d (wr sz (regs s d) v)) (fregs s) (stk s) (fla s).
Definition setf (d : nat) (v : fl) (s : state) : state :=
  St (regs s) (upd (fregs s) d v) (stk s) (fla s).
Definition unk (s : state) : state := St (regs s) (fregs s) (stk s) None.
Definition setfl (f : flags) (s : state) : state := St (regs s) (fregs s) (stk s) (Some f).

Definition getr (sz : nat) (r : nat) (s : state) : Z := low sz (regs s r).
(** Constants have 32 bits and are extended, but for mov. *)
Definition is_im32 (n : Z) : bool := (-2 ^ 31 <=? n) && (n <? 2 ^ 31).
Definition gets (sz : nat) (o : src) (s : state) : option Z :=
  match o with
  | Reg r => Some (getr sz r s)
  | Imm n => if is_im32 n then Some (low sz n) else None
  end.

Definition cmpflags (sz : nat) (a b : Z) : flags :=
  let r := low sz (a - b) in
  let d := sgn sz a - sgn sz b in
  Flags (r =? 0) (2 ^ (bits sz - 1) <=? r) (a <? b)
    (negb ((- 2 ^ (bits sz - 1) <=? d) && (d <? 2 ^ (bits sz - 1)))) None.
Definition testflags (sz : nat) (r : Z) : flags := Flags (r =? 0) (2 ^ (bits sz - 1) <=? r) false false None.

(** Exact comparison; None if one of them is not a number. *)
Definition fcmp (a b : fl) : option comparison :=
  match a, b with
  | NaN, _ | _, NaN => None
  | Inf x, Inf y => Some (match x, y with true, false => Lt | false, true => Gt | _, _ => Eq end)
  | Inf x, Fin _ _ => Some (if x then Lt else Gt)
  | Fin _ _, Inf y => Some (if y then Gt else Lt)
  | Fin m e, Fin m' e' => Some (m * 2 ^ (e - Z.min e e') ?= m' * 2 ^ (e' - Z.min e e'))
  end.
Definition fcmpflags (a b : fl) : flags :=
  match fcmp a b with
  | None => Flags true false true false (Some true)
  | Some Eq => Flags true false false false (Some false)
  | Some Lt => Flags false false true false (Some false)
  | Some Gt => Flags false false false false (Some false)
  end.

Definition cceval (c : cc) (f : flags) : option bool :=
  match c with
  | CE => Some (zf f) | CNE => Some (negb (zf f))
  | CL => Some (xorb (sf f) (ovf f)) | CGE => Some (negb (xorb (sf f) (ovf f)))
  | CLE => Some (zf f || xorb (sf f) (ovf f)) | CG => Some (negb (zf f || xorb (sf f) (ovf f)))
  | CB => Some (cf f) | CAE => Some (negb (cf f))
  | CBE => Some (cf f || zf f) | CA => Some (negb (cf f || zf f))
  | CS => Some (sf f) | CP => pf f | CNP => negb <$> pf f
  end.
Definition evalcc (c : cc) (s : state) : option bool := fla s ≫= cceval c.

(** Round an integer to p binary digits, to the nearest, and to even if there are two. *)
Definition rnd (p : Z) (z : Z) : fl :=
  let a := Z.abs z in
  if a <? 2 ^ p then Fin z 0
  else
    let e := Z.log2 a - p + 1 in
    let q := a / 2 ^ e in let r := a mod 2 ^ e in let h := 2 ^ (e - 1) in
    let q' := if (h <? r) || ((h =? r) && Z.odd q) then q + 1 else q in
    Fin (Z.sgn z * q') e.
(** Drop what is behind the point. *)
Definition ftrunc (m e : Z) : Z := if 0 <=? e then m * 2 ^ e else Z.quot m (2 ^ - e).

Definition shcount (sz : nat) (c : option Z) (s : state) : Z :=
  (match c with Some n => n | None => getr 0 CREG s end) mod (if Nat.eqb sz 3 then 64 else 32).

(** Multiplication and division of 1 byte work in ax, the others in dx:ax, edx:eax, rdx:rax. *)
Definition set_wide (sz : nat) (hi lo : Z) (s : state) : state :=
  match sz with
  | 0%nat => setr 1 AREG (low 0 lo + 2 ^ 8 * low 0 hi) s
  | _ => setr sz DREG hi (setr sz AREG lo s)
  end.
Definition get_wide (sz : nat) (s : state) : Z :=
  match sz with
  | 0%nat => getr 1 AREG s
  | _ => getr sz AREG s + 2 ^ bits sz * getr sz DREG s
  end.

Definition arith (f : Z -> Z -> Z) (sz : nat) (o : src) (d : nat) (s : state) : option state :=
  b ← gets sz o s; Some (unk (setr sz d (f (getr sz d s) b) s)).

(** None: the processor raises an exception, or a flag that is not known was read, or the stack is
    empty. *)
Definition step (i : inst) (s : state) : option state :=
  match i with
  | IMov sz (Imm n) d => Some (setr sz d n s)
  | IMov sz (Reg r) d => Some (setr sz d (getr sz r s) s)
  | IMovsx ss sd r d => Some (setr sd d (sgn ss (regs s r)) s)
  | IMovzx ss sd r d => Some (setr sd d (getr ss r s) s)
  | IAdd sz o d => arith Z.add sz o d s
  | ISub sz o d => arith Z.sub sz o d s
  | IAnd sz o d => arith Z.land sz o d s
  | IOr sz o d => arith Z.lor sz o d s
  | IXor sz o d => arith Z.lxor sz o d s
  | ICmp sz o d => b ← gets sz o s; Some (setfl (cmpflags sz (getr sz d s) b) s)
  | ITest sz o d => b ← gets sz o s; Some (setfl (testflags sz (Z.land (getr sz d s) b)) s)
  | IInc sz d => Some (unk (setr sz d (getr sz d s + 1) s))
  | IDec sz d => Some (unk (setr sz d (getr sz d s - 1) s))
  | INeg sz d => Some (unk (setr sz d (- getr sz d s) s))
  | INot sz d => Some (setr sz d (Z.lnot (getr sz d s)) s)
  | IMul sz r =>
      let v := getr sz AREG s * getr sz r s in
      Some (unk (set_wide sz (v / 2 ^ bits sz) v s))
  | IDiv sz r =>
      let n := get_wide sz s in let d := getr sz r s in
      if d =? 0 then None
      else if 2 ^ bits sz <=? n / d then None
      else Some (unk (set_wide sz (n mod d) (n / d) s))
  | IIdiv sz r =>
      let n := sgn (S sz) (get_wide sz s) in let d := sgn sz (regs s r) in
      if d =? 0 then None
      else let q := Z.quot n d in
      if (q <? - 2 ^ (bits sz - 1)) || (2 ^ (bits sz - 1) <=? q) then None
      else Some (unk (set_wide sz (Z.rem n d) q s))
  | ICwtl => Some (setr 2 AREG (sgn 1 (regs s AREG)) s)
  | ICltd => Some (setr 2 DREG (if sgn 2 (regs s AREG) <? 0 then -1 else 0) s)
  | ICqto => Some (setr 3 DREG (if sgn 3 (regs s AREG) <? 0 then -1 else 0) s)
  | IMovAhAl => Some (setr 0 AREG (regs s AREG / 2 ^ 8) s)
  | IShl sz c d => Some (unk (setr sz d (getr sz d s * 2 ^ shcount sz c s) s))
  | IShr sz c d => Some (unk (setr sz d (getr sz d s / 2 ^ shcount sz c s) s))
  | ISar sz c d => Some (unk (setr sz d (sgn sz (regs s d) / 2 ^ shcount sz c s) s))
  | ISet c d => b ← evalcc c s; Some (setr 0 d (if b : bool then 1 else 0) s)
  | IPush r => Some (St (regs s) (fregs s) (getr 3 r s :: stk s) (fla s))
  | IPop r => match stk s with
              | v :: k => Some (setr 3 r v (St (regs s) (fregs s) k (fla s)))
              | [] => None
              end
  | IUcomi a d => Some (setfl (fcmpflags (fregs s d) (fregs s a)) s)
  | ICvtsi2f p ss r d => Some (setf d (rnd p (sgn ss (regs s r))) s)
  | ICvtt sd a d =>
      let bad := - 2 ^ (bits sd - 1) in
      Some (setr sd d (match fregs s a with
        | Fin m e => let z := ftrunc m e in
                     if (z <? - 2 ^ (bits sd - 1)) || (2 ^ (bits sd - 1) <=? z) then bad else z
        | _ => bad
        end) s)
  | IFdouble d => match fregs s d with Fin m e => Some (setf d (Fin m (e + 1)) s) | _ => Some s end
  | IJcc _ _ | IJmp _ | IJto _ => None
  end.

(** Run a list of instructions, [true] if it was left for the label; [k] are to be skipped. *)
Fixpoint run (k : nat) (l : list inst) (s : state) : option (bool * state) :=
  match l with
  | [] => match k with O => Some (false, s) | S _ => None end
  | i :: l =>
      match k with
      | S k => run k l s
      | O =>
          match i with
          | IJcc c n => b ← evalcc c s; run (if b : bool then n else O) l s
          | IJmp n => run n l s
          | IJto c => b ← evalcc c s; if b : bool then Some (true, s) else run O l s
          | _ => s' ← step i s; run O l s'
          end
      end
  end.

(** ** The operations of the compiler *)

Inductive bop := Add | Sub | Mul | Div | Mod | And | Or | Xor | Shl | Shr.
Inductive cond := EQ | NE | LT | LE | GE | GT.
(** An operand, in a register or constant. *)
Inductive opr := OReg (sz phys : nat) | OCon (sz : nat) (n : Z).
Definition osize (o : opr) : nat := match o with OReg sz _ => sz | OCon sz _ => sz end.

Definition osrc (o : opr) : src := match o with OReg _ p => Reg p | OCon _ n => Imm n end.

(** swap_cond, ir.c *)
Definition swap (c : cond) : cond :=
  match c with LT => GT | LE => GE | GE => LE | GT => LT | _ => c end.

(** Lines 59-75 without the frame pointer: registers that no operand may be in. *)
Definition occupied (o : bop) (opr2 : opr) : list nat :=
  match o with
  | Mul | Div | Mod => [DREG; AREG]
  | Shl | Shr => match opr2 with OReg _ _ => [CREG] | OCon _ _ => [] end
  | _ => []
  end.

Definition mov_unless (same : nat) (sz s d : nat) : list inst :=
  if Nat.eqb s same then [] else [IMov sz (Reg s) d].

(** Lines 325-595.  The destination has size [sz] and register [d], and is the first operand
    (line 326 and so on).  None: an assertion fails. *)
Definition emit_addsub (add : bool) (sz d : nat) (o2 : opr) : list inst :=
  match o2 with
  | OCon _ n =>
      if n =? 0 then []
      else if n =? 1 then [if add then IInc sz d else IDec sz d]
      else if n =? -1 then [if add then IDec sz d else IInc sz d]
      else [if add then IAdd sz (Imm n) d else ISub sz (Imm n) d]
  | OReg _ p => [if add then IAdd sz (Reg p) d else ISub sz (Reg p) d]
  end.

(** Lines 440-463 and 496-517: extend the dividend and divide. *)
Definition emit_divide (uns : bool) (sz p2 : nat) : option (list inst) :=
  if uns then
    match sz with
    | 1%nat => Some [IXor 1 (Reg DREG) DREG; IDiv 1 p2]
    | 2%nat => Some [IXor 2 (Reg DREG) DREG; IDiv 2 p2]
    | 3%nat => Some [IXor 2 (Reg DREG) DREG; IDiv 3 p2]
    | _ => None
    end
  else
    match sz with
    | 1%nat => Some [ICwtl; IIdiv 1 p2]
    | 2%nat => Some [ICltd; IIdiv 2 p2]
    | 3%nat => Some [ICqto; IIdiv 3 p2]
    | _ => None
    end.
(** Lines 427-436 and 478-487: division of 1 byte in ax. *)
Definition emit_divide8 (uns : bool) (p1 p2 : nat) : list inst :=
  (if Nat.eqb p1 AREG then [] else [if uns then IMovzx 0 1 p1 AREG else IMovsx 0 1 p1 AREG]) ++
  [if uns then IDiv 0 p2 else IIdiv 0 p2].

Definition emit_shift (f : nat -> option Z -> nat -> inst) (sz d : nat) (o2 : opr) : option (list inst) :=
  match o2 with
  | OCon _ n => Some [f sz (Some (Z.land n 255)) d]
  | OReg _ p => if Nat.eqb p CREG || Nat.eqb d CREG then None else Some [IMov 0 (Reg p) CREG; f sz None d]
  end.

Definition emit_bop (o : bop) (uns : bool) (sz d : nat) (o2 : opr) : option (list inst) :=
  match o with
  | Add => Some (emit_addsub true sz d o2)
  | Sub => Some (emit_addsub false sz d o2)
  | And => Some [IAnd sz (osrc o2) d]
  | Or => Some [IOr sz (osrc o2) d]
  | Xor => Some [IXor sz (osrc o2) d]
  | Shl => emit_shift IShl sz d o2
  | Shr => emit_shift (if uns then IShr else ISar) sz d o2
  | Mul =>
      match o2 with
      | OReg _ p =>
          if Nat.eqb p AREG then None
          else Some (mov_unless AREG sz d AREG ++ [IMul sz p] ++
                     (if Nat.eqb d AREG then [] else [IMov sz (Reg AREG) d]))
      | OCon _ _ => None
      end
  | Div =>
      match o2 with
      | OReg _ p =>
          if Nat.eqb p AREG then None
          else if Nat.eqb sz 0 then
            Some (emit_divide8 uns d p ++ if Nat.eqb d AREG then [] else [IMov 0 (Reg AREG) d])
          else
            c ← emit_divide uns sz p;
            Some (mov_unless AREG sz d AREG ++ c ++
                  (if Nat.eqb d AREG then [] else [IMov sz (Reg AREG) d]))
      | OCon _ _ => None
      end
  | Mod =>
      match o2 with
      | OReg _ p =>
          if Nat.eqb p AREG then None
          else if Nat.eqb sz 1 then
            Some (emit_divide8 uns d p ++ [IMovAhAl] ++ if Nat.eqb d AREG then [] else [IMov 0 (Reg AREG) d])
          else
            c ← emit_divide uns sz p;
            Some (mov_unless AREG sz d AREG ++ c ++
                  (if Nat.eqb d DREG then [] else [IMov sz (Reg DREG) d]))
      | OCon _ _ => None
      end
  end.

(** Lines 597-651 for integers. *)
Inductive uop := Neg | Not.
Definition emit_uop (o : uop) (sz d : nat) : list inst :=
  match o with Neg => [INeg sz d] | Not => [INot sz d] end.

(** Lines 757-787. *)
Definition emit_mov (d : nat) (o : opr) : list inst :=
  match o with
  | OCon sz n => [IMov sz (Imm n) d]
  | OReg sz p => if Nat.eqb p d then [] else [IMov sz (Reg p) d]
  end.
Definition emit_result (o : opr) : list inst := emit_mov AREG o.

(** Lines 728-754: between integers. *)
Definition emit_cast (uns : bool) (sd d : nat) (o : opr) : option (list inst) :=
  match o with
  | OCon _ _ => None
  | OReg ss p =>
      if Nat.eqb sd ss then None
      else if Nat.ltb sd ss then Some (if Nat.eqb d p then [] else [IMov sd (Reg p) d])
      else Some [if uns then if Nat.eqb ss 2 then IMov 2 (Reg p) d else IMovzx ss sd p d
                 else IMovsx ss sd p d]
  end.

(** Lines 667-715: from the integer in register [p] of size [ss] to the floating-point register
    [d], with [prec] binary digits. *)
Definition emit_i2f (uns : bool) (prec : Z) (ss p d : nat) : list inst :=
  let ext := if Nat.ltb ss 2 then [if uns then IMovzx ss 2 p p else IMovsx ss 2 p p] else [] in
  let ss := Nat.max ss 2 in
  ext ++
  (if negb uns then [ICvtsi2f prec ss p d]
   else if Nat.ltb ss 3 then [ICvtsi2f prec 3 p d]
   else [ITest 3 (Reg p) p; IJcc CS 2; ICvtsi2f prec 3 p d; IJmp 6;
         IPush AREG; IMov 3 (Reg p) AREG; IShr 3 (Some 1) AREG;
         ICvtsi2f prec 3 AREG d; IFdouble d; IPop AREG]).
(** Lines 716-727: to the integer in register [d] of size [sd]; the flag for unsigned is not looked
    at. *)
Definition emit_f2i (sd s d : nat) : list inst := [ICvtt (Nat.max sd 2) s d].

(** Lines 198-231, for integers. *)
Definition cmp_int (o1 o2 : opr) : option (list inst) :=
  match o1 with
  | OCon _ _ => None
  | OReg sz p =>
      match o2 with
      | OCon _ n => Some [if n =? 0 then ITest sz (Reg p) p else ICmp sz (Imm n) p]
      | OReg _ p2 => Some [ICmp sz (Reg p2) p]
      end
  end.
Definition cc_of (uns : bool) (c : cond) : cc :=
  match c, uns with
  | EQ, _ => CE | NE, _ => CNE
  | LT, false => CL | GT, false => CG | LE, false => CLE | GE, false => CGE
  | LT, true => CB | GT, true => CA | LE, true => CBE | GE, true => CAE
  end.
(** Lines 789-849 for integers. *)
Definition emit_cond (uns : bool) (c : cond) (d : nat) (o1 o2 : opr) : option (list inst) :=
  t ← cmp_int o1 o2; Some (t ++ [ISet (cc_of uns c) d; IMovsx 0 2 d d]).
(** Lines 851-917 for integers; the conditions ANY and NONE do not get here. *)
Definition emit_jmp (uns : bool) (c : cond) (o1 o2 : opr) : option (list inst) :=
  t ← cmp_int o1 o2; Some (t ++ [IJto (cc_of uns c)]).
(** The same for floating-point registers. *)
Definition emit_fcond (c : cond) (d : nat) (f1 f2 : nat) : list inst :=
  match c with
  | EQ => [IUcomi f2 f1; ISet CNP d; IUcomi f2 f1; IJcc CE 1; IMov 0 (Imm 0) d; IMovsx 0 2 d d]
  | NE => [IUcomi f2 f1; ISet CP d; IUcomi f2 f1; IJcc CE 1; IMov 0 (Imm 1) d; IMovsx 0 2 d d]
  | LT | LE => [IUcomi f1 f2; ISet (cc_of true (swap c)) d; IMovsx 0 2 d d]
  | GT | GE => [IUcomi f2 f1; ISet (cc_of true c) d; IMovsx 0 2 d d]
  end.
Definition emit_fjmp (c : cond) (f1 f2 : nat) : list inst :=
  match c with
  | EQ => [IUcomi f2 f1; IJcc CP 1; IJto CE]
  | NE => [IUcomi f2 f1; IJto CP; IJto CNE]
  | LT | LE => [IUcomi f1 f2; IJto (cc_of true (swap c))]
  | GT | GE => [IUcomi f2 f1; IJto (cc_of true c)]
  end.
(** Lines 920-930: the index of a table of jumps is extended to 8 bytes in its own register. *)
Definition emit_index (ss p : nat) : list inst :=
  if Nat.ltb ss 3 then [if Nat.eqb ss 2 then IMov 2 (Reg p) p else IMovzx ss 3 p p] else [].

(** ** Preparing the operations *)

(** An operation on virtual registers (given by number and size) and constants.  [VJmp] and
    [VResult] assign nothing. *)
Inductive vopr := VReg (sz v : nat) | VCon (sz : nat) (n : Z).
Inductive vir :=
| VBop (o : bop) (uns : bool) (sz d : nat) (a b : vopr)
| VUop (o : uop) (sz d : nat) (a : vopr)
| VCast (uns : bool) (sz d : nat) (a : vopr)
| VMov (sz d : nat) (a : vopr)
| VCond (uns : bool) (c : cond) (d : nat) (a b : vopr)
| VResult (a : vopr)
| VJmp (uns : bool) (c : cond) (a b : vopr).

Definition vsize (a : vopr) : nat := match a with VReg sz _ => sz | VCon sz _ => sz end.
Definition is_con (a : vopr) : bool := match a with VCon _ _ => true | _ => false end.

(** convert_3to2 (lines 1073-1116): a = b op c becomes a = b; a = a op c. *)
Definition to2 (i : vir) : list vir :=
  match i with
  | VBop o uns sz d a b => [VMov sz d a; VBop o uns sz d (VReg sz d) b]
  | VUop o sz d a => [VMov sz d a; VUop o sz d (VReg sz d)]
  | _ => [i]
  end.
Definition convert (l : list vir) : list vir := concat (to2 <$> l).

(** insert_tmp_mov (ir.c): the moves to put in front, the new operand, and the next free number of
    a virtual register. *)
Definition tmp_mov (go : bool) (n : nat) (a : vopr) : list vir * vopr * nat :=
  if go then ([VMov (vsize a) n a], VReg (vsize a) n, S n) else ([], a, n).
Definition big (a : vopr) : bool := match a with VCon _ n => negb (is_im32 n) | _ => false end.
Definition needs_reg (o : bop) : bool := match o with Mul | Div | Mod => true | _ => false end.

(** Lines 1138-1158: constants that are too large are moved to a register, and so are those that
    are multiplied or divided with (the second test sees an operand that the first may have
    changed). *)
Definition tweak1 (n : nat) (i : vir) : list vir * nat :=
  match i with
  | VMov _ _ _ => ([i], n)
  | VBop o uns sz d a b =>
      let '(l1, a, n) := tmp_mov (big a) n a in
      let '(l2, b, n) := tmp_mov (big b) n b in
      let '(l3, b, n) := tmp_mov (needs_reg o && is_con b) n b in
      (l1 ++ l2 ++ l3 ++ [VBop o uns sz d a b], n)
  | VUop o sz d a => let '(l1, a, n) := tmp_mov (big a) n a in (l1 ++ [VUop o sz d a], n)
  | VCast uns sz d a => let '(l1, a, n) := tmp_mov (big a) n a in (l1 ++ [VCast uns sz d a], n)
  | VResult a => let '(l1, a, n) := tmp_mov (big a) n a in (l1 ++ [VResult a], n)
  | VCond uns c d a b =>
      let '(l1, a, n) := tmp_mov (big a) n a in
      let '(l2, b, n) := tmp_mov (big b) n b in (l1 ++ l2 ++ [VCond uns c d a b], n)
  | VJmp uns c a b =>
      let '(l1, a, n) := tmp_mov (big a) n a in
      let '(l2, b, n) := tmp_mov (big b) n b in (l1 ++ l2 ++ [VJmp uns c a b], n)
  end.
Fixpoint tweak_list (n : nat) (l : list vir) : list vir :=
  match l with
  | [] => []
  | i :: l => let '(l1, n) := tweak1 n i in l1 ++ tweak_list n l
  end.
(** tweak_irs, for one block; [n] is the number of virtual registers. *)
Definition tweak (n : nat) (l : list vir) : list vir := tweak_list n (convert l).

(** ** From virtual to physical registers *)

Definition place (ph : nat -> nat) (a : vopr) : opr :=
  match a with VReg sz v => OReg sz (ph v) | VCon sz n => OCon sz n end.
(** The instructions for one operation (the table of lines 1058-1071); None if an assertion fails:
    the first operand is the destination in two-operand form, and constants are second operands
    only. *)
Definition emit (ph : nat -> nat) (i : vir) : option (list inst) :=
  match i with
  | VBop o uns sz d a b =>
      match a with
      | VReg _ v => if Nat.eqb (ph v) (ph d) then emit_bop o uns sz (ph d) (place ph b) else None
      | VCon _ _ => None
      end
  | VUop o sz d a =>
      match a with
      | VReg _ v => if Nat.eqb (ph v) (ph d) then Some (emit_uop o sz (ph d)) else None
      | VCon _ _ => None
      end
  | VCast uns sz d a => emit_cast uns sz (ph d) (place ph a)
  | VMov _ d a => Some (emit_mov (ph d) (place ph a))
  | VCond uns c d a b => emit_cond uns c (ph d) (place ph a) (place ph b)
  | VResult a => Some (emit_result (place ph a))
  | VJmp uns c a b => emit_jmp uns c (place ph a) (place ph b)
  end.
Fixpoint emit_list (ph : nat -> nat) (l : list vir) : option (list inst) :=
  match l with
  | [] => Some []
  | i :: l => c ← emit ph i; cs ← emit_list ph l; Some (c ++ cs)
  end.
