(** What the assembler has to achieve: labels at the emitted positions, jumps that go to them. *)
From stdpp Require Import base list numbers gmap.
From Verif Require Import As.Asm_model As.Asm_arch_model.
From Verif Require As.Rv_model As.Rv_spec.
Open Scope Z_scope.

(** ** Programs *)
Section Programs.
  Context {I : Type}.
  Definition labels (l : list (item I)) : list nat := omap (fun i => match i with ILabel n => Some n | _ => None end) l.
  Definition items (s : section I) : list (item I) := kind <$> irs s.
  Definition all_labels (ss : list (section I)) : list nat := ss ≫= fun s => labels (items s).
  (** Alignments are powers of two that fit an [int]. *)
  Definition pow2 (a : Z) : Prop := exists k, 0 <= k < 31 /\ a = 2 ^ k.
  Definition aligns_ok (l : list (item I)) : Prop := forall a, IAlign a ∈ l -> pow2 a.

  (** A program as the parser leaves it: sections of alignment 1, no label defined twice, all of
      them in the table, all instructions as [fresh] says. *)
  Definition parsed (fresh : code I -> Prop) (ss : list (section I)) (t : table) : Prop :=
    (forall s, s ∈ ss -> align s = 1 /\ aligns_ok (items s)) /\
    NoDup (all_labels ss) /\
    (forall s c, s ∈ ss -> ICode c ∈ items s -> fresh c).

  (** ** Positions *)
  (** The address of item number [i] of a section is the start of the section plus the number of
      bytes emitted before it; that is also the address of a label. *)
  Definition item_placed (t : table) (s : section I) : Prop :=
    forall pre i a post o, irs s = pre ++ IR i a :: post ->
    emit_items (bss s) ([], 0) (kind <$> pre) = Some o ->
    match i with
    | IAlign _ => True
    | ILabel n => a = u64 (start s + size_of (bss s) o) /\ t !! n = Some a
    | _ => a = u64 (start s + size_of (bss s) o)
    end.
  (** Sections follow one another with only the padding their alignment needs. *)
  Fixpoint in_sequence (a : Z) (ss : list (section I)) : Prop :=
    match ss with
    | [] => True
    | s :: ss =>
      (exists pad, 0 <= pad < align s /\ start s = u64 (a + pad)) /\ start s mod align s = 0 /\
      forall o, emit s = Some o -> in_sequence (start s + size_of (bss s) o) ss
    end.
  Definition placed (a : Z) (ss : list (section I)) (t : table) : Prop :=
    (forall s, s ∈ ss -> item_placed t s) /\ in_sequence a ss.

  (** ** The same program, each instruction [c] rewritten to the instructions [cs], given with
      their addresses, such that [R c cs]. *)
  Inductive rewritten (R : code I -> list (Z * code I) -> Prop) : list (item I) -> list (ir I) -> Prop :=
    | rw_nil : rewritten R [] []
    | rw_code c cs l l' : R c cs -> rewritten R l l' ->
        rewritten R (ICode c :: l) (((fun p => IR (ICode p.2) p.1) <$> cs) ++ l')
    | rw_other i a l l' : (forall c, i <> ICode c) -> rewritten R l l' -> rewritten R (i :: l) (IR i a :: l').
  Definition rewritten_all (R : code I -> list (Z * code I) -> Prop) (ss ss' : list (section I)) : Prop :=
    Forall2 (fun s s' => bss s' = bss s /\ rewritten R (items s) (irs s')) ss ss'.
End Programs.

(** The address an operand stands for. *)
Definition destination (t : table) (v : value) : option Z :=
  match vlab v with
  | None => Some (u64 (vofs v))
  | Some n => match t !! n with Some b => Some (u64 (b + vofs v)) | None => None end
  end.

(** ** x64 jumps, Intel 64 manual volume 2, JMP and Jcc: opcode, then a displacement from the next
    instruction. *)
Definition sext (n x : Z) : Z := if x <? 2 ^ (n - 1) then x else x - 2 ^ n.
Definition x64_jump (bs : list Z) : option (option Z * Z) :=
  match bs with
  | [op; d] =>
    if op =? 0xeb then Some (None, sext 8 d)
    else if (0x70 <=? op) && (op <? 0x80) then Some (Some (op - 0x70), sext 8 d) else None
  | [op; a; b; c; d] => if op =? 0xe9 then Some (None, sext 32 (a + 2 ^ 8 * b + 2 ^ 16 * c + 2 ^ 24 * d)) else None
  | [pre; op; a; b; c; d] =>
    if (pre =? 0x0f) && (0x80 <=? op) && (op <? 0x90)
    then Some (Some (op - 0x80), sext 32 (a + 2 ^ 8 * b + 2 ^ 16 * c + 2 ^ 24 * d)) else None
  | _ => None
  end.
Definition x64_jumps (i : xinst) : option (option Z * value) :=
  match i with XJmp v => Some (None, v) | XJcc cc v => Some (Some cc, v) | _ => None end.
Definition x64_fresh (c : code xinst) : Prop :=
  match inst c with
  | XJmp _ => x64_asm (inst c) = Some c
  | XJcc cc _ => x64_asm (inst c) = Some c /\ 0 <= cc < 16
  | XCall _ => x64_asm (inst c) = Some c
  | XLea _ => length (buf c) = 7%nat (* asm_code.c:715: REX, opcode, ModRM and 4 bytes *)
  | _ => True
  end.
(** A jump goes where its operand says; anything else that has no number for an operand stays as
    it is. *)
Definition x64_right (t : table) (c : code xinst) (cs : list (Z * code xinst)) : Prop :=
  exists a c', cs = [(a, c')] /\ inst c' = inst c /\
  match inst c with
  | XJmp v | XJcc _ v => forall cond d, x64_jumps (inst c) = Some (cond, v) -> destination t v = Some d ->
      exists disp, x64_jump (buf c') = Some (cond, disp) /\ u64 (a + Z.of_nat (length (buf c')) + disp) = d
  | XLea v | XCall v => is_Some (vlab v) -> c' = c
  | _ => c' = c
  end.

(** ** aarch64 branches, Arm manual, B and B.cond: a word offset from the instruction itself. *)
Definition a64_branch (bs : list Z) : option (option Z * Z) :=
  match bs with
  | [a; b; c; d] =>
    let w := a + 2 ^ 8 * b + 2 ^ 16 * c + 2 ^ 24 * d in
    if w / 2 ^ 26 =? 5 then Some (None, sext 28 (w mod 2 ^ 26 * 4))
    else if (w / 2 ^ 24 =? 0x54) && (w / 16 mod 2 =? 0) then Some (Some (w mod 16), sext 21 (w / 2 ^ 5 mod 2 ^ 19 * 4))
    else None
  | _ => None
  end.
Definition a64_branches (i : ainst) : option (option Z * value) :=
  match i with AB v => Some (None, v) | ABcc cc v => Some (Some cc, v) | _ => None end.
Definition a64_fresh (c : code ainst) : Prop :=
  match inst c with
  | AB _ => a64_asm (inst c) = Some c
  | ABcc cc _ => a64_asm (inst c) = Some c /\ 0 <= cc < 16
  | _ => True
  end.
Definition a64_right (t : table) (c : code ainst) (cs : list (Z * code ainst)) : Prop :=
  exists a c', cs = [(a, c')] /\ inst c' = inst c /\
  match inst c with
  | AB v | ABcc _ v => forall cond d, a64_branches (inst c) = Some (cond, v) -> destination t v = Some d ->
      exists disp, a64_branch (buf c') = Some (cond, disp) /\ u64 (a + disp) = d
  | _ => c' = c
  end.

(** ** riscv64: running the code of one branch. *)
Definition taken (r : Z -> Z) (o : brop) (rs1 rs2 : Z) : bool :=
  match o with
  | Rv_model.BEQ => r rs1 =? r rs2 | Rv_model.BNE => negb (r rs1 =? r rs2)
  | Rv_model.BLT => Rv_spec.s64 (r rs1) <? Rv_spec.s64 (r rs2) | Rv_model.BGE => Rv_spec.s64 (r rs2) <=? Rv_spec.s64 (r rs1)
  | Rv_model.BLTU => r rs1 <? r rs2 | Rv_model.BGEU => r rs2 <=? r rs1
  end.
(** The program counter after one of the instructions in [cs], the first of them at [a], has
    left them; [None] if they are something else than branches. *)
Definition next (r : Z -> Z) (a len : Z) (b : Rv_spec.base) : option Z :=
  match b with
  | Rv_spec.BBr o rs1 rs2 ofs => Some (u64 (if taken r o rs1 rs2 then a + ofs else a + len))
  | Rv_spec.BJal 0 ofs => Some (u64 (a + ofs))
  | _ => None
  end.
Definition exec1 (r : Z -> Z) (a : Z) (bs : list Z) : option Z :=
  match Rv_spec.decode (length bs) bs with Some [b] => next r a (Z.of_nat (length bs)) b | _ => None end.
Definition exec (r : Z -> Z) (a : Z) (cs : list (list Z)) : option Z :=
  match cs with
  | [bs] => exec1 r a bs
  | [bs; bs'] =>
    match exec1 r a bs with
    | Some a' => if a' =? u64 (a + Z.of_nat (length bs)) then exec1 r a' bs' else Some a'
    | None => None
    end
  | _ => None
  end.
(** Branches are to labels. *)
Definition rv_fresh (c : code rinst) : Prop :=
  match inst c with
  | RB o rs1 rs2 v => c = rv_bxx o rs1 rs2 v /\ Rv_spec.reg_ok rs1 /\ Rv_spec.reg_ok rs2 /\ is_Some (vlab v)
  | RJ v => c = rv_j v /\ is_Some (vlab v)
  | _ => True
  end.
(** A conditional branch, or what it has become, goes to its destination if the condition holds
    and past its last instruction otherwise; a jump, if it is not compressed, goes to its
    destination. *)
Definition rv_right (t : table) (c : code rinst) (cs : list (Z * code rinst)) : Prop :=
  match inst c with
  | RB o rs1 rs2 v => exists a c' cs', cs = (a, c') :: cs' /\
      (forall i x y, cs !! i = Some x -> cs !! S i = Some y -> y.1 = u64 (x.1 + Z.of_nat (length (buf x.2)))) /\
      let past := u64 (a + Z.of_nat (length (cs ≫= fun p => buf p.2))) in
      forall d, destination t v = Some d -> d <> 0 -> past <> 0 -> (d - a) mod 2 = 0 -> forall r,
      exec r a ((fun p => buf p.2) <$> cs) = Some (if taken r o rs1 rs2 then d else past)
  | RJ v => exists a c', cs = [(a, c')] /\
      forall d, destination t v = Some d -> d <> 0 -> (d - a) mod 2 = 0 -> long c' = true -> forall r, exec r a [buf c'] = Some d
  | _ => exists a, cs = [(a, c)]
  end.
