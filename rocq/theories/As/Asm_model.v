(** Model of the passes of the assembler over the parsed program: address assignment, resolution
    of relative addresses, emission.
    src/as/as.c:186-200, src/as/arch/{x64,aarch64,riscv64}/ir_asm_*.c.

    [calc_label_address], the loop of [resolve_relative_address] and [emit_irs] are the same text
    for the three architectures up to the treatment of instructions, which is the parameter
    [step] here (instances in Asm_arch_model.v).

    Simplifications.
    - Names are numbers; the label table maps a name to the address in its [LabelInfo].
    - An operand that is an expression is given by the [Value] that [calc_expr] returns for it:
      a label and an offset, or a constant (differences of labels are not modelled as operands of
      instructions).
    - Sizes of [.zero] and [.comm] are natural numbers.
    - [code->len] is the length of [code->buf]; the capacity of the buffer is not modelled.
    - The addend of an unresolved reference is an [int].
    - The dummy label that RISC-V puts before an [la] that no label precedes is never entered
      into the label table; it is an abort here.
    - [None] is an assertion or [exit(1)]. *)
From stdpp Require Import base list numbers gmap.
From Verif Require Import Util.Data_model.
Open Scope Z_scope.

Definition u64 (x : Z) : Z := x mod 2 ^ 64.
Definition s64 (x : Z) : Z := (x + 2 ^ 63) mod 2 ^ 64 - 2 ^ 63.
Definition s32 (x : Z) : Z := (x + 2 ^ 31) mod 2 ^ 32 - 2 ^ 31.

(** parse_asm.h, struct Value *)
Record value := Value { vlab : option nat; vofs : Z }.

(** ir_asm.h:22-42 *)
Inductive ukind := UExtern | UPc32 | UAbs64 | UCall | UPcrelHi | UPcrelLo | UGotHi | UGotLo | UGotLoad
  | UBranch | UJal | URvcBranch | URvcJump | URelax.
(** ir_asm.h:44-50 *)
Record unres := Unres { ukind_of : ukind; ulabel : nat; uoffset : Z; uadd : Z }.

(** The label table; the address of a label that is declared but not defined is 0. *)
Notation table := (gmap nat Z) (only parsing).

Section Passes.
  Context {I : Type}.

  (** asm_code.h:12-21 *)
  Record code := Code { inst : I; long : bool; buf : list Z }.

  (** ir_asm.h:57-68 *)
  Inductive item := ILabel (n : nat) | ICode (c : code) | IData (bs : list Z) | IBss (n : nat)
    | IZero (n : nat) | IAlign (a : Z) | IExpr (k : nat) (v : value).
  (** ir_asm.h:70-86 *)
  Record ir := IR { kind : item; address : Z }.
  (** parse_asm.h:51-68 *)
  Record section := Sec { bss : bool; align : Z; start : Z; irs : list ir }.

  (** How far an item moves the address, ir_asm_riscv64.c:72-101 (not for alignment). *)
  Definition advance (i : item) : Z :=
    match i with
    | ILabel _ | IAlign _ => 0
    | ICode c => Z.of_nat (length (buf c))
    | IData bs => Z.of_nat (length bs)
    | IBss n | IZero n => Z.of_nat n
    | IExpr k _ => 2 ^ Z.of_nat k
    end.

  (** ir_asm_riscv64.c:58-104, the loop over one section: the address, the alignment of the
      section and whether the alignments are settled. *)
  Fixpoint calc_irs (t : table) (a sa : Z) (ok : bool) (l : list ir) : option (list ir * table * Z * Z * bool) :=
    match l with
    | [] => Some ([], t, a, sa, ok)
    | IR i _ :: l =>
      match i with
      | IAlign al =>
        let a := ALIGN a al in
        let grow := sa <? al in
        '(l, t, a', sa, ok) ← calc_irs t a (if grow then al else sa) (ok && negb grow) l;
        Some (IR i a :: l, t, a', sa, ok)
      | ILabel n =>
        match t !! n with
        | None => None
        | Some _ =>
          '(l, t, a', sa, ok) ← calc_irs (<[n := a]> t) a sa ok l;
          Some (IR i a :: l, t, a', sa, ok)
        end
      | _ =>
        '(l, t, a', sa, ok) ← calc_irs t (u64 (a + advance i)) sa ok l;
        Some (IR i a :: l, t, a', sa, ok)
      end
    end.

  (** ir_asm_riscv64.c:49-108 *)
  Fixpoint calc_sections (t : table) (a : Z) (ok : bool) (ss : list section) : option (list section * table * bool) :=
    match ss with
    | [] => Some ([], t, ok)
    | s :: ss =>
      let a := ALIGN a (align s) in
      '(l, t, a', sa, ok) ← calc_irs t a (align s) ok (irs s);
      '(ss, t, ok) ← calc_sections t a' ok ss;
      Some (Sec (bss s) sa a l :: ss, t, ok)
    end.
  Definition calc_label_address (start_address : Z) (ss : list section) (t : table) : option (list section * table * bool) :=
    calc_sections t start_address true ss.

  (** What is done for one instruction: the instruction afterwards, an instruction to insert after
      it, whether a size has changed, and the references that remain. *)
  Record stepped := Stepped { new : code; extra : option code; upgraded : bool; refs : list unres }.
  (** The table, the last label before the instruction, the start of the section, the address. *)
  Variable step : table -> option nat -> Z -> Z -> code -> option stepped.

  (** ir_asm_riscv64.c:151-403, the loop over one section.  [len] is read once before the loop,
      so items behind an inserted one are not reached. *)
  Fixpoint resolve_irs (t : table) (st : Z) (last : option nat) (len : nat) (l : list ir) : option (list ir * bool * list unres) :=
    match len, l with
    | O, _ | _, [] => Some (l, false, [])
    | S len, IR i a :: l =>
      match i with
      | ICode c =>
        s ← step t last st a c;
        match extra s with
        | None =>
          '(l, up, us) ← resolve_irs t st last len l;
          Some (IR (ICode (new s)) a :: l, upgraded s || up, refs s ++ us)
        | Some c' =>
          (* the inserted instruction is the next one to be looked at, with the address of this one *)
          match len with
          | O => Some (IR (ICode (new s)) a :: IR (ICode c') a :: l, upgraded s, refs s)
          | S len =>
            s' ← step t last st a c';
            match extra s' with
            | Some _ => None (* not for an unconditional jump *)
            | None =>
              '(l, up, us) ← resolve_irs t st last len l;
              Some (IR (ICode (new s)) a :: IR (ICode (new s')) a :: l, upgraded s || (upgraded s' || up), refs s ++ refs s' ++ us)
            end
          end
        end
      | IExpr k v =>
        match vlab v with
        | None => None
        | Some n =>
          '(l, up, us) ← resolve_irs t st last len l;
          Some (IR i a :: l, up, Unres UAbs64 n (u64 (a - st)) (s32 (vofs v)) :: us)
        end
      | ILabel n =>
        '(l, up, us) ← resolve_irs t st (Some n) len l;
        Some (IR i a :: l, up, us)
      | _ =>
        '(l, up, us) ← resolve_irs t st last len l;
        Some (IR i a :: l, up, us)
      end
    end.

  (** ir_asm_riscv64.c:147-406; the references are kept per section. *)
  Fixpoint resolve_relative_address (t : table) (ss : list section) : option (list section * bool * list (list unres)) :=
    match ss with
    | [] => Some ([], false, [])
    | s :: ss =>
      let st := match irs s with IR _ a :: _ => a | [] => 0 end in
      '(l, up, us) ← resolve_irs t st None (length (irs s)) (irs s);
      '(ss, up', uss) ← resolve_relative_address t ss;
      Some (Sec (bss s) (align s) (start s) l :: ss, up || up', us :: uss)
    end.

  Inductive outcome := Done (ss : list section) (t : table) (us : list (list unres)) | Fails | NoFuel.
  (** as.c:188-191 *)
  Fixpoint settle (fuel : nat) (start_address : Z) (ss : list section) (t : table) : outcome :=
    match fuel with
    | O => NoFuel
    | S fuel =>
      match calc_label_address start_address ss t with
      | None => Fails
      | Some (ss, t, ok1) =>
        match resolve_relative_address t ss with
        | None => Fails
        | Some (ss, up, us) => if ok1 && negb up then Done ss t us else settle fuel start_address ss t
        end
      end
    end.
End Passes.
Arguments code : clear implicits. Arguments item : clear implicits. Arguments ir : clear implicits.
Arguments section : clear implicits. Arguments stepped : clear implicits. Arguments outcome : clear implicits.

Section Emit.
  Context {I : Type}.
  (** ir_asm_riscv64.c:25-47, 408-450: the bytes and the size of a bss section so far. *)
  Definition emit_item (is_bss : bool) (o : list Z * Z) (i : item I) : option (list Z * Z) :=
    let '(bs, n) := o in
    let data (d : list Z) := if is_bss then None else Some (bs ++ d, n) in
    match i with
    | ILabel _ => Some o
    | ICode c => data (buf c)
    | IData d => data d
    | IBss k => if is_bss then Some (bs, u64 (n + Z.of_nat k)) else None
    | IZero k => if is_bss then Some (bs, u64 (n + Z.of_nat k)) else data (replicate k 0)
    | IAlign a =>
      if is_bss then Some (bs, ALIGN n a)
      else Some (bs ++ replicate (Z.to_nat (u64 (ALIGN (Z.of_nat (length bs)) a - Z.of_nat (length bs)))) 0, n)
    | IExpr k _ => data (replicate (2 ^ k) 0)
    end.
  Fixpoint emit_items (is_bss : bool) (o : list Z * Z) (l : list (item I)) : option (list Z * Z) :=
    match l with
    | [] => Some o
    | i :: l => o ← emit_item is_bss o i; emit_items is_bss o l
    end.
  Definition emit (s : section I) : option (list Z * Z) := emit_items (bss s) ([], 0) (kind <$> irs s).
  Definition size_of (is_bss : bool) (o : list Z * Z) : Z := if is_bss then o.2 else Z.of_nat (length o.1).

  (** as.c:77-86: the start addresses written into the object. *)
  Fixpoint fix_section_size (a : Z) (l : list (section I * (list Z * Z))) : list Z :=
    match l with
    | [] => []
    | (s, o) :: l =>
      if size_of (bss s) o <=? 0 then start s :: fix_section_size a l
      else let a := ALIGN a (align s) in a :: fix_section_size (u64 (a + size_of (bss s) o)) l
    end.
End Emit.

(** as.c:14-16 *)
Definition LOAD_ADDRESS : Z := 0x01000000 + 0x100.
