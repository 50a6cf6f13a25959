(** What must be true of a section after assembling and linking: its bytes are the source items
    one after another, every item that names a symbol refers to the address of that symbol. *)
From stdpp Require Import base list numbers gmap.
From Verif Require Import As.Asm_model As.Asm_arch_model As.Asm_spec.
From Verif Require As.Rv_model As.Rv_spec Ld.Rela_spec.
Local Open Scope Z_scope.

(** The bytes [bs] at address [a] are the items [l], each being as [P] says. *)
Inductive loaded {I} (P : Z -> item I -> list Z -> Prop) : Z -> list (item I) -> list Z -> Prop :=
  | loaded_nil a : loaded P a [] []
  | loaded_cons a i l bs bs' : P a i bs -> loaded P (u64 (a + Z.of_nat (length bs))) l bs' -> loaded P a (i :: l) (bs ++ bs').

(** The address an operand with a label stands for, the labels being where [sym] says. *)
Definition refers (sym : nat -> Z) (v : value) (n : nat) (d : Z) : Prop :=
  vlab v = Some n /\ - 2 ^ 31 + 4 <= vofs v < 2 ^ 31 /\ d = u64 (sym n + vofs v).

(** One item at address [a] of a section that starts at [sec]; [code] says what is asked of an
    instruction.  ([IExpr 3] is [.quad] with a symbol; for shorter ones see the refutation.) *)
Definition piece {I} (sym : nat -> Z) (sec : Z) (code : Z -> code I -> list Z -> Prop) (a : Z) (i : item I) (bs : list Z) : Prop :=
  match i with
  | ILabel n => bs = [] /\ sym n = a
  | ICode c => code a c bs
  | IData d => bs = d
  | IBss _ => False
  | IZero k => bs = replicate k 0
  | IAlign al => exists k, bs = replicate k 0 /\ Z.of_nat k < al /\ (sec mod al = 0 -> (a + Z.of_nat k) mod al = 0)
  | IExpr _ v => length bs = 8%nat /\ forall n d, refers sym v n d -> word 8 bs = d
  end.
Definition exprs_ok {I} (l : list (item I)) : Prop := forall k v, IExpr k v ∈ l -> k = 3%nat.

(** The labels of a section [l] that starts at [sec] are at the bytes that follow them. *)
Definition own_labels {I} (sym : nat -> Z) (sec : Z) (l : list (item I)) : Prop :=
  forall pre n post bs z, l = pre ++ ILabel n :: post -> emit_items false ([], 0) pre = Some (bs, z) ->
  sym n = u64 (sec + Z.of_nat (length bs)).

(** The displacement of [d] from [a] as the processor computes it. *)
Definition away (a d : Z) : Z := s64 (d - a).

(** ** x64.  [own]: the labels of the same section, [known]: those of the table.  Nothing is said
    of a conditional jump to a symbol of another object, of a load that names a symbol, and of
    numbers as operands. *)
Definition x64_image (sym : nat -> Z) (own known : nat -> Prop) (a : Z) (c : code xinst) (bs : list Z) : Prop :=
  match inst c with
  | XCall v => forall n d, refers sym v n d -> exists x, bs = 0xe8 :: x /\ length x = 4%nat /\
      (Rela_spec.fits 32 (away (a + 5) d) -> u64 (a + 5 + sext 32 (word 4 x)) = d)
  | XLea v => forall n d, refers sym v n d -> exists x, bs = take 3 (buf c) ++ x /\ length x = 4%nat /\
      (Rela_spec.fits 32 (away (a + 7) d) -> u64 (a + 7 + sext 32 (word 4 x)) = d)
  | XJmp v => forall n d, refers sym v n d ->
      (own n -> exists disp, x64_jump bs = Some (None, disp) /\ u64 (a + Z.of_nat (length bs) + disp) = d) /\
      (~ known n -> exists disp, x64_jump bs = Some (None, disp) /\
         (Rela_spec.fits 32 (away (a + 5) d) -> u64 (a + Z.of_nat (length bs) + disp) = d))
  | XJcc cc v => forall n d, refers sym v n d ->
      own n -> exists disp, x64_jump bs = Some (Some cc, disp) /\ u64 (a + Z.of_nat (length bs) + disp) = d
  | XGot _ => True
  | XOther => bs = buf c
  end.

(** ** aarch64 *)
Definition a64_image (sym : nat -> Z) (own : nat -> Prop) (a : Z) (c : code ainst) (bs : list Z) : Prop :=
  match inst c with
  | AB v => forall n d, refers sym v n d -> own n -> exists disp, a64_branch bs = Some (None, disp) /\ u64 (a + disp) = d
  | ABcc cc v => forall n d, refers sym v n d -> own n -> exists disp, a64_branch bs = Some (Some cc, disp) /\ u64 (a + disp) = d
  | ABl v => forall n d, refers sym v n d -> length bs = 4%nat /\ Rela_spec.bits (word 4 bs) 31 26 = 0x25 /\
      (Rela_spec.fits 28 (away a d) -> away a d mod 4 = 0 -> u64 (a + Rela_spec.bl_disp (word 4 bs)) = d)
  | ARef UPcrelHi v => forall n d, refers sym v n d ->
      Rela_spec.same (word 4 (buf c)) (word 4 bs) [(4, 0); (28, 24); (31, 31)] /\
      (Rela_spec.fits 33 (away (Rela_spec.page a) (Rela_spec.page d)) -> u64 (Rela_spec.page a + Rela_spec.adrp_imm (word 4 bs)) = Rela_spec.page d)
  | ARef UPcrelLo v => forall n d, refers sym v n d ->
      Rela_spec.same (word 4 (buf c)) (word 4 bs) [(9, 0); (31, 22)] /\ Rela_spec.add_imm (word 4 bs) = d mod 4096
  | ARef _ _ => True
  | AOther => bs = buf c
  end.
(** As [a64_fresh], and: the relocated instructions are words, asm_code.c:412-415 and the like. *)
Definition a64_words (c : code ainst) : Prop :=
  match inst c with
  | ABl _ => a64_asm (inst c) = Some c
  | ARef k _ => length (buf c) = 4%nat /\ (k = UPcrelHi \/ k = UPcrelLo \/ k = UGotHi \/ k = UGotLo)
  | _ => True
  end.

(** ** riscv64.  The distance of a branch, if its label is of another section, must fit into the
    instruction. *)
Definition rv_image (sym : nat -> Z) (own : nat -> Prop) (a : Z) (c : code rinst) (bs : list Z) : Prop :=
  match inst c with
  | RB o rs1 rs2 v => forall n d, refers sym v n d -> own n \/ Rela_spec.fits 13 (away a d) -> (d - a) mod 2 = 0 ->
      exists cs, bs = concat cs /\ forall r, exec r a cs = Some (if taken r o rs1 rs2 then d else u64 (a + Z.of_nat (length bs)))
  | RJ v => forall n d, refers sym v n d -> (d - a) mod 2 = 0 -> forall r, exec r a [bs] = Some d
  | RCall v => forall n d, refers sym v n d -> (d - a) mod 2 = 0 -> exists disp,
      Rv_spec.decodes bs [Rv_spec.BJal 1 disp; Rv_spec.BI Rv_model.ADDI 0 0 0] /\ u64 (a + disp) = d
  | RLa v => forall n d rd, refers sym v n d -> Rv_spec.reg_ok rd -> Rv_model.asm (Rv_model.ILa rd) = Some (buf c) -> away a d < 2 ^ 31 - 2 ^ 11 ->
      exists hi lo, Rv_spec.decodes bs [Rv_spec.BAuipc rd hi; Rv_spec.BI Rv_model.ADDI rd rd lo] /\ u64 (a + hi + lo) = d
  | ROther => bs = buf c
  end.
(** As [rv_fresh], and: asm_code.c:282-287, 425-429; the labels of conditional branches are known,
    at any address but 0 (see the refutation). *)
Definition rv_words (t : gmap nat Z) (c : code rinst) : Prop :=
  match inst c with
  | RB _ _ _ v => exists d, destination t v = Some d /\ d <> 0
  | RLa _ => exists rd, Rv_spec.reg_ok rd /\ Rv_model.asm (Rv_model.ILa rd) = Some (buf c)
  | RCall _ => Rv_model.asm Rv_model.ICall = Some (buf c)
  | _ => True
  end.

(** ** Symbols.  Sections of the object with their contents and start addresses: none is empty;
    each label of theirs has the number of bytes before it as its value. *)
Definition none_empty {I} (w : list (section I * (list Z * Z) * Z)) : Prop :=
  forall s o st, (s, o, st) ∈ w -> 0 < size_of (bss s) o.
Definition values_right {I} (value : Z -> nat -> option Z) (w : list (section I * (list Z * Z) * Z)) : Prop :=
  forall s o st, (s, o, st) ∈ w -> forall pre n post o', items s = pre ++ ILabel n :: post ->
  emit_items (bss s) ([], 0) pre = Some o' -> value st n = Some (u64 (size_of (bss s) o')).
