(** Model of the way a reference takes from the assembler to the linker: the relocation entry made
    of an unresolved reference, src/as/emit_elf.c:149-319 construct_relas, and the value of a
    symbol, src/as/emit_elf.c:75-147 construct_symtab.

    Simplifications.
    - [sym] gives the address the linker finds for a symbol (src/ld/ld.c:182-215
      calc_rela_sym_address without the addend); the index of the symbol in the table is left out:
      see Strtab_model and Ld.Sym_model.  [main] (src/as/as.c:193-196) marks the label of every
      reference as referred to, so each is entered into the symbol table under its own name.
    - The result is the relocation as the linker sees it, the addend already added.
    - [None] is the failed assertion of a kind there is no case for. *)
From stdpp Require Import base list numbers gmap.
From Verif Require Import Util.Data_model As.Asm_model.
From Verif Require Ld.Rela_model.
Local Open Scope Z_scope.

Section Relas.
  Variable sym : nat -> Z.

  Definition rela (ty : Rela_model.rtype) (u : unres) : Rela_model.rela :=
    Rela_model.Rela ty (Z.to_nat (uoffset u)) (u64 (sym (ulabel u) + uadd u)).

  (** src/as/emit_elf.c:156-199 *)
  Definition x64_rela (u : unres) : option Rela_model.rela :=
    match ukind_of u with
    | UAbs64 => Some (rela Rela_model.X_64 u)
    | UExtern => Some (rela Rela_model.X_PLT32 u)
    | UPc32 => Some (rela Rela_model.X_PC32 u)
    | _ => None
    end.
  (** src/as/emit_elf.c:156-183, 205-249 *)
  Definition a64_rela (u : unres) : option Rela_model.rela :=
    match ukind_of u with
    | UAbs64 => Some (rela Rela_model.A_ABS64 u)
    | UCall => Some (rela Rela_model.A_CALL26 u)
    | UPcrelHi => Some (rela Rela_model.A_PG_HI21 u)
    | UPcrelLo => Some (rela Rela_model.A_ADD_LO12 u)
    | UGotHi | UGotLo => Some (rela Rela_model.A_GOT u)
    | _ => None
    end.
  (** src/as/emit_elf.c:156-183, 251-314; symbol 0 for RELAX, whose address is not used. *)
  Definition rv_rela (u : unres) : option Rela_model.rela :=
    match ukind_of u with
    | UAbs64 => Some (rela Rela_model.R_64 u)
    | UPcrelHi => Some (rela Rela_model.R_PCREL_HI20 u)
    | UPcrelLo => Some (rela Rela_model.R_PCREL_LO12_I u)
    | UCall => Some (rela Rela_model.R_CALL u)
    | UBranch => Some (rela Rela_model.R_BRANCH u)
    | URvcBranch => Some (rela Rela_model.R_RVC_BRANCH u)
    | UJal => Some (rela Rela_model.R_JAL u)
    | URvcJump => Some (rela Rela_model.R_RVC_JUMP u)
    | URelax => Some (Rela_model.Rela Rela_model.R_RELAX (Z.to_nat (uoffset u)) (u64 (uadd u)))
    | _ => None
    end.
End Relas.

(** The sections as written, each with its start address after fix_section_size, src/as/as.c:77-86. *)
Definition written {I} (a : Z) (ss : list (section I)) : option (list (section I * (list Z * Z) * Z)) :=
  outs ← mapM emit ss;
  Some (zip (zip ss outs) (fix_section_size a (zip ss outs))).
(** src/as/emit_elf.c:128 for a label that is defined. *)
Definition symbol_value (t : gmap nat Z) (st : Z) (n : nat) : option Z := (fun b => u64 (b - st)) <$> t !! n.
