(** Model of the placement of sections by the linker: src/ld/ld.c:445-467 collect_sections_elfobj,
    564-576 ld_collect_sections, 968-1019 the lists of sections, 1021-1036 collect_sections,
    1038-1076 prepare_section_groups, 578-620 ld_calc_address, 533-546 add_elf_section,
    1078-1105 collect_section_data, 672-722 output_exe, src/util/util.c:256-265 put_padding and
    src/util/elfutil.c:27-46 out_program_header.

    - The sections of all loaded objects are given as one list, in the order in which
      ld_collect_sections meets them.  [i_content] is the content after relocation.
    - A DataStorage is a list of bytes (C05); data_align is taken for alignments below 2^31.
    - The ELF and program headers are opaque bytes, 64 + 56 for each program header.
    - The nested lists (a LinkElem for each name, with its sections) are flattened: every pass
      over them goes through the elements and their sections in order. *)
From stdpp Require Import base list numbers.
Local Open Scope Z_scope.

Inductive secname := Ntext | Nrodata | Ndata | Ninit | Nfini | Nbss | Nother (k : nat).
Global Instance secname_eq_dec : EqDecision secname.
Proof. solve_decision. Defined.

Record insec := InSec { i_name : secname; i_size : Z; i_align : Z; i_nobits : bool; i_content : list Z }.

(** The symbols the linker generates. *)
Inductive gsym := InitStart | InitEnd | FiniStart | FiniEnd.
Inductive item := ISec (s : insec) | ISym (g : gsym) | IAlign (a : Z).

(** src/ld/ld.c:22-25. *)
Definition PROG_START : Z := 0x100.
Definition LOAD_ADDRESS : Z := 0x01000000 + PROG_START.
Definition DATA_ALIGN : Z := 0x1000.

(** src/util/util.h:13, on 64 bits. *)
Definition ALIGN (x a : Z) : Z := Z.land ((x + a - 1) mod 2 ^ 64) ((- a) mod 2 ^ 64).

(** src/ld/ld.c:445-467: the sections of that name; empty ones were dropped by
    src/ld/elfobj.c:107. *)
Definition collect (secs : list insec) (n : secname) : list item :=
  ISec <$> filter (fun s => i_name s = n /\ 0 < i_size s) secs.

(** src/ld/ld.c:968-991. *)
Definition text_items (secs : list insec) : list item := collect secs Ntext ++ collect secs Nrodata.
Definition data_items (secs : list insec) : list item :=
  collect secs Ndata ++ [IAlign 8; ISym InitStart] ++ collect secs Ninit ++ [ISym InitEnd; ISym FiniStart] ++
  collect secs Nfini ++ [ISym FiniEnd] ++ collect secs Nbss.

(** src/ld/ld.c:1038-1076: the alignment of a group. *)
Definition group_align (base : Z) (l : list item) : Z :=
  fold_left (fun a it => match it with ISec s => Z.max a (i_align s) | ISym _ => a | IAlign b => Z.max a b end) l base.

(** src/ld/ld.c:588-618: the address of each element, and the end. *)
Fixpoint calc (address : Z) (l : list item) : list (item * Z) * Z :=
  match l with
  | [] => ([], address)
  | it :: l =>
    match it with
    | ISec s =>
      let a := ALIGN address (i_align s) in
      let (r, e) := calc ((a + i_size s) mod 2 ^ 64) l in ((it, a) :: r, e)
    | ISym _ => let (r, e) := calc address l in ((it, address) :: r, e)
    | IAlign b => let a := ALIGN address b in let (r, e) := calc a l in ((it, a) :: r, e)
    end
  end.
Definition bss_size (l : list item) : Z :=
  foldr (fun it n => match it with ISec s => if i_nobits s then n + i_size s else n | _ => n end) 0 l.

(** src/util/util.c:480-492 data_align. *)
Definition pad (b : list Z) (a : Z) : list Z := b ++ replicate (Z.to_nat (ALIGN (Z.of_nat (length b)) a - Z.of_nat (length b))) 0.

(** src/ld/ld.c:1082-1102 with 533-546. *)
Definition add_item (b : list Z) (it : item) : list Z :=
  match it with
  | ISec s => if i_nobits s then b else pad b (i_align s) ++ i_content s
  | ISym _ => b
  | IAlign a => pad b a
  end.
Definition group_bytes (l : list item) : list Z := fold_left add_item l [].

(** A program header, src/util/elfutil.c:34-43. *)
Record phdr := Phdr { p_offset : Z; p_vaddr : Z; p_filesz : Z; p_memsz : Z }.

Record image := Image { placed : list (item * Z); phdrs : list phdr; bytes : list Z }.

(** src/util/util.c:256-265. *)
Definition put_padding (f : list Z) (start : Z) : list Z := f ++ replicate (Z.to_nat (start - Z.of_nat (length f))) 0.

(** src/ld/ld.c:711-717. *)
Definition out_group (fa : list Z * Z) (g : Z * list Z) : list Z * Z :=
  let (f, addr) := fa in
  let (align, b) := g in
  let addr := ALIGN addr align in
  if bool_decide (length b = 0%nat) then (f, addr)
  else (put_padding f addr ++ b, addr + Z.of_nat (length b)).

(** src/ld/ld.c:1134-1151 and 672-718; [header] gives the bytes of the headers. *)
Definition link_image (header : list phdr -> list Z) (secs : list insec) : image :=
  let T := text_items secs in
  let D := data_items secs in
  let ta := group_align 1 T in
  let da := group_align DATA_ALIGN D in
  let tstart := ALIGN LOAD_ADDRESS ta in
  let (tp, tend) := calc tstart T in
  let dstart := ALIGN tend da in
  let (dp, dend) := calc dstart D in
  let tb := group_bytes T in
  let db := group_bytes D in
  let tlen := Z.of_nat (length tb) in
  let dlen := Z.of_nat (length db) in
  let two := (0 <? dlen) || (0 <? bss_size D) in
  let offset := if 0 <? dlen then ALIGN (PROG_START + tlen) DATA_ALIGN else PROG_START + tlen in
  let ph := Phdr PROG_START tstart tlen tlen :: (if two then [Phdr offset dstart dlen (dlen + bss_size D)] else []) in
  let f := (out_group (out_group (header ph, PROG_START) (ta, tb)) (da, db)).1 in
  Image (tp ++ dp) ph f.
