(** What a loader makes of the file, and what the placement of sections has to achieve.

    Source: System V ABI, program loading: the bytes [p_offset .. p_offset + p_filesz) of the file appear
    at [p_vaddr], and are followed by zeros up to [p_memsz]. *)
From stdpp Require Import base list numbers.
From Verif Require Import Ld.Place_model.
Local Open Scope Z_scope.

(** After loading, the byte at address [a] is [b]. *)
Definition mem (im : image) (a b : Z) : Prop :=
  exists p, p ∈ phdrs im /\ p_vaddr p <= a < p_vaddr p + p_memsz p /\
  if a <? p_vaddr p + p_filesz p then bytes im !! Z.to_nat (p_offset p + (a - p_vaddr p)) = Some b else b = 0.

(** Segments do not share a page, and offset and address agree within a page. *)
Definition apart (p q : phdr) : Prop := (p_vaddr p + p_memsz p - 1) / 0x1000 < p_vaddr q / 0x1000.
Definition congruent (p : phdr) : Prop := (p_vaddr p - p_offset p) mod 0x1000 = 0.

Definition pow2 (a : Z) : Prop := exists k, 0 <= k < 31 /\ a = 2 ^ k.
Definition rounded (x a : Z) : Z := x + (- x) mod a.

(** Sections with sizes that match their contents and alignments that are powers of two; the whole
    is far below the end of the address space. *)
Definition sec_ok (s : insec) : Prop := pow2 (i_align s) /\ 0 <= i_size s /\ (i_nobits s = false -> i_size s = Z.of_nat (length (i_content s))).
Definition total (secs : list insec) : Z := foldr (fun s n => i_size s + i_align s + n) 0 secs.
Definition secs_ok (secs : list insec) : Prop := Forall sec_ok secs /\ total secs < 2 ^ 62.

(** The alignments that the fixed start of the program (0x1000100, at 0x100 in the file) and of the data
    (page by page) can give. *)
Definition aligns_ok (secs : list insec) : Prop :=
  Forall (fun s => match i_name s with Ntext | Nrodata => i_align s <= 0x100 | _ => i_align s <= 0x1000 end) secs.
(** Exactly the sections named .bss occupy no space in the file. *)
Definition nobits_ok (secs : list insec) : Prop := Forall (fun s => i_nobits s = true <-> i_name s = Nbss) secs.

Definition known (n : secname) : bool := match n with Nother _ => false | _ => true end.

(** The part of a segment that lies in memory. *)
Definition in_segment (im : image) (a : Z) : Prop := exists p, p ∈ phdrs im /\ p_vaddr p <= a < p_vaddr p + p_memsz p.

Definition item_size (it : item) : Z := match it with ISec s => i_size s | _ => 0 end.
Definition sections (l : list item) : list insec := omap (fun it => match it with ISec s => Some s | _ => None end) l.

(** Tables of pointers: whole entries, not aligned further than an entry. *)
Definition tables_ok (secs : list insec) : Prop :=
  Forall (fun s => i_name s = Ninit \/ i_name s = Nfini -> i_align s <= 8 /\ i_size s mod 8 = 0) secs.
(** The contents of the sections of that name, one after the other. *)
Definition joined (secs : list insec) (n : secname) : list Z := concat (i_content <$> filter (fun s => i_name s = n) secs).

(** Headers of the real size, for the examples. *)
Definition hdr (ph : list phdr) : list Z := replicate (64 + 56 * length ph) 0x7f.

(** The headers fit before the program: there are never more than two segments. *)
Definition header_ok (header : list phdr -> list Z) : Prop :=
  forall ph, (length ph <= 2)%nat -> Z.of_nat (length (header ph)) <= PROG_START.

(** An example: two objects with code, constants, data, a constructor each, and .bss. *)
Definition ex_secs : list insec :=
  [ InSec Ntext 3 4 false [0x90; 0x90; 0xc3]; InSec Nrodata 2 1 false [104; 0]; InSec Ndata 4 4 false [1; 0; 0; 0]; InSec Ninit 8 8 false [1;1;1;1;1;1;1;1];
    InSec Nbss 8 8 true [];
    InSec Ntext 1 4 false [0xc3]; InSec Ndata 1 1 false [9]; InSec Ninit 8 8 false [2;2;2;2;2;2;2;2] ].
