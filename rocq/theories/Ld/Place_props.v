(** C39: the linker's placement of sections. *)
From stdpp Require Import base list numbers.
From Verif Require Import Ld.Place_model Ld.Place_spec Ld.Place_main_proof Ld.Place_ref_proof.
Local Open Scope Z_scope.

(** Every non-empty section with one of the known names is placed, exactly once. *)
Theorem C39_placed_once header secs : secs_ok secs -> aligns_ok secs -> nobits_ok secs ->
  sections (placed (link_image header secs)).*1 ≡ₚ filter (fun s => known (i_name s) = true /\ 0 < i_size s) secs.
Proof. intros H1 H2 H3. rewrite (placed_items header secs H1 H2 H3). exact (sections_all secs). Qed.

(** No two of them overlap, *)
Theorem C39_no_overlap header secs i j it a it' a' : secs_ok secs -> aligns_ok secs -> nobits_ok secs -> (i < j)%nat ->
  placed (link_image header secs) !! i = Some (it, a) -> placed (link_image header secs) !! j = Some (it', a') ->
  a + item_size it <= a'.
Proof. intros H1 H2 H3. exact (placed_order header secs H1 H2 H3 i j it a it' a'). Qed.

(** each is aligned as it asked, *)
Theorem C39_aligned header secs s a : secs_ok secs -> aligns_ok secs -> nobits_ok secs ->
  (ISec s, a) ∈ placed (link_image header secs) -> (i_align s | a).
Proof. intros H1 H2 H3. exact (placed_aligned header secs H1 H2 H3 s a). Qed.

(** and when the program is loaded, its contents are at its address. *)
Theorem C39_loaded header secs s a k v : secs_ok secs -> aligns_ok secs -> nobits_ok secs -> header_ok header ->
  (ISec s, a) ∈ placed (link_image header secs) -> i_nobits s = false -> i_content s !! k = Some v ->
  mem (link_image header secs) (a + Z.of_nat k) v.
Proof. intros H1 H2 H3 H4. exact (loaded_bytes header secs H1 H2 H3 H4 s a k v). Qed.

(** The memory of .bss is zero, as far as it belongs to the segment (C39_bss_size_refuted: not all of it does). *)
Theorem C39_bss_partial header secs s a k : secs_ok secs -> aligns_ok secs -> nobits_ok secs ->
  (ISec s, a) ∈ placed (link_image header secs) -> i_nobits s = true -> 0 <= k < i_size s ->
  in_segment (link_image header secs) (a + k) -> mem (link_image header secs) (a + k) 0.
Proof. intros H1 H2 H3. exact (bss_zero header secs H1 H2 H3 s a k). Qed.

(** The segments share no page, and those with contents can be mapped from the file. *)
Theorem C39_segments header secs : secs_ok secs -> aligns_ok secs -> nobits_ok secs ->
  (forall i j p q, (i < j)%nat -> phdrs (link_image header secs) !! i = Some p -> phdrs (link_image header secs) !! j = Some q -> apart p q) /\
  (forall p, p ∈ phdrs (link_image header secs) -> 0 < p_filesz p -> congruent p).
Proof. intros H1 H2 H3. exact (conj (segments header secs H1 H2 H3) (congruence_ok header secs H1 H2 H3)). Qed.

(** The tables of constructors and destructors lie between the generated symbols, in the order of the objects. *)
Theorem C39_tables header secs : secs_ok secs -> aligns_ok secs -> nobits_ok secs -> header_ok header -> tables_ok secs ->
  exists a0 a1 a2,
  (ISym InitStart, a0) ∈ placed (link_image header secs) /\ (ISym InitEnd, a1) ∈ placed (link_image header secs) /\
  (ISym FiniStart, a1) ∈ placed (link_image header secs) /\ (ISym FiniEnd, a2) ∈ placed (link_image header secs) /\
  (8 | a0) /\ a1 = a0 + Z.of_nat (length (joined secs Ninit)) /\ a2 = a1 + Z.of_nat (length (joined secs Nfini)) /\
  (forall k v, joined secs Ninit !! k = Some v -> mem (link_image header secs) (a0 + Z.of_nat k) v) /\
  (forall k v, joined secs Nfini !! k = Some v -> mem (link_image header secs) (a1 + Z.of_nat k) v).
Proof. intros H1 H2 H3 H4 H5. exact (tables_laid header secs H1 H2 H3 H4 H5). Qed.

(** An alignment of 0 (none, in ELF) puts the sections at address 0, outside of every segment. *)
Theorem C39_align_zero_refuted : exists secs s1 s2,
  Forall (fun s => i_align s = 0 \/ sec_ok s) secs /\ aligns_ok secs /\ nobits_ok secs /\
  (ISec s1, 0) ∈ placed (link_image hdr secs) /\ (ISec s2, 0) ∈ placed (link_image hdr secs) /\ s1 <> s2 /\ 0 < i_size s1 /\ 0 < i_size s2 /\
  ~ in_segment (link_image hdr secs) 0.
Proof. exact align_zero. Qed.

(** The padding between .bss sections is missing from the size of the segment. *)
Theorem C39_bss_size_refuted : exists secs s a, secs_ok secs /\ aligns_ok secs /\ nobits_ok secs /\
  (ISec s, a) ∈ placed (link_image hdr secs) /\ i_nobits s = true /\ ~ in_segment (link_image hdr secs) (a + i_size s - 1).
Proof. exact bss_padding. Qed.

(** With code aligned to more than 0x100, or data to more than a page, the contents are elsewhere. *)
Theorem C39_text_align_refuted : exists secs s a k v, secs_ok secs /\ nobits_ok secs /\
  (ISec s, a) ∈ placed (link_image hdr secs) /\ i_name s = Ntext /\ i_content s !! k = Some v /\ ~ mem (link_image hdr secs) (a + Z.of_nat k) v.
Proof. exact text_align. Qed.
Theorem C39_data_align_refuted : exists secs s a k v, secs_ok secs /\ nobits_ok secs /\
  (ISec s, a) ∈ placed (link_image hdr secs) /\ i_name s = Ndata /\ i_content s !! k = Some v /\ ~ mem (link_image hdr secs) (a + Z.of_nat k) v.
Proof. exact data_align. Qed.

(** A section with contents after one without: likewise. *)
Theorem C39_nobits_first_refuted : exists secs s a k v, secs_ok secs /\ aligns_ok secs /\
  (ISec s, a) ∈ placed (link_image hdr secs) /\ i_nobits s = false /\ i_content s !! k = Some v /\ ~ mem (link_image hdr secs) (a + Z.of_nat k) v.
Proof. exact nobits_first. Qed.

(** A section with any other name (made with .section) is not placed at all. *)
Theorem C39_other_names_refuted : exists secs s, secs_ok secs /\ aligns_ok secs /\ nobits_ok secs /\ s ∈ secs /\ 0 < i_size s /\
  forall a, (ISec s, a) ∉ placed (link_image hdr secs).
Proof. exact other_dropped. Qed.

(** The segment of a program that has .bss but no data does not have an offset that agrees with its address. *)
Theorem C39_congruent_refuted : exists secs p, secs_ok secs /\ aligns_ok secs /\ nobits_ok secs /\
  p ∈ phdrs (link_image hdr secs) /\ 0 < p_memsz p /\ ~ congruent p.
Proof. exact not_congruent. Qed.

Example C39_example :
  (secs_ok ex_secs /\ aligns_ok ex_secs /\ nobits_ok ex_secs /\ tables_ok ex_secs) /\ header_ok hdr /\
  (placed (link_image hdr ex_secs)).*2 =
  [0x1000100; 0x1000104; 0x1000105; 0x1001000; 0x1001004; 0x1001008; 0x1001008; 0x1001008; 0x1001010; 0x1001018; 0x1001018; 0x1001018; 0x1001018] /\
  mem (link_image hdr ex_secs) 0x1000104 0xc3 /\ mem (link_image hdr ex_secs) 0x1001004 9 /\ mem (link_image hdr ex_secs) 0x1001010 2 /\
  mem (link_image hdr ex_secs) 0x1001018 0.
Proof. exact (conj ex_ok (conj hdr_ok (conj ex_placed ex_mem))). Qed.

Print Assumptions C39_placed_once.
Print Assumptions C39_no_overlap.
Print Assumptions C39_aligned.
Print Assumptions C39_loaded.
Print Assumptions C39_bss_partial.
Print Assumptions C39_segments.
Print Assumptions C39_tables.
Print Assumptions C39_align_zero_refuted.
Print Assumptions C39_bss_size_refuted.
Print Assumptions C39_text_align_refuted.
Print Assumptions C39_data_align_refuted.
Print Assumptions C39_nobits_first_refuted.
Print Assumptions C39_other_names_refuted.
Print Assumptions C39_congruent_refuted.
