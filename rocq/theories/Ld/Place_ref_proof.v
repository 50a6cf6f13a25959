From stdpp Require Import base list numbers sets.
From Coq Require Import Lia ZArith.
From Verif Require Import Ld.Place_model Ld.Place_spec Ld.Place_proof Ld.Place_main_proof.
Local Open Scope Z_scope.


(** Boolean versions of the conditions, for the examples. *)
Definition powers : list Z := map (fun k => 2 ^ Z.of_nat k) (seq 0 31).
Definition sec_okb (s : insec) : bool :=
  bool_decide (i_align s ∈ powers) && (0 <=? i_size s) && (i_nobits s || (i_size s =? Z.of_nat (length (i_content s)))).
Lemma sec_okb_ok s : sec_okb s = true -> sec_ok s.
Proof.
  unfold sec_okb. intros H. apply andb_true_iff in H as [H H3]. apply andb_true_iff in H as [H1 H2].
  apply bool_decide_eq_true_1 in H1. split; [|split].
  - unfold powers in H1. apply elem_of_list_fmap in H1 as (k & -> & Hk). apply elem_of_list_In, in_seq in Hk.
    exists (Z.of_nat k). split; [lia|done].
  - lia.
  - intros Hn. rewrite Hn in H3. cbn [orb] in H3. lia.
Qed.
Definition secs_okb (l : list insec) : bool := forallb sec_okb l && (total l <? 2 ^ 62).
Lemma secs_okb_ok l : secs_okb l = true -> secs_ok l.
Proof.
  unfold secs_okb. intros H. apply andb_true_iff in H as [H1 H2]. split; [|lia].
  apply stdpp.list.Forall_forall. intros s Hs. apply sec_okb_ok. rewrite forallb_forall in H1. apply H1, elem_of_list_In. done.
Qed.
Lemma nobits_okb l : forallb (fun s => bool_decide (i_nobits s = bool_decide (i_name s = Nbss))) l = true -> nobits_ok l.
Proof.
  intros H1. apply stdpp.list.Forall_forall. intros s Hs. rewrite forallb_forall in H1. apply elem_of_list_In in Hs. specialize (H1 s Hs).
  apply bool_decide_eq_true_1 in H1. rewrite H1. apply bool_decide_eq_true.
Qed.
Lemma tables_okb l : forallb (fun s => negb (bool_decide (i_name s = Ninit \/ i_name s = Nfini)) || ((i_align s <=? 8) && (i_size s mod 8 =? 0))) l = true -> tables_ok l.
Proof.
  intros H1. apply stdpp.list.Forall_forall. intros s Hs Hn. rewrite forallb_forall in H1. apply elem_of_list_In in Hs. specialize (H1 s Hs).
  rewrite bool_decide_eq_true_2 in H1 by done. cbn [negb orb] in H1. lia.
Qed.
Lemma aligns_okb l : forallb (fun s => i_align s <=? match i_name s with Ntext | Nrodata => 0x100 | _ => 0x1000 end) l = true -> aligns_ok l.
Proof.
  intros H1. apply stdpp.list.Forall_forall. intros s Hs. rewrite forallb_forall in H1. apply elem_of_list_In in Hs. specialize (H1 s Hs).
  cbn in H1. destruct (i_name s); lia.
Qed.

(** The memory, computed. *)
Definition memb (im : image) (a : Z) : list Z :=
  omap (fun p => if (p_vaddr p <=? a) && (a <? p_vaddr p + p_memsz p) then
    (if a <? p_vaddr p + p_filesz p then bytes im !! Z.to_nat (p_offset p + (a - p_vaddr p)) else Some 0) else None) (phdrs im).
Lemma memb_ok im a b : mem im a b <-> b ∈ memb im a.
Proof.
  unfold memb. rewrite elem_of_list_omap. split.
  - intros (p & Hp & Hr & Hb). exists p. split; [done|].
    rewrite (proj2 (Z.leb_le _ _)) by lia. rewrite (proj2 (Z.ltb_lt _ _)) by lia. cbn [andb].
    destruct (a <? p_vaddr p + p_filesz p); [done|congruence].
  - intros (p & Hp & Hb). exists p. split; [done|].
    destruct (p_vaddr p <=? a) eqn:E1; [|done]. destruct (a <? p_vaddr p + p_memsz p) eqn:E2; [|done]. cbn [andb] in Hb.
    split; [lia|]. destruct (a <? p_vaddr p + p_filesz p); [done|congruence].
Qed.
Lemma not_mem im a b : bool_decide (b ∈ memb im a) = false -> ~ mem im a b.
Proof. intros H Hm. apply bool_decide_eq_false_1 in H. apply H, memb_ok. done. Qed.
Definition segb (im : image) (a : Z) : bool := existsb (fun p => (p_vaddr p <=? a) && (a <? p_vaddr p + p_memsz p)) (phdrs im).
Lemma not_seg im a : segb im a = false -> ~ in_segment im a.
Proof.
  intros H (p & Hp & Hr). unfold segb in H. enough (existsb (fun p => (p_vaddr p <=? a) && (a <? p_vaddr p + p_memsz p)) (phdrs im) = true) by congruence.
  apply existsb_exists. exists p. split; [apply elem_of_list_In; done|]. cbn. lia.
Qed.
Global Instance insec_eq_dec : EqDecision insec.
Proof.
  intros x y.
  refine (cast_if (decide ((i_name x, i_size x, i_align x, i_nobits x, i_content x) = (i_name y, i_size y, i_align y, i_nobits y, i_content y)))).
  - destruct x, y; cbn in *; congruence.
  - intros ->. done.
Defined.
Global Instance gsym_eq_dec : EqDecision gsym.
Proof. solve_decision. Defined.
Global Instance item_eq_dec : EqDecision item.
Proof. solve_decision. Defined.
Ltac bd := match goal with |- ?P => refine (bool_decide_eq_true_1 P _) end; vm_compute; reflexivity.
Ltac conds := repeat (split; [first [apply secs_okb_ok|apply nobits_okb|apply tables_okb|apply aligns_okb]; vm_compute; reflexivity|]).

(** An alignment of 0 (allowed by ELF, meaning none) gives address 0, on top of everything else. *)
Lemma align_zero : exists secs s1 s2,
  Forall (fun s => i_align s = 0 \/ sec_ok s) secs /\ aligns_ok secs /\ nobits_ok secs /\ 
  (ISec s1, 0) ∈ placed (link_image hdr secs) /\ (ISec s2, 0) ∈ placed (link_image hdr secs) /\ s1 <> s2 /\ 0 < i_size s1 /\ 0 < i_size s2 /\
  ~ in_segment (link_image hdr secs) 0.
Proof.
  set (s1 := InSec Ntext 2 0 false [1; 2]). set (s2 := InSec Ntext 3 0 false [3; 4; 5]).
  exists [s1; s2], s1, s2.
  split. { repeat (apply stdpp.list.Forall_cons; split; [left; done|]). constructor. }
  split; [apply aligns_okb; vm_compute; reflexivity|]. split; [apply nobits_okb; vm_compute; reflexivity|].
  split; [bd|]. split; [bd|]. split; [done|]. split; [done|]. split; [done|]. apply not_seg. vm_compute. reflexivity.
Qed.

(** The padding between .bss sections is not part of the size of the segment. *)
Lemma bss_padding : exists secs s a, secs_ok secs /\ aligns_ok secs /\ nobits_ok secs /\
  (ISec s, a) ∈ placed (link_image hdr secs) /\ i_nobits s = true /\ ~ in_segment (link_image hdr secs) (a + i_size s - 1).
Proof.
  set (s0 := InSec Ntext 1 1 false [0xc3]). set (s1 := InSec Nbss 1 1 true []). set (s2 := InSec Nbss 0x1000 0x1000 true []).
  exists [s0; s1; s2], s2, 0x1002000. conds.
  split; [bd|]. split; [done|]. apply not_seg. vm_compute. reflexivity.
Qed.

(** Code aligned to more than 0x100 bytes, and data to more than a page: other bytes appear there. *)
Lemma text_align : exists secs s a k v, secs_ok secs /\ nobits_ok secs /\
  (ISec s, a) ∈ placed (link_image hdr secs) /\ i_name s = Ntext /\ i_content s !! k = Some v /\ ~ mem (link_image hdr secs) (a + Z.of_nat k) v.
Proof.
  set (s0 := InSec Ntext 1 0x200 false [0xc3]).
  exists [s0], s0, 0x1000200, 0%nat, 0xc3. conds. split; [bd|]. split; [done|]. split; [done|]. apply not_mem. vm_compute. reflexivity.
Qed.
Lemma data_align : exists secs s a k v, secs_ok secs /\ nobits_ok secs /\
  (ISec s, a) ∈ placed (link_image hdr secs) /\ i_name s = Ndata /\ i_content s !! k = Some v /\ ~ mem (link_image hdr secs) (a + Z.of_nat k) v.
Proof.
  set (s0 := InSec Ntext 1 1 false [0xc3]). set (s1 := InSec Ndata 1 0x2000 false [7]).
  exists [s0; s1], s1, 0x1002000, 0%nat, 7. conds. split; [bd|]. split; [done|]. split; [done|]. apply not_mem. vm_compute. reflexivity.
Qed.

(** A section that has contents and follows one without is found at the wrong place. *)
Lemma nobits_first : exists secs s a k v, secs_ok secs /\ aligns_ok secs /\
  (ISec s, a) ∈ placed (link_image hdr secs) /\ i_nobits s = false /\ i_content s !! k = Some v /\ ~ mem (link_image hdr secs) (a + Z.of_nat k) v.
Proof.
  set (s1 := InSec Nbss 4 4 true []). set (s2 := InSec Nbss 1 1 false [7]).
  exists [s1; s2], s2, 0x1001004, 0%nat, 7. conds. split; [bd|]. split; [done|]. split; [done|]. apply not_mem. vm_compute. reflexivity.
Qed.

(** A section with another name has no place. *)
Lemma other_dropped : exists secs s, secs_ok secs /\ aligns_ok secs /\ nobits_ok secs /\ s ∈ secs /\ 0 < i_size s /\
  forall a, (ISec s, a) ∉ placed (link_image hdr secs).
Proof.
  set (s0 := InSec Ntext 1 1 false [0xc3]). set (s1 := InSec (Nother 0) 1 1 false [7]).
  exists [s0; s1], s1. conds. split; [right; left|]. split; [done|]. intros a Ha.
  assert (ISec s1 ∈ (placed (link_image hdr [s0; s1])).*1) as H by (apply elem_of_list_fmap; exists (ISec s1, a); done).
  revert H. match goal with |- ?P -> False => change (~ P); refine (bool_decide_eq_false_1 P _) end. vm_compute. reflexivity.
Qed.

(** With nothing but .bss the offset of the second segment does not agree with its address. *)
Lemma not_congruent : exists secs p, secs_ok secs /\ aligns_ok secs /\ nobits_ok secs /\
  p ∈ phdrs (link_image hdr secs) /\ 0 < p_memsz p /\ ~ congruent p.
Proof.
  set (s0 := InSec Ntext 1 1 false [0xc3]). set (s1 := InSec Nbss 8 8 true []).
  exists [s0; s1], (Phdr 0x101 0x1001000 0 8). conds. split; [|split; [done|intros H; vm_compute in H; discriminate]].
  vm_compute. right. left.
Qed.

Lemma ex_ok : secs_ok ex_secs /\ aligns_ok ex_secs /\ nobits_ok ex_secs /\ tables_ok ex_secs.
Proof. conds. apply tables_okb. vm_compute. reflexivity. Qed.
Lemma ex_placed : (placed (link_image hdr ex_secs)).*2 =
  [0x1000100; 0x1000104; 0x1000105; 0x1001000; 0x1001004; 0x1001008; 0x1001008; 0x1001008; 0x1001010; 0x1001018; 0x1001018; 0x1001018; 0x1001018].
Proof. vm_compute. reflexivity. Qed.
Lemma ex_mem : mem (link_image hdr ex_secs) 0x1000104 0xc3 /\ mem (link_image hdr ex_secs) 0x1001004 9 /\ mem (link_image hdr ex_secs) 0x1001010 2 /\
  mem (link_image hdr ex_secs) 0x1001018 0.
Proof. split; [|split; [|split]]; apply memb_ok; bd. Qed.
Lemma hdr_ok ph : (length ph <= 2)%nat -> Z.of_nat (length (hdr ph)) <= PROG_START.
Proof. intros H. unfold hdr, PROG_START. rewrite replicate_length. lia. Qed.
