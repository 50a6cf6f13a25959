From stdpp Require Import base list numbers.
From Coq Require Import Lia ZArith.
From Verif Require Import As.Asm_arch_model Ld.Rela_model Ld.Rela_spec Ld.Rela_main_proof.
Local Open Scope Z_scope.

Lemma adrp_add sec relas c c' j k r r' :
  targets_ok relas -> all_apart relas -> bytes_ok c ->
  apply_relas sec relas c = Ok (c', 0%nat) ->
  relas !! j = Some r -> relas !! k = Some r' -> r_type r = A_PG_HI21 -> r_type r' = A_ADD_LO12 -> r_target r' = r_target r ->
  fits 33 (s64 (page (r_target r) - page (place sec r))) ->
  u64 (page (place sec r) + adrp_imm (at_ 4 c' (r_offset r))) + add_imm (at_ 4 c' (r_offset r')) = r_target r.
Proof.
  intros Ht Ha Hb H Hr Hr' Et Et' ET Hf.
  pose proof (proj2 (proj2 (relocated sec relas c c' Ht Ha Hb H)) j r Hr) as A.
  pose proof (proj2 (proj2 (relocated sec relas c c' Ht Ha Hb H)) k r' Hr') as B.
  unfold achieves in A, B. rewrite Et in A. rewrite Et' in B. destruct A as [_ A]. destruct B as [_ B].
  rewrite A by done. rewrite B, ET. unfold page. lia.
Qed.

Ltac wit := cbv zeta; repeat split; try (vm_compute; (reflexivity || (intros; discriminate) || congruence || lia)).

Lemma pc32_range : exists sec r c c',
  r_type r = X_PC32 /\ apply_relas sec [r] c = Ok (c', 0%nat) /\
  u64 (place sec r + sext 32 (at_ 4 c' (r_offset r))) <> r_target r.
Proof. exists 0x1000, (Rela X_PC32 1 (2 ^ 33)), (replicate 8 0), [0; 255; 239; 255; 255; 0; 0; 0]. wit. Qed.
Lemma adrp_range : exists sec r c c',
  r_type r = A_PG_HI21 /\ apply_relas sec [r] c = Ok (c', 0%nat) /\
  u64 (page (place sec r) + adrp_imm (at_ 4 c' (r_offset r))) <> page (r_target r).
Proof. exists 0x1000, (Rela A_PG_HI21 0 (2 ^ 34)), (le 4 0x90000000), [224; 255; 255; 240]. wit. Qed.
Lemma bl_range : exists sec r c c',
  r_type r = A_CALL26 /\ distance sec r mod 4 = 0 /\ apply_relas sec [r] c = Ok (c', 0%nat) /\
  u64 (place sec r + bl_disp (at_ 4 c' (r_offset r))) <> r_target r.
Proof. exists 0x1000, (Rela A_CALL26 0 (2 ^ 28 + 0x1000)), (le 4 0x94000000), [0; 0; 0; 148]. wit. Qed.
Lemma bl_unaligned : exists sec r c c',
  r_type r = A_CALL26 /\ fits 28 (distance sec r) /\ apply_relas sec [r] c = Ok (c', 0%nat) /\
  u64 (place sec r + bl_disp (at_ 4 c' (r_offset r))) <> r_target r.
Proof. exists 0x1000, (Rela A_CALL26 0 0x1006), (le 4 0x94000000), [1; 0; 0; 148]. wit. Qed.
Lemma branch_range : exists sec r c c',
  r_type r = R_BRANCH /\ distance sec r mod 2 = 0 /\ apply_relas sec [r] c = Ok (c', 0%nat) /\
  u64 (place sec r + branch_disp (at_ 4 c' (r_offset r))) <> r_target r.
Proof. exists 0x1000, (Rela R_BRANCH 0 0x2800), (le 4 0x63), [227; 0; 0; 128]. wit. Qed.
Lemma jal_odd : exists sec r c c',
  r_type r = R_JAL /\ apply_relas sec [r] c = Ok (c', 0%nat) /\
  u64 (place sec r + jal_disp (at_ 4 c' (r_offset r))) <> r_target r.
Proof. exists 0x1000, (Rela R_JAL 0 0x1007), (le 4 0xef), [111; 0; 96; 0]. wit. Qed.
Lemma hi20_range : exists sec h x l c c',
  r_type h = R_PCREL_HI20 /\ r_type l = R_PCREL_LO12_I /\ fits 32 (distance sec h) /\
  apply_relas sec [h; x; l] c = Ok (c', 0%nat) /\
  u64 (place sec h + u_imm (at_ 4 c' (r_offset h)) + i_imm (at_ 4 c' (r_offset l))) <> r_target h.
Proof. exists 0x1000, (Rela R_PCREL_HI20 0 (0x1000 + 2 ^ 31 - 1)), (Rela R_RELAX 0 0), (Rela R_PCREL_LO12_I 4 0x1000), (le 4 0x517 ++ le 4 0x50513), [23; 5; 0; 128; 19; 5; 245; 255]. wit. Qed.
Lemma jal_rd : exists sec r c c',
  r_type r = R_JAL /\ apply_relas sec [r] c = Ok (c', 0%nat) /\
  bits (at_ 4 c' (r_offset r)) 11 7 <> bits (at_ 4 c (r_offset r)) 11 7.
Proof. exists 0x1000, (Rela R_JAL 0 0x1100), (le 4 0xef), [111; 0; 0; 16]. wit. Qed.
Lemma tail_call : exists sec r x c c',
  r_type r = R_CALL /\ r_type x = R_RELAX /\ apply_relas sec [r; x] c = Ok (c', 0%nat) /\
  bits (at_ 4 c (r_offset r + 4)) 11 7 = 0 /\ bits (at_ 4 c' (r_offset r)) 6 0 = 0x6f /\
  bits (at_ 4 c' (r_offset r)) 11 7 = 1.
Proof. exists 0x1000, (Rela R_CALL 0 0x1100), (Rela R_RELAX 0 0), (le 4 0x317 ++ le 4 0x30067), [239; 0; 0; 16; 19; 0; 0; 0]. wit. Qed.
Lemma lo12_pair : exists sec ha hb x l c c',
  r_type ha = R_PCREL_HI20 /\ r_type hb = R_PCREL_HI20 /\ r_type x = R_RELAX /\ r_type l = R_PCREL_LO12_I /\
  (* the low part refers to the label of [ha] *)
  r_target l = place sec ha /\
  apply_relas sec [ha; x; hb; x; l] c = Ok (c', 0%nat) /\
  u64 (place sec ha + u_imm (at_ 4 c' (r_offset ha)) + i_imm (at_ 4 c' (r_offset l))) <> r_target ha.
Proof. exists 0x1000, (Rela R_PCREL_HI20 0 0x2010), (Rela R_PCREL_HI20 4 0x3020), (Rela R_RELAX 0 0), (Rela R_PCREL_LO12_I 8 0x1000), (le 4 0x517 ++ le 4 0x597 ++ le 4 0x50513), [23; 21; 0; 0; 151; 37; 0; 0; 19; 5; 197; 1]. wit. Qed.
