(** No instruction takes more bytes than there is room for. *)
From stdpp Require Import base numbers list.
From Verif Require Import As.X64_model As.X64_spec As.X64_proof.
From Coq Require Import Lia ZArith.
Open Scope Z_scope.

Lemma filtered_length l : (length (filtered l) <= length l)%nat.
Proof. unfold filtered. apply filter_length. Qed.
Lemma im_length n v : length (im n v) = n.
Proof. revert v; induction n as [|n IH]; intros v; cbn [im length]; [done|]. rewrite IH. done. Qed.
Lemma put_offset_length b v : (length (put_offset b v) <= 4)%nat.
Proof. rewrite put_offset_im, im_length. unfold ndisp. repeat case_match; lia. Qed.
Lemma make_offset_length v b : (length (MAKE_OFFSET v b) <= 4)%nat.
Proof. unfold MAKE_OFFSET. repeat case_match; rewrite ?im_length; cbn; lia. Qed.
Lemma bytes_length sz : (bytes sz <= 8)%nat. Proof. unfold bytes. repeat case_match; lia. Qed.
Lemma bytes4_length sz : (bytes4 sz <= 4)%nat. Proof. unfold bytes4. repeat case_match; lia. Qed.
Lemma rex0_length sz s d op : (length (put_rex0 sz s d op) <= 3)%nat.
Proof. unfold put_rex0. rewrite !app_length. repeat case_match; cbn; lia. Qed.

Lemma assemble_length i l : assemble i = Bytes l -> (length l <= room)%nat.
Proof.
  unfold room. destruct i; cbn [assemble]; try (destruct o);
    unfold asm_rr, asm_mov_imr, asm_mov_mem, mov_head, asm_rip, asm_mov_iir, mov_iir_head, asm_mov_direct, asm_mov_sr, asm_mov_imi,
      imi_head, asm_mov_imd, asm_movszx, asm_xx, asm_movs_mem, movs_head, asm_cvt, asm_ind, MAKE_REX_INDIRECT, asm_lea_iir, lea_iir_head,
      asm_addsub_imr, bop_imr_head, asm_bop_iir, asm_bopq_imi, bopq_head, asm_mul, asm_neg, asm_inc, asm_inc_i, asm_and_imr,
      asm_shift_cl, asm_shift_im, asm_cmp_imr, cmp_head, asm_set, asm_push_r, asm_push_im, asm_jmp_der, asm_jmp_dei, asm_jmp_deii,
      jmp_deii_head, MAKE_REX_INDIRECT, MAKE_REX0, put_rex2, put_rex1; cbv zeta;
    repeat match goal with
      | |- (if ?c then _ else _) = _ -> _ => destruct c
      end; try discriminate; intros [= <-];
    rewrite ?app_length, ?im_length;
    repeat match goal with
      | |- context [length (if ?c then _ else _)] => destruct c; rewrite ?app_length, ?im_length
      | |- context [length (filtered ?l)] => let n := fresh "n" in pose proof (filtered_length l); set (n := length (filtered l)) in *; clearbody n
      | |- context [length (put_rex0 ?a ?b ?c ?d)] => let n := fresh "n" in pose proof (rex0_length a b c d); set (n := length (put_rex0 a b c d)) in *; clearbody n
      | |- context [length (put_offset ?a ?b)] => let n := fresh "n" in pose proof (put_offset_length a b); set (n := length (put_offset a b)) in *; clearbody n
      | |- context [length (MAKE_OFFSET ?a ?b)] => let n := fresh "n" in pose proof (make_offset_length a b); set (n := length (MAKE_OFFSET a b)) in *; clearbody n
      | |- context [bytes ?a] => let n := fresh "n" in pose proof (bytes_length a); set (n := bytes a) in *; clearbody n
      | |- context [bytes4 ?a] => let n := fresh "n" in pose proof (bytes4_length a); set (n := bytes4 a) in *; clearbody n
      end; rewrite ?app_length, ?im_length in *; cbn [length app] in *; rewrite ?app_length, ?im_length in *; lia.
Qed.
