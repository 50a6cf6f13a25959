(** The 32-bit instruction words of the RISC-V encoder, decoded. *)
From stdpp Require Import base list numbers option.
From Verif Require Import As.Rv_model As.Rv_spec As.Rv_proof.
From Coq Require Import Lia ZifyBool.
Open Scope Z_scope.
Ltac Zify.zify_post_hook ::= Z.to_euclidean_division_equations.

Lemma RTYPE_sum f7 rs2 rs1 f3 rd opc :
  0 <= f7 < 128 -> reg_ok rs2 -> reg_ok rs1 -> 0 <= f3 < 8 -> reg_ok rd -> 0 <= opc < 128 ->
  RTYPE f7 rs2 rs1 f3 rd opc =
    f7 * 2 ^ 25 + (rs2 * 2 ^ 20 + (rs1 * 2 ^ 15 + (f3 * 2 ^ 12 + (rd * 2 ^ 7 + opc)))).
Proof.
  unfold reg_ok, RTYPE. intros. rewrite <- !Z.lor_assoc.
  rewrite (lor_add rd 7 opc), (lor_add f3 12), (lor_add rs1 15), (lor_add rs2 20), (lor_add f7 25) by lia.
  reflexivity.
Qed.

(** The fields of a word that is a sum like this. *)
Lemma fields f7 rs2 rs1 f3 rd opc w :
  0 <= f7 < 128 -> reg_ok rs2 -> reg_ok rs1 -> 0 <= f3 < 8 -> reg_ok rd -> 0 <= opc < 128 ->
  w = f7 * 2 ^ 25 + (rs2 * 2 ^ 20 + (rs1 * 2 ^ 15 + (f3 * 2 ^ 12 + (rd * 2 ^ 7 + opc)))) ->
  bits w 6 0 = opc /\ bits w 11 7 = rd /\ bits w 14 12 = f3 /\ bits w 19 15 = rs1 /\
  bits w 24 20 = rs2 /\ bits w 31 25 = f7 /\ 0 <= w < 2 ^ 32 /\ w mod 4 = opc mod 4.
Proof.
  unfold reg_ok, bits. intros H1 H2 H3 H4 H5 H6 Hw.
  change (2 ^ 25) with 33554432 in Hw. change (2 ^ 20) with 1048576 in Hw.
  change (2 ^ 15) with 32768 in Hw. change (2 ^ 12) with 4096 in Hw.
  change (2 ^ 7) with 128 in Hw.
  change (2 ^ (6 - 0 + 1)) with 128. change (2 ^ 0) with 1.
  change (2 ^ (11 - 7 + 1)) with 32. change (2 ^ 7) with 128.
  change (2 ^ (14 - 12 + 1)) with 8. change (2 ^ 12) with 4096.
  change (2 ^ (19 - 15 + 1)) with 32. change (2 ^ 15) with 32768.
  change (2 ^ (24 - 20 + 1)) with 32. change (2 ^ 20) with 1048576.
  change (2 ^ (31 - 25 + 1)) with 128. change (2 ^ 25) with 33554432.
  change (2 ^ 32) with 4294967296.
  split_and!; lia.
Qed.

Lemma fields2 f7 rs2 rs1 f3 rd opc w :
  0 <= f7 < 128 -> reg_ok rs2 -> reg_ok rs1 -> 0 <= f3 < 8 -> reg_ok rd -> 0 <= opc < 128 ->
  w = f7 * 2 ^ 25 + (rs2 * 2 ^ 20 + (rs1 * 2 ^ 15 + (f3 * 2 ^ 12 + (rd * 2 ^ 7 + opc)))) ->
  bits w 31 20 = f7 * 32 + rs2 /\ bits w 31 26 = f7 / 2 /\
  bits w 25 20 = f7 mod 2 * 32 + rs2.
Proof.
  unfold reg_ok, bits. intros H1 H2 H3 H4 H5 H6 Hw.
  change (2 ^ 25) with 33554432 in Hw. change (2 ^ 20) with 1048576 in Hw.
  change (2 ^ 15) with 32768 in Hw. change (2 ^ 12) with 4096 in Hw.
  change (2 ^ 7) with 128 in Hw.
  change (2 ^ (31 - 20 + 1)) with 4096. change (2 ^ 20) with 1048576.
  change (2 ^ (31 - 26 + 1)) with 64. change (2 ^ 26) with 67108864.
  change (2 ^ (25 - 20 + 1)) with 64.
  split_and!; lia.
Qed.

Lemma dec_R o rd rs1 rs2 : reg_ok rd -> reg_ok rs1 -> reg_ok rs2 ->
  dec1 (w_op3 o rd rs1 rs2) (BR o rd rs1 rs2).
Proof.
  intros Hd H1 H2.
  assert (K : forall f7 f3 opc, 0 <= f7 < 128 -> 0 <= f3 < 8 -> 0 <= opc < 128 -> opc mod 4 = 3 ->
    (forall w, bits w 6 0 = opc -> bits w 11 7 = rd -> bits w 14 12 = f3 ->
       bits w 19 15 = rs1 -> bits w 24 20 = rs2 -> bits w 31 25 = f7 ->
       decode32 w = Some (BR o rd rs1 rs2)) ->
    dec1 (W (RTYPE f7 rs2 rs1 f3 rd opc)) (BR o rd rs1 rs2)).
  { intros f7 f3 opc K7 K3 Ko K4 Hdec.
    destruct (fields f7 rs2 rs1 f3 rd opc _ K7 H2 H1 K3 Hd Ko eq_refl)
      as (E1 & E2 & E3 & E4 & E5 & E6 & E7 & E8).
    rewrite <- (RTYPE_sum f7 rs2 rs1 f3 rd opc K7 H2 H1 K3 Hd Ko) in *.
    apply dec1_W; [done|lia|]. by apply Hdec. }
  destruct o; cbn [w_op3]; (apply K; [lia|lia|lia|reflexivity|]);
    intros w E1 E2 E3 E4 E5 E6; unfold decode32; rewrite E1, E2, E3, E4, E5, E6; reflexivity.
Qed.

(** Floating-point words are R-type words too. *)
Lemma dec_RF f7 rs2 rs1 f3 rd b : 0 <= f7 < 128 -> reg_ok rs2 -> reg_ok rs1 -> 0 <= f3 < 8 -> reg_ok rd ->
  (forall w, bits w 6 0 = 83 -> bits w 11 7 = rd -> bits w 14 12 = f3 ->
     bits w 19 15 = rs1 -> bits w 24 20 = rs2 -> bits w 31 25 = f7 ->
     decode32 w = Some b) ->
  dec1 (W (RTYPE f7 rs2 rs1 f3 rd 0x53)) b.
Proof.
  intros K7 H2 H1 K3 Hd Hdec.
  destruct (fields f7 rs2 rs1 f3 rd 83 _ K7 H2 H1 K3 Hd ltac:(lia) eq_refl)
    as (E1 & E2 & E3 & E4 & E5 & E6 & E7 & E8).
  rewrite <- (RTYPE_sum f7 rs2 rs1 f3 rd 83 K7 H2 H1 K3 Hd ltac:(lia)) in *.
  apply dec1_W; [done|lia|]. by apply Hdec.
Qed.

Lemma reg_ok_c n : 0 <= n < 32 -> reg_ok n.
Proof. done. Qed.

Lemma dec_F3 o rd rs1 rs2 : reg_ok rd -> reg_ok rs1 -> reg_ok rs2 ->
  dec1 (asm_3fr o rd rs1 rs2) (BF3 o rd rs1 rs2).
Proof.
  intros. destruct o; cbn [asm_3fr]; (apply dec_RF; [lia|done|done|lia|done|]);
    intros w E1 E2 E3 E4 E5 E6; unfold decode32; rewrite E1, E2, E3, E4, E5, E6; reflexivity.
Qed.
Lemma dec_Fcmp o rd rs1 rs2 : reg_ok rd -> reg_ok rs1 -> reg_ok rs2 ->
  dec1 (asm_fcmp o rd rs1 rs2) (BFcmp o rd rs1 rs2).
Proof.
  intros. destruct o; cbn [asm_fcmp]; (apply dec_RF; [lia|done|done|lia|done|]);
    intros w E1 E2 E3 E4 E5 E6; unfold decode32; rewrite E1, E2, E3, E4, E5, E6; reflexivity.
Qed.
Lemma dec_Fi o rd rs : reg_ok rd -> reg_ok rs -> dec1 (asm_fi o rd rs) (BFi o rd rs).
Proof.
  intros. destruct o; cbn [asm_fi]; (apply dec_RF; [lia|apply reg_ok_c; lia|done|lia|done|]);
    intros w E1 E2 E3 E4 E5 E6; unfold decode32; rewrite E1, E2, E3, E4, E5, E6; reflexivity.
Qed.
Lemma dec_If o rd rs rm : reg_ok rd -> reg_ok rs -> (match rm with Some m => 0 <= m < 5 | None => True end) ->
  dec1 (asm_if o rd rs rm)
    (BIf o rd rs (match o with FMV_X_D | FMV_X_W => 0 | _ => default 0 rm end)).
Proof.
  intros Hd Hs Hm. unfold asm_if.
  assert (Hm' : 0 <= match rm with Some m => m | None => 0 end < 5) by (destruct rm; lia).
  assert (Hdef : default 0 rm = match rm with Some m => m | None => 0 end) by (by destruct rm).
  rewrite Hdef. revert Hm'. generalize (match rm with Some m => m | None => 0 end). intros m Hm'.
  assert (Hlt : (m <? 5) = true) by lia.
  destruct o; (apply dec_RF; [lia|apply reg_ok_c; lia|done|lia|done|]);
    intros w E1 E2 E3 E4 E5 E6; unfold decode32; rewrite E1, E2, E3, E4, E5, E6; cbn;
    rewrite ?Hlt; reflexivity.
Qed.
Lemma dec_F2 o rd rs : reg_ok rd -> reg_ok rs ->
  dec1 (asm_2fr o rd rs)
    (match o with
      | FSQRT_D => BFsqrt true rd rs | FSQRT_S => BFsqrt false rd rs
      | FMV_D => BF3 FSGNJ_D rd rs rs | FMV_S => BF3 FSGNJ_S rd rs rs
      | FNEG_D => BF3 FSGNJN_D rd rs rs | FNEG_S => BF3 FSGNJN_S rd rs rs
      | FCVT_D_S => BFcvtF true rd rs | FCVT_S_D => BFcvtF false rd rs
      end).
Proof.
  intros. destruct o; cbn [asm_2fr]; try (by apply dec_F3);
    (apply dec_RF; [lia|apply reg_ok_c; lia|done|lia|done|]);
    intros w E1 E2 E3 E4 E5 E6; unfold decode32; rewrite E1, E2, E3, E4, E5, E6; reflexivity.
Qed.

(** ** I-type words *)
Lemma IMM_mod imm t b : 0 <= b <= t -> IMM imm t b = imm / 2 ^ b mod 2 ^ (t - b + 1).
Proof.
  intros. unfold IMM. rewrite Z.shiftl_mul_pow2, Z.mul_1_l by lia.
  replace (2 ^ (t - b + 1) - 1) with (Z.ones (t - b + 1)) by (rewrite Z.ones_equiv; lia).
  rewrite Z.land_ones by lia. by rewrite Z.shiftr_div_pow2 by lia.
Qed.

Lemma ITYPE_sum imm rs1 f3 rd opc :
  reg_ok rs1 -> 0 <= f3 < 8 -> reg_ok rd -> 0 <= opc < 128 ->
  ITYPE imm rs1 f3 rd opc =
    (imm mod 4096 / 32) * 2 ^ 25 + ((imm mod 32) * 2 ^ 20 +
      (rs1 * 2 ^ 15 + (f3 * 2 ^ 12 + (rd * 2 ^ 7 + opc)))).
Proof.
  unfold reg_ok, ITYPE. intros. rewrite IMM_mod by lia. rewrite <- !Z.lor_assoc.
  rewrite (lor_add rd 7 opc), (lor_add f3 12), (lor_add rs1 15), (lor_add _ 20) by lia.
  change (2 ^ (11 - 0 + 1)) with 4096. change (2 ^ 0) with 1.
  change (2 ^ 25) with 33554432. change (2 ^ 20) with 1048576. lia.
Qed.

Lemma dec_ITYPE imm rs1 f3 rd opc b :
  reg_ok rs1 -> 0 <= f3 < 8 -> reg_ok rd -> 0 <= opc < 128 -> opc mod 4 = 3 ->
  (forall w, bits w 6 0 = opc -> bits w 11 7 = rd -> bits w 14 12 = f3 ->
     bits w 19 15 = rs1 -> bits w 24 20 = imm mod 32 -> bits w 31 25 = imm mod 4096 / 32 ->
     bits w 31 20 = imm mod 4096 -> bits w 31 26 = imm mod 4096 / 64 ->
     bits w 25 20 = imm mod 64 -> decode32 w = Some b) ->
  dec1 (W (ITYPE imm rs1 f3 rd opc)) b.
Proof.
  intros H1 K3 Hd Ko K4 Hdec.
  assert (K7 : 0 <= imm mod 4096 / 32 < 128) by lia.
  assert (H2 : reg_ok (imm mod 32)) by (unfold reg_ok; lia).
  destruct (fields _ _ rs1 f3 rd opc _ K7 H2 H1 K3 Hd Ko eq_refl)
    as (E1 & E2 & E3 & E4 & E5 & E6 & E7 & E8).
  destruct (fields2 _ _ rs1 f3 rd opc _ K7 H2 H1 K3 Hd Ko eq_refl) as (E9 & E10 & E11).
  rewrite <- (ITYPE_sum imm rs1 f3 rd opc H1 K3 Hd Ko) in *.
  apply dec1_W; [done|lia|]. apply Hdec; try done; lia.
Qed.

Lemma sext12 imm : fits12 imm -> sext 12 (imm mod 4096) = imm.
Proof. unfold fits12, sext. intros. change (2 ^ (12 - 1)) with 2048. change (2 ^ 12) with 4096.
  destruct (Z.ltb_spec (imm mod 4096) 2048); lia. Qed.

Lemma land_mod x k : 0 <= k -> Z.land x (Z.ones k) = x mod 2 ^ k.
Proof. intros. by rewrite Z.land_ones. Qed.

Lemma dec_I o rd rs imm : reg_ok rd -> reg_ok rs -> imm_ok o imm ->
  dec1 (w_op2i o rd rs imm) (BI o rd rs imm).
Proof.
  intros Hd Hs Hi.
  assert (L63 : Z.land imm 63 = imm mod 64) by (apply (land_mod imm 6); lia).
  assert (L31 : Z.land imm 31 = imm mod 32) by (apply (land_mod imm 5); lia).
  assert (Lor : 0 <= imm < 64 -> 0x400 .| imm mod 64 = 1024 + imm).
  { intros. change (0x400 .| imm mod 64) with (1 .<< 10 .| imm mod 64). rewrite lor_add by lia. lia. }
  destruct o; cbn [w_op2i]; unfold imm_ok in Hi; cbn [is_shiftw is_shift] in Hi; rewrite ?L63, ?L31; rewrite ?Lor by lia;
    (apply dec_ITYPE; [done|lia|done|lia|reflexivity|]);
    intros w E1 E2 E3 E4 E5 E6 E7 E8 E9; unfold decode32;
    rewrite E1, E2, E3, E4, ?E5, ?E6, ?E7, ?E8, ?E9; cbn -[Z.modulo Z.div sext];
    try (rewrite sext12 by done; reflexivity).
  (* the shifts *)
  - replace (imm mod 64 mod 4096 / 64) with 0 by lia.
    by replace (imm mod 64 mod 64) with imm by lia.
  - replace (imm mod 32 mod 4096 / 32) with 0 by lia.
    by replace (imm mod 32 mod 32) with imm by lia.
  - replace (imm mod 64 mod 4096 / 64) with 0 by lia.
    by replace (imm mod 64 mod 64) with imm by lia.
  - replace (imm mod 64 mod 4096 / 32) with 0 by lia.
    by replace (imm mod 64 mod 32) with imm by lia.
  - replace ((1024 + imm) mod 4096 / 64) with 16 by lia.
    by replace ((1024 + imm) mod 64) with imm by lia.
  - replace ((1024 + imm) mod 4096 / 32) with 32 by lia.
    by replace ((1024 + imm) mod 32) with imm by lia.
Qed.

Lemma dec_ld o rd ofs rs : reg_ok rd -> reg_ok rs -> fits12 ofs ->
  dec1 (w_ld o rd ofs rs) (BLoad o rd rs ofs).
Proof.
  intros Hd Hs Hi. destruct o; unfold w_ld; (apply dec_ITYPE; [done|lia|done|lia|reflexivity|]);
    intros w E1 E2 E3 E4 E5 E6 E7 E8 E9; unfold decode32;
    rewrite E1, E2, E3, E4, E7; cbn -[Z.modulo Z.div sext]; by rewrite sext12.
Qed.
Lemma dec_fld (d : bool) rd ofs rs : reg_ok rd -> reg_ok rs -> fits12 ofs ->
  dec1 (W (ITYPE ofs rs (if d then 3 else 2) rd 0x07)) (BFload d rd rs ofs).
Proof.
  intros Hd Hs Hi. destruct d; (apply dec_ITYPE; [done|lia|done|lia|reflexivity|]);
    intros w E1 E2 E3 E4 E5 E6 E7 E8 E9; unfold decode32;
    rewrite E1, E2, E3, E4, E7; cbn -[Z.modulo Z.div sext]; by rewrite sext12.
Qed.
Lemma dec_jalr rd rs ofs : reg_ok rd -> reg_ok rs -> fits12 ofs ->
  dec1 (W (ITYPE ofs rs 0 rd 0x67)) (BJalr rd rs ofs).
Proof.
  intros Hd Hs Hi. (apply dec_ITYPE; [done|lia|done|lia|reflexivity|]);
    intros w E1 E2 E3 E4 E5 E6 E7 E8 E9; unfold decode32;
    rewrite E1, E2, E3, E4, E7; cbn -[Z.modulo Z.div sext]; by rewrite sext12.
Qed.

(** ** S-type words *)
Lemma STYPE_sum imm rs2 rs1 f3 opc :
  reg_ok rs2 -> reg_ok rs1 -> 0 <= f3 < 8 -> 0 <= opc < 128 ->
  STYPE imm rs2 rs1 f3 opc =
    (imm / 32 mod 128) * 2 ^ 25 + (rs2 * 2 ^ 20 +
      (rs1 * 2 ^ 15 + (f3 * 2 ^ 12 + ((imm mod 32) * 2 ^ 7 + opc)))).
Proof.
  unfold reg_ok, STYPE. intros. rewrite !IMM_mod by lia. rewrite <- !Z.lor_assoc.
  change (2 ^ (11 - 5 + 1)) with 128. change (2 ^ 5) with 32. change (2 ^ (4 - 0 + 1)) with 32.
  change (2 ^ 0) with 1. rewrite Z.div_1_r.
  rewrite (lor_add _ 7 opc), (lor_add f3 12), (lor_add rs1 15), (lor_add rs2 20),
    (lor_add _ 25) by lia. done.
Qed.

Lemma dec_STYPE imm rs2 rs1 f3 opc b :
  reg_ok rs2 -> reg_ok rs1 -> 0 <= f3 < 8 -> 0 <= opc < 128 -> opc mod 4 = 3 ->
  (forall w, bits w 6 0 = opc -> bits w 11 7 = imm mod 32 -> bits w 14 12 = f3 ->
     bits w 19 15 = rs1 -> bits w 24 20 = rs2 -> bits w 31 25 = imm / 32 mod 128 ->
     decode32 w = Some b) ->
  dec1 (W (STYPE imm rs2 rs1 f3 opc)) b.
Proof.
  intros H2 H1 K3 Ko K4 Hdec.
  assert (K7 : 0 <= imm / 32 mod 128 < 128) by lia.
  assert (Hd : reg_ok (imm mod 32)) by (unfold reg_ok; lia).
  destruct (fields _ rs2 rs1 f3 _ opc _ K7 H2 H1 K3 Hd Ko eq_refl)
    as (E1 & E2 & E3 & E4 & E5 & E6 & E7 & E8).
  rewrite <- (STYPE_sum imm rs2 rs1 f3 opc H2 H1 K3 Ko) in *.
  apply dec1_W; [done|lia|]. by apply Hdec.
Qed.

Lemma sext12s imm : fits12 imm -> sext 12 (imm / 32 mod 128 * 32 + imm mod 32) = imm.
Proof. intros. replace (imm / 32 mod 128 * 32 + imm mod 32) with (imm mod 4096) by lia.
  by apply sext12. Qed.

Lemma dec_sd o rs2 ofs rs1 : reg_ok rs2 -> reg_ok rs1 -> fits12 ofs ->
  dec1 (w_sd o rs2 ofs rs1) (BStore o rs2 rs1 ofs).
Proof.
  intros H2 H1 Hi. destruct o; unfold w_sd; (apply dec_STYPE; [done|done|lia|lia|reflexivity|]);
    intros w E1 E2 E3 E4 E5 E6; unfold decode32;
    rewrite E1, E2, E3, E4, E5, E6; cbn -[Z.modulo Z.div sext Z.mul]; by rewrite sext12s.
Qed.
Lemma dec_fsd (d : bool) rs2 ofs rs1 : reg_ok rs2 -> reg_ok rs1 -> fits12 ofs ->
  dec1 (W (STYPE ofs rs2 rs1 (if d then 3 else 2) 0x27)) (BFstore d rs2 rs1 ofs).
Proof.
  intros H2 H1 Hi. destruct d; (apply dec_STYPE; [done|done|lia|lia|reflexivity|]);
    intros w E1 E2 E3 E4 E5 E6; unfold decode32;
    rewrite E1, E2, E3, E4, E5, E6; cbn -[Z.modulo Z.div sext Z.mul]; by rewrite sext12s.
Qed.

(** ** Branches, jumps and upper immediates *)

(** A signed offset of [n] bits. *)
Lemma sext_mod n x : 0 < n -> - 2 ^ (n - 1) <= x < 2 ^ (n - 1) -> sext n (x mod 2 ^ n) = x.
Proof.
  intros Hn Hx. unfold sext.
  assert (E : 2 ^ n = 2 * 2 ^ (n - 1)).
  { rewrite <- (Z.pow_succ_r 2 (n - 1)) by lia. f_equal. lia. }
  assert (0 < 2 ^ (n - 1)) by lia.
  destruct (Z.lt_ge_cases x 0).
  - replace (x mod 2 ^ n) with (x + 2 ^ n).
    + destruct (Z.ltb_spec (x + 2 ^ n) (2 ^ (n - 1))); lia.
    + apply Z.mod_unique with (-1); lia.
  - rewrite Z.mod_small by lia. destruct (Z.ltb_spec x (2 ^ (n - 1))); lia.
Qed.

Lemma BXX_sum o rs1 rs2 ofs : reg_ok rs1 -> reg_ok rs2 ->
  W_BXX_word o rs1 rs2 ofs =
    (ofs / 4096 mod 2 * 64 + ofs / 32 mod 64) * 2 ^ 25 + (rs2 * 2 ^ 20 +
      (rs1 * 2 ^ 15 + (br_funct3 o * 2 ^ 12 +
        ((ofs / 2 mod 16 * 2 + ofs / 2048 mod 2) * 2 ^ 7 + 99)))).
Proof.
  intros H1 H2. unfold W_BXX_word. rewrite STYPE_sum by (try done; destruct o; cbn; lia).
  unfold SWIZZLE_BXX. rewrite !IMM_mod by lia.
  change (2 ^ (12 - 12 + 1)) with 2. change (2 ^ 12) with 4096.
  change (2 ^ (10 - 5 + 1)) with 64. change (2 ^ 5) with 32.
  change (2 ^ (4 - 1 + 1)) with 16. change (2 ^ 1) with 2.
  change (2 ^ (11 - 11 + 1)) with 2. change (2 ^ 11) with 2048.
  set (a := ofs / 4096 mod 2). set (b := ofs / 32 mod 64).
  set (c := ofs / 2 mod 16). set (d := ofs / 2048 mod 2).
  assert (Ha : 0 <= a < 2) by (unfold a; lia). assert (Hb : 0 <= b < 64) by (unfold b; lia).
  assert (Hc : 0 <= c < 16) by (unfold c; lia). assert (Hd : 0 <= d < 2) by (unfold d; lia).
  clearbody a b c d.
  change (0 / 32 mod 128) with 0. change (0 mod 32) with 0.
  set (M := rs2 * 2 ^ 20 + (rs1 * 2 ^ 15 + br_funct3 o * 2 ^ 12)).
  assert (HM : 0 <= M / 2 ^ 12 < 2 ^ 13 /\ M = M / 2 ^ 12 * 2 ^ 12).
  { unfold reg_ok in *. assert (0 <= br_funct3 o < 8) by (destruct o; cbn; lia).
    unfold M. split; lia. }
  destruct HM as [HM HM2].
  match goal with |- Z.lor ?x _ = _ => replace x with (M / 2 ^ 12 .<< 12 .| 99) end.
  2:{ rewrite (lor_add (M / 2 ^ 12) 12 99) by lia. lia. }
  assert (Hlow : c .<< 8 .| (d .<< 7 .| 99) = (c * 2 + d) * 2 ^ 7 + 99).
  { rewrite (lor_add d 7 99), (lor_add c 8) by lia. lia. }
  transitivity (a .<< 31 .| (b .<< 25 .| (M / 2 ^ 12 .<< 12 .| (c .<< 8 .| (d .<< 7 .| 99))))).
  - apply Z.bits_inj'; intros n Hn. rewrite !Z.lor_spec.
    destruct (Z.testbit (a .<< 31) n), (Z.testbit (b .<< 25) n), (Z.testbit (M / 2 ^ 12 .<< 12) n),
      (Z.testbit (c .<< 8) n), (Z.testbit (d .<< 7) n), (Z.testbit 99 n); reflexivity.
  - rewrite Hlow.
    rewrite (lor_add _ 12), (lor_add b 25), (lor_add a 31) by lia. unfold M in *. lia.
Qed.

Lemma dec_BXX o rs1 rs2 ofs : reg_ok rs1 -> reg_ok rs2 ->
  -4096 <= ofs < 4096 -> ofs mod 2 = 0 ->
  dec1 (W (W_BXX_word o rs1 rs2 ofs)) (BBr o rs1 rs2 ofs).
Proof.
  intros H1 H2 Ho He.
  set (f7 := ofs / 4096 mod 2 * 64 + ofs / 32 mod 64).
  set (rd := ofs / 2 mod 16 * 2 + ofs / 2048 mod 2).
  assert (K7 : 0 <= f7 < 128) by (unfold f7; lia).
  assert (Hd : reg_ok rd) by (unfold rd, reg_ok; lia).
  assert (K3 : 0 <= br_funct3 o < 8) by (destruct o; cbn; lia).
  destruct (fields f7 rs2 rs1 (br_funct3 o) rd 99 _ K7 H2 H1 K3 Hd ltac:(lia) eq_refl)
    as (E1 & E2 & E3 & E4 & E5 & E6 & E7 & E8).
  pose proof (BXX_sum o rs1 rs2 ofs H1 H2) as EB. fold f7 rd in EB.
  rewrite <- EB in E1, E2, E3, E4, E5, E6, E7, E8. clear EB.
  apply dec1_W; [done|lia|].
  assert (Hb : bits (W_BXX_word o rs1 rs2 ofs) 31 31 * 4096 + bits (W_BXX_word o rs1 rs2 ofs) 7 7 * 2048
    + bits (W_BXX_word o rs1 rs2 ofs) 30 25 * 32 + bits (W_BXX_word o rs1 rs2 ofs) 11 8 * 2 = ofs mod 8192).
  { revert E2 E6 E7. generalize (W_BXX_word o rs1 rs2 ofs). intros w E2 E6 E7.
    assert (B1 : bits w 31 31 = f7 / 64).
    { rewrite <- E6. unfold bits. change (2 ^ (31 - 31 + 1)) with 2. change (2 ^ (31 - 25 + 1)) with 128.
      change (2 ^ 31) with 2147483648. change (2 ^ 25) with 33554432. lia. }
    assert (B2 : bits w 30 25 = f7 mod 64).
    { rewrite <- E6. unfold bits. change (2 ^ (30 - 25 + 1)) with 64. change (2 ^ (31 - 25 + 1)) with 128. lia. }
    assert (B3 : bits w 7 7 = rd mod 2).
    { rewrite <- E2. unfold bits. change (2 ^ (7 - 7 + 1)) with 2. change (2 ^ (11 - 7 + 1)) with 32. lia. }
    assert (B4 : bits w 11 8 = rd / 2).
    { rewrite <- E2. unfold bits. change (2 ^ (11 - 8 + 1)) with 16. change (2 ^ (11 - 7 + 1)) with 32.
      change (2 ^ 8) with 256. change (2 ^ 7) with 128. lia. }
    rewrite B1, B2, B3, B4. unfold f7, rd. lia. }
  unfold decode32. rewrite Hb.
  change 8192 with (2 ^ 13). rewrite (sext_mod 13 ofs) by lia.
  rewrite E1, E3, E4, E5. destruct o; reflexivity.
Qed.

Lemma UTYPE_sum imm rd opc : reg_ok rd -> 0 <= opc < 128 ->
  UTYPE imm rd opc = imm / 4096 mod 2 ^ 20 * 4096 + (rd * 128 + opc).
Proof.
  unfold reg_ok. intros. unfold UTYPE. rewrite IMM_mod by lia. rewrite <- Z.lor_assoc.
  rewrite (lor_add rd 7), (lor_add _ 12) by lia. reflexivity.
Qed.

Lemma dec_UTYPE imm rd opc b : reg_ok rd -> 0 <= opc < 128 -> opc mod 4 = 3 ->
  (forall w, w = UTYPE imm rd opc -> bits w 6 0 = opc -> bits w 11 7 = rd ->
     bits w 31 12 = imm / 4096 mod 2 ^ 20 -> decode32 w = Some b) ->
  dec1 (W (UTYPE imm rd opc)) b.
Proof.
  intros Hd Ho H3 Hdec. pose proof (UTYPE_sum imm rd opc Hd Ho) as E. unfold reg_ok in Hd.
  apply dec1_W; [lia|lia|]. apply Hdec; [done|..]; rewrite E; unfold bits.
  - change (2 ^ (6 - 0 + 1)) with 128. change (2 ^ 0) with 1. lia.
  - change (2 ^ (11 - 7 + 1)) with 32. change (2 ^ 7) with 128. lia.
  - change (31 - 12 + 1) with 20. change (2 ^ 20) with 1048576. change (2 ^ 12) with 4096. lia.
Qed.

Lemma dec_LUI imm rd : reg_ok rd ->
  dec1 (W (UTYPE imm rd 0x37)) (BLui rd (sext 32 (imm / 4096 mod 2 ^ 20 * 4096))).
Proof.
  intros. apply dec_UTYPE; [done|lia|done|]. intros w _ E1 E2 E3. unfold decode32.
  rewrite E1, E2, E3. reflexivity.
Qed.
Lemma dec_AUIPC imm rd : reg_ok rd ->
  dec1 (W (UTYPE imm rd 0x17)) (BAuipc rd (sext 32 (imm / 4096 mod 2 ^ 20 * 4096))).
Proof.
  intros. apply dec_UTYPE; [done|lia|done|]. intros w _ E1 E2 E3. unfold decode32.
  rewrite E1, E2, E3. reflexivity.
Qed.
Lemma dec_ECALL : dec1 (W (UTYPE 0 0 0x73)) BEcall.
Proof. apply dec1_W; [vm_compute; done|done|reflexivity]. Qed.

Lemma dec_JAL rd ofs : reg_ok rd -> - 2 ^ 20 <= ofs < 2 ^ 20 -> ofs mod 2 = 0 ->
  dec1 (W (W_JAL_word rd ofs)) (BJal rd ofs).
Proof.
  intros Hd Ho He. unfold W_JAL_word.
  set (a := ofs / 2 ^ 20 mod 2). set (b := ofs / 2 mod 1024).
  set (c := ofs / 2048 mod 2). set (d := ofs / 4096 mod 256).
  assert (Ha : 0 <= a < 2) by (unfold a; lia). assert (Hb : 0 <= b < 1024) by (unfold b; lia).
  assert (Hc : 0 <= c < 2) by (unfold c; lia). assert (Hdd : 0 <= d < 256) by (unfold d; lia).
  assert (Hofs : a * 2 ^ 20 + d * 4096 + c * 2048 + b * 2 = ofs mod 2 ^ 21) by (unfold a, b, c, d; lia).
  assert (ES : SWIZZLE_JAL ofs = (a * 524288 + b * 512 + c * 256 + d) * 4096).
  { unfold SWIZZLE_JAL. rewrite !IMM_mod by lia. rewrite <- !Z.lor_assoc.
    change (2 ^ (20 - 20 + 1)) with 2. change (2 ^ (10 - 1 + 1)) with 1024.
    change (2 ^ (11 - 11 + 1)) with 2. change (2 ^ (19 - 12 + 1)) with 256.
    change (2 ^ 1) with 2. change (2 ^ 11) with 2048. change (2 ^ 12) with 4096.
    fold a b c d. clearbody a b c d.
    replace (d .<< 12) with (d .<< 12 .| 0) by apply Z.lor_0_r.
    rewrite (lor_add d 12), (lor_add c 20), (lor_add b 21), (lor_add a 31) by lia. lia. }
  apply dec_UTYPE; [done|lia|done|]. intros w Hw E1 E2 E3. unfold decode32. rewrite E1.
  rewrite ES in E3. rewrite Z.div_mul in E3 by done.
  rewrite Z.mod_small in E3 by (clearbody a b c d; lia).
  assert (Hb2 : bits w 31 31 * 2 ^ 20 + bits w 19 12 * 4096 + bits w 20 20 * 2048 + bits w 30 21 * 2
    = ofs mod 2 ^ 21).
  { rewrite <- Hofs. clearbody a b c d. revert E3. unfold bits.
    change (2 ^ (31 - 31 + 1)) with 2. change (2 ^ (19 - 12 + 1)) with 256.
    change (2 ^ (20 - 20 + 1)) with 2. change (2 ^ (30 - 21 + 1)) with 1024.
    change (2 ^ (31 - 12 + 1)) with 1048576.
    change (2 ^ 31) with 2147483648. change (2 ^ 12) with 4096. change (2 ^ 20) with 1048576.
    change (2 ^ 21) with 2097152. intros E3.
    assert (Q1 : w / 4096 mod 256 = d).
    { replace (w / 4096 mod 256) with (w / 4096 mod 1048576 mod 256) by lia. rewrite E3. lia. }
    assert (Q2 : w / 1048576 mod 2 = c).
    { replace (w / 1048576 mod 2) with (w / 4096 mod 1048576 / 256 mod 2) by lia. rewrite E3. lia. }
    assert (Q3 : w / 2097152 mod 1024 = b).
    { replace (w / 2097152 mod 1024) with (w / 4096 mod 1048576 / 512 mod 1024) by lia. rewrite E3. lia. }
    assert (Q4 : w / 2147483648 mod 2 = a).
    { replace (w / 2147483648 mod 2) with (w / 4096 mod 1048576 / 524288 mod 2) by lia. rewrite E3. lia. }
    rewrite Q1, Q2, Q3, Q4. lia. }
  rewrite Hb2, E2. rewrite (sext_mod 21 ofs) by lia. reflexivity.
Qed.
