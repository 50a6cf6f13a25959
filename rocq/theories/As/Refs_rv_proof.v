(** riscv64 sections from the source to the linked bytes. *)
From stdpp Require Import base list list_numbers numbers gmap option.
From Verif Require Import As.Rv_model.
From Verif Require Import Util.Data_model As.Asm_model As.Asm_arch_model As.Asm_spec As.Asm_proof As.Asm_res_proof As.Asm_arch_proof As.Asm_a64_proof As.Asm_rv_proof As.Asm_rv_main_proof.
From Verif Require Import As.Refs_model As.Refs_spec As.Refs_link_proof As.Refs_proof As.Refs_x64_proof As.Refs_a64_proof.
From Verif Require Ld.Rela_model Ld.Rela_spec Ld.Rela_proof Ld.Rela_main_proof Rv_spec Rv_proof Rv_word_proof.
From Coq Require Import Lia ZifyBool.
Local Open Scope Z_scope.

Lemma rv_good : good rv_step rv_R.
Proof.
  split.
  - intros t1 last st b c s Es Hu. apply rv_step_mu in Es as [_ Es]. by apply Es.
  - intros c cs HR. unfold rv_R in HR. destruct (inst c).
    + destruct HR as (_ & _ & _ & [(c' & -> & _)|(c1 & c2 & -> & _)]); [left; by eexists|right; by do 2 eexists].
    + destruct HR as (_ & c' & -> & _). left. by eexists.
    + left. by eexists. + left. by eexists. + left. by eexists.
  - intros c c1 t1 last st b s HR Es. unfold rv_R in *. destruct (inst c) as [o rs1 rs2 v|v|v|v|] eqn:Ei.
    + destruct HR as (H1 & H2 & Hv & [(c' & [= ->] & Hi & Hf)|(c1' & c2 & [=] & _)]). unfold rv_step in Es. rewrite Hi in Es.
      apply step_b in Es as [(E1 & E2 & E3 & E4 & E5 & _)|[(_ & E1 & _ & _ & E3 & E5)|(_ & _ & _ & -> & E5)]]; [..|done|done|done|done].
      * rewrite E1. split_and!; try done. left. exists (new s). by rewrite E3.
      * rewrite E1. split_and!; try done. left. exists (new s). by rewrite E3.
      * split_and!; try done. right. exists (new s), (rv_jal v). split; [done|]. rewrite E5.
        destruct (rv_bxx_form (inverse o) rs1 rs2 (Value None (Z.of_nat (length (asm_bxx (inverse o) rs1 rs2)) + 4)) H1 H2) as [F1 F2].
        split; [by rewrite F2|]. split; [done|]. split; [done|]. split; [done|]. apply rv_jal_form.
    + destruct HR as (Hv & c' & [= ->] & Hi & Hf). unfold rv_step in Es. rewrite Hi in Es. destruct Hv as [n Hv].
      apply (step_j t1 st b v n) in Es as (E1 & E2 & E3 & _); [|done..]. rewrite E1. split; [done|]. exists (new s). by rewrite E2.
    + injection HR as ->. apply rv_step_other in Es as (-> & -> & _); [done|by rewrite Ei].
    + injection HR as ->. apply rv_step_other in Es as (-> & -> & _); [done|by rewrite Ei].
    + injection HR as ->. apply rv_step_other in Es as (-> & -> & _); [done|by rewrite Ei].
  - intros c c1 c2 t1 last st b s HR Es. unfold rv_R in *. destruct (inst c) as [o rs1 rs2 v|v|v|v|] eqn:Ei; [|by destruct HR as (_ & c' & H & _)|done..].
    destruct HR as (H1 & H2 & Hv & [(c' & [=] & _)|(c1' & c2' & [= -> ->] & Hf)]).
    apply (pair_first t1 last st b o rs1 rs2 v _ c2') in Es as (E1 & E2 & E3 & _); [|done..].
    split; [done|]. split_and!; try done. right. by exists (new s), c2'.
  - intros c c1 c2 t1 last st b s HR Es. unfold rv_R in *. destruct (inst c) as [o rs1 rs2 v|v|v|v|] eqn:Ei; [|by destruct HR as (_ & c' & H & _)|done..].
    destruct HR as (H1 & H2 & [n Hv] & [(c' & [=] & _)|(c1' & c2' & [= -> ->] & Hf)]).
    apply (pair_second t1 last st b o rs1 rs2 v n c1') in Es as (E1 & E2 & E3 & _); [|done..].
    split; [done|]. split_and!; try done. right. by exists c1', (new s).
  - intros c cs c1 t1 last st b s HR Hc Es Hu. unfold rv_R in *. destruct (inst c) as [o rs1 rs2 v|v|v|v|] eqn:Ei.
    + destruct HR as (H1 & H2 & [n Hv] & [(c' & -> & Hi & Hf)|(c1' & c2 & -> & Hf)]).
      * apply elem_of_list_singleton in Hc as ->. unfold rv_step in Es. rewrite Hi in Es.
        apply step_b in Es as [(E1 & E2 & E3 & E4 & E5 & _)|[(_ & E1 & EE & _)|(_ & EE & _)]]; [|congruence|congruence|done..].
        by rewrite (b_form_length _ _ _ _ E5), (b_form_length _ _ _ _ Hf), E4.
      * apply elem_of_cons in Hc as [->|Hc%elem_of_list_singleton].
        -- by apply (pair_first t1 last st b o rs1 rs2 v _ c2) in Es as (_ & _ & _ & EE & _).
        -- subst c2. by apply (pair_second t1 last st b o rs1 rs2 v n c1') in Es as (_ & _ & _ & EE & _).
    + destruct HR as ([n Hv] & c' & -> & Hi & Hf). apply elem_of_list_singleton in Hc as ->. unfold rv_step in Es. rewrite Hi in Es.
      apply (step_j t1 st b v n) in Es as (E1 & E2 & E3 & E4 & _); [|done..]. by rewrite (j_form_length _ E3), (j_form_length _ Hf), (E4 Hu).
    + subst cs. apply elem_of_list_singleton in Hc as ->. apply rv_step_other in Es as (-> & _); [done|by rewrite Ei].
    + subst cs. apply elem_of_list_singleton in Hc as ->. apply rv_step_other in Es as (-> & _); [done|by rewrite Ei].
    + subst cs. apply elem_of_list_singleton in Hc as ->. apply rv_step_other in Es as (-> & _); [done|by rewrite Ei].
Qed.

(** ** The words the linker writes *)
Lemma jal_written T P w w' : Rela_model.rv_jal T P w = Some w' -> s64 (T - P) mod 2 = 0 -> Rv_proof.dec1 (le 4 w') (Rv_spec.BJal 0 (s64 (T - P))).
Proof.
  unfold Rela_model.rv_jal. change Rela_model.s64 with s64. intros H He. destruct (Rela_model.in_range _ 19) eqn:Er; [|done].
  destruct (Z.eqb_spec (Z.land w 0x7f) 0x6f) as [Hw|Hw]; [|done]. cbn [andb] in H. injection H as <-. rewrite Hw. change Rela_model.SWIZZLE_JAL with SWIZZLE_JAL.
  rewrite <- jal_word, <- W_le. apply Rv_word_proof.dec_JAL; [done| |done]. apply Rela_main_proof.in_range_spec in Er. lia.
Qed.
Lemma call_written T P w' : Rela_model.rv_call T P = Some w' -> s64 (T - P) mod 2 = 0 -> Rv_proof.dec1 (le 4 w') (Rv_spec.BJal 1 (s64 (T - P))).
Proof.
  unfold Rela_model.rv_call. change Rela_model.s64 with s64. intros H He. destruct (Rela_model.in_range _ 19) eqn:Er; [|done].
  injection H as <-. rewrite <- W_le. apply (Rv_word_proof.dec_JAL 1); [done| |done]. apply Rela_main_proof.in_range_spec in Er. lia.
Qed.
Lemma cj_written T P w w' : Rela_model.rv_rvc_jump T P w = Some w' -> s64 (T - P) mod 2 = 0 -> Rv_proof.dec1 (le 2 w') (Rv_spec.BJal 0 (s64 (T - P))).
Proof.
  unfold Rela_model.rv_rvc_jump. change Rela_model.s64 with s64. intros H He. destruct (Rela_model.in_range _ 11) eqn:Er; [|done].
  destruct (Z.eqb_spec (Z.land w 0xe003) 0xa001) as [Hw|Hw]; [|done]. cbn [andb] in H. injection H as <-. rewrite Hw. change Rela_model.SWIZZLE_C_J with SWIZZLE_C_J.
  apply Rela_main_proof.in_range_spec in Er. set (x := s64 (T - P)) in *. clearbody x.
  rewrite <- H_le. apply Rv_proof.chk16_dec1.
  assert (Hc : forallb (fun k => Rv_proof.chk16 (H (Z.lor 0xa001 (SWIZZLE_C_J (2 * k)))) (Rv_spec.BJal 0 (2 * k))) (seqZ (-1024) 2048) = true) by (vm_compute; done).
  rewrite forallb_forall in Hc. specialize (Hc (x / 2)). rewrite <- elem_of_list_In, elem_of_seqZ in Hc.
  pose proof (Z.div_mod x 2 ltac:(lia)) as Hd. specialize (Hc ltac:(lia)). by replace (2 * (x / 2)) with x in Hc by lia.
Qed.
Lemma branch_written o rs1 rs2 T P w w' : Rv_spec.reg_ok rs1 -> Rv_spec.reg_ok rs2 -> Z.land w 0x01fff07f = W_BXX_word o rs1 rs2 0 ->
  Rela_model.rv_branch T P w = Some w' -> Rela_spec.fits 13 (s64 (T - P)) -> s64 (T - P) mod 2 = 0 -> Rv_proof.dec1 (le 4 w') (Rv_spec.BBr o rs1 rs2 (s64 (T - P))).
Proof.
  intros H1 H2 Hw. unfold Rela_model.rv_branch. change Rela_model.s64 with s64. intros H Hf He. destruct (Rela_model.in_range _ 13) eqn:Er; [|done].
  injection H as <-. rewrite Hw. change Rela_model.SWIZZLE_BXX with SWIZZLE_BXX. rewrite bxx_word, <- W_le. apply Rv_word_proof.dec_BXX; [done|done| |done]. unfold Rela_spec.fits in Hf. lia.
Qed.
Lemma cb_written o rs1 T P w w' : eqne o = true -> is_rvc_reg rs1 = true -> Z.land w 0xe383 = cword o rs1 ->
  Rela_model.rv_rvc_branch T P w = Some w' -> s64 (T - P) mod 2 = 0 -> Rv_proof.dec1 (le 2 w') (Rv_spec.BBr o rs1 0 (s64 (T - P))).
Proof.
  intros H1 H2 Hw. unfold Rela_model.rv_rvc_branch. change Rela_model.s64 with s64. intros H He. destruct (Rela_model.in_range _ 8) eqn:Er; [|done].
  destruct (_ =? _); [|done]. cbn [andb] in H. injection H as <-. rewrite Hw, <- H_le. apply dec_comp; [done|done| |done].
  apply Rela_main_proof.in_range_spec in Er. unfold within. lia.
Qed.
Lemma nop_written : Rv_proof.dec1 (le 4 Rela_model.P_NOP) (Rv_spec.BI ADDI 0 0 0).
Proof. exact (Rv_word_proof.dec_I ADDI 0 0 0 ltac:(done) ltac:(done) ltac:(done)). Qed.

Lemma hi_bits y : Z.land (y mod 2 ^ 32) (2 ^ 32 - 2 ^ 12) = Z.shiftl (IMM y 31 12) 12.
Proof.
  change (2 ^ 32 - 2 ^ 12) with (Z.shiftl (Z.ones 20) 12). unfold IMM. change (Z.shiftl 1 (31 - 12 + 1) - 1) with (Z.ones 20).
  apply Z.bits_inj'. intros n Hn. rewrite Z.land_spec, !Z.shiftl_spec, Z.land_spec by lia.
  destruct (Z.lt_ge_cases n 12).
  - rewrite !(Z.testbit_neg_r _ (n - 12)) by lia. by rewrite andb_false_r.
  - rewrite Z.shiftr_spec by lia. replace (n - 12 + 12) with n by lia. rewrite (Z.testbit_ones_nonneg 20) by lia.
    destruct (Z.ltb_spec (n - 12) 20); [|by rewrite !andb_false_r]. by rewrite Z.mod_pow2_bits_low by lia.
Qed.
Lemma la_written T P rd w w' v v' : Rv_spec.reg_ok rd -> w = UTYPE 0 rd 0x17 -> v = ITYPE 0 rd 0 rd 0x13 ->
  Rela_model.rv_hi20 T P w = Some w' -> Rela_model.rv_lo12 T P v = Some v' -> s64 (T - P) < 2 ^ 31 - 2 ^ 11 ->
  exists hi lo, Rv_proof.dec1 (le 4 w') (Rv_spec.BAuipc rd hi) /\ Rv_proof.dec1 (le 4 v') (Rv_spec.BI ADDI rd rd lo) /\ hi + lo = s64 (T - P).
Proof.
  intros Hrd -> ->. unfold Rela_model.rv_hi20, Rela_model.rv_lo12. change Rela_model.s64 with s64. set (x := s64 (T - P)). clearbody x.
  destruct (Rela_model.in_range x 31) eqn:Er; [|done]. apply Rela_main_proof.in_range_spec in Er. cbv zeta. intros [= <-] [= <-] Hx.
  set (y := if 2 ^ 11 <=? Z.land x (2 ^ 12 - 1) then x + 2 ^ 12 else x).
  pose proof (Rela_main_proof.rounded_mod x) as Hro. unfold Rela_main_proof.rounded in Hro. fold y in Hro.
  assert (Hall : forall f : Z -> bool, forallb f (seqZ 0 32) = true -> f rd = true).
  { intros f Hf. rewrite forallb_forall in Hf. apply Hf. rewrite <- elem_of_list_In, elem_of_seqZ. unfold Rv_spec.reg_ok in Hrd. lia. }
  destruct (Rela_main_proof.sext12 x) as [Hfit [k Hk]].
  exists (Rela_spec.sext 32 (y / 4096 mod 2 ^ 20 * 4096)), (Rela_spec.sext 12 (x mod 2 ^ 12)). split; [|split].
  - assert (E : Z.lor (Z.land (UTYPE 0 rd 0x17) (2 ^ 12 - 1)) (Z.land (y mod 2 ^ 32) (2 ^ 32 - 2 ^ 12)) = UTYPE y rd 0x17).
    { rewrite hi_bits. replace (Z.land (UTYPE 0 rd 0x17) (2 ^ 12 - 1)) with (Z.lor (Z.shiftl rd 7) 0x17).
      - unfold UTYPE. rewrite Z.lor_comm. by rewrite Z.lor_assoc.
      - symmetry. apply Z.eqb_eq. apply (Hall (fun rd => Z.land (UTYPE 0 rd 0x17) (2 ^ 12 - 1) =? Z.lor (Z.shiftl rd 7) 0x17)). by vm_compute. }
    rewrite E, <- W_le. by apply Rv_word_proof.dec_AUIPC.
  - set (lo := Rela_spec.sext 12 (x mod 2 ^ 12)) in *.
    assert (E : Z.lor (Z.land (ITYPE 0 rd 0 rd 0x13) (2 ^ 20 - 1)) (Z.shiftl (Z.land (x mod 2 ^ 32) (2 ^ 12 - 1)) 20) = ITYPE lo rd 0 rd 0x13).
    { replace (Z.land (ITYPE 0 rd 0 rd 0x13) (2 ^ 20 - 1)) with (Z.lor (Z.lor (Z.lor (Z.shiftl rd 15) (Z.shiftl 0 12)) (Z.shiftl rd 7)) 0x13).
      - replace (Z.land (x mod 2 ^ 32) (2 ^ 12 - 1)) with (IMM lo 11 0).
        + unfold ITYPE. rewrite Z.lor_comm. by rewrite !Z.lor_assoc.
        + unfold IMM. rewrite Z.shiftr_0_r. change (Z.shiftl 1 (11 - 0 + 1) - 1) with (Z.ones 12). change (2 ^ 12 - 1) with (Z.ones 12). rewrite !Z.land_ones by lia. rewrite Hk.
          rewrite Z.mod_add by done. rewrite (Z.mod_eq x (2 ^ 32)) by done. replace (x - 2 ^ 32 * (x / 2 ^ 32)) with (x + (- (2 ^ 20 * (x / 2 ^ 32))) * 2 ^ 12) by lia. by rewrite Z.mod_add.
      - symmetry. apply Z.eqb_eq. apply (Hall (fun rd => Z.land (ITYPE 0 rd 0 rd 0x13) (2 ^ 20 - 1) =? Z.lor (Z.lor (Z.lor (Z.shiftl rd 15) (Z.shiftl 0 12)) (Z.shiftl rd 7)) 0x13)). by vm_compute. }
    rewrite E, <- W_le. apply (Rv_word_proof.dec_I ADDI rd rd lo); [done|done|]. unfold Rela_spec.fits in Hfit. unfold Rv_spec.imm_ok, Rv_spec.fits12. cbn [Rv_spec.is_shift Rv_spec.is_shiftw]. change (2 ^ (12 - 1)) with 2048 in Hfit. lia.
  - replace (y / 4096 mod 2 ^ 20 * 4096) with ((x - Rela_spec.sext 12 (x mod 2 ^ 12)) mod 2 ^ 32).
    + rewrite Rela_main_proof.sext_mod; [lia|done|]. unfold Rela_spec.fits in *. change (2 ^ (32 - 1)) with (2 ^ 31). change (2 ^ (12 - 1)) with 2048 in *. rewrite Hk in *. change (2 ^ 12) with 4096 in *. lia.
    + rewrite <- Hro. change (2 ^ 12) with 4096. rewrite (Z.mod_eq y 4096) by done. replace (y - (y - 4096 * (y / 4096))) with (y / 4096 * 4096) by lia.
      change (2 ^ 32) with (2 ^ 20 * 4096). by rewrite Zmult_mod_distr_r.
Qed.

(** ** Looking at the bytes *)
Lemma at_window k d o n b bs : slice o n b = bs -> (d + k <= n)%nat -> Rela_spec.at_ k b (o + d) = word k (drop d bs).
Proof.
  intros <- H. unfold Rela_spec.at_. rewrite (Rela_proof.word_take k (drop d _)), Rela_proof.word_take. f_equal.
  rewrite skipn_firstn_comm, drop_drop, take_take. by rewrite Nat.min_l by lia.
Qed.
Lemma slice_split o n m (b : list Z) : slice o (n + m) b = slice o n b ++ slice (o + n) m b.
Proof. rewrite <- drop_drop. rewrite <- (take_take_drop (drop o b)). done. Qed.
Lemma exec_jump r a bs d : Rv_proof.dec1 bs (Rv_spec.BJal 0 (s64 (d - a))) -> u64 d = d -> exec r a [bs] = Some d.
Proof. intros H Hd. cbn [exec]. rewrite (exec1_dec _ _ _ _ H). cbn [next]. by rewrite (goes a d Hd). Qed.
Lemma word_W w : word 4 (W w) = w mod 2 ^ 32. Proof. by rewrite W_le, word4_le. Qed.
Lemma word_H w : word 2 (H w) = w mod 2 ^ 16. Proof. by rewrite H_le, word2_le. Qed.

Lemma one_written sec o n r b b' bs : Rela_spec.field [r] 0 r = (o, n) -> linked sec o n [r] b b' -> slice o n b = bs ->
  exists w', Rela_proof.new_word sec [r] 0 r (word n bs) = Some w' /\ slice o n b' = le n w'.
Proof.
  intros Hf (_ & _ & Hn) Hb. destruct (Hn 0%nat r eq_refl) as (w' & Hw & Hle). rewrite Hf in Hw, Hle. cbn [fst snd] in *. rewrite at_slice, Hb in Hw. by exists w'.
Qed.
Lemma even_away sec o d : (d - u64 (sec + Z.of_nat o)) mod 2 = 0 -> s64 (d - u64 (sec + Z.of_nat o)) mod 2 = 0.
Proof. by rewrite even_s64. Qed.
Lemma same_away sym sec t st o p v n : t !! n = Some (u64 (st + p)) -> sym n = u64 (sec + p) ->
  s64 (rv_target t v n - u64 (st + Z.of_nat o)) = s64 (u64 (sym n + vofs v) - u64 (sec + Z.of_nat o)).
Proof.
  intros H1 H2. unfold rv_target. rewrite H1, H2, !u64_u64_l. apply s64_congr, u64_congr.
  destruct (u64_div (st + p + vofs v)) as [x ->]. destruct (u64_div (st + Z.of_nat o)) as [y ->].
  destruct (u64_div (sec + p + vofs v)) as [z ->]. destruct (u64_div (sec + Z.of_nat o)) as [w ->]. exists (z - w - x + y). lia.
Qed.

Lemma long_not_short o rs1 rs2 w : Rv_spec.reg_ok rs1 -> Rv_spec.reg_ok rs2 -> Z.land w 0x01fff07f = W_BXX_word o rs1 rs2 0 -> Z.land (word 2 (W w)) 0xc003 = 0xc001 -> False.
Proof.
  intros H1 H2 Hw Hx. change (word 2 (W w)) with (word 2 (H w)) in Hx. rewrite word_H, land_mod16 in Hx by done.
  assert (E : Z.land w 3 = 1) by (change 3 with (Z.land 0xc003 3); rewrite Z.land_assoc, Hx; done).
  assert (E2 : Z.land (W_BXX_word o rs1 rs2 0) 3 = 3).
  { unfold W_BXX_word. change (SWIZZLE_BXX 0) with 0. rewrite Z.lor_0_r. unfold STYPE. change (IMM 0 11 5) with 0. change (IMM 0 4 0) with 0.
    rewrite !Z.shiftl_0_l, Z.lor_0_l, Z.lor_0_r, !Z.land_lor_distr_l.
    assert (Hf : 0 <= br_funct3 o < 2 ^ 3) by (destruct o; done).
    rewrite (field_out rs2 5), (field_out rs1 5), (field_out (br_funct3 o) 3) by done. done. }
  rewrite <- Hw, <- Z.land_assoc in E2. change (Z.land 0x01fff07f 3) with 3 in E2. lia.
Qed.
Lemma utype_small rd : Rv_spec.reg_ok rd -> 0 <= UTYPE 0 rd 0x17 < 2 ^ 32.
Proof.
  intros Hrd. assert (Hc : forallb (fun rd => (0 <=? UTYPE 0 rd 0x17) && (UTYPE 0 rd 0x17 <? 2 ^ 32)) (seqZ 0 32) = true) by (by vm_compute).
  rewrite forallb_forall in Hc. specialize (Hc rd). rewrite <- elem_of_list_In, elem_of_seqZ in Hc. unfold Rv_spec.reg_ok in Hrd. specialize (Hc ltac:(lia)). lia.
Qed.
Lemma itype_small rd : Rv_spec.reg_ok rd -> 0 <= ITYPE 0 rd 0 rd 0x13 < 2 ^ 32.
Proof.
  intros Hrd. assert (Hc : forallb (fun rd => (0 <=? ITYPE 0 rd 0 rd 0x13) && (ITYPE 0 rd 0 rd 0x13 <? 2 ^ 32)) (seqZ 0 32) = true) by (by vm_compute).
  rewrite forallb_forall in Hc. specialize (Hc rd). rewrite <- elem_of_list_In, elem_of_seqZ in Hc. unfold Rv_spec.reg_ok in Hrd. specialize (Hc ltac:(lia)). lia.
Qed.
Lemma offset_z st o n : Z.of_nat (o + n) < 2 ^ 64 -> u64 (u64 (st + Z.of_nat o) - st) = Z.of_nat o.
Proof. intros Hl. unfold Z.sub. rewrite u64_u64_l. replace (st + Z.of_nat o + - st) with (Z.of_nat o) by lia. apply u64_small. lia. Qed.

Lemma rv_code sym sec t st own : meets t sym sec st own ->
  code_good rv_step rv_R (rv_rela sym) sec (rv_image sym own) (rv_words t) t st.
Proof.
  intros Hme c cs ps us g o Hfr HR Hst Hpos Hg Hst0 Hl.
  assert (Hone : forall ty n v k q, forall d, refers sym v n d -> Rela_model.r_target (rela sym ty (Unres k n q (s32 (vofs v)))) = d).
  { intros ty n v k q d (Hv & Hofs & Hd). exact (refers_add sym k n _ (vofs v) d Hofs Hd _ eq_refl). }
  assert (Hro : forall k n ty add, (0 < length (bytes_of ps))%nat -> Rela_model.r_offset (rela sym ty (Unres k n (u64 (u64 (st + Z.of_nat o) - st)) add)) = o).
  { intros k n ty add Hn. cbn. apply (ref_offset0 st o 0). lia. }
  unfold rv_image, rv_words, rv_R in *. destruct (inst c) as [op rs1 rs2 v|v|v|v|] eqn:Ei.
  - destruct HR as (H1 & H2 & [n Hv] & [(c' & -> & Hi & Hf)|(c1 & c2 & -> & Hp)]).
    + inversion Hst as [|? a last s ? ps' us' Es Hu Hst']; subst. inversion Hst'; subst. clear Hst Hst'. rewrite app_nil_r in Hg.
      unfold bytes_of in *. cbn [mbind list_bind snd] in *. rewrite app_nil_r in *. cbn [pos_ok fst snd] in Hpos. destruct Hpos as [-> _].
      unfold rv_step in Es. rewrite Hi in Es. destruct Hfr as (dd & Hdd & Hdd0). unfold destination in Hdd. rewrite Hv in Hdd.
      assert (Ht : rv_target t v n = dd) by (unfold rv_target; destruct (t !! n); [congruence|done]). clear Hdd.
      pose proof Es as Es0. apply step_b in Es; [|done..]. unfold b_target in Es. rewrite Hv, Ht in Es. cbv zeta in Es.
      set (ofs := s64 (dd - u64 (st + Z.of_nat o))) in *.
      destruct Es as [(E1 & E2 & E3 & E4 & E5 & _)|[(_ & _ & E & _)|(_ & E & _)]]; [|congruence|congruence].
      pose proof (b_form_length _ _ _ _ E5) as Lw. rewrite E4 in Lw.
      assert (Hr : refs s = [Unres (if comp op rs1 rs2 && within ofs 8 then URvcBranch else UBranch) n (u64 (u64 (st + Z.of_nat o) - st)) (s32 (vofs v))] /\
        (if long c' then within ofs 12 else within ofs 8) = true).
      { unfold rv_step_b in Es0. rewrite Hv, Ht in Es0. fold ofs in Es0. change (match op with BEQ | BNE => true | _ => false end) with (eqne op) in Es0. change ((rs2 =? 0) && is_rvc_reg rs1 && eqne op) with (comp op rs1 rs2) in Es0.
        destruct (Z.eqb_spec dd 0); [done|]. destruct (long c').
        - destruct (within ofs 12); [by injection Es0 as <-|]. injection Es0 as <-. done.
        - destruct (negb _); [done|]. destruct (within ofs 8); [by injection Es0 as <-|]. destruct op; try done; injection Es0 as <-; done. }
      destruct Hr as [Hr Hw]. rewrite Hr in Hg. clear Es0 Hr. unfold b_form in E5. rewrite E4 in E5. destruct (long c') eqn:El.
      * destruct E5 as (w & Hbuf & Hmask). destruct (comp op rs1 rs2 && within ofs 8); cbn in Hg; injection Hg as <-.
        -- set (r := rela _ _ _). assert (Hof : Rela_model.r_offset r = o) by (apply Hro; rewrite Lw; lia).
           assert (Hfd : Rela_spec.field [r] 0 r = ((o + 0)%nat, 2%nat)) by (unfold Rela_spec.field; cbn [r rela Rela_model.r_type]; rewrite Hof; f_equal; lia).
           split; [apply (group_one o _ 0 2 r); [done|rewrite Lw; lia|done]|]. intros b b' Hb Hlb Hlb' (_ & _ & Hnew).
           exfalso. destruct (Hnew 0%nat r eq_refl) as (w' & Hw' & _). rewrite Hfd in Hw'. cbn [fst snd] in Hw'. rewrite (at_window 2 0 o _ b _ Hb), drop_0 in Hw' by (rewrite Lw; lia).
           unfold Rela_proof.new_word in Hw'. cbn [r rela Rela_model.r_type] in Hw'. unfold Rela_model.rv_rvc_branch in Hw'.
           destruct (Z.eqb_spec (Z.land (word 2 (buf (new s))) 0xc003) 0xc001) as [Hx|]; [|by rewrite andb_false_r in Hw'].
           rewrite Hbuf in Hx. by apply (long_not_short op rs1 rs2 w).
        -- set (r := rela _ _ _). assert (Hof : Rela_model.r_offset r = o) by (apply Hro; rewrite Lw; lia).
           assert (Hfd : Rela_spec.field [r] 0 r = (o, 4%nat)) by (unfold Rela_spec.field; cbn [r rela Rela_model.r_type]; rewrite Hof; f_equal; lia).
           split; [apply (group_one o _ 0 4 r); [rewrite Hfd; f_equal; lia|rewrite Lw; lia|done]|]. rewrite Lw in *. intros b b' Hb Hlb Hlb' Hli n' d Href Hreach He.
           assert (n' = n) as -> by (destruct Href as [? _]; congruence).
           destruct (one_written _ _ _ _ _ _ _ Hfd Hli Hb) as (w' & Hw' & Hle). rewrite Hle, Hbuf, word_W in *. unfold Rela_proof.new_word in Hw'. change (Rela_model.r_type r) with Rela_model.R_BRANCH in Hw'. cbv iota zeta in Hw'. change Rela_model.u64 with u64 in Hw'.
           rewrite Hof in Hw'. unfold r in Hw' at 1. rewrite (Hone _ _ _ _ _ d Href) in Hw'.
           apply (branch_written op rs1 rs2) in Hw'; [|done|done|by rewrite land_mod32| |by apply even_away].
           ++ exists [le 4 w']. split; [cbn [concat]; by rewrite app_nil_r|]. intros rr. cbn [exec]. rewrite (exec1_dec _ _ _ _ Hw'). cbn [next].
              destruct (taken rr op rs1 rs2); [|done]. f_equal. apply goes. destruct Href as (_ & _ & ->). apply u64_u64.
           ++ destruct Hreach as [Hown|Hfit]; [|done]. destruct (Hme n Hown) as (p & Hp1 & Hp2). destruct Href as (_ & _ & ->).
              rewrite <- (same_away sym sec t st o p v n Hp1 Hp2), Ht. fold ofs. unfold within in Hw. unfold Rela_spec.fits. lia.
      * destruct E5 as (Hc & w & Hbuf & Hmask). rewrite Hc, Hw in Hg. cbn in Hg. injection Hg as <-. pose proof Hc as [[Hz Hrv]%andb_prop Hne]%andb_prop.
        set (r := rela _ _ _). assert (Hof : Rela_model.r_offset r = o) by (apply Hro; rewrite Lw; lia).
        assert (Hfd : Rela_spec.field [r] 0 r = (o, 2%nat)) by (unfold Rela_spec.field; cbn [r rela Rela_model.r_type]; rewrite Hof; f_equal; lia).
        split; [apply (group_one o _ 0 2 r); [rewrite Hfd; f_equal; lia|rewrite Lw; lia|done]|]. rewrite Lw in *. intros b b' Hb Hlb Hlb' Hli n' d Href _ He.
        assert (n' = n) as -> by (destruct Href as [? _]; congruence).
        destruct (one_written _ _ _ _ _ _ _ Hfd Hli Hb) as (w' & Hw' & Hle). rewrite Hle, Hbuf, word_H in *. unfold Rela_proof.new_word in Hw'. change (Rela_model.r_type r) with Rela_model.R_RVC_BRANCH in Hw'. cbv iota zeta in Hw'. change Rela_model.u64 with u64 in Hw'.
        rewrite Hof in Hw'. unfold r in Hw' at 1. rewrite (Hone _ _ _ _ _ d Href) in Hw'.
        apply (cb_written op rs1) in Hw'; [|done|done|by rewrite land_mod16|by apply even_away].
        exists [le 2 w']. split; [cbn [concat]; by rewrite app_nil_r|]. intros rr. cbn [exec]. rewrite (exec1_dec _ _ _ _ Hw'). cbn [next]. replace rs2 with 0 by lia.
        destruct (taken rr op rs1 0); [|done]. f_equal. apply goes. destruct Href as (_ & _ & ->). apply u64_u64.
    + inversion Hst as [|? a last s ? ps' us' Es Hu Hst']; subst. inversion Hst' as [|? a2 last2 s2 ? ps2 us2 Es2 Hu2 Hst2]; subst. inversion Hst2; subst. clear Hst Hst' Hst2. rewrite app_nil_r in Hg.
      destruct (pair_first _ _ _ _ _ _ _ _ _ _ _ H1 H2 Hp Es) as (F1 & F2 & F3 & F4 & F5).
      destruct (pair_second _ _ _ _ _ _ _ _ _ _ _ _ Hv Hp Es2) as (G1 & G2 & G3 & G4 & _).
      assert (L2 : length (buf (new s2)) = 4%nat). { destruct G3 as (_ & _ & _ & L & J). rewrite (j_form_length _ J), L. done. }
      assert (L1 : exists k, length (buf c1) = k /\ (k = 2 \/ k = 4)%nat). { destruct Hp as (_ & P2 & _). exists (length (buf c1)). split; [done|]. rewrite (b_form_length _ _ _ _ P2). destruct (long c1); tauto. }
      destruct L1 as (k & L1 & Hk). rewrite L1 in *.
      unfold bytes_of in *. cbn [mbind list_bind snd] in *. rewrite app_nil_r in *. cbn [pos_ok fst snd] in Hpos. destruct Hpos as (-> & -> & _).
      rewrite app_length, F4, L2 in *.
      assert (Hr1 : refs s = []). { destruct Hp as (P1 & _). unfold rv_step in Es. rewrite P1 in Es. unfold rv_step_b in Es. cbn [vlab] in Es. destruct (_ =? 0); [by injection Es as <-|].
        destruct (long c1); [destruct (within _ 12); by injection Es as <-|]. destruct (negb _); [done|]. destruct (within _ 8); [by injection Es as <-|]. destruct (inverse op); try done; by injection Es as <-. }
      assert (Hr2 : refs s2 = [Unres UJal n (u64 (u64 (st + Z.of_nat (o + k)) - st)) (s32 (vofs v))]).
      { destruct Hp as (_ & _ & P3 & P4 & _). unfold rv_step in Es2. rewrite P3 in Es2. unfold rv_step_j in Es2. rewrite Hv, P4 in Es2. destruct (_ =? 0); [by injection Es2 as <-|]. destruct (within _ _); try done; by injection Es2 as <-. }
      rewrite Hr1, Hr2 in Hg. cbn in Hg. injection Hg as <-. clear Hr1 Hr2.
      set (r := rela _ _ _). assert (Hof : Rela_model.r_offset r = (o + k)%nat) by (cbn; apply (ref_offset0 st (o + k) 0); lia).
      assert (Hfd : Rela_spec.field [r] 0 r = ((o + k)%nat, 4%nat)) by (unfold Rela_spec.field; cbn [r rela Rela_model.r_type]; by rewrite Hof).
      split; [apply (group_one o _ k 4 r); [done|lia|done]|]. intros b b' Hb Hlb Hlb' Hli n' d Href _ He.
      assert (n' = n) as -> by (destruct Href as [? _]; congruence).
      pose proof (window1 _ _ _ _ _ _ _ _ Hfd eq_refl Hli) as Hwin. rewrite Hb in Hwin. rewrite <- F4 in Hwin at 2. rewrite take_app in Hwin.
      destruct Hli as (_ & _ & Hnew). destruct (Hnew 0%nat r eq_refl) as (w' & Hw' & Hle). rewrite Hfd in Hw', Hle. cbn [fst snd] in Hw', Hle.
      unfold Rela_proof.new_word in Hw'. change (Rela_model.r_type r) with Rela_model.R_JAL in Hw'. cbv iota zeta in Hw'. change Rela_model.u64 with u64 in Hw'. rewrite Hof in Hw'. unfold r in Hw' at 1. rewrite (Hone _ _ _ _ _ d Href) in Hw'.
      rewrite Hle in Hwin. rewrite Hwin. exists [buf (new s); le 4 w']. split; [cbn [concat]; by rewrite app_nil_r|]. intros rr.
      assert (Hpast : u64 (u64 (st + Z.of_nat o) + Z.of_nat k + 4) <> 0).
      { rewrite <- Z.add_assoc, u64_u64_l, u64_small; lia. }
      specialize (F5 Hpast). cbn [exec]. rewrite (exec1_dec _ _ _ _ F5). cbn [next]. rewrite taken_inverse, F4.
      assert (Hda : u64 (sec + Z.of_nat (o + k)) = u64 (u64 (sec + Z.of_nat o) + Z.of_nat k)) by (rewrite u64_u64_l; f_equal; lia).
      destruct (taken rr op rs1 rs2); cbn [negb].
      * rewrite Z.eqb_refl, <- Hda. apply (exec_jump rr _ _ d).
        -- apply jal_written in Hw'; [exact Hw'|]. change Rela_model.u64 with u64. rewrite even_s64, Hda.
           destruct (u64_div (u64 (sec + Z.of_nat o) + Z.of_nat k)) as [q ->].
           replace (d - (u64 (sec + Z.of_nat o) + Z.of_nat k - q * 2 ^ 64)) with (d - u64 (sec + Z.of_nat o) - Z.of_nat k + (q * 2 ^ 63) * 2) by lia. rewrite Z.mod_add by done.
           destruct Hk as [-> | ->]; rewrite <- He; [apply even_plus2|apply even_plus4].
        -- destruct Href as (_ & _ & ->). apply u64_u64.
      * rewrite app_length, F4, le_length. set (A := u64 (sec + Z.of_nat o)). replace (A + Z.of_nat (k + 4)) with (A + (Z.of_nat k + 4)) by lia.
        destruct (Z.eqb_spec (u64 (A + (Z.of_nat k + 4))) (u64 (A + Z.of_nat k))) as [E|E]; [|done].
        exfalso. destruct (u64_div (A + (Z.of_nat k + 4))) as [x Hx]. destruct (u64_div (A + Z.of_nat k)) as [y Hy]. lia.
  - destruct HR as ([n Hv] & c' & -> & Hi & Hf).
    inversion Hst as [|? a last s ? ps' us' Es Hu Hst']; subst. inversion Hst'; subst. clear Hst Hst'. rewrite app_nil_r in Hg.
    unfold bytes_of in *. cbn [mbind list_bind snd] in *. rewrite app_nil_r in *. cbn [pos_ok fst snd] in Hpos. destruct Hpos as [Ha _].
    unfold rv_step in Es. rewrite Hi in Es. pose proof Es as Es0. apply (step_j t st a v n) in Es as (E1 & E2 & E3 & E4 & _); [|done..].
    specialize (E4 Hu). pose proof (j_form_length _ E3) as Lw. rewrite E4 in Lw.
    assert (Hr : refs s = [Unres (if long c' then UJal else URvcJump) n (u64 (a - st)) (s32 (vofs v))]).
    { unfold rv_step_j in Es0. rewrite Hv in Es0. destruct (_ =? 0); [by injection Es0 as <-|]. destruct (long c'); destruct (within _ _); try done; by injection Es0 as <-. }
    rewrite Hr in Hg. clear Es0 Hr. subst a. destruct (long c'); cbn in Hg; injection Hg as <-.
    + set (r := rela _ _ _). assert (Hof : Rela_model.r_offset r = o) by (apply Hro; rewrite Lw; lia).
      assert (Hfd : Rela_spec.field [r] 0 r = (o, 4%nat)) by (unfold Rela_spec.field; cbn [r rela Rela_model.r_type]; rewrite Hof; f_equal; lia).
      split; [apply (group_one o _ 0 4 r); [rewrite Hfd; f_equal; lia|rewrite Lw; lia|done]|]. rewrite Lw in *. intros b b' Hb Hlb Hlb' Hli n' d Href He rr.
      assert (n' = n) as -> by (destruct Href as [? _]; congruence).
      destruct (one_written _ _ _ _ _ _ _ Hfd Hli Hb) as (w' & Hw' & ->). unfold Rela_proof.new_word in Hw'. change (Rela_model.r_type r) with Rela_model.R_JAL in Hw'. cbv iota zeta in Hw'. change Rela_model.u64 with u64 in Hw'.
      rewrite Hof in Hw'. unfold r in Hw' at 1. rewrite (Hone _ _ _ _ _ d Href) in Hw'.
      apply exec_jump; [apply jal_written in Hw'; [exact Hw'|by apply even_away]|]. destruct Href as (_ & _ & ->). apply u64_u64.
    + set (r := rela _ _ _). assert (Hof : Rela_model.r_offset r = o) by (apply Hro; rewrite Lw; lia).
      assert (Hfd : Rela_spec.field [r] 0 r = (o, 2%nat)) by (unfold Rela_spec.field; cbn [r rela Rela_model.r_type]; rewrite Hof; f_equal; lia).
      split; [apply (group_one o _ 0 2 r); [rewrite Hfd; f_equal; lia|rewrite Lw; lia|done]|]. rewrite Lw in *. intros b b' Hb Hlb Hlb' Hli n' d Href He rr.
      assert (n' = n) as -> by (destruct Href as [? _]; congruence).
      destruct (one_written _ _ _ _ _ _ _ Hfd Hli Hb) as (w' & Hw' & ->). unfold Rela_proof.new_word in Hw'. change (Rela_model.r_type r) with Rela_model.R_RVC_JUMP in Hw'. cbv iota zeta in Hw'. change Rela_model.u64 with u64 in Hw'.
      rewrite Hof in Hw'. unfold r in Hw' at 1. rewrite (Hone _ _ _ _ _ d Href) in Hw'.
      apply exec_jump; [apply cj_written in Hw'; [exact Hw'|by apply even_away]|]. destruct Href as (_ & _ & ->). apply u64_u64.
  - (* la *) subst cs. inversion Hst as [|? a last s ? ps' us' Es Hu Hst']; subst. inversion Hst'; subst. clear Hst Hst'. rewrite app_nil_r in Hg.
    unfold bytes_of in *. cbn [mbind list_bind snd] in *. rewrite app_nil_r in *. cbn [pos_ok fst snd] in Hpos. destruct Hpos as [-> _].
    unfold rv_step in Es. rewrite Ei in Es. destruct (vlab v) as [n|] eqn:Ev.
    2: { injection Es as <-. cbn in Hg. injection Hg as <-. split; [apply group_nil|]. intros b b' Hb _ _ Hli n' d rd (Hv & _). congruence. }
    destruct last as [hi|]; [|done]. injection Es as <-. cbn [refs new] in *. cbn in Hg. injection Hg as <-.
    destruct Hfr as (rd0 & Hrd0 & Hasm). assert (Hbuf : buf c = W (UTYPE 0 rd0 0x17) ++ W (ITYPE 0 rd0 0 rd0 0x13)) by (cbn in Hasm; injection Hasm as <-; done).
    assert (Lw : length (buf c) = 8%nat) by (by rewrite Hbuf). rewrite Lw in *.
    assert (Oz : u64 (u64 (st + Z.of_nat o) - st) = Z.of_nat o) by (apply (offset_z st o 0); lia).
    assert (Oz4 : u64 (Z.of_nat o + 4) = Z.of_nat (o + 4)) by (rewrite u64_small by lia; lia).
    unfold rela. cbn [uoffset ulabel uadd ukind_of]. rewrite Oz, Oz4, !Nat2Z.id.
    set (r0 := Rela_model.Rela Rela_model.R_PCREL_HI20 _ _). set (r1 := Rela_model.Rela Rela_model.R_RELAX o _). set (r2 := Rela_model.Rela Rela_model.R_PCREL_LO12_I _ _). set (r3 := Rela_model.Rela Rela_model.R_RELAX (o + 4)%nat _).
    set (g := [r0; r1; r2; r3]).
    assert (Hcases : forall j r, g !! j = Some r -> (j = 0%nat /\ r = r0) \/ (j = 1%nat /\ r = r1) \/ (j = 2%nat /\ r = r2) \/ (j = 3%nat /\ r = r3)).
    { intros [|[|[|[|j]]]] r Hj; cbn in Hj; try injection Hj as <-; try done; tauto. }
    assert (Hfd : Rela_spec.field g 0 r0 = (o, 4%nat) /\ Rela_spec.field g 1 r1 = (o, 0%nat) /\ Rela_spec.field g 2 r2 = ((o + 4)%nat, 4%nat) /\ Rela_spec.field g 3 r3 = ((o + 4)%nat, 0%nat)) by done.
    destruct Hfd as (D0 & D1 & D2 & D3). split.
    { split; [|split].
      - intros j r Hj. destruct (Hcases j r Hj) as [[-> ->]|[[-> ->]|[[-> ->]|[-> ->]]]]; cbn; lia.
      - intros j r Hj. destruct (Hcases j r Hj) as [[-> ->]|[[-> ->]|[[-> ->]|[-> ->]]]]; rewrite ?D0, ?D1, ?D2, ?D3; cbn; lia.
      - intros j k r r' Hjk Hj Hk. destruct (Hcases j r Hj) as [[-> ->]|[[-> ->]|[[-> ->]|[-> ->]]]]; destruct (Hcases k r' Hk) as [[-> ->]|[[-> ->]|[[-> ->]|[-> ->]]]];
          rewrite ?D0, ?D1, ?D2, ?D3; unfold Rela_spec.apart; cbn; lia. }
    intros b b' Hb Hlb Hlb' (_ & _ & Hnew) n' d rd Href Hrd Hasm' Haway.
    assert (n' = n) as -> by (destruct Href as [? _]; congruence).
    assert (Htar : Rela_model.r_target r0 = d) by exact (Hone Rela_model.R_PCREL_HI20 n v UPcrelHi 0 d Href).
    assert (Hbuf' : buf c = W (UTYPE 0 rd 0x17) ++ W (ITYPE 0 rd 0 rd 0x13)) by (cbn in Hasm'; injection Hasm' as <-; done).
    destruct (Hnew 0%nat r0 eq_refl) as (w0 & Hw0 & Hle0). destruct (Hnew 2%nat r2 eq_refl) as (w2 & Hw2 & Hle2). rewrite D0 in Hw0, Hle0. rewrite D2 in Hw2, Hle2. cbn [fst snd] in *.
    change 8%nat with (4 + 4)%nat. rewrite slice_split, Hle0, Hle2.
    rewrite (at_window 4 4 o 8 b _ Hb) in Hw2 by lia. replace o with (o + 0)%nat in Hw0 at 1 by lia. rewrite (at_window 4 0 o 8 b _ Hb) in Hw0 by lia.
    rewrite Hbuf' in Hw0, Hw2. change (drop 0 ?x) with x in Hw0. change (drop 4 (W ?x ++ ?y)) with y in Hw2.
    change (word 4 (W ?x ++ W ?y)) with (word 4 (W x)) in Hw0. rewrite word_W in Hw0, Hw2.
    rewrite Z.mod_small in Hw0 by (apply utype_small; done). rewrite Z.mod_small in Hw2 by (apply itype_small; done).
    unfold Rela_proof.new_word in Hw0, Hw2. cbn [r0 r2 Rela_model.r_type Rela_model.r_offset] in Hw0, Hw2. change (g !! 0%nat) with (Some r0) in Hw2. cbn [r0 Rela_model.r_type Rela_model.r_offset] in Hw2. rewrite decide_True in Hw2 by done.
    fold r0 in Hw0, Hw2. rewrite Htar in Hw0, Hw2. change Rela_model.u64 with u64 in Hw0, Hw2.
    destruct (la_written _ _ rd _ _ _ _ Hrd eq_refl eq_refl Hw0 Hw2 Haway) as (hi' & lo & K1 & K2 & K3). exists hi', lo. split.
    + apply Rv_proof.decs_decodes. apply Rv_proof.decs_cons; [done|]. by apply Rv_proof.decs_one.
    + rewrite <- Z.add_assoc, K3. apply goes. destruct Href as (_ & _ & ->). apply u64_u64.
  - (* call *) subst cs. inversion Hst as [|? a last s ? ps' us' Es Hu Hst']; subst. inversion Hst'; subst. clear Hst Hst'. rewrite app_nil_r in Hg.
    unfold bytes_of in *. cbn [mbind list_bind snd] in *. rewrite app_nil_r in *. cbn [pos_ok fst snd] in Hpos. destruct Hpos as [-> _].
    unfold rv_step in Es. rewrite Ei in Es. destruct (vlab v) as [n|] eqn:Ev.
    2: { injection Es as <-. cbn in Hg. injection Hg as <-. split; [apply group_nil|]. intros b b' Hb _ _ Hli n' d (Hv & _). congruence. }
    injection Es as <-. cbn [refs new] in *. cbn in Hg. injection Hg as <-.
    assert (Lw : length (buf c) = 8%nat) by (by injection Hfr as <-). rewrite Lw in *.
    assert (Oz : u64 (u64 (st + Z.of_nat o) - st) = Z.of_nat o) by (apply (offset_z st o 0); lia).
    unfold rela. cbn [uoffset ulabel uadd ukind_of]. rewrite Oz, !Nat2Z.id.
    set (r0 := Rela_model.Rela Rela_model.R_CALL _ _). set (r1 := Rela_model.Rela Rela_model.R_RELAX o _). set (g := [r0; r1]).
    assert (Hcases : forall j r, g !! j = Some r -> (j = 0%nat /\ r = r0) \/ (j = 1%nat /\ r = r1)).
    { intros [|[|j]] r Hj; cbn in Hj; try injection Hj as <-; try done; tauto. }
    assert (Hfd : Rela_spec.field g 0 r0 = (o, 4%nat) /\ Rela_spec.field g 1 r1 = ((o + 4)%nat, 4%nat)) by done.
    destruct Hfd as (D0 & D1). split.
    { split; [|split].
      - intros j r Hj. destruct (Hcases j r Hj) as [[-> ->]|[-> ->]]; cbn; lia.
      - intros j r Hj. destruct (Hcases j r Hj) as [[-> ->]|[-> ->]]; rewrite ?D0, ?D1; cbn; lia.
      - intros j k r r' Hjk Hj Hk. destruct (Hcases j r Hj) as [[-> ->]|[-> ->]]; destruct (Hcases k r' Hk) as [[-> ->]|[-> ->]];
          rewrite ?D0, ?D1; unfold Rela_spec.apart; cbn; lia. }
    intros b b' Hb Hlb Hlb' (_ & _ & Hnew) n' d Href He.
    assert (n' = n) as -> by (destruct Href as [? _]; congruence).
    assert (Htar : Rela_model.r_target r0 = d) by exact (Hone Rela_model.R_CALL n v UCall 0 d Href).
    destruct (Hnew 0%nat r0 eq_refl) as (w0 & Hw0 & Hle0). destruct (Hnew 1%nat r1 eq_refl) as (w1 & Hw1 & Hle1). rewrite D0 in Hw0, Hle0. rewrite D1 in Hw1, Hle1. cbn [fst snd] in *.
    change 8%nat with (4 + 4)%nat. rewrite slice_split, Hle0, Hle1.
    unfold Rela_proof.new_word in Hw0, Hw1. cbn [r0 r1 Rela_model.r_type Rela_model.r_offset] in Hw0, Hw1. injection Hw1 as <-.
    fold r0 in Hw0. rewrite Htar in Hw0. change Rela_model.u64 with u64 in Hw0. apply call_written in Hw0; [|by apply even_away].
    eexists. split.
    + apply Rv_proof.decs_decodes. apply Rv_proof.decs_cons; [exact Hw0|]. apply Rv_proof.decs_one, nop_written.
    + apply goes. destruct Href as (_ & _ & ->). apply u64_u64.
  - subst cs. inversion Hst as [|? a last s ? ps' us' Es Hu Hst']; subst. inversion Hst'; subst. clear Hst Hst'. rewrite app_nil_r in Hg.
    unfold bytes_of in *. cbn [mbind list_bind snd] in *. rewrite app_nil_r in *. unfold rv_step in Es. rewrite Ei in Es. injection Es as <-. cbn in Hg. injection Hg as <-.
    split; [apply group_nil|]. intros b b' Hb _ _ Hli. by rewrite (unlinked _ _ _ _ _ Hli).
Qed.

Theorem rv_refs sym sec fuel a ss t ss' t' us k s0 s u b relas b' :
  parsed rv_fresh ss t -> settle rv_step fuel a ss t = Done ss' t' us ->
  ss !! k = Some s0 -> ss' !! k = Some s -> us !! k = Some u -> bss s = false ->
  emit s = Some (b, 0) -> start s + Z.of_nat (length b) < 2 ^ 64 -> Rela_spec.bytes_ok b ->
  (forall c, ICode c ∈ items s0 -> rv_words t' c) -> exprs_ok (items s0) -> own_labels sym sec (items s) ->
  mapM (rv_rela sym) u = Some relas -> Rela_model.apply_relas sec relas b = Rela_model.Ok (b', 0%nat) ->
  loaded (piece sym sec (rv_image sym (fun n => n ∈ labels (items s0)))) (u64 sec) (items s0) b'.
Proof.
  intros Hp E Hk0 Hk Hu Hb He Hl Hbo Hw Hx Ho Hrel Happ.
  refine (refs_image rv_step rv_R rv_fresh sym sec (rv_rela sym) (fun own _ => rv_image sym own) rv_words fuel a ss t ss' t' us k s0 s u b relas b' rv_good rv_fresh_R _ _ _ Hp E Hk0 Hk Hu Hb He Hl Hbo Hw Hx Ho Hrel Happ).
  - intros u0 r Hk' Hr. unfold rv_rela in Hr. rewrite Hk' in Hr. injection Hr as <-. cbn. by split; [right; right|].
  - intros u0 r Hr. unfold rv_rela in Hr. destruct (ukind_of u0); try done; injection Hr as <-; apply u64_range.
  - intros t0 st own Hme. by apply rv_code.
Qed.
