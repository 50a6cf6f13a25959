(** What the assembled RISC-V code does. *)
From stdpp Require Import base list numbers option.
From Verif Require Import As.Rv_model As.Rv_spec As.Rv_proof As.Rv_word_proof.
From Coq Require Import Lia ZifyBool.
Open Scope Z_scope.
Ltac Zify.zify_post_hook ::= Z.to_euclidean_division_equations.

(** ** Arithmetic *)
Lemma u64_small x : 0 <= x < 2 ^ 64 -> u64 x = x.
Proof. intros. unfold u64. by apply Z.mod_small. Qed.
Lemma u64_range x : 0 <= u64 x < 2 ^ 64.
Proof. unfold u64. apply Z.mod_pos_bound. lia. Qed.
Lemma u64_add_l a b : u64 (u64 a + b) = u64 (a + b).
Proof. unfold u64. apply Zplus_mod_idemp_l. Qed.
Lemma u64_add_r a b : u64 (a + u64 b) = u64 (a + b).
Proof. unfold u64. apply Zplus_mod_idemp_r. Qed.
Lemma u64_mul_l a b : u64 (u64 a * b) = u64 (a * b).
Proof. unfold u64. apply Zmult_mod_idemp_l. Qed.
Lemma u32_u64 a : u32 (u64 a) = u32 a.
Proof. unfold u32, u64. rewrite <- Znumtheory.Zmod_div_mod; [done|lia|lia|]. by exists (2 ^ 32). Qed.
Lemma u32_add_r a b : u32 (a + u64 b) = u32 (a + b).
Proof. unfold u32 at 1. rewrite Zplus_mod. fold (u32 (u64 b)). rewrite u32_u64.
  unfold u32. by rewrite <- Zplus_mod. Qed.
Lemma u32_add_l a b : u32 (u64 a + b) = u32 (a + b).
Proof. rewrite Z.add_comm, u32_add_r, Z.add_comm. done. Qed.

Lemma sext_add n x : 0 < n -> 0 <= x < 2 ^ n -> sext n x = x \/ sext n x = x - 2 ^ n.
Proof. intros. unfold sext. destruct (x <? _); auto. Qed.

Lemma alu3_comm o a b : (match o with ADD | ADDW | AND | OR | XOR => True | _ => False end) ->
  alu3 o a b = alu3 o b a.
Proof.
  destruct o; intros []; cbn [alu3]; rewrite ?(Z.add_comm a b); try reflexivity;
    first [apply Z.land_comm|apply Z.lor_comm|apply Z.lxor_comm].
Qed.

Lemma wr_id r n : forall m, wr r n (r n) m = r m.
Proof.
  intros m. unfold wr. destruct (Z.eqb_spec m n), (Z.eqb_spec n 0); cbn; congruence.
Qed.
Lemma wr_wr r n v v' : forall m, wr (wr r n v) n v' m = wr r n v' m.
Proof. intros m. unfold wr. destruct ((m =? n) && negb (n =? 0)); done. Qed.
Lemma wr_eq r n v : n <> 0 -> wr r n v n = v.
Proof. intros. unfold wr. rewrite Z.eqb_refl. destruct (Z.eqb_spec n 0); done. Qed.
Lemma wr_ext r r' n v : (forall m, r m = r' m) -> forall m, wr r n v m = wr r' n v m.
Proof. intros E m. unfold wr. destruct (_ && _); auto. Qed.
Lemma wr_zero r v : forall m, wr r 0 v m = r m.
Proof. intros m. unfold wr. by rewrite andb_false_r. Qed.

(** One decoded instruction that computes the right value. *)
Lemma one_right i bs b rd v :
  asm i = Some bs -> dec1 bs b -> stands_for i = None ->
  (forall r, regs_ok r -> computes i r = Some (rd r, v r)) ->
  (forall r, regs_ok r -> exists r', step r b = Some r' /\ forall n, r' n = wr r (rd r) (v r) n) ->
  assembled_right i.
Proof.
  intros Ha Hd Hs Hc Hb. exists bs, [b]. split; [done|].
  split; [by apply decs_decodes, decs_one|]. rewrite Hs. intros r Hr.
  destruct (Hb r Hr) as (r' & E & Hn). exists (rd r), (v r), r'.
  split; [by apply Hc|]. cbn [run]. by rewrite E.
Qed.

Lemma simple_right i bs b :
  asm i = Some bs -> dec1 bs b -> stands_for i = Some [b] -> assembled_right i.
Proof.
  intros Ha Hd Hs. exists bs, [b]. split; [done|].
  split; [by apply decs_decodes, decs_one|]. by rewrite Hs.
Qed.

Lemma is_rvc_reg_spec r : is_rvc_reg r = true <-> 8 <= r < 16.
Proof. unfold is_rvc_reg. lia. Qed.

(** *** Three registers *)
Ltac use3 K a b c :=
  match goal with |- assembled_right (I3 ?o _ _ _) => apply (K (BR o a b c)) end.

Lemma right_3 o rd rs1 rs2 : reg_ok rd -> reg_ok rs1 -> reg_ok rs2 ->
  ~ troublesome (I3 o rd rs1 rs2) -> assembled_right (I3 o rd rs1 rs2).
Proof.
  intros Hd H1 H2 Ht.
  assert (K : forall b, dec1 (asm_3r o rd rs1 rs2) b ->
    (b = BR o rd rs1 rs2 \/
     (b = BR o rd rs2 rs1 /\ match o with ADD | ADDW | AND | OR | XOR => True | _ => False end)) ->
    assembled_right (I3 o rd rs1 rs2)).
  { intros b Hb Hc.
    apply (one_right (I3 o rd rs1 rs2) _ b (fun _ => rd) (fun r => alu3 o (r rs1) (r rs2)) eq_refl Hb eq_refl).
    - done.
    - intros r _. destruct Hc as [->| [-> Hc]]; cbn [step]; eexists; (split; [reflexivity|]); [done|].
      intros n. by rewrite (alu3_comm o) by done. }
  unfold asm_3r in K.
  assert (HA : rd = rs1 -> o = ADD -> 1 <= rs2 < 32).
  { intros -> ->. cbn in Ht. unfold reg_ok in *. lia. }
  assert (HB : rd = rs2 -> o = ADD -> 1 <= rs1 < 32).
  { intros -> ->. cbn in Ht. unfold reg_ok in *. lia. }
  destruct (Z.eqb_spec rd rs1) as [<-|Hne1].
  - destruct (is_rvc_reg rd && is_rvc_reg rs2) eqn:E.
    + apply andb_true_iff in E as [E1%is_rvc_reg_spec E2%is_rvc_reg_spec].
      destruct o; (use3 K rd rd rs2; [|by left]);
        first [apply dec_C_ADD; [done|lia]
              |apply dec_C_alu; [vm_compute; reflexivity|done|done]
              |by apply dec_R].
    + destruct o; (use3 K rd rd rs2; [|by left]);
        first [apply dec_C_ADD; [done|by apply HA]|by apply dec_R].
  - destruct (Z.eqb_spec rd rs2) as [<-|Hne2].
    + destruct (is_rvc_reg rd && is_rvc_reg rs1) eqn:E.
      * apply andb_true_iff in E as [E1%is_rvc_reg_spec E2%is_rvc_reg_spec].
        destruct o;
          first [use3 K rd rd rs1; [first
                   [apply dec_C_ADD; [done|lia]
                   |apply dec_C_alu; [vm_compute; reflexivity|done|done]]|by right]
                |use3 K rd rs1 rd; [by apply dec_R|by left]].
      * destruct o;
          first [use3 K rd rd rs1; [apply dec_C_ADD; [done|by apply HB]|by right]
                |use3 K rd rs1 rd; [by apply dec_R|by left]].
    + destruct o; (use3 K rd rs1 rs2; [by apply dec_R|by left]).
Qed.

(** *** Moves *)
Lemma dec_mv rd rs : reg_ok rd -> reg_ok rs ->
  exists b, dec1 (asm_mv rd rs) b /\
    forall r, regs_ok r -> exists r', step r b = Some r' /\ forall n, r' n = wr r rd (r rs) n.
Proof.
  intros Hd Hs. unfold asm_mv. destruct (Z.eqb_spec rs 0) as [->|Hne].
  - exists (BI ADDI rd 0 0). split; [apply dec_C_LI; [done|lia]|].
    intros r [Hr H0]. cbn [step]. eexists; split; [reflexivity|]. intros n.
    unfold alu2i; cbn [alu3]. by rewrite H0.
  - exists (BR ADD rd 0 rs). split; [apply dec_C_MV; unfold reg_ok in *; lia|].
    intros r [Hr H0]. cbn [step]. eexists; split; [reflexivity|]. intros n.
    cbn [alu3]. rewrite H0, Z.add_0_l, u64_small by apply Hr. done.
Qed.

(** *** Register and immediate *)
Lemma right_2i o rd rs imm : operands_ok (I2i o rd rs imm) ->
  ~ troublesome (I2i o rd rs imm) -> assembled_right (I2i o rd rs imm).
Proof.
  intros (Hd & Hs & Hi) Ht.
  destruct (bool_decide (o = ADDI) && (imm =? 0)) eqn:E0.
  { apply andb_true_iff in E0 as [->%bool_decide_eq_true E0].
    assert (imm = 0) as -> by lia.
    assert (Hv : forall r, regs_ok r -> alu2i ADDI (r rs) 0 = r rs).
    { intros r [Hr _]. unfold alu2i; cbn [alu3]. change (u64 0) with 0.
      by rewrite Z.add_0_r, u64_small by apply Hr. }
    assert (Easm : asm (I2i ADDI rd rs 0) = Some (if rd =? rs then [] else asm_mv rd rs)) by done.
    destruct (Z.eqb_spec rd rs) as [<-|Hne].
    - exists [], []. split; [exact Easm|]. split; [done|]. intros r Hr.
      eexists _, _, r. split; [reflexivity|]. split; [done|]. intros n.
      by rewrite Hv, wr_id by done.
    - destruct (dec_mv rd rs Hd Hs) as (b & Hb & Hstep).
      apply (one_right _ (asm_mv rd rs) b (fun _ => rd) (fun r => alu2i ADDI (r rs) 0)); try done.
      + intros r Hr. destruct (Hstep r Hr) as (r' & E & Hn). exists r'. split; [done|].
        intros n. by rewrite Hn, Hv. }
  assert (K : forall c, asm_2ri o rd rs imm = Some c -> dec1 c (BI o rd rs imm) ->
    assembled_right (I2i o rd rs imm)).
  { intros c Hc Hb.
    apply (one_right (I2i o rd rs imm) c _ (fun _ => rd) (fun r => alu2i o (r rs) imm) Hc Hb eq_refl).
    - done.
    - intros r _. cbn [step]. eexists; (split; [reflexivity|]); done. }
  unfold asm_2ri in K. rewrite E0 in K.
  set (s1 := if (rd =? rs) && is_im6 imm then _ else None) in K.
  set (s2 := if (rd =? rs) && is_uim6 imm then _ else None) in K.
  set (s3 := if (rd =? rs) && bool_decide (o = ADDI) && (rd =? 2)
                 && is_im6 (Z.shiftr imm 4) && (Z.land imm 0xf =? 0)
                 && negb (imm =? 0)
              then _ else None) in K.
  destruct s1 as [c|] eqn:E1.
  { apply (K c eq_refl). unfold s1 in E1.
    destruct (Z.eqb_spec rd rs) as [<-|]; [|done]. unfold is_im6 in E1.
    destruct ((imm <=? 31) && (-32 <=? imm)) eqn:E6; [|done]. cbn [andb] in E1.
    assert (H6 : -32 <= imm < 32) by lia.
    destruct o; try done.
    - destruct (imm =? 0); [done|]. injection E1 as <-. by apply dec_C_ADDI.
    - injection E1 as <-. apply dec_C_ADDIW; [|done]. cbn in Ht. unfold reg_ok in *. lia.
    - destruct (is_rvc_reg rd) eqn:Er; [|done]. injection E1 as <-.
      apply is_rvc_reg_spec in Er. by apply dec_C_ANDI. }
  destruct s2 as [c|] eqn:E2.
  { apply (K c eq_refl). unfold s2 in E2.
    destruct (Z.eqb_spec rd rs) as [<-|]; [|done].
    destruct (is_uim6 imm); [|done]. cbn [andb] in E2.
    unfold imm_ok in Hi.
    destruct o; cbn [is_shiftw is_shift] in Hi; try done.
    - destruct (negb (rd =? 0) && negb (imm =? 0)); [|done]. injection E2 as <-.
      by apply dec_C_SLLI.
    - destruct (is_rvc_reg rd) eqn:Er; [|done]. injection E2 as <-.
      apply is_rvc_reg_spec in Er. by apply dec_C_SRLI.
    - destruct (is_rvc_reg rd) eqn:Er; [|done]. injection E2 as <-.
      apply is_rvc_reg_spec in Er. by apply dec_C_SRAI. }
  destruct s3 as [c|] eqn:E3.
  { apply (K c eq_refl). unfold s3 in E3.
    destruct (Z.eqb_spec rd rs) as [<-|]; [|done].
    destruct (bool_decide_reflect (o = ADDI)) as [->|]; [|done].
    destruct (Z.eqb_spec rd 2) as [->|]; [|done].
    destruct (is_im6 (Z.shiftr imm 4)) eqn:Es; [|done].
    destruct (Z.eqb_spec (Z.land imm 15) 0); [|done].
    destruct (Z.eqb_spec imm 0); [done|]. injection E3 as <-.
    unfold is_im6 in Es. apply dec_C_ADDI16SP; [lia|done|done]. }
  clear s1 s2 s3 E1 E2 E3.
  apply (K (w_op2i o rd rs imm)); [|by apply dec_I].
  unfold imm_ok, fits12 in Hi. destruct o; cbn [is_shiftw is_shift] in Hi;
    try match goal with |- context [bool_decide ?P] =>
      let b := eval vm_compute in (bool_decide P) in change (bool_decide P) with b end;
    match goal with |- (if ?c then _ else _) = _ => replace c with false by lia end; done.
Qed.

(** *** Pseudo instructions *)
Lemma two_right i b1 b2 bs1 bs2 rd v :
  asm i = Some (bs1 ++ bs2) -> dec1 bs1 b1 -> dec1 bs2 b2 -> stands_for i = None ->
  (forall r, regs_ok r -> computes i r = Some (rd, v r)) ->
  (forall r, regs_ok r -> exists r', run r [b1; b2] = Some r' /\ forall n, r' n = wr r rd (v r) n) ->
  assembled_right i.
Proof.
  intros Ha H1 H2 Hs Hc Hb. exists (bs1 ++ bs2), [b1; b2]. split; [done|].
  split; [apply decs_decodes, decs_cons; [done|by apply decs_one]|]. rewrite Hs. intros r Hr.
  destruct (Hb r Hr) as (r' & E & Hn). exists rd, (v r), r'. by rewrite Hc.
Qed.

(** A shift left followed by a shift right by the same amount. *)
Lemma shift2 (o : op2i) (k : Z) (rc : Z -> Z -> list Z) rd rs n (v : Z -> Z) i :
  (o = SRAI /\ rc = C_SRAI) \/ (o = SRLI /\ rc = C_SRLI) ->
  0 < n < 64 -> reg_ok rd -> reg_ok rs ->
  asm i = Some (P_shift2 rc (fun rd n => w_op2i o rd rd n) rd rs n) ->
  stands_for i = None ->
  (forall r, computes i r = Some (rd, v (r rs))) ->
  (forall x, 0 <= x < 2 ^ 64 -> alu2i o (alu2i SLLI x n) n = v x) ->
  assembled_right i.
Proof.
  intros Ho Hn Hd Hs Ha Hst Hc Hv. unfold P_shift2 in Ha.
  apply (two_right i (BI SLLI rd rs n) (BI o rd rd n) _ _ rd (fun r => v (r rs)) Ha);
    [..|done|done|].
  - destruct (Z.eqb_spec rd rs) as [<-|]; [apply dec_C_SLLI; [done|lia]|].
    apply dec_I; [done|done|]. cbn. lia.
  - destruct (is_rvc_reg rd) eqn:E.
    + apply is_rvc_reg_spec in E.
      destruct Ho as [[-> ->]|[-> ->]]; [apply dec_C_SRAI|apply dec_C_SRLI]; lia.
    + apply dec_I; [done|done|]. destruct Ho as [[-> _]|[-> _]]; cbn; lia.
  - intros r [Hr H0]. cbn [run step]. eexists; split; [reflexivity|].
    destruct (Z.eq_dec rd 0) as [->|Hne].
    + intros m. by rewrite !wr_zero.
    + intros m. rewrite wr_eq by done. rewrite wr_wr. by rewrite Hv by apply Hr.
Qed.

Lemma sll_val x n : 0 <= x < 2 ^ 64 -> 0 <= n < 64 -> alu2i SLLI x n = u64 (x * 2 ^ n).
Proof.
  intros. unfold alu2i; cbn [alu3]. rewrite (u64_small n) by lia.
  by rewrite (Z.mod_small n 64) by lia.
Qed.
Lemma srl_val x n : 0 <= n < 64 -> alu2i SRLI x n = x / 2 ^ n.
Proof.
  intros. unfold alu2i; cbn [alu3]. rewrite (u64_small n) by lia.
  by rewrite (Z.mod_small n 64) by lia.
Qed.
Lemma sra_val x n : 0 <= n < 64 -> alu2i SRAI x n = u64 (s64 x / 2 ^ n).
Proof.
  intros. unfold alu2i; cbn [alu3]. rewrite (u64_small n) by lia.
  by rewrite (Z.mod_small n 64) by lia.
Qed.

(** (x * 2^n mod 2^64) keeps the low 64 - n bits, moved up. *)
Lemma shl_low x n : 0 < n < 64 -> u64 (x * 2 ^ n) = x mod 2 ^ (64 - n) * 2 ^ n.
Proof.
  intros. unfold u64. replace (2 ^ 64) with (2 ^ (64 - n) * 2 ^ n).
  - by rewrite Zmult_mod_distr_r.
  - rewrite <- Z.pow_add_r by lia. f_equal. lia.
Qed.

Lemma zext_val x n : 0 <= x < 2 ^ 64 -> 0 < n < 64 ->
  alu2i SRLI (alu2i SLLI x n) n = x mod 2 ^ (64 - n).
Proof.
  intros. rewrite sll_val, srl_val, shl_low by lia. apply Z.div_mul.
  assert (0 < 2 ^ n) by (apply Z.pow_pos_nonneg; lia). lia.
Qed.

Lemma sext_val x n : 0 <= x < 2 ^ 64 -> 0 < n < 64 ->
  alu2i SRAI (alu2i SLLI x n) n = u64 (sext (64 - n) (x mod 2 ^ (64 - n))).
Proof.
  intros Hx Hn. rewrite sll_val, sra_val, shl_low by lia. f_equal.
  set (m := x mod 2 ^ (64 - n)).
  assert (0 < 2 ^ n) by (apply Z.pow_pos_nonneg; lia).
  assert (0 < 2 ^ (64 - n)) by (apply Z.pow_pos_nonneg; lia).
  assert (Hm : 0 <= m < 2 ^ (64 - n)) by (apply Z.mod_pos_bound; lia).
  assert (E : 2 ^ 64 = 2 ^ (64 - n) * 2 ^ n) by (rewrite <- Z.pow_add_r by lia; f_equal; lia).
  assert (E2 : 2 ^ (64 - 1) = 2 ^ (64 - n - 1) * 2 ^ n) by (rewrite <- Z.pow_add_r by lia; f_equal; lia).
  unfold s64. rewrite u64_small by (rewrite E; nia).
  unfold sext. rewrite E2, E.
  assert (Hlt : (m * 2 ^ n <? 2 ^ (64 - n - 1) * 2 ^ n) = (m <? 2 ^ (64 - n - 1))).
  { destruct (Z.ltb_spec m (2 ^ (64 - n - 1))); [apply Z.ltb_lt; nia|apply Z.ltb_ge; nia]. }
  rewrite Hlt. destruct (m <? 2 ^ (64 - n - 1)).
  - rewrite Z.div_mul by lia. done.
  - replace (m * 2 ^ n - 2 ^ (64 - n) * 2 ^ n) with ((m - 2 ^ (64 - n)) * 2 ^ n) by lia.
    rewrite Z.div_mul by lia. done.
Qed.

Lemma right_2 o rd rs : reg_ok rd -> reg_ok rs -> ~ troublesome (I2 o rd rs) ->
  assembled_right (I2 o rd rs).
Proof.
  intros Hd Hs Ht.
  assert (H0ok : reg_ok 0) by (unfold reg_ok; lia).
  assert (K1 : forall b v, dec1 (asm_2r o rd rs) b ->
     (forall r, computes (I2 o rd rs) r = Some (rd, v (r rs))) ->
     (forall r, regs_ok r -> step r b = Some (wr r rd (v (r rs)))) ->
     assembled_right (I2 o rd rs)).
  { intros b v Hb Hc Hst.
    apply (one_right (I2 o rd rs) _ b (fun _ => rd) (fun r => v (r rs)) eq_refl Hb eq_refl).
    - intros. apply Hc.
    - intros r Hr. eexists. split; [by apply Hst|]. done. }
  destruct o; cbn [asm_2r] in K1.
  - (* NEG *)
    apply (K1 (BR SUB rd 0 rs) (fun x => u64 (- x))); [by apply dec_R|done|].
    intros r [_ H0]. cbn [step alu3]. by rewrite H0, Z.sub_0_l.
  - (* NOT *)
    apply (K1 (BI XORI rd rs (-1)) (fun x => 2 ^ 64 - 1 - x));
      [apply dec_I; [done|done|cbn; unfold fits12; lia]|done|].
    intros r [Hr _]. cbn [step]. unfold alu2i; cbn [alu3]. do 2 f_equal.
    specialize (Hr rs). generalize dependent (r rs). intros x Hx.
    change (u64 (-1)) with (Z.ones 64).
    apply Z.bits_inj'; intros n Hn. rewrite Z.lxor_spec.
    replace (2 ^ 64 - 1 - x) with (Z.ones 64 - x) by (rewrite Z.ones_equiv; lia).
    rewrite Z.sub_nocarry_ldiff.
    + rewrite Z.ldiff_spec. destruct (Z.lt_ge_cases n 64).
      * rewrite Z.ones_spec_low by lia. by destruct (Z.testbit x n).
      * rewrite Z.ones_spec_high by lia. rewrite <- (Z.mod_small x (2 ^ 64)) by done.
        by rewrite Z.mod_pow2_bits_high by lia.
    + apply Z.bits_inj'; intros m Hm. rewrite Z.ldiff_spec, Z.bits_0.
      destruct (Z.lt_ge_cases m 64).
      * rewrite Z.ones_spec_low by lia. by rewrite andb_false_r.
      * rewrite <- (Z.mod_small x (2 ^ 64)) by done. by rewrite Z.mod_pow2_bits_high by lia.
  - apply (shift2 SRAI 0 C_SRAI rd rs 56 (fun x => u64 (sext 8 (x mod 2 ^ 8)))); [by left|lia|done|done|done|done|done|].
    intros x Hx. by rewrite sext_val by lia.
  - apply (shift2 SRAI 0 C_SRAI rd rs 48 (fun x => u64 (sext 16 (x mod 2 ^ 16)))); [by left|lia|done|done|done|done|done|].
    intros x Hx. by rewrite sext_val by lia.
  - (* SEXT_W *)
    apply (K1 (BI ADDIW rd rs 0) (fun x => u64 (sext 32 (x mod 2 ^ 32)))); [|done|].
    + destruct (Z.eqb_spec rd rs) as [<-|].
      * apply dec_C_ADDIW; [|lia]. cbn in Ht. unfold reg_ok in *. lia.
      * apply dec_I; [done|done|cbn; unfold fits12; lia].
    + intros r _. cbn [step]. unfold alu2i; cbn [alu3]. change (u64 0) with 0.
      rewrite Z.add_0_r. reflexivity.
  - (* ZEXT_B *)
    apply (K1 (BI ANDI rd rs 255) (fun x => x mod 2 ^ 8));
      [apply dec_I; [done|done|cbn; unfold fits12; lia]|done|].
    intros r _. cbn [step]. unfold alu2i; cbn [alu3]. change (u64 255) with (Z.ones 8).
    by rewrite Z.land_ones by lia.
  - apply (shift2 SRLI 0 C_SRLI rd rs 48 (fun x => x mod 2 ^ 16)); [by right|lia|done|done|done|done|done|].
    intros x Hx. by rewrite zext_val by lia.
  - apply (shift2 SRLI 0 C_SRLI rd rs 32 (fun x => x mod 2 ^ 32)); [by right|lia|done|done|done|done|done|].
    intros x Hx. by rewrite zext_val by lia.
  - (* SEQZ *)
    apply (K1 (BI SLTIU rd rs 1) (fun x => b2z (x =? 0)));
      [apply dec_I; [done|done|cbn; unfold fits12; lia]|done|].
    intros r [Hr _]. cbn [step]. unfold alu2i; cbn [alu3]. change (u64 1) with 1.
    do 3 f_equal. specialize (Hr rs). lia.
  - (* SNEZ *)
    apply (K1 (BR SLTU rd 0 rs) (fun x => b2z (negb (x =? 0)))); [by apply dec_R|done|].
    intros r [Hr H0]. cbn [step alu3]. rewrite H0. do 3 f_equal. specialize (Hr rs). lia.
  - (* SLTZ *)
    apply (K1 (BR SLT rd rs 0) (fun x => b2z (s64 x <? 0))); [by apply dec_R|done|].
    intros r [Hr H0]. cbn [step alu3]. by rewrite H0.
  - (* SGTZ *)
    apply (K1 (BR SLT rd 0 rs) (fun x => b2z (0 <? s64 x))); [by apply dec_R|done|].
    intros r [Hr H0]. cbn [step alu3]. by rewrite H0.
Qed.

(** *** Constants *)
Lemma run_app r l l' : run r (l ++ l') = match run r l with Some r' => run r' l' | None => None end.
Proof. revert r. induction l as [|b l IH]; intros r; [done|]. cbn. destruct (step r b); [apply IH|done]. Qed.

Lemma H_len h : length (H h) = 2%nat. Proof. done. Qed.
Lemma W_len w : length (W w) = 4%nat. Proof. done. Qed.
Lemma w_op2i_len o a b c : length (w_op2i o a b c) = 4%nat. Proof. by destruct o. Qed.

(** The code [c] puts [imm] into [rd]. *)
Definition loads (rd imm : Z) (c : list Z) : Prop :=
  exists l, decs c l /\ forall r, regs_ok r -> exists r', run r l = Some r' /\
    forall n, r' n = wr r rd (u64 imm) n.

Lemma alu_ext r r' b : (forall n, r n = r' n) -> forall q, step r b = Some q ->
  exists q', step r' b = Some q' /\ forall n, q n = q' n.
Proof.
  intros E q Hq. destruct b; cbn [step] in *; try done; injection Hq as <-;
    (eexists; split; [reflexivity|]); intros n; rewrite ?E; by apply wr_ext.
Qed.

Lemma li_small rd imm : reg_ok rd -> -2048 <= imm < 2048 ->
  loads rd imm (if is_im6 imm then C_LI rd imm else w_op2i ADDI rd 0 imm).
Proof.
  intros Hd Hi. exists [BI ADDI rd 0 imm]. split.
  - apply decs_one. destruct (is_im6 imm) eqn:E.
    + unfold is_im6 in E. apply dec_C_LI; [done|lia].
    + apply dec_I; [done|unfold reg_ok; lia|]. unfold imm_ok; cbn. unfold fits12. lia.
  - intros r [Hr H0]. cbn [run step]. eexists; split; [reflexivity|]. intros n.
    unfold alu2i; cbn [alu3]. rewrite H0, Z.add_0_l.
    by rewrite (u64_small (u64 imm)) by apply u64_range.
Qed.

Lemma enum2 (P : Z -> Z -> bool) lo1 n1 lo2 n2 :
  all lo1 n1 (fun a => all lo2 n2 (fun b => P a b)) = true ->
  forall a b, lo1 <= a < lo1 + n1 -> lo2 <= b < lo2 + n2 -> P a b = true.
Proof. intros H a b Ha Hb. exact (all_spec _ _ _ (all_spec _ _ _ H a Ha) b Hb). Qed.

Lemma dec_C_LUI rd imm : 1 <= rd < 32 -> rd <> 2 -> -32 <= imm / 4096 < 32 -> imm / 4096 <> 0 ->
  dec1 (C_LUI rd imm) (BLui rd (imm / 4096 * 4096)).
Proof.
  intros Hd H2 Hi H0.
  assert (Hw : C_LUI rd imm = C_LUI rd (imm / 4096 * 4096)).
  { unfold C_LUI. rewrite !IMM_mod by lia.
    change (2 ^ (17 - 17 + 1)) with 2. change (2 ^ (16 - 12 + 1)) with 32.
    change (2 ^ 17) with 131072. change (2 ^ 12) with 4096.
    replace (imm / 4096 * 4096 / 131072) with (imm / 131072) by lia.
    by replace (imm / 4096 * 4096 / 4096) with (imm / 4096) by lia. }
  rewrite Hw. revert Hi H0. generalize (imm / 4096). intros k Hi H0.
  pose proof (enum2 (fun a k => (a =? 2) || (k =? 0) ||
     chk16 (C_LUI a (k * 4096)) (BLui a (k * 4096))) 1 31 (-32) 64
     ltac:(vm_compute; reflexivity) rd k ltac:(lia) ltac:(lia)) as H3.
  cbv beta in H3.
  destruct (Z.eqb_spec rd 2); [done|]. destruct (Z.eqb_spec k 0); [done|].
  cbn [orb] in H3. by apply chk16_dec1.
Qed.

Lemma land_fff imm : Z.land imm 0xfff = imm mod 4096.
Proof. change 0xfff with (Z.ones 12). by rewrite Z.land_ones by lia. Qed.

Lemma li_32 rd imm : 1 <= rd < 32 -> rd <> 2 -> - 2 ^ 31 <= imm < 2 ^ 31 -> ~ (-2048 <= imm < 2048) ->
  let l := imm mod 4096 in
  let l' := if 0x800 <=? l then l - 0x1000 else l in
  let imm' := if 0x800 <=? l then imm + 2 ^ 12 else imm in
  loads rd imm
    ((if is_im6 (Z.shiftr imm' 12) then C_LUI rd imm' else W (UTYPE imm' rd 0x37))
     ++ (if is_im6 l' then C_ADDIW rd l' else w_op2i ADDIW rd rd l')).
Proof.
  intros Hd H2 Hi Hn l l' imm'.
  assert (El : imm = imm' / 4096 * 4096 + l' /\ -2048 <= l' < 2048).
  { unfold imm', l', l. destruct (Z.leb_spec 0x800 (imm mod 4096)); lia. }
  destruct El as [El Hl'].
  assert (Hk : - 2 ^ 19 <= imm' / 4096 <= 2 ^ 19 /\ imm' / 4096 <> 0).
  { clearbody l' imm'. split; lia. }
  clearbody l' imm'. clear l. destruct Hk as [Hk Hk0].
  set (k := imm' / 4096) in *.
  set (v := if is_im6 (Z.shiftr imm' 12) then k * 4096 else sext 32 (k mod 2 ^ 20 * 4096)).
  exists [BLui rd v; BI ADDIW rd rd l']. split.
  - apply decs_cons; [|apply decs_one].
    + unfold v. rewrite Z.shiftr_div_pow2 by lia. change (2 ^ 12) with 4096. fold k.
      destruct (is_im6 k) eqn:E6.
      * unfold is_im6 in E6. apply dec_C_LUI; fold k; lia.
      * apply dec_LUI. unfold reg_ok. lia.
    + destruct (is_im6 l') eqn:E6.
      * unfold is_im6 in E6. apply dec_C_ADDIW; lia.
      * apply dec_I; [unfold reg_ok; lia|unfold reg_ok; lia|]. unfold imm_ok; cbn. done.
  - intros r [Hr H0]. cbn [run step]. eexists; split; [reflexivity|]. intros n.
    rewrite wr_eq by lia. rewrite wr_wr. f_equal.
    unfold alu2i; cbn [alu3]. f_equal.
    unfold s32. rewrite u32_add_r, u32_add_l.
    assert (Ev : u32 (v + l') = u32 imm).
    { assert (Hv : exists q, v = k * 4096 + q * 2 ^ 32).
      { unfold v. destruct (is_im6 _); [exists 0; lia|].
        unfold sext. destruct (_ <? _).
        - exists (- (k / 2 ^ 20)). lia.
        - exists (- (k / 2 ^ 20) - 1). lia. }
      destruct Hv as [q ->]. unfold u32. rewrite El.
      replace (k * 4096 + q * 2 ^ 32 + l') with (k * 4096 + l' + q * 2 ^ 32) by lia.
      apply Z_mod_plus_full. }
    rewrite Ev. unfold u32. apply sext_mod; lia.
Qed.

Lemma li_sub_ok (k : nat) : forall fuel rd imm, (k <= fuel)%nat -> reg_ok rd ->
  (-2048 <= imm < 2048 \/ (rd <> 0 /\ rd <> 2)) ->
  - 2 ^ (28 + 12 * Z.of_nat k) <= imm <= 2 ^ (28 + 12 * Z.of_nat k) ->
  exists c, li_sub fuel rd imm = Some c /\ (length c <= 8 + 6 * k)%nat /\ loads rd imm c.
Proof.
  induction k as [|k IH]; intros fuel rd imm Hf Hd Hrd Hi.
  - destruct (decide (-2048 <= imm < 2048)) as [Hs|Hs].
    + eexists. split; [|split; [|by apply li_small]].
      * destruct fuel; cbn [li_sub]; destruct (is_im6 imm); try done;
          (replace (is_im12 imm) with true by (unfold is_im12; lia)); done.
      * destruct (is_im6 imm); [cbn; lia|]. rewrite w_op2i_len. lia.
    + destruct Hrd as [?|[Hn0 Hn2]]; [done|].
      eexists. split; [|split; [|apply (li_32 rd imm); [unfold reg_ok in *; lia|done|lia|done]]].
      * destruct fuel; cbn [li_sub];
          (replace (is_im6 imm) with false by (unfold is_im6; lia));
          (replace (is_im12 imm) with false by (unfold is_im12; lia));
          (replace (is_im32 imm) with true by (unfold is_im32; lia));
          rewrite land_fff; reflexivity.
      * rewrite app_length. destruct (is_im6 _), (is_im6 _); rewrite ?W_len, ?w_op2i_len, ?H_len;
          cbn; lia.
  - destruct (decide (-2048 <= imm < 2048)) as [Hs|Hs].
    { eexists. split; [|split; [|by apply li_small]].
      * destruct fuel; cbn [li_sub]; destruct (is_im6 imm); try done;
          (replace (is_im12 imm) with true by (unfold is_im12; lia)); done.
      * destruct (is_im6 imm); [cbn; lia|]. rewrite w_op2i_len. lia. }
    destruct Hrd as [?|[Hn0 Hn2]]; [done|].
    destruct (decide (- 2 ^ 31 <= imm < 2 ^ 31)) as [H32|H32].
    { eexists. split; [|split; [|apply (li_32 rd imm); [unfold reg_ok in *; lia|done|lia|done]]].
      * destruct fuel; cbn [li_sub];
          (replace (is_im6 imm) with false by (unfold is_im6; lia));
          (replace (is_im12 imm) with false by (unfold is_im12; lia));
          (replace (is_im32 imm) with true by (unfold is_im32; lia));
          rewrite land_fff; reflexivity.
      * rewrite app_length. destruct (is_im6 _), (is_im6 _); rewrite ?W_len, ?w_op2i_len, ?H_len;
          cbn; lia. }
    destruct fuel as [|fuel]; [lia|]. cbn [li_sub].
    replace (is_im6 imm) with false by (unfold is_im6; lia).
    replace (is_im12 imm) with false by (unfold is_im12; lia).
    replace (is_im32 imm) with false by (unfold is_im32; lia).
    rewrite land_fff, Z.shiftr_div_pow2 by lia. change (2 ^ 12) with 4096.
    set (l' := if 0x800 <=? imm mod 4096 then imm mod 4096 - 0x1000 else imm mod 4096).
    set (imm' := if 0x800 <=? imm mod 4096 then imm / 4096 + 1 else imm / 4096).
    assert (El : imm = imm' * 4096 + l' /\ -2048 <= l' < 2048).
    { unfold imm', l'. destruct (Z.leb_spec 0x800 (imm mod 4096)); lia. }
    destruct El as [El Hl']. clearbody imm' l'.
    assert (Hp : 2 ^ (28 + 12 * Z.of_nat (S k)) = 4096 * 2 ^ (28 + 12 * Z.of_nat k)).
    { replace (28 + 12 * Z.of_nat (S k)) with (12 + (28 + 12 * Z.of_nat k)) by lia.
      by rewrite Z.pow_add_r by lia. }
    destruct (IH fuel rd imm') as (c & -> & Hlen & lst & Hdec & Hrun); [lia|done|by right|lia|].
    eexists. split; [reflexivity|]. split.
    { rewrite !app_length. destruct (is_im6 l'); rewrite ?w_op2i_len; cbn [length C_SLLI C_ADDI H]; 
        unfold C_SLLI, C_ADDI; rewrite ?H_len; lia. }
    exists (lst ++ [BI SLLI rd rd 12; BI ADDI rd rd l']). split.
    { apply decs_app; [done|]. apply decs_cons; [apply dec_C_SLLI; [done|lia]|].
      apply decs_one. destruct (is_im6 l') eqn:E6.
      - unfold is_im6 in E6. apply dec_C_ADDI; [done|lia].
      - apply dec_I; [done|done|]. unfold imm_ok; cbn. done. }
    intros r Hr. destruct (Hrun r Hr) as (r1 & E1 & Hn1). rewrite run_app, E1. cbn [run step].
    eexists; split; [reflexivity|]. intros n. rewrite wr_eq by done. rewrite wr_wr.
    rewrite (wr_ext _ (wr r rd (u64 imm'))) by done. rewrite wr_wr. f_equal.
    rewrite Hn1, wr_eq by done.
    rewrite sll_val by (try apply u64_range; lia).
    unfold alu2i; cbn [alu3]. rewrite u64_add_r, u64_mul_l, u64_add_l. f_equal.
    change (2 ^ 12) with 4096. lia.
Qed.

Lemma right_li rd imm : operands_ok (ILi rd imm) -> ~ troublesome (ILi rd imm) ->
  assembled_right (ILi rd imm) /\
  exists c, asm (ILi rd imm) = Some c /\ (length c <= 26)%nat.
Proof.
  intros [Hd Hi] Ht. cbn in Ht.
  destruct (li_sub_ok 3 64 rd imm) as (c & E & Hlen & l & Hdec & Hrun); [lia|done| |lia|].
  { unfold fits12 in Ht. lia. }
  assert (Ea : asm (ILi rd imm) = Some c).
  { cbn [asm]. unfold asm_li. rewrite E. unfold code_buf_size.
    destruct (Nat.leb_spec (length c) 26); [done|lia]. }
  split; [|eauto]. exists c, l. split; [done|]. split; [by apply decs_decodes|].
  intros r Hr. destruct (Hrun r Hr) as (r' & E' & Hn). exists rd, (u64 imm), r'. done.
Qed.

(** *** Memory *)
Lemma ofs_ok_spec n m k ofs : m = Z.ones k -> 0 <= k -> ofs_ok n m ofs = true <->
  0 <= ofs < 2 ^ n /\ ofs mod 2 ^ k = 0.
Proof.
  intros -> Hk. unfold ofs_ok. rewrite Z.land_ones by done.
  rewrite !andb_true_iff, Z.leb_le, Z.ltb_lt, Z.eqb_eq. tauto.
Qed.

Lemma right_ld o rd ofs rs : operands_ok (ILd o rd ofs rs) -> ~ troublesome (ILd o rd ofs rs) ->
  assembled_right (ILd o rd ofs rs).
Proof.
  intros (Hd & Ho & Hs) Ht. apply (simple_right _ (asm_ld o rd ofs rs) (BLoad o rd rs ofs)); try done.
  destruct o; cbn [asm_ld]; try (by apply dec_ld).
  - destruct (ofs_ok 7 3 ofs && is_rvc_reg rd && is_rvc_reg rs) eqn:E; [|by apply dec_ld].
    apply andb_true_iff in E as [[E E1%is_rvc_reg_spec]%andb_true_iff E2%is_rvc_reg_spec].
    apply (ofs_ok_spec 7 3 2) in E as [E3 E4]; [|done|lia]. apply dec_C_LW; [exact E1 || exact E2|exact E1 || exact E2|exact E3|exact E4].
  - destruct (ofs_ok 9 7 ofs && (rs =? 2)) eqn:E.
    { apply andb_true_iff in E as [E ->%Z.eqb_eq].
      apply (ofs_ok_spec 9 7 3) in E as [E1 E2]; [|done|lia].
      change (2 ^ 9) with 512 in E1. change (2 ^ 3) with 8 in E2.
      apply dec_C_LDSP; [|lia|lia]. cbn in Ht. unfold reg_ok in *. lia. }
    clear E. destruct (ofs_ok 8 7 ofs && is_rvc_reg rd && is_rvc_reg rs) eqn:E; [|by apply dec_ld].
    apply andb_true_iff in E as [[E E1%is_rvc_reg_spec]%andb_true_iff E2%is_rvc_reg_spec].
    apply (ofs_ok_spec 8 7 3) in E as [E3 E4]; [|done|lia]. apply dec_C_LD; [exact E1 || exact E2|exact E1 || exact E2|exact E3|exact E4].
Qed.

Lemma right_sd o rs2 ofs rs1 : operands_ok (ISd o rs2 ofs rs1) -> ~ troublesome (ISd o rs2 ofs rs1) ->
  assembled_right (ISd o rs2 ofs rs1).
Proof.
  intros (Hd & Ho & Hs) Ht. apply (simple_right _ (asm_sd o rs2 ofs rs1) (BStore o rs2 rs1 ofs)); try done.
  destruct o; cbn [asm_sd]; try (by apply dec_sd).
  - destruct (ofs_ok 7 3 ofs && is_rvc_reg rs1 && is_rvc_reg rs2) eqn:E; [|by apply dec_sd].
    apply andb_true_iff in E as [[E E1%is_rvc_reg_spec]%andb_true_iff E2%is_rvc_reg_spec].
    apply (ofs_ok_spec 7 3 2) in E as [E3 E4]; [|done|lia].
    change (2 ^ 7) with 128 in E3. change (2 ^ 2) with 4 in E4.
    apply dec_C_SW; [lia|lia|lia|]. cbn in Ht. lia.
  - destruct (ofs_ok 9 7 ofs && (rs1 =? 2)) eqn:E.
    { apply andb_true_iff in E as [E ->%Z.eqb_eq].
      apply (ofs_ok_spec 9 7 3) in E as [E1 E2]; [|done|lia]. apply dec_C_SDSP; [done|exact E1|exact E2]. }
    clear E. destruct (ofs_ok 8 7 ofs && is_rvc_reg rs1 && is_rvc_reg rs2) eqn:E; [|by apply dec_sd].
    apply andb_true_iff in E as [[E E1%is_rvc_reg_spec]%andb_true_iff E2%is_rvc_reg_spec].
    apply (ofs_ok_spec 8 7 3) in E as [E3 E4]; [|done|lia]. apply dec_C_SD; [exact E1 || exact E2|exact E1 || exact E2|exact E3|exact E4].
Qed.

Lemma right_fld d rd ofs rs : operands_ok (IFld d rd ofs rs) -> assembled_right (IFld d rd ofs rs).
Proof.
  intros (Hd & Ho & Hs). apply (simple_right _ (asm_fld d rd ofs rs) (BFload d rd rs ofs)); try done.
  destruct d; cbn [asm_fld]; [|by apply (dec_fld false)].
  destruct (ofs_ok 9 7 ofs && (rs =? 2)) eqn:E.
  { apply andb_true_iff in E as [E ->%Z.eqb_eq].
    apply (ofs_ok_spec 9 7 3) in E as [E1 E2]; [|done|lia]. apply dec_C_FLDSP; [done|exact E1|exact E2]. }
  clear E. destruct (ofs_ok 8 7 ofs && is_rvc_reg rd && is_rvc_reg rs) eqn:E; [|by apply (dec_fld true)].
  apply andb_true_iff in E as [[E E1%is_rvc_reg_spec]%andb_true_iff E2%is_rvc_reg_spec].
  apply (ofs_ok_spec 8 7 3) in E as [E3 E4]; [|done|lia]. apply dec_C_FLD; [exact E1 || exact E2|exact E1 || exact E2|exact E3|exact E4].
Qed.

Lemma right_fsd d rs2 ofs rs1 : operands_ok (IFsd d rs2 ofs rs1) -> assembled_right (IFsd d rs2 ofs rs1).
Proof.
  intros (Hd & Ho & Hs). apply (simple_right _ (asm_fsd d rs2 ofs rs1) (BFstore d rs2 rs1 ofs)); try done.
  destruct d; cbn [asm_fsd]; [|by apply (dec_fsd false)].
  destruct (ofs_ok 9 7 ofs && (rs1 =? 2)) eqn:E.
  { apply andb_true_iff in E as [E ->%Z.eqb_eq].
    apply (ofs_ok_spec 9 7 3) in E as [E1 E2]; [|done|lia]. apply dec_C_FSDSP; [done|exact E1|exact E2]. }
  clear E. destruct (ofs_ok 8 7 ofs && is_rvc_reg rs1 && is_rvc_reg rs2) eqn:E; [|by apply (dec_fsd true)].
  apply andb_true_iff in E as [[E E1%is_rvc_reg_spec]%andb_true_iff E2%is_rvc_reg_spec].
  apply (ofs_ok_spec 8 7 3) in E as [E3 E4]; [|done|lia]. apply dec_C_FSD; [exact E1 || exact E2|exact E1 || exact E2|exact E3|exact E4].
Qed.

Lemma right_b o rs1 rs2 : reg_ok rs1 -> reg_ok rs2 -> assembled_right (IB o rs1 rs2).
Proof.
  intros H1 H2. apply (simple_right _ (asm_bxx o rs1 rs2) (BBr o rs1 rs2 0)); try done.
  destruct o; cbn [asm_bxx]; try (apply dec_BXX; [done|done|lia|done]).
  - destruct ((rs2 =? 0) && is_rvc_reg rs1) eqn:E; [|apply dec_BXX; [done|done|lia|done]].
    apply andb_true_iff in E as [->%Z.eqb_eq E%is_rvc_reg_spec]. by apply dec_C_BEQZ.
  - destruct ((rs2 =? 0) && is_rvc_reg rs1) eqn:E; [|apply dec_BXX; [done|done|lia|done]].
    apply andb_true_iff in E as [->%Z.eqb_eq E%is_rvc_reg_spec]. by apply dec_C_BNEZ.
Qed.

Lemma all_right i : operands_ok i -> ~ troublesome i -> assembled_right i.
Proof.
  intros Ho Ht. destruct i.
  - destruct Ho as (? & ? & ?). by apply right_3.
  - by apply right_2i.
  - destruct Ho. by apply right_2.
  - exists [], []. done.
  - destruct Ho as [Hd Hs]. destruct (dec_mv rd rs Hd Hs) as (b & Hb & Hst).
    by apply (one_right _ (asm_mv rd rs) b (fun _ => rd) (fun r => r rs)).
  - by apply right_li.
  - eexists _, [BAuipc rd 0; BI ADDI rd rd 0]. split; [reflexivity|]. split; [|done].
    apply decs_decodes, decs_cons; [by apply (dec_AUIPC 0)|].
    apply decs_one, dec_I; [done|done|]. unfold imm_ok; cbn. unfold fits12. lia.
  - by apply right_ld.
  - by apply right_sd.
  - exists C_J, [BJal 0 0]. by vm_compute.
  - cbn in Ho, Ht. apply (simple_right _ (C_JR rs) (BJalr 0 rs 0)); try done.
    apply dec_C_JR. unfold reg_ok in Ho. lia.
  - cbn in Ho, Ht. apply (simple_right _ (C_JALR rs) (BJalr 1 rs 0)); try done.
    apply dec_C_JALR. unfold reg_ok in Ho. lia.
  - destruct Ho. by apply right_b.
  - eexists _, [BAuipc 1 0; BJalr 1 1 0]. split; [reflexivity|]. split; [by vm_compute|done].
  - eexists _, [BJalr 0 1 0]. split; [reflexivity|]. split; [by vm_compute|done].
  - eexists _, [BEcall]. split; [reflexivity|]. split; [by vm_compute|done].
  - destruct Ho as (? & ? & ?). apply (simple_right _ (asm_3fr o rd rs1 rs2) (BF3 o rd rs1 rs2)); try done.
    by apply dec_F3.
  - destruct Ho. eapply (simple_right _ (asm_2fr o rd rs)); [done|by apply dec_F2|done].
  - destruct Ho as (? & ? & ?). apply (simple_right _ (asm_fcmp o rd rs1 rs2) (BFcmp o rd rs1 rs2)); try done.
    by apply dec_Fcmp.
  - by apply right_fld.
  - by apply right_fsd.
  - destruct Ho. eapply (simple_right _ (asm_fi o rd rs)); [done|by apply dec_Fi|done].
  - destruct Ho as (? & ? & ?). eapply (simple_right _ (asm_if o rd rs rm)); [done|by apply dec_If|done].
Qed.

(** *** Immediates that do not fit *)
Lemma rejected o rd rs imm : - 2 ^ 63 <= imm < 2 ^ 63 -> ~ imm_ok o imm ->
  (match o with SRLIW | SRAIW => ~ (32 <= imm < 64) | _ => True end) ->
  asm (I2i o rd rs imm) = None.
Proof.
  intros Hr Hi Hw. cbn [asm]. unfold asm_2ri.
  assert (H0 : bool_decide (o = ADDI) && (imm =? 0) = false).
  { destruct o; try reflexivity. unfold imm_ok, fits12 in Hi; cbn [is_shiftw is_shift] in Hi.
    destruct (Z.eqb_spec imm 0); [lia|]. apply andb_false_r. }
  rewrite H0.
  assert (H6 : is_im6 imm = true -> is_shift o = true).
  { intros E. unfold is_im6 in E. unfold imm_ok, fits12 in Hi.
    destruct o; cbn [is_shiftw is_shift] in Hi; try done; lia. }
  assert (H7 : is_uim6 imm = true -> 0 <= imm < 64).
  { unfold is_uim6. intros E. lia. }
  assert (H8 : is_im6 (Z.shiftr imm 4) = true -> -512 <= imm < 512).
  { rewrite Z.shiftr_div_pow2 by lia. unfold is_im6. lia. }
  unfold imm_ok, fits12 in Hi.
  destruct (rd =? rs), (is_im6 imm), (is_uim6 imm), (is_im6 (Z.shiftr imm 4));
    destruct o; cbn [is_shiftw is_shift andb] in *;
    repeat match goal with |- context [bool_decide ?P] =>
      let b := eval vm_compute in (bool_decide P) in change (bool_decide P) with b end;
    cbn [andb];
    try (specialize (H6 eq_refl); done);
    try (specialize (H7 eq_refl); exfalso; lia);
    try (specialize (H8 eq_refl); exfalso; lia);
    match goal with
    | |- context [if ?c then None else Some (w_op2i _ _ _ _)] => replace c with true by lia
    end; rewrite ?andb_false_r; try done.
Qed.

(** *** Wrong encodings *)
Lemma wrong_decode i bs : asm i = Some bs -> decode (length bs) bs = None -> ~ assembled_right i.
Proof.
  intros Ha Hd (bs' & l & Ha' & Hd' & _). rewrite Ha in Ha'. injection Ha' as <-.
  unfold decodes in Hd'. by rewrite Hd in Hd'.
Qed.
Lemma wrong_form i bs l l' : asm i = Some bs -> decode (length bs) bs = Some l ->
  stands_for i = Some l' -> l <> l' -> ~ assembled_right i.
Proof.
  intros Ha Hd Hs Hne (bs' & k & Ha' & Hd' & Hm). rewrite Ha in Ha'. injection Ha' as <-.
  unfold decodes in Hd'. rewrite Hd in Hd'. injection Hd' as <-. by rewrite Hs in Hm.
Qed.
Lemma wrong_run i bs l : asm i = Some bs -> decode (length bs) bs = Some l ->
  stands_for i = None ->
  (match run (fun _ => 0) l, computes i (fun _ => 0) with
   | Some r', Some (rd, v) => r' rd <> wr (fun _ => 0) rd v rd
   | _, _ => True end) ->
  ~ assembled_right i.
Proof.
  intros Ha Hd Hs Hne (bs' & k & Ha' & Hd' & Hm). rewrite Ha in Ha'. injection Ha' as <-.
  unfold decodes in Hd'. rewrite Hd in Hd'. injection Hd' as <-. rewrite Hs in Hm.
  destruct (Hm (fun _ => 0)) as (rd & v & r' & Hc & Hr & Hn).
  { split; [intros; lia|done]. }
  rewrite Hr, Hc in Hne. by rewrite Hn in Hne.
Qed.

Ltac ops := cbn; unfold reg_ok, fits12; lia.

Lemma add_zero_wrong : operands_ok (I3 ADD 5 5 0) /\ ~ assembled_right (I3 ADD 5 5 0).
Proof. split; [ops|]. eapply wrong_run; [vm_compute; reflexivity..|]. vm_compute. exact I. Qed.
Lemma addiw_zero_wrong : operands_ok (I2i ADDIW 0 0 1) /\ ~ assembled_right (I2i ADDIW 0 0 1).
Proof. split; [ops|]. eapply wrong_decode; [vm_compute; reflexivity..]. Qed.
Lemma sextw_zero_wrong : operands_ok (I2 SEXT_W 0 0) /\ ~ assembled_right (I2 SEXT_W 0 0).
Proof. split; [ops|]. eapply wrong_decode; [vm_compute; reflexivity..]. Qed.
Lemma li_sp_wrong : operands_ok (ILi 2 0x10000) /\ ~ assembled_right (ILi 2 0x10000).
Proof. split; [ops|]. eapply wrong_run; [vm_compute; reflexivity..|]. vm_compute. discriminate. Qed.
Lemma li_zero_wrong : operands_ok (ILi 0 0x10000) /\ ~ assembled_right (ILi 0 0x10000).
Proof. split; [ops|]. eapply wrong_decode; [vm_compute; reflexivity..]. Qed.
Lemma ld_zero_wrong : operands_ok (ILd LD 0 8 2) /\ ~ assembled_right (ILd LD 0 8 2).
Proof. split; [ops|]. eapply wrong_decode; [vm_compute; reflexivity..]. Qed.
Lemma sw_wrong : operands_ok (ISd SW 10 4 11) /\ ~ assembled_right (ISd SW 10 4 11).
Proof. split; [ops|]. eapply wrong_form; [vm_compute; reflexivity..|]. discriminate. Qed.
Lemma jr_zero_wrong : operands_ok (IJr 0) /\ ~ assembled_right (IJr 0).
Proof. split; [ops|]. eapply wrong_decode; [vm_compute; reflexivity..]. Qed.
Lemma jalr_zero_wrong : operands_ok (IJalr 0) /\ ~ assembled_right (IJalr 0).
Proof. split; [ops|]. eapply wrong_form; [vm_compute; reflexivity..|]. discriminate. Qed.

(** Where the word really goes: the low bit of the scaled offset is lost. *)
Lemma sw_all_wrong rs2 rs1 ofs : 8 <= rs2 <= 15 -> 8 <= rs1 <= 15 -> 0 <= ofs < 128 -> ofs mod 8 = 4 ->
  exists bs, asm (ISd SW rs2 ofs rs1) = Some bs /\ decodes bs [BStore SW rs2 rs1 (ofs - 4)].
Proof.
  intros H2 H1 Ho Hm. cbn [asm asm_sd].
  replace (ofs_ok 7 3 ofs && is_rvc_reg rs1 && is_rvc_reg rs2) with true.
  2:{ symmetry. rewrite !andb_true_iff, !is_rvc_reg_spec.
      rewrite (ofs_ok_spec 7 3 2) by (done || lia). change (2 ^ 7) with 128. change (2 ^ 2) with 4. lia. }
  eexists. split; [reflexivity|]. apply decs_decodes, decs_one.
  replace (C_SW rs2 ofs rs1) with (C_SW rs2 (ofs - 4) rs1).
  - apply dec_C_SW; lia.
  - unfold C_SW. rewrite !IMM_mod by lia.
    change (2 ^ 3) with 8. change (2 ^ 6) with 64.
    replace ((ofs - 4) / 8) with (ofs / 8) by lia.
    by replace ((ofs - 4) / 64) with (ofs / 64) by lia.
Qed.

(** Offsets that do not fit are cut, not rejected. *)
Lemma ofs_cut_wrong : exists bs, asm (ILd LB 10 4096 11) = Some bs /\ decodes bs [BLoad LB 10 11 0].
Proof. eexists. split; [reflexivity|]. vm_compute. reflexivity. Qed.
(** A word shift by 32 or more is not rejected. *)
Lemma srliw_wrong : exists bs, asm (I2i SRLIW 10 11 40) = Some bs /\ decode (length bs) bs = None.
Proof. eexists. split; [vm_compute; reflexivity|]. vm_compute. reflexivity. Qed.

Lemma li_fits rd imm : reg_ok rd -> - 2 ^ 63 <= imm < 2 ^ 63 -> ~ (rd = 0 \/ rd = 2) \/ fits12 imm ->
  exists bs l, asm (ILi rd imm) = Some bs /\ (length bs <= 26)%nat /\ decodes bs l /\
    forall r, regs_ok r -> exists r', run r l = Some r' /\
      (forall n, n <> rd -> r' n = r n) /\ (rd <> 0 -> r' rd = imm mod 2 ^ 64).
Proof.
  intros Hd Hi Hc.
  destruct (right_li rd imm) as ((bs & l & Ha & Hdec & Hrun) & c & Ha' & Hlen); [done| |].
  { cbn. unfold fits12 in *. tauto. }
  rewrite Ha in Ha'. injection Ha' as <-. exists bs, l. split_and!; try done.
  intros r Hr. destruct (Hrun r Hr) as (rd' & v & r' & Hcp & Hr' & Hn). injection Hcp as <- <-.
  exists r'. split; [done|]. split.
  - intros n Hne. rewrite Hn. unfold wr. by rewrite (proj2 (Z.eqb_neq _ _) Hne).
  - intros H0. rewrite Hn. by apply wr_eq.
Qed.
