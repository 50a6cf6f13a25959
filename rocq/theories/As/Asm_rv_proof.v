(** Branches of riscv64 in the loop of the assembler. *)
From stdpp Require Import base list numbers gmap option.
From Verif Require Import As.Rv_model.
From Verif Require Import Util.Data_model As.Asm_model As.Asm_arch_model As.Asm_spec As.Asm_proof As.Asm_res_proof As.Asm_arch_proof As.Asm_a64_proof.
From Verif Require Rv_spec Rv_proof Rv_word_proof.
From Coq Require Import Lia ZifyBool.
Open Scope Z_scope.

(** ** Words *)
Lemma IMM_range x t b : b <= t -> 0 <= IMM x t b < 2 ^ (t - b + 1).
Proof.
  intros H. unfold IMM. rewrite Z.shiftl_1_l. replace (2 ^ (t - b + 1) - 1) with (Z.ones (t - b + 1)) by (rewrite Z.ones_equiv; lia).
  rewrite Z.land_ones by lia. apply Z.mod_pos_bound, Z.pow_pos_nonneg; lia.
Qed.
Ltac field_goes :=
  match goal with
  | |- Z.land (Z.shiftl (IMM ?x ?t ?b) ?s) ?m = 0 => apply (field_out _ (t - b + 1)); [done|done|by apply IMM_range|done]
  | |- Z.land (Z.shiftl (IMM ?x ?t ?b) ?s) ?m = _ => apply (field_in _ (t - b + 1)); [done|done|by apply IMM_range|done]
  end.
Lemma bxx_out ofs : Z.land (SWIZZLE_BXX ofs) 0x01fff07f = 0.
Proof.
  unfold SWIZZLE_BXX. rewrite !Z.land_lor_distr_l.
  assert (E1 : Z.land (Z.shiftl (IMM ofs 12 12) 31) 0x01fff07f = 0) by field_goes.
  assert (E2 : Z.land (Z.shiftl (IMM ofs 10 5) 25) 0x01fff07f = 0) by field_goes.
  assert (E3 : Z.land (Z.shiftl (IMM ofs 4 1) 8) 0x01fff07f = 0) by field_goes.
  assert (E4 : Z.land (Z.shiftl (IMM ofs 11 11) 7) 0x01fff07f = 0) by field_goes.
  by rewrite E1, E2, E3, E4.
Qed.
Lemma c_bxx_out ofs : Z.land (SWIZZLE_C_BXX ofs) 0xe383 = 0.
Proof.
  unfold SWIZZLE_C_BXX. rewrite !Z.land_lor_distr_l.
  assert (E1 : Z.land (Z.shiftl (IMM ofs 8 8) 12) 0xe383 = 0) by field_goes.
  assert (E2 : Z.land (Z.shiftl (IMM ofs 4 3) 10) 0xe383 = 0) by field_goes.
  assert (E3 : Z.land (Z.shiftl (IMM ofs 7 6) 5) 0xe383 = 0) by field_goes.
  assert (E4 : Z.land (Z.shiftl (IMM ofs 2 1) 3) 0xe383 = 0) by field_goes.
  assert (E5 : Z.land (Z.shiftl (IMM ofs 5 5) 2) 0xe383 = 0) by field_goes.
  by rewrite E1, E2, E3, E4, E5.
Qed.
Lemma jal_out ofs : Z.land (SWIZZLE_JAL ofs) 0x7ff = 0.
Proof.
  unfold SWIZZLE_JAL. rewrite !Z.land_lor_distr_l.
  assert (E1 : Z.land (Z.shiftl (IMM ofs 20 20) 31) 0x7ff = 0) by field_goes.
  assert (E2 : Z.land (Z.shiftl (IMM ofs 10 1) 21) 0x7ff = 0) by field_goes.
  assert (E3 : Z.land (Z.shiftl (IMM ofs 11 11) 20) 0x7ff = 0) by field_goes.
  assert (E4 : Z.land (Z.shiftl (IMM ofs 19 12) 12) 0x7ff = 0) by field_goes.
  by rewrite E1, E2, E3, E4.
Qed.
Lemma jal_in ofs : Z.land (SWIZZLE_JAL ofs) (Z.shiftl (Z.ones 20) 12) = SWIZZLE_JAL ofs.
Proof.
  unfold SWIZZLE_JAL. rewrite !Z.land_lor_distr_l. set (m := Z.shiftl (Z.ones 20) 12).
  assert (E1 : Z.land (Z.shiftl (IMM ofs 20 20) 31) m = Z.shiftl (IMM ofs 20 20) 31) by field_goes.
  assert (E2 : Z.land (Z.shiftl (IMM ofs 10 1) 21) m = Z.shiftl (IMM ofs 10 1) 21) by field_goes.
  assert (E3 : Z.land (Z.shiftl (IMM ofs 11 11) 20) m = Z.shiftl (IMM ofs 11 11) 20) by field_goes.
  assert (E4 : Z.land (Z.shiftl (IMM ofs 19 12) 12) m = Z.shiftl (IMM ofs 19 12) 12) by field_goes.
  by rewrite E1, E2, E3, E4.
Qed.
Lemma jal_word ofs : W_JAL_word 0 ofs = Z.lor 0x6f (SWIZZLE_JAL ofs).
Proof.
  unfold W_JAL_word, UTYPE. rewrite Z.shiftl_0_l, Z.lor_0_r, Z.lor_comm. f_equal.
  rewrite <- (jal_in ofs) at 2. unfold IMM. change (Z.shiftl 1 (31 - 12 + 1) - 1) with (Z.ones 20).
  apply Z.bits_inj'. intros n Hn. rewrite Z.shiftl_spec, !Z.land_spec, (Z.shiftl_spec (Z.ones 20)) by lia.
  destruct (Z.lt_ge_cases n 12).
  - rewrite (Z.testbit_neg_r (Z.ones 20)) by lia. by rewrite !andb_false_r.
  - rewrite Z.shiftr_spec by lia. do 2 f_equal. lia.
Qed.
Lemma bxx_base o rs1 rs2 : Rv_spec.reg_ok rs1 -> Rv_spec.reg_ok rs2 -> Z.land (W_BXX_word o rs1 rs2 0) 0x01fff07f = W_BXX_word o rs1 rs2 0.
Proof.
  intros H1 H2. unfold W_BXX_word. change (SWIZZLE_BXX 0) with 0. rewrite Z.lor_0_r. unfold STYPE. change (IMM 0 11 5) with 0. change (IMM 0 4 0) with 0.
  rewrite !Z.shiftl_0_l, Z.lor_0_l, Z.lor_0_r, !Z.land_lor_distr_l.
  assert (Hf : 0 <= br_funct3 o < 2 ^ 3) by (destruct o; done).
  rewrite (field_in rs2 5), (field_in rs1 5), (field_in (br_funct3 o) 3) by done. done.
Qed.
Lemma bxx_word o rs1 rs2 ofs : Z.lor (W_BXX_word o rs1 rs2 0) (SWIZZLE_BXX ofs) = W_BXX_word o rs1 rs2 ofs.
Proof. unfold W_BXX_word. change (SWIZZLE_BXX 0) with 0. by rewrite Z.lor_0_r. Qed.

(** ** Compressed branches *)
Definition eqne (o : brop) : bool := match o with BEQ | BNE => true | _ => false end.
Definition comp (o : brop) (rs1 rs2 : Z) : bool := (rs2 =? 0) && is_rvc_reg rs1 && eqne o.
Definition cword (o : brop) (rs1 : Z) : Z := match o with BEQ => C_BEQZ_word rs1 | _ => C_BNEZ_word rs1 end.
Lemma asm_bxx_eq o rs1 rs2 : asm_bxx o rs1 rs2 = if comp o rs1 rs2 then H (cword o rs1) else W (W_BXX_word o rs1 rs2 0).
Proof. unfold asm_bxx, comp. destruct o; cbn [eqne]; rewrite ?andb_true_r, ?andb_false_r; done. Qed.
Lemma cword_facts o rs1 : is_rvc_reg rs1 = true ->
  Z.land (cword o rs1) 0xe383 = cword o rs1 /\ Z.land (Z.shiftr (cword o rs1) 7) 7 + 8 = rs1.
Proof.
  intros Hr. unfold is_rvc_reg in Hr.
  assert (Hc : forallb (fun r => forallb (fun o => (Z.land (cword o r) 0xe383 =? cword o r) && (Z.land (Z.shiftr (cword o r) 7) 7 + 8 =? r)) [BEQ; BNE; BLT; BGE; BLTU; BGEU]) (seqZ 8 8) = true) by (vm_compute; done).
  rewrite forallb_forall in Hc. specialize (Hc rs1). rewrite <- elem_of_list_In, elem_of_seqZ in Hc. specialize (Hc ltac:(lia)).
  rewrite forallb_forall in Hc. specialize (Hc o ltac:(destruct o; cbn; tauto)). lia.
Qed.
Lemma dec_comp o rs1 ofs : eqne o = true -> is_rvc_reg rs1 = true -> within ofs 8 = true -> ofs mod 2 = 0 ->
  Rv_proof.dec1 (H (Z.lor (cword o rs1) (SWIZZLE_C_BXX ofs))) (Rv_spec.BBr o rs1 0 ofs).
Proof.
  intros He Hr Hw H2. apply Rv_proof.chk16_dec1. unfold is_rvc_reg, within in *.
  assert (Hc : forallb (fun r => forallb (fun k => forallb (fun o => Rv_proof.chk16 (H (Z.lor (cword o r) (SWIZZLE_C_BXX (2 * k)))) (Rv_spec.BBr o r 0 (2 * k))) [BEQ; BNE]) (seqZ (-128) 256)) (seqZ 8 8) = true) by (vm_compute; done).
  rewrite forallb_forall in Hc. specialize (Hc rs1). rewrite <- elem_of_list_In, elem_of_seqZ in Hc. specialize (Hc ltac:(lia)).
  rewrite forallb_forall in Hc. specialize (Hc (ofs / 2)). rewrite <- elem_of_list_In, elem_of_seqZ in Hc.
  pose proof (Z.div_mod ofs 2 ltac:(lia)) as Hd. specialize (Hc ltac:(lia)).
  rewrite forallb_forall in Hc. specialize (Hc o ltac:(destruct o; cbn; done || tauto)).
  replace (2 * (ofs / 2)) with ofs in Hc by lia. done.
Qed.

Lemma H_le w : H w = le 2 w. Proof. by rewrite le2. Qed.
Lemma W_le w : W w = le 4 w. Proof. by rewrite le4. Qed.
Lemma word2_le x : word 2 (le 2 x) = x mod 2 ^ 16.
Proof.
  rewrite le2. unfold word. cbn [take foldr]. pose proof (Z.div_mod x 256 ltac:(lia)). pose proof (Z.div_mod (x / 256) 256 ltac:(lia)).
  pose proof (Z.mod_pos_bound x 256 ltac:(lia)). pose proof (Z.mod_pos_bound (x / 256) 256 ltac:(lia)).
  apply (Z.mod_unique_pos _ _ (x / 256 / 256)); lia.
Qed.
Lemma land_mod16 w m : Z.land m (Z.ones 16) = m -> Z.land (w mod 2 ^ 16) m = Z.land w m.
Proof. intros H. rewrite <- Z.land_ones by lia. rewrite <- Z.land_assoc, (Z.land_comm (Z.ones 16)), H. done. Qed.
Lemma put2 x b : length b = 2%nat -> put 0 (le 2 x) b = le 2 x.
Proof. intros H. unfold put. rewrite le_length. rewrite drop_ge by lia. cbn [take]. by rewrite app_nil_r. Qed.

(** ** Instructions as they are between passes *)
Definition b_form (o : brop) (rs1 rs2 : Z) (c : code rinst) : Prop :=
  if long c then exists w, buf c = W w /\ Z.land w 0x01fff07f = W_BXX_word o rs1 rs2 0
  else comp o rs1 rs2 = true /\ exists w, buf c = H w /\ Z.land w 0xe383 = cword o rs1.
Definition j_form (c : code rinst) : Prop :=
  if long c then exists w, buf c = W w /\ Z.land w 0x7ff = 0x6f else length (buf c) = 2%nat.
Lemma b_form_length o rs1 rs2 c : b_form o rs1 rs2 c -> length (buf c) = if long c then 4%nat else 2%nat.
Proof. unfold b_form. destruct (long c); [by intros (w & -> & _)|by intros (_ & w & -> & _)]. Qed.
Lemma j_form_length c : j_form c -> length (buf c) = if long c then 4%nat else 2%nat.
Proof. unfold j_form. destruct (long c); [by intros (w & -> & _)|done]. Qed.
Lemma rv_bxx_form o rs1 rs2 v : Rv_spec.reg_ok rs1 -> Rv_spec.reg_ok rs2 -> b_form o rs1 rs2 (rv_bxx o rs1 rs2 v) /\ length (buf (rv_bxx o rs1 rs2 v)) = length (asm_bxx o rs1 rs2).
Proof.
  intros H1 H2. split; [|done]. unfold b_form, rv_bxx. rewrite asm_bxx_eq. destruct (comp o rs1 rs2) eqn:Ec; cbn [long buf length H W Nat.eqb].
  - split; [done|]. exists (cword o rs1). split; [done|]. apply cword_facts. unfold comp in Ec. by apply andb_prop in Ec as [[_ ?]%andb_prop _].
  - exists (W_BXX_word o rs1 rs2 0). split; [done|]. by apply bxx_base.
Qed.
Lemma rv_jal_form v : j_form (rv_jal v).
Proof. exists (W_JAL_word 0 0). done. Qed.

(** ** One step *)
Definition b_target (t : table) (a : Z) (v : value) : Z := match vlab v with Some n => rv_target t v n | None => u64 (a + vofs v) end.
Lemma step_b t st a o rs1 rs2 v c s : Rv_spec.reg_ok rs1 -> Rv_spec.reg_ok rs2 -> inst c = RB o rs1 rs2 v -> b_form o rs1 rs2 c ->
  rv_step_b t st a o rs1 rs2 v c = Some s ->
  let ofs := s64 (b_target t a v - a) in
  (extra s = None /\ upgraded s = false /\ inst (new s) = inst c /\ long (new s) = long c /\ b_form o rs1 rs2 (new s) /\
     (b_target t a v <> 0 -> ofs mod 2 = 0 -> Rv_proof.dec1 (buf (new s)) (Rv_spec.BBr o rs1 rs2 ofs))) \/
  (within ofs 8 = false /\ extra s = None /\ upgraded s = true /\ long c = false /\ inst (new s) = inst c /\ b_form o rs1 rs2 (new s)) \/
  (within ofs 12 = false /\ upgraded s = true /\ long c = true /\ extra s = Some (rv_jal v) /\
     new s = rv_bxx (inverse o) rs1 rs2 (Value None (Z.of_nat (length (asm_bxx (inverse o) rs1 rs2)) + 4))).
Proof.
  intros H1 H2 Hi Hf E ofs. unfold rv_step_b in E.
  destruct (match vlab v with Some n => _ | None => _ end) as [target us] eqn:Et.
  assert (target = b_target t a v) as -> by (unfold b_target; destruct (vlab v); by injection Et as <- <-).
  clear Et. destruct (b_target t a v =? 0) eqn:E0.
  { injection E as <-. cbn. left. split_and!; try done. lia. }
  fold ofs in E. pose proof Hf as Hf0. unfold b_form in Hf. destruct (long c) eqn:El.
  - destruct Hf as (w & Hb & Hw). destruct (within ofs 12) eqn:Ew.
    + rewrite Hb, W_le, word4_le, land_mod32, Hw, bxx_word in E by done. rewrite put4 in E by apply le_length. injection E as <-. left. cbn [new extra upgraded inst long buf].
      split_and!; try done.
      * exists (W_BXX_word o rs1 rs2 ofs). split; [by rewrite W_le|]. rewrite <- bxx_word. apply masked; [by apply bxx_base|apply bxx_out].
      * intros _ He. rewrite <- W_le. apply Rv_word_proof.dec_BXX; [done|done| |done]. unfold within in Ew. lia.
    + right. right. injection E as <-. done.
  - destruct Hf as (Hc & w & Hb & Hw). pose proof Hc as [[Hz Hr]%andb_prop He]%andb_prop.
    destruct (negb _); [done|]. destruct (within ofs 8) eqn:Ew.
    + rewrite Hb, H_le, word2_le, land_mod16, Hw in E by done. rewrite put2 in E by apply le_length. injection E as <-. left. cbn [new extra upgraded inst long buf].
      split_and!; try done.
      * split; [done|]. eexists. split; [by rewrite H_le|]. apply masked; [by apply cword_facts|apply c_bxx_out].
      * intros _ Hev. rewrite <- H_le. replace rs2 with 0 by lia. by apply dec_comp.
    + right. left. assert (Ho : match o with BEQ | BNE => Some (Stepped (rv_bxx_long o (word 2 (buf c)) v rs1 rs2) None true us) | _ => None end = Some s) by (by destruct o).
      clear E. destruct (eqne o) eqn:Eo; [|done]. assert (E : Stepped (rv_bxx_long o (word 2 (buf c)) v rs1 rs2) None true us = s) by (destruct o; try done; by injection Ho).
      subst s. cbn [new extra upgraded]. split_and!; try done.
      assert (Hrs : Z.land (Z.shiftr (word 2 (buf c)) 7) 7 + 8 = rs1).
      { destruct (cword_facts o rs1 Hr) as [_ <-]. rewrite <- Hw, Hb, H_le, word2_le. f_equal.
        rewrite <- (land_mod16 w) by done. rewrite Z.shiftr_land, <- Z.land_assoc. done. }
      unfold b_form, rv_bxx_long. cbn [long buf]. rewrite Hrs. replace rs2 with 0 by lia.
      eexists. split; [done|]. by apply bxx_base.
Qed.
Lemma step_j t st a v n c s : vlab v = Some n -> inst c = RJ v -> j_form c -> rv_step_j t st a v c = Some s ->
  extra s = None /\ inst (new s) = RJ v /\ j_form (new s) /\
  (upgraded s = false -> long (new s) = long c) /\ (long c = true -> upgraded s = false) /\
  let ofs := s64 (rv_target t v n - a) in
  (long c = true -> rv_target t v n <> 0 -> ofs mod 2 = 0 -> Rv_proof.dec1 (buf (new s)) (Rv_spec.BJal 0 ofs)).
Proof.
  intros Hv Hi Hf E. unfold rv_step_j in E. rewrite Hv in E. destruct (rv_target t v n =? 0) eqn:E0.
  { injection E as <-. cbn. split_and!; try done. lia. }
  set (ofs := s64 (rv_target t v n - a)) in *. unfold j_form in Hf. destruct (long c) eqn:El.
  - destruct Hf as (w & Hb & Hw). destruct (within ofs 20) eqn:Ew; [|done].
    rewrite Hb, W_le, word4_le, land_mod32, Hw, <- jal_word in E by done. rewrite put4 in E by apply le_length. injection E as <-. cbn [new extra upgraded inst long buf].
    split_and!; try done.
    + exists (W_JAL_word 0 ofs). split; [by rewrite W_le|]. rewrite jal_word. apply masked; [done|apply jal_out].
    + intros _ _ He. rewrite <- W_le. apply Rv_word_proof.dec_JAL; [done| |done]. unfold within in Ew. lia.
  - destruct (within ofs 11).
    + injection E as <-. cbn [new extra upgraded inst long buf]. split_and!; try done. unfold j_form. cbn [long buf]. rewrite put_length; [done|]. rewrite le_length. lia.
    + injection E as <-. cbn [new extra upgraded]. split_and!; try done. apply rv_jal_form.
Qed.

(** ** The loop ends *)
Definition rv_mu (c : code rinst) : nat :=
  match inst c with
  | RB _ _ _ v => match vlab v with
    | None => if within (vofs v) 8 then 0%nat else if long c then 1%nat else 2%nat
    | Some _ => if long c then 1%nat else 2%nat
    end
  | RJ _ => if long c then 0%nat else 1%nat
  | _ => 0%nat
  end.
Lemma small_const a v : within v 8 = true -> s64 (u64 (a + v) - a) = v.
Proof.
  unfold within. intros H. rewrite <- (s64_small v) at 2 by lia. apply s64_congr. destruct (u64_div (a + v)) as [k ->]. apply u64_congr. exists (-k). lia.
Qed.
Lemma skip_small o rs1 rs2 : within (Z.of_nat (length (asm_bxx o rs1 rs2)) + 4) 8 = true.
Proof. rewrite asm_bxx_eq. by destruct (comp o rs1 rs2). Qed.
Lemma within_mono x j k : 0 <= j <= k -> within x j = true -> within x k = true.
Proof. unfold within. intros Hj H. pose proof (Z.pow_le_mono_r 2 j k). lia. Qed.
Lemma step_j_mu t st a v c s : inst c = RJ v -> rv_step_j t st a v c = Some s ->
  (rv_mu (new s) + mu_opt rv_mu (extra s) + (if upgraded s then 1 else 0) <= rv_mu c)%nat /\ extra s = None.
Proof.
  intros Hi E. unfold rv_step_j in E. destruct (vlab v) as [n|]; [|injection E as <-; cbn; split; [lia|done]].
  destruct (rv_target t v n =? 0); [injection E as <-; cbn; split; [lia|done]|].
  destruct (long c) eqn:El; destruct (within _ _); try done; injection E as <-; unfold rv_mu; cbn; rewrite Hi, ?El; cbn; (split; [lia|done]).
Qed.
Lemma step_b_mu t st a o rs1 rs2 v c s : inst c = RB o rs1 rs2 v -> rv_step_b t st a o rs1 rs2 v c = Some s ->
  (rv_mu (new s) + mu_opt rv_mu (extra s) + (if upgraded s then 1 else 0) <= rv_mu c)%nat /\ (upgraded s = false -> extra s = None).
Proof.
  intros Hi E. unfold rv_step_b in E.
  destruct (match vlab v with Some n => _ | None => _ end) as [target us] eqn:Et.
  assert (Ht : vlab v = None -> within (vofs v) 8 = true -> s64 (target - a) = vofs v).
  { intros Hv Hw. rewrite Hv in Et. injection Et as <- <-. by apply small_const. }
  clear Et. destruct (target =? 0); [injection E as <-; cbn; split; [lia|done]|].
  assert (Hm : vlab v = None /\ within (vofs v) 8 = true \/ rv_mu c = if long c then 1%nat else 2%nat).
  { unfold rv_mu. rewrite Hi. destruct (vlab v); [by right|]. destruct (within (vofs v) 8); [by left|by right]. }
  destruct (long c) eqn:El.
  - destruct (within (s64 (target - a)) 12) eqn:Ew.
    + injection E as <-. unfold rv_mu. cbn. rewrite Hi, El. split; [lia|done].
    + destruct Hm as [[Hv Hw]|Hm]; [rewrite (Ht Hv Hw), (within_mono _ 8 12) in Ew by (done || lia); done|].
      injection E as <-. rewrite Hm. unfold rv_mu. cbn [new extra upgraded mu_opt inst vlab vofs rv_bxx rv_jal long].
      rewrite skip_small. split; [lia|done].
  - destruct (negb _); [done|]. destruct (within (s64 (target - a)) 8) eqn:Ew.
    + injection E as <-. unfold rv_mu. cbn. rewrite Hi, El. split; [lia|done].
    + destruct Hm as [[Hv Hw]|Hm]; [rewrite (Ht Hv Hw), Hw in Ew; done|].
      assert (Hs : exists s', s = Stepped (rv_bxx_long o (word 2 (buf c)) v rs1 rs2) None true s') by (destruct o; try done; injection E as <-; by eexists).
      destruct Hs as [us' ->]. rewrite Hm. unfold rv_mu. cbn. split; [|done]. destruct (vlab v); [lia|]. destruct (within (vofs v) 8); lia.
Qed.
Lemma rv_step_mu t last st a c s : rv_step t last st a c = Some s ->
  (rv_mu (new s) + mu_opt rv_mu (extra s) + (if upgraded s then 1 else 0) <= rv_mu c)%nat /\ (upgraded s = false -> extra s = None).
Proof.
  intros E. unfold rv_step in E. destruct (inst c) eqn:Ei.
  - by apply (step_b_mu t st a o rs1 rs2 v).
  - apply step_j_mu in E as [E1 E2]; done.
  - destruct (vlab v); [destruct last; [|done]|]; injection E as <-; cbn; (split; [lia|done]).
  - destruct (vlab v); injection E as <-; cbn; (split; [lia|done]).
  - injection E as <-; cbn; (split; [lia|done]).
Qed.
Theorem rv_ends fuel a ss t : (S (mu_sections rv_mu ss) < fuel)%nat -> settle rv_step fuel a ss t <> NoFuel.
Proof. apply settle_ends. intros t1 last st b c s Es. by apply rv_step_mu in Es as [Es _]. Qed.
