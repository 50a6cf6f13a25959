(** What the loop of the assembler makes of riscv64 branches. *)
From stdpp Require Import base list numbers gmap option.
From Verif Require Import As.Rv_model.
From Verif Require Import Util.Data_model As.Asm_model As.Asm_arch_model As.Asm_spec As.Asm_proof As.Asm_res_proof As.Asm_arch_proof As.Asm_a64_proof As.Asm_rv_proof.
From Verif Require Rv_spec Rv_proof Rv_word_proof.
From Coq Require Import Lia ZifyBool.
Open Scope Z_scope.

Definition pair_form (o : brop) (rs1 rs2 : Z) (v : value) (c1 c2 : code rinst) : Prop :=
  inst c1 = RB (inverse o) rs1 rs2 (Value None (Z.of_nat (length (buf c1)) + 4)) /\ b_form (inverse o) rs1 rs2 c1 /\
  inst c2 = RJ v /\ long c2 = true /\ j_form c2.
Definition rv_R (c : code rinst) (cs : list (code rinst)) : Prop :=
  match inst c with
  | RB o rs1 rs2 v => Rv_spec.reg_ok rs1 /\ Rv_spec.reg_ok rs2 /\ is_Some (vlab v) /\
      ((exists c', cs = [c'] /\ inst c' = inst c /\ b_form o rs1 rs2 c') \/ (exists c1 c2, cs = [c1; c2] /\ pair_form o rs1 rs2 v c1 c2))
  | RJ v => is_Some (vlab v) /\ exists c', cs = [c'] /\ inst c' = inst c /\ j_form c'
  | _ => cs = [c]
  end.

Lemma rv_step_other t last st a c s : rv_step t last st a c = Some s -> (match inst c with RB _ _ _ _ | RJ _ => False | _ => True end) ->
  new s = c /\ extra s = None /\ upgraded s = false.
Proof.
  intros E Hi. unfold rv_step in E. destruct (inst c); try done.
  - destruct (vlab v); [destruct last; [|done]|]; by injection E as <-.
  - destruct (vlab v); by injection E as <-.
  - by injection E as <-.
Qed.
(** The first of a pair. *)
Lemma pair_first t last st a o rs1 rs2 v c1 c2 s : Rv_spec.reg_ok rs1 -> Rv_spec.reg_ok rs2 -> pair_form o rs1 rs2 v c1 c2 -> rv_step t last st a c1 = Some s ->
  extra s = None /\ upgraded s = false /\ pair_form o rs1 rs2 v (new s) c2 /\ length (buf (new s)) = length (buf c1) /\
  (u64 (a + Z.of_nat (length (buf c1)) + 4) <> 0 -> Rv_proof.dec1 (buf (new s)) (Rv_spec.BBr (inverse o) rs1 rs2 (Z.of_nat (length (buf c1)) + 4))).
Proof.
  intros H1 H2 (P1 & P2 & P3 & P4 & P5) E. unfold rv_step in E. rewrite P1 in E.
  pose proof (b_form_length _ _ _ _ P2) as Hl.
  assert (Hw : within (Z.of_nat (length (buf c1)) + 4) 8 = true) by (rewrite Hl; by destruct (long c1)).
  apply (step_b t st a (inverse o) rs1 rs2 (Value None (Z.of_nat (length (buf c1)) + 4))) in E; [|done..].
  unfold b_target in E. cbn [vlab vofs] in E. cbv zeta in E. rewrite (small_const a _ Hw) in E.
  destruct E as [(E1 & E2 & E3 & E4 & E5 & E6)|[(E & _)|(E & _)]].
  - assert (Hl' : length (buf (new s)) = length (buf c1)) by (rewrite (b_form_length _ _ _ _ E5), E4; by rewrite Hl).
    split; [done|]. split; [done|]. split; [|split; [done|]].
    + split; [rewrite E3, P1; by rewrite Hl'|]. done.
    + intros Hn. apply E6; [by rewrite Z.add_assoc|]. rewrite Hl. by destruct (long c1).
  - by rewrite Hw in E.
  - by rewrite (within_mono _ 8 12) in E.
Qed.
Lemma pair_second t last st a o rs1 rs2 v n c1 c2 s : vlab v = Some n -> pair_form o rs1 rs2 v c1 c2 -> rv_step t last st a c2 = Some s ->
  extra s = None /\ upgraded s = false /\ pair_form o rs1 rs2 v c1 (new s) /\ length (buf (new s)) = length (buf c2) /\
  (rv_target t v n <> 0 -> s64 (rv_target t v n - a) mod 2 = 0 -> Rv_proof.dec1 (buf (new s)) (Rv_spec.BJal 0 (s64 (rv_target t v n - a)))).
Proof.
  intros Hv (P1 & P2 & P3 & P4 & P5) E. unfold rv_step in E. rewrite P3 in E. apply (step_j t st a v n) in E as (E1 & E2 & E3 & E4 & E5 & E6); [|done..].
  specialize (E5 P4). specialize (E4 E5). split; [done|]. split; [done|]. split; [|split].
  - split_and!; try done. by rewrite E4.
  - rewrite (j_form_length _ E3), E4. by rewrite (j_form_length _ P5).
  - intros. by apply E6.
Qed.

(** ** Running the code *)
Lemma exec1_dec r a bs b : Rv_proof.dec1 bs b -> exec1 r a bs = next r a (Z.of_nat (length bs)) b.
Proof. intros H. unfold exec1. apply Rv_proof.decs_one, Rv_proof.decs_decodes in H. unfold Rv_spec.decodes in H. by rewrite H. Qed.
Lemma taken_inverse r o rs1 rs2 : taken r (inverse o) rs1 rs2 = negb (taken r o rs1 rs2).
Proof. destruct o; cbn [inverse taken]; rewrite ?negb_involutive; try done; lia. Qed.
Lemma even_u64 x : u64 x mod 2 = x mod 2.
Proof. exact (mod_u64 1 x ltac:(lia)). Qed.
Lemma even_s64 x : s64 x mod 2 = x mod 2.
Proof. destruct (s64_div x) as [k ->]. replace (x + k * 2 ^ 64) with (x + (k * 2 ^ 63) * 2) by lia. apply Z.mod_add. done. Qed.
Lemma even_plus4 x : (x - 4) mod 2 = x mod 2.
Proof. replace (x - 4) with (x + (-2) * 2) by lia. by rewrite Z.mod_add. Qed.
Lemma even_plus2 x : (x - 2) mod 2 = x mod 2.
Proof. replace (x - 2) with (x + (-1) * 2) by lia. by rewrite Z.mod_add. Qed.
Lemma goes a d : u64 d = d -> u64 (a + s64 (d - a)) = d.
Proof. intros H. rewrite u64_s64. rewrite <- H at 2. f_equal. lia. Qed.

Lemma rv_final t st c cs ps : rv_R c cs ->
  Forall2 (fun c p => exists last s, rv_step t last st p.1 c = Some s /\ upgraded s = false /\ p.2 = new s) cs ps ->
  (forall p1 p2, ps = [p1; p2] -> p2.1 = u64 (p1.1 + Z.of_nat (length (buf p1.2)))) -> rv_right t c ps.
Proof.
  intros HR HF Hc. unfold rv_right, rv_R in *. destruct (inst c) as [o rs1 rs2 v|v|v|v|] eqn:Ei.
  - destruct HR as (H1 & H2 & [n Hv] & [(c' & -> & Hi & Hf)|(c1 & c2 & -> & Hp)]).
    + apply Forall2_cons_inv_l in HF as ([a c2] & ps' & (last & s & Es & Hu & Hn) & HF & ->). apply Forall2_nil_inv_l in HF as ->. cbn in Es, Hn. subst c2.
      exists a, (new s), []. split; [done|]. split. { intros [|i] x y; [done|]. by destruct i. }
      intros d Hd Hd0 Hp0 He r. match type of Hp0 with ?p <> 0 => set (past := p) in * end. unfold rv_step in Es. rewrite Hi in Es. apply step_b in Es; [|done..].
      unfold b_target in Es. rewrite Hv in Es. unfold destination in Hd. rewrite Hv in Hd. unfold rv_target in Es.
      destruct (t !! n) as [b|]; [|done]. cbv zeta in Es. assert (u64 (b + vofs v) = d) as Hbd by congruence. rewrite Hbd in Es.
      destruct Es as [(E1 & E2 & E3 & E4 & E5 & E6)|[(_ & _ & E & _)|(_ & E & _)]]; [|congruence|congruence].
      cbn [fmap list_fmap exec snd]. rewrite (exec1_dec _ _ _ _ (E6 Hd0 ltac:(by rewrite even_s64))). cbn [next].
      destruct (taken r o rs1 rs2); f_equal.
      * apply goes. rewrite <- Hbd. by rewrite u64_u64.
      * unfold past. cbn. by rewrite app_nil_r.
    + apply Forall2_cons_inv_l in HF as ([a c1'] & ps' & (last & s & Es & Hu & Hn) & HF & ->). cbn in Es, Hn. subst c1'.
      apply Forall2_cons_inv_l in HF as ([a2 c2'] & ps2 & (last2 & s2 & Es2 & Hu2 & Hn2) & HF & ->). cbn in Es2, Hn2. subst c2'. apply Forall2_nil_inv_l in HF as ->.
      specialize (Hc _ _ eq_refl). cbn in Hc.
      exists a, (new s), [(a2, new s2)]. split; [done|]. split. { intros [|[|i]] x y Hx Hy; [|done|done]. cbn in Hx, Hy. by injection Hx as <-; injection Hy as <-. }
      intros d Hd Hd0 Hp0 He r. match type of Hp0 with ?p <> 0 => set (past := p) in * end. unfold destination in Hd. rewrite Hv in Hd.
      destruct (pair_first _ _ _ _ _ _ _ _ _ _ _ H1 H2 Hp Es) as (F1 & F2 & F3 & F4 & F5).
      destruct (pair_second _ _ _ _ _ _ _ _ _ _ _ _ Hv Hp Es2) as (G1 & G2 & G3 & G4 & G5).
      unfold rv_target in G5. destruct (t !! n) as [b|] eqn:Et; [|done]. assert (u64 (b + vofs v) = d) as Hbd by congruence. rewrite Hbd in G5.
      assert (L2 : length (buf (new s2)) = 4%nat). { destruct G3 as (_ & _ & _ & L & J). rewrite (j_form_length _ J), L. done. }
      assert (Hpast : past = u64 (a + Z.of_nat (length (buf c1)) + 4)).
      { unfold past. cbn. rewrite app_nil_r, app_length, F4, L2. f_equal. lia. }
      rewrite Hpast in *. specialize (F5 Hp0).
      cbn [fmap list_fmap exec snd]. rewrite (exec1_dec _ _ _ _ F5). cbn [next]. rewrite taken_inverse, F4 in *.
      assert (Hd64 : u64 d = d) by (rewrite <- Hbd; apply u64_u64).
      destruct (taken r o rs1 rs2); cbn [negb].
      * rewrite Z.eqb_refl, <- Hc. assert (Hev : s64 (d - a2) mod 2 = 0).
        { rewrite even_s64, Hc. destruct (u64_div (a + Z.of_nat (length (buf c1)))) as [k ->].
          replace (d - (a + Z.of_nat (length (buf c1)) - k * 2 ^ 64)) with (d - (a + Z.of_nat (length (buf c1))) + (k * 2 ^ 63) * 2) by lia. rewrite Z.mod_add by done.
          destruct Hp as (_ & P2 & _). rewrite (b_form_length _ _ _ _ P2). destruct (long c1).
          - rewrite <- He. replace (d - (a + Z.of_nat 4)) with (d - a - 4) by lia. apply even_plus4.
          - rewrite <- He. replace (d - (a + Z.of_nat 2)) with (d - a - 2) by lia. apply even_plus2. }
        rewrite (exec1_dec _ _ _ _ (G5 Hd0 Hev)). cbn [next]. f_equal. by apply goes.
      * rewrite Z.add_assoc. destruct (Z.eqb_spec (u64 (a + Z.of_nat (length (buf c1)) + 4)) (u64 (a + Z.of_nat (length (buf c1))))) as [E|E]; [|done].
        exfalso. unfold u64 in E. pose proof (Z.div_mod (a + Z.of_nat (length (buf c1)) + 4) (2 ^ 64) ltac:(lia)). pose proof (Z.div_mod (a + Z.of_nat (length (buf c1))) (2 ^ 64) ltac:(lia)). lia.
  - destruct HR as ([n Hv] & c' & -> & Hi & Hf).
    apply Forall2_cons_inv_l in HF as ([a c2] & ps' & (last & s & Es & Hu & Hn) & HF & ->). apply Forall2_nil_inv_l in HF as ->. cbn in Es, Hn. subst c2.
    exists a, (new s). split; [done|]. intros d Hd Hd0 He Hl r. unfold rv_step in Es. rewrite Hi in Es. apply (step_j t st a v n) in Es as (E1 & E2 & E3 & E4 & E5 & E6); [|done..].
    unfold destination in Hd. rewrite Hv in Hd. unfold rv_target in E6. destruct (t !! n) as [b|]; [|done]. cbv zeta in E6. assert (u64 (b + vofs v) = d) as Hbd by congruence. rewrite Hbd in E6.
    rewrite (E4 Hu) in Hl. cbn [exec]. rewrite (exec1_dec _ _ _ _ (E6 Hl Hd0 ltac:(by rewrite even_s64))). cbn [next]. f_equal. apply goes. rewrite <- Hbd. apply u64_u64.
  - subst cs. apply Forall2_cons_inv_l in HF as ([a c2] & ps' & (last & s & Es & Hu & Hn) & HF & ->). apply Forall2_nil_inv_l in HF as ->. cbn in Es, Hn. subst c2.
    apply rv_step_other in Es as [-> _]; [by exists a|by rewrite Ei].
  - subst cs. apply Forall2_cons_inv_l in HF as ([a c2] & ps' & (last & s & Es & Hu & Hn) & HF & ->). apply Forall2_nil_inv_l in HF as ->. cbn in Es, Hn. subst c2.
    apply rv_step_other in Es as [-> _]; [by exists a|by rewrite Ei].
  - subst cs. apply Forall2_cons_inv_l in HF as ([a c2] & ps' & (last & s & Es & Hu & Hn) & HF & ->). apply Forall2_nil_inv_l in HF as ->. cbn in Es, Hn. subst c2.
    apply rv_step_other in Es as [-> _]; [by exists a|by rewrite Ei].
Qed.

Lemma rv_fresh_R c : rv_fresh c -> rv_R c [c].
Proof.
  unfold rv_fresh, rv_R. destruct (inst c) eqn:Ei; try done.
  - intros (Hc & H1 & H2 & Hv). split_and!; try done. left. exists c. split; [done|]. split; [done|]. rewrite Hc. by apply rv_bxx_form.
  - intros [Hc Hv]. split; [done|]. exists c. split; [done|]. split; [done|]. by rewrite Hc.
Qed.

Theorem rv_done fuel a ss t ss' t' us : parsed rv_fresh ss t -> settle rv_step fuel a ss t = Done ss' t' us ->
  placed a ss' t' /\ rewritten_all (rv_right t') ss ss'.
Proof.
  intros Hp E. assert (Hnd : NoDup (all_labels ss)) by apply Hp.
  refine (settle_done rv_step _ rv_R _ _ _ _ _ rv_right _ a ss fuel ss t ss' t' us _ Hnd E).
  - intros t1 last st b c s Es Hu. apply rv_step_mu in Es as [_ Es]. by apply Es.
  - intros c cs HR. unfold rv_R in HR. destruct (inst c).
    + destruct HR as (_ & _ & _ & [(c' & -> & _)|(c1 & c2 & -> & _)]); [left; by eexists|right; by do 2 eexists].
    + destruct HR as (_ & c' & -> & _). left. by eexists.
    + left. by eexists. + left. by eexists. + left. by eexists.
  - intros c c1 t1 last st b s HR Es. unfold rv_R in *. destruct (inst c) as [o rs1 rs2 v|v|v|v|] eqn:Ei.
    + destruct HR as (H1 & H2 & Hv & [(c' & [= ->] & Hi & Hf)|(c1' & c2 & [=] & _)]). unfold rv_step in Es. rewrite Hi in Es.
      apply step_b in Es as [(E1 & E2 & E3 & E4 & E5 & _)|[(_ & E1 & _ & _ & E3 & E5)|(_ & _ & _ & -> & E5)]]; [..|done|done|done|done].
      * rewrite E1. split_and!; try done. left. exists (new s). by rewrite E3.
      * rewrite E1. split_and!; try done. left. exists (new s). by rewrite E3.
      * split_and!; try done. right. exists (new s), (rv_jal v). split; [done|]. rewrite E5.
        destruct (rv_bxx_form (inverse o) rs1 rs2 (Value None (Z.of_nat (length (asm_bxx (inverse o) rs1 rs2)) + 4)) H1 H2) as [F1 F2].
        split; [by rewrite F2|]. split; [done|]. split; [done|]. split; [done|]. apply rv_jal_form.
    + destruct HR as (Hv & c' & [= ->] & Hi & Hf). unfold rv_step in Es. rewrite Hi in Es. destruct Hv as [n Hv].
      apply (step_j t1 st b v n) in Es as (E1 & E2 & E3 & _); [|done..]. rewrite E1. split; [done|]. exists (new s). by rewrite E2.
    + injection HR as ->. apply rv_step_other in Es as (-> & -> & _); [done|by rewrite Ei].
    + injection HR as ->. apply rv_step_other in Es as (-> & -> & _); [done|by rewrite Ei].
    + injection HR as ->. apply rv_step_other in Es as (-> & -> & _); [done|by rewrite Ei].
  - intros c c1 c2 t1 last st b s HR Es. unfold rv_R in *. destruct (inst c) as [o rs1 rs2 v|v|v|v|] eqn:Ei; [|by destruct HR as (_ & c' & H & _)|done..].
    destruct HR as (H1 & H2 & Hv & [(c' & [=] & _)|(c1' & c2' & [= -> ->] & Hf)]).
    apply (pair_first t1 last st b o rs1 rs2 v _ c2') in Es as (E1 & E2 & E3 & _); [|done..].
    split; [done|]. split_and!; try done. right. by exists (new s), c2'.
  - intros c c1 c2 t1 last st b s HR Es. unfold rv_R in *. destruct (inst c) as [o rs1 rs2 v|v|v|v|] eqn:Ei; [|by destruct HR as (_ & c' & H & _)|done..].
    destruct HR as (H1 & H2 & [n Hv] & [(c' & [=] & _)|(c1' & c2' & [= -> ->] & Hf)]).
    apply (pair_second t1 last st b o rs1 rs2 v n c1') in Es as (E1 & E2 & E3 & _); [|done..].
    split; [done|]. split_and!; try done. right. by exists c1', (new s).
  - intros c cs c1 t1 last st b s HR Hc Es Hu. unfold rv_R in *. destruct (inst c) as [o rs1 rs2 v|v|v|v|] eqn:Ei.
    + destruct HR as (H1 & H2 & [n Hv] & [(c' & -> & Hi & Hf)|(c1' & c2 & -> & Hf)]).
      * apply elem_of_list_singleton in Hc as ->. unfold rv_step in Es. rewrite Hi in Es.
        apply step_b in Es as [(E1 & E2 & E3 & E4 & E5 & _)|[(_ & E1 & EE & _)|(_ & EE & _)]]; [|congruence|congruence|done..].
        by rewrite (b_form_length _ _ _ _ E5), (b_form_length _ _ _ _ Hf), E4.
      * apply elem_of_cons in Hc as [->|Hc%elem_of_list_singleton].
        -- by apply (pair_first t1 last st b o rs1 rs2 v _ c2) in Es as (_ & _ & _ & EE & _).
        -- subst c2. by apply (pair_second t1 last st b o rs1 rs2 v n c1') in Es as (_ & _ & _ & EE & _).
    + destruct HR as ([n Hv] & c' & -> & Hi & Hf). apply elem_of_list_singleton in Hc as ->. unfold rv_step in Es. rewrite Hi in Es.
      apply (step_j t1 st b v n) in Es as (E1 & E2 & E3 & E4 & _); [|done..]. by rewrite (j_form_length _ E3), (j_form_length _ Hf), (E4 Hu).
    + subst cs. apply elem_of_list_singleton in Hc as ->. apply rv_step_other in Es as (-> & _); [done|by rewrite Ei].
    + subst cs. apply elem_of_list_singleton in Hc as ->. apply rv_step_other in Es as (-> & _); [done|by rewrite Ei].
    + subst cs. apply elem_of_list_singleton in Hc as ->. apply rv_step_other in Es as (-> & _); [done|by rewrite Ei].
  - apply rv_final.
  - by apply (parsed_inv _ rv_fresh _ t rv_fresh_R).
Qed.
