(** Branches of aarch64 in the loop of the assembler. *)
From stdpp Require Import base list numbers gmap option.
From Verif Require Import Util.Data_model As.Asm_model As.Asm_arch_model As.Asm_spec As.Asm_proof As.Asm_res_proof As.Asm_arch_proof.
From Coq Require Import Lia ZifyBool.
Open Scope Z_scope.

(** ** Fields under masks *)
Lemma shiftl_land x k s : 0 <= k -> 0 <= s -> 0 <= x < 2 ^ k -> Z.shiftl x s = Z.land (Z.shiftl x s) (Z.shiftl (Z.ones k) s).
Proof. intros Hk Hs Hx. rewrite <- Z.shiftl_land. f_equal. rewrite Z.land_ones by done. by rewrite Z.mod_small. Qed.
(** A field outside the mask. *)
Lemma field_out x k s m : 0 <= k -> 0 <= s -> 0 <= x < 2 ^ k -> Z.land (Z.shiftl (Z.ones k) s) m = 0 -> Z.land (Z.shiftl x s) m = 0.
Proof. intros Hk Hs Hx Hm. rewrite (shiftl_land x k s) by done. rewrite <- Z.land_assoc, Hm. apply Z.land_0_r. Qed.
(** A field inside it. *)
Lemma field_in x k s m : 0 <= k -> 0 <= s -> 0 <= x < 2 ^ k -> Z.land (Z.shiftl (Z.ones k) s) m = Z.shiftl (Z.ones k) s -> Z.land (Z.shiftl x s) m = Z.shiftl x s.
Proof. intros Hk Hs Hx Hm. rewrite (shiftl_land x k s) at 1 by done. rewrite <- Z.land_assoc, Hm. by rewrite <- shiftl_land. Qed.
Lemma lor_disjoint x y : Z.land x y = 0 -> Z.lor x y = x + y.
Proof. intros H. rewrite Z.add_nocarry_lxor by done. by rewrite Z.lxor_lor. Qed.
(** A number with a part under the mask, to which a part outside is added. *)
Lemma masked base y m : Z.land base m = base -> Z.land y m = 0 -> Z.land (Z.lor base y) m = base /\ Z.lor base y = base + y.
Proof.
  intros Hb Hy. split.
  - by rewrite Z.land_lor_distr_l, Hb, Hy, Z.lor_0_r.
  - apply lor_disjoint. rewrite <- Hb, <- Z.land_assoc, (Z.land_comm m), Hy. apply Z.land_0_r.
Qed.
Lemma land_mod32 w m : Z.land m (Z.ones 32) = m -> Z.land (w mod 2 ^ 32) m = Z.land w m.
Proof. intros H. rewrite <- Z.land_ones by lia. rewrite <- Z.land_assoc, (Z.land_comm (Z.ones 32)), H. done. Qed.

(** ** Words *)
Definition a64_form (c : code ainst) : Prop :=
  match inst c with
  | AB _ => exists w, buf c = le 4 w /\ Z.land w 0xfc000000 = 0x14000000
  | ABcc cc _ => 0 <= cc < 16 /\ exists w, buf c = le 4 w /\ Z.land w 0xff00001f = Z.lor 0x54000000 cc
  | _ => True
  end.
Definition a64_R (c : code ainst) (cs : list (code ainst)) : Prop :=
  exists c', cs = [c'] /\ inst c' = inst c /\ a64_form c' /\
  match inst c with AB _ | ABcc _ _ => True | _ => c' = c end.

Lemma cond_in cc : 0 <= cc < 16 -> Z.land (Z.lor 0x54000000 cc) 0xff00001f = Z.lor 0x54000000 cc /\ Z.lor 0x54000000 cc = 0x54000000 + cc.
Proof.
  intros H. assert (Hc : forallb (fun cc => (Z.land (Z.lor 0x54000000 cc) 0xff00001f =? Z.lor 0x54000000 cc) && (Z.lor 0x54000000 cc =? 0x54000000 + cc)) (seqZ 0 16) = true) by (vm_compute; done).
  rewrite forallb_forall in Hc. specialize (Hc cc). rewrite <- elem_of_list_In, elem_of_seqZ in Hc. specialize (Hc ltac:(lia)). lia.
Qed.

Lemma imm26 ofs : - 2 ^ 27 <= ofs < 2 ^ 27 -> ofs mod 4 = 0 ->
  exists k, 0 <= k < 2 ^ 26 /\ Z.land (Z.shiftr ofs 2) (2 ^ 26 - 1) = k /\ sext 28 (k * 4) = ofs.
Proof.
  intros H H4. exists (ofs / 4 mod 2 ^ 26). split; [apply Z.mod_pos_bound; lia|]. split.
  - change (2 ^ 26 - 1) with (Z.ones 26). rewrite Z.land_ones, Z.shiftr_div_pow2 by lia. done.
  - rewrite <- (sext_mod 28 ofs) at 2 by lia. f_equal.
    rewrite (Z.mul_comm _ 4), <- Z.mul_mod_distr_l by lia. change (4 * 2 ^ 26) with (2 ^ 28). f_equal.
    pose proof (Z.div_mod ofs 4). lia.
Qed.
Lemma imm19 ofs : - 2 ^ 20 <= ofs < 2 ^ 20 -> ofs mod 4 = 0 ->
  exists k, 0 <= k < 2 ^ 19 /\ Z.shiftl (Z.land ofs (2 ^ 21 - 1)) 3 = Z.shiftl k 5 /\ sext 21 (k * 4) = ofs.
Proof.
  intros H H4. exists (ofs / 4 mod 2 ^ 19).
  assert (E : ofs / 4 mod 2 ^ 19 * 4 = ofs mod 2 ^ 21).
  { rewrite (Z.mul_comm _ 4), <- Z.mul_mod_distr_l by lia. change (4 * 2 ^ 19) with (2 ^ 21). f_equal. pose proof (Z.div_mod ofs 4). lia. }
  split; [apply Z.mod_pos_bound; lia|]. split.
  - change (2 ^ 21 - 1) with (Z.ones 21). rewrite Z.land_ones by lia. rewrite !Z.shiftl_mul_pow2 by lia. lia.
  - rewrite E. apply sext_mod; lia.
Qed.
Lemma land3 x : Z.land x 3 = x mod 4.
Proof. change 3 with (Z.ones 2). by rewrite Z.land_ones. Qed.

Lemma branch_b k : 0 <= k < 2 ^ 26 -> a64_branch (le 4 (0x14000000 + k)) = Some (None, sext 28 (k * 4)).
Proof.
  intros H. rewrite le4. unfold a64_branch. rewrite bytes4. rewrite (Z.mod_small (335544320 + k)) by lia.
  replace ((335544320 + k) / 2 ^ 26) with 5 by (apply (Z.div_unique_pos _ _ 5 k); lia).
  replace ((335544320 + k) mod 2 ^ 26) with k by (apply (Z.mod_unique_pos _ _ 5 k); lia). done.
Qed.
Lemma branch_cc cc k : 0 <= cc < 16 -> 0 <= k < 2 ^ 19 -> a64_branch (le 4 (0x54000000 + cc + 32 * k)) = Some (Some cc, sext 21 (k * 4)).
Proof.
  intros Hc H. rewrite le4. unfold a64_branch. rewrite bytes4. set (w := 0x54000000 + cc + 32 * k). rewrite (Z.mod_small w) by lia.
  replace (w / 2 ^ 26 =? 5) with false.
  2:{ symmetry. apply Z.eqb_neq. replace (w / 2 ^ 26) with 21; [done|]. apply (Z.div_unique_pos _ _ 21 (cc + 32 * k)); lia. }
  replace (w / 2 ^ 24) with 0x54 by (apply (Z.div_unique_pos _ _ _ (cc + 32 * k)); lia).
  replace (w / 16) with (0x5400000 + 2 * k) by (apply (Z.div_unique_pos _ _ _ cc); lia).
  replace ((0x5400000 + 2 * k) mod 2) with 0 by (apply (Z.mod_unique_pos _ _ (0x2a00000 + k) 0); lia).
  replace (w mod 16) with cc by (apply (Z.mod_unique_pos _ _ (0x5400000 + 2 * k)); lia).
  replace (w / 2 ^ 5) with (0x2a00000 + k) by (apply (Z.div_unique_pos _ _ _ cc); lia).
  replace ((0x2a00000 + k) mod 2 ^ 19) with k by (apply (Z.mod_unique_pos _ _ (0x2a00000 / 2 ^ 19)); [lia|]; change (0x2a00000 / 2 ^ 19) with 84; lia).
  done.
Qed.

Lemma a64_patch_form a d c s : a64_patch a d c = Some s -> (match inst c with AB _ | ABcc _ _ => True | _ => False end) -> a64_form c ->
  inst (new s) = inst c /\ a64_form (new s) /\ length (buf (new s)) = length (buf c) /\ extra s = None /\ upgraded s = false /\
  exists disp cond v, a64_branches (inst c) = Some (cond, v) /\ a64_branch (buf (new s)) = Some (cond, disp) /\ u64 (a + disp) = u64 d.
Proof.
  unfold a64_patch, a64_form. intros E Hj Hf. set (ofs := s64 (d - a)) in *.
  assert (Ho : u64 (a + ofs) = u64 d) by (unfold ofs; rewrite u64_s64; f_equal; lia). rewrite land3 in E.
  destruct (inst c) eqn:Ei; try done.
  - destruct Hf as (w & Hb & Hw). rewrite Hb, word4_le, land_mod32, Hw in E by done.
    destruct ((2 ^ 27 <=? ofs) || (ofs <? - 2 ^ 27) || negb (ofs mod 4 =? 0)) eqn:Er; [done|]. injection E as <-. cbn [new inst buf extra upgraded].
    destruct (imm26 ofs) as (k & Hk & -> & Hs); [lia|lia|].
    assert (Hm : Z.land k 0xfc000000 = 0). { rewrite <- (Z.shiftl_0_r k). apply (field_out k 26); done || lia. }
    destruct (masked 0x14000000 k 0xfc000000 ltac:(done) Hm) as [M1 M2].
    rewrite put4 by apply le_length. split; [done|]. split; [by eexists|]. split; [by rewrite Hb, !le_length|].
    split; [done|]. split; [done|]. exists ofs, None, v. split; [done|]. split; [|done]. rewrite M2, branch_b by done. by rewrite Hs.
  - destruct Hf as (Hc & w & Hb & Hw). rewrite Hb, word4_le, land_mod32, Hw in E by done.
    destruct ((2 ^ 20 <=? ofs) || (ofs <? - 2 ^ 20) || negb (ofs mod 4 =? 0)) eqn:Er; [done|]. injection E as <-. cbn [new inst buf extra upgraded].
    destruct (imm19 ofs) as (k & Hk & -> & Hs); [lia|lia|].
    assert (Hm : Z.land (Z.shiftl k 5) 0xff00001f = 0) by (apply (field_out k 19); done || lia).
    destruct (cond_in cc Hc) as [C1 C2]. destruct (masked _ _ 0xff00001f C1 Hm) as [M1 M2].
    rewrite put4 by apply le_length. split; [done|]. split; [split; [done|by eexists]|]. split; [by rewrite Hb, !le_length|].
    split; [done|]. split; [done|]. exists ofs, (Some cc), v. split; [done|]. split; [|done].
    rewrite M2, C2, Z.shiftl_mul_pow2, (Z.mul_comm k) by lia. rewrite branch_cc by done. by rewrite Hs.
Qed.

Lemma a64_step_form t last st a c s : a64_step t last st a c = Some s -> a64_form c ->
  inst (new s) = inst c /\ a64_form (new s) /\ length (buf (new s)) = length (buf c) /\ extra s = None /\ upgraded s = false /\
  match inst c with
  | AB v | ABcc _ v => forall d, destination t v = Some d ->
      exists disp cond, a64_branches (inst c) = Some (cond, v) /\ a64_branch (buf (new s)) = Some (cond, disp) /\ u64 (a + disp) = d
  | _ => new s = c
  end.
Proof.
  intros E Hf. unfold a64_step in E.
  assert (K : forall v d0, (match inst c with AB w | ABcc _ w => v = w | _ => False end) -> destination t v = Some (u64 d0) -> a64_patch a d0 c = Some s ->
    inst (new s) = inst c /\ a64_form (new s) /\ length (buf (new s)) = length (buf c) /\ extra s = None /\ upgraded s = false /\
    forall d, destination t v = Some d ->
      exists disp cond, a64_branches (inst c) = Some (cond, v) /\ a64_branch (buf (new s)) = Some (cond, disp) /\ u64 (a + disp) = d).
  { intros v d0 Hi Hd E'. apply a64_patch_form in E' as (H1 & H2 & H3 & H4 & H5 & disp & cond & w & G1 & G2 & G3); [|by destruct (inst c)|done].
    split_and!; try done. intros d Hd'. rewrite Hd in Hd'. injection Hd' as <-. exists disp, cond. split; [|done].
    destruct (inst c); try done; cbn in G1; injection G1 as <- <-; by subst v. }
  destruct (inst c) eqn:Ei.
  - destruct (vlab v) as [n|] eqn:Ev; [destruct (t !! n) as [b|] eqn:Et; [|done]|].
    + apply (K v (s64 (vofs v + b))); [done| |done]. unfold destination. rewrite Ev, Et. f_equal. rewrite <- (Z.add_0_l (s64 _)), u64_s64. f_equal. lia.
    + apply (K v (vofs v)); [done| |done]. unfold destination. by rewrite Ev.
  - destruct (vlab v) as [n|] eqn:Ev; [destruct (t !! n) as [b|] eqn:Et; [|done]|].
    + apply (K v (s64 (vofs v + b))); [done| |done]. unfold destination. rewrite Ev, Et. f_equal. rewrite <- (Z.add_0_l (s64 _)), u64_s64. f_equal. lia.
    + apply (K v (vofs v)); [done| |done]. unfold destination. by rewrite Ev.
  - destruct (vlab v); injection E as <-; cbn [new extra upgraded]; by rewrite Ei.
  - destruct (vlab v); injection E as <-; cbn [new extra upgraded]; by rewrite Ei.
  - injection E as <-. cbn [new extra upgraded]. by rewrite Ei.
Qed.
Lemma a64_step_small t last st a c s : a64_step t last st a c = Some s -> extra s = None /\ upgraded s = false.
Proof.
  assert (K : forall d, a64_patch a d c = Some s -> extra s = None /\ upgraded s = false).
  { intros d E. unfold a64_patch in E. destruct (inst c); destruct (_ || _); try done; by injection E as <-. }
  unfold a64_step. intros E. destruct (inst c); try (destruct (vlab v) as [n|]; [destruct (t !! n)|]); try done; try (by eapply K); by injection E as <-.
Qed.

Lemma a64_fresh_R c : a64_fresh c -> a64_R c [c].
Proof.
  intros H. exists c. split; [done|]. split; [done|]. unfold a64_fresh, a64_form in *. destruct (inst c) eqn:Ei; cbn [a64_asm] in *; try done.
  - injection H as <-. cbn [buf]. split; [by eexists|done].
  - destruct H as [H Hc]. injection H as <-. cbn [buf]. split; [|done]. split; [done|]. eexists. split; [done|]. by apply cond_in.
Qed.

Theorem a64_done fuel a ss t ss' t' us : parsed a64_fresh ss t -> settle a64_step fuel a ss t = Done ss' t' us ->
  placed a ss' t' /\ rewritten_all (a64_right t') ss ss'.
Proof.
  intros Hp E. assert (Hnd : NoDup (all_labels ss)) by apply Hp.
  refine (settle_done a64_step _ a64_R _ _ _ _ _ a64_right _ a ss fuel ss t ss' t' us _ Hnd E).
  - intros t1 last st b c s Es _. by apply a64_step_small in Es as [Es _].
  - intros c cs (c' & -> & _). left. by exists c'.
  - intros c c1 t1 last st b s (c' & [= ->] & Hi & Hf & Hm) Es. apply a64_step_form in Es as (G1 & G2 & _ & -> & _ & G3); [|done].
    exists (new s). split; [done|]. split; [congruence|]. split; [done|]. rewrite Hi in G3.
    destruct (inst c); try done; by rewrite G3, Hm.
  - intros c c1 c2 t1 last st b s (c' & H & _). done.
  - intros c c1 c2 t1 last st b s (c' & H & _). done.
  - intros c cs c1 t1 last st b s (c' & -> & Hi & Hf & Hm) Hc Es Hu. apply elem_of_list_singleton in Hc as ->.
    apply a64_step_form in Es as (_ & _ & G3 & _); [|done]. done.
  - intros t1 st c cs ps (c' & -> & Hi & Hf & Hm) HF _. apply Forall2_cons_inv_l in HF as ([b c2] & ps' & (last & s & Es & Hu & Hn) & HF & ->).
    apply Forall2_nil_inv_l in HF as ->. cbn in *. subst c2. apply a64_step_form in Es as (G1 & G2 & Hl & _ & _ & G3); [|done].
    exists b, (new s). split; [done|]. split; [congruence|]. rewrite Hi in G3.
    destruct (inst c); try (by rewrite G3, Hm);
      intros cond d [= <-] Hd; destruct (G3 d Hd) as (disp & cond' & [= <-] & K1 & K2); by exists disp.
  - by apply (parsed_inv _ a64_fresh _ t a64_fresh_R).
Qed.
Theorem a64_ends fuel a ss t : (1 < fuel)%nat -> settle a64_step fuel a ss t <> NoFuel.
Proof.
  intros Hf. apply (settle_ends a64_step (fun _ => 0%nat)).
  - intros t1 last st b c s Es. apply a64_step_small in Es as [-> ->]. done.
  - assert (Hz : forall ss : list (section ainst), mu_sections (fun _ => 0%nat) ss = 0%nat).
    { clear. assert (Hm : forall l : list (item ainst), mus (fun _ => 0%nat) l = 0%nat) by (induction l as [|[] l IH]; cbn in *; done).
      induction ss as [|s ss IH]; [done|]. unfold mu_sections in *. cbn. by rewrite Hm, IH. }
    rewrite Hz. lia.
Qed.
