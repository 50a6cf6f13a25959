(** aarch64 sections from the source to the linked bytes. *)
From stdpp Require Import base list list_numbers numbers gmap option.
From Verif Require Import Util.Data_model As.Asm_model As.Asm_arch_model As.Asm_spec As.Asm_proof As.Asm_res_proof As.Asm_arch_proof As.Asm_a64_proof.
From Verif Require Import As.Refs_model As.Refs_spec As.Refs_link_proof As.Refs_proof As.Refs_x64_proof.
From Verif Require Ld.Rela_model Ld.Rela_spec Ld.Rela_proof.
From Coq Require Import Lia.
Local Open Scope Z_scope.

Lemma a64_good : good a64_step a64_R.
Proof.
  split.
  - intros t1 last st b c s Es _. by apply a64_step_small in Es as [Es _].
  - intros c cs (c' & -> & _). left. by exists c'.
  - intros c c1 t1 last st b s (c' & [= ->] & Hi & Hf & Hm) Es. apply a64_step_form in Es as (G1 & G2 & G3 & -> & _ & G4); [|done].
    exists (new s). split; [done|]. split; [congruence|]. split; [done|]. rewrite Hi in G4.
    destruct (inst c); try done; by rewrite G4, Hm.
  - intros c c1 c2 t1 last st b s (c' & H & _). done.
  - intros c c1 c2 t1 last st b s (c' & H & _). done.
  - intros c cs c1 t1 last st b s (c' & -> & Hi & Hf & Hm) Hc Es Hu. apply elem_of_list_singleton in Hc as ->.
    by apply a64_step_form in Es as (G1 & G2 & G3 & _); [|done].
Qed.

Lemma refers_add sym ty n o ofs d : - 2 ^ 31 + 4 <= ofs < 2 ^ 31 -> d = u64 (sym n + ofs) -> forall u, u = Unres ty n o (s32 ofs) ->
  u64 (sym (ulabel u) + uadd u) = d.
Proof. intros Ho -> u ->. cbn [ulabel uadd]. unfold s32. rewrite Z.mod_small by lia. f_equal. lia. Qed.
Lemma ref_offset0 st o n : Z.of_nat (o + n) < 2 ^ 64 -> Z.to_nat (u64 (u64 (st + Z.of_nat o) - st)) = o.
Proof. intros Hl. pose proof (ref_offset st o 0 n Hl ltac:(lia)) as H. replace (u64 (st + Z.of_nat o) + Z.of_nat 0 - st) with (u64 (st + Z.of_nat o) - st) in H by lia. rewrite H. lia. Qed.

Lemma a64_code sym sec t st own : meets t sym sec st own ->
  code_good a64_step a64_R (a64_rela sym) sec (a64_image sym own) a64_words t st.
Proof.
  intros Hme c cs ps us g o Hfr (c' & -> & Hi & Hf & Hm) Hst Hpos Hg Hst0 Hl.
  inversion Hst as [|? a last s ? ps' us' Es Hu Hst']; subst. inversion Hst'; subst. clear Hst Hst'.
  pose proof (a64_step_form _ _ _ _ _ _ Es Hf) as (G1 & G2 & Glen & _ & _ & G3). rewrite app_nil_r in Hg.
  unfold bytes_of in *. cbn [mbind list_bind snd] in *. rewrite app_nil_r in *. cbn [pos_ok fst snd] in Hpos. destruct Hpos as [Ha _].
  set (w := buf (new s)) in *. rewrite Hi in G3. assert (Hl2 : Z.of_nat (o + length w) < 2 ^ 64) by lia. clear Hl. rename Hl2 into Hl.
  assert (Kjmp : forall cond v n d, a64_branches (inst c) = Some (cond, v) -> refers sym v n d -> own n ->
    (forall d, destination t v = Some d -> exists disp cond', a64_branches (inst c) = Some (cond', v) /\ a64_branch w = Some (cond', disp) /\ u64 (a + disp) = d) ->
    exists disp, a64_branch w = Some (cond, disp) /\ u64 (u64 (sec + Z.of_nat o) + disp) = d).
  { intros cond v n d Hj (Hv & _ & ->) Hn Hdest. destruct (Hme n Hn) as (p & Hp & ->).
    destruct (Hdest (u64 (st + (p + vofs v)))) as (disp & cond' & Hj' & Hx & Hu'). { unfold destination. rewrite Hv, Hp, u64_u64_l. by rewrite Z.add_assoc. }
    exists disp. split; [congruence|]. rewrite Ha in Hu'. rewrite (u64_u64_l (sec + p)), <- (Z.add_assoc sec p). by apply (u64_move st). }
  assert (Kkeep : forall b b', slice o (length w) b = w -> linked sec o (length w) [] b b' -> slice o (length w) b' = w) by (intros b b' Hb Hli; rewrite (unlinked _ _ _ _ _ Hli); done).
  assert (Kpatch : forall d, a64_patch a d c' = Some s -> refs s = []).
  { intros d E. unfold a64_patch in E. destruct (inst c'); destruct (_ || _); try done; by injection E as <-. }
  unfold a64_step in Es. unfold a64_image. destruct (inst c) as [v|cc v|v|k v|] eqn:Ei; rewrite Hi in Es.
  - assert (Hr : refs s = []) by (destruct (vlab v) as [n|]; [destruct (t !! n); [|done]|]; by eapply Kpatch).
    rewrite Hr in Hg. cbn in Hg. injection Hg as <-. split; [apply group_nil|]. intros b b' Hb _ _ Hli n d Href Hn. rewrite (Kkeep _ _ Hb Hli). by apply (Kjmp None v n).
  - assert (Hr : refs s = []) by (destruct (vlab v) as [n|]; [destruct (t !! n); [|done]|]; by eapply Kpatch).
    rewrite Hr in Hg. cbn in Hg. injection Hg as <-. split; [apply group_nil|]. intros b b' Hb _ _ Hli n d Href Hn. rewrite (Kkeep _ _ Hb Hli). by apply (Kjmp (Some cc) v n).
  - destruct (vlab v) as [n|] eqn:Ev.
    2: { injection Es as <-. cbn in Hg. injection Hg as <-. split; [apply group_nil|]. intros b b' Hb _ _ Hli n' d (Hv & _). congruence. }
    injection Es as <-. cbn [refs new] in *. cbn in Hg. injection Hg as <-. subst c'.
    unfold a64_words in Hfr. rewrite Ei in Hfr. cbn [a64_asm] in Hfr. injection Hfr as Hfr. assert (Hw : w = le 4 0x94000000) by (unfold w; by rewrite <- Hfr).
    assert (Lw : length w = 4%nat) by (by rewrite Hw).
    set (r := rela _ _ _). assert (Hro : Rela_model.r_offset r = o) by (cbn; rewrite Ha; by apply (ref_offset0 st o (length w))).
    assert (Hfd : Rela_spec.field [r] 0 r = ((o + 0)%nat, 4%nat)) by (unfold Rela_spec.field; cbn [r rela Rela_model.r_type]; rewrite Hro; f_equal; lia).
    split; [apply (group_one o _ 0 4 r); [done|rewrite Lw; lia|done]|]. rewrite Lw in *. intros b b' Hb Hlb Hlb' (_ & Hach & _) n' d (Hv & Hofs & Hd). assert (n' = n) as -> by congruence.
    split; [rewrite take_length, drop_length; lia|]. specialize (Hach 0%nat r eq_refl). unfold Rela_spec.achieves in Hach. cbn [r rela Rela_model.r_type Rela_model.r_offset] in Hach. fold r in Hach. change (Z.to_nat _) with (Rela_model.r_offset r) in Hach.
    rewrite Hro, !at_slice, Hb in Hach. destruct Hach as [Hs Hreach]. split.
    + apply stdpp.list.Forall_cons in Hs as [Hs _]. cbn [fst snd] in Hs. rewrite Hs, Hw. done.
    + assert (Htar : Rela_model.r_target r = d) by (cbn [r rela Rela_model.r_target]; by apply (refers_add sym UCall n (u64 (a - st)) (vofs v))).
      intros H1 H2. rewrite Htar in Hreach. unfold Rela_spec.distance, Rela_spec.place in Hreach. rewrite Htar, Hro in Hreach. by apply Hreach.
  - destruct (vlab v) as [n|] eqn:Ev.
    2: { injection Es as <-. cbn in Hg. injection Hg as <-. split; [apply group_nil|]. intros b b' Hb _ _ Hli. destruct k; try done; intros n' d (Hv & _); congruence. }
    injection Es as <-. cbn [refs new] in *. subst c'. unfold a64_words in Hfr. rewrite Ei in Hfr. destruct Hfr as [Lw Hk].
    change (length w = 4%nat) in Lw. cbn [mapM mbind option_bind] in Hg.
    destruct (a64_rela sym _) as [r|] eqn:Er; [|done]. cbn in Hg. injection Hg as <-.
    assert (Hro : Rela_model.r_offset r = o). { unfold a64_rela in Er. cbn [ukind_of] in Er. destruct k; try done; injection Er as <-; cbn; rewrite Ha; by apply (ref_offset0 st o (length w)). }
    assert (Htar : forall n d, refers sym v n d -> Rela_model.r_target r = d).
    { intros n' d (Hv & Hofs & Hd). assert (n' = n) as -> by congruence. unfold a64_rela in Er. cbn [ukind_of] in Er.
      destruct k; try done; injection Er as <-; exact (refers_add sym _ n (u64 (a - st)) (vofs v) d Hofs Hd _ eq_refl). }
    destruct Hk as [Hk|[Hk|Hk]].
    + subst k. assert (Hty : Rela_model.r_type r = Rela_model.A_PG_HI21) by (unfold a64_rela in Er; cbn in Er; by injection Er as <-).
      assert (Hfd : Rela_spec.field [r] 0 r = ((o + 0)%nat, 4%nat)) by (unfold Rela_spec.field; rewrite Hty, Hro; f_equal; lia).
      split; [apply (group_one o _ 0 4 r); [done|rewrite Lw; lia|by rewrite Hty]|]. rewrite Lw in *. intros b b' Hb Hlb Hlb' (_ & Hach & _) n' d Href.
      specialize (Hach 0%nat r eq_refl). unfold Rela_spec.achieves in Hach. cbv zeta in Hach. rewrite Hty, Hro, !at_slice, Hb, (Htar n' d Href) in Hach.
      unfold Rela_spec.place in Hach. rewrite Hro in Hach. exact Hach.
    + subst k. assert (Hty : Rela_model.r_type r = Rela_model.A_ADD_LO12) by (unfold a64_rela in Er; cbn in Er; by injection Er as <-).
      assert (Hfd : Rela_spec.field [r] 0 r = ((o + 0)%nat, 4%nat)) by (unfold Rela_spec.field; rewrite Hty, Hro; f_equal; lia).
      split; [apply (group_one o _ 0 4 r); [done|rewrite Lw; lia|by rewrite Hty]|]. rewrite Lw in *. intros b b' Hb Hlb Hlb' (_ & Hach & _) n' d Href.
      specialize (Hach 0%nat r eq_refl). unfold Rela_spec.achieves in Hach. cbv zeta in Hach. rewrite Hty, Hro, !at_slice, Hb, (Htar n' d Href) in Hach. exact Hach.
    + assert (Hty : Rela_model.r_type r = Rela_model.A_GOT) by (unfold a64_rela in Er; destruct Hk as [-> | ->]; cbn in Er; by injection Er as <-).
      split; [|by destruct Hk as [-> | ->]]. assert (Hfd : Rela_spec.field [r] 0 r = ((o + 0)%nat, 0%nat)) by (unfold Rela_spec.field; rewrite Hty, Hro; f_equal; lia).
      apply (group_one o _ 0 0 r); [done|lia|by rewrite Hty].
  - injection Es as <-. cbn in Hg. injection Hg as <-. split; [apply group_nil|]. intros b b' Hb _ _ Hli. rewrite (Kkeep _ _ Hb Hli). unfold w. cbn. by rewrite Hm.
Qed.

Theorem a64_refs sym sec fuel a ss t ss' t' us k s0 s u b relas b' :
  parsed a64_fresh ss t -> settle a64_step fuel a ss t = Done ss' t' us ->
  ss !! k = Some s0 -> ss' !! k = Some s -> us !! k = Some u -> bss s = false ->
  emit s = Some (b, 0) -> start s + Z.of_nat (length b) < 2 ^ 64 -> Rela_spec.bytes_ok b ->
  (forall c, ICode c ∈ items s0 -> a64_words c) -> exprs_ok (items s0) -> own_labels sym sec (items s) ->
  mapM (a64_rela sym) u = Some relas -> Rela_model.apply_relas sec relas b = Rela_model.Ok (b', 0%nat) ->
  loaded (piece sym sec (a64_image sym (fun n => n ∈ labels (items s0)))) (u64 sec) (items s0) b'.
Proof.
  intros Hp E Hk0 Hk Hu Hb He Hl Hbo Hw Hx Ho Hrel Happ.
  refine (refs_image a64_step a64_R a64_fresh sym sec (a64_rela sym) (fun own _ => a64_image sym own) (fun _ => a64_words) fuel a ss t ss' t' us k s0 s u b relas b' a64_good a64_fresh_R _ _ _ Hp E Hk0 Hk Hu Hb He Hl Hbo Hw Hx Ho Hrel Happ).
  - intros u0 r Hk' Hr. unfold a64_rela in Hr. rewrite Hk' in Hr. injection Hr as <-. cbn. by split; [right; left|].
  - intros u0 r Hr. unfold a64_rela in Hr. destruct (ukind_of u0); try done; injection Hr as <-; apply u64_range.
  - intros t0 st own Hme. by apply a64_code.
Qed.
