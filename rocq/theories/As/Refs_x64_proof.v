(** x64 sections from the source to the linked bytes. *)
From stdpp Require Import base list list_numbers numbers gmap option.
From Verif Require Import Util.Data_model As.Asm_model As.Asm_arch_model As.Asm_spec As.Asm_proof As.Asm_res_proof As.Asm_arch_proof.
From Verif Require Import As.Refs_model As.Refs_spec As.Refs_link_proof As.Refs_proof.
From Verif Require Ld.Rela_model Ld.Rela_spec Ld.Rela_proof.
From Coq Require Import Lia.
Local Open Scope Z_scope.

Lemma x64_good : good x64_step x64_R.
Proof.
  split.
  - intros t1 last st b c s Es _. by apply x64_step_mu in Es as [_ Es].
  - intros c cs (c' & -> & _). left. by exists c'.
  - intros c c1 t1 last st b s (c' & [= ->] & Hi & Hf & Hm) Es. apply x64_step_form in Es as (G1 & G2 & -> & G3); [|done].
    exists (new s). split; [done|]. split; [congruence|]. split; [done|]. rewrite Hi in G3.
    destruct (inst c); try done; try (by rewrite G3, Hm); destruct G3 as [_ G3]; intros Hv; rewrite (G3 Hv); by apply Hm.
  - intros c c1 c2 t1 last st b s (c' & H & _). done.
  - intros c c1 c2 t1 last st b s (c' & H & _). done.
  - intros c cs c1 t1 last st b s (c' & -> & Hi & Hf & Hm) Hc Es Hu. apply elem_of_list_singleton in Hc as ->.
    apply x64_step_form in Es as (G1 & G2 & _ & G3); [|done]. destruct (inst c'); try (by destruct (G3 Hu)); try (by rewrite G3); by destruct G3.
Qed.

Lemma group_nil o n : group_ok o n [].
Proof. split; [|split]; by intros j. Qed.
Lemma group_one o n d k r : Rela_spec.field [r] 0 r = ((o + d)%nat, k) -> (d + k <= n)%nat ->
  (match Rela_model.r_type r with Rela_model.R_RELAX | Rela_model.R_PCREL_LO12_I | Rela_model.R_LO12_I => False | _ => True end) -> group_ok o n [r].
Proof.
  intros Hf Hn Ht. split; [|split].
  - intros j r' Hj. destruct j; [|done]. cbn in Hj. injection Hj as <-. by destruct (Rela_model.r_type r).
  - intros j r' Hj. destruct j; [|done]. cbn in Hj. injection Hj as <-. rewrite Hf. cbn. right. lia.
  - intros j k' r1 r2 Hjk Hj Hk. destruct j; [|done]. by destruct k'.
Qed.
Lemma ref_offset st o d n : Z.of_nat (o + n) < 2 ^ 64 -> (d <= n)%nat -> Z.to_nat (u64 (u64 (st + Z.of_nat o) + Z.of_nat d - st)) = (o + d)%nat.
Proof.
  intros Hl Hd. replace (u64 (st + Z.of_nat o) + Z.of_nat d - st) with (u64 (st + Z.of_nat o) + (Z.of_nat d - st)) by lia.
  rewrite u64_u64_l. replace (st + Z.of_nat o + (Z.of_nat d - st)) with (Z.of_nat (o + d)) by lia. rewrite u64_small by lia. lia.
Qed.
Lemma pc32_reached sec o d r b b' tgt : let g := [r] in
  (Rela_model.r_type r = Rela_model.X_PLT32 \/ Rela_model.r_type r = Rela_model.X_PC32) -> Rela_model.r_offset r = (o + d)%nat ->
  Rela_model.r_target r = u64 (tgt - 4) -> tgt = u64 tgt -> linked sec o (d + 4) [r] b b' ->
  Rela_spec.fits 32 (away (u64 (sec + Z.of_nat o) + Z.of_nat (d + 4)) tgt) ->
  u64 (u64 (sec + Z.of_nat o) + Z.of_nat (d + 4) + sext 32 (word 4 (slice (o + d) 4 b'))) = tgt.
Proof.
  intros g Ht Ho HT Hu (_ & H & _) Hfit. specialize (H 0%nat r eq_refl). unfold Rela_spec.achieves in H. rewrite Ho, HT in H.
  assert (Hd : Rela_spec.distance sec r = away (u64 (sec + Z.of_nat o) + Z.of_nat (d + 4)) tgt).
  { unfold Rela_spec.distance, Rela_spec.place, away. rewrite Ho, HT. change Rela_model.s64 with s64. change Rela_model.u64 with u64. apply s64_congr.
    unfold Z.sub. rewrite u64_u64_l. apply u64_congr.
    destruct (u64_div (sec + Z.of_nat (o + d))) as [x ->]. destruct (u64_div (sec + Z.of_nat o)) as [y ->]. exists (x - y). lia. }
  rewrite Hd in H. assert (K : Rela_model.u64 (Rela_spec.place sec r + Rela_spec.sext 32 (word 4 (slice (o + d) 4 b'))) = u64 (tgt - 4)).
  { rewrite <- at_slice. destruct Ht as [Ht|Ht]; rewrite Ht in H; by apply H. }
  clear H. unfold Rela_spec.place in K. change Rela_model.u64 with u64 in K. rewrite Ho in K. change Rela_spec.sext with sext in K. set (x := sext 32 _) in *. rewrite u64_u64_l in K.
  rewrite Hu. replace (u64 (sec + Z.of_nat o) + Z.of_nat (d + 4) + x) with (u64 (sec + Z.of_nat o) + (Z.of_nat (d + 4) + x)) by lia. rewrite u64_u64_l.
  destruct (u64_div (sec + Z.of_nat (o + d) + x)) as [p Hp]. destruct (u64_div (tgt - 4)) as [q Hq]. apply u64_congr. exists (p - q). lia.
Qed.
Lemma refers_rela sym ty n o ofs d : - 2 ^ 31 + 4 <= ofs < 2 ^ 31 -> d = u64 (sym n + ofs) -> forall u, u = Unres ty n o (s32 (ofs - 4)) ->
  u64 (sym (ulabel u) + uadd u) = u64 (d - 4).
Proof.
  intros Ho -> u ->. cbn [ulabel uadd]. unfold s32. rewrite Z.mod_small by lia. destruct (u64_div (sym n + ofs)) as [x ->]. apply u64_congr. exists x. lia.
Qed.
Lemma x64_jump5 x : length x = 4%nat -> x64_jump (0xe9 :: x) = Some (None, sext 32 (word 4 x)).
Proof.
  intros H. destruct x as [|a [|b [|c [|d [|? ?]]]]]; try done. unfold x64_jump, word. cbn [take foldr]. rewrite Z.eqb_refl. do 3 f_equal. lia.
Qed.

Lemma x64_code sym sec t st own : meets t sym sec st own ->
  code_good x64_step x64_R (x64_rela sym) sec (x64_image sym own (fun n => is_Some (t !! n))) x64_fresh t st.
Proof.
  intros Hme c cs ps us g o Hfr (c' & -> & Hi & Hf & Hm) Hst Hpos Hg Hst0 Hl.
  inversion Hst as [|? a last s ? ps' us' Es Hu Hst']; subst. inversion Hst'; subst. clear Hst Hst'.
  pose proof (x64_step_form _ _ _ _ _ _ Es Hf) as (G1 & G2 & _ & G3). rewrite app_nil_r in Hg.
  unfold bytes_of in *. cbn [mbind list_bind snd] in *. rewrite app_nil_r in *. cbn [pos_ok fst snd] in Hpos. destruct Hpos as [Ha _].
  set (w := buf (new s)) in *. rewrite Hi in G3. assert (Hl2 : Z.of_nat (o + length w) < 2 ^ 64) by lia. clear Hl. rename Hl2 into Hl.
  (* jumps within the section *)
  assert (Kown : forall v n d, vlab v = Some n -> own n -> d = u64 (sym n + vofs v) -> exists p, destination t v = Some (u64 (st + p)) /\ d = u64 (sec + p)).
  { intros v n d Hv Hn ->. destruct (Hme n Hn) as (p & Hp & ->). exists (p + vofs v). unfold destination. rewrite Hv, Hp. rewrite !u64_u64_l. rewrite !Z.add_assoc. done. }
  assert (Kjmp : forall cond v, x64_jumps (inst c) = Some (cond, v) -> refs s = [] -> forall n d, refers sym v n d -> own n ->
    (length w = length (buf c') /\ forall d, destination t v = Some d -> exists disp cond', x64_jumps (inst c) = Some (cond', v) /\ x64_jump w = Some (cond', disp) /\ u64 (a + Z.of_nat (length (buf c')) + disp) = d) ->
    exists disp, x64_jump w = Some (cond, disp) /\ u64 (u64 (sec + Z.of_nat o) + Z.of_nat (length w) + disp) = d).
  { intros cond v Hj _ n d (Hv & _ & Hd) Hn [Hlw Hdest]. destruct (Kown v n d Hv Hn Hd) as (p & Hp & ->). destruct (Hdest _ Hp) as (disp & cond' & Hj' & Hx & Hu').
    exists disp. split; [congruence|]. rewrite Ha, <- Hlw, <- Z.add_assoc in Hu'. rewrite <- Z.add_assoc. by apply (u64_move st). }
  assert (Kkeep : forall b b', slice o (length w) b = w -> linked sec o (length w) [] b b' -> slice o (length w) b' = w) by (intros b b' Hb Hli; rewrite (unlinked _ _ _ _ _ Hli); done).
  unfold x64_step in Es. unfold x64_image. destruct (inst c) as [v|cc v|v|v|v|] eqn:Ei; rewrite Hi in Es.
  - (* jmp *) destruct (vlab v) as [n|] eqn:Ev; [destruct (t !! n) as [x|] eqn:Et|].
    + assert (Hr : refs s = []). { unfold x64_patch, x64_make_long in Es. destruct (long c'); [destruct (is_im32 _); [|done]|destruct (is_im8 _)]; by injection Es as <-. }
      rewrite Hr in Hg. cbn in Hg. injection Hg as <-. split; [apply group_nil|]. intros b b' Hb _ _ Hli n' d Href. rewrite (Kkeep _ _ Hb Hli). split.
      * intros Hn. apply (Kjmp None v eq_refl Hr n' d Href Hn). by apply G3.
      * intros Hk. destruct Hk. destruct Href as (Hv & _). assert (n' = n) as -> by congruence. by eexists.
    + unfold x64_make_long in Es. destruct (long c') eqn:El; injection Es as <-; [|done]. cbn [refs new] in *. cbn in Hg. injection Hg as <-.
      unfold x64_form in Hf. rewrite Hi, El in Hf. destruct Hf as (d0 & d1 & d2 & d3 & Hf). assert (Hw : w = [0xe9; d0; d1; d2; d3]) by (unfold w; done).
      set (r := rela _ _ _). assert (Hro : Rela_model.r_offset r = (o + 1)%nat). { cbn. rewrite Ha. change (u64 (st + Z.of_nat o) + 1 - st) with (u64 (st + Z.of_nat o) + Z.of_nat 1 - st). apply (ref_offset st o 1 (length w)); [done|rewrite Hw; cbn; lia]. }
      assert (Hfd : Rela_spec.field [r] 0 r = ((o + 1)%nat, 4%nat)) by (unfold Rela_spec.field; cbn [r rela Rela_model.r_type]; by rewrite Hro).
      split; [apply (group_one o _ 1 4 r); [done|rewrite Hw; cbn; lia|done]|]. intros b b' Hb Hlb Hlb' Hli n' d Href. 
      split. { intros Hn. destruct (Hme n' Hn) as (p & Hp & _). destruct Href as (Hv & _). assert (n' = n) as -> by congruence. congruence. }
      intros _. destruct Href as (Hv & Hofs & Hd). assert (n' = n) as -> by congruence.
      rewrite (window1 sec o (length w) 1 4 r b b' Hfd ltac:(by rewrite Hw) Hli), Hb, Hw. cbn [take app].
      rewrite Hw in Hlb. cbn in Hlb.
      assert (Hl4 : length (slice (o + 1) 4 b') = 4%nat) by (rewrite take_length, drop_length; lia).
      rewrite x64_jump5 by done. eexists. split; [done|]. cbn [length]. rewrite Hl4. intros Hfit.
      apply (pc32_reached sec o 1 r b b' d); [by left|done| |rewrite Hd; by rewrite u64_u64|by rewrite Hw in Hli|done].
      cbn [r rela Rela_model.r_target]. by apply (refers_rela sym UExtern n (u64 (a + 1 - st)) (vofs v)).
    + assert (Hr : refs s = []). { unfold x64_patch, x64_make_long in Es. destruct (long c'); [destruct (is_im32 _); [|done]|destruct (is_im8 _)]; by injection Es as <-. }
      rewrite Hr in Hg. cbn in Hg. injection Hg as <-. split; [apply group_nil|]. intros b b' Hb _ _ Hli n' d (Hv & _). congruence.
  - (* jcc *) destruct (vlab v) as [n|] eqn:Ev; [destruct (t !! n) as [x|] eqn:Et|].
    + assert (Hr : refs s = []). { unfold x64_patch, x64_make_long in Es. destruct (long c'); [destruct (is_im32 _); [|done]|destruct (is_im8 _)]; by injection Es as <-. }
      rewrite Hr in Hg. cbn in Hg. injection Hg as <-. split; [apply group_nil|]. intros b b' Hb _ _ Hli n' d Href Hn. rewrite (Kkeep _ _ Hb Hli).
      apply (Kjmp (Some cc) v eq_refl Hr n' d Href Hn). by apply G3.
    + unfold x64_make_long in Es. destruct (long c') eqn:El; injection Es as <-; [|done]. cbn [refs new] in *. cbn in Hg. injection Hg as <-.
      unfold x64_form in Hf. rewrite Hi, El in Hf. destruct Hf as (_ & d0 & d1 & d2 & d3 & Hf). assert (Hw : w = [0x0f; 0x80 + cc; d0; d1; d2; d3]) by (unfold w; done).
      set (r := rela _ _ _). assert (Hro : Rela_model.r_offset r = (o + 1)%nat). { cbn. rewrite Ha. change (u64 (st + Z.of_nat o) + 1 - st) with (u64 (st + Z.of_nat o) + Z.of_nat 1 - st). apply (ref_offset st o 1 (length w)); [done|rewrite Hw; cbn; lia]. }
      assert (Hfd : Rela_spec.field [r] 0 r = ((o + 1)%nat, 4%nat)) by (unfold Rela_spec.field; cbn [r rela Rela_model.r_type]; by rewrite Hro).
      split; [apply (group_one o _ 1 4 r); [done|rewrite Hw; cbn; lia|done]|]. intros b b' Hb Hlb Hlb' Hli n' d Href Hn.
      destruct (Hme n' Hn) as (p & Hp & _). destruct Href as (Hv & _). assert (n' = n) as -> by congruence. congruence.
    + assert (Hr : refs s = []). { unfold x64_patch, x64_make_long in Es. destruct (long c'); [destruct (is_im32 _); [|done]|destruct (is_im8 _)]; by injection Es as <-. }
      rewrite Hr in Hg. cbn in Hg. injection Hg as <-. split; [apply group_nil|]. intros b b' Hb _ _ Hli n' d (Hv & _). congruence.
  - (* call *) destruct (vlab v) as [n|] eqn:Ev.
    + injection Es as <-. cbn [refs new] in *. cbn in Hg. injection Hg as <-. assert (c' = c) as -> by (apply Hm; by eexists).
      unfold x64_fresh in Hfr. rewrite Ei in Hfr. cbn in Hfr. injection Hfr as Hfr. assert (Hw : w = [0xe8; 0; 0; 0; 0]) by (unfold w; by rewrite <- Hfr).
      set (r := rela _ _ _). assert (Hro : Rela_model.r_offset r = (o + 1)%nat). { cbn. rewrite Ha. change (u64 (st + Z.of_nat o) + 1 - st) with (u64 (st + Z.of_nat o) + Z.of_nat 1 - st). apply (ref_offset st o 1 (length w)); [done|rewrite Hw; cbn; lia]. }
      assert (Hfd : Rela_spec.field [r] 0 r = ((o + 1)%nat, 4%nat)) by (unfold Rela_spec.field; cbn [r rela Rela_model.r_type]; by rewrite Hro).
      split; [apply (group_one o _ 1 4 r); [done|rewrite Hw; cbn; lia|done]|]. intros b b' Hb Hlb Hlb' Hli n' d (Hv & Hofs & Hd). assert (n' = n) as -> by congruence.
      rewrite (window1 sec o (length w) 1 4 r b b' Hfd ltac:(by rewrite Hw) Hli), Hb, Hw. cbn [take app]. rewrite Hw in Hlb. cbn in Hlb.
      eexists. split; [done|]. split; [rewrite take_length, drop_length; lia|]. intros Hfit.
      apply (pc32_reached sec o 1 r b b' d); [by left|done| |rewrite Hd; by rewrite u64_u64|by rewrite Hw in Hli|done].
      cbn [r rela Rela_model.r_target]. by apply (refers_rela sym UExtern n (u64 (a + 1 - st)) (vofs v)).
    + injection Es as <-. cbn in Hg. injection Hg as <-. split; [apply group_nil|]. intros b b' Hb _ _ Hli n' d (Hv & _). congruence.
  - (* lea *) destruct (vlab v) as [n|] eqn:Ev.
    + injection Es as <-. cbn [refs new] in *. cbn in Hg. injection Hg as <-. assert (c' = c) as -> by (apply Hm; by eexists).
      unfold x64_form in Hf. rewrite Ei in Hf. assert (Hw : length w = 7%nat) by done.
      set (r := rela _ _ _). assert (Hro : Rela_model.r_offset r = (o + 3)%nat). { cbn. rewrite Ha. change (u64 (st + Z.of_nat o) + 3 - st) with (u64 (st + Z.of_nat o) + Z.of_nat 3 - st). apply (ref_offset st o 3 (length w)); [done|rewrite Hw; cbn; lia]. }
      assert (Hfd : Rela_spec.field [r] 0 r = ((o + 3)%nat, 4%nat)) by (unfold Rela_spec.field; cbn [r rela Rela_model.r_type]; by rewrite Hro).
      split; [apply (group_one o _ 3 4 r); [done|rewrite Hw; cbn; lia|done]|]. intros b b' Hb Hlb Hlb' Hli n' d (Hv & Hofs & Hd). assert (n' = n) as -> by congruence.
      rewrite (window1 sec o (length w) 3 4 r b b' Hfd ltac:(by rewrite Hw) Hli), Hb. rewrite Hw in Hlb.
      eexists. split; [done|]. split; [rewrite take_length, drop_length; lia|]. intros Hfit.
      apply (pc32_reached sec o 3 r b b' d); [by right|done| |rewrite Hd; by rewrite u64_u64|by rewrite Hw in Hli|done].
      cbn [r rela Rela_model.r_target]. by apply (refers_rela sym UPc32 n (u64 (a + 3 - st)) (vofs v)).
    + injection Es as <-. cbn in Hg. injection Hg as <-. split; [apply group_nil|]. intros b b' Hb _ _ Hli n' d (Hv & _). congruence.
  - (* a load *) destruct (vlab v) as [n|] eqn:Ev; [destruct (t !! n) as [x|] eqn:Et|]; injection Es as <-; cbn in Hg; [|done|]; injection Hg as <-; (split; [apply group_nil|done]).
  - injection Es as <-. cbn in Hg. injection Hg as <-. split; [apply group_nil|]. intros b b' Hb _ _ Hli. rewrite (Kkeep _ _ Hb Hli). unfold w. cbn. by rewrite Hm.
Qed.

Theorem x64_refs sym sec fuel a ss t ss' t' us k s0 s u b relas b' :
  parsed x64_fresh ss t -> settle x64_step fuel a ss t = Done ss' t' us ->
  ss !! k = Some s0 -> ss' !! k = Some s -> us !! k = Some u -> bss s = false ->
  emit s = Some (b, 0) -> start s + Z.of_nat (length b) < 2 ^ 64 -> Rela_spec.bytes_ok b ->
  exprs_ok (items s0) -> own_labels sym sec (items s) ->
  mapM (x64_rela sym) u = Some relas -> Rela_model.apply_relas sec relas b = Rela_model.Ok (b', 0%nat) ->
  loaded (piece sym sec (x64_image sym (fun n => n ∈ labels (items s0)) (fun n => is_Some (t' !! n)))) (u64 sec) (items s0) b'.
Proof.
  intros Hp E Hk0 Hk Hu Hb He Hl Hbo Hx Ho Hrel Happ.
  refine (refs_image x64_step x64_R x64_fresh sym sec (x64_rela sym) (x64_image sym) (fun _ => x64_fresh) fuel a ss t ss' t' us k s0 s u b relas b' x64_good x64_fresh_R _ _ _ Hp E Hk0 Hk Hu Hb He Hl Hbo _ Hx Ho Hrel Happ).
  - intros u0 r Hk' Hr. unfold x64_rela in Hr. rewrite Hk' in Hr. injection Hr as <-. cbn. by split; [left|].
  - intros u0 r Hr. unfold x64_rela in Hr. destruct (ukind_of u0); try done; injection Hr as <-; apply u64_range.
  - intros t0 st own Hme. by apply x64_code.
  - intros c Hc. destruct Hp as (_ & _ & Hp). apply (Hp s0 c); [by eapply elem_of_list_lookup_2|done].
Qed.
