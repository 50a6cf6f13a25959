(** Jumps of x64 and aarch64 in the loop of the assembler. *)
From stdpp Require Import base list numbers gmap option.
From Verif Require Import Util.Data_model As.Asm_model As.Asm_arch_model As.Asm_spec As.Asm_proof As.Asm_res_proof.
From Coq Require Import Lia ZifyBool.
Open Scope Z_scope.

(** ** Numbers and bytes *)
Lemma s64_div y : exists k, s64 y = y + k * 2 ^ 64.
Proof. exists (- ((y + 2 ^ 63) / 2 ^ 64)). unfold s64. pose proof (Z.div_mod (y + 2 ^ 63) (2 ^ 64) ltac:(lia)). lia. Qed.
Lemma s64_range y : - 2 ^ 63 <= s64 y < 2 ^ 63.
Proof. unfold s64. pose proof (Z.mod_pos_bound (y + 2 ^ 63) (2 ^ 64) ltac:(lia)). lia. Qed.
Lemma u64_s64 x y : u64 (x + s64 y) = u64 (x + y).
Proof. destruct (s64_div y) as [k ->]. apply u64_congr. exists k. lia. Qed.
Lemma s64_small x : - 2 ^ 63 <= x < 2 ^ 63 -> s64 x = x.
Proof. intros. unfold s64. rewrite Z.mod_small by lia. lia. Qed.
Lemma s64_congr x y : u64 x = u64 y -> s64 x = s64 y.
Proof.
  intros H. unfold s64. f_equal. unfold u64 in H.
  rewrite <- (Z.add_mod_idemp_l x), H, Z.add_mod_idemp_l by lia. done.
Qed.

Lemma byte_eq x i : Z.land (Z.shiftr x (8 * Z.of_nat i)) 255 = x / 2 ^ (8 * Z.of_nat i) mod 256.
Proof. rewrite Z.shiftr_div_pow2 by lia. change 255 with (Z.ones 8). by rewrite Z.land_ones by lia. Qed.
Lemma le1 x : le 1 x = [x mod 256].
Proof. unfold le. cbn [seq fmap list_fmap]. rewrite byte_eq. by rewrite Z.div_1_r. Qed.
Lemma le2 x : le 2 x = [x mod 256; x / 256 mod 256].
Proof. unfold le. cbn [seq fmap list_fmap]. rewrite !byte_eq. by rewrite Z.div_1_r. Qed.
Lemma le4 x : le 4 x = [x mod 256; x / 256 mod 256; x / 65536 mod 256; x / 16777216 mod 256].
Proof. unfold le. cbn [seq fmap list_fmap]. rewrite !byte_eq. by rewrite Z.div_1_r. Qed.
Lemma le_length n x : length (le n x) = n.
Proof. unfold le. by rewrite fmap_length, seq_length. Qed.
Lemma bytes4 x : x mod 256 + 2 ^ 8 * (x / 256 mod 256) + 2 ^ 16 * (x / 65536 mod 256) + 2 ^ 24 * (x / 16777216 mod 256) = x mod 2 ^ 32.
Proof.
  pose proof (Z.div_mod x 256 ltac:(lia)). pose proof (Z.div_mod (x / 256) 256 ltac:(lia)).
  pose proof (Z.div_mod (x / 65536) 256 ltac:(lia)). pose proof (Z.div_mod (x / 16777216) 256 ltac:(lia)).
  rewrite !Z.div_div in * by lia. change (256 * 256) with 65536 in *. change (65536 * 256) with 16777216 in *.
  apply (Z.mod_unique_pos _ _ (x / (16777216 * 256))).
  - pose proof (Z.mod_pos_bound x 256 ltac:(lia)). pose proof (Z.mod_pos_bound (x / 256) 256 ltac:(lia)).
    pose proof (Z.mod_pos_bound (x / 65536) 256 ltac:(lia)). pose proof (Z.mod_pos_bound (x / 16777216) 256 ltac:(lia)). lia.
  - lia.
Qed.
Lemma word4_le x : word 4 (le 4 x) = x mod 2 ^ 32.
Proof. rewrite le4. unfold word. cbn [take foldr]. rewrite <- bytes4. lia. Qed.
Lemma sext_mod n x : 0 < n -> - 2 ^ (n - 1) <= x < 2 ^ (n - 1) -> sext n (x mod 2 ^ n) = x.
Proof.
  intros Hn Hx. unfold sext. assert (Hp : 2 ^ n = 2 * 2 ^ (n - 1)) by (rewrite <- Z.pow_succ_r by lia; f_equal; lia).
  destruct (Z.lt_ge_cases x 0).
  - replace (x mod 2 ^ n) with (x + 2 ^ n).
    + destruct (Z.ltb_spec (x + 2 ^ n) (2 ^ (n - 1))); lia.
    + apply Z.mod_unique with (-1); lia.
  - rewrite Z.mod_small by lia. destruct (Z.ltb_spec x (2 ^ (n - 1))); lia.
Qed.
Lemma put_length d bs b : (d + length bs <= length b)%nat -> length (put d bs b) = length b.
Proof. intros. unfold put. rewrite !app_length, take_length, drop_length. lia. Qed.
Lemma put4 x b : length b = 4%nat -> put 0 (le 4 x) b = le 4 x.
Proof. intros H. unfold put. rewrite le_length. rewrite drop_ge by lia. cbn [take]. by rewrite app_nil_r. Qed.

(** ** x64 *)
Definition x64_mu (c : code xinst) : nat := match inst c with XJmp _ | XJcc _ _ => if long c then 0 else 1 | _ => 0 end.
Definition x64_form (c : code xinst) : Prop :=
  match inst c with
  | XJmp _ => if long c then exists d0 d1 d2 d3, buf c = [0xe9; d0; d1; d2; d3] else exists d, buf c = [0xeb; d]
  | XJcc cc _ => 0 <= cc < 16 /\ if long c then exists d0 d1 d2 d3, buf c = [0x0f; 0x80 + cc; d0; d1; d2; d3] else exists d, buf c = [0x70 + cc; d]
  | XCall _ => length (buf c) = 5%nat
  | XLea _ => length (buf c) = 7%nat
  | _ => True
  end.
Definition x64_R (c : code xinst) (cs : list (code xinst)) : Prop :=
  exists c', cs = [c'] /\ inst c' = inst c /\ x64_form c' /\
  match inst c with
  | XJmp _ | XJcc _ _ => True
  | XLea v | XCall v => is_Some (vlab v) -> c' = c
  | _ => c' = c
  end.

Lemma x64_patch_mu a d c s : x64_patch a d c = Some s -> (match inst c with XJmp _ | XJcc _ _ => True | _ => False end) ->
  (x64_mu (new s) + (if upgraded s then 1 else 0) <= x64_mu c)%nat /\ extra s = None.
Proof.
  unfold x64_patch, x64_make_long, x64_long, x64_mu. intros E Hj.
  destruct (long c) eqn:El.
  - destruct (is_im32 _); [|done]. injection E as <-. cbn. by destruct (inst c).
  - destruct (is_im8 _); injection E as <-; cbn; by destruct (inst c).
Qed.
Lemma x64_step_mu t last st a c s : x64_step t last st a c = Some s ->
  (x64_mu (new s) + mu_opt x64_mu (extra s) + (if upgraded s then 1 else 0) <= x64_mu c)%nat /\ extra s = None.
Proof.
  unfold x64_step. intros E.
  destruct (inst c) eqn:Ei;
    try (destruct (vlab v) as [n|]; [destruct (t !! n)|]);
    try (apply x64_patch_mu in E; [|by rewrite Ei]; destruct E as [E1 E2]; rewrite E2; cbn; split; [lia|done]);
    try (injection E as <-; cbn; unfold x64_mu; cbn; rewrite ?Ei; cbn; split; [lia|done]).
  all: unfold x64_make_long in E; destruct (long c) eqn:El; injection E as <-; unfold x64_mu, x64_long; cbn; rewrite ?Ei, ?El; cbn; rewrite ?Ei; (split; [lia|done]).
Qed.

Lemma x64_patch_form a d c s : x64_patch a d c = Some s -> (match inst c with XJmp _ | XJcc _ _ => True | _ => False end) -> x64_form c ->
  inst (new s) = inst c /\ x64_form (new s) /\
  (upgraded s = false -> length (buf (new s)) = length (buf c) /\
     exists disp cond v, x64_jumps (inst c) = Some (cond, v) /\ x64_jump (buf (new s)) = Some (cond, disp) /\ u64 (a + Z.of_nat (length (buf c)) + disp) = u64 d).
Proof.
  unfold x64_patch, x64_make_long, x64_long, x64_form. intros E Hj Hf.
  set (ofs := s64 (d - (a + Z.of_nat (length (buf c))))) in *.
  assert (Ho : u64 (a + Z.of_nat (length (buf c)) + ofs) = u64 d) by (unfold ofs; rewrite u64_s64; f_equal; lia).
  destruct c as [i lg b]. cbn [inst long buf] in *. destruct lg.
  - destruct (is_im32 ofs) eqn:E32; [|done]. unfold is_im32 in E32.
    assert (Hs : sext 32 (ofs mod 2 ^ 32) = ofs) by (apply sext_mod; lia).
    injection E as <-. cbn [new inst buf long upgraded]. destruct i; try done.
    + destruct Hf as (d0 & d1 & d2 & d3 & ->). unfold put. rewrite le4. cbn [length app take drop Nat.add]. split; [done|]. split; [by repeat eexists|].
      intros _. split; [done|]. exists ofs, None, v. split; [done|]. split; [|done]. unfold x64_jump. by rewrite bytes4, Hs.
    + destruct Hf as (Hc & d0 & d1 & d2 & d3 & ->). unfold put. rewrite le4. cbn [length app take drop Nat.add]. split; [done|]. split; [split; [done|by repeat eexists]|].
      intros _. split; [done|]. exists ofs, (Some cc), v. split; [done|]. split; [|done].
      unfold x64_jump. rewrite bytes4, Hs. replace ((15 =? 15) && (128 <=? 128 + cc) && (128 + cc <? 144)) with true by lia. by rewrite (Z.add_simpl_l 128 cc).
  - destruct (is_im8 ofs) eqn:E8.
    + unfold is_im8 in E8. assert (Hs : sext 8 (ofs mod 2 ^ 8) = ofs) by (apply sext_mod; lia).
      injection E as <-. cbn [new inst buf long upgraded]. destruct i; try done.
      * destruct Hf as (d0 & ->). unfold put. rewrite le1. cbn [length app take drop Nat.add]. split; [done|]. split; [by repeat eexists|].
        intros _. split; [done|]. exists ofs, None, v. split; [done|]. split; [|done]. unfold x64_jump. change 256 with (2 ^ 8). by rewrite Hs.
      * destruct Hf as (Hc & d0 & ->). unfold put. rewrite le1. cbn [length app take drop Nat.add]. split; [done|]. split; [split; [done|by repeat eexists]|].
        intros _. split; [done|]. exists ofs, (Some cc), v. split; [done|]. split; [|done].
        unfold x64_jump. change 256 with (2 ^ 8). rewrite Hs. replace (112 + cc =? 235) with false by lia.
        replace ((112 <=? 112 + cc) && (112 + cc <? 128)) with true by lia. by rewrite (Z.add_simpl_l 112 cc).
    + injection E as <-. cbn. destruct i; try done; cbn.
      * split; [done|]. split; [by repeat eexists|done].
      * split; [done|]. split; [|done]. split; [lia|by repeat eexists].
Qed.
Lemma x64_long_form c : (match inst c with XJmp _ | XJcc _ _ => True | _ => False end) -> x64_form c -> inst (x64_long c) = inst c /\ x64_form (x64_long c).
Proof.
  unfold x64_long, x64_form. destruct (inst c) eqn:Ei; try done; intros _ Hf; cbn; (split; [done|]).
  - by repeat eexists.
  - split; [lia|by repeat eexists].
Qed.
Lemma x64_step_form t last st a c s : x64_step t last st a c = Some s -> x64_form c ->
  inst (new s) = inst c /\ x64_form (new s) /\ extra s = None /\
  match inst c with
  | XJmp v | XJcc _ v => upgraded s = false -> length (buf (new s)) = length (buf c) /\
     forall d, destination t v = Some d ->
     exists disp cond, x64_jumps (inst c) = Some (cond, v) /\ x64_jump (buf (new s)) = Some (cond, disp) /\ u64 (a + Z.of_nat (length (buf c)) + disp) = d
  | XLea v | XCall v => length (buf (new s)) = length (buf c) /\ (is_Some (vlab v) -> new s = c)
  | _ => new s = c
  end.
Proof.
  intros E Hf. pose proof (x64_step_mu _ _ _ _ _ _ E) as [_ Hx]. rewrite Hx. clear Hx. unfold x64_step in E.
  assert (K : forall v d0, (match inst c with XJmp w | XJcc _ w => v = w | _ => False end) -> destination t v = Some (u64 d0) -> x64_patch a d0 c = Some s ->
    inst (new s) = inst c /\ x64_form (new s) /\ None = @None (code xinst) /\ (upgraded s = false -> length (buf (new s)) = length (buf c) /\
     forall d, destination t v = Some d ->
     exists disp cond, x64_jumps (inst c) = Some (cond, v) /\ x64_jump (buf (new s)) = Some (cond, disp) /\ u64 (a + Z.of_nat (length (buf c)) + disp) = d)).
  { intros v d0 Hi Hd E'. apply x64_patch_form in E' as (H1 & H2 & H3); [|by destruct (inst c)|done].
    split; [done|]. split; [done|]. split; [done|]. intros Hu. destruct (H3 Hu) as (H4 & disp & cond & w & G1 & G2 & G3). split; [done|].
    intros d Hd'. rewrite Hd in Hd'. injection Hd' as <-. exists disp, cond. split; [|done]. destruct (inst c); try done; cbn in G1; injection G1 as <- <-; by subst v. }
  destruct (inst c) eqn:Ei.
  - destruct (vlab v) as [n|] eqn:Ev; [destruct (t !! n) as [b|] eqn:Et|].
    + apply (K v (s64 (vofs v + b))); [done| |done]. unfold destination. rewrite Ev, Et. f_equal. rewrite <- (Z.add_0_l (s64 _)), u64_s64. f_equal. lia.
    + unfold x64_make_long in E. destruct (long c) eqn:El; injection E as <-; cbn.
      * split; [done|]. split; [done|]. split; [done|]. intros _. split; [done|]. intros d Hd. unfold destination in Hd. by rewrite Ev, Et in Hd.
      * rewrite <- Ei. destruct (x64_long_form c ltac:(by rewrite Ei) Hf) as [H1 H2]. done.
    + apply (K v (vofs v)); [done| |done]. unfold destination. by rewrite Ev.
  - destruct (vlab v) as [n|] eqn:Ev; [destruct (t !! n) as [b|] eqn:Et|].
    + apply (K v (s64 (vofs v + b))); [done| |done]. unfold destination. rewrite Ev, Et. f_equal. rewrite <- (Z.add_0_l (s64 _)), u64_s64. f_equal. lia.
    + unfold x64_make_long in E. destruct (long c) eqn:El; injection E as <-; cbn.
      * split; [done|]. split; [done|]. split; [done|]. intros _. split; [done|]. intros d Hd. unfold destination in Hd. by rewrite Ev, Et in Hd.
      * rewrite <- Ei. destruct (x64_long_form c ltac:(by rewrite Ei) Hf) as [H1 H2]. done.
    + apply (K v (vofs v)); [done| |done]. unfold destination. by rewrite Ev.
  - unfold x64_form in *. rewrite Ei in Hf. destruct (vlab v); injection E as <-; cbn [new extra upgraded inst buf]; [by rewrite Ei|]. rewrite put_length by (rewrite le_length; lia). split_and!; try done; by intros [].
  - unfold x64_form in *. rewrite Ei in Hf. destruct (vlab v); injection E as <-; cbn [new extra upgraded inst buf]; [by rewrite Ei|]. rewrite put_length by (rewrite le_length; lia). split_and!; try done; by intros [].
  - destruct (vlab v) as [n|]; [destruct (t !! n)|]; injection E as <-; cbn [new extra upgraded]; by rewrite Ei.
  - injection E as <-. cbn [new extra upgraded]. by rewrite Ei.
Qed.

Lemma x64_fresh_R c : x64_fresh c -> x64_R c [c].
Proof.
  intros H. exists c. split; [done|]. split; [done|]. unfold x64_fresh, x64_form in *. destruct (inst c) eqn:Ei; cbn in *; try done.
  - injection H as <-. cbn. split; [by eexists|done].
  - destruct H as [H Hc]. injection H as <-. cbn. split; [|done]. split; [done|by eexists].
  - by injection H as <-.
Qed.

Lemma parsed_inv {I} (R : code I -> list (code I) -> Prop) (fresh : code I -> Prop) ss t :
  (forall c, fresh c -> R c [c]) -> parsed fresh ss t -> inv R ss ss.
Proof.
  intros HR (H1 & _ & H3). split.
  - apply Forall_Forall2_diag, stdpp.list.Forall_forall. intros s Hs. split; [done|].
    assert (Hf : forall c, ICode c ∈ items s -> fresh c) by (intros c Hc; by apply (H3 s)). clear -HR Hf.
    induction (items s) as [|i l IH]; [constructor|]. assert (Hp : prog R l l) by (apply IH; intros c Hc; apply Hf; by right).
    destruct i; try (constructor; done). apply (prog_code R c [c]); [|done]. apply HR, Hf. left.
  - apply stdpp.list.Forall_forall. intros s Hs. destruct (H1 s Hs) as [Hal Ha]. split; [|done]. rewrite Hal. by exists 0.
Qed.

Theorem x64_done fuel a ss t ss' t' us : parsed x64_fresh ss t -> settle x64_step fuel a ss t = Done ss' t' us ->
  placed a ss' t' /\ rewritten_all (x64_right t') ss ss'.
Proof.
  intros Hp E. assert (Hnd : NoDup (all_labels ss)) by apply Hp.
  refine (settle_done x64_step _ x64_R _ _ _ _ _ x64_right _ a ss fuel ss t ss' t' us _ Hnd E).
  - intros t1 last st b c s Es _. by apply x64_step_mu in Es as [_ Es].
  - intros c cs (c' & -> & _). left. by exists c'.
  - intros c c1 t1 last st b s (c' & [= ->] & Hi & Hf & Hm) Es. apply x64_step_form in Es as (G1 & G2 & -> & G3); [|done].
    exists (new s). split; [done|]. split; [congruence|]. split; [done|]. rewrite Hi in G3.
    destruct (inst c); try done; try (by rewrite G3, Hm); destruct G3 as [_ G3]; intros Hv; rewrite (G3 Hv); by apply Hm.
  - intros c c1 c2 t1 last st b s (c' & H & _). done.
  - intros c c1 c2 t1 last st b s (c' & H & _). done.
  - intros c cs c1 t1 last st b s (c' & -> & Hi & Hf & Hm) Hc Es Hu. apply elem_of_list_singleton in Hc as ->.
    apply x64_step_form in Es as (G1 & G2 & _ & G3); [|done]. destruct (inst c'); try (by destruct (G3 Hu)); try (by rewrite G3); by destruct G3.
  - intros t1 st c cs ps (c' & -> & Hi & Hf & Hm) HF _. apply Forall2_cons_inv_l in HF as ([b c2] & ps' & (last & s & Es & Hu & Hn) & HF & ->).
    apply Forall2_nil_inv_l in HF as ->. cbn in *. subst c2. apply x64_step_form in Es as (G1 & G2 & _ & G3); [|done].
    exists b, (new s). split; [done|]. split; [congruence|]. rewrite Hi in G3.
    destruct (inst c); try (by rewrite G3, Hm); try (destruct G3 as [_ G3]; intros Hv; rewrite (G3 Hv); by apply Hm).
    + intros cond d [= <-] Hd. destruct (G3 Hu) as [Hl G4]. destruct (G4 d Hd) as (disp & cond' & [= <-] & K1 & K2). exists disp. by rewrite Hl.
    + intros cond d [= <-] Hd. destruct (G3 Hu) as [Hl G4]. destruct (G4 d Hd) as (disp & cond' & [= <-] & K1 & K2). exists disp. by rewrite Hl.
  - by apply (parsed_inv _ x64_fresh _ t x64_fresh_R).
Qed.
Theorem x64_ends fuel a ss t : (S (mu_sections x64_mu ss) < fuel)%nat -> settle x64_step fuel a ss t <> NoFuel.
Proof. apply settle_ends. - intros. by apply x64_step_mu in H as [H _]. Qed.
