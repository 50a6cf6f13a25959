From stdpp Require Import base list numbers.
From Coq Require Import Lia ZArith.
From Verif Require Import As.Asm_arch_model Ld.Rela_model Ld.Rela_spec Ld.Rela_proof Ld.Rela_word_proof.
From Verif Require As.Rv_model.
Local Open Scope Z_scope.

Lemma sext_mod n x : 0 < n -> fits n x -> sext n (x mod 2 ^ n) = x.
Proof.
  intros Hn [H1 H2]. unfold sext.
  assert (2 ^ n = 2 * 2 ^ (n - 1)) as E. { rewrite <- Z.pow_succ_r by lia. f_equal. lia. }
  destruct (decide (0 <= x)).
  - rewrite Z.mod_small by lia. destruct (Z.ltb_spec x (2 ^ (n - 1))); lia.
  - assert (x mod 2 ^ n = x + 2 ^ n) as ->.
    { symmetry. apply Z.mod_unique_pos with (-1); lia. }
    destruct (Z.ltb_spec (x + 2 ^ n) (2 ^ (n - 1))); lia.
Qed.
Lemma sext_congr n x : exists k, sext n (x mod 2 ^ n) = x + k * 2 ^ n.
Proof.
  unfold sext. pose proof (Z.div_mod x (2 ^ n)) as E.
  destruct (decide (2 ^ n = 0)) as [Hz|Hz]; [rewrite Hz, Zmod_0_r; exists 0; destruct (_ <? _); lia|].
  specialize (E Hz). destruct (_ <? _); [exists (- (x / 2 ^ n))|exists (- (x / 2 ^ n) - 1)]; lia.
Qed.
Lemma s64_congr x : exists k, s64 x = x + k * 2 ^ 64.
Proof. unfold s64. pose proof (Z.div_mod (x + 2 ^ 63) (2 ^ 64) ltac:(lia)). exists (- ((x + 2 ^ 63) / 2 ^ 64)). lia. Qed.
Lemma s64_range x : - 2 ^ 63 <= s64 x < 2 ^ 63.
Proof. unfold s64. pose proof (Z.mod_pos_bound (x + 2 ^ 63) (2 ^ 64)). lia. Qed.
Lemma u64_add a d k t : 0 <= t < 2 ^ 64 -> a + d = t + k * 2 ^ 64 -> u64 (a + d) = t.
Proof. intros Ht ->. unfold u64. rewrite Z_mod_plus_full. apply Z.mod_small. done. Qed.
Lemma reach P T : 0 <= T < 2 ^ 64 -> u64 (P + s64 (T - P)) = T.
Proof. intros HT. destruct (s64_congr (T - P)) as [k Hk]. apply (u64_add _ _ k); [done|lia]. Qed.

Lemma in_range_spec x k : in_range x k = true <-> - 2 ^ k <= x < 2 ^ k.
Proof. unfold in_range. rewrite andb_true_iff, Z.ltb_lt, Z.leb_le. lia. Qed.

Ltac zbits := unfold bits;
  repeat match goal with |- context [2 ^ ?k] => let v := eval vm_compute in (2 ^ k) in change (2 ^ k) with v end.
Lemma jal_sum x : bits x 20 20 * 2 ^ 20 + bits x 19 12 * 2 ^ 12 + bits x 11 11 * 2 ^ 11 + bits x 10 1 * 2 = x mod 2 ^ 21 - x mod 2.
Proof. zbits. Z.div_mod_to_equations. lia. Qed.
Lemma branch_sum x : bits x 12 12 * 2 ^ 12 + bits x 11 11 * 2 ^ 11 + bits x 10 5 * 2 ^ 5 + bits x 4 1 * 2 = x mod 2 ^ 13 - x mod 2.
Proof. zbits. Z.div_mod_to_equations. lia. Qed.
Lemma cj_sum x : bits x 11 11 * 2 ^ 11 + bits x 10 10 * 2 ^ 10 + bits x 9 8 * 2 ^ 8 + bits x 7 7 * 2 ^ 7
    + bits x 6 6 * 2 ^ 6 + bits x 5 5 * 2 ^ 5 + bits x 4 4 * 2 ^ 4 + bits x 3 1 * 2 = x mod 2 ^ 12 - x mod 2.
Proof. zbits. Z.div_mod_to_equations. lia. Qed.
Lemma cb_sum x : bits x 8 8 * 2 ^ 8 + bits x 7 6 * 2 ^ 6 + bits x 5 5 * 2 ^ 5 + bits x 4 3 * 2 ^ 3 + bits x 2 1 * 2 = x mod 2 ^ 9 - x mod 2.
Proof. zbits. Z.div_mod_to_equations. lia. Qed.

Lemma jal_ok w x : let w' := Z.lor (Z.land w 0x7f) (SWIZZLE_JAL x) mod 2 ^ 32 in
  fits 21 x -> x mod 2 = 0 -> jal_disp w' = x.
Proof.
  intros w' Hf He. unfold w', jal_disp, SWIZZLE_JAL. rewrite !bits_mod by lia.
  destruct (jal_fields x w) as (-> & -> & -> & -> & _). rewrite jal_sum, He, Z.sub_0_r. apply sext_mod; [lia|done].
Qed.
Lemma call_ok x : let w' := Rv_model.UTYPE (SWIZZLE_JAL x) 1 0x6f mod 2 ^ 32 in
  bits w' 6 0 = 0x6f /\ bits w' 11 7 = 1 /\ (fits 21 x -> x mod 2 = 0 -> jal_disp w' = x).
Proof.
  intros w'. destruct (call_fields x) as (E1 & E2 & E3 & E4 & E5 & E6). split; [|split].
  - unfold w', SWIZZLE_JAL. rewrite bits_mod, E5 by lia. done.
  - unfold w', SWIZZLE_JAL. rewrite bits_mod, E6 by lia. done.
  - intros Hf He. unfold w', jal_disp, SWIZZLE_JAL. rewrite !bits_mod, E1, E2, E3, E4 by lia.
    rewrite jal_sum, He, Z.sub_0_r. apply sext_mod; [lia|done].
Qed.
Lemma branch_ok w x : let w' := Z.lor (Z.land w 0x01fff07f) (SWIZZLE_BXX x) mod 2 ^ 32 in
  same w w' [(6, 0); (24, 12)] /\ (fits 13 x -> x mod 2 = 0 -> branch_disp w' = x).
Proof.
  intros w'. destruct (branch_fields x w) as (E1 & E2 & E3 & E4 & E5 & E6). split.
  - unfold w'. repeat constructor; cbn [fst snd]; rewrite bits_mod by lia; done.
  - intros Hf He. unfold w', branch_disp, SWIZZLE_BXX. rewrite !bits_mod, E1, E2, E3, E4 by lia.
    rewrite branch_sum, He, Z.sub_0_r. apply sext_mod; [lia|done].
Qed.
Lemma cj_ok w x : let w' := Z.lor (Z.land w 0xe003) (SWIZZLE_C_J x) mod 2 ^ 16 in
  same w w' [(1, 0); (15, 13)] /\ (fits 12 x -> x mod 2 = 0 -> cj_disp w' = x).
Proof.
  intros w'. destruct (cj_fields x w) as (E1 & E2 & E3 & E4 & E5 & E6 & E7 & E8 & E9 & E10). split.
  - unfold w'. repeat constructor; cbn [fst snd]; rewrite bits_mod by lia; done.
  - intros Hf He. unfold w', cj_disp, SWIZZLE_C_J. rewrite !bits_mod, E1, E2, E3, E4, E5, E6, E7, E8 by lia.
    rewrite cj_sum, He, Z.sub_0_r. apply sext_mod; [lia|done].
Qed.
Lemma cb_ok w x : let w' := Z.lor (Z.land w 0xe383) (SWIZZLE_C_BXX x) mod 2 ^ 16 in
  same w w' [(1, 0); (9, 7); (15, 13)] /\ (fits 9 x -> x mod 2 = 0 -> cb_disp w' = x).
Proof.
  intros w'. destruct (cb_fields x w) as (E1 & E2 & E3 & E4 & E5 & E6 & E7 & E8). split.
  - unfold w'. repeat constructor; cbn [fst snd]; rewrite bits_mod by lia; done.
  - intros Hf He. unfold w', cb_disp, SWIZZLE_C_BXX. rewrite !bits_mod, E1, E2, E3, E4, E5 by lia.
    rewrite cb_sum, He, Z.sub_0_r. apply sext_mod; [lia|done].
Qed.

(** The high part is rounded so that the low part, as a signed number, gives the rest. *)
Definition rounded (x : Z) : Z := if 2 ^ 11 <=? Z.land x (2 ^ 12 - 1) then x + 2 ^ 12 else x.
Lemma rounded_mod x : rounded x - rounded x mod 2 ^ 12 = x - sext 12 (x mod 2 ^ 12).
Proof.
  unfold rounded, sext. replace (2 ^ 12 - 1) with (Z.ones 12) by done. rewrite Z.land_ones by lia.
  change (2 ^ 11) with 2048. change (2 ^ 12) with 4096. change (2 ^ (12 - 1)) with 2048.
  destruct (Z.leb_spec 2048 (x mod 4096)); destruct (Z.ltb_spec (x mod 4096) 2048); try lia.
  - replace ((x + 4096) mod 4096) with (x mod 4096); [lia|]. rewrite <- (Z_mod_plus_full x 1). f_equal.
Qed.
Lemma sext12 x : fits 12 (sext 12 (x mod 2 ^ 12)) /\ exists k, sext 12 (x mod 2 ^ 12) = x + k * 2 ^ 12.
Proof.
  split; [|apply sext_congr]. unfold sext, fits. pose proof (Z.mod_pos_bound x (2 ^ 12)) as H.
  change (2 ^ (12 - 1)) with 2048. change (2 ^ 12) with 4096 in *.
  destruct (Z.ltb_spec (x mod 4096) 2048); lia.
Qed.
Lemma hi_sum x : bits x 31 12 * 2 ^ 12 = (x - x mod 2 ^ 12) mod 2 ^ 32.
Proof. zbits. Z.div_mod_to_equations. lia. Qed.
Lemma hi_ok w x : let w' := Z.lor (Z.land w (2 ^ 12 - 1)) (Z.land (rounded x mod 2 ^ 32) (2 ^ 32 - 2 ^ 12)) mod 2 ^ 32 in
  same w w' [(11, 0)] /\ (- 2 ^ 31 <= x < 2 ^ 31 - 2 ^ 11 -> u_imm w' = x - sext 12 (x mod 2 ^ 12)).
Proof.
  intros w'. destruct (hi_fields (rounded x) w) as (E1 & E2). split.
  - unfold w'. repeat constructor; cbn [fst snd]; rewrite bits_mod by lia; done.
  - intros Hx. unfold w', u_imm. rewrite bits_mod, E1, hi_sum, rounded_mod by lia.
    destruct (sext12 x) as [[H1 H2] [k Hk]]. change (2 ^ (12 - 1)) with 2048 in *. change (2 ^ 12) with 4096 in *.
    apply sext_mod; [lia|]. split; [|change (2 ^ (32 - 1)) with (2 ^ 31); lia].
    change (2 ^ (32 - 1)) with (2 ^ 31). rewrite Hk.
    (* a multiple of 2^12 above -2^31 - 2^11 *)
    assert (exists q, x - (x + k * 4096) = q * 4096) as [q Hq] by (exists (- k); lia).
    rewrite Hk in H1, H2. lia.
Qed.
Lemma lo_ok w x : let w' := Z.lor (Z.land w (2 ^ 20 - 1)) (Z.shiftl (Z.land (x mod 2 ^ 32) (2 ^ 12 - 1)) 20) mod 2 ^ 32 in
  same w w' [(19, 0)] /\ i_imm w' = sext 12 (x mod 2 ^ 12).
Proof.
  intros w'. destruct (lo_fields x w) as (E1 & E2). split.
  - unfold w'. repeat constructor; cbn [fst snd]; rewrite bits_mod by lia; done.
  - unfold w', i_imm. rewrite bits_mod, E1 by lia. unfold bits. rewrite Z.pow_0_r, Z.div_1_r. done.
Qed.

Lemma adrp_ok w T P : 0 <= T < 2 ^ 64 ->
  let w' := pg_hi21 T P w mod 2 ^ 32 in
  same w w' [(4, 0); (28, 24); (31, 31)] /\ (fits 33 (s64 (page T - page P)) -> u64 (page P + adrp_imm w') = page T).
Proof.
  intros HT w'. unfold w', pg_hi21. set (x := Z.shiftr T 12 - Z.shiftr P 12).
  destruct (adrp_fields x w) as (E1 & E2 & E3 & E4 & E5). split.
  - repeat constructor; cbn [fst snd]; rewrite bits_mod by lia; done.
  - intros Hf. unfold adrp_imm. rewrite !bits_mod, E1, E2 by lia.
    assert (bits x 20 2 * 4 + bits x 1 0 = x mod 2 ^ 21) as ->.
    { zbits. Z.div_mod_to_equations. lia. }
    assert (page T - page P = 4096 * x) as Ex.
    { unfold page, x. rewrite !Z.shiftr_div_pow2 by lia. change (2 ^ 12) with 4096. Z.div_mod_to_equations. lia. }
    assert (0 <= page T < 2 ^ 64) as HpT.
    { unfold page. pose proof (Z.mod_pos_bound T 4096). Z.div_mod_to_equations. lia. }
    rewrite Ex in Hf. destruct (s64_congr (4096 * x)) as [k Hk].
    destruct (sext_congr 21 x) as [m Hm].
    (* s64 (4096 x) = 4096 y with y in range and y = x mod 2^52 *)
    assert (sext 21 (x mod 2 ^ 21) = x + k * 2 ^ 52) as E.
    { assert (fits 21 (x + k * 2 ^ 52)) as Hy.
      { unfold fits in *. rewrite Hk in Hf. change (2 ^ (33 - 1)) with (4096 * 2 ^ 20) in Hf.
        change (2 ^ (21 - 1)) with (2 ^ 20). change (2 ^ 64) with (4096 * 2 ^ 52) in Hf. lia. }
      rewrite <- (sext_mod 21 _ ltac:(lia) Hy). f_equal.
      change (2 ^ 52) with (2 ^ 31 * 2 ^ 21). rewrite Z.mul_assoc, Z_mod_plus_full. done. }
    rewrite E. apply (u64_add _ _ k); [done|].
    change (2 ^ 64) with (4096 * 2 ^ 52). lia.
Qed.
Lemma add_ok w T : let w' := add_lo12 T w mod 2 ^ 32 in same w w' [(9, 0); (31, 22)] /\ add_imm w' = T mod 4096.
Proof.
  intros w'. destruct (add_fields T w) as (E1 & E2 & E3). split.
  - unfold w'. repeat constructor; cbn [fst snd]; rewrite bits_mod by lia; done.
  - unfold w', add_imm. rewrite bits_mod, E1 by lia. unfold bits. rewrite Z.pow_0_r, Z.div_1_r. done.
Qed.
Lemma bl_ok w T P : 0 <= T < 2 ^ 64 -> let w' := call26 T P w mod 2 ^ 32 in
  same w w' [(31, 26)] /\ (fits 28 (s64 (T - P)) -> s64 (T - P) mod 4 = 0 -> bl_disp w' = s64 (T - P)).
Proof.
  intros HT w'. unfold w', call26. destruct (bl_fields (u64 (T - P)) w) as (E1 & E2). split.
  - repeat constructor; cbn [fst snd]; rewrite bits_mod by lia; done.
  - intros Hf H4. unfold bl_disp. rewrite bits_mod, E1 by lia.
    destruct (s64_congr (T - P)) as [k Hk].
    replace (bits (u64 (T - P)) 27 2 * 4) with (s64 (T - P) mod 2 ^ 28); [apply sext_mod; [lia|done]|].
    assert (u64 (T - P) = s64 (T - P) mod 2 ^ 64) as ->.
    { unfold u64. rewrite Hk, Z_mod_plus_full. done. }
    set (y := s64 (T - P)) in *. clearbody y. clear E1 E2 Hk Hf.
    zbits. Z.div_mod_to_equations. lia.
Qed.

Lemma at_mod n c o : bytes_ok c -> at_ n c o mod 2 ^ (8 * Z.of_nat n) = at_ n c o.
Proof. intros Hc. apply Z.mod_small, word_range. apply Forall_drop. done. Qed.

Lemma land_field w m v hi lo : 0 <= lo <= hi -> Z.land w m = v ->
  upto (fun n => Z.testbit m (n + lo) = true) (Z.to_nat (hi - lo + 1)) -> bits w hi lo = bits v hi lo.
Proof.
  intros H <- Hm. apply Z.bits_inj'. intros n Hn. rewrite !tb_bits by lia.
  destruct (Z.leb_spec 0 n); cbn [andb]; [|done].
  destruct (Z.leb_spec n (hi - lo)); cbn [andb]; [|done].
  rewrite Z.land_spec, (upto_spec _ _ Hm) by lia. rewrite andb_true_r. done.
Qed.

Lemma relocated sec relas c c' : targets_ok relas -> all_apart relas -> bytes_ok c ->
  apply_relas sec relas c = Ok (c', 0%nat) ->
  length c' = length c /\
  (forall i, (forall k r, relas !! k = Some r -> ~ in_field i (field relas k r)) -> c' !! i = c !! i) /\
  (forall j r, relas !! j = Some r -> achieves sec relas j r c c').
Proof.
  intros Ht Hap Hb H. destruct (all_ok sec relas c c' Hap H) as (H1 & H2 & H3).
  split; [done|]. split; [done|]. intros j r Hr.
  assert (0 <= r_target r < 2 ^ 64) as HT.
  { unfold targets_ok in Ht. rewrite stdpp.list.Forall_forall in Ht. apply Ht. eapply elem_of_list_lookup_2. done. }
  destruct (H3 j r Hr) as (w' & Hw & Hat).
  unfold achieves, new_word, field, distance in *.
  fold (place sec r) in Hw. pose proof (s64_range (r_target r - place sec r)) as HD.
  destruct (r_type r) eqn:Et; cbn [fst snd] in *;
    change (8 * Z.of_nat 8) with 64 in Hat; change (8 * Z.of_nat 4) with 32 in Hat; change (8 * Z.of_nat 2) with 16 in Hat.
  (* absolute *)
  1,4,9: injection Hw as <-; rewrite Hat; apply Z.mod_small; done.
  (* PC32 *)
  1,2: injection Hw as <-; intros Hf; rewrite Hat;
    assert (u64 (r_target r - place sec r) mod 2 ^ 32 = s64 (r_target r - place sec r) mod 2 ^ 32) as ->;
    [destruct (s64_congr (r_target r - place sec r)) as [k ->]; unfold u64;
     rewrite <- Znumtheory.Zmod_div_mod by (try lia; exists (2 ^ 32); done);
     change (2 ^ 64) with (2 ^ 32 * 2 ^ 32); rewrite Z.mul_assoc, Z_mod_plus_full; done|];
    rewrite sext_mod by (try lia; done); apply reach; done.
  - (* ADRP *) injection Hw as <-. rewrite Hat. apply adrp_ok. done.
  - injection Hw as <-. rewrite Hat. apply add_ok.
  - injection Hw as <-. rewrite Hat. destruct (bl_ok (at_ 4 c (r_offset r)) (r_target r) (place sec r) HT) as [Hs Hd].
    split; [done|]. intros Hf H4. rewrite Hd by done. apply reach. done.
  - done.
  - (* CALL *)
    unfold rv_call in Hw. destruct (in_range _ _) eqn:Er; [|done]. injection Hw as <-.
    apply in_range_spec in Er. rewrite Hat.
    destruct (call_ok (s64 (r_target r - place sec r))) as (Ha & Hb' & Hd). split; [done|]. split; [done|].
    intros He. rewrite Hd; [apply reach; done| |done]. unfold fits. change (2 ^ (21 - 1)) with (2 ^ 20). lia.
  - (* RELAX *)
    destruct (r_type <$> relas !! pred j) as [t|] eqn:Ep; [|done]. destruct t; try done.
    cbn [fst snd] in *. destruct j as [|j]; [done|]. injection Hw as <-. exact Hat.
  - (* PCREL_HI20 *)
    unfold rv_hi20 in Hw. destruct (in_range _ _) eqn:Er; [|done]. injection Hw as <-.
    apply in_range_spec in Er. fold (rounded (s64 (r_target r - place sec r))) in Hat. rewrite Hat.
    destruct (hi_ok (at_ 4 c (r_offset r)) (s64 (r_target r - place sec r))) as [Hs Hd]. split; [done|].
    intros Hlt. rewrite Hd by lia. replace (_ - (_ - _)) with (sext 12 (s64 (r_target r - place sec r) mod 2 ^ 12)) by lia.
    apply sext12.
  - (* HI20 *)
    unfold rv_hi20 in Hw. destruct (in_range _ _) eqn:Er; [|done]. injection Hw as <-.
    rewrite Z.sub_0_r in *.
    apply in_range_spec in Er. fold (rounded (s64 (r_target r))) in Hat. rewrite Hat.
    destruct (hi_ok (at_ 4 c (r_offset r)) (s64 (r_target r))) as [Hs Hd]. split; [done|].
    intros Hlt. rewrite Hd by lia. replace (_ - (_ - _)) with (sext 12 (s64 (r_target r) mod 2 ^ 12)) by lia.
    apply sext12.
  - (* PCREL_LO12 *)
    destruct j as [|[|j]]; [done|done|]. destruct (relas !! j) as [h|] eqn:Eh; [|done].
    destruct (decide _) as [Eth|]; [|done].
    unfold rv_lo12 in Hw. fold (place sec h) in Hw. destruct (in_range _ _) eqn:Er; [|done]. injection Hw as <-.
    apply in_range_spec in Er. rewrite Hat.
    destruct (lo_ok (at_ 4 c (r_offset r)) (s64 (r_target h - place sec h))) as [Hs Hd]. split; [done|].
    exists h. replace (S (S j) - 2)%nat with j by lia. split; [done|]. split; [done|]. intros Hlt.
    rewrite Hd. destruct (H3 j h Eh) as (wh & Hwh & Hath). unfold new_word, field in Hwh, Hath. rewrite Eth in Hwh, Hath.
    cbn [fst snd] in *. fold (place sec h) in Hwh. unfold rv_hi20 in Hwh. rewrite (proj2 (in_range_spec _ _)) in Hwh by done.
    injection Hwh as <-. fold (rounded (s64 (r_target h - place sec h))) in Hath.
    change (8 * Z.of_nat 4) with 32 in Hath. rewrite Hath.
    destruct (hi_ok (at_ 4 c (r_offset h)) (s64 (r_target h - place sec h))) as [_ Hd']. rewrite Hd' by lia.
    replace (place sec h + _ + _) with (place sec h + s64 (r_target h - place sec h)) by lia.
    apply reach. unfold targets_ok in Ht. rewrite stdpp.list.Forall_forall in Ht. apply Ht. eapply elem_of_list_lookup_2. done.
  - (* LO12 *)
    destruct j as [|[|j]]; [done|done|]. destruct (relas !! j) as [h|] eqn:Eh; [|done].
    destruct (decide _) as [Eth|]; [|done].
    unfold rv_lo12 in Hw. destruct (in_range _ _) eqn:Er; [|done]. injection Hw as <-. rewrite Z.sub_0_r in *.
    apply in_range_spec in Er. rewrite Hat.
    destruct (lo_ok (at_ 4 c (r_offset r)) (s64 (r_target h))) as [Hs Hd]. split; [done|].
    exists h. replace (S (S j) - 2)%nat with j by lia. split; [done|]. split; [done|]. intros Hlt.
    rewrite Hd. destruct (H3 j h Eh) as (wh & Hwh & Hath). unfold new_word, field in Hwh, Hath. rewrite Eth in Hwh, Hath.
    cbn [fst snd] in *. unfold rv_hi20 in Hwh. rewrite Z.sub_0_r in Hwh. rewrite (proj2 (in_range_spec _ _)) in Hwh by done.
    injection Hwh as <-. fold (rounded (s64 (r_target h))) in Hath.
    change (8 * Z.of_nat 4) with 32 in Hath. rewrite Hath.
    destruct (hi_ok (at_ 4 c (r_offset h)) (s64 (r_target h))) as [_ Hd']. rewrite Hd' by lia.
    assert (0 <= r_target h < 2 ^ 64) as HTh.
    { unfold targets_ok in Ht. rewrite stdpp.list.Forall_forall in Ht. apply Ht. eapply elem_of_list_lookup_2. done. }
    pose proof (reach 0 (r_target h) HTh) as R. rewrite Z.sub_0_r in R. etransitivity; [|exact R]. f_equal. lia.
  - (* RVC_JUMP *)
    unfold rv_rvc_jump in Hw. destruct (in_range _ _ && _) eqn:Er; [|done]. injection Hw as <-.
    apply andb_true_iff in Er as [Er Em]. apply in_range_spec in Er. apply Z.eqb_eq in Em. rewrite Hat.
    destruct (cj_ok (at_ 2 c (r_offset r)) (s64 (r_target r - place sec r))) as [Hs Hd]. split; [done|].
    split; [rewrite (land_field _ _ _ 1 0 ltac:(lia) Em); [done|vm_compute; tauto]|].
    split; [rewrite (land_field _ _ _ 15 13 ltac:(lia) Em); [done|vm_compute; tauto]|].
    intros He. rewrite Hd; [apply reach; done| |done]. unfold fits. change (2 ^ (12 - 1)) with (2 ^ 11). lia.
  - (* JAL *)
    unfold rv_jal in Hw. destruct (in_range _ _ && _) eqn:Er; [|done]. injection Hw as <-.
    apply andb_true_iff in Er as [Er Em]. apply in_range_spec in Er. apply Z.eqb_eq in Em. rewrite Hat.
    assert (bits (at_ 4 c (r_offset r)) 6 0 = 0x6f) as E6.
    { rewrite (land_field _ _ _ 6 0 ltac:(lia) Em); [done|vm_compute; tauto]. }
    split; [|split; [done|]].
    + rewrite bits_mod by lia. unfold SWIZZLE_JAL. destruct (jal_fields (s64 (r_target r - place sec r)) (at_ 4 c (r_offset r))) as (_ & _ & _ & _ & ->). done.
    + intros He. rewrite jal_ok; [apply reach; done| |done]. unfold fits. change (2 ^ (21 - 1)) with (2 ^ 20). lia.
  - (* BRANCH *)
    unfold rv_branch in Hw. destruct (in_range _ _) eqn:Er; [|done]. injection Hw as <-. rewrite Hat.
    destruct (branch_ok (at_ 4 c (r_offset r)) (s64 (r_target r - place sec r))) as [Hs Hd]. split; [done|].
    intros Hf He. rewrite Hd by done. apply reach. done.
  - (* RVC_BRANCH *)
    unfold rv_rvc_branch in Hw. destruct (in_range _ _ && _) eqn:Er; [|done]. injection Hw as <-.
    apply andb_true_iff in Er as [Er Em]. apply in_range_spec in Er. apply Z.eqb_eq in Em. rewrite Hat.
    destruct (cb_ok (at_ 2 c (r_offset r)) (s64 (r_target r - place sec r))) as [Hs Hd]. split; [done|].
    split; [rewrite (land_field _ _ _ 1 0 ltac:(lia) Em); [done|vm_compute; tauto]|].
    split; [rewrite (land_field _ _ _ 15 14 ltac:(lia) Em); [done|vm_compute; tauto]|].
    intros He. rewrite Hd; [apply reach; done| |done]. unfold fits. change (2 ^ (9 - 1)) with (2 ^ 8). lia.
  - done.
Qed.
