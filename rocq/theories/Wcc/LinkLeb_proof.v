From stdpp Require Import base list numbers.
From Coq Require Import Lia ZArith.
From Verif Require Import Util.Data_model Util.Data_spec Util.Data_proof Wcc.LinkLeb_model.
Local Open Scope Z_scope.

Lemma land128_lt b : 0 <= b < 128 -> Z.land b 128 = 0.
Proof.
  intros Hb. apply Z.bits_inj'. intros n Hn. rewrite Z.land_spec, Z.bits_0.
  destruct (decide (n = 7)) as [->|].
  - rewrite (Z.bits_above_log2 b 7); [done|lia|].
    destruct (decide (b = 0)) as [->|]; [done|]. apply Z.log2_lt_pow2; lia.
  - change 128 with (2^7). rewrite Z.pow2_bits_false by lia. apply andb_false_r.
Qed.

Lemma land128_ge b : 0 <= b < 128 -> Z.land (b + 128) 128 <> 0.
Proof.
  intros Hb. rewrite <- lor128 by done. rewrite Z.land_lor_distr_l, land128_lt by done. done.
Qed.

Lemma land64_lt b : 0 <= b < 64 -> Z.land b 64 = 0.
Proof.
  intros Hb. apply Z.bits_inj'. intros n Hn. rewrite Z.land_spec, Z.bits_0.
  destruct (decide (n = 6)) as [->|].
  - rewrite (Z.bits_above_log2 b 6); [done|lia|].
    destruct (decide (b = 0)) as [->|]; [done|]. apply Z.log2_lt_pow2; lia.
  - change 64 with (2^6). rewrite Z.pow2_bits_false by lia. apply andb_false_r.
Qed.

Lemma lor_high r x s : 0 <= s -> 0 <= r < 2^s -> Z.lor r (x * 2^s) = r + x * 2^s.
Proof.
  intros Hs Hr.
  assert (Hland : Z.land r (x * 2^s) = 0).
  { apply Z.bits_inj'. intros n Hn. rewrite Z.land_spec, Z.bits_0.
    destruct (decide (n < s)).
    - rewrite Z.mul_pow2_bits_low by lia. apply andb_false_r.
    - assert (Z.testbit r n = false) as ->; [|done].
      destruct (decide (r = 0)) as [->|]; [apply Z.bits_0|].
      apply Z.bits_above_log2; [lia|]. enough (Z.log2 r < s) by lia. apply Z.log2_lt_pow2; lia. }
  rewrite <- Z.lxor_lor, <- Z.add_nocarry_lxor by done. done.
Qed.

Lemma int_shl_ok x s : 0 <= s < 32 -> x * 2^s < 2^31 -> int_shl x s = Some (x * 2^s).
Proof. intros. unfold int_shl. rewrite decide_True by lia. done. Qed.

(* [k] groups read so far *)
Lemma read_uleb_ok : forall room v bs rest k r, uleb_loop room v = Some bs ->
  0 <= v -> 0 <= k -> 0 <= r < 2^(7*k) -> r + v * 2^(7*k) < 2^31 -> (v = 0 -> k < 5) ->
  read_uleb_loop (bs ++ rest) r (7 * k) = Some (r + v * 2^(7*k), rest).
Proof.
  induction room as [|room IH]; intros v bs rest k r Hl Hv Hk Hr Hsum Hv0; [done|].
  assert (Hsh : 7 * k < 32).
  { destruct (decide (v = 0)) as [->|]; [specialize (Hv0 eq_refl); lia|].
    assert (2^(7*k) < 2^31) by nia. apply Z.pow_lt_mono_r_iff in H; lia. }
  cbn [uleb_loop] in Hl. destruct (v <? 128) eqn:E.
  - injection Hl as <-. rewrite land127, Z.mod_small by lia. cbn [app read_uleb_loop].
    rewrite land127, Z.mod_small by lia. rewrite int_shl_ok by lia. cbn [mbind option_bind].
    rewrite land128_lt by lia. rewrite decide_True by done.
    rewrite lor_high by lia. done.
  - rewrite cont_byte, shiftr7 in Hl.
    destruct (uleb_loop room (v / 128)) as [bs'|] eqn:El; [|done]. injection Hl as <-.
    pose proof (Z.mod_pos_bound v 128 ltac:(lia)) as Hm. pose proof (Z.div_mod v 128 ltac:(lia)) as Hdm.
    cbn [app read_uleb_loop].
    assert (Z.land (v mod 128 + 128) 127 = v mod 128) as ->.
    { rewrite land127. rewrite <- Zplus_mod_idemp_r. change (128 mod 128) with 0.
      rewrite Z.add_0_r. apply Z.mod_mod. lia. }
    assert (0 < 2^(7*k)) by (apply Z.pow_pos_nonneg; lia).
    rewrite int_shl_ok by nia. cbn [mbind option_bind].
    rewrite decide_False by (apply land128_ge; lia).
    rewrite lor_high by lia.
    assert (Hp : 2^(7*(k+1)) = 2^(7*k) * 128).
    { replace (7*(k+1)) with (7*k+7) by lia. rewrite Z.pow_add_r by lia. done. }
    replace (7 * k + 7) with (7 * (k + 1)) by lia.
    rewrite (IH (v / 128)) with (k := k + 1); [|done|apply Z.div_pos; lia|lia| | |].
    + do 2 f_equal. rewrite Hp. nia.
    + rewrite Hp. nia.
    + rewrite Hp. nia.
    + intros H0. exfalso. rewrite H0 in Hdm. lia.
Qed.

Lemma link_uleb_roundtrip v bs rest : 0 <= v < 2^31 -> uleb_loop 12 v = Some bs ->
  read_uleb128 (bs ++ rest) = Some (v, rest).
Proof.
  intros Hv Hl. unfold read_uleb128.
  pose proof (read_uleb_ok 12 v bs rest 0 0 Hl) as H. change (7 * 0) with 0 in H. change (2^0) with 1 in H. rewrite H by lia.
  do 2 f_equal. lia.
Qed.

Lemma read_varuint_ok rest : forall i v k r, 0 <= v -> 0 <= k -> k + Z.of_nat i <= 4 ->
  0 <= r < 2^(7*k) -> v < 128 ^ (Z.of_nat i + 1) -> r + v * 2^(7*k) < 2^31 ->
  read_uleb_loop (varuint_loop i v ++ rest) r (7 * k) = Some (r + v * 2^(7*k), rest).
Proof.
  induction i as [|i IH]; intros v k r Hv Hk Hki Hr Hvi Hsum; cbn [varuint_loop].
  - simpl in Hvi. rewrite land127, Z.mod_small by lia. cbn [app read_uleb_loop].
    rewrite land127, Z.mod_small by lia. rewrite int_shl_ok by lia. cbn [mbind option_bind].
    rewrite land128_lt by lia. rewrite decide_True by done.
    rewrite lor_high by lia. done.
  - rewrite cont_byte, shiftr7.
    pose proof (Z.mod_pos_bound v 128 ltac:(lia)) as Hm. pose proof (Z.div_mod v 128 ltac:(lia)) as Hdm.
    cbn [app read_uleb_loop].
    assert (Z.land (v mod 128 + 128) 127 = v mod 128) as ->.
    { rewrite land127. rewrite <- Zplus_mod_idemp_r. change (128 mod 128) with 0.
      rewrite Z.add_0_r. apply Z.mod_mod. lia. }
    assert (0 < 2^(7*k)) by (apply Z.pow_pos_nonneg; lia).
    assert (0 <= v / 128) by (apply Z.div_pos; lia).
    rewrite int_shl_ok by nia. cbn [mbind option_bind].
    rewrite decide_False by (apply land128_ge; lia).
    rewrite lor_high by lia.
    assert (Hp : 2^(7*(k+1)) = 2^(7*k) * 128).
    { replace (7*(k+1)) with (7*k+7) by lia. rewrite Z.pow_add_r by lia. done. }
    replace (7 * k + 7) with (7 * (k + 1)) by lia.
    rewrite (IH (v / 128) (k + 1)); [|lia|lia|lia| | |].
    + do 2 f_equal. rewrite Hp. nia.
    + rewrite Hp. nia.
    + apply Z.div_lt_upper_bound; [lia|].
      replace (Z.of_nat (S i) + 1) with (Z.succ (Z.of_nat i + 1)) in Hvi by lia.
      rewrite Z.pow_succ_r in Hvi by lia. lia.
    + rewrite Hp. nia.
Qed.

Lemma link_varuint_roundtrip v rest : 0 <= v < 2^31 ->
  read_uleb128 (varuint_loop 4 v ++ rest) = Some (v, rest).
Proof.
  intros Hv. unfold read_uleb128.
  pose proof (read_varuint_ok rest 4 v 0 0) as H. change (7 * 0) with 0 in H. change (2^0) with 1 in H. rewrite H; try lia.
  - do 2 f_equal. lia.
Qed.

Lemma read_leb_ok : forall room v bs rest k r, leb_loop room v = Some bs ->
  0 <= v -> 0 <= k -> 0 <= r < 2^(7*k) -> r + v * 2^(7*k) < 2^31 -> 7 * k < 32 ->
  read_leb_loop (bs ++ rest) r (7 * k) = Some (r + v * 2^(7*k), rest).
Proof.
  induction room as [|room IH]; intros v bs rest k r Hl Hv Hk Hr Hsum Hsh; [done|].
  cbn [leb_loop] in Hl. destruct ((v <? 64) && (v >=? -64)) eqn:E.
  - injection Hl as <-. rewrite land127, Z.mod_small by lia. cbn [app read_leb_loop].
    rewrite land127, Z.mod_small by lia. rewrite int_shl_ok by lia. cbn [mbind option_bind].
    rewrite land128_lt by lia. rewrite decide_True by done.
    rewrite land64_lt by lia. rewrite decide_False by (intros H; done).
    rewrite lor_high by lia. done.
  - rewrite cont_byte, shiftr7 in Hl.
    destruct (leb_loop room (v / 128)) as [bs'|] eqn:El; [|done]. injection Hl as <-.
    pose proof (Z.mod_pos_bound v 128 ltac:(lia)) as Hm. pose proof (Z.div_mod v 128 ltac:(lia)) as Hdm.
    cbn [app read_leb_loop].
    assert (Z.land (v mod 128 + 128) 127 = v mod 128) as ->.
    { rewrite land127. rewrite <- Zplus_mod_idemp_r. change (128 mod 128) with 0.
      rewrite Z.add_0_r. apply Z.mod_mod. lia. }
    assert (0 < 2^(7*k)) by (apply Z.pow_pos_nonneg; lia).
    assert (0 <= v / 128) by (apply Z.div_pos; lia).
    rewrite int_shl_ok by nia. cbn [mbind option_bind].
    rewrite decide_False by (apply land128_ge; lia).
    rewrite lor_high by lia.
    assert (Hp : 2^(7*(k+1)) = 2^(7*k) * 128).
    { replace (7*(k+1)) with (7*k+7) by lia. rewrite Z.pow_add_r by lia. done. }
    assert (7 * (k + 1) < 32).
    { assert (64 * 2^(7*k) < 2^31) by nia. replace (64 * 2^(7*k)) with (2^(6+7*k)) in H1
        by (rewrite Z.pow_add_r by lia; done).
      apply Z.pow_lt_mono_r_iff in H1; lia. }
    replace (7 * k + 7) with (7 * (k + 1)) by lia.
    rewrite (IH (v / 128)) with (k := k + 1); [|done|lia|lia| | |lia].
    + do 2 f_equal. rewrite Hp. nia.
    + rewrite Hp. nia.
    + rewrite Hp. nia.
Qed.

Lemma link_leb_roundtrip v bs rest : 0 <= v < 2^31 -> leb_loop 12 v = Some bs ->
  read_leb128 (bs ++ rest) = Some (v, rest).
Proof.
  intros Hv Hl. unfold read_leb128.
  pose proof (read_leb_ok 12 v bs rest 0 0 Hl) as H. change (7 * 0) with 0 in H. change (2^0) with 1 in H. rewrite H by lia.
  do 2 f_equal. lia.
Qed.

Lemma link_leb_negative_wrong :
  exists v bs, -2^31 <= v < 2^31 /\ leb_loop 12 v = Some bs /\ read_leb128 bs = Some (126, []) /\ v = -1.
Proof. exists (-1), [127]. vm_compute. repeat split; discriminate. Qed.

Lemma link_uleb_large_undefined :
  exists v bs, 0 <= v < 2^32 /\ uleb_loop 12 v = Some bs /\ read_uleb128 bs = None.
Proof. exists (2^31), [128; 128; 128; 128; 8]. vm_compute. repeat split; discriminate. Qed.
