From Coq Require Import ZArith Lia Bool.
From Verif Require Import Util.Wrap_model Util.Wrap_spec.
Local Open Scope Z_scope.

Lemma to_unsigned_ok n v : 0 < n -> 0 <= to_unsigned n v < 2^n /\ exists k, v - to_unsigned n v = k * 2^n.
Proof.
  intros Hn. unfold to_unsigned. assert (0 < 2^n) by (apply Z.pow_pos_nonneg; lia).
  pose proof (Z.mod_pos_bound v (2^n)). pose proof (Z.div_mod v (2^n)).
  split; [lia|]. exists (v / 2^n). lia.
Qed.
Lemma to_signed_ok n v : 0 < n -> - 2^(n-1) <= to_signed n v < 2^(n-1) /\ exists k, v - to_signed n v = k * 2^n.
Proof.
  intros Hn. unfold to_signed. assert (0 < 2^(n-1)) by (apply Z.pow_pos_nonneg; lia).
  assert (2^n = 2 * 2^(n-1)) by (rewrite <- Z.pow_succ_r by lia; f_equal; lia).
  pose proof (Z.mod_pos_bound (v + 2^(n-1)) (2^n)). pose proof (Z.div_mod (v + 2^(n-1)) (2^n)).
  split; [lia|]. exists ((v + 2^(n-1)) / 2^n). lia.
Qed.

Lemma wrap_converts v size u : -2^63 <= v < 2^63 ->
  size = 1 \/ size = 2 \/ size = 4 \/ (size = 8 /\ u = false) ->
  converts size u v (wrap_value v size u).
Proof.
  intros Hv [->|[->|[->|[-> ->]]]]; unfold converts, wrap_value, type_min, type_max.
  1-3: destruct u; cbn [Z.eqb Pos.eqb].
  1: destruct (to_unsigned_ok 8 v) as [H1 H2]; [lia|]; change (8*1) with 8; split; [lia|exact H2].
  1: destruct (to_signed_ok 8 v) as [H1 H2]; [lia|]; change (8*1) with 8; split; [lia|exact H2].
  1: destruct (to_unsigned_ok 16 v) as [H1 H2]; [lia|]; change (8*2) with 16; split; [lia|exact H2].
  1: destruct (to_signed_ok 16 v) as [H1 H2]; [lia|]; change (8*2) with 16; split; [lia|exact H2].
  1: destruct (to_unsigned_ok 32 v) as [H1 H2]; [lia|]; change (8*4) with 32; split; [lia|exact H2].
  1: destruct (to_signed_ok 32 v) as [H1 H2]; [lia|]; change (8*4) with 32; split; [lia|exact H2].
  change (8*8) with 64. cbn [Z.eqb Pos.eqb]. split; [lia|]. exists 0. lia.
Qed.

(* conversion is unique, hence wrap_value is idempotent *)
Lemma converts_unique size u v w1 w2 : 0 < size -> converts size u v w1 -> converts size u v w2 -> w1 = w2.
Proof.
  intros Hs [H1 [k1 E1]] [H2 [k2 E2]].
  assert (0 < 2^(8*size)) by (apply Z.pow_pos_nonneg; lia).
  assert (Hp : 2^(8*size) = 2 * 2^(8*size-1)) by (rewrite <- Z.pow_succ_r by lia; f_equal; lia).
  assert (w1 - w2 = (k2 - k1) * 2^(8*size)) by lia.
  assert (k2 - k1 = 0) by (unfold type_min, type_max in *; destruct u; nia). nia.
Qed.

Lemma wrap_idempotent v size u : -2^63 <= v < 2^63 ->
  size = 1 \/ size = 2 \/ size = 4 \/ size = 8 ->
  wrap_value (wrap_value v size u) size u = wrap_value v size u.
Proof.
  intros Hv Hs. destruct (Z.eq_dec size 8) as [->|Hne]; [destruct u; reflexivity|].
  assert (Hs' : size = 1 \/ size = 2 \/ size = 4 \/ (size = 8 /\ u = false)) by tauto.
  pose proof (wrap_converts v size u Hv Hs') as [H1 [k Hk]].
  assert (Hr : -2^63 <= wrap_value v size u < 2^63).
  { unfold type_min, type_max in H1. destruct Hs as [->|[->|[->|?]]]; [| | |lia]; destruct u; cbn -[wrap_value] in H1; lia. }
  apply (converts_unique size u (wrap_value v size u)); [lia|apply wrap_converts; auto|].
  split; [exact H1|]. exists 0. lia.
Qed.

Lemma is_imm_ok x :
  (is_im8 x = true <-> -2^7 <= x < 2^7) /\ (is_im16 x = true <-> -2^15 <= x < 2^15) /\
  (is_im32 x = true <-> -2^31 <= x < 2^31).
Proof. unfold is_im8, is_im16, is_im32. rewrite !andb_true_iff, !Z.leb_le. lia. Qed.

Lemma wrap_is_the_conversion v size u : -2^63 <= v < 2^63 ->
  size = 1 \/ size = 2 \/ size = 4 \/ (size = 8 /\ u = false) ->
  converts size u v (wrap_value v size u) /\
  forall w, converts size u v w -> w = wrap_value v size u.
Proof.
  intros Hv Hs. pose proof (wrap_converts v size u Hv Hs) as H. split; [exact H|].
  intros w Hw. apply (converts_unique size u v); [lia|exact Hw|exact H].
Qed.

Lemma wrap_u64 v : -2^63 <= v < 2^63 -> wrap_value v 8 true = v.
Proof. intros _. reflexivity. Qed.
