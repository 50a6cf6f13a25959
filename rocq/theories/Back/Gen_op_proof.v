(** The operators: what the generator puts for them computes what C says. *)
From stdpp Require Import base list numbers.
From Verif Require Import Util.Wrap_model Front.Fold_model Back.Ir_model Back.Ir_spec Back.Opt_model Back.Opt_spec Back.Switch_proof Back.Cond_proof
  Back.Opt_proof Back.Opt_fold_proof Back.Gen_model Back.Gen_spec.
Local Open Scope Z_scope.

Lemma view_eq v u a b : vsizes v -> cut v a = cut v b -> view (size_of v) u a = view (size_of v) u b.
Proof.
  intros H E. unfold cut in E. unfold view. cbv zeta. destruct u; [done|]. f_equal.
  rewrite (Zplus_mod a), (Zplus_mod b). by rewrite E.
Qed.
Lemma conv_eq t a b : good_ty t -> cut (tsz t) a = cut (tsz t) b -> conv t a = conv t b.
Proof. apply view_eq. Qed.
Lemma cut_conv t z : good_ty t -> cut (tsz t) (conv t z) = cut (tsz t) z.
Proof. apply cut_view. Qed.
Lemma conv_cut t z : good_ty t -> conv t (cut (tsz t) z) = conv t z.
Proof. intros H. apply conv_eq; [done|]. by apply cut_cut. Qed.
Lemma conv_conv t z : good_ty t -> conv t (conv t z) = conv t z.
Proof. intros H. apply conv_eq; [done|]. by apply cut_conv. Qed.
Lemma conv_range t z : good_ty t ->
  (if tuns t then 0 else - 2 ^ (8 * size_of (tsz t) - 1)) <= conv t z < (if tuns t then 2 ^ (8 * size_of (tsz t)) else 2 ^ (8 * size_of (tsz t) - 1)).
Proof. intros H. apply view_range. by apply size_pos. Qed.
Lemma pow_double t : good_ty t -> 2 ^ (8 * size_of (tsz t)) = 2 * 2 ^ (8 * size_of (tsz t) - 1) /\ 0 < 2 ^ (8 * size_of (tsz t) - 1).
Proof. unfold good_ty. intros H. sizes H; by vm_compute. Qed.
Lemma conv_id t z : good_ty t ->
  (if tuns t then 0 else - 2 ^ (8 * size_of (tsz t) - 1)) <= z < (if tuns t then 2 ^ (8 * size_of (tsz t)) else 2 ^ (8 * size_of (tsz t) - 1)) ->
  conv t z = z.
Proof.
  intros H Hr. destruct (pow_double t H) as [E1 E2]. unfold conv, view. cbv zeta. destruct (tuns t).
  - apply Z.mod_small. lia.
  - rewrite Z.mod_small; lia.
Qed.
Lemma conv_fix t a b : good_ty t -> conv t a = conv t b -> cut (tsz t) a = cut (tsz t) b.
Proof. intros H E. by rewrite <- (cut_conv t a), E, cut_conv. Qed.
Lemma conv_cut_of t a v : good_ty t -> conv t a = v -> cut (tsz t) a = cut (tsz t) v.
Proof. intros H <-. by rewrite cut_conv. Qed.

Lemma arith_ok t z v : good_ty t -> arith t z = Some v -> conv t v = v /\ cut (tsz t) v = cut (tsz t) z.
Proof.
  intros H. unfold arith. destruct (tuns t) eqn:Eu.
  - intros [= <-]. split; [by apply conv_conv|by apply cut_conv].
  - unfold fits. case_bool_decide as E; [|done]. intros [= <-]. split; [|done]. unfold conv. by rewrite Eu.
Qed.

(** Bits *)
Definition top (n : Z) (z : Z) : Prop := forall i, n <= i -> Z.testbit z i = Z.testbit z n.
Lemma top_range n z : 0 <= n -> - 2 ^ n <= z < 2 ^ n <-> top n z.
Proof.
  intros Hn. split.
  - intros Hr i Hi. destruct (decide (0 <= z)).
    + destruct (decide (z = 0)) as [->|Hz]; [by rewrite !Z.bits_0|].
      assert (Z.log2 z < n) by (apply Z.log2_lt_pow2; lia).
      rewrite !Z.bits_above_log2 by lia. done.
    + assert (E : forall j, n <= j -> Z.testbit z j = true).
      { intros j Hj. rewrite <- (Z.lnot_involutive z). rewrite Z.lnot_spec by lia.
        assert (0 <= Z.lnot z < 2 ^ n) by (unfold Z.lnot; lia).
        destruct (decide (Z.lnot z = 0)) as [->|Hz]; [by rewrite Z.bits_0|].
        assert (Z.log2 (Z.lnot z) < n) by (apply Z.log2_lt_pow2; lia).
        rewrite Z.bits_above_log2 by lia. done. }
      rewrite !E by lia. done.
  - intros Ht. destruct (Z.testbit z n) eqn:Eb.
    + assert (Z.shiftr z n = -1) as E.
      { apply Z.bits_inj. intros i. destruct (decide (0 <= i)); [|by rewrite !Z.testbit_neg_r by lia].
        rewrite Z.shiftr_spec by lia. rewrite (Ht (i + n)) by lia. rewrite Eb. symmetry. by apply Z.bits_m1. }
      rewrite Z.shiftr_div_pow2 in E by lia. pose proof (Z.div_mod z (2 ^ n) ltac:(lia)). pose proof (Z.mod_pos_bound z (2 ^ n) ltac:(lia)). lia.
    + assert (Z.shiftr z n = 0) as E.
      { apply Z.bits_inj. intros i. destruct (decide (0 <= i)); [|by rewrite !Z.testbit_neg_r by lia].
        rewrite Z.shiftr_spec by lia. rewrite (Ht (i + n)) by lia. rewrite Eb. symmetry. apply Z.bits_0. }
      rewrite Z.shiftr_div_pow2 in E by lia. pose proof (Z.div_mod z (2 ^ n) ltac:(lia)). pose proof (Z.mod_pos_bound z (2 ^ n) ltac:(lia)). lia.
Qed.
Definition bitwise (f : Z -> Z -> Z) (g : bool -> bool -> bool) : Prop :=
  g false false = false /\ forall a b i, Z.testbit (f a b) i = g (Z.testbit a i) (Z.testbit b i).
Lemma bitwise_range n f g a b : 0 <= n -> bitwise f g -> - 2 ^ n <= a < 2 ^ n -> - 2 ^ n <= b < 2 ^ n -> - 2 ^ n <= f a b < 2 ^ n.
Proof.
  intros Hn [_ Hf] Ha Hb. apply top_range in Ha, Hb; [|done..]. apply top_range; [done|].
  intros i Hi. rewrite !Hf. by rewrite (Ha i Hi), (Hb i Hi).
Qed.
Lemma bitwise_nneg f g a b : bitwise f g -> 0 <= a -> 0 <= b -> 0 <= f a b.
Proof.
  intros [Hg Hf] Ha Hb. apply Z.bits_iff_nonneg_ex. exists (Z.max (Z.log2 a) (Z.log2 b)). intros m Hm.
  rewrite Hf. rewrite !Z.bits_above_log2 by lia. done.
Qed.
Lemma bitwise_conv t f g a b : good_ty t -> bitwise f g -> conv t a = a -> conv t b = b -> conv t (f a b) = f a b.
Proof.
  intros H Hf Ha Hb. pose proof (conv_range t a H) as Ra. pose proof (conv_range t b H) as Rb. rewrite Ha in Ra. rewrite Hb in Rb.
  apply conv_id; [done|]. pose proof (size_pos _ H). destruct (tuns t).
  - split; [apply (bitwise_nneg f g); [done|lia..]|]. apply (bitwise_range _ f g); [lia|done|lia..].
  - apply (bitwise_range _ f g); [lia|done|lia..].
Qed.
Lemma bitwise_cut v f g a b a' b' : bitwise f g -> vsizes v -> cut v a = cut v a' -> cut v b = cut v b' -> cut v (f a b) = cut v (f a' b').
Proof.
  intros [Hg Hf] H E1 E2. pose proof (size_pos v H) as Hs. unfold cut in *. apply Z.bits_inj. intros i.
  destruct (decide (0 <= i)); [|by rewrite !Z.testbit_neg_r by lia].
  destruct (decide (i < 8 * size_of v)).
  - rewrite !Z.mod_pow2_bits_low by lia. rewrite !Hf.
    rewrite <- (Z.mod_pow2_bits_low a (8 * size_of v) i), E1 by lia. rewrite <- (Z.mod_pow2_bits_low b (8 * size_of v) i), E2 by lia.
    by rewrite !Z.mod_pow2_bits_low by lia.
  - by rewrite !Z.mod_pow2_bits_high by lia.
Qed.
Lemma bw_and : bitwise Z.land andb.
Proof. split; [done|]. intros. apply Z.land_spec. Qed.
Lemma bw_or : bitwise Z.lor orb.
Proof. split; [done|]. intros. apply Z.lor_spec. Qed.
Lemma bw_xor : bitwise Z.lxor xorb.
Proof. split; [done|]. intros. apply Z.lxor_spec. Qed.

(** The operator of C is the instruction's. *)
Lemma fits_conv t z : conv t z = z -> fits (size_of (tsz t)) (tuns t) z = true.
Proof. intros E. unfold fits. by apply bool_decide_eq_true_2. Qed.
Lemma quot_fits t a b : good_ty t -> tuns t = true -> conv t a = a -> conv t b = b -> b <> 0 -> conv t (Z.quot a b) = Z.quot a b.
Proof.
  intros H Hu Ha Hb Hn. pose proof (conv_range t a H) as Ra. pose proof (conv_range t b H) as Rb. rewrite Ha, Hu in Ra. rewrite Hb, Hu in Rb.
  apply conv_id; [done|]. rewrite Hu. pose proof (Z.quot_pos a b ltac:(lia) ltac:(lia)). pose proof (Z.quot_le_upper_bound a b a ltac:(lia) ltac:(nia)). lia.
Qed.
Lemma rem_fits t a b : good_ty t -> conv t a = a -> b <> 0 -> conv t (Z.rem a b) = Z.rem a b.
Proof.
  intros H Ha Hn. pose proof (conv_range t a H) as Ra. rewrite Ha in Ra.
  apply conv_id; [done|]. assert (Z.abs (Z.rem a b) <= Z.abs a) as Hr.
  { rewrite <- Z.rem_abs by done. apply Z.rem_le; lia. }
  pose proof (Z.rem_sign_mul a b Hn) as Hsg. assert (0 <= a -> 0 <= Z.rem a b) by (intros; destruct (decide (a = 0)) as [->|]; [rewrite Z.rem_0_l by done; lia|nia]).
  assert (a < 0 -> Z.rem a b <= 0) by nia. destruct (tuns t); lia.
Qed.
Lemma shr_fits t a b : good_ty t -> conv t a = a -> 0 <= b -> conv t (a / 2 ^ b) = a / 2 ^ b.
Proof.
  intros H Ha Hn. pose proof (conv_range t a H) as Ra. rewrite Ha in Ra. apply conv_id; [done|].
  pose proof (Z.pow_pos_nonneg 2 b ltac:(lia) Hn) as Hp. pose proof (Z.div_mod a (2 ^ b) ltac:(lia)). pose proof (Z.mod_pos_bound a (2 ^ b) Hp).
  assert (0 <= a -> 0 <= a / 2 ^ b <= a) by (intros; split; [apply Z.div_pos; lia|apply Z.div_le_upper_bound; nia]).
  assert (a < 0 -> a <= a / 2 ^ b < 0) by (intros; split; [apply Z.div_le_lower_bound; nia|apply Z.div_lt_upper_bound; lia]).
  destruct (tuns t); lia.
Qed.
Lemma count_view tb b : good_ty tb -> 0 <= conv tb b -> view (size_of (tsz tb)) true b = conv tb b.
Proof.
  intros H Hn. unfold conv in *. destruct (tuns tb); [done|]. rewrite (view_eq _ true b (view (size_of (tsz tb)) false b)); [|done|by rewrite cut_view].
  change (view (size_of (tsz tb)) true ?z) with (conv (Ty (tsz tb) true) z). apply conv_id; [done|]. cbn [tuns tsz].
  pose proof (view_range (size_of (tsz tb)) false b (size_pos _ H)) as Hr. cbv iota in Hr. destruct (pow_double tb H). lia.
Qed.

Definition bop_types (k : bkind) (t tb : ty) : Prop :=
  tb = t \/ is_shift k = true \/ ((k = IR_ADD \/ k = IR_SUB) /\ tuns t = true /\ tsz tb = tsz t).
Lemma c_bop_ok k t tb a b v : good_ty t -> good_ty tb -> bop_types k t tb -> c_bop k t (conv t a) (conv tb b) = Some v ->
  ir_op k (tsz t) (tsz tb) (tuns t) a b = Some (cut (tsz t) v) /\ conv t v = v.
Proof.
  intros Ht Hb Hty Hc.
  assert (Ca : cut (tsz t) (conv t a) = cut (tsz t) a) by by apply cut_conv.
  assert (Cb : is_shift k = false -> cut (tsz t) (conv tb b) = cut (tsz t) b).
  { destruct Hty as [->|[->|(_ & _ & E)]]; [by intros _; apply cut_conv|done|intros _; rewrite <- E; by apply cut_conv]. }
  assert (Et : is_shift k = false -> k <> IR_ADD -> k <> IR_SUB -> tb = t).
  { destruct Hty as [->|[->|([]& _)]]; done. }
  assert (Ia : conv t (conv t a) = conv t a) by by apply conv_conv.
  destruct k; cbn [c_bop is_shift] in *.
  - apply arith_ok in Hc as [H1 H2]; [|done]. split; [|done]. cbn [ir_op]. f_equal. rewrite H2. apply cut_add; [done|by symmetry|]. by rewrite Cb.
  - apply arith_ok in Hc as [H1 H2]; [|done]. split; [|done]. cbn [ir_op]. f_equal. rewrite H2. apply cut_sub; [done|by symmetry|]. by rewrite Cb.
  - apply arith_ok in Hc as [H1 H2]; [|done]. split; [|done]. cbn [ir_op]. f_equal. rewrite H2. apply cut_mul; [done|by symmetry|]. by rewrite Cb.
  - rewrite (Et eq_refl) in * by done. assert (Ib : conv t (conv t b) = conv t b) by by apply conv_conv.
    case_bool_decide as Hz; [done|]. cbn [ir_op]. fold (conv t a) (conv t b). rewrite bool_decide_eq_false_2 by done.
    unfold arith in Hc. destruct (tuns t) eqn:Eu.
    + injection Hc as <-. rewrite conv_conv by done. split; [|done]. assert (E : conv t (conv t a ÷ conv t b) = conv t a ÷ conv t b) by by apply quot_fits.
      pose proof (fits_conv t _ E) as F. rewrite Eu in F. rewrite F. by rewrite E.
    + destruct (fits (size_of (tsz t)) false (conv t a ÷ conv t b)) eqn:F; [|done]. injection Hc as <-. split; [done|].
      unfold fits in F. apply bool_decide_eq_true_1 in F. unfold conv at 1. by rewrite Eu.
  - rewrite (Et eq_refl) in * by done. assert (Ib : conv t (conv t b) = conv t b) by by apply conv_conv.
    case_bool_decide as Hz; [done|]. cbn [ir_op]. fold (conv t a) (conv t b). rewrite bool_decide_eq_false_2 by done.
    unfold arith in Hc. destruct (tuns t) eqn:Eu.
    + cbn [mbind option_bind] in Hc. injection Hc as <-. split; [|by apply rem_fits]. assert (E : conv t (conv t a ÷ conv t b) = conv t a ÷ conv t b) by by apply quot_fits.
      pose proof (fits_conv t _ E) as F. rewrite Eu in F. by rewrite F.
    + destruct (fits (size_of (tsz t)) false (conv t a ÷ conv t b)) eqn:F; [|done]. cbn [mbind option_bind] in Hc. injection Hc as <-. split; [done|]. by apply rem_fits.
  - injection Hc as <-. rewrite (Et eq_refl) in * by done. cbn [ir_op]. split; [f_equal; apply (bitwise_cut _ _ _ _ _ _ _ bw_and); [done|by symmetry|by rewrite Cb]|].
    apply (bitwise_conv t _ _ _ _ Ht bw_and); by apply conv_conv.
  - injection Hc as <-. rewrite (Et eq_refl) in * by done. cbn [ir_op]. split; [f_equal; apply (bitwise_cut _ _ _ _ _ _ _ bw_or); [done|by symmetry|by rewrite Cb]|].
    apply (bitwise_conv t _ _ _ _ Ht bw_or); by apply conv_conv.
  - injection Hc as <-. rewrite (Et eq_refl) in * by done. cbn [ir_op]. split; [f_equal; apply (bitwise_cut _ _ _ _ _ _ _ bw_xor); [done|by symmetry|by rewrite Cb]|].
    apply (bitwise_conv t _ _ _ _ Ht bw_xor); by apply conv_conv.
  - case_bool_decide as Hn; [|done]. cbn [ir_op]. rewrite (count_view tb b Hb) by lia. rewrite bool_decide_eq_true_2 by lia.
    assert (conv t v = v /\ cut (tsz t) v = cut (tsz t) (conv t a * 2 ^ conv tb b)) as [H1 H2].
    { destruct (tuns t).
      - injection Hc as <-. split; [by apply conv_conv|by apply cut_conv].
      - case_bool_decide; [|done]. by apply arith_ok. }
    split; [|done]. f_equal. rewrite H2. by apply cut_mul.
  - case_bool_decide as Hn; [|done]. injection Hc as <-. cbn [ir_op]. rewrite (count_view tb b Hb) by lia. rewrite bool_decide_eq_true_2 by lia.
    split; [done|]. apply shr_fits; [done|done|lia].
Qed.
Lemma c_una_ok k t a v : good_ty t -> c_una k t (conv t a) = Some v -> ir_una k (tsz t) a = cut (tsz t) v /\ conv t v = v.
Proof.
  intros H. destruct k; cbn [c_una]; unfold ir_una.
  - intros E. apply arith_ok in E as [H1 H2]; [|done]. split; [|done]. rewrite H2.
    rewrite <- (Z.sub_0_l a), <- (Z.sub_0_l (conv t a)). apply cut_sub; [done|done|by rewrite cut_conv].
  - intros [= <-]. split; [|by apply conv_conv]. rewrite cut_conv by done. apply cut_sub; [done|done|by rewrite cut_conv].
Qed.

(** Constants are written as their type says. *)
Definition cst (t : ty) (o : opr) : Prop := match o with OConst z => fixnum_of t z | OReg _ => True end.
Lemma view_int64 z : int64 (view 8 false z).
Proof. unfold int64. pose proof (view_range 8 false z ltac:(lia)) as H. cbv iota in H. change (8 * 8 - 1) with 63 in H. exact H. Qed.
Lemma conv_int64 t z : good_ty t -> tsz t <> 3 -> int64 (conv t z).
Proof.
  intros H Hn. pose proof (conv_range t z H) as Hr. unfold int64. assert (2 ^ (8 * size_of (tsz t)) <= 2 ^ 32) by (unfold good_ty in H; destruct t as [s u]; cbn [tsz] in *; sizes H; done || by vm_compute).
  destruct (pow_double t H). destruct (tuns t); lia.
Qed.
Lemma fixnum_conv t z : good_ty t -> conv t z = z -> int64 z -> fixnum_of t z.
Proof. intros H E Hz. split; [done|]. cbn [canon]. unfold conv in E. rewrite E. by apply view8_s. Qed.
Lemma wrap_fixnum t z : good_ty t -> int64 z -> fixnum_of t (wrap_value z (bytes (tsz t)) (tuns t)).
Proof.
  intros H Hz. destruct (decide (tsz t = 3)) as [E|E].
  - assert (wrap_value z (bytes (tsz t)) (tuns t) = z) as -> by (rewrite E; by destruct (tuns t)).
    split; [done|]. cbn [canon]. rewrite E. change (size_of 3) with 8. destruct (tuns t).
    + transitivity (view 8 false z); [apply (view_eq 3 false); [done|by apply (cut_view 3)]|by apply view8_s].
    + rewrite (view8_s z) by done. by apply view8_s.
  - assert (wrap_value z (bytes (tsz t)) (tuns t) = conv t z) as ->.
    { unfold conv, view, good_ty in *. destruct t as [s u]; cbn [tsz tuns] in *. sizes H; try done; by destruct u. }
    apply fixnum_conv; [done|by apply conv_conv|by apply conv_int64].
Qed.
Lemma fixnum_0 t : good_ty t -> fixnum_of t 0.
Proof. intros H. apply fixnum_conv; [done| |by vm_compute]. unfold conv. apply view0. by apply size_pos. Qed.
Lemma fixnum_b2z b : fixnum_of ty_bool (Z.b2z b).
Proof. destruct b; (split; [by vm_compute|by vm_compute]). Qed.
Lemma conv_b2z b : conv ty_bool (Z.b2z b) = Z.b2z b.
Proof. by destruct b. Qed.

Lemma bit_int64 f g a b : bitwise f g -> int64 a -> int64 b -> int64 (f a b).
Proof. intros Hf Ha Hb. apply (bitwise_range 63 f g); [lia|done..]. Qed.
Lemma fold_int64 k l r u w : int64 l -> int64 r -> fold_bop k l r u = Ok w -> int64 w.
Proof.
  intros Hl Hr. unfold int64. assert (Hfx : forall z w, fix_ok z = Ok w -> - 2 ^ 63 <= w < 2 ^ 63) by (intros z w' H; apply fix_ok_eq in H as [-> H]; done).
  assert (Hsf : forall z, - 2 ^ 63 <= sfix z < 2 ^ 63) by (intros z; apply (view_int64 z)).
  destruct k; cbn [fold_bop].
  - apply Hfx.
  - apply Hfx.
  - apply Hfx.
  - destruct u; unfold div_u, div_s; case_match; try done; [|apply Hfx]. intros [= <-]. apply Hsf.
  - destruct u; unfold mod_u, mod_s; case_match eqn:E; try done; [intros [= <-]; apply Hsf|].
    intros H. destruct (fix_ok (l ÷ r)); [|done]. cbn in H. injection H as <-. apply Z.eqb_neq in E.
    assert (Z.abs (Z.rem l r) <= Z.abs l). { rewrite <- Z.rem_abs by done. apply Z.rem_le; lia. }
    pose proof (Z.rem_sign_mul l r E). unfold int64 in *. assert (0 <= l -> 0 <= Z.rem l r) by (intros; destruct (decide (l = 0)) as [->|]; [rewrite Z.rem_0_l by done; lia|nia]). lia.
  - intros [= <-]. by apply (bit_int64 _ _ _ _ bw_and).
  - intros [= <-]. by apply (bit_int64 _ _ _ _ bw_or).
  - intros [= <-]. by apply (bit_int64 _ _ _ _ bw_xor).
  - unfold shl_s. case_match; [|done]. apply Hfx.
  - destruct u; unfold shr_u, shr_s; destruct (count_ok r) eqn:E; try done; intros [= <-]; [apply Hsf|].
    unfold count_ok in E. apply andb_true_iff in E as [E _]. apply Z.leb_le in E. unfold int64 in *.
    pose proof (Z.pow_pos_nonneg 2 r ltac:(lia) E) as Hp.
    assert (0 <= l -> 0 <= l / 2 ^ r <= l) by (intros; split; [apply Z.div_pos; lia|apply Z.div_le_upper_bound; nia]).
    assert (l < 0 -> l <= l / 2 ^ r < 0) by (intros; split; [apply Z.div_le_lower_bound; nia|apply Z.div_lt_upper_bound; lia]). lia.
Qed.

(** Where the result of an operator is: an operand's register, a constant, or the next register. *)
Lemma put_bop_ok regs k t tb a b r o s c r1 v : good_ty t -> good_ty tb -> bop_types k t tb -> cst t a -> cst tb b ->
  put_bop k a (tsz t) b (tsz tb) (tsz t) (tuns t) r = Some (o, s, c, r1) ->
  c_bop k t (conv t (val regs a)) (conv tb (val regs b)) = Some v ->
  s = tsz t /\ conv t v = v /\
  ((c = [] /\ r1 = r /\ conv t (val regs o) = v /\ cst t o /\
     (o = a \/ (o = b /\ tsz tb = tsz t) \/ exists z, o = OConst z)) \/
   exists i z, c = [Ins i] /\ o = OReg r /\ r1 = S r /\ exec regs i = Some (ESet r (tsz t) z) /\ conv t z = v).
Proof.
  intros Ht Hb Hty Ca Cb Hp Hc. destruct (c_bop_ok _ _ _ _ _ _ Ht Hb Hty Hc) as [Hi Hv].
  assert (Hg : good k (tsz t) (tsz tb) (tuns t) a b).
  { split_and!; [done|done|..].
    - intros _. destruct a as [|z]; [done|]. apply Ca.
    - intros Hd. destruct Hty as [->|[Hs|([->| ->] & _)]]; [destruct b; [done|apply Cb]|by destruct k|done..].
    - intros Hs. exists (tuns tb). destruct b; [done|apply Cb]. }
  unfold put_bop in Hp. destruct (new_ir_bop k a b (tsz t) (tuns t)) as [out|] eqn:En; [|done].
  pose proof (bop_ok regs _ _ _ _ _ _ _ _ Hg En Hi) as Ho.
  assert (Hsz : forall ra z, (a = OReg ra /\ b = OConst z) \/ (a = OConst z /\ b = OReg ra) -> match out with Val o => (o = a \/ (o = b /\ (tsz tb = tsz t \/ o = OConst 0))) | _ => True end).
  { intros ra z Hab. destruct out as [o'| |]; [|done..].
    assert (Hsh : is_shift k = false -> tsz tb = tsz t) by (destruct Hty as [->|[->|(_ & _ & ->)]]; done).
    destruct Hab as [[-> ->]|[-> ->]]; cbn [new_ir_bop] in En; destruct k; cbn [is_divmod andb neg new_ir_unary mbind res_bind] in En;
      repeat case_match; simplify_eq; try done; try (by left); try (right; split; [done|]; by left; apply Hsh). }
  destruct out as [o'|o'|].
  - cbn [out_val] in Ho. injection Ho as Ho. injection Hp as <- <- <- <-.
    assert (Ev : conv t (val regs o') = v). { rewrite <- Hv. by apply conv_eq. }
    destruct a as [ra|za], b as [rb|zb]; cbn [new_ir_bop] in En.
    + done.
    + destruct (Hsz ra zb (or_introl (conj eq_refl eq_refl))) as [->|[-> Hz]].
      * rewrite decide_True by done. split; [done|]. split; [done|]. left. split_and!; try done. by left.
      * destruct (decide (OConst zb = OReg ra)); [done|]. 
        assert (zb = 0 /\ is_shift k = false) as [-> Hsh]. { destruct k; cbn [is_divmod andb neg new_ir_unary mbind res_bind] in En; repeat case_match; simplify_eq; split; try done; by apply Z.eqb_eq. }
        assert (tsz tb = tsz t) by (destruct Hty as [->|[?|(_ & _ & ->)]]; [done|congruence|done]).
        split; [done|]. split; [done|]. left. split_and!; try done; [by apply fixnum_0|]. right. right. eauto.
    + destruct (Hsz rb za (or_intror (conj eq_refl eq_refl))) as [->|[-> Hz]].
      * rewrite decide_True by done. split; [done|]. split; [done|]. left. split_and!; try done. by left.
      * destruct (decide (OReg rb = OConst za)); [done|]. destruct Hz as [Hz|Hz]; [|done]. split; [done|]. split; [done|]. left. split_and!; try done. right. left. done.
    + split; [done|]. split; [done|]. left. assert (exists z, o' = OConst z /\ fixnum_of t z) as (z & -> & Hz).
      { destruct ((zb =? 0) && is_divmod k); [done|]. destruct (fold_bop k za zb (tuns t)) as [w|] eqn:Ef; [|done]. cbn in En. injection En as <-.
        eexists. split; [done|]. apply wrap_fixnum; [done|]. apply (fold_int64 _ _ _ _ _ (proj1 Ca) (proj1 Cb) Ef). }
      split_and!; try done. right. right. eauto.
  - cbn [out_val] in Ho. injection Ho as Ho. injection Hp as <- <- <- <-.
    assert (exists ra, (o' = OReg ra /\ ((o' = a) \/ (o' = b /\ tsz tb = tsz t)))) as (ra & Eo & Hab).
    { assert (Hsh : is_shift k = false -> tsz tb = tsz t) by (destruct Hty as [->|[->|(_ & _ & ->)]]; done).
      destruct a as [ra|za], b as [rb|zb]; cbn [new_ir_bop] in En; [done| | |].
      - destruct k; cbn [is_divmod andb neg new_ir_unary mbind res_bind] in En; repeat case_match; simplify_eq; eexists; (split; [done|]; by left).
      - destruct k; cbn [is_divmod andb neg new_ir_unary mbind res_bind] in En; repeat case_match; simplify_eq; eexists; (split; [done|]; right; split; [done|by apply Hsh]).
      - repeat case_match; try done. destruct (fold_bop k za zb (tuns t)); done. }
    assert (Es : (if decide (o' = a) then tsz t else tsz tb) = tsz t). { case_decide; [done|]. destruct Hab as [?|[_ ?]]; [done|done]. }
    rewrite Es. split; [done|]. split; [done|]. right. eexists _, _. split; [done|]. split; [done|]. split; [done|]. split; [cbn [exec]; done|].
    rewrite Ho. by rewrite conv_cut.
  - cbn [out_val] in Ho. injection Hp as <- <- <- <-. split; [done|]. split; [done|]. right. eexists _, _. split; [done|]. split; [done|]. split; [done|].
    cbn [exec]. rewrite Hi. cbn [mbind option_bind]. split; [done|]. by rewrite conv_cut.
Qed.
Lemma put_una_ok regs k t a r o s c r1 v : good_ty t -> cst t a ->
  put_una k a (tsz t) (tuns t) r = Some (o, s, c, r1) -> c_una k t (conv t (val regs a)) = Some v ->
  s = tsz t /\ conv t v = v /\
  ((c = [] /\ r1 = r /\ conv t (val regs o) = v /\ cst t o /\ exists z, o = OConst z) \/
   exists i z, c = [Ins i] /\ o = OReg r /\ r1 = S r /\ exec regs i = Some (ESet r (tsz t) z) /\ conv t z = v).
Proof.
  intros Ht Ca Hp Hc. destruct (c_una_ok _ _ _ _ Ht Hc) as [Hi Hv]. unfold put_una in Hp.
  destruct (new_ir_unary k a (tsz t) (tuns t)) as [out|] eqn:En; [|done]. destruct a as [ra|z].
  - cbn in En. injection En as <-. injection Hp as <- <- <- <-. split; [done|]. split; [done|]. right. eexists _, _. do 3 (split; [done|]). split; [cbn [exec]; done|].
    rewrite Hi. by rewrite conv_cut.
  - pose proof En as En'. destruct (unary_ok _ _ _ _ _ Ht En) as (w & -> & Hw). injection Hp as <- <- <- <-. split; [done|]. split; [done|]. left.
    assert (conv t w = v). { rewrite <- Hv. apply conv_eq; [done|]. rewrite Hw. exact Hi. }
    split_and!; try done; [|eauto]. cbn [cst]. cbn [new_ir_unary] in En'. destruct Ca as [Cz _].
    destruct k; cbn [mbind res_bind] in En'.
    + destruct (fix_ok (- z)) eqn:Ef; [|done]. cbn in En'. injection En' as <-. apply fix_ok_eq in Ef as [-> Hf]. by apply wrap_fixnum.
    + injection En' as <-. apply wrap_fixnum; [done|]. unfold int64, Z.lnot in *. lia.
Qed.

(** Comparisons *)
Lemma rel_code c : exists k, rel_cond c = cond_code k false false /\ forall a b, cmp_int k a b = c_rel c a b.
Proof. destruct c; [exists CEq|exists CNe|exists CLt|exists CLe|exists CGe|exists CGt]; done. Qed.
Lemma fixnum_conv_eq t z : good_ty t -> fixnum_of t z -> conv t z = if tuns t then ufix z else z.
Proof.
  intros H [Hi Hc]. unfold conv. destruct (tuns t) eqn:Eu.
  - symmetry. by apply canon_u.
  - by apply canon_s.
Qed.
Lemma compare_ok regs c t a b r : good_ty t -> cst t a -> cst t b -> compare c (tuns t) a (tsz t) b (tsz t) = Some r ->
  match r with
  | inl v => v = c_rel c (conv t (val regs a)) (conv t (val regs b))
  | inr (cond, x, y, s) => s = tsz t /\ cond_holds (size_of s) cond (val regs x) (val regs y) = c_rel c (conv t (val regs a)) (conv t (val regs b))
  end.
Proof.
  intros Ht Ca Cb. unfold compare. destruct (rel_code c) as (k & Ek & Hk).
  assert (Hd : Some (inr (Z.lor (rel_cond c) (if tuns t then COND_UNSIGNED else 0), a, b, tsz t)) = Some r ->
     match r with
     | inl v => v = c_rel c (conv t (val regs a)) (conv t (val regs b))
     | inr (cond, x, y, s) => s = tsz t /\ cond_holds (size_of s) cond (val regs x) (val regs y) = c_rel c (conv t (val regs a)) (conv t (val regs b))
     end).
  { intros [= <-]. split; [done|]. rewrite Ek. assert (Z.lor (cond_code k false false) (if tuns t then COND_UNSIGNED else 0) = cond_code k (tuns t) false) as -> by (destruct k, (tuns t); done).
    rewrite holds_code. rewrite <- Hk. done. }
  destruct a as [ra|za]; [exact Hd|]. destruct b as [rb|zb]; [|].
  - rewrite Ek, swap_code. cbn [mbind option_bind]. intros [= <-]. split; [done|].
    assert (Z.lor (cond_code (swp k) false false) (if tuns t then COND_UNSIGNED else 0) = cond_code (swp k) (tuns t) false) as -> by (destruct k, (tuns t); done).
    rewrite holds_code. rewrite cmp_swp. rewrite <- Hk. done.
  - intros [= <-]. cbn [val]. rewrite !fixnum_conv_eq by done. unfold compare_const.
    assert (forall x y, (match c with REq => x =? y | RNe => negb (x =? y) | RLt => x <? y | RLe => x <=? y | RGe => y <=? x | RGt => y <? x end) = c_rel c x y) as E.
    { intros x y. destruct c; cbn [c_rel]; case_bool_decide; lia. }
    apply E.
Qed.

(** Casts *)
Lemma cast_const_ok t ts z : good_ty t -> good_ty ts -> fixnum_of ts z -> cast_ok t ts ->
  fixnum_of t (cast_const z (tsz ts) t) /\ conv t (cast_const z (tsz ts) t) = conv t (conv ts z).
Proof.
  intros Ht Hs Hz Hok. unfold cast_const. destruct (tsz t <? tsz ts) eqn:El.
  - apply Z.ltb_lt in El. assert (H3 : tsz t <> 3) by (unfold good_ty, vsizes in *; lia).
    assert (E : (let bit := 8 * 2 ^ tsz t in if negb (tuns t) && Z.testbit z (bit - 1) then Z.lor z (- 2 ^ bit) else Z.land z (2 ^ bit - 1)) = conv t z).
    { cbv zeta. pose proof (size_pos _ Ht) as Hp. fold (size_of (tsz t)). set (n := 8 * size_of (tsz t)) in *.
      assert (Hlow : Z.land z (2 ^ n - 1) = z mod 2 ^ n). { rewrite <- Z.land_ones by lia. rewrite Z.ones_equiv. f_equal. }
      assert (Hhi : Z.testbit z (n - 1) = true -> Z.lor z (- 2 ^ n) = z mod 2 ^ n - 2 ^ n).
      { intros _. transitivity (Z.lor (z mod 2 ^ n) (Z.shiftl (-1) n)).
        - rewrite Z.shiftl_mul_pow2 by lia. replace (-1 * 2 ^ n) with (- 2 ^ n) by lia. apply Z.bits_inj. intros i.
          destruct (decide (0 <= i)); [|by rewrite !Z.testbit_neg_r by lia]. rewrite !Z.lor_spec.
          assert (Hm : Z.testbit (- 2 ^ n) i = bool_decide (n <= i)).
          { replace (- 2 ^ n) with (Z.shiftl (-1) n) by (rewrite Z.shiftl_mul_pow2 by lia; lia).
            rewrite Z.shiftl_spec by lia. case_bool_decide; [apply Z.bits_m1; lia|]. rewrite Z.testbit_neg_r by lia. done. }
          rewrite Hm. case_bool_decide; [by rewrite !orb_true_r|]. rewrite Z.mod_pow2_bits_low by lia. done.
        - assert (Z.land (z mod 2 ^ n) (Z.shiftl (-1) n) = 0) as Hz0.
          { apply Z.bits_inj. intros i. rewrite Z.bits_0, Z.land_spec. destruct (decide (0 <= i)); [|by rewrite !Z.testbit_neg_r by lia].
            destruct (decide (i < n)); [rewrite Z.shiftl_spec, (Z.testbit_neg_r (-1)) by lia; apply andb_false_r|rewrite Z.mod_pow2_bits_high by lia; done]. }
          rewrite <- Z.lxor_lor, <- Z.add_nocarry_lxor by done. rewrite Z.shiftl_mul_pow2 by lia. lia. }
      destruct (pow_double t Ht) as [E1 E2]. fold n in E1, E2. unfold conv, view. cbv zeta. fold n.
      pose proof (Z.mod_pos_bound z (2 ^ n) ltac:(lia)) as Hm.
      assert (Hb : Z.testbit z (n - 1) = negb (z mod 2 ^ n <? 2 ^ (n - 1))).
      { rewrite <- (Z.mod_pow2_bits_low z n (n - 1)) by lia.
        destruct (z mod 2 ^ n <? 2 ^ (n - 1)) eqn:Eb.
        - apply Z.ltb_lt in Eb. cbn [negb]. destruct (decide (z mod 2 ^ n = 0)) as [->|]; [apply Z.bits_0|]. apply Z.bits_above_log2; [lia|]. apply Z.log2_lt_pow2; lia.
        - apply Z.ltb_ge in Eb. cbn [negb]. apply Z.testbit_true; [unfold n; lia|].
          assert (z mod 2 ^ n / 2 ^ (n - 1) = 1) as ->; [|done].
          symmetry. apply (Z.div_unique_pos _ _ _ (z mod 2 ^ n - 2 ^ (n - 1))); lia. }
      destruct (tuns t); cbn [negb andb]; [exact Hlow|].
      destruct (Z.testbit z (n - 1)) eqn:Et.
      - rewrite Hhi by done. symmetry in Hb. apply negb_true_iff, Z.ltb_ge in Hb.
        rewrite <- (Zplus_mod_idemp_l z). replace (z mod 2 ^ n + 2 ^ (n - 1)) with ((z mod 2 ^ n - 2 ^ (n - 1)) + 1 * 2 ^ n) by lia.
        rewrite Z_mod_plus_full, (Z.mod_small (_ - _)) by lia. lia.
      - rewrite Hlow. symmetry in Hb. apply negb_false_iff, Z.ltb_lt in Hb. rewrite <- (Zplus_mod_idemp_l z), (Z.mod_small (_ + _)) by lia. lia. }
    cbv zeta in E. rewrite E. split; [apply fixnum_conv; [done|by apply conv_conv|by apply conv_int64]|].
    rewrite conv_conv by done. apply conv_eq; [done|].
    assert (forall v w a b, vsizes v -> vsizes w -> v <= w -> cut w a = cut w b -> cut v a = cut v b) as Hle.
    { intros v w a b Hv Hw Hle E'. unfold cut in *. apply mod_eq_ex in E' as [k Ek]; [|destruct (W_pos _ (size_pos w Hw)); lia].
      assert (exists j, 2 ^ (8 * size_of w) = j * 2 ^ (8 * size_of v)) as [j Ej].
      { exists (2 ^ (8 * size_of w - 8 * size_of v)). rewrite <- Z.pow_add_r; [f_equal; lia| |pose proof (size_pos v Hv); lia].
        assert (size_of v <= size_of w) by (unfold size_of; apply Z.pow_le_mono_r; lia). lia. }
      replace a with (b + (k * j) * 2 ^ (8 * size_of v)) by (rewrite <- Z.mul_assoc, <- Ej; lia). apply Z_mod_plus_full. }
    apply (Hle _ (tsz ts)); [done|done|lia|]. by rewrite cut_conv.
  - apply Z.ltb_ge in El. pose proof Hz as [Hi Hc].
    assert (Hck : conv t z = conv t (conv ts z)).
    { apply conv_eq; [done|]. rewrite fixnum_conv_eq by done. destruct (tuns ts); [|done]. by rewrite cut_ufix. }
    split; [|done]. split; [done|]. cbn [canon].
    assert (E3 : tsz t = 3 -> view 8 false (view (size_of (tsz t)) (tuns t) z) = z).
    { intros ->. transitivity (view 8 false z); [apply (view_eq 3 false); [done|by apply (cut_view 3)]|by apply view8_s]. }
    destruct (decide (tsz t = 3)) as [E|E]; [by apply E3|].
    pose proof (fixnum_conv_eq ts z Hs Hz) as Ez. pose proof (conv_range ts z Hs) as Hr. rewrite Ez in Hr.
    assert (Hlt : tsz ts <> 3) by (unfold good_ty, vsizes in *; lia).
    assert (Hzv : conv ts z = z).
    { cbn [canon] in Hc. rewrite <- Hc at 2. symmetry. apply view8_s. by apply conv_int64. }
    assert (conv t z = z) as Hfin; [|unfold conv in Hfin; rewrite Hfin; by apply view8_s].
    pose proof (conv_range ts z Hs) as Hr'. rewrite Hzv in Hr'. apply conv_id; [done|].
    assert (Hp1 : 2 ^ (8 * size_of (tsz ts)) <= 2 ^ (8 * size_of (tsz t))).
    { apply Z.pow_le_mono_r; [lia|]. assert (size_of (tsz ts) <= size_of (tsz t)) by (unfold size_of; apply Z.pow_le_mono_r; lia). lia. }
    assert (Hp2 : tsz ts < tsz t -> 2 * 2 ^ (8 * size_of (tsz ts)) <= 2 ^ (8 * size_of (tsz t))).
    { intros. change 2 with (2 ^ 1) at 1. pose proof (size_pos _ Hs). rewrite <- Z.pow_add_r by lia. apply Z.pow_le_mono_r; [lia|].
      assert (size_of (tsz ts) < size_of (tsz t)) by (unfold size_of; apply Z.pow_lt_mono_r; unfold good_ty, vsizes in *; lia). lia. }
    destruct (pow_double t Ht) as [E1 E2], (pow_double ts Hs) as [E1' E2'].
    destruct Hok as [?|[?|[Hu|[? Hu]]]]; [lia|done| |].
    + rewrite Hu. destruct (tuns ts); lia.
    + rewrite Hu in Hr'. specialize (Hp2 ltac:(lia)). destruct (tuns t); lia.
Qed.
