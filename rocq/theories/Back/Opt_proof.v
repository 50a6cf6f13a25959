From stdpp Require Import base list numbers.
From Verif Require Import Util.Wrap_model Front.Fold_model Back.Ir_model Back.Ir_spec Back.Opt_model Back.Opt_spec Back.Switch_proof Back.Cond_proof.
Open Scope Z_scope.

Ltac sizes H := let E := fresh in
  match type of H with vsizes ?v => assert (E : v = 0 \/ v = 1 \/ v = 2 \/ v = 3) by (unfold vsizes in H; lia) end;
  destruct E as [-> |[-> |[-> | ->]]]; clear H.

Lemma cut_congr v a b k : vsizes v -> a - b = k * 2 ^ 64 -> cut v a = cut v b.
Proof.
  intros H E. assert (exists j, 2 ^ 64 = j * 2 ^ (8 * size_of v)) as [j Ej].
  { sizes H; [exists (2 ^ 56)|exists (2 ^ 48)|exists (2 ^ 32)|exists 1]; by vm_compute. }
  unfold cut. replace a with (b + (k * j) * 2 ^ (8 * size_of v)) by (rewrite <- Z.mul_assoc, <- Ej; lia).
  apply Z_mod_plus_full.
Qed.
Lemma to_unsigned_ex n z : exists k, z - to_unsigned n z = k * 2 ^ n.
Proof.
  destruct (decide (0 <= n)).
  - exists (z / 2 ^ n). unfold to_unsigned. pose proof (Z.div_mod z (2 ^ n) ltac:(apply Z.pow_nonzero; lia)). lia.
  - exists 0. unfold to_unsigned. rewrite Z.pow_neg_r by lia. rewrite Zmod_0_r. lia.
Qed.
Lemma to_signed_ex n z : exists k, z - to_signed n z = k * 2 ^ n.
Proof.
  destruct (decide (0 <= n)).
  - exists ((z + 2 ^ (n - 1)) / 2 ^ n). unfold to_signed.
    pose proof (Z.div_mod (z + 2 ^ (n - 1)) (2 ^ n) ltac:(apply Z.pow_nonzero; lia)). lia.
  - exists 0. unfold to_signed. rewrite !(Z.pow_neg_r) by lia. rewrite Zmod_0_r. lia.
Qed.
Lemma cut_ufix v z : vsizes v -> cut v (ufix z) = cut v z.
Proof. intros H. destruct (to_unsigned_ex 64 z) as [k E]. symmetry. by apply (cut_congr v z _ k). Qed.
Lemma cut_sfix v z : vsizes v -> cut v (sfix z) = cut v z.
Proof. intros H. destruct (to_signed_ex 64 z) as [k E]. symmetry. by apply (cut_congr v z _ k). Qed.
Lemma cut_of_mod v z w : vsizes v -> (exists k, z - w = k * 2 ^ (8 * size_of v)) -> cut v w = cut v z.
Proof.
  intros H [k E]. unfold cut. replace w with (z + (- k) * 2 ^ (8 * size_of v)) by lia.
  apply Z_mod_plus_full.
Qed.
Lemma cut_wrap v z u : vsizes v -> cut v (wrap_value z (bytes v) u) = cut v z.
Proof.
  intros H. apply cut_of_mod; [done|]. sizes H; destruct u.
  - apply (to_unsigned_ex 8).
  - apply (to_signed_ex 8).
  - apply (to_unsigned_ex 16).
  - apply (to_signed_ex 16).
  - apply (to_unsigned_ex 32).
  - apply (to_signed_ex 32).
  - exists 0. change (wrap_value z (bytes 3) true) with z. lia.
  - exists 0. change (wrap_value z (bytes 3) false) with z. lia.
Qed.
Lemma size_pos v : vsizes v -> 0 < size_of v.
Proof. intros H; by sizes H. Qed.
Lemma cut_view v u z : vsizes v -> cut v (view (size_of v) u z) = cut v z.
Proof. intros H. apply cut_of_mod; [done|]. apply (view_mod _ u z (size_pos v H)). Qed.
Lemma cut_cut v z : vsizes v -> cut v (cut v z) = cut v z.
Proof. intros H. unfold cut. apply Zmod_mod. Qed.

Lemma view_range n (u : bool) z : 0 < n ->
  (if u then 0 else - 2 ^ (8 * n - 1)) <= view n u z < (if u then 2 ^ (8 * n) else 2 ^ (8 * n - 1)).
Proof.
  intros H. destruct (W_pos n H) as [H1 H2]. unfold view. destruct u.
  - apply Z.mod_pos_bound. lia.
  - pose proof (Z.mod_pos_bound (z + 2 ^ (8 * n - 1)) (2 ^ (8 * n)) ltac:(lia)). lia.
Qed.
Lemma view8_s z : int64 z -> view 8 false z = z.
Proof. unfold int64, view. intros H. change (8 * 8) with 64. change (64 - 1) with 63. rewrite Z.mod_small; lia. Qed.
Lemma size_le v : vsizes v -> 1 <= size_of v <= 8.
Proof. intros H; sizes H; vm_compute; split; discriminate. Qed.
Lemma pow_le v : vsizes v -> 2 ^ (8 * size_of v - 1) <= 2 ^ 63 /\ 2 ^ (8 * size_of v) <= 2 ^ 64.
Proof. intros H; sizes H; vm_compute; split; discriminate. Qed.

Lemma canon_s v z : vsizes v -> canon v false (OConst z) -> view (size_of v) false z = z.
Proof.
  intros H Hc. unfold canon in Hc. rewrite <- Hc at 2. symmetry. apply view8_s.
  pose proof (view_range (size_of v) false z (size_pos v H)) as Hr. cbv iota in Hr. pose proof (pow_le v H). unfold int64. lia.
Qed.
Lemma canon_u v z : vsizes v -> canon v true (OConst z) -> ufix z = view (size_of v) true z.
Proof.
  intros H Hc. unfold canon in Hc.
  pose proof (view_range (size_of v) true z (size_pos v H)) as Hr. cbv iota in Hr. pose proof (pow_le v H).
  destruct (to_signed_ex 64 (view (size_of v) true z)) as [k E].
  change (to_signed 64 (view (size_of v) true z)) with (view 8 false (view (size_of v) true z)) in E. rewrite Hc in E.
  set (w := view (size_of v) true z) in *.
  unfold ufix, to_unsigned. assert (Ez : z = w + (- k) * 2 ^ 64) by lia. rewrite Ez at 1.
  rewrite Z_mod_plus_full. apply Z.mod_small. lia.
Qed.
Lemma canon_count v u z : vsizes v -> canon v u (OConst z) -> view (size_of v) true z < 64 -> z = view (size_of v) true z.
Proof.
  intros H Hc Hn. destruct u.
  - pose proof (canon_u v z H Hc) as E. unfold canon in Hc. rewrite <- Hc at 1.
    pose proof (view_range (size_of v) true z (size_pos v H)) as Hr. cbv iota in Hr.
    apply view8_s. unfold int64. lia.
  - pose proof (canon_s v z H Hc) as E. destruct (view_mod (size_of v) true z (size_pos v H)) as [k Ek].
    pose proof (view_range (size_of v) true z (size_pos v H)) as Hr. cbv iota in Hr.
    pose proof (view_range (size_of v) false z (size_pos v H)) as Hr'. cbv iota in Hr'. rewrite E in Hr'.
    destruct (W_pos _ (size_pos v H)) as [H1 H2].
    assert (128 <= 2 ^ (8 * size_of v - 1)) by (sizes H; vm_compute; discriminate).
    assert (k = 0) by nia. lia.
Qed.

Lemma bits_of_mod (f : Z -> Z -> Z) (g : bool -> bool -> bool) :
  (forall a b i, Z.testbit (f a b) i = g (Z.testbit a i) (Z.testbit b i)) ->
  forall a b, f (ufix a) (ufix b) mod 2 ^ 64 = f a b mod 2 ^ 64.
Proof.
  intros Hf a b. apply Z.bits_inj. intros i. unfold ufix, to_unsigned.
  destruct (decide (0 <= i)) as [Hi|Hi]; [|by rewrite !Z.testbit_neg_r by lia].
  destruct (decide (i < 64)).
  - rewrite !Z.mod_pow2_bits_low by lia. rewrite !Hf. by rewrite !Z.mod_pow2_bits_low by lia.
  - by rewrite !Z.mod_pow2_bits_high by lia.
Qed.
Lemma cut_mod64 v a b : vsizes v -> a mod 2 ^ 64 = b mod 2 ^ 64 -> cut v a = cut v b.
Proof.
  intros H E. apply mod_eq_ex in E; [|lia]. destruct E as [k E]. by apply (cut_congr v a b k).
Qed.
Lemma cut_add v a b a' b' : vsizes v -> cut v a = cut v a' -> cut v b = cut v b' -> cut v (a + b) = cut v (a' + b').
Proof. unfold cut. intros H E1 E2. by rewrite (Zplus_mod a), (Zplus_mod a'), E1, E2. Qed.
Lemma cut_sub v a b a' b' : vsizes v -> cut v a = cut v a' -> cut v b = cut v b' -> cut v (a - b) = cut v (a' - b').
Proof. unfold cut. intros H E1 E2. by rewrite (Zminus_mod a), (Zminus_mod a'), E1, E2. Qed.
Lemma cut_mul v a b a' b' : vsizes v -> cut v a = cut v a' -> cut v b = cut v b' -> cut v (a * b) = cut v (a' * b').
Proof. unfold cut. intros H E1 E2. by rewrite (Zmult_mod a), (Zmult_mod a'), E1, E2. Qed.

Lemma fix_ok_eq z w : fix_ok z = Ok w -> w = z /\ int64 z.
Proof.
  unfold fix_ok, fix_check. destruct ((fixmin <=? z) && (z <=? fixmax)) eqn:E; [|done]. intros [= <-]. split; [done|].
  apply andb_true_iff in E as [E1 E2]. apply Z.leb_le in E1, E2. unfold int64.
  change fixmin with (- 2 ^ 63) in E1. change fixmax with (2 ^ 63 - 1) in E2. lia.
Qed.
Lemma fix_ok_ok z : int64 z -> fix_ok z = Ok z.
Proof.
  intros [H1 H2]. unfold fix_ok, fix_check. change fixmin with (- 2 ^ 63). change fixmax with (2 ^ 63 - 1).
  rewrite (proj2 (Z.leb_le _ _)) by lia. by rewrite (proj2 (Z.leb_le _ _)) by lia.
Qed.

Lemma div_case v (u : bool) (Hv : vsizes v) l r (Hl : canon v u (OConst l)) w : canon v u (OConst r) ->
  (if u then div_u l r else div_s l r) = Ok w ->
  view (size_of v) u r <> 0 /\ cut v w = cut v (Z.quot (view (size_of v) u l) (view (size_of v) u r)).
Proof.
  intros Hr. destruct u.
  - unfold div_u. rewrite (canon_u v l), (canon_u v r) by done.
    pose proof (view_range (size_of v) true l (size_pos v Hv)). pose proof (view_range (size_of v) true r (size_pos v Hv)).
    cbv iota in *. set (x := view (size_of v) true l) in *. set (y := view (size_of v) true r) in *.
    destruct (Z.eqb_spec y 0) as [?|Hy]; [done|]. intros [= <-]. split; [done|].
    rewrite cut_sfix by done. rewrite Z.quot_div_nonneg by lia. done.
  - unfold div_s. rewrite (canon_s v l), (canon_s v r) by done.
    destruct (Z.eqb_spec r 0) as [?|Hy]; [done|]. intros [-> _]%fix_ok_eq. done.
Qed.
Lemma mod_case v (u : bool) (Hv : vsizes v) l r (Hl : canon v u (OConst l)) w : canon v u (OConst r) ->
  (if u then mod_u l r else mod_s l r) = Ok w ->
  view (size_of v) u r <> 0 /\ cut v w = cut v (Z.rem (view (size_of v) u l) (view (size_of v) u r)).
Proof.
  intros Hr. destruct u.
  - unfold mod_u. rewrite (canon_u v l), (canon_u v r) by done.
    pose proof (view_range (size_of v) true l (size_pos v Hv)). pose proof (view_range (size_of v) true r (size_pos v Hv)).
    cbv iota in *. set (x := view (size_of v) true l) in *. set (y := view (size_of v) true r) in *.
    destruct (Z.eqb_spec y 0) as [?|Hy]; [done|]. intros [= <-]. split; [done|].
    rewrite cut_sfix by done. rewrite Z.rem_mod_nonneg by lia. done.
  - unfold mod_s. rewrite (canon_s v l), (canon_s v r) by done.
    destruct (Z.eqb_spec r 0) as [?|Hy]; [done|]. destruct (fix_ok (l ÷ r)); cbn [mbind res_bind]; [|done]. intros [= <-]. done.
Qed.
Lemma shr_case v (u : bool) (Hv : vsizes v) l r (Hl : canon v u (OConst l)) w : count_ok r = true ->
  (if u then shr_u l r else shr_s l r) = Ok w -> cut v w = cut v (view (size_of v) u l / 2 ^ r).
Proof.
  unfold shr_u, shr_s. intros ->. destruct u; intros [= <-].
  - rewrite cut_sfix by done. by rewrite (canon_u v l).
  - by rewrite (canon_s v l).
Qed.

Lemma count_range v n : vsizes v -> 0 <= n < 8 * size_of v -> count_ok n = true.
Proof.
  intros H Hn. pose proof (size_le v H). unfold count_ok. apply andb_true_iff. split; [apply Z.leb_le|apply Z.ltb_lt]; lia.
Qed.
Lemma count_eq v bv cu r : vsizes v -> vsizes bv -> canon bv cu (OConst r) -> view (size_of bv) true r < 8 * size_of v ->
  r = view (size_of bv) true r /\ 0 <= r < 64 /\ count_ok r = true.
Proof.
  intros Hv Hb Hc Hn. pose proof (size_le v Hv).
  pose proof (view_range (size_of bv) true r (size_pos bv Hb)) as Hr. cbv iota in Hr.
  assert (E : r = view (size_of bv) true r) by (apply (canon_count bv cu); [done..|lia]).
  split; [done|]. split; [lia|]. apply (count_range v); [done|lia].
Qed.

Lemma some_inj {A} (a b : A) : Some a = Some b -> a = b.
Proof. congruence. Qed.
Lemma fold_bop_ok k v bv u l r w e : good k v bv u (OConst l) (OConst r) -> fold_bop k l r u = Ok w ->
  ir_op k v bv u l r = Some e -> cut v w = e.
Proof.
  intros (Hv & Hb & Ha & Hd & Hs) Hf He. destruct k; cbn [fold_bop ir_op] in *.
  - apply fix_ok_eq in Hf as [-> _]. by injection He.
  - apply fix_ok_eq in Hf as [-> _]. by injection He.
  - apply fix_ok_eq in Hf as [-> _]. by injection He.
  - destruct (div_case v u Hv l r (Ha eq_refl) w (Hd eq_refl) Hf) as [H1 H2].
    rewrite bool_decide_false in He by done. destruct (fits _ _ _); [|done]. apply some_inj in He as <-. done.
  - destruct (mod_case v u Hv l r (Ha eq_refl) w (Hd eq_refl) Hf) as [H1 H2].
    rewrite bool_decide_false in He by done. destruct (fits _ _ _); [|done]. apply some_inj in He as <-. done.
  - injection Hf as <-. by injection He.
  - injection Hf as <-. by injection He.
  - injection Hf as <-. by injection He.
  - case_bool_decide as Hn; [|done]. apply some_inj in He as <-. destruct (Hs eq_refl) as [cu Hc].
    destruct (count_eq v bv cu r Hv Hb Hc Hn) as (E & _ & Hk). rewrite <- E. revert Hf. unfold shl_s. rewrite Hk.
    destruct (0 <=? l); cbn [andb]; [|done]. intros [-> _]%fix_ok_eq. done.
  - case_bool_decide as Hn; [|done]. apply some_inj in He as <-. destruct (Hs eq_refl) as [cu Hc].
    destruct (count_eq v bv cu r Hv Hb Hc Hn) as (E & _ & Hk). rewrite <- E.
    apply (shr_case v u Hv l r (Ha eq_refl) w Hk Hf).
Qed.

Lemma view0 n u : 0 < n -> view n u 0 = 0.
Proof.
  intros H. destruct (W_pos n H). unfold view. destruct u; [by rewrite Zmod_0_l|]. rewrite Z.add_0_l, Z.mod_small; lia.
Qed.
Lemma view1 v u : vsizes v -> view (size_of v) u 1 = 1.
Proof. intros H; sizes H; by destruct u. Qed.
Lemma viewm1 v : vsizes v -> view (size_of v) false (-1) = -1.
Proof. intros H; by sizes H. Qed.

Lemma bop_ok regs k v bv u a b o e : good k v bv u a b -> new_ir_bop k a b v u = Ok o ->
  ir_op k v bv u (val regs a) (val regs b) = Some e -> out_val regs k v bv u a b o = Some e.
Proof.
  intros Hg Hf He. pose proof Hg as (Hv & Hb & Ha & Hd & Hs).
  destruct a as [ra|l], b as [rb|r]; cbn [new_ir_bop val] in *.
  - by injection Hf as <-.
  - destruct ((r =? 0) && is_divmod k) eqn:E0; [by injection Hf as <-|].
    destruct k; cbn [is_divmod] in E0.
    all: repeat match type of Hf with context [Z.eqb ?q ?z] => is_var q; destruct (Z.eqb_spec q z) as [?|?]; [subst q; cbn [Z.eqb Pos.eqb] in Hf|] end; try discriminate;
      cbn [andb negb] in Hf; try (destruct u; cbn [andb negb neg new_ir_unary mbind res_bind] in Hf);
      injection Hf as <-; cbn [out_val val ir_op] in *; try done.
    all: try (by rewrite <- He; f_equal; f_equal; lia).
    all: try (rewrite <- He; f_equal; unfold ir_una; f_equal; lia).
    all: try (rewrite ?(view1 v _ Hv), ?(viewm1 v Hv) in He; cbn [bool_decide decide decide_rel] in He).
    all: try (rewrite bool_decide_false in He by done; destruct (fits _ _ _) in He; [|done]; rewrite <- He; f_equal).
    all: try (rewrite Z.quot_1_r; symmetry; by apply cut_view).
    all: try (by rewrite <- He, Z.land_0_r).
    all: try (by rewrite <- He, Z.lor_0_r).
    all: try (by rewrite <- He, Z.lxor_0_r).
    all: try (rewrite (view0 (size_of bv) true (size_pos bv Hb)) in He;
              rewrite bool_decide_true in He by (pose proof (size_le v Hv); lia); rewrite <- He; f_equal;
              change (2 ^ 0) with 1; rewrite ?Z.mul_1_r, ?Z.div_1_r, ?cut_view by done; done).
    change (-1) with (- (1)). rewrite Z.quot_opp_r, Z.quot_1_r by done. unfold ir_una.
    rewrite <- (Z.sub_0_l (regs ra)), <- (Z.sub_0_l (view _ _ _)). apply cut_sub; [done..|]. symmetry. by apply cut_view.
  - destruct k; repeat match type of Hf with context [Z.eqb ?q ?z] => is_var q; destruct (Z.eqb_spec q z) as [?|?]; [subst q; cbn [Z.eqb Pos.eqb] in Hf|] end; try discriminate;
      cbn [andb negb] in Hf; try (destruct u; cbn [andb negb neg new_ir_unary mbind res_bind] in Hf);
      injection Hf as <-; cbn [out_val val ir_op] in *; try done.
    all: try (by rewrite <- He; f_equal; f_equal; lia).
    all: try (rewrite <- He; f_equal; unfold ir_una; f_equal; lia).
    all: try (rewrite ?(view0 (size_of v) _ (size_pos v Hv)) in He; case_bool_decide; [done|];
              destruct (fits _ _ _) in He; [|done]; rewrite <- He; f_equal; by rewrite ?Z.quot_0_l, ?Z.rem_0_l by done).
    all: try (rewrite ?(view0 (size_of v) _ (size_pos v Hv)) in He; case_bool_decide; [|done]; rewrite <- He; f_equal;
              by rewrite ?Z.mul_0_l, ?Zdiv_0_l).
    all: by rewrite <- He, ?Z.lxor_0_l.
  - destruct ((r =? 0) && is_divmod k) eqn:E0; [by injection Hf as <-|].
    destruct (fold_bop k l r u) as [w|] eqn:Ew; [|done]. cbn in Hf. injection Hf as <-. cbn [out_val val].
    rewrite cut_wrap by done. f_equal. by apply (fold_bop_ok k v bv u l r).
Qed.
