From stdpp Require Import base list numbers.
From Verif Require Import Front.Bitfield_model Front.Bitfield_spec.
Open Scope Z_scope.

Lemma pow2_pos n : 0 <= n -> 0 < 2 ^ n.
Proof. intros. apply Z.pow_pos_nonneg; lia. Qed.

(** [value] keeps the low bits. *)
Lemma value_mod n uns z : 0 < n -> value n uns z mod 2 ^ n = z mod 2 ^ n.
Proof.
  intros Hn. pose proof (pow2_pos n ltac:(lia)). unfold value. destruct uns.
  - rewrite Zmod_mod. done.
  - rewrite Zminus_mod, Zmod_mod, <-Zminus_mod. f_equal. lia.
Qed.
Lemma value_bits n uns z i : 0 <= i < n -> Z.testbit (value n uns z) i = Z.testbit z i.
Proof.
  intros Hi. rewrite <-(Z.mod_pow2_bits_low (value n uns z) n) by lia. rewrite value_mod by lia. by rewrite Z.mod_pow2_bits_low by lia.
Qed.
Lemma value_cong n uns z z' : 0 < n -> (forall i, 0 <= i < n -> Z.testbit z i = Z.testbit z' i) -> value n uns z = value n uns z'.
Proof.
  intros Hn H. assert (z mod 2 ^ n = z' mod 2 ^ n) as E.
  { apply Z.bits_inj'. intros i Hi. destruct (Z.lt_ge_cases i n).
    - rewrite !Z.mod_pow2_bits_low by lia. apply H. lia.
    - rewrite !Z.mod_pow2_bits_high by lia. done. }
  unfold value. destruct uns; [done|]. f_equal.
  rewrite Zplus_mod, E, <-Zplus_mod. done.
Qed.
Lemma value_range n z : 0 < n -> - 2 ^ (n - 1) <= value n false z < 2 ^ (n - 1).
Proof.
  intros Hn. unfold value. pose proof (Z.mod_pos_bound (z + 2 ^ (n - 1)) (2 ^ n) (pow2_pos n ltac:(lia))).
  assert (2 ^ n = 2 * 2 ^ (n - 1)) by (rewrite <-Z.pow_succ_r by lia; f_equal; lia). lia.
Qed.
Lemma value_fix n z : 0 < n -> - 2 ^ (n - 1) <= z < 2 ^ (n - 1) -> value n false z = z.
Proof.
  intros Hn Hz. unfold value. assert (2 ^ n = 2 * 2 ^ (n - 1)) by (rewrite <-Z.pow_succ_r by lia; f_equal; lia).
  rewrite Z.mod_small by lia. lia.
Qed.
Lemma value_ufix n z : 0 <= z < 2 ^ n -> value n true z = z.
Proof. intros Hz. unfold value. by apply Z.mod_small. Qed.

(** Arithmetic shift right of a wrapped value. *)
Lemma value_shiftr n w z : 0 < w <= n -> Z.shiftr (value n false z) (n - w) = value w false (Z.shiftr z (n - w)).
Proof.
  intros Hw. pose proof (value_range n z ltac:(lia)) as Hr.
  set (y := Z.shiftr (value n false z) (n - w)).
  assert (- 2 ^ (w - 1) <= y < 2 ^ (w - 1)) as Hy.
  { unfold y. rewrite Z.shiftr_div_pow2 by lia. pose proof (pow2_pos (n - w) ltac:(lia)).
    assert (2 ^ (n - 1) = 2 ^ (w - 1) * 2 ^ (n - w)) as E by (rewrite <-Z.pow_add_r by lia; f_equal; lia).
    split; [apply Z.div_le_lower_bound; nia|apply Z.div_lt_upper_bound; nia]. }
  rewrite <-(value_fix w y) by lia. apply value_cong; [lia|]. intros i Hi. unfold y.
  rewrite !Z.shiftr_spec by lia. apply value_bits. lia.
Qed.

Section proof.
  Context (minregsize : Z).
  Notation reg := (reg minregsize). Notation calc := (calc minregsize).

  Lemma reg_ge t : bits t <= reg t.
  Proof. unfold Bitfield_model.reg. lia. Qed.
  Lemma calc_bits t z i : 0 <= i < bits t -> Z.testbit (calc t z) i = Z.testbit z i.
  Proof. intros Hi. pose proof (reg_ge t). apply value_bits. lia. Qed.

  (** A value of [w] bits survives conversions to types of at least [w] bits. *)
  Lemma value_value n w uns z : 0 < w <= n -> value n uns (value w uns z) = value w uns z.
  Proof.
    intros Hw. destruct uns.
    - apply value_ufix. pose proof (Z.mod_pos_bound z (2 ^ w) (pow2_pos w ltac:(lia))).
      assert (2 ^ w <= 2 ^ n) by (apply Z.pow_le_mono_r; lia). unfold value. lia.
    - apply value_fix; [lia|]. pose proof (value_range w z ltac:(lia)).
      assert (2 ^ (w - 1) <= 2 ^ (n - 1)) by (apply Z.pow_le_mono_r; lia). lia.
  Qed.
  Lemma cast_value s d w z : 0 < w -> w <= bits s -> w <= bits d -> unsigned s = unsigned d ->
    cast minregsize s d (value w (unsigned d) z) = value w (unsigned d) z.
  Proof.
    intros Hw Hs Hd E. unfold cast. destruct (_ <? _).
    - rewrite E. apply value_value. lia.
    - unfold Bitfield_model.calc. apply value_value. pose proof (reg_ge d). lia.
  Qed.

  (** Reading. *)
  Lemma extract_ok f src u : good f ->
    (forall i, 0 <= i < bits (f_unit f) -> Z.testbit src i = Z.testbit u i) ->
    (exists z, src = value (reg (f_unit f)) (unsigned (f_unit f)) z) ->
    extract minregsize f src = Some (contents f u).
  Proof.
    intros (Hp & Hw & Hw64 & Hb & Ht & Heq) Hs [z Hz]. pose proof (reg_ge (f_unit f)) as Hrg. unfold extract, contents.
    destruct (unsigned (f_unit f)) eqn:Eu.
    - unfold mask. rewrite (proj2 (Z.ltb_lt (f_width f) 64)) by lia. cbn [mbind option_bind]. f_equal.
      assert (2 ^ f_width f - 1 = Z.ones (f_width f)) as -> by (rewrite Z.ones_equiv; lia).
      rewrite Z.land_ones by lia. unfold Bitfield_model.calc at 1. rewrite Eu.
      change (?a mod 2 ^ f_width f) with (value (f_width f) true a). rewrite value_value by lia.
      rewrite Heq, cast_value by (lia || congruence). rewrite <-Heq.
      apply value_cong; [lia|]. intros i Hi.
      rewrite Z.shiftr_spec by lia. destruct (Z.ltb_spec 0 (f_pos f)).
      + unfold Bitfield_model.calc. rewrite value_bits by lia. rewrite Z.shiftr_spec by lia. apply Hs. lia.
      + rewrite Hs by lia. f_equal. lia.
    - f_equal. set (w := reg (f_unit f)) in *. set (l := w - (f_pos f + f_width f)).
      assert (Htmp: (if 0 <? l then calc (f_unit f) (Z.shiftl src l) else src) = value w false (Z.shiftl src l)).
      { destruct (Z.ltb_spec 0 l); [unfold Bitfield_model.calc; by rewrite Eu|].
        assert (l = 0) as -> by lia. rewrite Z.shiftl_0_r. subst src. symmetry. apply value_value. lia. }
      rewrite Htmp.
      assert (Hy: (if f_width f <? w then calc (f_unit f) (Z.shiftr (value w false (Z.shiftl src l)) (w - f_width f)) else value w false (Z.shiftl src l)) =
        value (f_width f) false (Z.shiftr (Z.shiftl src l) (w - f_width f))).
      { destruct (Z.ltb_spec (f_width f) w).
        - rewrite value_shiftr by lia. unfold Bitfield_model.calc. rewrite Eu. fold w. apply value_value. lia.
        - assert (f_width f = w) as -> by lia. rewrite Z.sub_diag, Z.shiftr_0_r. done. }
      rewrite Hy. rewrite Heq, cast_value by (lia || congruence). rewrite <-Heq. apply value_cong; [lia|]. intros i Hi.
      rewrite Z.shiftr_spec, Z.shiftl_spec, Z.shiftr_spec by lia.
      replace (i + (w - f_width f) - l) with (i + f_pos f) by lia. apply Hs. lia.
  Qed.

  Lemma fetch_bits f u i : 0 <= i < bits (f_unit f) -> Z.testbit (fetch f u) i = Z.testbit u i.
  Proof. intros. by apply value_bits. Qed.
  Theorem read_ok f u : good f -> read_field minregsize f u = Some (contents f u).
  Proof.
    intros Hg. apply extract_ok; [done|intros; by apply fetch_bits|]. exists (fetch f u).
    unfold fetch. rewrite value_value; [done|]. pose proof (reg_ge (f_unit f)). destruct Hg as (?&?&?&?&?). lia.
  Qed.

  (** Writing. *)
  Lemma store_range f z : 0 < bits (f_unit f) -> 0 <= store f z < 2 ^ bits (f_unit f).
  Proof. intros. apply Z.mod_pos_bound, pow2_pos. lia. Qed.
  Lemma masked_bits f vt v j : good f -> f_width f <= bits vt -> roomy f vt -> 0 <= j < bits (f_unit f) ->
    Z.testbit (cast minregsize vt (f_unit f) (calc vt (Z.land v (Z.ones (f_width f))))) j = (j <? f_width f) && Z.testbit v j.
  Proof.
    intros (Hp & Hw & Hw64 & Hb & Ht & Heq) Hvt Hr Hj. pose proof (reg_ge vt).
    assert (Hl: Z.testbit (Z.land v (Z.ones (f_width f))) j = (j <? f_width f) && Z.testbit v j).
    { rewrite Z.land_spec. destruct (Z.ltb_spec j (f_width f)).
      - rewrite Z.ones_spec_low by lia. by rewrite andb_true_r.
      - rewrite Z.ones_spec_high by lia. by rewrite andb_false_r. }
    unfold cast. destruct (Z.ltb_spec (bits vt) (bits (f_unit f))).
    - enough (value (bits vt) (unsigned vt) (calc vt (Z.land v (Z.ones (f_width f)))) = Z.land v (Z.ones (f_width f))) as -> by done.
      rewrite Z.land_ones by lia. set (y := v mod 2 ^ f_width f).
      assert (Hy: 0 <= y < 2 ^ f_width f) by (apply Z.mod_pos_bound, pow2_pos; lia).
      unfold Bitfield_model.calc.
      assert (2 ^ f_width f <= 2 ^ bits vt) by (apply Z.pow_le_mono_r; lia).
      assert (2 ^ bits vt <= 2 ^ reg vt) by (apply Z.pow_le_mono_r; lia).
      destruct (unsigned vt) eqn:Eu.
      + rewrite (value_ufix (reg vt)) by lia. apply value_ufix. lia.
      + destruct Hr as [?|[Hr|?]]; [congruence| |lia].
        assert (2 ^ f_width f <= 2 ^ (bits vt - 1)) by (apply Z.pow_le_mono_r; lia).
        assert (2 ^ (bits vt - 1) <= 2 ^ (reg vt - 1)) by (apply Z.pow_le_mono_r; lia).
        rewrite (value_fix (reg vt)) by lia. apply value_fix; lia.
    - rewrite calc_bits by lia. rewrite calc_bits by lia. done.
  Qed.
  Lemma assign_ok f src u vt v : good f -> f_width f <= bits vt -> roomy f vt ->
    (forall i, 0 <= i < bits (f_unit f) -> Z.testbit src i = Z.testbit u i) ->
    exists z, assign_member minregsize f src vt v = Some z /\ written f u v (store f z).
  Proof.
    intros Hg Hvt Hr Hs. pose proof Hg as (Hp & Hw & Hw64 & Hb & Ht & Heq). unfold assign_member, mask. rewrite (proj2 (Z.ltb_lt (f_width f) 64)) by lia. cbn [mbind option_bind].
    eexists. split; [done|]. split; [apply store_range; lia|]. intros i Hi. unfold store.
    assert (2 ^ f_width f - 1 = Z.ones (f_width f)) as -> by (rewrite Z.ones_equiv; lia).
    rewrite Z.mod_pow2_bits_low by lia. rewrite calc_bits, Z.lor_spec by lia. rewrite (calc_bits _ (Z.land src _)) by lia.
    rewrite Z.land_spec, Z.lnot_spec, Z.shiftl_spec by lia. rewrite Hs by lia.
    assert (Hv: forall x, Z.testbit (if 0 <? f_pos f then calc (f_unit f) (Z.shiftl x (f_pos f)) else x) i = Z.testbit x (i - f_pos f)).
    { intros x. destruct (Z.ltb_spec 0 (f_pos f)).
      - rewrite calc_bits by lia. by rewrite Z.shiftl_spec by lia.
      - f_equal. lia. }
    rewrite Hv. destruct (decide (f_pos f <= i < f_pos f + f_width f)) as [Hd|Hd].
    - rewrite masked_bits by (done || lia). rewrite Z.ones_spec_low by lia. rewrite (proj2 (Z.ltb_lt _ _)) by lia. cbn. by rewrite andb_false_r, orb_false_r.
    - destruct (Z.lt_ge_cases i (f_pos f)).
      + rewrite !(Z.testbit_neg_r _ (i - f_pos f)) by lia. cbn. by rewrite andb_true_r.
      + rewrite masked_bits by (done || lia). rewrite Z.ones_spec_high by lia. rewrite (proj2 (Z.ltb_ge _ _)) by lia. cbn. by rewrite andb_true_r.
  Qed.

  Lemma written_contents f u v u' : good f -> written f u v u' -> contents f u' = wrapped f v.
  Proof.
    intros (Hp & Hw & Hw64 & Hb & Ht & Heq) [_ H]. apply value_cong; [lia|]. intros i Hi.
    rewrite Z.shiftr_spec by lia. rewrite H by lia. rewrite decide_True by lia. f_equal. lia.
  Qed.
  Lemma written_neighbour f g u v u' : good f -> neighbour f g -> written f u v u' -> contents g u' = contents g u.
  Proof.
    intros (Hp & Hw & Hw64 & Hb & Ht & Heq) ((Hp' & Hw' & Hw64' & Hb' & Ht' & Heq') & Hbb & Ha) [_ H]. apply value_cong; [lia|]. intros i Hi.
    rewrite !Z.shiftr_spec by lia. rewrite H by lia. rewrite decide_False; [done|]. destruct Ha; lia.
  Qed.
  Lemma wrapped_contents f u : good f -> wrapped f (contents f u) = contents f u.
  Proof. intros (Hp & Hw & Hw64 & Hb & Ht & Heq). apply value_value. lia. Qed.

  Theorem assign_to_ok f u v : good f -> roomy f (f_type f) ->
    exists u', assign_to minregsize f u v = Some (u', v) /\ written f u v u'.
  Proof.
    intros Hg Hr. destruct (assign_ok f (fetch f u) u (f_type f) v) as (z & E & W); [done|apply Hg|done|intros; by apply fetch_bits|].
    unfold assign_to. rewrite E. cbn. eauto.
  Qed.
  Lemma wrapped_cong f a b : good f -> a mod 2 ^ f_width f = b mod 2 ^ f_width f -> wrapped f a = wrapped f b.
  Proof.
    intros (Hp & Hw & Hw64 & Hb & Ht & Heq) E. apply value_cong; [lia|]. intros i Hi.
    rewrite <-(Z.mod_pow2_bits_low a (f_width f)), E, Z.mod_pow2_bits_low by lia. done.
  Qed.

  Theorem postfix_ok f u d : good f ->
    exists u', postfix_incdec minregsize f u d = Some (u', contents f u) /\
      exists v, written f u v u' /\ wrapped f v = wrapped f (contents f u + d).
  Proof.
    intros Hg. unfold postfix_incdec.
    pose proof (read_ok f u Hg) as E. unfold read_field in E. rewrite E. cbn [mbind option_bind].
    destruct (assign_ok f (fetch f u) u (f_unit f) (calc (f_unit f) (contents f u + d))) as (z & Ez & W);
      [done|destruct Hg as (?&?&?&?&?); lia|right; right; lia|intros; by apply fetch_bits|].
    rewrite Ez. cbn [mbind option_bind]. eexists. split; [done|]. eexists. split; [done|].
    destruct Hg as (Hp & Hw & Hw64 & Hb & Ht & Heq). apply value_cong; [lia|]. intros i Hi. apply calc_bits. lia.
  Qed.

  Theorem prefix_ok f u d : good f -> roomy f (f_type f) -> f_pos f < 31 ->
    let v := wrapped f (contents f u + d) in
    exists u', prefix_incdec minregsize f u d = Some (u', v) /\ written f u v u'.
  Proof.
    intros Hg Hr H31 v. pose proof Hg as (Hp & Hw & Hw64 & Hb & Ht & Heq). unfold prefix_incdec. rewrite (proj2 (Z.ltb_lt (f_pos f) 31)) by lia.
    set (src := fetch f u). set (y := src + d * 2 ^ f_pos f).
    rewrite (extract_ok f _ y Hg); [|intros; by apply calc_bits|by eexists]. cbn [mbind option_bind].
    assert (contents f y = v) as ->.
    { unfold v. assert (contents f y = wrapped f (Z.shiftr src (f_pos f) + d)) as ->.
      { unfold contents, wrapped, y. f_equal. rewrite !Z.shiftr_div_pow2 by lia. apply Z.div_add. pose proof (pow2_pos (f_pos f)). lia. }
      apply wrapped_cong; [done|]. rewrite Zplus_mod, (Zplus_mod (contents f u)). f_equal. f_equal.
      unfold contents. rewrite value_mod by lia. apply Z.bits_inj'. intros i Hi. destruct (Z.lt_ge_cases i (f_width f)).
      - rewrite !Z.mod_pow2_bits_low by lia. rewrite !Z.shiftr_spec by lia. apply fetch_bits. lia.
      - by rewrite !Z.mod_pow2_bits_high by lia. }
    destruct (assign_ok f src u (f_type f) v) as (z & E & W); [done|done|done|intros; by apply fetch_bits|].
    rewrite E. cbn [mbind option_bind]. eauto.
  Qed.

  Theorem compound_ok f u rt op : good f -> f_width f <= bits rt -> roomy f rt ->
    let v := op (contents f u) in
    exists u', compound_assign minregsize f u rt op = Some (u', wrapped f v) /\
      exists v', written f u v' u' /\ wrapped f v' = wrapped f v.
  Proof.
    intros Hg Hb Hr v. unfold compound_assign. pose proof (read_ok f u Hg) as E. unfold read_field in E. rewrite E. cbn [mbind option_bind].
    destruct (assign_ok f (fetch f u) u rt (calc rt v)) as (z & Ez & W); [done|done|done|intros; by apply fetch_bits|].
    fold v. rewrite Ez. cbn [mbind option_bind].
    assert (wrapped f (calc rt v) = wrapped f v) as Ev.
    { destruct Hg as (?&?&?&?&?). apply value_cong; [lia|]. intros i Hi. apply calc_bits. lia. }
    pose proof (read_ok f (store f z) Hg) as E'. unfold read_field in E'. rewrite E'. cbn [mbind option_bind].
    rewrite (written_contents _ _ _ _ Hg W), Ev. eexists. split; [done|]. eauto.
  Qed.
End proof.

(** The theorems with the effects on every field spelt out. *)
Theorem store_effects minregsize f u v : good f -> roomy f (f_type f) ->
  exists u', assign_to minregsize f u v = Some (u', v) /\ read_field minregsize f u' = Some (wrapped f v) /\
    (forall g, neighbour f g -> read_field minregsize g u' = read_field minregsize g u) /\
    (forall i, 0 <= i < bits (f_unit f) -> ~ f_pos f <= i < f_pos f + f_width f -> Z.testbit u' i = Z.testbit u i).
Proof.
  intros Hg Hr. destruct (assign_to_ok minregsize f u v Hg Hr) as (u' & E & W). exists u'. split; [done|].
  split; [rewrite read_ok by done; f_equal; by eapply written_contents|]. split.
  - intros g Hn. rewrite !read_ok by apply Hn. f_equal. by eapply written_neighbour.
  - intros i Hi Ho. rewrite (proj2 W) by done. by rewrite decide_False.
Qed.
Theorem postfix_effects minregsize f u d : good f ->
  exists u', postfix_incdec minregsize f u d = Some (u', contents f u) /\
    read_field minregsize f u' = Some (wrapped f (contents f u + d)) /\
    (forall g, neighbour f g -> read_field minregsize g u' = read_field minregsize g u).
Proof.
  intros Hg. destruct (postfix_ok minregsize f u d Hg) as (u' & E & v & W & Ev). exists u'. split; [done|].
  split; [rewrite read_ok, <-Ev by done; f_equal; by eapply written_contents|].
  intros g Hn. rewrite !read_ok by apply Hn. f_equal. by eapply written_neighbour.
Qed.
Theorem prefix_effects minregsize f u d : good f -> roomy f (f_type f) -> f_pos f < 31 ->
  exists u', prefix_incdec minregsize f u d = Some (u', wrapped f (contents f u + d)) /\
    read_field minregsize f u' = Some (wrapped f (contents f u + d)) /\
    (forall g, neighbour f g -> read_field minregsize g u' = read_field minregsize g u).
Proof.
  intros Hg Hr H31. destruct (prefix_ok minregsize f u d Hg Hr H31) as (u' & E & W). exists u'. split; [done|].
  split; [rewrite read_ok by done; f_equal|].
  - rewrite (written_contents _ _ _ _ Hg W). apply value_value. destruct Hg as (?&?&?). lia.
  - intros g Hn. rewrite !read_ok by apply Hn. f_equal. by eapply written_neighbour.
Qed.
Theorem compound_effects minregsize f u rt op : good f -> f_width f <= bits rt -> roomy f rt ->
  exists u', compound_assign minregsize f u rt op = Some (u', wrapped f (op (contents f u))) /\
    read_field minregsize f u' = Some (wrapped f (op (contents f u))) /\
    (forall g, neighbour f g -> read_field minregsize g u' = read_field minregsize g u).
Proof.
  intros Hg Hb Hr. destruct (compound_ok minregsize f u rt op Hg Hb Hr) as (u' & E & v & W & Ev). exists u'. split; [done|].
  split; [rewrite read_ok, <-Ev by done; f_equal; by eapply written_contents|].
  intros g Hn. rewrite !read_ok by apply Hn. f_equal. by eapply written_neighbour.
Qed.

(** struct { signed char a : 4, b : 8, c : 4; } has one unit of 16 bits (Layout); storing -1
    in b sets the bits of c. *)
Theorem neighbour_lost minregsize : minregsize = 1 \/ minregsize = 4 ->
  let char := Ity 8 false in let short := Ity 16 false in
  let b := Field char short 4 8 in let c := Field char short 12 4 in
  good b /\ neighbour b c /\
  exists u', assign_to minregsize b 0 (-1) = Some (u', -1) /\ read_field minregsize c 0 = Some 0 /\ read_field minregsize c u' = Some (-1).
Proof.
  intros H char short b c. split; [unfold good; cbn; lia|]. split; [unfold neighbour, good, apart; cbn; lia|].
  destruct H as [-> | ->]; eexists; split; [vm_compute; reflexivity|by split|vm_compute; reflexivity|by split].
Qed.
Theorem width_64 minregsize t pos u v : assign_to minregsize (Field t t pos 64) u v = None.
Proof. done. Qed.
Theorem value_not_stored minregsize : minregsize = 1 \/ minregsize = 4 ->
  let f := Field (Ity 32 true) (Ity 32 true) 0 4 in
  assign_to minregsize f 0 18 = Some (2, 18) /\ read_field minregsize f 2 = Some 2.
Proof. by intros [-> | ->]. Qed.
Theorem prefix_undefined minregsize f u d : 31 <= f_pos f -> prefix_incdec minregsize f u d = None.
Proof. intros H. unfold prefix_incdec. by rewrite (proj2 (Z.ltb_ge (f_pos f) 31)). Qed.
