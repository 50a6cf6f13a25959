(** Running the initialising statements makes the stores of the specification. *)
From stdpp Require Import base list numbers.
From Verif Require Import Front.Layout_model Front.Layout_spec Front.Layout_proof Front.Static_model Front.Static_spec Front.Static_proof Front.Static_main_proof Front.Local_model Front.Local_spec.
From Verif Require Front.Bitfield_model Front.Bitfield_spec Front.Bitfield_proof.
Local Open Scope Z_scope.

Lemma put_patch o bs m : put o bs m = patch (Z.to_nat o) bs m.
Proof. done. Qed.
Lemma number_at_unle l : number_at l = unle l.
Proof. induction l as [|b l IH]; [done|]. cbn. rewrite IH. done. Qed.

(** ** Copying and clearing *)
Lemma patch_cons o b bs m : (o + S (length bs) <= length m)%nat -> patch (S o) bs (patch o [b] m) = patch o (b :: bs) m.
Proof.
  intros H. unfold patch at 1 3. unfold patch. cbn [length].
  assert (length (take o m) = o) as Hl by (rewrite take_length; lia).
  rewrite take_app_ge by lia. rewrite Hl. replace (S o - o)%nat with 1%nat by lia. cbn [app take]. rewrite take_0.
  rewrite drop_app_ge by lia. rewrite Hl. replace (S o + length bs - o)%nat with (S (length bs)) by lia. cbn [drop]. rewrite drop_drop.
  rewrite <- app_assoc. cbn [app]. do 4 f_equal. lia.
Qed.
Lemma patch_nil o m : patch o [] m = m.
Proof. unfold patch. cbn. rewrite Nat.add_0_r, take_drop. done. Qed.
Lemma copy_ok bytes : forall a m, 0 <= a -> a + Z.of_nat (length bytes) <= Z.of_nat (length m) -> copy_loop a bytes m = patch (Z.to_nat a) bytes m.
Proof.
  induction bytes as [|b bytes IH]; intros a m Ha H; [rewrite patch_nil; done|]. cbn [copy_loop length] in *. rewrite put_patch.
  rewrite IH by (rewrite ?patch_length by (cbn; lia); lia).
  replace (Z.to_nat (a + 1)) with (S (Z.to_nat a)) by lia. apply patch_cons. lia.
Qed.

Lemma clear_ok n esize : 0 < esize -> forall a pre X post, Z.of_nat (length pre) = a -> Z.of_nat (length X) = esize * Z.of_nat n ->
  clear_loop n esize a (pre ++ X ++ post) = pre ++ zeros (esize * Z.of_nat n) ++ post.
Proof.
  intros He. induction n as [|n IH]; intros a pre X post Hp HX.
  - rewrite Z.mul_0_r in *. destruct X; [done|cbn in HX; lia].
  - cbn [clear_loop]. rewrite put_patch, le_zero. change (replicate (Z.to_nat esize) 0) with (zeros esize).
    replace (Z.to_nat a) with (length pre + 0)%nat by lia.
    assert (Hz: length (zeros esize) = Z.to_nat esize) by apply replicate_length.
    rewrite patch_frame by (rewrite Hz; lia).
    unfold patch. cbn [take app Nat.add]. rewrite take_0, Hz. cbn [app]. rewrite <- app_assoc, (app_assoc pre).
    rewrite IH.
    + rewrite <- app_assoc. f_equal. rewrite (app_assoc (zeros esize)). f_equal. rewrite <- zeros_add by lia. f_equal. lia.
    + rewrite app_length. lia.
    + rewrite drop_length. lia.
Qed.
Lemma elem_size_pow2 size align : pow2 align -> (align | size) -> 0 < size -> elem_size size align = align.
Proof.
  intros Ha [q Hq] Hs. unfold elem_size. assert (align <= size) by (unfold pow2 in Ha; nia). rewrite Z.min_l by done.
  destruct Ha as [->|[->|[->| ->]]]; done.
Qed.
Lemma clear_object size align pre X post : pow2 align -> (align | size) -> 0 <= size -> Z.of_nat (length X) = size ->
  clear size align (Z.of_nat (length pre)) (pre ++ X ++ post) = Some (pre ++ zeros size ++ post).
Proof.
  intros Ha Hd Hs HX. unfold clear. destruct (Z.eqb_spec size 0) as [->|Hn].
  { destruct X; [done|cbn in HX; lia]. }
  rewrite elem_size_pow2 by (done || lia). destruct Hd as [q Hq].
  assert (2 ^ Z.log2 align = align) as E by (destruct Ha as [->|[->|[->| ->]]]; done).
  rewrite Z.shiftr_div_pow2 by apply Z.log2_nonneg. rewrite E. rewrite Hq at 1. rewrite Z.div_mul by (unfold pow2 in Ha; lia).
  assert (0 < q) by (unfold pow2 in Ha; nia). rewrite (proj2 (Z.leb_gt q 0)) by done.
  rewrite Hq at 1. rewrite Z.div_mul by (unfold pow2 in Ha; lia).
  rewrite (clear_ok (Z.to_nat q) align); [|unfold pow2 in Ha; lia|done|rewrite Z2Nat.id; lia].
  rewrite Z2Nat.id by lia. do 4 f_equal. lia.
Qed.

(** ** Bit-fields *)
Lemma le_bits n : forall a b, (forall i, 0 <= i < 8 * Z.of_nat n -> Z.testbit a i = Z.testbit b i) -> le n a = le n b.
Proof.
  intros a b H. rewrite <- (le_mod n a), <- (le_mod n b). f_equal. apply Z.bits_inj'. intros i Hi.
  replace (256 ^ Z.of_nat n) with (2 ^ (8 * Z.of_nat n)) by (rewrite Z.pow_mul_r by lia; done).
  destruct (Z.lt_ge_cases i (8 * Z.of_nat n)).
  - rewrite !Z.mod_pow2_bits_low by lia. apply H. lia.
  - rewrite !Z.mod_pow2_bits_high by lia. done.
Qed.
Lemma put_bits_spec x p w v i : 0 <= p -> 0 <= w -> 0 <= i ->
  Z.testbit (put_bits x p w v) i = if decide (p <= i < p + w) then Z.testbit v (i - p) else Z.testbit x i.
Proof.
  intros Hp Hw Hi. unfold put_bits. rewrite Z.lor_spec, Z.ldiff_spec, !Z.shiftl_spec, Z.land_spec by done.
  destruct (decide (p <= i < p + w)) as [H|H].
  - rewrite Z.ones_spec_low by lia. rewrite andb_false_r, andb_true_r. done.
  - destruct (Z.lt_ge_cases i p).
    + rewrite !(Z.testbit_neg_r _ (i - p)) by lia. cbn. rewrite andb_true_r, orb_false_r. done.
    + rewrite Z.ones_spec_high by lia. cbn. rewrite andb_true_r, andb_false_r, orb_false_r. done.
Qed.

(** ** Statements *)
Fixpoint below (n : nat) (l : lval) : Prop := match l with LVar => True | LTmp k => (k < n)%nat | LMem l _ => below n l end.
Lemma below_le n n' l : (n <= n')%nat -> below n l -> below n' l.
Proof. intros H. induction l; cbn; [done|lia|done]. Qed.
Lemma address_same base n tmps tmps' l : below n l -> (forall k, (k < n)%nat -> tmps' k = tmps k) -> address_of base tmps' l = address_of base tmps l.
Proof. intros H Ht. induction l; cbn in *; [done|apply Ht; done|rewrite IHl by done; done]. Qed.

Section proof.
  Context (lp64 uns : bool) (after : nat -> Z) (minregsize : Z) (vtype : Bitfield_model.ity) (base : Z) (env : nat -> Z).
  Local Notation run_stmts := (run_stmts minregsize vtype base).
  Local Notation assign := (assign lp64 uns after).
  Local Notation stores := (stores lp64 env).
  Local Notation member_stores := (member_stores lp64).
  Local Notation size_of := (size_of lp64).
  Local Notation local_fits := (local_fits vtype).
  Local Notation local_members := (local_members vtype).

  Lemma run_app ss ss' st : run_stmts (ss ++ ss') st = match run_stmts ss st with Some st => run_stmts ss' st | None => None end.
  Proof. revert st. induction ss as [|s ss IH]; intros st; [done|]. cbn [app Local_model.run_stmts]. destruct (run_stmt _ _ _ s st); [apply IH|done]. Qed.

  Lemma local_fits_fits t : forall i, local_fits t i -> fits t i.
  Proof.
    induction t as [| | |k|k|t n IH|t IH|u ms IH] using ty_rect'; intros [[e|l]|] H; try done; cbn [Local_spec.local_fits] in H.
    - destruct e; try done. left. constructor.
    - destruct e; try done. left. constructor.
    - destruct t; try done. destruct k; try done; destruct e; try done; destruct wide; done.
    - assert (Z.of_nat (length l) <= n /\ foldr (fun x P => local_fits t x /\ P) True l) as [H1 H2] by (destruct t; [..|destruct t|destruct t|]; try exact H; destruct k; exact H).
      assert (Z.of_nat (length l) <= n /\ foldr (fun x P => fits t x /\ P) True l) as H3.
      { split; [done|]. clear -H2 IH. induction l as [|x l IHl]; [done|]. cbn in *. destruct H2. split; [apply IH; done|apply IHl; done]. }
      cbn [fits]. destruct t; [..|destruct t|destruct t|]; try exact H3; destruct k; exact H3.
    - destruct H as [H1 H2]. cbn [fits]. split; [|done]. clear H2. revert l H1. induction IH as [|[t w] ms Hm _ IHms]; intros l H1; [destruct l; done|].
      destruct l as [|i l]; [done|]. cbn [Local_spec.local_members members_fit] in *. destruct H1 as [H1 H2]. split; [|apply IHms; done].
      destruct w as [w|]; [|apply Hm; done]. destruct i as [[e|]|]; try done. destruct e; try done. tauto.
  Qed.
  Lemma stores_range t i : legal lp64 t -> data t -> local_fits t i -> Forall (in_range (size_of t)) (stores t i).
  Proof. intros Hl Hd Hf. apply local_fits_fits in Hf. destruct (all_good lp64 env t Hl Hd i Hf) as (evs & _ & H & _). done. Qed.
  Lemma stored_length t i a m : legal lp64 t -> data t -> local_fits t i -> 0 <= a -> a + size_of t <= Z.of_nat (length m) ->
    length (foldl apply_store m (shift a <$> stores t i)) = length m.
  Proof.
    intros Hl Hd Hf Ha Hm. apply stores_length. apply Forall_fmap. eapply stdpp.list.Forall_impl; [exact (stores_range t i Hl Hd Hf)|].
    intros s Hs. unfold compose. eapply in_range_shift; [done|exact Hm|done].
  Qed.

  (** Running [ss] makes the stores [sts] and changes no pointer below [n]. *)
  Definition does (ss : list stmt) (n : nat) (tmps : nat -> Z) (m : list Z) (sts : list store) : Prop :=
    exists tmps', run_stmts ss (tmps, m) = Some (tmps', foldl apply_store m sts) /\ forall k, (k < n)%nat -> tmps' k = tmps k.
  Definition works (t : ty) : Prop := legal lp64 t -> data t -> forall i lv n, local_fits t i ->
    exists ss n', assign t i lv n = Some (ss, n') /\ (n <= n')%nat /\
      forall tmps m, below n lv -> let a := address_of base tmps lv in 0 <= a -> a + size_of t <= Z.of_nat (length m) ->
        does ss n tmps m (shift a <$> stores t i).

  Lemma bits_work tmps m lv t k p w v : t = TyFix k -> 0 <= position p -> position p + w <= 8 * fixnum_size lp64 (base_kind p) ->
    0 < w < 64 -> w <= 8 * fixnum_size lp64 k -> wide_enough vtype w ->
    exists z, Bitfield_model.assign_member minregsize (bit_field lp64 uns t p w)
        (Bitfield_model.fetch (bit_field lp64 uns t p w) (number_at (take (Z.to_nat (fixnum_size lp64 (base_kind p))) (drop (Z.to_nat (address_of base tmps lv)) m)))) vtype v = Some z /\
      put (address_of base tmps lv) (le (Z.to_nat (fixnum_size lp64 (base_kind p))) (Bitfield_model.store (bit_field lp64 uns t p w) z)) m =
      apply_store m (Bits (address_of base tmps lv) (fixnum_size lp64 (base_kind p)) (position p) w v).
  Proof.
    intros -> Hp Hpw Hw Hk Hwide. set (f := bit_field lp64 uns (TyFix k) p w). set (x := number_at _).
    assert (Bitfield_spec.good f) as Hg. { unfold Bitfield_spec.good, f. cbn. split_and!; try lia. done. }
    pose proof (fsize_pos lp64 (base_kind p)) as Hb.
    destruct (Bitfield_proof.assign_ok minregsize f (Bitfield_model.fetch f x) x vtype v Hg) as (z & Ez & Hz).
    { unfold wide_enough in Hwide. cbn. lia. }
    { unfold Bitfield_spec.roomy. cbn. unfold wide_enough in Hwide. tauto. }
    { intros i Hi. unfold Bitfield_model.fetch. apply Bitfield_proof.value_bits; lia. }
    exists z. split; [done|]. rewrite put_patch. cbn [apply_store]. rewrite <- number_at_unle. fold x. f_equal. apply le_bits. intros i Hi.
    destruct Hz as [_ Hz]. rewrite Hz by (cbn; lia). rewrite put_bits_spec by lia. done.
  Qed.

  Lemma elems_work t s p : works t -> legal lp64 t -> data t -> size_of t = s -> 0 <= s -> forall l (first : bool) n, Forall (local_fits t) l -> (p < n)%nat ->
    exists ss n', elem_loop (fun x k => assign t x (LTmp p) k) p s l first n = Some (ss, n') /\ (n <= n')%nat /\
      forall tmps m, let a := (if first then tmps p else tmps p + s) in 0 <= a -> a + s * Z.of_nat (length l) <= Z.of_nat (length m) ->
        does ss p tmps m (concat (imap (fun k ss => shift (a + Z.of_nat k * s) <$> ss) (map (stores t) l))).
  Proof.
    intros Hw Hl Hd Es Hs. induction l as [|x l IH]; intros first n Hf Hp.
    - exists [], n. split; [done|]. split; [done|]. intros tmps m a Ha Hm. exists tmps. done.
    - apply stdpp.list.Forall_cons in Hf as [Hx Hf]. destruct (Hw Hl Hd x (LTmp p) n Hx) as (ss & n1 & E1 & Hn1 & R1).
      destruct (IH false n1 Hf ltac:(lia)) as (ss' & n2 & E2 & Hn2 & R2).
      eexists _, n2. cbn [elem_loop]. rewrite E1, E2. split; [reflexivity|]. split; [lia|]. intros tmps m Ha Hm. set (a := if first then tmps p else tmps p + s) in *. cbn [length] in Hm.
      set (tmps0 := if first then tmps else (fun k => if decide (k = p) then tmps p + s else tmps k)).
      assert (run_stmts (if first then [] else [SAdd p s]) (tmps, m) = Some (tmps0, m)) as E0 by (unfold tmps0; destruct first; done).
      assert (tmps0 p = a) as Ea. { unfold tmps0, a. destruct first; [done|]. rewrite decide_True by done. done. }
      assert (forall k, (k < p)%nat -> tmps0 k = tmps k) as H0. { intros k Hk. unfold tmps0. destruct first; [done|]. rewrite decide_False by lia. done. }
      destruct (R1 tmps0 m) as (tmps1 & F1 & G1); [cbn; lia|cbn; lia|cbn; rewrite Es; nia|]. cbn [address_of] in F1. rewrite Ea in F1.
      assert (length (foldl apply_store m (shift a <$> stores t x)) = length m) as Hlen by (apply stored_length; try done; rewrite Es; nia).
      assert (tmps1 p = a) as Ea1 by (rewrite G1 by lia; done).
      destruct (R2 tmps1 (foldl apply_store m (shift a <$> stores t x))) as (tmps2 & F2 & G2); [cbn; rewrite Ea1; lia|cbn; rewrite Ea1, Hlen; lia|].
      exists tmps2. rewrite run_app, E0, run_app, F1, F2. split.
      + rewrite <- foldl_app. do 3 f_equal. cbn [map imap concat]. rewrite Z.add_0_r. f_equal. f_equal. cbn. rewrite Ea1. apply imap_ext. intros k y _. unfold compose. do 2 f_equal. lia.
      + intros k Hk. rewrite G2, G1, H0 by lia. done.
  Qed.

  (** What a member's place must satisfy. *)
  Definition member_fine (u : bool) (s : Z) (m : ty * option Z) (p : placed) : Prop :=
    match snd m with
    | None => 0 <= offset p /\ offset p + size_of (fst m) <= s
    | Some w => u = false /\ (0 < w -> exists k, fst m = TyFix k /\ w <= 8 * fixnum_size lp64 k /\ 0 <= position p /\
        position p + w <= 8 * fixnum_size lp64 (base_kind p) /\ 0 <= offset p /\ offset p + fixnum_size lp64 (base_kind p) <= s)
    end.
  Lemma members_work u s lv : forall ms pls is count n, Forall2 (member_fine u s) ms pls ->
    Forall (fun m => works (fst m) /\ legal lp64 (fst m) /\ data (fst m)) ms -> local_members local_fits ms is ->
    (u = true -> one_given is /\ ((0 < count)%nat -> Forall (fun i => i = None) is)) ->
    exists ss n', member_assign lp64 uns assign u lv ms pls is count n = Some (ss, n') /\ (n <= n')%nat /\
      forall tmps m, below n lv -> let a := address_of base tmps lv in 0 <= a -> a + s <= Z.of_nat (length m) ->
        does ss n tmps m (shift a <$> member_stores stores ms pls is).
  Proof.
    induction ms as [|[t w] ms IH]; intros pls is count n Hfine Hall Hfit Hu.
    - exists [], n. split; [done|]. split; [done|]. intros tmps m Hb; cbv zeta; intros Ha Hm; set (a := address_of base tmps lv) in *. exists tmps. done.
    - apply Forall2_cons_inv_l in Hfine as (p & pls' & Hp & Hfine & ->). destruct is as [|i is]; [done|]. cbn [Local_spec.local_members] in Hfit. destruct Hfit as [Hi Hfit].
      apply stdpp.list.Forall_cons in Hall as [(Hw & Hl & Hd) Hall]. cbn [fst] in *. cbn [member_assign Static_spec.member_stores].
      assert (u = true -> one_given is) as Hone. { intros E. destruct (Hu E) as [H _]. intros j k x y Hj Hk. specialize (H (S j) (S k) x y Hj Hk). lia. }
      destruct i as [x|].
      + assert (u && bool_decide (0 < count)%nat = false) as ->.
        { destruct u; [|done]. destruct (Hu eq_refl) as [_ H]. cbn. apply bool_decide_eq_false_2. intros Hc. specialize (H Hc). apply stdpp.list.Forall_cons in H as [H _]. done. }
        assert (u = true -> one_given is /\ ((0 < S count)%nat -> Forall (fun i => i = None) is)) as Hu'.
        { intros E. split; [apply Hone; done|]. intros _. destruct (Hu E) as [H _]. apply stdpp.list.Forall_forall. intros [y|] Hy; [|done].
          apply elem_of_list_lookup in Hy as [j Hj]. specialize (H 0%nat (S j) x y eq_refl Hj). lia. }
        assert (exists ss n1, (if negb u && (0 <? default 0 w)
             then match x with ISingle (XFix v) => Some ([SBits (LMem lv (offset p)) (bit_field lp64 uns t p (default 0 w)) v], n) | _ => None end
             else assign t (Some x) (LMem lv (offset p)) n) = Some (ss, n1) /\ (n <= n1)%nat /\
             forall tmps m, below n lv -> let a := address_of base tmps lv in 0 <= a -> a + s <= Z.of_nat (length m) ->
               does ss n tmps m (shift a <$> match w with
                 | Some w0 => match Some x with Some (ISingle (XFix v)) => [Bits (offset p) (fixnum_size lp64 (base_kind p)) (position p) w0 v] | _ => [] end
                 | None => shift (offset p) <$> stores t (Some x) end) /\
               length (foldl apply_store m (shift a <$> match w with
                 | Some w0 => match Some x with Some (ISingle (XFix v)) => [Bits (offset p) (fixnum_size lp64 (base_kind p)) (position p) w0 v] | _ => [] end
                 | None => shift (offset p) <$> stores t (Some x) end)) = length m) as (ss & n1 & E1 & Hn1 & R1).
        { destruct w as [w|]; unfold member_fine in Hp; cbn [snd fst] in Hp.
          - destruct Hp as [-> Hp]. destruct x as [e|]; [|done]. destruct e; try done. destruct Hi as [Hwr Hwide]. destruct (Hp ltac:(lia)) as (k & -> & Hk & Hp1 & Hp2 & Ho1 & Ho2).
            change (default 0 (Some w)) with w. cbn [negb andb]. rewrite (proj2 (Z.ltb_lt 0 w)) by lia. eexists _, n. split; [reflexivity|]. split; [done|].
            intros tmps m Hb; cbv zeta; intros Ha Hm; set (a := address_of base tmps lv) in *. pose proof (fsize_pos lp64 (base_kind p)) as Hb1. split.
            + destruct (bits_work tmps m (LMem lv (offset p)) (TyFix k) k p w z eq_refl Hp1 Hp2 Hwr Hk Hwide) as (y & Ey & Hy).
              exists tmps. split; [|done]. cbn [Local_model.run_stmts run_stmt].
              assert (Bitfield_model.bits (Bitfield_model.f_unit (bit_field lp64 uns (TyFix k) p w)) / 8 = fixnum_size lp64 (base_kind p)) as ->.
              { cbn. rewrite Z.mul_comm. apply Z.div_mul. lia. }
              rewrite Ey, Hy. cbn [address_of fmap list_fmap shift foldl]. done.
            + apply stores_length. cbn. constructor; [|constructor]. cbn. fold a. lia.
          - destruct Hp as [Ho1 Ho2]. replace (negb u && (0 <? default 0 None)) with false by (cbn; destruct u; done).
            destruct (Hw Hl Hd (Some x) (LMem lv (offset p)) n Hi) as (ss & n1 & E1 & Hn1 & R1). exists ss, n1. split; [done|]. split; [done|].
            intros tmps m Hb; cbv zeta; intros Ha Hm; set (a := address_of base tmps lv) in *.
            assert ((shift a <$> (shift (offset p) <$> stores t (Some x))) = (shift (a + offset p) <$> stores t (Some x))) as ->.
            { rewrite <- list_fmap_compose. apply list_fmap_ext. intros j y _. unfold compose. apply shift_add. }
            split; [|apply stored_length; try done; lia]. apply (R1 tmps m Hb); cbn; fold a; lia. }
        destruct (IH pls' is (S count) n1 Hfine Hall Hfit Hu') as (ss' & n2 & E2 & Hn2 & R2).
        exists (ss ++ ss'), n2. rewrite E1, E2. split; [done|]. split; [lia|]. intros tmps m Hb; cbv zeta; intros Ha Hm; set (a := address_of base tmps lv) in *.
        destruct (R1 tmps m Hb Ha Hm) as [(tmps1 & F1 & G1) Hlen]. fold a in F1, Hlen. set (m1 := foldl apply_store m _) in F1, Hlen.
        assert (address_of base tmps1 lv = a) as Ea by (apply (address_same base n); done).
        destruct (R2 tmps1 m1 (below_le _ _ _ Hn1 Hb)) as (tmps2 & F2 & G2); [rewrite Ea; done|rewrite Ea, Hlen; done|]. rewrite Ea in F2.
        exists tmps2. rewrite run_app, F1, F2. split; [|intros k Hk; rewrite G2, G1 by lia; done].
        rewrite fmap_app, foldl_app. done.
      + assert (match w with None => shift (offset p) <$> stores t None | Some w0 => [] end = []) as E0 by (rewrite stores_none; destruct w; done).
        destruct (IH pls' is count n Hfine Hall Hfit) as (ss & n1 & E1 & Hn1 & R1).
        { intros E. split; [apply Hone; done|]. intros Hc. destruct (Hu E) as [_ H]. specialize (H Hc). apply stdpp.list.Forall_cons in H. tauto. }
        exists ss, n1. split; [done|]. split; [done|]. rewrite E0. done.
  Qed.

  Lemma str_length wide units : length (str_bytes wide units) = ((if wide then 4 else 1) * length units)%nat.
  Proof. unfold str_bytes. induction units as [|x l IH]; [cbn; lia|]. cbn [fmap list_fmap concat length]. rewrite app_length, le_length. rewrite IH. lia. Qed.
  Lemma literal_all bytes size : Z.of_nat (length bytes) <= size -> literal after bytes size (length bytes) = bytes.
  Proof.
    intros H. unfold literal. rewrite (take_ge bytes) by lia. rewrite take_app. replace (length bytes - _)%nat with 0%nat by (rewrite app_length; lia). cbn. apply app_nil_r.
  Qed.
  Lemma layout_fine u ms pls s a : legal_members lp64 ms -> (u = true -> Forall (fun m => snd m = None) ms) -> struct_layout lp64 u ms = Some (pls, s, a) -> Forall2 (member_fine u s) ms pls.
  Proof.
    intros Hlm Hu El. destruct (proj2 (legal_sound lp64) ms Hlm) as (l & Em & Hml). pose proof (members_rel lp64 ms l Em) as Hrel.
    unfold struct_layout in El. rewrite Em in El. unfold calc_struct_size in El. destruct u.
    - destruct (union_ok lp64 l 0 1 Hml ltac:(lia) (or_introl eq_refl)) as (pls0 & s0 & a0 & E0 & Ha & _ & Hs & Hds & Hf).
      rewrite E0 in El. injection El as -> -> ->. specialize (Hu eq_refl). clear -Hrel Hf Hu. revert pls Hf.
      induction Hrel as [|m x ms l [Hw Hsz] Hrel IH]; intros pls Hf; [apply Forall2_nil_inv_l in Hf as ->; constructor|].
      apply Forall2_cons_inv_l in Hf as (p & pls' & (H1 & H2 & H3 & _) & Hf & ->). apply stdpp.list.Forall_cons in Hu as [Hm Hu]. constructor; [|apply IH; done].
      unfold member_fine. rewrite Hm. unfold Static_spec.size_of. rewrite Hsz. lia.
    - destruct (layout_ok lp64 (length l) l 0 1 Hml ltac:(lia) (or_introl eq_refl) ltac:(lia)) as (pls0 & s0 & a0 & E0 & _ & _ & _ & _ & _ & Hf).
      rewrite E0 in El. injection El as -> -> ->. clear -Hrel Hf Hlm. revert l Hrel pls Hf.
      induction Hlm as [|t ms Ht Hms IH|k w ms Hk Hw Hms IH]; intros l Hrel pls Hf.
      + apply Forall2_nil_inv_l in Hrel as ->. apply Forall2_nil_inv_l in Hf as ->. constructor.
      + apply Forall2_cons_inv_l in Hrel as (x & l' & [Hxw Hsz] & Hrel & ->). apply Forall2_cons_inv_l in Hf as (p & pls' & Hp & Hf & ->).
        constructor; [|eapply IH; done]. unfold member_fine. cbn [snd fst] in *. unfold fine in Hp. rewrite Hxw in Hp. unfold Static_spec.size_of. rewrite Hsz. tauto.
      + apply Forall2_cons_inv_l in Hrel as (x & l' & [Hxw Hsz] & Hrel & ->). apply Forall2_cons_inv_l in Hf as (p & pls' & Hp & Hf & ->).
        constructor; [|eapply IH; done]. unfold member_fine. cbn [snd fst] in *. unfold fine in Hp. rewrite Hxw in Hp. split; [done|]. intros Hw0.
        rewrite (proj2 (Z.eqb_neq w 0)) in Hp by lia. exists k. split; [done|]. tauto.
  Qed.
  Lemma shift_elems t l a s : forall k0, shift a <$> concat (imap (fun k ss => shift (Z.of_nat (k0 + k) * s) <$> ss) (map (stores t) l)) =
    concat (imap (fun k ss => shift (a + Z.of_nat (k0 + k) * s) <$> ss) (map (stores t) l)).
  Proof.
    induction l as [|x l IH]; intros k0; [done|]. cbn [map imap concat]. rewrite fmap_app. f_equal.
    - rewrite <- list_fmap_compose. apply list_fmap_ext. intros j y _. unfold compose. rewrite shift_add. done.
    - assert (forall (g h : nat -> list store -> list store), (forall k y, g k y = h k y) -> concat (imap g (map (stores t) l)) = concat (imap h (map (stores t) l))) as He.
      { intros g h H. f_equal. apply imap_ext. intros j y _. apply H. }
      rewrite (He _ (fun k ss => shift (Z.of_nat (S k0 + k) * s) <$> ss)) by (intros j y; unfold compose; do 3 f_equal; lia).
      rewrite (He (_ ∘ S) (fun k ss => shift (a + Z.of_nat (S k0 + k) * s) <$> ss)) by (intros j y; unfold compose; do 3 f_equal; lia).
      apply IH.
  Qed.

  Theorem all_work t : works t.
  Proof.
    induction t as [| | |k|k|t n IH|t IH|u ms IH] using ty_rect'; intros Hl Hd i lv nt Hfit; [done|done|..].
    - destruct i as [[e|]|]; [|done|exists [], nt; split; [done|]; split; [done|]; intros tmps m _ a _ _; exists tmps; done].
      destruct e; try done. eexists _, nt. split; [reflexivity|]. split; [done|]. intros tmps m _ a _ _. exists tmps. split; [|done]. cbn [Local_model.run_stmts run_stmt Static_spec.stores den fmap list_fmap shift foldl apply_store].
      rewrite put_patch, Z.add_0_r. done.
    - destruct i as [[e|]|]; [|done|exists [], nt; split; [done|]; split; [done|]; intros tmps m _ a _ _; exists tmps; done].
      destruct e; try done. eexists _, nt. split; [reflexivity|]. split; [done|]. intros tmps m _ a _ _. exists tmps. split; [|done]. cbn [Local_model.run_stmts run_stmt Static_spec.stores den fmap list_fmap shift foldl apply_store].
      rewrite put_patch, Z.add_0_r. done.
    - destruct i as [[e|]|]; [|done|exists [], nt; split; [done|]; split; [done|]; intros tmps m _ a _ _; exists tmps; done].
      destruct e; try done. eexists _, nt. split; [reflexivity|]. split; [done|]. intros tmps m _ a _ _. exists tmps. split; [|done].
      destruct k; cbn [Local_model.run_stmts run_stmt Static_spec.stores den fmap list_fmap shift foldl apply_store]; rewrite put_patch, Z.add_0_r; done.
    - assert (legal lp64 t /\ 0 <= n) as [Hlt Hn] by (inversion Hl; done). cbn [data] in Hd.
      destruct (legal_size lp64 t Hlt) as (s & al & Es & Ez & Hs & Ha & Hda).
      assert (size_align lp64 (TyArr t n) = Some (s * n, al)) as Esa by (cbn; rewrite Es; done).
      assert (size_of (TyArr t n) = s * n) as Eza by (unfold Static_spec.size_of; rewrite Esa; done).
      destruct i as [[e|l]|].
      + assert (exists wide units, e = XStr wide units /\ is_char_type t wide = true /\ s = (if wide then 4 else 1) /\ Z.of_nat (length units) <= n) as (wide & units & -> & Hc & Hsz & Hlu).
        { cbn [Local_spec.local_fits] in Hfit. destruct t; try done. cbn in Es. destruct k; try done; destruct e; try done; destruct wide; try done; injection Es as <- _; eexists _, _; (split; [reflexivity|]); (split; [reflexivity|]); split; try done; destruct lp64; done. }
        assert (Z.of_nat (length (str_bytes wide units)) <= s * n) as Hlb by (rewrite str_length; destruct wide; lia).
        eexists _, nt. cbn [Local_model.assign]. rewrite Hc. rewrite (proj2 (Z.ltb_ge n _)) by lia. rewrite Esa. rewrite literal_all by done.
        split; [reflexivity|]. split; [done|]. intros tmps m Hb; cbv zeta; intros Ha0 Hm; set (a := address_of base tmps lv) in *. rewrite Eza in Hm. exists tmps. split; [|done].
        cbn [Local_model.run_stmts run_stmt]. rewrite copy_ok by (fold a; lia). cbn [Static_spec.stores fmap list_fmap shift foldl apply_store]. rewrite Eza, take_ge by lia.
        rewrite Z.add_0_r. done.
      + cbn [Local_spec.local_fits] in Hfit. assert (Z.of_nat (length l) <= n /\ Forall (local_fits t) l) as [Hln Hfl].
        { assert (Z.of_nat (length l) <= n /\ foldr (fun x P => local_fits t x /\ P) True l) as [H1 H2] by (destruct t; [..|destruct t|destruct t|]; try exact Hfit; destruct k; exact Hfit).
          split; [done|]. clear -H2. induction l as [|x l IHl]; [constructor|]. cbn in H2. constructor; [tauto|apply IHl; tauto]. }
        destruct (elems_work t s nt IH Hlt Hd Ez Hs l true (S nt) Hfl ltac:(lia)) as (ss & n' & E & Hn' & R).
        exists (SPtr nt lv :: ss), n'. cbn [Local_model.assign]. rewrite (proj2 (Z.ltb_ge n _)) by lia. rewrite andb_false_r, Es, E. split; [done|]. split; [lia|].
        intros tmps m Hb; cbv zeta; intros Ha0 Hm; set (a := address_of base tmps lv) in *. rewrite Eza in Hm. set (tmps0 := fun k => if decide (k = nt) then a else tmps k).
        assert (tmps0 nt = a) as E0 by (unfold tmps0; rewrite decide_True by done; done).
        destruct (R tmps0 m) as (tmps1 & F1 & G1); [rewrite E0; done|rewrite E0; nia|]. rewrite E0 in F1.
        exists tmps1. cbn [Local_model.run_stmts run_stmt]. fold a. fold tmps0. rewrite F1. split.
        * do 2 f_equal. f_equal. cbn [Static_spec.stores]. rewrite Ez. symmetry. apply (shift_elems t l a s 0).
        * intros k Hk. rewrite G1 by done. unfold tmps0. rewrite decide_False by lia. done.
      + exists [], nt. split; [done|]. split; [done|]. intros tmps m _ a _ _. exists tmps. done.
    - assert (legal lp64 t) as Hlt by (inversion Hl; done). destruct (legal_size lp64 t Hlt) as (s & al & Es & Ez & Hs & Ha & Hda).
      destruct i as [[e|l]|]; [done| |exists [], nt; split; [done|]; split; [done|]; intros tmps m _ a _ _; exists tmps; done].
      destruct l; [|done]. eexists _, _. cbn [Local_model.assign elem_loop]. rewrite Es. split; [reflexivity|]. split; [lia|]. intros tmps m _; cbv zeta; intros _ _. eexists. split; [reflexivity|].
      intros k Hk. cbn. rewrite decide_False by lia. done.
    - assert (legal_members lp64 ms) as Hlm by (inversion Hl; done). destruct (legal_size lp64 _ Hl) as (s & al & Es & Ez & Hs & Ha & Hda).
      assert (Es0 := Es). rewrite size_align_struct in Es0. destruct (struct_layout lp64 u ms) as [[[pls s'] a']|] eqn:El; [|done]. injection Es0 as -> ->.
      destruct i as [[e|l]|]; [done| |exists [], nt; split; [done|]; split; [done|]; intros tmps m _ a _ _; exists tmps; done].
      cbn [Local_spec.local_fits] in Hfit. destruct Hfit as [Hf Hone]. cbn [data] in Hd. destruct Hd as [Hd Hdu].
      assert (Forall2 (member_fine u s) ms pls) as Hfine by (eapply layout_fine; [done|intros E; apply Hdu; done|done]).
      assert (Forall (fun m => works (fst m) /\ legal lp64 (fst m) /\ data (fst m)) ms) as Hall.
      { pose proof (legal_all lp64 ms Hlm) as Hla. pose proof (data_all ms Hd) as Hda0.
        apply stdpp.list.Forall_forall. intros m Hm. split; [|split]; [apply (proj1 (stdpp.list.Forall_forall _ _) IH)|apply (proj1 (stdpp.list.Forall_forall _ _) Hla)|apply (proj1 (stdpp.list.Forall_forall _ _) Hda0)]; done. }
      destruct (members_work u s lv ms pls l 0 nt Hfine Hall Hf) as (ss & n' & E & Hn' & R).
      { intros E. split; [apply Hone; done|lia]. }
      exists ss, n'. cbn [Local_model.assign]. rewrite El, E. split; [done|]. split; [done|]. intros tmps m Hb; cbv zeta; intros Ha0 Hm; set (a := address_of base tmps lv) in *. rewrite Ez in Hm.
      cbn [Static_spec.stores]. rewrite El. apply (R tmps m Hb Ha0 Hm).
  Qed.
End proof.

(** The declaration of a local object: it holds what the initialiser says and nothing else changes. *)
Theorem declared lp64 uns after minregsize vtype env t i pre X post s a : legal lp64 t -> data t -> local_fits vtype t (Some i) ->
  size_align lp64 t = Some (s, a) -> Z.of_nat (length X) = s ->
  declare lp64 uns after minregsize vtype t i (Z.of_nat (length pre)) (pre ++ X ++ post) = Some (pre ++ object lp64 env t (Some i) ++ post).
Proof.
  intros Hl Hd Hf Es HX. destruct (legal_size lp64 t Hl) as (s' & a' & Es' & Ez & Hs & Ha & Hda). rewrite Es in Es'. injection Es' as <- <-.
  pose proof (stores_range lp64 vtype env t (Some i) Hl Hd Hf) as Hr. rewrite Ez in Hr.
  destruct (all_work lp64 uns after minregsize vtype (Z.of_nat (length pre)) env t Hl Hd (Some i) LVar 0%nat Hf) as (ss & n' & E & _ & R).
  unfold declare. rewrite Es, E.
  assert (forall Y, Z.of_nat (length Y) = s -> snd <$> run_stmts minregsize vtype (Z.of_nat (length pre)) ss (fun _ => 0, pre ++ Y ++ post) =
    Some (pre ++ foldl apply_store Y (stores lp64 env t (Some i)) ++ post)) as HR.
  { intros Y HY. destruct (R (fun _ => 0) (pre ++ Y ++ post) I) as (tmps & F & _); [cbn; lia|cbn; rewrite Ez, !app_length; lia|].
    rewrite F. cbn [address_of fmap option_fmap option_map snd]. rewrite stores_frame by (rewrite HY; done). done. }
  assert ((if match t with TyFix _ | TyFlo _ | TyPtr => true | _ => false end then Some (pre ++ X ++ post) else clear s a (Z.of_nat (length pre)) (pre ++ X ++ post)) =
    Some (pre ++ (if match t with TyFix _ | TyFlo _ | TyPtr => true | _ => false end then X else zeros s) ++ post)) as ->.
  { destruct (match t with TyFix _ | TyFlo _ | TyPtr => true | _ => false end); [done|]. apply clear_object; done. }
  rewrite HR.
  - do 3 f_equal. unfold object. rewrite Ez. destruct t; try done; destruct i as [e|]; try done; destruct e; try done; cbn in Es; injection Es as Es _; cbn [stores den foldl apply_store Z.to_nat].
    + rewrite !patch_all; rewrite ?le_length, ?replicate_length, ?Ez; try lia. done.
    + rewrite !patch_all; rewrite ?le_length, ?replicate_length, ?Ez; try lia. done.
    + destruct k; cbn [stores den foldl apply_store Z.to_nat]; cbn in Es; rewrite !patch_all; rewrite ?le_length, ?replicate_length; try lia; done.
  - destruct (match t with TyFix _ | TyFlo _ | TyPtr => true | _ => false end); [done|]. unfold zeros. rewrite replicate_length. lia.
Qed.
