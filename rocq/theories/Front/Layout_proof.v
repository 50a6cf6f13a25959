From stdpp Require Import base list numbers.
From Verif Require Import Front.Layout_model Front.Layout_spec.
Open Scope Z_scope.

(** ** ALIGN *)
Definition pow2 (a : Z) : Prop := a = 1 \/ a = 2 \/ a = 4 \/ a = 8.
Lemma land_pow2 x n : 0 <= n -> Z.land x (- 2 ^ n) = x - x mod 2 ^ n.
Proof.
  intros Hn. assert (- 2 ^ n = Z.lnot (Z.ones n)) as -> by (unfold Z.lnot; rewrite Z.ones_equiv; lia).
  rewrite <-Z.ldiff_land, Z.ldiff_ones_r, Z.shiftl_mul_pow2, Z.shiftr_div_pow2 by done.
  pose proof (Z.div_mod x (2 ^ n) ltac:(apply Z.pow_nonzero; lia)). lia.
Qed.
Lemma ALIGN_least x a : pow2 a -> least_multiple a x (ALIGN x a).
Proof.
  intros Ha. assert (exists n, 0 <= n /\ a = 2 ^ n) as (n & Hn & Ea).
  { destruct Ha as [->|[->|[->| ->]]]; [exists 0|exists 1|exists 2|exists 3]; lia. }
  assert (0 < a) as H0 by (destruct Ha as [->|[->|[->| ->]]]; lia).
  unfold ALIGN. replace (- a) with (- 2 ^ n) by (by rewrite Ea). rewrite land_pow2, <-Ea by done.
  pose proof (Z.div_mod (x + a - 1) a ltac:(lia)) as Hd. pose proof (Z.mod_pos_bound (x + a - 1) a H0) as Hm.
  split; [|split].
  - exists ((x + a - 1) / a). lia.
  - lia.
  - intros z [q ->] Hz. assert ((x + a - 1) / a <= q) as Hq; [|nia].
    apply Z.lt_succ_r. apply Z.div_lt_upper_bound; nia.
Qed.
Lemma ALIGN_le x a : pow2 a -> x <= ALIGN x a.
Proof. intros Ha. by destruct (ALIGN_least x a Ha) as (_ & H & _). Qed.
Lemma ALIGN_div x a : pow2 a -> (a | ALIGN x a).
Proof. intros Ha. by destruct (ALIGN_least x a Ha) as (H & _). Qed.

Lemma pow2_max a b : pow2 a -> pow2 b -> pow2 (Z.max a b).
Proof. unfold pow2. lia. Qed.
Lemma pow2_div a b : pow2 a -> pow2 b -> a <= b -> (a | b).
Proof.
  intros Ha Hb Hl. unfold pow2 in *. destruct Ha as [->|[->|[->| ->]]], Hb as [->|[->|[->| ->]]]; try lia;
    first [by exists 1|by exists 2|by exists 4|by exists 8].
Qed.

Section proof.
  Context (lp64 : bool).
  Notation fsize := (fixnum_size lp64).

  Lemma fsize_pow2 k : pow2 (fsize k).
  Proof. unfold pow2. destruct k, lp64; cbn; lia. Qed.
  Lemma fsize_pos k : 1 <= fsize k <= 8.
  Proof. destruct k, lp64; cbn; lia. Qed.

  (** ** Packing bit-fields *)
  Lemma widen_in ks need k : widen lp64 ks need = Some k -> k ∈ ks /\ need <= 8 * fsize k.
  Proof.
    induction ks as [|k' ks IH]; [done|]. cbn [widen]. destruct (Z.leb_spec need (fsize k' * 8)).
    - intros [= <-]. split; [by left|lia].
    - intros H'. destruct (IH H'). split; [by right|done].
  Qed.
  Lemma after_size k k' : k' ∈ after k -> fsize k <= fsize k' /\ plain k' = true.
  Proof.
    intros H. destruct k; cbn in H; rewrite ?elem_of_cons, elem_of_nil in H;
      repeat (destruct H as [-> |H]; [destruct lp64; split; (done || cbn; lia)|]); done.
  Qed.
  Lemma widen_some k need : plain k = true -> need <= 64 -> 8 * fsize k < need -> exists k', widen lp64 (after k) need = Some k'.
  Proof.
    intros Hp H1 H2.
    assert (Hg: forall ks, FX_LLONG ∈ ks -> exists k', widen lp64 ks need = Some k').
    { induction ks as [|k0 ks IH]; [by intros ?%elem_of_nil|]. intros [<-|Hin]%elem_of_cons; cbn [widen].
      - cbn [fixnum_size]. rewrite (proj2 (Z.leb_le need (8 * 8))) by lia. eauto.
      - destruct (need <=? fsize k0 * 8); eauto. }
    apply Hg. destruct k; try done; [by apply (bool_decide_unpack _); vm_compute..|cbn in H2; lia].
  Qed.

  (** Ranges one after the other. *)
  Fixpoint ordered (lo : Z) (rs : list (option range)) (hi : Z) : Prop :=
    match rs with
    | [] => lo <= hi
    | None :: rs => ordered lo rs hi
    | Some (b, e) :: rs => lo <= b /\ b <= e /\ ordered e rs hi
    end.
  Lemma ordered_lo rs : forall lo lo' hi, lo' <= lo -> ordered lo rs hi -> ordered lo' rs hi.
  Proof. induction rs as [|[[b e]|] rs IH]; cbn; intros lo lo' hi Hl H; [lia|destruct H; split; [lia|done]|by eapply IH]. Qed.
  Lemma ordered_hi rs : forall lo hi hi', hi <= hi' -> ordered lo rs hi -> ordered lo rs hi'.
  Proof. induction rs as [|[[b e]|] rs IH]; cbn; intros lo hi hi' Hl H; [lia|destruct H as (? & ? & ?); split_and!; [done|done|by eapply IH]|by eapply IH]. Qed.
  Lemma ordered_app rs rs' : forall lo mid hi, ordered lo rs mid -> ordered mid rs' hi -> ordered lo (rs ++ rs') hi.
  Proof.
    induction rs as [|[[b e]|] rs IH]; cbn [ordered app]; intros lo mid hi H1 H2.
    - by eapply ordered_lo.
    - destruct H1 as (? & ? & ?). split_and!; [done|done|by eapply IH].
    - by eapply IH.
  Qed.
  Lemma ordered_le rs : forall lo hi, ordered lo rs hi -> lo <= hi.
  Proof. induction rs as [|[[b e]|] rs IH]; cbn; intros lo hi H; [done|destruct H as (? & ? & H%IH); lia|by apply IH]. Qed.
  Lemma ordered_lookup rs : forall lo hi i b e, ordered lo rs hi -> rs !! i = Some (Some (b, e)) -> lo <= b /\ b <= e /\ e <= hi.
  Proof.
    induction rs as [|[[b0 e0]|] rs IH]; intros lo hi i b e H Hi; [done| |]; cbn in H.
    - destruct H as (H1 & H2 & H3). destruct i as [|i]; [injection Hi as -> ->; apply ordered_le in H3; lia|].
      destruct (IH _ _ i b e H3 Hi). lia.
    - destruct i as [|i]; [done|]. by apply (IH _ _ i).
  Qed.
  Lemma ordered_disjoint rs : forall lo hi i j b e b' e', ordered lo rs hi -> (i < j)%nat ->
    rs !! i = Some (Some (b, e)) -> rs !! j = Some (Some (b', e')) -> e <= b'.
  Proof.
    induction rs as [|[[b0 e0]|] rs IH]; intros lo hi i j b e b' e' H Hij Hi Hj; [done| |]; cbn in H.
    - destruct H as (H1 & H2 & H3). destruct j as [|j]; [lia|]. destruct i as [|i].
      + injection Hi as -> ->. by destruct (ordered_lookup _ _ _ j b' e' H3 Hj).
      + eapply (IH _ _ i j); eauto. lia.
    - destruct j as [|j]; [lia|]. destruct i as [|i]; [done|]. eapply (IH _ _ i j); eauto. lia.
  Qed.

  (** Sizes and alignments a member may have. *)
  Definition mem_ok (m : mem) : Prop :=
    pow2 (m_align m) /\ 0 <= m_size m /\
    match m_width m with
    | Some w => exists k, m_kind m = Some k /\ k <> FX_BOOL /\ 0 <= w <= 8 * fsize k /\ m_size m = fsize k
    | None => True
    end.
  Definition bits (m : mem) (p : placed) : option range :=
    match m_width m with
    | Some w => if w =? 0 then None else Some (8 * offset p + position p, 8 * offset p + position p + w)
    | None => Some (8 * offset p, 8 * (offset p + m_size m))
    end.
  Definition fine (size align : Z) (m : mem) (p : placed) : Prop :=
    match m_width m with
    | Some w =>
      if w =? 0 then True
      else let u := fsize (base_kind p) in
           (u | offset p) /\ (u | align) /\ 0 <= offset p /\ offset p + u <= size /\ 0 <= position p /\ position p + w <= 8 * u
    | None => (m_align m | offset p) /\ (m_align m | align) /\ 0 <= offset p /\ offset p + m_size m <= size
    end.

  Lemma pack_ok ms : forall k pos ps kf rest, Forall mem_ok ms -> plain k = true -> 0 <= pos <= 8 * fsize k ->
    pack lp64 k pos ms = (ps, kf, rest) ->
    exists used, ms = used ++ rest /\ fsize k <= fsize kf /\ plain kf = true /\ pos <= 8 * fsize kf /\
      Forall2 (fun m p => exists w, m_width m = Some w /\ 0 < w /\ 0 <= p /\ p + w <= 8 * fsize kf) used ps /\
      (forall base, ordered (8 * base + pos) (zip_with bits used ((fun p => Placed base p kf) <$> ps)) (8 * (base + fsize kf))) /\
      (match ms with m :: _ => 0 < default 0 (m_width m) -> pos = 0 -> used <> [] | [] => True end).
  Proof.
    induction ms as [|m ms IH]; intros k pos ps kf rest Hms Hk Hpos H; cbn [pack] in H.
    - injection H as <- <- <-. exists []. split; [done|]. split; [lia|]. split; [done|]. split; [lia|]. split; [constructor|]. split; [intros base; cbn; lia|done].
    - apply Forall_cons_1 in Hms as [Hm Hms].
      assert (Hstop: forall ps0 kf0 rest0, ([], k, m :: ms) = (ps0, kf0, rest0) ->
        (0 < default 0 (m_width m) -> pos = 0 -> False) ->
        exists used, m :: ms = used ++ rest0 /\ fsize k <= fsize kf0 /\ plain kf0 = true /\ pos <= 8 * fsize kf0 /\
          Forall2 (fun m p => exists w, m_width m = Some w /\ 0 < w /\ 0 <= p /\ p + w <= 8 * fsize kf0) used ps0 /\
          (forall base, ordered (8 * base + pos) (zip_with bits used ((fun p => Placed base p kf0) <$> ps0)) (8 * (base + fsize kf0))) /\
          (0 < default 0 (m_width m) -> pos = 0 -> used <> [])).
      { intros ps0 kf0 rest0 [= <- <- <-] Hc. exists []. split; [done|]. split; [lia|]. split; [done|]. split; [lia|].
        split; [constructor|]. split; [intros base; cbn; lia|]. intros H1 H2. by destruct Hc. }
      destruct (Z.eqb_spec pos (fsize k * 8)) as [Ep|Ep].
      { apply (Hstop _ _ _ H). intros _ ->. pose proof (fsize_pos k). lia. }
      destruct (Z.leb_spec (default 0 (m_width m)) 0) as [Ew|Ew].
      { apply (Hstop _ _ _ H). lia. }
      destruct Hm as (Ha & Hs & Hw). destruct (m_width m) as [w|] eqn:Emw; cbn [default id] in *; [|lia].
      destruct Hw as (kd & Hkd & Hb & Hwr & Hsz).
      assert (Hw64: w <= 64) by (pose proof (fsize_pos kd); lia).
      remember (if fsize k * 8 <? pos + w then widen lp64 (after k) (pos + w) else Some k) as next eqn:En.
      destruct next as [k'|].
      + assert (fsize k <= fsize k' /\ plain k' = true /\ pos + w <= 8 * fsize k') as (Hk1 & Hk2 & Hk3).
        { destruct (Z.ltb_spec (fsize k * 8) (pos + w)).
          - symmetry in En. apply widen_in in En as [Hin Hne]. apply after_size in Hin as [? ?]. done.
          - injection En as ->. split_and!; [lia|done|lia]. }
        destruct (pack lp64 k' (pos + w) ms) as [[ps' kf'] rest'] eqn:Epk. injection H as <- <- <-.
        destruct (IH k' (pos + w) ps' kf' rest' Hms Hk2 ltac:(lia) Epk) as (used & -> & H1 & H2 & H2' & H3 & H4 & _).
        exists (m :: used). split; [done|]. split; [lia|]. split; [done|]. split; [lia|]. split.
        { constructor; [|done]. exists w. split_and!; [done|lia|lia|lia]. }
        split; [|done]. intros base. cbn [fmap list_fmap zip_with ordered]. unfold bits at 1. rewrite Emw. cbn [offset position].
        rewrite (proj2 (Z.eqb_neq w 0)) by lia. split; [lia|]. split; [lia|]. specialize (H4 base).
        replace (8 * base + pos + w) with (8 * base + (pos + w)) by lia. done.
      + apply (Hstop _ _ _ H). intros _ ->. destruct (Z.ltb_spec (fsize k * 8) (0 + w)); [|done].
        destruct (widen_some k (0 + w) Hk ltac:(lia) ltac:(lia)) as [k' Hk']. congruence.
  Qed.

  Lemma initial_ok k size align : pow2 align -> k <> FX_BOOL -> exists k0, initial_kind lp64 k size align = Some k0 /\ plain k0 = true.
  Proof.
    intros Ha Hk. unfold initial_kind. destruct (size mod align =? 0).
    - destruct k; try done; eauto.
    - destruct (_ <? 0); eexists; (split; [done|]); by repeat case_match.
  Qed.

  (** ** The loop *)
  Lemma fine_weaken size align size' align' m p : size <= size' -> (align | align') -> fine size align m p -> fine size' align' m p.
  Proof.
    intros Hs Ha. unfold fine. destruct (m_width m) as [w|]; [destruct (w =? 0); [done|]|].
    - intros (? & ? & ? & ? & ? & ?). split_and!; try done; [by etransitivity|lia].
    - intros (? & ? & ? & ?). split_and!; try done; [by etransitivity|lia].
  Qed.

  Lemma place_ok m ms size : mem_ok m -> Forall mem_ok ms -> 0 <= size ->
    exists pl used rest size' align, place lp64 m ms size = Some (pl, rest, size', align) /\
      ms = used ++ rest /\ pow2 align /\ size <= size' /\
      ordered (8 * size) (zip_with bits (m :: used) pl) (8 * size') /\
      Forall2 (fine size' align) (m :: used) pl.
  Proof.
    intros Hm Hms Hs. destruct Hm as (Ha & Hsz & Hw). unfold place. destruct (m_width m) as [w|] eqn:Emw.
    - destruct Hw as (k & Hk & Hb & Hwr & Hse). destruct (Z.eqb_spec w 0) as [->|Hw0].
      + exists [Placed 0 0 FX_CHAR], [], ms, size, 1. split; [done|]. split; [done|]. split; [by left|]. split; [done|]. split.
        * cbn. unfold bits. rewrite Emw. cbn. lia.
        * constructor; [|constructor]. unfold fine. by rewrite Emw.
      + rewrite Hk. destruct (initial_ok k size (m_align m) Ha Hb) as (k0 & -> & Hp0).
        destruct (pack lp64 k0 0 (m :: ms)) as [[ps kf] rest] eqn:Ep.
        assert (Forall mem_ok (m :: ms)) as Hall.
        { constructor; [|done]. split; [done|]. split; [done|]. rewrite Emw. eauto 10. }
        destruct (pack_ok (m :: ms) k0 0 ps kf rest Hall Hp0 ltac:(pose proof (fsize_pos k0); lia) Ep) as (used & E & H1 & H2 & H2' & H3 & H4 & H5).
        specialize (H5 ltac:(rewrite Emw; cbn; lia) eq_refl). destruct used as [|m' used]; [done|]. cbn in E. injection E as <- ->.
        pose proof (ALIGN_le size (fsize kf) (fsize_pow2 kf)) as Hal.
        exists ((fun p => Placed (ALIGN size (fsize kf)) p kf) <$> ps), used, rest, (ALIGN size (fsize kf) + fsize kf), (fsize kf).
        split; [done|]. split; [done|]. split; [apply fsize_pow2|]. split; [pose proof (fsize_pos kf); lia|]. split.
        * apply (ordered_lo _ (8 * ALIGN size (fsize kf) + 0)); [lia|]. exact (H4 _).
        * rewrite Forall2_fmap_r. eapply Forall2_impl; [exact H3|]. intros m1 p (w1 & E1 & Hw1 & Hp1 & Hp2).
          unfold fine. rewrite E1. rewrite (proj2 (Z.eqb_neq w1 0)) by lia. cbv beta zeta. cbn [base_kind offset position compose].
          split_and!; [by apply ALIGN_div, fsize_pow2|done|cbn; lia|cbn; lia|done|done].
    - pose proof (ALIGN_le size (m_align m) Ha) as Hal.
      exists [Placed (ALIGN size (m_align m)) 0 FX_CHAR], [], ms, (ALIGN size (m_align m) + m_size m), (m_align m).
      split; [done|]. split; [done|]. split; [done|]. split; [lia|]. split.
      + cbn. unfold bits. rewrite Emw. cbn. lia.
      + constructor; [|constructor]. unfold fine. rewrite Emw. cbn. split_and!; [by apply ALIGN_div|done|lia|lia].
  Qed.

  Lemma layout_ok fuel : forall ms size maxa, Forall mem_ok ms -> 0 <= size -> pow2 maxa -> (length ms <= fuel)%nat ->
    exists pls s a, layout lp64 fuel ms size maxa = Some (pls, s, a) /\ pow2 a /\ (maxa | a) /\ size <= s /\ (a | s) /\
      ordered (8 * size) (zip_with bits ms pls) (8 * s) /\ Forall2 (fine s a) ms pls.
  Proof.
    induction fuel as [|fuel IH]; intros ms size maxa Hms Hs Ha Hf.
    - destruct ms; [|cbn in Hf; lia]. exists [], (ALIGN size maxa), maxa. split; [done|]. pose proof (ALIGN_le size maxa Ha).
      split_and!; try done; [by apply ALIGN_div|cbn; lia].
    - destruct ms as [|m ms].
      { exists [], (ALIGN size maxa), maxa. split; [done|]. pose proof (ALIGN_le size maxa Ha).
        split_and!; try done; [by apply ALIGN_div|cbn; lia]. }
      apply Forall_cons_1 in Hms as [Hm Hms].
      destruct (place_ok m ms size Hm Hms Hs) as (pl & used & rest & size' & align & E & -> & Hal & Hss & Ho & Hf2).
      apply Forall_app in Hms as [Hu Hr].
      destruct (IH rest size' (Z.max maxa align) Hr ltac:(lia) (pow2_max _ _ Ha Hal)) as (pls & s & a & E2 & Ha2 & Hd & Hs2 & Hds & Ho2 & Hf3).
      { cbn in Hf. rewrite app_length in Hf. lia. }
      exists (pl ++ pls), s, a. cbn [layout]. rewrite E, E2. split; [done|]. split; [done|].
      assert (Hda: (align | a)). { etransitivity; [|exact Hd]. apply pow2_div; [done|by apply pow2_max|lia]. }
      split. { etransitivity; [|exact Hd]. apply pow2_div; [done|by apply pow2_max|lia]. }
      split; [lia|]. split; [done|].
      pose proof (Forall2_length _ _ _ Hf2) as Hlen.
      split.
      + rewrite app_comm_cons. rewrite zip_with_app by done. by eapply ordered_app.
      + rewrite app_comm_cons. apply Forall2_app; [|done]. eapply Forall2_impl; [exact Hf2|]. intros m1 p1. by apply fine_weaken.
  Qed.

  Lemma union_ok ms : forall size maxa, Forall mem_ok ms -> 0 <= size -> pow2 maxa ->
    exists pls s a, layout_union ms size maxa = (pls, s, a) /\ pow2 a /\ (maxa | a) /\ size <= s /\ (a | s) /\
      Forall2 (fun m p => offset p = 0 /\ position p = 0 /\ m_size m <= s /\ (m_width m = None -> (m_align m | a))) ms pls.
  Proof.
    induction ms as [|m ms IH]; intros size maxa Hms Hs Ha; cbn [layout_union].
    - exists [], (ALIGN size maxa), maxa. pose proof (ALIGN_le size maxa Ha). split_and!; try done; [by apply ALIGN_div].
    - apply Forall_cons_1 in Hms as [(Hm1 & Hm2 & Hm3) Hms].
      set (al := if 0 <? default 0 (m_width m) then 1 else m_align m).
      assert (pow2 al) as Hal by (unfold al; destruct (0 <? _); [by left|done]).
      destruct (IH (Z.max size (m_size m)) (Z.max maxa al) Hms ltac:(lia) (pow2_max _ _ Ha Hal)) as (pls & s & a & -> & Ha2 & Hd & Hs2 & Hds & Hf).
      eexists _, s, a. split; [done|]. split; [done|]. split. { etransitivity; [|exact Hd]. apply pow2_div; [done|by apply pow2_max|lia]. }
      split; [lia|]. split; [done|]. constructor; [|done]. cbn. split_and!; try done; [lia|].
      intros E. assert (al = m_align m) as <- by (unfold al; by rewrite E). etransitivity; [|exact Hd]. apply pow2_div; [done|by apply pow2_max|lia].
  Qed.

  (** ** All types *)
  Lemma size_align_struct u ms : size_align lp64 (TyStruct u ms) =
    match struct_layout lp64 u ms with Some (_, s, a) => Some (s, a) | None => None end.
  Proof.
    unfold struct_layout. cbn [size_align].
    set (f := fix mems (ms : list (ty * option Z)) : option (list mem) := _).
    assert (Hf: f ms = members lp64 ms); [|rewrite Hf; by destruct (members lp64 ms)].
    induction ms as [|[t bf] ms IH]; [done|]. cbn. by rewrite <-IH.
  Qed.

  Definition sound (t : ty) : Prop := exists s a, size_align lp64 t = Some (s, a) /\ 0 <= s /\ pow2 a /\ (a | s).
  Definition mems_sound (ms : list (ty * option Z)) : Prop := exists l, members lp64 ms = Some l /\ Forall mem_ok l.

  Scheme legal_mind := Minimality for legal Sort Prop with legal_members_mind := Minimality for legal_members Sort Prop.
  Combined Scheme legal_mutind from legal_mind, legal_members_mind.

  Lemma legal_sound : (forall t, legal lp64 t -> sound t) /\ (forall ms, legal_members lp64 ms -> mems_sound ms).
  Proof.
    apply legal_mutind.
    - exists 1, 1. split_and!; [done|lia|by left|done].
    - exists 1, 1. split_and!; [done|lia|by left|done].
    - exists (fsize FX_LONG), (fsize FX_LONG). pose proof (fsize_pos FX_LONG). split_and!; [done|lia|apply fsize_pow2|done].
    - intros k. exists (fsize k), (fsize k). pose proof (fsize_pos k). split_and!; [done|lia|apply fsize_pow2|done].
    - intros k. exists (flonum_size k), (flonum_size k). split_and!; [done|destruct k; cbn; lia|unfold pow2; destruct k; cbn; lia|done].
    - intros t n Ht (s & a & E & Hs & Ha & Hd) Hn. exists (s * n), a. cbn. rewrite E. split_and!; [done|nia|done|by apply Z.divide_mul_l].
    - intros t Ht (s & a & E & Hs & Ha & Hd). exists 0, a. cbn. rewrite E. split_and!; [done|lia|done|apply Z.divide_0_r].
    - intros u ms Hms (l & El & Hl). unfold sound. rewrite size_align_struct. unfold struct_layout. rewrite El. unfold calc_struct_size.
      destruct u.
      + destruct (union_ok l 0 1 Hl ltac:(lia) (or_introl eq_refl)) as (pls & s & a & -> & Ha & _ & Hs & Hd & _). eauto 10.
      + destruct (layout_ok (length l) l 0 1 Hl ltac:(lia) (or_introl eq_refl) ltac:(lia)) as (pls & s & a & -> & Ha & _ & Hs & Hd & _). eauto 10.
    - exists []. done.
    - intros t ms Ht (s & a & E & Hs & Ha & Hd) Hms (l & El & Hl). eexists. cbn. rewrite E, El. split; [done|].
      constructor; [|done]. unfold mem_ok. cbn. done.
    - intros k w ms Hk Hw Hms (l & El & Hl). eexists. cbn. rewrite El. split; [done|]. constructor; [|done].
      unfold mem_ok. cbn. pose proof (fsize_pos k). split; [apply fsize_pow2|]. split; [lia|]. eauto 10.
  Qed.

  Lemma members_rel ms : forall l, members lp64 ms = Some l ->
    Forall2 (fun m x => m_width x = snd m /\ size_align lp64 (fst m) = Some (m_size x, m_align x)) ms l.
  Proof.
    induction ms as [|[t bf] ms IH]; intros l H; cbn in H; [injection H as <-; constructor|].
    destruct (size_align lp64 t) as [[s a]|] eqn:E; [|done]. destruct (members lp64 ms) as [l'|]; [|done]. injection H as <-.
    constructor; [done|by apply IH].
  Qed.

  Theorem type_sizes t : legal lp64 t -> exists s a, size_align lp64 t = Some (s, a) /\ 0 <= s /\ 0 < a /\ (a | s).
  Proof.
    intros H. destruct (proj1 legal_sound t H) as (s & a & E & Hs & Ha & Hd). exists s, a. split_and!; try done.
    unfold pow2 in Ha. lia.
  Qed.

  Theorem members_placed ms : legal_members lp64 ms ->
    exists pls s a, struct_layout lp64 false ms = Some (pls, s, a) /\ (a | s) /\
      Forall2 (member_ok lp64 s a) ms pls /\
      forall i j m m' p p' r r', i <> j -> ms !! i = Some m -> ms !! j = Some m' -> pls !! i = Some p -> pls !! j = Some p' ->
        bits_of lp64 m p = Some r -> bits_of lp64 m' p' = Some r' -> disjoint r r'.
  Proof.
    intros H. destruct (proj2 legal_sound ms H) as (l & El & Hl). pose proof (members_rel ms l El) as Hrel.
    unfold struct_layout. rewrite El. unfold calc_struct_size.
    destruct (layout_ok (length l) l 0 1 Hl ltac:(lia) (or_introl eq_refl) ltac:(lia)) as (pls & s & a & E & Ha & _ & Hs & Hd & Ho & Hf).
    exists pls, s, a. split; [done|]. split; [done|]. split.
    - clear -Hrel Hf. revert pls Hf. induction Hrel as [|m x ms l [Hw Hsa] Hrel IH]; intros pls Hf.
      + apply Forall2_nil_inv_l in Hf as ->. constructor.
      + apply Forall2_cons_inv_l in Hf as (p & pls' & Hp & Hf & ->). constructor; [|by apply IH].
        unfold member_ok. unfold fine in Hp. rewrite Hw in Hp. destruct (snd m) as [w|]; [done|].
        destruct Hp as (? & ? & ? & ?). exists (m_size x), (m_align x). done.
    - assert (Hbits: forall i m p r, ms !! i = Some m -> pls !! i = Some p -> bits_of lp64 m p = Some r -> zip_with bits l pls !! i = Some (Some r)).
      { intros i m p r Hm Hp Hr. destruct (Forall2_lookup_l _ _ _ _ _ Hrel Hm) as (x & Hx & Hw & Hsa).
        rewrite lookup_zip_with, Hx, Hp. cbn. f_equal. unfold bits. unfold bits_of in Hr. rewrite Hw. rewrite Hsa in Hr. done. }
      intros i j m m' p p' [b e] [b' e'] Hij Hm Hm' Hp Hp' Hr Hr'. unfold disjoint. cbn.
      destruct (Nat.lt_ge_cases i j).
      + left. by apply (ordered_disjoint _ _ _ i j b e b' e' Ho ltac:(lia) (Hbits _ _ _ _ Hm Hp Hr) (Hbits _ _ _ _ Hm' Hp' Hr')).
      + right. by apply (ordered_disjoint _ _ _ j i b' e' b e Ho ltac:(lia) (Hbits _ _ _ _ Hm' Hp' Hr') (Hbits _ _ _ _ Hm Hp Hr)).
  Qed.

  (** Without bit-fields *)
  Lemma layout_plain fuel : forall ms size maxa, Forall mem_ok ms -> Forall (fun m => m_width m = None) ms -> pow2 maxa ->
    (length ms <= fuel)%nat ->
    exists pls s a e, layout lp64 fuel ms size maxa = Some (pls, s, a) /\ pow2 a /\
      in_order size ((fun m => (m_size m, m_align m)) <$> ms) (offset <$> pls) e /\
      largest (maxa :: (m_align <$> ms)) a /\ least_multiple a e s.
  Proof.
    induction fuel as [|fuel IH]; intros ms size maxa Hms Hw Ha Hf.
    - destruct ms; [|cbn in Hf; lia]. exists [], (ALIGN size maxa), maxa, size. split; [done|]. split; [done|].
      split; [constructor|]. split; [|by apply ALIGN_least]. split; [by left|constructor; [cbn; lia|constructor]].
    - destruct ms as [|m ms].
      { exists [], (ALIGN size maxa), maxa, size. split; [done|]. split; [done|].
        split; [constructor|]. split; [|by apply ALIGN_least]. split; [by left|constructor; [cbn; lia|constructor]]. }
      apply Forall_cons_1 in Hms as [Hm Hms]. apply Forall_cons_1 in Hw as [Hw Hws]. destruct Hm as (Hma & Hms' & _).
      destruct (IH ms (ALIGN size (m_align m) + m_size m) (Z.max maxa (m_align m)) Hms Hws (pow2_max _ _ Ha Hma) ltac:(cbn in Hf; lia))
        as (pls & s & a & e & E & Ha2 & Hio & [Hl1 Hl2] & Hlm).
      eexists _, s, a, e. cbn [layout]. unfold place. rewrite Hw, E. split; [done|]. split; [done|]. split.
      { cbn. constructor; [by apply ALIGN_least|done]. }
      split; [|done]. apply Forall_cons_1 in Hl2 as [Hl2 Hl3]. cbn [fmap list_fmap]. split.
      + apply elem_of_cons in Hl1 as [-> |Hl1]; [|by right; right].
        destruct (Z.max_spec maxa (m_align m)) as [[_ ->]|[_ ->]]; [right; left|left].
      + constructor; [lia|]. constructor; [lia|done].
  Qed.

  Lemma legal_plain ts : Forall (legal lp64) ts -> legal_members lp64 ((fun t => (t, None)) <$> ts).
  Proof. induction 1; constructor; done. Qed.

  Theorem struct_plain ts : Forall (legal lp64) ts ->
    exists pls s a l e, struct_layout lp64 false ((fun t => (t, None)) <$> ts) = Some (pls, s, a) /\
      Forall2 (fun t sa => size_align lp64 t = Some sa) ts l /\
      in_order 0 l (offset <$> pls) e /\ largest (1 :: l.*2) a /\ least_multiple a e s.
  Proof.
    intros H. apply legal_plain in H. destruct (proj2 legal_sound _ H) as (l & El & Hl). pose proof (members_rel _ l El) as Hrel.
    assert (Hw: Forall (fun m => m_width m = None) l).
    { rewrite Forall2_fmap_l in Hrel. clear -Hrel. induction Hrel as [|t x ts l [Hx _] _ IH]; constructor; [exact Hx|exact IH]. }
    unfold struct_layout. rewrite El. unfold calc_struct_size.
    destruct (layout_plain (length l) l 0 1 Hl Hw (or_introl eq_refl) ltac:(lia)) as (pls & s & a & e & E & _ & Hio & Hlg & Hlm).
    exists pls, s, a, ((fun m => (m_size m, m_align m)) <$> l), e. split; [done|]. split.
    { rewrite Forall2_fmap_r. rewrite Forall2_fmap_l in Hrel. eapply Forall2_impl; [exact Hrel|]. intros t x [_ Hx]. exact Hx. }
    split; [done|]. split; [|done]. by rewrite <-list_fmap_compose.
  Qed.

  Lemma union_plain_max ms : forall size maxa, Forall mem_ok ms -> Forall (fun m => m_width m = None) ms -> pow2 maxa ->
    exists pls s a e, layout_union ms size maxa = (pls, s, a) /\ pow2 a /\
      Forall (fun p => offset p = 0) pls /\ length pls = length ms /\
      largest (size :: (m_size <$> ms)) e /\ largest (maxa :: (m_align <$> ms)) a /\ least_multiple a e s.
  Proof.
    induction ms as [|m ms IH]; intros size maxa Hms Hw Ha; cbn [layout_union].
    - exists [], (ALIGN size maxa), maxa, size. split; [done|]. split; [done|]. split; [done|]. split; [done|].
      split; [split; [by left|constructor; [cbn; lia|constructor]]|]. split; [split; [by left|constructor; [cbn; lia|constructor]]|]. by apply ALIGN_least.
    - apply Forall_cons_1 in Hms as [Hm Hms]. apply Forall_cons_1 in Hw as [Hw Hws]. destruct Hm as (Hma & Hms' & _).
      rewrite Hw. cbn [default id]. change (0 <? 0) with false. cbv iota.
      destruct (IH (Z.max size (m_size m)) (Z.max maxa (m_align m)) Hms Hws (pow2_max _ _ Ha Hma))
        as (pls & s & a & e & E & Ha2 & Hof & Hlen & [He1 He2] & [Hl1 Hl2] & Hlm).
      rewrite E. eexists _, s, a, e. split; [done|]. split; [done|]. split; [by constructor|]. split; [cbn; by rewrite Hlen|].
      apply Forall_cons_1 in Hl2 as [Hl2 Hl3]. apply Forall_cons_1 in He2 as [He2 He3].
      cbn [fmap list_fmap]. split; [|split; [|done]].
      + split; [|constructor; [lia|constructor; [lia|done]]]. apply elem_of_cons in He1 as [-> |He1]; [|by right; right].
        destruct (Z.max_spec size (m_size m)) as [[_ ->]|[_ ->]]; [right; left|left].
      + split; [|constructor; [lia|constructor; [lia|done]]]. apply elem_of_cons in Hl1 as [-> |Hl1]; [|by right; right].
        destruct (Z.max_spec maxa (m_align m)) as [[_ ->]|[_ ->]]; [right; left|left].
  Qed.

  Theorem union_plain ts : Forall (legal lp64) ts ->
    exists pls s a l e, struct_layout lp64 true ((fun t => (t, None)) <$> ts) = Some (pls, s, a) /\
      Forall2 (fun t sa => size_align lp64 t = Some sa) ts l /\
      Forall (fun p => offset p = 0) pls /\ length pls = length ts /\
      largest (0 :: l.*1) e /\ largest (1 :: l.*2) a /\ least_multiple a e s.
  Proof.
    intros H. apply legal_plain in H. destruct (proj2 legal_sound _ H) as (l & El & Hl). pose proof (members_rel _ l El) as Hrel.
    assert (Hw: Forall (fun m => m_width m = None) l).
    { rewrite Forall2_fmap_l in Hrel. clear -Hrel. induction Hrel as [|t x ts l [Hx _] _ IH]; constructor; [exact Hx|exact IH]. }
    unfold struct_layout. rewrite El. unfold calc_struct_size.
    destruct (union_plain_max l 0 1 Hl Hw (or_introl eq_refl)) as (pls & s & a & e & E & _ & Hof & Hlen & He & Hlg & Hlm).
    exists pls, s, a, ((fun m => (m_size m, m_align m)) <$> l), e. split; [by rewrite E|]. split.
    { rewrite Forall2_fmap_r. rewrite Forall2_fmap_l in Hrel. eapply Forall2_impl; [exact Hrel|]. intros t x [_ Hx]. exact Hx. }
    split; [done|]. split. { apply Forall2_length in Hrel. rewrite fmap_length in Hrel. lia. }
    split; [by rewrite <-list_fmap_compose|]. split; [by rewrite <-list_fmap_compose|done].
  Qed.
End proof.

Theorem bool_field lp64 : size_align lp64 (TyStruct false [(TyFix FX_BOOL, Some 1)]) = None.
Proof. by destruct lp64. Qed.
Theorem union_field lp64 : exists pls a,
  struct_layout lp64 false [(TyFix FX_CHAR, None); (TyStruct true [(TyFix FX_INT, Some 4)], None)] = Some (pls, 5, a) /\
  offset <$> pls = [0; 1].
Proof. eexists _, _. by destruct lp64. Qed.
