(** The passes of the assembler, for any architecture. *)
From stdpp Require Import base list numbers gmap option.
From Verif Require Import Util.Data_model Util.Data_proof As.Asm_model As.Asm_arch_model As.Asm_spec.
Open Scope Z_scope.

Lemma u64_range x : 0 <= u64 x < 2 ^ 64.
Proof. apply Z.mod_pos_bound. lia. Qed.
Lemma u64_u64_l x y : u64 (u64 x + y) = u64 (x + y).
Proof. unfold u64. by rewrite Z.add_mod_idemp_l by lia. Qed.
Lemma u64_u64_r x y : u64 (x + u64 y) = u64 (x + y).
Proof. unfold u64. by rewrite Z.add_mod_idemp_r by lia. Qed.
Lemma u64_u64 x : u64 (u64 x) = u64 x.
Proof. unfold u64. by rewrite Z.mod_mod by lia. Qed.
Lemma u64_small x : 0 <= x < 2 ^ 64 -> u64 x = x.
Proof. intros. by apply Z.mod_small. Qed.
Lemma u64_congr x y : (2 ^ 64 | x - y) -> u64 x = u64 y.
Proof. intros [k Hk]. unfold u64. replace x with (y + k * 2 ^ 64) by lia. by rewrite Z.mod_add by lia. Qed.
Lemma u64_div x : exists k, u64 x = x - k * 2 ^ 64.
Proof. exists (x / 2 ^ 64). unfold u64. pose proof (Z.div_mod x (2 ^ 64) ltac:(lia)). lia. Qed.
Lemma pow2_64 k : 0 <= k < 31 -> (2 ^ k | 2 ^ 64).
Proof. intros. exists (2 ^ (64 - k)). rewrite <- Z.pow_add_r by lia. f_equal. lia. Qed.
Lemma mod_u64 k x : 0 <= k < 31 -> u64 x mod 2 ^ k = x mod 2 ^ k.
Proof.
  intros Hk. destruct (u64_div x) as [q ->]. destruct (pow2_64 k Hk) as [r Hr].
  rewrite Hr. replace (x - q * (r * 2 ^ k)) with (x + (- q * r) * 2 ^ k) by lia.
  apply Z.mod_add. pose proof (Z.pow_pos_nonneg 2 k). lia.
Qed.
Lemma ALIGN_eq x k : 0 <= k < 31 -> ALIGN x (2 ^ k) = u64 (x + (- x) mod 2 ^ k).
Proof.
  intros Hk. unfold ALIGN. fold (u64 (x + 2 ^ k - 1)).
  assert (Hp : 0 < 2^k) by (apply Z.pow_pos_nonneg; lia).
  pose proof (u64_range (x + 2 ^ k - 1)) as Hr.
  rewrite land_neg_pow2 by lia. rewrite mod_u64 by done.
  assert ((x + 2 ^ k - 1) mod 2 ^ k = 2 ^ k - 1 - (-x) mod 2 ^ k) as E.
  { pose proof (Z.mod_pos_bound (-x) (2 ^ k) Hp). pose proof (Z.div_mod (-x) (2 ^ k) ltac:(lia)).
    symmetry. apply (Z.mod_unique_pos _ _ (- ((-x) / 2 ^ k))); lia. }
  assert (Hle : u64 (x + 2 ^ k - 1) mod 2 ^ k <= u64 (x + 2 ^ k - 1)) by (apply Z.mod_le; lia).
  rewrite mod_u64, E in Hle by done. pose proof (Z.mod_pos_bound (-x) (2 ^ k) Hp).
  rewrite E. rewrite <- (u64_small (u64 _ - _)) by lia.
  destruct (u64_div (x + 2 ^ k - 1)) as [q Hq]. apply u64_congr. rewrite Hq. exists (- q). lia.
Qed.
(** Aligning an address in a section is aligning the offset. *)
Lemma ALIGN_shift st n k : 0 <= k < 31 -> st mod 2 ^ k = 0 -> ALIGN (u64 (st + n)) (2 ^ k) = u64 (st + ALIGN n (2 ^ k)).
Proof.
  intros Hk Hst. rewrite !ALIGN_eq by done. rewrite u64_u64_l, u64_u64_r.
  assert (Hp : 0 < 2^k) by (apply Z.pow_pos_nonneg; lia).
  assert (E : (- u64 (st + n)) mod 2 ^ k = (- n) mod 2 ^ k).
  { destruct (u64_div (st + n)) as [q ->]. destruct (pow2_64 k Hk) as [r Hr].
    apply Z.mod_divide in Hst as [s ->]; [|lia]. rewrite Hr.
    replace (- (s * 2 ^ k + n - q * (r * 2 ^ k))) with (- n + (q * r - s) * 2 ^ k) by lia. apply Z.mod_add. lia. }
  rewrite E. f_equal. lia.
Qed.
Lemma pow2_divides a b : pow2 a -> pow2 b -> a <= b -> (a | b).
Proof.
  intros (k & Hk & ->) (j & Hj & ->) Hle. apply Z.pow_le_mono_r_iff in Hle; [|lia|lia].
  exists (2 ^ (j - k)). rewrite <- Z.pow_add_r by lia. f_equal. lia.
Qed.
Lemma pow2_pos a : pow2 a -> 0 < a.
Proof. intros (k & Hk & ->). apply Z.pow_pos_nonneg; lia. Qed.

Section Generic.
  Context {I : Type}.
  Implicit Types (l : list (ir I)) (ss : list (section I)) (t : table) (s : section I) (o : list Z * Z).

  (** ** Addresses *)
  Lemma labels_cons (i : item I) (l : list (item I)) : labels (i :: l) = match i with ILabel n => n :: labels l | _ => labels l end.
  Proof. by destruct i. Qed.
  Lemma calc_kinds l : forall t a sa ok l' t' a' sa' ok', calc_irs t a sa ok l = Some (l', t', a', sa', ok') -> kind <$> l' = kind <$> l.
  Proof.
    induction l as [|[i b] l IH]; intros t a sa ok l' t' a' sa' ok' E; cbn [calc_irs] in E; [by injection E as <- <- <- <- <-|].
    destruct i; try destruct (t !! n) eqn:En; try done;
      (match type of E with context [calc_irs ?x ?y ?z ?w l] => destruct (calc_irs x y z w l) as [[[[[l1 t1] a1] sa1] ok1]|] eqn:E1 end; [|done]);
      cbn in E; injection E as <- <- <- <- <-; apply IH in E1; cbn; by f_equal.
  Qed.
  Lemma calc_other l : forall t a sa ok l' t' a' sa' ok', calc_irs t a sa ok l = Some (l', t', a', sa', ok') ->
    forall n, n ∉ labels (kind <$> l) -> t' !! n = t !! n.
  Proof.
    induction l as [|[i b] l IH]; intros t a sa ok l' t' a' sa' ok' E m Hm; cbn [calc_irs] in E; [by injection E as <- <- <- <- <-|].
    cbn [fmap list_fmap kind] in Hm. rewrite labels_cons in Hm.
    destruct i; try destruct (t !! n) eqn:En; try done;
      (match type of E with context [calc_irs ?x ?y ?z ?w l] => destruct (calc_irs x y z w l) as [[[[[l1 t1] a1] sa1] ok1]|] eqn:E1 end; [|done]);
      cbn in E; injection E as <- <- <- <- <-; try (by apply (IH _ _ _ _ _ _ _ _ _ E1)).
    apply not_elem_of_cons in Hm as [H1 H2]. rewrite (IH _ _ _ _ _ _ _ _ _ E1 m H2). by rewrite lookup_insert_ne.
  Qed.
  Definition settled (sa : Z) (l : list (item I)) : Prop := forall a, IAlign a ∈ l -> a <= sa.
  Lemma settled_cons sa i (l : list (item I)) : settled sa (i :: l) <-> (forall a, i = IAlign a -> a <= sa) /\ settled sa l.
  Proof.
    split.
    - intros H. split; [intros a ->; apply H; left|intros a Ha; apply H; by right].
    - intros [H1 H2] a Ha. apply elem_of_cons in Ha as [<-|Ha]; [by apply H1|by apply H2].
  Qed.
  Lemma calc_settled l : forall t a sa ok l' t' a' sa' ok', calc_irs t a sa ok l = Some (l', t', a', sa', ok') ->
    sa <= sa' /\ settled sa' (kind <$> l) /\ (ok = true -> settled sa (kind <$> l) -> ok' = true) /\ (ok' = true -> sa' = sa /\ ok = true) /\
    (pow2 sa -> aligns_ok (kind <$> l) -> pow2 sa').
  Proof.
    induction l as [|[i b] l IH]; intros t a sa ok l' t' a' sa' ok' E; cbn [calc_irs] in E.
    { injection E as <- <- <- <- <-. split; [lia|]. split; [intros ? H; by apply elem_of_nil in H|]. done. }
    cbn [fmap list_fmap kind].
    assert (Hal : aligns_ok (i :: (kind <$> l)) -> aligns_ok (kind <$> l) /\ forall al, i = IAlign al -> pow2 al).
    { intros H. split; [intros x Hx; apply H; by right|]. intros al ->. apply H. left. }
    destruct i; try destruct (t !! n) eqn:En; try done;
      (match type of E with context [calc_irs ?x ?y ?z ?w l] => destruct (calc_irs x y z w l) as [[[[[l1 t1] a1] sa1] ok1]|] eqn:E1 end; [|done]);
      cbn in E; injection E as <- <- <- <- <-; destruct (IH _ _ _ _ _ _ _ _ _ E1) as (H1 & H2 & H3 & H4 & H5); clear IH;
      try (split; [done|]; split; [apply settled_cons; split; [done|done]|]; split; [intros Hok Hs; apply settled_cons in Hs as [_ Hs]; by apply H3|]; split; [done|];
        intros Hp Ha; apply Hal in Ha as [Ha _]; by apply H5).
    destruct (sa <? a0) eqn:Eg.
    - apply Z.ltb_lt in Eg. split; [lia|]. split; [apply settled_cons; split; [intros ? [= <-]; lia|done]|].
      split; [intros _ Hs; apply settled_cons in Hs as [Hs _]; specialize (Hs _ eq_refl); lia|]. split; [intros Ho; apply H4 in Ho as [_ Ho]; by rewrite andb_false_r in Ho|].
      intros Hp Ha. apply Hal in Ha as [Ha Ha']. apply H5; [by apply Ha'|done].
    - apply Z.ltb_ge in Eg. split; [lia|]. split; [apply settled_cons; split; [intros ? [= <-]; lia|done]|].
      split; [intros -> Hs; apply settled_cons in Hs as [_ Hs]; by apply H3|]. split; [intros Ho; apply H4 in Ho as [? Ho]; split; [done|]; by rewrite andb_true_r in Ho|].
      intros Hp Ha. apply Hal in Ha as [Ha Ha']. by apply H5.
  Qed.

  (** Emission moves on by as much as the address. *)
  Lemma emit_item_size b o (i : item I) o' : emit_item b o i = Some o' -> (forall a, i <> IAlign a) ->
    u64 (size_of b o') = u64 (size_of b o + advance i).
  Proof.
    destruct o as [bs n]. intros E Hi. unfold emit_item in E.
    destruct i, b; try done; injection E as <-; cbn [size_of fst snd advance]; rewrite ?app_length, ?replicate_length, ?u64_u64, ?Z.add_0_r, ?Nat2Z.inj_add, ?Nat2Z.inj_pow; try done; by destruct (Hi a).
  Qed.
  Lemma emit_align_size b o a o' : emit_item (I := I) b o (IAlign a) = Some o' -> u64 (size_of b o') = u64 (ALIGN (size_of b o) a).
  Proof.
    destruct o as [bs n]. intros E. cbn in E. destruct b; injection E as <-; cbn [size_of fst snd]; [done|].
    rewrite app_length, replicate_length, Nat2Z.inj_add, Z2Nat.id by apply u64_range. rewrite u64_u64_r. f_equal. lia.
  Qed.
  Lemma emit_items_app b (l1 l2 : list (item I)) : forall o, emit_items b o (l1 ++ l2) = emit_items b o l1 ≫= fun o => emit_items b o l2.
  Proof. induction l1 as [|i l1 IH]; intros o; [done|]. cbn. destruct (emit_item b o i); [|done]. cbn. apply IH. Qed.

  Definition addr_right (b : bool) (st : Z) (t : table) (i : item I) (a : Z) (o : list Z * Z) : Prop :=
    match i with
    | IAlign _ => True
    | ILabel n => a = u64 (st + size_of b o) /\ t !! n = Some a
    | _ => a = u64 (st + size_of b o)
    end.
  Lemma calc_placed b st l : forall t a sa l' t' a' sa' o, calc_irs t a sa true l = Some (l', t', a', sa', true) ->
    pow2 sa -> aligns_ok (kind <$> l) -> st mod sa = 0 -> NoDup (labels (kind <$> l)) -> a = u64 (st + size_of b o) ->
    (forall pre i c post o', l' = pre ++ IR i c :: post -> emit_items b o (kind <$> pre) = Some o' -> addr_right b st t' i c o') /\
    (forall o', emit_items b o (kind <$> l') = Some o' -> a' = u64 (st + size_of b o')).
  Proof.
    induction l as [|[i c0] l IH]; intros t a sa l' t' a' sa' o E Hsa Hal Hst Hnd Ha; cbn [calc_irs] in E.
    { injection E as <- <- <- <-. split; [intros [|??]; done|]. by intros o' [= <-]. }
    cbn [fmap list_fmap kind] in Hal, Hnd. rewrite labels_cons in Hnd.
    assert (Hal' : aligns_ok (kind <$> l)) by (intros x Hx; apply Hal; by right).
    assert (Hstep : forall (t0 : table) a0 l1 t1 a1 sa1, calc_irs t0 a0 sa true l = Some (l1, t1, a1, sa1, true) -> NoDup (labels (kind <$> l)) ->
      (forall o', emit_item b o i = Some o' -> a0 = u64 (st + size_of b o')) ->
      forall c, addr_right b st t1 i c o ->
      (forall pre i' c' post o', IR i c :: l1 = pre ++ IR i' c' :: post -> emit_items b o (kind <$> pre) = Some o' -> addr_right b st t1 i' c' o') /\
      (forall o', emit_items b o (i :: (kind <$> l1)) = Some o' -> a1 = u64 (st + size_of b o'))).
    { intros t0 a0 l1 t1 a1 sa1 E1 Hn Hs c Hc. split.
      - intros [|x pre] i' c' post o' H Ho; cbn in H.
        + injection H as <- <- <-. by injection Ho as <-.
        + injection H as <- H. cbn in Ho. destruct (emit_item b o i) as [o1|] eqn:Eo; [|done]. cbn in Ho.
          destruct (IH _ _ _ _ _ _ _ o1 E1 Hsa Hal' Hst Hn (Hs o1 eq_refl)) as [H1 _]. by apply (H1 pre i' c' post o').
      - intros o' Ho. cbn in Ho. destruct (emit_item b o i) as [o1|] eqn:Eo; [|done]. cbn in Ho.
        destruct (IH _ _ _ _ _ _ _ o1 E1 Hsa Hal' Hst Hn (Hs o1 eq_refl)) as [_ H2]. by apply H2. }
    assert (Hadv : (forall al, i <> IAlign al) -> forall o', emit_item b o i = Some o' -> u64 (a + advance i) = u64 (st + size_of b o')).
    { intros Hi o' Ho. apply emit_item_size in Ho; [|done]. rewrite <- (u64_u64_r st), Ho, u64_u64_r, Ha, u64_u64_l. f_equal. lia. }
    destruct i; try destruct (t !! n) eqn:En; try done;
      (match type of E with context [calc_irs ?x ?y ?z ?w l] => destruct (calc_irs x y z w l) as [[[[[l1 t1] a1] sa1] ok1]|] eqn:E1 end; [|done]);
      cbn in E; injection E as <- <- <- <- ->;
      try (apply (Hstep _ _ _ _ _ _ E1); [done|by apply Hadv|done]).
    - apply stdpp.list.NoDup_cons in Hnd as [Hn Hnd]. apply (Hstep _ _ _ _ _ _ E1); [done| |].
      + intros o' Ho. specialize (Hadv ltac:(done) o' Ho). cbn [advance] in Hadv. rewrite Z.add_0_r in Hadv. rewrite <- Hadv, Ha. by rewrite u64_u64.
      + split; [done|]. rewrite (calc_other _ _ _ _ _ _ _ _ _ _ E1) by done. by rewrite lookup_insert.
    - destruct (sa <? a0) eqn:Eg.
      { apply calc_settled in E1 as (_ & _ & _ & H & _). by destruct (H eq_refl). }
      apply Z.ltb_ge in Eg. assert (Hp : pow2 a0) by (apply Hal; left). pose proof (pow2_divides _ _ Hp Hsa Eg) as [q Hq].
      cbn [negb andb] in E1. apply (Hstep _ _ _ _ _ _ E1); [done| |done].
      intros o' Ho. apply emit_align_size in Ho. destruct Hp as (k & Hk & ->). rewrite <- (u64_u64_r st), Ho, u64_u64_r, Ha.
      apply ALIGN_shift; [done|]. apply Z.mod_divide in Hst as [r ->]; [|pose proof (pow2_pos _ Hsa); lia]. rewrite Hq.
      replace (r * (q * 2 ^ k)) with ((r * q) * 2 ^ k) by lia. apply Z.mod_mul. pose proof (Z.pow_pos_nonneg 2 k). lia.
  Qed.

  (** ** Sections *)
  Definition sec_ok s : Prop := pow2 (align s) /\ aligns_ok (items s).
  Definition same_items s s' : Prop := bss s' = bss s /\ items s' = items s.
  Lemma calc_sections_items ss : forall t a ok ss' t' ok', calc_sections t a ok ss = Some (ss', t', ok') -> Forall2 same_items ss ss'.
  Proof.
    induction ss as [|s ss IH]; intros t a ok ss' t' ok' E; cbn [calc_sections] in E; [by injection E as <- <- <-|].
    destruct (calc_irs _ _ _ _ _) as [[[[[l1 t1] a1] sa1] ok1]|] eqn:E1; [|done]. cbn in E.
    destruct (calc_sections t1 a1 ok1 ss) as [[[ss2 t2] ok2]|] eqn:E2; [|done]. cbn in E. injection E as <- <- <-.
    constructor; [|by apply IH in E2]. split; [done|]. unfold items. cbn. by apply calc_kinds in E1.
  Qed.
  Lemma calc_sections_settled ss : forall t a ok ss' t' ok', calc_sections t a ok ss = Some (ss', t', ok') ->
    Forall (fun s => settled (align s) (items s)) ss' /\ (ok = true -> Forall (fun s => settled (align s) (items s)) ss -> ok' = true) /\
    (ok' = true -> ok = true) /\ (Forall sec_ok ss -> Forall sec_ok ss').
  Proof.
    induction ss as [|s ss IH]; intros t a ok ss' t' ok' E; cbn [calc_sections] in E; [injection E as <- <- <-; done|].
    destruct (calc_irs _ _ _ _ _) as [[[[[l1 t1] a1] sa1] ok1]|] eqn:E1; [|done]. cbn in E.
    destruct (calc_sections t1 a1 ok1 ss) as [[[ss2 t2] ok2]|] eqn:E2; [|done]. cbn in E. injection E as <- <- <-.
    pose proof (calc_kinds _ _ _ _ _ _ _ _ _ _ E1) as Ek.
    apply calc_settled in E1 as (H1 & H2 & H3 & H4 & H5). destruct (IH _ _ _ _ _ _ E2) as (G1 & G2 & G3 & G4).
    split; [|split; [|split]].
    - constructor; [|done]. unfold items. cbn. by rewrite Ek.
    - intros Hok Hs. apply stdpp.list.Forall_cons in Hs as [Hs Hss]. apply G2; [by apply H3|done].
    - intros H. by apply H4, G3.
    - intros Hs. apply stdpp.list.Forall_cons in Hs as [[Hs Hs'] Hss]. constructor; [|by apply G4]. split; cbn; [by apply H5|]. unfold items in *. cbn. by rewrite Ek.
  Qed.
  Lemma calc_sections_other ss : forall t a ok ss' t' ok', calc_sections t a ok ss = Some (ss', t', ok') ->
    forall n, n ∉ all_labels ss -> t' !! n = t !! n.
  Proof.
    induction ss as [|s ss IH]; intros t a ok ss' t' ok' E n Hn; cbn [calc_sections] in E; [by injection E as <- <- <-|].
    destruct (calc_irs _ _ _ _ _) as [[[[[l1 t1] a1] sa1] ok1]|] eqn:E1; [|done]. cbn in E.
    destruct (calc_sections t1 a1 ok1 ss) as [[[ss2 t2] ok2]|] eqn:E2; [|done]. cbn in E. injection E as <- <- <-.
    unfold all_labels in Hn. cbn in Hn. apply not_elem_of_app in Hn as [Hn Hn'].
    rewrite (IH _ _ _ _ _ _ E2 n Hn'). by apply (calc_other _ _ _ _ _ _ _ _ _ _ E1).
  Qed.

  (** Everything is where it should be after an address assignment that found nothing to change. *)
  Lemma seq_u64 ss : forall a, in_sequence (I := I) a ss <-> in_sequence (u64 a) ss.
  Proof.
    destruct ss as [|s ss]; intros a; [done|]. cbn. split; intros ((pad & H1 & H2) & H3 & H4); (split; [|by split]); exists pad; (split; [done|]).
    - by rewrite u64_u64_l.
    - by rewrite u64_u64_l in H2.
  Qed.
  Lemma calc_sections_placed ss : forall t a ss' t', calc_sections t a true ss = Some (ss', t', true) ->
    Forall sec_ok ss -> NoDup (all_labels ss) ->
    (forall s, s ∈ ss' -> forall pre i c post o, irs s = pre ++ IR i c :: post -> emit_items (bss s) ([], 0) (kind <$> pre) = Some o ->
       addr_right (bss s) (start s) t' i c o) /\
    in_sequence a ss'.
  Proof.
    induction ss as [|s ss IH]; intros t a ss' t' E Hok Hnd; cbn [calc_sections] in E.
    { injection E as <- <-. split; [intros ? H; by apply elem_of_nil in H|done]. }
    destruct (calc_irs _ _ _ _ _) as [[[[[l1 t1] a1] sa1] ok1]|] eqn:E1; [|done]. cbn in E.
    destruct (calc_sections t1 a1 ok1 ss) as [[[ss2 t2] ok2]|] eqn:E2; [|done]. cbn in E. injection E as <- <- ->.
    pose proof (calc_sections_settled _ _ _ _ _ _ _ E2) as (_ & _ & Hok1 & _). specialize (Hok1 eq_refl) as ->.
    apply stdpp.list.Forall_cons in Hok as [[Hp Hal] Hok]. unfold all_labels in Hnd. cbn in Hnd. apply stdpp.list.NoDup_app in Hnd as (Hn1 & Hn2 & Hn3).
    pose proof (calc_settled _ _ _ _ _ _ _ _ _ _ E1) as (_ & _ & _ & Hsa & _). destruct (Hsa eq_refl) as [-> _]. clear Hsa.
    assert (Hst : ALIGN a (align s) mod align s = 0 /\ exists pad, 0 <= pad < align s /\ ALIGN a (align s) = u64 (a + pad)).
    { destruct Hp as (k & Hk & ->). rewrite ALIGN_eq by done. assert (Hp : 0 < 2^k) by (apply Z.pow_pos_nonneg; lia). split.
      - rewrite mod_u64 by done. rewrite <- Z.add_mod_idemp_r, Z.mod_mod, Z.add_mod_idemp_r by lia. by rewrite Z.add_opp_diag_r, Z.mod_0_l by lia.
      - exists ((- a) mod 2 ^ k). split; [by apply Z.mod_pos_bound|done]. }
    destruct Hst as [Hst Hpad].
    assert (Ha : ALIGN a (align s) = u64 (ALIGN a (align s) + size_of (bss s) ([], 0))).
    { destruct Hpad as (pad & _ & ->). rewrite u64_u64_l. unfold size_of. destruct (bss s); cbn [length fst snd Z.of_nat]; by rewrite Z.add_0_r. }
    destruct (calc_placed (bss s) _ _ _ _ _ _ _ _ _ ([], 0) E1 Hp Hal Hst Hn1 Ha) as [H1 H2].
    destruct (IH _ _ _ _ E2 Hok Hn3) as [G1 G2]. split.
    - intros s' Hs'. apply elem_of_cons in Hs' as [->|Hs']; [|by apply G1]. cbn. intros pre i c post o Hl Ho.
      specialize (H1 pre i c post o Hl Ho). unfold addr_right in *. destruct i; try done.
      destruct H1 as [H1 H1']. split; [done|]. rewrite (calc_sections_other _ _ _ _ _ _ _ E2); [done|].
      intros Hin. apply (Hn2 n); [|done]. unfold items. rewrite <- (calc_kinds _ _ _ _ _ _ _ _ _ _ E1), Hl. rewrite fmap_app. cbn.
      unfold labels. rewrite omap_app. apply elem_of_app. right. cbn. left.
    - cbn. split; [done|]. split; [done|]. intros o Ho. apply seq_u64. rewrite <- (H2 o Ho). done.
  Qed.
End Generic.
