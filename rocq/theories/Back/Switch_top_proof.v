(** From the labels as written to the code. *)
From stdpp Require Import base list numbers sorting sets.
From Verif Require Import Util.Wrap_model Front.Layout_model Front.Fold_model Front.Fold_spec Back.Ir_model Back.Ir_spec Back.Switch_model Back.Switch_spec Back.Switch_proof.
From Coq Require Import ZArith Lia Znumtheory.
Open Scope Z_scope.

Lemma to_fixnum_mod z : exists k, z - to_fixnum z = k * 2 ^ 64.
Proof. unfold to_fixnum, to_signed. exists ((z + 2 ^ (64 - 1)) / 2 ^ 64). pose proof (Z.div_mod (z + 2 ^ (64 - 1)) (2 ^ 64)). lia. Qed.
Lemma to_fixnum_range z : - 2 ^ 63 <= to_fixnum z < 2 ^ 63.
Proof. unfold to_fixnum, to_signed. pose proof (Z.mod_pos_bound (z + 2 ^ (64 - 1)) (2 ^ 64)). lia. Qed.
Lemma to_fixnum_eq a b : to_fixnum a = to_fixnum b <-> exists k, a - b = k * 2 ^ 64.
Proof.
  destruct (to_fixnum_mod a) as [k Hk], (to_fixnum_mod b) as [j Hj].
  pose proof (to_fixnum_range a). pose proof (to_fixnum_range b). split.
  - intros E. exists (k - j). lia.
  - intros [i Hi]. assert (to_fixnum a - to_fixnum b = (i - k + j) * 2 ^ 64) by lia. assert (i - k + j = 0) by lia. lia.
Qed.
Lemma to_fixnum_id z : - 2 ^ 63 <= z < 2 ^ 63 -> to_fixnum z = z.
Proof. intros H. unfold to_fixnum, to_signed. rewrite Z.mod_small; lia. Qed.

Lemma filter_all {A} (P : A -> Prop) `{forall x, Decision (P x)} (l : list A) : Forall P l -> filter P l = l.
Proof. induction 1 as [|x l Hx Hl IH]; [done|]. by rewrite filter_cons_True, IH. Qed.

Lemma pairwise_sorted {A} (R : A -> A -> Prop) (l : list A) :
  (forall i j a b, (i < j)%nat -> l !! i = Some a -> l !! j = Some b -> R a b) -> StronglySorted R l.
Proof.
  induction l as [|x l IH]; intros H; [constructor|]. constructor.
  - apply IH. intros i j a b Hij Ha Hb. apply (H (S i) (S j)); [lia|done|done].
  - apply stdpp.list.Forall_forall. intros y Hy. apply elem_of_list_lookup in Hy as [i Hi]. apply (H 0%nat (S i)); [lia|done|done].
Qed.

Section top.
  Context (lp64 : bool) (t : fty).
  Notation size := (fsize lp64 t).
  Notation in_range := (in_range lp64). Notation conv_int := (conv_int lp64).

  Lemma size_cases (x : fty) : fsize lp64 x = 1 \/ fsize lp64 x = 2 \/ fsize lp64 x = 4 \/ fsize lp64 x = 8.
  Proof. unfold fsize, fixnum_size. destruct (kd x), lp64; lia. Qed.
  Lemma range_wide x c : in_range x c -> - 2 ^ 63 <= c < 2 ^ 64.
  Proof.
    unfold Fold_spec.in_range, lo, hi, width, fixnum_size. destruct (kd x), (uns x), lp64; intros H;
      cbn [Z.mul Pos.mul Z.sub Z.add Z.opp Z.pos_sub Pos.pred_double Z.succ_double Z.pred_double Pos.add] in H; lia.
  Qed.
  (** The value a stored constant stands for. *)
  Lemma view_stored x c : in_range x c -> view (fsize lp64 x) (uns x) (to_fixnum c) = c.
  Proof.
    intros H. set (n := fsize lp64 x). assert (Hn : n = 1 \/ n = 2 \/ n = 4 \/ n = 8) by apply size_cases.
    transitivity (view n (uns x) c).
    - apply view_eq; [lia|]. apply mod_eq_ex; [by apply W_pos; lia|]. destruct (to_fixnum_mod c) as [k Hk].
      exists (- k * 2 ^ (64 - 8 * n)). assert (E : 2 ^ 64 = 2 ^ (64 - 8 * n) * 2 ^ (8 * n)) by (rewrite <- Z.pow_add_r by lia; f_equal; lia).
      rewrite E in Hk. lia.
    - unfold view. unfold Fold_spec.in_range, lo, hi, width in H. fold (fsize lp64 x) in H. fold n in H.
      destruct (W_pos n) as [H0 H1]; [lia|].
      assert (0 < 2 ^ (8 * n - 1)) by (apply Z.pow_pos_nonneg; lia).
      assert (Hb : kd x = FX_BOOL -> 2 ^ (8 * n - 1) = 2 ^ 31).
      { intros E. unfold n, fsize. rewrite E. done. }
      destruct (kd x); try (specialize (Hb eq_refl); rewrite Hb in *); destruct (uns x); rewrite Z.mod_small; lia.
  Qed.
  Lemma conv_range x c : in_range x (conv_int x c).
  Proof.
    unfold Fold_spec.in_range, Fold_spec.conv_int, lo, hi. set (w := width lp64 x).
    assert (0 < 2 ^ w /\ 2 ^ w = 2 * 2 ^ (w - 1)).
    { unfold w, width. destruct (size_cases x) as [E|[E|[E|E]]]; unfold fsize in E; rewrite E; done. }
    pose proof (Z.mod_pos_bound c (2 ^ w)). pose proof (Z.mod_pos_bound (c + 2 ^ (w - 1)) (2 ^ w)).
    destruct (kd x), (uns x); try case_decide; lia.
  Qed.
  Lemma conv_id x c : in_range x c -> conv_int x c = c.
  Proof.
    unfold Fold_spec.in_range, Fold_spec.conv_int, lo, hi. set (w := width lp64 x).
    assert (0 < 2 ^ w /\ 2 ^ w = 2 * 2 ^ (w - 1)).
    { unfold w, width. destruct (size_cases x) as [E|[E|[E|E]]]; unfold fsize in E; rewrite E; done. }
    destruct (kd x), (uns x); intros Hr; try case_decide; try rewrite Z.mod_small; lia.
  Qed.
  (** Conversion depends on the low 64 bits only. *)
  Lemma conv_stored x c c' : - 2 ^ 63 <= c < 2 ^ 64 -> - 2 ^ 63 <= c' < 2 ^ 64 -> to_fixnum c = to_fixnum c' -> conv_int x c = conv_int x c'.
  Proof.
    intros Hc Hc' E. apply to_fixnum_eq in E as [k Hk]. unfold Fold_spec.conv_int.
    assert (Hw : 2 ^ 64 = 2 ^ (64 - width lp64 x) * 2 ^ width lp64 x).
    { unfold width. destruct (size_cases x) as [E|[E|[E|E]]]; unfold fsize in E; rewrite E; done. }
    assert (0 < 2 ^ width lp64 x).
    { unfold width. destruct (size_cases x) as [E|[E|[E|E]]]; unfold fsize in E; rewrite E; done. }
    assert (forall z, (c + z) mod 2 ^ width lp64 x = (c' + z) mod 2 ^ width lp64 x) as Hm.
    { intros z. apply mod_eq_ex; [done|]. exists (k * 2 ^ (64 - width lp64 x)). rewrite Hw in Hk. lia. }
    pose proof (Hm 0) as Hm0. rewrite !Z.add_0_r in Hm0.
    destruct (kd x), (uns x); try (by rewrite Hm0 || by rewrite Hm); repeat case_decide; lia.
  Qed.

  (** make_cast of a constant. *)
  Lemma cast_const ct c : in_range ct c ->
    make_cast lp64 64 16384 (NFix t) (EFix ct (to_fixnum c)) = Some (EFix t (to_fixnum (conv_int t c))).
  Proof.
    intros H. pose proof (range_wide _ _ H) as Hw. unfold make_cast. cbn [type_of]. case_decide as Hd.
    { injection Hd as <-. by rewrite conv_id. }
    assert (Hz : to_fixnum c = 0 <-> c = 0).
    { change 0 with (to_fixnum 0) at 1. rewrite to_fixnum_eq. split; [intros [k Hk]; lia|intros ->; by exists 0]. }
    assert (E : wrap_value (to_fixnum c) size (uns t) = (if uns t then to_fixnum c mod 2 ^ (8 * size) else (to_fixnum c + 2 ^ (8 * size - 1)) mod 2 ^ (8 * size) - 2 ^ (8 * size - 1))
      \/ (size = 8 /\ wrap_value (to_fixnum c) size (uns t) = to_fixnum c)).
    { unfold wrap_value. destruct (size_cases t) as [->|[->|[->| ->]]]; [left; by destruct (uns t)..|right; by destruct (uns t)]. }
    assert (wrap_value (to_fixnum c) size (uns t) = to_fixnum (if uns t then c mod 2 ^ width lp64 t else (c + 2 ^ (width lp64 t - 1)) mod 2 ^ width lp64 t - 2 ^ (width lp64 t - 1))) as Hwrap.
    { unfold width. fold size. destruct (W_pos size) as [HW HW']; [pose proof (size_cases t); lia|].
      assert (Hq : 2 ^ 64 = 2 ^ (64 - 8 * size) * 2 ^ (8 * size)) by (rewrite <- Z.pow_add_r by (pose proof (size_cases t); lia); f_equal; lia).
      destruct (to_fixnum_mod c) as [k Hk].
      assert (Hm : forall z, (c + z) mod 2 ^ (8 * size) = (to_fixnum c + z) mod 2 ^ (8 * size)).
      { intros z. apply mod_eq_ex; [done|]. exists (k * 2 ^ (64 - 8 * size)). rewrite Hq in Hk. lia. }
      destruct (decide (size = 8)) as [E8|E8].
      - assert (Ew : wrap_value (to_fixnum c) size (uns t) = to_fixnum c) by (unfold wrap_value; rewrite E8; by destruct (uns t)).
        rewrite Ew, E8. apply to_fixnum_eq. change (8 * 8) with 64. destruct (uns t).
        + exists (c / 2 ^ 64). pose proof (Z.div_mod c (2 ^ 64)). lia.
        + exists ((c + 2 ^ (64 - 1)) / 2 ^ 64). pose proof (Z.div_mod (c + 2 ^ (64 - 1)) (2 ^ 64)). lia.
      - destruct E as [E|[? _]]; [|done]. rewrite E. pose proof (Hm 0) as Hm0. rewrite !Z.add_0_r in Hm0. rewrite <- Hm0, <- Hm.
        symmetry. apply to_fixnum_id.
        assert (2 ^ (8 * size) <= 2 ^ 32) by (apply Z.pow_le_mono_r; pose proof (size_cases t); lia).
        pose proof (Z.mod_pos_bound c (2 ^ (8 * size)) HW). pose proof (Z.mod_pos_bound (c + 2 ^ (8 * size - 1)) (2 ^ (8 * size)) HW).
        destruct (uns t); lia. }
    unfold Fold_spec.conv_int. destruct (kd t) eqn:Ek; try (by rewrite Hwrap).
    f_equal. f_equal. case_decide as E0.
    - by rewrite (proj2 Hz E0).
    - rewrite (proj2 (Z.eqb_neq _ _)); [done|]. tauto.
  Qed.

  (** The cases made of the labels. *)
  Definition case_of (l : label) : case :=
    match l with
    | (Some (_, c), b) => Case (Some (to_fixnum (conv_int t c))) b
    | (None, b) => Case None b
    end.

  Lemma parse_result labels acc cases : well_typed lp64 labels ->
    parse_cases lp64 t (stored <$> labels) acc = Ok cases -> cases = acc ++ (case_of <$> labels).
  Proof.
    revert acc. induction labels as [|[[[ct c]|] b] ls IH]; intros acc Hw E; cbn [fmap list_fmap stored] in E |- *.
    - injection E as <-. by rewrite app_nil_r.
    - cbn [parse_cases] in E. destruct (find_case _ _); [done|].
      assert (Hr : in_range ct c) by (apply (Hw ct c b); left). rewrite (cast_const ct c Hr) in E. apply IH in E.
      + rewrite E, <- app_assoc. done.
      + intros ct' c' b' H. apply (Hw ct' c' b'). by right.
    - cbn [parse_cases] in E. destruct (existsb _ _); [done|]. apply IH in E.
      + rewrite E, <- app_assoc. done.
      + intros ct' c' b' H. apply (Hw ct' c' b'). by right.
  Qed.

  Lemma elem_constants labels c : c ∈ constants labels <-> exists ct b, (Some (ct, c), b) ∈ labels.
  Proof.
    unfold constants. rewrite elem_of_list_omap. split.
    - intros ([[[ct c']|] b] & H & E); cbn in E; [|done]. injection E as ->. by exists ct, b.
    - intros (ct & b & H). by exists (Some (ct, c), b).
  Qed.

  Lemma conv_promoted c : ((kd t = FX_CHAR \/ kd t = FX_SHORT \/ kd t = FX_BOOL) -> in_range t c) -> conv_int t c = converted lp64 t c.
  Proof.
    intros H. unfold converted. destruct t as [k un]. destruct k, un; try reflexivity; cbn [kd] in H; specialize (H ltac:(tauto)).
    all: match goal with |- context [promoted ?l ?x] => assert (Hp : promoted l x = tyInt) by reflexivity; rewrite Hp end.
    all: rewrite conv_id by done; rewrite conv_id; [done|].
    all: unfold Fold_spec.in_range, lo, hi, width, fixnum_size in *; cbn in H |- *; lia.
  Qed.
  Lemma fitting_conv labels c : fitting lp64 t labels -> c ∈ constants labels -> conv_int t c = converted lp64 t c.
  Proof. intros H Hc. apply conv_promoted. intros Hk. by apply H. Qed.

  Lemma constants_cons_some ct c b ls : constants ((Some (ct, c), b) :: ls) = c :: constants ls.
  Proof. done. Qed.
  Lemma constants_cons_none b ls : constants ((None, b) :: ls) = constants ls.
  Proof. done. Qed.

  Lemma default_of_labels labels : default_of (case_of <$> labels) = default_label labels.
  Proof. induction labels as [|[[[ct c]|] b] ls IH]; [done|exact IH|done]. Qed.

  (** The labels with a constant. *)
  Definition valued (cs : list case) : list case := filter (fun c => value c <> None) cs.

  Lemma qsorted_default cases sorted : qsorted cases sorted -> (length (filter (fun c => value c = None) cases) <= 1)%nat ->
    exists len, len = (match default_of cases with Some _ => Nat.pred (length cases) | None => length cases end) /\
      valued cases ≡ₚ take len sorted /\ Forall (fun c => value c <> None) (take len sorted).
  Proof.
    intros [Hp Hs] Hd. eexists. split; [reflexivity|].
    assert (Hpos : forall i c, sorted !! i = Some c -> value c = None -> i = Nat.pred (length sorted)).
    { intros i c Hi Hc. pose proof (lookup_lt_Some _ _ _ Hi) as Hlt.
      destruct (decide (i = Nat.pred (length sorted))) as [|Hne]; [done|].
      destruct (lookup_lt_is_Some_2 sorted (S i)) as [d Hd']; [lia|].
      destruct (Hs i (S i) c d ltac:(lia) Hi Hd') as (x & Hx & Hle). unfold compare_cases in Hx. rewrite Hc in Hx. injection Hx as <-. lia. }
    assert (Hdef : forall cs, match default_of cs with Some _ => exists c, c ∈ cs /\ value c = None | None => forall c, c ∈ cs -> value c <> None end).
    { clear. induction cs as [|c cs IH]; cbn; [set_solver|]. destruct (value c) as [v|] eqn:Ev.
      - destruct (default_of cs).
        + destruct IH as (x & Hx & E). exists x. split; [by right|done].
        + intros d Hd. apply elem_of_cons in Hd as [->|Hd]; [congruence|by apply IH].
      - exists c. split; [left|done]. }
    specialize (Hdef cases). rewrite (Permutation_length Hp).
    assert (Hv : valued cases ≡ₚ valued sorted) by (unfold valued; by rewrite Hp).
    destruct (default_of cases).
    - destruct Hdef as (c & Hc & Ec). rewrite Hp in Hc. apply elem_of_list_lookup in Hc as [i Hi].
      pose proof (Hpos i c Hi Ec) as ->. pose proof (lookup_lt_Some _ _ _ Hi) as Hlt.
      pose proof (take_drop_middle _ _ _ Hi) as Hsp. rewrite drop_ge in Hsp by lia.
      assert (Hall : Forall (fun c => value c <> None) (take (Nat.pred (length sorted)) sorted)).
      { apply stdpp.list.Forall_forall. intros d Hd' Hn. apply elem_of_list_lookup in Hd' as [j Hj].
        pose proof (lookup_lt_Some _ _ _ Hj) as Hjl. rewrite take_length in Hjl. rewrite lookup_take in Hj by lia.
        specialize (Hpos j d Hj Hn). lia. }
      split; [|done]. rewrite Hv. rewrite <- Hsp at 1. unfold valued. rewrite filter_app, filter_cons_False by (by rewrite Ec; intros []).
      rewrite filter_nil, app_nil_r. rewrite filter_all by done. done.
    - assert (Hall : Forall (fun c => value c <> None) sorted).
      { apply stdpp.list.Forall_forall. intros d Hd'. apply Hdef. by rewrite Hp. }
      rewrite firstn_all. split; [|done]. rewrite Hv. unfold valued. rewrite filter_all by done. done.
  Qed.

  Lemma case_of_valued labels c : c ∈ valued (case_of <$> labels) <-> exists ct k b, (Some (ct, k), b) ∈ labels /\ c = Case (Some (to_fixnum (conv_int t k))) b.
  Proof.
    unfold valued. rewrite elem_of_list_filter, elem_of_list_fmap. split.
    - intros [Hv ([[[ct k]|] b] & -> & H)]; [by exists ct, k, b|done].
    - intros (ct & k & b & H & ->). split; [done|]. by exists (Some (ct, k), b).
  Qed.
  Lemma valued_vals labels : val <$> valued (case_of <$> labels) = (fun c => to_fixnum (conv_int t c)) <$> constants labels.
  Proof.
    induction labels as [|[[[ct k]|] b] ls IH]; [done|..]; cbn [fmap list_fmap]; unfold valued in *.
    - rewrite filter_cons_True by done. cbn [fmap list_fmap]. rewrite IH. by rewrite constants_cons_some.
    - rewrite filter_cons_False by (intros X; by apply X). by rewrite IH, constants_cons_none.
  Qed.
  Lemma defaults labels : length (filter (fun c => value c = None) (case_of <$> labels)) = length (filter (fun l : label => fst l = None) labels).
  Proof.
    induction labels as [|[[[ct k]|] b] ls IH]; [done|..]; cbn [fmap list_fmap].
    - by rewrite !filter_cons_False.
    - rewrite !filter_cons_True by done. cbn [length]. by rewrite IH.
  Qed.

  Lemma matching_none labels v : (forall ct k b, (Some (ct, k), b) ∈ labels -> converted lp64 t k <> v) -> matching lp64 t labels v = None.
  Proof.
    induction labels as [|[[[ct k]|] b] ls IH]; intros H; [done|..]; cbn [matching].
    - rewrite decide_False by (apply (H ct k b); left). apply IH. intros ct' k' b' Hin. apply (H ct' k' b'). by right.
    - apply IH. intros ct' k' b' Hin. apply (H ct' k' b'). by right.
  Qed.
  Lemma matching_some labels v ct k b : NoDup (converted lp64 t <$> constants labels) -> (Some (ct, k), b) ∈ labels -> converted lp64 t k = v ->
    matching lp64 t labels v = Some b.
  Proof.
    induction labels as [|[[[ct' k']|] b'] ls IH]; intros Hn Hin E; [set_solver|..]; cbn [matching].
    - rewrite constants_cons_some in Hn. cbn [fmap list_fmap] in Hn. apply NoDup_cons in Hn as [Hni Hn].
      apply elem_of_cons in Hin as [Hin|Hin].
      + injection Hin as <- <- <-. by rewrite decide_True.
      + rewrite decide_False; [by apply IH|]. intros E'. apply Hni. rewrite E', <- E. apply elem_of_list_fmap. exists k. split; [done|].
        apply elem_constants. by exists ct, b.
    - rewrite constants_cons_none in Hn. apply elem_of_cons in Hin as [Hin|Hin]; [done|]. by apply IH.
  Qed.

  Lemma dispatch labels break v s code s' regs cases sorted r :
    constraints lp64 t labels -> well_typed lp64 labels -> fitting lp64 t labels -> same_half lp64 t labels ->
    blocks_below s.1 labels -> (break < s.1)%nat -> (r < s.2)%nat ->
    parse_cases lp64 t (stored <$> labels) [] = Ok cases -> qsorted cases sorted ->
    gen_switch_cond (uns t) (Reg r) cases sorted break s = Ok (code, s') ->
    in_range t v -> view size (uns t) (regs r) = v ->
    leaves_to size code regs (target lp64 t labels break v).
  Proof.
    intros [Hnd Hdef] Hw Hfit Hhalf Hbb Hbr Hr Hparse Hq Hgen Hv Hreg.
    apply parse_result in Hparse; [|done]. cbn [app] in Hparse. subst cases.
    assert (Hsz : 0 < size) by (pose proof (size_cases t); lia).
    unfold gen_switch_cond in Hgen. rewrite default_of_labels in Hgen.
    set (skip := match default_label labels with Some b => b | None => break end) in *.
    assert (Hskip : (skip < s.1)%nat).
    { unfold skip. destruct (default_label labels) as [b|] eqn:E; [|done].
      assert ((None, b) ∈ labels) as Hin; [|by apply Hbb in Hin].
      clear -E. revert E. generalize labels as ls0. induction ls0 as [|[[[ct k]|] b'] ls IH]; cbn; intros E; [done|right; by apply IH|]. injection E as ->. left. }
    destruct (case_of <$> labels) as [|c0 cs0] eqn:Ecs.
    { destruct s as [nb nr]. cbn in Hgen. destruct labels; [|done]. injection Hgen as <- <-. exists 1%nat. cbn [app run].
      rewrite find_block_none; [done|]. cbn. intros H. apply elem_of_list_singleton in H. cbn in H, Hskip. unfold skip in *. cbn in *. lia. }
    rewrite <- Ecs in *. clear Ecs.
    destruct (qsorted_default (case_of <$> labels) sorted Hq) as (len & Hlen & Hperm & Hval); [by rewrite defaults|].
    rewrite default_of_labels in Hlen. rewrite <- Hlen in Hgen.
    destruct (recur r skip (if uns t then COND_UNSIGNED else 0) (S len) (take len sorted) s) as [[code1 [nb nr]]| | |] eqn:Erec; cbn [mbind res_bind] in Hgen; try done.
    injection Hgen as <- <-. set (srt := take len sorted) in *.
    assert (Hin : forall c, c ∈ srt -> exists ct k b, (Some (ct, k), b) ∈ labels /\ c = Case (Some (to_fixnum (converted lp64 t k))) b).
    { intros c Hc. rewrite <- Hperm in Hc. apply case_of_valued in Hc as (ct & k & b & H & ->). exists ct, k, b. split; [done|].
      rewrite (fitting_conv labels); [done|done|]. apply elem_constants. by exists ct, b. }
    assert (Hvw : forall k, k ∈ constants labels -> view size (uns t) (to_fixnum (converted lp64 t k)) = converted lp64 t k).
    { intros k Hk. rewrite <- (fitting_conv labels k Hfit Hk). apply view_stored, conv_range. }
    assert (Hconst : forall ct k b, (Some (ct, k), b) ∈ labels -> k ∈ constants labels) by (intros ct k b H; apply elem_constants; by exists ct, b).
    assert (Hnv : NoDup (val <$> srt)).
    { rewrite <- Hperm, valued_vals. assert (E : (fun c => to_fixnum (conv_int t c)) <$> constants labels = to_fixnum <$> (converted lp64 t <$> constants labels)).
      { rewrite <- list_fmap_compose. apply list_fmap_ext. intros i k Hk. cbn. f_equal. apply (fitting_conv labels); [done|]. by eapply elem_of_list_lookup_2. }
      rewrite E. apply NoDup_fmap_2_strong; [|done]. intros x y Hx Hy Exy. apply elem_of_list_fmap in Hx as (x' & -> & Hx), Hy as (y' & -> & Hy).
      rewrite <- (Hvw x' Hx), <- (Hvw y' Hy). by rewrite Exy. }
    assert (Hsort : StronglySorted (lt_case size (uns t)) srt).
    { apply pairwise_sorted. intros i j a b Hij Ha Hb.
      assert (Ha' : sorted !! i = Some a) by (rewrite <- Ha; symmetry; unfold srt; apply lookup_take; pose proof (lookup_lt_Some _ _ _ Ha) as X; unfold srt in X; rewrite take_length in X; lia).
      assert (Hb' : sorted !! j = Some b) by (rewrite <- Hb; symmetry; unfold srt; apply lookup_take; pose proof (lookup_lt_Some _ _ _ Hb) as X; unfold srt in X; rewrite take_length in X; lia).
      destruct Hq as [_ Hq]. destruct (Hq i j a b Hij Ha' Hb') as (d & Hd & Hle).
      assert (Hain : a ∈ srt) by (by eapply elem_of_list_lookup_2). assert (Hbin : b ∈ srt) by (by eapply elem_of_list_lookup_2).
      destruct (Hin a Hain) as (ct & ka & ba & Hla & ->), (Hin b Hbin) as (ct' & kb & b'' & Hlb & ->).
      unfold compare_cases in Hd. cbn [value] in Hd. destruct (fix_sub _ _) as [x| | |] eqn:Ex; cbn [mbind res_bind] in Hd; try done.
      apply fix_sub_ok in Ex as ->. injection Hd as <-. unfold lt_case. cbn [val value].
      assert (Hne : to_fixnum (converted lp64 t ka) <> to_fixnum (converted lp64 t kb)).
      { intros E. assert (i = j); [|lia]. eapply (NoDup_lookup (val <$> srt)); [done|rewrite list_lookup_fmap, Ha; reflexivity|rewrite list_lookup_fmap, Hb; cbn; by rewrite E]. }
      assert (Hlt : to_fixnum (converted lp64 t ka) < to_fixnum (converted lp64 t kb)).
      { destruct (Z.ltb_spec 0 (to_fixnum (converted lp64 t ka) - to_fixnum (converted lp64 t kb))); [lia|]. lia. }
      rewrite !Hvw by (by eapply Hconst). split; [done|].
      assert (Hra : in_range t (converted lp64 t ka)) by (rewrite <- (fitting_conv labels ka Hfit) by (by eapply Hconst); apply conv_range).
      assert (Hrb : in_range t (converted lp64 t kb)) by (rewrite <- (fitting_conv labels kb Hfit) by (by eapply Hconst); apply conv_range).
      set (A := converted lp64 t ka) in *. set (Bv := converted lp64 t kb) in *.
      assert (Hwd : width lp64 t = 8 * size) by done.
      assert (Hord : A < Bv /\ Bv - A = to_fixnum Bv - to_fixnum A).
      { destruct (decide (uns t = true /\ width lp64 t = 64)) as [[Hu H64]|Hn].
        - pose proof (range_wide _ _ Hra) as HA. pose proof (range_wide _ _ Hrb) as HB.
          assert (0 <= A /\ 0 <= Bv). { unfold Fold_spec.in_range, lo in Hra, Hrb. rewrite Hu in Hra, Hrb. destruct (kd t); lia. }
          destruct (Hhalf Hu H64) as [Hh|Hh].
          + pose proof (Hh ka ltac:(by eapply Hconst)) as HA'. pose proof (Hh kb ltac:(by eapply Hconst)) as HB'. fold A in HA'. fold Bv in HB'.
            rewrite !to_fixnum_id in * by lia. lia.
          + pose proof (Hh ka ltac:(by eapply Hconst)) as HA'. pose proof (Hh kb ltac:(by eapply Hconst)) as HB'. fold A in HA'. fold Bv in HB'.
            assert (forall z, 2 ^ 63 <= z < 2 ^ 64 -> to_fixnum z = z - 2 ^ 64) as Hf.
            { intros z Hz. rewrite <- (to_fixnum_id (z - 2 ^ 64)) by lia. apply to_fixnum_eq. exists 1. lia. }
            rewrite !Hf in * by lia. lia.
        - assert (forall z, in_range t z -> - 2 ^ 63 <= z < 2 ^ 63) as Hr64.
          { intros z Hz. pose proof (size_cases t) as Hsc.
            assert (Hsm : uns t = false \/ size <= 4) by (destruct (uns t); [right; destruct Hsc as [?|[?|[?|?]]]; [lia..|exfalso; apply Hn; split; [done|lia]]|by left]).
            unfold Fold_spec.in_range, lo, hi in Hz. rewrite Hwd in Hz.
            assert (2 ^ (8 * size - 1) <= 2 ^ 63) by (apply Z.pow_le_mono_r; lia).
            assert (0 < 2 ^ (8 * size - 1)) by (apply Z.pow_pos_nonneg; lia).
            destruct Hsm as [Hs|Hs].
            - rewrite Hs in Hz. destruct (kd t); lia.
            - assert (2 ^ (8 * size) <= 2 ^ 32) by (apply Z.pow_le_mono_r; lia). destruct (kd t), (uns t); lia. }
          pose proof (Hr64 A Hra). pose proof (Hr64 Bv Hrb). rewrite !to_fixnum_id in * by lia. lia. }
      split; [lia|]. destruct Hord as [? Hd']. rewrite <- Hd'. destruct (W_pos size Hsz) as [H0 H1].
      unfold Fold_spec.in_range, lo, hi in Hra, Hrb. rewrite Hwd in Hra, Hrb. assert (0 < 2 ^ (8 * size - 1)) by (apply Z.pow_pos_nonneg; lia).
      destruct (kd t), (uns t); lia. }
    destruct (recur_ok size Hsz (uns t) r skip s.1 Hskip (S len) srt s code1 (nb, nr)) as (R1 & R2 & R3 & R4).
    - intros c Hc. destruct (Hin c Hc) as (ct & k & b & H & ->). by eapply Hbb.
    - done.
    - done.
    - exact Erec.
    - specialize (R4 [] [LABEL nb] regs). cbn [app] in R4. destruct R4 as [fuel Hf].
      + cbn. set_solver.
      + intros b Hb. rewrite labels_app in Hb. apply elem_of_app in Hb as [Hb|Hb]; [by apply R3 in Hb; lia|].
        cbn in Hb. apply elem_of_list_singleton in Hb as ->. cbn in R1. lia.
      + exists fuel. rewrite Hf. f_equal.
        unfold target.
        destruct (decide (Exists (fun c => view size (uns t) (regs r) = view size (uns t) (val c)) srt)) as [He|He].
        * apply Exists_exists in He as (c & Hc & Ev). destruct (Hin c Hc) as (ct & k & b & Hl & ->). cbn [val value] in Ev.
          rewrite Hvw in Ev by (by eapply Hconst). rewrite Hreg in Ev. rewrite (matching_some labels v ct k b Hnd Hl) by done.
          rewrite (look_in size Hsz (uns t) skip srt (regs r) _ Hc); [done|cbn [val value]; rewrite Hvw by (by eapply Hconst); congruence|].
          intros d Hdi Edv. apply (sorted_inj size (uns t) skip s.1 Hskip srt); [done|done|done|]. rewrite <- Edv. cbn [val value]. rewrite Hvw by (by eapply Hconst). congruence.
        * rewrite look_none by (intros c Hc E; apply He, Exists_exists; by exists c).
          rewrite matching_none; [done|]. intros ct k b Hl E. apply He. apply Exists_exists.
          exists (Case (Some (to_fixnum (converted lp64 t k))) b). split.
          -- rewrite <- Hperm. apply case_of_valued. exists ct, k, b. split; [done|]. rewrite (fitting_conv labels); [done|done|by eapply Hconst].
          -- cbn [val value]. rewrite Hvw by (by eapply Hconst). congruence.
  Qed.
End top.
