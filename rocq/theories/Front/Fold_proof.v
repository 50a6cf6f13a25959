From stdpp Require Import base list numbers.
From Coq Require Import Znumtheory Floats.SpecFloat.
From Verif Require Import Util.Wrap_model Front.Layout_model Front.Fold_model Front.Fold_spec.
Open Scope Z_scope.

Section proof.
  Context (lp64 : bool).
  Notation width := (width lp64). Notation in_range := (in_range lp64). Notation eval := (eval lp64).
  Notation conv_int := (conv_int lp64). Notation same_repr := (same_repr lp64).

  Lemma width_cases t : width t = 8 \/ width t = 16 \/ width t = 32 \/ width t = 64.
  Proof. unfold Fold_spec.width, fixnum_size. destruct (kd t), lp64; cbn; tauto. Qed.
  Lemma width_pos t : 0 < width t.
  Proof. pose proof (width_cases t). lia. Qed.
  Lemma pow_split w : 0 < w -> 2 ^ w = 2 * 2 ^ (w - 1).
  Proof. intros. rewrite <-Z.pow_succ_r by lia. f_equal. lia. Qed.

  Definition denote (t : fty) (z : Z) : Z := if uns t then z mod 2 ^ width t else z.
  (** Not _Bool. *)
  Definition proper (t : fty) : Prop := kd t <> FX_BOOL.
  Lemma range_proper t z : proper t -> in_range t z <-> if uns t then 0 <= z < 2 ^ width t else - 2 ^ (width t - 1) <= z < 2 ^ (width t - 1).
  Proof. intros Hp. unfold proper in Hp. unfold Fold_spec.in_range, lo, hi. destruct (kd t), (uns t); try done; lia. Qed.
  Lemma conv_proper t z : proper t -> conv_int t z = if uns t then z mod 2 ^ width t else to_signed (width t) z.
  Proof. intros Hp. unfold proper in Hp. unfold Fold_spec.conv_int. by destruct (kd t). Qed.
  Lemma signed_bound n z : 0 < n -> - 2 ^ (n - 1) <= to_signed n z < 2 ^ (n - 1).
  Proof.
    intros Hn. unfold to_signed. pose proof (pow_split n Hn). pose proof (Z.mod_pos_bound (z + 2 ^ (n - 1)) (2 ^ n) ltac:(lia)). lia.
  Qed.
  Lemma signed_id n z : 0 < n -> - 2 ^ (n - 1) <= z < 2 ^ (n - 1) -> to_signed n z = z.
  Proof. intros Hn Hz. unfold to_signed. pose proof (pow_split n Hn). rewrite Z.mod_small by lia. lia. Qed.
  Lemma signed_cong n z z' : 0 < n -> z mod 2 ^ n = z' mod 2 ^ n -> to_signed n z = to_signed n z'.
  Proof. intros Hn E. unfold to_signed. f_equal. rewrite Zplus_mod, E, <-Zplus_mod. done. Qed.
  Lemma signed_mod n z : 0 < n -> to_signed n z mod 2 ^ n = z mod 2 ^ n.
  Proof.
    intros Hn. unfold to_signed. rewrite Zminus_mod, Zmod_mod, <-Zminus_mod. f_equal. lia.
  Qed.
  Lemma conv_range t z : in_range t (conv_int t z).
  Proof.
    destruct (decide (kd t = FX_BOOL)) as [E|Hp].
    - unfold Fold_spec.in_range, Fold_spec.conv_int, lo, hi. rewrite E. case_decide; lia.
    - apply range_proper; [done|]. rewrite conv_proper by done. pose proof (width_pos t). destruct (uns t).
      + apply Z.mod_pos_bound. lia.
      + by apply signed_bound.
  Qed.
  Lemma conv_id t z : in_range t z -> conv_int t z = z.
  Proof.
    intros Hz. destruct (decide (kd t = FX_BOOL)) as [E|Hp].
    - unfold Fold_spec.in_range, Fold_spec.conv_int, lo, hi in *. rewrite E in *. case_decide; lia.
    - apply range_proper in Hz; [|done]. rewrite conv_proper by done. pose proof (width_pos t). destruct (uns t).
      + by apply Z.mod_small.
      + by apply signed_id.
  Qed.

  (** Fixnums and their values. *)
  Lemma const_range t z : const_ok lp64 t z -> in_range t (denote t z).
  Proof.
    intros [Ht Hz]. unfold denote. destruct (decide (kd t = FX_BOOL)) as [E|Hp].
    - unfold type_ok in Ht. rewrite E in Ht. rewrite Ht. unfold Fold_spec.width in Hz. rewrite E in Hz. done.
    - apply range_proper; [done|]. pose proof (width_pos t). destruct (uns t) eqn:Eu; [apply Z.mod_pos_bound; lia|].
      case_decide as Hw; [rewrite Hw; exact Hz|]. apply range_proper in Hz; [|done]. by rewrite Eu in Hz.
  Qed.
  Lemma const_fix t z : const_ok lp64 t z -> fixmin <= z <= fixmax /\ z mod 2 ^ width t = denote t z mod 2 ^ width t /\ z mod 2 ^ 64 = denote t z mod 2 ^ 64 /\
    (z = 0 <-> denote t z = 0).
  Proof.
    intros [Ht Hz]. unfold denote, fixmin, fixmax. destruct (decide (kd t = FX_BOOL)) as [E|Hp].
    - unfold type_ok in Ht. rewrite E in Ht. rewrite Ht. unfold Fold_spec.width in Hz. rewrite E in Hz. rewrite decide_False in Hz by done.
      unfold Fold_spec.in_range, lo, hi in Hz. rewrite E in Hz. split; [lia|]. done.
    - pose proof (width_pos t). case_decide as Hw.
      + rewrite Hw. split; [lia|]. destruct (uns t); [rewrite !Zmod_mod|done]. split; [done|]. split; [done|].
        split; [by intros ->|]. intros E0. destruct (Z.lt_ge_cases z 0); [|by rewrite Z.mod_small in E0 by lia].
        rewrite <-(Z.mod_unique z (2 ^ 64) (-1) (z + 2 ^ 64)) in E0; lia.
      + apply range_proper in Hz; [|done]. assert (2 ^ width t <= 2 ^ 32) by (apply Z.pow_le_mono_r; destruct (width_cases t) as [?|[?|[?|?]]]; lia).
        pose proof (pow_split (width t) ltac:(lia)). destruct (uns t).
        * rewrite !(Z.mod_small z (2 ^ width t)) by lia. split; [lia|]. split; [done|]. split; [done|]. tauto.
        * split; [lia|]. split; [done|]. split; [done|]. tauto.
  Qed.
  (** wrap_value gives the Fixnum of the converted value. *)
  Lemma wrap_const t z : proper t -> type_ok t -> fixmin <= z <= fixmax ->
    const_ok lp64 t (wrap_value z (fsize lp64 t) (uns t)) /\ denote t (wrap_value z (fsize lp64 t) (uns t)) = conv_int t z.
  Proof.
    intros Hp Ht Hz. unfold fixmin, fixmax in Hz. rewrite conv_proper by done. unfold const_ok. unfold denote, fsize, wrap_value.
    assert (Hw: width t = 8 * fixnum_size lp64 (kd t)) by done.
    assert (forall n v, 0 < n -> 0 <= to_unsigned n v < 2 ^ n) as Hu by (intros; apply Z.mod_pos_bound; lia).
    pose proof (fun n v => signed_bound n v) as Hs.
    destruct (width_cases t) as [E|[E|[E|E]]]; rewrite E in *;
      [assert (fixnum_size lp64 (kd t) = 1) as -> by lia|assert (fixnum_size lp64 (kd t) = 2) as -> by lia|
       assert (fixnum_size lp64 (kd t) = 4) as -> by lia|assert (fixnum_size lp64 (kd t) = 8) as -> by lia]; cbn [Z.eqb Pos.eqb].
    1-3: rewrite decide_False by lia; rewrite range_proper, E by done; destruct (uns t); (split; [split; [done|]|]);
      [apply Hu; lia|unfold to_unsigned; by rewrite Zmod_mod|apply Hs; lia|done].
    rewrite decide_True by done. destruct (uns t); (split; [split; [done|lia]|]); [done|]. symmetry. apply signed_id; lia.
  Qed.

  (** Types of values. *)
  Lemma norm_range t z v : type_ok t -> norm lp64 t z = Some v -> in_range t v.
  Proof.
    intros Ht. unfold norm. destruct (uns t) eqn:Eu; [|by case_decide; intros [= <-]]. intros [= <-].
    assert (proper t) as Hp by (unfold type_ok in Ht; intros E; rewrite E in Ht; congruence).
    apply range_proper; [done|]. rewrite Eu. pose proof (width_pos t). apply Z.mod_pos_bound. lia.
  Qed.
  Lemma norm_id t z : in_range t z -> type_ok t -> norm lp64 t z = Some z.
  Proof.
    intros Hz Ht. unfold norm. destruct (uns t) eqn:Eu; [|by rewrite decide_True].
    assert (proper t) as Hp by (unfold type_ok in Ht; intros E; rewrite E in Ht; congruence).
    apply range_proper in Hz; [|done]. rewrite Eu in Hz. by rewrite Z.mod_small.
  Qed.
  Lemma arith_range t k a b v : type_ok t -> arith lp64 t k a b = Some v -> in_range t v.
  Proof.
    intros Ht. unfold arith. destruct k; repeat case_decide; try destruct (uns t) eqn:?; try done; try (by apply norm_range).
    all: destruct (norm lp64 t (Z.quot a b)); cbn [mbind option_bind]; [by apply norm_range|done].
  Qed.
  Lemma conv_type t v w : conv lp64 t v = Some w -> has_type lp64 t w.
  Proof.
    destruct t as [t|k], v as [z|f]; cbn [conv]; try (by intros [= <-]).
    - intros [= <-]. apply conv_range.
    - destruct (kd t) eqn:E; try (destruct (trunc f); cbn [mbind option_bind]; [|done]; case_decide; intros [= <-]; done).
      intros [= <-]. cbn. unfold Fold_spec.in_range, lo, hi. rewrite E. destruct (flo_zero f); lia.
  Qed.
  Lemma eval_type hprec hemax env : env_ok lp64 env -> forall e h h' v, wf lp64 hprec hemax e -> eval env h e = Some (h', v) -> has_type lp64 (type_of e) v.
  Proof.
    intros He. induction e as [t z|k f|t n|k t l IHl r IHr|k l IHl r IHr|k l IHl r IHr|t e IH|t e IH|t e IH|t e IH|l IHl r IHr|t c IHc l IHl r IHr];
      intros h h' v Hw; cbn [Fold_spec.eval type_of].
    - intros [= <- <-]. apply const_range. exact Hw.
    - by intros [= <- <-].
    - intros [= <- <-]. apply He.
    - destruct Hw as (Ht & Hl & Hr).
      destruct (eval env h l) as [[h1 a]|]; cbn [mbind option_bind]; [|done]. destruct (eval env h1 r) as [[h2 b]|]; cbn [mbind option_bind]; [|done].
      destruct t as [t|fk], a, b; try done.
      + destruct (arith lp64 t k z z0) eqn:E; cbn [mbind option_bind]; [|done]. intros [= <- <-]. by eapply arith_range.
      + destruct (farith fk k f f0); cbn [mbind option_bind]; [|done]. by intros [= <- <-].
    - destruct (eval env h l) as [[h1 a]|]; cbn [mbind option_bind]; [|done]. destruct (eval env h1 r) as [[h2 b]|]; cbn [mbind option_bind]; [|done].
      destruct (compare_vals a b); cbn [mbind option_bind]; [|done]. intros [= <- <-]. destruct (holds k o); cbn; unfold Fold_spec.in_range; cbn; lia.
    - destruct k.
      all: destruct (eval env h l) as [[h1 a]|]; cbn [mbind option_bind]; [|done]; destruct (truthy a);
        try destruct (eval env h1 r) as [[h2 b]|]; cbn [mbind option_bind]; try done; intros [= <- <-]; try destruct (truthy b); cbn; unfold Fold_spec.in_range; cbn; lia.
    - destruct Hw as (Ht & Hw). destruct (eval env h e) as [[h1 a]|]; cbn [mbind option_bind]; [|done]. destruct t as [t|], a as [a|f]; try done.
      + destruct (norm lp64 t (- a)) eqn:E; cbn [mbind option_bind]; [|done]. intros [= <- <-]. by eapply norm_range.
      + by intros [= <- <-].
    - destruct Hw as (Ht & Hw). destruct (eval env h e) as [[h1 a]|]; cbn [mbind option_bind]; [|done]. destruct t as [t|], a as [a|f]; try done.
      destruct (norm lp64 t (Z.lnot a)) eqn:E; cbn [mbind option_bind]; [|done]. intros [= <- <-]. by eapply norm_range.
    - destruct (eval env h e) as [[h1 a]|]; cbn [mbind option_bind]; [|done]. destruct (conv lp64 t a) eqn:E; cbn [mbind option_bind]; [|done].
      intros [= <- <-]. by eapply conv_type.
    - destruct (eval env h e) as [[h1 a]|]; cbn [mbind option_bind]; [|done]. destruct (conv lp64 t a) eqn:E; cbn [mbind option_bind]; [|done].
      intros [= <- <-]. by eapply conv_type.
    - destruct Hw as (Hl & Hr). destruct (eval env h l) as [[h1 a]|]; cbn [mbind option_bind]; [|done]. by apply IHr.
    - destruct (eval env h c) as [[h1 a]|]; cbn [mbind option_bind]; [|done].
      destruct (if truthy a then _ else _) as [[h2 b]|]; cbn [mbind option_bind]; [|done]. destruct (conv lp64 t b) eqn:E; cbn [mbind option_bind]; [|done].
      intros [= <- <-]. by eapply conv_type.
  Qed.

  Definition eqv (e e' : expr) : Prop := forall env h, env_ok lp64 env -> eval env h e = eval env h e'.

  Section casts.
    Context (hprec hemax : Z).
    Notation wf := (wf lp64 hprec hemax). Notation make_cast := (make_cast lp64 hprec hemax).

    Lemma fix_value e t env h h' v : wf e -> type_of e = NFix t -> env_ok lp64 env -> eval env h e = Some (h', v) -> exists z, v = VI z /\ in_range t z.
    Proof. intros Hw Ht He E. pose proof (eval_type _ _ env He e h h' v Hw E) as H. rewrite Ht in H. destruct v; [by exists z|done]. Qed.

    Lemma make_cast_fix t s e : wf e -> type_of e = NFix s -> type_ok t ->
      exists e', make_cast (NFix t) e = Some e' /\ type_of e' = NFix t /\ wf e' /\ eqv e' (ECast (NFix t) e).
    Proof.
      intros Hw Hs Ht. unfold Fold_model.make_cast. rewrite Hs. case_decide as Hd.
      { exists e. split; [done|]. split; [congruence|]. split; [done|]. intros env h He. cbn [Fold_spec.eval].
        destruct (eval env h e) as [[h' v]|] eqn:E; cbn [mbind option_bind]; [|done].
        destruct (fix_value e s env h h' v Hw Hs He E) as (z & -> & Hz). cbn. injection Hd as ->. by rewrite conv_id. }
      destruct e as [u z|k f|u n|k u l r|k l r|k l r|u e|u e|u e|u e|l r|u c l r];
        try (eexists; split; [reflexivity|]; split; [done|]; split; [by split|]; by intros env h He).
      - cbn in Hs. injection Hs as <-. cbn [Fold_spec.wf] in Hw. destruct (const_fix u z Hw) as (Hf & Hm & Hm64 & H0).
        destruct (kd t) eqn:Ek; [..|].
        7: { exists (EFix t (if z =? 0 then 0 else 1)). split; [done|]. split; [done|]. split.
          - cbn. unfold const_ok. split; [done|]. unfold Fold_spec.width. rewrite Ek. rewrite decide_False by done.
            unfold Fold_spec.in_range, lo, hi. rewrite Ek. destruct (z =? 0); lia.
          - intros env h He. cbn. fold (denote u z). unfold Fold_spec.conv_int. rewrite Ek.
            unfold type_ok in Ht. rewrite Ek in Ht. rewrite Ht. do 3 f_equal. destruct (Z.eqb_spec z 0) as [Hz|Hz].
            + rewrite decide_True by tauto. done.
            + rewrite decide_False by tauto. done. }
        all: assert (proper t) as Hp by (unfold proper; congruence); destruct (wrap_const t z Hp Ht Hf) as [Hc Hd'];
          exists (EFix t (wrap_value z (fsize lp64 t) (uns t))); split; [done|]; split; [done|]; split; [exact Hc|];
          intros env h He; cbn [Fold_spec.eval]; fold (denote t (wrap_value z (fsize lp64 t) (uns t))); fold (denote u z); rewrite Hd'; cbn; do 3 f_equal;
          rewrite !conv_proper by done; pose proof (width_pos t) as Hwp;
          (assert (z mod 2 ^ width t = denote u z mod 2 ^ width t) as Em;
            [assert (2 ^ 64 = 2 ^ width t * 2 ^ (64 - width t)) as E64 by (rewrite <-Z.pow_add_r by (destruct (width_cases t) as [?|[?|[?|?]]]; lia); f_equal; lia);
             assert (forall x, (x mod 2 ^ 64) mod 2 ^ width t = x mod 2 ^ width t) as Hmm by (intros x; symmetry; apply Zmod_div_mod; [apply Z.pow_pos_nonneg; lia|done|exists (2 ^ (64 - width t)); lia]);
             rewrite <-(Hmm z), Hm64, Hmm; done|]);
          destruct (uns t); [done|by apply signed_cong].
      - done.
    Qed.

    Lemma eqv_refl e : eqv e e.
    Proof. by intros env h He. Qed.
    Lemma eqv_trans e1 e2 e3 : eqv e1 e2 -> eqv e2 e3 -> eqv e1 e3.
    Proof. intros H1 H2 env h He. by rewrite H1, H2. Qed.
    Lemma cast_self e t : wf e -> type_of e = NFix t -> eqv e (ECast (NFix t) e).
    Proof.
      intros Hw Ht env h He. cbn [Fold_spec.eval]. destruct (eval env h e) as [[h' v]|] eqn:E; cbn [mbind option_bind]; [|done].
      destruct (fix_value e t env h h' v Hw Ht He E) as (z & -> & Hz). cbn. by rewrite conv_id.
    Qed.
    (** Conversion depends only on size and signedness. *)
    Lemma same_repr_conv t u z : proper t -> proper u -> same_repr t u -> conv_int t z = conv_int u z.
    Proof. intros Ht Hu [Hs Hn]. rewrite !conv_proper by done. unfold Fold_spec.width. by rewrite Hs, Hn. Qed.
    Lemma same_repr_range t u z : proper t -> proper u -> same_repr t u -> in_range t z <-> in_range u z.
    Proof. intros Ht Hu [Hs Hn]. rewrite !range_proper by done. unfold Fold_spec.width. by rewrite Hs, Hn. Qed.
    Lemma same_repr_norm t u z : proper t -> proper u -> same_repr t u -> norm lp64 t z = norm lp64 u z.
    Proof.
      intros Ht Hu HH. pose proof HH as [Hs Hn]. unfold norm. rewrite Hn. destruct (uns u); [unfold Fold_spec.width; by rewrite Hs|].
      pose proof (same_repr_range t u z Ht Hu HH). repeat case_decide; tauto.
    Qed.
    Lemma same_repr_arith t u k a b : proper t -> proper u -> same_repr t u -> arith lp64 t k a b = arith lp64 u k a b.
    Proof.
      intros Ht Hu HH. pose proof HH as [Hs Hn]. unfold arith. rewrite !(fun z => same_repr_norm t u z Ht Hu HH).
      assert (width t = width u) as -> by (unfold Fold_spec.width; by rewrite Hs). by rewrite Hn.
    Qed.
    Lemma same_repr_cast t u e s : wf e -> type_of e = NFix s -> proper t -> proper u -> same_repr t u -> eqv (ECast (NFix t) e) (ECast (NFix u) e).
    Proof.
      intros Hw Hs Ht Hu HH env h He. cbn [Fold_spec.eval]. destruct (eval env h e) as [[h' v]|] eqn:E; cbn [mbind option_bind]; [|done].
      destruct (fix_value e s env h h' v Hw Hs He E) as (z & -> & Hz). cbn. by rewrite (same_repr_conv t u).
    Qed.

    (** The type cast_numbers chooses. *)
    Definition chosen (make_int : bool) (lt rt : fty) : fty :=
      let lt := if enum_or_bool (kd lt) then tyInt else lt in
      let rt := if enum_or_bool (kd rt) then tyInt else rt in
      if make_int && below_int (kd lt) && below_int (kd rt) then tyInt
      else if Z.lor (Z.shiftl (fsize lp64 rt) 1) (if uns rt then 1 else 0) <=? Z.lor (Z.shiftl (fsize lp64 lt) 1) (if uns lt then 1 else 0) then lt else rt.
    Definition full (t : fty) : Prop := match kd t with FX_INT | FX_LONG | FX_LLONG => True | _ => False end.
    Lemma full_proper t : full t -> proper t /\ type_ok t.
    Proof. unfold full, proper, type_ok. by destruct (kd t). Qed.
    Lemma chosen_ok lt rt : type_ok lt -> type_ok rt -> same_repr (chosen true lt rt) (common lp64 lt rt) /\ full (chosen true lt rt) /\ full (common lp64 lt rt).
    Proof. unfold chosen. destruct lt as [[] []], rt as [[] []]; intros Hl Hr; try (by cbn in Hl); try (by cbn in Hr); destruct lp64; (split; [split; vm_compute; reflexivity|]; split; vm_compute; exact I). Qed.
    Definition chosen_cmp (lt rt : fty) : fty :=
      chosen false (if below_int (kd lt) then tyInt else lt) (if below_int (kd rt) then tyInt else rt).
    Lemma chosen_cmp_ok lt rt : type_ok lt -> type_ok rt ->
      same_repr (chosen_cmp lt rt) (common lp64 lt rt) /\ full (chosen_cmp lt rt) /\ full (common lp64 lt rt).
    Proof. unfold chosen_cmp, chosen. destruct lt as [[] []], rt as [[] []]; intros Hl Hr; try (by cbn in Hl); try (by cbn in Hr); destruct lp64; (split; [split; vm_compute; reflexivity|]; split; vm_compute; exact I). Qed.

    Lemma wf_type e t : wf e -> type_of e = NFix t -> type_ok t.
    Proof.
      induction e; cbn; intros Hw Ht; try (injection Ht as <-); try done; try (destruct Hw as [Hw ?]; by rewrite Ht in Hw); try (by subst); try (by apply Hw).
      apply IHe2; [apply Hw|done].
    Qed.
    Lemma promote_fix e t : wf e -> type_of e = NFix t -> type_ok t ->
      exists e', promote_to_int lp64 hprec hemax e = Some e' /\ type_of e' = NFix (promoted lp64 t) /\ wf e' /\ eqv e' (ECast (NFix (promoted lp64 t)) e).
    Proof.
      intros Hw Ht Hok. unfold promote_to_int. rewrite Ht.
      assert (full t /\ promoted lp64 t = t \/ ~ full t /\ promoted lp64 t = tyInt) as [[Hf Hp]|[Hf Hp]].
      { destruct t as [[] []]; try (by destruct Hok); destruct lp64; vm_compute; try (by left); right; (split; [by intros []|reflexivity]). }
      - rewrite Hp. exists e. split; [unfold full in Hf; by destruct (kd t)|]. split; [done|]. split; [done|]. by apply cast_self.
      - rewrite Hp. destruct (make_cast_fix tyInt t e Hw Ht I) as (e' & E & H). exists e'. split; [|done]. unfold full in Hf. destruct (kd t); try done; by destruct Hf.
    Qed.

    Lemma cast_numbers_fix l r lt rt make_int : wf l -> wf r -> type_of l = NFix lt -> type_of r = NFix rt ->
      exists l' r', cast_numbers lp64 hprec hemax l r make_int = Some (l', r') /\
        type_of l' = NFix (chosen make_int lt rt) /\ type_of r' = NFix (chosen make_int lt rt) /\ wf l' /\ wf r' /\
        eqv l' (ECast (NFix (chosen make_int lt rt)) l) /\ eqv r' (ECast (NFix (chosen make_int lt rt)) r).
    Proof.
      intros Hl Hr Tl Tr. pose proof (wf_type l lt Hl Tl) as Ol. pose proof (wf_type r rt Hr Tr) as Or. unfold cast_numbers, chosen. rewrite Tl, Tr.
      set (lt' := if enum_or_bool (kd lt) then tyInt else lt). set (rt' := if enum_or_bool (kd rt) then tyInt else rt).
      assert (type_ok lt') by (unfold lt'; destruct (enum_or_bool (kd lt)); [exact I|exact Ol]).
      assert (type_ok rt') by (unfold rt'; destruct (enum_or_bool (kd rt)); [exact I|exact Or]).
      destruct (make_int && below_int (kd lt') && below_int (kd rt')) eqn:Ei.
      - apply andb_prop in Ei as [Ei Hbr]. apply andb_prop in Ei as [_ Hbl].
        assert (forall t t' : fty, t' = (if enum_or_bool (kd t) then tyInt else t) -> below_int (kd t') = true -> type_ok t -> promoted lp64 t = tyInt) as Hpr.
        { clear. intros t t' -> Hb Ht. destruct t as [[] []]; try done; destruct lp64; reflexivity. }
        destruct (promote_fix l lt Hl Tl Ol) as (l' & -> & Tl' & Hl' & El). destruct (promote_fix r rt Hr Tr Or) as (r' & -> & Tr' & Hr' & Er).
        rewrite (Hpr lt lt') in * by done. rewrite (Hpr rt rt') in * by done. cbn [mbind option_bind]. by exists l', r'.
      - destruct ((enum_or_bool (kd lt) || enum_or_bool (kd rt)) || negb (bool_decide (lt' = rt'))) eqn:Ec.
        + set (t := if _ <=? _ then lt' else rt'). assert (type_ok t) as Ot by (unfold t; by destruct (_ <=? _)).
          destruct (make_cast_fix t lt l Hl Tl Ot) as (l' & -> & ?). destruct (make_cast_fix t rt r Hr Tr Ot) as (r' & -> & ?). cbn [mbind option_bind].
          exists l', r'. split; [done|]. tauto.
        + apply orb_false_iff in Ec as [Ec Ed]. apply orb_false_iff in Ec as [E1 E2]. apply negb_false_iff, bool_decide_eq_true in Ed.
          assert (rt = lt) by (unfold lt', rt' in Ed; rewrite E1, E2 in Ed; congruence). subst rt. unfold lt', rt'. rewrite E1.
          assert (forall x : bool, (if x then lt else lt) = lt) as -> by (by intros []).
          exists l, r. split; [done|]. split; [done|]. split; [done|]. split; [done|]. split; [done|]. split; by apply cast_self.
    Qed.

    Definition c_bop_at (t : fty) (k : bop) (l r : expr) : expr := EBop k (NFix t) (ECast (NFix t) l) (ECast (NFix t) r).
    Lemma bop_eqv k t u l r l' r' lt rt : wf l -> wf r -> type_of l = NFix lt -> type_of r = NFix rt -> full t -> full u -> same_repr t u ->
      eqv l' (ECast (NFix t) l) -> eqv r' (ECast (NFix t) r) -> eqv (EBop k (NFix t) l' r') (c_bop_at u k l r).
    Proof.
      intros Hl Hr Tl Tr Ft Fu Hs El Er env h He. unfold c_bop_at. cbn [Fold_spec.eval].
      destruct (full_proper t Ft), (full_proper u Fu).
      rewrite El, (same_repr_cast t u l lt Hl Tl) by done. cbn [Fold_spec.eval].
      destruct (eval env h l) as [[h1 a]|] eqn:E1; cbn [mbind option_bind]; [|done].
      destruct (fix_value l lt env h h1 a Hl Tl He E1) as (za & -> & Ha). cbn [conv mbind option_bind].
      rewrite Er, (same_repr_cast t u r rt Hr Tr) by done. cbn [Fold_spec.eval].
      destruct (eval env h1 r) as [[h2 b]|] eqn:E2; cbn [mbind option_bind]; [|done].
      destruct (fix_value r rt env h1 h2 b Hr Tr He E2) as (zb & -> & Hb). cbn [conv mbind option_bind].
      by rewrite (same_repr_arith t u).
    Qed.
  End casts.
End proof.
