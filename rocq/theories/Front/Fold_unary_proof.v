From stdpp Require Import base list numbers.
From Coq Require Import Znumtheory Floats.SpecFloat.
From Verif Require Import Util.Wrap_model Front.Layout_model Front.Fold_model Front.Fold_spec Front.Fold_proof Front.Fold_num_proof.
Open Scope Z_scope.

Section proof.
  Context (lp64 : bool) (hprec hemax : Z).
  Notation wf := (wf lp64 hprec hemax). Notation eval := (eval lp64). Notation eqv := (eqv lp64). Notation refines := (refines lp64).
  Notation denote := (denote lp64). Notation in_range := (in_range lp64). Notation width := (width lp64).

  Lemma convert_eqv e t : wf e -> eqv (convert (NFix t) e) (ECast (NFix t) e).
  Proof.
    intros Hw. unfold convert. case_decide as E; [|by intros ???]. by eapply cast_self.
  Qed.
  Lemma promoted_full t : type_ok t -> full (promoted lp64 t).
  Proof. destruct t as [[] []]; intros H; try (cbv in H; discriminate H); destruct lp64; vm_compute; exact I. Qed.
  Lemma common_self t : type_ok t -> common lp64 t t = promoted lp64 t.
  Proof. destruct t as [[] []]; intros H; try (cbv in H; discriminate H); destruct lp64; vm_compute; reflexivity. Qed.
  Lemma wider t u : lo lp64 u <= lo lp64 t -> hi lp64 t <= hi lp64 u -> forall z, in_range t z -> in_range u z.
  Proof. unfold Fold_spec.in_range. lia. Qed.
  Lemma promoted_range t z : type_ok t -> in_range t z -> in_range (promoted lp64 t) z.
  Proof. intros H. apply wider; (destruct t as [[] []]; try (cbv in H; discriminate H); destruct lp64; apply (bool_decide_unpack _); vm_compute; exact I). Qed.

  Lemma const_eval t z env h : eval env h (EFix t z) = Some (h, VI (denote t z)).
  Proof. done. Qed.

  (** Addition and subtraction. *)
  Definition kind_chosen (lt rt : fty) : fty :=
    let lt := if enum_or_bool (kd lt) then tyInt else lt in
    let rt := if enum_or_bool (kd rt) then tyInt else rt in
    let t := if fk_index (kd rt) <=? fk_index (kd lt) then lt else rt in
    if below_int (kd t) then tyInt else t.
  Definition plain_sum (lt rt : fty) : Prop :=
    let pl := promoted lp64 lt in let pr := promoted lp64 rt in
    (uns pl = false /\ uns pr = false) \/ (pl = pr /\ width pl < 64).
  Lemma kind_chosen_ok lt rt : type_ok lt -> type_ok rt -> plain_sum lt rt ->
    kind_chosen lt rt = common lp64 lt rt /\ full (kind_chosen lt rt) /\ (uns (common lp64 lt rt) = true -> promoted lp64 lt = common lp64 lt rt /\ promoted lp64 rt = common lp64 lt rt /\ width (common lp64 lt rt) < 64).
  Proof.
    unfold plain_sum. destruct lt as [[] []], rt as [[] []]; intros Hl Hr; try (cbv in Hl; discriminate Hl); try (cbv in Hr; discriminate Hr);
      destruct lp64; vm_compute; intros [[? ?]|[? ?]]; try done.
  Qed.
  Definition inside (s t : fty) : bool := (lo lp64 t <=? lo lp64 s) && (hi lp64 s <=? hi lp64 t) && (negb (uns s) || (width s <? 32)).
  Definition all_types : list fty := [Fty FX_CHAR false; Fty FX_CHAR true; Fty FX_SHORT false; Fty FX_SHORT true; Fty FX_INT false; Fty FX_INT true;
    Fty FX_LONG false; Fty FX_LONG true; Fty FX_LLONG false; Fty FX_LLONG true; Fty FX_ENUM false; Fty FX_BOOL false].
  Lemma all_types_in t : type_ok t -> t ∈ all_types.
  Proof. intros H. destruct t as [[] []]; try (cbv in H; discriminate H); apply (bool_decide_unpack _); vm_compute; exact I. Qed.
  Lemma plain_inside lt rt : type_ok lt -> type_ok rt -> plain_sum lt rt -> uns (common lp64 lt rt) = false ->
    inside lt (common lp64 lt rt) = true /\ inside rt (common lp64 lt rt) = true.
  Proof.
    unfold plain_sum. intros Hl%all_types_in Hr%all_types_in Hp Hu.
    assert (uns (promoted lp64 lt) = false /\ uns (promoted lp64 rt) = false) as [Pl Pr].
    { destruct Hp as [?|[Hp _]]; [done|]. clear -Hl Hr Hp Hu. revert Hu. unfold common. rewrite <-Hp. destruct (decide _); [|done]. case_decide; intros ->; done. }
    clear Hp. apply andb_true_iff.
    assert (forallb (fun l => forallb (fun r => uns (promoted lp64 l) || uns (promoted lp64 r) || inside l (common lp64 l r) && inside r (common lp64 l r)) all_types) all_types = true) as H
      by (unfold inside; destruct lp64; vm_compute; reflexivity).
    rewrite forallb_forall in H. specialize (H lt (proj1 (elem_of_list_In _ _) Hl)). rewrite forallb_forall in H. specialize (H rt (proj1 (elem_of_list_In _ _) Hr)).
    rewrite Pl, Pr in H. exact H.
  Qed.
  Lemma inside_const s t z : full t -> inside s t = true -> const_ok lp64 s z -> denote s z = z /\ in_range t z.
  Proof.
    intros Hf [[Hlo%Z.leb_le Hhi%Z.leb_le]%andb_prop Hu]%andb_prop Hc. pose proof (const_range _ _ _ Hc) as Hr.
    assert (denote s z = z) as E.
    { unfold Fold_proof.denote. destruct (uns s) eqn:Eu; [|done]. apply Z.ltb_lt in Hu. destruct Hc as [Ht Hc]. rewrite decide_False in Hc by lia.
      apply range_proper in Hc; [|intros E; unfold type_ok in Ht; rewrite E in Ht; congruence]. rewrite Eu in Hc. by apply Z.mod_small. }
    rewrite E in Hr. split; [done|]. by eapply wider.
  Qed.
  Lemma promoted_same t : type_ok t -> uns (promoted lp64 t) = true -> full t /\ promoted lp64 t = t.
  Proof. destruct t as [[] []]; intros H; try (cbv in H; discriminate H); destruct lp64; by vm_compute. Qed.

  Theorem addsub_ok k l r lt rt : (k = EX_ADD \/ k = EX_SUB) -> wf l -> wf r -> type_of l = NFix lt -> type_of r = NFix rt ->
    (is_const l = true -> is_const r = true -> plain_sum lt rt) -> defined lp64 (c_bop lp64 k l r) ->
    exists e, new_expr_addsub lp64 hprec hemax k l r = Some e /\
      type_like lp64 (type_of e) (NFix (common lp64 lt rt)) /\ wf e /\ refines e (c_bop lp64 k l r).
  Proof.
    intros Hk Hl Hr Tl Tr Hc Hdef.
    pose proof (wf_type lp64 _ _ l lt Hl Tl) as Ol. pose proof (wf_type lp64 _ _ r rt Hr Tr) as Or.
    assert (Ho: exists e, ('(l, r) ← cast_numbers lp64 hprec hemax l r true; Some (EBop k (type_of l) l r)) = Some e /\ type_like lp64 (type_of e) (NFix (common lp64 lt rt)) /\ wf e /\ refines e (c_bop lp64 k l r)).
    { destruct (chosen_ok lp64 lt rt Ol Or) as (Hrep & Hf & Hfc). set (t := chosen lp64 true lt rt) in *.
      destruct (cast_numbers_fix lp64 hprec hemax l r lt rt true Hl Hr Tl Tr) as (l' & r' & -> & Tl' & Tr' & Hl' & Hr' & El & Er). cbn [mbind option_bind].
      fold t in Tl', Tr', El, Er. rewrite Tl'. eexists. split; [done|]. split; [done|]. split; [by split; [apply full_proper|]|].
      apply eqv_refines. unfold c_bop, common_n. rewrite Tl, Tr. by eapply bop_eqv. }
    unfold new_expr_addsub. destruct l; try (by destruct r); try done. destruct r; try done.
    cbn in Tl, Tr. injection Tl as ->. injection Tr as ->. clear Ho. cbn in Hl, Hr.
    pose proof (Hc eq_refl eq_refl) as Hps. destruct (kind_chosen_ok lt rt Ol Or Hps) as (Et & Hf & Hu). clear Hc.
    set (t := common lp64 lt rt) in *. rewrite Et in Hf.
    pose proof (const_range _ _ _ Hl) as Rl. pose proof (const_range _ _ _ Hr) as Rr.
    assert (Hev: forall env h, eval env h (c_bop lp64 k (EFix lt fixnum) (EFix rt fixnum0)) =
      z ← arith lp64 t k (conv_int lp64 t (denote lt fixnum)) (conv_int lp64 t (denote rt fixnum0)); Some (h, VI z)) by done.
    destruct Hdef as (env & h & _ & Hdef). rewrite Hev in Hdef.
    destruct (arith lp64 t k _ _) as [v|] eqn:Ev; [clear Hdef|done].
    assert (exists z, match k with EX_ADD => fix_check (fixnum + fixnum0) | EX_SUB => fix_check (fixnum - fixnum0) | _ => None end = Some z /\ fixmin <= z <= fixmax /\ conv_int lp64 t z = v) as (z & Ez & Hz & Hcv).
    { destruct (uns t) eqn:Eu.
      - destruct (Hu eq_refl) as (El & Er & Hw).
        destruct (promoted_same lt Ol) as [_ El']; [by rewrite El|]. destruct (promoted_same rt Or) as [_ Er']; [by rewrite Er|].
        rewrite El in El'. rewrite Er in Er'. rewrite <-El', <-Er' in *.
        rewrite !conv_id in Ev by done. destruct Hl as [_ Hl], Hr as [_ Hr]. rewrite decide_False in Hl, Hr by lia.
        assert (denote t fixnum = fixnum) as D1. { apply range_proper in Hl; [|by apply full_proper]. unfold Fold_proof.denote. rewrite Eu in *. by apply Z.mod_small. }
        assert (denote t fixnum0 = fixnum0) as D2. { apply range_proper in Hr; [|by apply full_proper]. unfold Fold_proof.denote. rewrite Eu in *. by apply Z.mod_small. }
        rewrite D1, D2 in *. apply range_proper in Hl, Hr; try (by apply full_proper). rewrite Eu in Hl, Hr.
        assert (2 ^ width t <= 2 ^ 62) by (apply Z.pow_le_mono_r; destruct (full_width lp64 t Hf); lia).
        destruct Hk as [-> | ->]; cbn [arith] in Ev; unfold norm in Ev; rewrite Eu in Ev; injection Ev as <-; eexists; (split; [apply fix_check_ok; unfold fixmin, fixmax; lia|]); (split; [unfold fixmin, fixmax; lia|]).
        + rewrite conv_proper by (by apply full_proper). by rewrite Eu.
        + rewrite conv_proper by (by apply full_proper). by rewrite Eu.
      - destruct (plain_inside lt rt Ol Or Hps Eu) as [I1 I2].
        destruct (inside_const _ _ _ Hf I1 Hl) as [D1 R1]. destruct (inside_const _ _ _ Hf I2 Hr) as [D2 R2].
        rewrite D1, D2, !conv_id in Ev by done.
        destruct Hk as [-> | ->]; cbn [arith] in Ev; apply signed_norm in Ev as [-> Hv]; try done; pose proof (range_fix _ _ _ Hf Eu Hv); eexists;
          (split; [by apply fix_check_ok|]); (split; [done|]); by apply conv_id. }
    rewrite Ez. cbn [mbind option_bind]. fold (kind_chosen lt rt). rewrite Et.
    destruct (folded lp64 hprec hemax t z Hf Hz) as (Tc & Wc & Ec). eexists. split; [done|]. split; [by rewrite Tc|]. split; [done|].
    intros env' h' x _ E. rewrite Hev in E. cbn in E. by rewrite Ec, Hcv.
  Qed.

  (** Unary operators. *)
  Lemma convert_promoted e t : wf e -> type_of e = NFix t -> exists e', promote_to_int lp64 hprec hemax e = Some e' /\ type_of e' = NFix (promoted lp64 t) /\ wf e' /\ eqv e' (convert (NFix (promoted lp64 t)) e).
  Proof.
    intros Hw Ht. pose proof (wf_type _ _ _ e t Hw Ht) as Hok. destruct (promote_fix lp64 hprec hemax e t Hw Ht Hok) as (e' & E & T & W & Q). exists e'.
    split; [done|]. split; [done|]. split; [done|]. eapply eqv_trans; [done|]. intros env h He. symmetry. by apply convert_eqv.
  Qed.
  Theorem neg_ok e t : wf e -> type_of e = NFix t -> defined lp64 (c_neg lp64 e) ->
    (forall s z, e = EFix s z -> uns s = true -> width s = 64 -> denote s z <> 2 ^ 63) ->
    exists e', unary_sign lp64 hprec hemax true e = Some e' /\ type_of e' = NFix (promoted lp64 t) /\ wf e' /\ refines e' (c_neg lp64 e).
  Proof.
    intros Hw Ht Hdef Hmin. destruct (convert_promoted e t Hw Ht) as (e' & E & T & W & Q). unfold unary_sign. rewrite Ht, E. cbn [mbind option_bind].
    pose proof (wf_type _ _ _ e t Hw Ht) as Hok. pose proof (promoted_full t Hok) as Hf.
    assert (Hq: eqv (ENeg (NFix (promoted lp64 t)) e') (c_neg lp64 e)).
    { unfold c_neg. rewrite Ht. intros env h He. cbn [Fold_spec.eval]. by rewrite Q. }
    assert (Ho: exists x, Some (ENeg (type_of e') e') = Some x /\ type_of x = NFix (promoted lp64 t) /\ wf x /\ refines x (c_neg lp64 e)).
    { rewrite T. eexists. split; [done|]. split; [done|]. split; [by split; [apply full_proper|]|]. by apply eqv_refines. }
    destruct e' as [s z| | | | | | | | | | |]; try exact Ho; [|by cbn in T]. cbn in T. injection T as ->. clear Ho.
    set (p := promoted lp64 t) in *. destruct Hdef as (env & h & He & Hd). rewrite <-Hq in Hd by done.
    cbn in Hd. fold (denote p z) in Hd. destruct (norm lp64 p (- denote p z)) as [v|] eqn:Ev; [clear Hd|done].
    pose proof (const_fix lp64 p z W) as (Hz & Em & _ & _).
    assert (Hne: uns p = true -> z <> fixmin).
    { intros Eu ->. destruct (promoted_same t Hok Eu) as [Hft Ep]. fold p in Ep. unfold fixmin in *.
      assert (width p = 64) as E64.
      { destruct (decide (width p = 64)) as [|En]; [done|]. destruct W as [_ W]. rewrite decide_False in W by done. apply range_proper in W; [|by apply full_proper].
        rewrite Eu in W. lia. }
      assert (e = EFix p (- 2 ^ 63)) as ->.
      { unfold promote_to_int in E. rewrite Ht in E. unfold full in Hft. rewrite Ep in E |- *. destruct (kd t); try done; by injection E as <-. }
      apply (Hmin p (- 2 ^ 63) eq_refl Eu E64). unfold Fold_proof.denote. rewrite Eu, E64. reflexivity. }
    assert (fixmin <= - z <= fixmax /\ conv_int lp64 p (- z) = v) as [Hn Hv].
    { destruct (uns p) eqn:Eu.
      - specialize (Hne eq_refl). split; [unfold fixmin, fixmax in *; lia|]. unfold norm in Ev. rewrite Eu in Ev. injection Ev as <-.
        rewrite conv_proper by (by apply full_proper). rewrite Eu. rewrite <-!Z.sub_0_l. rewrite Zminus_mod, Em, <-Zminus_mod. done.
      - rewrite fixnum_denote in Ev by done. apply signed_norm in Ev as [-> Hr]; [|done]. split; [by eapply range_fix|by apply conv_id]. }
    rewrite fix_check_ok by done. cbn [mbind option_bind].
    destruct (folded lp64 hprec hemax p (- z) Hf Hn) as (Tc & Wc & Ec). unfold fixlit in *.
    assert ((match kd p with FX_BOOL => if wrap_value (- z) (fsize lp64 p) (uns p) =? 0 then 0 else 1 | _ => wrap_value (- z) (fsize lp64 p) (uns p) end) = wrap_value (- z) (fsize lp64 p) (uns p)) as E' by (unfold full in Hf; by destruct (kd p)).
    rewrite E' in *. eexists. split; [done|]. split; [done|]. split; [done|].
    eapply refines_eqv; [|exact Hq]. intros env' h' x _ Ex. cbn in Ex. fold (denote p z) in Ex. rewrite Ev in Ex. rewrite Ec, Hv. exact Ex.
  Qed.
  Theorem pos_ok e t : wf e -> type_of e = NFix t ->
    exists e', unary_sign lp64 hprec hemax false e = Some e' /\ type_of e' = NFix (promoted lp64 t) /\ wf e' /\ refines e' (c_pos lp64 e).
  Proof.
    intros Hw Ht. destruct (convert_promoted e t Hw Ht) as (e' & E & T & W & Q). unfold unary_sign. rewrite Ht, E. cbn [mbind option_bind].
    pose proof (wf_type _ _ _ e t Hw Ht) as Hok. pose proof (promoted_full t Hok) as Hf.
    assert (Ho: exists x, Some (EPos (type_of e') e') = Some x /\ type_of x = NFix (promoted lp64 t) /\ wf x /\ refines x (c_pos lp64 e)).
    { rewrite T. eexists. split; [done|]. split; [done|]. split; [by split; [apply full_proper|]|]. unfold c_pos. rewrite Ht.
      eapply refines_eqv; [|exact Q]. apply eqv_refines. intros env h He. symmetry. pose proof (cast_self lp64 hprec hemax e' _ W T env h He) as ->. done. }
    destruct e' as [s z| | | | | | | | | | |]; try exact Ho; [|by cbn in T]. eexists. split; [done|]. split; [done|]. split; [done|]. unfold c_pos. rewrite Ht. by apply eqv_refines.
  Qed.
  Theorem not_ok e t : wf e -> type_of e = NFix t ->
    exists e', unary_not lp64 hprec hemax e = Some e' /\ type_of e' = NFix (promoted lp64 t) /\ wf e' /\ refines e' (c_not lp64 e).
  Proof.
    intros Hw Ht. destruct (convert_promoted e t Hw Ht) as (e' & E & T & W & Q). unfold unary_not. rewrite E. cbn [mbind option_bind].
    pose proof (wf_type _ _ _ e t Hw Ht) as Hok. pose proof (promoted_full t Hok) as Hf.
    assert (Hq: eqv (ENot (NFix (promoted lp64 t)) e') (c_not lp64 e)).
    { unfold c_not. rewrite Ht. intros env h He. cbn [Fold_spec.eval]. by rewrite Q. }
    assert (Ho: exists x, Some (ENot (type_of e') e') = Some x /\ type_of x = NFix (promoted lp64 t) /\ wf x /\ refines x (c_not lp64 e)).
    { rewrite T. eexists. split; [done|]. split; [done|]. split; [by split; [apply full_proper|]|]. by apply eqv_refines. }
    destruct e' as [s z| | | | | | | | | | |]; try exact Ho. cbn in T. injection T as ->. clear Ho.
    set (p := promoted lp64 t) in *. pose proof (const_fix lp64 p z W) as (Hz & Em & _ & _).
    assert (fixmin <= Z.lnot z <= fixmax) as Hn by (unfold Z.lnot, fixmin, fixmax in *; lia).
    assert (norm lp64 p (Z.lnot (denote p z)) = Some (conv_int lp64 p (Z.lnot z))) as Hv.
    { unfold norm. rewrite conv_proper by (by apply full_proper). destruct (uns p) eqn:Eu.
      - f_equal. assert (forall x, Z.lnot x = -1 - x) as Hnot by (intros; unfold Z.lnot; lia). rewrite !Hnot.
        rewrite Zminus_mod, <-Em, <-Zminus_mod. done.
      - rewrite fixnum_denote by done. pose proof (const_range _ _ _ W) as Hr. rewrite fixnum_denote in Hr by done. destruct (full_proper p Hf) as [Hp _].
        apply range_proper in Hr; [|done]. rewrite Eu in Hr. assert (in_range p (Z.lnot z)) as Hr' by (apply range_proper; [done|]; rewrite Eu; unfold Z.lnot; lia).
        rewrite decide_True by done. f_equal. symmetry. apply signed_id; [apply width_pos|]. unfold Z.lnot; lia. }
    destruct (folded lp64 hprec hemax p (Z.lnot z) Hf Hn) as (Tc & Wc & Ec). unfold fixlit in *.
    assert ((match kd p with FX_BOOL => if wrap_value (Z.lnot z) (fsize lp64 p) (uns p) =? 0 then 0 else 1 | _ => wrap_value (Z.lnot z) (fsize lp64 p) (uns p) end) = wrap_value (Z.lnot z) (fsize lp64 p) (uns p)) as E' by (unfold full in Hf; by destruct (kd p)).
    rewrite E' in *. eexists. split; [done|]. split; [done|]. split; [done|].
    eapply refines_eqv; [|exact Hq]. intros env' h' x _ Ex. cbn in Ex. fold (denote p z) in Ex. rewrite Hv in Ex. rewrite Ec. exact Ex.
  Qed.

  (** Shifts. *)
  Theorem shift_ok left l r lt rt : let k := if left : bool then EX_LSHIFT else EX_RSHIFT in
    wf l -> wf r -> type_of l = NFix lt -> type_of r = NFix rt -> defined lp64 (c_shift lp64 k l r) ->
    exists e, shift lp64 hprec hemax left l r = Some e /\ type_of e = NFix (promoted lp64 lt) /\ wf e /\ refines e (c_shift lp64 k l r).
  Proof.
    intros k Hl Hr Tl Tr Hdef. unfold shift. fold k.
    pose proof (wf_type _ _ _ l lt Hl Tl) as Ol. pose proof (promoted_full lt Ol) as Hf.
    destruct (promote_fix lp64 hprec hemax l lt Hl Tl Ol) as (l' & -> & T & W & Q). cbn [mbind option_bind].
    set (p := promoted lp64 lt) in *.
    assert (Hq: eqv (EBop k (NFix p) l' r) (c_shift lp64 k l r)).
    { unfold c_shift. rewrite Tl. intros env h He. cbn [Fold_spec.eval]. by rewrite Q. }
    assert (Ho: exists e, Some (EBop k (type_of l') l' r) = Some e /\ type_of e = NFix p /\ wf e /\ refines e (c_shift lp64 k l r)).
    { rewrite T. eexists. split; [done|]. split; [done|]. split; [by split; [apply full_proper|]|]. by apply eqv_refines. }
    destruct l' as [s a| | | | | | | | | | |]; try exact Ho. destruct r as [s' b| | | | | | | | | | |]; try exact Ho. clear Ho. cbn in T. injection T as ->.
    destruct Hdef as (env & h & He & Hd). rewrite <-Hq in Hd by done. cbn in Hd. fold (denote p a) in Hd. fold (denote s' b) in Hd.
    destruct (arith lp64 p k (denote p a) (denote s' b)) as [v|] eqn:Ev; [clear Hd|done].
    pose proof (const_fix lp64 p a W) as (Ha & Ema & Ema' & _). pose proof (const_fix lp64 s' b Hr) as (Hb & _ & Emb & _).
    assert (0 <= denote s' b < width p) as Hc by (unfold k in Ev; destruct left; cbn [arith] in Ev; by case_decide).
    assert (width p <= 64) as Hw by (destruct (full_width lp64 p Hf); lia).
    set (c := denote s' b) in *.
    assert (to_ufixnum b = c) as Ec. { unfold to_ufixnum, to_unsigned. rewrite Emb. apply Z.mod_small. lia. }
    assert (b = c) as Eb. { unfold to_ufixnum, to_unsigned in Ec. unfold fixmin, fixmax in Hb. destruct (decide (0 <= b)); [rewrite Z.mod_small in Ec by lia; done|].
      rewrite <-(Z.mod_add b 1 (2 ^ 64)), Z.mod_small in Ec by lia. lia. }
    assert (exists z, (if uns p then
                 if to_ufixnum b <? 64 then Some (to_fixnum (if left then Z.shiftl (to_ufixnum a) (to_ufixnum b) mod 2 ^ 64 else Z.shiftr (to_ufixnum a) (to_ufixnum b))) else None
               else if (0 <=? b) && (b <? 64) then
                 (if left then (if 0 <=? a then fix_check (Z.shiftl a b) else None) else Some (Z.shiftr a b))
               else None) = Some z /\ fixmin <= z <= fixmax /\ conv_int lp64 p z = v) as (z & Ez & Hz & Hv).
    { rewrite Ec, Eb. clear Ec Eb. rewrite (proj2 (Z.ltb_lt c 64)), (proj2 (Z.leb_le 0 c)) by lia. cbn [andb]. destruct (uns p) eqn:Eu; cbv zeta.
      - rewrite (ufixnum_denote lp64 p) by done. eexists. split; [done|]. split; [apply to_fixnum_range|]. rewrite conv_to_fixnum by done.
        unfold k in Ev. destruct left; cbn [arith] in Ev; rewrite decide_True in Ev by done; unfold norm in Ev; rewrite Eu in Ev; injection Ev as <-.
        + rewrite mod_mod_width, Z.shiftl_mul_pow2 by (done || lia). done.
        + by rewrite Z.shiftr_div_pow2 by lia.
      - rewrite fixnum_denote in Ev by done. unfold k in Ev. destruct left; cbn [arith] in Ev; rewrite decide_True in Ev by done; rewrite ?Eu in Ev.
        + case_decide; [|done]. rewrite (proj2 (Z.leb_le 0 a)) by done. apply signed_norm in Ev as [-> Hrv]; [|done]. rewrite Z.shiftl_mul_pow2 by lia.
          pose proof (range_fix _ _ _ Hf Eu Hrv). eexists. split; [by apply fix_check_ok|]. split; [done|by apply conv_id].
        + apply signed_norm in Ev as [-> Hrv]; [|done]. rewrite Z.shiftr_div_pow2 by lia. pose proof (range_fix _ _ _ Hf Eu Hrv).
          eexists. split; [done|]. split; [done|by apply conv_id]. }
    cbv zeta. rewrite Ez. cbn [mbind option_bind]. destruct (folded lp64 hprec hemax p z Hf Hz) as (Tc & Wc & Ecc).
    eexists. split; [done|]. split; [done|]. split; [done|].
    eapply refines_eqv; [|exact Hq]. intros env' h' x _ Ex. cbn in Ex. fold (denote p a) in Ex. fold (denote s' b) in Ex. fold c in Ex. rewrite Ev in Ex. rewrite Ecc, Hv. exact Ex.
  Qed.
End proof.
