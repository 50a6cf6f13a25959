From stdpp Require Import base list numbers.
From Coq Require Import Znumtheory Floats.SpecFloat.
From Verif Require Import Util.Wrap_model Front.Layout_model Front.Fold_model Front.Fold_spec Front.Fold_proof.
Open Scope Z_scope.

Section proof.
  Context (lp64 : bool) (first_word : expr -> Z) (hprec hemax : Z).
  Context (pointers : forall e, first_word e <> 0 /\ first_word e <> 1 /\ first_word e <> -1).
  Notation wf := (wf lp64 hprec hemax). Notation eval := (eval lp64). Notation eqv := (eqv lp64). Notation refines := (refines lp64).
  Notation denote := (denote lp64). Notation in_range := (in_range lp64). Notation width := (width lp64).

  Lemma eqv_refines e e' : eqv e e' -> refines e e'.
  Proof. intros H env h x He E. by rewrite H. Qed.
  Lemma refines_trans e1 e2 e3 : refines e1 e2 -> refines e2 e3 -> refines e1 e3.
  Proof. intros H1 H2 env h x He E. by apply H1, H2. Qed.
  Lemma refines_eqv e1 e2 e3 : refines e1 e2 -> eqv e2 e3 -> refines e1 e3.
  Proof. intros H1 H2. eapply refines_trans; [done|]. by apply eqv_refines. Qed.

  Lemma full_width t : full t -> width t = 32 \/ width t = 64.
  Proof. unfold full, Fold_spec.width, fixnum_size. destruct (kd t), lp64; cbn; tauto. Qed.
  Lemma ufixnum_denote t z : full t -> uns t = true -> const_ok lp64 t z -> to_ufixnum z = denote t z.
  Proof.
    intros Hf Hu Hc. pose proof (const_fix lp64 t z Hc) as (_ & _ & E & _). pose proof (const_range lp64 t z Hc) as Hr.
    apply range_proper in Hr; [|by apply full_proper]. rewrite Hu in Hr. unfold to_ufixnum, to_unsigned. rewrite E. apply Z.mod_small.
    assert (2 ^ width t <= 2 ^ 64) by (apply Z.pow_le_mono_r; destruct (full_width t Hf); lia). lia.
  Qed.
  Lemma fixnum_denote t z : uns t = false -> denote t z = z.
  Proof. unfold Fold_proof.denote. by intros ->. Qed.
  Lemma mod_mod_width t z : full t -> (z mod 2 ^ 64) mod 2 ^ width t = z mod 2 ^ width t.
  Proof.
    intros Hf. symmetry. pose proof (width_pos lp64 t). assert (2 ^ 64 = 2 ^ (64 - width t) * 2 ^ width t) as E by (rewrite <-Z.pow_add_r by (destruct (full_width t Hf); lia); f_equal; lia).
    apply Zmod_div_mod; [apply Z.pow_pos_nonneg; lia|done|by exists (2 ^ (64 - width t))].
  Qed.

  (** A folded constant. *)
  Lemma folded t z : full t -> fixmin <= z <= fixmax ->
    let c := fixlit t (wrap_value z (fsize lp64 t) (uns t)) in
    type_of c = NFix t /\ wf c /\ forall env h, eval env h c = Some (h, VI (conv_int lp64 t z)).
  Proof.
    intros Hf Hz c. destruct (full_proper t Hf) as [Hp Ho]. destruct (wrap_const lp64 t z Hp Ho Hz) as [Hc Hd].
    assert (c = EFix t (wrap_value z (fsize lp64 t) (uns t))) as -> by (unfold c, fixlit; unfold full in Hf; by destruct (kd t)).
    split; [done|]. split; [done|]. intros env h. cbn [Fold_spec.eval]. unfold Fold_proof.denote in Hd. by rewrite Hd.
  Qed.
  Lemma to_fixnum_range z : fixmin <= to_fixnum z <= fixmax.
  Proof. unfold to_fixnum, fixmin, fixmax. pose proof (signed_bound 64 z ltac:(lia)). change (64 - 1) with 63 in *. lia. Qed.
  Lemma conv_to_fixnum t z : full t -> uns t = true -> conv_int lp64 t (to_fixnum z) = z mod 2 ^ width t.
  Proof.
    intros Hf Hu. rewrite conv_proper by (by apply full_proper). rewrite Hu. rewrite <-(mod_mod_width t (to_fixnum z)) by done.
    unfold to_fixnum. rewrite signed_mod by lia. by apply mod_mod_width.
  Qed.
  Lemma range_fix t z : full t -> uns t = false -> in_range t z -> fixmin <= z <= fixmax.
  Proof.
    intros Hf Hu Hr. apply range_proper in Hr; [|by apply full_proper]. rewrite Hu in Hr.
    assert (2 ^ (width t - 1) <= 2 ^ 63) by (apply Z.pow_le_mono_r; destruct (full_width t Hf); lia). unfold fixmin, fixmax. lia.
  Qed.
  Lemma fix_check_ok z : fixmin <= z <= fixmax -> fix_check z = Some z.
  Proof. intros H. unfold fix_check. rewrite !(proj2 (Z.leb_le _ _)) by lia. done. Qed.
  Lemma signed_norm t z v : uns t = false -> norm lp64 t z = Some v -> v = z /\ in_range t z.
  Proof. intros Hu. unfold norm. rewrite Hu. case_decide; by intros [= ->]. Qed.

  Definition muls (k : bop) : bool := match k with EX_MUL | EX_DIV | EX_MOD | EX_BITAND | EX_BITOR | EX_BITXOR => true | _ => false end.

  Lemma calc_ok t k l r v : full t -> const_ok lp64 t l -> const_ok lp64 t r -> muls k = true ->
    arith lp64 t k (denote t l) (denote t r) = Some v ->
    exists z, (if uns t then calc_u k (to_ufixnum l) (to_ufixnum r) else calc_s k l r) = Some z /\ fixmin <= z <= fixmax /\ conv_int lp64 t z = v.
  Proof.
    intros Hf Hl Hr Hk Ha. destruct (uns t) eqn:Eu.
    - rewrite !(ufixnum_denote t) by done. pose proof (const_range lp64 t l Hl) as Rl. pose proof (const_range lp64 t r Hr) as Rr.
      apply range_proper in Rl; [|by apply full_proper]. apply range_proper in Rr; [|by apply full_proper]. rewrite Eu in Rl, Rr.
      set (a := denote t l) in *. set (b := denote t r) in *.
      assert (forall z, exists z', Some (to_fixnum z) = Some z' /\ fixmin <= z' <= fixmax /\ conv_int lp64 t z' = z mod 2 ^ width t) as H.
      { intros z. eexists. split; [done|]. split; [apply to_fixnum_range|]. by apply conv_to_fixnum. }
      destruct k; try done; cbn [arith calc_u] in *; unfold norm in Ha; rewrite Eu in Ha.
      1,4-6: injection Ha as <-; apply H.
      + destruct (Z.eqb_spec b 0); [by rewrite decide_True in Ha|]. rewrite decide_False in Ha by done. injection Ha as <-. rewrite Z.quot_div_nonneg by lia. apply H.
      + destruct (Z.eqb_spec b 0); [by rewrite decide_True in Ha|]. rewrite decide_False in Ha by done. cbn in Ha. injection Ha as <-. rewrite Z.rem_mod_nonneg by lia. apply H.
    - rewrite !fixnum_denote in Ha by done. pose proof (const_range lp64 t l Hl) as Rl. pose proof (const_range lp64 t r Hr) as Rr. rewrite !fixnum_denote in Rl, Rr by done.
      assert (forall z, norm lp64 t z = Some v -> exists z', fix_check z = Some z' /\ fixmin <= z' <= fixmax /\ conv_int lp64 t z' = v) as H.
      { intros z [-> Hz]%signed_norm; [|done]. pose proof (range_fix t z Hf Eu Hz). exists z. split; [by apply fix_check_ok|]. split; [done|]. by apply conv_id. }
      assert (forall z, norm lp64 t z = Some v -> exists z', Some z = Some z' /\ fixmin <= z' <= fixmax /\ conv_int lp64 t z' = v) as H'.
      { intros z [-> Hz]%signed_norm; [|done]. pose proof (range_fix t z Hf Eu Hz). exists z. split; [done|]. split; [done|]. by apply conv_id. }
      destruct k; try done; cbn [arith calc_s] in *.
      1: by apply H. 3-5: by apply H'.
      + destruct (Z.eqb_spec r 0); [by rewrite decide_True in Ha|]. rewrite decide_False in Ha by done. by apply H.
      + destruct (Z.eqb_spec r 0); [by rewrite decide_True in Ha|]. rewrite decide_False in Ha by done.
        destruct (norm lp64 t (Z.quot l r)) eqn:Eq; cbn [mbind option_bind] in Ha; [|done]. apply signed_norm in Eq as [-> Hq]; [|done].
        destruct ((l =? fixmin) && (r =? -1)) eqn:Eo; [|by apply H]. apply andb_prop in Eo as [->%Z.eqb_eq ->%Z.eqb_eq].
        pose proof (range_fix t _ Hf Eu Hq) as Hx. vm_compute in Hx. by destruct Hx as [_ []].
  Qed.

  (** The simplifications, on operands of the common type. *)
  Lemma bop_value t k l r env h x : full t -> wf l -> wf r -> type_of l = NFix t -> type_of r = NFix t -> env_ok lp64 env ->
    eval env h (EBop k (NFix t) l r) = Some x ->
    exists h1 h2 a b v, eval env h l = Some (h1, VI a) /\ eval env h1 r = Some (h2, VI b) /\ in_range t a /\ in_range t b /\
      arith lp64 t k a b = Some v /\ x = (h2, VI v).
  Proof.
    intros Hf Hl Hr Tl Tr He. cbn [Fold_spec.eval].
    destruct (eval env h l) as [[h1 a]|] eqn:E1; cbn [mbind option_bind]; [|done]. destruct (fix_value lp64 _ _ l t env h h1 a Hl Tl He E1) as (za & -> & Ha).
    destruct (eval env h1 r) as [[h2 b]|] eqn:E2; cbn [mbind option_bind]; [|done]. destruct (fix_value lp64 _ _ r t env h1 h2 b Hr Tr He E2) as (zb & -> & Hb).
    destruct (arith lp64 t k za zb) eqn:E3; cbn [mbind option_bind]; [|done]. intros [= <-]. exists h1, h2, za, zb, z. done.
  Qed.

  Theorem num_bop_ok k l r lt rt : muls k = true -> wf l -> wf r -> type_of l = NFix lt -> type_of r = NFix rt -> defined lp64 (c_bop lp64 k l r) ->
    exists e, new_expr_num_bop lp64 first_word hprec hemax k l r = Some e /\
      type_like lp64 (type_of e) (NFix (common lp64 lt rt)) /\ wf e /\ refines e (c_bop lp64 k l r).
  Proof.
    intros Hk Hl Hr Tl Tr Hdef. unfold new_expr_num_bop.
    pose proof (wf_type lp64 _ _ l lt Hl Tl) as Ol. pose proof (wf_type lp64 _ _ r rt Hr Tr) as Or.
    destruct (chosen_ok lp64 lt rt Ol Or) as (Hrep & Hf & Hfc). set (t := chosen lp64 true lt rt) in *.
    destruct (cast_numbers_fix lp64 hprec hemax l r lt rt true Hl Hr Tl Tr) as (l' & r' & -> & Tl' & Tr' & Hl' & Hr' & El & Er). cbn [mbind option_bind].
    fold t in Tl', Tr', El, Er.
    assert (Hq: eqv (EBop k (NFix t) l' r') (c_bop lp64 k l r)).
    { unfold c_bop, common_n. rewrite Tl, Tr. by eapply bop_eqv. }
    assert (Hty: type_like lp64 (NFix t) (NFix (common lp64 lt rt))) by done.
    assert (Ho: exists e, Some (EBop k (type_of l') l' r') = Some e /\ type_like lp64 (type_of e) (NFix (common lp64 lt rt)) /\ wf e /\ refines e (c_bop lp64 k l r)).
    { exists (EBop k (NFix t) l' r'). rewrite Tl'. split; [done|]. split; [done|]. split; [by split; [apply full_proper|]|]. by apply eqv_refines. }
    (* a simplification *)
    assert (Hsimp: forall e, type_of e = NFix t -> wf e ->
      (forall env h h1 h2 a b v, env_ok lp64 env -> eval env h l' = Some (h1, VI a) -> eval env h1 r' = Some (h2, VI b) -> in_range t a -> in_range t b ->
        arith lp64 t k a b = Some v -> eval env h e = Some (h2, VI v)) ->
      exists e0, Some e = Some e0 /\ type_like lp64 (type_of e0) (NFix (common lp64 lt rt)) /\ wf e0 /\ refines e0 (c_bop lp64 k l r)).
    { intros e Te We H. exists e. split; [done|]. split; [by rewrite Te|]. split; [done|]. eapply refines_eqv; [|exact Hq].
      intros env h x He E. destruct (bop_value t k l' r' env h x Hf Hl' Hr' Tl' Tr' He E) as (h1 & h2 & a & b & v & E1 & E2 & Ra & Rb & Ea & ->). by eapply H. }
    assert (Hrc: forall rt' rval, r' = EFix rt' rval -> forall env h1 h2 b, eval env h1 r' = Some (h2, VI b) -> h2 = h1 /\ rt' = t /\ b = denote t rval).
    { intros rt' rval -> env h1 h2 b E. cbn in Tr'. injection Tr' as ->. cbn in E. by injection E as <- <-. }
    (* nothing happens when the constant is on the left *)
    assert (Hleft: forall lt' lval, l' = EFix lt' lval ->
       exists e0, match k with
        | EX_MUL =>
          if first_word r' =? 0 then Some (EComma r' l')
          else if first_word r' =? -1 then Some (ENeg (type_of r') r')
          else if first_word r' =? 1 then Some r'
          else Some (EBop k (type_of l') l' r')
        | EX_DIV => if first_word r' =? 1 then Some r' else Some (EBop k (type_of l') l' r')
        | EX_BITAND => if first_word r' =? 0 then Some (EComma r' l') else Some (EBop k (type_of l') l' r')
        | EX_BITOR | EX_BITXOR => if first_word r' =? 0 then Some r' else Some (EBop k (type_of l') l' r')
        | _ => Some (EBop k (type_of l') l' r')
        end = Some e0 /\ type_like lp64 (type_of e0) (NFix (common lp64 lt rt)) /\ wf e0 /\ refines e0 (c_bop lp64 k l r)).
    { intros lt' lval _. destruct (pointers r') as (P0 & P1 & P2). rewrite !(proj2 (Z.eqb_neq _ _)) by done. by destruct k. }
    (* the constant on the right *)
    assert (Hright: forall rt' rval, r' = EFix rt' rval ->
       exists e0, match k with
        | EX_MUL =>
          if rval =? 0 then Some (EComma l' r')
          else if rval =? -1 then Some (ENeg (type_of l') l')
          else if rval =? 1 then Some l'
          else Some (EBop k (type_of l') l' r')
        | EX_DIV => if rval =? 1 then Some l' else Some (EBop k (type_of l') l' r')
        | EX_BITAND => if rval =? 0 then Some (EComma l' r') else Some (EBop k (type_of l') l' r')
        | EX_BITOR | EX_BITXOR => if rval =? 0 then Some l' else Some (EBop k (type_of l') l' r')
        | _ => Some (EBop k (type_of l') l' r')
        end = Some e0 /\ type_like lp64 (type_of e0) (NFix (common lp64 lt rt)) /\ wf e0 /\ refines e0 (c_bop lp64 k l r)).
    { intros rt' rval Er'. specialize (Hrc _ _ Er'). destruct (full_proper t Hf) as [Hp Hok]. pose proof (width_pos lp64 t) as Hwp.
      assert (Hd0: denote t 0 = 0) by (unfold Fold_proof.denote; destruct (uns t); [by rewrite Z.mod_0_l by (apply Z.pow_nonzero; lia)|done]).
      assert (Hd1: denote t 1 = 1).
      { unfold Fold_proof.denote. destruct (uns t); [|done]. apply Z.mod_small. pose proof (Z.pow_gt_1 2 (width t)). lia. }
      assert (Hz: in_range t 0).
      { apply range_proper; [done|]. pose proof (Z.pow_pos_nonneg 2 (width t)). pose proof (Z.pow_pos_nonneg 2 (width t - 1)). destruct (uns t); lia. }
      assert (Hcomma: (k = EX_MUL \/ k = EX_BITAND) -> rval = 0 -> exists e0, Some (EComma l' r') = Some e0 /\ type_like lp64 (type_of e0) (NFix (common lp64 lt rt)) /\ wf e0 /\ refines e0 (c_bop lp64 k l r)).
      { intros Hkk ->. apply Hsimp; [done|by split|]. intros env h h1 h2 a b v He E1 E2 Ra Rb Ea. cbn [Fold_spec.eval]. rewrite E1. cbn [mbind option_bind]. rewrite E2.
        destruct (Hrc _ _ _ _ E2) as (-> & _ & ->). rewrite Hd0 in Ea. do 2 f_equal.
        destruct Hkk as [-> | ->]; cbn [arith] in Ea; [rewrite Z.mul_0_r in Ea|rewrite Z.land_0_r in Ea]; rewrite norm_id in Ea by done; rewrite Hd0; congruence. }
      assert (Hsame: (k = EX_BITOR \/ k = EX_BITXOR) /\ rval = 0 \/ (k = EX_MUL \/ k = EX_DIV) /\ rval = 1 ->
        exists e0, Some l' = Some e0 /\ type_like lp64 (type_of e0) (NFix (common lp64 lt rt)) /\ wf e0 /\ refines e0 (c_bop lp64 k l r)).
      { intros Hkk. apply Hsimp; [done|done|]. intros env h h1 h2 a b v He E1 E2 Ra Rb Ea. rewrite E1. destruct (Hrc _ _ _ _ E2) as (-> & _ & ->).
        destruct Hkk as [[[-> | ->] ->]|[[-> | ->] ->]]; cbn [arith] in Ea; rewrite ?Hd0, ?Hd1 in Ea.
        - rewrite Z.lor_0_r, norm_id in Ea by done. congruence.
        - rewrite Z.lxor_0_r, norm_id in Ea by done. congruence.
        - rewrite Z.mul_1_r, norm_id in Ea by done. congruence.
        - rewrite decide_False, Z.quot_1_r, norm_id in Ea by done. congruence. }
      assert (Hneg: k = EX_MUL -> rval = -1 -> exists e0, Some (ENeg (type_of l') l') = Some e0 /\ type_like lp64 (type_of e0) (NFix (common lp64 lt rt)) /\ wf e0 /\ refines e0 (c_bop lp64 k l r)).
      { intros -> ->. rewrite Tl'. apply Hsimp; [done|by split|]. intros env h h1 h2 a b v He E1 E2 Ra Rb Ea. cbn [Fold_spec.eval]. rewrite E1. cbn [mbind option_bind].
        destruct (Hrc _ _ _ _ E2) as (-> & _ & ->). cbn [arith] in Ea.
        assert (norm lp64 t (- a) = norm lp64 t (a * denote t (-1))) as ->; [|by rewrite Ea].
        unfold norm, Fold_proof.denote. destruct (uns t); [|by replace (a * -1) with (- a) by lia].
        f_equal. rewrite Zmult_mod_idemp_r. f_equal. lia. }
      destruct k; try done;
        repeat match goal with |- context [?a =? ?b] => destruct (Z.eqb_spec a b) end; eauto 10 || (try (apply Hsame; tauto); try (apply Hcomma; tauto); try (by apply Hneg)). }
    destruct r' as [rt' rval|?? |?? |?????|????|???|?? |?? |?? |?? |?? |????] eqn:Er'.
    - destruct l' as [lt' lval|?? |?? |?????|????|???|?? |?? |?? |?? |?? |????] eqn:El'; try (by eapply Hright).
      2: { by cbn in Tl'. }
      cbn in Tl', Tr'. injection Tl' as ->. injection Tr' as ->.
      destruct (match k with EX_DIV | EX_MOD => true | _ => false end && (rval =? 0)); [exact Ho|].
      destruct Hdef as (env & h & He & Hdef). rewrite <-Hq in Hdef by done.
      destruct (eval env h (EBop k (NFix t) (EFix t lval) (EFix t rval))) as [x|] eqn:Ex; [|done].
      assert (exists v, arith lp64 t k (denote t lval) (denote t rval) = Some v) as [v Ev].
      { cbn in Ex. unfold Fold_proof.denote. destruct (arith lp64 t k _ _); [by eexists|done]. }
      destruct (calc_ok t k lval rval v Hf Hl' Hr' Hk Ev) as (z & -> & Hz & Hc). cbn [mbind option_bind].
      rewrite Z.leb_refl. assert (below_int (kd t) = false) as -> by (unfold full in Hf; by destruct (kd t)).
      destruct (folded t z Hf Hz) as (Tc & Wc & Ec). eexists. split; [done|]. split; [by rewrite Tc|]. split; [done|].
      eapply refines_eqv; [|exact Hq]. intros env' h' x' He' E'. rewrite Ec, Hc. cbn in E'. fold (denote t lval) in E'. fold (denote t rval) in E'. rewrite Ev in E'. exact E'.
    - by cbn in Tr'.
    - destruct l' eqn:El'; try exact Ho; [by eapply Hleft|by cbn in Tl'].
    - destruct l' eqn:El'; try exact Ho; [by eapply Hleft|by cbn in Tl'].
    - destruct l' eqn:El'; try exact Ho; [by eapply Hleft|by cbn in Tl'].
    - destruct l' eqn:El'; try exact Ho; [by eapply Hleft|by cbn in Tl'].
    - destruct l' eqn:El'; try exact Ho; [by eapply Hleft|by cbn in Tl'].
    - destruct l' eqn:El'; try exact Ho; [by eapply Hleft|by cbn in Tl'].
    - destruct l' eqn:El'; try exact Ho; [by eapply Hleft|by cbn in Tl'].
    - destruct l' eqn:El'; try exact Ho; [by eapply Hleft|by cbn in Tl'].
    - destruct l' eqn:El'; try exact Ho; [by eapply Hleft|by cbn in Tl'].
    - destruct l' eqn:El'; try exact Ho; [by eapply Hleft|by cbn in Tl'].
  Qed.
End proof.
