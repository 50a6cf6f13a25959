From stdpp Require Import base list numbers.
From Coq Require Import Znumtheory Floats.SpecFloat.
From Verif Require Import Util.Wrap_model Front.Layout_model Front.Fold_model Front.Fold_spec Front.Fold_proof Front.Fold_num_proof Front.Fold_unary_proof.
Open Scope Z_scope.

Section proof.
  Context (lp64 : bool) (hprec hemax : Z) (Hhost : host_ok hprec hemax).
  Notation wf := (wf lp64 hprec hemax). Notation eval := (eval lp64). Notation eqv := (eqv lp64). Notation refines := (refines lp64).
  Notation denote := (denote lp64). Notation in_range := (in_range lp64). Notation width := (width lp64). Notation common_n := (common_n lp64).

  (** Truth values as values of any type. *)
  Definition one (k : flk) : spec_float := binary_normalize (prec k) (emax k) 1 0 false.
  Definition tv (t : nty) (b : bool) : val :=
    match t with NFix _ => VI (if b then 1 else 0) | NFlo k => VF (if b then one k else S754_zero false) end.
  Lemma bool_range t (b : bool) : type_ok t -> in_range t (if b then 1 else 0).
  Proof.
    intros Ht. destruct (decide (kd t = FX_BOOL)) as [E|Hp]; [unfold Fold_spec.in_range, lo, hi; rewrite E; destruct b; lia|].
    apply range_proper; [done|]. pose proof (width_cases lp64 t). destruct (uns t); destruct H as [-> |[-> |[-> | ->]]]; destruct b; lia.
  Qed.
  Lemma conv_tv t s b : ntype_ok t -> conv lp64 t (tv s b) = Some (tv t b).
  Proof.
    intros Ht. destruct t as [t|k], s as [s|k'].
    - cbn. by rewrite conv_id by (by apply bool_range).
    - unfold tv. assert (conv lp64 (NFix t) (VF (if b then one k' else S754_zero false)) = Some (VI (if b then 1 else 0))) as ->; [|done]. cbn [conv].
      assert (trunc (if b then one k' else S754_zero false) = Some (if b then 1 else 0)) as -> by (by destruct b, k').
      assert (flo_zero (if b then one k' else S754_zero false) = negb b) as -> by (by destruct b, k').
      pose proof (bool_range t b Ht). cbn [mbind option_bind]. rewrite decide_True by done. destruct (kd t); try done. by destruct b.
    - cbn. by destruct b.
    - cbn. by destruct b, k, k'.
  Qed.
  Definition is_log (e : expr) : Prop := match e with ECmp _ _ _ | ELog _ _ _ => True | _ => False end.
  Lemma log_bit e env h h' v : is_log e -> eval env h e = Some (h', v) -> exists b, v = bit b.
  Proof.
    destruct e; try done; intros _; cbn [Fold_spec.eval].
    - destruct (eval env h e1) as [[h1 a]|]; cbn [mbind option_bind]; [|done]. destruct (eval env h1 e2) as [[h2 b]|]; cbn [mbind option_bind]; [|done].
      destruct (compare_vals a b); cbn [mbind option_bind]; [|done]. intros [= <- <-]. by eexists.
    - destruct (eval env h e1) as [[h1 a]|] eqn:E1; cbn [mbind option_bind]; [|by destruct k].
      destruct k, (truthy a); try (intros [= <- <-]; by eexists).
      all: destruct (eval env h1 e2) as [[h2 b]|]; cbn [mbind option_bind]; [|done]; intros [= <- <-]; by eexists.
  Qed.
  Lemma strip_tv e : wf e -> is_log (strip_cast e) -> forall env h,
    (eval env h (strip_cast e) = None /\ eval env h e = None) \/
    exists h' b, eval env h (strip_cast e) = Some (h', bit b) /\ eval env h e = Some (h', tv (type_of e) b).
  Proof.
    induction e; cbn [strip_cast]; try done; intros Hw Hl env h.
    - destruct (eval env h (ECmp k e1 e2)) as [[h' v]|] eqn:E; [|by left]. right. destruct (log_bit _ _ _ _ _ Hl E) as [b ->]. by exists h', b.
    - destruct (eval env h (ELog k e1 e2)) as [[h' v]|] eqn:E; [|by left]. right. destruct (log_bit _ _ _ _ _ Hl E) as [b ->]. by exists h', b.
    - destruct Hw as [Ht Hw]. cbn [Fold_spec.eval type_of]. destruct (IHe Hw Hl env h) as [[E1 E2]|(h' & b & E1 & E2)]; rewrite E1, E2; cbn [mbind option_bind]; [by left|].
      right. exists h', b. split; [done|]. by rewrite conv_tv.
  Qed.

  (** Comparing with a constant. *)
  Lemma cmp_finite s m e y : SFcompare (S754_finite s m e) y = Some Eq <-> y = S754_finite s m e.
  Proof.
    split; [|intros ->; cbn; rewrite Z.compare_refl; fold (Pos.compare m m); rewrite Pos.compare_refl; by destruct s].
    destruct y as [s'|s'| |s' m' e']; cbn; try (by destruct s'); try (by destruct s); try done. fold (Pos.compare m m').
    destruct s, s'; try done; destruct (Z.compare_spec e e'); try done; destruct (Pos.compare_spec m m'); try done; by subst.
  Qed.
  Lemma cmp_finite' s m e y : SFcompare y (S754_finite s m e) = Some Eq <-> y = S754_finite s m e.
  Proof.
    split; [|intros ->; by apply cmp_finite].
    destruct y as [s'|s'| |s' m' e']; cbn; try (by destruct s'); try (by destruct s); try done. fold (Pos.compare m' m).
    destruct s, s'; try done; destruct (Z.compare_spec e' e); try done; destruct (Pos.compare_spec m' m); try done; by subst.
  Qed.
  Lemma cmp_zero s y : SFcompare (S754_zero s) y = Some Eq <-> flo_zero y = true.
  Proof. destruct y as [s'|s'| |s' m' e']; cbn; try done; by destruct s'. Qed.
  Lemma cmp_zero' s y : SFcompare y (S754_zero s) = Some Eq <-> flo_zero y = true.
  Proof. destruct y as [s'|s'| |s' m' e']; cbn; try done; by destruct s'. Qed.
  Lemma host_zero k f : host hprec hemax (round k f) = f -> flo_zero (round k f) = flo_zero f.
  Proof.
    intros H. destruct f as [s|s| |s m e]; try done. destruct (round k (S754_finite s m e)) eqn:E; done.
  Qed.
  Lemma host_one k f : host hprec hemax (round k f) = f -> round k f = one k <-> SFeqb f (flo_of_Z hprec hemax 1) = true.
  Proof.
    intros H. unfold SFeqb. split.
    - intros E. rewrite E in H. rewrite <-H. destruct Hhost as [[-> ->]|[-> ->]], k; by vm_compute.
    - intros E. destruct (SFcompare f _) as [[]|] eqn:Ec; try done.
      destruct Hhost as [[-> ->]|[-> ->]]; apply cmp_finite' in Ec; subst f; by destruct k.
  Qed.
  Lemma truth_ok c : wf c -> is_const c = true -> exists x, (forall env h, eval env h c = Some (h, x)) /\
    forall b, exists o o', compare_vals (tv (type_of c) b) x = Some o /\ compare_vals x (tv (type_of c) b) = Some o' /\
      (o = Some Eq <-> truth_value hprec hemax c = Some b) /\ (o' = Some Eq <-> truth_value hprec hemax c = Some b).
  Proof.
    intros Hw Hc. destruct c as [t z|k f| | | | | | | | | |]; try done.
    - exists (VI (denote t z)). split; [done|]. intros b. exists (Some ((if b then 1 else 0) ?= denote t z)), (Some (denote t z ?= (if b then 1 else 0))).
      split; [done|]. split; [done|]. cbn in Hw. pose proof (const_fix lp64 t z Hw) as (Hz & _ & Em & H0).
      assert (H1: z = 1 <-> denote t z = 1).
      { split; intros E.
        - rewrite E. unfold Fold_proof.denote. destruct (uns t); [|done]. apply Z.mod_small. pose proof (width_cases lp64 t) as [-> |[-> |[-> | ->]]]; lia.
        - rewrite E in Em. unfold fixmin, fixmax in Hz. destruct (decide (0 <= z)); [rewrite !Z.mod_small in Em by lia; done|].
          rewrite <-(Z.mod_add z 1 (2 ^ 64)), !Z.mod_small in Em by lia. lia. }
      assert (truth_value hprec hemax (EFix t z) = Some b <-> denote t z = (if b then 1 else 0)) as ->.
      { cbn [truth_value]. destruct (Z.eqb_spec z 0), (Z.eqb_spec z 1), b; rewrite <-?H0, <-?H1; split; try done; try lia; intros [=]. }
      split; (split; [intros [= E%Z.compare_eq]; congruence|intros E; rewrite E; by rewrite Z.compare_refl]).
    - exists (VF (round k f)). split; [done|]. intros b. exists (SFcompare (if b then one k else S754_zero false) (round k f)), (SFcompare (round k f) (if b then one k else S754_zero false)).
      split; [done|]. split; [done|]. cbn in Hw. pose proof (host_zero k f Hw) as H0. pose proof (host_one k f Hw) as H1. cbn [truth_value].
      destruct b.
      + assert (round k f = one k <-> (if flo_zero f then Some false else if SFeqb f (flo_of_Z hprec hemax 1) then Some true else None) = Some true) as <-.
        { rewrite H1. destruct (flo_zero f) eqn:Ez; [|by destruct (SFeqb _ _)]. split; [|done]. intros E. apply H1 in E. rewrite E in H0. by destruct k. }
        destruct (one k) eqn:E1; try (by destruct k). split; [apply cmp_finite|apply cmp_finite'].
      + assert (flo_zero (round k f) = true <-> (if flo_zero f then Some false else if SFeqb f (flo_of_Z hprec hemax 1) then Some true else None) = Some false) as <-.
        { rewrite H0. destruct (flo_zero f); [done|]. by destruct (SFeqb _ _). }
        split; [apply cmp_zero|apply cmp_zero'].
  Qed.

  (** The operands. *)
  Lemma make_cast_shape t e e' : make_cast lp64 hprec hemax t e = Some e' -> ((ordered e -> ordered e') /\ (is_const e = true -> is_const e' = true)) /\ ldepth e' = ldepth e.
  Proof.
    unfold make_cast. case_decide; [by intros [= ->]|].
    destruct e as [s z|k f| | | | | | | | | |], t as [t|k']; try (by intros [= <-]).
    - by destruct (kd t); intros [= <-].
    - destruct (kd t); try (by intros [= <-]); destruct (fix_of_flo f); cbn [mbind option_bind]; by intros [= <-].
  Qed.
  Lemma promote_shape e e' : promote_to_int lp64 hprec hemax e = Some e' -> ((ordered e -> ordered e') /\ (is_const e = true -> is_const e' = true)) /\ ldepth e' = ldepth e.
  Proof. unfold promote_to_int. destruct (type_of e) as [t|]; [|done]. destruct (kd t); try (by intros [= ->]); apply make_cast_shape. Qed.
  Ltac shapes := repeat match goal with
    | H : mbind _ ?x = Some _ |- _ => let E := fresh "E" in destruct x eqn:E; cbn [mbind option_bind] in H; [|done]
    | H : Some _ = Some _ |- _ => first [injection H as <- <-|injection H as <-]
    | H : make_cast _ _ _ _ _ = Some _ |- _ => apply make_cast_shape in H as [[? ?] ?]
    | H : promote_to_int _ _ _ _ = Some _ |- _ => apply promote_shape in H as [[? ?] ?]
    end.
  Lemma cast_numbers_shape l r b l' r' : cast_numbers lp64 hprec hemax l r b = Some (l', r') ->
    (((ordered l -> ordered l') /\ (is_const l = true -> is_const l' = true)) /\ ldepth l' = ldepth l) /\ ((ordered r -> ordered r') /\ (is_const r = true -> is_const r' = true)) /\ ldepth r' = ldepth r.
  Proof.
    unfold cast_numbers. intros H. destruct (type_of l) as [lt|lk], (type_of r) as [rt|rk]; repeat case_match; shapes; done.
  Qed.
  Lemma cmp_operands_shape l r l' r' : cmp_operands lp64 hprec hemax l r = Some (l', r') ->
    (((ordered l -> ordered l') /\ (is_const l = true -> is_const l' = true)) /\ ldepth l' = ldepth l) /\ ((ordered r -> ordered r') /\ (is_const r = true -> is_const r' = true)) /\ ldepth r' = ldepth r.
  Proof.
    unfold cmp_operands. intros H.
    destruct (match type_of l, type_of r with NFix lt, NFix rt =>
        l ← (if below_int (kd lt) then promote_to_int lp64 hprec hemax l else Some l);
        r ← (if below_int (kd rt) then promote_to_int lp64 hprec hemax r else Some r);
        Some (l, r) | _, _ => Some (l, r) end) as [[l1 r1]|] eqn:E; cbn [mbind option_bind] in H; [|done].
    apply cast_numbers_shape in H as [[[A1 A1'] A2] [[B1 B1'] B2]]. rewrite A2, B2.
    assert ((((ordered l -> ordered l1) /\ (is_const l = true -> is_const l1 = true)) /\ ldepth l1 = ldepth l) /\ ((ordered r -> ordered r1) /\ (is_const r = true -> is_const r1 = true)) /\ ldepth r1 = ldepth r) as [[C1 C2] [D1 D2]]; [|tauto].
    destruct (type_of l) as [lt|lk], (type_of r) as [rt|rk]; try (by injection E as <- <-).
    destruct (below_int (kd lt)), (below_int (kd rt)); cbv iota in E; shapes; try done; split; done.
  Qed.

  Lemma promote_small e t : wf e -> type_of e = NFix t -> exists e',
    (if below_int (kd t) then promote_to_int lp64 hprec hemax e else Some e) = Some e' /\ type_of e' = NFix (if below_int (kd t) then tyInt else t) /\
    wf e' /\ (forall env h h' v, env_ok lp64 env -> eval env h e = Some (h', v) -> eval env h e' = Some (h', v)) /\ (forall env h, env_ok lp64 env -> eval env h e = None -> eval env h e' = None).
  Proof.
    intros Hw Ht. destruct (below_int (kd t)) eqn:Eb.
    - pose proof (wf_type _ _ _ e t Hw Ht) as Hok. destruct (promote_fix lp64 hprec hemax e t Hw Ht Hok) as (e' & -> & T & W & Q). exists e'. split; [done|].
      assert (promoted lp64 t = tyInt) as Ep by (destruct t as [[] []]; try done; destruct lp64; by vm_compute).
      split; [by rewrite T, Ep|]. split; [done|]. split.
      + intros env h h' v He E. rewrite Q by done. cbn [Fold_spec.eval]. rewrite E. cbn [mbind option_bind].
        destruct (fix_value lp64 _ _ e t env h h' v Hw Ht He E) as (z & -> & Hz). cbn. rewrite conv_id; [done|]. by apply promoted_range.
      + intros env h He E. rewrite Q by done. cbn [Fold_spec.eval]. by rewrite E.
    - exists e. done.
  Qed.
  Lemma cmp_operands_fix l r lt rt : wf l -> wf r -> type_of l = NFix lt -> type_of r = NFix rt ->
    exists l' r' t, cmp_operands lp64 hprec hemax l r = Some (l', r') /\ full t /\ same_repr lp64 t (common lp64 lt rt) /\ type_of l' = NFix t /\ type_of r' = NFix t /\ wf l' /\ wf r' /\
      eqv l' (convert (NFix (common lp64 lt rt)) l) /\ eqv r' (convert (NFix (common lp64 lt rt)) r).
  Proof.
    intros Hl Hr Tl Tr. unfold cmp_operands. rewrite Tl, Tr.
    pose proof (wf_type _ _ _ l lt Hl Tl) as Ol. pose proof (wf_type _ _ _ r rt Hr Tr) as Or.
    destruct (promote_small l lt Hl Tl) as (l1 & -> & Tl1 & Wl1 & El1 & El1'). cbn [mbind option_bind].
    destruct (promote_small r rt Hr Tr) as (r1 & -> & Tr1 & Wr1 & Er1 & Er1'). cbn [mbind option_bind].
    destruct (chosen_cmp_ok lp64 lt rt Ol Or) as (Hrep & Hf & Hfc). fold (chosen_cmp lp64 lt rt) in *.
    destruct (cast_numbers_fix lp64 hprec hemax l1 r1 _ _ false Wl1 Wr1 Tl1 Tr1) as (l' & r' & E & Tl' & Tr' & Hl' & Hr' & Ql & Qr).
    exists l', r', (chosen_cmp lp64 lt rt). split; [done|]. split; [done|]. split; [done|]. split; [done|]. split; [done|]. split; [done|]. split; [done|].
    fold (chosen_cmp lp64 lt rt) in Ql, Qr.
    assert (forall e e1 e' s, wf e -> type_of e = NFix s -> (forall env h h' v, env_ok lp64 env -> eval env h e = Some (h', v) -> eval env h e1 = Some (h', v)) ->
      (forall env h, env_ok lp64 env -> eval env h e = None -> eval env h e1 = None) -> eqv e' (ECast (NFix (chosen_cmp lp64 lt rt)) e1) -> eqv e' (convert (NFix (common lp64 lt rt)) e)) as H.
    { intros e e1 e' s We Te E1 E2 Q. eapply eqv_trans; [exact Q|]. intros env h He. rewrite (convert_eqv lp64 hprec hemax e (common lp64 lt rt) We env h He).
      rewrite <-(same_repr_cast lp64 hprec hemax _ _ e s We Te (proj1 (full_proper _ Hf)) (proj1 (full_proper _ Hfc)) Hrep env h He).
      cbn [Fold_spec.eval]. destruct (eval env h e) as [[h' v]|] eqn:Ee; [by rewrite (E1 _ _ _ _ He Ee)|by rewrite (E2 _ _ He Ee)]. }
    split; by eapply H.
  Qed.

  Lemma flo_cast e k : wf e -> plain (NFlo k) e -> exists e', make_cast lp64 hprec hemax (NFlo k) e = Some e' /\ type_of e' = NFlo k /\ wf e' /\
    eqv e' (convert (NFlo k) e) /\ (is_const e' = true -> is_const e = true) /\ (is_zero e -> is_zero e').
  Proof.
    intros Hw Hp. unfold make_cast, convert. case_decide as E.
    - rewrite decide_True by done. exists e. split; [done|]. split; [done|]. done.
    - rewrite decide_False by done.
      destruct e as [s z|k' f| | | | | | | | | |]; try (eexists; split; [done|]; split; [done|]; split; [by split|]; by split).
      + cbn in Hp. destruct Hp as [[]| ->]. assert ((if uns s then to_ufixnum 0 else 0) = 0) as -> by (by destruct (uns s)).
        eexists. split; [done|]. split; [done|]. split; [done|]. split; [|by split]. intros env h _. cbn. rewrite Z.mod_0_l by (pose proof (width_pos lp64 s); apply Z.pow_nonzero; lia). by destruct (uns s).
      + cbn in Hp. by destruct E.
  Qed.
  Lemma convert_self e : eqv e (convert (type_of e) e).
  Proof. unfold convert. rewrite decide_True by done. apply eqv_refl. Qed.
  Lemma cmp_operands_flo l r k : wf l -> wf r -> common_n (type_of l) (type_of r) = NFlo k -> plain (NFlo k) l -> plain (NFlo k) r ->
    exists l' r', cmp_operands lp64 hprec hemax l r = Some (l', r') /\ type_of l' = NFlo k /\ type_of r' = NFlo k /\ wf l' /\ wf r' /\
      eqv l' (convert (NFlo k) l) /\ eqv r' (convert (NFlo k) r) /\ (is_const l' = true -> is_const l = true) /\ (is_const r' = true -> is_const r = true) /\ (is_zero r -> is_zero r').
  Proof.
    intros Hl Hr Hk Pl Pr. unfold cmp_operands, cast_numbers.
    destruct (flo_cast l k Hl Pl) as (l' & El & Tl & Wl & Ql & Cl & Zl). destruct (flo_cast r k Hr Pr) as (r' & Er & Tr & Wr & Qr & Cr & Zr).
    assert (Sl: type_of l = NFlo k -> l' = l) by (intros E; unfold make_cast in El; rewrite decide_True in El by done; congruence).
    assert (Sr: type_of r = NFlo k -> r' = r) by (intros E; unfold make_cast in Er; rewrite decide_True in Er by done; congruence).
    exists l', r'. split; [|done].
    destruct (type_of l) as [lt|lk] eqn:TL, (type_of r) as [rt|rk] eqn:TR; cbn in Hk; [done| | |]; cbn [mbind option_bind]; rewrite ?TL, ?TR.
    - injection Hk as ->. rewrite El. cbn [mbind option_bind]. by rewrite Sr.
    - injection Hk as ->. rewrite Er. cbn [mbind option_bind]. by rewrite Sl.
    - destruct (Z.ltb_spec (flk_index rk - flk_index lk) 0).
      + rewrite decide_False in Hk by lia. injection Hk as ->. rewrite Er. cbn [mbind option_bind]. by rewrite Sl.
      + destruct (Z.ltb_spec 0 (flk_index rk - flk_index lk)).
        * rewrite decide_True in Hk by lia. injection Hk as ->. rewrite El. cbn [mbind option_bind]. by rewrite Sr.
        * rewrite decide_False in Hk by lia. injection Hk as ->. assert (rk = k) as -> by (destruct rk, k; cbn in *; done || lia). by rewrite Sl, Sr.
  Qed.

  (** Comparing with zero. *)
  Lemma wf_ntype e : wf e -> ntype_ok (type_of e).
  Proof. intros Hw. destruct (type_of e) eqn:E; [|done]. by eapply wf_type. Qed.
  Lemma zero_wf t : ntype_ok t -> wf (zero_of t) /\ type_of (zero_of t) = t /\ ordered (zero_of t) /\ ldepth (zero_of t) = 0%nat.
  Proof.
    destruct t as [t|k]; [|done]. intros Ht. cbn in Ht. assert (zero_of (NFix t) = EFix t 0) as -> by (unfold zero_of, fixlit; by destruct (kd t)).
    split; [|done]. split; [done|]. case_decide; [lia|]. apply (bool_range t false Ht).
  Qed.
  Lemma eq_zero a env h h' v : wf a -> env_ok lp64 env -> eval env h a = Some (h', v) ->
    eval env h (c_cmp lp64 EX_EQ a (zero_of (type_of a))) = Some (h', bit (negb (truthy v))).
  Proof.
    intros Hw He E. pose proof (wf_ntype a Hw) as Hok. destruct (zero_wf _ Hok) as (Wz & Tz & _). unfold c_cmp. rewrite Tz.
    destruct (type_of a) as [t|k] eqn:Ta.
    - destruct (fix_value lp64 _ _ a t env h h' v Hw Ta He E) as (z & -> & Hz). cbn [Fold_spec.common_n]. rewrite common_self by done.
      assert (zero_of (NFix t) = EFix t 0) as Ezz by (unfold zero_of, fixlit; by destruct (kd t)). rewrite Ezz in *.
      set (p := promoted lp64 t). assert (in_range p z) as Hpz by (by apply promoted_range).
      assert (eval env h (convert (NFix p) a) = Some (h', VI z)) as E1.
      { rewrite (convert_eqv lp64 hprec hemax a p Hw env h He). cbn [Fold_spec.eval]. rewrite E. cbn. by rewrite conv_id. }
      assert (eval env h' (convert (NFix p) (EFix t 0)) = Some (h', VI 0)) as E2.
      { rewrite (convert_eqv lp64 hprec hemax (EFix t 0) p); [|done|done]. cbn. rewrite Z.mod_0_l by (pose proof (width_pos lp64 t); apply Z.pow_nonzero; lia).
        rewrite conv_id; [by destruct (uns t)|]. apply promoted_range; [done|]. destruct (uns t); apply (bool_range t false Hok). }
      cbn [Fold_spec.eval]. rewrite E1. cbn [mbind option_bind]. rewrite E2. cbn. do 3 f_equal. try rewrite negb_involutive. unfold bit. try f_equal.
      destruct (Z.eqb_spec z 0) as [-> |Hne]; [done|]. rewrite bool_decide_eq_false_2; [done|]. intros [= Ec%Z.compare_eq]. done.
    - cbn [Fold_spec.common_n]. rewrite decide_False by lia. unfold convert. rewrite Ta. rewrite !decide_True by done. cbn [Fold_spec.eval]. rewrite E. cbn [mbind option_bind].
      pose proof (eval_type lp64 _ _ env He a h h' v Hw E) as Hv. rewrite Ta in Hv. destruct v as [|f]; [done|]. cbn. do 3 f_equal. rewrite negb_involutive. unfold bit. f_equal.
      destruct (flo_zero f) eqn:Ez; [rewrite bool_decide_eq_true_2; [done|by apply cmp_zero']|]. rewrite bool_decide_eq_false_2; [done|]. intros Ec%cmp_zero'. congruence.
  Qed.

  Lemma strip_facts e : (wf e -> wf (strip_cast e)) /\ (ordered e -> ordered (strip_cast e)) /\ ldepth (strip_cast e) = ldepth e.
  Proof. induction e; try done. cbn. split; [intros [_ ?]; by apply IHe|]. tauto. Qed.
  Lemma judge_holds k c : judge k c = holds k c.
  Proof. destruct k, c as [[]|]; done. Qed.
  Lemma flip_holds k c : (c = None -> equality k) -> holds (flip k) c = negb (holds k c).
  Proof. destruct k, c as [[]|]; try done; intros H; by destruct (H eq_refl). Qed.
  Lemma type_ok_bool : type_ok tyBool.
  Proof. done. Qed.
  Lemma bool_lit_facts b : type_of (bool_lit b) = NFix tyBool /\ wf (bool_lit b) /\ forall env h, eval env h (bool_lit b) = Some (h, bit b).
  Proof.
    split; [done|]. split; [|by destruct b]. split; [done|]. rewrite decide_False by done. apply (bool_range tyBool b type_ok_bool).
  Qed.

  Theorem cmp_ok : forall fuel k l r, wf l -> wf r -> (ordered l /\ ordered r \/ k = EX_NE /\ r = zero_of (type_of l)) -> comparable lp64 k l r -> (ldepth l < fuel)%nat -> (ldepth r < fuel)%nat ->
    exists e, new_expr_cmp lp64 hprec hemax fuel k l r = Some e /\ type_of e = NFix tyBool /\ wf e /\ refines e (c_cmp lp64 k l r).
  Proof.
    induction fuel as [|fuel IH]; [lia|]. intros k l r Hl Hr Hord Hc Dl Dr. destruct Hc as (Pl & Pr & Hcc). cbn [new_expr_cmp].
    set (T0 := common_n (type_of l) (type_of r)) in *.
    assert (exists l' r' T, cmp_operands lp64 hprec hemax l r = Some (l', r') /\ type_of l' = T /\ type_of r' = T /\ wf l' /\ wf r' /\
      eqv l' (convert T0 l) /\ eqv r' (convert T0 r) /\ (forall t, T = NFix t -> full t) /\
      (forall k', T = NFlo k' -> is_const l' = true -> is_const r' = true -> equality k /\ is_zero r')) as (l' & r' & T & E & Tl & Tr & Wl & Wr & Ql & Qr & Hfull & Hz).
    { destruct T0 as [t0|k0] eqn:ET0.
      - unfold T0 in ET0. destruct (type_of l) as [lt|] eqn:Tl, (type_of r) as [rt|] eqn:Tr; try (by cbn in ET0). cbn in ET0. injection ET0 as <-.
        destruct (cmp_operands_fix l r lt rt Hl Hr Tl Tr) as (l' & r' & t & E & Hf & _ & Tl' & Tr' & Wl & Wr & Ql & Qr).
        exists l', r', (NFix t). repeat (split; [done|]). split; [by intros ? [= <-]|]. intros ? [=].
      - destruct (cmp_operands_flo l r k0 Hl Hr ET0 Pl Pr) as (l' & r' & E & Tl' & Tr' & Wl & Wr & Ql & Qr & Cl & Cr & Zr).
        exists l', r', (NFlo k0). repeat (split; [done|]). intros k' _ Kl Kr. destruct Hcc as [? ?]; [by intros []|by apply Cl|by apply Cr|]. split; [done|by apply Zr]. }
    rewrite E. cbn [mbind option_bind]. pose proof (cmp_operands_shape _ _ _ _ E) as (((Sl1 & _) & Sl2) & (Sr1 & Sr3) & Sr2).
    assert (Hord': (ordered l' /\ ordered r') \/ (k = EX_NE /\ is_const r' = true /\ truth_value hprec hemax r' = Some false)).
    { destruct Hord as [[Ol Or]|[-> ->]]; [left; tauto|]. right. split; [done|].
      assert (is_const (zero_of (type_of l)) = true) as Hzc by (by destruct (type_of l)). specialize (Sr3 Hzc). split; [done|].
      pose proof (wf_ntype l Hl) as Hok. destruct (zero_wf _ Hok) as (Wz & Tz & _).
      destruct (truth_ok r' Wr Sr3) as (x & Ex & Hx). destruct (Hx false) as (o & o' & O1 & O2 & I1 & I2). apply I1. clear I1 I2 Hx O2.
      set (env := fun (t : nty) (h : list nat) (n : nat) => match t with NFix _ => VI 0 | NFlo _ => VF (S754_zero false) end).
      assert (env_ok lp64 env) as He. { intros [[k' u]|k'] h n; [|done]. cbn. unfold Fold_spec.in_range, lo, hi. destruct k', u, lp64; vm_compute; done. }
      pose proof (Qr env [] He) as Q. rewrite Ex in Q. destruct (type_of l) as [t|k] eqn:TL.
      - unfold T0 in Q. rewrite Tz in Q. cbn [Fold_spec.common_n] in Q. rewrite (convert_eqv lp64 hprec hemax _ _ Wz env [] He) in Q.
        assert (zero_of (NFix t) = EFix t 0) as Ezz by (unfold zero_of, fixlit; by destruct (kd t)). rewrite Ezz in Q. cbn in Q.
        assert ((if uns t then 0 mod 2 ^ width t else 0) = 0) as E0. { rewrite Z.mod_0_l by (pose proof (width_pos lp64 t); apply Z.pow_nonzero; lia). by destruct (uns t). }
        rewrite E0 in Q. injection Q as ->. rewrite Tr in O1. unfold T0 in *.
        assert (conv_int lp64 (common lp64 t t) 0 = 0) as Ec0. { rewrite common_self by done. apply conv_id. apply promoted_range; [done|]. apply (bool_range t false Hok). }
        rewrite Ec0 in O1. destruct T; cbn in O1; [by injection O1 as <-|done].
      - unfold T0 in Q. rewrite Tz in Q. cbn [Fold_spec.common_n] in Q. rewrite decide_False in Q by lia. unfold convert in Q. rewrite Tz, decide_True in Q by done. cbn in Q. injection Q as ->.
        rewrite Tr in O1. destruct T; cbn in O1; [done|]. by injection O1 as <-. }
    rewrite <-Sl2 in Dl. rewrite <-Sr2 in Dr. clear Sl1 Sr1 Sr3 Sl2 Sr2.
    assert (Hq: eqv (ECmp k l' r') (c_cmp lp64 k l r)).
    { unfold c_cmp. fold T0. intros env h He. cbn [Fold_spec.eval]. rewrite Ql by done. destruct (eval env h (convert T0 l)) as [[h1 a]|]; cbn [mbind option_bind]; [|done]. by rewrite Qr. }
    clear E Ql Qr Pl Pr Hcc Hl Hr Hord. clearbody T0.
    assert (Ho: exists e, Some (ECmp k l' r') = Some e /\ type_of e = NFix tyBool /\ wf e /\ refines e (c_cmp lp64 k l r)).
    { eexists. split; [done|]. split; [done|]. split; [by split|]. by apply eqv_refines. }
    assert (Hgoal: forall e, type_of e = NFix tyBool -> wf e -> refines e (ECmp k l' r') -> exists e0, Some e = Some e0 /\ type_of e0 = NFix tyBool /\ wf e0 /\ refines e0 (c_cmp lp64 k l r)).
    { intros e Te We Re. exists e. split; [done|]. split; [done|]. split; [done|]. by eapply refines_eqv. }
    destruct (cmp_const k l' r') as [ce|] eqn:Ec.
    { (* two constants *)
      unfold cmp_const in Ec. destruct l' as [lt lv|lk lf| | | | | | | | | |] eqn:El; try done; destruct r' as [rt rv|rk rf| | | | | | | | | |] eqn:Er; try done; injection Ec as <-.
      - cbn in Tl, Tr. subst T. injection Tr as ->. specialize (Hfull lt eq_refl). apply Hgoal; [done|apply bool_lit_facts|].
        intros env h x He Ex. destruct (bool_lit_facts (judge k (Some (if uns lt || uns lt then to_ufixnum lv ?= to_ufixnum rv else lv ?= rv)))) as (_ & _ & ->).
        cbn in Ex. fold (denote lt lv) in Ex. fold (denote lt rv) in Ex. rewrite <-Ex, judge_holds. do 5 f_equal. rewrite orb_diag.
        destruct (uns lt) eqn:Eu; [by rewrite !(ufixnum_denote lp64 lt)|by rewrite !fixnum_denote].
      - cbn in Tl, Tr. subst T. injection Tr as ->. destruct (Hz lk eq_refl eq_refl eq_refl) as [Hk Hz0]. cbn in Hz0. destruct rf as [s| | |]; try done.
        apply Hgoal; [done|apply bool_lit_facts|]. intros env h x He Ex. destruct (bool_lit_facts (judge k (SFcompare lf (S754_zero s)))) as (_ & _ & ->).
        cbn in Ex. rewrite <-Ex, judge_holds. do 3 f_equal. cbn in Wl. pose proof (host_zero lk lf Wl) as Hzz.
        assert (SFcompare lf (S754_zero s) = Some Eq <-> SFcompare (round lk lf) (S754_zero s) = Some Eq) as Hiff by (rewrite !cmp_zero'; by rewrite Hzz).
        clear -Hk Hiff. destruct k; try done; cbn [holds]; apply bool_decide_ext; tauto. }
    destruct (decide (k = EX_EQ \/ k = EX_NE)) as [Hk|Hk]; [|destruct k; try exact Ho; tauto].
    assert (Hm: forall X Y : option expr, match k with EX_EQ | EX_NE => X | _ => Y end = X) by (intros; destruct Hk as [-> | ->]; done).
    rewrite Hm. clear Hm.
    destruct (is_const r' || is_const l') eqn:Econst; [|exact Ho].
    set (v := if is_const l' then r' else l'). set (c := if is_const l' then l' else r').
    assert (Hvc: (if is_const l' then (r', l') else (l', r')) = (v, c)) by (unfold v, c; by destruct (is_const l')). rewrite Hvc.
    assert (Wv: wf v) by (unfold v; by destruct (is_const l')). assert (Wc: wf c) by (unfold c; by destruct (is_const l')).
    assert (Tv: type_of v = T) by (unfold v; by destruct (is_const l')). assert (Tc: type_of c = T) by (unfold c; by destruct (is_const l')).
    assert (Hboth: is_const l' = true -> is_const r' = true -> False).
    { intros K1 K2. destruct l', r'; try done; cbn in Tl, Tr; congruence. }
    assert (Sv: ordered v \/ (k = EX_NE /\ truth_value hprec hemax c = Some false)).
    { destruct Hord' as [[S1 S2]|(-> & K1 & K2)]; [left; unfold v; by destruct (is_const l')|right]. split; [done|]. unfold c. destruct (is_const l'); [|done]. by destruct Hboth. }
    assert (Dv: (ldepth v < S fuel)%nat) by (unfold v; by destruct (is_const l')).
    assert (Cc: is_const c = true) by (unfold c; destruct (is_const l') eqn:?; [done|]; by rewrite orb_false_r in Econst).
    destruct (truth_ok c Wc Cc) as (xc & Exc & Hxc). rewrite Tc in Hxc.
    destruct (strip_facts v) as (Fw & Fo & Fd). specialize (Fw Wv). rewrite <-Fd in Dv. clear Fd.
    assert (Hval: forall env h x, eval env h (ECmp k l' r') = Some x -> is_log (strip_cast v) -> exists h' b, eval env h (strip_cast v) = Some (h', bit b) /\ eval env h v = Some (h', tv T b) /\
        x = (h', bit (match k with EX_EQ => bool_decide (truth_value hprec hemax c = Some b) | _ => negb (bool_decide (truth_value hprec hemax c = Some b)) end))).
    { intros env h x Ex Hlog. pose proof (strip_tv v Wv Hlog env h) as Hs. rewrite Tv in Hs. destruct Hs as [[_ Hs]|(h' & b & Hs1 & Hs2)].
      { exfalso. cbn [Fold_spec.eval] in Ex. unfold v, c in Hs, Exc. destruct (is_const l').
        - rewrite Exc in Ex. cbn [mbind option_bind] in Ex. by rewrite Hs in Ex.
        - by rewrite Hs in Ex. }
      exists h', b. split; [done|]. split; [done|]. destruct (Hxc b) as (o & o' & O1 & O2 & I1 & I2).
      assert (eval env h (ECmp k l' r') = Some (h', bit (holds k (if is_const l' then o' else o)))) as Ex'.
      { cbn [Fold_spec.eval]. unfold v, c in Hs2, Exc. destruct (is_const l').
        - rewrite Exc. cbn [mbind option_bind]. rewrite Hs2. cbn [mbind option_bind]. by rewrite O2.
        - rewrite Hs2. cbn [mbind option_bind]. rewrite Exc. cbn [mbind option_bind]. by rewrite O1. }
      rewrite Ex' in Ex. injection Ex as <-. do 2 f_equal. unfold bit.
      assert (((if is_const l' then o' else o) = Some Eq) <-> truth_value hprec hemax c = Some b) as Hiff by (by destruct (is_const l')).
      assert (holds k (if is_const l' then o' else o) = match k with EX_EQ => bool_decide (truth_value hprec hemax c = Some b) | _ => negb (bool_decide (truth_value hprec hemax c = Some b)) end) as ->; [|done].
      destruct Hk as [-> | ->]; cbn [holds]; [by apply bool_decide_ext|]. rewrite bool_decide_not. f_equal. by apply bool_decide_ext. }
    clear Hvc Hxc. cbv zeta.
    destruct (truth_value hprec hemax c) as [tb|] eqn:Etv.
    2: { assert (Hcomma: is_log (strip_cast v) -> exists e0, Some (EComma v (bool_lit match k with EX_EQ => false | _ => true end)) = Some e0 /\ type_of e0 = NFix tyBool /\ wf e0 /\ refines e0 (c_cmp lp64 k l r)).
      { intros Hlog. apply Hgoal; [done|split; [done|apply bool_lit_facts]|]. intros env h x He Ex. destruct (Hval env h x Ex Hlog) as (h' & bb & _ & Ev & ->).
        cbn [Fold_spec.eval]. rewrite Ev. cbn [mbind option_bind]. destruct Hk as [-> | ->]; done. }
      destruct (strip_cast v) as [| | | |pk a b|pk a b| | | | | |] eqn:Ep; try exact Ho; by apply Hcomma. }
    set (k' := if tb then flip k else k).
    assert (Hval': forall env h x, eval env h (ECmp k l' r') = Some x -> is_log (strip_cast v) -> exists h' b, eval env h (strip_cast v) = Some (h', bit b) /\ x = (h', bit (match k' with EX_EQ => negb b | _ => b end))).
    { intros env h x Ex Hlog. destruct (Hval env h x Ex Hlog) as (h' & b & Hs & _ & ->). exists h', b. split; [done|]. unfold k'. destruct Hk as [-> | ->], tb, b; done. }
    assert (Hk': k' = EX_EQ \/ k' = EX_NE) by (unfold k'; destruct Hk as [-> | ->], tb; cbn; tauto).
    assert (Hkk: k' = EX_EQ -> ordered (strip_cast v)).
    { intros E. destruct Sv as [Sv|[-> Et]]; [by apply Fo|]. injection Et as ->. unfold k' in E. done. }
    clear Hval Fo Sv. clearbody k'.
    destruct (strip_cast v) as [| | | |pk a b|pk a b| | | | | |] eqn:Ep; try exact Ho.
    - apply Hgoal; [done|done|]. intros env h x He Ex. destruct (Hval' env h x Ex I) as (h' & bb & Hs & ->).
      cbn [Fold_spec.eval] in Hs |- *. destruct (eval env h a) as [[h1 va]|] eqn:Ea; cbn [mbind option_bind] in Hs |- *; [|done].
      destruct (eval env h1 b) as [[h2 vb]|] eqn:Eb; cbn [mbind option_bind] in Hs |- *; [|done].
      destruct (compare_vals va vb) as [o|] eqn:Eo; cbn [mbind option_bind] in Hs |- *; [|done].
      injection Hs as <- Hs. assert (holds pk o = bb) as <- by (destruct (holds pk o), bb; done).
      assert (holds (match k' with EX_EQ => flip pk | _ => pk end) o = match k' with EX_EQ => negb (holds pk o) | _ => holds pk o end) as ->; [|done].
      destruct Hk' as [-> | ->]; [|done]. apply flip_holds. intros ->. specialize (Hkk eq_refl).
      destruct Hkk as (Fo & _ & _). destruct Fw as [Fw1 Fw2]. destruct pk; try done; exfalso; destruct Fo as [Fa Fb];
      (destruct (type_of a) as [ta|] eqn:Ta; try done); (destruct (type_of b) as [tb'|] eqn:Tb; try done);
      destruct (fix_value lp64 _ _ a ta env h h1 va Fw1 Ta He Ea) as (? & -> & _); destruct (fix_value lp64 _ _ b tb' env h1 h2 vb Fw2 Tb He Eb) as (? & -> & _); done.
    - destruct Hk' as [-> | ->].
      2: { apply Hgoal; [done|done|]. intros env h x He Ex. destruct (Hval' env h x Ex I) as (h' & bb & Hs & ->). done. }
      destruct Fw as [Wa Wb]. destruct (Hkk eq_refl) as [Oa Ob]. cbn [ldepth] in Dv.
      assert (Hrec: forall e, wf e -> ordered e -> (ldepth e < fuel)%nat -> exists e', new_expr_cmp lp64 hprec hemax fuel EX_EQ e (zero_of (type_of e)) = Some e' /\ type_of e' = NFix tyBool /\ wf e' /\
        forall env h h' vv, env_ok lp64 env -> eval env h e = Some (h', vv) -> eval env h e' = Some (h', bit (negb (truthy vv)))).
      { intros e We Oe De. destruct (zero_wf _ (wf_ntype e We)) as (Wz & Tz & Oz & Dz).
        destruct (IH EX_EQ e (zero_of (type_of e)) We Wz (or_introl (conj Oe Oz))) as (e' & E' & T' & W' & R'); [|done|lia|].
        - unfold comparable. rewrite Tz. destruct (type_of e) as [te|ke] eqn:Te; cbn [Fold_spec.common_n].
          + split; [destruct e; cbn in *; try done; by left|]. split; [by left|]. intros H. by destruct H.
          + rewrite decide_False by lia. split; [destruct e; cbn in *; done|]. split; done.
        - exists e'. split; [done|]. split; [done|]. split; [done|]. intros env h h' vv He Ev. apply R'; [done|]. by apply eq_zero. }
      destruct (Hrec a Wa Oa ltac:(lia)) as (a' & -> & Ta' & Wa' & Ra). cbn [mbind option_bind].
      destruct (Hrec b Wb Ob ltac:(lia)) as (b' & -> & Tb' & Wb' & Rb). cbn [mbind option_bind].
      apply Hgoal; [done|by split|]. intros env h x He Ex. destruct (Hval' env h x Ex I) as (h' & bb & Hs & ->).
      destruct pk; cbn [Fold_spec.eval] in Hs |- *; destruct (eval env h a) as [[h1 va]|] eqn:Ea; cbn [mbind option_bind] in Hs |- *; try done;
      rewrite (Ra _ _ _ _ He Ea); cbn [mbind option_bind];
      (destruct (truthy va) eqn:Eta; cbn [negb truthy bit Z.eqb]; try (injection Hs as <- Hs; by destruct bb)).
      all: destruct (eval env h1 b) as [[h2 vb]|] eqn:Eb; cbn [mbind option_bind] in Hs |- *; try done; rewrite (Rb _ _ _ _ He Eb); cbn [mbind option_bind];
      injection Hs as <- Hs; do 2 f_equal; destruct (truthy vb), bb; done.
  Qed.
End proof.
