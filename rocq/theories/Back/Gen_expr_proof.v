(** The code of an expression computes its value. *)
From stdpp Require Import base list numbers list_numbers.
From Verif Require Import Back.Ir_model Back.Ir_spec Back.Opt_model Back.Opt_spec Back.Opt_proof Back.Gen_model Back.Gen_spec Back.Gen_op_proof Back.Gen_shape_proof.
Local Open Scope Z_scope.

Lemma set_eq f d z : set f d z d = z.
Proof. unfold set. by rewrite decide_True. Qed.
Lemma set_ne f d z x : x <> d -> set f d z x = f x.
Proof. intros H. unfold set. by rewrite decide_False. Qed.
Lemma apart_l r1 w1 r2 w2 x : apart r1 w1 r2 w2 = true -> x ∈ r1 -> x ∉ w2.
Proof.
  unfold apart. intros [_ H]%andb_true_iff Hx Hw. rewrite forallb_forall in H. apply elem_of_list_In in Hw.
  specialize (H x Hw). apply bool_decide_eq_true_1 in H. apply H. apply elem_of_app. by left.
Qed.
Lemma apart_r r1 w1 r2 w2 x : apart r1 w1 r2 w2 = true -> x ∈ r2 -> x ∉ w1.
Proof.
  unfold apart. intros [H _]%andb_true_iff Hx Hw. rewrite forallb_forall in H. apply elem_of_list_In in Hw.
  specialize (H x Hw). apply bool_decide_eq_true_1 in H. apply H. apply elem_of_app. by left.
Qed.

Section Expr.
  Context {W : Type} (ld : W -> Z -> Z -> option Z) (st : W -> Z -> Z -> Z -> option W)
    (call : W -> nat -> list Z -> option (Z * W)) (nv : nat) (vt : nat -> ty).
  Notation eval := (eval ld st call).
  Notation eval_args := (eval_args ld st call).
  Notation typed := (typed true nv vt).
  Notation typed_args := (typed_args true nv vt).
  Notation matches := (matches nv vt).

  Lemma eval_call_eq f t args s w : eval (ECall f t args) s w =
    ('(vs, s, w, r1, w1) ← eval_args args s w; '(z, w) ← call w f vs; Some (conv t z, s, w, r1, w1)).
  Proof. reflexivity. Qed.
  Lemma eval_acons_eq e es s w : eval_args (ACons e es) s w =
    ('(vs, s, w, r2, w2) ← eval_args es s w;
     '(v, s, w, r1, w1) ← eval e s w;
     if apart r1 w1 r2 w2 then Some (cut (tsz (typeof e)) v :: vs, s, w, r1 ++ r2, w1 ++ w2) else None).
  Proof. reflexivity. Qed.

  (** Variables not written keep their values. *)
  Lemma eval_frame e : forall s w v s' w' R M x, eval e s w = Some (v, s', w', R, M) -> x ∉ M -> s' x = s x.
  Proof.
    induction e using expr_mut with (P0 := fun es => forall s w v s' w' R M x, eval_args es s w = Some (v, s', w', R, M) -> x ∉ M -> s' x = s x);
      intros s0 w0 v0 s' w' R M xx H Hx; first [rewrite eval_call_eq in H|rewrite eval_acons_eq in H|cbn [Gen_spec.eval Gen_spec.eval_args] in H].
    all: repeat first [
      progress simplify_eq
      | match goal with H : (_ ≫= _) = Some _ |- _ => apply bind_Some in H as (? & ? & H) end
      | match goal with y : (_ * _)%type |- _ => destruct y end
      | match goal with H : (if ?b then _ else _) = Some _ |- _ => destruct b eqn:? end
      | match goal with H : (match ?b with _ => _ end) = Some _ |- _ => destruct b eqn:? end ].
    all: rewrite ?elem_of_app, ?elem_of_list_singleton in *; try done.
    all: repeat match goal with
      | IH : forall s w v s' w' R M x, Gen_spec.eval _ _ _ ?e s w = _ -> _, E : Gen_spec.eval _ _ _ ?e _ _ = Some _ |- _ => eapply IH with (x := xx) in E; [|by tauto]
      | IH : forall s w v s' w' R M x, Gen_spec.eval_args _ _ _ ?e s w = _ -> _, E : Gen_spec.eval_args _ _ _ ?e _ _ = Some _ |- _ => eapply IH with (x := xx) in E; [|by tauto]
      end.
    all: rewrite ?set_ne by tauto; congruence.
  Qed.

  Lemma typed_good e : typed e -> good_ty (typeof e).
  Proof.
    induction e; cbn [Gen_spec.typed typeof]; unfold is_var; intros Ht; destruct_and?; subst; eauto; done.
  Qed.

  Section Code.
    Context (code : list item) (Huniq : forall x, (cnt x code <= 1)%nat).
    Notation mstep := (mstep ld st call code).
    Notation msteps := (msteps ld st call code).
    Definition at_ (p : nat) (c : list item) : Prop := forall i x, c !! i = Some x -> code !! (p + i)%nat = Some x.
    Lemma at_app p c1 c2 : at_ p (c1 ++ c2) -> at_ p c1 /\ at_ (p + length c1) c2.
    Proof.
      intros H. split; intros i x Hi.
      - apply H. by apply lookup_app_l_Some.
      - rewrite <- Nat.add_assoc. apply H. rewrite lookup_app_r by lia. by rewrite Nat.add_comm, Nat.add_sub.
    Qed.
    Lemma at_cons p i c : at_ p (i :: c) -> code !! p = Some i /\ at_ (S p) c.
    Proof.
      intros H. split; [rewrite <- (Nat.add_0_r p); by apply H|]. intros j x Hj. rewrite Nat.add_succ_comm. by apply H.
    Qed.

    Lemma find_lab_at p l : code !! p = Some (Lab l) -> find_lab code l = Some p.
    Proof.
      clear -Huniq. specialize (Huniq l). revert p Huniq. induction code as [|i c IH]; intros p Hu Hp; [done|].
      destruct p as [|p].
      - cbn in Hp. injection Hp as ->. cbn [find_lab]. by rewrite decide_True.
      - cbn in Hp. assert (Hc : (1 <= cnt l c)%nat).
        { clear -Hp. revert p Hp. induction c as [|j c IH]; intros p Hp; [done|]. destruct p as [|p].
          - cbn in Hp. injection Hp as ->. cbn [cnt]. unfold hit. rewrite decide_True by done. lia.
          - cbn in Hp. specialize (IH _ Hp). destruct j; cbn [cnt]; lia. }
        destruct i; cbn [cnt find_lab] in *.
        all: try (rewrite (IH p) by (done || lia); done).
        unfold hit in Hu. case_decide; [lia|]. rewrite (IH p) by (done || lia). done.
    Qed.

    Definition runs (m m' : mach) : Prop := exists n, msteps n m m'.
    Lemma runs_refl m : runs m m.
    Proof. exists 0%nat. constructor. Qed.
    Lemma msteps_trans n1 n2 m1 m2 m3 : msteps n1 m1 m2 -> msteps n2 m2 m3 -> msteps (n1 + n2) m1 m3.
    Proof. induction 1; cbn; [done|]. intros. econstructor; eauto. Qed.
    Lemma runs_trans m1 m2 m3 : runs m1 m2 -> runs m2 m3 -> runs m1 m3.
    Proof. intros [n1 H1] [n2 H2]. exists (n1 + n2)%nat. by eapply msteps_trans. Qed.
    Lemma runs_one m m' : mstep m = Some m' -> runs m m'.
    Proof. intros H. exists 1%nat. econstructor; [done|constructor]. Qed.
    Lemma runs_step m m' m'' : runs m m' -> mstep m' = Some m'' -> runs m m''.
    Proof. intros H1 H2. eapply runs_trans; [done|by apply runs_one]. Qed.

    (** Where the value of an expression is. *)
    Definition place (lit : bool) (r r' : nat) (R : list nat) (t : ty) (o : opr) : Prop :=
      match o with
      | OConst _ => lit = true
      | OReg x => (nv <= x /\ r <= x < r')%nat \/ ((x < nv)%nat /\ x ∈ R /\ tsz (vt x) = tsz t)
      end.
    Definition kept (r : nat) (regs regs' : nat -> Z) : Prop := forall x, (nv <= x < r)%nat -> regs' x = regs x.
    Lemma kept_trans r r1 a b c : (r <= r1)%nat -> kept r a b -> kept r1 b c -> kept r a c.
    Proof. intros Hr H1 H2 x Hx. rewrite H2 by lia. by apply H1. Qed.
    Lemma kept_set r regs d z : (r <= d)%nat -> kept r regs (set regs d z).
    Proof. intros Hd x Hx. rewrite set_ne; [done|lia]. Qed.
    Lemma matches_temp s regs d z : (nv <= d)%nat -> matches s regs -> matches s (set regs d z).
    Proof. intros Hd H x Hx. rewrite set_ne by lia. by apply H. Qed.
    Lemma matches_var s regs x v z : conv (vt x) z = v -> matches s regs -> matches (set s x v) (set regs x z).
    Proof.
      intros Hz H y Hy. unfold set. case_decide; [by subst|]. by apply H.
    Qed.

    (** An operand keeps its value when others are computed. *)
    Lemma stable lit r r1 R t o s1 s2 regs1 regs2 : good_ty t -> (forall x, good_ty (vt x)) -> place lit r r1 R t o -> kept r1 regs1 regs2 ->
      matches s1 regs1 -> matches s2 regs2 -> (forall x, x ∈ R -> s2 x = s1 x) -> conv t (val regs2 o) = conv t (val regs1 o).
    Proof.
      intros Ht Hvt Hp Hk H1 H2 Hs. destruct o as [x|z]; [|done]. cbn [val]. destruct Hp as [Hp|(Hx & HR & Hsz)].
      - by rewrite Hk by lia.
      - apply conv_eq; [done|]. rewrite <- Hsz. apply conv_fix; [apply Hvt|]. rewrite (H1 x Hx), (H2 x Hx). by apply Hs.
    Qed.

    Context (Hvt : forall x, good_ty (vt x)).
    Definition val_ok (e : expr) : Prop := forall r l o sz c r' l' p s w v s' w' R M regs args ret,
      gen None e r l = Some (o, sz, c, r', l') -> typed e -> (nv <= r)%nat -> at_ p c -> matches s regs ->
      eval e s w = Some (v, s', w', R, M) ->
      exists regs' args', runs (Mach p regs args ret w) (Mach (p + length c) regs' args' ret w') /\ matches s' regs' /\ kept r regs regs' /\
        sz = tsz (typeof e) /\ conv (typeof e) (val regs' o) = v /\ cst (typeof e) o /\ place (literal e) r r' R (typeof e) o /\
        (nocall e = true -> args' = args).
    Definition cond_ok (e : expr) : Prop := forall tb fb r l o sz c r' l' p s w v s' w' R M regs args ret q,
      gen (Some (tb, fb)) e r l = Some (o, sz, c, r', l') -> typed e -> (nv <= r)%nat -> at_ p c -> matches s regs ->
      eval e s w = Some (v, s', w', R, M) -> code !! q = Some (Lab (if truth v then tb else fb)) ->
      exists regs' args', runs (Mach p regs args ret w) (Mach q regs' args' ret w') /\ matches s' regs' /\ kept r regs regs' /\
        (nocall e = true -> args' = args).
    Definition args_ok (es : exprs) : Prop := forall i r l n c r' l' p s w vs s' w' R M regs args ret,
      gen_args es i r l = Some (n, c, r', l') -> typed_args es -> (nv <= r)%nat -> at_ p c -> matches s regs ->
      eval_args es s w = Some (vs, s', w', R, M) ->
      exists regs' args', runs (Mach p regs args ret w) (Mach (p + length c) regs' args' ret w') /\ matches s' regs' /\ kept r regs regs' /\
        args' <$> seq i (length vs) = vs /\ (n = i + length vs)%nat /\ (forall j, (j < i)%nat -> args' j = args j).

    Lemma place_mono lit lit' r r' r1 r1' R R' t o : (lit = true -> lit' = true) -> (r' <= r)%nat -> (r1 <= r1')%nat -> (forall x, x ∈ R -> x ∈ R') ->
      place lit r r1 R t o -> place lit' r' r1' R' t o.
    Proof.
      intros Hl H1 H2 HR. destruct o as [x|z]; cbn [place]; [|done]. intros [H|(Hx & Hi & Hs)]; [left; lia|right; auto].
    Qed.
    Lemma run_ins p regs args ret w i d vs z : code !! p = Some (Ins i) -> exec regs i = Some (ESet d vs z) ->
      runs (Mach p regs args ret w) (Mach (S p) (set regs d z) args ret w).
    Proof. intros Hp He. apply runs_one. unfold Gen_spec.mstep. rewrite Hp. cbn [mbind option_bind]. by rewrite He. Qed.
    Lemma run_lab p l regs args ret w : code !! p = Some (Lab l) -> runs (Mach p regs args ret w) (Mach (S p) regs args ret w).
    Proof. intros Hp. apply runs_one. unfold Gen_spec.mstep. by rewrite Hp. Qed.
    Lemma run_jump p q l regs args ret w : code !! p = Some (Jump l) -> code !! q = Some (Lab l) -> runs (Mach p regs args ret w) (Mach q regs args ret w).
    Proof. intros Hp Hq. apply runs_one. unfold Gen_spec.mstep. rewrite Hp. cbn [mbind option_bind]. by rewrite (find_lab_at q). Qed.
    Lemma run_mov p x o vs regs args ret w : code !! p = Some (Ins (Mov x o vs)) ->
      runs (Mach p regs args ret w) (Mach (S p) (set regs x (cut vs (val regs o))) args ret w).
    Proof. intros Hp. by apply (run_ins _ _ _ _ _ _ _ vs _ Hp). Qed.
    Lemma runs_to p q m m' regs args ret w : runs m (Mach p regs args ret w) -> p = q -> m' = Mach q regs args ret w -> runs m m'.
    Proof. by intros H -> ->. Qed.
    Ltac lens := repeat (rewrite ?app_length; cbn [length app]); lia.

    Lemma two e1 e2 r l a sa c1 r1 l1 b sb c2 r2 l2 p s w v1 s1 w1 R1 M1 v2 s2 w2 R2 M2 regs args ret : val_ok e1 -> val_ok e2 ->
      gen None e1 r l = Some (a, sa, c1, r1, l1) -> gen None e2 r1 l1 = Some (b, sb, c2, r2, l2) -> typed e1 -> typed e2 -> (nv <= r)%nat ->
      at_ p c1 -> at_ (p + length c1) c2 -> matches s regs ->
      eval e1 s w = Some (v1, s1, w1, R1, M1) -> eval e2 s1 w1 = Some (v2, s2, w2, R2, M2) -> (forall x, x ∈ R1 -> x ∉ M2) ->
      exists regs' args', runs (Mach p regs args ret w) (Mach (p + length c1 + length c2) regs' args' ret w2) /\ matches s2 regs' /\ kept r regs regs' /\
        (sa = tsz (typeof e1) /\ conv (typeof e1) (val regs' a) = v1 /\ cst (typeof e1) a /\ place (literal e1) r r2 R1 (typeof e1) a) /\
        (sb = tsz (typeof e2) /\ conv (typeof e2) (val regs' b) = v2 /\ cst (typeof e2) b /\ place (literal e2) r r2 R2 (typeof e2) b) /\
        (nocall e1 && nocall e2 = true -> args' = args).
    Proof.
      intros H1 H2 G1 G2 T1 T2 Hr A1 A2 Hm E1 E2 Hap.
      pose proof (gen_shape _ _ _ _ _ _ _ _ _ G1) as (S1 & _ & _). pose proof (gen_shape _ _ _ _ _ _ _ _ _ G2) as (S2 & _ & _).
      destruct (H1 _ _ _ _ _ _ _ _ _ _ _ _ _ _ _ _ args ret G1 T1 Hr A1 Hm E1) as (regs1 & args1 & X1 & M1' & K1 & Z1 & V1 & C1 & P1 & N1).
      destruct (H2 _ _ _ _ _ _ _ _ _ _ _ _ _ _ _ _ args1 ret G2 T2 ltac:(lia) A2 M1' E2) as (regs2 & args2 & X2 & M2' & K2 & Z2 & V2 & C2 & P2 & N2).
      exists regs2, args2. split; [by eapply runs_trans|]. split; [done|]. split; [by apply (kept_trans r r1 _ regs1)|]. split; [|split].
      - split_and!; [done| |done|by apply (place_mono (literal e1) _ r _ r1 _ R1)]. rewrite <- V1.
        apply (stable (literal e1) r r1 R1 _ _ s1 s2); [by apply typed_good|done..|]. intros x Hx. apply (eval_frame _ _ _ _ _ _ _ _ _ E2). by apply Hap.
      - split_and!; [done|done|done|by apply (place_mono (literal e2) _ r1 _ r2 _ R2)].
      - intros [? ?]%andb_true_iff. rewrite N2 by done. by apply N1.
    Qed.

    Lemma bop_types_of k t e1 e2 : typed (EBop k t e1 e2) -> typed e1 /\ typed e2 /\ typeof e1 = t /\ bop_types k t (typeof e2).
    Proof. cbn [Gen_spec.typed]. unfold bop_types. tauto. Qed.

    Lemma val_bop k t e1 e2 : val_ok e1 -> val_ok e2 -> val_ok (EBop k t e1 e2).
    Proof.
      intros H1 H2 r l o sz c r' l' p s w v s' w' R M regs args ret Hg Ht Hr Hat Hm He.
      apply bop_types_of in Ht as (T1 & T2 & Te & Hty). pose proof (typed_good _ T1) as Gt. rewrite Te in Gt. pose proof (typed_good _ T2) as Gb.
      cbn [gen] in Hg. inv_bind Hg. destruct y as [[[[a sa] c1] r1] l1]. inv_bind Hg. destruct y as [[[[b sb] c2] r2] l2]. inv_bind Hg. destruct y as [[[o' s3] c3] r3]. injection Hg as <- <- <- <- <-.
      cbn [Gen_spec.eval] in He. inv_bind He. destruct y as [[[[v1 s1] w1] R1] M1]. inv_bind He. destruct y as [[[[v2 s2] w2] R2] M2].
      destruct (apart R1 M1 R2 M2) eqn:Ha; [|done]. inv_bind He. injection He as <- <- <- <- <-.
      apply at_app in Hat as [A1 A2]. apply at_app in A2 as [A2 A3].
      destruct (two _ _ _ _ _ _ _ _ _ _ _ _ _ _ _ _ _ _ _ _ _ _ _ _ _ _ _ regs args ret H1 H2 E E0 T1 T2 Hr A1 A2 Hm E2 E3) as (regs1 & args1 & X & Mm & Kk & (Za & Va & Ca & Pa) & (Zb & Vb & Cb & Pb) & Nn).
      { intros x. by apply (apart_l _ _ _ _ _ Ha). }
      rewrite Te in *. subst sa sb v1 v2. pose proof (gen_shape _ _ _ _ _ _ _ _ _ E) as (S1 & _ & _). pose proof (gen_shape _ _ _ _ _ _ _ _ _ E0) as (S2 & _ & _).
      destruct (put_bop_ok _ _ _ _ _ _ _ _ _ _ _ _ Gt Gb Hty Ca Cb E1 E4) as (-> & Hv & [(-> & -> & Vo & Co & Po)|(i & z & -> & -> & -> & Ei & Vo)]).
      - exists regs1, args1. split; [eapply runs_to; [exact X| |done]; lens|]. split_and!; try done. cbn [literal typeof].
        destruct Po as [->|[[-> Hsz]|[z ->]]].
        + apply (place_mono (literal e1) _ r _ r2 _ R1); [intros ->; done|lia..| |done]. intros x. rewrite elem_of_app. by left.
        + destruct b as [x|z]; cbn [place] in *; [|by rewrite Pb, orb_true_r]. destruct Pb as [?|(? & ? & ?)]; [by left|]. right. split_and!; [done|rewrite elem_of_app; by right|congruence].
        + cbn [place]. unfold put_bop in E1. destruct a as [ra|za]; [|by cbn [place] in Pa; rewrite Pa]. destruct b as [rb|zb]; [|by cbn [place] in Pb; rewrite Pb, orb_true_r]. cbn in E1. done.
      - apply at_cons in A3 as [A3 _]. exists (set regs1 r2 z), args1. split.
        { eapply runs_to; [eapply runs_trans; [exact X|eapply run_ins; [exact A3|exact Ei]]| |done]. lens. }
        split; [apply matches_temp; [lia|done]|]. split; [apply (kept_trans r r2 _ regs1); [lia|done|by apply kept_set]|]. cbn [val typeof]. rewrite set_eq.
        split_and!; try done. left. lia.
    Qed.

    Lemma truth_b2z b : truth (Z.b2z b) = b.
    Proof. by destruct b. Qed.
    Lemma run_cjmp cmp l p regs args ret w q (taken : bool) : at_ p (cjmp cmp l) ->
      match cmp with inl v => v = taken | inr (cond, x, y, s) => cond_holds (size_of s) cond (val regs x) (val regs y) = taken end ->
      code !! q = Some (Lab l) \/ taken = false ->
      runs (Mach p regs args ret w) (Mach (if taken then q else p + length (cjmp cmp l))%nat regs args ret w).
    Proof.
      intros Ha Ht Hq. destruct cmp as [v|[[[cond x] y] s]]; cbn [cjmp] in *.
      - subst v. destruct taken; [|eapply runs_to; [apply runs_refl| |done]; cbn; lia]. destruct Hq as [Hq|?]; [|done]. apply at_cons in Ha as [Ha _]. by eapply run_jump.
      - apply at_cons in Ha as [Ha _]. apply runs_one. unfold Gen_spec.mstep. rewrite Ha. cbn [mbind option_bind]. rewrite Ht. destruct taken.
        + destruct Hq as [Hq|?]; [|done]. by rewrite (find_lab_at q).
        + cbn [length]. by rewrite Nat.add_1_r.
    Qed.

    (** The operands of a comparison *)
    Lemma rel_run c t e1 e2 r l a sa c1 r1 l1 b sb c2 r2 l2 cmp p s w v s' w' R M regs args ret : val_ok e1 -> val_ok e2 ->
      gen None e1 r l = Some (a, sa, c1, r1, l1) -> gen None e2 r1 l1 = Some (b, sb, c2, r2, l2) -> compare c (tuns t) a sa b sb = Some cmp ->
      typed (ERel c t e1 e2) -> (nv <= r)%nat -> at_ p c1 -> at_ (p + length c1) c2 -> matches s regs ->
      eval (ERel c t e1 e2) s w = Some (v, s', w', R, M) ->
      exists regs' args' taken, runs (Mach p regs args ret w) (Mach (p + length c1 + length c2) regs' args' ret w') /\ matches s' regs' /\ kept r regs regs' /\
        v = Z.b2z taken /\
        match cmp with inl v => v = taken /\ literal e1 || literal e2 = true
          | inr (cond, x, y, s) => cond_holds (size_of s) cond (val regs' x) (val regs' y) = taken end /\
        (nocall e1 && nocall e2 = true -> args' = args).
    Proof.
      intros H1 H2 G1 G2 Hc (T1 & T2 & Te1 & Te2) Hr A1 A2 Hm He.
      cbn [Gen_spec.eval] in He. inv_bind He. destruct y as [[[[v1 s1] w1] R1] M1]. inv_bind He. destruct y as [[[[v2 s2] w2] R2] M2].
      destruct (apart R1 M1 R2 M2) eqn:Ha; [|done]. injection He as <- <- <- <- <-.
      destruct (two _ _ _ _ _ _ _ _ _ _ _ _ _ _ _ _ _ _ _ _ _ _ _ _ _ _ _ regs args ret H1 H2 G1 G2 T1 T2 Hr A1 A2 Hm E E0) as (regs1 & args1 & X & Mm & Kk & (Za & Va & Ca & Pa) & (Zb & Vb & Cb & Pb) & Nn).
      { intros x. by apply (apart_l _ _ _ _ _ Ha). }
      pose proof (typed_good _ T1) as Gt. rewrite Te1 in *. rewrite Te2 in *. subst sa sb v1 v2. exists regs1, args1, (c_rel c (conv t (val regs1 a)) (conv t (val regs1 b))).
      pose proof (compare_ok regs1 c t a b cmp Gt Ca Cb Hc) as Hcmp. split_and!; try done. destruct cmp as [x|[[[cond x] y] sc]].
      - split; [done|]. unfold compare in Hc. destruct a; [done|]. cbn [place] in Pa. by rewrite Pa.
      - by destruct Hcmp as [-> ?].
    Qed.
    Lemma val_rel c t e1 e2 : val_ok e1 -> val_ok e2 -> val_ok (ERel c t e1 e2).
    Proof.
      intros H1 H2 r l o sz cc r' l' p s w v s' w' R M regs args ret Hg Ht Hr Hat Hm He.
      cbn [gen] in Hg. inv_bind Hg. destruct y as [[[[a sa] c1] r1] l1]. inv_bind Hg. destruct y as [[[[b sb] c2] r2] l2]. inv_bind Hg. rename y into cmp.
      pose proof (gen_shape _ _ _ _ _ _ _ _ _ E) as (S1 & _ & _). pose proof (gen_shape _ _ _ _ _ _ _ _ _ E0) as (S2 & _ & _).
      destruct cmp as [vc|[[[cond x] y] sc]].
      - injection Hg as <- <- <- <- <-. apply at_app in Hat as [A1 A2].
        destruct (rel_run _ _ _ _ _ _ _ _ _ _ _ _ _ _ _ _ _ _ _ _ _ _ _ _ _ regs args ret H1 H2 E E0 E1 Ht Hr A1 A2 Hm He) as (regs1 & args1 & taken & X & Mm & Kk & -> & [-> Hl] & Nn).
        exists regs1, args1. split; [eapply runs_to; [exact X| |done]; lens|]. split_and!; try done; [apply conv_b2z|apply fixnum_b2z].
      - injection Hg as <- <- <- <- <-. apply at_app in Hat as [A1 A2]. apply at_app in A2 as [A2 A3]. apply at_cons in A3 as [A3 _].
        destruct (rel_run _ _ _ _ _ _ _ _ _ _ _ _ _ _ _ _ _ _ _ _ _ _ _ _ _ regs args ret H1 H2 E E0 E1 Ht Hr A1 A2 Hm He) as (regs1 & args1 & taken & X & Mm & Kk & -> & Hl & Nn).
        exists (set regs1 r2 (Z.b2z taken)), args1. split.
        { eapply runs_to; [eapply runs_trans; [exact X|eapply run_ins; [exact A3|cbn [exec]; rewrite Hl; done]]| |done]. lens. }
        split; [apply matches_temp; [lia|done]|]. split; [apply (kept_trans r r2 _ regs1); [lia|done|by apply kept_set]|]. cbn [val typeof]. rewrite set_eq.
        split_and!; try done; [apply conv_b2z|]. left. lia.
    Qed.
    Lemma cond_rel c t e1 e2 : val_ok e1 -> val_ok e2 -> cond_ok (ERel c t e1 e2).
    Proof.
      intros H1 H2 tb fb r l o sz cc r' l' p s w v s' w' R M regs args ret q Hg Ht Hr Hat Hm He Hq.
      cbn [gen] in Hg. inv_bind Hg. destruct y as [[[[a sa] c1] r1] l1]. inv_bind Hg. destruct y as [[[[b sb] c2] r2] l2]. inv_bind Hg. rename y into cmp.
      injection Hg as <- <- <- <- <-. apply at_app in Hat as [A1 A2]. apply at_app in A2 as [A2 A3]. apply at_app in A3 as [A3 A4]. apply at_cons in A4 as [A4 A5]. apply at_cons in A5 as [A5 _].
      destruct (rel_run _ _ _ _ _ _ _ _ _ _ _ _ _ _ _ _ _ _ _ _ _ _ _ _ _ regs args ret H1 H2 E E0 E1 Ht Hr A1 A2 Hm He) as (regs1 & args1 & taken & X & Mm & Kk & -> & Hl & Nn).
      rewrite truth_b2z in Hq. exists regs1, args1. split_and!; try done. eapply runs_trans; [exact X|].
      assert (Hc : match cmp with inl v => v = taken | inr (cond, x, y, s) => cond_holds (size_of s) cond (val regs1 x) (val regs1 y) = taken end) by (destruct cmp as [|[[[]]]]; [by destruct Hl|done]).
      destruct taken.
      - apply (run_cjmp cmp tb _ _ _ _ _ q true); [done|done|by left].
      - eapply runs_trans; [apply (run_cjmp cmp tb _ _ _ _ _ q false); [done|done|by right]|].
        eapply runs_trans; [eapply run_lab; exact A4|]. by eapply run_jump.
    Qed.

    Lemma val_fix z t : val_ok (EFix z t).
    Proof.
      intros r l o sz c r' l' p s w v s' w' R M regs args ret Hg [Ht Hz] Hr Hat Hm He. cbn in Hg, He. simplify_eq.
      exists regs, args. split; [eapply runs_to; [apply runs_refl| |done]; cbn; lia|]. split_and!; done.
    Qed.
    Lemma cond_fix z t : cond_ok (EFix z t).
    Proof.
      intros tb fb r l o sz c r' l' p s w v s' w' R M regs args ret q Hg [Ht Hz] Hr Hat Hm He Hq. cbn in Hg, He. simplify_eq.
      exists regs, args. split_and!; try done. apply at_cons in Hat as [Hat _]. eapply run_jump; [exact Hat|].
      rewrite fixnum_conv_eq in Hq by done. assert ((if tuns t then ufix z else z) = 0 <-> z = 0) as Hi.
      { destruct (tuns t); [|done]. split; [|by intros ->]. intros E. destruct Hz as [Hz _]. unfold ufix, Wrap_model.to_unsigned in E. unfold int64 in Hz.
        apply Z.mod_divide in E; [|done]. destruct E as [k E]. lia. }
      unfold truth in Hq. destruct (z =? 0) eqn:Ez.
      - apply Z.eqb_eq in Ez. rewrite (proj2 Hi Ez) in Hq. exact Hq.
      - apply Z.eqb_neq in Ez. rewrite (proj2 (Z.eqb_neq _ _)) in Hq by (intros ?; apply Ez; by apply Hi). exact Hq.
    Qed.
    Lemma val_var x t : val_ok (EVar x t).
    Proof.
      intros r l o sz c r' l' p s w v s' w' R M regs args ret Hg (Hx & Et & Ht) Hr Hat Hm He. cbn in Hg, He. simplify_eq.
      exists regs, args. split; [eapply runs_to; [apply runs_refl| |done]; cbn; lia|]. split_and!; try done; [by apply Hm|]. right. split_and!; [done|apply elem_of_list_here|done].
    Qed.

    Lemma val_comma e1 e2 : val_ok e1 -> val_ok e2 -> val_ok (EComma e1 e2).
    Proof.
      intros H1 H2 r l o sz c r' l' p s w v s' w' R M regs args ret Hg [T1 T2] Hr Hat Hm He.
      cbn [gen] in Hg. inv_bind Hg. destruct y as [[[[a sa] c1] r1] l1]. inv_bind Hg. destruct y as [[[[b sb] c2] r2] l2]. injection Hg as <- <- <- <- <-.
      cbn [Gen_spec.eval] in He. inv_bind He. destruct y as [[[[v1 s1] w1] R1] M1]. inv_bind He. destruct y as [[[[v2 s2] w2] R2] M2]. injection He as <- <- <- <- <-.
      apply at_app in Hat as [A1 A2]. pose proof (gen_shape _ _ _ _ _ _ _ _ _ E) as (S1 & _ & _).
      destruct (H1 _ _ _ _ _ _ _ _ _ _ _ _ _ _ _ _ args ret E T1 Hr A1 Hm E1) as (regs1 & args1 & X1 & Mm1 & K1 & Z1 & V1 & C1 & P1 & N1).
      destruct (H2 _ _ _ _ _ _ _ _ _ _ _ _ _ _ _ _ args1 ret E0 T2 ltac:(lia) A2 Mm1 E2) as (regs2 & args2 & X2 & Mm2 & K2 & Z2 & V2 & C2 & P2 & N2).
      exists regs2, args2. split; [eapply runs_to; [by eapply runs_trans| |done]; lens|]. split_and!; try done.
      - by apply (kept_trans r r1 _ regs1).
      - apply (place_mono (literal e2) _ r1 _ r2 _ R2); [done|lia|lia|intros x; rewrite elem_of_app; by right|done].
      - cbn [nocall]. intros [? ?]%andb_true_iff. rewrite N2 by done. by apply N1.
    Qed.
    Lemma cond_comma e1 e2 : val_ok e1 -> cond_ok e2 -> cond_ok (EComma e1 e2).
    Proof.
      intros H1 H2 tb fb r l o sz c r' l' p s w v s' w' R M regs args ret q Hg [T1 T2] Hr Hat Hm He Hq.
      cbn [gen] in Hg. inv_bind Hg. destruct y as [[[[a sa] c1] r1] l1]. inv_bind Hg. destruct y as [[[[b sb] c2] r2] l2]. injection Hg as <- <- <- <- <-.
      cbn [Gen_spec.eval] in He. inv_bind He. destruct y as [[[[v1 s1] w1] R1] M1]. inv_bind He. destruct y as [[[[v2 s2] w2] R2] M2]. injection He as <- <- <- <- <-.
      apply at_app in Hat as [A1 A2]. pose proof (gen_shape _ _ _ _ _ _ _ _ _ E) as (S1 & _ & _).
      destruct (H1 _ _ _ _ _ _ _ _ _ _ _ _ _ _ _ _ args ret E T1 Hr A1 Hm E1) as (regs1 & args1 & X1 & Mm1 & K1 & Z1 & V1 & C1 & P1 & N1).
      destruct (H2 _ _ _ _ _ _ _ _ _ _ _ _ _ _ _ _ _ _ args1 ret q E0 T2 ltac:(lia) A2 Mm1 E2 Hq) as (regs2 & args2 & X2 & Mm2 & K2 & N2).
      exists regs2, args2. split; [by eapply runs_trans|]. split_and!; try done.
      - by apply (kept_trans r r1 _ regs1).
      - cbn [nocall]. intros [? ?]%andb_true_iff. rewrite N2 by done. by apply N1.
    Qed.

    (** && and || *)
    Lemma cond_and e1 e2 : cond_ok e1 -> cond_ok e2 -> cond_ok (EAnd e1 e2).
    Proof.
      intros H1 H2 tb fb r l o sz c r' l' p s w v s' w' R M regs args ret q Hg [T1 T2] Hr Hat Hm He Hq.
      cbn [gen] in Hg. inv_bind Hg. destruct y as [[[[a sa] c1] r1] l1]. inv_bind Hg. destruct y as [[[[b sb] c2] r2] l2]. injection Hg as <- <- <- <- <-.
      cbn [Gen_spec.eval] in He. inv_bind He. destruct y as [[[[v1 s1] w1] R1] M1].
      apply at_app in Hat as [A1 A2]. apply at_cons in A2 as [A2 A3]. pose proof (gen_shape _ _ _ _ _ _ _ _ _ E) as (S1 & _ & _).
      destruct (truth v1) eqn:Et.
      - inv_bind He. destruct y as [[[[v2 s2] w2] R2] M2]. injection He as <- <- <- <- <-. rewrite truth_b2z in Hq.
        destruct (H1 _ _ _ _ _ _ _ _ _ _ _ _ _ _ _ _ _ _ args ret (p + length c1)%nat E T1 Hr A1 Hm E1) as (regs1 & args1 & X1 & Mm1 & K1 & N1); [by rewrite Et|].
        destruct (H2 _ _ _ _ _ _ _ _ _ _ _ _ _ _ _ _ _ _ args1 ret q E0 T2 ltac:(lia) A3 Mm1 E2 Hq) as (regs2 & args2 & X2 & Mm2 & K2 & N2).
        exists regs2, args2. split; [eapply runs_trans; [exact X1|]; eapply runs_trans; [by eapply run_lab|done]|]. split_and!; try done.
        + by apply (kept_trans r r1 _ regs1).
        + cbn [nocall]. intros [? ?]%andb_true_iff. rewrite N2 by done. by apply N1.
      - injection He as <- <- <- <- <-.
        destruct (H1 _ _ _ _ _ _ _ _ _ _ _ _ _ _ _ _ _ _ args ret q E T1 Hr A1 Hm E1) as (regs1 & args1 & X1 & Mm1 & K1 & N1); [by rewrite Et|].
        exists regs1, args1. split_and!; try done. cbn [nocall]. intros [? ?]%andb_true_iff. by apply N1.
    Qed.
    Lemma cond_or e1 e2 : cond_ok e1 -> cond_ok e2 -> cond_ok (EOr e1 e2).
    Proof.
      intros H1 H2 tb fb r l o sz c r' l' p s w v s' w' R M regs args ret q Hg [T1 T2] Hr Hat Hm He Hq.
      cbn [gen] in Hg. inv_bind Hg. destruct y as [[[[a sa] c1] r1] l1]. inv_bind Hg. destruct y as [[[[b sb] c2] r2] l2]. injection Hg as <- <- <- <- <-.
      cbn [Gen_spec.eval] in He. inv_bind He. destruct y as [[[[v1 s1] w1] R1] M1].
      apply at_app in Hat as [A1 A2]. apply at_cons in A2 as [A2 A3]. pose proof (gen_shape _ _ _ _ _ _ _ _ _ E) as (S1 & _ & _).
      destruct (truth v1) eqn:Et.
      - injection He as <- <- <- <- <-.
        destruct (H1 _ _ _ _ _ _ _ _ _ _ _ _ _ _ _ _ _ _ args ret q E T1 Hr A1 Hm E1) as (regs1 & args1 & X1 & Mm1 & K1 & N1); [by rewrite Et|].
        exists regs1, args1. split_and!; try done. cbn [nocall]. intros [? ?]%andb_true_iff. by apply N1.
      - inv_bind He. destruct y as [[[[v2 s2] w2] R2] M2]. injection He as <- <- <- <- <-. rewrite truth_b2z in Hq.
        destruct (H1 _ _ _ _ _ _ _ _ _ _ _ _ _ _ _ _ _ _ args ret (p + length c1)%nat E T1 Hr A1 Hm E1) as (regs1 & args1 & X1 & Mm1 & K1 & N1); [by rewrite Et|].
        destruct (H2 _ _ _ _ _ _ _ _ _ _ _ _ _ _ _ _ _ _ args1 ret q E0 T2 ltac:(lia) A3 Mm1 E2 Hq) as (regs2 & args2 & X2 & Mm2 & K2 & N2).
        exists regs2, args2. split; [eapply runs_trans; [exact X1|]; eapply runs_trans; [by eapply run_lab|done]|]. split_and!; try done.
        + by apply (kept_trans r r1 _ regs1).
        + cbn [nocall]. intros [? ?]%andb_true_iff. rewrite N2 by done. by apply N1.
    Qed.
    Definition logical (e : expr) : Prop := (exists e1 e2, e = EAnd e1 e2) \/ (exists e1 e2, e = EOr e1 e2).
    (** The value of && and || from the jumps. *)
    Lemma val_logical e : logical e -> cond_ok e -> val_ok e.
    Proof.
      intros Hl Hc r l o sz c r' l' p s w v s' w' R M regs args ret Hg Ht Hr Hat Hm He.
      assert (exists c0 o0 sz0 r0, gen (Some (LNew l, LNew (S l))) e r (S (S (S l))) = Some (o0, sz0, c0, r0, l') /\ o = OReg r0 /\ sz = tsz ty_bool /\ r' = S r0 /\
        c = c0 ++ [Lab (LNew l); Ins (Mov r0 (OConst 1) (tsz ty_bool)); Jump (LNew (S (S l))); Lab (LNew (S l)); Ins (Mov r0 (OConst 0) (tsz ty_bool)); Lab (LNew (S (S l)))] /\
        typeof e = ty_bool /\ v = Z.b2z (truth v)) as (c0 & o0 & sz0 & r0 & G & -> & -> & -> & -> & Te & Hv).
      { destruct Hl as [(e1 & e2 & ->)|(e1 & e2 & ->)].
        - cbn [gen] in Hg |- *. inv_bind Hg. destruct y as [[[[a sa] c1] r1] l1]. inv_bind Hg. destruct y as [[[[b sb] c2] r2] l2]. injection Hg as <- <- <- <- <-.
          rewrite E. cbn [mbind option_bind]. rewrite E0. cbn [mbind option_bind]. do 4 eexists. split_and!; try done.
          cbn [Gen_spec.eval] in He. inv_bind He. destruct y as [[[[v1 s1] w1] R1] M1]. case_match; [|by simplify_eq]. inv_bind He. destruct y as [[[[v2 s2] w2] R2] M2]. simplify_eq. by rewrite truth_b2z.
        - cbn [gen] in Hg |- *. inv_bind Hg. destruct y as [[[[a sa] c1] r1] l1]. inv_bind Hg. destruct y as [[[[b sb] c2] r2] l2]. injection Hg as <- <- <- <- <-.
          rewrite E. cbn [mbind option_bind]. rewrite E0. cbn [mbind option_bind]. do 4 eexists. split_and!; try done.
          cbn [Gen_spec.eval] in He. inv_bind He. destruct y as [[[[v1 s1] w1] R1] M1]. case_match; [by simplify_eq|]. inv_bind He. destruct y as [[[[v2 s2] w2] R2] M2]. simplify_eq. by rewrite truth_b2z. }
      apply at_app in Hat as [A1 A2]. apply at_cons in A2 as [B1 A2]. apply at_cons in A2 as [B2 A2]. apply at_cons in A2 as [B3 A2]. apply at_cons in A2 as [B4 A2]. apply at_cons in A2 as [B5 A2]. apply at_cons in A2 as [B6 _].
      pose proof (gen_shape _ _ _ _ _ _ _ _ _ G) as (S1 & _ & _).
      destruct (Hc _ _ _ _ _ _ _ _ _ _ _ _ _ _ _ _ _ _ args ret (if truth v then p + length c0 else S (S (S (p + length c0))))%nat G Ht Hr A1 Hm He) as (regs1 & args1 & X1 & Mm1 & K1 & N1); [by destruct (truth v)|].
      exists (set regs1 r0 v), args1. split.
      { eapply runs_trans; [exact X1|]. clear X1. destruct (truth v); rewrite Hv; cbn [Z.b2z].
        - eapply runs_trans; [by eapply run_lab|]. eapply runs_trans; [by eapply run_mov|]. eapply runs_trans; [by eapply run_jump|].
          eapply runs_to; [by eapply run_lab| |done]. lens.
        - eapply runs_trans; [by eapply run_lab|]. eapply runs_trans; [by eapply run_mov|].
          eapply runs_to; [by eapply run_lab| |done]. lens. }
      split; [apply matches_temp; [lia|done]|]. split; [apply (kept_trans r r0 _ regs1); [lia|done|by apply kept_set]|]. rewrite Te. cbn [val]. rewrite set_eq.
      split_and!; try done; [rewrite Hv; apply conv_b2z|]. left. lia.
    Qed.

    Lemma val_assign x t e : val_ok e -> val_ok (EAssign x t e).
    Proof.
      intros H1 r l o sz c r' l' p s w v s' w' R M regs args ret Hg (T1 & (Hx & Et & Gt) & Te) Hr Hat Hm He.
      cbn [gen] in Hg. inv_bind Hg. destruct y as [[[[a sa] c1] r1] l1]. injection Hg as <- <- <- <- <-.
      cbn [Gen_spec.eval] in He. inv_bind He. destruct y as [[[[v1 s1] w1] R1] M1]. injection He as <- <- <- <- <-.
      apply at_app in Hat as [A1 A2]. apply at_cons in A2 as [A2 _]. pose proof (gen_shape _ _ _ _ _ _ _ _ _ E) as (S1 & _ & _).
      destruct (H1 _ _ _ _ _ _ _ _ _ _ _ _ _ _ _ _ args ret E T1 Hr A1 Hm E0) as (regs1 & args1 & X1 & Mm1 & K1 & Z1 & V1 & C1 & P1 & N1).
      rewrite Te in *. exists (set regs1 x (cut (tsz t) (val regs1 a))), args1. split.
      { eapply runs_trans; [exact X1|]. eapply runs_to; [by eapply run_mov| |done]. lens. }
      split; [apply matches_var; [|done]; rewrite Et, conv_cut by done; done|]. split; [intros y Hy; rewrite set_ne by lia; by apply K1|].
      cbn [typeof literal nocall]. split; [done|]. split; [|split; [done|split; [done|exact N1]]].
      destruct a as [y|z]; [|done]. cbn [val] in *. unfold set. case_decide; [subst y|done]. by rewrite conv_cut.
    Qed.

    Lemma val_una k t e : val_ok e -> val_ok (EUna k t e).
    Proof.
      intros H1 r l o sz c r' l' p s w v s' w' R M regs args ret Hg (T1 & Te) Hr Hat Hm He. pose proof (typed_good _ T1) as Gt. rewrite Te in Gt.
      cbn [gen] in Hg. inv_bind Hg. destruct y as [[[[a sa] c1] r1] l1]. inv_bind Hg. destruct y as [[[o' s3] c3] r3]. injection Hg as <- <- <- <- <-.
      cbn [Gen_spec.eval] in He. inv_bind He. destruct y as [[[[v1 s1] w1] R1] M1]. inv_bind He. injection He as <- <- <- <- <-.
      apply at_app in Hat as [A1 A2]. pose proof (gen_shape _ _ _ _ _ _ _ _ _ E) as (S1 & _ & _).
      destruct (H1 _ _ _ _ _ _ _ _ _ _ _ _ _ _ _ _ args ret E T1 Hr A1 Hm E1) as (regs1 & args1 & X1 & Mm1 & K1 & Z1 & V1 & C1 & P1 & N1).
      rewrite Te in *. subst v1. destruct (put_una_ok regs1 _ _ _ _ _ _ _ _ _ Gt C1 E0 E2) as (-> & Hv & [(-> & -> & Vo & Co & z & ->)|(i & z & -> & -> & -> & Ei & Vo)]).
      - exists regs1, args1. split; [eapply runs_to; [exact X1| |done]; lens|]. split_and!; try done. cbn [place literal]. destruct a as [x|]; [|exact P1]. unfold put_una in E0. done.
      - apply at_cons in A2 as [A2 _]. exists (set regs1 r1 z), args1. split.
        { eapply runs_to; [eapply runs_trans; [exact X1|eapply run_ins; [exact A2|exact Ei]]| |done]. lens. }
        split; [apply matches_temp; [lia|done]|]. split; [apply (kept_trans r r1 _ regs1); [lia|done|by apply kept_set]|]. cbn [val typeof]. rewrite set_eq.
        split_and!; try done. left. lia.
    Qed.
    Lemma val_pos e : val_ok e -> val_ok (EPos e).
    Proof. intros H1 r l o sz c r' l' p s w v s' w' R M regs args ret Hg Ht Hr Hat Hm He. exact (H1 _ _ _ _ _ _ _ _ _ _ _ _ _ _ _ _ args ret Hg Ht Hr Hat Hm He). Qed.
    Lemma val_cast t ts e : val_ok e -> val_ok (ECast t ts e).
    Proof.
      intros H1 r l o sz c r' l' p s w v s' w' R M regs args ret Hg (T1 & Gt & Te & Hok) Hr Hat Hm He. pose proof (typed_good _ T1) as Gs. rewrite Te in Gs.
      cbn [gen] in Hg. inv_bind Hg. destruct y as [[[[a sa] c1] r1] l1].
      cbn [Gen_spec.eval] in He. inv_bind He. destruct y as [[[[v1 s1] w1] R1] M1]. injection He as <- <- <- <- <-. pose proof (gen_shape _ _ _ _ _ _ _ _ _ E) as (S1 & _ & _).
      assert (A1 : at_ p c1) by (destruct a; [case_match|]; simplify_eq; [done|by apply at_app in Hat as [? _]|done]).
      destruct (H1 _ _ _ _ _ _ _ _ _ _ _ _ _ _ _ _ args ret E T1 Hr A1 Hm E0) as (regs1 & args1 & X1 & Mm1 & K1 & Z1 & V1 & C1 & P1 & N1).
      rewrite Te in *. subst sa v1. cbn [typeof literal nocall]. destruct a as [x|z].
      - destruct (tsz t =? tsz ts) eqn:Es.
        + apply Z.eqb_eq in Es. injection Hg as <- <- <- <- <-. exists regs1, args1. split_and!; try done.
          * apply conv_eq; [done|]. rewrite Es. symmetry. by apply cut_conv.
          * cbn [place] in *. rewrite Es. done.
        + injection Hg as <- <- <- <- <-. apply at_app in Hat as [_ A2]. apply at_cons in A2 as [A2 _].
          exists (set regs1 r1 (cut (tsz t) (conv ts (regs1 x)))), args1. split.
          { eapply runs_to; [eapply runs_trans; [exact X1|eapply run_ins; [exact A2|cbn [exec val]; done]]| |done]. lens. }
          split; [apply matches_temp; [lia|done]|]. split; [apply (kept_trans r r1 _ regs1); [lia|done|by apply kept_set]|]. cbn [val]. rewrite set_eq.
          split_and!; try done; [by apply conv_cut|]. left. lia.
      - injection Hg as <- <- <- <- <-. cbn [place] in P1. destruct (cast_const_ok t ts z Gt Gs C1 (Hok eq_refl P1)) as [F1 F2].
        exists regs1, args1. split_and!; try done.
    Qed.

    (** ++ and --: addition in the type *)
    Lemma inc_bop (dec : bool) t step a v : good_ty t -> conv t a = a -> fixnum_of t step -> 0 <= step -> c_inc dec t step a = Some v ->
      conv t v = v /\ ir_op (if dec then IR_SUB else IR_ADD) (tsz t) (tsz t) (tuns t) a step = Some (cut (tsz t) v).
    Proof.
      intros Gt Ha Hs Hp Hi. unfold c_inc in Hi. cbv zeta in Hi.
      assert (conv t v = v /\ cut (tsz t) v = cut (tsz t) (if dec then a - step else a + step)) as [H1 H2].
      { destruct (tsz t <? 2); [|by apply arith_ok]. injection Hi as <-. split; [by apply conv_conv|by apply cut_conv]. }
      split; [done|]. destruct dec; cbn [ir_op]; by rewrite H2.
    Qed.
    Lemma put_inc regs (dec : bool) t step x r o s c r1 v : good_ty t -> fixnum_of t step -> 0 <= step ->
      put_bop (if dec then IR_SUB else IR_ADD) (OReg x) (tsz t) (OConst step) (tsz t) (tsz t) (tuns t) r = Some (o, s, c, r1) ->
      c_inc dec t step (conv t (regs x)) = Some v ->
      s = tsz t /\ conv t v = v /\
      ((c = [] /\ r1 = r /\ o = OReg x /\ conv t (regs x) = v) \/
       exists i z, c = [Ins i] /\ o = OReg r /\ r1 = S r /\ exec regs i = Some (ESet r (tsz t) z) /\ conv t z = v).
    Proof.
      intros Gt Hs Hp Hb Hi. destruct (inc_bop dec t step (conv t (regs x)) v Gt) as [Hv Hop]; [by apply conv_conv|done|done|done|].
      assert (Hop' : ir_op (if dec then IR_SUB else IR_ADD) (tsz t) (tsz t) (tuns t) (regs x) step = Some (cut (tsz t) v)).
      { rewrite <- Hop. destruct dec; cbn [ir_op]; f_equal; [apply cut_sub|apply cut_add]; try done; by rewrite cut_conv. }
      unfold put_bop in Hb. assert (new_ir_bop (if dec then IR_SUB else IR_ADD) (OReg x) (OConst step) (tsz t) (tuns t) = if step =? 0 then Ok (Val (OReg x)) else Ok Instr) as E.
      { destruct dec; cbn [new_ir_bop is_divmod]; rewrite andb_false_r; done. }
      rewrite E in Hb. destruct (step =? 0) eqn:Ez.
      - apply Z.eqb_eq in Ez. subst step. rewrite decide_True in Hb by done. injection Hb as <- <- <- <-. split; [done|]. split; [done|]. left. split_and!; try done.
        rewrite <- Hv. apply conv_eq; [done|]. assert (cut (tsz t) (cut (tsz t) v) = cut (tsz t) (regs x)) as <-; [|by rewrite cut_cut].
        assert (Some (cut (tsz t) v) = Some (cut (tsz t) (regs x))) as [= ->]; [|by apply cut_cut]. rewrite <- Hop'. destruct dec; cbn [ir_op]; do 2 f_equal; lia.
      - injection Hb as <- <- <- <-. split; [done|]. split; [done|]. right. eexists _, _. split; [done|]. split; [done|]. split; [done|].
        cbn [exec val]. rewrite Hop'. cbn [mbind option_bind]. split; [done|]. by rewrite conv_cut.
    Qed.
    Lemma val_incvar post dec t step x : val_ok (EIncVar post dec t step x).
    Proof.
      intros r l o sz c r' l' p s w v s' w' R M regs args ret Hg ((Hx & Et & Gt) & Hs & Hp) Hr Hat Hm He.
      cbn [Gen_spec.eval] in He. inv_bind He. injection He as <- <- <- <- <-. rename y into v. rewrite <- (Hm x Hx), Et in E. pose proof (Hm x Hx) as Hmx. rewrite Et in Hmx.
      cbn [gen] in Hg. cbn [typeof literal nocall]. destruct post.
      - inv_bind Hg. destruct y as [[[o' s3] c3] r3]. injection Hg as <- <- <- <- <-.
        apply at_cons in Hat as [A1 A2]. cbn [app] in A2. apply at_app in A2 as [A2 A3]. apply at_cons in A3 as [A3 _].
        set (regs1 := set regs r (cut (tsz t) (regs x))) in *.
        assert (Ex : regs1 x = regs x) by (unfold regs1; by rewrite set_ne by lia).
        rewrite <- Ex in E. destruct (put_inc regs1 _ _ _ _ _ _ _ _ _ _ Gt Hs Hp E0 E) as (-> & Hv & Hcase).
        assert (X1 : runs (Mach p regs args ret w) (Mach (S p) regs1 args ret w)) by by apply (run_mov _ _ _ _ _ _ _ _ A1).
        assert (Hr1 : conv t (regs1 r) = s x) by (unfold regs1; rewrite set_eq, conv_cut by done; done).
        assert (Mm1 : matches s regs1) by (apply matches_temp; [lia|done]).
        destruct Hcase as [(-> & -> & -> & Hz)|(i & z & -> & -> & -> & Ei & Vo)].
        + cbn [length] in A3. rewrite Nat.add_0_r in A3. exists (set regs1 x (cut (tsz t) (regs1 x))), args. split.
          { eapply runs_trans; [exact X1|]. eapply runs_to; [by eapply run_mov| |done]. lens. }
          split; [apply matches_var; [rewrite Et, conv_cut by done; done|done]|]. split; [intros y Hy; rewrite set_ne by lia; by apply (kept_set r)|].
          cbn [val]. rewrite set_ne by lia. split_and!; try done. left. lia.
        + apply at_cons in A2 as [A2 _]. cbn [length] in A3. rewrite Nat.add_1_r in A3. exists (set (set regs1 (S r) z) x (cut (tsz t) z)), args. split.
          { eapply runs_trans; [exact X1|]. eapply runs_trans; [by eapply run_ins|]. eapply runs_to; [by eapply run_mov| |cbn [val]; rewrite set_eq; done]. lens. }
          split; [apply matches_var; [rewrite Et, conv_cut by done; done|apply matches_temp; [lia|done]]|].
          split; [intros y Hy; rewrite !set_ne by lia; by apply (kept_set r)|]. cbn [val]. rewrite !set_ne by lia. split_and!; try done. left. lia.
      - inv_bind Hg. destruct y as [[[o' s3] c3] r3]. injection Hg as <- <- <- <- <-. cbn [app] in Hat. apply at_app in Hat as [A2 A3]. apply at_cons in A3 as [A3 _].
        destruct (put_inc regs _ _ _ _ _ _ _ _ _ _ Gt Hs Hp E0 E) as (-> & Hv & Hcase).
        destruct Hcase as [(-> & -> & -> & Hz)|(i & z & -> & -> & -> & Ei & Vo)].
        + cbn [length] in A3. rewrite Nat.add_0_r in A3. exists (set regs x (cut (tsz t) (regs x))), args. split; [eapply runs_to; [by eapply run_mov| |done]; lens|].
          split; [apply matches_var; [rewrite Et, conv_cut by done; done|done]|]. split; [intros y Hy; by rewrite set_ne by lia|].
          cbn [val]. rewrite set_eq, conv_cut by done. split_and!; try done. right. split_and!; [done|apply elem_of_list_here|by rewrite Et].
        + apply at_cons in A2 as [A2 _]. cbn [length] in A3. rewrite Nat.add_1_r in A3. exists (set (set regs r z) x (cut (tsz t) z)), args. split.
          { eapply runs_trans; [by eapply run_ins|]. eapply runs_to; [by eapply run_mov| |cbn [val]; rewrite set_eq; done]. lens. }
          split; [apply matches_var; [rewrite Et, conv_cut by done; done|apply matches_temp; [lia|done]]|].
          split; [intros y Hy; by rewrite !set_ne by lia|]. cbn [val]. rewrite (set_ne _ x) by lia. rewrite set_eq. split_and!; try done. left. lia.
    Qed.

    Lemma run_load p d a t regs args ret w z ad : good_ty t -> code !! p = Some (Load d a (tsz t)) -> conv (Ty 3 true) (val regs a) = ad -> ld w ad (tsz t) = Some z ->
      runs (Mach p regs args ret w) (Mach (S p) (set regs d (cut (tsz t) z)) args ret w).
    Proof. intros Gt Hp <- Hl. apply runs_one. unfold Gen_spec.mstep. rewrite Hp. cbn [mbind option_bind]. unfold addr. change (view 8 true (val regs a)) with (conv (Ty 3 true) (val regs a)). by rewrite Hl. Qed.
    Lemma run_store p a o t regs args ret w w' v ad : good_ty t -> code !! p = Some (Store a o (tsz t)) -> conv (Ty 3 true) (val regs a) = ad -> conv t (val regs o) = v ->
      st w ad (tsz t) (cut (tsz t) v) = Some w' -> runs (Mach p regs args ret w) (Mach (S p) regs args ret w').
    Proof.
      intros Gt Hp <- <- Hl. apply runs_one. unfold Gen_spec.mstep. rewrite Hp. cbn [mbind option_bind]. unfold addr. change (view 8 true (val regs a)) with (conv (Ty 3 true) (val regs a)).
      rewrite cut_conv in Hl by done. by rewrite Hl.
    Qed.
    Lemma val_deref t e : val_ok e -> val_ok (EDeref t e).
    Proof.
      intros H1 r l o sz c r' l' p s w v s' w' R M regs args ret Hg (T1 & Gt & Te) Hr Hat Hm He.
      cbn [gen] in Hg. inv_bind Hg. destruct y as [[[[a sa] c1] r1] l1]. injection Hg as <- <- <- <- <-.
      cbn [Gen_spec.eval] in He. inv_bind He. destruct y as [[[[v1 s1] w1] R1] M1]. inv_bind He. injection He as <- <- <- <- <-.
      apply at_app in Hat as [A1 A2]. apply at_cons in A2 as [A2 _]. pose proof (gen_shape _ _ _ _ _ _ _ _ _ E) as (S1 & _ & _).
      destruct (H1 _ _ _ _ _ _ _ _ _ _ _ _ _ _ _ _ args ret E T1 Hr A1 Hm E0) as (regs1 & args1 & X1 & Mm1 & K1 & Z1 & V1 & C1 & P1 & N1).
      rewrite Te in *. exists (set regs1 r1 (cut (tsz t) y)), args1. split.
      { eapply runs_trans; [exact X1|]. eapply runs_to; [by eapply run_load| |done]. lens. }
      split; [apply matches_temp; [lia|done]|]. split; [apply (kept_trans r r1 _ regs1); [lia|done|by apply kept_set]|]. cbn [val typeof]. rewrite set_eq.
      split_and!; try done; [by apply conv_cut|]. left. lia.
    Qed.
    Lemma val_incmem post dec t step e : val_ok e -> val_ok (EIncMem post dec t step e).
    Proof.
      intros H1 r l o sz c r' l' p s w v s' w' R M regs args ret Hg (T1 & Gt & Hs & Hp & Te) Hr Hat Hm He.
      cbn [gen] in Hg. inv_bind Hg. destruct y as [[[[a sa] c1] r1] l1]. inv_bind Hg. destruct y as [[[o' s3] c3] r3]. injection Hg as <- <- <- <- <-.
      cbn [Gen_spec.eval] in He. inv_bind He. destruct y as [[[[v1 s1] w1] R1] M1]. inv_bind He. inv_bind He. inv_bind He. injection He as <- <- <- <- <-. rename y into z0, y0 into nv1, y1 into w2.
      apply at_app in Hat as [A1 A2]. cbn [app] in A2. apply at_cons in A2 as [A2 A3]. apply at_app in A3 as [A3 A4]. apply at_cons in A4 as [A4 _]. pose proof (gen_shape _ _ _ _ _ _ _ _ _ E) as (S1 & _ & _).
      destruct (H1 _ _ _ _ _ _ _ _ _ _ _ _ _ _ _ _ args ret E T1 Hr A1 Hm E1) as (regs1 & args1 & X1 & Mm1 & K1 & Z1 & V1 & C1 & P1 & N1).
      rewrite Te in *. set (regs2 := set regs1 r1 (cut (tsz t) z0)) in *. assert (Hv2 : conv t (regs2 r1) = conv t z0) by (unfold regs2; rewrite set_eq; by apply conv_cut).
      rewrite <- Hv2 in E3. destruct (put_inc regs2 _ _ _ _ _ _ _ _ _ _ Gt Hs Hp E0 E3) as (-> & Hv & Hcase).
      assert (X2 : runs (Mach p regs args ret w) (Mach (S (p + length c1)) regs2 args1 ret w1)) by (eapply runs_trans; [exact X1|by eapply run_load]).
      assert (Mm2 : matches s1 regs2) by (apply matches_temp; [lia|done]).
      assert (K2 : kept r regs regs2) by (apply (kept_trans r r1 _ regs1); [lia|done|by apply kept_set]).
      assert (Va : forall y, (r1 <= y)%nat -> forall z, conv (Ty 3 true) (val (set regs1 y z) a) = v1).
      { intros y Hy z. destruct a as [x|]; [|exact V1]. cbn [val] in *. rewrite set_ne; [exact V1|]. cbn [place] in P1. destruct P1 as [?|(? & ?)]; lia. }
      assert (Va2 : forall y, (r1 <= y)%nat -> forall z, conv (Ty 3 true) (val (set regs2 y z) a) = v1).
      { intros y Hy z. destruct a as [x|]; [|exact V1]. unfold regs2. cbn [val] in *. assert (x < r1)%nat by (cbn [place] in P1; destruct P1 as [?|(? & ?)]; lia). rewrite !set_ne by lia. exact V1. }
      cbn [typeof literal nocall]. destruct Hcase as [(-> & -> & -> & Hz)|(i & z & -> & -> & -> & Ei & Vo)].
      - exists regs2, args1. split.
        { eapply runs_trans; [exact X2|]. eapply runs_to; [eapply (run_store _ a (OReg r1) t _ _ _ _ _ nv1 v1 Gt); [rewrite <- A4; f_equal; cbn [length]; lia|by apply Va|done|done]| |done]. lens. }
        split; [done|]. split; [done|]. destruct post; split_and!; try done; cbn [val place]; try (left; lia). 
      - apply at_cons in A3 as [A3 _]. exists (set regs2 (S r1) z), args1. split.
        { eapply runs_trans; [exact X2|]. eapply runs_trans; [by eapply run_ins|]. eapply runs_to; [eapply (run_store _ a (OReg (S r1)) t _ _ _ _ _ nv1 v1 Gt); [rewrite <- A4; f_equal; cbn [length]; lia|apply Va2; lia|cbn [val]; by rewrite set_eq|done]| |done]. lens. }
        split; [apply matches_temp; [lia|done]|]. split; [apply (kept_trans r r1 _ regs2); [lia|done|apply kept_set; lia]|].
        destruct post; split_and!; try done; cbn [val place]; rewrite ?set_eq; rewrite ?(set_ne _ (S r1)) by lia; try (left; lia); done.
    Qed.
    Lemma val_store t e1 e2 : val_ok e1 -> val_ok e2 -> val_ok (EStore t e1 e2).
    Proof.
      intros H1 H2 r l o sz c r' l' p s w v s' w' R M regs args ret Hg (T1 & T2 & Te1 & Te2) Hr Hat Hm He.
      cbn [gen] in Hg. inv_bind Hg. destruct y as [[[[b sb] c2] r1] l1]. inv_bind Hg. destruct y as [[[[a sa] c1] r2] l2]. injection Hg as <- <- <- <- <-.
      cbn [Gen_spec.eval] in He. inv_bind He. destruct y as [[[[v2 s1] w1] R2] M2]. inv_bind He. destruct y as [[[[v1 s2] w2] R1] M1].
      destruct (apart R1 M1 R2 M2) eqn:Ha; [|done]. inv_bind He. injection He as <- <- <- <- <-.
      apply at_app in Hat as [A1 A2]. apply at_app in A2 as [A2 A3]. apply at_cons in A3 as [A3 _].
      destruct (two _ _ _ _ _ _ _ _ _ _ _ _ _ _ _ _ _ _ _ _ _ _ _ _ _ _ _ regs args ret H2 H1 E E0 T2 T1 Hr A1 A2 Hm E1 E2) as (regs1 & args1 & X & Mm & Kk & (Za & Va & Ca & Pa) & (Zb & Vb & Cb & Pb) & Nn).
      { intros x. by apply (apart_r _ _ _ _ _ Ha). }
      pose proof (typed_good _ T2) as Gt. rewrite Te1 in *. rewrite Te2 in *. subst sb. exists regs1, args1. split.
      { eapply runs_trans; [exact X|]. eapply runs_to; [by eapply run_store| |done]. lens. }
      cbn [typeof literal nocall]. split_and!; try done.
      - apply (place_mono (literal e2) _ r _ r2 _ R2); [done|lia..| |done]. intros x. rewrite elem_of_app. by right.
      - rewrite andb_comm. exact Nn.
    Qed.

    Lemma val_tern t cnd e1 e2 : cond_ok cnd -> val_ok e1 -> val_ok e2 -> val_ok (ETern t cnd e1 e2).
    Proof.
      intros H0 H1 H2 r l o sz c r' l' p s w v s' w' R M regs args ret Hg (T0 & T1 & T2 & Te1 & Te2) Hr Hat Hm He.
      pose proof (typed_good _ T1) as Gt. rewrite Te1 in Gt.
      cbn [gen] in Hg. inv_bind Hg. destruct y as [[[[a sa] c0] r0] l0]. inv_bind Hg. destruct y as [[[[o1 sb] c1] r1] l1]. inv_bind Hg. destruct y as [[[[o2 sc] c2] r2] l2]. injection Hg as <- <- <- <- <-.
      cbn [Gen_spec.eval] in He. inv_bind He. destruct y as [[[[v0 s0] w0] R0] M0]. inv_bind He. destruct y as [[[[v1 s1] w1] R1] M1]. injection He as <- <- <- <- <-.
      pose proof (gen_shape _ _ _ _ _ _ _ _ _ E) as (S0 & _ & _). pose proof (gen_shape _ _ _ _ _ _ _ _ _ E0) as (S1 & _ & _). pose proof (gen_shape _ _ _ _ _ _ _ _ _ E1) as (S2 & _ & _).
      apply at_app in Hat as [A0 A]. cbn [app] in A. apply at_cons in A as [B1 A]. apply at_app in A as [A1 A]. apply at_cons in A as [B2 A]. apply at_cons in A as [B3 A]. apply at_cons in A as [B4 A].
      apply at_app in A as [A2 A]. apply at_cons in A as [B5 A]. apply at_cons in A as [B6 _].
      cbn [typeof literal nocall]. destruct (truth v0) eqn:Et.
      - destruct (H0 _ _ _ _ _ _ _ _ _ _ _ _ _ _ _ _ _ _ args ret (p + length c0)%nat E T0 ltac:(lia) A0 Hm E2) as (regs0 & args0 & X0 & Mm0 & K0 & N0); [by rewrite Et|].
        destruct (H1 _ _ _ _ _ _ _ _ _ _ _ _ _ _ _ _ args0 ret E0 T1 ltac:(lia) A1 Mm0 E3) as (regs1 & args1 & X1 & Mm1 & K1 & Z1 & V1 & C1 & P1 & N1). rewrite Te1 in *.
        exists (set regs1 r (cut (tsz t) (val regs1 o1))), args1. split.
        { eapply runs_trans; [exact X0|]. eapply runs_trans; [by eapply run_lab|]. eapply runs_trans; [exact X1|]. eapply runs_trans; [by eapply run_mov|]. eapply runs_trans; [by eapply run_jump|].
          eapply runs_to; [by eapply run_lab| |done]. lens. }
        split; [apply matches_temp; [lia|done]|]. split.
        { intros x Hx. rewrite set_ne by lia. rewrite K1 by lia. apply K0. lia. }
        cbn [val]. rewrite set_eq. split_and!; try done; [by rewrite conv_cut|left; lia|]. intros [[? ?]%andb_true_iff ?]%andb_true_iff. rewrite N1 by done. by apply N0.
      - destruct (H0 _ _ _ _ _ _ _ _ _ _ _ _ _ _ _ _ _ _ args ret (S (S (S (p + length c0) + length c1)))%nat E T0 ltac:(lia) A0 Hm E2) as (regs0 & args0 & X0 & Mm0 & K0 & N0); [by rewrite Et|].
        destruct (H2 _ _ _ _ _ _ _ _ _ _ _ _ _ _ _ _ args0 ret E1 T2 ltac:(lia) A2 Mm0 E3) as (regs1 & args1 & X1 & Mm1 & K1 & Z1 & V1 & C1 & P1 & N1). rewrite Te2 in *.
        exists (set regs1 r (cut (tsz t) (val regs1 o2))), args1. split.
        { eapply runs_trans; [exact X0|]. eapply runs_trans; [by eapply run_lab|]. eapply runs_trans; [exact X1|]. eapply runs_trans; [by eapply run_mov|].
          eapply runs_to; [by eapply run_lab| |done]. lens. }
        split; [apply matches_temp; [lia|done]|]. split.
        { intros x Hx. rewrite set_ne by lia. rewrite K1 by lia. apply K0. lia. }
        cbn [val]. rewrite set_eq. split_and!; try done; [by rewrite conv_cut|left; lia|]. intros [[? ?]%andb_true_iff ?]%andb_true_iff. rewrite N1 by done. by apply N0.
    Qed.

    Lemma val_call f t es : args_ok es -> val_ok (ECall f t es).
    Proof.
      intros H1 r l o sz c r' l' p s w v s' w' R M regs args ret Hg (Gt & T1) Hr Hat Hm He.
      cbn [gen] in Hg. inv_bind Hg. destruct y as [[[n c1] r1] l1]. injection Hg as <- <- <- <- <-. rewrite eval_call_eq in He. inv_bind He. destruct y as [[[[vs s1] w1] R1] M1]. inv_bind He. destruct y as [z w2]. injection He as <- <- <- <- <-.
      apply at_app in Hat as [A1 A2]. apply at_cons in A2 as [A2 _].
      assert (S1 : (r <= r1)%nat). { assert (gen None (ECall f t es) r l = Some (OReg r1, tsz t, c1 ++ [Call f n r1 (tsz t)], S r1, l1)) as G by (cbn [gen]; rewrite E; done). 
        clear -E. assert (forall es i r l n c r' l', gen_args es i r l = Some (n, c, r', l') -> (r <= r')%nat) as Hsh; [|by apply Hsh in E]. clear.
        induction es as [|e es IH]; intros i r l n c r' l' H; cbn [gen_args] in H; [by simplify_eq|].
        inv_bind H. destruct y as [[[n1 c1] r1] l1]. inv_bind H. destruct y as [[[[o s] c2] r2] l2]. simplify_eq. apply IH in E. apply gen_shape in E0 as (? & _ & _). lia. }
      destruct (H1 _ _ _ _ _ _ _ _ _ _ _ _ _ _ _ _ args ret E T1 Hr A1 Hm E0) as (regs1 & args1 & X1 & Mm1 & K1 & Ea & En & _). cbn in En. subst n.
      exists (set regs1 r1 (cut (tsz t) z)), args1. split.
      { eapply runs_trans; [exact X1|]. eapply runs_to; [apply runs_one; unfold Gen_spec.mstep; rewrite A2; cbn [mbind option_bind]; rewrite Ea, E1; done| |done]. lens. }
      split; [apply matches_temp; [lia|done]|]. split; [apply (kept_trans r r1 _ regs1); [lia|done|by apply kept_set]|]. cbn [val typeof]. rewrite set_eq.
      split_and!; try done; [by apply conv_cut|]. left. lia.
    Qed.
    Lemma args_nil : args_ok ANil.
    Proof.
      intros i r l n c r' l' p s w vs s' w' R M regs args ret Hg Ht Hr Hat Hm He. cbn in Hg, He. simplify_eq. exists regs, args.
      split; [eapply runs_to; [apply runs_refl| |done]; cbn; lia|]. split_and!; try done.
    Qed.
    Lemma args_cons e es : val_ok e -> args_ok es -> args_ok (ACons e es).
    Proof.
      intros H1 H2 i r l n c r' l' p s w vs s' w' R M regs args ret Hg (T1 & Nc & T2) Hr Hat Hm He.
      cbn [gen_args] in Hg. inv_bind Hg. destruct y as [[[n1 c1] r1] l1]. inv_bind Hg. destruct y as [[[[o sz] c2] r2] l2]. injection Hg as <- <- <- <-.
      rewrite eval_acons_eq in He. inv_bind He. destruct y as [[[[vs1 s1] w1] R1] M1]. inv_bind He. destruct y as [[[[v s2] w2] R2] M2]. destruct (apart _ _ _ _); [|done]. injection He as <- <- <- <- <-.
      apply at_app in Hat as [A1 A2]. apply at_app in A2 as [A2 A3]. apply at_cons in A3 as [A3 _].
      destruct (H2 _ _ _ _ _ _ _ _ _ _ _ _ _ _ _ _ args ret E T2 Hr A1 Hm E1) as (regs1 & args1 & X1 & Mm1 & K1 & Ea & En & Hlow).
      assert (S1 : (r <= r1)%nat).
      { clear -E. assert (forall es i r l n c r' l', gen_args es i r l = Some (n, c, r', l') -> (r <= r')%nat) as Hsh; [|by apply Hsh in E]. clear.
        induction es as [|e es IH]; intros i r l n c r' l' H; cbn [gen_args] in H; [by simplify_eq|].
        inv_bind H. destruct y as [[[n1 c1] r1] l1]. inv_bind H. destruct y as [[[[o s] c2] r2] l2]. simplify_eq. apply IH in E. apply gen_shape in E0 as (? & _ & _). lia. }
      destruct (H1 _ _ _ _ _ _ _ _ _ _ _ _ _ _ _ _ args1 ret E0 T1 ltac:(lia) A2 Mm1 E2) as (regs2 & args2 & X2 & Mm2 & K2 & Z2 & V2 & C2 & P2 & N2).
      rewrite (N2 Nc) in *. clear N2. subst sz. pose proof (typed_good _ T1) as Gt.
      exists regs2, (set args1 i (cut (tsz (typeof e)) (val regs2 o))). split.
      { eapply runs_trans; [exact X1|]. eapply runs_trans; [exact X2|]. eapply runs_to; [apply runs_one; unfold Gen_spec.mstep; rewrite A3; cbn [mbind option_bind]; done| |done]. lens. }
      split; [done|]. split; [by apply (kept_trans r r1 _ regs1)|]. split; [|split].
      - cbn [length seq]. rewrite fmap_cons. f_equal; [rewrite set_eq; by apply conv_cut_of|]. rewrite <- Ea at 2. apply list_fmap_ext. intros j x Hj. apply lookup_seq in Hj as [-> _]. apply set_ne. lia.
      - subst n1. cbn [length]. lia.
      - intros j Hj. rewrite set_ne by lia. apply Hlow. lia.
    Qed.

    Lemma no_cond e : (forall m r l, gen (Some m) e r l = None) -> cond_ok e.
    Proof. intros H tb fb r l o sz c r' l' p s w v s' w' R M regs args ret q Hg. by rewrite H in Hg. Qed.

    Theorem gen_ok e : val_ok e /\ cond_ok e.
    Proof.
      induction e using expr_mut with (P0 := args_ok); destruct_and?; try (split; [|by apply no_cond; intros []]).
      - split; [apply val_fix|apply cond_fix].
      - apply val_var.
      - by apply val_bop.
      - split; [by apply val_rel|by apply cond_rel].
      - assert (cond_ok (EAnd e1 e2)) by by apply cond_and. split; [|done]. apply val_logical; [left; eauto|done].
      - assert (cond_ok (EOr e1 e2)) by by apply cond_or. split; [|done]. apply val_logical; [right; eauto|done].
      - split; [by apply val_comma|by apply cond_comma].
      - by apply val_assign.
      - apply val_incvar.
      - by apply val_incmem.
      - by apply val_una.
      - by apply val_pos.
      - by apply val_cast.
      - by apply val_tern.
      - by apply val_deref.
      - by apply val_store.
      - by apply val_call.
      - apply args_nil.
      - by apply args_cons.
    Qed.
  End Code.
End Expr.
