(** Proofs about the comparison of types and the conversions allowed. *)
From stdpp Require Import base list numbers.
From Verif Require Import Front.Layout_model Front.Types_model Front.Types_spec.
Open Scope Z_scope.

Lemma ty_ind' (P : ty -> Prop) :
  (forall q, P (TVoid q)) -> (forall q k u e, P (TFixnum q k u e)) -> (forall q k, P (TFlonum q k)) ->
  (forall q t, P t -> P (TPtr q t)) -> (forall q t l, P t -> P (TArray q t l)) ->
  (forall q r v, P r -> P (TFunc q r None v)) ->
  (forall q r ps v, P r -> Forall P ps -> P (TFunc q r (Some ps) v)) ->
  (forall q n i, P (TStruct q n i)) -> forall t, P t.
Proof.
  intros Hv Hx Hl Hp Ha Ho Hf Hs. fix IH 1. intros [q|q k u e|q k|q t|q t l|q r [ps|] v|q n i].
  - apply Hv.
  - apply Hx.
  - apply Hl.
  - apply Hp, IH.
  - apply Ha, IH.
  - apply Hf; [apply IH|]. induction ps as [|p ps IHps]; constructor; [apply IH|done].
  - apply Ho, IH.
  - apply Hs.
Qed.

Lemma Fcons {A} (P : A -> Prop) x l : Forall P (x :: l) <-> P x /\ Forall P l.
Proof. split; [intros H; by inversion H|intros [? ?]; by constructor]. Qed.

(** Equations. *)
Lemma params_same l1 : forall l2,
  (fix params (l1 l2 : list ty) : bool :=
     match l1, l2 with
     | [], [] => true
     | p1 :: l1, p2 :: l2 => same_type_wq p1 p2 true && params l1 l2
     | _, _ => false
     end) l1 l2 = true <-> Forall2 (fun p p' => same_type_wq p p' true = true) l1 l2.
Proof.
  induction l1 as [|p l1 IH]; intros [|p' l2]; (split; [intros H|intros H; inversion H; subst; clear H]); try done.
  - apply andb_true_iff in H as [H1 H2]. constructor; [done|]. by apply IH.
  - rewrite H3. cbn. by apply IH.
Qed.

Lemma everywhere_func P q r ps v :
  everywhere P (TFunc q r ps v) <->
  P (TFunc q r ps v) /\ everywhere P r /\ match ps with None => True | Some ps => Forall (everywhere P) ps end.
Proof.
  cbn [everywhere]. destruct ps as [ps|]; [|tauto].
  enough (((fix all (l : list ty) : Prop := match l with [] => True | p :: l => everywhere P p /\ all l end) ps) <-> Forall (everywhere P) ps) by tauto.
  induction ps as [|p ps IH]; [split; [constructor|done]|]. rewrite Fcons. tauto.
Qed.

Lemma everywhere_here P t : everywhere P t -> P t.
Proof. destruct t; cbn [everywhere]; tauto. Qed.

Definition quals_ok (t1 t2 : ty) (ign : bool) : Prop := ign = true \/ is_const t1 = is_const t2.

Lemma same_unfold t1 t2 ign : same_type_wq t1 t2 ign = true <->
  quals_ok t1 t2 ign /\
  match t1, t2 with
  | TVoid _, TVoid _ => True
  | TFixnum _ k1 u1 _, TFixnum _ k2 u2 _ => k1 = k2 /\ u1 = u2
  | TFlonum _ k1, TFlonum _ k2 => k1 = k2
  | TPtr _ t1, TPtr _ t2 => same_type_wq t1 t2 ign = true
  | TArray _ t1 l1, TArray _ t2 l2 => (l1 = l2 \/ l1 < 0 \/ l2 < 0) /\ same_type_wq t1 t2 ign = true
  | TFunc _ r1 ps1 v1, TFunc _ r2 ps2 v2 =>
    same_type_wq r1 r2 true = true /\ v1 = v2 /\
    match ps1, ps2 with
    | None, None => True
    | Some ps1, Some ps2 => Forall2 (fun p p' => same_type_wq p p' true = true) ps1 ps2
    | _, _ => False
    end
  | TStruct _ n1 i1, TStruct _ n2 i2 => same_struct n1 i1 n2 i2 = true
  | _, _ => False
  end.
Proof.
  unfold quals_ok.
  assert (Hq : ign || eqb (is_const t1) (is_const t2) = true <-> ign = true \/ is_const t1 = is_const t2).
  { rewrite orb_true_iff, eqb_true_iff. done. }
  destruct t1, t2; cbn [same_type_wq]; rewrite andb_true_iff, Hq; try (split; [intros [? H]; discriminate H|tauto]); try tauto.
  - rewrite andb_true_iff, eqb_true_iff. assert (fk_eqb k k0 = true <-> k = k0) as ->; [|tauto].
    by destruct k, k0.
  - assert (flk_eqb k k0 = true <-> k = k0) as ->; [|tauto]. by destruct k, k0.
  - rewrite andb_true_iff, !orb_true_iff, Z.eqb_eq, !Z.ltb_lt. tauto.
  - rewrite !andb_true_iff, eqb_true_iff.
    destruct params as [ps|], params0 as [ps'|]; [rewrite params_same; tauto|..|tauto]; (split; [intros (_&(_&_)&H); discriminate H|intros (_&_&_&[])]).
Qed.

Lemma same_ignoring t1 t2 : same_type_wq t1 t2 false = true -> same_type_wq t1 t2 true = true.
Proof.
  revert t2. induction t1 using ty_ind'; intros t2; rewrite !same_unfold; intros [_ H']; (split; [by left|]);
    destruct t2; try done; try naive_solver.
Qed.

Lemma struct_sym n1 i1 n2 i2 : same_struct n1 i1 n2 i2 = true -> same_struct n2 i2 n1 i1 = true.
Proof. unfold same_struct. destruct i1, i2, n1, n2; rewrite ?Nat.eqb_eq; try done; intros ->; by rewrite ?Nat.eqb_refl. Qed.

Lemma same_sym' t1 : forall t2 ign, same_type_wq t1 t2 ign = true -> same_type_wq t2 t1 ign = true.
Proof.
  induction t1 using ty_ind'; intros t2 ign; rewrite !same_unfold; intros [Hq H']; (split; [destruct Hq; [by left|by right]|]);
    destruct t2; try done; try (by naive_solver lia).
  - destruct params as [ps'|]; [|naive_solver]. destruct H' as (?&->&H'). split; [auto|split; [done|]].
    clear Hq; revert ps' H'. induction H as [|p ps Hp _ IH]; intros ps' H'; inversion H'; subst; constructor; auto.
  - by apply struct_sym.
Qed.
Lemma same_sym t1 t2 ign : same_type_wq t1 t2 ign = same_type_wq t2 t1 ign.
Proof.
  destruct (same_type_wq t1 t2 ign) eqn:E; [symmetry; by apply same_sym'|].
  destruct (same_type_wq t2 t1 ign) eqn:E'; [|done]. apply same_sym' in E'. congruence.
Qed.

Lemma same_refl t : everywhere named t -> forall ign, same_type_wq t t ign = true.
Proof.
  induction t using ty_ind'; intros Hn ign; rewrite same_unfold; (split; [by right|]);
    try apply everywhere_func in Hn; cbn [everywhere] in Hn; try naive_solver.
  - destruct Hn as (_&?&Hp). split; [auto|split; [done|]].
    induction H as [|p ps IHp _ IH]; constructor; inversion Hp; subst; auto.
  - unfold same_struct. destruct Hn as [Hn _]. destruct i, n; by rewrite ?Nat.eqb_refl.
Qed.

(** Transitivity. *)
Section tags.
  Context (tag : nat -> nat) (Htag : forall n n', tag n = tag n' -> n = n').

  Lemma struct_same q1 n1 i1 q2 n2 i2 : one_declaration tag (TStruct q1 n1 i1) -> one_declaration tag (TStruct q2 n2 i2) ->
    (same_struct n1 i1 n2 i2 = true <-> exists s, declaration tag n1 i1 = Some s /\ declaration tag n2 i2 = Some s).
  Proof.
    cbn [one_declaration]. unfold same_struct, declaration. intros H1 H2.
    destruct i1 as [i1|], i2 as [i2|], n1 as [n1|], n2 as [n2|]; cbn [fmap option_fmap option_map]; subst; try done;
      rewrite ?Nat.eqb_eq; try naive_solver;
      (split; [intros H; first [discriminate H|subst; eauto]|intros (s&[= H]&[= H'])]); subst; try done;
      try (by exfalso; eapply H1); try (by exfalso; eapply H2); try (by apply Htag).
  Qed.

  Lemma same_trans t1 : everywhere (one_declaration tag) t1 ->
    forall t2 t3 ign, everywhere (one_declaration tag) t2 -> everywhere known_length t2 -> everywhere (one_declaration tag) t3 ->
    same_type_wq t1 t2 ign = true -> same_type_wq t2 t3 ign = true -> same_type_wq t1 t3 ign = true.
  Proof.
    induction t1 using ty_ind'; intros O1 t2 t3 ign O2 L2 O3; rewrite !same_unfold; intros [Hq1 H1] [Hq2 H2];
      (split; [unfold quals_ok in *; destruct Hq1, Hq2; subst; [by left..|right; congruence]|]);
      destruct t2; try done; destruct t3; try done.
    - naive_solver.
    - naive_solver.
    - destruct O1, O2, L2, O3. eauto.
    - destruct O1, O2, L2 as [L2 ?], O3. cbn in L2. destruct H1, H2. split; [lia|by eauto].
    - destruct params, params0; try (by destruct H1 as (?&?&[])); try (by destruct H2 as (?&?&[])).
      apply everywhere_func in O1, O2, L2, O3. destruct H1 as (?&->&_), H2 as (?&->&_). split; [|done].
      destruct O1 as (_&?&_), O2 as (_&?&_), L2 as (_&?&_), O3 as (_&?&_). by eauto.
    - destruct params as [ps2|], params0 as [ps3|]; try (by destruct H1 as (?&?&[])); try (by destruct H2 as (?&?&[])).
      apply everywhere_func in O1, O2, L2, O3. destruct O1 as (_&?&O1), O2 as (_&?&O2), L2 as (_&?&L2), O3 as (_&?&O3).
      destruct H1 as (?&->&H1), H2 as (?&->&H2). split; [by eauto|split; [done|]].
      clear -H H1 H2 O1 O2 L2 O3. revert ps2 ps3 H1 H2 O2 L2 O3.
      induction H as [|p ps IHp _ IH]; intros ps2 ps3 H1 H2; inversion H1; subst; inversion H2; subst; [constructor|].
      intros O2 L2 O3. apply Fcons in O1 as [? ?], O2 as [? ?], L2 as [? ?], O3 as [? ?]. constructor; [by eauto|]. eapply IH; eauto.
    - apply everywhere_here in O1, O2, O3. 
      apply (struct_same noq _ _ noq) in H1 as (s&?&?), H2 as (s'&?&?); [|done..].
      apply (struct_same noq _ _ noq); [done..|]. exists s. split; congruence.
  Qed.

  Definition setq (q : quals) (t : ty) : ty :=
    match t with
    | TVoid _ => TVoid q | TFixnum _ k u e => TFixnum q k u e | TFlonum _ k => TFlonum q k
    | TPtr _ t => TPtr q t | TArray _ t l => TArray q t l | TFunc _ r ps v => TFunc q r ps v
    | TStruct _ n i => TStruct q n i
    end.
  Lemma setq_id t : setq (qual_of t) t = t. Proof. by destruct t. Qed.
  Lemma setq_noq t : setq noq t = unqualified t. Proof. by destruct t. Qed.

  Lemma same_unq t1 t2 : same_type_wq (unqualified t1) (unqualified t2) true = same_type_wq t1 t2 true.
  Proof. destruct t1, t2; reflexivity. Qed.

  Definition blind (P : ty -> Prop) : Prop := forall t, P t <-> P (unqualified t).
  Lemma everywhere_unq P t : blind P -> everywhere P t <-> everywhere P (unqualified t).
  Proof. intros Hb. pose proof (Hb t) as Ht. destruct t; cbn [unqualified everywhere] in *; tauto. Qed.
  Lemma blind_proto : blind prototyped. Proof. by intros []. Qed.
  Lemma blind_decl : blind (one_declaration tag). Proof. by intros []. Qed.
  Lemma blind_enum : blind no_enum. Proof. by intros []. Qed.
  Lemma blind_sig : blind plain_signature. Proof. by intros []. Qed.

  (** No compatible pair is rejected. *)
  Lemma compatible_same t1 : forall q t2,
    everywhere prototyped t1 -> everywhere prototyped t2 ->
    everywhere (one_declaration tag) t1 -> everywhere (one_declaration tag) t2 ->
    compatible tag (setq q t1) t2 -> same_type_wq (setq q t1) t2 false = true.
  Proof.
    induction t1 using ty_ind'; intros q' t2 P1 P2 O1 O2 Hc; inversion Hc; subst;
      rewrite same_unfold; (split; [by right|]); try done.
    - destruct P1, P2, O1, O2. rewrite <- (setq_id t1). apply IHt1; try done. by rewrite setq_id.
    - destruct P1, P2, O1, O2. split; [done|]. rewrite <- (setq_id t1). apply IHt1; try done. by rewrite setq_id.
    - apply everywhere_here in P1. by destruct P1.
    - apply everywhere_here in P1. by destruct P1.
    - apply everywhere_func in P1, P2, O1, O2. destruct P1 as (_&P1&Q1), P2 as (_&P2&Q2), O1 as (_&O1&R1), O2 as (_&O2&R2).
      match goal with Hf : Forall2 _ ps _ |- _ => rename Hf into Hps end.
      assert (Hone : forall t t', (forall q t2, everywhere prototyped t -> everywhere prototyped t2 ->
          everywhere (one_declaration tag) t -> everywhere (one_declaration tag) t2 ->
          compatible tag (setq q t) t2 -> same_type_wq (setq q t) t2 false = true) ->
          everywhere prototyped t -> everywhere prototyped t' ->
          everywhere (one_declaration tag) t -> everywhere (one_declaration tag) t' ->
          compatible tag (unqualified t) (unqualified t') -> same_type_wq t t' true = true).
      { intros t t' IH HP HP' HO HO' H'. rewrite <- same_unq. apply same_ignoring. rewrite <- setq_noq.
        apply IH; [done|by apply (proj1 (everywhere_unq _ _ blind_proto))|done|by apply (proj1 (everywhere_unq _ _ blind_decl))|].
        by rewrite setq_noq. }
      split; [by apply Hone|]. split; [done|].
      clear -H Hps Q1 Q2 R1 R2 Hone. revert ps' Hps Q2 R2.
      induction H as [|p ps IHp _ IH]; intros ps' Hps Q2 R2; inversion Hps; subst; constructor;
        apply Fcons in Q1 as [? ?], Q2 as [? ?], R1 as [? ?], R2 as [? ?]; [by apply Hone|by apply IH].
    - apply everywhere_here in P2. by destruct P2.
    - apply everywhere_here in O1, O2. apply (struct_same noq _ _ noq); try done. eauto.
  Qed.

  Lemma no_const_same t1 : forall t2, everywhere no_const t1 -> everywhere no_const t2 ->
    same_type_wq t1 t2 true = true -> same_type_wq t1 t2 false = true.
  Proof.
    induction t1 using ty_ind'; intros t2 N1 N2; rewrite !same_unfold; intros [_ H'];
      (split; [right; apply everywhere_here in N1, N2; unfold no_const in *; congruence|]); destruct t2; try done; destruct N1, N2; naive_solver.
  Qed.

  Lemma quals_same t1 t2 : only_const t1 -> only_const t2 -> is_const t1 = is_const t2 -> qual_of t1 = qual_of t2.
  Proof.
    intros [V1 R1] [V2 R2]. unfold is_const. destruct (qual_of t1), (qual_of t2). cbn in *. by intros ->; subst.
  Qed.

  Lemma plain_unq t : plain tag t -> plain tag (unqualified t).
  Proof.
    intros (H1&H2&H3&H4). split; [|split; [|split]].
    - destruct t; cbn [unqualified everywhere] in *; (split; [done|]); tauto.
    - by apply (proj1 (everywhere_unq _ _ blind_enum)).
    - by apply (proj1 (everywhere_unq _ _ blind_sig)).
    - by apply (proj1 (everywhere_unq _ _ blind_decl)).
  Qed.
  Lemma plain_func q r ps v : plain tag (TFunc q r ps v) ->
    plain tag r /\ (exists l, ps = Some l /\ Forall (plain tag) l /\ Forall (fun p => everywhere no_const (unqualified p)) l) /\
    everywhere no_const (unqualified r).
  Proof.
    unfold plain. rewrite !everywhere_func. intros ((_&A1&A2)&(_&B1&B2)&(S&C1&C2)&(_&D1&D2)). cbn [plain_signature] in S.
    destruct ps as [l|]; [|tauto]. split; [done|]. split; [|tauto]. exists l. split; [done|]. split; [|tauto].
    rewrite Forall_forall in A2, B2, C2, D2 |- *. auto.
  Qed.

  (** On plain types only compatible pairs are accepted. *)
  Lemma same_compatible t1 : forall q t2, plain tag (setq q t1) -> plain tag t2 ->
    same_type_wq (setq q t1) t2 false = true -> compatible tag (setq q t1) t2.
  Proof.
    induction t1 using ty_ind'; intros q' t2 P1 P2; rewrite same_unfold; intros [[[=]|Hq] Hs];
      assert (Hq' : qual_of (setq q' _) = qual_of t2)
        by (eapply quals_same; [apply (everywhere_here _ _ (proj1 P1))|apply (everywhere_here _ _ (proj1 P2))|exact Hq]);
      cbn [setq qual_of] in *; destruct t2; try done; cbn [qual_of] in Hq'; subst.
    - constructor.
    - destruct Hs as [-> ->]. destruct P1 as (_&[[_ E1] _]&_), P2 as (_&[[_ E2] _]&_). subst. constructor.
    - constructor.
    - constructor. rewrite <- (setq_id t1). destruct P1 as ([]&[]&[]&[]), P2 as ([]&[]&[]&[]). apply IHt1; rewrite ?setq_id; [done..|exact Hs].
    - destruct Hs as [Hl Hs]. constructor; [|done].
      rewrite <- (setq_id t1). destruct P1 as ([]&[]&[]&[]), P2 as ([]&[]&[]&[]). apply IHt1; rewrite ?setq_id; [done..|exact Hs].
    - apply plain_func in P1 as (_&(l&[=]&_)&_).
    - apply plain_func in P1 as (P1&(l&[= <-]&Q1&N1)&M1), P2 as (P2&(l'&->&Q2&N2)&M2).
      destruct Hs as (Hr&->&Hps).
      assert (Hone : forall t t', (forall q t2, plain tag (setq q t) -> plain tag t2 ->
          same_type_wq (setq q t) t2 false = true -> compatible tag (setq q t) t2) ->
          plain tag t -> plain tag t' -> everywhere no_const (unqualified t) -> everywhere no_const (unqualified t') ->
          same_type_wq t t' true = true -> compatible tag (unqualified t) (unqualified t')).
      { intros t t' IH HP HP' HN HN' H'. rewrite <- setq_noq. apply IH; rewrite ?setq_noq; [by apply plain_unq..|].
        apply no_const_same; [done..|]. by rewrite same_unq. }
      constructor; [by apply Hone|].
      clear -H Hps Q1 Q2 N1 N2 Hone. revert l' Hps Q2 N2.
      induction H as [|p ps IHp _ IH]; intros l' Hps Q2 N2; inversion Hps; subst; constructor;
        apply Fcons in Q1 as [? ?], Q2 as [? ?], N1 as [? ?], N2 as [? ?]; [by apply Hone|by apply IH].
    - destruct P1 as (_&_&_&P1), P2 as (_&_&_&P2). apply everywhere_here in P1, P2.
      apply (struct_same q _ _ q) in Hs as (s&?&?); [|done..]. by eapply c_struct.
  Qed.
End tags.

Lemma compatible_accepted tag t1 t2 : (forall n n', tag n = tag n' -> n = n') ->
  everywhere prototyped t1 -> everywhere prototyped t2 ->
  everywhere (one_declaration tag) t1 -> everywhere (one_declaration tag) t2 ->
  compatible tag t1 t2 -> same_type t1 t2 = true.
Proof.
  intros Ht ? ? ? ? Hc. unfold same_type. rewrite <- (setq_id t1). apply (compatible_same tag); try done. by rewrite setq_id.
Qed.
Lemma accepted_compatible tag t1 t2 : (forall n n', tag n = tag n' -> n = n') ->
  plain tag t1 -> plain tag t2 -> same_type t1 t2 = true -> compatible tag t1 t2.
Proof.
  unfold same_type. intros Ht ? ? Hs. rewrite <- (setq_id t1). apply (same_compatible tag); rewrite ?setq_id; done.
Qed.

(** Generic selection. *)
Lemma generic_choice_some ts t i : generic_choice ts t = Some i <->
  exists t', ts !! i = Some t' /\ same_type t' t = true /\ forall j t'', (j < i)%nat -> ts !! j = Some t'' -> same_type t'' t = false.
Proof.
  revert i. induction ts as [|t0 ts IH]; intros i; cbn [generic_choice].
  - split; [done|]. intros (?&H&_). by rewrite lookup_nil in H.
  - destruct (same_type t0 t) eqn:E.
    + split.
      * intros [= <-]. exists t0. split; [done|split; [done|]]. intros; lia.
      * intros (t'&Hl&Hs&Hb). destruct i as [|i]; [done|]. specialize (Hb 0%nat t0 ltac:(lia) eq_refl). congruence.
    + split.
      * destruct (generic_choice ts t) as [j|] eqn:Ej; [|done]. intros [= <-].
        destruct (proj1 (IH j) eq_refl) as (t'&Hl&Hs&Hb). exists t'. split; [done|split; [done|]].
        intros [|j'] t'' Hj Hl'; [by injection Hl' as <-|]. apply (Hb j'); [lia|done].
      * intros (t'&Hl&Hs&Hb). destruct i as [|i]; [injection Hl as <-; congruence|].
        rewrite (proj2 (IH i)); [done|]. exists t'. split; [done|split; [done|]]. intros j t'' Hj Hl'. apply (Hb (S j) t''); [lia|done].
Qed.
Lemma generic_choice_none ts t : generic_choice ts t = None <-> Forall (fun t' => same_type t' t = false) ts.
Proof.
  induction ts as [|t0 ts IH]; cbn [generic_choice]; [by split|]. rewrite Fcons, <- IH.
  destruct (same_type t0 t); [by split; [|intros []]|]. destruct (generic_choice ts t); naive_solver.
Qed.

Lemma plain_prototyped tag t : plain tag t -> everywhere prototyped t /\ everywhere (one_declaration tag) t.
Proof.
  intros (_&_&H&?). split; [|done]. clear -H. induction t using ty_ind'; try done.
  - destruct H. split; [done|]. auto.
  - destruct H. split; [done|]. auto.
  - apply everywhere_func in H as ([_ []]&_).
  - apply everywhere_func. apply everywhere_func in H as (_&?&H). split; [done|]. split; [by apply IHt|].
    clear -H0 H. induction H0; constructor; apply Fcons in H as [? ?]; auto.
Qed.

Lemma generic_selects tag ts t : (forall n n', tag n = tag n' -> n = n') ->
  Forall (plain tag) ts -> plain tag (array_to_ptr t) ->
  selects tag ts (array_to_ptr t) (generic ts t).
Proof.
  unfold generic. generalize (array_to_ptr t). clear t. intros t Ht Hts Hp.
  unfold selects. destruct (generic_choice ts t) as [i|] eqn:E.
  - apply generic_choice_some in E as (t'&Hl&Hs&_). exists t'. split; [done|].
    apply accepted_compatible; try done. rewrite stdpp.list.Forall_forall in Hts. apply Hts. by eapply elem_of_list_lookup_2.
  - apply generic_choice_none in E. rewrite stdpp.list.Forall_forall in E, Hts |- *. intros t' Hi Hc.
    apply plain_prototyped in Hp as [? ?]. destruct (plain_prototyped _ _ (Hts _ Hi)) as [? ?].
    apply E in Hi. rewrite (compatible_accepted tag) in Hi; done.
Qed.

(** Conversions. *)
Lemma implicit_keeps_const q t q' t' z : can_cast (TPtr q t) (TPtr q' t') z false = true ->
  is_const t' = true -> is_const t = true.
Proof.
  unfold can_cast. rewrite orb_true_iff. intros [H|H] Hc.
  - apply same_unfold in H as [_ H]. apply same_unfold in H as [[[=]|H] _]. congruence.
  - unfold can_cast_ptr in H. cbn [orb] in H. apply andb_true_iff in H as [H _]. rewrite Hc in H. by destruct (is_const t).
Qed.
Lemma implicit_keeps_const_array q t q' t' l z : can_cast (TPtr q t) (TArray q' t' l) z false = true ->
  is_const t' = true -> is_const t = true.
Proof.
  unfold can_cast. rewrite orb_true_iff. intros [H|H] Hc.
  - apply same_unfold in H as [_ []].
  - unfold can_cast_ptr in H. cbn [orb] in H. apply andb_true_iff in H as [H _]. rewrite Hc in H. by destruct (is_const t).
Qed.

Lemma explicit_exact dst src z : scalar dst \/ (exists q, dst = TVoid q) -> (forall q n i, src <> TStruct q n i) ->
  (can_cast dst src z true = true <-> cast_allowed dst (decayed src)).
Proof.
  intros Hd Hs. assert (Hk : forall b, same_type_wq dst src b = true -> cast_allowed dst (decayed src)).
  { intros b H. apply same_unfold in H as [_ H]. destruct dst, src; try done; try (by edestruct Hs); by destruct Hd as [[]|[? [=]]]. }
  unfold can_cast. rewrite orb_true_iff. split.
  - intros [H|H]; [by eapply Hk|]. destruct dst, src; try done; try (by edestruct Hs); by destruct Hd as [[]|[? [=]]].
  - intros H. right. destruct dst, src; cbn [cast_allowed decayed] in *; try tauto; try done; try (by destruct Hd as [[]|[? [=]]]);
      try (by edestruct Hs); rewrite ?orb_true_r; try done; by destruct H as [_ []].
Qed.

Lemma implicit_exact dst src z : scalar dst -> (forall q n i, src <> TStruct q n i) -> ~ (pointer dst /\ pointer (decayed src)) ->
  (forall q u e, dst = TFixnum q FX_BOOL u e -> ~ pointer (decayed src)) ->
  (can_cast dst src z false = true <-> implicit_allowed dst (decayed src) z).
Proof.
  intros Hd Hs Hp Hb. assert (Hk : forall b, same_type_wq dst src b = true -> implicit_allowed dst (decayed src) z).
  { intros b H. apply same_unfold in H as [_ H]. destruct dst, src; try done; try (by edestruct Hs); exfalso; by apply Hp. }
  unfold can_cast. rewrite orb_true_iff. split.
  - intros [H|H]; [by eapply Hk|]. destruct dst, src; try done; try (by edestruct Hs); cbn in *; try (exfalso; by apply Hp); by destruct z.
  - intros H. right. destruct dst, src; cbn [implicit_allowed decayed] in *; try done; try (by edestruct Hs); try (exfalso; by apply Hp);
      try (subst; exfalso; eapply Hb; [done|cbn; done]).
    rewrite H. done.
Qed.
Lemma generic_decayed tag ts t : (forall n n', tag n = tag n' -> n = n') -> (forall q r ps v, t <> TFunc q r ps v) ->
  Forall (plain tag) ts -> plain tag (decayed t) -> selects tag ts (decayed t) (generic ts t).
Proof.
  intros Ht Hf. assert (decayed t = array_to_ptr t) as -> by (destruct t; try done; by edestruct Hf). apply generic_selects; done.
Qed.
