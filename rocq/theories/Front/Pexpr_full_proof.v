(** What is grammatical is accepted. *)
From stdpp Require Import base list numbers sets.
From Verif Require Import Front.Pexpr_model Front.Pexpr_spec Front.Pexpr_proof Front.Pexpr_sound_proof.
Local Open Scope nat_scope.

Lemma parse_mono f g p ts r : parse_precedence f p ts = r -> r <> NoFuel -> f <= g -> parse_precedence g p ts = r.
Proof. intros H Hr Hg. induction Hg as [|g Hg IH]; [done|]. destruct (more_fuel g) as (M & _). destruct (M p ts) as [E|E]; congruence. Qed.
Lemma infixes_mono f g p e ts r : infixes f p e ts = r -> r <> NoFuel -> f <= g -> infixes g p e ts = r.
Proof. intros H Hr Hg. induction Hg as [|g Hg IH]; [done|]. destruct (more_fuel g) as (_ & M & _). destruct (M p e ts) as [E|E]; congruence. Qed.
Lemma args_mono f g ts r : parse_args f ts = r -> r <> NoFuel -> f <= g -> parse_args g ts = r.
Proof. intros H Hr Hg. induction Hg as [|g Hg IH]; [done|]. destruct (more_fuel g) as (_ & _ & M & _). destruct (M ts) as [E|E]; congruence. Qed.
Lemma more_mono f g ts r : more_args f ts = r -> r <> NoFuel -> f <= g -> more_args g ts = r.
Proof. intros H Hr Hg. induction Hg as [|g Hg IH]; [done|]. destruct (more_fuel g) as (_ & _ & _ & M). destruct (M ts) as [E|E]; congruence. Qed.
Lemma bind_done {A B} (a : A) ts (k : A -> list tok -> res B) : bind (Done a ts false) k = k a ts.
Proof. cbn. by destruct (k a ts). Qed.

Definition lvl (n : nt) : nat :=
  match n with
  | expression => 1 | assignment => 2 | conditional => 3 | logical_or => 4 | logical_and => 5 | inclusive_or => 6 | exclusive_or => 7 | and_nt => 8
  | equality => 9 | relational => 10 | shift => 11 | additive => 12 | multiplicative => 13 | cast => 14 | unary => 15 | _ => 16
  end.
Lemma nxt_up n ts : nxt (lvl n) ts -> nxt (lvl (rule n).2) ts.
Proof. unfold nxt. destruct n; cbn; repeat case_decide; lia. Qed.
Lemma nxt_stop n ts : nxt (lvl n) ts -> lvl n <= 15 -> n <> assignment -> n <> conditional -> prec_next ts < S (lvl n).
Proof. unfold nxt. destruct n; cbn; repeat case_decide; try lia; done. Qed.

Definition parses (p : nat) (ts : list tok) (r : res (option ex)) : Prop := exists f, parse_precedence f p ts = r.
Definition goes_on (p : nat) (e : ex) (ts : list tok) (r : res (option ex)) : Prop := exists f, infixes f p (Some e) ts = r.
Lemma stops p e ts : prec_next ts < p -> goes_on p e ts (Done (Some e) ts false).
Proof. intros H. exists 1. cbn [infixes]. by rewrite (proj2 (Nat.ltb_lt _ _) H). Qed.

Section Step.
  Context (r : res (option ex)) (Hr : r <> NoFuel).
  Ltac big f g := let h := fresh "h" in set (h := f + g).
  Lemma on_binary p o a b ts rest : match o with B _ | R _ | Comma => True | _ => False end -> p <= prec (TOp o) ->
    parses (S (prec (TOp o))) ts (Done (Some b) rest false) -> goes_on p (Bin o a b) rest r -> goes_on p a (TOp o :: ts) r.
  Proof using Hr.
    intros Ho Hp [f Hf] [g Hg]. exists (S (f + g)). cbn [infixes prec_next]. rewrite (proj2 (Nat.ltb_ge _ _) Hp).
    apply (parse_mono f (f + g)) in Hf; [|done|lia]. apply (infixes_mono g (f + g)) in Hg; [|done|lia].
    destruct o as [o|o| | | | | |]; try done; rewrite Hf, bind_done; done.
  Qed.
  Lemma on_assign p o a b ts rest : p <= 2 -> parses 2 ts (Done (Some b) rest false) -> goes_on p (Bin (Assign o) a b) rest r -> goes_on p a (TOp (Assign o) :: ts) r.
  Proof using Hr.
    intros Hp [f Hf] [g Hg]. exists (S (f + g)). cbn [infixes prec_next]. rewrite (proj2 (Nat.ltb_ge (prec (TOp (Assign o))) _) Hp).
    apply (parse_mono f (f + g)) in Hf; [|done|lia]. apply (infixes_mono g (f + g)) in Hg; [|done|lia]. unfold PREC_ASSIGN. rewrite Hf, bind_done. done.
  Qed.
  Lemma on_cond p a b c ts ts2 rest : p <= 3 -> parses 1 ts (Done (Some b) (TColon :: ts2) false) -> parses 3 ts2 (Done (Some c) rest false) -> goes_on p (Cond a b c) rest r -> goes_on p a (TQuestion :: ts) r.
  Proof using Hr.
    intros Hp [f Hf] [f2 Hf2] [g Hg]. exists (S (f + f2 + g)). cbn [infixes prec_next]. rewrite (proj2 (Nat.ltb_ge (prec TQuestion) _) Hp).
    apply (parse_mono f (f + f2 + g)) in Hf; [|done|lia]. apply (parse_mono f2 (f + f2 + g)) in Hf2; [|done|lia]. apply (infixes_mono g (f + f2 + g)) in Hg; [|done|lia].
    unfold PREC_COMMA, PREC_TERNARY. rewrite Hf, bind_done. cbn [consume tok_eqb]. rewrite bind_done, Hf2, bind_done. done.
  Qed.
  Lemma on_index p a b ts rest : p <= 14 -> parses 1 ts (Done (Some b) (TRbr :: rest) false) -> goes_on p (Index a b) rest r -> goes_on p a (TLbr :: ts) r.
  Proof using Hr.
    intros Hp [f Hf] [g Hg]. exists (S (f + g)). cbn [infixes prec_next]. rewrite (proj2 (Nat.ltb_ge (prec TLbr) _) Hp).
    apply (parse_mono f (f + g)) in Hf; [|done|lia]. apply (infixes_mono g (f + g)) in Hg; [|done|lia].
    unfold PREC_COMMA. rewrite Hf, bind_done. cbn [consume tok_eqb]. rewrite bind_done. done.
  Qed.
  Lemma on_call p a l ts rest : p <= 14 -> (exists f, parse_args f ts = Done (Some <$> l) rest false) -> goes_on p (Call a l) rest r -> goes_on p a (TLpar :: ts) r.
  Proof using Hr.
    intros Hp [f Hf] [g Hg]. exists (S (f + g)). cbn [infixes prec_next]. rewrite (proj2 (Nat.ltb_ge (prec TLpar) _) Hp).
    apply (args_mono f (f + g)) in Hf; [|done|lia]. apply (infixes_mono g (f + g)) in Hg; [|done|lia].
    rewrite Hf, bind_done. assert (E : mapM id (Some <$> l) = Some l). { clear. induction l as [|x l IH]; cbn; [done|]. by rewrite IH. } by rewrite E.
  Qed.
  Lemma on_dot p a n rest : p <= 14 -> goes_on p (Mem false a n) rest r -> goes_on p a (TDot :: TId n :: rest) r.
  Proof using Hr. intros Hp [g Hg]. exists (S g). cbn [infixes prec_next]. by rewrite (proj2 (Nat.ltb_ge (prec TDot) _) Hp). Qed.
  Lemma on_arrow p a n rest : p <= 14 -> goes_on p (Mem true a n) rest r -> goes_on p a (TArrow :: TId n :: rest) r.
  Proof using Hr. intros Hp [g Hg]. exists (S g). cbn [infixes prec_next]. by rewrite (proj2 (Nat.ltb_ge (prec TArrow) _) Hp). Qed.
  Lemma on_post p o a rest : p <= 14 -> o = Inc \/ o = Dec -> goes_on p (Post o a) rest r -> goes_on p a (TOp o :: rest) r.
  Proof using Hr. intros Hp Ho [g Hg]. exists (S g). destruct Ho as [-> | ->]; cbn [infixes prec_next]; [by rewrite (proj2 (Nat.ltb_ge (prec (TOp Inc)) _) Hp)|by rewrite (proj2 (Nat.ltb_ge (prec (TOp Dec)) _) Hp)]. Qed.

  Lemma at_id p n rest : goes_on p (Var n) rest r -> parses p (TId n :: rest) r.
  Proof using Hr. intros [f Hf]. by exists (S f). Qed.
  Lemma at_lit p n rest : goes_on p (Lit n) rest r -> parses p (TLit n :: rest) r.
  Proof using Hr. intros [f Hf]. by exists (S f). Qed.
  Lemma at_unary p o e ts rest : is_unary o = true -> parses 14 ts (Done (Some e) rest false) -> goes_on p (Un o e) rest r -> parses p (TOp o :: ts) r.
  Proof using Hr.
    intros Ho [f Hf] [g Hg]. exists (S (f + g)). cbn [parse_precedence]. rewrite Ho.
    apply (parse_mono f (f + g)) in Hf; [|done|lia]. apply (infixes_mono g (f + g)) in Hg; [|done|lia]. unfold PREC_POSTFIX. rewrite Hf, bind_done. done.
  Qed.
  Lemma at_size_type p k t rest : goes_on p (SizeT k t) rest r -> parses p (TSizeof k :: TLpar :: TType t :: TRpar :: rest) r.
  Proof using Hr. intros [f Hf]. exists (S f). cbn [parse_precedence as_paren_type as_type consume tok_eqb]. by rewrite bind_done. Qed.
  Lemma at_size p k e ts rest : as_paren_type ts = None -> parses 14 ts (Done (Some e) rest false) -> goes_on p (SizeE k e) rest r -> parses p (TSizeof k :: ts) r.
  Proof using Hr.
    intros Ho [f Hf] [g Hg]. exists (S (f + g)). cbn [parse_precedence]. rewrite Ho.
    apply (parse_mono f (f + g)) in Hf; [|done|lia]. apply (infixes_mono g (f + g)) in Hg; [|done|lia]. unfold PREC_POSTFIX. rewrite Hf, bind_done. done.
  Qed.
  Lemma at_complit p t i rest : goes_on p (Complit t i) rest r -> parses p (TLpar :: TType t :: TRpar :: TBrace i :: rest) r.
  Proof using Hr. intros [f Hf]. exists (S f). cbn [parse_precedence as_brace as_type consume tok_eqb]. rewrite bind_done. done. Qed.
  Lemma at_cast p t e ts rest : as_brace ts = None -> parses 14 ts (Done (Some e) rest false) -> goes_on p (Cast t e) rest r -> parses p (TLpar :: TType t :: TRpar :: ts) r.
  Proof using Hr.
    intros Ho [f Hf] [g Hg]. exists (S (f + g)). cbn [parse_precedence as_type consume tok_eqb]. rewrite bind_done. rewrite Ho.
    apply (parse_mono f (f + g)) in Hf; [|done|lia]. apply (infixes_mono g (f + g)) in Hg; [|done|lia]. unfold PREC_POSTFIX. rewrite Hf, bind_done. done.
  Qed.
  Lemma at_paren p e ts rest : as_type ts = None -> as_brace ts = None -> parses 1 ts (Done (Some e) (TRpar :: rest) false) -> goes_on p e rest r -> parses p (TLpar :: ts) r.
  Proof using Hr.
    intros Ho Ho2 [f Hf] [g Hg]. exists (S (f + g)). cbn [parse_precedence]. rewrite Ho, Ho2.
    apply (parse_mono f (f + g)) in Hf; [|done|lia]. apply (infixes_mono g (f + g)) in Hg; [|done|lia]. unfold PREC_COMMA. rewrite Hf, bind_done. cbn [consume tok_eqb]. by rewrite bind_done.
  Qed.
End Step.

(** * The first tokens of an expression. *)
Definition starts_expr (t : tok) : Prop :=
  match t with TId _ | TLit _ | TLpar | TSizeof _ => True | TOp o => is_unary o = true | _ => False end.
Scheme derives_ind2 := Induction for derives Sort Prop with arguments_ind2 := Induction for arguments Sort Prop.
Combined Scheme derives_mutind from derives_ind2, arguments_ind2.
Lemma begins ext n ts e : derives ext n ts e -> exists t ts', ts = t :: ts' /\ starts_expr t /\ (t = TLpar -> ts' <> []).
Proof.
  induction 1; try (by eexists _, _; split; [reflexivity|]; split; [exact I|]); try (by destruct IHderives as (t0 & ts0 & -> & Ht & HH); eexists _, _; split; [reflexivity|]; split; [done|]; intros Et; specialize (HH Et); destruct ts0);
    try (by destruct IHderives1 as (t0 & ts0 & -> & Ht & HH); eexists _, _; split; [reflexivity|]; split; [done|]; intros Et; specialize (HH Et); destruct ts0); try done.
  - eexists _, _. split; [reflexivity|]. split; [done|]. intros _. by destruct ts.
  - eexists _, _. split; [reflexivity|]. split; [|done]. cbn. set_solver.
  - eexists _, _. split; [reflexivity|]. split; [|done]. cbn. set_solver.
Qed.
Lemma type_begins n ts e : derives false n ts e -> 15 <= lvl n -> forall t ts', ts = TLpar :: TType t :: ts' -> exists i ts'', ts' = TRpar :: TBrace i :: ts''.
Proof.
  assert (Left : forall a b t ts', (forall t ts', a = TLpar :: TType t :: ts' -> exists i ts'', ts' = TRpar :: TBrace i :: ts'') -> forall m x, derives false m a x -> a ++ b = TLpar :: TType t :: ts' -> exists i ts'', ts' = TRpar :: TBrace i :: ts'').
  { intros a b t ts' IH m x Hd E. apply begins in Hd as (t0 & ts0 & -> & _ & H0). injection E as -> E. destruct ts0 as [|t1 ts0]; [by specialize (H0 eq_refl)|]. injection E as -> E.
    destruct (IH t ts0 eq_refl) as (i & ts2 & ->). subst ts'. by eexists _, _. }
  induction 1; intros Hn t0 ts0 E; try done; try (by eapply Left; [apply IHderives; cbn; lia|done|done]); try (by eapply Left; [apply IHderives1; cbn; lia|done|done]); try (cbn in Hn; lia).
  - injection E as E. apply begins in H as (t1 & ts1 & -> & Ht & _). by injection E as -> _.
  - injection E as -> <-. by eexists _, _.
  - apply (IHderives ltac:(destruct n; cbn in *; lia) t0 ts0 E).
Qed.

Lemma no_lit_sub a b c : no_sizeof_literal (a ++ b ++ c) -> no_sizeof_literal b.
Proof. intros H pre k t i post ->. eapply (H (a ++ pre) k t i (post ++ c)). by rewrite <- !app_assoc. Qed.
Lemma no_lit_l a b : no_sizeof_literal (a ++ b) -> no_sizeof_literal a.
Proof. apply (no_lit_sub [] a b). Qed.
Lemma no_lit_r a b : no_sizeof_literal (a ++ b) -> no_sizeof_literal b.
Proof. intros H. apply (no_lit_sub a b []). by rewrite app_nil_r. Qed.
Lemma start_type t ts : starts_expr t -> as_type (t :: ts) = None /\ as_brace (t :: ts) = None /\ as_rpar (t :: ts) = None.
Proof. by destruct t. Qed.

Lemma full : (forall n ts e, derives false n ts e -> no_sizeof_literal ts -> forall p rest r, 1 <= p -> p <= lvl n -> p <= 14 -> nxt (lvl n) rest -> r <> NoFuel -> goes_on p e rest r -> parses p (ts ++ rest) r) /\
  (forall ts l, arguments false ts l -> no_sizeof_literal ts -> forall rest, exists f, more_args f (ts ++ TRpar :: rest) = Done (Some <$> l) rest false).
Proof.
  apply (derives_mutind false
    (fun n ts e _ => no_sizeof_literal ts -> forall p rest r, 1 <= p -> p <= lvl n -> p <= 14 -> nxt (lvl n) rest -> r <> NoFuel -> goes_on p e rest r -> parses p (ts ++ rest) r)
    (fun ts l _ => no_sizeof_literal ts -> forall rest, exists f, more_args f (ts ++ TRpar :: rest) = Done (Some <$> l) rest false)).
  - intros. by apply at_id.
  - intros. by apply at_lit.
  - intros ts e Hd IH Hl p rest r H1 H2 H3 Hx Hr Hg. rewrite <- !app_assoc. destruct (begins _ _ _ _ Hd) as (t & ts' & E & Ht & _).
    apply (at_paren r Hr p e _ rest); [subst ts; by apply start_type|subst ts; by apply start_type| |done].
    apply IH; [by apply (no_lit_sub [TLpar] ts [TRpar])|cbn; lia..|vm_compute; lia|done|]. apply stops. vm_compute. lia.
  - intros ts1 a ts2 b Hd1 IH1 Hd2 IH2 Hl p rest r H1 H2 H3 Hx Hr Hg. rewrite <- !app_assoc.
    apply IH1; [by apply no_lit_l in Hl|done|cbn; lia|done|done|done|]. cbn. apply (on_index r Hr p a b _ rest); [done| |done].
    apply IH2; [by apply (no_lit_sub (ts1 ++ [TLbr]) ts2 [TRbr]); rewrite <- app_assoc|cbn; lia..|vm_compute; lia|done|]. apply stops. vm_compute. lia.
  - intros ts f Hd IH Hl p rest r H1 H2 H3 Hx Hr Hg. rewrite <- !app_assoc. apply IH; [by apply no_lit_l in Hl|done|cbn; lia|done|done|done|].
    apply (on_call r Hr p f [] _ rest); [done|by exists 1|done].
  - intros ts f ts' l Hd IH Ha IHa Hl p rest r H1 H2 H3 Hx Hr Hg. rewrite <- !app_assoc. apply IH; [by apply no_lit_l in Hl|done|cbn; lia|done|done|done|].
    cbn. apply (on_call r Hr p f l _ rest); [done| |done]. destruct (IHa ltac:(by apply (no_lit_sub (ts ++ [TLpar]) ts' [TRpar]); rewrite <- app_assoc) rest) as [g Hg2].
    exists (S g). cbn [parse_args]. assert (E : as_rpar (ts' ++ TRpar :: rest) = None); [|by rewrite E].
    destruct Ha as [ts1 e1 Hd1|ts1 e1 ts2 l2 Hd1 Ha]; apply begins in Hd1 as (t & ts'' & -> & Ht & _); by apply start_type.
  - intros ts e n Hd IH Hl p rest r H1 H2 H3 Hx Hr Hg. rewrite <- !app_assoc. apply IH; [by apply no_lit_l in Hl|done|cbn; lia|done|done|done|]. by apply on_dot.
  - intros ts e n Hd IH Hl p rest r H1 H2 H3 Hx Hr Hg. rewrite <- !app_assoc. apply IH; [by apply no_lit_l in Hl|done|cbn; lia|done|done|done|]. by apply on_arrow.
  - intros o ts e Ho Hd IH Hl p rest r H1 H2 H3 Hx Hr Hg. rewrite <- !app_assoc. apply IH; [by apply no_lit_l in Hl|done|cbn; lia|done|done|done|]. apply on_post; [done|done|set_solver|done].
  - intros. by apply at_complit.
  - intros o ts e Ho Hd IH Hl p rest r H1 H2 H3 Hx Hr Hg. cbn. apply (at_unary r Hr p o e _ rest); [set_solver| |done].
    apply IH; [by apply (no_lit_r [TOp o] ts)|lia|cbn; lia|lia|done|done|]. by apply stops.
  - intros o ts e Ho Hd IH Hl p rest r H1 H2 H3 Hx Hr Hg. cbn. apply (at_unary r Hr p o e _ rest); [set_solver| |done].
    apply IH; [by apply (no_lit_r [TOp o] ts)|lia|cbn; lia|lia|done|done|]. by apply stops.
  - intros ts e Hd IH Hl p rest r H1 H2 H3 Hx Hr Hg. cbn. apply (at_size r Hr p false e _ rest); [| |done].
    + destruct (as_paren_type (ts ++ rest)) as [[t ts']|] eqn:E; [exfalso|done]. apply as_paren_type_eq in E.
      pose proof (begins _ _ _ _ Hd) as (t0 & ts0 & -> & _ & H0). injection E as -> E. destruct ts0 as [|t1 ts0]; [by specialize (H0 eq_refl)|]. injection E as -> E.
      destruct (type_begins _ _ _ Hd ltac:(cbn; lia) _ _ eq_refl) as (i & ts2 & ->). by apply (Hl [] false t i ts2).
    + apply IH; [by apply (no_lit_r [TSizeof false] ts)|lia|cbn; lia|lia|done|done|]. by apply stops.
  - intros. by apply at_size_type.
  - intros t ts e Hd IH Hl p rest r H1 H2 H3 Hx Hr Hg. cbn. apply (at_cast r Hr p t e _ rest); [| |done].
    + apply begins in Hd as (t0 & ts0 & -> & Ht & _). by apply start_type.
    + apply IH; [by apply (no_lit_r [TLpar; TType t; TRpar] ts)|lia|cbn; lia|lia|done|done|]. by apply stops.
  - intros n o ts1 a ts2 b Ho Hd1 IH1 Hd2 IH2 Hl p rest r H1 H2 H3 Hx Hr Hg. rewrite <- !app_assoc.
    assert (Hlv : prec (TOp o) = lvl n /\ match o with B _ | R _ | Comma => True | _ => False end /\ lvl (rule n).2 = S (lvl n) /\ (n = expression \/ 4 <= lvl n <= 13)).
    { destruct n; cbn in Ho; rewrite ?elem_of_cons, ?elem_of_nil in Ho; destruct_or?; subst; try done; (split; [done|split; [done|split; [done|]]]); cbn; (by left) || (right; lia). }
    destruct Hlv as (E1 & Hk & E2 & Hn).
    assert (Hst : prec_next rest < S (lvl n)). { apply nxt_stop; [done|destruct Hn as [->|]; cbn; lia|intros ->; by destruct Hn; cbn in *; [|lia]|intros ->; by destruct Hn; cbn in *; [|lia]]. }
    apply IH1; [by apply no_lit_l in Hl|done|done|done| |done|].
    { unfold nxt. cbn [prec_next app]. rewrite E1. destruct (decide (lvl n = 16)); [done|]. destruct (decide (14 <= lvl n)); [destruct Hn as [->|]; cbn in *; lia|]. destruct (decide (lvl n = 2 \/ lvl n = 3)); [destruct Hn as [->|]; cbn in *; lia|lia]. }
    cbn. apply (on_binary r Hr p o a b _ rest Hk); [lia| |done]. rewrite E1.
    apply IH2; [by apply (no_lit_r (ts1 ++ [TOp o]) ts2); rewrite <- app_assoc|lia|lia|destruct Hn as [->|]; cbn; lia|by apply nxt_up|done|]. by apply stops.
  - intros ts1 a ts2 b ts3 c Hd1 IH1 Hd2 IH2 Hd3 IH3 Hl p rest r H1 H2 H3 Hx Hr Hg. rewrite <- !app_assoc. cbn in H2.
    apply IH1; [by apply no_lit_l in Hl|done|cbn; lia|done|vm_compute; lia|done|]. cbn. apply (on_cond r Hr p a b c _ (ts3 ++ rest) rest); [lia| | |done].
    + apply IH2; [by apply (no_lit_sub (ts1 ++ [TQuestion]) ts2 ([TColon] ++ ts3)); rewrite <- app_assoc|cbn; lia..|vm_compute; lia|done|]. apply stops. vm_compute. lia.
    + apply IH3; [by apply (no_lit_r (ts1 ++ [TQuestion] ++ ts2 ++ [TColon]) ts3); rewrite <- !app_assoc|cbn; lia..|done|done|]. by apply stops.
  - intros o ts1 a ts2 b Hd1 IH1 Hd2 IH2 Hl p rest r H1 H2 H3 Hx Hr Hg. rewrite <- !app_assoc. cbn in H2.
    apply IH1; [by apply no_lit_l in Hl|done|cbn; lia|done|vm_compute; lia|done|]. cbn. apply (on_assign r Hr p o a b _ rest); [lia| |done].
    apply IH2; [by apply (no_lit_r (ts1 ++ [TOp (Assign o)]) ts2); rewrite <- app_assoc|cbn; lia..|done|done|]. by apply stops.
  - intros n ts e Hd IH Hl p rest r H1 H2 H3 Hx Hr Hg. apply IH; [done|done|destruct n; cbn in *; lia|done|by apply nxt_up|done|done].
  - done.
  - done.
  - done.
  - intros ts e Hd IH Hl rest. destruct (IH Hl 2 (TRpar :: rest) (Done (Some e) (TRpar :: rest) false)) as [f Hf]; [lia|cbn; lia|lia|vm_compute; lia|done|apply stops; vm_compute; lia|].
    exists (S f). cbn [more_args]. unfold PREC_ASSIGN. by rewrite Hf, bind_done.
  - intros ts e ts' l Hd IH Ha IHa Hl rest. rewrite <- !app_assoc. cbn.
    destruct (IH ltac:(by apply no_lit_l in Hl) 2 (TOp Comma :: ts' ++ TRpar :: rest) (Done (Some e) (TOp Comma :: ts' ++ TRpar :: rest) false)) as [f Hf]; [lia|cbn; lia|lia|vm_compute; lia|done|apply stops; vm_compute; lia|].
    destruct (IHa ltac:(by apply (no_lit_r (ts ++ [TOp Comma]) ts'); rewrite <- app_assoc) rest) as [g Hg].
    exists (S (f + g)). cbn [more_args]. unfold PREC_ASSIGN. rewrite (parse_mono f (f + g) _ _ _ Hf), bind_done by (done || lia). cbn [as_rpar consume tok_eqb]. rewrite bind_done.
    rewrite (more_mono g (f + g) _ _ Hg), bind_done by (done || lia). done.
Qed.
Lemma parse_full ts e rest : derives false expression ts e -> no_sizeof_literal ts -> prec_next rest = PREC_NONE -> parse_expr (ts ++ rest) = Done (Some e) rest false.
Proof.
  intros Hd Hl Hn. destruct (proj1 full expression ts e Hd Hl 1 rest (Done (Some e) rest false)) as [f Hf]; [lia|cbn; lia|lia|change (prec_next rest <= 1); rewrite Hn; vm_compute; lia|done|apply stops; rewrite Hn; unfold PREC_NONE; lia|].
  unfold parse_expr. destruct (never_stuck PREC_COMMA (ts ++ rest) _ (Nat.le_refl _)) as (r & Hr & E). rewrite E.
  apply (parse_mono _ (f + fuel_for (ts ++ rest))) in Hf; [|done|lia]. apply (parse_mono _ (f + fuel_for (ts ++ rest))) in E; [|done|lia]. unfold PREC_COMMA in E. congruence.
Qed.
Lemma one_tree ts e1 e2 : derives false expression ts e1 -> derives false expression ts e2 -> no_sizeof_literal ts -> e1 = e2.
Proof.
  intros H1 H2 Hl. pose proof (parse_full ts e1 [] H1 Hl eq_refl) as E1. pose proof (parse_full ts e2 [] H2 Hl eq_refl) as E2. congruence.
Qed.

Lemma parse_part n p f ts e rest : derives false n ts e -> no_sizeof_literal ts -> p = lvl n -> 1 <= p <= 14 -> prec_next rest < p -> fuel_for (ts ++ rest) <= f -> parse_precedence f p (ts ++ rest) = Done (Some e) rest false.
Proof.
  intros Hd Hl Ep Hp Hn Hf. destruct (proj1 full n ts e Hd Hl p rest (Done (Some e) rest false)) as [g Hg]; [lia..| |done|by apply stops|].
  { unfold nxt. rewrite <- Ep. repeat case_decide; lia. }
  destruct (never_stuck p (ts ++ rest) f Hf) as (r & Hr & E). rewrite E.
  apply (parse_mono _ (f + g)) in Hg; [|done|lia]. apply (parse_mono _ (f + g)) in E; [|done|lia]. congruence.
Qed.
Lemma parse_assign_full ts e rest : derives false assignment ts e -> no_sizeof_literal ts -> prec_next rest < PREC_ASSIGN -> parse_assign (ts ++ rest) = Done (Some e) rest false.
Proof. intros Hd Hl Hn. by apply (parse_part assignment); [done..|vm_compute; lia|done|]. Qed.
Lemma parse_const_full ts e rest : derives false logical_or ts e -> no_sizeof_literal ts -> prec_next rest < PREC_LOGIOR -> parse_const_fixnum (ts ++ rest) = Done (Some e) rest false.
Proof. intros Hd Hl Hn. by apply (parse_part logical_or); [done..|vm_compute; lia|done|]. Qed.
Lemma total ts : parse_expr ts <> NoFuel /\ parse_assign ts <> NoFuel /\ parse_const_fixnum ts <> NoFuel.
Proof.
  split; [|split].
  - destruct (never_stuck PREC_COMMA ts _ (Nat.le_refl _)) as (r & Hr & E). unfold parse_expr. by rewrite E.
  - destruct (never_stuck PREC_ASSIGN ts _ (Nat.le_refl _)) as (r & Hr & E). unfold parse_assign. by rewrite E.
  - destruct (never_stuck PREC_LOGIOR ts _ (Nat.le_refl _)) as (r & Hr & E). unfold parse_const_fixnum. by rewrite E.
Qed.

(** * Examples. *)
Ltac up n := apply (d_up false n); cbn [rule snd].
Ltac to_primary := repeat match goal with |- derives false ?n _ _ => lazymatch n with primary => fail | _ => up n end end.
Definition leaf (t : tok) (e : ex) := derives false primary [t] e.
(** [a - b * c - d] *)
Definition sums := [TId 1; TOp (B Sub); TId 2; TOp (B Mul); TId 3; TOp (B Sub); TId 4].
Lemma sums_ok : derives false expression sums (Bin (B Sub) (Bin (B Sub) (Var 1) (Bin (B Mul) (Var 2) (Var 3))) (Var 4)).
Proof.
  up expression. up assignment. up conditional. up logical_or. up logical_and. up inclusive_or. up exclusive_or. up and_nt. up equality. up relational. up shift.
  change sums with ([TId 1; TOp (B Sub); TId 2; TOp (B Mul); TId 3] ++ [TOp (B Sub)] ++ [TId 4]).
  apply (d_binary false additive); [cbn; set_solver| |to_primary; constructor].
  change [TId 1; TOp (B Sub); TId 2; TOp (B Mul); TId 3] with ([TId 1] ++ [TOp (B Sub)] ++ [TId 2] ++ [TOp (B Mul)] ++ [TId 3]).
  apply (d_binary false additive); [cbn; set_solver|to_primary; constructor|]. apply (d_binary false multiplicative); [cbn; set_solver|to_primary; constructor|to_primary; constructor].
Qed.
Lemma no_lit_dec ts : Forall (fun t => match t with TSizeof _ => False | _ => True end) ts -> no_sizeof_literal ts.
Proof. intros H pre k t i post ->. rewrite Forall_app in H. destruct H as [_ H]. by inversion H. Qed.
(** [sizeof (int) { 1 }] *)
Definition literal_size := [TSizeof false; TLpar; TType 1; TRpar; TBrace 1].
Lemma literal_size_ok : derives false expression literal_size (SizeE false (Complit 1 1)).
Proof.
  do 14 match goal with |- derives false ?n _ _ => lazymatch n with unary => idtac | _ => up n end end.
  change literal_size with ([TSizeof false] ++ [TLpar; TType 1; TRpar; TBrace 1]). apply d_sizeof. up unary. constructor.
Qed.
(** [1 ? 2 : 3] *)
Definition chosen := [TLit 1; TQuestion; TLit 2; TColon; TLit 3].
Lemma chosen_ok : derives false conditional chosen (Cond (Lit 1) (Lit 2) (Lit 3)).
Proof.
  change chosen with ([TLit 1] ++ [TQuestion] ++ [TLit 2] ++ [TColon] ++ [TLit 3]). apply d_conditional; to_primary; constructor.
Qed.
(** [sizeof(int)[p]] *)
Definition size_index := [TSizeof false; TLpar; TType 1; TRpar; TLbr; TId 1; TRbr].
Lemma postfix_sizeof n ts e : derives false n ts e -> 16 <= lvl n -> forall k ts', ts <> TSizeof k :: ts'.
Proof.
  assert (L : forall m a x b k ts', derives false m a x -> (forall k ts', a <> TSizeof k :: ts') -> a ++ b <> TSizeof k :: ts').
  { intros m a x b k ts' Hd IH E. apply begins in Hd as (t0 & ts0 & -> & _ & _). injection E as -> _. by apply (IH k ts0). }
  induction 1; intros Hn k0 ts0; try done; try (by eapply L; [done|apply IHderives; cbn; lia]); try (by eapply L; [done|apply IHderives1; cbn; lia]); try (cbn in Hn; lia).
  apply IHderives. destruct n; cbn in *; lia.
Qed.
Lemma index_left n ts e : derives false n ts e -> forall a b, e = Index a b -> (exists ts', ts = TLpar :: ts') \/ (exists ts1 ts2, derives false postfix ts1 a /\ ts = ts1 ++ ts2).
Proof.
  induction 1; intros a0 b0 E; try done.
  - left. by eexists.
  - injection E as -> ->. right. by exists ts1, ([TLbr] ++ ts2 ++ [TRbr]).
  - eauto.
Qed.
Lemma size_index_not e : ~ derives false expression size_index e.
Proof.
  intros Hd. assert (Hl : no_sizeof_literal size_index).
  { intros pre k t i post E. assert (He : TBrace i ∈ size_index) by (rewrite E; set_solver). unfold size_index in He. set_solver. }
  pose proof (parse_full _ _ [] Hd Hl eq_refl) as E. rewrite app_nil_r in E. vm_compute in E. injection E as <-.
  destruct (index_left _ _ _ Hd _ _ eq_refl) as [[ts' E]|(ts1 & ts2 & H1 & E)]; [done|].
  pose proof (begins _ _ _ _ H1) as (t & ts0 & -> & _). injection E as <- E. by eapply (postfix_sizeof _ _ _ H1); [cbn; lia|].
Qed.
Lemma parse_message ts v rest err : parse_expr ts = Done v rest err -> (forall e, lvalues e = true -> ~ derives true expression ts e) -> (forall e, v = Some e -> lvalues e = true) -> err = true \/ rest <> [].
Proof.
  intros H Hno Hlv. destruct err; [by left|]. right. intros ->. apply parse_sound in H as (e & -> & HS). pose proof (Hlv e eq_refl) as Hl. by apply (Hno e Hl), HS.
Qed.
