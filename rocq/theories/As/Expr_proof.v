From stdpp Require Import base list numbers.
From Coq Require Import Lia.
From Verif Require Import As.Expr_model As.Expr_spec.
Open Scope Z_scope.

Lemma i64_ok z w : i64 z = Ok w -> w = z.
Proof. unfold i64. destruct (_ && _); [|done]. congruence. Qed.

Section A.
  Context (A : nat -> Z) (table : nat -> option Z).
  Hypothesis Ht : table_ok A table.

  (** What the parser makes of a factor or term. *)
  Definition rep (c : bool) (e : expr) (s : Z) : Prop :=
    if c then e = EFix s
    else (forall z, e <> EFix z) /\ forall v, calc table e = Ok v -> exists n, v = Val (Some n) 0 /\ A n = s.

  Lemma rep_sign (m : bool) e s s' : rep false e s -> rep false (if m then ENeg e else EPos e) s'.
  Proof.
    intros [_ Hv]. split; [by destruct m|]. intros v Hc. exfalso. destruct m; cbn [calc] in Hc.
    all: destruct (calc table e) as [w| | |]; try done; cbn [mbind res_bind] in Hc; destruct (Hv _ eq_refl) as (k & -> & _); done.
  Qed.
  Lemma unary_ok u rest r : unary (print_un u ++ rest) = Ok r ->
    exists e, r = (Some e, rest) /\ rep (const_un u) e (value_un A u).
  Proof.
    destruct u as [ss a]. unfold print_un, value_un, const_un. cbn [signs atom]. revert r.
    induction ss as [|m ss IH]; intros r E.
    - destruct a as [n|z]; cbn in E; injection E as <-; eexists; (split; [done|]); cbn; [|done].
      split; [done|]. intros v [= <-]. by exists n.
    - set (V := foldr _ _ (m :: ss)). destruct m; cbn [fmap list_fmap app unary] in E.
      all: destruct (unary _) as [[eo ts]| | |] eqn:Eu; try done; cbn [mbind res_bind] in E; destruct (IH _ eq_refl) as (e & [= -> ->] & Hr).
      all: destruct a as [n|z].
      + pose proof (rep_sign true e _ V Hr) as Hs. destruct Hr as [Hr _]. destruct e; try (by destruct (Hr z)); injection E as <-; by eexists.
      + cbn [rep] in Hr. subst e. destruct (i64 _) as [w| | |] eqn:Ei; try done. cbn [mbind res_bind] in E. injection E as <-. apply i64_ok in Ei as ->. by eexists.
      + pose proof (rep_sign false e _ V Hr) as Hs. destruct Hr as [Hr _]. destruct e; try (by destruct (Hr z)); injection E as <-; by eexists.
      + cbn [rep] in Hr. subst e. injection E as <-. by eexists.
  Qed.

  Lemma mul_op_ok (dv : bool) c1 e1 s1 c2 e2 s2 e : rep c1 e1 s1 -> rep c2 e2 s2 -> mul_op dv e1 e2 = Ok e ->
    (dv = true -> c1 && c2 = false) ->
    rep (c1 && c2) e (if dv then Z.quot s1 s2 else s1 * s2).
  Proof.
    intros H1 H2 E Hd. destruct (c1 && c2) eqn:Ec.
    - apply andb_true_iff in Ec as [-> ->]. cbn [rep] in H1, H2. subst. destruct dv; [by specialize (Hd eq_refl)|].
      cbn [mul_op] in E. destruct (i64 _) as [z| | |] eqn:Ei; try done. injection E as <-. apply i64_ok in Ei as ->. done.
    - assert (Hne : (forall z, e1 <> EFix z) \/ (forall z, e2 <> EFix z)).
      { destruct c1; [|left; apply H1]. destruct c2; [done|]. right. apply H2. }
      assert (He : e = if dv then EDiv e1 e2 else EMul e1 e2).
      { unfold mul_op in E. destruct e1, e2; try congruence. destruct Hne as [H|H]; [by destruct (H z)|by destruct (H z0)]. }
      subst e. split; [by destruct dv|]. intros v Hc. exfalso.
      assert (Hc' : exists v1 v2, calc table e1 = Ok v1 /\ calc table e2 = Ok v2).
      { destruct dv; cbn [calc] in Hc; (destruct (calc table e1) as [v1| | |]; try done; destruct (calc table e2) as [v2| | |]; try done; by exists v1, v2). }
      destruct Hc' as (v1 & v2 & E1 & E2).
      assert (Hl : vlabel v1 <> None \/ vlabel v2 <> None).
      { destruct c1; [|left; destruct H1 as [_ H1]; destruct (H1 _ E1) as (n & -> & _); done]. destruct c2; [done|].
        right. destruct H2 as [_ H2]. destruct (H2 _ E2) as (n & -> & _); done. }
      destruct dv; cbn [calc] in Hc; rewrite E1, E2 in Hc; cbn [mbind res_bind] in Hc; unfold calc_bop in Hc.
      all: destruct (vlabel v1), (vlabel v2); try done; by destruct Hl.
  Qed.

  Lemma mul_loop_ok fs : forall fuel u pre e rest r, mul_token rest = None ->
    mul_loop fuel e ((fs ≫= fun p : bool * un => (if p.1 then TDiv else TMul) :: print_un p.2) ++ rest) = Ok r ->
    no_div (Term u (pre ++ fs)) -> rep (const_term (Term u pre)) e (value_term A (Term u pre)) ->
    exists e', r = (e', rest) /\ rep (const_term (Term u (pre ++ fs))) e' (value_term A (Term u (pre ++ fs))).
  Proof.
    induction fs as [|[dv x] fs IH]; intros fuel u pre e rest r Hend E Hn Hr.
    - rewrite app_nil_r. destruct fuel as [|fuel]; [done|]. cbn [mul_loop mbind list_bind app] in E. rewrite Hend in E. injection E as <-. by exists e.
    - destruct fuel as [|fuel]; [done|]. cbn [mul_loop mbind list_bind fst snd] in E.
      rewrite <- app_assoc in E. cbn [app] in E.
      assert (Em : forall ts, mul_token ((if dv then TDiv else TMul) :: ts) = Some (dv, ts)) by (by destruct dv).
      rewrite Em in E. clear Em. rewrite <- ?app_assoc in E.
      destruct (unary _) as [r'| | |] eqn:Eu; try done. destruct (unary_ok _ _ _ Eu) as (x' & -> & Hx). cbn [mbind res_bind] in E.
      destruct (mul_op dv e x') as [e1| | |] eqn:Eo; try done. cbn [mbind res_bind] in E.
      replace (pre ++ (dv, x) :: fs) with ((pre ++ [(dv, x)]) ++ fs) in * by (by rewrite <- app_assoc).
      apply (IH fuel u (pre ++ [(dv, x)]) e1 rest r Hend E Hn).
      assert (Hc : const_term (Term u (pre ++ [(dv, x)])) = const_term (Term u pre) && const_un x).
      { unfold const_term. cbn [first factors]. rewrite forallb_app. cbn. by rewrite andb_true_r, andb_assoc. }
      assert (Hv : value_term A (Term u (pre ++ [(dv, x)])) = if dv then Z.quot (value_term A (Term u pre)) (value_un A x) else value_term A (Term u pre) * value_un A x).
      { unfold value_term. cbn [first factors]. rewrite foldl_app. cbn. by destruct dv. }
      rewrite Hc, Hv. apply (mul_op_ok dv _ e _ _ x'); [done|done|done|].
      intros ->. apply (Hn pre x fs). cbn [factors]. by rewrite <- app_assoc.
  Qed.
  Lemma parse_mul_ok t rest r : mul_token rest = None -> no_div t -> parse_mul (print_term t ++ rest) = Ok r ->
    exists e, r = (Some e, rest) /\ rep (const_term t) e (value_term A t).
  Proof.
    intros Hend Hn E. unfold parse_mul, print_term in E. rewrite <- app_assoc in E.
    destruct (unary _) as [r'| | |] eqn:Eu; try done. destruct (unary_ok _ _ _ Eu) as (x & -> & Hx). cbn [mbind res_bind] in E.
    destruct (mul_loop _ _ _) as [[e ts]| | |] eqn:El; try done. cbn [mbind res_bind] in E. injection E as <-.
    destruct t as [u fs]. destruct (mul_loop_ok fs _ u [] x rest _ Hend El Hn) as (e' & [= -> ->] & H).
    - unfold const_term, value_term. cbn. by rewrite andb_true_r.
    - by exists e'.
  Qed.

  (** What the parser makes of a sum; [single]: it is one term. *)
  Definition reps (single c : bool) (e : expr) (s : Z) : Prop :=
    if c then e = EFix s
    else (forall z, e <> EFix z) /\ forall v, calc table e = Ok v -> meaning A v = s /\ (single = true -> exists n, v = Val (Some n) 0).
  Lemma sub_labels_ok l r v : sub_labels table l r = Ok v -> meaning A v = A l - A r.
  Proof.
    unfold sub_labels. destruct (table l) as [a|] eqn:El; [|done]. destruct (table r) as [b|] eqn:Er; [|done].
    apply Ht in El as [-> Hl], Er as [-> Hr]. intros [= <-]. unfold meaning. cbn [vlabel voffset].
    destruct (Z_le_gt_dec (A r) (A l)).
    - rewrite Z.mod_small by lia. destruct (_ <? _) eqn:E; apply Z.ltb_lt in E || apply Z.ltb_ge in E; lia.
    - rewrite <- (Z.mod_add _ 1) by lia. rewrite Z.mod_small by lia. destruct (_ <? _) eqn:E; apply Z.ltb_lt in E || apply Z.ltb_ge in E; lia.
  Qed.
  Lemma add_op_ok (sb single : bool) c1 e1 s1 c2 e2 s2 e : reps single c1 e1 s1 -> rep c2 e2 s2 -> add_op sb e1 e2 = Ok e ->
    (sb = true -> if c2 then c1 = false else single = true) ->
    reps false (c1 && c2) e (if sb then s1 - s2 else s1 + s2).
  Proof.
    intros H1 H2 E Hd. destruct (c1 && c2) eqn:Ec.
    - apply andb_true_iff in Ec as [-> ->]. cbn [rep reps] in H1, H2. subst. destruct sb; [by specialize (Hd eq_refl)|].
      cbn [add_op] in E. destruct (i64 _) as [z| | |] eqn:Ei; try done. injection E as <-. apply i64_ok in Ei as ->. done.
    - assert (Hne : (forall z, e1 <> EFix z) \/ (forall z, e2 <> EFix z)).
      { destruct c1; [|left; apply H1]. destruct c2; [done|]. right. apply H2. }
      assert (He : e = if sb then ESub e1 e2 else EAdd e1 e2).
      { unfold add_op in E. destruct e1, e2; try congruence. destruct Hne as [H|H]; [by destruct (H z)|by destruct (H z0)]. }
      subst e. split; [by destruct sb|]. intros v Hc. split; [|done].
      assert (Hc' : exists v1 v2, calc table e1 = Ok v1 /\ calc table e2 = Ok v2).
      { destruct sb; cbn [calc] in Hc; (destruct (calc table e1) as [v1| | |]; try done; destruct (calc table e2) as [v2| | |]; try done; by exists v1, v2). }
      destruct Hc' as (v1 & v2 & E1 & E2).
      assert (M1 : meaning A v1 = s1 /\ (c1 = true -> vlabel v1 = None)).
      { destruct c1; cbn [reps] in H1; [subst; injection E1 as <-; done|]. destruct H1 as [_ H1]. split; [by apply H1|done]. }
      assert (M2 : meaning A v2 = s2 /\ (if c2 then vlabel v2 = None else exists n, v2 = Val (Some n) 0)).
      { destruct c2; cbn [rep] in H2; [subst; injection E2 as <-; done|]. destruct H2 as [_ H2]. destruct (H2 _ E2) as (n & -> & <-). split; [unfold meaning; cbn; lia|by exists n]. }
      destruct M1 as [<- M1]. destruct M2 as [<- M2].
      destruct sb; cbn [calc] in Hc; rewrite E1, E2 in Hc; cbn [mbind res_bind] in Hc; unfold calc_bop in Hc.
      + specialize (Hd eq_refl). destruct c2.
        * rewrite M2 in Hc. destruct (vlabel v1) eqn:Ev; [done|]. destruct (i64 _) as [z| | |] eqn:Ei; try done. injection Hc as <-. apply i64_ok in Ei as ->.
          unfold meaning. rewrite Ev, M2. cbn. lia.
        * destruct M2 as (n & ->). cbn [vlabel] in Hc. destruct (vlabel v1) as [ln|] eqn:Ev; [|done].
          apply sub_labels_ok in Hc. rewrite Hc. destruct c1.
          { specialize (M1 eq_refl). congruence. }
          destruct H1 as [_ H1]. destruct (H1 _ E1) as [_ H1']. destruct (H1' Hd) as (k & ->). cbn in Ev. injection Ev as ->. unfold meaning. cbn. lia.
      + destruct (vlabel v2) as [rn|] eqn:Ev2; destruct (vlabel v1) as [ln|] eqn:Ev1; try done.
        all: destruct (i64 _) as [z| | |] eqn:Ei; try done; injection Hc as <-; apply i64_ok in Ei as ->; unfold meaning; rewrite ?Ev1, ?Ev2; cbn; lia.
  Qed.

  Lemma add_loop_ok fs : forall fuel u pre e rest r, ends rest ->
    add_loop fuel e ((fs ≫= fun p : bool * term => (if p.1 then TSub else TAdd) :: print_term p.2) ++ rest) = Ok r ->
    clean (Sum u (pre ++ fs)) -> reps (bool_decide (pre = [])) (const_term u && forallb (fun p => const_term p.2) pre) e (value A (Sum u pre)) ->
    exists e', r = (e', rest) /\ reps false (const_term u && forallb (fun p => const_term p.2) (pre ++ fs)) e' (value A (Sum u (pre ++ fs))).
  Proof.
    induction fs as [|[sb x] fs IH]; intros fuel u pre e rest r Hend E Hn Hr.
    - rewrite app_nil_r. destruct fuel as [|fuel]; [done|]. cbn [add_loop mbind list_bind app] in E. destruct Hend as [_ Hend]. rewrite Hend in E. injection E as <-. exists e. split; [done|].
      unfold reps in *. destruct (_ && _); [done|]. destruct Hr as [Hr1 Hr2]. split; [done|]. intros v Hv. split; [by apply Hr2|done].
    - destruct fuel as [|fuel]; [done|]. cbn [add_loop mbind list_bind fst snd] in E.
      rewrite <- app_assoc in E. cbn [app] in E.
      assert (Em : forall ts, add_token ((if sb then TSub else TAdd) :: ts) = Some (sb, ts)) by (by destruct sb).
      rewrite Em in E. clear Em. rewrite <- ?app_assoc in E.
      destruct (parse_mul _) as [r'| | |] eqn:Eu; try done.
      assert (Hnx : no_div x) by (apply (proj1 (proj2 Hn) (sb, x)); cbn [terms]; apply elem_of_app; right; by left).
      eapply parse_mul_ok in Eu as (x' & -> & Hx); [|destruct fs as [|[sb' x''] fs']; [by apply Hend|]; cbn; by destruct sb'|done].
      cbn [mbind res_bind] in E.
      destruct (add_op sb e x') as [e1| | |] eqn:Eo; try done. cbn [mbind res_bind] in E.
      replace (pre ++ (sb, x) :: fs) with ((pre ++ [(sb, x)]) ++ fs) in * by (by rewrite <- app_assoc).
      apply (IH fuel u (pre ++ [(sb, x)]) e1 rest r Hend E Hn).
      assert (Hc : const_term u && forallb (fun p => const_term p.2) (pre ++ [(sb, x)]) = (const_term u && forallb (fun p => const_term p.2) pre) && const_term x).
      { rewrite forallb_app. cbn. by rewrite andb_true_r, andb_assoc. }
      assert (Hv : value A (Sum u (pre ++ [(sb, x)])) = if sb then value A (Sum u pre) - value_term A x else value A (Sum u pre) + value_term A x).
      { unfold value. cbn [start terms]. rewrite foldl_app. cbn. by destruct sb. }
      rewrite Hc, Hv. rewrite bool_decide_false by (by destruct pre).
      apply (add_op_ok sb (bool_decide (pre = [])) _ e _ _ x'); [done|done|done|].
      intros ->. destruct Hn as (_ & _ & Hs). specialize (Hs pre x fs). cbn [terms start] in Hs. rewrite <- app_assoc in Hs. specialize (Hs eq_refl).
      destruct (const_term x); [done|]. by apply bool_decide_eq_true.
  Qed.
  Lemma parse_expr_ok s rest r : ends rest -> clean s -> parse_expr (print s ++ rest) = Ok r ->
    exists e, r = (e, rest) /\ forall v, calc table e = Ok v -> meaning A v = value A s.
  Proof.
    intros Hend Hn E. unfold parse_expr, print in E. rewrite <- app_assoc in E.
    destruct (parse_mul _) as [r'| | |] eqn:Eu; try done.
    eapply parse_mul_ok in Eu as (x & -> & Hx); [|destruct (terms s) as [|[sb y] fs]; [by apply Hend|]; cbn; by destruct sb|apply Hn].
    cbn [mbind res_bind] in E. destruct s as [u fs].
    destruct (add_loop_ok fs _ u [] x rest _ Hend E Hn) as (e' & -> & H).
    - unfold reps. cbn [forallb]. rewrite andb_true_r. cbn [start] in Hx. unfold rep in Hx. unfold value. cbn [start terms foldl]. destruct (const_term u); [done|].
      destruct Hx as [Hx1 Hx2]. split; [done|]. intros v Hv. destruct (Hx2 v Hv) as (n & -> & Hn'). split; [unfold meaning; cbn; lia|]. intros _. by exists n.
    - exists e'. split; [done|]. unfold reps in H. cbn [app] in H. destruct (_ && _).
      + subst e'. intros v [= <-]. unfold meaning. cbn. lia.
      + intros v Hv. by apply H.
  Qed.
End A.

(** The parser ends, and accepts every expression unless its arithmetic overflows. *)
Lemma i64_cases z : i64 z = Ok z \/ i64 z = Undef.
Proof. unfold i64. destruct (_ && _); [by left|by right]. Qed.
Lemma unary_len ts : match unary ts with Ok (o, ts') => (length ts' <= length ts)%nat /\ (o <> None -> (length ts' < length ts)%nat) | Undef => True | _ => False end.
Proof.
  induction ts as [|t ts IH]; [done|]. destruct t; cbn [unary length]; try (split; [lia|]; intros H; try lia; by destruct H).
  - destruct (unary ts) as [[o ts']| | |]; try done. cbn [mbind res_bind]. split; [lia|]. intros _. lia.
  - destruct (unary ts) as [[o ts']| | |]; try done. cbn [mbind res_bind]. destruct o as [e|]; [|cbn; split; [lia|done]].
    destruct e; try (cbn; split; [lia|]; intros _; lia). destruct (i64_cases (- z)) as [-> | ->]; cbn; [|done]. split; [lia|]. intros _. lia.
Qed.
Lemma mul_op_cases dv a b : (exists e, mul_op dv a b = Ok e) \/ mul_op dv a b = Undef.
Proof.
  unfold mul_op. destruct a, b; try (left; by eexists).
  assert (H : forall y, (exists e, i64 y ≫= (fun z => Ok (EFix z)) = Ok e) \/ i64 y ≫= (fun z => Ok (EFix z)) = Undef).
  { intros y. destruct (i64_cases y) as [-> | ->]; [left; by eexists|by right]. }
  destruct dv; apply H.
Qed.
Lemma add_op_cases sb a b : (exists e, add_op sb a b = Ok e) \/ add_op sb a b = Undef.
Proof.
  unfold add_op. destruct a, b; try (left; by eexists).
  assert (H : forall y, (exists e, i64 y ≫= (fun z => Ok (EFix z)) = Ok e) \/ i64 y ≫= (fun z => Ok (EFix z)) = Undef).
  { intros y. destruct (i64_cases y) as [-> | ->]; [left; by eexists|by right]. }
  destruct sb; apply H.
Qed.
Lemma mul_loop_len fuel : forall e ts, (length ts < fuel)%nat ->
  match mul_loop fuel e ts with Ok (_, ts') => (length ts' <= length ts)%nat | NoFuel => False | _ => True end.
Proof.
  induction fuel as [|fuel IH]; intros e ts Hl; [lia|]. cbn [mul_loop]. destruct (mul_token ts) as [[dv ts1]|] eqn:E; [|done].
  assert (H1 : length ts = S (length ts1)) by (destruct ts as [|[] ts]; try done; injection E as <- <-; done).
  pose proof (unary_len ts1) as Hu. destruct (unary ts1) as [[o ts2]| | |]; try done. cbn [mbind res_bind]. destruct o as [r|]; [|done].
  destruct (mul_op_cases dv e r) as [[e' ->]| ->]; [|done]. cbn [mbind res_bind].
  specialize (IH e' ts2 ltac:(lia)). destruct (mul_loop _ _ _) as [[? ?]| | |]; try done. lia.
Qed.
Lemma parse_mul_len ts : match parse_mul ts with Ok (o, ts') => (length ts' <= length ts)%nat /\ (o <> None -> (length ts' < length ts)%nat) | NoFuel => False | _ => True end.
Proof.
  unfold parse_mul. pose proof (unary_len ts) as Hu. destruct (unary ts) as [[o ts2]| | |]; try done. cbn [mbind res_bind]. destruct o as [e|]; [|done].
  pose proof (mul_loop_len (S (length ts2)) e ts2 ltac:(lia)) as Hm. destruct (mul_loop _ _ _) as [[? ?]| | |]; try done. cbn [mbind res_bind].
  destruct Hu as [Hu Hu']. specialize (Hu' ltac:(done)). split; [lia|]. intros _. lia.
Qed.
Lemma add_loop_len fuel : forall e ts, (length ts < fuel)%nat -> add_loop fuel e ts <> NoFuel.
Proof.
  induction fuel as [|fuel IH]; intros e ts Hl; [lia|]. cbn [add_loop]. destruct (add_token ts) as [[sb ts1]|] eqn:E; [|done].
  assert (H1 : length ts = S (length ts1)) by (destruct ts as [|[] ts]; try done; injection E as <- <-; done).
  pose proof (parse_mul_len ts1) as Hu. destruct (parse_mul ts1) as [[o ts2]| | |]; try done. cbn [mbind res_bind]. destruct o as [r|]; [|done].
  destruct (add_op_cases sb e r) as [[e' ->]| ->]; [|done]. cbn [mbind res_bind]. apply IH. lia.
Qed.
Lemma parse_ends ts : parse_expr ts <> NoFuel.
Proof.
  unfold parse_expr. pose proof (parse_mul_len ts) as Hu. destruct (parse_mul ts) as [[o ts2]| | |]; try done. cbn [mbind res_bind]. destruct o as [r|]; [|done].
  apply add_loop_len. lia.
Qed.

Lemma unary_accepts u rest : unary (print_un u ++ rest) = Undef \/ exists e, unary (print_un u ++ rest) = Ok (Some e, rest).
Proof.
  destruct (unary (print_un u ++ rest)) as [r| | |] eqn:E.
  - right. destruct (unary_ok (fun _ => 0) (fun _ => None) u rest r E) as (e & -> & _). by exists e.
  - by left.
  - pose proof (unary_len (print_un u ++ rest)) as H. by rewrite E in H.
  - pose proof (unary_len (print_un u ++ rest)) as H. by rewrite E in H.
Qed.
Lemma mul_loop_accepts fs : forall fuel e rest, mul_token rest = None ->
  mul_loop fuel e ((fs ≫= fun p : bool * un => (if p.1 then TDiv else TMul) :: print_un p.2) ++ rest) <> Reject /\
  forall r, mul_loop fuel e ((fs ≫= fun p : bool * un => (if p.1 then TDiv else TMul) :: print_un p.2) ++ rest) = Ok r -> r.2 = rest.
Proof.
  induction fs as [|[dv x] fs IH]; intros fuel e rest Hend; (destruct fuel as [|fuel]; [done|]).
  - cbn [mul_loop mbind list_bind app]. rewrite Hend. split; [done|]. by intros r [= <-].
  - cbn [mul_loop mbind list_bind fst snd]. rewrite <- app_assoc. cbn [app].
    assert (Em : forall ts, mul_token ((if dv then TDiv else TMul) :: ts) = Some (dv, ts)) by (by destruct dv). rewrite Em, <- ?app_assoc.
    destruct (unary_accepts x ((fs ≫= fun p : bool * un => (if p.1 then TDiv else TMul) :: print_un p.2) ++ rest)) as [E|[e' E]]; cbn [mbind list_bind] in E; rewrite E; [done|].
    cbn [mbind res_bind]. destruct (mul_op_cases dv e e') as [[e1 ->]| ->]; [|done]. cbn [mbind res_bind]. by apply IH.
Qed.
Lemma parse_mul_accepts t rest : mul_token rest = None -> parse_mul (print_term t ++ rest) = Undef \/ exists e, parse_mul (print_term t ++ rest) = Ok (Some e, rest).
Proof.
  intros Hend. pose proof (parse_mul_len (print_term t ++ rest)) as Hl. unfold parse_mul, print_term in *. rewrite <- app_assoc in *.
  destruct (unary_accepts (first t) ((factors t ≫= fun p : bool * un => (if p.1 then TDiv else TMul) :: print_un p.2) ++ rest)) as [E|[e E]]; rewrite E in Hl |- *; [by left|].
  cbn [mbind res_bind] in Hl |- *. set (fuel := S _) in *. destruct (mul_loop_accepts (factors t) fuel e rest Hend) as [H1 H2].
  destruct (mul_loop _ _ _) as [[e' ts]| | |]; try done; [right|by left]. specialize (H2 _ eq_refl). cbn in H2. subst. by exists e'.
Qed.
Lemma add_loop_accepts fs : forall fuel e rest, ends rest ->
  add_loop fuel e ((fs ≫= fun p : bool * term => (if p.1 then TSub else TAdd) :: print_term p.2) ++ rest) <> Reject /\
  forall r, add_loop fuel e ((fs ≫= fun p : bool * term => (if p.1 then TSub else TAdd) :: print_term p.2) ++ rest) = Ok r -> r.2 = rest.
Proof.
  induction fs as [|[sb x] fs IH]; intros fuel e rest Hend; (destruct fuel as [|fuel]; [done|]).
  - cbn [add_loop mbind list_bind app]. rewrite (proj2 Hend). split; [done|]. by intros r [= <-].
  - cbn [add_loop mbind list_bind fst snd]. rewrite <- app_assoc. cbn [app].
    assert (Em : forall ts, add_token ((if sb then TSub else TAdd) :: ts) = Some (sb, ts)) by (by destruct sb). rewrite Em, <- ?app_assoc.
    destruct (parse_mul_accepts x ((fs ≫= fun p : bool * term => (if p.1 then TSub else TAdd) :: print_term p.2) ++ rest)) as [E|[e' E]];
      [destruct fs as [|[sb' x''] fs']; [by apply Hend|]; cbn; by destruct sb'| |]; cbn [mbind list_bind] in E; rewrite E; [done|].
    cbn [mbind res_bind]. destruct (add_op_cases sb e e') as [[e1 ->]| ->]; [|done]. cbn [mbind res_bind]. by apply IH.
Qed.
Lemma parse_accepts s rest : ends rest -> parse_expr (print s ++ rest) = Undef \/ exists e, parse_expr (print s ++ rest) = Ok (e, rest).
Proof.
  intros Hend. pose proof (parse_ends (print s ++ rest)) as Hl. unfold parse_expr, print in *. rewrite <- app_assoc in *.
  destruct (parse_mul_accepts (start s) ((terms s ≫= fun p : bool * term => (if p.1 then TSub else TAdd) :: print_term p.2) ++ rest)) as [E|[e E]];
    [destruct (terms s) as [|[sb y] fs]; [by apply Hend|]; cbn; by destruct sb| |]; rewrite E in Hl |- *; [by left|].
  cbn [mbind res_bind] in Hl |- *. set (fuel := S _) in *. destruct (add_loop_accepts (terms s) fuel e rest Hend) as [H1 H2].
  destruct (add_loop _ _ _) as [[e' ts]| | |]; try done; [right|by left]. specialize (H2 _ eq_refl). cbn in H2. subst. by exists e'.
Qed.
