(** The parser of statements ends, and finds the tree of the grammar. *)
From stdpp Require Import base list numbers.
From Verif Require Import Front.Pstmt_model Front.Pstmt_spec.
Local Open Scope Z_scope.

(** * Fuel *)
Definition refines {A} (r r' : res A) : Prop := r = NoFuel \/ r = r'.
Lemma refines_bind {A B} (r r' : res A) (k k' : A -> state -> list tok -> res B) : refines r r' -> (forall a st ts, refines (k a st ts) (k' a st ts)) -> refines (bind r k) (bind r' k').
Proof. intros [->| <-] H; [by left|]. destruct r; cbn; [apply H|by right|by right]. Qed.
Lemma refines_refl {A} (r : res A) : refines r r. Proof. by right. Qed.
Ltac mono IH := repeat first [apply refines_refl | apply IH | apply refines_bind; [|intros ???] | match goal with |- refines (match ?x with _ => _ end) _ => destruct x end].
Lemma mono f : (forall sc st ts, refines (parse_stmt f sc st ts) (parse_stmt (S f) sc st ts)) /\ (forall sc st ts, refines (parse_stmts f sc st ts) (parse_stmts (S f) sc st ts)).
Proof.
  induction f as [|f [IH1 IH2]]; [split; by left|]. split; intros sc st ts.
  - set (f' := S f) in *. cbn [parse_stmt]. unfold f' at 1. cbn [parse_stmt].
    destruct ts as [|t ts]; [apply refines_refl|]. destruct t; mono IH1; mono IH2.
  - set (f' := S f) in *. cbn [parse_stmts]. unfold f' at 1. cbn [parse_stmts]. mono IH2; mono IH1.
Qed.
Lemma stmt_mono f f' sc st ts : (f <= f')%nat -> parse_stmt f sc st ts <> NoFuel -> parse_stmt f' sc st ts = parse_stmt f sc st ts.
Proof. induction 1 as [|f' Hf IH]; intros H; [done|]. destruct (proj1 (mono f') sc st ts) as [E|E]; rewrite IH in E by done; congruence. Qed.
Lemma stmts_mono f f' sc st ts : (f <= f')%nat -> parse_stmts f sc st ts <> NoFuel -> parse_stmts f' sc st ts = parse_stmts f sc st ts.
Proof. induction 1 as [|f' Hf IH]; intros H; [done|]. destruct (proj2 (mono f') sc st ts) as [E|E]; rewrite IH in E by done; congruence. Qed.

(** ** What holds for a result. *)
Definition post {A} (nf : Prop) (P : A -> state -> list tok -> Prop) (r : res A) : Prop := match r with Done a st rest => P a st rest | Err => True | NoFuel => nf end.
Lemma post_bind {A B} nf (P : A -> state -> list tok -> Prop) (Q : B -> state -> list tok -> Prop) r k : post nf P r -> (forall a st ts, P a st ts -> post nf Q (k a st ts)) -> post nf Q (bind r k).
Proof. destruct r; cbn; [intros H Hk; by apply Hk|done|done]. Qed.
Definition within {A} (ts : list tok) (a : A) (st : state) (rest : list tok) : Prop := (length rest <= length ts)%nat.
Definition below (ts : list tok) (s : stmt) (st : state) (rest : list tok) : Prop := if is_missing s then rest = ts else (length rest < length ts)%nat.
Lemma expr_within st ts : post False (within ts) (parse_expr st ts).
Proof. destruct ts as [|[] ts]; cbn; unfold within; cbn; try done; try lia. destruct ts as [|[] ts]; cbn; lia. Qed.
Lemma lpar_within st ts : post False (within ts) (lpar st ts). Proof. destruct ts as [|[] ts]; cbn; unfold within; cbn; try done; lia. Qed.
Lemma rpar_within st ts : post False (within ts) (rpar st ts). Proof. destruct ts as [|[] ts]; cbn; unfold within; cbn; try done; lia. Qed.
Lemma semi_within st ts : post False (within ts) (semi st ts). Proof. destruct ts as [|[] ts]; cbn; unfold within; cbn; try done; lia. Qed.
Lemma colon_within st ts : post False (within ts) (colon st ts). Proof. destruct ts as [|[] ts]; cbn; unfold within; cbn; try done; lia. Qed.
Lemma while_within st ts : post False (within ts) (while_ st ts). Proof. destruct ts as [|[] ts]; cbn; unfold within; cbn; try done; lia. Qed.
Ltac steps := repeat (eapply post_bind; [first [apply expr_within | apply lpar_within | apply rpar_within | apply semi_within | apply colon_within | apply while_within]|intros ??? ?]).
Lemma as_semi_len ts ts' : as_semi ts = Some ts' -> length ts = S (length ts'). Proof. destruct ts as [|[] ts]; cbn; try done. by intros [= ->]. Qed.
Lemma as_rpar_len ts ts' : as_rpar ts = Some ts' -> length ts = S (length ts'). Proof. destruct ts as [|[] ts]; cbn; try done. by intros [= ->]. Qed.
Lemma as_else_len ts ts' : as_else ts = Some ts' -> length ts = S (length ts'). Proof. destruct ts as [|[] ts]; cbn; try done. by intros [= ->]. Qed.
Lemma as_colon_len ts ts' : as_colon ts = Some ts' -> length ts = S (length ts'). Proof. destruct ts as [|[] ts]; cbn; try done. by intros [= ->]. Qed.
Lemma as_rbrace_len ts ts' : as_rbrace ts = Some ts' -> length ts = S (length ts'). Proof. destruct ts as [|[] ts]; cbn; try done. by intros [= ->]. Qed.
Lemma as_decl_len ts d ts' : as_decl ts = Some (d, ts') -> length ts = S (length ts'). Proof. destruct ts as [|[] ts]; cbn; try done. by intros [= -> ->]. Qed.
Lemma until_semi_within st ts : post False (within ts) (until_semi st ts).
Proof. unfold until_semi. destruct (as_semi ts) eqn:E; [apply as_semi_len in E; cbn; unfold within; lia|]. steps. cbn. unfold within in *. lia. Qed.
Lemma until_rpar_within st ts : post False (within ts) (until_rpar st ts).
Proof. unfold until_rpar. destruct (as_rpar ts) eqn:E; [apply as_rpar_len in E; cbn; unfold within; lia|]. steps. cbn. unfold within in *. lia. Qed.
Lemma in_parens_within st ts : post False (within ts) (in_parens st ts).
Proof. unfold in_parens. steps. cbn. unfold within in *. lia. Qed.
Ltac steps2 := repeat (eapply post_bind; [first [apply expr_within | apply lpar_within | apply rpar_within | apply semi_within | apply colon_within | apply while_within | apply until_semi_within | apply until_rpar_within | apply in_parens_within]|intros ??? ?]).
Lemma below_within nf ts r : post nf (below ts) r -> post nf (within ts) r.
Proof. destruct r as [s st rest| |]; cbn; try done. unfold below, within. destruct (is_missing s); [intros ->; lia|lia]. Qed.
Lemma ends f : (forall sc st ts, (2 * length ts + 1 <= f)%nat -> post False (below ts) (parse_stmt f sc st ts)) /\ (forall sc st ts, (2 * length ts + 2 <= f)%nat -> post False (within ts) (parse_stmts f sc st ts)).
Proof.
  induction f as [|f [IH1 IH2]]; [split; intros; lia|]. split; intros sc st ts Hf.
  - cbn [parse_stmt].
    assert (Hsub : forall sc st ts', (length ts' < length ts)%nat -> post False (within ts') (parse_stmt f sc st ts')) by (intros sc' st' ts' Hl; apply below_within, IH1; lia).
    assert (Hexp : ts <> [] -> post False (below ts) (let* e, st, ts := parse_expr st ts in let* u, st, ts := semi st ts in Done (Exp e) st ts)).
    { intros _. eapply post_bind; [apply expr_within|]. intros e st1 ts1 H1. unfold within in H1. destruct ts1 as [|[] ts1]; done. }
    destruct ts as [|t ts]; [done|]. cbn [length] in *.
    destruct t; try (apply Hexp; done); try done.
    + destruct (as_colon ts) as [ts1|] eqn:E; [|by apply Hexp]. apply as_colon_len in E. eapply post_bind; [apply Hsub; lia|]. intros s st2 ts2 H2. unfold within in H2.
      destruct (is_missing s); [done|]. destruct (add_label x st2); [|done]. cbn. unfold below; cbn. lia.
    + cbn. unfold below; cbn. lia.
    + eapply post_bind; [apply IH2; lia|]. intros l st1 ts1 H1. cbn. unfold below; cbn. unfold within in H1. lia.
    + steps2. eapply post_bind; [apply Hsub; unfold within in *; lia|]. intros s st2 ts2 H2. destruct (as_else ts2) as [ts3|] eqn:E.
      * apply as_else_len in E. eapply post_bind; [apply Hsub; unfold within in *; lia|]. intros t st4 ts4 H4. cbn. unfold below; cbn. unfold within in *. lia.
      * cbn. unfold below; cbn. unfold within in *. lia.
    + steps2. eapply post_bind; [apply Hsub; unfold within in *; lia|]. intros s st2 ts2 H2. cbn. unfold below; cbn. unfold within in *. lia.
    + eapply post_bind; [apply Hsub; unfold within in *; lia|]. intros s st2 ts2 H2. steps2. cbn. unfold below; cbn. unfold within in *. lia.
    + steps2. destruct (as_decl ts0) as [[d ts1]|] eqn:E.
      * apply as_decl_len in E. steps2. eapply post_bind; [apply Hsub; unfold within in *; lia|]. intros s6 st6 ts6 H6. cbn. unfold below; cbn. unfold within in *. lia.
      * steps2. eapply post_bind; [apply Hsub; unfold within in *; lia|]. intros s6 st6 ts6 H6. cbn. unfold below; cbn. unfold within in *. lia.
    + steps2. eapply post_bind; [apply Hsub; unfold within in *; lia|]. intros s6 st6 ts6 H6. cbn. unfold below; cbn. unfold within in *. lia.
    + steps2. destruct (break_ sc); [|done]. cbn. unfold below; cbn. unfold within in *. lia.
    + steps2. destruct (continu sc); [|done]. cbn. unfold below; cbn. unfold within in *. lia.
    + destruct ts as [|[] ts]; try done. steps2. cbn. unfold below; cbn. unfold within in *. cbn in *. lia.
    + steps2. cbn. unfold below; cbn. unfold within in *. lia.
    + destruct ts as [|[] ts]; try done. steps2. cbn [length] in *. destruct (swtch sc); [|done]. destruct (add_case _ _ _); [|done].
      eapply post_bind; [apply Hsub; unfold within in *; lia|]. intros s6 st6 ts6 H6. destruct (is_missing s6); [done|]. cbn. unfold below; cbn. unfold within in *. lia.
    + steps2. destruct (swtch sc); [|done]. destruct (add_case _ _ _); [|done].
      eapply post_bind; [apply Hsub; unfold within in *; lia|]. intros s6 st6 ts6 H6. destruct (is_missing s6); [done|]. cbn. unfold below; cbn. unfold within in *. lia.
  - cbn [parse_stmts]. destruct (as_decl ts) as [[d ts1]|] eqn:E.
    + apply as_decl_len in E. steps2. eapply post_bind; [apply IH2; unfold within in *; lia|]. intros l st3 ts3 H3. cbn. unfold within in *. lia.
    + eapply post_bind; [apply IH1; lia|]. intros s st1 ts1 H1. unfold below in H1. destruct (is_missing s).
      * subst. destruct (as_rbrace ts) eqn:Er; [|done]. apply as_rbrace_len in Er. cbn. unfold within. lia.
      * eapply post_bind; [apply IH2; lia|]. intros l st3 ts3 H3. cbn. unfold within in *. lia.
Qed.
Lemma body_ends ts : parse_body ts <> NoFuel.
Proof.
  unfold parse_body. pose proof (proj2 (ends (fuel_for ts)) no_scope no_state ts ltac:(done)) as H. destruct (parse_stmts _ _ _ _) as [l st rest| |]; cbn in *; [|done|done]. by destruct (decide _).
Qed.
