(** What is accepted is a body by the grammar, if nothing is missing in it. *)
From stdpp Require Import base list numbers.
From Verif Require Import Front.Pstmt_model Front.Pstmt_spec Front.Pstmt_proof Front.Pstmt_full_proof.
Local Open Scope Z_scope.

Lemma bind_inv {A B} (r : res A) (k : A -> state -> list tok -> res B) b st rest : bind r k = Done b st rest -> exists a st1 ts1, r = Done a st1 ts1 /\ k a st1 ts1 = Done b st rest.
Proof. destruct r; cbn; try done. intros H. by eexists _, _, _. Qed.
Lemma expr_inv st ts e st' rest : parse_expr st ts = Done e st' rest -> st' = st /\ exists es, ts = es ++ rest /\ expr_of es e.
Proof.
  destruct ts as [|[] ts]; try done; cbn.
  - destruct ts as [|[] ts]; intros [= <- <- <-]; split; try done; first [by eexists [_; _]; split; [done|constructor] | by eexists [_]; split; [done|constructor]].
  - intros [= <- <- <-]. split; [done|]. eexists [_]. split; [done|constructor].
  - intros [= <- <- <-]. split; [done|]. eexists [_]. split; [done|constructor].
Qed.
Lemma lpar_inv st ts u st' rest : lpar st ts = Done u st' rest -> st' = st /\ ts = KLpar :: rest. Proof. destruct ts as [|[] ts]; cbn; try done. by intros [= _ -> ->]. Qed.
Lemma rpar_inv st ts u st' rest : rpar st ts = Done u st' rest -> st' = st /\ ts = KRpar :: rest. Proof. destruct ts as [|[] ts]; cbn; try done. by intros [= _ -> ->]. Qed.
Lemma semi_inv st ts u st' rest : semi st ts = Done u st' rest -> st' = st /\ ts = KSemi :: rest. Proof. destruct ts as [|[] ts]; cbn; try done. by intros [= _ -> ->]. Qed.
Lemma colon_inv st ts u st' rest : colon st ts = Done u st' rest -> st' = st /\ ts = KColon :: rest. Proof. destruct ts as [|[] ts]; cbn; try done. by intros [= _ -> ->]. Qed.
Lemma while_inv st ts u st' rest : while_ st ts = Done u st' rest -> st' = st /\ exists j, ts = KWhile j :: rest. Proof. destruct ts as [|[] ts]; cbn; try done. intros [= _ -> ->]. split; [done|by eexists]. Qed.
Lemma as_decl_inv ts d ts' : as_decl ts = Some (d, ts') -> ts = KDecl d :: ts'. Proof. destruct ts as [|[] ts]; cbn; try done. by intros [= -> ->]. Qed.
Lemma as_semi_inv ts ts' : as_semi ts = Some ts' -> ts = KSemi :: ts'. Proof. destruct ts as [|[] ts]; cbn; try done. by intros [= ->]. Qed.
Lemma as_rpar_inv ts ts' : as_rpar ts = Some ts' -> ts = KRpar :: ts'. Proof. destruct ts as [|[] ts]; cbn; try done. by intros [= ->]. Qed.
Lemma as_colon_inv ts ts' : as_colon ts = Some ts' -> ts = KColon :: ts'. Proof. destruct ts as [|[] ts]; cbn; try done. by intros [= ->]. Qed.
Lemma as_rbrace_inv ts ts' : as_rbrace ts = Some ts' -> ts = KRbrace :: ts'. Proof. destruct ts as [|[] ts]; cbn; try done. by intros [= ->]. Qed.
Lemma as_else_inv ts ts' : as_else ts = Some ts' -> ts = KElse :: ts'. Proof. destruct ts as [|[] ts]; cbn; try done. by intros [= ->]. Qed.
Lemma as_else_none ts : as_else ts = None -> head ts <> Some KElse. Proof. by destruct ts as [|[] ts]. Qed.
Lemma until_semi_inv st ts e st' rest : until_semi st ts = Done e st' rest -> st' = st /\ exists es, ts = es ++ KSemi :: rest /\ opt_expr_of es e.
Proof.
  unfold until_semi. destruct (as_semi ts) eqn:E.
  - intros [= <- <- <-]. apply as_semi_inv in E as ->. split; [done|]. exists []. split; [done|constructor].
  - intros H. apply bind_inv in H as (e1 & st1 & ts1 & H1 & H). apply bind_inv in H as (u & st2 & ts2 & H2 & H). injection H as <- <- <-.
    apply expr_inv in H1 as (-> & es & -> & He). apply semi_inv in H2 as [-> ->]. split; [done|]. exists es. split; [done|by constructor].
Qed.
Lemma until_rpar_inv st ts e st' rest : until_rpar st ts = Done e st' rest -> st' = st /\ exists es, ts = es ++ KRpar :: rest /\ opt_expr_of es e.
Proof.
  unfold until_rpar. destruct (as_rpar ts) eqn:E.
  - intros [= <- <- <-]. apply as_rpar_inv in E as ->. split; [done|]. exists []. split; [done|constructor].
  - intros H. apply bind_inv in H as (e1 & st1 & ts1 & H1 & H). apply bind_inv in H as (u & st2 & ts2 & H2 & H). injection H as <- <- <-.
    apply expr_inv in H1 as (-> & es & -> & He). apply rpar_inv in H2 as [-> ->]. split; [done|]. exists es. split; [done|by constructor].
Qed.
Lemma in_parens_inv st ts e st' rest : in_parens st ts = Done e st' rest -> st' = st /\ exists es, ts = KLpar :: es ++ KRpar :: rest /\ expr_of es e.
Proof.
  unfold in_parens. intros H. apply bind_inv in H as (u & st0 & ts0 & H0 & H). apply bind_inv in H as (e1 & st1 & ts1 & H1 & H). apply bind_inv in H as (u2 & st2 & ts2 & H2 & H). injection H as <- <- <-.
  apply lpar_inv in H0 as [-> ->]. apply expr_inv in H1 as (-> & es & -> & He). apply rpar_inv in H2 as [-> ->]. split; [done|]. by exists es.
Qed.
Ltac inv H := repeat match type of H with bind _ _ = Done _ _ _ => let a := fresh "a" in let s := fresh "st" in let t := fresh "ts" in let G := fresh "G" in apply bind_inv in H as (a & s & t & G & H) end.

Definition grown (st st' : state) (c : list (option Z)) (l g : list nat) : Prop := st' = after st c l g /\ (NoDup (cases st) -> NoDup (cases st ++ c)) /\ (NoDup (labels st) -> NoDup (labels st ++ l)).
Definition stmt_sound (f : nat) : Prop := forall sc st ts s st' rest, parse_stmt f sc st ts = Done s st' rest -> whole s ->
  (exists pre, ts = pre ++ rest /\ stmt_of sc pre s) /\ grown st st' (cases_of s) (labels_of s) (gotos_of s) /\ (open s = true -> head rest <> Some KElse).
Definition stmts_sound (f : nat) : Prop := forall sc st ts l st' rest, parse_stmts f sc st ts = Done l st' rest -> foldr (fun s p => whole s /\ p) True l ->
  (exists pre, ts = pre ++ KRbrace :: rest /\ items_of sc pre l) /\ grown st st' (l ≫= cases_of) (l ≫= labels_of) (l ≫= gotos_of).
Lemma grown_nil st : grown st st [] [] []. Proof. split; [by rewrite after_nil|]. by rewrite !app_nil_r. Qed.
Lemma grown_trans st st1 st2 c l g c' l' g' : grown st st1 c l g -> grown st1 st2 c' l' g' -> grown st st2 (c ++ c') (l ++ l') (g ++ g').
Proof.
  intros (-> & A & B) (-> & A' & B'). split; [by rewrite after_after|]. cbn in A', B'. rewrite !app_assoc. split; intros H; [by apply A', A|by apply B', B].
Qed.
Lemma case_sound f sc st v i st1 ts s st' rest : stmt_sound f -> swtch sc = Some i -> add_case sc v st = Some st1 -> parse_stmt f sc st1 ts = Done s st' rest -> whole s ->
  (exists pre, ts = pre ++ rest /\ stmt_of sc pre s) /\ grown st st' (v :: cases_of s) (labels_of s) (gotos_of s) /\ (open s = true -> head rest <> Some KElse).
Proof.
  intros IH Hi Ha Hp Hw. apply IH in Hp as (H1 & H2 & H3); [done|]. split; [done|]. split; [|done]. apply (grown_trans st st1 st' [v] [] [] _ _ _); [|done].
  unfold add_case in Ha. rewrite Hi in Ha. destruct (decide (v ∈ cases st)) as [|Hn]; [done|]. injection Ha as <-. split; [unfold after; cbn; by rewrite !app_nil_r|].
  split; [|by rewrite app_nil_r]. intros Hd. apply NoDup_app. split; [done|]. split; [|apply NoDup_singleton]. intros x Hx ->%elem_of_list_singleton. done.
Qed.
Lemma missing_post f sc st ts : post True (fun s st' rest => is_missing s = true -> ts = rest /\ st' = st) (parse_stmt f sc st ts).
Proof.
  assert (Hb : forall A (r : res A) (k : A -> state -> list tok -> res stmt), (forall a st1 ts1, post True (fun s _ _ => is_missing s = false) (k a st1 ts1)) -> post True (fun s _ _ => is_missing s = false) (bind r k)).
  { intros A r k Hk. destruct r; cbn; try done. }
  assert (Hn : post True (fun s _ _ => is_missing s = false) (parse_stmt f sc st ts) -> post True (fun s st' rest => is_missing s = true -> ts = rest /\ st' = st) (parse_stmt f sc st ts)).
  { destruct (parse_stmt f sc st ts); cbn; try done. congruence. }
  destruct f as [|f]; [done|]. destruct ts as [|t ts]; [done|]. destruct t; try done; apply Hn; cbn [parse_stmt];
    repeat first [done | apply Hb; intros ??? | match goal with |- post _ _ (match ?x with _ => _ end) => destruct x end].
Qed.
Lemma missing_inv f sc st ts a st' rest : parse_stmt f sc st ts = Done a st' rest -> is_missing a = true -> ts = rest /\ st' = st.
Proof. intros E. pose proof (missing_post f sc st ts) as H. by rewrite E in H. Qed.
Lemma sound f : stmt_sound f /\ stmts_sound f.
Proof.
  induction f as [|f [IH1 IH2]]; [done|]. split.
  - intros sc st ts s st' rest H Hw. cbn [parse_stmt] in H.
    assert (Hexp : (let* e, st, ts := parse_expr st ts in let* u, st, ts := semi st ts in Done (Exp e) st ts) = Done s st' rest ->
      (exists pre, ts = pre ++ rest /\ stmt_of sc pre s) /\ grown st st' (cases_of s) (labels_of s) (gotos_of s) /\ (open s = true -> head rest <> Some KElse)).
    { clear H. intros H. inv H. injection H as <- <- <-. apply expr_inv in G as (-> & es & -> & He). apply semi_inv in G0 as [-> ->].
      split; [|split; [apply grown_nil|done]]. exists (es ++ [KSemi]). split; [by rewrite <- app_assoc|by constructor]. }
    destruct ts as [|t ts]; [injection H as <- <- <-; done|]. destruct t; try (by apply Hexp); try (injection H as <- <- <-; done).
    + destruct (as_colon ts) as [ts1|] eqn:E; [|by apply Hexp]. clear Hexp. apply as_colon_inv in E as ->. inv H. destruct (is_missing a) eqn:Em; [done|]. destruct (add_label x st0) as [st1|] eqn:Ea; [|done].
      injection H as <- <- <-. apply IH1 in G as ((pre & -> & Hs) & Hg & Ho); [done|]. split; [|split; [|done]].
      * exists (KName x :: KColon :: pre). split; [done|by constructor].
      * cbn. rewrite <- (app_nil_r (cases_of a)), <- (app_nil_r (gotos_of a)). eapply grown_trans; [done|]. unfold add_label in Ea. destruct (decide (x ∈ labels st0)) as [|Hn]; [done|]. injection Ea as <-.
        split; [unfold after; cbn; by rewrite !app_nil_r|]. split; [by rewrite app_nil_r|]. intros Hd. apply NoDup_app. split; [done|]. split; [|apply NoDup_singleton]. intros y Hy ->%elem_of_list_singleton. done.
    + injection H as <- <- <-. split; [|split; [apply grown_nil|done]]. exists [KSemi]. split; [done|constructor].
    + clear Hexp. inv H. injection H as <- <- <-. apply IH2 in G as ((pre & -> & Hl) & Hg); [done|]. split; [|split; [done|done]]. exists (KLbrace :: pre ++ [KRbrace]). split; [cbn; by rewrite <- app_assoc|by constructor].
    + clear Hexp. inv H. apply in_parens_inv in G as (-> & es & -> & He). destruct (as_else ts1) as [ts2|] eqn:E.
      * apply as_else_inv in E as ->. inv H. injection H as <- <- <-. destruct Hw as [Hw1 Hw2]. apply IH1 in G0 as ((pre & -> & Hs) & Hg & Ho); [done|]. apply IH1 in G as ((pre' & -> & Hs') & Hg' & Ho'); [done|].
        split; [|split; [by eapply grown_trans|done]]. exists (KIf :: KLpar :: es ++ KRpar :: pre ++ KElse :: pre'). split; [cbn; rewrite <- !app_assoc; cbn; by rewrite <- !app_assoc|].
        constructor; try done. destruct (open a0); [|done]. by destruct (Ho eq_refl).
      * injection H as <- <- <-. apply IH1 in G0 as ((pre & -> & Hs) & Hg & Ho); [done|]. split; [|split; [done|intros _; by apply as_else_none]].
        exists (KIf :: KLpar :: es ++ KRpar :: pre). split; [cbn; by rewrite <- !app_assoc|by constructor].
    + clear Hexp. inv H. apply in_parens_inv in G as (-> & es & -> & He). injection H as <- <- <-. apply IH1 in G0 as ((pre & -> & Hs) & Hg & Ho); [done|].
      split; [|split; [|done]].
      * exists (KWhile i :: KLpar :: es ++ KRpar :: pre). split; [cbn; by rewrite <- !app_assoc|by constructor].
      * done.
    + clear Hexp. inv H. injection H as <- <- <-. apply IH1 in G as ((pre & -> & Hs) & Hg & Ho); [done|]. apply while_inv in G0 as (-> & j & ->). apply in_parens_inv in G1 as (-> & es & -> & He). apply semi_inv in G2 as [-> ->].
      split; [|split; [done|done]]. exists (KDo i :: pre ++ KWhile j :: KLpar :: es ++ [KRpar; KSemi]). split; [cbn; rewrite <- !app_assoc; cbn; by rewrite <- !app_assoc|by constructor].
    + clear Hexp. inv H. apply lpar_inv in G as [-> ->]. destruct (as_decl ts0) as [[d ts1]|] eqn:E.
      * apply as_decl_inv in E as ->. inv H. injection H as <- <- <-. apply semi_inv in G as [-> ->]. apply until_semi_inv in G0 as (-> & cs & -> & Hc). apply until_rpar_inv in G1 as (-> & qs & -> & Hq).
        apply IH1 in G2 as ((pre & -> & Hs) & Hg & Ho); [done|]. split; [|split; [done|done]].
        exists (KFor i :: KLpar :: KDecl d :: KSemi :: cs ++ KSemi :: qs ++ KRpar :: pre). split; [cbn; rewrite <- !app_assoc; cbn; by rewrite <- !app_assoc|by constructor].
      * inv H. injection H as <- <- <-. apply until_semi_inv in G as (-> & ps & -> & Hp). apply until_semi_inv in G0 as (-> & cs & -> & Hc). apply until_rpar_inv in G1 as (-> & qs & -> & Hq).
        apply IH1 in G2 as ((pre & -> & Hs) & Hg & Ho); [done|]. split; [|split; [done|done]].
        exists (KFor i :: KLpar :: ps ++ KSemi :: cs ++ KSemi :: qs ++ KRpar :: pre). split; [cbn; rewrite <- !app_assoc; cbn; rewrite <- !app_assoc; cbn; by rewrite <- !app_assoc|by constructor].
    + clear Hexp. inv H. apply in_parens_inv in G as (-> & es & -> & He). injection H as <- <- <-. apply IH1 in G0 as ((pre & -> & Hs) & (-> & Hg1 & Hg2) & Ho); [done|].
      cbn in *. split; [|split; [|done]].
      * exists (KSwitch i :: KLpar :: es ++ KRpar :: pre). split; [cbn; by rewrite <- !app_assoc|]. constructor; [done|done|apply Hg1; constructor].
      * split; [unfold after; cbn; by rewrite app_nil_r|]. split; [by rewrite app_nil_r|done].
    + clear Hexp. inv H. destruct (break_ sc) as [i|] eqn:Ei; [|done]. injection H as <- <- <-. apply semi_inv in G as [-> ->]. split; [|split; [apply grown_nil|done]]. exists [KBreak; KSemi]. split; [done|by constructor].
    + clear Hexp. inv H. destruct (continu sc) as [i|] eqn:Ei; [|done]. injection H as <- <- <-. apply semi_inv in G as [-> ->]. split; [|split; [apply grown_nil|done]]. exists [KContinue; KSemi]. split; [done|by constructor].
    + clear Hexp. destruct ts as [|[] ts]; try done. inv H. injection H as <- <- <-. apply semi_inv in G as [-> ->]. split; [|split; [|done]].
      * exists [KGoto; KName x; KSemi]. split; [done|constructor].
      * split; [unfold after; cbn; by rewrite !app_nil_r|]. cbn. by rewrite !app_nil_r.
    + clear Hexp. inv H. injection H as <- <- <-. apply until_semi_inv in G as (-> & es & -> & He). split; [|split; [apply grown_nil|done]]. exists (KReturn :: es ++ [KSemi]). split; [cbn; by rewrite <- app_assoc|by constructor].
    + clear Hexp. destruct ts as [|[] ts]; try done. inv H. apply colon_inv in G as [-> ->]. destruct (swtch sc) as [i|] eqn:Ei; [|done]. destruct (add_case sc (Some v) st) as [st1|] eqn:Ea; [|done]. inv H.
      destruct (is_missing a0) eqn:Em; [done|]. injection H as <- <- <-. destruct (case_sound f sc st (Some v) i st1 _ _ _ _ IH1 Ei Ea G Hw) as ((pre & -> & Hs) & Hg & Ho). split; [|done].
      exists (KCase :: KInt v :: KColon :: pre). split; [done|by constructor].
    + clear Hexp. inv H. apply colon_inv in G as [-> ->]. destruct (swtch sc) as [i|] eqn:Ei; [|done]. destruct (add_case sc None st) as [st1|] eqn:Ea; [|done]. inv H.
      destruct (is_missing a0) eqn:Em; [done|]. injection H as <- <- <-. destruct (case_sound f sc st None i st1 _ _ _ _ IH1 Ei Ea G Hw) as ((pre & -> & Hs) & Hg & Ho). split; [|done].
      exists (KDefault :: KColon :: pre). split; [done|by constructor].
  - intros sc st ts l st' rest H Hw. cbn [parse_stmts] in H. destruct (as_decl ts) as [[d ts1]|] eqn:E.
    + apply as_decl_inv in E as ->. inv H. injection H as <- <- <-. apply semi_inv in G as [-> ->]. destruct Hw as [_ Hw]. apply IH2 in G0 as ((pre & -> & Hl) & Hg); [done|].
      split; [|done]. exists (KDecl d :: KSemi :: pre). split; [done|by constructor].
    + inv H. destruct (is_missing a) eqn:Em.
      * destruct (as_rbrace ts0) eqn:Er; [|done]. injection H as <- <- <-. apply as_rbrace_inv in Er as ->.
        assert (Ha : ts = KRbrace :: l0 /\ st0 = st).
        { by apply (missing_inv f sc st ts a). }
        destruct Ha as [-> ->]. split; [|apply grown_nil]. exists []. split; [done|constructor].
      * inv H. injection H as <- <- <-. destruct Hw as [Hw1 Hw2]. apply IH1 in G as ((pre & -> & Hs) & Hg & _); [done|]. apply IH2 in G0 as ((pre' & -> & Hl) & Hg'); [done|].
        split; [|by eapply grown_trans]. exists (pre ++ pre'). split; [by rewrite <- app_assoc|by constructor].
Qed.
Lemma body_sound ts l st rest : parse_body ts = Done l st rest -> foldr (fun s p => whole s /\ p) True l -> exists pre, ts = pre ++ KRbrace :: rest /\ body_of pre l.
Proof.
  unfold parse_body. intros H Hw. inv H. destruct (decide _) as [Hg|]; [|done]. injection H as <- <- <-. apply (proj2 (sound _)) in G as ((pre & -> & Hl) & (-> & _ & Hn)); [done|].
  exists pre. split; [done|]. split; [done|]. cbn in *. split; [apply Hn; constructor|done].
Qed.
Lemma body_one ts l l' : body_of ts l -> body_of ts l' -> l = l'.
Proof. intros H H'. pose proof (body_full ts l [] H) as E. rewrite (body_full ts l' [] H') in E. by injection E. Qed.
(** A body with [l] as its statements, by parsing it. *)
Lemma body_by_parsing ts l st : parse_body (ts ++ [KRbrace]) = Done l st [] -> foldr (fun s p => whole s /\ p) True l -> body_of ts l.
Proof. intros H Hw. destruct (body_sound _ _ _ _ H Hw) as (pre & E & Hb). apply app_inj_tail in E as [-> _]. done. Qed.
(** What the parser does not take is no body. *)
Lemma body_none ts : (forall l st rest, parse_body (ts ++ [KRbrace]) <> Done l st rest) -> forall l, ~ body_of ts l.
Proof. intros H l Hb. by eapply H, (body_full ts l []). Qed.
Lemma all_whole : forall sc ts l, items_of sc ts l -> foldr (fun s p => whole s /\ p) True l.
Proof.
  assert (H : (forall sc ts s, stmt_of sc ts s -> whole s) /\ (forall sc ts l, items_of sc ts l -> foldr (fun s p => whole s /\ p) True l)); [|exact (proj2 H)].
  apply (stmt_of_mut (fun sc ts s _ => whole s) (fun sc ts l _ => foldr (fun s p => whole s /\ p) True l)); cbn; intros; done.
Qed.
Lemma body_lost ts l st : parse_body (ts ++ [KRbrace]) = Done l st [] -> ~ foldr (fun s p => whole s /\ p) True l -> forall l', ~ body_of ts l'.
Proof.
  intros H Hw l' Hb. pose proof (body_full ts l' [] Hb) as E. rewrite H in E. injection E as -> _. apply Hw. destruct Hb as (Hb & _). clear H Hw. revert Hb. apply all_whole.
Qed.
