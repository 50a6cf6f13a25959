(** What the grammar calls a body is accepted. *)
From stdpp Require Import base list numbers.
From Verif Require Import Front.Pstmt_model Front.Pstmt_spec Front.Pstmt_proof.
Local Open Scope Z_scope.

Scheme stmt_of_i := Induction for stmt_of Sort Prop with items_of_i := Induction for items_of Sort Prop.
Combined Scheme stmt_of_mut from stmt_of_i, items_of_i.

Definition after (st : state) (c : list (option Z)) (l g : list nat) : state := State (cases st ++ c) (labels st ++ l) (gotos st ++ g).
Definition fits (st : state) (c : list (option Z)) (l : list nat) : Prop := NoDup (cases st ++ c) /\ NoDup (labels st ++ l).
Definition stmt_ok (sc : scope) (ts : list tok) (s : stmt) : Prop := forall st rest, fits st (cases_of s) (labels_of s) -> (open s = true -> head rest <> Some KElse) ->
  exists f0, forall f, (f0 <= f)%nat -> parse_stmt f sc st (ts ++ rest) = Done s (after st (cases_of s) (labels_of s) (gotos_of s)) rest.
Definition items_ok (sc : scope) (ts : list tok) (l : list stmt) : Prop := forall st rest, fits st (l ≫= cases_of) (l ≫= labels_of) ->
  exists f0, forall f, (f0 <= f)%nat -> parse_stmts f sc st (ts ++ KRbrace :: rest) = Done l (after st (l ≫= cases_of) (l ≫= labels_of) (l ≫= gotos_of)) rest.

Lemma after_nil st : after st [] [] [] = st. Proof. destruct st. unfold after; cbn. by rewrite !app_nil_r. Qed.
Lemma after_after st c l g c' l' g' : after (after st c l g) c' l' g' = after st (c ++ c') (l ++ l') (g ++ g'). Proof. unfold after; cbn. by rewrite <- !app_assoc. Qed.
Lemma fits_1 st c l c' l' : fits st (c ++ c') (l ++ l') -> fits st c l.
Proof. unfold fits. rewrite !app_assoc. intros [H1 H2]. apply NoDup_app in H1 as [? _]. apply NoDup_app in H2 as [? _]. done. Qed.
Lemma fits_2 st c l g c' l' : fits st (c ++ c') (l ++ l') -> fits (after st c l g) c' l'.
Proof. unfold fits, after; cbn. by rewrite !app_assoc. Qed.
Lemma expr_full es e st t rest : expr_of es e -> (forall k, t <> KMore k) -> parse_expr st (es ++ t :: rest) = Done e st (t :: rest).
Proof. intros [] Ht; try done. cbn. destruct t; try done. by destruct (Ht k). Qed.
Lemma until_semi_full es e st rest : opt_expr_of es e -> until_semi st (es ++ KSemi :: rest) = Done e st rest.
Proof.
  intros [|ts e' H]; [done|]. unfold until_semi. assert (E : as_semi (ts ++ KSemi :: rest) = None) by (by destruct H). rewrite E, (expr_full ts e') by done. done.
Qed.
Lemma until_rpar_full es e st rest : opt_expr_of es e -> until_rpar st (es ++ KRpar :: rest) = Done e st rest.
Proof.
  intros [|ts e' H]; [done|]. unfold until_rpar. assert (E : as_rpar (ts ++ KRpar :: rest) = None) by (by destruct H). rewrite E, (expr_full ts e') by done. done.
Qed.
Lemma in_parens_full es e st rest : expr_of es e -> in_parens st (KLpar :: es ++ KRpar :: rest) = Done e st rest.
Proof. intros H. unfold in_parens. cbn [lpar bind]. by rewrite (expr_full es e) by done. Qed.
Lemma not_missing sc ts s : stmt_of sc ts s -> is_missing s = false. Proof. by destruct 1. Qed.
Lemma begins sc ts s rest : stmt_of sc ts s -> as_decl (ts ++ rest) = None /\ head (ts ++ rest) <> Some KElse.
Proof. destruct 1 as [|sc ts e H| | | | | | | | | | | | | | |]; try done. by destruct H. Qed.
Lemma items_begin sc ts l rest : items_of sc ts l -> head (ts ++ KRbrace :: rest) <> Some KElse.
Proof. destruct 1 as [| |sc ts s ts' l H _]; try done. rewrite <- app_assoc. by eapply begins. Qed.
Lemma open_else s (rest : list tok) : head rest <> Some KElse -> open s = true -> head rest <> Some KElse. Proof. done. Qed.
Lemma no_else ts : head ts <> Some KElse -> as_else ts = None. Proof. by destruct ts as [|[] ts]. Qed.

Lemma all_ok : (forall sc ts s, stmt_of sc ts s -> stmt_ok sc ts s) /\ (forall sc ts l, items_of sc ts l -> items_ok sc ts l).
Proof.
  apply (stmt_of_mut (fun sc ts s _ => stmt_ok sc ts s) (fun sc ts l _ => items_ok sc ts l)).
  - intros sc st rest _ _. exists 1%nat. intros [|f] Hf; [lia|]. by rewrite after_nil.
  - intros sc ts e He st rest _ _. exists 1%nat. intros [|f] Hf; [lia|]. rewrite after_nil, <- app_assoc. cbn [app].
    pose proof (expr_full ts e st KSemi rest He ltac:(done)) as E. destruct He; cbn [parse_stmt app] in *; by rewrite ?E.
  - intros sc ts l Hl IH st rest Hf _. destruct (IH st rest Hf) as [f0 Hf0]. exists (S f0). intros [|f] Hle; [lia|]. cbn [parse_stmt app]. rewrite <- app_assoc. cbn [app]. by rewrite Hf0 by lia.
  - intros sc es e ts s He Hs IH st rest Hf Ho. destruct (IH st rest Hf) as [f0 Hf0]; [by intros _; apply Ho|]. exists (S f0). intros [|f] Hle; [lia|]. cbn [parse_stmt app].
    rewrite <- app_assoc. cbn [app]. rewrite (in_parens_full es e) by done. cbn [bind]. rewrite Hf0 by lia. cbn [bind]. by rewrite (no_else rest (Ho eq_refl)).
  - intros sc es e ts s ts' t He Hs IH Hns Ht IH' st rest Hf Ho. cbn in Hf.
    destruct (IH st (KElse :: ts' ++ rest) (fits_1 _ _ _ _ _ Hf)) as [f1 Hf1]; [by rewrite Hns|]. destruct (IH' _ rest (fits_2 _ _ _ (gotos_of s) _ _ Hf)) as [f2 Hf2]; [done|].
    exists (S (f1 + f2)). intros [|f] Hle; [lia|]. cbn [parse_stmt app]. rewrite <- app_assoc. cbn [app]. rewrite (in_parens_full es e) by done. cbn [bind]. rewrite <- app_assoc. cbn [app].
    rewrite Hf1 by lia. cbn [bind as_else]. rewrite Hf2 by lia. cbn [bind]. by rewrite after_after.
  - intros sc i es e ts s He Hs IH Hnd st rest [_ Hf] Ho. destruct (IH (State [] (labels st) (gotos st)) rest) as [f0 Hf0]; [by split|done|].
    exists (S f0). intros [|f] Hle; [lia|]. cbn [parse_stmt app]. rewrite <- app_assoc. cbn [app]. rewrite (in_parens_full es e) by done. cbn [bind].
    change (in_switch sc i) with (switch sc i). rewrite Hf0 by lia. cbn. unfold after. cbn. by rewrite app_nil_r.
  - intros sc i es e ts s He Hs IH st rest Hf Ho. destruct (IH st rest Hf Ho) as [f0 Hf0].
    exists (S f0). intros [|f] Hle; [lia|]. cbn [parse_stmt app]. rewrite <- app_assoc. cbn [app]. rewrite (in_parens_full es e) by done. cbn [bind].
    change (in_loop sc i) with (loop sc i). by rewrite Hf0 by lia.
  - intros sc i j es e ts s He Hs IH st rest Hf _. destruct (IH st (KWhile j :: KLpar :: es ++ KRpar :: KSemi :: rest) Hf ltac:(done)) as [f0 Hf0].
    exists (S f0). intros [|f] Hle; [lia|]. cbn [parse_stmt app]. rewrite <- app_assoc. cbn [app]. rewrite <- app_assoc. cbn [app].
    change (in_loop sc i) with (loop sc i). rewrite Hf0 by lia. cbn [bind while_]. by rewrite (in_parens_full es e) by done.
  - intros sc i ps p cs c qs q ts s Hp Hc Hq Hs IH st rest Hf Ho. destruct (IH st rest Hf Ho) as [f0 Hf0].
    exists (S f0). intros [|f] Hle; [lia|]. cbn [parse_stmt app lpar bind]. rewrite <- app_assoc. cbn [app]. rewrite <- app_assoc. cbn [app]. rewrite <- app_assoc. cbn [app].
    assert (E : as_decl (ps ++ KSemi :: cs ++ KSemi :: qs ++ KRpar :: ts ++ rest) = None) by (destruct Hp as [|? ? []]; done). rewrite E.
    rewrite (until_semi_full ps p) by done. cbn [bind]. rewrite (until_semi_full cs c) by done. cbn [bind]. rewrite (until_rpar_full qs q) by done. cbn [bind].
    change (in_loop sc i) with (loop sc i). by rewrite Hf0 by lia.
  - intros sc i d cs c qs q ts s Hc Hq Hs IH st rest Hf Ho. destruct (IH st rest Hf Ho) as [f0 Hf0].
    exists (S f0). intros [|f] Hle; [lia|]. cbn [parse_stmt app lpar bind as_decl semi]. rewrite <- app_assoc. cbn [app]. rewrite <- app_assoc. cbn [app].
    rewrite (until_semi_full cs c) by done. cbn [bind]. rewrite (until_rpar_full qs q) by done. cbn [bind].
    change (in_loop sc i) with (loop sc i). by rewrite Hf0 by lia.
  - intros sc i Hi st rest _ _. exists 1%nat. intros [|f] Hle; [lia|]. cbn. by rewrite Hi, after_nil.
  - intros sc i Hi st rest _ _. exists 1%nat. intros [|f] Hle; [lia|]. cbn. by rewrite Hi, after_nil.
  - intros sc x st rest _ _. exists 1%nat. intros [|f] Hle; [lia|]. cbn. unfold after. cbn. by rewrite !app_nil_r.
  - intros sc x ts s Hs IH st rest Hf Ho. cbn in Hf. rewrite <- (app_nil_r (cases_of s)) in Hf. destruct (IH st rest (fits_1 _ _ _ _ _ Hf) Ho) as [f0 Hf0].
    exists (S f0). intros [|f] Hle; [lia|]. cbn [parse_stmt app as_colon]. rewrite Hf0 by lia. cbn [bind]. rewrite (not_missing _ _ _ Hs). unfold add_label. cbn [labels after].
    rewrite decide_False.
    + cbn. unfold after. cbn. by rewrite <- !app_assoc.
    + destruct Hf as [_ Hf]. rewrite app_assoc in Hf. apply NoDup_app in Hf as (_ & Hf & _). intros Hx. apply (Hf x Hx). by apply elem_of_list_singleton.
  - intros sc i v ts s Hi Hs IH st rest Hf Ho. cbn in Hf.
    assert (E : add_case sc (Some v) st = Some (after st [Some v] [] [])).
    { unfold add_case. rewrite Hi, decide_False; [unfold after; cbn; by rewrite !app_nil_r|]. destruct Hf as [Hf _]. apply NoDup_app in Hf as (_ & Hf & _). intros Hx. apply (Hf _ Hx). by left. }
    destruct (IH (after st [Some v] [] []) rest) as [f0 Hf0]; [by apply (fits_2 st [Some v] [] [] (cases_of s) (labels_of s))|done|].
    exists (S f0). intros [|f] Hle; [lia|]. cbn [parse_stmt app colon bind]. rewrite Hi, E, Hf0 by lia. cbn [bind]. rewrite (not_missing _ _ _ Hs). by rewrite after_after.
  - intros sc i ts s Hi Hs IH st rest Hf Ho. cbn in Hf.
    assert (E : add_case sc None st = Some (after st [None] [] [])).
    { unfold add_case. rewrite Hi, decide_False; [unfold after; cbn; by rewrite !app_nil_r|]. destruct Hf as [Hf _]. apply NoDup_app in Hf as (_ & Hf & _). intros Hx. apply (Hf _ Hx). by left. }
    destruct (IH (after st [None] [] []) rest) as [f0 Hf0]; [by apply (fits_2 st [None] [] [] (cases_of s) (labels_of s))|done|].
    exists (S f0). intros [|f] Hle; [lia|]. cbn [parse_stmt app colon bind]. rewrite Hi, E, Hf0 by lia. cbn [bind]. rewrite (not_missing _ _ _ Hs). by rewrite after_after.
  - intros sc es e He st rest _ _. exists 1%nat. intros [|f] Hle; [lia|]. cbn [parse_stmt app]. rewrite <- app_assoc. cbn [app]. rewrite (until_semi_full es e) by done. cbn. by rewrite after_nil.
  - intros sc st rest _. exists 2%nat. intros [|[|f]] Hle; try lia. cbn. by rewrite after_nil.
  - intros sc d ts l Hl IH st rest Hf. destruct (IH st rest Hf) as [f0 Hf0]. exists (S f0). intros [|f] Hle; [lia|]. cbn [parse_stmts app as_decl semi bind]. by rewrite Hf0 by lia.
  - intros sc ts s ts' l Hs IH Hl IH' st rest Hf. cbn in Hf.
    destruct (IH st (ts' ++ KRbrace :: rest) (fits_1 _ _ _ _ _ Hf)) as [f1 Hf1]; [intros _; by eapply items_begin|]. destruct (IH' _ rest (fits_2 _ _ _ (gotos_of s) _ _ Hf)) as [f2 Hf2].
    exists (S (f1 + f2)). intros [|f] Hle; [lia|]. cbn [parse_stmts]. rewrite <- app_assoc. rewrite (proj1 (begins _ _ _ _ Hs)), Hf1 by lia. cbn [bind]. rewrite (not_missing _ _ _ Hs), Hf2 by lia.
    cbn. by rewrite after_after.
Qed.
Lemma no_cases : (forall sc ts s, stmt_of sc ts s -> swtch sc = None -> cases_of s = []) /\ (forall sc ts l, items_of sc ts l -> swtch sc = None -> l ≫= cases_of = []).
Proof.
  apply (stmt_of_mut (fun sc ts s _ => swtch sc = None -> cases_of s = []) (fun sc ts l _ => swtch sc = None -> l ≫= cases_of = [])); try done; try (intros; cbn; auto; congruence).
  - intros sc es e ts s ts' t _ _ IH _ _ IH' H. cbn. by rewrite IH, IH'.
  - intros sc ts s ts' l _ IH _ IH' H. cbn. by rewrite IH, IH'.
Qed.
Lemma body_full ts l rest : body_of ts l -> parse_body (ts ++ KRbrace :: rest) = Done l (State (l ≫= cases_of) (l ≫= labels_of) (l ≫= gotos_of)) rest.
Proof.
  intros (Hi & Hl & Hg). destruct (proj2 all_ok _ _ _ Hi no_state rest) as [f0 Hf0].
  { split; [|done]. cbn. rewrite (proj2 no_cases _ _ _ Hi eq_refl). constructor. }
  unfold parse_body. pose proof (proj2 (ends (fuel_for (ts ++ KRbrace :: rest))) no_scope no_state (ts ++ KRbrace :: rest) ltac:(done)) as He.
  set (f := fuel_for _) in *. assert (E : parse_stmts f no_scope no_state (ts ++ KRbrace :: rest) = parse_stmts (f + f0) no_scope no_state (ts ++ KRbrace :: rest)).
  { symmetry. apply stmts_mono; [lia|]. intros E. by rewrite E in He. }
  rewrite E. change no_scope with {| swtch := None; break_ := None; continu := None |}. rewrite Hf0 by lia. cbn. by rewrite decide_True.
Qed.
