(** C126, C127: parsing statements. *)
From stdpp Require Import base list numbers.
From Verif Require Import Front.Pstmt_model Front.Pstmt_spec Front.Pstmt_proof Front.Pstmt_full_proof Front.Pstmt_sound_proof.
Local Open Scope Z_scope.

(** * C126: statements are grouped as the grammar of C says *)
(** A body is taken up to its brace, every jump leaves the innermost statement it may leave, and every case is one of the innermost switch. *)
Theorem C126_grouped ts l rest : body_of ts l ->
  parse_body (ts ++ KRbrace :: rest) = Done l {| cases := l ≫= cases_of; labels := l ≫= labels_of; gotos := l ≫= gotos_of |} rest.
Proof. exact (body_full ts l rest). Qed.
(** A sequence of tokens is at most one body. *)
Theorem C126_one_body ts l l' : body_of ts l -> body_of ts l' -> l = l'.
Proof. exact (body_one ts l l'). Qed.
(** Parsing ends. *)
Theorem C126_ends ts : parse_body ts <> NoFuel.
Proof. exact (body_ends ts). Qed.
Print Assumptions C126_grouped.
Print Assumptions C126_one_body.
Print Assumptions C126_ends.
(** [while (e1) { switch (x) { case 3: if (a) if (b) break; else continue; default: ; } if (c) break; } goto L; L: return 0;]:
    the else is of the second if, the first break leaves the switch, the second one and the continue are of the loop. *)
Definition nested : list tok :=
  [KWhile 1; KLpar; KExpr 1; KRpar; KLbrace;
     KSwitch 2; KLpar; KName 1; KRpar; KLbrace;
       KCase; KInt 3; KColon; KIf; KLpar; KName 2; KRpar; KIf; KLpar; KName 3; KRpar; KBreak; KSemi; KElse; KContinue; KSemi;
       KDefault; KColon; KSemi; KRbrace;
     KIf; KLpar; KName 4; KRpar; KBreak; KSemi; KRbrace;
   KGoto; KName 9; KSemi; KName 9; KColon; KReturn; KInt 0; KSemi].
Definition nested_tree : list stmt :=
  [While 1 (Expr 1) (Block [
     Switch 2 (Name 1) [Some 3; None] (Block [Case 2 (Some 3) (If (Name 2) (IfElse (Name 3) (Break 2) (Continue 1))); Case 2 None Empty]);
     If (Name 4) (Break 1)]);
   Goto 9; Label 9 (Return (Some (Int 0)))].
Example C126_nested : body_of nested nested_tree /\ parse_body (nested ++ [KRbrace; KOther 7]) = Done nested_tree {| cases := []; labels := [9%nat]; gotos := [9%nat] |} [KOther 7].
Proof. split; [eapply body_by_parsing; [vm_compute; reflexivity|cbn; repeat split]|vm_compute; reflexivity]. Qed.
(** [for (int i; i < n; ) do { int k; i++; } while (f(i)); { }] *)
Example C126_loops :
  parse_body [KFor 1; KLpar; KDecl 1; KSemi; KName 1; KMore 2; KSemi; KRpar; KDo 2; KLbrace; KDecl 2; KSemi; KName 1; KMore 3; KSemi; KRbrace; KWhile 3; KLpar; KName 4; KMore 4; KRpar; KSemi; KLbrace; KRbrace; KRbrace] =
  Done [ForDecl 1 1 (Some (NameMore 1 2)) None (DoWhile 2 (Block [Decl 2; Exp (NameMore 1 3)]) (NameMore 4 4)); Block []] {| cases := []; labels := []; gotos := [] |} [].
Proof. vm_compute. reflexivity. Qed.

(** * C127: what is no body is answered with a message *)
(** Not proved: if a statement is missing at the end of a block, see below. *)
Theorem C127_accepted_partial ts l st rest : parse_body ts = Done l st rest -> foldr (fun s p => whole s /\ p) True l -> exists pre, ts = pre ++ KRbrace :: rest /\ body_of pre l.
Proof. exact (body_sound ts l st rest). Qed.
(** [while (x) }] gets no message.  ([if (x) }] gets none from the parser either; then fe_misc.c:1898-1903 read through a null pointer.) *)
Theorem C127_missing_refuted : exists ts l st, parse_body (ts ++ [KRbrace]) = Done l st [] /\ forall l', ~ body_of ts l'.
Proof.
  exists [KWhile 1; KLpar; KName 1; KRpar], [While 1 (Name 1) Missing], {| cases := []; labels := []; gotos := [] |}. split; [vm_compute; reflexivity|].
  exact (body_lost [KWhile 1; KLpar; KName 1; KRpar] _ _ ltac:(vm_compute; reflexivity) ltac:(cbn; tauto)).
Qed.
Print Assumptions C127_accepted_partial.
Print Assumptions C127_missing_refuted.
(** A break outside of loops, a continue in a switch only, a case outside of switches, the same case, default or label twice, a goto without label: none is a body, and each gets a message. *)
Definition bad : list (list tok) :=
  [[KIf; KLpar; KInt 1; KRpar; KBreak; KSemi];
   [KSwitch 1; KLpar; KInt 1; KRpar; KLbrace; KContinue; KSemi; KRbrace];
   [KWhile 1; KLpar; KInt 1; KRpar; KCase; KInt 3; KColon; KSemi];
   [KSwitch 1; KLpar; KInt 1; KRpar; KLbrace; KCase; KInt 3; KColon; KSemi; KWhile 2; KLpar; KInt 1; KRpar; KCase; KInt 3; KColon; KSemi; KRbrace];
   [KSwitch 1; KLpar; KInt 1; KRpar; KLbrace; KDefault; KColon; KDefault; KColon; KSemi; KRbrace];
   [KName 1; KColon; KSemi; KLbrace; KName 1; KColon; KSemi; KRbrace];
   [KLbrace; KGoto; KName 2; KSemi; KRbrace; KName 1; KColon; KSemi];
   [KIf; KLpar; KInt 1; KRpar; KSemi; KElse; KSemi; KElse; KSemi]].
Example C127_bad : Forall (fun ts => parse_body (ts ++ [KRbrace]) = Err /\ forall l, ~ body_of ts l) bad.
Proof.
  assert (H : Forall (fun ts => parse_body (ts ++ [KRbrace]) = Err) bad) by (repeat constructor).
  revert H. apply List.Forall_impl. intros ts E. split; [exact E|]. apply body_none. intros l st rest. by rewrite E.
Qed.
(** Cases of different switches may be equal, and a case may be within a loop of the switch. *)
Example C127_good : exists l st, parse_body [KSwitch 1; KLpar; KInt 1; KRpar; KLbrace; KCase; KInt 3; KColon; KSwitch 2; KLpar; KInt 1; KRpar; KCase; KInt 3; KColon; KSemi; KWhile 3; KLpar; KInt 1; KRpar; KCase; KInt 4; KColon; KContinue; KSemi; KRbrace; KRbrace] = Done l st [] /\
  foldr (fun s p => whole s /\ p) True l /\ l = [Switch 1 (Int 1) [Some 3; Some 4] (Block [Case 1 (Some 3) (Switch 2 (Int 1) [Some 3] (Case 2 (Some 3) Empty)); While 3 (Int 1) (Case 1 (Some 4) (Continue 3))])].
Proof. eexists _, _. split; [vm_compute; reflexivity|]. cbn. repeat split. Qed.
