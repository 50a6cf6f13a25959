(** C118, C119, C120: parsing expressions. *)
From stdpp Require Import base list numbers.
From Verif Require Import Front.Pexpr_model Front.Pexpr_spec Front.Pexpr_proof Front.Pexpr_sound_proof Front.Pexpr_full_proof.

(** * C118: expressions are grouped as the grammar of C says *)
(** The parser takes as many tokens as the expression has and builds the tree that its derivation gives. *)
Theorem C118_grouped ts e rest : derives false expression ts e -> no_sizeof_literal ts -> prec_next rest = PREC_NONE ->
  parse_expr (ts ++ rest) = Done (Some e) rest false.
Proof. exact (parse_full ts e rest). Qed.
(** The same where only an assignment expression may stand: arguments and initializers. *)
Theorem C118_argument ts e rest : derives false assignment ts e -> no_sizeof_literal ts -> prec_next rest < PREC_ASSIGN ->
  parse_assign (ts ++ rest) = Done (Some e) rest false.
Proof. exact (parse_assign_full ts e rest). Qed.
(** A sequence of tokens has at most one tree. *)
Theorem C118_one_tree ts e1 e2 : derives false expression ts e1 -> derives false expression ts e2 -> no_sizeof_literal ts -> e1 = e2.
Proof. exact (one_tree ts e1 e2). Qed.
(** Everything taken as a whole without error message is an expression of C or of the listed extensions. *)
Theorem C118_accepted ts v : parse_expr ts = Done v [] false -> exists e, v = Some e /\ (lvalues e = true -> derives true expression ts e).
Proof. exact (parse_sound ts v). Qed.
(** Parsing ends. *)
Theorem C118_ends ts : parse_expr ts <> NoFuel /\ parse_assign ts <> NoFuel /\ parse_const_fixnum ts <> NoFuel.
Proof. exact (total ts). Qed.
Print Assumptions C118_grouped.
Print Assumptions C118_argument.
Print Assumptions C118_one_tree.
Print Assumptions C118_accepted.
Print Assumptions C118_ends.
(** [a - b * c - d;] is [(a - (b * c)) - d]. *)
Example C118_sums : derives false expression sums (Bin (B Sub) (Bin (B Sub) (Var 1) (Bin (B Mul) (Var 2) (Var 3))) (Var 4)) /\ no_sizeof_literal sums /\
  parse_expr (sums ++ [TOther 0]) = Done (Some (Bin (B Sub) (Bin (B Sub) (Var 1) (Bin (B Mul) (Var 2) (Var 3))) (Var 4))) [TOther 0] false.
Proof. split; [exact sums_ok|]. split; [apply no_lit_dec; repeat constructor|vm_compute; reflexivity]. Qed.
(** [x = y += p ? *q++ : (char)-f(a, b)[c].m , z] *)
Example C118_mixed :
  parse_expr [TId 1; TOp (Assign None); TId 2; TOp (Assign (Some Add)); TId 3; TQuestion; TOp (B Mul); TId 4; TOp Inc; TColon; TLpar; TType 7; TRpar; TOp (B Sub); TId 5; TLpar; TId 6; TOp Comma; TId 7; TRpar; TLbr; TId 8; TRbr; TDot; TId 9; TOp Comma; TId 10] =
  Done (Some (Bin Comma (Bin (Assign None) (Var 1) (Bin (Assign (Some Add)) (Var 2) (Cond (Var 3) (Un (B Mul) (Post Inc (Var 4))) (Cast 7 (Un (B Sub) (Mem false (Index (Call (Var 5) [Var 6; Var 7]) (Var 8)) 9)))))) (Var 10))) [] false.
Proof. vm_compute. reflexivity. Qed.
(** The extensions are more than C: [sizeof(int)[p]]. *)
Example C118_more : parse_expr size_index = Done (Some (Index (SizeT false 1) (Var 1))) [] false /\ forall e, ~ derives false expression size_index e.
Proof. split; [vm_compute; reflexivity|exact size_index_not]. Qed.

(** * C119: an expression is accepted wherever the grammar allows one *)
(** A constant expression that is not a conditional one is taken as a whole. *)
Theorem C119_constant_partial ts e rest : derives false logical_or ts e -> no_sizeof_literal ts -> prec_next rest < PREC_LOGIOR ->
  parse_const_fixnum (ts ++ rest) = Done (Some e) rest false.
Proof. exact (parse_const_full ts e rest). Qed.
(** A conditional expression is a constant expression, too, but parsing stops at its question mark: [case 1 ? 2 : 3:]. *)
Theorem C119_constant_refuted : exists ts e rest, derives false conditional ts e /\ no_sizeof_literal ts /\ prec_next rest = PREC_NONE /\
  parse_const_fixnum (ts ++ rest) = Done (Some (Lit 1)) (TQuestion :: TLit 2 :: TColon :: TLit 3 :: rest) false.
Proof. exists chosen, (Cond (Lit 1) (Lit 2) (Lit 3)), [TColon]. split; [exact chosen_ok|]. split; [apply no_lit_dec; repeat constructor|]. split; vm_compute; reflexivity. Qed.
(** The operand of sizeof may be a compound literal, but parsing stops at its brace. *)
Theorem C119_sizeof_refuted : exists ts e, derives false expression ts e /\ parse_expr ts = Done (Some (SizeT false 1)) [TBrace 1] false.
Proof. exists literal_size, (SizeE false (Complit 1 1)). split; [exact literal_size_ok|vm_compute; reflexivity]. Qed.
Print Assumptions C119_constant_partial.
Print Assumptions C119_constant_refuted.
Print Assumptions C119_sizeof_refuted.
(** [(1 ? 2 : 3) + 4] *)
Example C119_parenthesised : parse_const_fixnum [TLpar; TLit 1; TQuestion; TLit 2; TColon; TLit 3; TRpar; TOp (B Add); TLit 4; TColon] = Done (Some (Bin (B Add) (Cond (Lit 1) (Lit 2) (Lit 3)) (Lit 4))) [TColon] false.
Proof. vm_compute. reflexivity. Qed.

(** * C120: tokens that are no expression get an error message *)
(** If parsing returns without a message and takes all tokens, they are an expression. *)
Theorem C120_message_partial ts v rest err : parse_expr ts = Done v rest err -> (forall e, lvalues e = true -> ~ derives true expression ts e) -> (forall e, v = Some e -> lvalues e = true) ->
  err = true \/ rest <> [].
Proof. exact (parse_message ts v rest err). Qed.
(** But where an operand is missing, parsing dereferences NULL: [1 + ;]. *)
Theorem C120_message_refuted : exists ts, parse_expr ts = Crash.
Proof. exists [TLit 1; TOp (B Add); TOther 0]. vm_compute. reflexivity. Qed.
Print Assumptions C120_message_partial.
Print Assumptions C120_message_refuted.
(** [f(1 2)] and [+;]: the first gets a message, the second ends in a crash; [;] alone gets a message. *)
Example C120_some : (exists v, parse_expr [TId 1; TLpar; TLit 1; TLit 2; TRpar] = Done v [TLit 2; TRpar] true) /\ parse_expr [TOp (B Add); TOther 0] = Crash /\ parse_expr [TOther 0] = Done None [TOther 0] true.
Proof. split; [eexists; vm_compute; reflexivity|]. split; vm_compute; reflexivity. Qed.
