(** Statements by the standard (C11 6.8).  Shares tokens, expressions, trees and the scopes of jumps with the model. *)
From stdpp Require Import base list numbers.
From Verif Require Import Front.Pstmt_model.
Local Open Scope Z_scope.

Inductive expr_of : list tok -> expr -> Prop :=
| e_name x : expr_of [KName x] (Name x)
| e_more x k : expr_of [KName x; KMore k] (NameMore x k)
| e_expr e : expr_of [KExpr e] (Expr e)
| e_int v : expr_of [KInt v] (Int v).
Inductive opt_expr_of : list tok -> option expr -> Prop :=
| o_none : opt_expr_of [] None
| o_some ts e : expr_of ts e -> opt_expr_of ts (Some e).
(** The labels of the innermost switch (6.8.4.2p3), of the function (6.8.1p3), and the targets of its gotos (6.8.6.1p1). *)
Fixpoint cases_of (s : stmt) : list (option Z) :=
  match s with
  | Case _ v s => v :: cases_of s
  | Block l => l ≫= cases_of
  | If _ s | While _ _ s | DoWhile _ s _ | For _ _ _ _ s | ForDecl _ _ _ _ s | Label _ s => cases_of s
  | IfElse _ s t => cases_of s ++ cases_of t
  | _ => []
  end.
Fixpoint labels_of (s : stmt) : list nat :=
  match s with
  | Label x s => labels_of s ++ [x]
  | Block l => l ≫= labels_of
  | If _ s | While _ _ s | DoWhile _ s _ | For _ _ _ _ s | ForDecl _ _ _ _ s | Case _ _ s | Switch _ _ _ s => labels_of s
  | IfElse _ s t => labels_of s ++ labels_of t
  | _ => []
  end.
Fixpoint gotos_of (s : stmt) : list nat :=
  match s with
  | Goto x => [x]
  | Block l => l ≫= gotos_of
  | If _ s | While _ _ s | DoWhile _ s _ | For _ _ _ _ s | ForDecl _ _ _ _ s | Case _ _ s | Switch _ _ _ s | Label _ s => gotos_of s
  | IfElse _ s t => gotos_of s ++ gotos_of t
  | _ => []
  end.
(** The statement ends with an if without else. *)
Fixpoint open (s : stmt) : bool :=
  match s with
  | If _ _ => true
  | IfElse _ _ s | While _ _ s | For _ _ _ _ s | ForDecl _ _ _ _ s | Switch _ _ _ s | Label _ s | Case _ _ s => open s
  | _ => false
  end.
(** What a loop or switch makes the target of jumps (6.8.6.2, 6.8.6.3), and of case labels. *)
Definition loop (sc : scope) (i : nat) : scope := {| swtch := swtch sc; break_ := Some i; continu := Some i |}.
Definition switch (sc : scope) (i : nat) : scope := {| swtch := Some i; break_ := Some i; continu := continu sc |}.

(** [stmt_of sc ts s]: in the scope [sc], the tokens are the statement [s].  6.8.4.1p3: an else belongs to the nearest if. *)
Inductive stmt_of : scope -> list tok -> stmt -> Prop :=
| s_empty sc : stmt_of sc [KSemi] Empty
| s_exp sc ts e : expr_of ts e -> stmt_of sc (ts ++ [KSemi]) (Exp e)
| s_block sc ts l : items_of sc ts l -> stmt_of sc (KLbrace :: ts ++ [KRbrace]) (Block l)
| s_if sc es e ts s : expr_of es e -> stmt_of sc ts s -> stmt_of sc (KIf :: KLpar :: es ++ KRpar :: ts) (If e s)
| s_if_else sc es e ts s ts' t : expr_of es e -> stmt_of sc ts s -> open s = false -> stmt_of sc ts' t -> stmt_of sc (KIf :: KLpar :: es ++ KRpar :: ts ++ KElse :: ts') (IfElse e s t)
| s_switch sc i es e ts s : expr_of es e -> stmt_of (switch sc i) ts s -> NoDup (cases_of s) -> stmt_of sc (KSwitch i :: KLpar :: es ++ KRpar :: ts) (Switch i e (cases_of s) s)
| s_while sc i es e ts s : expr_of es e -> stmt_of (loop sc i) ts s -> stmt_of sc (KWhile i :: KLpar :: es ++ KRpar :: ts) (While i e s)
| s_do sc i j es e ts s : expr_of es e -> stmt_of (loop sc i) ts s -> stmt_of sc (KDo i :: ts ++ KWhile j :: KLpar :: es ++ [KRpar; KSemi]) (DoWhile i s e)
| s_for sc i ps p cs c qs q ts s : opt_expr_of ps p -> opt_expr_of cs c -> opt_expr_of qs q -> stmt_of (loop sc i) ts s ->
    stmt_of sc (KFor i :: KLpar :: ps ++ KSemi :: cs ++ KSemi :: qs ++ KRpar :: ts) (For i p c q s)
| s_for_decl sc i d cs c qs q ts s : opt_expr_of cs c -> opt_expr_of qs q -> stmt_of (loop sc i) ts s ->
    stmt_of sc (KFor i :: KLpar :: KDecl d :: KSemi :: cs ++ KSemi :: qs ++ KRpar :: ts) (ForDecl i d c q s)
| s_break sc i : break_ sc = Some i -> stmt_of sc [KBreak; KSemi] (Break i)
| s_continue sc i : continu sc = Some i -> stmt_of sc [KContinue; KSemi] (Continue i)
| s_goto sc x : stmt_of sc [KGoto; KName x; KSemi] (Goto x)
| s_label sc x ts s : stmt_of sc ts s -> stmt_of sc (KName x :: KColon :: ts) (Label x s)
| s_case sc i v ts s : swtch sc = Some i -> stmt_of sc ts s -> stmt_of sc (KCase :: KInt v :: KColon :: ts) (Case i (Some v) s)
| s_default sc i ts s : swtch sc = Some i -> stmt_of sc ts s -> stmt_of sc (KDefault :: KColon :: ts) (Case i None s)
| s_return sc es e : opt_expr_of es e -> stmt_of sc (KReturn :: es ++ [KSemi]) (Return e)
with items_of : scope -> list tok -> list stmt -> Prop :=
| i_nil sc : items_of sc [] []
| i_decl sc d ts l : items_of sc ts l -> items_of sc (KDecl d :: KSemi :: ts) (Decl d :: l)
| i_stmt sc ts s ts' l : stmt_of sc ts s -> items_of sc ts' l -> items_of sc (ts ++ ts') (s :: l).
(** The body of a function, without its braces.  Outside of loops and switches there is nothing to leave. *)
Definition body_of (ts : list tok) (l : list stmt) : Prop :=
  items_of {| swtch := None; break_ := None; continu := None |} ts l /\ NoDup (l ≫= labels_of) /\ Forall (fun x => x ∈ l ≫= labels_of) (l ≫= gotos_of).
(** No statement is missing. *)
Fixpoint whole (s : stmt) : Prop :=
  match s with
  | Missing => False
  | Block l => foldr (fun s p => whole s /\ p) True l
  | If _ s | While _ _ s | DoWhile _ s _ | For _ _ _ _ s | ForDecl _ _ _ _ s | Case _ _ s | Switch _ _ _ s | Label _ s => whole s
  | IfElse _ s t => whole s /\ whole t
  | _ => True
  end.
