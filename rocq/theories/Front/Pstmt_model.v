(** Statements: src/cc/frontend/parser.c:29-73 and 296-685, the parser of a function's body.
    An expression is one token, or two if it begins with an identifier (C118 is about what is inside); so is a declaration (C121-C125).
    Left out: __asm, the check of what is returned, the conversion of case values (C28), and what happens after the first message:
    [Err] is that a message was given. *)
From stdpp Require Import base list numbers.
Local Open Scope Z_scope.

(** Tokens.  The number of a loop or switch tells it from others, as the address of a Token does. *)
Inductive tok :=
| KName (x : nat) | KMore (k : nat) | KExpr (e : nat) | KInt (v : Z) | KDecl (d : nat)
| KColon | KSemi | KLbrace | KRbrace | KLpar | KRpar
| KIf | KElse | KWhile (i : nat) | KDo (i : nat) | KFor (i : nat) | KSwitch (i : nat) | KBreak | KContinue | KGoto | KReturn | KCase | KDefault | KOther (n : nat).
Inductive expr := Name (x : nat) | NameMore (x k : nat) | Expr (e : nat) | Int (v : Z).
(** ast.h:385-449 struct Stmt.  [Missing]: NULL.  Break and continue have the statement they leave, a case its switch, a switch its cases (None for default).
    [ForDecl]: the block of a declaration and a loop, parser.c:488-507. *)
Inductive stmt :=
| Missing | Empty | Exp (e : expr) | Decl (d : nat) | Block (l : list stmt)
| If (e : expr) (s : stmt) | IfElse (e : expr) (s t : stmt)
| Switch (i : nat) (e : expr) (cases : list (option Z)) (s : stmt) | While (i : nat) (e : expr) (s : stmt) | DoWhile (i : nat) (s : stmt) (e : expr)
| For (i : nat) (pre cond post : option expr) (s : stmt) | ForDecl (i : nat) (d : nat) (cond post : option expr) (s : stmt)
| Break (i : nat) | Continue (i : nat) | Goto (x : nat) | Label (x : nat) (s : stmt) | Case (i : nat) (v : option Z) (s : stmt) | Return (e : option expr).
(** fe_misc.h:47-51 LoopScope *)
Record scope := Scope { swtch : option nat; break_ : option nat; continu : option nat }.
(** The cases of the innermost switch, and the labels and gotos of the function. *)
Record state := State { cases : list (option Z); labels : list nat; gotos : list nat }.
Inductive res (A : Type) := Done (a : A) (st : state) (rest : list tok) | Err | NoFuel.
Arguments Done {A}. Arguments Err {A}. Arguments NoFuel {A}.
Definition bind {A B} (r : res A) (k : A -> state -> list tok -> res B) : res B := match r with Done a st rest => k a st rest | Err => Err | NoFuel => NoFuel end.
Notation "'let*' a , st , ts := r 'in' k" := (bind r (fun a st ts => k)) (at level 200, a name, st name, ts name, r at level 100, k at level 200).

(** parser_expr.c:815-818 parse_expr *)
Definition parse_expr (st : state) (ts : list tok) : res expr :=
  match ts with
  | KName x :: KMore k :: ts => Done (NameMore x k) st ts
  | KName x :: ts => Done (Name x) st ts
  | KExpr e :: ts => Done (Expr e) st ts
  | KInt v :: ts => Done (Int v) st ts
  | _ => Err
  end.
(** parser.c:22-27 consume *)
Definition lpar (st : state) (ts : list tok) : res unit := match ts with KLpar :: ts => Done () st ts | _ => Err end.
Definition rpar (st : state) (ts : list tok) : res unit := match ts with KRpar :: ts => Done () st ts | _ => Err end.
Definition semi (st : state) (ts : list tok) : res unit := match ts with KSemi :: ts => Done () st ts | _ => Err end.
Definition colon (st : state) (ts : list tok) : res unit := match ts with KColon :: ts => Done () st ts | _ => Err end.
Definition while_ (st : state) (ts : list tok) : res unit := match ts with KWhile _ :: ts => Done () st ts | _ => Err end.
(** fe_misc.h:53-54 SAVE_LOOP_SCOPE, with parser.c:351 for a switch. *)
Definition in_loop (sc : scope) (i : nat) : scope := Scope (swtch sc) (Some i) (Some i).
Definition in_switch (sc : scope) (i : nat) : scope := Scope (Some i) (Some i) (continu sc).
(** match(TK_...) *)
Definition as_else (ts : list tok) : option (list tok) := match ts with KElse :: ts => Some ts | _ => None end.
Definition as_colon (ts : list tok) : option (list tok) := match ts with KColon :: ts => Some ts | _ => None end.
Definition as_semi (ts : list tok) : option (list tok) := match ts with KSemi :: ts => Some ts | _ => None end.
Definition as_rpar (ts : list tok) : option (list tok) := match ts with KRpar :: ts => Some ts | _ => None end.
Definition as_rbrace (ts : list tok) : option (list tok) := match ts with KRbrace :: ts => Some ts | _ => None end.
Definition as_decl (ts : list tok) : option (nat * list tok) := match ts with KDecl d :: ts => Some (d, ts) | _ => None end.
(** An expression and a bracket or semicolon, or only that: parser.c:447-484 and 544-550. *)
Definition until_semi (st : state) (ts : list tok) : res (option expr) :=
  match as_semi ts with Some ts => Done None st ts | None => let* e, st, ts := parse_expr st ts in let* u, st, ts := semi st ts in Done (Some e) st ts end.
Definition until_rpar (st : state) (ts : list tok) : res (option expr) :=
  match as_rpar ts with Some ts => Done None st ts | None => let* e, st, ts := parse_expr st ts in let* u, st, ts := rpar st ts in Done (Some e) st ts end.
(** parser.c:330-333, 343-347, 412-415 *)
Definition in_parens (st : state) (ts : list tok) : res expr := let* u, st, ts := lpar st ts in let* e, st, ts := parse_expr st ts in let* u, st, ts := rpar st ts in Done e st ts.
(** parser.c:372-400 parse_case, up to the statement. *)
Definition add_case (sc : scope) (v : option Z) (st : state) : option state :=
  match swtch sc with None => None | Some _ => if decide (v ∈ cases st) then None else Some (State (cases st ++ [v]) (labels st) (gotos st)) end.
(** parser.c:29-38 add_func_label *)
Definition add_label (x : nat) (st : state) : option state := if decide (x ∈ labels st) then None else Some (State (cases st) (labels st ++ [x]) (gotos st)).
Definition is_missing (s : stmt) : bool := match s with Missing => true | _ => false end.

(** parser.c:634-685 parse_stmt *)
Fixpoint parse_stmt (fuel : nat) (sc : scope) (st : state) (ts : list tok) {struct fuel} : res stmt :=
  match fuel with
  | O => NoFuel
  | S fuel =>
    let case v st ts :=
      let* u, st, ts := colon st ts in
      match swtch sc, add_case sc v st with
      | Some i, Some st => let* s, st, ts := parse_stmt fuel sc st ts in if is_missing s then Err else Done (Case i v s) st ts
      | _, _ => Err
      end in
    let expression ts := let* e, st, ts := parse_expr st ts in let* u, st, ts := semi st ts in Done (Exp e) st ts in
    match ts with
    | [] | KRbrace :: _ => Done Missing st ts
    (* 533-542 parse_label *)
    | KName x :: ts' =>
      match as_colon ts' with
      | Some ts => let* s, st, ts := parse_stmt fuel sc st ts in if is_missing s then Err else match add_label x st with Some st => Done (Label x s) st ts | None => Err end
      | None => expression ts
      end
    | KCase :: KInt v :: ts => case (Some v) st ts
    | KCase :: _ => Err
    | KDefault :: ts => case None st ts
    | KSemi :: ts => Done Empty st ts
    | KLbrace :: ts => let* l, st, ts := parse_stmts fuel sc st ts in Done (Block l) st ts
    (* 329-340 parse_if *)
    | KIf :: ts =>
      let* e, st, ts := in_parens st ts in
      let* s, st, ts := parse_stmt fuel sc st ts in
      match as_else ts with Some ts => let* t, st, ts := parse_stmt fuel sc st ts in Done (IfElse e s t) st ts | None => Done (If e s) st ts end
    (* 342-358 parse_switch *)
    | KSwitch i :: ts =>
      let* e, st, ts := in_parens st ts in
      let* s, st', ts := parse_stmt fuel (in_switch sc i) (State [] (labels st) (gotos st)) ts in
      Done (Switch i e (cases st') s) (State (cases st) (labels st') (gotos st')) ts
    (* 411-426 parse_while *)
    | KWhile i :: ts => let* e, st, ts := in_parens st ts in let* s, st, ts := parse_stmt fuel (in_loop sc i) st ts in Done (While i e s) st ts
    (* 428-445 parse_do_while *)
    | KDo i :: ts =>
      let* s, st, ts := parse_stmt fuel (in_loop sc i) st ts in
      let* u, st, ts := while_ st ts in let* e, st, ts := in_parens st ts in let* u, st, ts := semi st ts in Done (DoWhile i s e) st ts
    (* 447-508 parse_for *)
    | KFor i :: ts =>
      let* u, st, ts := lpar st ts in
      match as_decl ts with
      | Some (d, ts) =>
        let* u, st, ts := semi st ts in let* c, st, ts := until_semi st ts in let* p, st, ts := until_rpar st ts in
        let* s, st, ts := parse_stmt fuel (in_loop sc i) st ts in Done (ForDecl i d c p s) st ts
      | None =>
        let* e, st, ts := until_semi st ts in let* c, st, ts := until_semi st ts in let* p, st, ts := until_rpar st ts in
        let* s, st, ts := parse_stmt fuel (in_loop sc i) st ts in Done (For i e c p s) st ts
      end
    (* 510-521 parse_break_continue *)
    | KBreak :: ts => let* u, st, ts := semi st ts in match break_ sc with Some i => Done (Break i) st ts | None => Err end
    | KContinue :: ts => let* u, st, ts := semi st ts in match continu sc with Some i => Done (Continue i) st ts | None => Err end
    (* 523-531 parse_goto *)
    | KGoto :: KName x :: ts => let* u, st, ts := semi st ts in Done (Goto x) (State (cases st) (labels st) (gotos st ++ [x])) ts
    | KGoto :: _ => Err
    (* 544-572 parse_return *)
    | KReturn :: ts => let* e, st, ts := until_semi st ts in Done (Return e) st ts
    | _ => expression ts
    end
  end
(** parser.c:603-622 parse_stmts; 296-327 parse_vardecl *)
with parse_stmts (fuel : nat) (sc : scope) (st : state) (ts : list tok) {struct fuel} : res (list stmt) :=
  match fuel with
  | O => NoFuel
  | S fuel =>
    match as_decl ts with
    | Some (d, ts) => let* u, st, ts := semi st ts in let* l, st, ts := parse_stmts fuel sc st ts in Done (Decl d :: l) st ts
    | None =>
      let* s, st, ts := parse_stmt fuel sc st ts in
      if is_missing s then match as_rbrace ts with Some ts => Done [] st ts | None => Err end
      else let* l, st, ts := parse_stmts fuel sc st ts in Done (s :: l) st ts
    end
  end.
Definition fuel_for (ts : list tok) : nat := (2 * length ts + 2)%nat.
Definition no_scope : scope := Scope None None None.
Definition no_state : state := State [] [] [].
(** parser.c:820-896 parse_defun, after the opening brace, with parser.c:47-73 check_goto_labels. *)
Definition parse_body (ts : list tok) : res (list stmt) :=
  let* l, st, ts := parse_stmts (fuel_for ts) no_scope no_state ts in
  if decide (Forall (fun x => x ∈ labels st) (gotos st)) then Done l st ts else Err.
