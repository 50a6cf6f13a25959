(** Falling off the end of a function: src/cc/frontend/fe_misc.c:1804-1845, 1890-2029, called at parser.c:890.
    Left out: the warnings about unreachable statements, the bit REACH_RETURN, which is set and never read, and the texts of messages.
    A loop or switch is known by a number, as by its address in the source; a condition only by whether it is a constant. *)
From stdpp Require Import base numbers list gmap.

(** ast.c:44-70 is_const_truthy, is_const_falsy, or neither *)
Inductive cond := CTrue | CFalse | CAny.
(** ast.h:385-449 struct Stmt.  [Plain]: an empty statement, an expression or a declaration.  [Noreturn]: an expression that is a call of a function
    declared with noreturn.  The value of a return is told only if it is a constant.  A block has no missing statements in it (C127). *)
Inductive stmt :=
| Plain | Asm | Noreturn | Return (v : option Z) | Block (l : list stmt)
| If (c : cond) (s : stmt) (t : option stmt) | Switch (i : nat) (default : bool) (s : stmt)
| While (i : nat) (c : cond) (s : stmt) | DoWhile (i : nat) (s : stmt) (c : cond) | For (i : nat) (c : option cond) (s : stmt)
| Break (i : nat) | Continue (i : nat) | Goto (x : nat) | Label (x : nat) (s : stmt) | Case (i : nat) (s : stmt).
Definition truthy (c : cond) : bool := match c with CTrue => true | _ => false end.
Definition falsy (c : cond) : bool := match c with CFalse => true | _ => false end.
Definition labelled (s : stmt) : bool := match s with Label _ _ | Case _ _ => true | _ => false end.
(** Set REACH_STOP in the statement [i], if [b]. *)
Definition set_if (b : bool) (i : nat) (st : gset nat) : gset nat := if b then {[i]} ∪ st else st.

(** fe_misc.c:1890-1983 check_reachability_stmt.  The result is the bit REACH_STOP of the statement; [st] are the loops and switches that have it. *)
Fixpoint check_stmt (s : stmt) (st : gset nat) : bool * gset nat :=
  match s with
  | Plain | Asm => (false, st)
  | Noreturn => (true, st)
  | Return _ => (true, st)
  | Block l =>
    (* 1804-1845 check_reachability_stmts *)
    (fix go (reach : bool) (l : list stmt) (st : gset nat) : bool * gset nat :=
       match l with
       | [] => (reach, st)
       | s :: l => if reach && negb (labelled s) then go reach l st else let '(r, st) := check_stmt s st in go r l st
       end) false l st
  | If c s t =>
    let '(r, st) := check_stmt s st in
    let '(r', st) := match t with Some t => check_stmt t st | None => (false, st) end in
    (if truthy c then r else if falsy c then r' else r && r', st)
  | Switch i default s =>
    let '(r, st) := check_stmt s (set_if default i (st ∖ {[i]})) in (bool_decide (i ∈ st) && r, if r then st else st ∖ {[i]})
  | While i c s =>
    let st := set_if (truthy c) i st in
    let st := if falsy c then st else (check_stmt s st).2 in (bool_decide (i ∈ st), st)
  | DoWhile i s c => let st := (check_stmt s (set_if (truthy c) i st)).2 in (bool_decide (i ∈ st), st)
  | For i c s =>
    let st := if match c with Some c => falsy c | None => false end then st else (check_stmt s (set_if match c with Some c => truthy c | None => true end i st)).2 in
    (bool_decide (i ∈ st), st)
  | Break i => (true, st ∖ {[i]})
  | Continue _ | Goto _ => (true, st)
  | Label _ s | Case _ s => check_stmt s st
  end.
(** What a function returns. *)
Inductive ret := RVoid | RInt | ROther.
Global Instance ret_eq : EqDecision ret. Proof. solve_decision. Defined.
Record func := Func { is_main : bool; rettype : ret; noreturn : bool; body : list stmt }.
Inductive warning := ShouldNotReturnValue | ShouldNotReturn | MainShouldBeInt | ReturnRequired.
Definition ends_with_asm (l : list stmt) : bool := match last l with Some Asm => true | _ => false end.
(** 1985-2024 check_func_return, 2026-2029 check_func_reachability.  New statements have no bits (ast.c:219). *)
Definition check_func (f : func) : func * list warning :=
  let stop := (check_stmt (Block (body f)) ∅).1 in
  let f := if is_main f && bool_decide (rettype f = RVoid) then Func (is_main f) RInt (noreturn f) (body f) else f in
  if noreturn f then
    if bool_decide (rettype f <> RVoid) then (f, [ShouldNotReturnValue])
    else if negb stop && negb (ends_with_asm (body f)) then (f, [ShouldNotReturn]) else (f, [])
  else if bool_decide (rettype f <> RVoid) && negb stop && negb (ends_with_asm (body f)) then
    if is_main f then
      if bool_decide (rettype f <> RInt) then (f, [MainShouldBeInt]) else (Func (is_main f) (rettype f) (noreturn f) (body f ++ [Return (Some 0%Z)]), [])
    else (f, [ReturnRequired])
  else (f, []).
