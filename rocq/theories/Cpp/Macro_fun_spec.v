(** Function-like macros by the standard (C11 6.10.3, 6.10.3.1-3). *)
From stdpp Require Import base list numbers gmap.
From Verif Require Import Cpp.Macro_model Cpp.Macro_spec.
Open Scope Z_scope.

(** ** Invocations *)

(** Text between parentheses: balanced. *)
Inductive nested : list (bool * tok) -> Prop :=
| N_nil : nested []
| N_tok t ts : knd t.2 <> KLpar -> knd t.2 <> KRpar -> nested ts -> nested (t :: ts)
| N_paren l inner r ts : knd l.2 = KLpar -> knd r.2 = KRpar -> nested inner -> nested ts ->
    nested ([l] ++ inner ++ [r] ++ ts).
(** One argument: balanced, no comma outside parentheses. *)
Inductive argument : list (bool * tok) -> Prop :=
| A_nil : argument []
| A_tok t ts : knd t.2 <> KLpar -> knd t.2 <> KRpar -> knd t.2 <> KComma -> argument ts -> argument (t :: ts)
| A_paren l inner r ts : knd l.2 = KLpar -> knd r.2 = KRpar -> nested inner -> argument ts ->
    argument ([l] ++ inner ++ [r] ++ ts).

(** Arguments after the first, each with the comma before it. *)
Definition more : Type := list ((bool * tok) * list (bool * tok)).
Definition more_ok (l : more) : Prop := Forall (fun cp : (bool * tok) * list (bool * tok) => knd cp.1.2 = KComma /\ argument cp.2) l.
Definition more_text (l : more) : list (bool * tok) := concat ((fun cp : (bool * tok) * list (bool * tok) => cp.1 :: cp.2) <$> l).

(** The tokens of an argument: white space between tokens is a space token; none
    at the start. *)
Fixpoint no_leading_space (ts : list tok) : list tok :=
  match ts with
  | t :: ts' => if decide (knd t = KSpace) then no_leading_space ts' else ts
  | [] => []
  end.
Definition contents (p : list (bool * tok)) : list tok :=
  no_leading_space (concat ((fun a : bool * tok => if a.1 then [Tok 0 KSpace [32]; a.2] else [a.2]) <$> p)).

(** ** Replacement *)

(** 6.10.3.2: the spelling, with a backslash before the double quotes and backslashes of literals. *)
Definition is_literal (t : shape) : bool :=
  match t.1 with KStr => true | _ => match t.2 with 39 :: _ => true | _ => false end end.
Definition spell (t : shape) : str :=
  if is_literal t
  then concat ((fun c => if bool_decide (c = 34 \/ c = 92) then [92; c] else [c]) <$> t.2)
  else t.2.
Definition stringized (arg : list shape) : shape :=
  (KStr, [34] ++ concat (spell <$> arg) ++ [34]).

(** 6.10.3.3: the last token of the left operand and the first of the right one
    become one; an empty operand leaves the other. *)
Fixpoint join (l r : list shape) : list shape :=
  match l, r with
  | [], _ => r
  | _, [] => l
  | [x], y :: r' => (KIdent, x.2 ++ y.2) :: r'
  | x :: l', _ => x :: join l' r
  end.

Inductive item := Cat | Group (l : list shape).

Definition printable (c : Z) : Prop := 32 <= c < 127.
(** Plain ASCII text with no stray quote or backslash outside literals. *)
Definition plain (t : shape) : Prop :=
  Forall printable t.2 /\ (is_literal t = false -> 34 ∉ t.2 /\ 92 ∉ t.2).

Section replace.
  Context (params : list str) (raw full : list (list shape)).

  Fixpoint position (x : str) (l : list str) : option nat :=
    match l with
    | [] => None
    | y :: l => if decide (x = y) then Some O else S <$> position x l
    end.
  Definition par (t : shape) : option nat :=
    match t.1 with KIdent => position t.2 params | _ => None end.

  Definition next_is_cat (body : list shape) : bool :=
    match body with (KCat, _) :: _ => true | _ => false end.

  (** Parameters replaced: by the argument itself next to ##, stringized after #,
      otherwise by the argument fully expanded. *)
  Fixpoint items (after_cat : bool) (body : list shape) : list item :=
    match body with
    | [] => []
    | t :: rest =>
      match t.1 with
      | KCat => Cat :: items true rest
      | KHash =>
        match rest with
        | p :: rest' =>
          match par p with
          | Some j => Group [stringized (raw !!! j)] :: items false rest'
          | None => Group [t] :: items false rest
          end
        | [] => [Group [t]]
        end
      | _ =>
        match par t with
        | Some j => Group (if after_cat || next_is_cat rest then raw !!! j else full !!! j) :: items false rest
        | None => Group [t] :: items false rest
        end
      end
    end.

  (** No argument next to ## is empty. *)
  Fixpoint cat_args_nonempty (after_cat : bool) (body : list shape) : Prop :=
    match body with
    | [] => True
    | t :: rest =>
      match par t with
      | Some j => (after_cat || next_is_cat rest = true -> raw !!! j <> []) /\ cat_args_nonempty false rest
      | None => cat_args_nonempty (bool_decide (t.1 = KCat)) rest
      end
    end.

  (** The arguments # is applied to are plain. *)
  Fixpoint hashed_plain (body : list shape) : Prop :=
    match body with
    | [] => True
    | t :: rest =>
      (t.1 = KHash -> forall p rest' j, rest = p :: rest' -> par p = Some j -> Forall plain (raw !!! j)) /\
      hashed_plain rest
    end.

  (** ## carried out from left to right. *)
  Fixpoint paste (l : list shape) (its : list item) : list shape :=
    match its with
    | [] => l
    | Cat :: Group r :: its => paste (join l r) its
    | Cat :: its => paste l its
    | Group r :: its => l ++ paste r its
    end.

  Definition replaced (body : list shape) : list shape := paste [] (items false body).
End replace.

(** ** Bodies and arguments the theorem is about *)

(** ## is not first, last or doubled, and is not followed by #. *)
Fixpoint cats_ok (after_cat : bool) (body : list shape) : Prop :=
  match body with
  | [] => after_cat = false
  | t :: rest =>
    match t.1 with
    | KCat => after_cat = false /\ cats_ok true rest
    | KHash => after_cat = false /\ cats_ok false rest
    | _ => cats_ok false rest
    end
  end.
Definition body_ok (body : list shape) : Prop := next_is_cat body = false /\ cats_ok false body.


(** Not the name of a macro. *)
Definition no_macro (table : gmap str macro) (t : shape) : Prop := t.1 = KIdent -> table !! t.2 = None.
