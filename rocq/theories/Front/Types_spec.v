(** Compatible types, as the C standard defines them (6.2.7, 6.7.3, 6.7.6, with the return
    type of a function taken without qualifiers). *)
From stdpp Require Import base list numbers.
From Verif Require Import Front.Layout_model Front.Types_model.
Open Scope Z_scope.

Definition unqualified (t : ty) : ty :=
  match t with
  | TVoid _ => TVoid noq | TFixnum _ k u e => TFixnum noq k u e | TFlonum _ k => TFlonum noq k
  | TPtr _ t => TPtr noq t | TArray _ t l => TArray noq t l | TFunc _ r ps v => TFunc noq r ps v
  | TStruct _ n i => TStruct noq n i
  end.

Section spec.
  (** The declaration a struct tag stands for, where a type names it before its definition. *)
  Context (tag : nat -> nat).

  Definition declaration (n i : option nat) : option nat :=
    match i with Some i => Some i | None => tag <$> n end.

  (** Default argument promotions do not change the type: it may be passed without a prototype. *)
  Definition self_promoting (t : ty) : Prop :=
    match t with
    | TFixnum _ k _ _ => k <> FX_CHAR /\ k <> FX_SHORT /\ k <> FX_BOOL
    | TFlonum _ k => k <> FL_FLOAT
    | _ => True
    end.

  Inductive compatible : ty -> ty -> Prop :=
  | c_void q : compatible (TVoid q) (TVoid q)
  | c_fixnum q k u e : compatible (TFixnum q k u e) (TFixnum q k u e)
  | c_flonum q k : compatible (TFlonum q k) (TFlonum q k)
  | c_ptr q t t' : compatible t t' -> compatible (TPtr q t) (TPtr q t')
  | c_array q t t' l l' : compatible t t' -> l = l' \/ l < 0 \/ l' < 0 -> compatible (TArray q t l) (TArray q t' l')
  | c_func q r r' ps ps' v : compatible (unqualified r) (unqualified r') ->
      Forall2 (fun p p' => compatible (unqualified p) (unqualified p')) ps ps' ->
      compatible (TFunc q r (Some ps) v) (TFunc q r' (Some ps') v)
  | c_func_old q r r' v : compatible (unqualified r) (unqualified r') -> compatible (TFunc q r None v) (TFunc q r' None v)
  | c_func_new_old q r r' ps v : compatible (unqualified r) (unqualified r') -> Forall self_promoting ps ->
      compatible (TFunc q r (Some ps) false) (TFunc q r' None v)
  | c_func_old_new q r r' ps v : compatible (unqualified r) (unqualified r') -> Forall self_promoting ps ->
      compatible (TFunc q r None v) (TFunc q r' (Some ps) false)
  | c_struct q n n' i i' s : declaration n i = Some s -> declaration n' i' = Some s ->
      compatible (TStruct q n i) (TStruct q n' i').

  (** A property of every type a type is made of. *)
  Fixpoint everywhere (P : ty -> Prop) (t : ty) : Prop :=
    P t /\
    match t with
    | TPtr _ t | TArray _ t _ => everywhere P t
    | TFunc _ r ps _ =>
      everywhere P r /\
      match ps with
      | None => True
      | Some ps => (fix all (l : list ty) : Prop := match l with [] => True | p :: l => everywhere P p /\ all l end) ps
      end
    | _ => True
    end.

  (** A struct type has a tag or a definition. *)
  Definition named (t : ty) : Prop :=
    match t with TStruct _ None None => False | _ => True end.
  (** One declaration for each struct tag, and none for untagged structs. *)
  Definition one_declaration (t : ty) : Prop :=
    match t with
    | TStruct _ (Some n) (Some i) => i = tag n
    | TStruct _ None (Some i) => forall n, i <> tag n
    | TStruct _ None None => False
    | _ => True
    end.
  Definition prototyped (t : ty) : Prop :=
    match t with TFunc _ _ ps _ => ps <> None | _ => True end.
  Definition known_length (t : ty) : Prop :=
    match t with TArray _ _ l => 0 <= l | _ => True end.

  (** The types on which qualifiers and enumerations cannot be confused: no volatile or
      restrict, no enumeration, and no const inside the parameters and results of functions. *)
  Definition only_const (t : ty) : Prop := q_volatile (qual_of t) = false /\ q_restrict (qual_of t) = false.
  Definition no_enum (t : ty) : Prop :=
    match t with TFixnum _ k _ e => k <> FX_ENUM /\ e = None | _ => True end.
  Definition no_const (t : ty) : Prop := is_const t = false.
  Definition plain_signature (t : ty) : Prop :=
    match t with
    | TFunc _ r ps _ =>
      everywhere no_const (unqualified r) /\
      match ps with None => False | Some ps => Forall (fun p => everywhere no_const (unqualified p)) ps end
    | _ => True
    end.
  Definition plain (t : ty) : Prop :=
    everywhere only_const t /\ everywhere no_enum t /\ everywhere plain_signature t /\ everywhere one_declaration t.
End spec.

(** 6.5.1.1: the association chosen by _Generic for a controlling expression of type [t],
    None for the default. *)
Definition selects (tag : nat -> nat) (ts : list ty) (t : ty) (r : option nat) : Prop :=
  match r with
  | Some i => exists t', ts !! i = Some t' /\ compatible tag t' t
  | None => Forall (fun t' => ~ compatible tag t' t) ts
  end.

(** 6.5.4: what an explicit cast between scalar types, or to void, may do; arrays and
    functions are pointers by then. *)
Definition scalar (t : ty) : Prop :=
  match t with TFixnum _ _ _ _ | TFlonum _ _ | TPtr _ _ => True | _ => False end.
Definition decayed (t : ty) : ty :=
  match t with TArray _ t _ => TPtr noq t | TFunc _ _ _ _ => TPtr noq t | _ => t end.
Definition cast_allowed (dst src : ty) : Prop :=
  match dst, src with
  | TVoid _, _ => True
  | TPtr _ _, TFlonum _ _ | TFlonum _ _, TPtr _ _ => False
  | _, _ => scalar dst /\ scalar src
  end.

(** 6.5.16.1: what an assignment converts by itself, pointers to pointers left aside; [zero]: the
    value is a null pointer constant. *)
Definition pointer (t : ty) : Prop := match t with TPtr _ _ => True | _ => False end.
Definition implicit_allowed (dst src : ty) (zero : bool) : Prop :=
  match dst, src with
  | TFixnum _ _ _ _, TFixnum _ _ _ _ | TFixnum _ _ _ _, TFlonum _ _ | TFlonum _ _, TFixnum _ _ _ _ | TFlonum _ _, TFlonum _ _ => True
  | TPtr _ _, TFixnum _ _ _ _ => zero = true
  | TFixnum _ k _ _, TPtr _ _ => k = FX_BOOL
  | _, _ => False
  end.
