(** src/cc/frontend/var.c: scopes and name lookup, and the callers in parser.c, parser_type.c
    and fe_misc.c that declare typedef names and tags.
    Simplifications: names and types are numbers; a Scope pointer is its index in the order of
    creation (0 the global scope) and a VarInfo pointer its scope and its index in the vector
    of that scope; tables are finite maps (C01); a vector or table not yet allocated is empty;
    of the storage flags only VS_EXTERN is looked at, so the others are one number; the list of
    static variables, which is not searched by name, is left out. A failed assertion is None. *)
From stdpp Require Import base list numbers gmap.
Open Scope nat_scope.

Record storage := Storage { vs_extern : bool; vs_other : nat }.
Record varinfo := VarInfo { v_ident : nat; v_type : nat; v_storage : storage }.
(** var.h:78-84. *)
Record scope := Scope {
  parent : option nat; vars : list varinfo;
  struct_table : gmap nat nat; typedef_table : gmap nat nat; enum_table : gmap nat nat }.
(** [gvars] is global_var_table: the index in the vector of the global scope. *)
Record state := State { scopes : list scope; gvars : gmap nat nat }.

(** var.c:15-22. *)
Fixpoint var_find (vs : list varinfo) (n : nat) : option nat :=
  match vs with
  | [] => None
  | v :: vs => if Nat.eqb (v_ident v) n then Some 0 else S <$> var_find vs n
  end.
(** var.c:24-32. *)
Definition var_add (vs : list varinfo) (v : varinfo) : option (list varinfo) :=
  match var_find vs (v_ident v) with Some _ => None | None => Some (vs ++ [v]) end.

(** var.c:39-43. *)
Definition init_global : state := State [Scope None [] ∅ ∅ ∅] ∅.
(** var.c:69-74; the parent is a scope that exists. *)
Definition new_scope (st : state) (p : nat) : option (state * nat) :=
  match scopes st !! p with
  | None => None
  | Some _ => Some (State (scopes st ++ [Scope (Some p) [] ∅ ∅ ∅]) (gvars st), length (scopes st))
  end.

Definition set_vars (sc : scope) (vs : list varinfo) : scope :=
  Scope (parent sc) vs (struct_table sc) (typedef_table sc) (enum_table sc).
Definition set_scope (st : state) (s : nat) (sc : scope) : state := State (<[s := sc]> (scopes st)) (gvars st).

(** var.c:45-65. *)
Definition define_global (st : state) (s : nat) (sc : scope) (v : varinfo) : option state :=
  match gvars st !! v_ident v with
  | Some i =>
    match vars sc !! i with
    | None => None
    | Some old =>
      if negb (vs_extern (v_storage old)) then if vs_extern (v_storage v) then Some st else None
      else Some (set_scope st s (set_vars sc (<[i := v]> (vars sc))))
    end
  | None =>
    match var_add (vars sc) v with
    | None => None
    | Some vs => Some (State (<[s := set_vars sc vs]> (scopes st)) (<[v_ident v := length (vars sc)]> (gvars st)))
    end
  end.
(** var.c:102-117. *)
Definition scope_add (st : state) (s : nat) (v : varinfo) : option state :=
  match scopes st !! s with
  | None => None
  | Some sc =>
    match parent sc with
    | None => define_global st s sc v
    | Some _ =>
      match var_add (vars sc) v with
      | None => None
      | Some vs => Some (set_scope st s (set_vars sc vs))
      end
    end
  end.

(** var.c:81-100: the VarInfo, as scope and index, if any, and the scope the search ended in.
    One unit of [fuel] for each scope on the way. *)
Fixpoint scope_find (fuel : nat) (st : state) (s n : nat) : option (option nat * nat) :=
  match fuel, scopes st !! s with
  | S fuel, Some sc =>
    match parent sc with
    | None => Some (gvars st !! n, s)
    | Some p =>
      match var_find (vars sc) n with
      | Some i => Some (Some i, s)
      | None => scope_find fuel st p n
      end
    end
  | _, _ => None
  end.

(** var.c:119-131; [pscope] is only set when the tag is found. *)
Fixpoint find_struct (fuel : nat) (st : state) (s n : nat) : option (option (nat * nat)) :=
  match fuel, scopes st !! s with
  | S fuel, Some sc =>
    match struct_table sc !! n with
    | Some i => Some (Some (i, s))
    | None => match parent sc with None => Some None | Some p => find_struct fuel st p n end
    end
  | _, _ => None
  end.
(** var.c:133-137. *)
Definition define_struct (st : state) (s n info : nat) : option state :=
  match scopes st !! s with
  | None => None
  | Some sc => Some (set_scope st s (Scope (parent sc) (vars sc) (<[n := info]> (struct_table sc)) (typedef_table sc) (enum_table sc)))
  end.

(** var.c:139-153. *)
Fixpoint find_typedef (fuel : nat) (st : state) (s n : nat) : option (option (nat * nat)) :=
  match fuel, scopes st !! s with
  | S fuel, Some sc =>
    match typedef_table sc !! n with
    | Some t => Some (Some (t, s))
    | None =>
      match var_find (vars sc) n with
      | Some _ => Some None
      | None => match parent sc with None => Some None | Some p => find_typedef fuel st p n end
      end
    end
  | _, _ => None
  end.
(** var.c:155-164. *)
Definition add_typedef (st : state) (s n t : nat) : option (state * bool) :=
  match scopes st !! s with
  | None => None
  | Some sc =>
    match typedef_table sc !! n with
    | Some _ => Some (st, false)
    | None => Some (set_scope st s (Scope (parent sc) (vars sc) (struct_table sc) (<[n := t]> (typedef_table sc)) (enum_table sc)), true)
    end
  end.

(** var.c:166-175. *)
Fixpoint find_enum (fuel : nat) (st : state) (s n : nat) : option (option nat) :=
  match fuel, scopes st !! s with
  | S fuel, Some sc =>
    match enum_table sc !! n with
    | Some t => Some (Some t)
    | None => match parent sc with None => Some None | Some p => find_enum fuel st p n end
    end
  | _, _ => None
  end.
(** var.c:177-185, for an enumeration with a tag. *)
Definition define_enum (st : state) (s n t : nat) : option state :=
  match scopes st !! s with
  | None => None
  | Some sc => Some (set_scope st s (Scope (parent sc) (vars sc) (struct_table sc) (typedef_table sc) (<[n := t]> (enum_table sc))))
  end.

(** Fuel for any search from [s]. *)
Definition enough (st : state) : nat := length (scopes st).

Inductive outcome := Declared | Rejected.

(** parser.c:148-168 def_type. [same] is same_type; [complete] says that the type is a struct
    with its definition. The arrays of line 162 are left out. *)
Definition def_type (same : nat -> nat -> bool) (st : state) (cur n t : nat) (complete : bool) : option (state * outcome) :=
  match find_typedef (enough st) st cur n with
  | None => None
  | Some defined =>
    let add o := if match defined with None => true | Some _ => complete end
      then match add_typedef st cur n t with Some (st', _) => Some (st', o) | None => None end else Some (st, o) in
    match defined with
    | Some (t', s) => if Nat.eqb s cur then if same t t' then Some (st, Declared) else add Rejected
                      else match scope_find (enough st) st cur n with
                           | None => None
                           | Some (Some _, s') => if Nat.eqb s' cur then Some (st, Rejected) else add Declared
                           | Some (None, _) => add Declared
                           end
    | None => match scope_find (enough st) st cur n with
              | None => None
              | Some (Some _, s') => if Nat.eqb s' cur then Some (st, Rejected) else add Declared
              | Some (None, _) => add Declared
              end
    end
  end.

(** parser_type.c:47-60 parse_enum with a tag and a list of members: the start. *)
Definition enum_definition (st : state) (cur n t : nat) : option (state * outcome) :=
  match find_enum (enough st) st cur n with
  | None => None
  | Some (Some _) => Some (st, Rejected)
  | Some None => match define_enum st cur n t with Some st' => Some (st', Declared) | None => None end
  end.
(** parser_type.c:31-35 and fe_misc.c:161-171, 187-190: an enumeration constant; [v] carries
    its name. The global scope has index 0. *)
Definition enum_member (st : state) (cur : nat) (v : varinfo) : option (state * outcome) :=
  match scope_find (enough st) st 0 (v_ident v) with
  | None => None
  | Some (Some _, _) => Some (st, Rejected)
  | Some (None, _) => match scope_add st cur v with Some st' => Some (st', Declared) | None => None end
  end.
(** fe_misc.c:242-252, the start of ensure_struct: the definition a struct type without one
    gets when it is first used, in the scope of that use. *)
Definition ensure_struct (st : state) (cur : nat) (name : nat) (info : option nat) : option (option nat) :=
  match info with
  | Some i => Some (Some i)
  | None => match find_struct (enough st) st cur name with
            | None => None
            | Some r => Some (fst <$> r)
            end
  end.
