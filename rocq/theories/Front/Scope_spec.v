(** Lexical scoping, from the history of declarations alone. *)
From stdpp Require Import base list numbers gmap.
From Verif Require Import Front.Scope_model.
Open Scope nat_scope.

(** What happened, oldest first: scopes opened inside scope [p], and declarations. *)
Inductive event :=
| Open (p : nat)
| DeclVar (s : nat) (v : varinfo)
| DeclStruct (s n info : nat)
| DeclTypedef (s n t : nat)
| DeclEnum (s n t : nat).

(** Running the operations; None when one of them fails an assertion. *)
Definition step (st : state) (e : event) : option state :=
  match e with
  | Open p => fst <$> new_scope st p
  | DeclVar s v => scope_add st s v
  | DeclStruct s n i => define_struct st s n i
  | DeclTypedef s n t => fst <$> add_typedef st s n t
  | DeclEnum s n t => define_enum st s n t
  end.
Fixpoint run (st : state) (es : list event) : option state :=
  match es with
  | [] => Some st
  | e :: es => match step st e with Some st => run st es | None => None end
  end.

(** The scope around scope [s]: the (s-1)-th one opened says so. *)
Definition opened (es : list event) : list nat := omap (fun e => match e with Open p => Some p | _ => None end) es.
Definition around (es : list event) (s : nat) : option nat :=
  match s with 0 => None | S s => opened es !! s end.

(** The declarations of [n] in scope [s], oldest first. *)
Definition var_decls (es : list event) (s n : nat) : list varinfo :=
  omap (fun e => match e with DeclVar s' v => if bool_decide (s' = s /\ v_ident v = n) then Some v else None | _ => None end) es.
Definition struct_decls (es : list event) (s n : nat) : list nat :=
  omap (fun e => match e with DeclStruct s' n' i => if bool_decide (s' = s /\ n' = n) then Some i else None | _ => None end) es.
Definition typedef_decls (es : list event) (s n : nat) : list nat :=
  omap (fun e => match e with DeclTypedef s' n' i => if bool_decide (s' = s /\ n' = n) then Some i else None | _ => None end) es.
Definition enum_decls (es : list event) (s n : nat) : list nat :=
  omap (fun e => match e with DeclEnum s' n' i => if bool_decide (s' = s /\ n' = n) then Some i else None | _ => None end) es.

(** Among several declarations of a variable the first that is not extern counts, or else the
    last one. *)
Fixpoint effective (vs : list varinfo) : option varinfo :=
  match vs with
  | [] => None
  | v :: vs => match effective vs with
               | Some v' => Some (if vs_extern (v_storage v) then v' else v)
               | None => Some v
               end
  end.

(** The innermost scope, from [s] outwards, for which [P] holds. *)
Inductive innermost (es : list event) (P : nat -> Prop) : nat -> nat -> Prop :=
| in_here s : P s -> innermost es P s s
| in_outer s p s' : ~ P s -> around es s = Some p -> innermost es P p s' -> innermost es P s s'.
(** No scope from [s] outwards. *)
Inductive nowhere (es : list event) (P : nat -> Prop) : nat -> Prop :=
| no_outermost s : ~ P s -> around es s = None -> nowhere es P s
| no_outer s p : ~ P s -> around es s = Some p -> nowhere es P p -> nowhere es P s.

Definition scope_count (es : list event) : nat := S (length (opened es)).
Definition declares_var (es : list event) (n s : nat) : Prop := var_decls es s n <> [].
Definition declares_struct (es : list event) (n s : nat) : Prop := struct_decls es s n <> [].
Definition declares_enum (es : list event) (n s : nat) : Prop := enum_decls es s n <> [].
(** Variables and typedef names share one name space. *)
Definition declares_ordinary (es : list event) (n s : nat) : Prop := var_decls es s n <> [] \/ typedef_decls es s n <> [].

(** The VarInfo found, with its scope. *)
Definition found_var (st : state) (s n : nat) : option (nat * varinfo) :=
  match scope_find (enough st) st s n with
  | Some (Some i, s') => match scopes st !! s' with Some sc => (fun v => (s', v)) <$> vars sc !! i | None => None end
  | _ => None
  end.

(** Scope [x] is [s] or around it. *)
Inductive encloses (es : list event) (x : nat) : nat -> Prop :=
| enc_self : encloses es x x
| enc_outer s p : around es s = Some p -> encloses es x p -> encloses es x s.

(** The events that may change what [n] means in [s] when it is declared in [s0]. *)
Definition matters (es : list event) (e : event) (s n s0 : nat) : Prop :=
  match e with DeclVar s' v => v_ident v = n /\ encloses es s' s /\ encloses es s0 s' | _ => False end.
