(** src/cc/frontend/fe_misc.c:543-609 propagate_var_used: which globals are used.
    Simplifications: a VarInfo is a number, its fields are given by a function; names are
    numbers; the tables are finite sets of names and a finite map (C01); the warnings at the
    end are the list of VarInfos warned about. *)
From stdpp Require Import base list numbers gmap.
Open Scope nat_scope.

Record global := Global {
  g_name : nat;
  g_func : bool;             (* type->kind == TY_FUNC *)
  g_body : bool;             (* global.func != NULL *)
  g_static : bool; g_inline : bool; g_extern : bool; g_enum_member : bool;
  g_xtor : bool;             (* has the attribute constructor or destructor *)
  g_refs : list nat }.       (* referred_globals *)

Section propagate.
  Context (info : nat -> global).

  Inductive class := Skip | Unused | Push.
  (** fe_misc.c:556-579: what the first loop does with a VarInfo. *)
  Definition classify (g : global) : class :=
    if g_func g then
      if negb (g_body g) then Skip
      else if (g_static g || (g_inline g && negb (g_extern g))) && negb (g_xtor g) then
        if negb (g_inline g) then Unused else Skip
      else Push
    else if g_static g || g_extern g || g_enum_member g then
      if g_static g then Unused else Skip
    else Push.

  (** The first loop: the vector unchecked, its last element first, and the table unused. *)
  Fixpoint collect (vars : list nat) (unchecked : list nat) (unused : gmap nat nat) : list nat * gmap nat nat :=
    match vars with
    | [] => (unchecked, unused)
    | v :: vars =>
      match classify (info v) with
      | Skip => collect vars unchecked unused
      | Unused => collect vars unchecked (<[g_name (info v) := v]> unused)
      | Push => collect vars (v :: unchecked) unused
      end
    end.

  (** fe_misc.c:582-597: [marked] are the VarInfos with VS_USED. One unit of [fuel] for each
      turn of the loop. *)
  Fixpoint propagate (fuel : nat) (unchecked : list nat) (used : gset nat) (unused : gmap nat nat) (marked : list nat)
    : option (list nat * gmap nat nat) :=
    match unchecked with
    | [] => Some (marked, unused)
    | v :: rest =>
      match fuel with
      | 0 => None
      | S fuel =>
        let n := g_name (info v) in
        if decide (n ∈ used) then propagate fuel rest used unused marked
        else propagate fuel (rev (g_refs (info v)) ++ rest) ({[n]} ∪ used) (delete n unused) (v :: marked)
      end
    end.

  (** The whole function. *)
  Definition propagate_var_used (fuel : nat) (vars : list nat) : option (list nat * gmap nat nat) :=
    let '(unchecked, unused) := collect vars [] ∅ in propagate fuel unchecked ∅ unused [].
End propagate.
