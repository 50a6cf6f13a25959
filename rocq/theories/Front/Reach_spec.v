(** Which globals a translation unit needs. *)
From stdpp Require Import base list numbers gmap.
From Verif Require Import Front.Reach_model.
Open Scope nat_scope.

Section spec.
  Context (info : nat -> global) (vars : list nat).

  (** Definitions that other files, or the start-up code, may use. *)
  Definition visible_function (g : global) : Prop :=
    g_func g = true /\ g_body g = true /\
    (g_xtor g = true \/ g_static g = false /\ (g_inline g = true -> g_extern g = true)).
  Definition visible_variable (g : global) : Prop :=
    g_func g = false /\ g_static g = false /\ g_extern g = false /\ g_enum_member g = false.
  Definition root (v : nat) : Prop := v ∈ vars /\ (visible_function (info v) \/ visible_variable (info v)).

  Inductive reachable : nat -> Prop :=
  | r_root v : root v -> reachable v
  | r_ref v w : reachable v -> w ∈ g_refs (info v) -> reachable w.

  (** Static definitions worth a warning when nothing needs them; inline functions are not. *)
  Definition warnable (v : nat) : Prop :=
    v ∈ vars /\ let g := info v in
    g_static g = true /\ (g_func g = true -> g_body g = true /\ g_inline g = false /\ g_xtor g = false).

  (** The VarInfos there are; different ones have different names. *)
  Definition closed (all : list nat) : Prop :=
    (forall v, v ∈ vars -> v ∈ all) /\ (forall v w, v ∈ all -> w ∈ g_refs (info v) -> w ∈ all) /\
    (forall v w, v ∈ all -> w ∈ all -> g_name (info v) = g_name (info w) -> v = w).
  (** A number of turns that always suffices. *)
  Definition turns (all : list nat) : nat := length vars + sum_list ((fun v => length (g_refs (info v))) <$> all).
End spec.
