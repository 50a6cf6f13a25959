(** What is to be called at exit (C11 7.22.4.2, 7.22.4.4). *)
From stdpp Require Import base numbers list.
From Verif Require Import Lib.Exit_model.

(** The functions in a list of calls or registrations that belong to atexit, to
    __cxa_atexit and to the fini array. *)
Definition ats (l : list call) : list nat := omap (fun c => match c with At f => Some f | _ => None end) l.
Definition cxas (l : list call) : list (nat * nat) := omap (fun c => match c with Cxa f a => Some (f, a) | _ => None end) l.
Definition finis (l : list call) : list nat := omap (fun c => match c with Fini f => Some f | _ => None end) l.

(** All registrations before exit, in order. *)
Fixpoint by_ctors (l : list ctor) : list call :=
  match l with [] => [] | User c :: l => c ++ by_ctors l | _ :: l => by_ctors l end.
Definition before_exit (p : program) : list call := by_ctors (init_array p) ++ main p.

Definition is_RegAtexit (c : ctor) : bool := match c with RegAtexit => true | _ => false end.
Definition is_RegCxa (c : ctor) : bool := match c with RegCxa => true | _ => false end.
(** The object files with atexit and __cxa_atexit are linked once. *)
Definition linked (p : program) : Prop :=
  length (List.filter is_RegAtexit (init_array p)) = 1 /\ length (List.filter is_RegCxa (init_array p)) = 1.

(** Destructors, and the flushing of streams, come after all functions registered
    by atexit. *)
Definition fini_last (t : list call) : Prop := forall a f b, t = a ++ Fini f :: b -> ats b = [] /\ cxas b = [].
