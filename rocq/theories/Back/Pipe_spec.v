(** When the lists of predecessors are still right after copies are propagated. *)
From stdpp Require Import base list numbers.
From Verif Require Import Back.Unused_model Back.Ssa_spec Back.Unphi_model Back.Unphi_spec.
Local Open Scope nat_scope.

(** The jumps at the ends of blocks still lead to the same blocks: none was removed, none is taken always now. *)
Definition kept {K C} (bs bs' : list (blk K (jmp C))) : Prop := forall b x y, bs !! b = Some x -> bs' !! b = Some y ->
  match exit x, exit y with
  | None, None => True
  | Some (j, _), Some (j', _) => ends j' = ends j
  | _, _ => False
  end.
(** Registers have numbers below [nv]. *)
Definition numbered {K J} (nv : nat) (bs : list (blk K J)) : Prop := forall b x v, bs !! b = Some x -> v ∈ names x -> v < nv.
