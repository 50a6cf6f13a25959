(** What copies and the folding of constants do on a machine. *)
From stdpp Require Import base list numbers.
From Verif Require Import Back.Unused_model Back.Unused_spec Back.Ssa_spec.
From Verif Require Back.Flow_model.
Local Open Scope nat_scope.

Section Spec.
  Context {K J W : Type}.
  Context (endof : J -> Flow_model.ending).
  Implicit Types bs : list (blk K J).
  (** A copy gives its operand and does nothing else. *)
  Definition copies_as_said (M : machine K J W) (is_copy : K -> bool) : Prop := forall k, is_copy k = true ->
    seen M k = false /\ forall z w, act M k [z] w = (z, w).
  (** A folded instruction does the same and reads no other registers. *)
  Definition folds_ins (M : machine K J W) (pinned : nat -> bool) (fold_ins : ins K -> ins K) : Prop := forall i,
    dst (fold_ins i) = dst i /\ (forall v, v ∈ regs (oprs (fold_ins i)) -> v ∈ regs (oprs i)) /\
    forall s, exec M pinned (fold_ins i) s = exec M pinned i s.
  (** A folded jump leads where it led: if it is left out, to the next block. *)
  Definition folds_exit (M : machine K J W) (pinned : nat -> bool) (fold_exit : J -> list (Z + nat) -> option (J * list (Z + nat))) : Prop := forall j l,
    let to (e : option (J * list (Z + nat))) (s : state W) := match e with Some (j, l) => target M j ((fun o => rd M pinned o s) <$> l) s.2 | None => None end in
    let ends (e : option (J * list (Z + nat))) := match e with Some (j, _) => endof j | None => Flow_model.Falls end in
    (forall s, to (fold_exit j l) s = to (Some (j, l)) s) /\
    (forall v j' l', fold_exit j l = Some (j', l') -> v ∈ regs l' -> v ∈ regs l) /\
    (ends (fold_exit j l) = endof j \/
     exists t, endof j = Flow_model.CJump t /\ (ends (fold_exit j l) = Flow_model.Falls \/ ends (fold_exit j l) = Flow_model.Jump t)).
End Spec.
