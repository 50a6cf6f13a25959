(** The labels that the assembly of a function names. *)
From stdpp Require Import base list numbers.
From Verif Require Import Back.Flow_model Back.Flow_spec.
Open Scope nat_scope.

(** The blocks that the last instruction of a block names. *)
Definition named (x : bb) : list nat :=
  match last x with
  | Falls => []
  | Jump t | CJump t => [t]
  | Table ts => ts
  end.
(** No jump leads to the first block; codegen.c:895, 924 make it and no statement jumps there. *)
Definition first_free (bbs : list bb) : Prop := forall a x, bbs !! a = Some x -> 0 ∉ named x.
(** No block ends with an unconditional jump to the block that follows. *)
Definition no_jump_on (bbs : list bb) : Prop := forall a x, bbs !! a = Some x -> last x <> Jump (S a).
(** A block that control does not reach names no block. *)
Definition dead_silent (bbs : list bb) : Prop := forall a x, bbs !! a = Some x -> reach bbs a \/ named x = [].
