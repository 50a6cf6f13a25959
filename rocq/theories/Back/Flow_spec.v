(** Control flow between basic blocks and liveness of registers. *)
From stdpp Require Import base list numbers.
From Verif Require Import Back.Flow_model.
Open Scope nat_scope.

(** From block [a] control can pass to block [b]. *)
Definition edge (bbs : list bb) (a b : nat) : Prop :=
  exists x, bbs !! a = Some x /\ b < length bbs /\
  match last x with
  | Falls => b = S a
  | Jump t => b = t
  | CJump t => b = t \/ b = S a
  | Table ts => b ∈ ts
  end.
Inductive reach (bbs : list bb) : nat -> Prop :=
| reach_0 : 0 < length bbs -> reach bbs 0
| reach_step a b : reach bbs a -> edge bbs a b -> reach bbs b.
(** All jumps are to blocks. *)
Definition wf (bbs : list bb) : Prop :=
  forall a x, bbs !! a = Some x ->
  match last x with
  | Falls => True
  | Jump t | CJump t => t < length bbs
  | Table ts => forall t, t ∈ ts -> t < length bbs
  end.

(** The instructions read [r] before any of them assigns it. *)
Definition reads_first (l : list ir) (r : nat) : Prop :=
  exists pre i post, l = pre ++ i :: post /\ r ∈ oprs i /\ forall j, j ∈ pre -> odst j <> Some r.
Definition assigns (l : list ir) (r : nat) : Prop := exists i, i ∈ l /\ odst i = Some r.
(** [r] is live at the start of block [a]: some path from there reads it before assigning it. *)
Inductive live (bbs : list bb) (r : nat) : nat -> Prop :=
| live_here a x : bbs !! a = Some x -> reads_first (irs x) r -> live bbs r a
| live_later a b x : bbs !! a = Some x -> ~ assigns (irs x) r -> edge bbs a b -> live bbs r b -> live bbs r a.
Definition live_out (bbs : list bb) (r : nat) (a : nat) : Prop := exists b, edge bbs a b /\ live bbs r b.
