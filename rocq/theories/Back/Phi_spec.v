(** Phis are a simultaneous assignment. *)
From stdpp Require Import base list numbers.
From Verif Require Import Back.Phi_model.

(** A sequence of moves, one after the other. *)
Definition upd (regs : nat -> Z) (d : nat) (v : Z) : nat -> Z := fun r => if r =? d then v else regs r.
Fixpoint run (moves : list (nat * nat)) (regs : nat -> Z) : nat -> Z :=
  match moves with
  | [] => regs
  | (d, s) :: moves => run moves (upd regs d (regs s))
  end.
(** Every destination gets the value its source had before. *)
Definition parallel (ps : list phi) (moves : list (nat * nat)) : Prop :=
  forall regs p, p ∈ ps -> run moves regs (dst p) = regs (src p).
(** No other register below [tmp] changes. *)
Definition frame (ps : list phi) (tmp : nat) (moves : list (nat * nat)) : Prop :=
  forall regs r, r < tmp -> r ∉ (dst <$> ps) -> run moves regs r = regs r.
(** Each register is assigned once, and those from [tmp] on are new. *)
Definition wf (ps : list phi) (tmp : nat) : Prop :=
  NoDup (dst <$> ps) /\ forall p, p ∈ ps -> dst p < tmp /\ src p < tmp.
(** No source is the destination of an earlier phi. *)
Definition in_order (ps : list phi) : Prop :=
  forall i j p q, ps !! i = Some p -> ps !! j = Some q -> j < i -> dst q <> src p.
(** Each takes the value of the next, and the last that of the first. *)
Definition rotation (ds : list nat) : list phi :=
  match ds with [] => [] | d :: r => zip_with Phi ds (r ++ [d]) end.
