(** What a function without phis does, its blocks being known by labels; what is asked of the phis. *)
From stdpp Require Import base list numbers.
From Verif Require Import Back.Unused_model Back.Unused_spec Back.Unphi_model.
From Verif Require Back.Flow_model Back.Flow_spec Back.Ssa_spec Back.Phi_model Back.Phi_spec.
Local Open Scope nat_scope.

(** How a jump ends a block.  Tables are never empty. *)
Definition ends {C} (j : jmp C) : Flow_model.ending :=
  match j with Goto t => Flow_model.Jump t | Cond _ t => Flow_model.CJump t | Multi [] => Flow_model.Falls | Multi ts => Flow_model.Table ts end.

Section Spec.
  Context {K C W : Type}.
  Implicit Types f : list (nat * blk K (jmp C)).
  (** The block with a label, and the label of the block that follows it. *)
  Fixpoint look f (l : nat) : option (blk K (jmp C) * option nat) :=
    match f with
    | [] => None
    | (l', x) :: f => if l' =? l then Some (x, fst <$> head f) else look f l
    end.
  (** Where control goes at the end of a block; [None] is the end of the function. *)
  Definition goes (M : machine K (jmp C) W) (pinned : nat -> bool) (x : blk K (jmp C)) (next : option nat) (s : state W) : option nat :=
    match exit x with
    | Some (j, l) => match target M j ((fun o => rd M pinned o s) <$> l) s.2 with Some t => Some t | None => next end
    | None => next
    end.
  (** The first [n] blocks executed, from the block with label [b] on, if there are no phis. *)
  Fixpoint ltrace (M : machine K (jmp C) W) (pinned : nat -> bool) (n : nat) f (b : option nat) (s : state W) : list (event K W) :=
    match n with
    | O => []
    | S n =>
      match b ≫= look f with
      | None => [Ended s.2]
      | Some (x, next) => let '(es, s) := execs M pinned (irs x) s in es ++ ltrace M pinned n f (goes M pinned x next s) s
      end
    end.
  (** Jumps lead to their labels, whatever these are, and inverted conditions hold when the others do not. *)
  Definition labels_free (M : machine K (jmp C) W) (inv : C -> C) : Prop :=
    (forall t l w, target M (Goto t) l w = Some t) /\
    (exists holds, (forall c t l w, target M (Cond c t) l w = if holds c l w : bool then Some t else None) /\ forall c l w, holds (inv c) l w = negb (holds c l w)) /\
    (exists pick, forall ts l w, ts <> [] -> pick l w (length ts) < length ts /\ target M (Multi ts) l w = ts !! pick l w (length ts)) /\
    (forall l w, target M (Multi []) l w = None).
  (** A move copies. *)
  Definition moves_as_said (M : machine K (jmp C) W) (mov : K) : Prop := seen M mov = false /\ forall z w, act M mov [z] w = (z, w).

  Implicit Types bs : list (blk K (jmp C)).
  (** Tables are not empty, and the last block ends without a jump or with one that is always taken to one block. *)
  Definition ends_plainly bs : Prop :=
    (forall b x ts l, bs !! b = Some x -> exit x = Some (Multi ts, l) -> ts <> []) /\
    (forall b x j l, bs !! b = Some x -> S b = length bs -> exit x = Some (j, l) -> exists t, j = Goto t).
  (** A block may be listed twice among the predecessors of another; then the parameters for both are the same. *)
  Definition alike bs (from : list (list nat)) : Prop :=
    forall b (f : list nat) x p i k a, from !! b = Some f -> bs !! b = Some x -> p ∈ phis x -> f !! i = Some a -> f !! k = Some a -> params p !! i = params p !! k.
  (** The destinations of phis differ; registers are below [nv]. *)
  Definition phis_regs bs (nv : nat) : Prop :=
    (forall b x, bs !! b = Some x -> NoDup (pdst <$> phis x)) /\
    (forall b x p, bs !! b = Some x -> p ∈ phis x -> pdst p < nv /\ forall v, inr v ∈ params p -> v < nv) /\
    (forall b x i v, bs !! b = Some x -> i ∈ irs x -> dst i = Some v \/ inr v ∈ oprs i -> v < nv) /\
    (forall b x j l v, bs !! b = Some x -> exit x = Some (j, l) -> inr v ∈ l -> v < nv).
End Spec.
(** The moves made for the phis of a block, in any order of these, do what the phis do at once (C31 says when). *)
Definition resolvable (nv : nat) (ps : list phi) : Prop :=
  forall tmp k ps' cs, nv <= tmp -> ps' ≡ₚ ps -> coded tmp k ps' = Some cs ->
  exists moves, Phi_model.replace_phis (tmp + length ps') cs = Some moves /\ Phi_spec.parallel cs moves.

(** A function in single assignment form: jumps lead to blocks, none to the first one, the predecessors are those that are
    found, each phi has a parameter for each of them, and blocks with phis are known to have some. *)
Record prepared {K C} (pinned has : nat -> bool) (nv : nat) (bs : list (blk K (jmp C))) (from : list (list nat)) : Prop := {
  p_some : bs <> [];
  p_jumps : Flow_spec.wf (Ssa_spec.flow ends bs);
  p_start : forall a, ~ Ssa_spec.edge ends bs a 0;
  p_from : Flow_model.detect_from_bbs (Ssa_spec.flow ends bs) = Some from;
  p_ends : ends_plainly bs;
  p_full : Ssa_spec.phis_full pinned from bs;
  p_alike : alike bs from;
  p_regs : phis_regs bs nv;
  p_pinned : forall v, pinned v = true -> v < nv;
  p_has : forall b x, bs !! b = Some x -> has b = false -> phis x = []
}.
(** No phi takes what another one assigns. *)
Definition apart (ps : list phi) : Prop := forall p q, p ∈ ps -> q ∈ ps -> inr (pdst q) ∈ params p -> p = q.
(** At most three phis, or phis that do not depend on one another. *)
Definition easy (ps : list phi) : Prop := length ps <= 3 \/ apart ps.
