(** Registers that are assigned in one place only, and before they are read. *)
From stdpp Require Import base list numbers.
From Verif Require Import Back.Unused_model Back.Unused_spec.
From Verif Require Back.Flow_model Back.Flow_spec Back.Ssa_model.
Local Open Scope nat_scope.

Section Spec.
  Context {K J W : Type}.
  Context (endof : J -> Flow_model.ending).
  Implicit Types bs : list (blk K J).
  Definition flow bs : list Flow_model.bb := Ssa_model.flow_blk endof <$> bs.
  (** From block [a] control can pass to block [b]; [b] can be reached. *)
  Definition edge bs (a b : nat) : Prop := Flow_spec.edge (flow bs) a b.
  Definition reach bs (b : nat) : Prop := Flow_spec.reach (flow bs) b.
  (** Jumps lead where [endof] says. *)
  Definition jumps_as_said (M : machine K J W) : Prop := forall j l w,
    match endof j with
    | Flow_model.Falls => target M j l w = None
    | Flow_model.Jump t => target M j l w = Some t
    | Flow_model.CJump t => target M j l w = Some t \/ target M j l w = None
    | Flow_model.Table ts => exists t, t ∈ ts /\ target M j l w = Some t
    end.
  (** [index a b] is a place of block [a] among the predecessors of [b], in the order in which they are found. *)
  Definition index_ok bs (index : nat -> nat -> nat) : Prop := exists from, Flow_model.detect_from_bbs (flow bs) = Some from /\
    forall a b f, from !! b = Some f -> a ∈ f -> f !! index a b = Some a.

  (** The registers a block assigns, in order. *)
  Definition defs (b : blk K J) : list nat := (pdst <$> phis b) ++ omap dst (irs b).
  (** The registers a block names. *)
  Definition names (b : blk K J) : list nat := defs b ++ used b.
  (** A function as it is before: no phis, registers below [nv], all jumps to blocks, none to the first one. *)
  Record plain (nv : nat) bs : Prop := {
    plain_phis : forall b x, bs !! b = Some x -> phis x = [];
    plain_regs : forall b x v, bs !! b = Some x -> v ∈ names x -> v < nv;
    plain_jumps : Flow_spec.wf (flow bs);
    plain_start : forall a, ~ edge bs a 0
  }.
  (** Blocks that are never reached are empty. *)
  Definition unreached_empty bs : Prop := forall b x, bs !! b = Some x -> ~ reach bs b -> irs x = [] /\ phis x = [].

  (** A register outside memory is assigned in one place at most, and if it is a parameter, in none. *)
  Definition assigned_once (pinned param : nat -> bool) bs : Prop :=
    (forall b1 x1 p1 b2 x2 p2 v, bs !! b1 = Some x1 -> bs !! b2 = Some x2 -> pinned v = false ->
       defs x1 !! p1 = Some v -> defs x2 !! p2 = Some v -> b1 = b2 /\ p1 = p2) /\
    (forall b x v, bs !! b = Some x -> v ∈ defs x -> pinned v = false -> param v = false).

  (** Some path from the start of the function leads to the start of block [b] without assigning [v]. *)
  Inductive lacks (param : nat -> bool) bs (v : nat) : nat -> Prop :=
  | lacks_start : param v = false -> lacks param bs v 0
  | lacks_step a b x : lacks param bs v a -> bs !! a = Some x -> v ∉ defs x -> edge bs a b -> lacks param bs v b.
  (** The block reads [v] before it assigns it. *)
  Definition first_read (x : blk K J) (v : nat) : Prop :=
    v ∉ pdst <$> phis x /\ Flow_spec.reads_first (Flow_model.irs (Ssa_model.flow_blk endof x)) v.
  (** On no path a register outside memory is read before it is assigned.  A phi reads at the end of the predecessor. *)
  Definition initialised (pinned param : nat -> bool) (index : nat -> nat -> nat) bs : Prop :=
    (forall b x v, bs !! b = Some x -> pinned v = false -> first_read x v -> ~ lacks param bs v b) /\
    (forall a b x y p v, edge bs a b -> reach bs a -> bs !! a = Some x -> bs !! b = Some y -> p ∈ phis y ->
       params p !! index a b = Some (inr v) -> pinned v = false -> lacks param bs v a -> v ∈ defs x).

  (** [from] lists the predecessors of each block that can be reached. *)
  Definition preds_of bs (from : list (list nat)) : Prop := length from = length bs /\
    forall a b, (exists f, from !! b = Some f /\ a ∈ f) <-> reach bs a /\ edge bs a b.
  (** Each phi has a parameter for each predecessor, it is about registers outside memory, and the first block has none. *)
  Definition phis_full (pinned : nat -> bool) (from : list (list nat)) bs : Prop :=
    (forall b f x p, from !! b = Some f -> bs !! b = Some x -> p ∈ phis x ->
       length (params p) = length f /\ pinned (pdst p) = false /\ forall v, inr v ∈ params p -> pinned v = false) /\
    (forall x, bs !! 0 = Some x -> phis x = []).
End Spec.
