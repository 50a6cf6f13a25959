(** What a function does, on a machine whose registers are partly in memory. *)
From stdpp Require Import base list numbers.
From Verif Require Import Back.Unused_model.
Local Open Scope nat_scope.

Section Run.
  Context {K J W : Type}.
  (** [W] is all that is not a register.  [act]: the result of an instruction and what it does to the rest.
      [seen]: the instructions whose execution can be observed; the others only give a result.
      [target]: where a jump in a block leads, if it is taken to a block of the function.
      [peek], [poke]: registers in memory. *)
  Record machine := Machine {
    act : K -> list Z -> W -> Z * W;
    seen : K -> bool;
    silent : forall k l w, seen k = false -> (act k l w).2 = w;
    target : J -> list Z -> W -> option nat;
    peek : W -> nat -> Z;
    poke : W -> nat -> Z -> W
  }.
  Variable M : machine.
  (** The registers that live in memory, as their address is taken or as they are parameters. *)
  Variable pinned : nat -> bool.
  Definition state : Type := (nat -> Z) * W.

  Definition rd (o : Z + nat) (s : state) : Z :=
    match o with inl z => z | inr v => if pinned v then peek M s.2 v else s.1 v end.
  Definition wr (v : nat) (x : Z) (s : state) : state :=
    if pinned v then (s.1, poke M s.2 v x) else (fun u => if decide (u = v) then x else s.1 u, s.2).
  (** What can be seen: an instruction, its operands and the world it finds; the end and the world then. *)
  Inductive event := Did (k : K) (l : list Z) (w : W) | Ended (w : W).

  Definition exec (i : ins K) (s : state) : list event * state :=
    let l := (fun o => rd o s) <$> oprs i in
    let '(x, w) := act M (op i) l s.2 in
    (if seen M (op i) then [Did (op i) l s.2] else [],
     match dst i with Some d => wr d x (s.1, w) | None => (s.1, w) end).
  Fixpoint execs (l : list (ins K)) (s : state) : list event * state :=
    match l with
    | [] => ([], s)
    | i :: l => let '(e1, s) := exec i s in let '(e2, s) := execs l s in (e1 ++ e2, s)
    end.
  (** The phis at the start of a block take their values at once, each its [k]-th. *)
  Definition enter (ps : list phi) (k : nat) (s : state) : state :=
    foldr (fun p s' => wr (pdst p) (rd (default (inl 0%Z) (params p !! k)) s) s') s ps.
  (** The place of block [a] among the predecessors of [b]. *)
  Variable index : nat -> nat -> nat.

  (** The first [n] blocks executed, from block [b] entered from [a]. *)
  Fixpoint trace (n : nat) (bs : list (blk K J)) (a b : nat) (s : state) : list event :=
    match n with
    | O => []
    | S n =>
      match bs !! b with
      | None => [Ended s.2]
      | Some x =>
        let '(es, s) := execs (irs x) (enter (phis x) (index a b) s) in
        let c := match exit x with
                 | Some (j, l) => default (S b) (target M j ((fun o => rd o s) <$> l) s.2)
                 | None => S b
                 end in
        es ++ trace n bs b c s
      end
    end.
End Run.
Arguments machine : clear implicits. Arguments event : clear implicits. Arguments state : clear implicits.

(** Every instruction that can be observed has no result or is a call. *)
Definition effects_plain {K J W} (M : machine K J W) (bs : list (blk K J)) : Prop :=
  forall b i, b ∈ bs -> i ∈ irs b -> seen M (op i) = true -> dst i = None \/ is_call i = true.
(** The registers in memory exist. *)
Definition pinned_alive (pinned : nat -> bool) (alive : list bool) : Prop := forall v, pinned v = true -> alive !! v = Some true.
