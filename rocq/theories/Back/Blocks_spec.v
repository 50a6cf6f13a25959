(** What a function made of basic blocks does. *)
From stdpp Require Import base list numbers.
From Verif Require Import Back.Blocks_model Back.Ir_spec.
Local Open Scope Z_scope.

Section Run.
  Context {I R S : Type}.
  (** The machine: the effect of an instruction; the operands of a comparison, their size, and the
      outcome of floating-point comparisons; the index of a table jump. *)
  Record machine := Machine {
    exec : I -> S -> S;
    size : R -> Z;
    oprs : R -> S -> Z * Z;
    ftest : Z -> R -> S -> bool;
    entry : R -> S -> nat
  }.
  Variable M : machine.
  Implicit Types (bs : list (bb I R)) (s : S).

  (** A jump under code 1 is always taken. *)
  Definition test (c : Z) (o : R) (s : S) : bool :=
    bool_decide (c = 1) || (if Z.testbit c 4 then ftest M c o s else let '(a, b) := oprs M o s in cond_holds (size M o) c a b).

  (** The block with a label, and the label of the one after it. *)
  Fixpoint at_label (l : nat) bs : option (bb I R * option nat) :=
    match bs with
    | [] => None
    | b :: r => if decide (label b = l) then Some (b, label <$> head r) else at_label l r
    end.
  (** Where control is: at a block, after the last one, or lost. *)
  Inductive place := At (l : nat) | End | Lost.
  Definition onto (n : option nat) : place := match n with Some l => At l | None => End end.
  (** What can be seen: the instructions executed and the state each finds, and how it ends. *)
  Inductive event := Did (i : I) (s : S) | Ended (s : S) | Wrong.
  Fixpoint perform (l : list I) (s : S) : list event * S :=
    match l with
    | [] => ([], s)
    | i :: l => let '(es, s') := perform l (exec M i s) in (Did i s :: es, s')
    end.
  Definition leave (b : bb I R) (next : option nat) (s : S) : place :=
    match last b with
    | EJmp c o d => if test c o s then At d else onto next
    | ETab o ds => match ds !! entry M o s with Some d => At d | None => Lost end
    | EFall => onto next
    end.
  Definition step bs (l : nat) (s : S) : list event * place * S :=
    match at_label l bs with
    | Some (b, next) => let '(es, s') := perform (body b) s in (es, leave b next s', s')
    | None => ([], Lost, s)
    end.
  (** What can be seen of the first [n] blocks executed. *)
  Fixpoint trace (n : nat) bs (p : place) (s : S) : list event :=
    match n with
    | 0%nat => []
    | Datatypes.S n =>
      match p with
      | At l => let '(es, p, s) := step bs l s in es ++ trace n bs p s
      | End => [Ended s]
      | Lost => [Wrong]
      end
    end.
  Definition start bs : place := onto (label <$> head bs).
  (** The two do the same: whatever can be seen of one after some time can be seen of the other. *)
  Definition same bs bs' : Prop := forall s,
    (forall n, exists m, trace n bs (start bs) s = trace m bs' (start bs') s) /\
    (forall m, exists n, trace m bs' (start bs') s = trace n bs (start bs) s).
End Run.
Arguments machine : clear implicits. Arguments event : clear implicits.

(** The condition of every jump is 1, always, or one of the six comparisons, with its flags. *)
Definition conds_ok {I R} (bs : list (bb I R)) : Prop := forall b c o d, b ∈ bs -> last b = EJmp c o d ->
  c = 1 \/ exists k u f, c = cond_code k u f /\ k <> CNever /\ k <> CAlways.
