(** Specification of lexical path joining: walking a directory tree.

    A location is the list of directory names from the root, innermost first. *)
From stdpp Require Import base list numbers.
Local Open Scope Z_scope.

Definition loc := list (list Z).

(** Split at every '/', dropping empty components. *)
Fixpoint split_acc (cur : list Z) (p : list Z) : list (list Z) :=
  match p with
  | [] => if decide (cur = []) then [] else [rev cur]
  | c :: p =>
    if decide (c = 47) then (if decide (cur = []) then [] else [rev cur]) ++ split_acc [] p
    else split_acc (c :: cur) p
  end.
Definition comps (p : list Z) : list (list Z) := split_acc [] p.

Definition is_abs (p : list Z) : bool := match p with c :: _ => bool_decide (c = 47) | [] => false end.

(** One step; climbing above the root fails. *)
Definition walk1 (l : loc) (w : list Z) : option loc :=
  if decide (w = [46]) then Some l
  else if decide (w = [46; 46]) then match l with [] => None | _ :: l => Some l end
  else Some (w :: l).

Fixpoint walk (l : loc) (ws : list (list Z)) : option loc :=
  match ws with
  | [] => Some l
  | w :: ws => match walk1 l w with Some l => walk l ws | None => None end
  end.

(** Resolve a path from [cwd]. *)
Definition resolve (cwd : loc) (p : list Z) : option loc :=
  walk (if is_abs p then [] else cwd) (comps p).

(** Resolve several paths one after the other, an absolute one starting afresh. *)
Fixpoint resolve_seq (cur : option loc) (ps : list (list Z)) : option loc :=
  match ps with
  | [] => cur
  | p :: ps =>
    resolve_seq (if is_abs p then walk [] (comps p)
                 else match cur with Some l => walk l (comps p) | None => None end) ps
  end.

(** Normalised: an optional leading ".", then only "..", then ordinary names;
    an absolute result has ordinary names only. *)
Definition ordinary (w : list Z) : Prop := w <> [46] /\ w <> [46; 46].
Definition normalised (p : list Z) : Prop :=
  exists dot n names, (dot = [] \/ dot = [[46]]) /\ Forall ordinary names /\
    comps p = dot ++ replicate n [46; 46] ++ names /\
    (is_abs p = true -> dot = [] /\ n = 0%nat).
