(** Specification: a plain list. *)
From stdpp Require Import base list numbers.
From Verif Require Import Util.Vector_model.

Definition lstep (l : list N) (o : vop) : list N * vres :=
  match o with
  | VPush x => (l ++ [x], VRUnit)
  | VPop => match rev l with
            | [] => (l, VRElem 0%N)
            | x :: r => (rev r, VRElem x)
            end
  | VInsert p x =>
    (if (0 <=? p)%Z && (p <=? Z.of_nat (length l))%Z
     then firstn (Z.to_nat p) l ++ x :: skipn (Z.to_nat p) l else l, VRUnit)
  | VRemoveAt i =>
    (if (0 <=? i)%Z && (i <? Z.of_nat (length l))%Z
     then firstn (Z.to_nat i) l ++ skipn (S (Z.to_nat i)) l else l, VRUnit)
  | VClear => ([], VRUnit)
  | VContains x => (l, VRBool (existsb (N.eqb x) l))
  | VConcat xs => (l ++ xs, VRUnit)
  end.

Fixpoint lrun (l : list N) (ops : list vop) : list N * list vres :=
  match ops with
  | [] => (l, [])
  | o :: ops => let '(l, r) := lstep l o in let '(l, rs) := lrun l ops in (l, r :: rs)
  end.
