(** C11 7.22.5: what qsort and bsearch require of [compare] and deliver. *)
From stdpp Require Import base list numbers.
From Coq Require Import Sorting.Sorted.

(** [compare] orders the objects: a total preorder, with opposite signs for
    swapped arguments. *)
Record ordering {A} (compare : A -> A -> Z) : Prop := {
  ord_sym : forall x y, (compare x y < 0 <-> 0 < compare y x)%Z;
  ord_trans : forall x y z, (compare x y <= 0 -> compare y z <= 0 -> compare x z <= 0)%Z
}.

Definition sorted_by {A} (compare : A -> A -> Z) (l : list A) : Prop :=
  forall i j x y, i < j -> l !! i = Some x -> l !! j = Some y -> (compare x y <= 0)%Z.

(** The array consists of all elements that compare less than the key, then the
    equal ones, then the greater ones (7.22.5.1p2). *)
Definition partitioned {K A} (compare : K -> A -> Z) (key : K) (l : list A) : Prop :=
  exists l1 l2 l3, l = l1 ++ l2 ++ l3 /\
    Forall (fun y => 0 < compare key y)%Z l1 /\ Forall (fun y => compare key y = 0)%Z l2 /\
    Forall (fun y => compare key y < 0)%Z l3.
