(** Property theorems C42 and C43: qsort and bsearch. *)
From stdpp Require Import base list numbers.
From Coq Require Import ZArith Lia.
From Verif Require Import Lib.Qsort_model Lib.Qsort_spec Lib.Qsort_proof.

(** C42: for any element type, any ordering and any array, qsort terminates
    without leaving the array and leaves a sorted permutation. *)
Theorem C42_qsort_sorts : forall (A : Type) (cmp : A -> A -> Z) a, ordering cmp ->
  exists a', qsort cmp (S (length a)) a = Some a' /\ a' ≡ₚ a /\ sorted_by cmp a'.
Proof. exact @qsort_sorts. Qed.
Print Assumptions C42_qsort_sorts.

(* Comparing on the tens digit only: a preorder with ties. *)
Example C42_example :
  ordering (fun x y => x / 10 - y / 10)%Z /\
  qsort (fun x y => x / 10 - y / 10)%Z 9 [31; 12; 30; 5; 11; 30; 99; 2]%Z
  = Some [5; 2; 11; 12; 31; 30; 30; 99]%Z.
Proof. split; [split; intros; lia|vm_compute; reflexivity]. Qed.

(** C43: on a partitioned array bsearch returns a matching element's index, or
    NULL exactly when no element matches. *)
Theorem C43_bsearch_finds : forall (K A : Type) (cmp : K -> A -> Z) key (a : list A),
  partitioned cmp key a ->
  exists r, bsearch cmp key a = Some r /\
    match r with
    | Some p => exists y, a !! p = Some y /\ (cmp key y = 0)%Z
    | None => forall k y, a !! k = Some y -> (cmp key y <> 0)%Z
    end.
Proof. exact @bsearch_finds. Qed.
Print Assumptions C43_bsearch_finds.

Example C43_example :
  partitioned (fun k y => k - y)%Z 7%Z [1; 3; 7; 7; 9]%Z /\
  bsearch (fun k y => k - y)%Z 7%Z [1; 3; 7; 7; 9]%Z = Some (Some 2) /\
  bsearch (fun k y => k - y)%Z 8%Z [1; 3; 7; 7; 9]%Z = Some None.
Proof.
  split; [|vm_compute; auto]. exists [1; 3]%Z, [7; 7]%Z, [9]%Z.
  split; [reflexivity|]. repeat split; repeat constructor; lia.
Qed.
