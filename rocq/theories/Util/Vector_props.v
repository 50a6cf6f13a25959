(** Property theorem C04: the growable vector. *)
From stdpp Require Import base list numbers.
From Verif Require Import Util.Vector_model Util.Vector_spec Util.Vector_proof.

(** C04: every operation sequence on a fresh vector succeeds (no access outside
    the allocation), answers like a list and leaves the list's contents. *)
Theorem C04_vector_refines_list : forall ops,
  exists v, vrun vec_init ops = Some (v, snd (lrun [] ops)) /\
            vcontents v = map Some (fst (lrun [] ops)).
Proof. exact vector_refines_list. Qed.
Print Assumptions C04_vector_refines_list.

Example C04_example :
  lrun [] [VPush 1; VPush 2; VInsert 1 9; VInsert 7 5; VRemoveAt 0; VConcat [4; 5]; VPop; VContains 9]%N
  = ([9; 2; 4], [VRUnit; VRUnit; VRUnit; VRUnit; VRUnit; VRUnit; VRElem 5; VRBool true])%N.
Proof. vm_compute. reflexivity. Qed.
