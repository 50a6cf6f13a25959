(** Property theorems C01, C02, C03: the hash table and name interning. *)
From stdpp Require Import base list numbers gmap.
From Verif Require Import Util.Table_model Util.Table_spec Util.Table_proof
  Util.Name_model Util.Name_proof.

(** C01: for every hash function and every history of operations from an empty
    table, the table answers exactly as a finite map does (and every probing
    loop terminates: the run is [Some]). *)
Theorem C01_table_refines_map : forall hash ops,
  exists t, run hash table_init ops = Some (t, snd (srun ∅ ops)).
Proof. exact table_refines_map. Qed.
Print Assumptions C01_table_refines_map.

(* Non-trivial instance: colliding keys, a tombstone and re-use of it. *)
Example C01_example :
  run (fun _ => 7%N) table_init
    [Put 1 (VPtr 10); Put 2 (VPtr 20); Delete 1; TryGet 2; Put 3 VNull; Put 2 (VPtr 21); Get 2; Delete 1]%N
  = Some (Table (<[7 := Entry (Some 3%N) VNull]> (<[8 := Entry (Some 2%N) (VPtr 21)]>
            (replicate 15 empty_entry))) 15 2 2,
      [RBool true; RBool true; RBool true; ROpt (Some (VPtr 20)); RBool true; RBool false;
       RVal (VPtr 21); RBool false]).
Proof. vm_compute. reflexivity. Qed.

(** C02: iterating a table reached by any history yields each live pair of the
    abstract map exactly once, and terminates. *)
Theorem C02_table_iteration_exact : forall hash ops t rs,
  run hash table_init ops = Some (t, rs) ->
  exists l, iterate_all t 0 (S (capacity t)) = Some l /\
    NoDup l.*1 /\ l ≡ₚ map_to_list (fst (srun ∅ ops)).
Proof. exact table_iteration_exact. Qed.
Print Assumptions C02_table_iteration_exact.

Example C02_example :
  (t ← run (fun k => k * 5)%N table_init
    [Put 1 (VPtr 10); Put 2 (VPtr 20); Put 3 (VPtr 30); Delete 2]%N;
   iterate_all (fst t) 0 16) = Some [(3, VPtr 30); (1, VPtr 10)]%N.
Proof. vm_compute. reflexivity. Qed.

(** C03: over any sequence of interned spellings, two results are the same
    pointer exactly when the spellings are equal. *)
Theorem C03_intern_identity : forall ss,
  exists st ps, alloc_names name_init ss = Some (st, ps) /\ length ps = length ss /\
  forall i j p q s t, ps !! i = Some p -> ps !! j = Some q -> ss !! i = Some s -> ss !! j = Some t ->
    (p = q <-> s = t).
Proof. exact intern_identity. Qed.
Print Assumptions C03_intern_identity.

(* "foo", "bar", "foo", "" , "bar" *)
Example C03_example :
  snd <$> alloc_names name_init [[102;111;111]; [98;97;114]; [102;111;111]; []; [98;97;114]]%N
  = Some [0; 1; 0; 2; 1]%N.
Proof. vm_compute. reflexivity. Qed.
