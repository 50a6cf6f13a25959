(** C27: the globals that are used. *)
From stdpp Require Import base list numbers gmap.
From Verif Require Import Front.Reach_model Front.Reach_spec Front.Reach_proof.
Open Scope nat_scope.

(** Whatever the references, the loop ends; exactly the globals needed are marked, and the
    warnings are for the static definitions nothing needs. *)
Theorem C27_used info vars all fuel : closed info vars all -> turns info vars all <= fuel ->
  exists marked unused, propagate_var_used info fuel vars = Some (marked, unused) /\
    (forall v, v ∈ marked <-> reachable info vars v) /\
    (forall v, (exists n, unused !! n = Some v) <-> warnable info vars v /\ ~ reachable info vars v).
Proof. exact (fun Hc => propagation info vars all Hc fuel). Qed.
Print Assumptions C27_used.

(** main calls the static f, which calls itself and g, a prototype; the static variable x and
    the static function h refer to each other; the static constructor k refers to x. *)
Definition C27_info (k : bool) (v : nat) : global :=
  let fn static body xtor refs := Global v true body static false false false xtor refs in
  match v with
  | 0 => fn false true false [1] | 1 => fn true true false [1; 2] | 2 => fn false false false []
  | 3 => Global v false false true false false false false [4] | 4 => fn true true false [3]
  | _ => fn true true k [3]
  end.
Example C27_example :
  (fun r => (r.1, (map_to_list r.2).*2)) <$> propagate_var_used (C27_info false) 20 [0; 1; 2; 3; 4; 5] = Some ([2; 1; 0], [3; 5; 4]) /\
  (fun r => (r.1, (map_to_list r.2).*2)) <$> propagate_var_used (C27_info true) 20 [0; 1; 2; 3; 4; 5] = Some ([2; 1; 0; 4; 3; 5], []).
Proof. by vm_compute. Qed.
