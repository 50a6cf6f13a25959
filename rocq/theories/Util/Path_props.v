(** Property theorem C11: path joining. *)
From stdpp Require Import base list numbers.
From Verif Require Import Util.Path_model Util.Path_spec Util.Path_proof.
Local Open Scope Z_scope.

(** C11: join_paths always terminates.  When it gives a path, that path is
    normalised and denotes, from every working directory, the location reached
    by walking the inputs in order; it gives NULL only when walking some prefix
    of the inputs climbs above the root whatever the working directory. *)
Theorem C11_join_paths_walk : forall ps,
  match join_paths ps with
  | None => False
  | Some None => exists ps1 p ps2, ps = ps1 ++ p :: ps2 /\
      forall cwd, resolve_seq (Some cwd) (ps1 ++ [p]) = None
  | Some (Some r) => normalised r /\ forall cwd, resolve cwd r = resolve_seq (Some cwd) ps
  end.
Proof. exact join_paths_ok. Qed.
Print Assumptions C11_join_paths_walk.

(* "/a/./b" + "../../c//d" = "/c/d";  "x/y" + "../../../z" = "../z";  "/a" + "../.." = NULL *)
Example C11_example :
  join_paths [[47;97;47;46;47;98]; [46;46;47;46;46;47;99;47;47;100]] = Some (Some [47;99;47;100]) /\
  join_paths [[120;47;121]; [46;46;47;46;46;47;46;46;47;122]] = Some (Some [46;46;47;122]) /\
  join_paths [[47;97]; [46;46;47;46;46]] = Some None.
Proof. vm_compute. auto. Qed.
