(** C145: getenv.  C146: basename and dirname. *)
From stdpp Require Import base list numbers gmap.
From Verif Require Import Lib.Cmem Lib.String_model Lib.Env_model Lib.Env_spec Lib.Env_proof.
Local Open Scope Z_scope.

Theorem C145_getenv : forall m ptrs es q name fuel, environment m ptrs es -> cstr m q name -> (length name < fuel)%nat ->
  exists r, getenv fuel m (Some ptrs) q = Some r /\ value_of m es name r.
Proof. exact getenv_ok. Qed.
Print Assumptions C145_getenv.

(** AB=x, A=y, A=z at 10, 20 and 30, the name A at 40: the value is at 22. *)
Definition example_mem : mem :=
  mem_of 10 [65; 66; 61; 120; 0] ∪ mem_of 20 [65; 61; 121; 0] ∪ mem_of 30 [65; 61; 122; 0] ∪ mem_of 40 [65; 0] ∪ mem_of 50 [66; 0].
Example C145_example : getenv 9 example_mem (Some [10; 20; 30; 0]) 40 = Some (Some 22) /\
  getenv 9 example_mem (Some [10; 20; 30; 0]) 50 = Some None.
Proof. vm_compute. done. Qed.

(** For paths that do not end in a slash; [C146_basename_refuted] for others. *)
Theorem C146_basename_partial : forall m p s fuel, cstr m p s -> (length s < fuel)%nat -> s <> [] -> ~ ends_in_slash s ->
  exists a, basename fuel m p = Some a /\ cstr m a (posix_basename s).
Proof. exact basename_ok. Qed.
Print Assumptions C146_basename_partial.
(** For paths whose last slash, if any, has no slash before it and is neither
    first nor last; [C146_dirname_refuted] and [C146_dirname_end_refuted] for others. *)
Theorem C146_dirname_partial : forall m p s fuel, cstr m p s -> (length s < fuel)%nat ->
  (forall a b, s = a ++ 47 :: b -> no_slash b -> b <> [] /\ a <> [] /\ ~ ends_in_slash a) ->
  exists r, dirname fuel m p = Some r /\ denotes r (posix_dirname s) /\
  (forall x, x < p \/ p + Z.of_nat (length s) < x -> snd r !! x = m !! x).
Proof. exact dirname_ok. Qed.
Print Assumptions C146_dirname_partial.

(** The base name of [a/] is a; the code gives the empty string. *)
Theorem C146_basename_refuted : exists m p s, cstr m p s /\ posix_basename s = [97] /\
  exists a, basename 9 m p = Some a /\ cstr m a [].
Proof.
  exists (mem_of 10 [97; 47; 0]), 10, [97; 47]. split; [split; [apply (mem_of_bytes [97; 47; 0])|repeat constructor]|].
  split; [reflexivity|]. exists 12. split; [reflexivity|]. split; [|constructor]. intros [|i] c H; [|done]. cbn in H. by injection H as <-.
Qed.
Print Assumptions C146_basename_refuted.
(** The directory of [/a] is the root; the code gives the empty string. *)
Theorem C146_dirname_refuted : exists m p s, cstr m p s /\ posix_dirname s = [47] /\
  exists r, dirname 9 m p = Some r /\ denotes r [].
Proof.
  exists (mem_of 10 [47; 97; 0]), 10, [47; 97]. split; [split; [apply (mem_of_bytes [47; 97; 0])|repeat constructor]|].
  split; [reflexivity|]. eexists. split; [reflexivity|]. cbn. split; [|constructor]. intros [|i] c H; [|done]. cbn in H. by injection H as <-.
Qed.
Print Assumptions C146_dirname_refuted.
(** The directory of [a/] is dot; the code gives a. *)
Theorem C146_dirname_end_refuted : exists m p s, cstr m p s /\ posix_dirname s = [46] /\
  exists r, dirname 9 m p = Some r /\ denotes r [97].
Proof.
  exists (mem_of 10 [97; 47; 0]), 10, [97; 47]. split; [split; [apply (mem_of_bytes [97; 47; 0])|repeat constructor]|].
  split; [reflexivity|]. eexists. split; [reflexivity|]. cbn. split; [|repeat constructor].
  intros [|[|i]] c H; [| |done]; cbn in H; by injection H as <-.
Qed.
Print Assumptions C146_dirname_end_refuted.

(** a/bc, and bc alone. *)
Example C146_example :
  basename 9 (mem_of 10 [97; 47; 98; 99; 0]) 10 = Some 12 /\
  (exists m, dirname 9 (mem_of 10 [97; 47; 98; 99; 0]) 10 = Some (At 10, m) /\ m !! 11 = Some 0) /\
  dirname 9 (mem_of 10 [98; 99; 0]) 10 = Some (Dot, mem_of 10 [98; 99; 0]).
Proof. split; [reflexivity|]. split; [eexists; split; reflexivity|reflexivity]. Qed.
