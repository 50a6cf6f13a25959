(** C13, C66, C67: conditional inclusion in the preprocessor. *)
From stdpp Require Import base list numbers option.
From Verif Require Import Cpp.Cond_model Cpp.Cond_spec Cpp.Cond_main_proof.

(** Whatever file the preprocessor accepts nests properly, and exactly the groups
    the standard selects were processed, in order. *)
Theorem C13_accepted_files_select_right_groups :
  forall (S : Type) (Or : oracles S) (s : S) (lines : list str) (s' : S),
    Forall (self_contained Or) lines ->
    preprocess Or s lines = Some s' -> group Or true s lines s'.
Proof. exact @sound. Qed.
Print Assumptions C13_accepted_files_select_right_groups.

(** Every properly nested file whose conditions can be evaluated is accepted,
    with that result. *)
Theorem C13_nested_files_are_accepted :
  forall (S : Type) (Or : oracles S) (s : S) (lines : list str) (s' : S),
    Forall (fun line => self_contained Or line /\ evaluable Or line) lines ->
    group Or true s lines s' -> preprocess Or s lines = Some s'.
Proof. exact @complete. Qed.
Print Assumptions C13_nested_files_are_accepted.

(** Stray or repeated #else, #elif, #endif and unclosed sections are rejected. *)
Theorem C13_misnested_files_are_rejected :
  forall (S : Type) (Or : oracles S) (s : S) (lines : list str),
    Forall (self_contained Or) lines -> ~ nested lines -> preprocess Or s lines = None.
Proof. exact @rejects. Qed.
Print Assumptions C13_misnested_files_are_rejected.

(** The loop over the lines ends: more fuel changes nothing. *)
Theorem C13_loop_ends :
  forall (S : Type) (Or : oracles S) (n1 n2 : nat) (st : state S) (lines : list str),
    (length lines < n1)%nat -> (length lines < n2)%nat ->
    run Or n1 st lines = run Or n2 st lines.
Proof. exact (fun S Or n1 n2 => run_fuel Or n1 n2). Qed.
Print Assumptions C13_loop_ends.

(** #if 0 / a / #elif 1 / b / #if 0 / c / #else / d / #endif / #elif 1 / e /
    #else / f / #endif / g: the lines b, d and g are kept (directives leave
    empty lines). *)
Example C13_example :
  preprocess toy []
    [[35; 105; 102; 32; 48]; [97]; [35; 101; 108; 105; 102; 32; 49]; [98];
     [32; 35; 32; 105; 102; 32; 48]; [99]; [35; 101; 108; 115; 101]; [100];
     [35; 101; 110; 100; 105; 102]; [35; 101; 108; 105; 102; 32; 49]; [101];
     [35; 101; 108; 115; 101]; [102]; [35; 101; 110; 100; 105; 102]; [103]]%Z
  = Some [[98]; []; [100]; []; []; [103]]%Z.
Proof. vm_compute. reflexivity. Qed.

(** #else twice in one section. *)
Example C13_example_reject :
  preprocess toy []
    [[35; 105; 102; 32; 48]; [35; 101; 108; 115; 101]; [35; 101; 108; 115; 101];
     [35; 101; 110; 100; 105; 102]]%Z = None.
Proof. vm_compute. reflexivity. Qed.

(** C66: the condition of a section inside a skipped group is evaluated all the
    same, and an error in it is fatal. *)
Theorem C66_skipped_condition_refuted :
  exists (S : Type) (Or : oracles S) (s : S) (lines : list str) (s' : S),
    Forall (self_contained Or) lines /\ group Or true s lines s' /\ preprocess Or s lines = None.
Proof. exact skipped_condition_evaluated. Qed.
Print Assumptions C66_skipped_condition_refuted.

(** C67: a comment that starts in a skipped directive is not seen. *)
Theorem C67_comment_in_skipped_directive_refuted :
  exists (S : Type) (Or : oracles S) (s : S) (lines1 lines2 : list str) (s' : S),
    same_but_for_a_comment lines1 lines2 /\
    preprocess Or s lines1 = None /\ preprocess Or s lines2 = Some s'.
Proof. exact skipped_directive_comment. Qed.
Print Assumptions C67_comment_in_skipped_directive_refuted.

(** A directive after the end of a comment of several lines is not seen, even
    when no directive line contains the start of a comment. *)
Theorem C67_directive_after_comment_refuted :
  exists (S : Type) (Or : oracles S) (s : S) (lines1 lines2 : list str) (s' : S),
    same_but_for_a_comment lines1 lines2 /\
    (forall l, l ∈ lines1 -> has_hash l -> closed l) /\
    preprocess Or s lines1 = None /\ preprocess Or s lines2 = Some s'.
Proof. exact comment_then_directive. Qed.
Print Assumptions C67_directive_after_comment_refuted.
