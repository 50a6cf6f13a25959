(** C62 and C65: opening files, and flushing them at exit. *)
From stdpp Require Import base list numbers.
From Verif Require Import Lib.Fopen_model Lib.Fopen_spec Lib.Fopen_proof.
Local Open Scope Z_scope.

(** The mode is accepted exactly if it is one of r, w, a with + and b at most
    once, and the flags for open(2) are those it asks for. *)
Theorem C62_mode : forall mode,
  detect_open_flag mode = Some (if decide (good_mode mode) then flags_of mode else -1).
Proof. exact detect_ok. Qed.
Print Assumptions C62_mode.

(** The stream can read and write accordingly. *)
Theorem C62_stream : forall mode, good_mode mode ->
  stream_flags mode = Some (has 114 mode || has 43 mode, negb (has 114 mode) || has 43 mode, has 98 mode).
Proof. exact flags_rw. Qed.
Print Assumptions C62_stream.

Example C62_example :
  detect_open_flag [97; 98; 43] = Some (2 + 64 + 1024) /\ detect_open_flag [114; 119] = Some (-1).
Proof. vm_compute. done. Qed.

(** At exit each stream still open is flushed, once, and no other. *)
Theorem C65_exit : forall ops, fresh [] ops -> exists m l, fruns fm_init ops = Some m /\
  flush_opened m = Some l /\ NoDup l /\ l ≡ₚ live [] ops.
Proof. exact exit_flushes. Qed.
Print Assumptions C65_exit.

Example C65_example : exists m,
  fruns fm_init [Open 1; Open 2; Open 3; Open 4; Open 5; Close 2; Open 6; Close 6] = Some m /\
  flush_opened m = Some [1; 5; 3; 4].
Proof. vm_compute. eexists. split; reflexivity. Qed.
