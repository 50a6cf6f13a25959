(** C52 and C60: buffered output. *)
From stdpp Require Import base list numbers.
From Verif Require Import Lib.Stdout_model Lib.Stdout_spec Lib.Stdout_proof.
Local Open Scope Z_scope.

(** Whatever the OS answers, no call stores outside the buffer. *)
Theorem C52_never_overruns : forall capa bin es ops, (0 < capa)%nat ->
  exists s rs, run (opened capa bin es) ops = Some (s, rs) /\ (length (wbuf s.1) <= wcapa s.1)%nat.
Proof. exact safe_ok. Qed.
Print Assumptions C52_never_overruns.

(** If writes succeed, all results say so, and file and buffer together hold
    what was written. *)
Theorem C52_delivers : forall capa bin es ops, (0 < capa)%nat -> all_full es ->
  exists s, run (opened capa bin es) ops = Some (s, results_full ops) /\
    written s.2 ++ wbuf s.1 = offered ops.
Proof. exact full_ok. Qed.
Print Assumptions C52_delivers.

Theorem C52_flush_delivers : forall capa bin es ops, (0 < capa)%nat -> all_full es ->
  exists s, run (opened capa bin es) (ops ++ [Flush]) = Some (s, results_full ops ++ [0]) /\
    written s.2 = offered ops.
Proof. exact flushed_ok. Qed.
Print Assumptions C52_flush_delivers.

(** A text stream keeps no complete line back. *)
Theorem C52_line_buffered : forall capa es ops, (0 < capa)%nat -> all_full es ->
  exists s, run (opened capa false es) ops = Some (s, results_full ops) /\ Forall (fun c => c <> 10) (wbuf s.1).
Proof. exact line_ok. Qed.
Print Assumptions C52_line_buffered.

(** Failing writes (but no short ones) lose and duplicate nothing, except that
    a write that reports [r] bytes may have taken [r + 1].  Missing: short
    writes and the exact count (both refuted below). *)
Theorem C52_failures_partial : forall capa bin es ops s rs, (0 < capa)%nat -> no_short es ->
  run (opened capa bin es) ops = Some (s, rs) -> taken ops rs (written s.2 ++ wbuf s.1).
Proof. exact no_short_ok. Qed.
Print Assumptions C52_failures_partial.

(** A short write followed by another flush duplicates data. *)
Theorem C52_short_write_refuted : exists capa es ops s rs,
  run (opened capa true es) ops = Some (s, rs) /\ offered ops = [65; 66; 67] /\
  written s.2 ++ wbuf s.1 = [65; 66; 65; 66; 67].
Proof. exact short_write. Qed.
Print Assumptions C52_short_write_refuted.

(** After a failed write the result is one less than the bytes taken. *)
Theorem C52_count_refuted : exists capa es ops s rs, no_short es /\
  run (opened capa true es) ops = Some (s, rs) /\ accepted ops rs <> written s.2 ++ wbuf s.1.
Proof. exact under_report. Qed.
Print Assumptions C52_count_refuted.

(** fwrite with size 0 divides by zero. *)
Theorem C52_size_zero_refuted : forall s,
  writable s.1 = true -> (length (wbuf s.1) < wcapa s.1)%nat -> fwrite s 0 [] = None.
Proof. exact size_zero. Qed.
Print Assumptions C52_size_zero_refuted.

Example C52_example :
  run (opened 4 false [WFull; WFail; WFull]) [Write [65;66;10;67]; Write [68;69;70]; Flush] =
    Some ((OFile [] 4 false true, Os [65;66;10;67;68;69;70] []), [4; 2; 0]).
Proof. vm_compute. reflexivity. Qed.

(** C60.  puts writes the string and a newline.  Missing: the empty string
    (refuted below). *)
Theorem C60_puts_partial : forall capa bin es str, (0 < capa)%nat -> all_full es -> str <> [] ->
  exists s, puts (opened capa bin es) str = Some (s, 10) /\ written s.2 ++ wbuf s.1 = str ++ [10].
Proof. exact puts_ok. Qed.
Print Assumptions C60_puts_partial.

(** puts("") fails and writes nothing, because fputs reports EOF for "". *)
Theorem C60_puts_empty_refuted : forall capa bin es, (0 < capa)%nat ->
  puts (opened capa bin es) [] = Some (opened capa bin es, -1).
Proof. exact puts_empty. Qed.
Print Assumptions C60_puts_empty_refuted.

Example C60_example :
  puts (opened 128 false []) [104;105] = Some ((OFile [] 128 false true, Os [104;105;10] []), 10).
Proof. vm_compute. reflexivity. Qed.
