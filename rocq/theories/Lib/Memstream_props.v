(** C51 and C54: snprintf and open_memstream. *)
From stdpp Require Import base list numbers.
From Verif Require Import Lib.Printf_model Lib.Memstream_model Lib.Memstream_spec Lib.Memstream_proof.
Local Open Scope Z_scope.

(** [out] is the caller's memory from the buffer's start on, at least [n]
    bytes.  Missing: sizes of 2^32 and more, which are cut to 32 bits (refuted
    below). *)
Theorem C51_snprintf_partial : forall out n fmt args text r,
  0 < n < 2^32 -> n <= Z.of_nat (length out) -> vfprintf fmt args = Some (text, r) ->
  vsnprintf out n fmt args = Some (store_cstr (take (Z.to_nat (n - 1)) text) out, r).
Proof. exact snprintf_ok. Qed.
Print Assumptions C51_snprintf_partial.

Theorem C51_snprintf_zero : forall out fmt args text r,
  vfprintf fmt args = Some (text, r) -> vsnprintf out 0 fmt args = Some (out, r).
Proof. exact snprintf_zero. Qed.
Print Assumptions C51_snprintf_zero.

(** sprintf writes the text and a NUL, nothing else. *)
Theorem C51_sprintf : forall out fmt args text r,
  vfprintf fmt args = Some (text, r) -> Z.of_nat (length text) < 2^32 - 1 -> (length text < length out)%nat ->
  sprintf out fmt args = Some (store_cstr text out, r).
Proof. exact sprintf_ok. Qed.
Print Assumptions C51_sprintf.

(** With n = 2^32 nothing is written, not even the NUL. *)
Theorem C51_size_truncated_refuted : forall out fmt args text r,
  vfprintf fmt args = Some (text, r) -> vsnprintf out (2^32) fmt args = Some (out, r).
Proof. exact snprintf_4g. Qed.
Print Assumptions C51_size_truncated_refuted.

(** snprintf(out, 4, "%d!", 12345) in a 6-byte memory. *)
Example C51_example :
  vsnprintf [1;1;1;1;1;1] 4 [37;100;33] [AInt 12345] = Some ([49;50;51;0;1;1], 6) /\
  sprintf [1;1;1;1] [37;100;33] [AInt (-1)] = Some ([45;49;33;0], 3).
Proof. vm_compute. split; reflexivity. Qed.

(** C54.  Any sequence of writes and flushes, then fclose; realloc succeeds.
    Missing: streams nothing was written to, and 1 GiB or more (refuted). *)
Theorem C54_memstream_partial : forall alloc junk, (forall n, alloc n = true) -> forall ops,
  written ops <> [] -> Z.of_nat (length (written ops)) < 2^30 ->
  exists r, session alloc junk ops = Some (Some r) /\ publishes r (written ops).
Proof. exact session_ok. Qed.
Print Assumptions C54_memstream_partial.

(** fflush publishes what has been written so far. *)
Theorem C54_flush_publishes_partial : forall alloc junk, (forall n, alloc n = true) -> forall ops,
  written ops <> [] -> Z.of_nat (length (written ops)) < 2^30 ->
  exists s r, run alloc junk open_memstream (ops ++ [MFlush]) = Some s /\ published s = Some r /\
    publishes r (written ops).
Proof. exact mid_flush. Qed.
Print Assumptions C54_flush_publishes_partial.

(** A stream closed without a write publishes NULL instead of "". *)
Theorem C54_empty_stream_refuted : forall alloc junk, (forall n, alloc n = true) -> exists ops r,
  session alloc junk ops = Some (Some r) /\ ~ publishes r (written ops).
Proof. exact session_empty_ex. Qed.
Print Assumptions C54_empty_stream_refuted.

(** The 2^30-th byte shrinks the buffer to 16 bytes and is stored outside. *)
Theorem C54_one_gigabyte_refuted : forall alloc junk, (forall n, alloc n = true) -> exists ops,
  session alloc junk ops = None.
Proof. exact huge_ex. Qed.
Print Assumptions C54_one_gigabyte_refuted.

(** A failing realloc loses bytes although the write reports success. *)
Theorem C54_out_of_memory_refuted : exists alloc junk ops r,
  written ops <> [] /\ session alloc junk ops = Some (Some r) /\ ~ publishes r (written ops).
Proof. exact alloc_failure_ex. Qed.
Print Assumptions C54_out_of_memory_refuted.

Example C54_example :
  session (fun _ => true) 99 [MWrite (replicate 15 7); MFlush; MWrite [8; 9]] =
    Some (Some (Some (replicate 15 7 ++ [8; 9; 0] ++ replicate 14 99), 17)).
Proof. vm_compute. reflexivity. Qed.
