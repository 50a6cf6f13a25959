(** C44: malloc, free and realloc. *)
From stdpp Require Import base list numbers gmap.
From Verif Require Import Lib.Malloc_model Lib.Malloc_spec Lib.Malloc_proof Lib.Malloc_alloc_proof Lib.Malloc_client_proof.
Local Open Scope Z_scope.

(** Any history of allocations, releases, resizes and writes into live blocks
    (whatever the client writes there) runs to the end without touching
    unmapped memory or running forever; the live blocks are aligned, inside
    the heap and pairwise disjoint. *)
Theorem C44_history_partial : forall b lo hi ops, env_ok b lo hi -> Forall op_ok ops ->
  exists s live, run (init b lo hi) [] ops = Some (s, live) /\
    well_placed lo (cur s) live /\ cur s <= hi.
Proof. exact history_lemma. Qed.
Print Assumptions C44_history_partial.

(** The next operation leaves every block it is not applied to live and with
    unchanged contents. *)
Theorem C44_contents_kept_partial : forall b lo hi ops s live o, env_ok b lo hi -> Forall op_ok ops -> op_ok o ->
  run (init b lo hi) [] ops = Some (s, live) ->
  exists s' live', step s live o = Some (s', live') /\
    forall i p n, live !! i = Some (p, n) -> ~ touches o i ->
      (p, n) ∈ live' /\ forall k, 0 <= 16 * k < n -> content s' (p / 16 + k) = content s (p / 16 + k).
Proof. exact contents_kept_lemma. Qed.
Print Assumptions C44_contents_kept_partial.

(** realloc keeps the common prefix of the block's contents; if it returns
    NULL the old block is untouched. *)
Theorem C44_realloc_partial : forall b lo hi ops s live i p n0 n, env_ok b lo hi -> Forall op_ok ops ->
  run (init b lo hi) [] ops = Some (s, live) -> live !! i = Some (p, n0) -> 0 < n <= max_request ->
  exists s' q, realloc s p n = Some (s', q) /\
    (q = 0 /\ s' = s \/
     q <> 0 /\ forall k, 0 <= 16 * k < Z.min n n0 -> content s' (q / 16 + k) = content s (p / 16 + k)).
Proof. exact realloc_lemma. Qed.
Print Assumptions C44_realloc_partial.

(** malloc returns NULL only when the kernel cannot give the pages needed, and
    then nothing changes. *)
Theorem C44_null_only_when_exhausted_partial : forall b lo hi ops s live n, env_ok b lo hi -> Forall op_ok ops ->
  run (init b lo hi) [] ops = Some (s, live) -> 0 <= n <= max_request ->
  exists s' p, malloc s n = Some (s', p) /\ (p = 0 -> s' = s /\ hi < cur s + pages (nunits n)).
Proof. exact null_only_when_exhausted_lemma. Qed.
Print Assumptions C44_null_only_when_exhausted_partial.

(** Once everything has been released, whatever the history, the heap is whole
    again: a request for all of it (less two headers) needs no new memory. *)
Theorem C44_memory_is_reused_partial : forall b lo hi ops s n, env_ok b lo hi -> Forall op_ok ops ->
  run (init b lo hi) [] ops = Some (s, []) -> 0 <= n <= max_request -> n + 32 <= cur s - lo ->
  exists s' p, malloc s n = Some (s', p) /\ p <> 0 /\ cur s' = cur s.
Proof. exact memory_is_reused_lemma. Qed.
Print Assumptions C44_memory_is_reused_partial.

(** Three blocks, the middle one freed and reused, then a resize. *)
Example C44_example :
  option_map snd (run (init 1 4096 65536) []
    [OMalloc 100; OMalloc 40; OMalloc 3000; OFree 1; OMalloc 20; ORealloc 2 200; OMalloc 100000])
  = Some [(4768, 200); (8032, 20); (4992, 3000)].
Proof. vm_compute. reflexivity. Qed.

(** A request near SIZE_MAX wraps around: malloc answers with a block of no
    bytes at all instead of NULL. *)
Theorem C44_huge_request_refuted :
  exists s' p, malloc (init 1 4096 65536) (2^64 - 1) = Some (s', p) /\ p <> 0 /\ get s' (p / 16 - 1) = Some (0, 1).
Proof. exact huge_request_witness. Qed.
Print Assumptions C44_huge_request_refuted.

(** A slightly smaller one asks sbrk for a negative increment and then writes
    a header beyond the break. *)
Theorem C44_negative_sbrk_refuted : malloc (init 1 4096 65536) (2^64 - 8192) = None.
Proof. exact negative_sbrk_witness. Qed.
Print Assumptions C44_negative_sbrk_refuted.

(** calloc does not notice that the product overflows. *)
Theorem C44_calloc_overflow_refuted : exists nmemb size,
  0 <= nmemb < 2^64 /\ 0 <= size < 2^64 /\ calloc_bytes nmemb size < nmemb * size /\
  exists s' p, malloc (init 1 4096 65536) (calloc_bytes nmemb size) = Some (s', p) /\ p <> 0.
Proof. exact calloc_overflow_witness. Qed.
Print Assumptions C44_calloc_overflow_refuted.
