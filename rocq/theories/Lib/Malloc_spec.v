(** What a client of malloc relies on. *)
From stdpp Require Import base list numbers gmap.
From Verif Require Import Lib.Malloc_model.
Local Open Scope Z_scope.

(** A reasonable environment: the break starts 16-byte aligned, above the
    static variable, and at most 64 GiB of heap are available. *)
Definition env_ok (b lo hi : Z) : Prop :=
  0 < lo /\ lo mod 16 = 0 /\ b < lo / 16 /\ lo <= hi /\ hi < 2^62 /\ hi - lo < 2^36.

(** The largest request for which no size_t/intptr_t computation wraps. *)
Definition max_request : Z := 2^63 - 8192.
Definition op_ok (o : op) : Prop :=
  match o with
  | OMalloc n | ORealloc _ n => 0 <= n <= max_request
  | _ => True
  end.

(** Blocks are aligned, inside the heap, and pairwise disjoint. *)
Definition well_placed (lo cur : Z) (live : list (Z * Z)) : Prop :=
  (forall p n, (p, n) ∈ live -> p mod 16 = 0 /\ lo < p /\ p + n <= cur) /\
  (forall i j p n q m, i <> j -> live !! i = Some (p, n) -> live !! j = Some (q, m) ->
     p <> q /\ (p + n <= q \/ q + m <= p)).

(** The 16 bytes of unit [u]. *)
Definition content (s : st) (u : Z) : unit_ := default (Data 0) (mem s !! u).

(** Does the operation change or give up block [i]? *)
Definition touches (o : op) (i : nat) : Prop :=
  match o with
  | OMalloc _ => False
  | OFree j | ORealloc j _ | OWrite j _ _ => i = j
  end.
