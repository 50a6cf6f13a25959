(** Specification of data buffers: byte lists; LEB128 after the WebAssembly
    core specification (section 5.2.2); nested chunks. *)
From stdpp Require Import base list numbers.
From Verif Require Import Util.Data_model.
Local Open Scope Z_scope.

(** uN ::= n (n < 2^7) => n | n m (n >= 2^7) => 2^7 m + (n - 2^7) *)
Fixpoint uleb_dec (bs : list Z) : option (Z * list Z) :=
  match bs with
  | [] => None
  | n :: bs =>
    if n <? 128 then Some (n, bs)
    else match uleb_dec bs with
         | Some (m, r) => Some (128 * m + (n - 128), r)
         | None => None
         end
  end.

(** sN ::= n (n < 2^6) => n | n (2^6 <= n < 2^7) => n - 2^7 | n m => 2^7 m + (n - 2^7) *)
Fixpoint sleb_dec (bs : list Z) : option (Z * list Z) :=
  match bs with
  | [] => None
  | n :: bs =>
    if n <? 64 then Some (n, bs)
    else if n <? 128 then Some (n - 128, bs)
    else match sleb_dec bs with
         | Some (m, r) => Some (128 * m + (n - 128), r)
         | None => None
         end
  end.

Definition is_byte (b : Z) : Prop := 0 <= b < 256.

(** Buffer operations on byte lists; [None] when the precondition fails
    (position past the end). *)
Definition sdstep (l : list Z) (o : dop) : option (list Z) :=
  match o with
  | DInsert p bs => if (p <=? length l)%nat then Some (firstn p l ++ bs ++ skipn p l) else None
  | DAppend bs => Some (l ++ bs)
  | DPush c => Some (l ++ [c mod 256])
  | DAlign a =>
    (* zero-pad to the next multiple of [a] *)
    Some (l ++ repeat 0 (Z.to_nat ((- Z.of_nat (length l)) mod a)))
  | DConcat bs => Some (l ++ bs)
  end.

Fixpoint sdrun (l : list Z) (ops : list dop) : option (list Z) :=
  match ops with
  | [] => Some l
  | o :: ops => match sdstep l o with Some l => sdrun l ops | None => None end
  end.

(** Alignments are powers of two that fit an [int]. *)
Definition align_ok (o : dop) : Prop :=
  match o with DAlign a => exists k, 0 <= k < 31 /\ a = 2^k | _ => True end.

(** Nested chunks: a sequence of raw bytes, chunks whose size prefix is
    measured ([num = -1]) and chunks with an explicit count. *)
Inductive chunks :=
  | CNil
  | CRaw (bs : list Z) (next : chunks)
  | CChunk (inner next : chunks)
  | CCounted (num : Z) (inner next : chunks).

(** [p] is an unsigned LEB128 encoding of [n] (whatever follows it). *)
Definition uleb_of (n : Z) (p : list Z) : Prop :=
  forall rest, uleb_dec (p ++ rest) = Some (n, rest).

(** Well-formed byte images of a chunk sequence. *)
Inductive wire : chunks -> list Z -> Prop :=
  | wire_nil : wire CNil []
  | wire_raw bs c r : wire c r -> wire (CRaw bs c) (bs ++ r)
  | wire_chunk ci cn p body r :
      wire ci body -> wire cn r -> uleb_of (Z.of_nat (length body)) p ->
      wire (CChunk ci cn) (p ++ body ++ r)
  | wire_counted n ci cn p body r :
      wire ci body -> wire cn r -> uleb_of n p ->
      wire (CCounted n ci cn) (p ++ body ++ r).

(** The emission of a chunk sequence by the client. *)
Fixpoint emit (d : data) (c : chunks) : option data :=
  match c with
  | CNil => Some d
  | CRaw bs c => d ← data_append d bs; emit d c
  | CChunk ci cn =>
    d ← emit (data_open_chunk d) ci; d ← data_close_chunk d (-1); emit d cn
  | CCounted n ci cn =>
    d ← emit (data_open_chunk d) ci; d ← data_close_chunk d n; emit d cn
  end.

Fixpoint counts_ok (c : chunks) : Prop :=
  match c with
  | CNil => True
  | CRaw _ c => counts_ok c
  | CChunk ci cn => counts_ok ci /\ counts_ok cn
  | CCounted n ci cn => 0 <= n < 2^63 /\ counts_ok ci /\ counts_ok cn
  end.

(** An upper bound of the image size: the contents plus ten bytes per prefix. *)
Fixpoint csize (c : chunks) : Z :=
  match c with
  | CNil => 0
  | CRaw bs c => Z.of_nat (length bs) + csize c
  | CChunk ci cn => 10 + csize ci + csize cn
  | CCounted _ ci cn => 10 + csize ci + csize cn
  end.

(** Buffers never reach 2^63 bytes (no machine has that much memory). *)
Fixpoint sizes_ok (l : list Z) (ops : list dop) : Prop :=
  Z.of_nat (length l) < 2^63 /\
  match ops with
  | [] => True
  | o :: ops => match sdstep l o with Some l => sizes_ok l ops | None => True end
  end.
