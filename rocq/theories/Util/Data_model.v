(** Model of DataStorage, src/util/util.c:427-555 and src/util/util.h:81-86.

    Bytes are [Z] in [0,256).  [d_buf] has exactly [capacity] cells, never
    written ones being [None].  Out-of-bounds accesses, failed asserts and
    local-buffer overflows give [None].  [size_t] lengths do not overflow and
    [realloc] never fails. *)
From stdpp Require Import base list numbers.
From Verif Require Import Util.Mem.
Local Open Scope Z_scope.

Record data := Data { d_stack : list nat; d_buf : list (option Z); d_len : nat }.

(** src/util/util.c:440-445 data_init.  (A NULL chunk stack is the empty one.) *)
Definition data_init : data := Data [] [] 0.

(** src/util/util.c:447-458 data_reserve. *)
Definition data_reserve (d : data) (capacity : nat) : data :=
  let cur := length (d_buf d) in
  if decide (cur < capacity)%nat then
    let c := (cur * 2)%nat in
    let capacity := if decide (capacity < c)%nat then c else capacity in
    let capacity := if decide (capacity < 16)%nat then 16%nat else capacity in
    Data (d_stack d) (d_buf d ++ replicate (capacity - cur) None) (d_len d)
  else d.

(** src/util/util.c:460-469 data_insert; [pos = None] is -1. *)
Definition data_insert (d : data) (pos : option nat) (bytes : list Z) : option data :=
  let pos := default (d_len d) pos in
  if decide (pos <= d_len d)%nat then
    let newlen := (d_len d + length bytes)%nat in
    let d := data_reserve d newlen in
    b ← (if decide (pos < d_len d)%nat
         then memmove (d_buf d) (pos + length bytes) pos (d_len d - pos)
         else Some (d_buf d));
    b ← splice b pos (map Some bytes);
    Some (Data (d_stack d) b newlen)
  else None.

(** src/util/util.c:471-473 data_append. *)
Definition data_append (d : data) (bytes : list Z) : option data := data_insert d None bytes.

(** src/util/util.c:475-478 data_push; the argument is converted to unsigned char. *)
Definition data_push (d : data) (c : Z) : option data := data_insert d None [c mod 256].

(** src/util/util.h:13 ALIGN on size_t: [-(align)] is computed as [int] and
    sign-extended. *)
Definition ALIGN (x align : Z) : Z :=
  Z.land ((x + align - 1) mod 2^64) ((- align) mod 2^64).

(** src/util/util.c:480-492 data_align. *)
Definition data_align (d : data) (align : Z) : option data :=
  let len := Z.of_nat (d_len d) in
  let aligned_len := ALIGN len align in
  let add := (aligned_len - len) mod 2^64 in
  if decide (add <= 0) then Some d
  else
    d ← data_append d (replicate (Z.to_nat add) 0);
    if decide (Z.of_nat (d_len d) = aligned_len) then Some d else None.

(** src/util/util.c:494-496 data_concat ([src] given by its contents). *)
Definition data_concat (d : data) (src : list Z) : option data := data_insert d None src.

(** src/util/util.c:498-510 data_leb128, the loop filling [buf]; [room] is the
    number of free cells of the 12-byte local buffer.  [>>] on int64_t is
    arithmetic. *)
Fixpoint leb_loop (room : nat) (val : Z) : option (list Z) :=
  match room with
  | O => None
  | S room =>
    if (val <? 64) && (val >=? -64) then Some [Z.land val 127]
    else bs ← leb_loop room (Z.shiftr val 7);
         Some (Z.lor (Z.land val 127) 128 :: bs)
  end.
Definition data_leb128 (d : data) (pos : option nat) (val : Z) : option data :=
  bs ← leb_loop 12 val; data_insert d pos bs.

(** src/util/util.c:512-524 data_uleb128. *)
Fixpoint uleb_loop (room : nat) (val : Z) : option (list Z) :=
  match room with
  | O => None
  | S room =>
    if val <? 128 then Some [Z.land val 127]
    else bs ← uleb_loop room (Z.shiftr val 7);
         Some (Z.lor (Z.land val 127) 128 :: bs)
  end.
Definition data_uleb128 (d : data) (pos : option nat) (val : Z) : option data :=
  bs ← uleb_loop 12 (val mod 2^64); data_insert d pos bs.

(** src/util/util.c:526-529 data_string. *)
Definition data_string (d : data) (str : list Z) : option data :=
  d ← data_uleb128 d None (Z.of_nat (length str));
  data_append d str.

(** src/util/util.c:531-539 data_varuint32: four continued groups and a last one. *)
Fixpoint varuint_loop (i : nat) (val : Z) : list Z :=
  match i with
  | O => [Z.land val 127]
  | S i => Z.lor (Z.land val 127) 128 :: varuint_loop i (Z.shiftr val 7)
  end.
Definition data_varuint32 (d : data) (pos : option nat) (val : Z) : option data :=
  data_insert d pos (varuint_loop 4 (val mod 2^64)).

(** src/util/util.c:541-546 data_open_chunk. *)
Definition data_open_chunk (d : data) : data := Data (d_len d :: d_stack d) (d_buf d) (d_len d).

(** src/util/util.c:548-555 data_close_chunk; [num] is a ssize_t. *)
Definition data_close_chunk (d : data) (num : Z) : option data :=
  match d_stack d with
  | [] => None
  | pos :: st =>
    let num := if decide (num = -1) then (Z.of_nat (d_len d) - Z.of_nat pos) mod 2^64 else num in
    data_uleb128 (Data st (d_buf d) (d_len d)) (Some pos) num
  end.

(** The emitted bytes, [buf[0..len)]. *)
Definition contents (d : data) : list (option Z) := take (d_len d) (d_buf d).
Definition bytes_of (d : data) (bs : list Z) : Prop := contents d = map Some bs.

Inductive dop :=
  | DInsert (pos : nat) (bs : list Z) | DAppend (bs : list Z) | DPush (c : Z)
  | DAlign (align : Z) | DConcat (bs : list Z).

Definition dstep (d : data) (o : dop) : option data :=
  match o with
  | DInsert p bs => data_insert d (Some p) bs
  | DAppend bs => data_append d bs
  | DPush c => data_push d c
  | DAlign a => data_align d a
  | DConcat bs => data_concat d bs
  end.

Fixpoint drun (d : data) (ops : list dop) : option data :=
  match ops with
  | [] => Some d
  | o :: ops => d ← dstep d o; drun d ops
  end.
