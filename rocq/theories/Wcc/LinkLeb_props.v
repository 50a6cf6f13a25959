(** Property theorem C07: the wasm linker's LEB128 readers. *)
From stdpp Require Import base list numbers.
From Verif Require Import Util.Data_model Wcc.LinkLeb_model Wcc.LinkLeb_proof.
Local Open Scope Z_scope.

(** C07 holds for 0 <= v < 2^31 (encodings written by data_uleb128,
    data_varuint32 and data_leb128); missing: larger unsigned and negative
    signed values, where it is false (below). *)
Theorem C07_uleb_reader_partial : forall v bs rest, 0 <= v < 2^31 -> uleb_loop 12 v = Some bs ->
  read_uleb128 (bs ++ rest) = Some (v, rest).
Proof. exact link_uleb_roundtrip. Qed.
Print Assumptions C07_uleb_reader_partial.

Theorem C07_varuint32_reader_partial : forall v rest, 0 <= v < 2^31 ->
  read_uleb128 (varuint_loop 4 v ++ rest) = Some (v, rest).
Proof. exact link_varuint_roundtrip. Qed.
Print Assumptions C07_varuint32_reader_partial.

Theorem C07_leb_reader_partial : forall v bs rest, 0 <= v < 2^31 -> leb_loop 12 v = Some bs ->
  read_leb128 (bs ++ rest) = Some (v, rest).
Proof. exact link_leb_roundtrip. Qed.
Print Assumptions C07_leb_reader_partial.

Example C07_example :
  uleb_loop 12 2147483647 = Some [255;255;255;255;7] /\
  read_uleb128 [255;255;255;255;7;42] = Some (2147483647, [42]) /\
  leb_loop 12 300 = Some [172; 2] /\ read_leb128 [172; 2; 1] = Some (300, [1]).
Proof. vm_compute. auto. Qed.

(** A negative number is read back wrongly: -1 is read as 126. *)
Theorem C07_leb_reader_refuted :
  exists v bs, -2^31 <= v < 2^31 /\ leb_loop 12 v = Some bs /\ read_leb128 bs = Some (126, []) /\ v = -1.
Proof. exact link_leb_negative_wrong. Qed.
Print Assumptions C07_leb_reader_refuted.

(** For some value of 32 bits the unsigned reader shifts an [int] out of range. *)
Theorem C07_uleb_reader_refuted :
  exists v bs, 0 <= v < 2^32 /\ uleb_loop 12 v = Some bs /\ read_uleb128 bs = None.
Proof. exact link_uleb_large_undefined. Qed.
Print Assumptions C07_uleb_reader_refuted.
