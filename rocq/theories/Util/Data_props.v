(** Property theorems C05, C06, C08: data buffers, LEB128, chunks. *)
From stdpp Require Import base list numbers.
From Verif Require Import Util.Data_model Util.Data_spec Util.Data_proof.
Local Open Scope Z_scope.

(** C05: a run of buffer operations allowed by the specification succeeds and
    leaves exactly the specified bytes. *)
Theorem C05_data_refines_bytes : forall ops l,
  Forall align_ok ops -> sizes_ok [] ops -> sdrun [] ops = Some l ->
  exists d, drun data_init ops = Some d /\ bytes_of d l.
Proof. exact data_refines_bytes. Qed.
Print Assumptions C05_data_refines_bytes.

Example C05_example :
  let ops := [DAppend [1;2;3]; DAlign 8; DInsert 1 [7;8]; DPush 300; DConcat [5]] in
  Forall align_ok ops /\ sizes_ok [] ops /\
  sdrun [] ops = Some [1;7;8;2;3;0;0;0;0;0;44;5].
Proof.
  split; [|split; [vm_compute; repeat split|reflexivity]].
  repeat constructor. exists 3. split; [split; reflexivity || (intro; discriminate)|reflexivity].
Qed.

(** C06: LEB128.  Inserted at any position of any reachable buffer, the encoder
    succeeds within its 12-byte scratch buffer, moves the neighbouring bytes
    only, and the inserted bytes decode to the value whatever follows. *)
Theorem C06_uleb128_roundtrip : forall ops d l pos v,
  Forall align_ok ops -> sizes_ok [] ops -> drun data_init ops = Some d -> sdrun [] ops = Some l ->
  (pos <= length l)%nat -> 0 <= v < 2^64 ->
  exists d' bs, data_uleb128 d (Some pos) v = Some d' /\
    bytes_of d' (firstn pos l ++ bs ++ skipn pos l) /\ (length bs <= 10)%nat /\
    Forall is_byte bs /\ uleb_of v bs.
Proof. exact uleb_insert. Qed.
Print Assumptions C06_uleb128_roundtrip.

Theorem C06_leb128_roundtrip : forall ops d l pos v,
  Forall align_ok ops -> sizes_ok [] ops -> drun data_init ops = Some d -> sdrun [] ops = Some l ->
  (pos <= length l)%nat -> -2^63 <= v < 2^63 ->
  exists d' bs, data_leb128 d (Some pos) v = Some d' /\
    bytes_of d' (firstn pos l ++ bs ++ skipn pos l) /\ (length bs <= 10)%nat /\
    Forall is_byte bs /\ forall rest, sleb_dec (bs ++ rest) = Some (v, rest).
Proof. exact leb_insert. Qed.
Print Assumptions C06_leb128_roundtrip.

Theorem C06_varuint32_roundtrip : forall ops d l pos v,
  Forall align_ok ops -> sizes_ok [] ops -> drun data_init ops = Some d -> sdrun [] ops = Some l ->
  (pos <= length l)%nat -> 0 <= v < 2^32 ->
  exists d' bs, data_varuint32 d (Some pos) v = Some d' /\
    bytes_of d' (firstn pos l ++ bs ++ skipn pos l) /\ length bs = 5%nat /\
    Forall is_byte bs /\ uleb_of v bs.
Proof. exact varuint32_insert. Qed.
Print Assumptions C06_varuint32_roundtrip.

Example C06_example :
  leb_loop 12 (-624485) = Some [155; 241; 89] /\ sleb_dec [155; 241; 89; 7] = Some (-624485, [7]) /\
  uleb_loop 12 (2^64 - 1) = Some [255;255;255;255;255;255;255;255;255;1] /\
  varuint_loop 4 300 = [172; 130; 128; 128; 0].
Proof. vm_compute. auto. Qed.

(** C08: any properly nested sequence of chunks is laid out as length-prefixed
    sections. *)
Theorem C08_chunks_well_formed : forall c, counts_ok c -> csize c < 2^63 ->
  exists d w, emit data_init c = Some d /\ bytes_of d w /\ wire c w /\ d_stack d = [].
Proof. exact chunks_well_formed. Qed.
Print Assumptions C08_chunks_well_formed.

Example C08_example :
  let c := CRaw [0;97] (CChunk (CRaw [1] (CChunk (CRaw [5;6] CNil) (CCounted 300 (CRaw [9] CNil) CNil))) CNil) in
  (counts_ok c /\ csize c < 2^63) /\
  (d ← emit data_init c; Some (contents d)) = Some (map Some [0;97;7;1;2;5;6;172;2;9]).
Proof. vm_compute. repeat split; intro; discriminate. Qed.
