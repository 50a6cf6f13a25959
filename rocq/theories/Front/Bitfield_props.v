(** C20, C87: reading and writing bit-fields. *)
From stdpp Require Import base list numbers.
From Verif Require Import Front.Layout_model Front.Bitfield_model Front.Bitfield_spec Front.Bitfield_proof.
Open Scope Z_scope.

Theorem C20_read minregsize f u : good f -> read_field minregsize f u = Some (contents f u).
Proof. exact (read_ok minregsize f u). Qed.
Print Assumptions C20_read.

(** Missing: fields of width 64, and signed fields as wide as their type in a wider unit, for
    which the statement fails (below). *)
Theorem C20_store_partial minregsize f u v : good f -> roomy f (f_type f) ->
  exists u', assign_to minregsize f u v = Some (u', v) /\ read_field minregsize f u' = Some (wrapped f v) /\
    (forall g, neighbour f g -> read_field minregsize g u' = read_field minregsize g u) /\
    (forall i, 0 <= i < bits (f_unit f) -> ~ f_pos f <= i < f_pos f + f_width f -> Z.testbit u' i = Z.testbit u i).
Proof. exact (store_effects minregsize f u v). Qed.
Print Assumptions C20_store_partial.

Theorem C20_neighbour_refuted minregsize : minregsize = 1 \/ minregsize = 4 ->
  let char := Ity 8 false in let short := Ity 16 false in
  let b := Field char short 4 8 in let c := Field char short 12 4 in
  good b /\ neighbour b c /\
  exists u', assign_to minregsize b 0 (-1) = Some (u', -1) /\ read_field minregsize c 0 = Some 0 /\ read_field minregsize c u' = Some (-1).
Proof. exact (neighbour_lost minregsize). Qed.
Print Assumptions C20_neighbour_refuted.
(** The layout of struct { char a : 4, b : 8, c : 4; } has these fields. *)
Example C20_neighbour_layout : exists pls,
  struct_layout true false [(TyFix FX_CHAR, Some 4); (TyFix FX_CHAR, Some 8); (TyFix FX_CHAR, Some 4)] = Some (pls, 2, 2) /\
  position <$> pls = [0; 4; 12] /\ base_kind <$> pls = [FX_SHORT; FX_SHORT; FX_SHORT].
Proof. by eexists. Qed.
Theorem C20_width_64_refuted minregsize t pos u v : assign_to minregsize (Field t t pos 64) u v = None.
Proof. exact (width_64 minregsize t pos u v). Qed.
Print Assumptions C20_width_64_refuted.

Example C20_example :
  let f := Field (Ity 32 false) (Ity 8 false) 3 4 in
  good f /\ roomy f (f_type f) /\ assign_to 1 f 0xff 21 = Some (0xaf, 21) /\ read_field 1 f 0xaf = Some 5.
Proof. split; [unfold good; cbn; lia|]. split; [right; left; cbn; lia|]. by split. Qed.

Theorem C87_postfix minregsize f u d : good f ->
  exists u', postfix_incdec minregsize f u d = Some (u', contents f u) /\
    read_field minregsize f u' = Some (wrapped f (contents f u + d)) /\
    (forall g, neighbour f g -> read_field minregsize g u' = read_field minregsize g u).
Proof. exact (postfix_effects minregsize f u d). Qed.
Print Assumptions C87_postfix.

Theorem C87_prefix_partial minregsize f u d : good f -> roomy f (f_type f) -> f_pos f < 31 ->
  exists u', prefix_incdec minregsize f u d = Some (u', wrapped f (contents f u + d)) /\
    read_field minregsize f u' = Some (wrapped f (contents f u + d)) /\
    (forall g, neighbour f g -> read_field minregsize g u' = read_field minregsize g u).
Proof. exact (prefix_effects minregsize f u d). Qed.
Print Assumptions C87_prefix_partial.

Theorem C87_compound_partial minregsize f u rt op : good f -> f_width f <= bits rt -> roomy f rt ->
  exists u', compound_assign minregsize f u rt op = Some (u', wrapped f (op (contents f u))) /\
    read_field minregsize f u' = Some (wrapped f (op (contents f u))) /\
    (forall g, neighbour f g -> read_field minregsize g u' = read_field minregsize g u).
Proof. exact (compound_effects minregsize f u rt op). Qed.
Print Assumptions C87_compound_partial.

Theorem C87_assign_refuted minregsize : minregsize = 1 \/ minregsize = 4 ->
  let f := Field (Ity 32 true) (Ity 32 true) 0 4 in
  assign_to minregsize f 0 18 = Some (2, 18) /\ read_field minregsize f 2 = Some 2.
Proof. exact (value_not_stored minregsize). Qed.
Print Assumptions C87_assign_refuted.
Theorem C87_prefix_refuted minregsize f u d : 31 <= f_pos f -> prefix_incdec minregsize f u d = None.
Proof. exact (prefix_undefined minregsize f u d). Qed.
Print Assumptions C87_prefix_refuted.

(** A 3-bit signed field holding 3 at position 2 of a byte: ++ gives -4. *)
Example C87_example :
  let f := Field (Ity 32 false) (Ity 8 false) 2 3 in
  prefix_incdec 4 f 0x4d 1 = Some (0x51, -4) /\ postfix_incdec 4 f 0x4d 1 = Some (0x51, 3) /\
  compound_assign 4 f 0x4d (Ity 32 false) (fun x => x * 3) = Some (0x45, 1).
Proof. by vm_compute. Qed.
