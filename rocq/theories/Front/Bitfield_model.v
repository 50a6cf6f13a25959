(** src/cc/frontend/fe_misc.c:1066-1178, 1619-1646: the expressions the compiler makes for
    bit-field accesses, as what the compiled program computes.
    Simplifications: an expression of an integer type is computed in a register of the size
    of the type, but at least MINREGSIZE; the address is evaluated once into a temporary and
    is left out: the storage unit is [u]. *)
From stdpp Require Import base list numbers.
Open Scope Z_scope.

(** An integer type: bits and signedness. *)
Record ity := Ity { bits : Z; unsigned : bool }.
(** The value of an [n]-bit register. *)
Definition value (n : Z) (uns : bool) (z : Z) : Z :=
  if uns then z mod 2 ^ n else (z + 2 ^ (n - 1)) mod 2 ^ n - 2 ^ (n - 1).

Section access.
  (** config.h:92-103 MINREGSIZE. *)
  Context (minregsize : Z).
  Definition reg (t : ity) : Z := Z.max (bits t) (minregsize * 8).
  Definition calc (t : ity) (z : Z) : Z := value (reg t) (unsigned t) z.

  (** codegen_expr.c:173-223 gen_cast: a cast to a wider type extends from the size of the
      source type by its signedness; others keep the register. *)
  Definition cast (src dst : ity) (z : Z) : Z :=
    if bits src <? bits dst then value (bits src) (unsigned src) z else calc dst z.

  (** A bit-field: declared type, type of the storage unit (base_kind with the signedness of
      the declared type), position and width. *)
  Record field := Field { f_type : ity; f_unit : ity; f_pos : Z; f_width : Z }.

  (** ((UFixnum)1 << width) - 1: a shift by 64 is undefined. *)
  Definition mask (w : Z) : option Z := if w <? 64 then Some (2 ^ w - 1) else None.

  (** fe_misc.c:1066-1089 extract_bitfield_value; [src] is the value of the unit. *)
  Definition extract (f : field) (src : Z) : option Z :=
    let t := f_unit f in
    if unsigned t then
      let tmp := if 0 <? f_pos f then calc t (Z.shiftr src (f_pos f)) else src in
      m ← mask (f_width f); Some (cast t (f_type f) (calc t (Z.land tmp m)))
    else
      let w := reg t in
      let l := w - (f_pos f + f_width f) in
      let tmp := if 0 <? l then calc t (Z.shiftl src l) else src in
      Some (cast t (f_type f) (if f_width f <? w then calc t (Z.shiftr tmp (w - f_width f)) else tmp)).

  (** fe_misc.c:1091-1107 assign_bitfield_member: the new value of the unit; [src] is the old
      one and [val] has type [vtype]. *)
  Definition assign_member (f : field) (src : Z) (vtype : ity) (val : Z) : option Z :=
    let t := f_unit f in
    m ← mask (f_width f);
    let val_masked := cast vtype t (calc vtype (Z.land val m)) in
    let val_masked := if 0 <? f_pos f then calc t (Z.shiftl val_masked (f_pos f)) else val_masked in
    let src_masked := calc t (Z.land src (Z.lnot (Z.shiftl m (f_pos f)))) in
    Some (calc t (Z.lor val_masked src_masked)).

  (** The unit in memory: read with the signedness of the field, written modulo its size. *)
  Definition fetch (f : field) (u : Z) : Z := value (bits (f_unit f)) (unsigned (f_unit f)) u.
  Definition store (f : field) (z : Z) : Z := z mod 2 ^ bits (f_unit f).

  (** Reading a member: codegen_expr.c:591-597 loads the unit and extracts. *)
  Definition read_field (f : field) (u : Z) : option Z := extract f (fetch f u).

  (** fe_misc.c:1109-1128 assign_to_bitfield: the new unit and the value of the expression;
      [val] has been converted to the declared type (parser_expr.c:547). *)
  Definition assign_to (f : field) (u : Z) (val : Z) : option (Z * Z) :=
    z ← assign_member f (fetch f u) (f_type f) val;
    Some (store f z, val).

  (** fe_misc.c:1130-1178 transform_incdec_of_bitfield; [d] is 1 or -1.  1 << position is an
      int shift: undefined from 31 on. *)
  Definition postfix_incdec (f : field) (u : Z) (d : Z) : option (Z * Z) :=
    let src := fetch f u in
    before ← extract f src;
    let after := calc (f_unit f) (before + d) in
    z ← assign_member f src (f_unit f) after;
    Some (store f z, before).
  Definition prefix_incdec (f : field) (u : Z) (d : Z) : option (Z * Z) :=
    let src := fetch f u in
    if f_pos f <? 31 then
      val ← extract f (calc (f_unit f) (src + d * 2 ^ f_pos f));
      z ← assign_member f src (f_type f) val;
      Some (store f z, val)
    else None.

  (** fe_misc.c:1618-1645 transform_assign_with_bitfield; [op] computes, in the type [rt],
      from the old value and the right operand. *)
  Definition compound_assign (f : field) (u : Z) (rt : ity) (op : Z -> Z) : option (Z * Z) :=
    let src := fetch f u in
    old ← extract f src;
    z ← assign_member f src rt (calc rt (op old));
    let u' := store f z in
    r ← extract f (fetch f u');
    Some (u', r).
End access.
