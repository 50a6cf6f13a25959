(** src/cc/frontend/type.c: sizes, alignments and the layout of structs and unions.
    Simplifications: size_t arithmetic does not wrap around (no object of 2^63 bytes);
    qualifiers, names and function parameters play no part and are left out; variable
    length arrays and auto, for which type_size asserts, are left out.  A struct keeps its
    layout in StructInfo once computed; here it is computed each time. *)
From stdpp Require Import base list numbers.
Open Scope Z_scope.

(** type.h:17-25. *)
Inductive fk := FX_CHAR | FX_SHORT | FX_INT | FX_LONG | FX_LLONG | FX_ENUM | FX_BOOL.
#[global] Instance fk_dec : EqDecision fk. Proof. solve_decision. Defined.
(** type.h:29-33. *)
Inductive flk := FL_FLOAT | FL_DOUBLE | FL_LDOUBLE.

(** type.h:55-76, 82-117.  A bit-field carries its width. *)
Inductive ty :=
| TyVoid | TyFunc | TyPtr
| TyFix (k : fk) | TyFlo (k : flk)
| TyArr (t : ty) (len : Z)
| TyFam (t : ty) (* LEN_FAM, a flexible array member *)
| TyStruct (is_union : bool) (ms : list (ty * option Z)).

(** util.h:13 ALIGN. *)
Definition ALIGN (x align : Z) : Z := Z.land (x + align - 1) (- align).

(** What the layout of a struct uses of a member: the kind of an integer type, size and
    alignment of the type, and the width of a bit-field. *)
Record mem := Mem { m_kind : option fk; m_size : Z; m_align : Z; m_width : option Z }.
(** MemberInfo after the layout: offset, bitfield.position and bitfield.base_kind. *)
Record placed := Placed { offset : Z; position : Z; base_kind : fk }.

Section layout.
  (** Size of long and of pointers: 8 on the 64-bit targets, 4 for wcc. *)
  Context (lp64 : bool).

  (** type.c:43-44, and wcc.c:110-115. *)
  Definition fixnum_size (k : fk) : Z :=
    match k with
    | FX_CHAR => 1 | FX_SHORT => 2 | FX_INT => 4
    | FX_LONG => if lp64 then 8 else 4
    | FX_LLONG => 8 | FX_ENUM => 4 | FX_BOOL => 4
    end.
  Definition fixnum_align (k : fk) : Z := fixnum_size k.
  (** type.c:46-47. *)
  Definition flonum_size (k : flk) : Z := match k with FL_FLOAT => 4 | FL_DOUBLE => 8 | FL_LDOUBLE => 8 end.
  Definition flonum_align (k : flk) : Z := flonum_size k.

  (** get_fixnum_type (type.c:261-264) asserts kind <= FX_LLONG. *)
  Definition plain (k : fk) : bool := match k with FX_ENUM | FX_BOOL => false | _ => true end.

  (** The kinds after [k], up to FX_LLONG. *)
  Definition after (k : fk) : list fk :=
    match k with
    | FX_CHAR => [FX_SHORT; FX_INT; FX_LONG; FX_LLONG]
    | FX_SHORT => [FX_INT; FX_LONG; FX_LLONG]
    | FX_INT => [FX_LONG; FX_LLONG]
    | FX_LONG => [FX_LLONG]
    | _ => []
    end.

  (** type.c:65-89: the kind to start with; [align] is that of the type of the first
      field.  [None]: FX_BOOL, for which get_fixnum_type asserts. *)
  Definition initial_kind (k : fk) (size align : Z) : option fk :=
    let remain := size mod align in
    if remain =? 0 then
      let kind := match k with FX_ENUM => FX_INT | _ => k end in
      if plain kind then Some kind else None
    else
      (* 74-75: the lowest bit set *)
      let s := Z.land remain (- remain) in
      if s - fixnum_size FX_INT <? 0 then
        Some (if fixnum_size FX_INT <=? s then FX_INT else if fixnum_size FX_SHORT <=? s then FX_SHORT else FX_CHAR)
      else
        Some (if s <=? fixnum_size FX_INT then FX_INT else if s <=? fixnum_size FX_LONG then FX_LONG else FX_LLONG).

  (** type.c:102-113: a wider kind in which [need] bits fit. *)
  Fixpoint widen (ks : list fk) (need : Z) : option fk :=
    match ks with
    | [] => None
    | k :: ks => if need <=? fixnum_size k * 8 then Some k else widen ks need
    end.

  (** type.c:91-117: the fields that share a unit; gives their positions, the kind of the
      unit and the members left. *)
  Fixpoint pack (k : fk) (bit_position : Z) (ms : list mem) : list Z * fk * list mem :=
    match ms with
    | [] => ([], k, [])
    | m :: ms' =>
      if bit_position =? fixnum_size k * 8 then ([], k, ms)
      else
        let width := default 0 (m_width m) in
        if width <=? 0 then ([], k, ms)
        else
          let next := if fixnum_size k * 8 <? bit_position + width then widen (after k) (bit_position + width) else Some k in
          match next with
          | None => ([], k, ms)
          | Some k' => let '(ps, kf, rest) := pack k' (bit_position + width) ms' in (bit_position :: ps, kf, rest)
          end
    end.

  (** One step of the loop of calc_struct_size (148-180) for a struct: the members placed,
      the members left, the new size and the alignment; calc_bitfield_size is 55-138. *)
  Definition place (m : mem) (ms : list mem) (size : Z) : option (list placed * list mem * Z * Z) :=
    match m_width m with
    | None =>
      let size := ALIGN size (m_align m) in
      Some ([Placed size 0 FX_CHAR], ms, size + m_size m, m_align m)
    | Some w =>
      if w =? 0 then Some ([Placed 0 0 FX_CHAR], ms, size, 1)
      else
        match m_kind m with
        | Some kind =>
          match initial_kind kind size (m_align m) with
          | None => None
          | Some k0 =>
            let '(ps, k, rest) := pack k0 0 (m :: ms) in
            let size := ALIGN size (fixnum_align k) in
            Some ((fun p => Placed size p k) <$> ps, rest, size + fixnum_size k, fixnum_align k)
          end
        | None => None (* parser_type.c:89-92: only integer types have a width *)
        end
    end.
  (** The loop with is_union false. *)
  Fixpoint layout (fuel : nat) (ms : list mem) (size max_align : Z) : option (list placed * Z * Z) :=
    match ms with
    | [] => Some ([], ALIGN size max_align, max_align)
    | m :: ms' =>
      match fuel with
      | O => None
      | S fuel =>
        match place m ms' size with
        | None => None
        | Some (pl, rest, size', align) =>
          match layout fuel rest size' (Z.max max_align align) with
          | None => None
          | Some (pls, s, a) => Some (pl ++ pls, s, a)
          end
        end
      end
    end.
  (** The loop with is_union true: 165-177; base_kind of a bit-field is that of its type. *)
  Fixpoint layout_union (ms : list mem) (size max_align : Z) : list placed * Z * Z :=
    match ms with
    | [] => ([], ALIGN size max_align, max_align)
    | m :: ms' =>
      let bit := 0 <? default 0 (m_width m) in
      let align := if bit then 1 else m_align m in
      let '(pls, s, a) := layout_union ms' (Z.max size (m_size m)) (Z.max max_align align) in
      (Placed 0 0 (if bit then default FX_CHAR (m_kind m) else FX_CHAR) :: pls, s, a)
    end.
  (** type.c:140-185 calc_struct_size. *)
  Definition calc_struct_size (is_union : bool) (ms : list mem) : option (list placed * Z * Z) :=
    if is_union then Some (layout_union ms 0 1) else layout (length ms) ms 0 1.

  (** type.c:187-212 type_size and 214-234 align_size, together; [None] when the layout of
      a struct inside ends in an assertion. *)
  Fixpoint size_align (t : ty) : option (Z * Z) :=
    match t with
    | TyVoid | TyFunc => Some (1, 1)
    | TyPtr => Some (fixnum_size FX_LONG, fixnum_align FX_LONG)
    | TyFix k => Some (fixnum_size k, fixnum_align k)
    | TyFlo k => Some (flonum_size k, flonum_align k)
    | TyArr t len => match size_align t with Some (s, a) => Some (s * len, a) | None => None end
    | TyFam t => match size_align t with Some (s, a) => Some (0, a) | None => None end
    | TyStruct u ms =>
      let mems := (fix mems (ms : list (ty * option Z)) : option (list mem) :=
        match ms with
        | [] => Some []
        | (t, bf) :: ms =>
          match size_align t, mems ms with
          | Some (s, a), Some l => Some (Mem (match t with TyFix k => Some k | _ => None end) s a bf :: l)
          | _, _ => None
          end
        end) in
      match mems ms with
      | None => None
      | Some l => match calc_struct_size u l with Some (_, s, a) => Some (s, a) | None => None end
      end
    end.
  Fixpoint members (ms : list (ty * option Z)) : option (list mem) :=
    match ms with
    | [] => Some []
    | (t, bf) :: ms =>
      match size_align t, members ms with
      | Some (s, a), Some l => Some (Mem (match t with TyFix k => Some k | _ => None end) s a bf :: l)
      | _, _ => None
      end
    end.
  (** create_struct_info (343-353): where the members of a struct or union are. *)
  Definition struct_layout (is_union : bool) (ms : list (ty * option Z)) : option (list placed * Z * Z) :=
    match members ms with None => None | Some l => calc_struct_size is_union l end.
End layout.
