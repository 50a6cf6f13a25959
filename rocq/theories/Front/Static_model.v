(** Model of the data the compiler emits for objects with static storage:
    src/cc/frontend/cc_misc.c:22-69 eval_initial_value, 72-94 calc_bitfield_initial_value,
    96-118 construct_initial_value_bitfield, 121-267 construct_initial_value, and
    src/cc/backend/emit_code.c:168-233 (emit_align, emit_number, emit_string), 131-136
    emit_align_p2.

    - Initialisers are those left by flatten_initializer: an expression, or one entry for each
      element or member, absent where nothing was given.
    - Addresses are linked: [env] gives the address of each symbol, and the text between compiler,
      assembler and linker is left out (C09, C36, C40).
    - A floating constant is given by its encodings in both sizes.
    - A failing assertion, an error, or a shift by the width of the type gives [None].
    - Casts in an address are between types of the size of a pointer; eval_initial_value looks through
      them.  Fixnum arithmetic is not wrapped, as the number is cut to its bytes in the end. *)
From stdpp Require Import base list numbers.
From Verif Require Import Front.Layout_model.
Local Open Scope Z_scope.

Inductive iexpr :=
| XFix (z : Z) | XFlo (h32 h64 : Z) | XStr (wide : bool) (units : list Z) (* with the terminating one *)
| XVar (n : nat) | XComplit (n : nat) | XAdd (a b : iexpr) | XSub (a b : iexpr)
| XRef (e : iexpr) | XDeref (e : iexpr) | XCast (e : iexpr) | XMember (e : iexpr) (off : Z) | XOther.
Inductive init := ISingle (e : iexpr) | IMulti (l : list (option init)).

(** What is written to the assembly. *)
Inductive ev := EAlign (a : Z) | ENum (size : Z) (sym : option nat) (v : Z) | EStr (bytes : list Z) (size : Z).

(** cc_misc.c:22-69. *)
Fixpoint eval_initial_value (e : iexpr) : option (option nat * Z) :=
  match e with
  | XFix z => Some (None, z)
  | XVar n | XComplit n => Some (Some n, 0)
  | XAdd a b =>
    match eval_initial_value a, eval_initial_value b with
    | Some (Some v, o1), Some (None, o2) => Some (Some v, o1 + o2)
    | Some (None, o1), Some (Some v, o2) => Some (Some v, o1 + o2)
    | Some (None, o1), Some (None, o2) => Some (None, o1 + o2)
    | _, _ => None (* assert(var2 == NULL) *)
    end
  | XSub a b =>
    match eval_initial_value a, eval_initial_value b with
    | Some (v, o1), Some (None, o2) => Some (v, o1 - o2)
    | _, _ => None (* assertions *)
    end
  | XRef e | XDeref e | XCast e => eval_initial_value e
  | XMember e off => match eval_initial_value e with Some (v, o) => Some (v, o + off) | None => None end
  | XFlo _ _ | XStr _ _ | XOther => None (* assert(!"illegal") *)
  end.

Fixpoint strip_cast (e : iexpr) : iexpr := match e with XCast e => strip_cast e | _ => e end.

(** Little-endian bytes. *)
Fixpoint le (n : nat) (z : Z) : list Z := match n with O => [] | S n => z mod 256 :: le n (z / 256) end.
Definition str_bytes (wide : bool) (units : list Z) : list Z := concat (le (if wide then 4 else 1)%nat <$> units).

(** type.c:243-251 is_char_type. *)
Definition is_char_type (t : ty) (wide : bool) : bool :=
  match t with TyFix FX_CHAR => negb wide | TyFix FX_INT => wide | _ => false end.

Section construct.
  Context (lp64 : bool).

  (** cc_misc.c:72-94: how many members share the unit, and its value. *)
  Fixpoint bitfield_value (top : bool) (ms : list (ty * option Z)) (pls : list placed) (is : list (option init)) : option (nat * Z) :=
    match ms, pls, is with
    | (_, width) :: ms, p :: pls, i :: is =>
      let w := default 0 width in
      if (w <=? 0) || (negb top && (position p =? 0)) then Some (0%nat, 0)
      else
        match bitfield_value false ms pls is with
        | None => None
        | Some (n, x) =>
          match i with
          | None => Some (S n, x)
          | Some (ISingle (XFix v)) =>
            if w <? 64 then Some (S n, Z.lor (Z.shiftl (Z.land v (2 ^ w - 1)) (position p)) x) else None (* 1LL << width *)
          | Some _ => None
          end
        end
    | _, _, _ => Some (0%nat, 0)
    end.

  Definition cat (a b : option (list ev)) : option (list ev) :=
    match a, b with Some x, Some y => Some (x ++ y) | _, _ => None end.
  Definition cats (l : list (option (list ev))) : option (list ev) := foldr cat (Some []) l.

  Definition pad_to (off align : Z) : list ev * Z :=
    if off mod align =? 0 then ([], off) else ([EAlign align], ALIGN off align).

  (** cc_misc.c:216-244 with 96-118, the loop over the members; [skip] members were done with an earlier
      bit-field.  Gives the output, the offset reached and the count. *)
  Definition member_loop (f : ty -> option init -> option (list ev)) (u : bool) :=
    fix loop (ms : list (ty * option Z)) (pls : list placed) (is : list (option init)) (skip : nat) (off count : Z) {struct ms} : option (list ev * Z * Z) :=
      match ms, pls, is with
      | (t, width) :: ms', p :: pls', i :: is' =>
        match skip with
        | S skip => loop ms' pls' is' skip off count
        | O =>
          match width with
          | Some w =>
            if w =? 0 then loop ms' pls' is' O off (count + 1)
            else if u then None (* assert(!sinfo->is_union) *)
            else if negb (plain (base_kind p)) then None (* get_fixnum_type *)
            else
              let size := fixnum_size lp64 (base_kind p) in
              let (pad, off) := pad_to off size in
              match bitfield_value true ms pls is with
              | None => None
              | Some (n, x) =>
                match loop ms' pls' is' (n - 1)%nat (off + size) (count + 1) with
                | None => None
                | Some (evs, off, count) => Some (pad ++ ENum size None x :: evs, off, count)
                end
              end
          | None =>
            if u && (match i with None => true | Some _ => false end) then loop ms' pls' is' O off count
            else
              match size_align lp64 t, f t i with
              | Some (size, align), Some out =>
                let (pad, off) := pad_to off align in
                match loop ms' pls' is' O (off + size) (count + 1) with
                | None => None
                | Some (evs, off, count) => Some (pad ++ out ++ evs, off, count)
                end
              | _, _ => None
              end
          end
        end
      | _, _, _ => Some ([], off, count)
      end.

  (** cc_misc.c:251-263. *)
  Definition tail (d : Z) : list ev :=
    if d =? 0 then []
    else if bool_decide (d ∈ map (fixnum_size lp64) [FX_CHAR; FX_SHORT; FX_INT; FX_LONG; FX_LLONG]) then [ENum d None 0]
    else replicate (Z.to_nat d) (ENum 1 None 0).

  (** cc_misc.c:121-267. *)
  Fixpoint construct (t : ty) (i : option init) {struct t} : option (list ev) :=
    match t with
    | TyFlo k =>
      match i with
      | None => Some [ENum (flonum_size k) None 0]
      | Some (ISingle (XFlo h32 h64)) => Some [ENum (flonum_size k) None (match k with FL_FLOAT => h32 | _ => h64 end)]
      | Some _ => None
      end
    | TyFix _ | TyPtr =>
      let size := match t with TyFix k => fixnum_size lp64 k | _ => fixnum_size lp64 FX_LONG end in
      match i with
      | None => Some [ENum size None 0]
      | Some (ISingle e) => match eval_initial_value e with Some (v, o) => Some [ENum size v o] | None => None end
      | Some (IMulti _) => None
      end
    | TyArr t' _ | TyFam t' =>
      let len := match t with TyArr _ n => n | _ => -2 end in
      match i with
      | None => cats (replicate (Z.to_nat len) (construct t' None))
      | Some (IMulti l) => cat (cats (map (construct t') l)) (cats (replicate (Z.to_nat (len - Z.of_nat (length l))) (construct t' None)))
      | Some (ISingle e) =>
        match strip_cast e, size_align lp64 t with
        | XStr wide units, Some (size, _) => if is_char_type t' wide then Some [EStr (str_bytes wide units) size] else None
        | _, _ => None
        end
      end
    | TyStruct u ms =>
      match struct_layout lp64 u ms with
      | None => None
      | Some (pls, size, _) =>
        let is := match i with
                  | None => Some (replicate (length ms) None)
                  | Some (IMulti l) => if bool_decide (length l = length ms) then Some l else None
                  | Some (ISingle _) => None
                  end in
        match is with
        | None => None
        | Some is =>
          match member_loop construct u ms pls is O 0 0 with
          | None => None
          | Some (evs, off, count) =>
            if u && (count <=? 0) then
              match ms with
              | (t0, _) :: _ =>
                match construct t0 None, size_align lp64 t0 with
                | Some out, Some (s0, _) => Some (evs ++ out ++ tail (size - (off + s0)))
                | _, _ => None
                end
              | [] => None (* &sinfo->members[0] *)
              end
            else Some (evs ++ tail (size - off))
          end
        end
      end
    | TyVoid | TyFunc => None
    end.
End construct.

(** emit_code.c:168-233: the bytes, for output that starts at [pos]. *)
Fixpoint assemble (env : nat -> Z) (pos : Z) (evs : list ev) : list Z :=
  match evs with
  | [] => []
  | e :: evs =>
    let out := match e with
      | EAlign a => if a <=? 1 then [] else replicate (Z.to_nat (ALIGN pos a - pos)) 0
      | ENum size sym v => le (Z.to_nat size) (match sym with Some n => env n + v | None => v end)
      | EStr bytes size =>
        let src := Z.to_nat (Z.min (Z.of_nat (length bytes)) size) in
        take src bytes ++ replicate (Z.to_nat size - src) 0
      end in
    out ++ assemble env (pos + Z.of_nat (length out)) evs
  end.
