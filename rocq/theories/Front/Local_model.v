(** Model of how a local object gets its initial value: src/cc/frontend/initializer.c:724-867
    assign_initial_value with 104-132 build_memcpy and 133-157 init_char_array_by_string, which make
    statements; src/cc/backend/codegen.c:191-207 get_elem_vtype, 243-272 gen_clear, 620-634
    gen_clear_local_var and gen_vardecl, what runs before them.

    - Initialisers are those left by flatten_initializer, as in Static_model.  Expressions are given by
      their values ([XFix], or the encodings of a floating number), converted to the type of what they
      initialise; a bit-field's is not converted and has the type [vtype].
    - Initialising a struct or an array by a whole object (a variable, a call, a compound literal) is
      left out.
    - The frame is a list of bytes; temporary pointers hold offsets in it.  [after] is what lies in
      memory after the literal that an array is copied from.
    - A parse error or a failing assertion gives [None]. *)
From stdpp Require Import base list numbers.
From Verif Require Import Front.Layout_model Front.Static_model.
From Verif Require Front.Bitfield_model.
Local Open Scope Z_scope.

Inductive lval := LVar | LTmp (n : nat) | LMem (l : lval) (off : Z).
Inductive stmt :=
| SPtr (n : nat) (l : lval)                       (* tmp = &l *)
| SAdd (n : nat) (k : Z)                          (* tmp += k bytes *)
| SStore (l : lval) (size : Z) (v : Z)
| SBits (l : lval) (f : Bitfield_model.field) (v : Z)
| SCopy (l : lval) (bytes : list Z).

Section assign.
  Context (lp64 : bool) (uns : bool) (after : nat -> Z).

  (** 753-766: the elements; the pointer is moved before each but the first. *)
  Definition elem_loop (f : option init -> nat -> option (list stmt * nat)) (p : nat) (size : Z) :=
    fix go (l : list (option init)) (first : bool) (n : nat) {struct l} : option (list stmt * nat) :=
      match l with
      | [] => Some ([], n)
      | x :: l =>
        match f x n with
        | None => None
        | Some (ss, n) =>
          match go l false n with
          | None => None
          | Some (ss', n) => Some ((if first then [] else [SAdd p size]) ++ ss ++ ss', n)
          end
        end
      end.

  Definition bit_field (t : ty) (p : placed) (w : Z) : Bitfield_model.field :=
    let size := match t with TyFix k => fixnum_size lp64 k | _ => 0 end in
    Bitfield_model.Field (Bitfield_model.Ity (8 * size) uns) (Bitfield_model.Ity (8 * fixnum_size lp64 (base_kind p)) uns) (position p) w.

  (** 806-853: the members. *)
  Definition member_assign (f : ty -> option init -> lval -> nat -> option (list stmt * nat)) (u : bool) (l : lval) :=
    fix go (ms : list (ty * option Z)) (pls : list placed) (is : list (option init)) (count n : nat) {struct ms} : option (list stmt * nat) :=
      match ms, pls, is with
      | [], _, _ => Some ([], n)
      | (t, width) :: ms, p :: pls, i :: is =>
        match i with
        | None => go ms pls is count n
        | Some x =>
          let lv := LMem l (offset p) in
          let w := default 0 width in
          if u && bool_decide (0 < count)%nat then None
          else
            match (if negb u && (0 <? w) then
                     match x with ISingle (XFix v) => Some ([SBits lv (bit_field t p w) v], n) | _ => None end
                   else f t i lv n) with
            | None => None
            | Some (ss, n) =>
              match go ms pls is (S count) n with
              | None => None
              | Some (ss', n) => Some (ss ++ ss', n)
              end
            end
        end
      | _, _, _ => None
      end.

  (** The [len] bytes read from where the [size] bytes of a literal are. *)
  Definition literal (bytes : list Z) (size : Z) (len : nat) : list Z :=
    let obj := take (Z.to_nat size) bytes ++ replicate (Z.to_nat size - length bytes) 0 in
    take len obj ++ map after (seq 0 (len - length obj)).

  (** 724-867; [n] is the next temporary variable. *)
  Fixpoint assign (t : ty) (i : option init) (lv : lval) (n : nat) {struct t} : option (list stmt * nat) :=
    match i with
    | None => Some ([], n)
    | Some i =>
      match t with
      | TyArr t' _ | TyFam t' =>
        let len := match t with TyArr _ n => n | _ => -2 end in
        match i with
        | IMulti l =>
          if (0 <? len) && (len <? Z.of_nat (length l)) then None
          else
            match size_align lp64 t' with
            | None => None
            | Some (size, _) =>
              match elem_loop (fun x k => assign t' x (LTmp n) k) n size l true (S n) with
              | None => None
              | Some (ss, n') => Some (SPtr n lv :: ss, n')
              end
            end
        | ISingle (XStr wide units) =>
          if is_char_type t' wide then
            if len <? Z.of_nat (length units) - 1 then None
            else
              match size_align lp64 t with
              | None => None
              | Some (size, _) => Some ([SCopy lv (literal (str_bytes wide units) size (length (str_bytes wide units)))], n)
              end
          else None
        | ISingle _ => None
        end
      | TyStruct u ms =>
        match i, struct_layout lp64 u ms with
        | IMulti l, Some (pls, _, _) => member_assign assign u lv ms pls l 0 n
        | _, _ => None
        end
      | TyFlo k =>
        match i with
        | ISingle (XFlo h32 h64) => Some ([SStore lv (flonum_size k) (match k with FL_FLOAT => h32 | _ => h64 end)], n)
        | _ => None
        end
      | TyFix _ | TyPtr =>
        let size := match t with TyFix k => fixnum_size lp64 k | _ => fixnum_size lp64 FX_LONG end in
        match i with ISingle (XFix v) => Some ([SStore lv size v], n) | _ => None end
      | TyVoid | TyFunc => None
      end
    end.
End assign.

(** ** Running *)
Definition state := ((nat -> Z) * list Z)%type.
Definition put (o : Z) (bs m : list Z) : list Z := take (Z.to_nat o) m ++ bs ++ drop (Z.to_nat o + length bs) m.

(** Where [l] is; the object is at [base]. *)
Fixpoint address_of (base : Z) (tmps : nat -> Z) (l : lval) : Z :=
  match l with LVar => base | LTmp n => tmps n | LMem l off => address_of base tmps l + off end.
(** 124-131: while size > 0, one byte is copied. *)
Fixpoint copy_loop (a : Z) (bytes : list Z) (m : list Z) : list Z :=
  match bytes with [] => m | b :: bytes => copy_loop (a + 1) bytes (put a [b] m) end.
Fixpoint number_at (l : list Z) : Z := match l with [] => 0 | b :: l => b + 256 * number_at l end.

Section run.
  Context (minregsize : Z) (vtype : Bitfield_model.ity) (base : Z).
  Definition run_stmt (s : stmt) (st : state) : option state :=
    let (tmps, m) := st in
    match s with
    | SPtr n l => Some (fun k => if decide (k = n) then address_of base tmps l else tmps k, m)
    | SAdd n d => Some (fun k => if decide (k = n) then tmps n + d else tmps k, m)
    | SStore l size v => Some (tmps, put (address_of base tmps l) (le (Z.to_nat size) v) m)
    | SBits l f v =>
      let a := address_of base tmps l in
      let n := Z.to_nat (Bitfield_model.bits (Bitfield_model.f_unit f) / 8) in
      let u := number_at (take n (drop (Z.to_nat a) m)) in
      match Bitfield_model.assign_member minregsize f (Bitfield_model.fetch f u) vtype v with
      | None => None
      | Some z => Some (tmps, put a (le n (Bitfield_model.store f z)) m)
      end
    | SCopy l bytes => Some (tmps, copy_loop (address_of base tmps l) bytes m)
    end.
  Fixpoint run_stmts (ss : list stmt) (st : state) : option state :=
    match ss with [] => Some st | s :: ss => match run_stmt s st with None => None | Some st => run_stmts ss st end end.
End run.

(** codegen.c:191-207; the logarithm of what is written at a time. *)
Fixpoint halve (fuel : nat) (s size : Z) : Z :=
  match fuel with
  | O => s
  | S fuel => if (1 <? s) && negb ((s <=? size) && (size mod s =? 0)) then halve fuel (s / 2) size else s
  end.
Definition elem_size (size align : Z) : Z :=
  let s := Z.min align size in
  if negb (Z.land s (s - 1) =? 0) || (8 <? s) then halve 4 8 size else s.
(** codegen.c:243-272: the loop runs until the count reaches 0. *)
Fixpoint clear_loop (n : nat) (esize a : Z) (m : list Z) : list Z :=
  match n with O => m | S n => clear_loop n esize (a + esize) (put a (le (Z.to_nat esize) 0) m) end.
Definition clear (size align a : Z) (m : list Z) : option (list Z) :=
  if size =? 0 then Some m
  else
    let v := Z.log2 (elem_size size align) in
    let count := Z.shiftr size v in
    if count <=? 0 then None else Some (clear_loop (Z.to_nat count) (2 ^ v) a m).

(** codegen.c:620-634 with initializer.c:869-885: the declaration of an object at [base]. *)
Definition declare (lp64 uns : bool) (after : nat -> Z) (minregsize : Z) (vtype : Bitfield_model.ity) (t : ty) (i : init) (base : Z) (m : list Z) : option (list Z) :=
  match size_align lp64 t with
  | None => None
  | Some (size, align) =>
    let prim := match t with TyFix _ | TyFlo _ | TyPtr => true | _ => false end in
    match (if prim then Some m else clear size align base m), assign lp64 uns after t (Some i) LVar 0 with
    | Some m, Some (ss, _) => snd <$> run_stmts minregsize vtype base ss (fun _ => 0, m)
    | _, _ => None
    end
  end.
