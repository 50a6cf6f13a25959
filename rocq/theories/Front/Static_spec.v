(** What an initialised object holds, C11 6.7.9: all of it is zero except where an initialiser is
    given for a subobject; that one holds the value, at the place the layout gives it. *)
From stdpp Require Import base list numbers.
From Verif Require Import Front.Layout_model Front.Layout_spec Front.Static_model.
Local Open Scope Z_scope.

(** The value of a constant expression or address, given where the symbols are. *)
Fixpoint den (env : nat -> Z) (e : iexpr) : option Z :=
  match e with
  | XFix z => Some z
  | XVar n | XComplit n => Some (env n)
  | XAdd a b => match den env a, den env b with Some x, Some y => Some (x + y) | _, _ => None end
  | XSub a b => match den env a, den env b with Some x, Some y => Some (x - y) | _, _ => None end
  | XRef e | XDeref e | XCast e => den env e
  | XMember e off => match den env e with Some x => Some (x + off) | None => None end
  | XFlo _ _ | XStr _ _ | XOther => None
  end.
(** Numbers, and numbers added to or subtracted from one address. *)
Inductive number : iexpr -> Prop :=
| nu_fix z : number (XFix z)
| nu_add a b : number a -> number b -> number (XAdd a b)
| nu_sub a b : number a -> number b -> number (XSub a b)
| nu_ref e : number e -> number (XRef e)
| nu_deref e : number e -> number (XDeref e)
| nu_cast e : number e -> number (XCast e)
| nu_member e o : number e -> number (XMember e o).
Inductive address : iexpr -> Prop :=
| ad_var n : address (XVar n)
| ad_complit n : address (XComplit n)
| ad_add_l a b : address a -> number b -> address (XAdd a b)
| ad_add_r a b : number a -> address b -> address (XAdd a b)
| ad_sub a b : address a -> number b -> address (XSub a b)
| ad_ref e : address e -> address (XRef e)
| ad_deref e : address e -> address (XDeref e)
| ad_cast e : address e -> address (XCast e)
| ad_member e o : address e -> address (XMember e o).

(** A store into the bytes of an object: bytes at an offset, or a bit-field of a unit. *)
Inductive store := Bytes (o : Z) (bs : list Z) | Bits (o unit pos w v : Z).
Fixpoint unle (l : list Z) : Z := match l with [] => 0 | b :: l => b + 256 * unle l end.
Definition patch (o : nat) (bs m : list Z) : list Z := take o m ++ bs ++ drop (o + length bs) m.
(** [w] bits of [x] at [pos] replaced by those of [v]. *)
Definition put_bits (x pos w v : Z) : Z :=
  Z.lor (Z.ldiff x (Z.shiftl (Z.ones w) pos)) (Z.shiftl (Z.land v (Z.ones w)) pos).
Definition apply_store (m : list Z) (s : store) : list Z :=
  match s with
  | Bytes o bs => patch (Z.to_nat o) bs m
  | Bits o unit pos w v =>
    patch (Z.to_nat o) (le (Z.to_nat unit) (put_bits (unle (take (Z.to_nat unit) (drop (Z.to_nat o) m))) pos w v)) m
  end.
Definition shift (d : Z) (s : store) : store :=
  match s with Bytes o bs => Bytes (d + o) bs | Bits o unit pos w v => Bits (d + o) unit pos w v end.

Section spec.
  Context (lp64 : bool) (env : nat -> Z).
  Definition size_of (t : ty) : Z := match size_align lp64 t with Some (s, _) => s | None => 0 end.

  Definition member_stores (f : ty -> option init -> list store) :=
    fix go (ms : list (ty * option Z)) (pls : list placed) (is : list (option init)) {struct ms} : list store :=
      match ms, pls, is with
      | (t, width) :: ms, p :: pls, i :: is =>
        match width with
        | None => shift (offset p) <$> f t i
        | Some w =>
          match i with
          | Some (ISingle (XFix v)) => [Bits (offset p) (fixnum_size lp64 (base_kind p)) (position p) w v]
          | _ => []
          end
        end ++ go ms pls is
      | _, _, _ => []
      end.

  (** The stores that initialise an object. *)
  Fixpoint stores (t : ty) (i : option init) {struct t} : list store :=
    match i with
    | None => []
    | Some i =>
      match t, i with
      | TyFlo FL_FLOAT, ISingle (XFlo h _) => [Bytes 0 (le 4 h)]
      | TyFlo _, ISingle (XFlo _ h) => [Bytes 0 (le 8 h)]
      | TyFix _, ISingle e | TyPtr, ISingle e =>
        match den env e with Some v => [Bytes 0 (le (Z.to_nat (size_of t)) v)] | None => [] end
      | TyArr _ _, ISingle (XStr wide units) => [Bytes 0 (take (Z.to_nat (size_of t)) (str_bytes wide units))]
      | TyArr t' _, IMulti l => concat (imap (fun k ss => shift (Z.of_nat k * size_of t') <$> ss) (map (stores t') l))
      | TyStruct u ms, IMulti l =>
        match struct_layout lp64 u ms with Some (pls, _, _) => member_stores stores ms pls l | None => [] end
      | _, _ => []
      end
    end.
  Definition object (t : ty) (i : option init) : list Z :=
    foldl apply_store (replicate (Z.to_nat (size_of t)) 0) (stores t i).

  (** The types of objects: every union has a member and no bit-fields (C55_union_bit_field_refuted). *)
  Definition data_members (f : ty -> Prop) :=
    fix go (ms : list (ty * option Z)) : Prop := match ms with [] => True | (t, _) :: ms => f t /\ go ms end.
  Fixpoint data (t : ty) : Prop :=
    match t with
    | TyVoid | TyFunc => False
    | TyPtr | TyFix _ | TyFlo _ => True
    | TyArr t _ | TyFam t => data t
    | TyStruct u ms => data_members data ms /\ (u = true -> ms <> [] /\ Forall (fun m => snd m = None) ms)
    end.

  (** Initialisers that fit a type: for a union at most one member is given, a flexible array member
      is left empty, and the value of a bit-field is a number of less than 64 bits. *)
  Definition members_fit (f : ty -> option init -> Prop) :=
    fix go (ms : list (ty * option Z)) (is : list (option init)) {struct ms} : Prop :=
      match ms, is with
      | [], [] => True
      | (t, width) :: ms, i :: is =>
        match width with
        | None => f t i
        | Some w => match i with None => True | Some (ISingle (XFix _)) => 0 < w < 64 | _ => False end
        end /\ go ms is
      | _, _ => False
      end.
  Definition one_given (l : list (option init)) : Prop :=
    forall i j x y, l !! i = Some (Some x) -> l !! j = Some (Some y) -> i = j.
  Fixpoint fits (t : ty) (i : option init) {struct t} : Prop :=
    match i with
    | None => True
    | Some i =>
      match t, i with
      | TyFlo _, ISingle (XFlo _ _) => True
      | TyFix _, ISingle e | TyPtr, ISingle e => number e \/ address e
      | TyArr (TyFix FX_CHAR) _, ISingle (XStr false _) => True
      | TyArr (TyFix FX_INT) _, ISingle (XStr true _) => True
      | TyArr t' n, IMulti l => Z.of_nat (length l) <= n /\ foldr (fun x P => fits t' x /\ P) True l
      | TyFam _, IMulti [] => True
      | TyStruct u ms, IMulti l => members_fit fits ms l /\ (u = true -> one_given l)
      | _, _ => False
      end
    end.
End spec.

(** ** Objects of the examples and refutations *)
(** union { int a; int b; } u = { .a = 1, .b = 2 }; *)
Definition two_members : ty := TyStruct true [(TyFix FX_INT, None); (TyFix FX_INT, None)].
(** union { int a : 4; } u = { 1 }; *)
Definition union_bits : ty := TyStruct true [(TyFix FX_INT, Some 4)].
(** struct { long long a : 64; } s = { 1 }; *)
Definition wide_bits : ty := TyStruct false [(TyFix FX_LLONG, Some 64)].
(** struct { char c; int x : 5; int y : 3; short s[3]; union { char u; int v; } w; char *p; } with c, y, s[1], w.u, p given. *)
Definition sample : ty := TyStruct false
  [(TyFix FX_CHAR, None); (TyFix FX_INT, Some 5); (TyFix FX_INT, Some 3); (TyArr (TyFix FX_SHORT) 3, None);
   (TyStruct true [(TyFix FX_CHAR, None); (TyFix FX_INT, None)], None); (TyPtr, None)].
Definition sample_init : option init := Some (IMulti
  [Some (ISingle (XFix 65)); None; Some (ISingle (XFix 6)); Some (IMulti [None; Some (ISingle (XFix 258))]);
   Some (IMulti [Some (ISingle (XFix 7)); None]); Some (ISingle (XCast (XAdd (XVar 3) (XFix 2))))]).
