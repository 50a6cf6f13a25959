(** Which subobject each initialiser is for, C11 6.7.9: items in braces go to the subobjects in order,
    depth first, or from a designator on; an item that is not in braces and does not initialise an
    aggregate as a whole goes to its first subobject that it can initialise; an item replaces what
    was given before for the same subobject; the rest is zero. *)
From stdpp Require Import base list numbers.
From Verif Require Import Front.Static_model Front.Flatten_model.
Local Open Scope Z_scope.

(** Subobjects are named by the indices of elements and members. *)
Notation path := (list Z) (only parsing).

(** The element or member [i]. *)
Definition part (t : fty) (i : Z) (t' : fty) : Prop :=
  0 <= i /\
  match t with
  | FArr t0 len => t' = t0 /\ match len with Some n => i < Z.of_nat n | None => True end
  | FStruct _ ms => exists m, ms !! Z.to_nat i = Some (m, t')
  | _ => False
  end.
Inductive sub : fty -> path -> fty -> Prop :=
| sub_nil t : sub t [] t
| sub_cons t i t' p t'' : part t i t' -> sub t' p t'' -> sub t (i :: p) t''.
(** Those that items go to in turn: unnamed members are left out, and only the first named member of a
    union has a turn. *)
Definition turn (t : fty) (i : Z) (t' : fty) : Prop :=
  part t i t' /\
  match t with
  | FStruct u ms =>
    ms !! Z.to_nat i = Some (Plain, t') /\
    (u = true -> forall j m, (j < Z.to_nat i)%nat -> ms !! j = Some m -> fst m <> Plain)
  | _ => True
  end.
Inductive turns : fty -> path -> fty -> Prop :=
| turns_nil t : turns t [] t
| turns_cons t i t' p t'' : turn t i t' -> turns t' p t'' -> turns t (i :: p) t''.

(** [q] comes after [p], and is no part of it; the index -1 is before all. *)
Definition after (t : fty) (p q : path) (t' : fty) : Prop :=
  exists c i s j s' t0, p = c ++ i :: s /\ q = c ++ j :: s' /\ i < j /\ sub t c t0 /\ turns t0 (j :: s') t'.
(** An object comes before its parts. *)
Definition earlier (p q : path) : Prop :=
  (exists i s, q = p ++ i :: s) \/ (exists c i s j s', p = c ++ i :: s /\ q = c ++ j :: s' /\ i < j).

(** An item replaces all that was given for its subobject: by an expression, or by zeros. *)
Notation given := (path * option iexpr)%type (only parsing).
Definition inside (q : path) (l : list given) : list given := map (fun '(p, v) => (q ++ p, v)) l.

Section spec.
  Context (obj : iexpr -> option fty) (same : fty -> fty -> bool).

  (** The object is initialised as a whole: a scalar, an array by a string, an object by one of its
      type, and anything by a list in braces. *)
  Definition takes (t : fty) (r : raw) : Prop :=
    match r, t with
    | _, FChar _ | _, FScalar _ | RMulti _, _ => True
    | RSingle (XStr w us), FArr (FChar w') _ => w = w' \/ same t (FArr (FChar w) (Some (length us))) = true
    | RSingle (XStr w us), _ => same t (FArr (FChar w) (Some (length us))) = true
    | RSingle e, _ => exists t', obj e = Some t' /\ same t t' = true
    end.

  (** The first subobject after [p] that is initialised by [r] as a whole. *)
  Definition next (t : fty) (p : path) (r : raw) (q : path) (t' : fty) : Prop :=
    after t p q t' /\ takes t' r /\ forall q' t0, after t p q' t0 -> takes t0 r -> q' = q \/ earlier q q'.

  Inductive dotted : fty -> list nat -> path -> fty -> Prop :=
  | dotted_one u ms i m t : ms !! i = Some (m, t) -> dotted (FStruct u ms) [i] [Z.of_nat i] t
  | dotted_more u ms i m t l p t' : ms !! i = Some (m, t) -> dotted t l p t' ->
    dotted (FStruct u ms) (i :: l) (Z.of_nat i :: p) t'.
  Inductive designated : fty -> list desig -> path -> fty -> Prop :=
  | de_nil t : designated t [] [] t
  | de_index t len i ds p t' : part (FArr t len) i t -> designated t ds p t' -> designated (FArr t len) (DBrkt i :: ds) (i :: p) t'
  | de_member t l p t' ds p' t'' : dotted t l p t' -> designated t' ds p' t'' -> designated t (DDot l :: ds) (p ++ p') t''.

  Definition string_of (t : fty) (l : list (list desig * raw)) (e : iexpr) : Prop :=
    exists w us len, e = XStr w us /\ t = FArr (FChar w) len /\ l = [([], RSingle e)].

  (** What an initialiser for an object of type [t] gives to its subobjects, in order.  [strict] leaves
      out what C104 is about: a designated scalar in braces, and a string or an object that is given
      to a designated aggregate but goes to a part of it. *)
  Inductive means (strict : bool) : fty -> raw -> list given -> Prop :=
  | me_expr t e : takes t (RSingle e) -> means strict t (RSingle e) [([], Some e)]
  | me_zero t : is_multi t = false -> means strict t (RMulti []) [([], Some (zero t))]
  | me_braced t e : is_multi t = false -> means strict t (RMulti [([], RSingle e)]) [([], Some e)]
  | me_string t l e : string_of t l e -> means strict t (RMulti l) [([], Some e)]
  | me_list t l out : is_multi t = true -> (forall e, ~ string_of t l e) -> items strict t [-1] l out ->
    means strict t (RMulti l) (([], None) :: out)
  with items (strict : bool) : fty -> path -> list (list desig * raw) -> list given -> Prop :=
  | it_nil t p : items strict t p [] []
  | it_next t p r l q t' o1 o2 : next t p r q t' -> means strict t' r o1 -> items strict t q l o2 ->
    items strict t p (([], r) :: l) (inside q o1 ++ o2)
  | it_there t p ds r l q t' o1 o2 : ds <> [] -> designated t ds q t' -> takes t' r ->
    (strict = true -> is_multi t' = true \/ exists e, r = RSingle e) ->
    means strict t' r o1 -> items strict t q l o2 -> items strict t p ((ds, r) :: l) (inside q o1 ++ o2)
  | it_part t p ds e l c t0 q t' o1 o2 : ds <> [] -> designated t ds c t0 -> ~ takes t0 (RSingle e) ->
    (strict = true -> whole obj e = None) ->
    next t (c ++ [-1]) (RSingle e) q t' -> means strict t' (RSingle e) o1 -> items strict t q l o2 ->
    items strict t p ((ds, RSingle e) :: l) (inside q o1 ++ o2).
End spec.

(** The expression that initialises the subobject at [p], or the object it is a part of: the last given
    to either.  [None]: it is zero. *)
Fixpoint suffix (q p : path) : option path :=
  match q, p with
  | [], _ => Some p
  | i :: q, j :: p => if i =? j then suffix q p else None
  | _, [] => None
  end.
Definition last_given (l : list given) (p : path) : option (iexpr * path) :=
  foldl (fun acc '(q, v) => match suffix q p with Some s => (fun e => (e, s)) <$> v | None => acc end) None l.

(** The same, read off a flattened initialiser. *)
Fixpoint value_at (i : option init) (p : path) {struct p} : option (iexpr * path) :=
  match i with
  | None => None
  | Some (ISingle e) => Some (e, p)
  | Some (IMulti l) =>
    match p with
    | [] => None
    | k :: p => if k <? 0 then None else match l !! Z.to_nat k with Some i => value_at i p | None => None end
    end
  end.

(** No string or object that [p] is in has another of its parts replaced (C104_string_part_refuted). *)
Definition intact (l : list given) (p : path) : Prop :=
  forall A c e B d v D s i s', l = A ++ (c, Some e) :: B ++ (d, v) :: D -> suffix c p = Some s ->
    suffix c d = Some (i :: s') -> suffix d p <> None.

(** Types of objects.  Unnamed bit-fields have no width (C104_unnamed_refuted), a union has a member,
    and what an array of unknown length is made of has a scalar. *)
Inductive holds : fty -> Prop :=
| ho_char w : holds (FChar w)
| ho_scalar f : holds (FScalar f)
| ho_arr t n : holds t -> holds (FArr t (Some (S n)))
| ho_arr_open t : holds t -> holds (FArr t None)
| ho_struct u ms i t : turn (FStruct u ms) i t -> holds t -> holds (FStruct u ms).
Fixpoint ok (t : fty) : Prop :=
  match t with
  | FChar _ | FScalar _ => True
  | FArr t (Some _) => ok t
  | FArr t None => ok t /\ holds t
  | FStruct u ms =>
    foldr (fun '(m, t) P => (ok t /\ (m = Plain \/ m = Unnamed 0)) /\ P) True ms /\
    (u = true -> exists t ms', ms = (Plain, t) :: ms')
  end.

(** The elements of an array that something is given for end here. *)
Definition array_end (l : list given) : nat :=
  foldr (fun '(p, _) n => match p with i :: _ => Nat.max n (S (Z.to_nat i)) | [] => n end) O l.

(** ** Objects of the examples and refutations *)
(** struct { int x, y; } *)
Definition point : fty := FStruct false [(Plain, FScalar false); (Plain, FScalar false)].
Definition num (n : Z) : raw := RSingle (XFix n).
Definition str (us : list Z) : raw := RSingle (XStr false us).
Definition abc : list Z := [97; 98; 99; 0].
(** struct { int n; struct { int x, y; } p[2]; char s[4]; double d; }
    = { 1, 2, 3, { .y = 5 }, "abc", .p[0].y = 6, 7 } *)
Definition sample_type : fty := FStruct false
  [(Plain, FScalar false); (Plain, FArr point (Some 2%nat)); (Plain, FArr (FChar false) (Some 4%nat)); (Plain, FScalar true)].
Definition sample_raw : raw := RMulti
  [([], num 1); ([], num 2); ([], num 3); ([], RMulti [([DDot [1%nat]], num 5)]); ([], str abc);
   ([DDot [1%nat]; DBrkt 0; DDot [1%nat]], num 6); ([], num 7)].
(** struct { char s[4]; } = { "abc", .s[1] = 88 } *)
Definition name_type : fty := FStruct false [(Plain, FArr (FChar false) (Some 4%nat))].
Definition name_raw : raw := RMulti [([], str abc); ([DDot [0%nat]; DBrkt 1], num 88)].
(** struct { int a; } = { .a = { 1 } } *)
Definition one_type : fty := FStruct false [(Plain, FScalar false)].
Definition one_raw : raw := RMulti [([DDot [0%nat]], RMulti [([], num 1)])].
(** struct { char names[2][4]; } = { .names = "abc" } *)
Definition names_type : fty := FStruct false [(Plain, FArr (FArr (FChar false) (Some 4%nat)) (Some 2%nat))].
Definition names_raw : raw := RMulti [([DDot [0%nat]], str abc)].
(** struct { int a : 4; int : 4; int b : 4; } = { 1, 2 } *)
Definition bits_type : fty := FStruct false [(Plain, FScalar false); (Unnamed 4, FScalar false); (Plain, FScalar false)].
Definition bits_raw : raw := RMulti [([], num 1); ([], num 2)].
(** struct { } [] = { 1 } *)
Definition empties : fty := FArr (FStruct false []) None.
(** struct { int x, y; } [] = { 1, 2, 3, 4 } *)
Definition four : list (list desig * raw) := [([], num 1); ([], num 2); ([], num 3); ([], num 4)].
(** No expression is an object. *)
Definition no_obj (e : iexpr) : option fty := None.
Definition no_same (a b : fty) : bool := false.
