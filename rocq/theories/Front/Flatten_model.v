(** Model of how an initialiser written with braces, designators and omitted braces is matched with
    the type of the object: src/cc/frontend/initializer.c:13-71 fix_array_size, 165-167 is_multi_type,
    169-197 reserve_init_for_multi, 201-215 get_multi_child_type, 217-311 find_next_indices, 313-382
    find_desig_indices, 384-423 store_to_current_position, 426-463 flatten_initializer_multi, 493-557
    flatten_initializer; 890-906 (check_vardecl) and src/cc/frontend/parser_expr.c:129-151
    (parse_compound_literal) for the length of an array declared without one.

    - Types carry what the matching uses: which scalars are characters, lengths, members, which members
      are unnamed bit-fields.  A member designated through anonymous structs is given by its indices
      (search_from_anonymous); [DDot []] is a name that is no member.
    - The parser nests designators around the value; here an item is the list of its designators and
      the value.
    - The types of expressions are given by [obj]: the type of an expression that is a struct, a union
      or an array, and [None] for a scalar.  [same] is same_type_without_qualifier.  Flattening the
      initialiser of a compound literal that is a value itself is left out.
    - Outcomes: [Rejected] an error is reported; [Misfit] an expression is kept for an array it does
      not fit, and whether that is reported is up to later stages (initializer.c:696, 776-790);
      [Crash] a failing assertion, here or at the first use of the result, or a read out of bounds.
      After an error the compiler goes on to find more; here the first one ends it. *)
From stdpp Require Import base list numbers.
From Verif Require Import Front.Static_model.
Local Open Scope Z_scope.

Inductive fmem := Plain | Unnamed (width : Z) (* a bit-field without a name *).
Inductive fty :=
| FChar (wide : bool)         (* what a string literal is made of *)
| FScalar (fl : bool)         (* other scalars; floating or not *)
| FArr (t : fty) (len : option nat)
| FStruct (is_union : bool) (ms : list (fmem * fty)).

Inductive desig := DDot (path : list nat) | DBrkt (i : Z).
Inductive raw := RSingle (e : iexpr) | RMulti (l : list (list desig * raw)).

Inductive outcome (A : Type) := Done (a : A) | Rejected | Misfit | Crash | NoFuel.
Arguments Done {A} _. Arguments Rejected {A}. Arguments Misfit {A}. Arguments Crash {A}. Arguments NoFuel {A}.
Definition bind {A B} (x : outcome A) (f : A -> outcome B) : outcome B :=
  match x with Done a => f a | Rejected => Rejected | Misfit => Misfit | Crash => Crash | NoFuel => NoFuel end.
Definition check {A} (x : option A) : outcome A := match x with Some a => Done a | None => Crash end.

Definition is_multi (t : fty) : bool := match t with FArr _ _ | FStruct _ _ => true | _ => false end.

(** A string literal for an array of its characters (type.c:243-251 is_char_type). *)
Definition string_for (t : fty) (e : iexpr) : bool :=
  match t, e with FArr (FChar w) _, XStr w' _ => eqb w w' | _, _ => false end.

(** 169-197. *)
Definition reserve (t : fty) : option (list (option init)) :=
  match t with
  | FStruct _ ms => Some (replicate (length ms) None)
  | FArr _ (Some n) => Some (replicate n None)
  | FArr _ None => Some []
  | _ => None
  end.

(** 201-215. *)
Definition child (t : fty) (i : Z) : option fty :=
  if i <? 0 then None
  else
    match t with
    | FArr t (Some n) => if i <? Z.of_nat n then Some t else None
    | FArr t None => Some t
    | FStruct _ ms => snd <$> ms !! Z.to_nat i
    | _ => None
    end.
(** 226-228. *)
Fixpoint type_at (t : fty) (path : list Z) : option fty :=
  match path with [] => Some t | i :: path => match child t i with Some t => type_at t path | None => None end end.

(** 248-266: from the member [i] on, the first that takes an initialiser; [None]: past the last. *)
Fixpoint member_from (ms : list (fmem * fty)) (i : Z) : option (Z * fty) :=
  match ms with
  | [] => None
  | (m, t) :: ms => match m with Unnamed 0 => member_from ms (i + 1) | _ => Some (i, t) end
  end.
Inductive place := Up | Here (i : Z) (t : fty) | Bad.
(** 231-271. *)
Definition place_at (t : fty) (i : Z) : place :=
  match t with
  | FArr t (Some n) => if i <? Z.of_nat n then Here i t else Up
  | FArr t None => Here i t
  | FStruct u ms =>
    if u && (i <=? 0) && bool_decide (ms = []) then Bad (* members[0] of an empty union *)
    else
      match member_from (drop (Z.to_nat i) (if u then take 1 ms else ms)) i with
      | Some (i, t) => Here i t
      | None => Up
      end
  | _ => Bad
  end.

Section flatten.
  Context (obj : iexpr -> option fty) (same : fty -> fty -> bool) (fuel : nat).

  (** The type of an expression, when it is no scalar. *)
  Definition whole (e : iexpr) : option fty :=
    match e with XStr w us => Some (FArr (FChar w) (Some (length us))) | _ => obj e end.

  (** 273-297: the object of type [t] is initialised by [r] as a whole. *)
  Definition stops (t : fty) (r : raw) : bool :=
    if is_multi t then
      match r with
      | RSingle e => string_for t e || match whole e with Some t' => same t t' | None => false end
      | RMulti _ => true
      end
    else true.

  (** 217-311: [path] has its last index first, already moved to the next place. *)
  Fixpoint search (n : nat) (root : fty) (path : list Z) (r : raw) : outcome (list Z * fty) :=
    match n with
    | O => NoFuel
    | S n =>
      match path with
      | [] => Crash
      | i :: up =>
        match type_at root (reverse up) with
        | None => Crash
        | Some t =>
          match place_at t i with
          | Bad => Crash
          | Here i' t' => if stops t' r then Done (i' :: up, t') else search n root (0 :: i' :: up) r
          | Up => match up with [] => Rejected | j :: up => search n root (j + 1 :: up) r end
          end
        end
      end
    end.

  (** 341-361: the members named by one designator. *)
  Fixpoint dots (t : fty) (path : list Z) (l : list nat) : outcome (list Z * fty) :=
    match l with
    | [] => Done (path, t)
    | i :: l =>
      match t with
      | FStruct _ ms => match ms !! i with Some (_, t) => dots t (Z.of_nat i :: path) l | None => Crash end
      | _ => Crash
      end
    end.
  (** 313-366: the designators; [path] has its last index first. *)
  Fixpoint walk (t : fty) (path : list Z) (ds : list desig) : outcome (list Z * fty) :=
    match ds with
    | [] => Done (path, t)
    | DBrkt i :: ds => match t with FArr t _ => walk t (i :: path) ds | _ => Rejected end
    | DDot l :: ds =>
      match t, l with
      | FStruct _ _, _ :: _ => bind (dots t path l) (fun '(path, t) => walk t path ds)
      | _, _ => Rejected
      end
    end.

  Definition next_index (path : list Z) : list Z := match path with [] => [] | i :: up => i + 1 :: up end.

  (** 448-457, with 367-378: where an item goes, and the type there. *)
  Definition locate (root : fty) (path : list Z) (ds : list desig) (r : raw) : outcome (list Z * fty) :=
    match ds with
    | [] => search fuel root (next_index path) r
    | _ =>
      bind (walk root [] ds) (fun '(path, t) =>
        match r with
        | RMulti _ => if is_multi t then Done (path, t) else Crash (* stays a list: 655, 857 *)
        | RSingle e =>
          if is_multi t && (match whole e with None => true | Some _ => false end) then search fuel root (0 :: path) r
          else Done (path, t)
        end)
    end.

  (** 384-423; [path] has its first index first. *)
  Fixpoint store (t : fty) (tree : list (option init)) (path : list Z) (v : init) {struct path} : option (list (option init)) :=
    match path with
    | [] => None
    | i :: path =>
      if i <? 0 then None
      else
        let k := Z.to_nat i in
        match (if bool_decide (k < length tree)%nat then Some tree
               else match t with FArr _ None => Some (tree ++ replicate (S k - length tree) None) | _ => None end) with
        | None => None
        | Some tree =>
          match path with
          | [] => Some (<[k := Some v]> tree)
          | _ =>
            match child t i with
            | None => None
            | Some t' =>
              match (match mjoin (tree !! k) with Some (IMulti l) => Some l | _ => reserve t' end) with
              | None => None
              | Some l => match store t' l path v with Some l => Some (<[k := Some (IMulti l)]> tree) | None => None end
              end
            end
          end
        end
    end.

  (** 429-436. *)
  Definition lone_string (t : fty) (l : list (list desig * raw)) : option iexpr :=
    match l with [([], RSingle e)] => if string_for t e then Some e else None | _ => None end.

  (** 527-536. *)
  Definition zero (t : fty) : iexpr := match t with FScalar true => XFlo 0 0 | _ => XFix 0 end.

  (** 448-460: the items; [flat] is flatten_initializer.  At the place find_next_indices finds, what it
      returns is what flatten_initializer gives for the type there. *)
  Definition item_loop (flat : raw -> fty -> outcome init) (t : fty) :=
    fix go (l : list (list desig * raw)) (path : list Z) (tree : list (option init)) {struct l} : outcome init :=
      match l with
      | [] => Done (IMulti tree)
      | (ds, r) :: l =>
        bind (locate t path ds r) (fun '(path, t') =>
        bind (flat r t') (fun v =>
        bind (check (store t tree (reverse path) v)) (fun tree => go l path tree)))
      end.
  (** 493-557 and 426-463. *)
  Fixpoint flatten (r : raw) (t : fty) {struct r} : outcome init :=
    match r with
    | RSingle e =>
      if stops t r then Done (ISingle e)
      else match t with FStruct _ _ => Rejected | _ => Misfit end
    | RMulti l =>
      if is_multi t then
        match lone_string t l with
        | Some e => Done (ISingle e)
        | None =>
          match reserve t with Some tree => item_loop flatten t l [-1] tree | None => Crash end
        end
      else
        match l with
        | [] => Done (ISingle (zero t))
        | [([], RSingle e)] => Done (ISingle e)
        | _ => Rejected
        end
    end.

  (** 46-57: the length of an array declared without one, from its initialiser in braces as written;
      [index] is the next element, [len] the length so far. *)
  Fixpoint count_raw (l : list (list desig * raw)) (index len : Z) : Z :=
    match l with
    | [] => len
    | (ds, _) :: l =>
      let index := match ds with DBrkt i :: _ => i | _ => index end + 1 in
      count_raw l index (Z.max len index)
    end.

  (** What fix_array_size looks at: a string, a compound literal, a list (its length and what 46-57
      compute), or something else. *)
  Inductive source := SStr (len : Z) | SLit (t : option fty) | SList (len count : Z) | SElse.
  (** 13-71, for an array. *)
  Definition fix_array_size (t : fty) (s : source) : outcome fty :=
    match t with
    | FArr t' len =>
      match s, len with
      | SElse, _ => Done t
      | SLit (Some (FArr t2 len2)), None => Done (FArr t2 len2)
      | SLit (Some (FArr _ len2)), Some _ => if bool_decide (len2 = len) then Done t else Rejected
      | SLit _, _ => Crash
      | SStr n, None => Done (FArr t' (Some (Z.to_nat n)))
      | SList _ n, None => Done (FArr t' (Some (Z.to_nat n)))
      | SStr n, Some 0%nat | SList n _, Some 0%nat => Crash
      | SStr n, Some k => if Z.of_nat k <? n - 1 then Rejected else Done t
      | SList n _, Some k => if Z.of_nat k <? n then Rejected else Done t
      end
    | _ => Done t
    end.

  (** 894-897, a declaration: the length comes from the flattened list, none of whose entries is in
      brackets any more. *)
  Definition declared (t : fty) (r : raw) : outcome (fty * init) :=
    bind (flatten r t) (fun v =>
    bind (fix_array_size t
            (match v with
             | IMulti l => SList (Z.of_nat (length l)) (Z.of_nat (length l))
             | ISingle (XStr w us) => if string_for t (XStr w us) then SStr (Z.of_nat (length us)) else SElse
             | ISingle (XComplit n) => SLit (obj (XComplit n))
             | ISingle _ => SElse
             end)) (fun t' => Done (t', v))).
  (** parser_expr.c:133-145, a compound literal: the length comes from what is written. *)
  Definition literal (t : fty) (l : list (list desig * raw)) : outcome (fty * init) :=
    bind (fix_array_size t (SList (Z.of_nat (length l)) (count_raw l 0 0))) (fun t' =>
    bind (flatten (RMulti l) t') (fun v => Done (t', v))).
End flatten.
