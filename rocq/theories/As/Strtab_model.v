(** Model of the ELF string table of src/as/as_util.c:13-41.

    A name ([const Name*]) is an interned key; [hash] is its hash field and [chars] its bytes, both
    arbitrary functions.  [size_t] and the 32-bit length of a name do not overflow.  The buffer of
    [strtab_dump] is given byte by byte, [None] being a byte [malloc] left as it was. *)
From stdpp Require Import base list numbers.
From Verif Require Import Util.Table_model Util.Name_model Util.Mem.

(** src/as/as_util.h:8-11. *)
Record strtab := Strtab { offsets : table; size : nat }.

(** src/as/as_util.c:13-16 strtab_init. *)
Definition strtab_init : strtab := Strtab table_init 0.

(** An offset stored as [void*] (line 22) and read back (lines 26 and 36): 0 is NULL. *)
Definition to_ptr (o : nat) : cval := match o with O => VNull | S _ => VPtr (N.of_nat o) end.
Definition of_ptr (v : cval) : option nat :=
  match v with VNull => Some 0 | VPtr p => Some (N.to_nat p) | VEntry => None end.

Section Names.
  Context (hash : N -> N) (chars : N -> list N).

  (** src/as/as_util.c:18-28 strtab_add: the table and the offset returned. *)
  Definition strtab_add (s : strtab) (name : N) : option (strtab * nat) :=
    r ← table_try_get hash (offsets s) name;
    match r with
    | None =>
      let offset := size s in
      '(t, _) ← table_put hash (offsets s) name (to_ptr offset);
      Some (Strtab t (size s + (length (chars name) + 1)), offset)
    | Some result => o ← of_ptr result; Some (s, o)
    end.

  Fixpoint strtab_adds (s : strtab) (names : list N) : option (strtab * list nat) :=
    match names with
    | [] => Some (s, [])
    | n :: names =>
      '(s, o) ← strtab_add s n;
      '(s, os) ← strtab_adds s names;
      Some (s, o :: os)
    end.

  (** src/as/as_util.c:35-39: one round of the loop. *)
  Definition dump_one (buf : list (option N)) (kv : N * cval) : option (list (option N)) :=
    offset ← of_ptr kv.2;
    buf ← splice buf offset (Some <$> chars kv.1);
    splice buf (offset + length (chars kv.1)) [Some 0%N].

  Fixpoint dump_loop (buf : list (option N)) (l : list (N * cval)) : option (list (option N)) :=
    match l with
    | [] => Some buf
    | kv :: l => buf ← dump_one buf kv; dump_loop buf l
    end.

  (** src/as/as_util.c:30-41 strtab_dump. *)
  Definition strtab_dump (s : strtab) : option (list (option N)) :=
    l ← iterate_all (offsets s) 0 (S (capacity (offsets s)));
    dump_loop (replicate (size s) None) l.
End Names.

(** [name->chars] of an interned name. *)
Definition chars_of (st : nstate) (p : N) : list N :=
  match names st !! N.to_nat p with Some n => Name_model.chars n | None => [] end.
