(** Model of the open-addressing hash table of src/util/table.c.

    Keys ([const Name*]) are addresses, [N]; two names are the same key iff the
    pointers are equal.  [hash] gives the [hash] field of each name and is an
    arbitrary function.  [malloc] never fails; capacities do not overflow
    [int].  The infinite [for] of the probing loops gets fuel; running out of
    fuel ([None]) means that the C loop would not have returned within
    [capacity] probes, i.e. that it loops forever. *)
From stdpp Require Import base list numbers gmap.

(** [void*] values stored in an entry: NULL, a user pointer, or the address of
    the entry itself, which table_delete stores as the tombstone mark
    (src/util/table.c:187-189). *)
Inductive cval := VNull | VPtr (p : N) | VEntry.

(** src/util/table.h:24-27 TableEntry. *)
Record entry := Entry { e_key : option N; e_val : cval }.

(** src/util/table.h:29-34 Table. *)
Record table := Table { entries : list entry; capacity : nat; count : nat; used : nat }.

Definition empty_entry : entry := Entry None VNull.

(** src/util/table.c:127-130 table_init. *)
Definition table_init : table := Table [] 0 0 0.

Section WithHash.
Context (hash : N -> N).

(** [key->hash % capacity]: src/util/table.c:75. *)
Definition start_index (capacity : nat) (k : N) : nat :=
  N.to_nat (hash k mod N.of_nat capacity).

(** src/util/table.c:73-88 find_entry: the probing loop from [index], with the
    first tombstone seen so far.  Returns the index of the entry. *)
Fixpoint find_loop (fuel : nat) (es : list entry) (capacity : nat) (key : N)
    (index : nat) (tomb : option nat) : option nat :=
  match fuel with
  | O => None
  | S fuel =>
    e ← es !! index;
    match e_key e with
    | None =>
      match e_val e with
      | VNull => Some (default index tomb)
      | _ => find_loop fuel es capacity key ((index + 1) mod capacity)
               (match tomb with None => Some index | Some t => Some t end)
      end
    | Some k => if decide (k = key) then Some index
                else find_loop fuel es capacity key ((index + 1) mod capacity) tomb
    end
  end.

Definition find_entry (es : list entry) (capacity : nat) (key : N) : option nat :=
  find_loop capacity es capacity key (start_index capacity key) None.

(** src/util/table.c:103-112: the re-insertion loop of adjust_capacity. *)
Fixpoint rehash_loop (old : list entry) (new : list entry) (new_capacity : nat)
    (new_count : nat) : option (list entry * nat) :=
  match old with
  | [] => Some (new, new_count)
  | e :: rest =>
    match e_key e with
    | None => rehash_loop rest new new_capacity new_count
    | Some k =>
      i ← find_entry new new_capacity k;
      rehash_loop rest (<[i := Entry (Some k) (e_val e)]> new) new_capacity (S new_count)
    end
  end.

(** src/util/table.c:90-118 adjust_capacity. *)
Definition adjust_capacity (t : table) (new_capacity : nat) : option table :=
  '(es, n) ← rehash_loop (entries t) (replicate new_capacity empty_entry) new_capacity 0;
  Some (Table es new_capacity n n).

(** src/util/table.c:132-141 table_get: [VNull] when absent. *)
Definition table_get (t : table) (key : N) : option cval :=
  if decide (count t = 0) then Some VNull
  else
    i ← find_entry (entries t) (capacity t) key;
    e ← entries t !! i;
    Some (match e_key e with None => VNull | Some _ => e_val e end).

(** src/util/table.c:143-154 table_try_get: the result and, when true, [*output]. *)
Definition table_try_get (t : table) (key : N) : option (option cval) :=
  if decide (count t = 0) then Some None
  else
    i ← find_entry (entries t) (capacity t) key;
    e ← entries t !! i;
    Some (match e_key e with None => None | Some _ => Some (e_val e) end).

(** src/util/table.c:156-176 table_put: new table and "is_new_key". *)
Definition table_put (t : table) (key : N) (value : cval) : option (table * bool) :=
  t ← (if decide (capacity t / 2 <= used t)
       then adjust_capacity t (Nat.max 15 (capacity t * 2 - 1))
       else Some t);
  i ← find_entry (entries t) (capacity t) key;
  e ← entries t !! i;
  let is_new_key := match e_key e with None => true | Some _ => false end in
  let count' := if is_new_key then S (count t) else count t in
  let used' := if is_new_key
               then match e_val e with VNull => S (used t) | _ => used t end
               else used t in
  Some (Table (<[i := Entry (Some key) value]> (entries t)) (capacity t) count' used',
        is_new_key).

(** src/util/table.c:178-192 table_delete. *)
Definition table_delete (t : table) (key : N) : option (table * bool) :=
  if decide (count t = 0) then Some (t, false)
  else
    i ← find_entry (entries t) (capacity t) key;
    e ← entries t !! i;
    match e_key e with
    | None => Some (t, false)
    | Some _ =>
      Some (Table (<[i := Entry None VEntry]> (entries t)) (capacity t) (count t - 1) (used t),
            true)
    end.

End WithHash.

(** src/util/table.c:194-208 table_iterate: scan from [iterator]; [None] is the
    C result -1.  [fuel] is [capacity - iterator], the loop's exact bound. *)
Fixpoint iterate_from (es : list entry) (iterator : nat) (fuel : nat)
    : option (nat * N * cval) :=
  match fuel with
  | O => None
  | S fuel =>
    match es !! iterator with
    | Some (Entry (Some k) v) => Some (S iterator, k, v)
    | _ => iterate_from es (S iterator) fuel
    end
  end.

Definition table_iterate (t : table) (iterator : nat) : option (nat * N * cval) :=
  iterate_from (entries t) iterator (capacity t - iterator).

(** The caller's loop
    [for (it = 0; (it = table_iterate(t, it, &k, &v)) != -1; )], as used all over
    the code base (e.g. src/cc/frontend/fe_misc.c, src/ld/ld.c). *)
Fixpoint iterate_all (t : table) (iterator : nat) (fuel : nat) : option (list (N * cval)) :=
  match fuel with
  | O => None
  | S fuel =>
    match table_iterate t iterator with
    | None => Some []
    | Some (it, k, v) => l ← iterate_all t it fuel; Some ((k, v) :: l)
    end
  end.

(** A client's history. *)
Inductive op := Put (k : N) (v : cval) | Delete (k : N) | Get (k : N) | TryGet (k : N).
Inductive result := RBool (b : bool) | RVal (v : cval) | ROpt (v : option cval).

Definition step (hash : N -> N) (t : table) (o : op) : option (table * result) :=
  match o with
  | Put k v => '(t, b) ← table_put hash t k v; Some (t, RBool b)
  | Delete k => '(t, b) ← table_delete hash t k; Some (t, RBool b)
  | Get k => v ← table_get hash t k; Some (t, RVal v)
  | TryGet k => v ← table_try_get hash t k; Some (t, ROpt v)
  end.

Fixpoint run (hash : N -> N) (t : table) (ops : list op) : option (table * list result) :=
  match ops with
  | [] => Some (t, [])
  | o :: ops =>
    '(t, r) ← step hash t o;
    '(t, rs) ← run hash t ops;
    Some (t, r :: rs)
  end.
