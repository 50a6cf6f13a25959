(** Model of name interning, src/util/table.c:8-69.

    The heap of names is a list of spellings; a [const Name*] is the index of
    its record.  [hash_string] is the code's FNV-1a.  [int] lengths do not
    overflow and [malloc] never fails.  Bytes are [N] below 256. *)
From stdpp Require Import base list numbers.
From Verif Require Import Util.Table_model.

(** src/util/table.c:8-15 hash_string; uint32_t arithmetic. *)
Definition hash_string (key : list N) : N :=
  fold_left (fun h u => (N.lxor h u * 16777619) mod 2^32)%N key 2166136261%N.

(** src/util/table.h:10-14 Name, minus the cached length: spelling and hash. *)
Record name := Name { chars : list N; nhash : N }.

Record nstate := NState { names : list name; name_table : table }.

Definition name_init : nstate := NState [] table_init.

(** The [hash] field read through a Name pointer. *)
Definition hash_of (ns : list name) (p : N) : N :=
  match ns !! N.to_nat p with Some n => nhash n | None => 0%N end.

(** src/util/table.c:21-38 find_name_table, the probing loop.  Outer [None]:
    out of fuel (endless loop) or dangling key; [Some None]: NULL. *)
Fixpoint find_name_loop (fuel : nat) (ns : list name) (es : list entry) (capacity : nat)
    (s : list N) (hash : N) (index : nat) : option (option N) :=
  match fuel with
  | O => None
  | S fuel =>
    e ← es !! index;
    match e_key e with
    | None =>
      match e_val e with
      | VNull => Some None
      | _ => find_name_loop fuel ns es capacity s hash ((index + 1) mod capacity)
      end
    | Some key =>
      n ← ns !! N.to_nat key;
      if decide (length (chars n) = length s /\ nhash n = hash /\ chars n = s)
      then Some (Some key)
      else find_name_loop fuel ns es capacity s hash ((index + 1) mod capacity)
    end
  end.

Definition find_name_table (ns : list name) (t : table) (s : list N) (hash : N)
    : option (option N) :=
  if decide (count t = 0) then Some None
  else find_name_loop (capacity t) ns (entries t) (capacity t) s hash
         (N.to_nat (hash mod N.of_nat (capacity t))).

(** src/util/table.c:40-65 alloc_name. *)
Definition alloc_name (st : nstate) (s : list N) : option (nstate * N) :=
  let hash := hash_string s in
  r ← find_name_table (names st) (name_table st) s hash;
  match r with
  | Some p => Some (st, p)
  | None =>
    let p := N.of_nat (length (names st)) in
    let ns := names st ++ [Name s hash] in
    '(t, _) ← table_put (hash_of ns) (name_table st) p (VPtr p);
    Some (NState ns t, p)
  end.

Fixpoint alloc_names (st : nstate) (ss : list (list N)) : option (nstate * list N) :=
  match ss with
  | [] => Some (st, [])
  | s :: ss =>
    '(st, p) ← alloc_name st s;
    '(st, ps) ← alloc_names st ss;
    Some (st, p :: ps)
  end.
