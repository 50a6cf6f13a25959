(** Model of symbol resolution in the linker: src/ld/ld.c:399-443 resolve_symbols_elfobj,
    474-496 resolve_symbols_archive, 548-562 ld_resolve_symbols, 124-155 ld_symbol_address,
    182-215 calc_rela_sym_address, 1115-1132 the part of do_link that uses them, and
    src/util/archive.c:144-175 load_archive_content.

    - Names are interned (C03), so a name is a number here; the tables are finite maps (C01).
    - Every object that is or may be loaded has an identity, its place in [pool].  Its table of
      global and weak symbols (src/ld/elfobj.c:54-64) is given as the list of entries in the order
      in which table_iterate meets them; each name occurs once (C02).  Entries that
      resolve_symbols_elfobj skips (type STT_SECTION or an empty name, ld.c:412) are not in the list.
    - An archive is its index, from names to members (the symbol table built by load_archive); a
      member is an object of the pool.  Reading a member never fails: a failure ends the program
      (archive.c:151-170).
    - The order in which table_iterate meets the unresolved names depends on the history of
      the table; it is a parameter, [order], asked anew in every round.
    - [None] stands for a failed assert. *)
From stdpp Require Import base list numbers gmap.
Local Open Scope Z_scope.

Notation name := positive (only parsing).

(** st_shndx: SHN_UNDEF, SHN_COMMON or a section's number (below SHN_LORESERVE). *)
Inductive shndx := Undef | Common | Sec (n : nat).
Record sym := Sym { s_weak : bool; s_shndx : shndx; s_value : Z; s_size : Z }.
Definition is_undef (s : sym) : bool := match s_shndx s with Undef => true | _ => false end.
(** [ELF64_ST_BIND(..) == STB_WEAK || st_shndx == SHN_COMMON]. *)
Definition gives_way (s : sym) : bool := s_weak s || match s_shndx s with Common => true | _ => false end.

Record obj := Obj { o_syms : list (name * sym); o_nobit : option nat (* nobit_shndx *) }.

(** table_get of an object's symbol table. *)
Fixpoint find_sym (n : name) (l : list (name * sym)) : option sym :=
  match l with
  | [] => None
  | (m, s) :: l => if decide (m = n) then Some s else find_sym n l
  end.
Definition obj_sym (pool : list obj) (id : nat) (n : name) : option sym :=
  o ← pool !! id; find_sym n (o_syms o).

(** ld->symbol_table, the unresolved table and the count of errors. *)
Record state := State { defined : gmap name nat; unresolved : gset name; errors : nat }.

(** src/ld/ld.c:412-440: one symbol of object [id]. *)
Definition resolve_sym (pool : list obj) (gen : gset name) (id : nat) (st : state) (e : name * sym) : option state :=
  let (n, s) := e in
  let prev := defined st !! n in
  if bool_decide (is_Some prev) || bool_decide (n ∈ gen) then
    if is_undef s then Some st
    else
      let dup := Some (State (defined st) (unresolved st) (S (errors st))) in
      match prev with
      | Some p =>
        if gives_way s then Some st
        else
          match obj_sym pool p n with
          | None => None
          | Some ps =>
            if gives_way ps then Some (State (<[n := id]> (defined st)) (unresolved st) (errors st))
            else dup
          end
      | None => dup
      end
  else
    if is_undef s then Some (State (defined st) ({[n]} ∪ unresolved st) (errors st))
    else Some (State (<[n := id]> (defined st)) (unresolved st ∖ {[n]}) (errors st)).

(** src/ld/ld.c:399-443. *)
Fixpoint resolve_syms (pool : list obj) (gen : gset name) (id : nat) (st : state) (l : list (name * sym)) : option state :=
  match l with
  | [] => Some st
  | e :: l => match resolve_sym pool gen id st e with Some st => resolve_syms pool gen id st l | None => None end
  end.
Definition resolve_obj (pool : list obj) (gen : gset name) (id : nat) (st : state) : option state :=
  match pool !! id with Some o => resolve_syms pool gen id st (o_syms o) | None => None end.

(** The archive's index. *)
Notation archive := (gmap name nat) (only parsing).
Inductive file := FObj (id : nat) | FAr (ar : archive).

(** The linker's whole state: the tables, the objects loaded so far in order, and the number of
    rounds made. *)
Record lstate := L { tables : state; loaded : list nat; rounds : nat }.

(** src/util/archive.c:144-175: a member is read at its first use and kept. *)
Definition load (m : nat) (l : list nat) : list nat := if decide (m ∈ l) then l else l ++ [m].

(** The result of a loop that may not end: [Fuel] if it has not ended after the given number of rounds. *)
Inductive res := Done (x : lstate) | Assert | Fuel.

Definition first_in (ar : archive) (l : list name) : option nat :=
  head (omap (fun n => ar !! n) l).

(** src/ld/ld.c:474-496; one unit of fuel for each round of the outer loop. *)
Fixpoint resolve_archive (pool : list obj) (gen : gset name) (order : nat -> gset name -> list name) (ar : archive)
    (fuel : nat) (x : lstate) : res :=
  match fuel with
  | O => Fuel
  | S fuel =>
    match first_in ar (order (rounds x) (unresolved (tables x))) with
    | None => Done (L (tables x) (loaded x) (S (rounds x)))
    | Some m =>
      match resolve_obj pool gen m (tables x) with
      | None => Assert
      | Some st => resolve_archive pool gen order ar fuel (L st (load m (loaded x)) (S (rounds x)))
      end
    end
  end.

(** src/ld/ld.c:548-562. *)
Fixpoint resolve_files (pool : list obj) (gen : gset name) (order : nat -> gset name -> list name) (fuel : nat)
    (fs : list file) (x : lstate) : res :=
  match fs with
  | [] => Done x
  | FObj id :: fs =>
    match resolve_obj pool gen id (tables x) with
    | None => Assert
    | Some st => resolve_files pool gen order fuel fs (L st (loaded x ++ [id]) (rounds x))
    end
  | FAr ar :: fs =>
    match resolve_archive pool gen order ar fuel x with
    | Done x => resolve_files pool gen order fuel fs x
    | r => r
    end
  end.

(** src/ld/ld.c:1115-1123. *)
Definition link (pool : list obj) (gen : gset name) (order : nat -> gset name -> list name) (fuel : nat)
    (entry : name) (fs : list file) : res :=
  resolve_files pool gen order fuel fs (L (State ∅ {[entry]} 0) [] 0).

(** src/ld/ld.c:1123-1132: the conditions for going on. *)
Definition accepted (x : lstate) : Prop := errors (tables x) = 0%nat /\ unresolved (tables x) = ∅.

(** src/ld/ld.c:124-155.  [addr] gives the address of a section of an object, [gaddr] that of a
    generated symbol (C39); [Some None] is the result (uint64_t)-1. *)
Definition symbol_address (pool : list obj) (gaddr : gmap name Z) (addr : nat -> nat -> Z) (x : lstate) (n : name) : option (option Z) :=
  match defined (tables x) !! n with
  | Some id =>
    match obj_sym pool id n with
    | Some s =>
      match s_shndx s with
      | Undef => None
      | Common =>
        match pool !! id ≫= o_nobit with
        | Some k => Some (Some ((addr id k + s_value s) mod 2 ^ 64))
        | None => Some None
        end
      | Sec k => Some (Some ((addr id k + s_value s) mod 2 ^ 64))
      end
    | None => None
    end
  | None => Some (gaddr !! n)
  end.

(** src/ld/ld.c:182-215, for a symbol number [idx] of object [id]: [b] its binding, [section]
    whether its type is STT_SECTION, [n] its name.  [None]: a failed assert or a result (uint64_t)-1.
    A local symbol that is undefined has section number 0. *)
Inductive bind := BLocal | BGlobal | BWeak | BOther.
Definition rela_sym_address (pool : list obj) (gaddr : gmap name Z) (addr : nat -> nat -> Z) (x : lstate)
    (id idx : nat) (b : bind) (section : bool) (n : name) (s : sym) (addend : Z) : option Z :=
  let plus a := Some ((a + addend) mod 2 ^ 64) in
  match b with
  | BLocal =>
    if section then plus (addr id idx)
    else
      match s_shndx s with
      | Undef => plus (addr id 0%nat + s_value s)
      | Sec k => plus (addr id k + s_value s)
      | Common => match pool !! id ≫= o_nobit with Some k => plus (addr id k + s_value s) | None => None end
      end
  | BGlobal | BWeak => match symbol_address pool gaddr addr x n with Some (Some a) => plus a | _ => None end
  | BOther => None
  end.
