(** What the result of symbol resolution has to be, in terms of the objects that take part.

    Sources: System V ABI, symbol table: "multiple definitions of STB_GLOBAL symbols with the same name are
    not allowed; if a defined global symbol exists, the appearance of a weak symbol with the
    same name does not cause an error; the global definition is honoured"; the same for
    common symbols. *)
From stdpp Require Import base list numbers gmap.
From Verif Require Import Ld.Sym_model.

(** Object [id] defines name [n]; defines it strongly; refers to it. *)
Definition defines (pool : list obj) (id : nat) (n : name) : Prop :=
  exists o s, pool !! id = Some o /\ (n, s) ∈ o_syms o /\ s_shndx s <> Undef.
Definition strong (pool : list obj) (id : nat) (n : name) : Prop :=
  exists o s k, pool !! id = Some o /\ (n, s) ∈ o_syms o /\ s_shndx s = Sec k /\ s_weak s = false.
Definition refers (pool : list obj) (id : nat) (n : name) : Prop :=
  exists o s, pool !! id = Some o /\ (n, s) ∈ o_syms o /\ s_shndx s = Undef.

(** Each object lists a name once. *)
Definition pool_ok (pool : list obj) : Prop := Forall (fun o => NoDup (o_syms o).*1) pool.
(** The index of an archive tells the truth: the member exists and defines the name. *)
Definition index_ok (pool : list obj) (ar : archive) : Prop := forall n m, ar !! n = Some m -> defines pool m n.
(** The objects given as files are distinct, and are not members; two archives have no member in common. *)
Definition ids (f : file) (id : nat) : Prop :=
  match f with FObj i => id = i | FAr ar => exists n, ar !! n = Some id end.
Definition files_ok (pool : list obj) (fs : list file) : Prop :=
  (forall i j f g id, fs !! i = Some f -> fs !! j = Some g -> ids f id -> ids g id -> i = j) /\
  Forall (fun f => match f with FObj i => is_Some (pool !! i) | FAr ar => index_ok pool ar end) fs.
(** table_iterate meets each of the names once (C02). *)
Definition order_ok (order : nat -> gset name -> list name) : Prop := forall k s, order k s ≡ₚ elements s.

(** A name asked for by the objects [l], or the entry point. *)
Definition wanted (pool : list obj) (entry : name) (l : list nat) (n : name) : Prop :=
  n = entry \/ exists id, id ∈ l /\ refers pool id n.
Definition missing (pool : list obj) (gen : gset name) (entry : name) (l : list nat) (n : name) : Prop :=
  wanted pool entry l n /\ n ∉ gen /\ forall id, id ∈ l -> ~ defines pool id n.

(** No name is defined twice for good, nor a name that the linker itself defines. *)
Definition no_clash (pool : list obj) (gen : gset name) (l : list nat) : Prop :=
  (forall n i j, i ∈ l -> j ∈ l -> strong pool i n -> strong pool j n -> i = j) /\
  (forall n i, i ∈ l -> n ∈ gen -> ~ defines pool i n).

(** [id] is the object a reference to [n] has to bind to: the strong definition if there is one,
    else the first definition. *)
Definition binds_to (pool : list obj) (l : list nat) (n : name) (id : nat) : Prop :=
  id ∈ l /\ defines pool id n /\
  (forall j, j ∈ l -> strong pool j n -> strong pool id n) /\
  (~ strong pool id n -> exists l1 l2, l = l1 ++ id :: l2 /\ forall j, j ∈ l1 -> ~ defines pool j n).

(** Member [m] was pulled in for a reason: a name of the index was missing then. *)
Definition pulled_for (pool : list obj) (gen : gset name) (entry : name) (before : list nat) (ar : archive) (m : nat) : Prop :=
  exists n, ar !! n = Some m /\ missing pool gen entry before n.
(** [l] is [before] and then members of the archive, each pulled in for a reason. *)
Inductive pulled (pool : list obj) (gen : gset name) (entry : name) (ar : archive) (before : list nat) : list nat -> Prop :=
  | pulled_none : pulled pool gen entry ar before before
  | pulled_one l m : pulled pool gen entry ar before l -> pulled_for pool gen entry l ar m ->
      pulled pool gen entry ar before (l ++ [m]).
(** The objects loaded for a list of files: objects as given, members as needed, until nothing
    that the archive has is missing. *)
Inductive gathers (pool : list obj) (gen : gset name) (entry : name) : list nat -> list file -> list nat -> Prop :=
  | g_nil l : gathers pool gen entry l [] l
  | g_obj l id fs l' : gathers pool gen entry (l ++ [id]) fs l' -> gathers pool gen entry l (FObj id :: fs) l'
  | g_ar l ar l1 fs l' : pulled pool gen entry ar l l1 ->
      (forall n, missing pool gen entry l1 n -> ar !! n = None) ->
      gathers pool gen entry l1 fs l' -> gathers pool gen entry l (FAr ar :: fs) l'.

(** The members of an archive; more rounds than any archive has members. *)
Definition members (ar : gmap name nat) : gset nat := list_to_set (map_to_list ar).*2.
Definition enough (fs : list file) (fuel : nat) : Prop :=
  Forall (fun f => match f with FObj _ => True | FAr ar => (size (members ar) < fuel)%nat end) fs.
