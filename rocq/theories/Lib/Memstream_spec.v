(** What a caller of snprintf and open_memstream expects. *)
From stdpp Require Import base list numbers.
From Verif Require Import Lib.Printf_model Lib.Memstream_model.
Local Open Scope Z_scope.

(** [s] stored as a C string at the start of [mem]; the rest is untouched. *)
Definition store_cstr (s mem : list Z) : list Z := s ++ 0 :: drop (S (length s)) mem.

(** The bytes of a session's writes. *)
Fixpoint written (ops : list mop) : list Z :=
  match ops with
  | [] => []
  | MWrite d :: ops => d ++ written ops
  | MFlush :: ops => written ops
  end.

(** A published result holding [data]: a buffer starting with it and a NUL,
    and its length. *)
Definition publishes (r : option (list Z) * Z) (data : list Z) : Prop :=
  exists b tl, r.1 = Some b /\ b = data ++ 0 :: tl /\ r.2 = Z.of_nat (length data).
