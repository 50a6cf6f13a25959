(** What an ELF string table is: the strings one after the other, each with a NUL. *)
From stdpp Require Import base list numbers.
Local Open Scope N_scope.

(** The elements of a list, each where it occurs first. *)
Definition firsts (l : list N) : list N :=
  foldl (fun seen k => if decide (k ∈ seen) then seen else seen ++ [k]) [] l.

(** The bytes of the table holding these names. *)
Definition image (chars : N -> list N) (ks : list N) : list N := ks ≫= fun k => chars k ++ [0].

(** The string at an offset: the bytes up to the first NUL. *)
Fixpoint cstring (bs : list N) : option (list N) :=
  match bs with
  | [] => None
  | b :: bs => if decide (b = 0) then Some [] else cons b <$> cstring bs
  end.
Definition string_at (bs : list N) (o : nat) : option (list N) := cstring (drop o bs).
