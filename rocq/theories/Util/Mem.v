(** Bounds-checked array helpers used by several models: the effect of the
    host's [memcpy]/[memmove] (their C-standard meaning) on an allocation of
    fixed length.  [None] is an out-of-bounds access. *)
From stdpp Require Import base list numbers.
From Coq Require Import Lia.

(** Read [n] cells at [pos]. *)
Definition slice {A} (l : list A) (pos n : nat) : option (list A) :=
  if decide (pos + n <= length l) then Some (take n (drop pos l)) else None.

(** Overwrite the cells at [pos] (memcpy from a disjoint source). *)
Definition splice {A} (l : list A) (pos : nat) (bs : list A) : option (list A) :=
  if decide (pos + length bs <= length l)
  then Some (take pos l ++ bs ++ drop (pos + length bs) l) else None.

(** memmove inside one allocation. *)
Definition memmove {A} (l : list A) (dst src n : nat) : option (list A) :=
  bs ← slice l src n; splice l dst bs.

Lemma splice_length {A} (l l' : list A) pos bs : splice l pos bs = Some l' -> length l' = length l.
Proof.
  unfold splice. destruct (decide _); [|done]. intros [= <-].
  rewrite !app_length, take_length, drop_length. lia.
Qed.

Lemma take_take_le {A} (l : list A) n m : n <= m -> take n (take m l) = take n l.
Proof. intros. rewrite take_take. f_equal. lia. Qed.
