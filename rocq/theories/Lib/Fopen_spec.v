(** What fopen's mode strings mean (C11 7.21.5.3, in any order). *)
From stdpp Require Import base list numbers.
From Verif Require Import Lib.Fopen_model.
Local Open Scope Z_scope.

Definition count (c : Z) (mode : list Z) : nat := length (filter (fun x => x = c) mode).
Definition has (c : Z) (mode : list Z) : bool := bool_decide (c ∈ mode).

(** One of r, w and a, and possibly + and b. *)
Definition good_mode (mode : list Z) : Prop :=
  Forall (fun c => c ∈ [114; 119; 97; 43; 98]) mode /\
  (count 114 mode + count 119 mode + count 97 mode = 1)%nat /\
  (count 43 mode <= 1)%nat /\ (count 98 mode <= 1)%nat.

(** The flags for open(2): access, create, truncate, append. *)
Definition flags_of (mode : list Z) : Z :=
  (if has 43 mode then 2 else if has 114 mode then 0 else 1) +
  (if has 114 mode then 0 else 64) +
  (if has 119 mode then 512 else 0) + (if has 97 mode then 1024 else 0).

(** The streams open after [ops], if [l] were before. *)
Fixpoint live (l : list Z) (ops : list fop) : list Z :=
  match ops with
  | [] => l
  | Open fp :: ops => live (l ++ [fp]) ops
  | Close fp :: ops => live (filter (fun x => x <> fp) l) ops
  end.

(** A stream is opened only if it is not open. *)
Fixpoint fresh (l : list Z) (ops : list fop) : Prop :=
  match ops with
  | [] => True
  | Open fp :: ops => fp ∉ l /\ fresh (l ++ [fp]) ops
  | Close fp :: ops => fresh (filter (fun x => x <> fp) l) ops
  end.
