(** C11 7.24 in terms of lists of bytes. *)
From stdpp Require Import base list numbers gmap.
From Verif Require Import Lib.Cmem.
Local Open Scope Z_scope.

(** Lexicographic order on unsigned characters; a proper prefix is smaller. *)
Fixpoint lex (s t : list Z) : comparison :=
  match s, t with
  | [], [] => Eq
  | [], _ => Lt
  | _, [] => Gt
  | a :: s, b :: t => match a ?= b with Eq => lex s t | c => c end
  end.

(** [i] is the first / last index of [l] whose element satisfies [P]. *)
Definition first_at (P : Z -> Prop) (l : list Z) (i : nat) : Prop :=
  (exists c, l !! i = Some c /\ P c) /\ forall j c, (j < i)%nat -> l !! j = Some c -> ~ P c.
Definition last_at (P : Z -> Prop) (l : list Z) (i : nat) : Prop :=
  (exists c, l !! i = Some c /\ P c) /\ forall j c, (i < j)%nat -> l !! j = Some c -> ~ P c.

(** A search result: NULL or the address of the first (last) match in the bytes
    [l] starting at [p]. *)
Definition found_first (P : Z -> Prop) (p : Z) (l : list Z) (r : option Z) : Prop :=
  match r with
  | Some a => exists i, a = p + Z.of_nat i /\ first_at P l i
  | None => Forall (fun c => ~ P c) l
  end.
Definition found_last (P : Z -> Prop) (p : Z) (l : list Z) (r : option Z) : Prop :=
  match r with
  | Some a => exists i, a = p + Z.of_nat i /\ last_at P l i
  | None => Forall (fun c => ~ P c) l
  end.

(** [n] is the length of the longest prefix of [s] all of whose characters satisfy [P]. *)
Definition span (P : Z -> Prop) (s : list Z) (n : nat) : Prop :=
  (n <= length s)%nat /\ Forall P (take n s) /\ forall c, s !! n = Some c -> ~ P c.

(** strstr: the first position at which [t] occurs in [s]. *)
Definition occurs_at (t s : list Z) (i : nat) : Prop := (i <= length s)%nat /\ t `prefix_of` drop i s.
Definition found_sub (p : Z) (s t : list Z) (r : option Z) : Prop :=
  match r with
  | Some a => exists i, a = p + Z.of_nat i /\ occurs_at t s i /\ forall j, (j < i)%nat -> ~ occurs_at t s j
  | None => forall i, ~ occurs_at t s i
  end.

(** Tokens: maximal delimiter-free non-empty substrings, with their offsets.
    [cur] is the (reversed) token being read, [k] the offset of the next character. *)
Fixpoint tokens_from (isd : Z -> bool) (cur : list Z) (k : nat) (s : list Z) : list (nat * list Z) :=
  match s with
  | [] => match cur with [] => [] | _ => [((k - length cur)%nat, rev cur)] end
  | c :: s =>
    if isd c then
      match cur with
      | [] => tokens_from isd [] (S k) s
      | _ => ((k - length cur)%nat, rev cur) :: tokens_from isd [] (S k) s
      end
    else tokens_from isd (c :: cur) (S k) s
  end.
Definition tokens (isd : Z -> bool) (s : list Z) : list (nat * list Z) := tokens_from isd [] 0 s.

(** Case folding in the "C" locale. *)
Definition fold_case (c : Z) : Z := if (65 <=? c) && (c <=? 90) then c + 32 else c.

(** [p, p+n) and [q, q+k) do not overlap. *)
Definition apart (p : Z) (n : nat) (q : Z) (k : nat) : Prop :=
  p + Z.of_nat n <= q \/ q + Z.of_nat k <= p.

Definition is_delim (t : list Z) (c : Z) : bool := bool_decide (c ∈ t).
(** [s] is empty or its last character is a delimiter. *)
Definition ends_in_delim (t s : list Z) : Prop := s = [] \/ exists x c, s = x ++ [c] /\ c ∈ t.
