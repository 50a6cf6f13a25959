(** libsrc/stdlib/qsort.c and libsrc/stdlib/bsearch.c.

    The array is a list of elements (the [size] bytes of one element are one
    value; [memcpy] of an element is a list update); [compare] is a function of
    the two elements' contents.  Access outside the array is [None]. *)
From stdpp Require Import base list numbers.

Section Sort.
Context {A : Type} (compare : A -> A -> Z).

(** libsrc/stdlib/qsort.c:17-18: [while (compare(&a[i * size], px) < 0) ++i];
    [fuel] bounds the number of iterations. *)
Fixpoint scan_up (fuel : nat) (a : list A) (px i : nat) : option nat :=
  match fuel with
  | O => None
  | S fuel =>
    y ← a !! i; x ← a !! px;
    if decide (compare y x < 0)%Z then scan_up fuel a px (S i) else Some i
  end.

(** libsrc/stdlib/qsort.c:19-20: [while (compare(px, &a[j * size]) < 0) --j];
    decrementing [j = 0] wraps around, out of the array. *)
Fixpoint scan_down (fuel : nat) (a : list A) (px j : nat) : option nat :=
  match fuel with
  | O => None
  | S fuel =>
    x ← a !! px; y ← a !! j;
    if decide (compare x y < 0)%Z
    then match j with O => None | S j => scan_down fuel a px j end
    else Some j
  end.

(** libsrc/stdlib/qsort.c:24-28: swap through [tmp]. *)
Definition swap (a : list A) (i j : nat) : option (list A) :=
  x ← a !! i; y ← a !! j; Some (<[j := x]> (<[i := y]> a)).

(** libsrc/stdlib/qsort.c:16-36: the partition loop; [px] is the index the
    pivot pointer points to.  Line 30-33 lets it follow the swapped pivot. *)
Fixpoint part_loop (fuel : nat) (a : list A) (px i j : nat) : option (list A * nat * nat) :=
  match fuel with
  | O => None
  | S fuel =>
    i ← scan_up (S (length a)) a px i;
    j ← scan_down (S (length a)) a px j;
    if decide (j <= i) then Some (a, i, j)
    else
      a ← swap a i j;
      let px := if decide (px = i) then j else if decide (px = j) then i else px in
      match j with O => None | S j => part_loop fuel a px (S i) j end
  end.

(** libsrc/stdlib/qsort.c:5-41 qsort.  A recursive call gets the sub-array; its
    result replaces that part. *)
Fixpoint qsort (fuel : nat) (a : list A) : option (list A) :=
  match fuel with
  | O => None
  | S fuel =>
    let nmemb := length a in
    if decide (nmemb <= 1) then Some a
    else
      '(a, i, j) ← part_loop (S nmemb) a (Nat.div2 nmemb) 0 (nmemb - 1);
      a ← (if decide (1 < i)
           then l ← qsort fuel (take i a); Some (l ++ drop i a) else Some a);
      if decide (j + 2 < nmemb)
      then l ← qsort fuel (drop (j + 1) a); Some (take (j + 1) a ++ l)
      else Some a
  end.
End Sort.

Section Search.
Context {K A : Type} (compare : K -> A -> Z).

(** libsrc/stdlib/bsearch.c:3-19 bsearch: [base] is an index into the array;
    [Some None] is NULL. *)
Fixpoint bsearch_loop (fuel : nat) (key : K) (a : list A) (base nmemb : nat) : option (option nat) :=
  match fuel with
  | O => None
  | S fuel =>
    if decide (0 < nmemb) then
      let mid := Nat.div2 nmemb in
      let p := base + mid in
      y ← a !! p;
      let cmp := compare key y in
      if decide (cmp < 0)%Z then bsearch_loop fuel key a base mid
      else if decide (0 < cmp)%Z then bsearch_loop fuel key a (p + 1) (nmemb - (mid + 1))
      else Some (Some p)
    else Some None
  end.
Definition bsearch (key : K) (a : list A) : option (option nat) :=
  bsearch_loop (S (length a)) key a 0 (length a).
End Search.
