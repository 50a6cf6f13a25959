(** Model of Vector, src/util/util.c:355-425 and src/util/util.h:62-66.

    Elements ([void*]) are [N], NULL is 0.  [v_data] has exactly [capacity]
    cells; a cell that was never written is [None].  Any out-of-bounds access
    or use of an unwritten cell makes the operation [None].  [int] lengths and
    capacities do not overflow; [realloc] never fails. *)
From stdpp Require Import base list numbers.
From Verif Require Import Util.Mem.

Record vector := Vector { v_data : list (option N); v_len : nat }.
Definition v_capacity (v : vector) : nat := length (v_data v).

(** src/util/util.c:366-370 vec_init. *)
Definition vec_init : vector := Vector [] 0.

(** src/util/util.c:372-374 vec_clear. *)
Definition vec_clear (v : vector) : vector := Vector (v_data v) 0.

(** realloc to a larger capacity: old cells kept, new ones unwritten. *)
Definition realloc_cells (d : list (option N)) (cap : nat) : list (option N) :=
  take cap d ++ replicate (cap - length d) None.

(** A store [data[i] = x]. *)
Definition store (d : list (option N)) (i : nat) (x : N) : option (list (option N)) :=
  splice d i [Some x].

(** src/util/util.c:376-385 vec_push. *)
Definition vec_push (v : vector) (elem : N) : option vector :=
  let d := if decide (v_capacity v <= v_len v)
           then realloc_cells (v_data v)
                  (if decide (v_capacity v <= 0) then 16 else v_capacity v * 2)
           else v_data v in
  d ← store d (v_len v) elem;
  Some (Vector d (S (v_len v))).

(** src/util/util.c:387-389 vec_pop. *)
Definition vec_pop (v : vector) : option (vector * N) :=
  if decide (0 < v_len v)
  then x ← v_data v !! (v_len v - 1); x ← x; Some (Vector (v_data v) (v_len v - 1), x)
  else Some (v, 0%N).

(** src/util/util.c:391-403 vec_insert; [pos] is an [int]. *)
Definition vec_insert (v : vector) (pos : Z) (elem : N) : option vector :=
  let len := v_len v in
  if decide (pos < 0 \/ pos > Z.of_nat len)%Z then Some v
  else if decide (pos < Z.of_nat len)%Z then
    let p := Z.to_nat pos in
    v ← vec_push v 0%N;
    d ← memmove (v_data v) (p + 1) p (len - p);
    d ← store d p elem;
    Some (Vector d (v_len v))
  else vec_push v elem.

(** src/util/util.c:405-412 vec_remove_at; [index] is an [int]. *)
Definition vec_remove_at (v : vector) (index : Z) : option vector :=
  if decide (index < 0 \/ index >= Z.of_nat (v_len v))%Z then Some v
  else
    let i := Z.to_nat index in
    let d := v_len v - i - 1 in
    data ← (if decide (0 < d) then memmove (v_data v) i (i + 1) d else Some (v_data v));
    Some (Vector data (v_len v - 1)).

(** src/util/util.c:414-420 vec_contains, from index [i]. *)
Fixpoint contains_from (d : list (option N)) (i : nat) (n : nat) (elem : N) : option bool :=
  match n with
  | O => Some false
  | S n => x ← d !! i; x ← x; if decide (x = elem) then Some true else contains_from d (S i) n elem
  end.
Definition vec_contains (v : vector) (elem : N) : option bool :=
  contains_from (v_data v) 0 (v_len v) elem.

(** src/util/util.c:422-425 vec_concat, [dst] and [src] being different
    vectors ([src] is given by its contents).  With [dst == src] the C loop
    does not terminate, because [src->len] grows with each push. *)
Fixpoint vec_concat (dst : vector) (src : list N) : option vector :=
  match src with
  | [] => Some dst
  | x :: src => dst ← vec_push dst x; vec_concat dst src
  end.

Inductive vop :=
  | VPush (x : N) | VPop | VInsert (pos : Z) (x : N) | VRemoveAt (i : Z)
  | VClear | VContains (x : N) | VConcat (xs : list N).
Inductive vres := VRUnit | VRElem (x : N) | VRBool (b : bool).

Definition vstep (v : vector) (o : vop) : option (vector * vres) :=
  match o with
  | VPush x => v ← vec_push v x; Some (v, VRUnit)
  | VPop => '(v, x) ← vec_pop v; Some (v, VRElem x)
  | VInsert p x => v ← vec_insert v p x; Some (v, VRUnit)
  | VRemoveAt i => v ← vec_remove_at v i; Some (v, VRUnit)
  | VClear => Some (vec_clear v, VRUnit)
  | VContains x => b ← vec_contains v x; Some (v, VRBool b)
  | VConcat xs => v ← vec_concat v xs; Some (v, VRUnit)
  end.

Fixpoint vrun (v : vector) (ops : list vop) : option (vector * list vres) :=
  match ops with
  | [] => Some (v, [])
  | o :: ops => '(v, r) ← vstep v o; '(v, rs) ← vrun v ops; Some (v, r :: rs)
  end.

(** What a client reads: [data[0..len)]. *)
Definition vcontents (v : vector) : list (option N) := take (v_len v) (v_data v).
