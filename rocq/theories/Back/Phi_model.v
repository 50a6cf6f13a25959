(** src/cc/backend/ssa.c:290-415: the moves that replace the phis of a block on one of the edges
    into it.  Simplifications: a phi is its destination and its source on that edge; a
    register is a number; the position in the block is left out. *)
From stdpp Require Import base list numbers.

Record phi := Phi { dst : nat; src : nat }.
(** The vector holds NULL (here [None]) at times; using it is a crash. *)
Notation phis := (list (option phi)).

(** ssa.c:299-303, 321-325: the first [j < i] whose destination is [r]; [None] for a crash. *)
Fixpoint find_dst (l : phis) (i : nat) (r : nat) {struct i} : option nat :=
  match i with
  | O => Some O
  | S i' =>
    match l with
    | Some p :: l' => if dst p =? r then Some O else S <$> find_dst l' i' r
    | _ => None
    end
  end.

(** ssa.c:293-312: reorder the phis; [fuel] bounds the number of iterations. *)
Definition move_before (l : phis) (j i : nat) : phis :=
  take j l ++ take 1 (drop i l) ++ drop j (take i l) ++ drop (S i) l.
Fixpoint reorder (fuel i n : nat) (l : phis) : option phis :=
  if (n <=? i) then Some l
  else
    match fuel with
    | O => None
    | S fuel =>
      match l !! i with
      | Some (Some p) =>
        match find_dst l i (src p) with
        | Some j => if j <? i then reorder fuel (S (S i)) n (move_before l j i) else reorder fuel (S i) n l
        | None => None
        end
      | _ => None
      end
    end.

(** ssa.c:331-344: pick a cycle up; gives it and the phis with holes. *)
Fixpoint pick (fuel : nat) (l : phis) (j i : nat) : option (list phi * phis) :=
  match fuel with
  | O => None
  | S fuel =>
    match l !! j with
    | Some (Some p2) =>
      let l := <[j := None]> l in
      if (i <=? j) then Some ([p2], l)
      else
        match find_dst (drop (S j) l) (i - S j) (src p2) with
        | Some k => match pick fuel l (S j + k) i with Some (c, l) => Some (p2 :: c, l) | None => None end
        | None => None
        end
    | _ => None
    end
  end.
(** ssa.c:352-357: fill the holes with the last ones. *)
Fixpoint fill (fuel k n : nat) (l : phis) : phis * nat :=
  if (n <=? k) then (l, n)
  else
    match fuel with
    | O => (l, n)
    | S fuel =>
      match l !! k with
      | Some None => let n := pred n in fill fuel (S k) n (<[n := None]> (<[k := default None (l !! n)]> l))
      | _ => fill fuel (S k) n l
      end
    end.
(** ssa.c:358-359: drop the last ones. *)
Fixpoint trim (n : nat) (l : phis) : nat :=
  match n with
  | O => O
  | S n' => match l !! n' with Some None => trim n' l | _ => n end
  end.

(** ssa.c:316-361 *)
Fixpoint detect (fuel i n : nat) (l : phis) (cyclics : list (list phi)) : option (phis * list (list phi)) :=
  if (n <=? i) then Some (take n l, cyclics)
  else
    match fuel with
    | O => None
    | S fuel =>
      match l !! i with
      | Some (Some p) =>
        match find_dst l i (src p) with
        | Some j =>
          if j <? i then
            match pick (S i) l j i with
            | Some (c, l) =>
              let '(l, n) := fill n 0 n l in
              detect fuel (S i) (trim n l) l (cyclics ++ [c])
            | None => None
            end
          else detect fuel (S i) n l cyclics
        | None => None
        end
      | _ => None
      end
    end.

Definition extract_cyclic_dependency (ps : list phi) : option (phis * list (list phi)) :=
  let n := length ps in
  match reorder n 0 n (Some <$> ps) with
  | Some l => detect n 0 n l []
  | None => None
  end.

(** ssa.c:400-409: the moves of a cycle through the register [tmp]. *)
Definition cycle_moves (tmp : nat) (c : list phi) : list (nat * nat) :=
  match c with
  | [] => []
  | p :: c' => (tmp, src p) :: ((fun q => (dst q, src q)) <$> c') ++ [(dst p, tmp)]
  end.
Fixpoint cycles_moves (tmp : nat) (cs : list (list phi)) : list (nat * nat) :=
  match cs with
  | [] => []
  | c :: cs => cycle_moves tmp c ++ cycles_moves (S tmp) cs
  end.

(** ssa.c:365-415 replace_phis: destinations and sources of the moves, in order; new registers
    are numbered from [tmp]. *)
Definition replace_phis (tmp : nat) (ps : list phi) : option (list (nat * nat)) :=
  match extract_cyclic_dependency ps with
  | Some (l, cyclics) =>
    match mapM id l with
    | Some l => Some (((fun q => (dst q, src q)) <$> l) ++ cycles_moves tmp cyclics)
    | None => None
    end
  | None => None
  end.
