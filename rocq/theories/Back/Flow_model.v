(** src/cc/backend/ir.c:407-541: predecessors of basic blocks and the registers that are live
    at their ends.
    Simplifications: a register is its number [virt]; constant operands are left out; blocks
    are numbered by their position, and the next block is the following one; the phis
    (there are none when the analysis runs, unless they are kept for printing) are left
    out. *)
From stdpp Require Import base list numbers.
Open Scope nat_scope.

Definition sum (l : list nat) : nat := foldr plus 0 l.

(** An instruction: the registers among opr1 and opr2, and its dst. *)
Record ir := Ir { oprs : list nat; odst : option nat }.
(** How a block ends: its last instruction is none of JMP and TJMP, a JMP, a conditional one,
    or a TJMP.  The operands of these are in [irs], too. *)
Inductive ending := Falls | Jump (b : nat) | CJump (b : nat) | Table (bs : list nat).
Record bb := BB { irs : list ir; last : ending }.

Definition next (bbs : list bb) (i : nat) : list nat := if S i <? length bbs then [S i] else [].
(** ir.c:430-457: the blocks pushed, in order. *)
Definition succs (bbs : list bb) (i : nat) (b : bb) : list nat :=
  match last b with
  | Falls => next bbs i
  | Jump t => [t]
  | CJump t => t :: next bbs i
  | Table ts => ts
  end.

(** ir.c:424-458; the vector [unchecked] is written from its end. *)
Fixpoint detect (fuel : nat) (bbs : list bb) (unchecked checked : list nat) (from : list (list nat)) : option (list (list nat)) :=
  match unchecked with
  | [] => Some from
  | i :: rest =>
    match fuel with
    | O => None
    | S fuel =>
      if decide (i ∈ checked) then detect fuel bbs rest checked from
      else
        b ← bbs !! i;
        let ss := succs bbs i b in
        detect fuel bbs (reverse ss ++ rest) (i :: checked)
          (foldl (fun (from : list (list nat)) s => alter (fun l => l ++ [i]) s from) from ss)
    end
  end.
Definition detect_fuel (bbs : list bb) : nat := 2 + sum (imap (fun i b => length (succs bbs i b)) bbs).
(** ir.c:407-459 detect_from_bbs; [None]: a jump to no block, or out of fuel. *)
Definition detect_from_bbs (bbs : list bb) : option (list (list nat)) :=
  if length bbs =? 0 then Some []
  else detect (detect_fuel bbs) bbs [0] [] (replicate (length bbs) []).

(** ir.c:461-474 insert_vreg_into_vec: the position and whether it is new.  [lo], [hi] are one
    more than in the source. *)
Fixpoint bsearch (fuel lo hi : nat) (v : list nat) (r : nat) : option (option nat) :=
  if (hi - lo <=? 1) then Some (Some (pred hi))
  else
    match fuel with
    | O => None
    | S fuel =>
      let m := lo + (hi - lo) / 2 in
      mid ← v !! pred m;
      if mid <? r then bsearch fuel m hi v r
      else if r <? mid then bsearch fuel lo m v r
      else Some None
    end.
Definition insert_vreg (v : list nat) (r : nat) : option (list nat * bool) :=
  p ← bsearch (S (length v)) 0 (S (length v)) v r;
  match p with
  | Some p => Some (take p v ++ r :: drop p v, true)
  | None => Some (v, false)
  end.

(** The vectors of a block. *)
Record sets := Sets { ins : list nat; outs : list nat; assigned : list nat }.

(** ir.c:513-525 *)
Fixpoint scan_oprs (rs : list nat) (s : sets) : option sets :=
  match rs with
  | [] => Some s
  | r :: rs =>
    if decide (r ∈ assigned s) then scan_oprs rs s
    else v ← insert_vreg (ins s) r; scan_oprs rs (Sets (v.1) (outs s) (assigned s))
  end.
Fixpoint scan (l : list ir) (s : sets) : option sets :=
  match l with
  | [] => Some s
  | i :: l =>
    s ← scan_oprs (oprs i) s;
    s ← match odst i with
        | None => Some s
        | Some d => v ← insert_vreg (assigned s) d; Some (Sets (ins s) (outs s) (v.1))
        end;
    scan l s
  end.

(** ir.c:476-484 propagate_out_regs; [froms] from its end. *)
Fixpoint propagate (fuel : nat) (from : list (list nat)) (r : nat) (froms : list nat) (st : list sets) : option (list sets) :=
  match froms with
  | [] => Some st
  | b :: froms =>
    match fuel with
    | O => None
    | S fuel =>
      s ← st !! b;
      o ← insert_vreg (outs s) r;
      let s := Sets (ins s) (o.1) (assigned s) in
      let st := <[b := s]> st in
      if decide (r ∈ assigned s) then propagate fuel from r froms st
      else
        match insert_vreg (ins s) r with
        | Some (v, true) =>
          f ← from !! b;
          propagate fuel from r (reverse f ++ froms) (<[b := Sets v (outs s) (assigned s)]> st)
        | Some (_, false) => propagate fuel from r froms st
        | None => None
        end
    end
  end.
Definition prop_fuel (from : list (list nat)) (froms : list nat) : nat := length froms + sum (length <$> from).

(** ir.c:530-540 *)
Fixpoint each_reg (fuel : nat) (from : list (list nat)) (i j : nat) (st : list sets) : option (list sets) :=
  s ← st !! i;
  match ins s !! j with
  | None => Some st
  | Some r =>
    match fuel with
    | O => None
    | S fuel =>
      f ← from !! i;
      st ← propagate (prop_fuel from f) from r (reverse f) st;
      each_reg fuel from i (S j) st
    end
  end.
Fixpoint each_bb (from : list (list nat)) (i : nat) (st : list sets) : option (list sets) :=
  match i with
  | O => Some st
  | S i =>
    s ← st !! i;
    st ← each_reg (length (ins s)) from i 0 st;
    each_bb from i st
  end.

(** ir.c:486-541 analyze_reg_flow *)
Definition analyze_reg_flow (bbs : list bb) (from : list (list nat)) : option (list sets) :=
  st ← mapM (fun b => scan (irs b) (Sets [] [] [])) bbs;
  each_bb from (length bbs) st.
