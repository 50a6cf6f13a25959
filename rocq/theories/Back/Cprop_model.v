(** src/cc/backend/optimize.c:220-249, 543-633: a register that only holds a copy is replaced by what it is a copy of.
    Simplifications: the instructions and blocks are those of Unused_model, where the jump that ends
    a block is kept apart from the other instructions; a register with the flag VRF_FORCEMEMORY is
    [pinned] (VRF_VOLATILE is a part of that flag, so optimize.c:623-624 does nothing more);
    two constants are the same if their values are; what the constant folding of
    optimize.c:391-487 does to one instruction is a parameter. *)
From stdpp Require Import base list numbers.
From Verif Require Import Back.Unused_model.
Local Open Scope nat_scope.

Section Copy.
  Context {K J : Type}.
  (** IR_MOV. *)
  Context (mov : K).
  (** IR_MOV and IR_RESULT: optimize.c:616-622. *)
  Context (is_copy : K -> bool).
  (** The constant folding of an instruction, and of a jump: [Some None] is COND_NONE. *)
  Context (fold_ins : ins K -> ins K).
  Context (fold_exit : J -> list (Z + nat) -> option (J * list (Z + nat))).
  (** VRF_FORCEMEMORY *)
  Context (pinned : nat -> bool).

  Definition sub (d : nat) (v o : Z + nat) : Z + nat := if decide (o = inr d) then v else o.
  (** [first = MIN(first, ip)] if [d] is among the operands; [None] is INT_MAX. *)
  Definition hit (d : nat) (l : list (Z + nat)) (ip : nat) : option nat := if decide (inr d ∈ l) then Some ip else None.
  Definition omin (a b : option nat) : option nat :=
    match a, b with Some a, Some b => Some (Nat.min a b) | Some a, None => Some a | None, b => b end.
  (** optimize.c:220-249 replace_register_in_bb *)
  Fixpoint replace_in_bb (d : nat) (v : Z + nat) (l : list (ins K)) (e : option (J * list (Z + nat))) (ip : nat) : list (ins K) * option (J * list (Z + nat)) * option nat :=
    match l with
    | [] =>
      match e with
      | Some (j, lo) => ([], Some (j, sub d v <$> lo), hit d lo ip)
      | None => ([], None, None)
      end
    | i :: l =>
      if decide (dst i = Some d /\ head (oprs i) <> Some v) then (i :: l, e, None)
      else
        let '(l', e', first) := replace_in_bb d v l e (S ip) in
        (Ins (op i) (is_call i) (dst i) (sub d v <$> oprs i) :: l', e', omin (hit d (oprs i) ip) first)
    end.
  (** [bb->irs->len] *)
  Definition blk_len (x : blk K J) : nat := length (irs x) + match exit x with Some _ => 1 | None => 0 end.
  (** optimize.c:546-570 *)
  Fixpoint replace_blks (d : nat) (v : Z + nat) (bs : list (blk K J)) (ip : nat) : list (blk K J) * option nat :=
    match bs with
    | [] => ([], None)
    | x :: bs =>
      let ps := (fun p => Phi (pdst p) (sub d v <$> params p)) <$> phis x in
      let fp := foldr (fun p => omin (hit d (params p) ip)) None (phis x) in
      let '(l, e, fi) := replace_in_bb d v (irs x) (exit x) ip in
      let '(bs', fb) := replace_blks d v bs (ip + blk_len x) in
      (Blk ps l e :: bs', omin fp (omin fi fb))
    end.
  (** optimize.c:543-571 replace_register *)
  Definition is_pinned (o : Z + nat) : bool := match o with inl _ => false | inr v => pinned v end.
  Definition replace_register (bs : list (blk K J)) (d : nat) (v : Z + nat) : list (blk K J) * option nat :=
    if pinned d || is_pinned v then (bs, None) else replace_blks d v bs 0.

  (** optimize.c:585-597: the value of a phi all of whose parameters are the same.  [None]: the assertion fails. *)
  Definition one_value (p : phi) : option (option (Z + nat)) :=
    match params p with
    | [] => None
    | value :: rest => Some (if decide (Forall (fun o => o = value \/ o = inr (pdst p)) rest) then Some value else None)
    end.
  (** optimize.c:582-604 *)
  Fixpoint collapse (ps : list phi) (l : list (ins K)) : option (list phi * list (ins K)) :=
    match ps with
    | [] => Some ([], l)
    | p :: ps =>
      r ← one_value p;
      match r with
      | Some value => collapse ps (Ins mov false (Some (pdst p)) [value] :: l)
      | None => '(ps, l) ← collapse ps l; Some (p :: ps, l)
      end
    end.

  (** optimize.c:616-629: what the instruction is a copy of. *)
  Definition copy_of (i : ins K) : option (nat * (Z + nat)) :=
    if is_copy (op i) then match dst i, oprs i with Some d, [o] => Some (d, o) | _, _ => None end else None.
  Definition before (f : option nat) (ip : nat) : bool := match f with Some f => f <? ip | None => false end.
  (** optimize.c:606-630 for instruction [i] of block [b]. *)
  Definition at_ins (b i ip : nat) (bs : list (blk K J)) (again : bool) : option (list (blk K J) * bool) :=
    x ← bs !! b; c ← irs x !! i;
    let c := fold_ins c in
    let bs := <[b := Blk (phis x) (<[i := c]> (irs x)) (exit x)]> bs in
    Some match copy_of c with
         | Some (d, o) => let '(bs, first) := replace_register bs d o in (bs, again || before first ip)
         | None => (bs, again)
         end.
  (** optimize.c:606, for the [n] instructions from [i] on. *)
  Fixpoint irs_loop (n b i ip : nat) (bs : list (blk K J)) (again : bool) : option (list (blk K J) * bool) :=
    match n with
    | O => Some (bs, again)
    | S n => '(bs, again) ← at_ins b i ip bs again; irs_loop n b (S i) (S ip) bs again
    end.
  (** optimize.c:606-615 for the jump. *)
  Definition at_exit (b : nat) (bs : list (blk K J)) : option (list (blk K J)) :=
    x ← bs !! b;
    Some match exit x with
         | Some (j, l) => <[b := Blk (phis x) (irs x) (fold_exit j l)]> bs
         | None => bs
         end.
  (** optimize.c:578-631, for the [n] blocks from [b] on; [from] are the predecessors. *)
  Fixpoint blks_loop (from : list (list nat)) (n b ip : nat) (bs : list (blk K J)) (again : bool) : option (list (blk K J) * bool) :=
    match n with
    | O => Some (bs, again)
    | S n =>
      f ← from !! b;
      if decide (f = [] /\ b <> 0) then blks_loop from n (S b) ip bs again
      else
        x ← bs !! b;
        '(ps, l) ← collapse (phis x) (irs x);
        let bs := <[b := Blk ps l (exit x)]> bs in
        '(bs, again) ← irs_loop (length l) b 0 ip bs again;
        bs ← at_exit b bs;
        x ← bs !! b;
        blks_loop from n (S b) (ip + blk_len x) bs again
    end.
  (** optimize.c:573-633 copy_propagation *)
  Fixpoint copy_rounds (fuel : nat) (from : list (list nat)) (bs : list (blk K J)) : option (list (blk K J)) :=
    match fuel with
    | O => None
    | S fuel =>
      '(bs, again) ← blks_loop from (length bs) 0 0 bs false;
      if again : bool then copy_rounds fuel from bs else Some bs
    end.
  Definition copy_propagation (from : list (list nat)) (bs : list (blk K J)) : option (list (blk K J)) :=
    copy_rounds (S (length (bs ≫= used))) from bs.
End Copy.
