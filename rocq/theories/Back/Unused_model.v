(** src/cc/backend/optimize.c:125-216: instructions whose results are not used are removed.
    Simplifications: a register is its number; the jump that ends a block is kept apart from the
    other instructions, as it has no [dst]; [vreg_table], which only serves the register
    allocator, is left out. *)
From stdpp Require Import base list numbers gmap.

(** Operands: constants and registers. *)
Notation opr := (Z + nat)%type (only parsing).
Section Unused.
  Context {K J : Type}.
  Record ins := Ins { op : K; is_call : bool; dst : option nat; oprs : list (Z + nat) }.
  Record phi := Phi { pdst : nat; params : list (Z + nat) }.
  Record blk := Blk { phis : list phi; irs : list ins; exit : option (J * list (Z + nat)) }.

  Definition regs (l : list (Z + nat)) : list nat := l ≫= fun o => match o with inl _ => [] | inr v => [v] end.
  (** optimize.c:135-159: the operands of phis and instructions, and [opr1], [opr2] of jumps. *)
  Definition used (b : blk) : list nat :=
    (phis b ≫= fun p => regs (params p)) ++ (irs b ≫= fun i => regs (oprs i)) ++ match exit b with Some (_, l) => regs l | None => [] end.

  Section Function.
    (** VRF_PARAM or VRF_REF is set in the flags of the register. *)
    Context (pinned : nat -> bool).
    (** optimize.c:129-160: [vreg_read]; [alive] are the registers other than NULL. *)
    Definition vreg_read (alive : list bool) (bs : list blk) : gset nat :=
      list_to_set (filter (fun v => alive !! v = Some true /\ pinned v = true) (seq 0 (length alive))) ∪ list_to_set (bs ≫= used).
    (** optimize.c:177-188 *)
    Definition keep_ins (read : gset nat) (i : ins) : list ins :=
      match dst i with
      | Some d =>
        if decide (d ∈ read) then [i]
        else if is_call i then [Ins (op i) true None (oprs i)] else []
      | None => [i]
      end.
    (** optimize.c:162-189 *)
    Definition prune (read : gset nat) (b : blk) : blk :=
      Blk (filter (fun p => pdst p ∈ read) (phis b)) (irs b ≫= keep_ins read) (exit b).
    (** optimize.c:191-212: registers that were not read become NULL. *)
    Definition mark (read : gset nat) (alive : list bool) : list bool := imap (fun v a => a && bool_decide (v ∈ read)) alive.
    (** optimize.c:128-213 *)
    Fixpoint unused_rounds (fuel : nat) (alive : list bool) (bs : list blk) : option (list blk) :=
      match fuel with
      | O => None
      | S fuel =>
        let read := vreg_read alive bs in
        let bs := prune read <$> bs in
        let alive' := mark read alive in
        if decide (alive' = alive) then Some bs else unused_rounds fuel alive' bs
      end.
    Definition remove_unused_vregs (alive : list bool) (bs : list blk) : option (list blk) := unused_rounds (S (length alive)) alive bs.
  End Function.
End Unused.
Arguments ins : clear implicits. Arguments blk : clear implicits.
