(** src/cc/backend/optimize.c:17-121: blocks that are not needed are removed.
    Simplifications: a block is its label; its instructions other than a final JMP or TJMP are of a
    type [I], the operands of the jumps of a type [R]; the next block is the following one in the
    vector, which emit_code.c:360-367 asserts and the assignment in line 110 keeps; the table of
    labels to keep is a set. *)
From stdpp Require Import base list numbers gmap.
From Verif Require Import Back.Ir_model.
Local Open Scope Z_scope.

Section Blocks.
  Context {I R : Type}.
  (** How a block ends: with a JMP (ir.h:162-165), a TJMP (166-169), or neither. *)
  Inductive ending := EJmp (cond : Z) (o : R) (bb : nat) | ETab (o : R) (bbs : list nat) | EFall.
  Record bb := BB { label : nat; body : list I; last : ending }.

  (** The label of [bb->next]. *)
  Definition next_of (bs : list bb) (i : nat) : option nat := label <$> bs !! S i.

  (** optimize.c:33-52 *)
  Definition swap_dst (src dst n : nat) : nat := if (n =? src)%nat then dst else n.
  Definition replace_jmp_destination (bs : list bb) (src dst : nat) : list bb :=
    (fun b =>
       if (label b =? src)%nat then b
       else BB (label b) (body b)
         match last b with
         | EJmp c o d => EJmp c o (swap_dst src dst d)
         | ETab o ds => ETab o (swap_dst src dst <$> ds)
         | EFall => EFall
         end) <$> bs.

  (** optimize.c:64-67: a jump to the next block. *)
  Definition drop_jmp (b : bb) (next : option nat) : bb :=
    match last b with
    | EJmp _ _ d => if decide (next = Some d) then BB (label b) (body b) EFall else b
    | _ => b
    end.
  (** optimize.c:73-86: [b] only jumps to [d]; the block before it at [i - 1].  The flag tells whether [b] is to be
      removed; [None] is the assertion in invert_cond. *)
  Definition turn_jmp (bs : list bb) (i : nat) (next : option nat) (d : nat) : option (list bb * bool) :=
    match i with
    | O => Some (bs, false)
    | S p =>
      match bs !! p with
      | Some (BB l bd (EJmp c o d0)) =>
        if bool_decide (c <> COND_ANY) && bool_decide (next = Some d0) && bool_decide (Z.land c COND_FLONUM = 0)
        then c' ← invert_cond c; Some (<[p := BB l bd (EJmp c' o d)]> bs, true)
        else Some (bs, false)
      | _ => Some (bs, false)
      end
    end.
  (** optimize.c:68-87 *)
  Definition skip_block (bs : list bb) (i : nat) (b : bb) (next : option nat) : option (list bb * bool) :=
    match body b, last b, next with
    | [], EFall, Some n => Some (replace_jmp_destination bs (label b) n, true)
    | [], EJmp c _ d, _ =>
      if bool_decide (c = COND_ANY) && bool_decide (d <> label b)
      then turn_jmp (replace_jmp_destination bs (label b) d) i next d
      else Some (bs, false)
    | _, _, _ => Some (bs, false)
    end.
  (** optimize.c:89-98 *)
  Definition puts (b : bb) (next : option nat) : gset nat :=
    match last b with
    | EJmp c _ d => {[ d ]} ∪ (if decide (c = COND_ANY) then ∅ else list_to_set (option_list next))
    | ETab _ ds => list_to_set (option_list next) ∪ list_to_set ds
    | EFall => list_to_set (option_list next)
    end.
  (** optimize.c:60-102 *)
  Definition scan1 (bs : list bb) (keep : gset nat) (i : nat) : option (list bb * gset nat) :=
    b ← bs !! i;
    let next := next_of bs i in
    let b := drop_jmp b next in
    let bs := <[i := b]> bs in
    '(bs, remove) ← skip_block bs i b next;
    let keep := keep ∪ puts b next in
    Some (bs, if remove : bool then keep ∖ {[ label b ]} else keep).
  (** From [i], [n] blocks. *)
  Fixpoint scan (n : nat) (bs : list bb) (keep : gset nat) (i : nat) : option (list bb * gset nat) :=
    match n with
    | O => Some (bs, keep)
    | S n => '(bs, keep) ← scan1 bs keep i; scan n bs keep (S i)
    end.
  (** optimize.c:104-117 *)
  Definition sweep (keep : gset nat) (bs : list bb) : list bb :=
    match bs with [] => [] | b :: r => b :: filter (fun x => label x ∈ keep) r end.
  (** optimize.c:56-120; each round but the last removes a block, so as many rounds as blocks are
      enough. *)
  Fixpoint rounds (fuel : nat) (bs : list bb) : option (list bb) :=
    match fuel with
    | O => None
    | S fuel =>
      '(bs', keep) ← scan (length bs) bs ∅ 0;
      let bs'' := sweep keep bs' in
      if decide (length bs'' = length bs') then Some bs'' else rounds fuel bs''
    end.
  Definition remove_unnecessary_bb (bs : list bb) : option (list bb) := rounds (S (length bs)) bs.
End Blocks.
Arguments ending : clear implicits. Arguments bb : clear implicits.
