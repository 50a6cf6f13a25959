(** src/cc/backend/ssa.c:198-288, 365-444: the phis of a function are replaced by moves at the ends of
    the preceding blocks, some of which are inserted for that.
    Simplifications: a block is known by a label, the blocks that are inserted get new ones;
    [next] is the block that follows in the vector, which is what the assertions of ssa.c:209, 252
    say; a register is its number; the instructions and blocks are those of Unused_model, where the
    jump that ends a block is kept apart from the other instructions; JMP with COND_NONE does not
    occur (it is removed, optimize.c:609-614); [vreg_table] is left out. *)
From stdpp Require Import base list numbers.
From Verif Require Import Back.Unused_model.
From Verif Require Back.Phi_model.
Local Open Scope nat_scope.

(** JMP with COND_ANY, JMP with another condition, TJMP. *)
Inductive jmp (C : Type) := Goto (t : nat) | Cond (c : C) (t : nat) | Multi (ts : list nat).
Arguments Goto {C}. Arguments Cond {C}. Arguments Multi {C}.

Section Unphi.
  Context {K C : Type}.
  (** IR_MOV; invert_cond. *)
  Context (mov : K) (inv : C -> C).
  Notation block := (nat * blk K (jmp C))%type.
  (** The blocks in order, the next new label and [ra->vregs->len]. *)
  Record fn := Fn { body : list block; newl : nat; newv : nat }.

  (** ssa.c:276-280: the position of a block. *)
  Fixpoint pos (l : nat) (f : list block) : option nat :=
    match f with
    | [] => None
    | (l', _) :: f => if l' =? l then Some 0 else S <$> pos l f
    end.
  (** ssa.c:209-216, on the end of the block before. *)
  Definition falls (e : option (jmp C * list (Z + nat))) : bool :=
    match e with Some (Goto _, _) | Some (Multi _, _) => false | _ => true end.
  Definition set_exit (e : option (jmp C * list (Z + nat))) (x : blk K (jmp C)) : blk K (jmp C) := Blk (phis x) (irs x) e.
  (** vec_insert *)
  Definition put (at_ : nat) (b : block) (f : list block) : list block := take at_ f ++ b :: drop at_ f.

  (** ssa.c:198-260 insert_unconditional_bb; [e] is the jump that ends block [ifrom].  [None]: an assertion fails or NULL is used.
      The result is the function, the label of the new block and its position. *)
  Definition insert_bb (f : fn) (ito ifrom : nat) (e : jmp C) (l : list (Z + nat)) : option (fn * nat * nat) :=
    '(to, _) ← body f !! ito; '(from, x) ← body f !! ifrom;
    ft ← (if ito =? 0 then Some false else '(_, p) ← body f !! (ito - 1); Some (falls (exit p)));
    let at_ := if ft : bool then S ifrom else ito in
    let bb := newl f in
    e ← match e with
        | Goto t => Some (Goto t)
        | Cond c t =>
          if t =? to then if ft then '(next, _) ← body f !! S ifrom; Some (Cond (inv c) next) else Some (Cond c bb)
          else Some (Cond c t)
        | Multi ts => _ ← body f !! S ifrom; Some (Multi ((fun t => if t =? to then bb else t) <$> ts))
        end;
    let f1 := <[ifrom := (from, set_exit (Some (e, l)) x)]> (body f) in
    Some (Fn (put at_ (bb, Blk [] [] (if at_ =? ito then None else Some (Goto to, []))) f1) (S bb) (newv f), bb, at_).
  (** ssa.c:265-288 make_from_bb_unconditional: the function, the label of the predecessor and the position of an inserted block. *)
  Definition make_from (f : fn) (ibb from : nat) : option (fn * nat * option nat) :=
    ifrom ← pos from (body f); '(_, x) ← body f !! ifrom;
    match exit x with
    | Some (Cond c t, l) => '(f, bb, at_) ← insert_bb f ibb ifrom (Cond c t) l; Some (f, bb, Some at_)
    | Some (Multi ts, l) => '(f, bb, at_) ← insert_bb f ibb ifrom (Multi ts) l; Some (f, bb, Some at_)
    | _ => Some (f, from, None)
    end.

  (** The phis as the reordering of ssa.c:290-362 looks at them, for one predecessor: registers are below [tmp], the
      constant of phi [i] is [tmp + i] (no destination is a constant), registers made there come after.  [None]: the assertion of ssa.c:295 fails. *)
  Definition coded (tmp k : nat) (ps : list phi) : option (list Phi_model.phi) :=
    mapM (fun ip : nat * phi => o ← params ip.2 !! k; Some (Phi_model.Phi (pdst ip.2) (match o with inr v => v | inl _ => tmp + ip.1 end))) (imap pair ps).
  Definition decoded (tmp k : nat) (ps : list phi) (s : nat) : Z + nat :=
    if s <? tmp then inr s
    else if s <? tmp + length ps then default (inr s) (p ← ps !! (s - tmp); params p !! k)
    else inr (s - length ps).
  Definition decoded_reg (tmp n d : nat) : nat := if d <? tmp then d else d - n.
  Definition move (tmp k : nat) (ps : list phi) (ds : nat * nat) : ins K := Ins mov false (Some (decoded_reg tmp (length ps) ds.1)) [decoded tmp k ps ds.2].
  (** The phi with this destination. *)
  Definition by_dst (ps : list phi) (d : nat) : option phi := snd <$> list_find (fun p => pdst p = d) ps.
  (** ssa.c:365-415 replace_phis for the predecessor [from], the [k]-th one: the function and the phis in their new order. *)
  Definition replace_phis (f : fn) (from k : nat) (ps : list phi) : option (fn * list phi) :=
    i ← pos from (body f); '(_, x) ← body f !! i;
    let n := length ps in
    cs ← coded (newv f) k ps;
    '(l, cyclics) ← Phi_model.extract_cyclic_dependency cs; l ← mapM id l;
    moves ← Phi_model.replace_phis (newv f + n) cs;
    ps' ← mapM (by_dst ps) (Phi_model.dst <$> l ++ concat cyclics);
    Some (Fn (<[i := (from, Blk (phis x) (irs x ++ (move (newv f) k ps <$> moves)) (exit x))]> (body f)) (newl f) (newv f + length cyclics), ps').

  (** ssa.c:433-440 for the predecessors from the [k]-th on; [ibb] is where the block is now. *)
  Fixpoint edges_loop (k : nat) (from : list nat) (f : fn) (ibb : nat) (ps : list phi) : option (fn * nat) :=
    match from with
    | [] => Some (f, ibb)
    | a :: from =>
      '(f, p, at_) ← make_from f ibb a;
      let ibb := match at_ with Some at_ => if at_ <=? ibb then S ibb else ibb | None => ibb end in
      '(f, ps) ← replace_phis f p k ps;
      edges_loop (S k) from f ibb ps
    end.
  (** [bb->phis] is not NULL; [from_bbs] of the blocks that have one. *)
  Context (has : nat -> bool) (from : nat -> list nat).
  (** ssa.c:425-444 resolve_phis, from position [ibb] on. *)
  Fixpoint resolve (fuel : nat) (ibb : nat) (f : fn) : option fn :=
    match fuel with
    | O => None
    | S fuel =>
      match body f !! ibb with
      | None => Some f
      | Some (to, x) =>
        if has to then
          '(f, ibb) ← edges_loop 0 (from to) f ibb (phis x);
          '(_, x) ← body f !! ibb;
          resolve fuel (S ibb) (Fn (<[ibb := (to, Blk [] (irs x) (exit x))]> (body f)) (newl f) (newv f))
        else resolve fuel (S ibb) f
      end
    end.
End Unphi.
(** The blocks of a function, labelled by their positions, and registers below [nv].  The blocks that are inserted have no phis. *)
Definition labelled {K C} (bs : list (blk K (jmp C))) : list (nat * blk K (jmp C)) := imap pair bs.
Definition resolve_phis {K C} (mov : K) (inv : C -> C) (has : nat -> bool) (from : list (list nat)) (nv : nat) (bs : list (blk K (jmp C))) : option fn :=
  resolve mov inv (fun l => has l && (l <? length bs)) (fun b => default [] (from !! b)) (S (length bs + length (concat from))) 0 (Fn (labelled bs) (length bs) nv).
