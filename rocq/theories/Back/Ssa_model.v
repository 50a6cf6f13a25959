(** src/cc/backend/ssa.c:15-195, 418-423: every assignment of a register gets a register of its own.
    Simplifications: a register is its number [virt]; the instructions and blocks are those of
    Unused_model, where the jump that ends a block is kept apart from the other instructions;
    a register with the flag VRF_FORCEMEMORY is [pinned]; of [vreg_table] only whether a vector
    is empty is kept here, as the vectors themselves serve the register allocator. *)
From stdpp Require Import base list numbers gmap.
From Verif Require Import Back.Unused_model.
From Verif Require Back.Flow_model.
Local Open Scope nat_scope.

Section Ssa.
  Context {K J : Type}.
  (** Where a jump leads. *)
  Context (endof : J -> Flow_model.ending).
  (** VRF_FORCEMEMORY and VRF_PARAM. *)
  Context (pinned param : nat -> bool).

  (** The blocks as ir.c:407-541 looks at them. *)
  Definition flow_ins (i : ins K) : Flow_model.ir := Flow_model.Ir (regs (oprs i)) (dst i).
  Definition flow_exit (e : option (J * list (Z + nat))) : list Flow_model.ir :=
    match e with Some (_, l) => [Flow_model.Ir (regs l) None] | None => [] end.
  Definition flow_blk (b : blk K J) : Flow_model.bb :=
    Flow_model.BB ((flow_ins <$> irs b) ++ flow_exit (exit b))
      (match exit b with Some (j, _) => endof j | None => Flow_model.Falls end).

  (** [ra->vregs->len]; the registers whose vector in [vreg_table] is not empty; the originals
      of the registers made here (the other registers are their own originals). *)
  Record st := St { nextv : nat; vers : gset nat; origs : gmap nat nat }.
  (** ssa.c:15-17 ORIG_VIRT *)
  Definition orig (σ : st) (v : nat) : nat := default v (origs σ !! v).
  (** reg_alloc_with_original and vec_push(vt, ..): ssa.c:33-34, 126-128 *)
  Definition fresh (σ : st) (x : nat) : nat * st := (nextv σ, St (S (nextv σ)) ({[x]} ∪ vers σ) (<[nextv σ := x]> (origs σ))).
  (** The array [vregs]: the version of each original register at this point. *)
  Definition upd (μ : nat -> nat) (x v : nat) : nat -> nat := fun y => if decide (y = x) then v else μ y.

  (** ssa.c:22-27 *)
  Definition ren (σ : st) (μ : nat -> nat) (o : Z + nat) : Z + nat :=
    match o with
    | inl z => inl z
    | inr v => if pinned v then inr v else inr (μ (orig σ v))
    end.
  (** ssa.c:28-36 *)
  Definition ren_dst (σ : st) (μ : nat -> nat) (d : option nat) : option nat * st * (nat -> nat) :=
    match d with
    | Some d =>
      if pinned d then (Some d, σ, μ)
      else
        let x := orig σ d in
        if decide (x ∈ vers σ) then let '(v, σ) := fresh σ x in (Some v, σ, upd μ x v)
        else (Some d, St (nextv σ) ({[x]} ∪ vers σ) (origs σ), upd μ x x)
    | None => (None, σ, μ)
    end.
  (** ssa.c:19-38 assign_new_vregs *)
  Fixpoint assign (l : list (ins K)) (σ : st) (μ : nat -> nat) : list (ins K) * st * (nat -> nat) :=
    match l with
    | [] => ([], σ, μ)
    | i :: l =>
      let os := ren σ μ <$> oprs i in
      let '(d, σ, μ) := ren_dst σ μ (dst i) in
      let '(l, σ, μ) := assign l σ μ in
      (Ins (op i) (is_call i) d os :: l, σ, μ)
    end.
  (** ssa.c:67-75 replace_vreg_set *)
  Definition replace_set (σ : st) (μ : nat -> nat) (v : list nat) : list nat :=
    (fun x => if pinned x then x else μ (orig σ x)) <$> v.
  (** ssa.c:107-114 *)
  Definition hand_over (σ : st) (v : list nat) (μ : nat -> nat) : nat -> nat :=
    foldl (fun μ x => if pinned x then μ else upd μ (orig σ x) x) μ v.
  (** ssa.c:119-128; the new [in_regs]. *)
  Fixpoint new_versions (v : list nat) (σ : st) (μ : nat -> nat) : list nat * st * (nat -> nat) :=
    match v with
    | [] => ([], σ, μ)
    | x :: v =>
      if pinned x then let '(v, σ, μ) := new_versions v σ μ in (x :: v, σ, μ)
      else
        let o := orig σ x in
        let '(n, σ) := fresh σ o in
        let '(v, σ, μ) := new_versions v σ (upd μ o n) in (n :: v, σ, μ)
    end.

  (** What has become of a block: in_regs, irs and out_regs. *)
  Record done := Done { d_ins : list nat; d_irs : list (ins K); d_exit : option (J * list (Z + nat)); d_outs : list nat }.

  Section Function.
    Variable bs : list (blk K J).
    Variable from : list (list nat).
    Variable sets : list Flow_model.sets.
    (** [out_regs] of block [a] as it is now. *)
    Definition outs_now (D : gmap nat done) (a : nat) : option (list nat) :=
      match D !! a with
      | Some d => Some (d_outs d)
      | None => Flow_model.outs <$> sets !! a
      end.
    (** ssa.c:104-130 *)
    Definition block (b : nat) (σ : st) (D : gmap nat done) : option (done * st) :=
      x ← bs !! b; f ← from !! b; s ← sets !! b;
      '(v, σ, μ) ← match f with
                   | [] => Some (Flow_model.ins s, σ, id)
                   | [a] => o ← outs_now D a; let μ := hand_over σ o id in Some (replace_set σ μ (Flow_model.ins s), σ, μ)
                   | _ => Some (new_versions (Flow_model.ins s) σ id)
                   end;
      let '(l, σ, μ) := assign (irs x) σ μ in
      Some (Done v l ((fun e : J * list (Z + nat) => (e.1, ren σ μ <$> e.2)) <$> exit x) (replace_set σ μ (Flow_model.outs s)), σ).
    (** ssa.c:98-133; the vector [unchecked] is written from its end.  [None]: out of fuel, or a jump to no block. *)
    Fixpoint visit (fuel : nat) (unchecked : list nat) (σ : st) (D : gmap nat done) : option (gmap nat done * st) :=
      match unchecked with
      | [] => Some (D, σ)
      | b :: rest =>
        match fuel with
        | O => None
        | S fuel =>
          f ← from !! b;
          if bool_decide (f = [] /\ b <> 0) || bool_decide (is_Some (D !! b)) then visit fuel rest σ D
          else
            x ← bs !! b;
            '(d, σ) ← block b σ D;
            visit fuel (reverse (Flow_model.succs (flow_blk <$> bs) b (flow_blk x)) ++ rest) σ (<[b := d]> D)
        end
      end.

    (** ssa.c:148-158: the registers that get a phi. *)
    Fixpoint phi_targets (fuel : nat) (v : list nat) : list nat :=
      match fuel, v with
      | S fuel, x :: v =>
        if pinned x then
          match last v with
          | Some y => phi_targets fuel (y :: take (pred (length v)) v)
          | None => []
          end
        else x :: phi_targets fuel v
      | _, _ => []
      end.
    (** ssa.c:166-170: the array [from_vregs] after each predecessor. *)
    Fixpoint from_maps (σ : st) (D : gmap nat done) (f : list nat) (m : gmap nat nat) : option (list (gmap nat nat)) :=
      match f with
      | [] => Some []
      | a :: f =>
        o ← outs_now D a;
        let m := foldl (fun (m : gmap nat nat) v => <[orig σ v := v]> m) m o in
        ms ← from_maps σ D f m; Some (m :: ms)
      end.
    (** ssa.c:140-193 insert_phis, from block [b]; [m] is [from_vregs].  [None]: an assertion fails, or NULL would
        become the parameter of a phi. *)
    Fixpoint insert_phis (n b : nat) (σ : st) (D : gmap nat done) (m : gmap nat nat) : option (list (blk K J)) :=
      match n with
      | O => Some []
      | S n =>
        x ← bs !! b; f ← from !! b;
        let '(l, e) := match D !! b with Some d => (d_irs d, d_exit d) | None => (irs x, exit x) end in
        if bool_decide (2 <= length f) && bool_decide (b <> 0) then
          s ← sets !! b;
          let v := match D !! b with Some d => d_ins d | None => Flow_model.ins s end in
          let ts := phi_targets (length v) v in
          ms ← from_maps σ D f m;
          ps ← mapM (fun t => if decide (orig σ t = t) then None
                              else ps ← mapM (fun m : gmap nat nat => m !! orig σ t) ms; Some (Phi t (inr <$> ps))) ts;
          r ← insert_phis n (S b) σ D (default m (last ms));
          Some (Blk ps l e :: r)
        else
          r ← insert_phis n (S b) σ D m;
          Some (Blk (phis x) l e :: r)
      end.
  End Function.

  (** ssa.c:78-87: parameters and registers in memory have a version from the start. *)
  Definition start (nv : nat) : st := St nv (list_to_set (filter (fun v => (pinned v || param v) = true) (seq 0 nv))) ∅.
  Definition visit_fuel (bs : list (blk K J)) : nat := Flow_model.detect_fuel (flow_blk <$> bs).
  (** ssa.c:418-423 make_ssa, after detect_from_bbs; [nv] is the number of registers. *)
  Definition make_ssa (nv : nat) (bs : list (blk K J)) : option (list (blk K J)) :=
    let fl := flow_blk <$> bs in
    from ← Flow_model.detect_from_bbs fl;
    sets ← Flow_model.analyze_reg_flow fl from;
    '(D, σ) ← visit bs from sets (visit_fuel bs) [0] (start nv) ∅;
    insert_phis bs from sets (length bs) 0 σ D ∅.
End Ssa.
