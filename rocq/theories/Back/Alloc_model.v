(** src/cc/backend/regalloc.c: linear scan register allocation; one round of
    alloc_physical_registers (462-485), before the code for spilled registers is inserted.
    Simplifications: a register is its number; constant operands are left out; sets of
    physical registers are numbers without the limit of 64 bits; what the architecture says an
    instruction occupies (detect_extra_occupied) is a part of the instruction.  qsort with an
    order that is total is written as a merge sort. *)
From stdpp Require Import base list numbers sorting.
Open Scope Z_scope.

(** What VReg and its flags say: ir.h:46-62. *)
Record vinfo := V {
  present : bool;  (* not removed as unused: ra->vregs->data[i] != NULL *)
  flo : bool;      (* VRF_FLONUM *)
  param : bool;    (* VRF_PARAM *)
  pindex : option nat;  (* reg_param_index *)
  vspilled : bool; (* VRF_SPILLED *)
}.
(** PUSHARG: as a floating point one (regalloc.c:264-268), its index. *)
Inductive effect := Plain | Pusharg (f : bool) (index : nat) | Call.
Record rir := RIr { roprs : list nat; rdst : option nat; reff : effect; rextra : N }.
Record rbb := RBB { rirs : list rir; rin : list nat; rout : list nat }.
(** regalloc.h:31-38 *)
Record settings := Settings {
  mapping : nat -> option nat;  (* reg_param_mapping; None: negative *)
  phys_max : nat; temporary : nat; fphys_max : nat; ftemporary : nat }.

(** Start and end of live intervals, by number of the register. *)
Notation ivals := (list (Z * Z)) (only parsing).

(** regalloc.c:166-180 set_inout_interval, for a register *)
Definition inout1 (vs : list vinfo) (nip : Z) (iv : ivals) (r : nat) : ivals :=
  alter (fun '(s, e) =>
    (if match vs !! r with Some v => param v | None => false end then s else if (s <? 0) || (nip <? s) then nip else s,
     if e <? nip then nip else e)) r iv.
(** regalloc.c:201-210 *)
Definition occur1 (vs : list vinfo) (nip : Z) (iv : ivals) (r : nat) : ivals :=
  alter (fun '(s, e) =>
    (if (s <? 0) && negb match vs !! r with Some v => param v | None => false end then nip else s,
     if e <? nip then nip else e)) r iv.
Definition regs_of (i : rir) : list nat := option_list (rdst i) ++ roprs i.
Fixpoint check_irs (vs : list vinfo) (nip : Z) (l : list rir) (iv : ivals) : ivals :=
  match l with
  | [] => iv
  | i :: l => check_irs vs (nip + 1) l (foldl (occur1 vs nip) iv (regs_of i))
  end.
Definition count (b : rbb) : Z := Z.of_nat (length (rirs b)).
(** regalloc.c:192-214 *)
Fixpoint check_bbs (vs : list vinfo) (nip : Z) (bbs : list rbb) (iv : ivals) : ivals :=
  match bbs with
  | [] => iv
  | b :: bbs =>
    let iv := foldl (inout1 vs nip) iv (rin b) in
    let iv := check_irs vs nip (rirs b) iv in
    let nip := nip + count b in
    check_bbs vs nip bbs (foldl (inout1 vs nip) iv (rout b))
  end.
(** regalloc.c:182-215 check_live_interval *)
Definition check_live_interval (vs : list vinfo) (bbs : list rbb) : ivals :=
  check_bbs vs 0 bbs (replicate (length vs) (-1, -1)).

Section pass.
  Context (se : settings) (vs : list vinfo) (iv : ivals).
  Definition start_of (v : nat) : Z := match iv !! v with Some (s, _) => s | None => -1 end.
  Definition end_of (v : nat) : Z := match iv !! v with Some (_, e) => e | None => -1 end.
  Definition flo_of (v : nat) : bool := match vs !! v with Some i => flo i | None => false end.

  (** regalloc.c:115-124 sort_live_interval, 478-481: by start, longer ones first. *)
  Definition before (a b : nat) : Prop :=
    start_of a < start_of b \/
    (start_of a = start_of b /\ (end_of b < end_of a \/ (end_of a = end_of b /\ (a <= b)%nat))).
  #[global] Instance before_dec a b : Decision (before a b).
  Proof. unfold before. apply _. Defined.
  Definition sorted_intervals : list nat := merge_sort before (seq 0 (length vs)).

  (** regalloc.c:217-225 occupy_regs *)
  Definition occupy (actives : list nat) (i f : N) (occ : list N) : list N :=
    foldl (fun occ v => alter (fun o => N.lor o (if flo_of v then f else i)) v occ) occ actives.

  Record dstate := D { inactives : list nat; actives : list nat; iarg : N; farg : N; docc : list N }.
  Fixpoint activate (nip : Z) (l : list nat) (act : list nat) : list nat * list nat :=
    match l with
    | [] => ([], act)
    | v :: l' => if nip <? start_of v then (l, act) else activate nip l' (act ++ [v])
    end.
  (** regalloc.c:244-295 *)
  Definition detect_ir (nip : Z) (i : rir) (d : dstate) : dstate :=
    let occ := occupy (actives d) (rextra i) 0%N (docc d) in
    let occ := occupy (actives d) (iarg d) (farg d) occ in
    let act := filter (fun v => nip < end_of v) (actives d) in
    let ia := match reff i with
              | Pusharg false n => match mapping se n with Some r => N.setbit (iarg d) (N.of_nat r) | None => iarg d end
              | _ => iarg d end in
    let fa := match reff i with Pusharg true n => N.setbit (farg d) (N.of_nat n) | _ => farg d end in
    let occ := match reff i with
               | Call => occupy act (N.ones (N.of_nat (temporary se))) (N.ones (N.of_nat (ftemporary se))) occ
               | _ => occ end in
    let ia := match reff i with Call => 0%N | _ => ia end in
    let fa := match reff i with Call => 0%N | _ => fa end in
    let '(inact, act) := activate nip (inactives d) act in
    D inact act ia fa occ.
  Fixpoint detect_irs (nip : Z) (l : list rir) (d : dstate) : dstate :=
    match l with
    | [] => d
    | i :: l => detect_irs (nip + 1) l (detect_ir nip i d)
    end.
  Fixpoint detect_bbs (nip : Z) (bbs : list rbb) (d : dstate) : dstate :=
    match bbs with
    | [] => d
    | b :: bbs => detect_bbs (nip + count b) bbs (detect_irs nip (rirs b) d)
    end.
  (** regalloc.c:227-301 detect_live_interval_flags: the occupied registers. *)
  Definition detect_flags (bbs : list rbb) : list N :=
    let l := filter (fun v => 0 <= end_of v) sorted_intervals in
    let d := D (filter (fun v => 0 <= start_of v) l) (filter (fun v => start_of v < 0) l)
               0%N 0%N (replicate (length vs) 0%N) in
    docc (detect_bbs 0 bbs d).

  (** regalloc.c:141-148 PhysicalRegisterSet *)
  Record regset := RS { active : list nat; inuse : N; used : N }.
  (** The fields phys and state of the intervals: a register, or spilled. *)
  Inductive place := NotYet | Reg (r : nat) | Spill.
  Context (occ : list N).
  Definition occ_of (v : nat) : N := default 0%N (occ !! v).

  (** regalloc.c:92-103 insert_active *)
  Fixpoint insert_active (l : list nat) (v : nat) : list nat :=
    match l with
    | [] => [v]
    | p :: l' => if end_of v <? end_of p then v :: l else p :: insert_active l' v
    end.
  Definition clear (u : N) (p : option place) : N := match p with Some (Reg r) => N.clearbit u (N.of_nat r) | _ => u end.
  (** regalloc.c:150-164 expire_old_intervals *)
  Fixpoint expire_list (start : Z) (ps : list place) (l : list nat) (u : N) : list nat * N :=
    match l with
    | [] => ([], u)
    | v :: l' => if start <? end_of v then (l, u) else expire_list start ps l' (clear u (ps !! v))
    end.
  Definition expire (start : Z) (ps : list place) (p : regset) : regset :=
    let '(l, u) := expire_list start ps (active p) (inuse p) in RS l u (used p).
  (** regalloc.c:353-358 *)
  Fixpoint find_free (fuel : nat) (j : nat) (occupied : N) : option nat :=
    match fuel with
    | O => None
    | S fuel => if N.testbit occupied (N.of_nat j) then find_free fuel (S j) occupied else Some j
    end.
  (** regalloc.c:331-359: the register chosen. *)
  Definition choose (i : vinfo) (max temp : nat) (occupied : N) : option nat :=
    match pindex i with
    | Some ip =>
      match (if flo i then Some ip else mapping se ip) with
      | Some r => if N.testbit occupied (N.of_nat r) then find_free (max - temp) temp occupied else Some r
      | None => find_free (max - temp) temp occupied
      end
    | None => find_free max 0 occupied
    end.
  (** regalloc.c:360-369, 126-139 split_at_interval; [None]: assert(active_count > 0). *)
  Definition place1 (v : nat) (i : vinfo) (p : regset) (ps : list place) : option (regset * list place) :=
    let '(max, temp) := if flo i then (fphys_max se, ftemporary se) else (phys_max se, temporary se) in
    match choose i max temp (N.lor (inuse p) (occ_of v)) with
    | Some r =>
      let u := N.setbit (inuse p) (N.of_nat r) in
      Some (RS (insert_active (active p) v) u (N.lor (used p) u), <[v := Reg r]> ps)
    | None =>
      s ← last (active p);
      let q := RS (active p) (inuse p) (N.lor (used p) (inuse p)) in
      if end_of v <? end_of s then
        ps_s ← ps !! s;
        Some (RS (insert_active (removelast (active p)) v) (inuse q) (used q), <[s := Spill]> (<[v := ps_s]> ps))
      else Some (q, <[v := Spill]> ps)
    end.
  Definition scan1 (v : nat) (x : regset * regset * list place) : option (regset * regset * list place) :=
    let '(ir, fr, ps) := x in
    i ← vs !! v;
    if negb (present i) || vspilled i then Some x
    else
      let ir := expire (start_of v) ps ir in
      let fr := expire (start_of v) ps fr in
      if flo i then
        '(fr, ps) ← place1 v i fr ps; Some (ir, fr, ps)
      else
        '(ir, ps) ← place1 v i ir ps; Some (ir, fr, ps).
  Fixpoint scan (l : list nat) (x : regset * regset * list place) : option (regset * regset * list place) :=
    match l with
    | [] => Some x
    | v :: l => x ← scan1 v x; scan l x
    end.
End pass.

(** regalloc.c:303-373 linear_scan_register_allocation *)
Definition linear_scan (se : settings) (vs : list vinfo) (iv : ivals) (occ : list N) : option (regset * regset * list place) :=
  scan se vs iv occ (sorted_intervals vs iv)
    (RS [] 0 0, RS [] 0 0, (fun i => if vspilled i then Spill else NotYet) <$> vs).
(** regalloc.c:462-485; the places, and the sets of registers used. *)
Definition allocate (se : settings) (vs : list vinfo) (bbs : list rbb) : option (list place * N * N) :=
  let iv := check_live_interval vs bbs in
  '(ir, fr, ps) ← linear_scan se vs iv (detect_flags se vs iv bbs);
  Some (ps, used ir, used fr).
