(** Instructions of a function in order, arguments in registers, and what is live after an
    instruction. *)
From stdpp Require Import base list numbers.
From Verif Require Import Back.Flow_model Back.Flow_spec Back.Alloc_model.
Open Scope nat_scope.

Definition code (bbs : list rbb) : list rir := concat (rirs <$> bbs).
(** The physical register for the argument [idx], of floating point numbers ([f]) or not. *)
Definition arg_reg (se : settings) (f : bool) (idx : nat) : option nat := if f then Some idx else mapping se idx.
(** Before instruction [n] an argument was put into register [r], and the call it is for has not
    been done. *)
Definition arg_taken (se : settings) (c : list rir) (n : nat) (f : bool) (r : nat) : Prop :=
  exists k i idx, k < n /\ c !! k = Some i /\ reff i = Pusharg f idx /\ arg_reg se f idx = Some r /\
  forall k' i', k < k' < n -> c !! k' = Some i' -> reff i' <> Call.

(** [prog] is the function without what only matters to the allocation of registers. *)
Definition plain (i : rir) : ir := Ir (roprs i) (rdst i).
Definition same_code (prog : list bb) (bbs : list rbb) : Prop :=
  Forall2 (fun (b : bb) rb => irs b = plain <$> rirs rb) prog bbs.
(** The registers noted at the starts and ends of blocks include all live ones. *)
Definition covers (prog : list bb) (bbs : list rbb) : Prop :=
  forall b rb, bbs !! b = Some rb -> reach prog b ->
  (forall v, live prog v b -> v ∈ rin rb) /\ (forall v, live_out prog v b -> v ∈ rout rb).
(** [v] is live after instruction [j] of block [b]. *)
Definition live_after (prog : list bb) (b j v : nat) : Prop :=
  exists x, prog !! b = Some x /\
  (reads_first (drop (S j) (irs x)) v \/ (~ assigns (drop (S j) (irs x)) v /\ live_out prog v b)).
(** [v] is mentioned before instruction [j] of block [b] in the order of the code. *)
Definition mentioned (bbs : list rbb) (b j v : nat) : Prop :=
  exists n i, n < length (code (take b bbs)) + j /\ code bbs !! n = Some i /\ (rdst i = Some v \/ v ∈ roprs i).
Definition is_param (vs : list vinfo) (v : nat) : Prop := exists i, vs !! v = Some i /\ param i = true.
(** All registers in the code are known. *)
Definition known (vs : list vinfo) (bbs : list rbb) : Prop :=
  forall b, b ∈ bbs -> (forall v, v ∈ rin b \/ v ∈ rout b -> v < length vs) /\
  forall i v, i ∈ rirs b -> (rdst i = Some v \/ v ∈ roprs i) -> v < length vs.
(** The settings make sense: argument registers are below the number of registers. *)
Definition settings_ok (se : settings) (vs : list vinfo) : Prop :=
  temporary se <= phys_max se /\ ftemporary se <= fphys_max se /\
  forall v i ip r, vs !! v = Some i -> pindex i = Some ip -> arg_reg se (flo i) ip = Some r ->
    r < if flo i then fphys_max se else phys_max se.
(** There is a register that calls keep, that no argument is put into and that no instruction
    uses for itself. *)
Definition free_int (se : settings) (bbs : list rbb) : Prop := exists r, temporary se <= r < phys_max se /\
  (forall i, i ∈ code bbs -> N.testbit (rextra i) (N.of_nat r) = false) /\ forall idx, mapping se idx <> Some r.
Definition free_flo (se : settings) (bbs : list rbb) : Prop := exists r, ftemporary se <= r < fphys_max se /\
  forall i idx, i ∈ code bbs -> reff i = Pusharg true idx -> idx <> r.
