(** What the calling convention, the C standard and programmers ask of calls and stack frames. *)
From stdpp Require Import base numbers list.
From Verif Require Import Back.Frame_model.
Open Scope Z_scope.

(** ** Types *)

(** Sizes and alignments of C types on x64 (no type here is aligned to more than 8 bytes). *)
Definition type_ok (t : aty) : Prop :=
  0 <= t_size t /\ t_align t ∈ [1; 2; 4; 8] /\
  (t_struct t = false -> t_size t ∈ [1; 2; 4; 8] /\ (t_flo t = true -> t_size t ∈ [4; 8])).

(** ** Passing of arguments (System V ABI for x86-64, section 3.2.3, with every structure in memory) *)

Definition round8 (n : Z) : Z := (n + 7) / 8 * 8.
(** The k-th argument which is neither structure nor floating-point number is in the k-th of six
    registers, the k-th floating-point number in the k-th of eight. *)
Definition ints_before (l : list aty) (i : nat) : nat := length (List.filter (fun t => negb (t_struct t || t_flo t)) (take i l)).
Definition floats_before (l : list aty) (i : nat) : nat := length (List.filter (fun t => negb (t_struct t) && t_flo t) (take i l)).
Definition abi_reg (sret : bool) (l : list aty) (i : nat) : option place :=
  match l !! i with
  | None => None
  | Some t =>
    if t_struct t then None
    else if t_flo t then if (floats_before l i <? 8)%nat then Some (InFreg (floats_before l i)) else None
    else let k := ((if sret then 1 else 0) + ints_before l i)%nat in if (k <? 6)%nat then Some (InReg k) else None
  end.
(** The others are on the stack in their order, each in as many words of 8 bytes as it needs. *)
Definition stack_words (sret : bool) (l : list aty) (j : nat) : Z :=
  match l !! j, abi_reg sret l j with Some t, None => round8 (t_size t) | _, _ => 0 end.
Definition abi_offset (sret : bool) (l : list aty) (i : nat) : Z :=
  foldr Z.add 0 (map (stack_words sret l) (seq 0 i)).
Definition abi_place (sret : bool) (l : list aty) (i : nat) : option place :=
  match l !! i with
  | None => None
  | Some _ => Some (match abi_reg sret l i with Some p => p | None => OnStack (abi_offset sret l i) end)
  end.

(** The value of an argument, as many bytes as its type has, at the moment when the function is
    entered: the return address is on top of the stack. *)
Definition held (s : state) (t : aty) (p : place) (v : Z) : Prop :=
  match p with
  | InReg k => regs s (k + 1) mod 256 ^ t_size t = v
  | InFreg k => fregs s k mod 256 ^ t_size t = v
  | OnStack off => loadn (Z.to_nat (t_size t)) (mem s) (rsp s + 8 + off) = v
  end.
Definition all_held (s : state) (l : list aty) (p : list place) (vals : list Z) : Prop :=
  forall i t q v, l !! i = Some t -> p !! i = Some q -> vals !! i = Some v -> held s t q v.

(** ** Where a function keeps its parameters *)

Inductive home := HReg (r : nat) | HFreg (x : nat) | HMem (off : Z).
Definition home_of (p : place) (a : loc) : home :=
  match p, a with
  | OnStack off, _ => HMem off
  | _, Spilled off => HMem off
  | InReg _, Phys r => HReg r
  | InFreg _, Phys x => HFreg x
  end.
Definition at_home (s : state) (t : aty) (h : home) (v : Z) : Prop :=
  match h with
  | HReg r => regs s r mod 256 ^ t_size t = v
  | HFreg x => fregs s x mod 256 ^ t_size t = v
  | HMem off => loadn (Z.to_nat (t_size t)) (mem s) (regs s RBP + off) = v
  end.

Definition apart (a n b m : Z) : Prop := a + n <= b \/ b + m <= a.

(** What the register allocator and the layout of the frame promise about the homes: a parameter
    stays in its register or goes to one that is not for arguments, or to memory in the frame;
    different parameters have different homes. *)
Definition good_home (f : fn) (vaargs : bool) (t : aty) (p : place) (a : loc) : Prop :=
  match p, a with
  | OnStack _, _ => rbp_saved f = true
  | InReg k, Phys r => r = (k + 1)%nat \/ (7 <= r < 15 /\ (rbp_saved f = true -> r <> RBP))%nat
  | InFreg k, Phys x => x = k \/ (8 <= x < 16)%nat
  | _, Spilled off => rbp_saved f = true /\ - fsize f <= off /\ off + t_size t <= - frame_start vaargs
  end.
Definition different (t t' : aty) (p p' : place) (a a' : loc) : Prop :=
  match p, p', a, a' with
  | OnStack _, _, _, _ | _, OnStack _, _, _ => True
  | InReg _, InReg _, Phys r, Phys r' => r <> r'
  | InFreg _, InFreg _, Phys r, Phys r' => r <> r'
  | _, _, Spilled o, Spilled o' => apart o (t_size t) o' (t_size t')
  | _, _, _, _ => True
  end.
Definition assigned (f : fn) (vaargs : bool) (l : list aty) (p : list place) (a : list loc) : Prop :=
  length a = length l /\ (vaargs = true -> framed f = true) /\
  (forall i t q b, l !! i = Some t -> p !! i = Some q -> a !! i = Some b -> good_home f vaargs t q b) /\
  (forall i j t t' q q' b b', i <> j -> l !! i = Some t -> l !! j = Some t' -> p !! i = Some q -> p !! j = Some q' ->
     a !! i = Some b -> a !! j = Some b' -> different t t' q q' b b').

(** ** Variable arguments *)

(** In a function with named parameters [l] that is called with the further arguments [e], va_start
    and then va_arg for the type of each further argument find their values. *)
Definition va_right_by (walk : va_list -> list aty -> list Z) (sret : bool) (l e : list aty) : Prop :=
  forall f a vals s i t addr v,
  Forall type_ok (l ++ e) -> 0 <= fsize f -> 0 <= work f -> rsp s mod 16 = 8 ->
  assigned f true (all_params sret l) (fun_places (used f) false (all_params sret l)) a ->
  all_held s (all_params sret (l ++ e)) (call_places false (all_params sret (l ++ e))) vals ->
  let s' := run (prologue f ++ param_moves true (zip (all_params sret l) a)) s in
  e !! i = Some t -> vals !! (length (all_params sret l) + i)%nat = Some v ->
  walk (va_start (used f) (regs s' RBP) l) e !! i = Some addr ->
  loadn (Z.to_nat (t_size t)) (mem s') addr = v.
Definition va_right : bool -> list aty -> list aty -> Prop := va_right_by va_args.

(** The same walk as the ABI describes it (section 3.5.7), for arguments that are no structures:
    the registers for floating-point numbers are saved in 16 bytes each. *)
Fixpoint abi_va_args (ap : va_list) (l : list aty) : list Z :=
  match l with
  | [] => []
  | t :: r =>
    if t_flo t && (fp_offset ap <=? 176 - 16) then
      (save_area ap + fp_offset ap) :: abi_va_args (Va (gp_offset ap) (fp_offset ap + 16) (overflow ap) (save_area ap)) r
    else if negb (t_flo t) && (gp_offset ap <=? 48 - 8) then
      (save_area ap + gp_offset ap) :: abi_va_args (Va (gp_offset ap + 8) (fp_offset ap) (overflow ap) (save_area ap)) r
    else
      overflow ap :: abi_va_args (Va (gp_offset ap) (fp_offset ap) (overflow ap + round8 (t_size t)) (save_area ap)) r
  end.

(** Offsets from another base. *)
Definition shift (b : Z) (p : place) : place := match p with OnStack o => OnStack (b + o) | _ => p end.

(** ** Stack frames *)

(** Size and alignment of an object. *)
Definition pow2 (a : Z) : Prop := exists k, 0 <= k /\ a = 2 ^ k.
Definition obj_ok (o : Z * Z) : Prop := 0 <= o.1 /\ pow2 o.2.

(** What the statements of a function leave alone: the base pointer if it is one, else the stack
    pointer; the saved registers and the return address on the stack; registers that belong to
    the caller and are not in the list of used registers. *)
Definition saved_size (f : fn) : Z := Z.of_nat (length (callee_saves (used f))) * 8 + (if rbp_saved f then 8 else 0).
Definition keeps (f : fn) (s s1 s2 : state) : Prop :=
  (if rbp_saved f then regs s2 RBP = regs s1 RBP else rsp s2 = rsp s1) /\
  (forall a, rsp s - saved_size f <= a < rsp s + 8 -> mem s2 a = mem s1 a) /\
  (forall r, r ∈ callee_save_regs -> used f r = false -> regs s2 r = regs s1 r).

(** Registers hold 64 bits. *)
Definition state_ok (s : state) : Prop := (forall r, 0 <= regs s r < word) /\ (forall x, 0 <= fregs s x < word).

(** ** Calls *)

(** What a called function leaves alone (ABI, figure 3.4): the stack pointer, the registers rbx,
    r12 to r15 and rbp, and memory except its arguments on the stack. *)
Definition call_keeps (total : Z) (s s' : state) : Prop :=
  rsp s' = rsp s /\ (forall r, r ∈ callee_save_regs -> regs s' r = regs s r) /\
  (forall a, rsp s + total <= a -> mem s' a = mem s a).

(** A register allocation: intervals in the order of their beginning; two with the same register
    do not overlap. *)
Definition sorted (l : list interval) : Prop := forall i j a b, (i < j)%nat -> l !! i = Some a -> l !! j = Some b -> lo a <= lo b.
Definition exclusive (l : list interval) : Prop := forall i j a b r, i <> j -> l !! i = Some a -> l !! j = Some b ->
  bit a = Some r -> bit b = Some r -> hi a <= lo b \/ hi b <= lo a.
