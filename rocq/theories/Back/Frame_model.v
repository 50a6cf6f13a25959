(** Arguments, stack frames and calls on x64.
    Modelled from src/cc/backend/codegen_expr.c lines 17-19 (is_stack_param), 378-476 (gen_funcall:
    places of arguments), src/cc/backend/codegen.c lines 77-145 (alloc_variable_registers), 147-189
    (enumerate_register_params), 711-773 (detect_living_registers), 775-876
    (alloc_stack_variables_onto_stack_frame), src/cc/arch/x64/ir_x64.c lines 17-52 (register
    tables), 95-133 (callee save registers), 135-141 (calculate_func_param_bottom), 143-187 (caller
    save registers), 973-1025 (ei_call), 1027-1039 (ei_subsp), src/cc/arch/x64/emit_x64.c lines
    70-143 (move_params_to_assigned), 145-166 (detect_funcall_work_size), 168-268
    (emit_defun_body), src/cc/builtin.c lines 205-285 (va_start), 288-318 (alloca), include/stdarg.h
    (va_arg).
    Simplifications: instructions are terms instead of text; addresses and sizes are integers
    without bound (the stack does not reach around the address space, a frame has less than 2^31
    bytes); of a vector register only the low 8 bytes are kept.  A function whose statements are
    all asm statements (no prologue is emitted for it) is left out. *)
From stdpp Require Import base numbers list.
Open Scope Z_scope.

(** ** The machine *)

Definition word : Z := 2 ^ 64.
(** Registers by their index in kRegSizeTable (ir_x64.c 17-22), memory by bytes. *)
Record state := St { regs : nat -> Z; fregs : nat -> Z; rsp : Z; mem : Z -> Z }.
Definition RBP : nat := 12.

Definition upd (f : nat -> Z) (r : nat) (v : Z) : nat -> Z := fun x => if Nat.eqb x r then v else f x.
(** [n] bytes at [a], lowest byte first. *)
Fixpoint loadn (n : nat) (m : Z -> Z) (a : Z) : Z :=
  match n with O => 0 | S k => m a mod 256 + 256 * loadn k m (a + 1) end.
Definition storen (n : nat) (m : Z -> Z) (a v : Z) : Z -> Z :=
  fun x => if (a <=? x) && (x <? a + Z.of_nat n) then (v / 256 ^ (x - a)) mod 256 else m x.

Inductive base := FromRbp | FromRsp.
Inductive ins :=
  | Push (r : nat) | Pop (r : nat)
  | MovRspRbp | MovRbpRsp
  | SubRsp (n : Z) | AddRsp (n : Z)
  | Store (n : nat) (r : nat) (b : base) (off : Z)      (* n bytes *)
  | Load (b : base) (off : Z) (r : nat)                 (* 8 bytes *)
  | FStore (n : nat) (x : nat) (b : base) (off : Z)
  | FLoad (b : base) (off : Z) (x : nat)
  | Mov (n : nat) (s d : nat)                           (* n bytes *)
  | FMov (n : nat) (s d : nat).

Definition addr (s : state) (b : base) (off : Z) : Z :=
  match b with FromRbp => regs s RBP | FromRsp => rsp s end + off.

(** Moving 4 bytes clears the upper half of a general register, moving fewer keeps the rest. *)
Definition mov_reg (n : nat) (new old : Z) : Z :=
  if (n <? 4)%nat then old / 256 ^ Z.of_nat n * 256 ^ Z.of_nat n + new mod 256 ^ Z.of_nat n
  else new mod 256 ^ Z.of_nat n.
(** movss keeps the rest, of movsd we see all that is moved. *)
Definition mov_freg (n : nat) (new old : Z) : Z :=
  if (n <? 8)%nat then old / 256 ^ Z.of_nat n * 256 ^ Z.of_nat n + new mod 256 ^ Z.of_nat n
  else new mod 256 ^ Z.of_nat n.

Definition exec (i : ins) (s : state) : state :=
  match i with
  | Push r => St (regs s) (fregs s) (rsp s - 8) (storen 8 (mem s) (rsp s - 8) (regs s r))
  | Pop r => St (upd (regs s) r (loadn 8 (mem s) (rsp s))) (fregs s) (rsp s + 8) (mem s)
  | MovRspRbp => St (upd (regs s) RBP (rsp s)) (fregs s) (rsp s) (mem s)
  | MovRbpRsp => St (regs s) (fregs s) (regs s RBP) (mem s)
  | SubRsp n => St (regs s) (fregs s) (rsp s - n) (mem s)
  | AddRsp n => St (regs s) (fregs s) (rsp s + n) (mem s)
  | Store n r b off => St (regs s) (fregs s) (rsp s) (storen n (mem s) (addr s b off) (regs s r))
  | Load b off r => St (upd (regs s) r (loadn 8 (mem s) (addr s b off))) (fregs s) (rsp s) (mem s)
  | FStore n x b off => St (regs s) (fregs s) (rsp s) (storen n (mem s) (addr s b off) (fregs s x))
  | FLoad b off x => St (regs s) (upd (fregs s) x (loadn 8 (mem s) (addr s b off))) (rsp s) (mem s)
  | Mov n a d => St (upd (regs s) d (mov_reg n (regs s a) (regs s d))) (fregs s) (rsp s) (mem s)
  | FMov n a d => St (regs s) (upd (fregs s) d (mov_freg n (fregs s a) (fregs s d))) (rsp s) (mem s)
  end.
Definition run (l : list ins) (s : state) : state := fold_left (fun s i => exec i s) l s.

(** ** Places of arguments *)

(** What a type means for passing a value of it: a structure, a floating-point number or other. *)
Record aty := Aty { t_struct : bool; t_flo : bool; t_size : Z; t_align : Z }.

(** util.h 13 *)
Definition align_up (x a : Z) : Z := Z.land (x + a - 1) (- a).
(** arch_config.h 5-6 *)
Definition MAX_REG_ARGS : nat := 6.
Definition MAX_FREG_ARGS : nat := 8.

(** Offsets on the stack are from the stack pointer of the caller. *)
Inductive place := InReg (i : nat) | InFreg (i : nat) | OnStack (off : Z).

(** codegen_expr.c 386-427: the loop which fills arg_infos, with the final offset. *)
Fixpoint arg_places (ir fr : nat) (off : Z) (l : list aty) : list place * Z :=
  match l with
  | [] => ([], off)
  | t :: r =>
    if t_struct t || (if t_flo t then (MAX_FREG_ARGS <=? fr)%nat else (MAX_REG_ARGS <=? ir)%nat) then
      let o := align_up off (t_align t) in
      let q := arg_places ir fr (o + align_up (t_size t) 8) r in (OnStack o :: q.1, q.2)
    else if t_flo t then let q := arg_places ir (S fr) off r in (InFreg fr :: q.1, q.2)
    else let q := arg_places (S ir) fr off r in (InReg ir :: q.1, q.2)
  end.
Definition arg_start (sret : bool) : nat := if sret then 1 else 0.

Definition is_ireg (p : place) : bool := match p with InReg _ => true | _ => false end.
Definition is_freg (p : place) : bool := match p with InFreg _ => true | _ => false end.
Fixpoint count {A} (p : A -> bool) (l : list A) : nat :=
  match l with [] => 0 | x :: r => if p x then S (count p r) else count p r end.

(** codegen_expr.c 432-476: the arguments are evaluated and sent from the last to the first; [l]
    is the list of places of arg_infos from the last; numbers of registers are counted down. *)
Fixpoint send (start nreg nfreg ireg freg : nat) (l : list place) : list place :=
  match l with
  | [] => []
  | OnStack o :: r => OnStack o :: send start nreg nfreg ireg freg r
  | InFreg _ :: r => InFreg (nfreg - S freg) :: send start nreg nfreg ireg (S freg) r
  | InReg _ :: r => InReg (nreg - S ireg + start) :: send start nreg nfreg (S ireg) freg r
  end.

(** Where a call puts its arguments, first argument first, and the size of those on the stack
    ([sret]: the function returns a structure, its address is in the first register). *)
Definition call_places (sret : bool) (l : list aty) : list place :=
  let q := (arg_places (arg_start sret) 0 0 l).1 in
  rev (send (arg_start sret) (count is_ireg q) (count is_freg q) 0 0 (rev q)).
Definition stack_args_size (sret : bool) (l : list aty) : Z := (arg_places (arg_start sret) 0 0 l).2.

(** ** Places of parameters *)

(** codegen.c 113-145, reg_param_index or VRF_STACK_PARAM; a structure has no virtual register. *)
Fixpoint param_regs (ir fr : nat) (l : list aty) : list (option place) :=
  match l with
  | [] => []
  | t :: r =>
    if t_struct t then None :: param_regs ir fr r
    else if t_flo t then
      if (fr <? MAX_FREG_ARGS)%nat then Some (InFreg fr) :: param_regs ir (S fr) r else None :: param_regs ir fr r
    else if (ir <? MAX_REG_ARGS)%nat then Some (InReg ir) :: param_regs (S ir) fr r else None :: param_regs ir fr r
  end.

(** codegen.c 803-818: offsets from the base pointer. *)
Fixpoint param_places (off : Z) (l : list (aty * option place)) : list place :=
  match l with
  | [] => []
  | (t, Some p) :: r => p :: param_places off r
  | (t, None) :: r =>
    if t_struct t then
      let o := align_up off (t_align t) in OnStack o :: param_places (o + align_up (t_size t) 8) r
    else
      let o := align_up off 8 in OnStack o :: param_places (o + 8) r
  end.

(** ir_x64.c 31-32 and 95-133 *)
Definition callee_save_regs : list nat := [7; 8; 9; 10; 11; 12]%nat.
Definition callee_saves (used : nat -> bool) : list nat := filter (fun r => Is_true (used r)) callee_save_regs.
(** ir_x64.c 135-141 *)
Definition param_bottom (used : nat -> bool) : Z := Z.of_nat (length (callee_saves used)) * 8 + 8 * 2.

(** Where a function looks for its parameters. *)
Definition fun_places (used : nat -> bool) (sret : bool) (l : list aty) : list place :=
  param_places (param_bottom used) (zip l (param_regs (arg_start sret) 0 l)).

(** ** The stack frame *)

(** codegen.c 850-851 and 866-870: one more object of the given size and alignment; the result is
    the new size of the frame and the offset of the object from the base pointer. *)
Definition add_object (fs size align : Z) : Z * Z :=
  let fs' := align_up (fs + size) align in (fs', - fs').
Fixpoint lay (fs : Z) (l : list (Z * Z)) : list Z * Z :=
  match l with
  | [] => ([], fs)
  | (size, align) :: r =>
    let p := add_object fs size align in let q := lay p.1 r in (p.2 :: q.1, q.2)
  end.
(** codegen.c 782-788: a variadic function keeps room for its argument registers; 846-847: an
    object of size 0 gets a byte.  [locals] are the variables which are no parameters and not of
    primitive type, [spills] the powers of the sizes of virtual registers in memory. *)
Definition frame_start (vaargs : bool) : Z := if vaargs then Z.of_nat (MAX_REG_ARGS + MAX_FREG_ARGS) * 8 else 0.
Definition frame_objects (locals : list (Z * Z)) (spills : list nat) : list (Z * Z) :=
  map (fun o => (if o.1 <? 1 then 1 else o.1, o.2)) locals ++
  map (fun p => (2 ^ Z.of_nat p, 2 ^ Z.of_nat p)) spills.
Definition frame_layout (vaargs : bool) (locals : list (Z * Z)) (spills : list nat) : list Z * Z :=
  lay (frame_start vaargs) (frame_objects locals spills).

(** ** Beginning and end of a function *)

Record fn := Fn {
  used : nat -> bool;      (* used_reg_bits *)
  framed : bool;           (* RAF_STACK_FRAME *)
  fsize : Z;               (* fnbe->frame_size *)
  work : Z;                (* funcall_work_size *)
  calls : bool             (* there are calls or alloca *)
}.

Definition rbp_saved (f : fn) : bool := (0 <? fsize f) || framed f.
(** emit_x64.c 234-250 *)
Definition total_size (f : fn) : Z :=
  let s := fsize f + work f in
  if calls f then s + Z.land (- (s + Z.of_nat (length (callee_saves (used f))) * 8 + (if rbp_saved f then 0 else 8))) 15
  else s.

(** emit_x64.c 228-253, without the moves of parameters *)
Definition prologue (f : fn) : list ins :=
  map Push (callee_saves (used f)) ++
  (if rbp_saved f then [Push RBP; MovRspRbp] else []) ++
  (if 0 <? total_size f then [SubRsp (total_size f)] else []).

(** emit_x64.c 262-270; the return instruction is not included. *)
Definition epilogue (f : fn) : list ins :=
  (if rbp_saved f then [MovRbpRsp; Pop RBP] else if 0 <? total_size f then [AddRsp (total_size f)] else []) ++
  map Pop (rev (callee_saves (used f))).

(** Where the register allocator wants a parameter that comes in a register. *)
Inductive loc := Phys (r : nat) | Spilled (off : Z).

(** codegen.c 163-184 and emit_x64.c 86-101: general registers; the register of number [ir] for
    arguments is [ir + 1] (ArchRegParamMapping). *)
Fixpoint imoves (ir : nat) (l : list (aty * loc)) : list ins :=
  match l with
  | [] => []
  | (t, p) :: r =>
    if t_struct t || t_flo t then imoves ir r
    else if (ir <? MAX_REG_ARGS)%nat then
      match p with
      | Spilled off => [Store (Z.to_nat (t_size t)) (ir + 1) FromRbp off]
      | Phys d => if Nat.eqb (ir + 1) d then [] else [Mov (Z.to_nat (t_size t)) (ir + 1) d]
      end ++ imoves (S ir) r
    else imoves ir r
  end.
(** emit_x64.c 102-127 *)
Fixpoint fmoves (fr : nat) (l : list (aty * loc)) : list ins :=
  match l with
  | [] => []
  | (t, p) :: r =>
    if t_struct t || negb (t_flo t) then fmoves fr r
    else if (fr <? MAX_FREG_ARGS)%nat then
      match p with
      | Spilled off => [FStore (Z.to_nat (t_size t)) fr FromRbp off]
      | Phys d => if Nat.eqb fr d then [] else [FMov (Z.to_nat (t_size t)) fr d]
      end ++ fmoves (S fr) r
    else fmoves fr r
  end.

(** iparam_count and fparam_count of codegen.c 147-189 *)
Definition int_class (t : aty) : bool := negb (t_struct t) && negb (t_flo t).
Definition flo_class (t : aty) : bool := negb (t_struct t) && t_flo t.
Definition iparam_count (l : list aty) : nat := Nat.min MAX_REG_ARGS (count int_class l).
Definition fparam_count (l : list aty) : nat := Nat.min MAX_FREG_ARGS (count flo_class l).

(** emit_x64.c 129-140 *)
Definition va_saves (l : list aty) : list ins :=
  map (fun i => Store 8 (i + 1) FromRbp ((Z.of_nat i - Z.of_nat MAX_REG_ARGS - Z.of_nat MAX_FREG_ARGS) * 8))
    (seq (iparam_count l) (MAX_REG_ARGS - iparam_count l)) ++
  map (fun i => FStore 8 i FromRbp ((Z.of_nat i - Z.of_nat MAX_FREG_ARGS) * 8))
    (seq (fparam_count l) (MAX_FREG_ARGS - fparam_count l)).

(** The hidden parameter of a function that returns a structure (codegen.c 61-75). *)
Definition ptr_ty : aty := Aty false false 8 8.
Definition all_params (sret : bool) (l : list aty) : list aty := if sret then ptr_ty :: l else l.

(** move_params_to_assigned; [l] has the hidden parameter in front, if there is one. *)
Definition param_moves (vaargs : bool) (l : list (aty * loc)) : list ins :=
  imoves 0 l ++ fmoves 0 l ++ (if vaargs then va_saves (map fst l) else []).

(** ** Variable arguments *)

(** struct __va_elem of stdarg.h *)
Record va_list := Va { gp_offset : Z; fp_offset : Z; overflow : Z; save_area : Z }.

(** builtin.c 229-283, in a function with base pointer [bp] and named parameters [l]. *)
Definition va_start (used : nat -> bool) (bp : Z) (l : list aty) : va_list :=
  let gn := Z.of_nat (count int_class l) in
  let fn := Z.of_nat (count flo_class l) in
  let gs := Z.max (gn - Z.of_nat MAX_REG_ARGS) 0 in
  let fs := Z.max (fn - Z.of_nat MAX_FREG_ARGS) 0 in
  Va (Z.min gn (Z.of_nat MAX_REG_ARGS) * 8)
     ((Z.of_nat MAX_REG_ARGS + Z.min fn (Z.of_nat MAX_FREG_ARGS)) * 8)
     (bp + param_bottom used + (gs + fs) * 8)
     (bp + - (Z.of_nat MAX_REG_ARGS + Z.of_nat MAX_FREG_ARGS) * 8).

Definition GP_OFFSET_MAX : Z := 6 * 8.
Definition FP_OFFSET_MAX : Z := GP_OFFSET_MAX + 8 * 8.

Definition va_arg_mem (ap : va_list) (t : aty) : va_list * Z :=
  let p := overflow ap in
  let p := if 8 <? t_align t then (p + 15) / 16 * 16 else p in
  (Va (gp_offset ap) (fp_offset ap) (Z.land (p + t_size t + 7) (-8)) (save_area ap), p).
(** __builtin_va_arg: the address of the argument, and the list for the rest. *)
Definition va_arg (ap : va_list) (t : aty) : va_list * Z :=
  if t_struct t then va_arg_mem ap t
  else if t_flo t then
    if fp_offset ap <? FP_OFFSET_MAX
    then (Va (gp_offset ap) (fp_offset ap + 8) (overflow ap) (save_area ap), save_area ap + fp_offset ap + 8 - 8)
    else va_arg_mem ap t
  else
    if gp_offset ap <? GP_OFFSET_MAX
    then (Va (gp_offset ap + 8) (fp_offset ap) (overflow ap) (save_area ap), save_area ap + gp_offset ap + 8 - 8)
    else va_arg_mem ap t.
Fixpoint va_args (ap : va_list) (l : list aty) : list Z :=
  match l with [] => [] | t :: r => let q := va_arg ap t in q.2 :: va_args q.1 r end.

(** ** alloca *)

(** builtin.c 288-317 and ei_subsp: memory is taken below the stack pointer; the area for calls
    stays lowest, the new memory is above it. *)
Definition alloca (f : fn) (sp size : Z) : Z * Z :=
  let sp' := sp - Z.land (size + (16 - 1)) (-16) in (sp', sp' + work f).
Fixpoint allocas (f : fn) (sp : Z) (l : list Z) : Z * list Z :=
  match l with
  | [] => (sp, [])
  | n :: r => let q := alloca f sp n in let q' := allocas f q.1 r in (q'.1, q.2 :: q'.2)
  end.

(** ** Registers saved around a call *)

(** ir_x64.c 34-35 and 51-52; the bits of general registers come before those of the others. *)
Definition caller_save_regs : list nat := [13; 14]%nat.
Definition caller_save_fregs : list nat := [8; 9; 10; 11; 12; 13; 14; 15]%nat.
Definition PHYSICAL_REG_MAX : nat := 15.
Definition caller_saves (living : nat -> bool) : list (nat + nat) :=
  map inl (filter (fun r => Is_true (living r)) caller_save_regs) ++
  map inr (filter (fun r => Is_true (living (r + PHYSICAL_REG_MAX)%nat)) caller_save_fregs).

(** ir_x64.c 165-176 *)
Fixpoint save_regs (off : Z) (l : list (nat + nat)) : list ins :=
  match l with
  | [] => []
  | r :: k => match r with inl r => Store 8 r FromRsp (off - 8) | inr x => FStore 8 x FromRsp (off - 8) end :: save_regs (off - 8) k
  end.
Definition push_caller_saves (l : list (nat + nat)) (total : Z) : list ins := save_regs (total + Z.of_nat (length l) * 8) l.
(** ir_x64.c 178-187, [l] from its end *)
Fixpoint load_regs (off : Z) (l : list (nat + nat)) : list ins :=
  match l with
  | [] => []
  | r :: k => match r with inl r => Load FromRsp off r | inr x => FLoad FromRsp off x end :: load_regs (off + 8) k
  end.
Definition pop_caller_saves (l : list (nat + nat)) (total : Z) : list ins := load_regs total (rev l).

(** emit_x64.c 145-166: for each call the size of its arguments on the stack and the registers. *)
Fixpoint work_size (l : list (Z * list (nat + nat))) : Z :=
  match l with [] => 0 | (n, saves) :: r => Z.max (n + Z.of_nat (length saves) * 8) (work_size r) end.

(** ** Registers in use at a call *)

(** A live interval (regalloc.h): first and last instruction, bit of its register if it has one. *)
Record interval := Iv { lo : Z; hi : Z; bit : option nat }.

(** [livings] of codegen.c 715-718; a bit of living_pregs is set just if there is an entry. *)
Definition livings := nat -> option interval.
Definition set_living (v : livings) (b : nat) (o : option interval) : livings := fun k => if Nat.eqb k b then o else v k.

(** codegen.c 722-733 *)
Fixpoint living_params (v : livings) (l : list interval) : livings :=
  match l with
  | [] => v
  | i :: r => if 0 <=? lo i then v else
      living_params (match bit i with Some b => set_living v b (Some i) | None => v end) r
  end.
(** 739-747 *)
Definition drop_ended (nip : Z) (v : livings) : livings :=
  fun k => match v k with Some i => if nip =? hi i then None else Some i | None => None end.
(** 755-768: the rest of the sorted intervals after adding those that start here. *)
Fixpoint add_started (nip : Z) (v : livings) (l : list interval) : livings * list interval :=
  match l with
  | [] => (v, [])
  | i :: r =>
    if nip <? lo i then (v, l)
    else add_started nip (match bit i with Some b => if nip =? lo i then set_living v b (Some i) else v | None => v end) r
  end.
(** 736-770 for [n] instructions from number [nip]: the bits found at each instruction (the
    original keeps those of calls). *)
Fixpoint living_at (n : nat) (nip : Z) (v : livings) (l : list interval) : list (nat -> bool) :=
  match n with
  | O => []
  | S k =>
    let v := drop_ended nip v in
    let q := add_started nip v l in
    (fun b => match v b with Some _ => true | None => false end) :: living_at k (nip + 1) q.1 q.2
  end.
Definition detect_living (n : nat) (l : list interval) : list (nat -> bool) :=
  living_at n 0 (living_params (fun _ => None) l) l.
