(** C134 to C139: arguments, stack frames and calls on x64. *)
From stdpp Require Import base numbers list sets.
From Coq Require Import Lia.
From Verif Require Import Back.Frame_model Back.Frame_spec Back.Frame_proof Back.Frame_run_proof Back.Frame_args_proof Back.Frame_arrive_proof Back.Frame_va_proof Back.Frame_call_proof.
Open Scope Z_scope.

(** ** C134 *)

(** A call puts each argument where the ABI says (structures always in memory). *)
Theorem C134_caller : forall sret l i, Forall type_ok l -> call_places sret l !! i = abi_place sret l i.
Proof. exact places_abi. Qed.
Print Assumptions C134_caller.

(** Arguments on the stack do not overlap, and lie in the part of the stack that is set aside. *)
Theorem C134_apart : forall sret l i j t u o p, Forall type_ok l -> (i < j)%nat -> l !! i = Some t -> l !! j = Some u ->
  call_places sret l !! i = Some (OnStack o) -> call_places sret l !! j = Some (OnStack p) ->
  0 <= o /\ o + t_size t <= p /\ p + t_size u <= stack_args_size sret l /\ o mod 8 = 0 /\ p mod 8 = 0.
Proof. exact args_apart. Qed.
Print Assumptions C134_apart.

(** A function looks for its parameters where the caller has put the arguments: beyond the saved
    registers, the base pointer and the return address. *)
Theorem C134_callee : forall u sret l, Forall type_ok l -> fun_places u sret l = map (shift (param_bottom u)) (call_places sret l).
Proof. exact fun_places_eq. Qed.
Print Assumptions C134_callee.

(** If a structure is returned, its address is passed as if it were the first argument. *)
Theorem C134_hidden : forall l, Forall type_ok l -> call_places false (ptr_ty :: l) = InReg 0 :: call_places true l.
Proof. exact hidden_first. Qed.
Print Assumptions C134_hidden.

(** When the code before the first statement has run, each parameter is at the home that the
    register allocator has chosen for it, with the value of its argument. *)
Theorem C134_arrive : forall f va l a vals s i t v b p, Forall type_ok l -> 0 <= fsize f -> 0 <= work f ->
  assigned f va l (fun_places (used f) false l) a -> all_held s l (call_places false l) vals ->
  l !! i = Some t -> vals !! i = Some v -> a !! i = Some b -> fun_places (used f) false l !! i = Some p ->
  at_home (run (prologue f ++ param_moves va (zip l a)) s) t (home_of p b) v.
Proof. exact params_ok. Qed.
Print Assumptions C134_arrive.

(** void f(int, double, struct of 20 bytes, int x 6, float): two arguments of 8 bytes or less
    and the structure are on the stack. *)
Definition sample : list aty :=
  [int_ty; dbl_ty; Aty true false 20 4] ++ replicate 6 int_ty ++ [Aty false true 4 4].
Example C134_sample : call_places false sample =
  [InReg 0; InFreg 0; OnStack 0; InReg 1; InReg 2; InReg 3; InReg 4; InReg 5; OnStack 24; InFreg 1] /\ stack_args_size false sample = 32.
Proof. split; vm_compute; reflexivity. Qed.
Definition sample_fn : fn := Fn (fun r => Nat.eqb r 7 || Nat.eqb r 8) true 24 40 true.
Definition sample_homes : list loc := [Phys 7; Spilled (-8); Phys 0; Phys 2; Spilled (-12); Phys 8; Phys 5; Phys 6; Phys 0; Phys 9].
Example C134_sample_homes : assigned sample_fn false sample (fun_places (used sample_fn) false sample) sample_homes.
Proof.
  split; [done|]. split; [done|]. split.
  - intros i t q b Hi Hq Hb. do 10 (destruct i as [|i]; [vm_compute in Hi, Hq, Hb; simplify_eq; cbn; repeat split; (auto || lia || (right; split; [lia|]; intros _; discriminate))|]). vm_compute in Hi. done.
  - intros i j t t' q q' b b' Hn Hi Hj Hq Hq' Hb Hb'.
    do 10 (destruct i as [|i]; [vm_compute in Hi, Hq, Hb;
      do 10 (destruct j as [|j]; [vm_compute in Hj, Hq', Hb'; simplify_eq; cbn; unfold apart; cbn; first [done | lia | (exfalso; by apply Hn)]|]); vm_compute in Hj; done|]).
    vm_compute in Hi. done.
Qed.
Definition sample_state : state :=
  St (fun r => 1000 + Z.of_nat r) (fun x => 2000 + Z.of_nat x) 10008 (fun a => if a =? 10016 + 24 then 123 else 7).
Example C134_sample_run : let s := run (prologue sample_fn ++ param_moves false (zip sample sample_homes)) sample_state in
  regs s 7%nat mod 2 ^ 32 = 1001 /\ loadn 8 (mem s) (regs s RBP - 8) = 2000 /\ regs s 2%nat = 1002 /\ loadn 4 (mem s) (regs s RBP - 12) = 1003 /\
  regs s 8%nat mod 2 ^ 32 = 1004 /\ loadn 1 (mem s) (regs s RBP + 32 + 24) = 123 /\ fregs s 9%nat mod 2 ^ 32 = 2001 /\ rsp s mod 16 = 0.
Proof. vm_compute. repeat split. Qed.

(** ** C135 *)

(** In a function that does not return a structure, and has no structure among its named
    parameters, va_arg gives the further arguments one after the other. *)
Theorem C135_walk : forall l e, Forall (fun t => t_struct t = false) l -> va_right false l e.
Proof. exact va_ok. Qed.
Print Assumptions C135_walk.

(** If the function returns a structure, va_arg starts with a register too early. *)
Theorem C135_struct_return_refuted : exists l e, ~ va_right true l e.
Proof. exists [int_ty], [int_ty]. exact sret_wrong. Qed.
Print Assumptions C135_struct_return_refuted.

(** If there is a structure among the named parameters, arguments on the stack are not found. *)
Theorem C135_struct_param_refuted : exists l e, ~ va_right false l e.
Proof. exists [big_ty; int_ty], (replicate 6 int_ty). exact sparam_wrong. Qed.
Print Assumptions C135_struct_param_refuted.

(** f(int, ...) called with 3, 2.5, 7 further integers and a structure *)
Example C135_sample : va_args (va_start (fun _ => false) 1000 [int_ty]) ([int_ty; dbl_ty] ++ replicate 6 int_ty ++ [big_ty; int_ty]) =
  [896; 936; 904; 912; 920; 928; 1016; 1024; 1032; 1048].
Proof. vm_compute. reflexivity. Qed.

(** ** C136 *)

(** The objects of a frame lie between its bottom and the base pointer, below the room for
    argument registers in a variadic function, at offsets that fit their alignment. *)
Theorem C136_inside : forall va locals spills i n a o, Forall obj_ok locals ->
  frame_objects locals spills !! i = Some (n, a) -> (frame_layout va locals spills).1 !! i = Some o ->
  - (frame_layout va locals spills).2 <= o /\ o + n <= - frame_start va /\ o mod a = 0.
Proof. exact objects_ok. Qed.
Print Assumptions C136_inside.

(** No two of them overlap. *)
Theorem C136_apart : forall va locals spills i j n a m b o p, Forall obj_ok locals -> i <> j ->
  frame_objects locals spills !! i = Some (n, a) -> frame_objects locals spills !! j = Some (m, b) ->
  (frame_layout va locals spills).1 !! i = Some o -> (frame_layout va locals spills).1 !! j = Some p -> apart o n p m.
Proof. exact objects_apart. Qed.
Print Assumptions C136_apart.

(** The base pointer is a multiple of 8, the frame lies above the room for calls and below the
    saved registers. *)
Theorem C136_room : forall f s, 0 <= fsize f -> 0 <= work f -> rsp s mod 16 = 8 -> rbp_saved f = true ->
  let s' := run (prologue f) s in
  regs s' RBP mod 8 = 0 /\ rsp s' + work f <= regs s' RBP - fsize f /\ regs s' RBP + saved_size f = rsp s.
Proof. exact frame_room. Qed.
Print Assumptions C136_room.

(** Memory from alloca: any number of blocks, each above the room for calls and below the frame and
    the earlier blocks. *)
Theorem C136_alloca : forall f l sp, Forall (fun n => 0 <= n) l ->
  (allocas f sp l).1 <= sp /\ (sp mod 16 = 0 -> (allocas f sp l).1 mod 16 = 0) /\
  (forall i n p, l !! i = Some n -> (allocas f sp l).2 !! i = Some p ->
     (allocas f sp l).1 + work f <= p /\ p + n <= sp + work f /\ (sp mod 16 = 0 -> work f mod 8 = 0 -> p mod 8 = 0)) /\
  (forall i j n m p q, (i < j)%nat -> l !! i = Some n -> l !! j = Some m ->
     (allocas f sp l).2 !! i = Some p -> (allocas f sp l).2 !! j = Some q -> q + m <= p).
Proof. exact allocas_ok. Qed.
Print Assumptions C136_alloca.

(** char a[3]; struct { } e; double d[2]; and spilled values of 4, 8 and 1 bytes. *)
Example C136_sample : frame_layout true [(3, 1); (0, 1); (16, 8)] [2; 3; 0]%nat = ([-115; -116; -136; -140; -152; -153], 153).
Proof. vm_compute. reflexivity. Qed.
Example C136_sample_alloca : allocas (Fn (fun _ => false) true 24 16 true) 1600 [1; 0; 40] = (1536, [1600; 1600; 1552]).
Proof. vm_compute. reflexivity. Qed.

(** ** C137 *)

(** Whatever the statements of a function do, as long as they leave the base pointer (or, without
    one, the stack pointer), the saved registers on the stack and the registers of the caller that
    are not in use alone: at its end the stack pointer is the one from the beginning, the return
    address is on top of the stack, and the registers that belong to the caller have their values. *)
Theorem C137_restore : forall f s s2, 0 <= fsize f -> 0 <= work f -> state_ok s -> keeps f s (run (prologue f) s) s2 ->
  let s3 := run (epilogue f) s2 in
  rsp s3 = rsp s /\ (forall r, r ∈ callee_save_regs -> regs s3 r = regs s r) /\
  mem s3 = mem s2 /\ loadn 8 (mem s3) (rsp s3) = loadn 8 (mem s) (rsp s) /\
  fregs s3 = fregs s2 /\ (forall r, r ∉ callee_save_regs -> regs s3 r = regs s2 r).
Proof. exact epilogue_ok. Qed.
Print Assumptions C137_restore.

(** The stack is aligned to 16 bytes at calls. *)
Theorem C137_aligned : forall f s, 0 <= fsize f -> 0 <= work f -> calls f = true -> rsp s mod 16 = 8 -> rsp (run (prologue f) s) mod 16 = 0.
Proof. exact aligned_ok. Qed.
Print Assumptions C137_aligned.

(** Statements that change every register in use and write the whole frame. *)
Definition body (s : state) : state :=
  St (fun r => if Nat.eqb r RBP then regs s r else if Nat.ltb r 9 then 4242 else regs s r) (fun _ => 1) (rsp s - 64)
     (fun a => if a <? regs s RBP then 99 else mem s a).
Example C137_sample : let s3 := run (epilogue sample_fn) (body (run (prologue sample_fn) sample_state)) in
  rsp s3 = 10008 /\ regs s3 7%nat = 1007 /\ regs s3 8%nat = 1008 /\ regs s3 RBP = 1012 /\ regs s3 0%nat = 4242 /\
  rsp (run (prologue sample_fn) sample_state) = 9920.
Proof. vm_compute. repeat split. Qed.
Example C137_sample_keeps : keeps sample_fn sample_state (run (prologue sample_fn) sample_state) (body (run (prologue sample_fn) sample_state)).
Proof.
  split; [done|]. split.
  - intros a Ha. unfold body. cbn [mem]. replace (regs (run (prologue sample_fn) sample_state) RBP) with 9984 by done.
    replace (rsp sample_state - saved_size sample_fn) with 9984 in Ha by done.
    by rewrite (proj2 (Z.ltb_ge a 9984)) by lia.
  - intros r Hr Hu. unfold callee_save_regs in Hr. rewrite !elem_of_cons, elem_of_nil in Hr.
    destruct Hr as [->|[->|[->|[->|[->|[->|[]]]]]]]; try done; vm_compute in Hu; done.
Qed.

(** ** C138 *)

(** Registers in use have the same value after a call as before, whatever the called function does
    with registers that it may change; results and arguments are not disturbed by the saving. *)
Theorem C138_survive : forall living total s s2, 0 <= total -> state_ok s ->
  let saves := caller_saves living in
  let s1 := run (push_caller_saves saves total) s in
  call_keeps total s1 s2 ->
  let s3 := run (pop_caller_saves saves total) s2 in
  rsp s3 = rsp s /\
  (forall r, (7 <= r < 15)%nat -> living r = true -> regs s3 r = regs s r) /\
  (forall x, (8 <= x < 16)%nat -> living (x + 15)%nat = true -> fregs s3 x = fregs s x) /\
  (forall r, (r < 7)%nat -> regs s3 r = regs s2 r) /\ (forall x, (x < 8)%nat -> fregs s3 x = fregs s2 x) /\
  (forall r, (r < 7)%nat -> regs s1 r = regs s r) /\ (forall x, (x < 8)%nat -> fregs s1 x = fregs s x) /\
  (forall a, rsp s <= a < rsp s + total -> mem s1 a = mem s a) /\
  (forall a, rsp s + total + Z.of_nat (length saves) * 8 <= a -> mem s3 a = mem s a).
Proof. exact call_ok. Qed.
Print Assumptions C138_survive.

(** There is room for the arguments and the saved registers of each call. *)
Theorem C138_room : forall l n saves, (n, saves) ∈ l -> n + Z.of_nat (length saves) * 8 <= work_size l.
Proof. exact work_ok. Qed.
Print Assumptions C138_room.

(** Each register whose value is needed after an instruction, and was there before it, is found to
    be in use at the instruction. *)
Theorem C138_living : forall n l k bits x b, sorted l -> exclusive l -> detect_living n l !! k = Some bits ->
  x ∈ l -> bit x = Some b -> lo x < Z.of_nat k < hi x -> bits b = true.
Proof. exact detect_ok. Qed.
Print Assumptions C138_living.

Definition sample_living (r : nat) : bool := existsb (Nat.eqb r) [8; 13; 15 + 9; 15 + 12]%nat.
Definition clobber (s : state) : state :=
  St (fun r => if Nat.leb 7 r && Nat.leb r 12 then regs s r else 0) (fun _ => 5) (rsp s) (fun a => if a <? rsp s + 16 then 3 else mem s a).
Example C138_sample : let s3 := run (pop_caller_saves (caller_saves sample_living) 16) (clobber (run (push_caller_saves (caller_saves sample_living) 16) sample_state)) in
  caller_saves sample_living = [inl 13; inr 9; inr 12]%nat /\ regs s3 8%nat = 1008 /\ regs s3 13%nat = 1013 /\ fregs s3 9%nat = 2009 /\ fregs s3 12%nat = 2012 /\ fregs s3 0%nat = 5.
Proof. vm_compute. repeat split. Qed.
Definition sample_intervals : list interval := [Iv (-1) 4 (Some 7%nat); Iv (-1) 1 (Some 2%nat); Iv 0 3 (Some 8%nat); Iv 1 1 (Some 9%nat); Iv 2 6 None; Iv 3 9 (Some 8%nat)].
Example C138_sample_living : map (fun f => map f [2; 7; 8; 9]%nat) (detect_living 7 sample_intervals) =
  [[true; true; false; false]; [false; true; true; false]; [false; true; true; true]; [false; true; false; true];
   [false; false; true; true]; [false; false; true; true]; [false; false; true; true]].
Proof. vm_compute. reflexivity. Qed.

(** ** C139 *)

(** A va_list may be handed to a function from another compiler as long as the further arguments
    are integers and pointers. *)
Theorem C139_integers : forall l e, Forall (fun t => t_struct t = false) l -> Forall (fun t => int_class t = true) e -> va_right_by abi_va_args false l e.
Proof. exact abi_ok. Qed.
Print Assumptions C139_integers.

(** Floating-point numbers are not found: their registers are saved 8 bytes apart, not 16. *)
Theorem C139_floats_refuted : exists l e, ~ va_right_by abi_va_args false l e.
Proof. exists [int_ty], [dbl_ty; dbl_ty]. exact abi_wrong. Qed.
Print Assumptions C139_floats_refuted.

Example C139_sample : abi_va_args (va_start (fun _ => false) 1000 [int_ty]) [dbl_ty; int_ty; dbl_ty] = [936; 896; 952] /\
  va_args (va_start (fun _ => false) 1000 [int_ty]) [dbl_ty; int_ty; dbl_ty] = [936; 896; 944].
Proof. split; vm_compute; reflexivity. Qed.
