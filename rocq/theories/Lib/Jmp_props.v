(** C143: setjmp and longjmp. *)
From stdpp Require Import base numbers list.
From Verif Require Import Back.Frame_model Back.Frame_spec Lib.Jmp_model Lib.Jmp_spec Lib.Jmp_proof.
Local Open Scope Z.

(** setjmp returns 0 to its caller with the caller's registers as they were. *)
Theorem C143_setjmp_x64 : forall s, words s -> apart (regs s RDI) 128 (regs s RSP) 8 ->
  set_ok x64_preserved RSP RAX RDI x64_jmp_buf s (regs s RSP + 8) (x64_ret (run x64_setjmp s)) (loadn 8 (mem s) (regs s RSP)).
Proof. exact x64_set. Qed.
Print Assumptions C143_setjmp_x64.
Theorem C143_setjmp_aarch64 : forall s,
  set_ok a64_preserved SP 0 0 a64_jmp_buf s (regs s SP) (a64_ret (run a64_setjmp s)) (regs s 30).
Proof. exact a64_set. Qed.
Print Assumptions C143_setjmp_aarch64.
Theorem C143_setjmp_riscv : forall s,
  set_ok rv_preserved 2 10 10 rv_jmp_buf s (regs s 2) (rv_ret (run rv_setjmp s)) (regs s 1).
Proof. exact rv_set. Qed.
Print Assumptions C143_setjmp_riscv.

(** Whatever happened since, longjmp goes on where setjmp went on. *)
Theorem C143_longjmp_x64 : forall s s', words s -> apart (regs s RDI) 128 (regs s RSP) 8 ->
  regs s' RDI = regs s RDI -> intact (regs s RDI) x64_jmp_buf (snd (x64_ret (run x64_setjmp s))) s' ->
  jump_ok x64_preserved RSP RAX (x64_ret (run x64_setjmp s)) s' (regs s' RSI) (x64_ret (run x64_longjmp s'))
    (fun x => regs s RSP <= x < regs s RSP + 8).
Proof. exact x64_jump. Qed.
Print Assumptions C143_longjmp_x64.
Theorem C143_longjmp_aarch64 : forall s s', words s -> regs s' 0 = regs s 0 ->
  intact (regs s 0) a64_jmp_buf (snd (a64_ret (run a64_setjmp s))) s' ->
  jump_ok a64_preserved SP 0 (a64_ret (run a64_setjmp s)) s' (regs s' 1) (a64_ret (run a64_longjmp s')) (fun _ => False).
Proof. exact a64_jump. Qed.
Print Assumptions C143_longjmp_aarch64.
(** The ABI keeps an int sign-extended in its register. *)
Theorem C143_longjmp_riscv : forall s s', words s -> regs s' 10 = regs s 10 ->
  intact (regs s 10) rv_jmp_buf (snd (rv_ret (run rv_setjmp s))) s' ->
  (int_of (regs s' 11) = 0 -> regs s' 11 = 0) ->
  jump_ok rv_preserved 2 10 (rv_ret (run rv_setjmp s)) s' (regs s' 11) (rv_ret (run rv_longjmp s')) (fun _ => False).
Proof. exact rv_jump. Qed.
Print Assumptions C143_longjmp_riscv.

(** setjmp with buffer at 1000 and stack pointer 5000, where 77 is the return
    address; later all registers but the first argument are 9, and the stack
    pointer is 4000: longjmp with 0 goes back to 77 with 1. *)
Example C143_example :
  let s := St (fun r => if r =? RDI then 1000 else if r =? RSP then 5000 else r + 300) (fun x => if x =? 5000 then 77 else 0) in
  let s1 := snd (x64_ret (run x64_setjmp s)) in
  let s' := St (fun r => if r =? RDI then 1000 else if r =? RSI then 0 else if r =? RSP then 4000 else 9) (fun x => if x <? 2000 then mem s1 x else 8) in
  let r := x64_ret (run x64_longjmp s') in
  (fst r, regs (snd r) RSP, regs (snd r) RBX, regs (snd r) 15, regs (snd r) RAX) = (77, 5008, 303, 315, 1).
Proof. vm_compute. reflexivity. Qed.
