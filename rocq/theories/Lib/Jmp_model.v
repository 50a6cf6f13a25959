(** libsrc/misc/setjmp.c and libsrc/misc/longjmp.c for x64, AArch64 and RISC-V
    (with floating point): the instructions of the two functions, and a machine
    with 64-bit registers and memory by bytes that executes them.  The bodies
    are one asm statement, for which the compiler emits no prologue and only the
    return instruction as epilogue (src/cc/arch/x64/emit_x64.c:66-68,198-210 and
    the same places of the other two).
    Simplifications: addresses do not wrap around; ldp and stp are two accesses;
    a comparison with zero, the jump over one instruction and this instruction
    are one ([IfZero], [IfZero32]); of a floating-point register there are the
    64 bits that are saved. *)
From stdpp Require Import base numbers list.
From Verif Require Import Back.Frame_model.
Local Open Scope Z.

(** Registers are numbers; floating-point registers are 100 and up, the stack
    pointer of AArch64 is 31. *)
Record st := St { regs : Z -> Z; mem : Z -> Z }.
Definition upd (f : Z -> Z) (r v : Z) : Z -> Z := fun q => if q =? r then v else f q.

Inductive ins :=
  | Load (d b off : Z) | Store (s b off : Z)
  | Mov (d s : Z) | Mov32 (d s : Z) | Imm (d v : Z)
  | IfZero (r v : Z) | IfZero32 (r v : Z).

Definition exec (i : ins) (s : st) : st :=
  match i with
  | Load d b off => St (upd (regs s) d (loadn 8 (mem s) (regs s b + off))) (mem s)
  | Store r b off => St (regs s) (storen 8 (mem s) (regs s b + off) (regs s r))
  | Mov d r => St (upd (regs s) d (regs s r)) (mem s)
  | Mov32 d r => St (upd (regs s) d (regs s r mod 2 ^ 32)) (mem s)
  | Imm d v => St (upd (regs s) d v) (mem s)
  | IfZero r v => if regs s r =? 0 then St (upd (regs s) r v) (mem s) else s
  | IfZero32 r v => if regs s r mod 2 ^ 32 =? 0 then St (upd (regs s) r v) (mem s) else s
  end.
Fixpoint run (l : list ins) (s : st) : st :=
  match l with [] => s | i :: l => run l (exec i s) end.

(** x64. *)
Definition RAX := 0. Definition RBX := 3. Definition RSP := 4. Definition RBP := 5.
Definition RSI := 6. Definition RDI := 7.
Definition XMM (n : Z) := 100 + n.
(** setjmp.c:8-33. *)
Definition x64_setjmp : list ins :=
  [ Load RAX RSP 0; Store RAX RDI 0; Store RBP RDI 8; Store RSP RDI 16; Store RBX RDI 24;
    Store 12 RDI 32; Store 13 RDI 40; Store 14 RDI 48; Store 15 RDI 56;
    Store (XMM 0) RDI 64; Store (XMM 1) RDI 72; Store (XMM 2) RDI 80; Store (XMM 3) RDI 88;
    Store (XMM 4) RDI 96; Store (XMM 5) RDI 104; Store (XMM 6) RDI 112; Store (XMM 7) RDI 120;
    Imm RAX 0 ].
(** longjmp.c:8-37. *)
Definition x64_longjmp : list ins :=
  [ Load RAX RDI 0; Load RBP RDI 8; Load RSP RDI 16; Load RBX RDI 24;
    Load 12 RDI 32; Load 13 RDI 40; Load 14 RDI 48; Load 15 RDI 56;
    Load (XMM 0) RDI 64; Load (XMM 1) RDI 72; Load (XMM 2) RDI 80; Load (XMM 3) RDI 88;
    Load (XMM 4) RDI 96; Load (XMM 5) RDI 104; Load (XMM 6) RDI 112; Load (XMM 7) RDI 120;
    Store RAX RSP 0; Mov32 RAX RSI; IfZero32 RAX 1 ].
(** ret: where execution goes on, and the state there. *)
Definition x64_ret (s : st) : Z * st :=
  (loadn 8 (mem s) (regs s RSP), St (upd (regs s) RSP (regs s RSP + 8)) (mem s)).

(** AArch64: x29 is fp, x30 is lr. *)
Definition SP := 31.
Definition D (n : Z) := 100 + n.
(** setjmp.c:35-55. *)
Definition a64_setjmp : list ins :=
  [ Store 29 0 0; Store 30 0 8; Mov 9 SP; Store 9 0 16; Store 19 0 24; Store 20 0 32; Store 21 0 40;
    Store 22 0 48; Store 23 0 56; Store 24 0 64; Store 25 0 72; Store 26 0 80; Store 27 0 88; Store 28 0 96;
    Store (D 8) 0 112; Store (D 9) 0 120; Store (D 10) 0 128; Store (D 11) 0 136;
    Store (D 12) 0 144; Store (D 13) 0 152; Store (D 14) 0 160; Store (D 15) 0 168;
    Imm 0 0 ].
(** longjmp.c:39-63. *)
Definition a64_longjmp : list ins :=
  [ Load 29 0 0; Load 30 0 8; Load 9 0 16; Load 19 0 24; Load 20 0 32; Load 21 0 40;
    Load 22 0 48; Load 23 0 56; Load 24 0 64; Load 25 0 72; Load 26 0 80; Load 27 0 88; Load 28 0 96;
    Load (D 8) 0 112; Load (D 9) 0 120; Load (D 10) 0 128; Load (D 11) 0 136;
    Load (D 12) 0 144; Load (D 13) 0 152; Load (D 14) 0 160; Load (D 15) 0 168;
    Mov SP 9; Mov32 0 1; IfZero32 0 1 ].
Definition a64_ret (s : st) : Z * st := (regs s 30, s).

(** RISC-V: x1 is ra, x2 sp, x8 fp, x9 s1, x10 a0, x11 a1, x18 to x27 s2 to s11;
    f8, f9 are fs0, fs1 and f18 to f27 fs2 to fs11. *)
Definition F (n : Z) := 100 + n.
(** setjmp.c:57-91. *)
Definition rv_setjmp : list ins :=
  [ Store 1 10 0; Store 2 10 8; Store 8 10 16; Store 9 10 24; Store 18 10 32; Store 19 10 40; Store 20 10 48;
    Store 21 10 56; Store 22 10 64; Store 23 10 72; Store 24 10 80; Store 25 10 88; Store 26 10 96; Store 27 10 104;
    Store (F 8) 10 112; Store (F 9) 10 120; Store (F 18) 10 128; Store (F 19) 10 136; Store (F 20) 10 144;
    Store (F 21) 10 152; Store (F 22) 10 160; Store (F 23) 10 168; Store (F 24) 10 176; Store (F 25) 10 184;
    Store (F 26) 10 192; Store (F 27) 10 200; Imm 10 0 ].
(** longjmp.c:65-102. *)
Definition rv_longjmp : list ins :=
  [ Load 1 10 0; Load 2 10 8; Load 8 10 16; Load 9 10 24; Load 18 10 32; Load 19 10 40; Load 20 10 48;
    Load 21 10 56; Load 22 10 64; Load 23 10 72; Load 24 10 80; Load 25 10 88; Load 26 10 96; Load 27 10 104;
    Load (F 8) 10 112; Load (F 9) 10 120; Load (F 18) 10 128; Load (F 19) 10 136; Load (F 20) 10 144;
    Load (F 21) 10 152; Load (F 22) 10 160; Load (F 23) 10 168; Load (F 24) 10 176; Load (F 25) 10 184;
    Load (F 26) 10 192; Load (F 27) 10 200; Mov 10 11; IfZero 10 1 ].
Definition rv_ret (s : st) : Z * st := (regs s 1, s).

(** include/setjmp.h:8-16: bytes of a jmp_buf. *)
Definition x64_jmp_buf := 200.
Definition a64_jmp_buf := 192.
Definition rv_jmp_buf := 208.
