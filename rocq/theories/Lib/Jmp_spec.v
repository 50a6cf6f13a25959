(** What setjmp and longjmp are to do (C11 7.13), with the registers that a
    function has to preserve according to the ABI of each machine. *)
From stdpp Require Import base numbers list.
From Verif Require Import Lib.Jmp_model.
Local Open Scope Z.

(** System V ABI for x64, fig. 3.4; AAPCS64 6.1; RISC-V calling convention. *)
Definition x64_preserved : list Z := [3; 5; 12; 13; 14; 15].
Definition a64_preserved : list Z := [19; 20; 21; 22; 23; 24; 25; 26; 27; 28; 29; 108; 109; 110; 111; 112; 113; 114; 115].
Definition rv_preserved : list Z :=
  [8; 9; 18; 19; 20; 21; 22; 23; 24; 25; 26; 27; 108; 109; 118; 119; 120; 121; 122; 123; 124; 125; 126; 127].

Definition words (s : st) : Prop := forall r, 0 <= regs s r < 2 ^ 64.
(** An int in a register: its low 32 bits. *)
Definition int_of (v : Z) : Z := v mod 2 ^ 32.
Definition same_at (l : list Z) (s s' : st) : Prop := Forall (fun r => regs s' r = regs s r) l.

(** A call of setjmp in state [s], whose caller goes on at [pc] in state [s1]
    with stack pointer [sp]: it gives 0, and changes no memory but the buffer. *)
Definition set_ok (preserved : list Z) (spreg resreg envreg size : Z) (s : st) (sp : Z) (r : Z * st) (pc : Z) : Prop :=
  fst r = pc /\ regs (snd r) spreg = sp /\ same_at preserved s (snd r) /\ int_of (regs (snd r) resreg) = 0 /\
  (forall x, x < regs s envreg \/ regs s envreg + size <= x -> mem (snd r) x = mem s x).

(** A call of longjmp in state [s2] with [val]: execution goes on as after the
    call of setjmp which went on as [r], but the result is [val], or 1 for 0;
    [dead] may have changed in memory. *)
Definition jump_ok (preserved : list Z) (spreg resreg : Z) (r : Z * st) (s2 : st) (val : Z) (r' : Z * st) (dead : Z -> Prop) : Prop :=
  fst r' = fst r /\ regs (snd r') spreg = regs (snd r) spreg /\ same_at preserved (snd r) (snd r') /\
  int_of (regs (snd r') resreg) = (if int_of val =? 0 then 1 else int_of val) /\
  (forall x, ~ dead x -> mem (snd r') x = mem s2 x).

(** The buffer is as it was. *)
Definition intact (envaddr size : Z) (s s' : st) : Prop :=
  forall x, envaddr <= x < envaddr + size -> mem s' x = mem s x.
