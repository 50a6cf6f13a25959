(** Model of the application of relocations by the linker, src/ld/ld.c:217-397
    resolve_rela_elfobj, for one relocation section.

    [r_target] stands for the result of calc_rela_sym_address (src/ld/ld.c:182-215): the address of
    the symbol plus the addend, below 2^64; see Sym_model for that function.  A failed [assert]
    stops the linker ([Stop]); so does an access outside the section's bytes, kept apart as [Wild].
    Words are little-endian.  Types are numbered by constructor; [ROther] is a type the [switch] has no
    case for.  Objects for another machine are rejected earlier (src/ld/elfobj.c:77). *)
From stdpp Require Import base list numbers.
From Verif Require Import As.Asm_arch_model.
From Verif Require As.Rv_model.
Local Open Scope Z_scope.

Definition u64 (x : Z) : Z := x mod 2 ^ 64.
Definition s64 (x : Z) : Z := (x + 2 ^ 63) mod 2 ^ 64 - 2 ^ 63.

Inductive rtype :=
  | X_64 | X_PC32 | X_PLT32
  | A_ABS64 | A_PG_HI21 | A_ADD_LO12 | A_CALL26 | A_GOT
  | R_64 | R_CALL | R_RELAX | R_PCREL_HI20 | R_HI20 | R_PCREL_LO12_I | R_LO12_I
  | R_RVC_JUMP | R_JAL | R_BRANCH | R_RVC_BRANCH
  | ROther.
Global Instance rtype_eq_dec : EqDecision rtype.
Proof. solve_decision. Defined.

Record rela := Rela { r_type : rtype; r_offset : nat; r_target : Z }.

Inductive outcome (A : Type) := Ok (a : A) | Stop | Wild.
Arguments Ok {A} a.
Arguments Stop {A}.
Arguments Wild {A}.

(** Replace the [n]-byte word at [o] by [f] of it; [f] gives [None] for a failed assert. *)
Definition patch (n : nat) (c : list Z) (o : nat) (f : Z -> option Z) : outcome (list Z) :=
  if (o + n <=? length c)%nat then
    match f (word n (drop o c)) with Some w => Ok (put o (le n w) c) | None => Stop end
  else Wild.
Definition store (n : nat) (c : list Z) (o : nat) (w : Z) : outcome (list Z) := patch n c o (fun _ => Some w).

(** The ranges of the asserts: [-2^k <= x < 2^k]. *)
Definition in_range (x k : Z) : bool := (x <? 2 ^ k) && (- 2 ^ k <=? x).

Definition SWIZZLE_JAL := Rv_model.SWIZZLE_JAL.     (* src/ld/ld.c:163 *)
Definition SWIZZLE_C_J := Rv_model.SWIZZLE_C_J.     (* src/ld/ld.c:164-167 *)
Definition SWIZZLE_C_BXX := Rv_model.SWIZZLE_C_BXX. (* src/ld/ld.c:168-170 *)
Definition SWIZZLE_BXX := Rv_model.SWIZZLE_BXX.     (* src/ld/ld.c:171-173 *)
Definition P_NOP : Z := Rv_model.ITYPE 0 0 0 0 0x13. (* src/ld/ld.c:176-180 *)

(** The words written, each from the old word, the target and the place. *)
(** src/ld/ld.c:260-267. *)
Definition pg_hi21 (target pc w : Z) : Z :=
  let d := (Z.shiftr target 12 - Z.shiftr pc 12) mod 2 ^ 32 in
  Z.lor (Z.lor (Z.land w (Z.lxor 0x60ffffe0 (2 ^ 32 - 1))) (Z.shiftl (Z.land d 3) 29)) (Z.shiftl (Z.land d 0x1ffffc) 3).
(** src/ld/ld.c:268-273. *)
Definition add_lo12 (target w : Z) : Z :=
  Z.lor (Z.land w (Z.lxor (Z.shiftl (2 ^ 12 - 1) 10) (2 ^ 32 - 1))) (Z.land (Z.shiftl target 10) (Z.shiftl (2 ^ 12 - 1) 10)).
(** src/ld/ld.c:274-279. *)
Definition call26 (target pc w : Z) : Z :=
  Z.lor (Z.land w (2 ^ 32 - 2 ^ 26)) (Z.land (Z.shiftr (u64 (target - pc)) 2) (2 ^ 26 - 1)).
(** src/ld/ld.c:290-296; W_JAL is at line 178. *)
Definition rv_call (target pc : Z) : option Z :=
  let offset := s64 (target - pc) in
  if in_range offset 19 then Some (Rv_model.UTYPE (SWIZZLE_JAL offset) 1 0x6f) else None.
(** src/ld/ld.c:315-326; [base] is the place or 0. *)
Definition rv_hi20 (target base w : Z) : option Z :=
  let offset := s64 (target - base) in
  if in_range offset 31 then
    let offset := if 2 ^ 11 <=? Z.land offset (2 ^ 12 - 1) then offset + 2 ^ 12 else offset in
    Some (Z.lor (Z.land w (2 ^ 12 - 1)) (Z.land (offset mod 2 ^ 32) (2 ^ 32 - 2 ^ 12)))
  else None.
(** src/ld/ld.c:327-348, [target] and [base] being those of the HI20 relocation. *)
Definition rv_lo12 (target base w : Z) : option Z :=
  let offset := s64 (target - base) in
  if in_range offset 31 then
    Some (Z.lor (Z.land w (2 ^ 20 - 1)) (Z.shiftl (Z.land (offset mod 2 ^ 32) (2 ^ 12 - 1)) 20))
  else None.
(** src/ld/ld.c:349-358. *)
Definition rv_rvc_jump (target pc w : Z) : option Z :=
  let offset := s64 (target - pc) in
  if in_range offset 11 && (Z.land w 0xe003 =? 0xa001) then Some (Z.lor (Z.land w 0xe003) (SWIZZLE_C_J offset)) else None.
(** src/ld/ld.c:359-368. *)
Definition rv_jal (target pc w : Z) : option Z :=
  let offset := s64 (target - pc) in
  if in_range offset 19 && (Z.land w 0x7f =? 0x6f) then Some (Z.lor (Z.land w 0x7f) (SWIZZLE_JAL offset)) else None.
(** src/ld/ld.c:374-379. *)
Definition rv_rvc_branch (target pc w : Z) : option Z :=
  let offset := s64 (target - pc) in
  if in_range offset 8 && (Z.land w 0xc003 =? 0xc001) then Some (Z.lor (Z.land w 0xe383) (SWIZZLE_C_BXX offset)) else None.
(** src/ld/ld.c:381-383. *)
Definition rv_branch (target pc w : Z) : option Z :=
  let offset := s64 (target - pc) in
  if in_range offset 13 then Some (Z.lor (Z.land w 0x01fff07f) (SWIZZLE_BXX offset)) else None.

(** src/ld/ld.c:246-393: the [switch] for relocation number [j] of [relas], in a section placed
    at [sec] with bytes [c].  The flag says whether the type was unknown (an error is counted). *)
Definition apply1 (sec : Z) (relas : list rela) (j : nat) (r : rela) (c : list Z) : outcome (list Z) * bool :=
  let o := r_offset r in
  let pc := u64 (sec + Z.of_nat o) in
  let target := r_target r in
  match r_type r with
  | X_64 | A_ABS64 | R_64 => (store 8 c o target, false)
  | X_PC32 | X_PLT32 => (store 4 c o (u64 (target - pc)), false)
  | A_PG_HI21 => (patch 4 c o (fun w => Some (pg_hi21 target pc w)), false)
  | A_ADD_LO12 => (patch 4 c o (fun w => Some (add_lo12 target w)), false)
  | A_CALL26 => (patch 4 c o (fun w => Some (call26 target pc w)), false)
  | A_GOT => (Stop, false)
  | R_CALL => (patch 4 c o (fun _ => rv_call target pc), false)
  | R_RELAX =>
    match j with
    | O => (Stop, false)
    | S j' =>
      match r_type <$> relas !! j' with
      | Some R_CALL => (store 4 c (o + 4) P_NOP, false)
      | Some (R_PCREL_HI20 | R_PCREL_LO12_I | R_HI20 | R_LO12_I) => (Ok c, false)
      | _ => (Stop, false)
      end
    end
  | R_PCREL_HI20 => (patch 4 c o (rv_hi20 target pc), false)
  | R_HI20 => (patch 4 c o (rv_hi20 target 0), false)
  | R_PCREL_LO12_I | R_LO12_I =>
    match j with
    | S (S j') =>
      match relas !! j' with
      | Some h =>
        let hipc := u64 (sec + Z.of_nat (r_offset h)) in
        match r_type r, r_type h with
        | R_PCREL_LO12_I, R_PCREL_HI20 => (patch 4 c o (rv_lo12 (r_target h) hipc), false)
        | R_LO12_I, R_HI20 => (patch 4 c o (rv_lo12 (r_target h) 0), false)
        | _, _ => (Stop, false)
        end
      | None => (Stop, false)
      end
    | _ => (Stop, false)
    end
  | R_RVC_JUMP => (patch 2 c o (rv_rvc_jump target pc), false)
  | R_JAL => (patch 4 c o (rv_jal target pc), false)
  | R_RVC_BRANCH => (patch 2 c o (rv_rvc_branch target pc), false)
  | R_BRANCH => (patch 4 c o (rv_branch target pc), false)
  | ROther => (Ok c, true)
  end.

(** src/ld/ld.c:238-394: the loop from number [j] on; the bytes and the number of errors. *)
Fixpoint apply_from (sec : Z) (relas : list rela) (j : nat) (l : list rela) (c : list Z) : outcome (list Z * nat) :=
  match l with
  | [] => Ok (c, 0%nat)
  | r :: l =>
    match apply1 sec relas j r c with
    | (Ok c, e) =>
      match apply_from sec relas (S j) l c with
      | Ok (c, n) => Ok (c, if e then S n else n)
      | Stop => Stop
      | Wild => Wild
      end
    | (Stop, _) => Stop
    | (Wild, _) => Wild
    end
  end.
Definition apply_relas (sec : Z) (relas : list rela) (c : list Z) : outcome (list Z * nat) := apply_from sec relas 0 relas c.
