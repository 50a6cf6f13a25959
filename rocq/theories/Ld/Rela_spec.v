(** What a relocation has to achieve: the field it patches, read as the processor reads it,
    leads from the place to the target.

    Sources: System V ABI, AMD64 supplement, 4.4.1; ELF for the Arm 64-bit architecture, 5.7, and
    the Arm manual for ADRP, ADD and BL; RISC-V ELF psABI, relocations, and the instruction set
    manual for the layout of immediates. *)
From stdpp Require Import base list numbers.
From Verif Require Import As.Asm_arch_model Ld.Rela_model.
Local Open Scope Z_scope.

(** Bits [hi..lo] of a word, as a number; [n] bits read as two's complement. *)
Definition bits (w hi lo : Z) : Z := w / 2 ^ lo mod 2 ^ (hi - lo + 1).
Definition sext (n x : Z) : Z := if x <? 2 ^ (n - 1) then x else x - 2 ^ n.
Definition fits (n x : Z) : Prop := - 2 ^ (n - 1) <= x < 2 ^ (n - 1).

(** The place a relocation patches, and the distance from it to the target. *)
Definition place (sec : Z) (r : rela) : Z := u64 (sec + Z.of_nat (r_offset r)).
Definition distance (sec : Z) (r : rela) : Z := s64 (r_target r - place sec r).
Definition page (a : Z) : Z := a - a mod 4096.

(** Displacements of branches, and the immediates of address computations. *)
Definition adrp_imm (w : Z) : Z := 4096 * sext 21 (bits w 23 5 * 4 + bits w 30 29).
Definition add_imm (w : Z) : Z := bits w 21 10.
Definition bl_disp (w : Z) : Z := sext 28 (bits w 25 0 * 4).
Definition jal_disp (w : Z) : Z :=
  sext 21 (bits w 31 31 * 2 ^ 20 + bits w 19 12 * 2 ^ 12 + bits w 20 20 * 2 ^ 11 + bits w 30 21 * 2).
Definition branch_disp (w : Z) : Z :=
  sext 13 (bits w 31 31 * 2 ^ 12 + bits w 7 7 * 2 ^ 11 + bits w 30 25 * 2 ^ 5 + bits w 11 8 * 2).
Definition cj_disp (h : Z) : Z :=
  sext 12 (bits h 12 12 * 2 ^ 11 + bits h 8 8 * 2 ^ 10 + bits h 10 9 * 2 ^ 8 + bits h 6 6 * 2 ^ 7
    + bits h 7 7 * 2 ^ 6 + bits h 2 2 * 2 ^ 5 + bits h 11 11 * 2 ^ 4 + bits h 5 3 * 2).
Definition cb_disp (h : Z) : Z :=
  sext 9 (bits h 12 12 * 2 ^ 8 + bits h 6 5 * 2 ^ 6 + bits h 2 2 * 2 ^ 5 + bits h 11 10 * 2 ^ 3 + bits h 4 3 * 2).
Definition u_imm (w : Z) : Z := sext 32 (bits w 31 12 * 2 ^ 12).
Definition i_imm (w : Z) : Z := sext 12 (bits w 31 20).

(** Two words agree on these ranges of bits. *)
Definition same (w w' : Z) (l : list (Z * Z)) : Prop := Forall (fun p => bits w' p.1 p.2 = bits w p.1 p.2) l.

(** The bytes a relocation may change: first and number. *)
Definition field (relas : list rela) (j : nat) (r : rela) : nat * nat :=
  match r_type r with
  | X_64 | A_ABS64 | R_64 => (r_offset r, 8%nat)
  | R_RVC_JUMP | R_RVC_BRANCH => (r_offset r, 2%nat)
  | R_RELAX =>
    match r_type <$> relas !! pred j with Some R_CALL => ((r_offset r + 4)%nat, 4%nat) | _ => (r_offset r, 0%nat) end
  | A_GOT | ROther => (r_offset r, 0%nat)
  | _ => (r_offset r, 4%nat)
  end.
Definition apart (f g : nat * nat) : Prop := (f.1 + f.2 <= g.1)%nat \/ (g.1 + g.2 <= f.1)%nat \/ f.2 = 0%nat \/ g.2 = 0%nat.
Definition all_apart (relas : list rela) : Prop :=
  forall j k r r', j <> k -> relas !! j = Some r -> relas !! k = Some r' -> apart (field relas j r) (field relas k r').
Definition in_field (i : nat) (f : nat * nat) : Prop := (f.1 <= i < f.1 + f.2)%nat.

(** The word a relocation patches. *)
Definition at_ (n : nat) (c : list Z) (o : nat) : Z := word n (drop o c).

(** What must hold of the bytes [c] before and [c'] after, for relocation number [j].  The
    relocations that reach only a part of the address space promise something if the target is
    within that part. *)
Definition achieves (sec : Z) (relas : list rela) (j : nat) (r : rela) (c c' : list Z) : Prop :=
  let o := r_offset r in
  let w := at_ 4 c o in
  let w' := at_ 4 c' o in
  let h := at_ 2 c o in
  let h' := at_ 2 c' o in
  let P := place sec r in
  let T := r_target r in
  let D := distance sec r in
  match r_type r with
  | X_64 | A_ABS64 | R_64 => at_ 8 c' o = T
  | X_PC32 | X_PLT32 => fits 32 D -> u64 (P + sext 32 w') = T
  | A_PG_HI21 => same w w' [(4, 0); (28, 24); (31, 31)] /\
      (fits 33 (s64 (page T - page P)) -> u64 (page P + adrp_imm w') = page T)
  | A_ADD_LO12 => same w w' [(9, 0); (31, 22)] /\ add_imm w' = T mod 4096
  | A_CALL26 => same w w' [(31, 26)] /\ (fits 28 D -> D mod 4 = 0 -> u64 (P + bl_disp w') = T)
  | R_CALL => bits w' 6 0 = 0x6f /\ bits w' 11 7 = 1 /\ (D mod 2 = 0 -> u64 (P + jal_disp w') = T)
  | R_RELAX => match r_type <$> relas !! pred j with
      | Some R_CALL => at_ 4 c' (o + 4) = 0x13 (* addi x0, x0, 0 *)
      | _ => True
      end
  | R_PCREL_HI20 => same w w' [(11, 0)] /\ (D < 2 ^ 31 - 2 ^ 11 -> fits 12 (D - u_imm w'))
  | R_HI20 => same w w' [(11, 0)] /\ (s64 T < 2 ^ 31 - 2 ^ 11 -> fits 12 (s64 T - u_imm w'))
  | R_PCREL_LO12_I => same w w' [(19, 0)] /\
      exists hi, relas !! (j - 2)%nat = Some hi /\ r_type hi = R_PCREL_HI20 /\
      (distance sec hi < 2 ^ 31 - 2 ^ 11 -> u64 (place sec hi + u_imm (at_ 4 c' (r_offset hi)) + i_imm w') = r_target hi)
  | R_LO12_I => same w w' [(19, 0)] /\
      exists hi, relas !! (j - 2)%nat = Some hi /\ r_type hi = R_HI20 /\
      (s64 (r_target hi) < 2 ^ 31 - 2 ^ 11 -> u64 (u_imm (at_ 4 c' (r_offset hi)) + i_imm w') = r_target hi)
  | R_RVC_JUMP => same h h' [(1, 0); (15, 13)] /\ bits h 1 0 = 1 /\ bits h 15 13 = 5 /\ (D mod 2 = 0 -> u64 (P + cj_disp h') = T)
  | R_JAL => bits w' 6 0 = 0x6f /\ bits w 6 0 = 0x6f /\ (D mod 2 = 0 -> u64 (P + jal_disp w') = T)
  | R_BRANCH => same w w' [(6, 0); (24, 12)] /\ (fits 13 D -> D mod 2 = 0 -> u64 (P + branch_disp w') = T)
  | R_RVC_BRANCH => same h h' [(1, 0); (9, 7); (15, 13)] /\ bits h 1 0 = 1 /\ bits h 15 14 = 3 /\ (D mod 2 = 0 -> u64 (P + cb_disp h') = T)
  | A_GOT | ROther => False
  end.

Definition bytes_ok (c : list Z) : Prop := Forall (fun b => 0 <= b < 256) c.
Definition targets_ok (relas : list rela) : Prop := Forall (fun r => 0 <= r_target r < 2 ^ 64) relas.
