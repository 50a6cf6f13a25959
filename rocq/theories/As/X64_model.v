(** The encoder of x64 instructions.
    Modelled from src/as/arch/x64/asm_code.c lines 16-93 (helpers and macros), 100-1527 (one function
    per instruction), 1533-1657 (the table and assemble_inst), src/as/arch/x64/inst.h lines 10-167,
    src/as/arch/x64/parse_x64.c lines 207-254, 293-360 (numbers of
    registers), 491-693 (operands an instruction takes) and src/util/util.c lines 53-60
    and 301-311.
    Simplifications: an instruction is a term whose constructor stands for the opcode and the kinds
    of its operands; functions that differ in their opcode bytes only are one definition with the
    bytes as parameters; offsets and immediates are integers without bound (in the source: 64 bits).
    Where the source writes an expression that is not a constant (a label), it emits zeros which are
    patched later: constructors with the offset left out. *)
From stdpp Require Import base numbers list.
Open Scope Z_scope.

Notation "a .| b" := (Z.lor a b) (at level 54, left associativity).
Notation "a .& b" := (Z.land a b) (at level 52, left associativity).
Notation "a .<< b" := (Z.shiftl a b) (at level 51, left associativity).
Notation "a .>> b" := (Z.shiftr a b) (at level 51, left associativity).

(** inst.h 103-114: sizes REG8 to REG64 are 0 to 3. *)
Record reg := Reg { size : Z; no : Z; x : Z }.
(** asm_code.c 32-34 *)
Definition regno (r : reg) : Z := no r .| (x r .<< 3).

(** util.c 301-311 *)
Definition is_im8 (v : Z) : bool := (v <=? 127) && (-128 <=? v).
Definition is_im32 (v : Z) : bool := (v <=? 2 ^ 31 - 1) && (- 2 ^ 31 <=? v).
(** IM8 to IM64 of asm_code.h 37-40: the low [n] bytes. *)
Fixpoint im (n : nat) (v : Z) : list Z :=
  match n with O => [] | S k => v mod 256 :: im k (v .>> 8) end.
(** asm_code.c 16-23 *)
Definition filtered (l : list Z) : list Z := filter (fun c => 0 <= c) l.

Definition RSP : Z := 4.
Definition RBP : Z := 5.

(** What an encoder does: emit bytes, return NULL (reported as an illegal operand), or fail an assert. *)
Inductive result := Bytes (l : list Z) | Illegal | Abort.

(** ** Helpers *)

(** 46-54 *)
Definition put_rex0 (sz s d op : Z) : list Z :=
  (if sz =? 1 then [0x66] else []) ++
  (if (8 <=? s) || (8 <=? d) || (sz =? 3)
   then [0x40 .| ((d .& 8) .>> 3) .| ((s .& 8) .>> 1) .| (if sz =? 3 then 8 else 0)] else []) ++ [op].
(** 56-62 *)
Definition MAKE_REX0 (sz s d op : Z) : list Z :=
  [ (if sz =? 1 then 0x66 else -1);
    (if (8 <=? s) || (8 <=? d) || ((sz =? 0) && ((4 <=? s) || (4 <=? d))) || (sz =? 3)
     then 0x40 .| ((d .& 8) .>> 3) .| ((s .& 8) .>> 1) .| (if sz =? 3 then 8 else 0) else -1);
    op ].
(** 64-76 *)
Definition put_rex1 (sz rp d op : Z) : list Z := put_rex0 sz 0 d op ++ [rp .| (d .& 7)].
Definition put_rex2 (sz s d op : Z) : list Z := put_rex0 sz s d op ++ [0xc0 .| ((s .& 7) .<< 3) .| (d .& 7)].
(** 78-82; [z] and [e] are offset == 0 and is_im8(offset). *)
Definition MAKE_REX_INDIRECT (sz r i op op2 : Z) (z e : bool) : list Z :=
  MAKE_REX0 sz r i (if sz =? 0 then op else (op + 1) mod 256) ++
  [ (if z && negb (i =? RBP) then op2 else if e then 0x40 else 0x80) .| (i .& 7) .| ((r .& 7) .<< 3);
    (if i =? RSP then 0x24 else -1) ].
(** 84-88 *)
Definition MAKE_OFFSET (v : Z) (nz : bool) : list Z :=
  if (v =? 0) && nz then [] else if is_im8 v then im 1 v else im 4 v.
(** 90-98: bytes of an immediate by size *)
Definition bytes (sz : Z) : nat := if sz =? 0 then 1 else if sz =? 1 then 2 else if sz =? 2 then 4 else 8.
(** Immediates of REG8 to REG64 operands that are not of 8 bytes. *)
Definition bytes4 (sz : Z) : nat := if sz =? 0 then 1 else if sz =? 1 then 2 else 4.

(** The offset after a ModRM byte, in the functions that write it by themselves. *)
Definition put_offset (nothing : bool) (v : Z) : list Z :=
  if nothing then [] else if is_im8 v then im 1 v else im 4 v.

(** ** Moves *)

(** 106-112, 763-769, 881-887, 1104-1110, 1146-1152, 1187-1193, 1303-1309, 1341-1347: the second operand is in
    the rm field; [sz] is the size of one of the two. *)
Definition asm_rr (op : Z) (sz : Z) (s d : reg) : list Z :=
  put_rex2 sz (regno s) (regno d) (if sz =? 0 then op else op + 1).
(** 114-132 *)
Definition asm_mov_imr (v : Z) (d : reg) : list Z :=
  if (size d =? 3) && is_im32 v then [(if x d =? 0 then 0x48 else 0x49); 0xc7; 0xc0 .| no d] ++ im 4 v
  else filtered (MAKE_REX0 (size d) 0 (regno d) (0xb0 .| (if size d =? 0 then 0 else 8) .| no d)) ++ im (bytes (size d)) v.
(** 134-161 and 173-203: [r] is the register, [b] the base, [op] 0x8a or 0x88. *)
Definition mov_head (op sz r b : Z) (z e : bool) : list Z :=
  filtered [ (if sz =? 1 then 0x66 else -1);
    (if (sz =? 3) || (8 <=? b) || (8 <=? r) then 0x40 .| (if sz =? 3 then 8 else 0) .| ((r .& 8) .>> 1) .| ((b .& 8) .>> 3) else -1);
    op .| (if sz =? 0 then 0 else 1);
    ((r .& 7) .<< 3) .| (b .& 7) .| (if z && negb ((b .& 7) =? RBP) then 0 else if e then 0x40 else 0x80);
    (if (b .& 7) =? RSP then 0x24 else -1) ].
Definition asm_mov_mem (op : Z) (off : Z) (b r : reg) : list Z :=
  mov_head op (size r) (regno r) (regno b) (off =? 0) (is_im8 off) ++
  put_offset ((off =? 0) && negb ((regno b .& 7) =? RBP)) off.
(** 162-169 and 714-721: a label and the instruction pointer *)
Definition asm_rip (op : Z) (d : reg) : list Z :=
  [(if x d =? 0 then 0x48 else 0x4c); op; 0x05 .| (no d .<< 3)] ++ im 4 0.

(** Scales: the number of the highest bit, if it is a power of 2 below 16 (util.c 53-60). *)
Definition is_power (s : Z) : bool := (0 <? s) && ((s .& (s - 1)) =? 0).
Definition msb (s : Z) : Z := Z.log2 s.

(** 205-243; the asserts are those of lines 208 and 219. *)
Definition mov_iir_head (sz d b i sc : Z) (z e : bool) : list Z :=
  let xs := ((b .& 8) .>> 3) .| ((i .& 8) .>> 2) .| ((d .& 8) .>> 1) in
  filtered [ (if sz =? 1 then 0x66 else if (sz =? 3) || negb (xs =? 0) then 0x48 .| xs else -1);
    (if sz =? 0 then 0x8a else 0x8b);
    ((d .& 7) .<< 3) .| (if z then 0x04 else if e then 0x44 else 0x84);
    (sc .<< 6) .| ((i .& 7) .<< 3) .| (b .& 7) ].
Definition asm_mov_iir (off : Z) (b i : reg) (sc : option Z) (d : reg) : result :=
  let bit := match sc with Some s => msb s | None => 0 end in
  if is_im32 off && match sc with Some s => is_power s && (msb s <? 4) | None => true end then
    Bytes (mov_iir_head (size d) (regno d) (regno b) (regno i) bit (off =? 0) (is_im8 off) ++ put_offset (off =? 0) off)
  else Abort.
(** 245-279: a label as absolute address *)
Definition asm_mov_direct (op : Z) (r : reg) : list Z :=
  filtered [ (if size r =? 1 then 0x66 else if size r =? 3 then 0x48 else -1); (if size r =? 0 then op else op + 1);
    ((regno r .& 7) .<< 3) .| 0x04; 0x25 ] ++ im 4 0.
(** 281-297; the register is always rax. *)
Definition asm_mov_sr (v : Z) (d : reg) : result :=
  if size d =? 3 then Bytes ([0x64; 0x48; 0x8b; 0x04; 0x25] ++ im 4 v) else Illegal.
(** 299-334 *)
Definition imi_head (sz d : Z) (z e : bool) : list Z :=
  filtered [ (if sz =? 1 then 0x66 else -1);
    (if (sz =? 3) || (8 <=? d) then 0x40 .| (if sz =? 3 then 8 else 0) .| ((d .& 8) .>> 3) else -1);
    0xc6 .| (if sz =? 0 then 0 else 1);
    (if z && negb ((d .& 7) =? RBP) then 0 else if e then 0x40 else 0x80) .| (d .& 7);
    (if (d .& 7) =? RSP then 0x24 else -1) ].
Definition asm_mov_imi (sz v off : Z) (b : reg) : list Z :=
  imi_head sz (regno b) (off =? 0) (is_im8 off) ++
  (if (off =? 0) && negb ((regno b .& 7) =? RBP) then [] else if is_im8 off then im 1 off else if is_im32 off then im 4 off else []) ++
  im (bytes4 sz) v.
(** 336-364; the assert is that of line 339. *)
Definition asm_mov_imd (sz v addr : Z) : result :=
  if is_im32 addr then
    Bytes (filtered [ (if sz =? 1 then 0x66 else -1); (if sz =? 3 then 0x48 else -1); 0xc6 .| (if sz =? 0 then 0 else 1); 0x04; 0x25 ] ++
          im 4 addr ++ im (bytes4 sz) v)
  else Abort.
(** 366-432 *)
Definition asm_movszx (sx : bool) (s d : reg) : result :=
  let op := if sx then 0xbe else 0xb6 in
  let m := 0xc0 + no s + no d * 8 in
  let rex w := (if (x s .& 1) =? 0 then w else w + 1) + (if x d =? 0 then 0 else 4) in
  let rex' w := (if x s =? 0 then w else w + 1) + (if x d =? 0 then 0 else 4) in
  if size s =? 0 then
    if size d =? 1 then Bytes (if (regno s <? 4) && (x d =? 0) then [0x66; 0x0f; op; m] else [0x66; rex 0x40; 0x0f; op; m])
    else if size d =? 2 then Bytes (if (regno s <? 4) && (x d =? 0) then [0x0f; op; m] else [rex 0x40; 0x0f; op; m])
    else if size d =? 3 then Bytes [rex 0x48; 0x0f; op; m]
    else Illegal
  else if size s =? 1 then
    if size d =? 2 then Bytes (if (x s =? 0) && (x d =? 0) then [0x0f; op .| 1; m] else [rex' 0x40; 0x0f; op .| 1; m])
    else if size d =? 3 then Bytes [rex' 0x48; 0x0f; op .| 1; m]
    else Illegal
  else if (size s =? 2) && (size d =? 3) && sx then Bytes [rex' 0x48; 0x63; m]
  else Illegal.

(** ** Floating point *)

(** 434-450, 534-604, 642-673: [pr] is the prefix or -1, [s] in the rm field. *)
Definition asm_xx (pr op s d : Z) : list Z :=
  filtered [ pr; (if (8 <=? s) || (8 <=? d) then 0x40 .| ((s .& 8) .>> 3) .| ((d .& 8) .>> 1) else -1); 0x0f; op;
    0xc0 .| ((d .& 7) .<< 3) .| (s .& 7) ].
(** 452-532: [r] is the xmm register, [b] the base. *)
Definition movs_head (pr op r b : Z) (z e : bool) : list Z :=
  filtered [ pr; (if (8 <=? b) || (8 <=? r) then 0x40 .| ((b .& 8) .>> 3) .| ((r .& 8) .>> 1) else -1); 0x0f; op;
    (if z && negb ((b .& 7) =? RBP) then 0 else if e then 0x40 else 0x80) .| (b .& 7) .| ((r .& 7) .<< 3);
    (if (b .& 7) =? RSP then 0x24 else -1) ].
Definition asm_movs_mem (single : bool) (op off : Z) (b : reg) (r : Z) : result :=
  if is_im32 off then
    Bytes (movs_head (if single then 0xf3 else 0xf2) op r (regno b) (off =? 0) (is_im8 off) ++
          put_offset ((off =? 0) && negb ((regno b .& 7) =? RBP)) off)
  else Illegal.
(** 606-640: [sz] is the size of the general register, [s] in the rm field. *)
Definition asm_cvt (single : bool) (op : Z) (sz s d : Z) : list Z :=
  filtered [ (if single then 0xf3 else 0xf2);
    (if (8 <=? s) || (8 <=? d) || (sz =? 3) then 0x40 .| ((s .& 8) .>> 3) .| ((d .& 8) .>> 1) .| (if sz =? 3 then 8 else 0) else -1);
    0x0f; op; 0xc0 .| ((d .& 7) .<< 3) .| (s .& 7) ].

(** ** Addresses and arithmetic *)

(** 699-713 (lea), 801-818 (add), 919-936 (sub): [op] is the opcode before the increment. *)
Definition asm_ind (op : Z) (off : Z) (b r : reg) : list Z :=
  filtered (MAKE_REX_INDIRECT (size r) (regno r) (regno b) op 0 (off =? 0) (is_im8 off)) ++
  MAKE_OFFSET off (negb (no b =? RBP)).
(** 725-761 *)
Definition lea_iir_head (d b i pow : Z) (z e : bool) : list Z :=
  filtered [ 0x48 .| ((b .& 8) .>> 3) .| ((i .& 8) .>> 2) .| ((d .& 8) .>> 1); 0x8d;
    (if z && negb (b =? RBP) then 0 else if e then 0x40 else 0x80) .| ((d .& 7) .<< 3) .| 0x04;
    (b .& 7) .| ((i .& 7) .<< 3) .| (pow .<< 6);
    (if b =? RSP then 0x24 else -1) ].
Definition scale_of (sc : option Z) : Z := match sc with Some s => s | None => 1 end.
Definition asm_lea_iir (off : Z) (b i : reg) (sc : option Z) (d : reg) : result :=
  let s := scale_of sc in
  if is_im32 off && (1 <=? s) && (s <=? 8) && is_power s then
    Bytes (lea_iir_head (regno d) (regno b) (regno i) (msb s) (off =? 0) (is_im8 off) ++
          put_offset ((off =? 0) && negb (regno b =? RBP)) off)
  else Illegal.
(** 771-799 (add) and 889-917 (sub); [acc] the opcode for al, [ext] the bits for ModRM *)
Definition bop_imr_head (acc ext sz d : Z) (im8 : bool) : list Z :=
  if (d =? 0) && ((sz =? 0) || negb im8) then put_rex0 sz 0 d (if im8 then acc else acc + 1)
  else put_rex1 sz ext d (if sz =? 0 then 0x80 else if im8 then 0x83 else 0x81).
Definition asm_addsub_imr (acc ext : Z) (v : Z) (d : reg) : result :=
  if is_im32 v then
    let im8 := is_im8 v || (size d =? 0) in
    Bytes (bop_imr_head acc ext (size d) (regno d) im8 ++ if im8 then im 1 v else im (bytes4 (size d)) v)
  else Illegal.
(** 820-842 and 938-960; the asserts are about the logarithm of the scale. *)
Definition asm_bop_iir (op : Z) (off : Z) (b i : reg) (sc : option Z) (d : reg) : result :=
  let bit := match sc with Some s => msb s | None => 0 end in
  if (off =? 0) && match sc with Some s => is_power (msb s) && (msb s <? 4) | None => true end then
    Bytes [0x48 .| x b .| (x i .<< 1) .| (x d .<< 2); op; 0x04 .| (no d .<< 3); no b .| (no i .<< 3) .| (bit .<< 6)]
  else Abort.
(** 844-879 (addq, [op] 0) and 962-997 (subq, [op] 0x28) *)
Definition bopq_head (op d : Z) (z e v8 : bool) : list Z :=
  filtered [ 0x48 .| ((d .& 8) .>> 3); (if v8 then 0x83 else 0x81);
    (if z && negb ((d .& 7) =? RBP) then op else if e then 0x40 else 0x80) .| (d .& 7);
    (if (d .& 7) =? RSP then 0x24 else -1) ].
Definition asm_bopq_imi (op v off : Z) (b : reg) : result :=
  if is_im32 v then
    Bytes (bopq_head op (regno b) (off =? 0) (is_im8 off) (is_im8 v) ++
          (if (off =? 0) && negb ((regno b .& 7) =? RBP) then [] else if is_im8 off then im 1 off else if is_im32 off then im 4 off else []) ++
          (if is_im8 v then im 1 v else im 4 v))
  else Illegal.
(** 999-1036: mul, div, idiv: [op2] 0xe0, 0xf0, 0xf8 *)
Definition asm_mul (op2 : Z) (r : reg) : list Z :=
  filtered (MAKE_REX0 (size r) 0 (regno r) (0xf6 .| (if size r =? 0 then 0 else 1)) ++ [op2 .| no r]).
(** 1038-1050: neg and not *)
Definition asm_neg (op2 : Z) (r : reg) : list Z := put_rex1 (size r) op2 (regno r) 0xf7.
(** 1052-1058, 1078-1084: inc and dec of a register *)
Definition asm_inc (op2 : Z) (r : reg) : list Z := put_rex1 (size r) op2 (regno r) (if size r =? 0 then 0xfe else 0xff).
(** 1060-1076, 1086-1102: inc and dec in memory: [r] is 0 or 1, [op2] 0 or 8 *)
Definition asm_inc_i (r op2 sz off : Z) (b : reg) : list Z :=
  filtered (MAKE_REX_INDIRECT sz r (regno b) 0xfe op2 (off =? 0) (is_im8 off)) ++ MAKE_OFFSET off (negb (no b =? RBP)).
(** 1112-1144, 1154-1185, 1195-1226: and, or, xor with an immediate *)
Definition asm_and_imr (acc ext : Z) (v : Z) (d : reg) : result :=
  if is_im8 v && (negb (size d =? 0) || negb (regno d =? 0)) then
    Bytes (put_rex1 (size d) ext (regno d) (if size d =? 0 then 0x80 else 0x83) ++ im 1 v)
  else if (size d <=? 2) || is_im32 v then
    Bytes ((if regno d =? 0 then put_rex0 (size d) 0 (regno d) (if size d =? 0 then acc else acc + 1)
           else put_rex1 (size d) ext (regno d) (if size d =? 0 then 0x80 else 0x81)) ++ im (bytes4 (size d)) v)
  else Illegal.
(** 1228-1301: shifts by cl and by a constant *)
Definition asm_shift_cl (ext : Z) (d : reg) : list Z := put_rex1 (size d) ext (regno d) (if size d =? 0 then 0xd2 else 0xd3).
Definition asm_shift_im (ext : Z) (v : Z) (d : reg) : result :=
  if (v <? 0) || (256 <=? v) then Illegal
  else Bytes (if v =? 1 then put_rex1 (size d) ext (regno d) (if size d =? 0 then 0xd0 else 0xd1)
             else put_rex1 (size d) ext (regno d) (if size d =? 0 then 0xc0 else 0xc1) ++ im 1 v).
(** 685-694: the value of a signed number of this size *)
Definition signed_immediate (v sz : Z) : Z :=
  let n := 8 * 2 ^ sz in (v + 2 ^ (n - 1)) mod 2 ^ n - 2 ^ (n - 1).
(** 1311-1339 *)
Definition cmp_head (sz d : Z) (im8 : bool) : list Z :=
  if (d =? 0) && ((sz =? 0) || negb im8) then put_rex0 sz 0 d (if sz =? 0 then 0x3c else 0x3d)
  else put_rex1 sz 0xf8 d (0x80 .| (if sz =? 0 then 0 else if im8 then 3 else 1)).
Definition asm_cmp_imr (v : Z) (d : reg) : result :=
  let v := signed_immediate v (size d) in
  if is_im32 v || (size d <=? 2) then
    Bytes (cmp_head (size d) (regno d) (is_im8 v) ++ if is_im8 v then im 1 v else im (bytes4 (size d)) v)
  else Illegal.
(** 1364-1374 *)
Definition asm_set (cc : Z) (r : reg) : list Z := filtered (MAKE_REX0 0 0 (regno r) 0x0f ++ [0x90 .| cc; 0xc0 .| no r]).
(** 1376-1385 and 1403-1412 (pop) *)
Definition asm_push_r (op : Z) (r : reg) : list Z := filtered (MAKE_REX0 2 0 (regno r) (op .| no r)).
(** 1387-1401 *)
Definition asm_push_im (v : Z) : result :=
  if is_im8 v then Bytes (0x6a :: im 1 v) else if is_im32 v then Bytes (0x68 :: im 4 v) else Illegal.
(** 1419-1428, 1503-1511: jmp and call through a register *)
Definition asm_jmp_der (op2 : Z) (r : reg) : list Z := filtered [(if x r =? 0 then -1 else 0x41); 0xff; op2 .| no r].
(** 1430-1455 *)
Definition asm_jmp_dei (off : Z) (b : reg) : result :=
  if is_im32 off then
    Bytes (filtered [(if x b =? 0 then -1 else 0x41); 0xff; (if off =? 0 then 0x20 else if is_im8 off then 0x60 else 0xa0) .| no b] ++
          put_offset (off =? 0) off)
  else Illegal.
(** 1457-1491 *)
Definition jmp_deii_head (bx bn ix i sc : Z) (z e : bool) : list Z :=
  filtered [(let p := bx .| (ix .<< 1) in if p =? 0 then -1 else 0x40 .| p); 0xff;
    (if z && negb (bn =? RBP) then 0x20 else if e then 0x60 else 0xa0) .| 0x04; (sc .<< 6) .| (i .<< 3) .| bn].
Definition asm_jmp_deii (off : Z) (b i : reg) (sc : option Z) : result :=
  let s := scale_of sc in
  if is_im32 off && (1 <=? s) && (s <=? 8) && is_power s then
    Bytes (jmp_deii_head (x b) (no b) (x i) (no i) (msb s) (off =? 0) (is_im8 off) ++
          put_offset ((off =? 0) && negb (no b =? RBP)) off)
  else Illegal.

(** ** Instructions *)

Inductive alu := Add | Or | And | Sub | Xor | Cmp.
Inductive shift := Shl | Shr | Sar.
Inductive fop := FAdd | FMul | FSub | FDiv.

(** Base and index registers are of 64 bits; xmm registers are numbers.  [single]: the instruction ends
    with ss rather than sd. *)
Inductive inst :=
| MovRR (s d : reg) | MovImR (v : Z) (d : reg) | MovIR (off : Z) (b d : reg) | MovRI (s : reg) (off : Z) (b : reg)
| MovIIR (off : Z) (b i : reg) (sc : option Z) (d : reg) | MovRipR (d : reg)
| MovDR (d : reg) | MovRD (s : reg) | MovSR (v : Z) (d : reg)
| MovImI (sz v off : Z) (b : reg) | MovImD (sz v addr : Z)
| Movx (sx : bool) (s d : reg)
| LeaIR (off : Z) (b d : reg) | LeaRipR (d : reg) | LeaIIR (off : Z) (b i : reg) (sc : option Z) (d : reg)
| AluRR (o : alu) (s d : reg) | AluImR (o : alu) (v : Z) (d : reg)
| AluIR (sub : bool) (off : Z) (b d : reg) | AluIIR (sub : bool) (off : Z) (b i : reg) (sc : option Z) (d : reg)
| AluQ (sub : bool) (v off : Z) (b : reg)
| Mul (r : reg) | Div (r : reg) | Idiv (r : reg) | Neg (r : reg) | Not (r : reg)
| Inc (r : reg) | Dec (r : reg) | IncI (sz off : Z) (b : reg) | DecI (sz off : Z) (b : reg)
| ShiftCl (o : shift) (d : reg) | ShiftIm (o : shift) (v : Z) (d : reg)
| Test (s d : reg) | Cwtl | Cltd | Cqto | SetCc (cc : Z) (r : reg)
| JmpD | JmpDer (r : reg) | JmpDei (off : Z) (b : reg) | JmpDeii (off : Z) (b i : reg) (sc : option Z)
| JccD (cc : Z) | CallD | CallDer (r : reg) | Ret | PushR (r : reg) | PushIm (v : Z) | Pop (r : reg)
| IntIm (v : Z) | Syscall | Endbr64
| MovsXX (single : bool) (s d : Z) | MovsIX (single : bool) (off : Z) (b : reg) (d : Z) | MovsXI (single : bool) (s : Z) (off : Z) (b : reg)
| Fop (o : fop) (single : bool) (s d : Z) | Sqrtsd (s d : Z) | Xorp (single : bool) (s d : Z)
| Comis (unordered single : bool) (s d : Z)
| Cvtsi2s (single : bool) (s : reg) (d : Z) | Cvtts2si (single : bool) (s : Z) (d : reg) | Cvts2s (single : bool) (s d : Z).

Definition alu_rr (o : alu) : Z := match o with Add => 0x00 | Or => 0x08 | And => 0x20 | Sub => 0x28 | Xor => 0x30 | Cmp => 0x38 end.
Definition shift_ext (o : shift) : Z := match o with Shl => 0xe0 | Shr => 0xe8 | Sar => 0xf8 end.
Definition fop_op (o : fop) : Z := match o with FAdd => 0x58 | FMul => 0x59 | FSub => 0x5c | FDiv => 0x5e end.
Definition pr (single : bool) : Z := if single then 0xf3 else 0xf2.
Definition pr66 (single : bool) : Z := if single then -1 else 0x66.

(** 1349-1362 (cwtl, cltd, cqto), 1414-1417, 1493-1501 (jumps and calls of labels: short, patched later), 1513-1527
    (ret, int, syscall), 675-683 (endbr64), the table and assemble_inst (1533-1657). *)
Definition assemble (i : inst) : result :=
  match i with
  | MovRR s d => Bytes (asm_rr 0x88 (size s) s d)
  | MovImR v d => Bytes (asm_mov_imr v d)
  | MovIR off b d => Bytes (asm_mov_mem 0x8a off b d)
  | MovRI s off b => Bytes (asm_mov_mem 0x88 off b s)
  | MovIIR off b i sc d => asm_mov_iir off b i sc d
  | MovRipR d => Bytes (asm_rip 0x8b d)
  | MovDR d => Bytes (asm_mov_direct 0x8a d)
  | MovRD s => Bytes (asm_mov_direct 0x88 s)
  | MovSR v d => asm_mov_sr v d
  | MovImI sz v off b => Bytes (asm_mov_imi sz v off b)
  | MovImD sz v addr => asm_mov_imd sz v addr
  | Movx sx s d => asm_movszx sx s d
  | LeaIR off b d => Bytes (asm_ind 0x8c off b d)
  | LeaRipR d => Bytes (asm_rip 0x8d d)
  | LeaIIR off b i sc d => asm_lea_iir off b i sc d
  | AluRR o s d => Bytes (asm_rr (alu_rr o) (match o with And | Or | Xor => size d | _ => size s end) s d)
  | AluImR Add v d => asm_addsub_imr 0x04 0xc0 v d
  | AluImR Sub v d => asm_addsub_imr 0x2c 0xe8 v d
  | AluImR And v d => asm_and_imr 0x24 0xe0 v d
  | AluImR Or v d => asm_and_imr 0x0c 0xc8 v d
  | AluImR Xor v d => asm_and_imr 0x34 0xf0 v d
  | AluImR Cmp v d => asm_cmp_imr v d
  | AluIR sub off b d => Bytes (asm_ind (if sub then 0x2a else 0x02) off b d)
  | AluIIR sub off b i sc d => asm_bop_iir (if sub then 0x2b else 0x03) off b i sc d
  | AluQ sub v off b => asm_bopq_imi (if sub then 0x28 else 0) v off b
  | Mul r => Bytes (asm_mul 0xe0 r) | Div r => Bytes (asm_mul 0xf0 r) | Idiv r => Bytes (asm_mul 0xf8 r)
  | Neg r => Bytes (asm_neg 0xd8 r) | Not r => Bytes (asm_neg 0xd0 r)
  | Inc r => Bytes (asm_inc 0xc0 r) | Dec r => Bytes (asm_inc 0xc8 r)
  | IncI sz off b => Bytes (asm_inc_i 0 0 sz off b) | DecI sz off b => Bytes (asm_inc_i 1 8 sz off b)
  | ShiftCl o d => Bytes (asm_shift_cl (shift_ext o) d)
  | ShiftIm o v d => asm_shift_im (shift_ext o) v d
  | Test s d => Bytes (asm_rr 0x84 (size s) s d)
  | Cwtl => Bytes [0x98] | Cltd => Bytes [0x99] | Cqto => Bytes [0x48; 0x99]
  | SetCc cc r => Bytes (asm_set cc r)
  | JmpD => Bytes (0xeb :: im 1 0)
  | JmpDer r => Bytes (asm_jmp_der 0xe0 r)
  | JmpDei off b => asm_jmp_dei off b
  | JmpDeii off b i sc => asm_jmp_deii off b i sc
  | JccD cc => Bytes (0x70 + cc :: im 1 0)
  | CallD => Bytes (0xe8 :: im 4 0)
  | CallDer r => Bytes (asm_jmp_der 0xd0 r)
  | Ret => Bytes [0xc3]
  | PushR r => Bytes (asm_push_r 0x50 r)
  | PushIm v => asm_push_im v
  | Pop r => Bytes (asm_push_r 0x58 r)
  | IntIm v => Bytes (0xcd :: im 1 v)
  | Syscall => Bytes [0x0f; 0x05]
  | Endbr64 => Bytes [0xf3; 0x0f; 0x1e; 0xfa]
  | MovsXX single s d => Bytes (asm_xx (pr single) 0x10 s d)
  | MovsIX single off b d => asm_movs_mem single 0x10 off b d
  | MovsXI single s off b => asm_movs_mem single 0x11 off b s
  | Fop o single s d => Bytes (asm_xx (pr single) (fop_op o) s d)
  | Sqrtsd s d => Bytes (asm_xx 0xf2 0x51 s d)
  | Xorp single s d => Bytes (asm_xx (pr66 single) 0x57 s d)
  | Comis u single s d => Bytes (asm_xx (pr66 single) (if u then 0x2e else 0x2f) s d)
  | Cvtsi2s single s d => Bytes (asm_cvt single 0x2a (size s) (regno s) d)
  | Cvtts2si single s d => Bytes (asm_cvt single 0x2c (size d) s (regno d))
  | Cvts2s single s d => Bytes (asm_xx (pr single) 0x5a s d)
  end.

(** asm_code.h 19: the room for the bytes of an instruction. *)
Definition room : nat := 14.

(** parse_x64.c 207-254, 322-345, inst.h 67-91: registers the parser makes. *)
Definition reg_ok (r : reg) : bool :=
  (0 <=? size r) && (size r <=? 3) && (0 <=? no r) && (no r <=? 7) && (0 <=? x r) &&
  ((x r <=? 1) || ((x r =? 2) && (size r =? 0) && (4 <=? no r))).
Definition r64 (r : reg) : bool := reg_ok r && (size r =? 3).
Definition xmm_ok (n : Z) : bool := (0 <=? n) && (n <=? 15).
Definition size_ok (sz : Z) : bool := (0 <=? sz) && (sz <=? 3).
Definition cc_ok (cc : Z) : bool := (0 <=? cc) && (cc <=? 15).
Definition rr (s d : reg) : bool := reg_ok s && reg_ok d && (size s =? size d).

(** parse_x64.c 491-693: the operands an instruction is parsed with. *)
Definition parsed (i : inst) : bool :=
  match i with
  | MovRR s d | AluRR _ s d | Test s d => rr s d
  | MovImR _ d | MovRipR d | MovDR d | MovRD d | AluImR _ _ d | ShiftCl _ d | ShiftIm _ _ d
  | Mul d | Div d | Idiv d | Neg d | Not d | Inc d | Dec d => reg_ok d
  | MovSR _ d | LeaRipR d | JmpDer d | CallDer d | PushR d | Pop d => r64 d
  | MovIR _ b d | MovRI d _ b | AluIR _ _ b d => r64 b && reg_ok d
  | MovIIR _ b i _ d | AluIIR _ _ b i _ d => r64 b && r64 i && reg_ok d
  | MovImI sz _ _ b | IncI sz _ b | DecI sz _ b => size_ok sz && r64 b
  | MovImD sz _ _ => size_ok sz
  | Movx _ s d => reg_ok s && reg_ok d && (size s <? size d)
  | LeaIR _ b d => r64 b && r64 d
  | LeaIIR _ b i _ d => r64 b && r64 i && r64 d
  | AluQ _ _ _ b | JmpDei _ b => r64 b
  | JmpDeii _ b i _ => r64 b && r64 i
  | SetCc cc r => cc_ok cc && reg_ok r && (size r =? 0)
  | JccD cc => cc_ok cc
  | MovsXX _ s d | Fop _ _ s d | Sqrtsd s d | Xorp _ s d | Comis _ _ s d | Cvts2s _ s d => xmm_ok s && xmm_ok d
  | MovsIX _ _ b d | MovsXI _ d _ b => r64 b && xmm_ok d
  | Cvtsi2s _ s d | Cvtts2si _ d s => reg_ok s && (2 <=? size s) && xmm_ok d
  | Cwtl | Cltd | Cqto | JmpD | CallD | Ret | PushIm _ | IntIm _ | Syscall | Endbr64 => true
  end.
