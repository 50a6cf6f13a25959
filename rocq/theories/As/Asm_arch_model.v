(** What [resolve_relative_address] does for one instruction, for the three architectures.

    Only the instructions it looks at are told apart; all others are [XOther], [AOther], [ROther]. *)
From stdpp Require Import base list numbers gmap.
From Verif Require Import As.Asm_model.
From Verif Require As.Rv_model.
Open Scope Z_scope.

(** The bytes of a number, lowest first. *)
Definition le (size : nat) (x : Z) : list Z := (fun i => Z.land (Z.shiftr x (8 * Z.of_nat i)) 255) <$> seq 0 size.
(** Bytes written over those from [d] on. *)
Definition put (d : nat) (bs buf : list Z) : list Z := take d buf ++ bs ++ drop (d + length bs) buf.
(** The number in the first bytes of a buffer. *)
Definition word (size : nat) (bs : list Z) : Z := foldr (fun b w => b + 256 * w) 0 (take size bs).

(** ** x64, ir_asm_x64.c *)

(** Jumps with a condition are numbered from [JO] (inst.h:42-43).  [XGot] is a load through the
    instruction pointer, [XLea] an address relative to it. *)
Inductive xinst := XJmp (v : value) | XJcc (cc : Z) (v : value) | XCall (v : value) | XLea (v : value) | XGot (v : value) | XOther.

(** asm_code.c:1414-1417, 1493-1501 *)
Definition x64_asm (i : xinst) : option (code xinst) :=
  match i with
  | XJmp _ => Some (Code i false [0xeb; 0])
  | XJcc cc _ => Some (Code i false [0x70 + cc; 0])
  | XCall _ => Some (Code i false [0xe8; 0; 0; 0; 0])
  | _ => None
  end.

(** util.c:301-311 *)
Definition is_im8 (x : Z) : bool := (x <=? 127) && (-128 <=? x).
Definition is_im32 (x : Z) : bool := (x <=? 2 ^ 31 - 1) && (- 2 ^ 31 <=? x).

(** ir_asm_x64.c:104-118 *)
Definition x64_long (c : code xinst) : code xinst :=
  match inst c with
  | XJcc cc _ => Code (inst c) true [0x0f; 0x80 + cc; 255; 255; 255; 255]
  | _ => Code (inst c) true [0xe9; 255; 255; 255; 255]
  end.
Definition x64_make_long (c : code xinst) : code xinst * bool := if long c then (c, false) else (x64_long c, true).

(** ir_asm_x64.c:200-218: [target] is the value of [value.offset] at this point. *)
Definition x64_patch (a target : Z) (c : code xinst) : option (stepped xinst) :=
  let offset := s64 (target - (a + Z.of_nat (length (buf c)))) in
  if long c then
    if is_im32 offset then
      let d := match inst c with XJcc _ _ => 2%nat | _ => 1%nat end in
      Some (Stepped (Code (inst c) true (put d (le 4 offset) (buf c))) None false [])
    else None
  else if is_im8 offset then Some (Stepped (Code (inst c) false (put 1 (le 1 offset) (buf c))) None false [])
  else let '(c, up) := x64_make_long c in Some (Stepped c None up []).

(** ir_asm_x64.c:134-238 *)
Definition x64_step (t : table) (last : option nat) (st a : Z) (c : code xinst) : option (stepped xinst) :=
  let keep us := Some (Stepped c None false us) in
  match inst c with
  | XGot v =>
    match vlab v with
    | Some n => match t !! n with None => keep [Unres UGotLoad n (u64 (a + 3 - st)) (s32 (vofs v - 4))] | Some _ => keep [] end
    | None => keep []
    end
  | XLea v =>
    match vlab v with
    | Some n => keep [Unres UPc32 n (u64 (a + 3 - st)) (s32 (vofs v - 4))]
    | None => Some (Stepped (Code (inst c) (long c) (put 3 (le 4 (vofs v - (a + Z.of_nat (length (buf c))))) (buf c))) None false [])
    end
  | XJmp v | XJcc _ v =>
    match vlab v with
    | None => x64_patch a (vofs v) c
    | Some n =>
      match t !! n with
      | Some b => x64_patch a (s64 (vofs v + b)) c
      | None =>
        let '(c, up) := x64_make_long c in
        Some (Stepped c None up [Unres UExtern n (u64 (a + 1 - st)) (s32 (vofs v - 4))])
      end
    end
  | XCall v =>
    match vlab v with
    | Some n => keep [Unres UExtern n (u64 (a + 1 - st)) (s32 (vofs v - 4))]
    | None => Some (Stepped (Code (inst c) (long c) (put 1 (le 4 (vofs v - (a + Z.of_nat (length (buf c))))) (buf c))) None false [])
    end
  | XOther => keep []
  end.

(** ** aarch64, ir_asm_aarch64.c *)

(** Conditions are numbered from [BEQ] (inst.h:28-29).  [ARef] is an address or memory
    instruction with the relocation its operand asks for. *)
Inductive ainst := AB (v : value) | ABcc (cc : Z) (v : value) | ABl (v : value) | ARef (k : ukind) (v : value) | AOther.

(** asm_code.c:392-415, aarch64_code.h:51-55 *)
Definition a64_asm (i : ainst) : option (code ainst) :=
  match i with
  | AB _ => Some (Code i false (le 4 0x14000000))
  | ABcc cc _ => Some (Code i false (le 4 (Z.lor 0x54000000 cc)))
  | ABl _ => Some (Code i false (le 4 0x94000000))
  | _ => None
  end.

(** ir_asm_aarch64.c:215-234 *)
Definition a64_patch (a target : Z) (c : code ainst) : option (stepped ainst) :=
  let offset := s64 (target - a) in
  let w := word 4 (buf c) in
  let set w' := Some (Stepped (Code (inst c) (long c) (put 0 (le 4 w') (buf c))) None false []) in
  match inst c with
  | AB _ =>
    if (2 ^ 27 <=? offset) || (offset <? - 2 ^ 27) || negb (Z.land offset 3 =? 0) then None
    else set (Z.lor (Z.land w 0xfc000000) (Z.land (Z.shiftr offset 2) (2 ^ 26 - 1)))
  | _ =>
    if (2 ^ 20 <=? offset) || (offset <? - 2 ^ 20) || negb (Z.land offset 3 =? 0) then None
    else set (Z.lor (Z.land w 0xff00001f) (Z.shiftl (Z.land offset (2 ^ 21 - 1)) 3))
  end.

(** ir_asm_aarch64.c:104-253 *)
Definition a64_step (t : table) (last : option nat) (st a : Z) (c : code ainst) : option (stepped ainst) :=
  let keep us := Some (Stepped c None false us) in
  let ref k v := match vlab v with Some n => keep [Unres k n (u64 (a - st)) (s32 (vofs v))] | None => keep [] end in
  match inst c with
  | AB v | ABcc _ v =>
    match vlab v with
    | None => a64_patch a (vofs v) c
    | Some n => match t !! n with Some b => a64_patch a (s64 (vofs v + b)) c | None => None end
    end
  | ABl v => ref UCall v
  | ARef k v => ref k v
  | AOther => keep []
  end.

(** ** riscv64, ir_asm_riscv64.c *)
Notation brop := Rv_model.brop (only parsing).
Inductive rinst := RB (o : brop) (rs1 rs2 : Z) (v : value) | RJ (v : value) | RLa (v : value) | RCall (v : value) | ROther.

(** asm_code.c:408-423 *)
Definition rv_bxx (o : brop) (rs1 rs2 : Z) (v : value) : code rinst :=
  let b := Rv_model.asm_bxx o rs1 rs2 in Code (RB o rs1 rs2 v) (length b =? 4)%nat b.
(** asm_code.c:383-387 *)
Definition rv_j (v : value) : code rinst := Code (RJ v) false Rv_model.C_J.
(** ir_asm_riscv64.c:110-145 *)
Definition rv_jal (v : value) : code rinst := Code (RJ v) true (Rv_model.W (Rv_model.W_JAL_word 0 0)).
Definition rv_bxx_long (o : brop) (s : Z) (v : value) (rs1 rs2 : Z) : code rinst :=
  let rs := Z.land (Z.shiftr s 7) 7 + 8 in
  Code (RB o rs1 rs2 v) true (Rv_model.W (Rv_model.W_BXX_word o rs 0 0)).

(** ir_asm_riscv64.c:317: ((inst->op - BEQ) ^ 1) + BEQ *)
Definition inverse (o : brop) : brop :=
  match o with
  | Rv_model.BEQ => Rv_model.BNE | Rv_model.BNE => Rv_model.BEQ | Rv_model.BLT => Rv_model.BGE
  | Rv_model.BGE => Rv_model.BLT | Rv_model.BLTU => Rv_model.BGEU | Rv_model.BGEU => Rv_model.BLTU
  end.

(** [label_info->address + value.offset], 0 if there is no such label *)
Definition rv_target (t : table) (v : value) (n : nat) : Z :=
  match t !! n with Some b => u64 (b + vofs v) | None => 0 end.

Definition within (offset k : Z) : bool := (offset <? 2 ^ k) && (- 2 ^ k <=? offset).

(** ir_asm_riscv64.c:218-268 *)
Definition rv_step_j (t : table) (st a : Z) (v : value) (c : code rinst) : option (stepped rinst) :=
  match vlab v with
  | None => Some (Stepped c None false [])
  | Some n =>
    let us := [Unres (if long c then UJal else URvcJump) n (u64 (a - st)) (s32 (vofs v))] in
    let target := rv_target t v n in
    if target =? 0 then Some (Stepped c None false us)
    else
      let offset := s64 (target - a) in
      if long c then
        if within offset 20 then
          let w := word 4 (buf c) in
          Some (Stepped (Code (inst c) true (put 0 (le 4 (Z.lor (Z.land w 0x7ff) (Rv_model.SWIZZLE_JAL offset))) (buf c))) None false us)
        else None
      else if within offset 11 then
        let w := word 2 (buf c) in
        Some (Stepped (Code (inst c) false (put 0 (le 2 (Z.lor (Z.land w 0xe383) (Rv_model.SWIZZLE_C_J offset))) (buf c))) None false us)
      else Some (Stepped (rv_jal v) None true us)
  end.

(** ir_asm_riscv64.c:270-347 *)
Definition rv_step_b (t : table) (st a : Z) (o : brop) (rs1 rs2 : Z) (v : value) (c : code rinst) : option (stepped rinst) :=
  let '(target, us) :=
    match vlab v with
    | Some n =>
      let target := rv_target t v n in
      let comp := (rs2 =? 0) && Rv_model.is_rvc_reg rs1 && match o with Rv_model.BEQ | Rv_model.BNE => true | _ => false end
                  && within (s64 (target - a)) 8 in
      (target, [Unres (if comp then URvcBranch else UBranch) n (u64 (a - st)) (s32 (vofs v))])
    | None => (u64 (a + vofs v), [])
    end in
  if target =? 0 then Some (Stepped c None false us)
  else
    let offset := s64 (target - a) in
    if long c then
      if within offset 12 then
        let w := word 4 (buf c) in
        Some (Stepped (Code (inst c) true (put 0 (le 4 (Z.lor (Z.land w 0x01fff07f) (Rv_model.SWIZZLE_BXX offset))) (buf c))) None false us)
      else
        let inv := Rv_model.asm_bxx (inverse o) rs1 rs2 in
        let skip := Value None (Z.of_nat (length inv) + 4) in
        Some (Stepped (rv_bxx (inverse o) rs1 rs2 skip) (Some (rv_jal v)) true us)
    else
      let w := word 2 (buf c) in
      if negb (Z.land w 0xc003 =? 0xc001) then None
      else if within offset 8 then
        Some (Stepped (Code (inst c) false (put 0 (le 2 (Z.lor (Z.land w 0xe383) (Rv_model.SWIZZLE_C_BXX offset))) (buf c))) None false us)
      else match o with
        | Rv_model.BEQ | Rv_model.BNE => Some (Stepped (rv_bxx_long o w v rs1 rs2) None true us)
        | _ => None
        end.

(** ir_asm_riscv64.c:165-375 *)
Definition rv_step (t : table) (last : option nat) (st a : Z) (c : code rinst) : option (stepped rinst) :=
  let keep us := Some (Stepped c None false us) in
  match inst c with
  | RLa v =>
    match vlab v with
    | None => keep []
    | Some n =>
      match last with
      | None => None
      | Some hi =>
        let o := u64 (a - st) in let add := s32 (vofs v) in
        keep [Unres UPcrelHi n o add; Unres URelax n o add; Unres UPcrelLo hi (u64 (o + 4)) 0; Unres URelax hi (u64 (o + 4)) 0]
      end
    end
  | RJ v => rv_step_j t st a v c
  | RB o rs1 rs2 v => rv_step_b t st a o rs1 rs2 v c
  | RCall v =>
    match vlab v with
    | None => keep []
    | Some n => let o := u64 (a - st) in let add := s32 (vofs v) in keep [Unres UCall n o add; Unres URelax n o add]
    end
  | ROther => keep []
  end.
