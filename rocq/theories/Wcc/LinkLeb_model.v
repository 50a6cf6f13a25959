(** The LEB128 readers of the wasm linker, src/wcc/wasm_linker.c:28-57.

    [(byte & 0x7f) << shift] is computed in [int]: undefined ([None]) when the
    shift amount reaches 32 or the result does not fit 31 bits (C11 6.5.7p4).
    Reading past the given bytes is also [None]. *)
From stdpp Require Import base list numbers.
Local Open Scope Z_scope.

Definition int_shl (x shift : Z) : option Z :=
  if decide (shift < 32 /\ x * 2^shift < 2^31) then Some (x * 2^shift) else None.

(** src/wcc/wasm_linker.c:45-57 read_uleb128. *)
Fixpoint read_uleb_loop (p : list Z) (result shift : Z) : option (Z * list Z) :=
  match p with
  | [] => None
  | byte :: p =>
    x ← int_shl (Z.land byte 127) shift;
    let result := Z.lor result x in
    if decide (Z.land byte 128 = 0) then Some (result, p)
    else read_uleb_loop p result (shift + 7)
  end.
Definition read_uleb128 (p : list Z) : option (Z * list Z) := read_uleb_loop p 0 0.

(** src/wcc/wasm_linker.c:28-43 read_leb128. *)
Fixpoint read_leb_loop (p : list Z) (result shift : Z) : option (Z * list Z) :=
  match p with
  | [] => None
  | byte :: p =>
    x ← int_shl (Z.land byte 127) shift;
    let result := Z.lor result x in
    if decide (Z.land byte 128 = 0) then
      Some (if decide (Z.land byte 64 <> 0) then result - 2^shift else result, p)
    else read_leb_loop p result (shift + 7)
  end.
Definition read_leb128 (p : list Z) : option (Z * list Z) := read_leb_loop p 0 0.
