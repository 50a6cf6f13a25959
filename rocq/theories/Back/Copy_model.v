(** Copying an object: the loop the compiler emits for a structure that is assigned, returned or
    passed.  Memory is a list of bytes; pointers and the counter are 64-bit registers. *)
From stdpp Require Import base list numbers.
From Verif Require Import Front.Static_model Front.Local_model.
Local Open Scope Z_scope.

Definition reg (z : Z) : Z := z mod 2 ^ 64.

(** IR_LOAD and IR_STORE of 2^v bytes (ir.h), little endian. *)
Definition load (v a : Z) (m : list Z) : Z := number_at (take (Z.to_nat (2 ^ v)) (drop (Z.to_nat a) m)).
Definition store (v a x : Z) (m : list Z) : list Z := put a (le (Z.to_nat (2 ^ v)) x) m.

(** codegen.c:231-239: the body first, then the test; None when the fuel is used up. *)
Fixpoint copy_loop (fuel : nat) (v dstp srcp count : Z) (m : list Z) : option (list Z) :=
  match fuel with
  | O => None
  | S fuel =>
    let tmp := load v srcp m in
    let srcp := reg (srcp + 2 ^ v) in
    let m := store v dstp tmp m in
    let dstp := reg (dstp + 2 ^ v) in
    let count := reg (count - 1) in
    if count =? 0 then Some m else copy_loop fuel v dstp srcp count m
  end.

(** codegen.c:209-241 (gen_memcpy), for a type of this size and alignment; the assertions of
    codegen.c:195,205,215 give None. *)
Definition copy (fuel : nat) (size align dst src : Z) (m : list Z) : option (list Z) :=
  if size =? 0 then Some m
  else
    let e := elem_size size align in
    if e <=? 0 then None
    else
      let v := Z.log2 e in
      let count := Z.shiftr size v in
      if count <=? 0 then None
      else if count =? 1 then Some (store v dst (load v src m) m)
      else copy_loop fuel v dst src count m.
