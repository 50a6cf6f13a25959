(** libsrc/stdlib/getenv.c, libsrc/misc/basename.c and dirname.c on the memory of
    Cmem.v, with strlen, strncmp and strrchr of String_model.v.  [None] is
    undefined behaviour (or fuel exhausted), inner [None] is NULL. *)
From stdpp Require Import base list numbers gmap.
From Verif Require Import Lib.Cmem Lib.String_model.
Local Open Scope Z_scope.

(** getenv.c:14-16: [ptrs] are the words from [pp] to the end of the array. *)
Fixpoint getenv_loop (m : mem) (ptrs : list Z) (name : Z) (len : nat) : option (option Z) :=
  match ptrs with
  | [] => None
  | p :: ptrs =>
    if decide (p = 0) then Some None
    else
      d ← strncmp m p name len;
      if decide (d = 0) then
        b ← read m (p + Z.of_nat len);
        if decide (schar b = 61) then Some (Some (p + Z.of_nat len + 1))
        else getenv_loop m ptrs name len
      else getenv_loop m ptrs name len
  end.
(** getenv.c:4-19; [environ] is NULL or an array of pointers. *)
Definition getenv (fuel : nat) (m : mem) (environ : option (list Z)) (name : Z) : option (option Z) :=
  match environ with
  | None => Some None
  | Some ptrs => len ← strlen fuel m name; getenv_loop m ptrs name (Z.to_nat len)
  end.

(** basename.c is [String_model.basename]. *)
(** dirname.c:4-11: a pointer into memory, or to the constant [.]; and the memory. *)
Inductive dir := At (p : Z) | Dot.
Definition dirname (fuel : nat) (m : mem) (path : Z) : option (dir * mem) :=
  r ← strrchr fuel m path 47;
  match r with
  | Some p => m ← write m p 0; Some (At path, m)
  | None => Some (Dot, m)
  end.
