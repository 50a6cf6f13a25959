(** libsrc/stdio/fmemopen.c, open_memstream.c, vsnprintf.c, sprintf.c.

    A memory stream works on a buffer [wbuf] that is either the caller's memory
    or comes from realloc.  [alloc n] tells whether realloc of [n] bytes
    succeeds, [junk] is the content of fresh bytes.  A write outside the buffer
    is [None]. *)
From stdpp Require Import base list numbers.
From Verif Require Import Lib.Printf_model.
Local Open Scope Z_scope.

Record mfile := MFile { wbuf : list Z; wp : Z; wcapa : Z; growmem : bool }.

Definition poke (m : list Z) (i v : Z) : option (list Z) :=
  if decide (0 <= i < Z.of_nat (length m)) then Some (<[Z.to_nat i := v]> m) else None.

(** libsrc/stdio/fmemopen.c:12-22 _growmem: [newsiz] is an int; realloc keeps
    the common prefix. *)
Definition grow (alloc : Z -> bool) (junk : Z) (f : mfile) : option mfile :=
  let newsiz := to_s32 (to_u32 (wcapa f * 2)) in
  let newsiz := if decide (newsiz < 16) then 16 else newsiz in
  if alloc newsiz then
    let n := Z.to_nat newsiz in
    Some (MFile (take n (wbuf f) ++ replicate (n - length (wbuf f)) junk) (wp f) newsiz (growmem f))
  else None.

(** libsrc/stdio/fmemopen.c:40-50 _memwrite; its result is always [size]. *)
Fixpoint memwrite (alloc : Z -> bool) (junk : Z) (f : mfile) (buf : list Z) : option mfile :=
  match buf with
  | [] => Some f
  | c :: buf =>
    let store f :=
      b ← poke (wbuf f) (wp f) c;
      memwrite alloc junk (MFile b (to_u32 (wp f + 1)) (wcapa f) (growmem f)) buf in
    if decide (wcapa f <= to_u32 (wp f + 1)) then
      if growmem f then match grow alloc junk f with Some f => store f | None => Some f end
      else Some f
    else store f
  end.

(** libsrc/stdio/fmemopen.c:52-58 _memflush. *)
Definition memflush (f : mfile) : option mfile :=
  if decide (wp f < wcapa f) then
    b ← poke (wbuf f) (wp f) 0; Some (MFile b (wp f) (wcapa f) (growmem f))
  else Some f.

(** libsrc/stdio/vsnprintf.c:5-13 with fmemopen.c:88-126 and 80-86: the
    caller's memory after the call, and the result.  [n] is a size_t, wcapa an
    unsigned int.  vfprintf sends its output in several writes; see
    [memwrite_app]. *)
Definition vsnprintf (out : list Z) (n : Z) (fmt : list Z) (args : list arg) : option (list Z * Z) :=
  let fp := MFile out 0 (to_u32 n) false in
  '(text, result) ← vfprintf fmt args;
  fp ← memwrite (fun _ => false) 0 fp text;
  fp ← memflush fp;
  Some (wbuf fp, result).

(** libsrc/stdio/sprintf.c:4-11. *)
Definition sprintf (out : list Z) (fmt : list Z) (args : list arg) : option (list Z * Z) :=
  vsnprintf out (2^64 - 1) fmt args.

(** open_memstream.c:8-37: the stream and what it published through
    [*ptr] (None is NULL) and [*sizeloc]. *)
Record memstream := MemStream { file : mfile; published : option (option (list Z) * Z) }.
Definition open_memstream : memstream := MemStream (MFile [] 0 0 true) None.

(** open_memstream.c:14-25 _memflush2.  wbuf is NULL as long as it has never
    been allocated, that is as long as wcapa is 0. *)
Definition memflush2 (s : memstream) : option memstream :=
  f ← memflush (file s);
  Some (MemStream f (Some (if decide (wcapa f = 0) then None else Some (wbuf f), wp f))).

Inductive mop := MWrite (data : list Z) | MFlush.
Fixpoint run (alloc : Z -> bool) (junk : Z) (s : memstream) (ops : list mop) : option memstream :=
  match ops with
  | [] => Some s
  | MWrite d :: ops => f ← memwrite alloc junk (file s) d; run alloc junk (MemStream f (published s)) ops
  | MFlush :: ops => s ← memflush2 s; run alloc junk s ops
  end.

(** A whole session: the operations, then fclose (_memclose flushes). *)
Definition session (alloc : Z -> bool) (junk : Z) (ops : list mop) : option (option (option (list Z) * Z)) :=
  s ← run alloc junk open_memstream ops; s ← memflush2 s; Some (published s).
