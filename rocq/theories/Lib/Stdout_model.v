(** libsrc/stdio/_file.c (output), fwrite.c, fputc.c, fputs.c, puts.c, fflush.c.

    [wbuf] holds the bytes [0 .. wp) of the stream's buffer.  The OS answers
    each write(2) with one event.  A store outside the buffer and a division by
    zero are [None]. *)
From stdpp Require Import base list numbers.
Local Open Scope Z_scope.

(** The result of write(2): everything, [k] bytes only, or an error. *)
Inductive wevent := WFull | WShort (k : nat) | WFail.

Record ofile := OFile { wbuf : list Z; wcapa : nat; binary : bool; writable : bool }.
(** What reached the file, and the OS's coming answers. *)
Record os := Os { written : list Z; answers : list wevent }.
Definition st := (ofile * os)%type.

(** write(2): the OS state and the result; with no answer left everything is
    accepted.  A short write takes fewer bytes than asked. *)
Definition os_write (o : os) (bytes : list Z) : os * Z :=
  let n := length bytes in
  match answers o with
  | [] => (Os (written o ++ bytes) [], Z.of_nat n)
  | WFull :: es => (Os (written o ++ bytes) es, Z.of_nat n)
  | WShort k :: es => let k := Nat.min k (n - 1) in (Os (written o ++ take k bytes) es, Z.of_nat k)
  | WFail :: es => (Os (written o) es, -1)
  end.

(** libsrc/stdio/_file.c:102-113 _fflush; [true] is success. *)
Definition fflush (s : st) : st * bool :=
  let '(f, o) := s in
  if writable f then
    match wbuf f with
    | [] => (s, true)
    | _ =>
      let '(o, r) := os_write o (wbuf f) in
      if decide (r <> Z.of_nat (length (wbuf f))) then ((f, o), false)
      else ((OFile [] (wcapa f) (binary f) (writable f), o), true)
    end
  else (s, true).

(** libsrc/stdio/_file.c:90-99: the loop; [i] counts the bytes done. *)
Fixpoint fwrite_loop (s : st) (buf : list Z) (i : Z) : option (st * Z) :=
  match buf with
  | [] => Some (s, i)
  | c :: buf =>
    let '(f, o) := s in
    if decide (length (wbuf f) < wcapa f)%nat then
      let f := OFile (wbuf f ++ [c]) (wcapa f) (binary f) (writable f) in
      if bool_decide (wcapa f <= length (wbuf f))%nat || (bool_decide (c = 10) && negb (binary f)) then
        let '(s, ok) := fflush (f, o) in
        if ok then fwrite_loop s buf (i + 1) else Some (s, i)
      else fwrite_loop (f, o) buf (i + 1)
    else None
  end.

(** libsrc/stdio/_file.c:84-100 _fwrite. *)
Definition fwrite1 (s : st) (buf : list Z) : option (st * Z) :=
  if decide (wcapa s.1 <= length (wbuf s.1))%nat then
    let '(s, ok) := fflush s in
    if ok then fwrite_loop s buf 0 else Some (s, -1)
  else fwrite_loop s buf 0.

(** libsrc/stdio/fwrite.c:6-12; [buf] are the size * count bytes. *)
Definition fwrite (s : st) (size : Z) (buf : list Z) : option (st * Z) :=
  if writable s.1 then
    '(s, r) ← fwrite1 s buf;
    if decide (0 <= r) then (if decide (size = 0) then None else Some (s, r / size)) else Some (s, 0)
  else Some (s, 0).

(** libsrc/stdio/fputc.c:8-13 with _file.h:48-52. *)
Definition fputc (s : st) (c : Z) : option (st * Z) :=
  if writable s.1 then
    '(s, r) ← fwrite1 s [c mod 256]; Some (s, if decide (r = 1) then c mod 256 else -1)
  else Some (s, -1).

(** libsrc/stdio/fputs.c:5-8. *)
Definition fputs (s : st) (str : list Z) : option (st * Z) :=
  '(s, r) ← fwrite s 1 str; Some (s, if decide (r <> 0) then r else -1).

(** libsrc/stdio/puts.c:5-11 (putchar is fputc on stdout). *)
Definition puts (s : st) (str : list Z) : option (st * Z) :=
  '(s, r) ← fputs s str;
  if decide (0 <= r) then fputc s 10 else Some (s, r).

(** A client: writes of whole buffers and flushes, with their results. *)
Inductive op := Write (data : list Z) | Flush.
Fixpoint run (s : st) (ops : list op) : option (st * list Z) :=
  match ops with
  | [] => Some (s, [])
  | Write d :: ops => '(s, r) ← fwrite s 1 d; '(s, rs) ← run s ops; Some (s, r :: rs)
  | Flush :: ops => let '(s, ok) := fflush s in '(s, rs) ← run s ops; Some (s, (if ok then 0 else -1) :: rs)
  end.

(** A stream opened for writing (fdopen.c:22-69, stdin.c:37-39). *)
Definition opened (capa : nat) (bin : bool) (es : list wevent) : st := (OFile [] capa bin true, Os [] es).
