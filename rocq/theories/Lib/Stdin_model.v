(** libsrc/stdio/_file.c (input), fread.c, fgetc.c, ungetc.c, fgets.c,
    getline.c, fseek.c, ftell.c, feof.c, for a stream opened for reading.

    The file is its content and the OS's position.  [rbuf] holds the bytes
    [0 .. rs) of the stream's buffer.  Undefined behaviour is [None]. *)
From stdpp Require Import base list numbers.
Local Open Scope Z_scope.

(** The OS's answer to read(2): as much as there is, at most [k + 1] bytes, or
    an error.  As read(2) promises, nothing is returned only at the end. *)
Inductive revent := RFull | RShort (k : nat) | RFail.

Record ifile := IFile {
  content : list Z; off : nat; answers : list revent;   (* the OS *)
  rbuf : list Z; rp : nat; rcapa : nat; unget : option Z; eof : bool; fifo : bool }.

(** read(2) of at most [n] bytes; [None] is -1. *)
Definition os_read (f : ifile) (n : nat) : ifile * option (list Z) :=
  let avail := take n (drop (off f) (content f)) in
  let set es got := IFile (content f) (off f + length got) es (rbuf f) (rp f) (rcapa f) (unget f) (eof f) (fifo f) in
  match answers f with
  | [] => (set [] avail, Some avail)
  | RFull :: es => (set es avail, Some avail)
  | RShort k :: es => (set es (take (S k) avail), Some (take (S k) avail))
  | RFail :: es => (set es [], None)
  end.

Definition set_buf (f : ifile) (b : list Z) (p : nat) : ifile :=
  IFile (content f) (off f) (answers f) b p (rcapa f) (unget f) (eof f) (fifo f).
Definition set_eof (f : ifile) (e : bool) : ifile :=
  IFile (content f) (off f) (answers f) (rbuf f) (rp f) (rcapa f) (unget f) e (fifo f).
Definition set_unget (f : ifile) (u : option Z) : ifile :=
  IFile (content f) (off f) (answers f) (rbuf f) (rp f) (rcapa f) u (eof f) (fifo f).

(** libsrc/stdio/_file.c:10-12 FILE_IS_END. *)
Definition is_end (f : ifile) (len : nat) : bool := negb (fifo f) || bool_decide (len = 0%nat).

(** libsrc/stdio/_file.c:35-82 _fread: the bytes stored.  [fifo] stands for
    the result of _finit.  When read(2) fails on the buffered path, memcpy gets
    the length (size_t)-1: undefined.  rcapa * 3 does not wrap (it is 256). *)
Definition fread1 (f : ifile) (total : nat) : option (ifile * list Z) :=
  let d := (length (rbuf f) - rp f)%nat in
  if decide (rbuf f <> [] /\ (total <= d)%nat) then
    let got := take total (drop (rp f) (rbuf f)) in
    let p := (rp f + total)%nat in
    Some (if decide (length (rbuf f) <= p)%nat then (set_buf f [] 0, got) else (set_buf f (rbuf f) p, got))
  else
    let first := if decide (rbuf f <> []) then drop (rp f) (rbuf f) else [] in
    let total := if decide (rbuf f <> []) then (total - d)%nat else total in
    if decide (total < rcapa f * 3 / 4)%nat then
      let '(f, r) := os_read f (rcapa f) in
      match r with
      | None => None
      | Some b =>
        let len := length b in
        let n := Nat.min len total in
        let f := set_buf f b n in
        let f := if bool_decide (len < rcapa f)%nat && bool_decide (n = len) && is_end f len
                 then set_eof f true else f in
        Some (f, first ++ take n b)
      end
    else
      let '(f, r) := os_read f total in
      match r with
      | None => Some (f, first)
      | Some b =>
        let len := length b in
        let f := set_buf f [] 0 in
        let f := if bool_decide (len < total)%nat && is_end f len then set_eof f true else f in
        Some (f, first ++ b)
      end.

(** libsrc/stdio/fread.c:5-10: the bytes stored and the result; a size of 0
    divides by zero.  size * count fits size_t. *)
Definition fread (f : ifile) (size count : nat) : option (ifile * list Z * nat) :=
  '(f, l) ← fread1 f (size * count);
  if decide (size = 0%nat) then None else Some (f, l, (length l / size)%nat).

(** libsrc/stdio/fgetc.c:5-15; None inside is EOF. *)
Definition fgetc (f : ifile) : option (ifile * option Z) :=
  match unget f with
  | Some c => Some (set_unget f None, Some c)
  | None => '(f, l) ← fread1 f 1; Some (f, match l with [c] => Some c | _ => None end)
  end.

(** libsrc/stdio/ungetc.c:5-11 (EOF is -1, and marks "nothing pushed back"). *)
Definition ungetc (f : ifile) (c : Z) : ifile :=
  set_eof (set_unget f (if decide (c = -1) then None else Some c)) false.

(** libsrc/stdio/fgets.c:3-18: [n] characters at most (already decremented);
    the line read, None for NULL. *)
Fixpoint fgets_loop (f : ifile) (n : nat) (acc : list Z) : option (ifile * list Z) :=
  match n with
  | O => Some (f, acc)
  | S n =>
    '(f, c) ← fgetc f;
    match c with
    | None => Some (f, acc)
    | Some c => if decide (c = 10) then Some (f, acc ++ [c]) else fgets_loop f n (acc ++ [c])
    end
  end.
Definition fgets (f : ifile) (n : nat) : option (ifile * option (list Z)) :=
  '(f, l) ← fgets_loop f (n - 1) [];
  Some (f, match l with [] => None | _ => Some l end).

(** libsrc/stdio/getline.c:4-47.  [top] is the buffer ([length top] bytes; the
    capacity variable is [capa]); realloc succeeds and fills with [junk]. *)
Fixpoint getline_loop (fuel : nat) (junk : Z) (f : ifile) (top : list Z) (capa size : nat)
  : option (ifile * option (list Z * nat) * nat) :=
  match fuel with
  | O => None
  | S fuel =>
    '(f, c) ← fgetc f;
    match c with
    | None =>
      if decide (size = 0%nat) then Some (f, None, 0%nat)
      else if decide (size < length top)%nat then Some (f, Some (<[size := 0]> top, capa), size) else None
    | Some c =>
      let '(top, capa) :=
        if decide (capa <= size + 1)%nat then
          let newcapa := Nat.max 16 (capa * 2) in
          (take newcapa top ++ replicate (newcapa - length top) junk, newcapa)
        else (top, capa) in
      if decide (size < length top)%nat then
        let top := <[size := c]> top in
        if decide (c = 10) then
          if decide (S size < length top)%nat then Some (f, Some (<[S size := 0]> top, capa), S size) else None
        else getline_loop fuel junk f top capa (S size)
      else None
    end
  end.
(** The buffer, its capacity and the result; None is -1 with the caller's
    buffer untouched. *)
Definition getline (fuel : nat) (junk : Z) (f : ifile) (lineptr : option (list Z)) (capa : nat)
  : option (ifile * option (list Z * nat) * nat) :=
  match lineptr, capa with
  | Some top, S _ => getline_loop fuel junk f top capa 0
  | _, _ => getline_loop fuel junk f [] 0 0
  end.

(** libsrc/stdio/ftell.c:6-9 (nothing is buffered for writing, not a pipe). *)
Definition ftell (f : ifile) : Z := Z.of_nat (off f) - (Z.of_nat (length (rbuf f)) - Z.of_nat (rp f)).

Inductive whence := SeekSet | SeekCur | SeekEnd.
(** libsrc/stdio/fseek.c:5-11, _file.c:115-125 _fseek: lseek(2) succeeds if the
    resulting position is not negative and the file is not a pipe. *)
Definition fseek (f : ifile) (o : Z) (w : whence) : ifile * bool :=
  let base := match w with SeekSet => 0 | SeekCur => Z.of_nat (off f) | SeekEnd => Z.of_nat (length (content f)) end in
  if bool_decide (0 <= base + o) && negb (fifo f) then
    (IFile (content f) (Z.to_nat (base + o)) (answers f) [] 0 (rcapa f) None false (fifo f), true)
  else (f, false).

(** libsrc/stdio/feof.c:5-7 is [eof]. *)

(** A client. *)
Inductive op := Read (n : nat) | Getc | Ungetc (c : Z).
Inductive res := Bytes (l : list Z) | Char (c : option Z) | Done.
Fixpoint run (f : ifile) (ops : list op) : option (ifile * list res) :=
  match ops with
  | [] => Some (f, [])
  | Read n :: ops => '(f, l) ← fread1 f n; '(f, rs) ← run f ops; Some (f, Bytes l :: rs)
  | Getc :: ops => '(f, c) ← fgetc f; '(f, rs) ← run f ops; Some (f, Char c :: rs)
  | Ungetc c :: ops => let f := ungetc f c in '(f, rs) ← run f ops; Some (f, Done :: rs)
  end.
(** fdopen.c:22-69, stdin.c:37: [pipe] is what fstat(2) says at the first
    read (_file.c:14-33 _finit). *)
Definition opened (data : list Z) (es : list revent) (capa : nat) (pipe : bool) : ifile :=
  IFile data 0 es [] 0 capa None false pipe.
