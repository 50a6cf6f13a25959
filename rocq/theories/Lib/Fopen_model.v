(** libsrc/stdio/_detect_open_flag.c, _fileman.c and the parts of fopen.c and
    fdopen.c that decide how a file is opened.  The messages printed for a bad
    mode are not modelled. *)
From stdpp Require Import base list numbers.
Local Open Scope Z_scope.

(** include/fcntl.h:3-10. *)
Definition O_RDONLY : Z := 0.
Definition O_WRONLY : Z := 1.
Definition O_RDWR : Z := 2.
Definition O_CREAT : Z := 64.
Definition O_TRUNC : Z := 512.
Definition O_APPEND : Z := 1024.

(** _detect_open_flag.c:6-14. *)
Definition cRWMASK : Z := 3.
Definition cR : Z := Z.lor 1 32.
Definition cW : Z := Z.lor 2 32.
Definition cP : Z := 4.
Definition cMASK : Z := 7.
Definition cA : Z := 8.
Definition cB : Z := 16.

(** _detect_open_flag.c:24-31; None is ILLEGAL_CHR. *)
Definition classify (c : Z) : option Z :=
  if decide (c = 114) then Some cR
  else if decide (c = 119) then Some cW
  else if decide (c = 97) then Some (Z.lor cW cA)
  else if decide (c = 43) then Some cP
  else if decide (c = 98) then Some cB
  else None.

(** _detect_open_flag.c:21-35; None is an error. *)
Fixpoint scan (mode : list Z) (chr : Z) : option Z :=
  match mode with
  | [] => Some chr
  | c :: mode =>
    c ← classify c;
    if decide (Z.land chr c <> 0) then None else scan mode (Z.lor chr c)
  end.

(** _detect_open_flag.c:51-57: the table; entries not listed are 0, entries past
    the end (index 7) are undefined. *)
Definition kTable (i : Z) : option Z :=
  if decide (i = Z.land cR cMASK) then Some O_RDONLY
  else if decide (i = Z.land cW cMASK) then Some (Z.lor O_WRONLY O_CREAT)
  else if decide (i = Z.land (Z.lor cR cP) cMASK) then Some O_RDWR
  else if decide (i = Z.land (Z.lor cW cP) cMASK) then Some (Z.lor O_RDWR O_CREAT)
  else if decide (0 <= i <= 6) then Some 0 else None.

(** _detect_open_flag.c:5-61; the result is -1 for a bad mode. *)
Definition detect_open_flag (mode : list Z) : option Z :=
  match scan mode 0 with
  | None => Some (-1)
  | Some chr =>
    if decide (Z.land chr cRWMASK = 0) then Some (-1)
    else
      flag ← kTable (Z.land chr cMASK);
      Some (if decide (Z.land chr cRWMASK = Z.land cW cRWMASK)
            then Z.lor flag (if decide (Z.land chr cA <> 0) then O_APPEND else O_TRUNC)
            else flag)
  end.

(** libsrc/stdio/fdopen.c:25-35: FF_READ, FF_WRITE, FF_BINARY.  O_ACCMODE is 3. *)
Definition stream_flags (mode : list Z) : option (bool * bool * bool) :=
  flag ← detect_open_flag mode;
  let acc := Z.land flag 3 in
  Some (bool_decide (acc = O_RDONLY) || bool_decide (acc = O_RDWR),
        bool_decide (acc = O_WRONLY) || bool_decide (acc = O_RDWR),
        bool_decide (98 ∈ mode)).

(** libsrc/stdio/_fileman.c:8-25: streams are numbers, [opened] has [capacity]
    slots, the first [length] of which are used.  realloc succeeds. *)
Record fileman := Fileman { slots : list Z; used : nat }.
Definition fm_init : fileman := Fileman [] 0.
Definition add_opened (m : fileman) (fp : Z) : option fileman :=
  let capa := length (slots m) in
  let s := if decide (capa <= used m)%nat then
      let ncapa := if decide (0 < capa)%nat then (capa * 2)%nat else 4%nat in
      slots m ++ replicate (ncapa - capa) 0
    else slots m in
  if decide (used m < length s)%nat then Some (Fileman (<[used m := fp]> s) (S (used m))) else None.

(** _fileman.c:27-40, from index [i]. *)
Fixpoint remove_from (fuel i : nat) (m : fileman) (fp : Z) : option fileman :=
  match fuel with
  | O => Some m
  | S fuel =>
    x ← slots m !! i;
    if decide (x = fp) then
      let len := (used m - 1)%nat in
      if decide (i < len)%nat then
        y ← slots m !! len; Some (Fileman (<[i := y]> (slots m)) len)
      else Some (Fileman (slots m) len)
    else remove_from fuel (S i) m fp
  end.
Definition remove_opened (m : fileman) (fp : Z) : option fileman := remove_from (used m) 0 m fp.

(** _fileman.c:42-49: the streams flushed at exit, in order. *)
Fixpoint flush_from (n i : nat) (m : fileman) : option (list Z) :=
  match n with
  | O => Some []
  | S n => x ← slots m !! i; l ← flush_from n (S i) m; Some (x :: l)
  end.
Definition flush_opened (m : fileman) : option (list Z) := flush_from (used m) 0 m.

(** A program that opens and closes streams. *)
Inductive fop := Open (fp : Z) | Close (fp : Z).
Fixpoint fruns (m : fileman) (ops : list fop) : option fileman :=
  match ops with
  | [] => Some m
  | Open fp :: ops => m ← add_opened m fp; fruns m ops
  | Close fp :: ops => m ← remove_opened m fp; fruns m ops
  end.
