(** libsrc/string/*.c on the memory of Cmem.v.  Bytes are unsigned; [schar] is
    used where the C code compares plain [char]s with an [int].  [fuel] bounds
    the number of loop iterations; [None] is undefined behaviour (or fuel
    exhausted), inner [None] is NULL. *)
From stdpp Require Import base list numbers gmap.
From Verif Require Import Lib.Cmem.
Local Open Scope Z_scope.

(** libsrc/string/strlen.c:3-8. *)
Fixpoint strlen (fuel : nat) (m : mem) (p : Z) : option Z :=
  match fuel with
  | O => None
  | S fuel => c ← read m p; if decide (c = 0) then Some 0 else n ← strlen fuel m (p + 1); Some (n + 1)
  end.

(** libsrc/string/strnlen.c:3-8. *)
Fixpoint strnlen (m : mem) (s : Z) (n : nat) : option Z :=
  match n with
  | O => Some 0
  | S n => c ← read m s; if decide (c = 0) then Some 0 else k ← strnlen m (s + 1) n; Some (k + 1)
  end.

(** libsrc/string/strcmp.c:3-9. *)
Fixpoint strcmp (fuel : nat) (m : mem) (p q : Z) : option Z :=
  match fuel with
  | O => None
  | S fuel =>
    c ← read m p;
    if decide (c <> 0) then
      d ← read m q;
      if decide (c = d) then strcmp fuel m (p + 1) (q + 1) else Some (c - d)
    else d ← read m q; Some (c - d)
  end.

(** libsrc/string/strncmp.c:3-7. *)
Fixpoint strncmp (m : mem) (p q : Z) (n : nat) : option Z :=
  match n with
  | O => Some 0
  | S n =>
    c ← read m p; d ← read m q;
    if decide (c = d /\ c <> 0) then strncmp m (p + 1) (q + 1) n else Some (c - d)
  end.

(** libsrc/string/memcmp.c:3-13. *)
Fixpoint memcmp (m : mem) (p q : Z) (n : nat) : option Z :=
  match n with
  | O => Some 0
  | S n =>
    c ← read m p; d ← read m q;
    if decide (c - d <> 0) then Some (c - d) else memcmp m (p + 1) (q + 1) n
  end.

(** libsrc/string/memchr.c:3-9; [*p] is a [const char] compared with the [int] c. *)
Fixpoint memchr (m : mem) (p : Z) (c : Z) (n : nat) : option (option Z) :=
  match n with
  | O => Some None
  | S n => b ← read m p; if decide (schar b = c) then Some (Some p) else memchr m (p + 1) c n
  end.

(** libsrc/string/strchr.c:3-10. *)
Fixpoint strchr (fuel : nat) (m : mem) (s c : Z) : option (option Z) :=
  match fuel with
  | O => None
  | S fuel =>
    b ← read m s;
    if decide (schar b = c) then Some (Some s)
    else if decide (b = 0) then Some None
    else strchr fuel m (s + 1) c
  end.

(** libsrc/string/strrchr.c:3-11. *)
Fixpoint strrchr_loop (fuel : nat) (m : mem) (s c : Z) (last : option Z) : option (option Z) :=
  match fuel with
  | O => None
  | S fuel =>
    b ← read m s;
    let last := if decide (schar b = c) then Some s else last in
    if decide (b = 0) then Some last else strrchr_loop fuel m (s + 1) c last
  end.
Definition strrchr (fuel : nat) (m : mem) (s c : Z) := strrchr_loop fuel m s c None.

(** libsrc/string/strspn.c:3-8. *)
Fixpoint strspn (fuel fuel2 : nat) (m : mem) (s accept : Z) : option Z :=
  match fuel with
  | O => None
  | S fuel' =>
    b ← read m s;
    if decide (b = 0) then Some 0
    else r ← strchr fuel2 m accept (schar b);
         match r with
         | None => Some 0
         | Some _ => n ← strspn fuel' fuel2 m (s + 1) accept; Some (n + 1)
         end
  end.

(** libsrc/string/strcspn.c:3-8.  ([fuel2] is that of the inner strchr.) *)
Fixpoint strcspn (fuel : nat) (fuel2 : nat) (m : mem) (s reject : Z) : option Z :=
  match fuel with
  | O => None
  | S fuel' =>
    b ← read m s;
    if decide (b = 0) then Some 0
    else r ← strchr fuel2 m reject (schar b);
         match r with
         | Some _ => Some 0
         | None => n ← strcspn fuel' fuel2 m (s + 1) reject; Some (n + 1)
         end
  end.

(** libsrc/string/strpbrk.c:3-8. *)
Definition strpbrk (fuel fuel2 : nat) (m : mem) (s accept : Z) : option (option Z) :=
  n ← strcspn fuel fuel2 m s accept;
  let r := s + n in
  b ← read m r;
  if decide (b = 0) then Some None else Some (Some r).

(** libsrc/string/strstr.c:3-9. *)
Fixpoint strstr_loop (fuel : nat) (m : mem) (s1 s2 : Z) (len : nat) : option (option Z) :=
  match fuel with
  | O => None
  | S fuel =>
    b ← read m s1;
    if decide (b = 0) then Some None
    else d ← strncmp m s1 s2 len;
         if decide (d = 0) then Some (Some s1) else strstr_loop fuel m (s1 + 1) s2 len
  end.
Definition strstr (fuel : nat) (m : mem) (s1 s2 : Z) : option (option Z) :=
  len ← strlen fuel m s2; strstr_loop fuel m s1 s2 (Z.to_nat len).

(** libsrc/string/memcpy.c:17-20 (the portable branch). *)
Fixpoint memcpy (m : mem) (d s : Z) (n : nat) : option mem :=
  match n with
  | O => Some m
  | S n => c ← read m s; m ← write m d c; memcpy m (d + 1) (s + 1) n
  end.

(** libsrc/string/memmove.c:20-23: the downward copy; [d], [s] are past the end. *)
Fixpoint copy_down (m : mem) (d s : Z) (n : nat) : option mem :=
  match n with
  | O => Some m
  | S n => c ← read m (s - 1); m ← write m (d - 1) c; copy_down m (d - 1) (s - 1) n
  end.
(** libsrc/string/memmove.c:3-29 (the portable branch). *)
Definition memmove (m : mem) (d s : Z) (n : nat) : option mem :=
  if decide (s < d /\ d < s + Z.of_nat n)
  then copy_down m (d + Z.of_nat n) (s + Z.of_nat n) n
  else memcpy m d s n.

(** libsrc/string/memset.c:15-19. *)
Fixpoint memset (m : mem) (p val : Z) (n : nat) : option mem :=
  match n with
  | O => Some m
  | S n => m ← write m p (val mod 256); memset m (p + 1) val n
  end.

(** libsrc/string/strcpy.c:3-8 and stpcpy.c:3-7: memory and the final [dst]
    (one past the NUL). *)
Fixpoint copy_str (fuel : nat) (m : mem) (d s : Z) : option (mem * Z) :=
  match fuel with
  | O => None
  | S fuel =>
    c ← read m s; m ← write m d c;
    if decide (c = 0) then Some (m, d + 1) else copy_str fuel m (d + 1) (s + 1)
  end.
Definition strcpy (fuel : nat) (m : mem) (d s : Z) : option mem :=
  '(m, _) ← copy_str fuel m d s; Some m.
Definition stpcpy := copy_str.

(** libsrc/string/strcat.c:3-6. *)
Definition strcat (fuel : nat) (m : mem) (d s : Z) : option mem :=
  n ← strlen fuel m d; strcpy fuel m (d + n) s.

(** libsrc/string/strncat.c:3-10. *)
Fixpoint ncat_loop (m : mem) (d s : Z) (n : nat) : option mem :=
  match n with
  | O => write m d 0
  | S n => c ← read m s;
           if decide (c = 0) then write m d 0
           else m ← write m d c; ncat_loop m (d + 1) (s + 1) n
  end.
Definition strncat (fuel : nat) (m : mem) (d s : Z) (n : nat) : option mem :=
  k ← strlen fuel m d; ncat_loop m (d + k) s n.

(** libsrc/string/strncpy.c:3-8: no padding after the NUL. *)
Fixpoint strncpy (m : mem) (d s : Z) (n : nat) : option mem :=
  match n with
  | O => Some m
  | S n => c ← read m s; m ← write m d c;
           if decide (c = 0) then Some m else strncpy m (d + 1) (s + 1) n
  end.

(** libsrc/string/strtok_r.c:3-14: result, [*ptr] and memory. *)
Definition strtok_r (fuel : nat) (m : mem) (src : option Z) (delim ptr : Z)
    : option (option Z * Z * mem) :=
  let ptr := default ptr src in
  n ← strspn fuel fuel m ptr delim;
  let ptr := ptr + n in
  b ← read m ptr;
  if decide (b = 0) then Some (None, ptr, m)
  else
    n ← strcspn fuel fuel m ptr delim;
    m ← write m (ptr + n) 0;
    Some (Some ptr, ptr + n + 1, m).

(** libsrc/misc/tolower.c:3-5, isupper.c. *)
Definition tolower (c : Z) : Z := if (65 <=? c) && (c <=? 90) then c + 32 else c.

(** libsrc/string/strcasecmp.c:3-15 (no case folding in the code). *)
Fixpoint strcasecmp (fuel : nat) (m : mem) (p q : Z) : option Z :=
  match fuel with
  | O => None
  | S fuel =>
    c1 ← read m p; c2 ← read m q;
    if decide (c1 - c2 <> 0) then Some (c1 - c2)
    else if decide (c1 = 0) then Some 0
    else strcasecmp fuel m (p + 1) (q + 1)
  end.

(** libsrc/string/strncasecmp.c:4-15. *)
Fixpoint strncasecmp (m : mem) (p q : Z) (n : nat) : option Z :=
  match n with
  | O => Some 0
  | S n =>
    b1 ← read m p; b2 ← read m q;
    let c1 := tolower b1 in let c2 := tolower b2 in
    if decide (c1 - c2 <> 0) then Some (c1 - c2)
    else if decide (c1 = 0) then Some 0
    else strncasecmp m (p + 1) (q + 1) n
  end.

(** libsrc/string/memccpy.c:3-8: stops before c and returns dst. *)
Definition memccpy (m : mem) (d s c : Z) (n : nat) : option (Z * mem) :=
  b ← memchr m s c n;
  let n := match b with Some b => Z.to_nat (b - s) | None => n end in
  m ← memcpy m d s n; Some (d, m).

(** libsrc/misc/basename.c:4-10. *)
Definition basename (fuel : nat) (m : mem) (path : Z) : option Z :=
  r ← strrchr fuel m path 47;
  Some (match r with Some p => p + 1 | None => path end).

(** A client's loop: strtok_r(src, delim, &ptr), then strtok_r(NULL, delim, &ptr)
    until [n] calls have been made; the results and the final memory. *)
Fixpoint strtok_calls (fuel n : nat) (m : mem) (src : option Z) (delim ptr : Z)
    : option (list (option Z) * mem) :=
  match n with
  | O => Some ([], m)
  | S n =>
    '(r, ptr, m) ← strtok_r fuel m src delim ptr;
    '(rs, m) ← strtok_calls fuel n m None delim ptr;
    Some (r :: rs, m)
  end.
