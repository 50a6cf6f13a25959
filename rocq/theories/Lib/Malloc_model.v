(** libsrc/stdlib/malloc.c, realloc.c, calloc.c, _malloc.h and
    libsrc/unistd/brk.c.

    Memory is an array of 16-byte units, the size of the union [Header];
    a [Header*] is a unit number (byte address / 16).  A unit holds either a
    header or client data.  [brk] values are byte addresses. *)
From stdpp Require Import base list numbers gmap.
Local Open Scope Z_scope.

(** libsrc/stdlib/_malloc.h:5-11: a header seen as (ptr, size); [Data] is any
    other content of the 16 bytes. *)
Inductive unit_ := Hdr (ptr size : Z) | Data (v : Z).

(** [base]: unit number of the static variable [base]; [start], [cur], [limit]:
    the kernel's initial break, the current break, and the largest break the
    kernel grants. *)
Record st := St { mem : gmap Z unit_; freep : Z; base : Z; start : Z; cur : Z; limit : Z }.

Definition mapped (s : st) (u : Z) : bool :=
  bool_decide (u = base s) || (bool_decide (start s <= 16 * u) && bool_decide (16 * u + 16 <= cur s)).

(** Read a header; unmapped memory or client data is [None]. *)
Definition get (s : st) (u : Z) : option (Z * Z) :=
  if mapped s u then match mem s !! u with Some (Hdr p n) => Some (p, n) | _ => None end else None.

Definition upd (s : st) (u : Z) (h : unit_) : st :=
  St (<[u := h]> (mem s)) (freep s) (base s) (start s) (cur s) (limit s).
Definition set_freep (s : st) (p : Z) : st := St (mem s) p (base s) (start s) (cur s) (limit s).

(** [u->s.ptr = p] and [u->s.size = n] ([unsigned int]); the other field keeps
    what it holds (0 stands for arbitrary bytes). *)
Definition set_ptr (s : st) (u p : Z) : option st :=
  if mapped s u then
    Some (upd s u (Hdr p (match mem s !! u with Some (Hdr _ n) => n | _ => 0 end)))
  else None.
Definition set_size (s : st) (u n : Z) : option st :=
  if mapped s u then
    Some (upd s u (Hdr (match mem s !! u with Some (Hdr p _) => p | _ => 0 end) (n mod 2^32)))
  else None.

(** libsrc/stdlib/malloc.c:20-22: the search loop of [free]; [fuel] bounds the
    number of list elements visited. *)
Fixpoint free_find (fuel : nat) (s : st) (bp p : Z) : option Z :=
  match fuel with
  | O => None
  | S fuel =>
    '(nx, _) ← get s p;
    if decide (p < bp /\ bp < nx) then Some p
    else if decide (nx <= p /\ (p < bp \/ bp < nx)) then Some p
    else free_find fuel s bp nx
  end.

(** More than the number of blocks the heap can hold. *)
Definition bound (s : st) : nat := Z.to_nat ((limit s - start s) / 16) + 4.

(** libsrc/stdlib/malloc.c:19-33: [free] of the block whose header is [bp]. *)
Definition free_block (s : st) (bp : Z) : option st :=
  p ← free_find (2 * bound s) s bp (freep s);
  '(nx, _) ← get s p;
  '(_, bs) ← get s bp;
  s ← (if decide (bp + bs = nx) then
         '(_, ns) ← get s nx;
         s ← set_size s bp (bs + ns);
         '(nnx, _) ← get s nx;
         set_ptr s bp nnx
       else set_ptr s bp nx);
  '(_, ps) ← get s p;
  s ← (if decide (p + ps = bp) then
         '(_, bs) ← get s bp;
         s ← set_size s p (ps + bs);
         '(bn, _) ← get s bp;
         set_ptr s p bn
       else set_ptr s p bp);
  Some (set_freep s p).
(** libsrc/stdlib/malloc.c:13-19; [ap] is a byte address. *)
Definition free (s : st) (ap : Z) : option st :=
  if decide (ap = 0) then Some s else free_block s (ap / 16 - 1).

Definition s64 (v : Z) : Z := (v + 2^63) mod 2^64 - 2^63.

(** libsrc/unistd/brk.c:19-37; the kernel's brk moves the break to [addr] when
    that lies between the initial break and the limit and returns the break.
    The result is the old break or [None] for (void* )-1. *)
Definition sbrk (s : st) (increment : Z) : st * option Z :=
  let p := cur s in
  let next := (p + s64 increment) mod 2^64 in
  let result := if decide (start s <= next <= limit s) then next else p in
  let s := St (mem s) (freep s) (base s) (start s) result (limit s) in
  (s, if decide (result < next) then None else Some p).

(** libsrc/stdlib/malloc.c:36-49 morecore; inner [None] is 0. *)
Definition morecore (s : st) (nu : Z) : option (st * option Z) :=
  let size := ((nu * 16 + 4095) mod 2^64) / 4096 * 4096 in
  match sbrk s size with
  | (s, None) => Some (s, None)
  | (s, Some p) =>
    let hp := p / 16 in
    s ← set_size s hp (size / 16);
    s ← free s (16 * (hp + 1));
    Some (s, Some (freep s))
  end.

(** libsrc/stdlib/malloc.c:57-73: the search loop of [malloc]; the result is
    the header of the allocated block. *)
Fixpoint malloc_loop (fuel : nat) (s : st) (prevp p nunits : Z) : option (st * option Z) :=
  match fuel with
  | O => None
  | S fuel =>
    '(nx, n) ← get s p;
    if decide (nunits <= n) then
      if decide (n = nunits) then
        s ← set_ptr s prevp nx; Some (set_freep s prevp, Some p)
      else
        s ← set_size s p (n - nunits);
        '(_, n) ← get s p;
        s ← set_size s (p + n) nunits;
        Some (set_freep s prevp, Some (p + n))
    else if decide (p = freep s) then
      '(s, r) ← morecore s nunits;
      match r with
      | None => Some (s, None)
      | Some p => '(nx, _) ← get s p; malloc_loop fuel s p nx nunits
      end
    else malloc_loop fuel s p nx nunits
  end.

(** libsrc/stdlib/malloc.c:55: size_t arithmetic. *)
Definition nunits (nbytes : Z) : Z := ((nbytes + 15) mod 2^64) / 16 + 1.

(** libsrc/stdlib/malloc.c:51-73; the result is a byte address, 0 for NULL. *)
Definition malloc (s : st) (nbytes : Z) : option (st * Z) :=
  let nu := nunits nbytes in
  let prevp := freep s in
  '(nx, _) ← get s prevp;
  '(s, r) ← malloc_loop (4 * bound s) s prevp nx nu;
  Some (s, match r with Some p => 16 * (p + 1) | None => 0 end).

(** memcpy of whole units (libsrc/string/memcpy.c); a last, partly copied unit
    is copied as a whole: its bytes behind the requested size are not the
    client's. *)
Fixpoint copy_units (s : st) (d src : Z) (n : nat) : option st :=
  match n with
  | O => Some s
  | S n =>
    if mapped s src && mapped s d then
      copy_units (upd s d (default (Data 0) (mem s !! src))) (d + 1) (src + 1) n
    else None
  end.

(** libsrc/stdlib/realloc.c:5-22. *)
Definition realloc (s : st) (p size : Z) : option (st * Z) :=
  if decide (size = 0) then s ← free s p; Some (s, 0)
  else if decide (p = 0) then malloc s size
  else
    '(s, buf) ← malloc s size;
    if decide (buf <> 0) then
      '(_, hs) ← get s (p / 16 - 1);
      let old := ((hs - 1) * 16) mod 2^64 in
      s ← copy_units s (buf / 16) (p / 16) (Z.to_nat ((Z.min size old + 15) / 16));
      s ← free s p;
      Some (s, buf)
    else Some (s, 0).

(** libsrc/stdlib/calloc.c:4-10: the number of bytes asked from malloc. *)
Definition calloc_bytes (nmemb size : Z) : Z := (nmemb * size) mod 2^64.

(** The initial state: libsrc/stdlib/malloc.c:10-11. *)
Definition init (b lo hi : Z) : st := St {[ b := Hdr b 0 ]} b b lo lo hi.

(** A client: allocates, frees and resizes blocks it holds, and overwrites the
    contents of its blocks at will.  [live] lists the blocks held, as
    (byte address, requested size); operations on blocks not held are ignored. *)
Inductive op := OMalloc (n : Z) | OFree (i : nat) | ORealloc (i : nat) (n : Z) | OWrite (i : nat) (k : Z) (v : unit_).

Definition step (s : st) (live : list (Z * Z)) (o : op) : option (st * list (Z * Z)) :=
  match o with
  | OMalloc n =>
    '(s, p) ← malloc s n;
    Some (s, if decide (p = 0) then live else (p, n) :: live)
  | OFree i =>
    match live !! i with
    | None => Some (s, live)
    | Some (p, _) => s ← free s p; Some (s, delete i live)
    end
  | ORealloc i n =>
    match live !! i with
    | None => Some (s, live)
    | Some (p, _) =>
      '(s, q) ← realloc s p n;
      Some (s, if decide (n = 0) then delete i live
               else if decide (q = 0) then live else (q, n) :: delete i live)
    end
  | OWrite i k v =>
    match live !! i with
    | None => Some (s, live)
    | Some (p, n) => if decide (0 <= 16 * k < n) then Some (upd s (p / 16 + k) v, live) else Some (s, live)
    end
  end.

Fixpoint run (s : st) (live : list (Z * Z)) (ops : list op) : option (st * list (Z * Z)) :=
  match ops with
  | [] => Some (s, live)
  | o :: ops => '(s, live) ← step s live o; run s live ops
  end.
