(** libsrc/stdlib/atexit.c, __cxa_atexit.c, exit.c and start2 of
    libsrc/crt0/_start.c: what is called when a program ends.
    Functions and their arguments are numbers.  What a function does is known by
    the registrations it makes ([body]); constructors and main as well. *)
From stdpp Require Import base numbers list.

(** Calls that are made at exit. *)
Inductive call :=
  | At (f : nat)              (* registered by atexit *)
  | Cxa (f a : nat)           (* registered by __cxa_atexit, with its argument *)
  | Fini (f : nat).           (* in the fini array: destructors, and the flushing of streams *)

(** atexit.c:4-9 and __cxa_atexit.c:4-15: the two arrays with their counts
    (dso_handle is not used). *)
Definition MAX := 8.
Record state := State { abuf : list nat; acount : nat; cbuf : list (nat * nat); ccount : nat }.
Definition init : state := State (replicate MAX 0) 0 (replicate MAX (0, 0)) 0.

(** atexit.c:11-16: the result and the new state. *)
Definition atexit (f : nat) (s : state) : nat * state :=
  if MAX <=? acount s then (1, s)
  else (0, State (<[acount s := f]> (abuf s)) (S (acount s)) (cbuf s) (ccount s)).
(** __cxa_atexit.c:17-25. *)
Definition cxa_atexit (f a : nat) (s : state) : nat * state :=
  if MAX <=? ccount s then (1, s)
  else (0, State (abuf s) (acount s) (<[ccount s := (f, a)]> (cbuf s)) (S (ccount s))).

(** A registration, and a list of them with the results. *)
Definition register (c : call) (s : state) : nat * state :=
  match c with At f => atexit f s | Cxa f a => cxa_atexit f a s | Fini _ => (0, s) end.
Fixpoint registers (l : list call) (s : state) : list nat * state :=
  match l with
  | [] => ([], s)
  | c :: l => let '(r, s) := register c s in let '(rs, s) := registers l s in (r :: rs, s)
  end.

Section Body.
Context (body : call -> list call).
(** atexit.c:18-23, [k] is p - buf: the calls made and the new state. *)
Fixpoint call_atexit_funcs (k : nat) (s : state) : list call * state :=
  match k with
  | O => ([], s)
  | S k =>
    let f := nth k (abuf s) 0 in
    let s := snd (registers (body (At f)) s) in
    let '(t, s) := call_atexit_funcs k s in (At f :: t, s)
  end.
(** __cxa_atexit.c:27-32. *)
Fixpoint call_cxa_atexit_funcs (k : nat) (s : state) : list call * state :=
  match k with
  | O => ([], s)
  | S k =>
    let p := nth k (cbuf s) (0, 0) in
    let s := snd (registers (body (Cxa (fst p) (snd p))) s) in
    let '(t, s) := call_cxa_atexit_funcs k s in (Cxa (fst p) (snd p) :: t, s)
  end.
(** _start.c:14-17. *)
Fixpoint call_fini_funcs (l : list nat) (s : state) : list call * state :=
  match l with
  | [] => ([], s)
  | f :: l =>
    let s := snd (registers (body (Fini f)) s) in
    let '(t, s) := call_fini_funcs l s in (Fini f :: t, s)
  end.

(** The elements of __on_exit_chain, by their functions. *)
Inductive link := LAtexit | LCxa | LFini.
(** exit.c:25-35, without the system call; [fini] is the fini array. *)
Fixpoint exit (fini : list nat) (chain : list link) (s : state) : list call * state :=
  match chain with
  | [] => ([], s)
  | l :: chain =>
    let '(t, s) := match l with
                   | LAtexit => call_atexit_funcs (acount s) s
                   | LCxa => call_cxa_atexit_funcs (ccount s) s
                   | LFini => call_fini_funcs fini s
                   end in
    let '(t', s) := exit fini chain s in (t ++ t', s)
  end.
End Body.

(** The init array: the constructors of atexit.c:25-30 and __cxa_atexit.c:34-39,
    which put themselves at the head of the chain, and those of the program. *)
Inductive ctor := RegAtexit | RegCxa | User (l : list call).
Fixpoint call_init_funcs (l : list ctor) (chain : list link) (s : state) : list link * state :=
  match l with
  | [] => (chain, s)
  | RegAtexit :: l => call_init_funcs l (LAtexit :: chain) s
  | RegCxa :: l => call_init_funcs l (LCxa :: chain) s
  | User c :: l => call_init_funcs l chain (snd (registers c s))
  end.

Record program := Program {
  init_array : list ctor;
  main : list call;           (* registrations in main, and what it calls, before exit *)
  fini_array : list nat;
  bodies : call -> list call  (* registrations made by what is called at exit *)
}.
(** _start.c:19-35: the results of main's registrations, and the calls at exit. *)
Definition start2 (p : program) : list nat * list call :=
  let '(chain, s) := call_init_funcs (init_array p) [LFini] init in
  let '(rs, s) := registers (main p) s in
  (rs, fst (exit (bodies p) (fini_array p) chain s)).
