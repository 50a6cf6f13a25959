(** What a client of an input stream may expect. *)
From stdpp Require Import base list numbers.
From Verif Require Import Lib.Stdin_model.
Local Open Scope Z_scope.

Definition no_fail (es : list revent) : Prop := Forall (fun e => e <> RFail) es.
Definition all_full (es : list revent) : Prop := Forall (fun e => e = RFull) es.

(** What has been pushed back, and what is still to come. *)
Definition pending (f : ifile) : list Z :=
  match unget f with Some c => [c] | None => [] end ++ drop (rp f) (rbuf f) ++ drop (off f) (content f).

(** [stream full p ops rs q]: with [p] to come, the calls [ops] may answer [rs]
    and leave [q] to come.  If [full], a read takes as much as it can;
    otherwise at least one byte, if there is one. *)
Inductive stream (full : bool) : list Z -> list op -> list res -> list Z -> Prop :=
| stream_nil p : stream full p [] [] p
| stream_read n l p ops rs q :
    (length l <= n)%nat -> (l = [] -> n = 0%nat \/ p = []) ->
    (full = true -> l = take n (l ++ p)) -> stream full p ops rs q ->
    stream full (l ++ p) (Read n :: ops) (Bytes l :: rs) q
| stream_getc c p ops rs q : stream full p ops rs q -> stream full (c :: p) (Getc :: ops) (Char (Some c) :: rs) q
| stream_eof ops rs q : stream full [] ops rs q -> stream full [] (Getc :: ops) (Char None :: rs) q
| stream_unget c p ops rs q :
    stream full (c :: p) ops rs q -> stream full p (Ungetc c :: ops) (Done :: rs) q.

(** The client pushes back one byte at a time and takes it back with getc. *)
Fixpoint polite (pushed : bool) (ops : list op) : Prop :=
  match ops with
  | [] => True
  | Read _ :: ops => pushed = false /\ polite false ops
  | Getc :: ops => polite false ops
  | Ungetc c :: ops => pushed = false /\ 0 <= c < 256 /\ polite true ops
  end.

(** [l] is the longest prefix of [p] of at most [n] bytes that has no newline
    except possibly at its end. *)
Definition is_line (n : nat) (p l : list Z) : Prop :=
  (exists t, p = l ++ t) /\ (length l <= n)%nat /\
  (forall a b, l = a ++ 10 :: b -> b = []) /\
  (l = p \/ length l = n \/ exists a, l = a ++ [10]).
