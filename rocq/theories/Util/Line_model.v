(** src/util/util.c:103-151: getline_chomp, getline_cat, getline_cont.

    The stream is the list of bytes still to be read; '\n' is 10, '\r' is 13,
    '\\' is 92.  [getline] has its POSIX meaning.  Memory allocation never
    fails. *)
From stdpp Require Import base list numbers.
Local Open Scope Z_scope.

(** POSIX getline: a line including its newline, and the rest. *)
Fixpoint getline (s : list Z) : list Z * list Z :=
  match s with
  | [] => ([], [])
  | c :: s => if decide (c = 10) then ([c], s)
              else let '(l, r) := getline s in (c :: l, r)
  end.

Definition chomp1 (c : Z) (l : list Z) : list Z :=
  match rev l with
  | x :: _ => if decide (x = c) then removelast l else l
  | [] => l
  end.

(** src/util/util.c:103-114 getline_chomp; [None] is -1 (end of file). *)
Definition getline_chomp (s : list Z) : option (list Z * list Z) :=
  match s with
  | [] => None
  | _ => let '(l, r) := getline s in Some (chomp1 13 (chomp1 10 l), r)
  end.

(** src/util/util.c:135-151 getline_cont: the loop of lines 140-146 on the
    joined line [line]; getline_cat (116-133) appends the next chomped line.
    [fuel] bounds the number of physical lines. *)
Fixpoint cont_loop (fuel : nat) (line rest : list Z) (lineno : nat)
    : option (list Z * list Z * nat) :=
  match fuel with
  | O => None
  | S fuel =>
    let lineno := S lineno in
    if decide (head (rev line) = Some 92) then
      let line := removelast line in
      match getline_chomp rest with
      | None => Some (line, rest, lineno)
      | Some (next, rest) => cont_loop fuel (line ++ next) rest lineno
      end
    else Some (line, rest, lineno)
  end.

(** Result: [None] out of fuel; [Some None]: -1; otherwise line, rest, lineno. *)
Definition getline_cont (s : list Z) (lineno : nat) : option (option (list Z * list Z * nat)) :=
  match getline_chomp s with
  | None => Some None
  | Some (line, rest) => r ← cont_loop (S (length s)) line rest lineno; Some (Some r)
  end.

(** The caller's loop: read until -1, keeping each line and the line number
    after it. *)
Fixpoint read_all (fuel : nat) (s : list Z) (lineno : nat) : option (list (list Z * nat)) :=
  match fuel with
  | O => None
  | S fuel =>
    r ← getline_cont s lineno;
    match r with
    | None => Some []
    | Some (line, rest, lineno) => l ← read_all fuel rest lineno; Some ((line, lineno) :: l)
    end
  end.
