(** Translation phase 2 of C (5.1.1.2): physical lines, and logical lines
    obtained by splicing every physical line that ends in a backslash. *)
From stdpp Require Import base list numbers.
Local Open Scope Z_scope.

(** Physical lines, without terminators ("\n" or "\r\n"; a lone trailing "\r"
    at end of file is dropped as well, as the code does). *)
Definition strip_cr (rev_line : list Z) : list Z :=
  match rev_line with
  | c :: r => if decide (c = 13) then rev r else rev rev_line
  | [] => []
  end.

(** [cur] is the reversed text of the line being read. *)
Fixpoint phys (cur : list Z) (s : list Z) : list (list Z) :=
  match s with
  | [] => match cur with [] => [] | _ => [strip_cr cur] end
  | c :: s => if decide (c = 10) then strip_cr cur :: phys [] s else phys (c :: cur) s
  end.
Definition physical_lines (s : list Z) : list (list Z) := phys [] s.

(** [l] ends in a backslash: what precedes it. *)
Definition unsplice (l : list Z) : option (list Z) :=
  match rev l with
  | c :: r => if decide (c = 92) then Some (rev r) else None
  | [] => None
  end.

(** Logical lines, each with the number of the last physical line in it.
    [pre] is the text spliced so far. *)
Fixpoint logical (pre : list Z) (ls : list (list Z)) (n : nat) : list (list Z * nat) :=
  match ls with
  | [] => []
  | l :: ls =>
    match unsplice l with
    | Some l' => match ls with
                 | [] => [(pre ++ l', S n)]
                 | _ => logical (pre ++ l') ls (S n)
                 end
    | None => (pre ++ l, S n) :: logical [] ls (S n)
    end
  end.

Definition logical_lines (s : list Z) (n : nat) : list (list Z * nat) :=
  logical [] (physical_lines s) n.

(** [l] does not end in two backslashes. *)
Definition no_double_backslash (l : list Z) : Prop :=
  forall l', unsplice l = Some l' -> unsplice l' = None.
