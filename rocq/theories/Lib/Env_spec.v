(** POSIX: getenv, basename and dirname in terms of lists of bytes. *)
From stdpp Require Import base list numbers gmap.
From Verif Require Import Lib.Cmem Lib.Env_model.
Local Open Scope Z_scope.

(** The environment: pointers to strings [es], and a NULL. *)
Definition environment (m : mem) (ptrs : list Z) (es : list (list Z)) : Prop :=
  exists ps rest, ptrs = ps ++ 0 :: rest /\ Forall2 (fun p e => p <> 0 /\ cstr m p e) ps es.
(** The entry of a variable. *)
Definition entry (name value : list Z) : list Z := name ++ 61 :: value.
(** [r] is the value of [name]: that of its first entry, or NULL without one. *)
Definition value_of (m : mem) (es : list (list Z)) (name : list Z) (r : option Z) : Prop :=
  match r with
  | Some a => exists i v, es !! i = Some (entry name v) /\ cstr m a v /\
                forall j w, (j < i)%nat -> es !! j <> Some (entry name w)
  | None => forall j w, es !! j <> Some (entry name w)
  end.

(** 47 is the slash, 46 the dot. *)
Fixpoint skip (P : Z -> bool) (l : list Z) : list Z :=
  match l with [] => [] | c :: l => if P c then skip P l else c :: l end.
Fixpoint keep (P : Z -> bool) (l : list Z) : list Z :=
  match l with [] => [] | c :: l => if P c then c :: keep P l else [] end.
Definition slash (c : Z) : bool := c =? 47.
(** Without the slashes at the end. *)
Definition stripped (s : list Z) : list Z := rev (skip slash (rev s)).
(** POSIX basename: the last component. *)
Definition posix_basename (s : list Z) : list Z :=
  match s, stripped s with
  | [], _ => [46]
  | _, [] => [47]
  | _, t => rev (keep (fun c => negb (slash c)) (rev t))
  end.
(** POSIX dirname: what is before the last component. *)
Definition posix_dirname (s : list Z) : list Z :=
  match s, stripped s with
  | [], _ => [46]
  | _, [] => [47]
  | _, t => match rev (skip (fun c => negb (slash c)) (rev t)) with
            | [] => [46]
            | u => match stripped u with [] => [47] | v => v end
            end
  end.

(** The string that the result of dirname denotes. *)
Definition denotes (r : dir * mem) (s : list Z) : Prop :=
  match fst r with At p => cstr (snd r) p s | Dot => s = [46] end.
Definition ends_in_slash (s : list Z) : Prop := exists t, s = t ++ [47].
(** Directory and component with one slash between them. *)
Definition no_slash (s : list Z) : Prop := Forall (fun c => c <> 47) s.
