(** src/util/util.c:168-229 join_paths.

    Strings are lists of characters ([Z], no NUL); '/' is 47 and '.' is 46. *)
From stdpp Require Import base list numbers.
Local Open Scope Z_scope.

Inductive top := OTHER | ROOTDIR | CURDIR.

(** Elements of the StringBuffer, the count of leading "..", and the kind of top. *)
Record jstate := JState { elems : list (list Z); parent_count : nat; jtop : top }.

(** src/util/util.c:188-189: skip slashes. *)
Fixpoint skip_slashes (p : list Z) : list Z :=
  match p with
  | [] => []
  | c :: p' => if decide (c = 47) then skip_slashes p' else p
  end.

(** src/util/util.c:193-197: up to the next slash (strchr) or the end. *)
Fixpoint upto_slash (p : list Z) : list Z * list Z :=
  match p with
  | [] => ([], [])
  | c :: p' => if decide (c = 47) then ([], p)
               else let '(w, r) := upto_slash p' in (c :: w, r)
  end.

(** src/util/util.c:198-216: one component.  [None] is "return NULL". *)
Definition step_comp (s : jstate) (w : list Z) : option jstate :=
  if decide (w = [46]) then
    Some (if decide (elems s = []) then
            match jtop s with OTHER => JState (elems s) (parent_count s) CURDIR | _ => s end
          else s)
  else if decide (w = [46; 46]) then
    if decide (elems s = []) then
      match jtop s with
      | ROOTDIR => None
      | _ => Some (JState [] (S (parent_count s)) OTHER)
      end
    else Some (JState (removelast (elems s)) (parent_count s) (jtop s))
  else Some (JState (elems s ++ [w]) (parent_count s) (jtop s)).

(** src/util/util.c:187-218: the loop over one path ([fuel]: its length plus one;
    [Some None] is "return NULL", [None] out of fuel). *)
Fixpoint path_loop (fuel : nat) (s : jstate) (p : list Z) : option (option jstate) :=
  match fuel with
  | O => None
  | S fuel =>
    match skip_slashes p with
    | [] => Some (Some s)
    | p =>
      let '(w, q) := upto_slash p in
      match step_comp s w with
      | None => Some None
      | Some s => match q with [] => Some (Some s) | _ => path_loop fuel s q end
      end
    end
  end.

(** src/util/util.c:181-185. *)
Definition start_path (s : jstate) (p : list Z) : jstate :=
  match p with
  | c :: _ => if decide (c = 47) then JState [] 0 ROOTDIR else s
  | [] => s
  end.

Fixpoint paths_loop (s : jstate) (paths : list (list Z)) : option (option jstate) :=
  match paths with
  | [] => Some (Some s)
  | p :: paths =>
    r ← path_loop (S (length p)) (start_path s p) p;
    match r with
    | None => Some None
    | Some s => paths_loop s paths
    end
  end.

(** src/util/util.c:586-612 sb_join with a separator. *)
Fixpoint sb_join (es : list (list Z)) (sep : list Z) : list Z :=
  match es with
  | [] => []
  | [e] => e
  | e :: es => e ++ sep ++ sb_join es sep
  end.

(** src/util/util.c:168-229 join_paths. *)
Definition join_paths (paths : list (list Z)) : option (option (list Z)) :=
  r ← paths_loop (JState [] 0 OTHER) paths;
  match r with
  | None => Some None
  | Some s =>
    let es := replicate (parent_count s) [46; 46] ++ elems s in
    let es := match jtop s with
              | CURDIR => [46] :: es
              | ROOTDIR => (if decide (es = []) then [47] else []) :: es
              | OTHER => es
              end in
    Some (Some (sb_join es [47]))
  end.
