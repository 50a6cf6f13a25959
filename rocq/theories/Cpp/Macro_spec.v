(** Macro replacement by the standard (C11 6.10.3), on tokens without identity.
    Shares only the token kinds. *)
From stdpp Require Import base list numbers gmap.
From Verif Require Import Cpp.Macro_model.
Open Scope Z_scope.

(** A preprocessing token: its kind and spelling. *)
Definition shape : Type := kind * str.

(** ** Object-like macros *)

(** The replacement list after ## has been carried out (6.10.3.3). *)
Inductive replacement : list shape -> list shape -> Prop :=
| R_nil : replacement [] []
| R_one t rest out :
    t.1 <> KCat -> (forall u, head rest = Some u -> u.1 <> KCat) ->
    replacement rest out -> replacement (t :: rest) (t :: out)
| R_paste t1 c t2 rest out :
    t1.1 <> KCat -> c.1 = KCat -> t2.1 <> KCat ->
    replacement ((KIdent, t1.2 ++ t2.2) :: rest) out ->
    replacement (t1 :: c :: t2 :: rest) out.

(** 6.10.3.4: a replacement list is scanned again; a macro name met while the same
    macro is being replaced ([H]) is left alone. *)
Inductive scan (T : gmap str (list shape)) : gset str -> list shape -> list shape -> Prop :=
| scan_nil H : scan T H [] []
| scan_keep H t ts out :
    (t.1 = KIdent -> T !! t.2 = None \/ t.2 ∈ H) ->
    scan T H ts out -> scan T H (t :: ts) (t :: out)
| scan_replace H name body b ts o1 o2 :
    T !! name = Some body -> name ∉ H -> replacement body b ->
    scan T ({[name]} ∪ H) b o1 -> scan T H ts o2 ->
    scan T H ((KIdent, name) :: ts) (o1 ++ o2).

(** Macro m's replacement list mentions macro n. *)
Definition mentions (T : gmap str (list shape)) (m n : str) : Prop :=
  exists body b, T !! m = Some body /\ replacement body b /\ (KIdent, n) ∈ b /\ is_Some (T !! n).
(** A macro may mention itself, but no two macros lead to each other. *)
Definition no_mutual_recursion (T : gmap str (list shape)) : Prop :=
  forall m n, tc (mentions T) m n -> tc (mentions T) n m -> m = n.
(** ## is neither first nor last nor doubled in any replacement list. *)
Definition well_pasted (T : gmap str (list shape)) : Prop :=
  forall m body, T !! m = Some body -> exists b, replacement body b.

(** ** Tying tokens with identity to those without *)
Definition shape_of (t : tok) : shape := (knd t, txt t).
Definition shapes (ts : list tok) : list shape := shape_of <$> ts.
Definition bodies (table : gmap str macro) : gmap str (list shape) := (fun m => shapes (m_body m)) <$> table.

Definition object_like (table : gmap str macro) : Prop :=
  map_Forall (fun _ m => m_params m = None /\ m_va m = None) table.

(** The tokens of each body were allocated for that body alone, below [n]. *)
Definition allocated_below (n : nat) (table : gmap str macro) : Prop :=
  forall x1 m1 t1 x2 m2 t2,
    table !! x1 = Some m1 -> t1 ∈ m_body m1 -> table !! x2 = Some m2 -> t2 ∈ m_body m2 ->
    (ptr t1 < n)%nat /\ (ptr t1 = ptr t2 -> x1 = x2).

(** The lexer allocates the tokens of a text. *)
Fixpoint lex (n : nat) (text : list shape) : list tok :=
  match text with [] => [] | (k, x) :: text => Tok n k x :: lex (S n) text end.

(** Expand texts one after the other. *)
Fixpoint expand_texts (table : gmap str macro) (fuel : nat) (s : st) (texts : list (list shape)) :
    res (list (list shape) * st) :=
  match texts with
  | [] => Ok ([], s)
  | text :: texts =>
    let! (out, s1) := macro_expand table fuel [] (lex (fresh s) text)
                        (St (hid s) (fresh s + length text)%nat (src s)) in
    let! (outs, s2) := expand_texts table fuel s1 texts in
    Ok (shapes out :: outs, s2)
  end.
