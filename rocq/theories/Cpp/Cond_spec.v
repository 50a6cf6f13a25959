(** Conditional inclusion as C describes it (C11 6.10, 6.10.1): what a directive
    line is, how groups nest, and which groups are processed.  Uses no function
    of the model; only the byte-string notation and the record of parameters
    (the value of a condition, the effect of a text line, ...) are shared. *)
From stdpp Require Import base list numbers option.
From Verif Require Import Cpp.Cond_model.

Definition space (c : Z) : Prop := c ∈ [9; 10; 11; 12; 13; 32]%Z.

(** A comment on one line: slash star, text without star slash, star slash. *)
Definition no_comment_end (b : str) : Prop := forall x y, b <> x ++ [42; 47]%Z ++ y.
Definition comment (s : str) : Prop :=
  exists b, s = [47; 42]%Z ++ b ++ [42; 47]%Z /\ no_comment_end (b ++ [42]%Z).

(** White space and comments. *)
Inductive blank : str -> Prop :=
| blank_nil : blank []
| blank_space c s : space c -> blank s -> blank (c :: s)
| blank_comment s1 s2 : comment s1 -> blank s2 -> blank (s1 ++ s2).

Definition ident_char (c : Z) : Prop :=
  (48 <= c <= 57 \/ 65 <= c <= 90 \/ 97 <= c <= 122 \/ c = 95)%Z.

(** Does not go on with an identifier character. *)
Definition word_ends (t : str) : Prop := forall c t', t = c :: t' -> ~ ident_char c.
Definition no_space_first (t : str) : Prop := forall c t', t = c :: t' -> ~ space c.

(** [line] is the directive [name], with text [t] after it (leading white space
    removed). *)
Definition is_directive (name line t : str) : Prop :=
  exists b1 b2 w, blank b1 /\ blank b2 /\ Forall space w /\
    line = b1 ++ [35]%Z ++ b2 ++ name ++ w ++ t /\
    word_ends (w ++ t) /\ no_space_first t.

Definition conditional_names : list str :=
  [w_ifdef; w_ifndef; w_if; w_else; w_elif; w_endif].

(** A line is a directive line when a # comes first. *)
Definition has_hash (line : str) : Prop :=
  exists b t, blank b /\ line = b ++ [35]%Z ++ t.

(** Some other directive (or the null directive, or a line marker). *)
Definition is_other (line : str) : Prop :=
  has_hash line /\ forall name t, name ∈ conditional_names -> ~ is_directive name line t.

Definition is_text (line : str) : Prop := ~ has_hash line.

(** The text of a directive line after the # and the blanks that follow it; a
    line comment there makes it empty. *)
Definition directive_text (line d : str) : Prop :=
  exists b1 b2 r, blank b1 /\ blank b2 /\ line = b1 ++ [35]%Z ++ b2 ++ r /\
    no_space_first r /\ (forall x, r <> [47; 42]%Z ++ x) /\
    (d = r /\ (forall x, r <> [47; 47]%Z ++ x) \/ d = [] /\ exists x, r = [47; 47]%Z ++ x).

Section spec.
  Context {S : Type} (Or : oracles S).

  (** The line opens a section; in state [s] its condition is [v], and [t] is
      the text left over after the condition. *)
  Inductive condition (s : S) : str -> bool -> option str -> Prop :=
  | cond_ifdef line c v t : is_directive w_ifdef line c ->
      o_ifdef Or s c = Some (v, t) -> condition s line v (Some t)
  | cond_ifndef line c v t : is_directive w_ifndef line c ->
      o_ifdef Or s c = Some (v, t) -> condition s line (negb v) (Some t)
  | cond_if line c v t : is_directive w_if line c ->
      o_if Or s true c = Some (v, t) -> condition s line v t.

  Definition opens (line : str) : Prop :=
    exists name c, name ∈ [w_ifdef; w_ifndef; w_if] /\ is_directive name line c.

  (** Text is processed when its group is selected, and dropped otherwise. *)
  Inductive text_effect : bool -> S -> option str -> S -> Prop :=
  | text_live s t s' : o_text Or s t = Some s' -> text_effect true s (Some t) s'
  | text_none s : text_effect true s None s
  | text_dead s t : text_effect false s t s.

  Inductive dir_effect : bool -> S -> str -> S -> Prop :=
  | dir_live line d s s1 t s2 : directive_text line d ->
      o_dir Or s d = Some (s1, t) -> text_effect true s1 t s2 ->
      dir_effect true s line s2
  | dir_dead line s : dir_effect false s line s.

  Definition is_marker (line : str) : Prop :=
    exists b1 b2 c t, blank b1 /\ blank b2 /\ (48 <= c <= 57)%Z /\
      line = b1 ++ [35]%Z ++ b2 ++ c :: t.

  (** [group live s lines s']: the lines form a group (text, other directives
      and complete sections); processing it when it is selected ([live]), or
      skipping it, takes [s] to [s'].

      [sections live done s lines s']: the lines are what follows the first
      group of a section, up to and including its #endif; [live]: the section
      itself is in a selected group; [done]: one of its groups was selected. *)
  Inductive group : bool -> S -> list str -> S -> Prop :=
  | g_nil live s : group live s [] s
  | g_text live s line lines s1 s2 :
      is_text line -> text_effect live s (Some line) s1 ->
      group live s1 lines s2 -> group live s (line :: lines) s2
  | g_other live s line lines s1 s2 :
      is_other line -> ~ is_marker line -> dir_effect live s line s1 ->
      group live s1 lines s2 -> group live s (line :: lines) s2
  | g_marker live s line lines s1 s2 :
      is_marker line -> o_marker Or s line = Some s1 ->
      group live s1 lines s2 -> group live s (line :: lines) s2
  | g_section s line v t body s1 s2 tail s3 lines s4 :
      condition s line v t -> text_effect v s t s1 ->
      group v s1 body s2 -> sections true v s2 tail s3 ->
      group true s3 lines s4 -> group true s (line :: body ++ tail ++ lines) s4
  | g_skipped s line body s2 tail s3 lines s4 :
      opens line -> group false s body s2 -> sections false false s2 tail s3 ->
      group false s3 lines s4 -> group false s (line :: body ++ tail ++ lines) s4
  with sections : bool -> bool -> S -> list str -> S -> Prop :=
  | s_endif live done s line t s' :
      is_directive w_endif line t -> text_effect live s (Some t) s' ->
      sections live done s [line] s'
  | s_else live done s line t s1 body s2 line' t' s' :
      is_directive w_else line t ->
      text_effect (live && negb done) s (Some t) s1 ->
      group (live && negb done) s1 body s2 ->
      is_directive w_endif line' t' -> text_effect live s2 (Some t') s' ->
      sections live done s (line :: body ++ [line']) s'
  | s_elif s line c v t s1 body s2 tail s' :
      is_directive w_elif line c -> o_if Or s false c = Some (v, t) ->
      text_effect v s t s1 -> group v s1 body s2 -> sections true v s2 tail s' ->
      sections true false s (line :: body ++ tail) s'
  | s_elif_skipped live done s line c body s2 tail s' :
      is_directive w_elif line c -> live && negb done = false ->
      group false s body s2 -> sections live done s2 tail s' ->
      sections live done s (line :: body ++ tail) s'.
End spec.

(** Nesting alone, without values. *)
Inductive nested : list str -> Prop :=
| n_nil : nested []
| n_plain line lines : is_text line \/ is_other line \/ is_marker line ->
    nested lines -> nested (line :: lines)
| n_section line body tail lines : opens line -> nested body -> nested_tail tail ->
    nested lines -> nested (line :: body ++ tail ++ lines)
with nested_tail : list str -> Prop :=
| nt_endif line t : is_directive w_endif line t -> nested_tail [line]
| nt_else line t body line' t' : is_directive w_else line t -> nested body ->
    is_directive w_endif line' t' -> nested_tail (line :: body ++ [line'])
| nt_elif line t body tail : is_directive w_elif line t -> nested body ->
    nested_tail tail -> nested_tail (line :: body ++ tail).

(** Text in which every string, character constant and comment ends on the line. *)
Inductive quoted (q : Z) : str -> Prop :=   (* up to and including the closing quote *)
| q_end : quoted q [q]
| q_escape c s : quoted q s -> quoted q (92%Z :: c :: s)
| q_char c s : c <> q -> c <> 92%Z -> quoted q s -> quoted q (c :: s).

Inductive closed : str -> Prop :=
| c_nil : closed []
| c_line_comment t : closed ([47; 47]%Z ++ t)
| c_comment s t : comment s -> closed t -> closed (s ++ t)
| c_string s t : quoted 34 s -> closed t -> closed (34%Z :: s ++ t)
| c_char s t : quoted 39 s -> closed t -> closed (39%Z :: s ++ t)
| c_slash t : (forall x, t <> 42%Z :: x) -> (forall x, t <> 47%Z :: x) ->
    closed t -> closed (47%Z :: t)
| c_other c t : c ∉ [34; 39; 47]%Z -> closed t -> closed (c :: t).

Section spec2.
  Context {S : Type} (Or : oracles S).

  (** Nothing that matters goes on in the next line: the blanks after the # end
      on the line, and so do the strings and comments of skipped text. *)
  Record self_contained (line : str) : Prop := {
    sc_hash : has_hash line -> exists d, directive_text line d;
    sc_text : is_text line -> closed line;
    sc_trail name t : name ∈ [w_else; w_endif] -> is_directive name line t -> closed t;
    sc_ifdef name c s v t : name ∈ [w_ifdef; w_ifndef] -> is_directive name line c ->
      o_ifdef Or s c = Some (v, t) -> closed t;
    sc_if name c s e v t : name ∈ [w_if; w_elif] -> is_directive name line c ->
      o_if Or s e c = Some (v, Some t) -> closed t;
  }.

  (** The condition on the line can be evaluated without an error, whatever the
      macros. *)
  Record evaluable (line : str) : Prop := {
    ev_ifdef name c s : name ∈ [w_ifdef; w_ifndef] -> is_directive name line c ->
      o_ifdef Or s c <> None;
    ev_if name c s e : name ∈ [w_if; w_elif] -> is_directive name line c ->
      o_if Or s e c <> None;
  }.
End spec2.

(** The text of a file, and two files that become the same one when a comment,
    possibly over several lines, is replaced by a space (translation phase 3,
    before directives are looked at in phase 4). *)
Fixpoint file_text (lines : list str) : str :=
  match lines with [] => [] | l :: rest => l ++ [10]%Z ++ file_text rest end.

Definition same_but_for_a_comment (lines1 lines2 : list str) : Prop :=
  exists a c b, comment c /\ Forall (fun x => x ∉ [34; 39; 47]%Z) a /\
    file_text lines1 = a ++ c ++ b /\ file_text lines2 = a ++ [32]%Z ++ b.
