(** Model of conditional inclusion in the preprocessor:
    /repo/src/cpp/preprocessor.c (process_directive and the loop around it) and
    the text helpers of /repo/src/util/util.c it uses.

    A line is the list of its bytes without the final NUL (getline_cont has
    already removed the newline and joined continued lines, see Util/Line).
    An error exit (error, lex_error) or an out-of-bounds read is [None].

    Everything else the preprocessor does with a line is a parameter
    ([oracles]): whether an #ifdef name is defined, the value of an #if
    expression, what processing a text line or another directive does to the
    rest of the state (macro table and output).  Simplifications: an enabled
    text line, a macro call or a condition does not read further lines (the code
    does so for comments and macro calls that go on in the next line); the line
    number bookkeeping of adjust_output_lineno is left out. *)
From stdpp Require Import base list numbers option.

Notation str := (list Z).

(** isspace, C locale. *)
Definition isspace (c : Z) : bool := ((9 <=? c) && (c <=? 13) || (c =? 32))%Z.
(** isdigit, isalnum, C locale; util.c:14-16 isalnum_. *)
Definition isdigit (c : Z) : bool := ((48 <=? c) && (c <=? 57))%Z.
Definition isalnum_ (c : Z) : bool :=
  (isdigit c || (65 <=? c) && (c <=? 90) || (97 <=? c) && (c <=? 122) || (c =? 95))%Z.

(** util.c:313-317 skip_whitespaces. *)
Fixpoint skip_whitespaces (s : str) : str :=
  match s with c :: s' => if isspace c then skip_whitespaces s' else s | [] => [] end.

(** util.c:319-322 block_comment_start: the text from the slash on. *)
Definition block_comment_start (p : str) : option str :=
  match skip_whitespaces p with
  | (47%Z :: 42%Z :: _) as q => Some q
  | _ => None
  end.

(** util.c:324-332 block_comment_end: strchr to the next star, then test the
    character after it; the search goes on from that character. *)
Fixpoint block_comment_end (p : str) : option str :=
  match p with
  | [] => None
  | c :: p' => if (c =? 42)%Z
               then match p' with
                    | d :: p'' => if (d =? 47)%Z then Some p'' else block_comment_end p'
                    | [] => None
                    end
               else block_comment_end p'
  end.

(** strncmp(s, word, len) == 0: the rest after the word. *)
Fixpoint strip (word s : str) : option str :=
  match word, s with
  | [], _ => Some s
  | w :: word', c :: s' => if (w =? c)%Z then strip word' s' else None
  | _ :: _, [] => None
  end.

(** preprocessor.c:57-62 keyword. *)
Definition keyword (s word : str) : option str :=
  match strip word s with
  | None => None
  | Some rest =>
    match rest with
    | c :: _ => if isalnum_ c then None else Some (skip_whitespaces rest)
    | [] => Some (skip_whitespaces rest)
    end
  end.

(** preprocessor.c:64-94 find_directive.  Outer [None]: error exit (a block
    comment after the # is not closed on the line), or out of fuel. *)
Fixpoint find_directive_aux (fuel : nat) (hash : bool) (p : str) : option (option str) :=
  match fuel with
  | O => None
  | S fuel =>
    let p := skip_whitespaces p in
    match p with
    | 35%Z :: p' => if hash then Some (Some p) else find_directive_aux fuel true p'
    | 47%Z :: 47%Z :: _ => Some (if hash then Some [] else None)
    | 47%Z :: _ =>
      match block_comment_start p with
      | None => Some (if hash then Some p else None)
      | Some comstart =>
        match block_comment_end (drop 2 comstart) with
        | None => if hash then None else Some None
        | Some q => find_directive_aux fuel hash q
        end
      end
    | _ => Some (if hash then Some p else None)
    end
  end.

Definition find_directive (line : str) : option (option str) :=
  find_directive_aux (S (length line)) false line.

(** preprocessor.c:548-563 find_double_quote_end: after a backslash the pointer
    moves on two characters, past the final NUL if the backslash was last. *)
Fixpoint find_double_quote_end (p : str) : option str :=
  match p with
  | [] => None
  | 34%Z :: p' => Some p'
  | 92%Z :: p' => match p' with _ :: p'' => find_double_quote_end p'' | [] => None end
  | _ :: p' => find_double_quote_end p'
  end.

(** preprocessor.c:565-581 find_block_comment_end: the rest of the line in which
    the comment ends, and the lines after it. *)
Fixpoint find_block_comment_end (p : str) (rest : list str) : option (str * list str) :=
  match block_comment_end p with
  | Some e => Some (e, rest)
  | None => match rest with
            | [] => None
            | line :: rest' => find_block_comment_end line rest'
            end
  end.

(** preprocessor.c:590-604 the inner loop for character constants: [None] when
    the line ends first. *)
Fixpoint char_end (p : str) : option str :=
  match p with
  | [] => None
  | 92%Z :: p' => match p' with _ :: p'' => char_end p'' | [] => None end
  | 39%Z :: p' => Some p'
  | _ :: p' => char_end p'
  end.

(** preprocessor.c:583-620 process_disabled_line: the lines left to read. *)
Fixpoint process_disabled_aux (fuel : nat) (p : str) (rest : list str) : option (list str) :=
  match fuel with
  | O => None
  | S fuel =>
    match p with
    | [] => Some rest
    | 34%Z :: p' => match find_double_quote_end p' with
                    | None => None
                    | Some q => process_disabled_aux fuel q rest
                    end
    | 39%Z :: p' => match char_end p' with
                    | None => Some rest
                    | Some q => process_disabled_aux fuel q rest
                    end
    | 47%Z :: p' =>
      match p' with
      | 42%Z :: p'' =>
        match find_block_comment_end p'' rest with
        | None => None
        | Some (q, rest') => process_disabled_aux fuel q rest'
        end
      | 47%Z :: _ => Some rest
      | _ => process_disabled_aux fuel p' rest
      end
    | _ :: p' => process_disabled_aux fuel p' rest
    end
  end.

Definition total_length (p : str) (rest : list str) : nat :=
  (length p + foldr plus 0 (length <$> rest))%nat.

Definition process_disabled_line (p : str) (rest : list str) : option (list str) :=
  process_disabled_aux (S (total_length p rest)) p rest.

(** preprocessor.c:27-31 enum Satisfy; 19-21 the packing of a stack entry;
    662-664 cond_value. *)
Definition NotSatisfied : Z := 0.
Definition Satisfied : Z := 1.
Definition ElseAppeared : Z := 2.
Definition CF_ENABLE : Z := 1.
Definition CF_SATISFY_SHIFT : Z := 1.
Definition CF_SATISFY_MASK : Z := 6.
Definition cond_value (enable : bool) (satisfy : Z) : Z :=
  Z.lor (if enable then CF_ENABLE else 0) (Z.shiftl satisfy CF_SATISFY_SHIFT).

Definition w_ifdef : str := [105; 102; 100; 101; 102]%Z.
Definition w_ifndef : str := [105; 102; 110; 100; 101; 102]%Z.
Definition w_if : str := [105; 102]%Z.
Definition w_else : str := [101; 108; 115; 101]%Z.
Definition w_elif : str := [101; 108; 105; 102]%Z.
Definition w_endif : str := [101; 110; 100; 105; 102]%Z.

(** What the rest of the preprocessor does; [None] is an error exit. *)
Record oracles {S : Type} := {
  (** 622-631 handle_ifdef: is the macro defined, and the text after the name. *)
  o_ifdef : S -> str -> option (bool * str);
  (** 633-660 handle_if: the flag says whether trailing text is an error; result:
      is the value nonzero, and get_lex_p() (NULL at the end of the line). *)
  o_if : S -> bool -> str -> option (bool * option str);
  (** 137-206 process_line on an enabled text line. *)
  o_text : S -> str -> option S;
  (** 751-779 the other directives in an enabled group, and the text they leave. *)
  o_dir : S -> str -> option (S * option str);
  (** 697-701 a line marker. *)
  o_marker : S -> str -> option S;
}.
Arguments oracles : clear implicits.

(** preprocessor.c:33-41 the fields of PreprocessFile that matter here. *)
Record state {S : Type} := St {
  condstack : list Z;   (* last pushed first *)
  enable : bool;
  satisfy : Z;
  other : S;
}.
Arguments state : clear implicits.
Arguments St {S}.

Section machine.
  Context {S : Type} (Or : oracles S).

  Definition is_enabled_flag (flag : Z) : bool := negb (Z.land flag CF_ENABLE =? 0)%Z.

  (** preprocessor.c:709-725: the three ways to open a section share this. *)
  Definition open_section (st : state S) (cond : bool) : state S :=
    let sat := if cond then Satisfied else NotSatisfied in
    St (cond_value (enable st) (satisfy st) :: condstack st)
       (enable st && (sat =? Satisfied)%Z) sat (other st).

  (** preprocessor.c:690-782 process_directive: the new state and the text still
      to be processed ([None] is NULL). *)
  Definition process_directive (st : state S) (line : str) : option (state S * option str) :=
    d ← find_directive line;
    match d with
    | None => Some (st, Some line)
    | Some directive =>
      if match directive with c :: _ => isdigit c | [] => false end
      then s ← o_marker Or (other st) line;
           Some (St (condstack st) (enable st) (satisfy st) s, None)
      else
      match keyword directive w_ifdef with
      | Some next =>
        '(defined, next) ← o_ifdef Or (other st) next;
        Some (open_section st defined, Some next)
      | None =>
      match keyword directive w_ifndef with
      | Some next =>
        '(defined, next) ← o_ifdef Or (other st) next;
        Some (open_section st (negb defined), Some next)
      | None =>
      match keyword directive w_if with
      | Some next =>
        '(cond, next) ← o_if Or (other st) (enable st) next;
        Some (open_section st cond, next)
      | None =>
      match keyword directive w_else with
      | Some next =>
        match condstack st with
        | [] => None
        | flag :: _ =>
          if (satisfy st =? ElseAppeared)%Z then None
          else Some (St (condstack st)
                        (negb (enable st) && (satisfy st =? NotSatisfied)%Z && is_enabled_flag flag)
                        ElseAppeared (other st), Some next)
        end
      | None =>
      match keyword directive w_elif with
      | Some next =>
        match condstack st with
        | [] => None
        | flag :: _ =>
          if (satisfy st =? ElseAppeared)%Z then None
          else
            '(cond2, next) ← o_if Or (other st) (enable st) next;
            let cond := (satisfy st =? NotSatisfied)%Z && cond2 in
            let sat := if (satisfy st =? NotSatisfied)%Z && cond then Satisfied else satisfy st in
            Some (St (condstack st) (negb (enable st) && cond && is_enabled_flag flag)
                     sat (other st), next)
        end
      | None =>
      match keyword directive w_endif with
      | Some next =>
        match condstack st with
        | [] => None
        | flag :: stack =>
          Some (St stack (is_enabled_flag flag)
                   (Z.shiftr (Z.land flag CF_SATISFY_MASK) CF_SATISFY_SHIFT) (other st), Some next)
        end
      | None =>
        if enable st
        then '(s, next) ← o_dir Or (other st) directive;
             Some (St (condstack st) (enable st) (satisfy st) s, next)
        else Some (st, None)
      end end end end end end
    end.

  (** preprocessor.c:798-819 get_processed_next_line together with the loop of
      845-848 in preprocess. *)
  Fixpoint run (fuel : nat) (st : state S) (lines : list str) : option (state S) :=
    match fuel with
    | O => None
    | Datatypes.S fuel =>
      match lines with
      | [] => Some st
      | line :: rest =>
        '(st1, next) ← process_directive st line;
        match next with
        | None => run fuel st1 rest
        | Some t =>
          if enable st1
          then s ← o_text Or (other st1) t;
               run fuel (St (condstack st1) (enable st1) (satisfy st1) s) rest
          else rest' ← process_disabled_line t rest; run fuel st1 rest'
        end
      end
    end.

  (** preprocessor.c:821-859 preprocess, for the conditional part. *)
  Definition preprocess (s : S) (lines : list str) : option S :=
    st ← run (Datatypes.S (length lines)) (St [] true NotSatisfied s) lines;
    match condstack st with [] => Some (other st) | _ => None end.
End machine.
