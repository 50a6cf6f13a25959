(** C17, C76-C85: the lexer. *)
From Coq Require Import Ascii String.
From stdpp Require Import base list numbers.
From Verif Require Import Cpp.Cond_model Front.Lexer_model Front.Lexer_spec Front.Lexer_op_proof Front.Lexer_word_proof Front.Lexer_str_proof Front.Lexer_wrap_proof.
Open Scope Z_scope.

(** A text of punctuator characters is cut into punctuators, each time the longest, in the
    preprocessor and in the compiler. *)
Theorem C17_longest_punctuator :
  forall (pp : bool) (strtold : str -> nat) (p : str),
  Forall (punctuator_char pp) p -> no_comment p ->
  exists ts, lex_all pp strtold (S (length p)) p [] = Ok ts /\ cut pp p ts.
Proof. exact lex_punctuators. Qed.
Print Assumptions C17_longest_punctuator.

Example C17_example : lex_all false (fun _ => 0%nat) 20 (bytes "<<=->>>...+++") [] =
  Ok [TOp TK_LSHIFT_ASSIGN; TOp TK_ARROW; TOp TK_RSHIFT; TOp TK_ELLIPSIS; TOp TK_INC; TOp TK_ADD].
Proof. vm_compute. reflexivity. Qed.

(** The longest identifier; it is a keyword token exactly for the keywords. *)
Theorem C76_identifier :
  forall (strtold : str -> nat) (name tail : str) (ls : list str),
  identifier name -> ends_ident tail -> not_prefix name tail ->
  exists t, token_at false strtold (name ++ tail) ls = Ok (t, tail, ls) /\
    ((exists k, keyword_kind name k /\ t = TKey k) \/ (forall k, ~ keyword_kind name k) /\ t = TIdent name).
Proof. exact word. Qed.
Print Assumptions C76_identifier.

Theorem C76_preprocessor_identifier :
  forall (strtold : str -> nat) (name tail : str) (ls : list str),
  identifier name -> ends_ident tail -> not_prefix name tail ->
  token_at true strtold (name ++ tail) ls = Ok (TIdent name, tail, ls).
Proof. exact pp_word. Qed.
Print Assumptions C76_preprocessor_identifier.

Example C76_example :
  token_at false (fun _ => 0%nat) (bytes "iffy+1") [] = Ok (TIdent (bytes "iffy"), bytes "+1", []) /\
  token_at false (fun _ => 0%nat) (bytes "if(x)") [] = Ok (TKey TK_IF, bytes "(x)", []).
Proof. split; vm_compute; reflexivity. Qed.

(** The value of an integer constant of any length below 2^64, in each base, and its
    suffix. *)
Theorem C77_integer_constant :
  forall (pp : bool) (strtold : str -> nat) (text : str) (base v : Z) (s : string) (u : bool) (l : Z) (tail : str) (ls : list str),
  constant text base v -> v < 2 ^ 64 -> (s, u, l) ∈ suffixes -> ends_number tail ->
  token_at pp strtold (text ++ bytes s ++ tail) ls = Ok (TInt (to_int64 v) (IntFlag l u false base), tail, ls).
Proof. exact integer_constant. Qed.
Print Assumptions C77_integer_constant.

Example C77_example :
  token_at false (fun _ => 0%nat) (bytes "0x7fUL)") [] = Ok (TInt 127 (IntFlag 1 true false 16), bytes ")", []) /\
  constant (bytes "0x7f") 16 127.
Proof.
  split; [vm_compute; reflexivity|]. apply (const_hex 120 (bytes "7f") 127); [by left|].
  change 127 with (7 * 16 + 15). apply (num_more 16 (bytes "7") 7 102 15); [|unfold digit_value; lia|lia]. apply (num_one 16 55 7); [unfold digit_value; lia|lia].
Qed.

(** Adjacent string literals, whatever blanks and comments stand between them, become
    one string with a final zero. *)
Theorem C78_string_literals :
  forall (strtold : str -> nat) (p : str) (ls : list str) (b : str) (r : option (str * list str)),
  literals p (text_lines ls) b r ->
  exists q ls', token_at false strtold p ls = Ok (TStr (b ++ [0]), q, ls') /\
    match r with Some (q', l') => q = q' /\ text_lines ls' = l' | None => ls' = [] end.
Proof. exact string_token. Qed.
Print Assumptions C78_string_literals.

Theorem C78_character_constant :
  forall (pp : bool) (strtold : str -> nat) (s : str) (b : Z) (tail : str) (ls : list str), cchar s b ->
  token_at pp strtold (39 :: s ++ 39 :: tail) ls = Ok (TInt (schar b) (IntFlag 0 false true 10), tail, ls).
Proof. exact char_token. Qed.
Print Assumptions C78_character_constant.

Example C78_example :
  token_at false (fun _ => 0%nat) (34 :: bytes "a" ++ [92; 110; 34; 32] ++ bytes "/* x */") [bytes "// y"; 34 :: [92; 49; 48; 49; 34; 59]]
    = Ok (TStr [97; 10; 65; 0], [59], []).
Proof. vm_compute. reflexivity. Qed.

(** Blanks, comments of both kinds and line ends are skipped up to the next token. *)
Theorem C79_blanks :
  forall (pp : bool) (strtold : str -> nat) (p : str) (ls : list str) (r : option (str * list str)),
  blanks p (text_lines ls) r ->
  match r with
  | None => get_token pp strtold p ls = Ok (TEof, [], [])
  | Some (q, l) => exists ls', text_lines ls' = l /\ get_token pp strtold p ls = token_at pp strtold q ls'
  end.
Proof. exact after_blanks. Qed.
Print Assumptions C79_blanks.

Example C79_example :
  get_token false (fun _ => 0%nat) (bytes " /* a // b") [bytes "# 3 x.c"; bytes "**/ // c */"; bytes "  /**/ z;"]
    = Ok (TIdent (bytes "z"), bytes ";", []).
Proof. vm_compute. reflexivity. Qed.

(** The type of an integer constant is the first of the types of 6.4.4.1 in which it
    fits. *)
Theorem C80_constant_type :
  forall (l : Z) (u : bool) (b v : Z) (k : fxk) (un : bool), (b = 10 \/ b = 8 \/ b = 16 \/ b = 2) ->
  constant_type l u (negb (b =? 10)) v k un ->
  l = 2 \/ v < 2 ^ 63 /\ (u = true -> l = 0 /\ v < 2 ^ 32) ->
  literal_type (to_int64 v) (IntFlag l u false b) = Ok (k, un).
Proof. exact constant_type_chosen. Qed.
Print Assumptions C80_constant_type.

(** 0x80000000 is unsigned int, 2147483648 is long. *)
Example C80_example :
  literal_type 2147483648 (IntFlag 0 false false 16) = Ok (FX_INT, true) /\
  literal_type 2147483648 (IntFlag 0 false false 10) = Ok (FX_LONG, false) /\
  constant_type 0 false true 2147483648 FX_INT true.
Proof.
  split; [vm_compute; reflexivity|]. split; [vm_compute; reflexivity|].
  apply (ct_first _ _ _ _ _ _ [(0, false)] [(1, false); (1, true); (2, false); (2, true)]); [done|unfold fits; cbn; lia|].
  constructor; [unfold fits; cbn; lia|done].
Qed.

(** Tokens asked for and handed back: the parser sees the plain sequence of tokens, and
    two tokens can always be handed back. *)
Theorem C81_handed_back :
  forall (ops : list request) (ts : list token), real ts -> at_most 2 ops 0 ts ->
  run ops (Stream [] ts) = Some (answers ops ts).
Proof. exact stream_ok. Qed.
Print Assumptions C81_handed_back.

Example C81_example : let ts := [TOp TK_LPAR; TKey TK_INT; TOp TK_RPAR] in
  at_most 2 [Ask (fun _ => true); Ask (fun _ => true); Back (TKey TK_INT); Back (TOp TK_LPAR); Ask (fun _ => true)] 0 ts /\
  answers [Ask (fun _ => true); Ask (fun _ => true); Back (TKey TK_INT); Back (TOp TK_LPAR); Ask (fun _ => true)] ts =
    [Some (TOp TK_LPAR); Some (TKey TK_INT); Some (TOp TK_LPAR)].
Proof. split; [|done]. cbn. split_and!; (lia || done). Qed.

(** 0x -5 is read as the constant -5, 0x 5 as 5, and a constant above 2^64 - 1 silently
    becomes 2^64 - 1. *)
Theorem C82_malformed_numbers_refuted :
  forall strtold : str -> nat,
  token_at false strtold (bytes "0x -5;") [] = Ok (TInt (-5) (IntFlag 0 false false 16), bytes ";", []) /\
  token_at false strtold (bytes "0x 5;") [] = Ok (TInt 5 (IntFlag 0 false false 16), bytes ";", []) /\
  token_at false strtold (bytes "18446744073709551616;") [] = Ok (TInt (-1) (IntFlag 0 false false 10), bytes ";", []).
Proof. exact bad_numbers. Qed.
Print Assumptions C82_malformed_numbers_refuted.

(** An escaped question mark is rejected; a hexadecimal escape ends after two digits; in a
    wide string escapes are read twice; a wide character keeps eight bits of an escape. *)
Theorem C83_escapes_refuted :
  forall strtold : str -> nat,
  schars question [63] /\ token_at false strtold (34 :: question ++ [34]) [] = Err /\
  schars three_digits [65] /\ token_at false strtold (34 :: three_digits ++ [34]) [] = Ok (TStr [4; 49; 0], [], []) /\
  token_at false strtold wide_backslash [] = Ok (TWstr [10; 0], [], []) /\
  token_at false strtold [76; 39; 92; 120; 49; 50; 51; 52; 39] [] = Ok (TInt 0x34 (IntFlag 1 true true 10), [], []).
Proof. exact escapes_read_otherwise. Qed.
Print Assumptions C83_escapes_refuted.

(** A character constant has type char: its size is 1. *)
Theorem C84_character_type_refuted :
  exists (t : token) (v : Z) (f : intflag) (k : fxk),
    token_at false (fun _ => 0%nat) (39 :: bytes "a" ++ [39]) [] = Ok (t, [], []) /\
    t = TInt v f /\ literal_type v f = Ok (k, false) /\ k <> FX_INT /\ fx_size k = 1.
Proof. exact char_is_char. Qed.
Print Assumptions C84_character_type_refuted.

(** Finding the type of any constant with the suffix UL shifts a 64-bit number by 64. *)
Theorem C85_unsigned_long_refuted :
  forall v : Z, 0 <= v < 2 ^ 64 ->
  literal_type (to_int64 v) (IntFlag 1 true false 10) = Undef /\ constant_type 1 true false v FX_LONG true.
Proof. exact long_constant_undefined. Qed.
Print Assumptions C85_unsigned_long_refuted.
