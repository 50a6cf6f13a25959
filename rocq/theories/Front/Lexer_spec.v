(** C11 6.4: lexical elements.  Shares with the model only the names of the token
    kinds and the token type. *)
From Coq Require Import Ascii String.
From stdpp Require Import base list numbers.
From Verif Require Import Front.Lexer_model.
Open Scope Z_scope.
Notation str := (list Z).

Definition bytes (s : string) : str := (fun a => Z.of_nat (nat_of_ascii a)) <$> list_ascii_of_string s.

(** ** 6.4.6 Punctuators (without the digraphs) *)
Definition punctuators : list (str * opk) := [
  (bytes "[", TK_LBRACKET); (bytes "]", TK_RBRACKET); (bytes "(", TK_LPAR); (bytes ")", TK_RPAR);
  (bytes "{", TK_LBRACE); (bytes "}", TK_RBRACE); (bytes ".", TK_DOT); (bytes "->", TK_ARROW);
  (bytes "++", TK_INC); (bytes "--", TK_DEC); (bytes "&", TK_AND); (bytes "*", TK_MUL);
  (bytes "+", TK_ADD); (bytes "-", TK_SUB); (bytes "~", TK_TILDA); (bytes "!", TK_NOT);
  (bytes "/", TK_DIV); (bytes "%", TK_MOD); (bytes "<<", TK_LSHIFT); (bytes ">>", TK_RSHIFT);
  (bytes "<", TK_LT); (bytes ">", TK_GT); (bytes "<=", TK_LE); (bytes ">=", TK_GE);
  (bytes "==", TK_EQ); (bytes "!=", TK_NE); (bytes "^", TK_HAT); (bytes "|", TK_OR);
  (bytes "&&", TK_LOGAND); (bytes "||", TK_LOGIOR); (bytes "?", TK_QUESTION); (bytes ":", TK_COLON);
  (bytes ";", TK_SEMICOL); (bytes "...", TK_ELLIPSIS); (bytes "=", TK_ASSIGN); (bytes "*=", TK_MUL_ASSIGN);
  (bytes "/=", TK_DIV_ASSIGN); (bytes "%=", TK_MOD_ASSIGN); (bytes "+=", TK_ADD_ASSIGN);
  (bytes "-=", TK_SUB_ASSIGN); (bytes "<<=", TK_LSHIFT_ASSIGN); (bytes ">>=", TK_RSHIFT_ASSIGN);
  (bytes "&=", TK_AND_ASSIGN); (bytes "^=", TK_HAT_ASSIGN); (bytes "|=", TK_OR_ASSIGN); (bytes ",", TK_COMMA)].
Definition pp_punctuators : list (str * opk) :=
  punctuators ++ [(bytes "#", PPTK_STRINGIFY); (bytes "##", PPTK_CONCAT)].
(** In the preprocessor, and in the compiler. *)
Definition table (pp : bool) : list (str * opk) := if pp then pp_punctuators else punctuators.

(** 6.4p4: the longest punctuator at the start of [p]. *)
Definition longest (pp : bool) (p : str) (k : opk) (rest : str) : Prop :=
  exists op, p = op ++ rest /\ (op, k) ∈ table pp /\
    forall op' k', (op', k') ∈ table pp -> op' `prefix_of` p -> (length op' <= length op)%nat.

(** A text cut into punctuators, the longest first each time. *)
Inductive cut (pp : bool) : str -> list token -> Prop :=
| cut_nil : cut pp [] []
| cut_op p k rest ts : longest pp p k rest -> cut pp rest ts -> cut pp p (TOp k :: ts).

(** Nothing but punctuator characters, no comment, no number. *)
Definition punctuator_char (pp : bool) (c : Z) : Prop := exists k, ([c], k) ∈ table pp.
Definition no_comment (p : str) : Prop :=
  forall a b c, p = a ++ [47; c] ++ b -> c <> 42 /\ c <> 47.

(** ** 6.4.2 Identifiers, 6.4.1 Keywords *)
Definition letter (c : Z) : Prop := 65 <= c <= 90 \/ 97 <= c <= 122 \/ c = 95.
Definition decimal (c : Z) : Prop := 48 <= c <= 57.
(** A character of an identifier: a letter or digit, or several bytes of UTF-8. *)
Definition lead_count (c : Z) (n : nat) : Prop :=
  0xc0 <= c < 0xe0 /\ n = 1%nat \/ 0xe0 <= c < 0xf0 /\ n = 2%nat \/ 0xf0 <= c < 0xf8 /\ n = 3%nat.
Inductive ident_char : str -> Prop :=
| ic_ascii c : letter c \/ decimal c -> ident_char [c]
| ic_utf8 c n cs : lead_count c n -> length cs = n -> Forall (fun d => 0x80 <= d < 0xc0) cs -> ident_char (c :: cs).
Definition identifier (name : str) : Prop :=
  exists x xs, name = concat (x :: xs) /\ Forall ident_char (x :: xs) /\ (forall c, x = [c] -> ~ decimal c).
(** What may stand right after: no character that continues the identifier. *)
Definition ends_ident (tail : str) : Prop :=
  match tail with c :: _ => ~ letter c /\ ~ decimal c /\ c < 0xc0 | [] => True end.
(** L before a quote belongs to the literal. *)
Definition not_prefix (name tail : str) : Prop :=
  name = bytes "L" -> match tail with c :: _ => c <> 34 /\ c <> 39 | [] => True end.

Definition keywords : list (string * kwk) := [
  ("auto", TK_AUTO); ("break", TK_BREAK); ("case", TK_CASE); ("char", TK_CHAR); ("const", TK_CONST);
  ("continue", TK_CONTINUE); ("default", TK_DEFAULT); ("do", TK_DO); ("double", TK_DOUBLE); ("else", TK_ELSE);
  ("enum", TK_ENUM); ("extern", TK_EXTERN); ("float", TK_FLOAT); ("for", TK_FOR); ("goto", TK_GOTO);
  ("if", TK_IF); ("inline", TK_INLINE); ("int", TK_INT); ("long", TK_LONG); ("register", TK_REGISTER);
  ("restrict", TK_RESTRICT); ("return", TK_RETURN); ("short", TK_SHORT); ("signed", TK_SIGNED);
  ("sizeof", TK_SIZEOF); ("static", TK_STATIC); ("struct", TK_STRUCT); ("switch", TK_SWITCH);
  ("typedef", TK_TYPEDEF); ("union", TK_UNION); ("unsigned", TK_UNSIGNED); ("void", TK_VOID);
  ("volatile", TK_VOLATILE); ("while", TK_WHILE); ("_Alignof", TK_ALIGNOF); ("_Bool", TK_BOOL);
  ("_Generic", TK_GENERIC); ("_Noreturn", TK_NORETURN);
  (* extensions *)
  ("__asm", TK_ASM); ("__attribute__", TK_ATTRIBUTE); ("__auto_type", TK_AUTO_TYPE);
  ("typeof", TK_TYPEOF); ("__typeof__", TK_TYPEOF)]%string.
Definition keyword_kind (name : str) (k : kwk) : Prop := exists s, (s, k) ∈ keywords /\ bytes s = name.

(** ** 6.4.4.1 Integer constants *)
Definition digit_value (c : Z) (v : Z) : Prop :=
  48 <= c <= 57 /\ v = c - 48 \/ 65 <= c <= 70 /\ v = c - 55 \/ 97 <= c <= 102 /\ v = c - 87.
(** A digit sequence and its value. *)
Inductive number (base : Z) : str -> Z -> Prop :=
| num_one c v : digit_value c v -> v < base -> number base [c] v
| num_more ds n c v : number base ds n -> digit_value c v -> v < base -> number base (ds ++ [c]) (n * base + v).
Inductive constant : str -> Z -> Z -> Prop :=
| const_zero : constant (bytes "0") 10 0
| const_dec ds v : number 10 ds v -> head ds <> Some 48 -> constant ds 10 v
| const_oct ds v : number 8 ds v -> constant (48 :: ds) 8 v
| const_hex x ds v : x = 120 \/ x = 88 -> number 16 ds v -> constant (48 :: x :: ds) 16 v
| const_bin x ds v : x = 98 \/ x = 66 -> number 2 ds v -> constant (48 :: x :: ds) 2 v.
(** Suffixes: text, unsigned, how many l. *)
Definition suffixes : list (string * bool * Z) := [
  ("", false, 0); ("u", true, 0); ("U", true, 0); ("l", false, 1); ("L", false, 1);
  ("ll", false, 2); ("LL", false, 2); ("ul", true, 1); ("uL", true, 1); ("Ul", true, 1); ("UL", true, 1);
  ("ull", true, 2); ("uLL", true, 2); ("Ull", true, 2); ("ULL", true, 2);
  ("lu", true, 1); ("lU", true, 1); ("Lu", true, 1); ("LU", true, 1);
  ("llu", true, 2); ("llU", true, 2); ("LLu", true, 2); ("LLU", true, 2)]%string.
(** What may stand right after a number: nothing that continues it (6.4.8). *)
Definition ends_number (tail : str) : Prop :=
  match tail with c :: _ => ~ letter c /\ ~ decimal c /\ c <> 46 | [] => True end.

(** ** 6.4.4.4, 6.4.5 Character constants and string literals *)
Inductive escape : str -> Z -> Prop :=
| esc_simple c v : (c, v) ∈ [(39, 39); (34, 34); (63, 63); (92, 92); (97, 7); (98, 8); (102, 12); (110, 10);
                            (114, 13); (116, 9); (118, 11)] -> escape [c] v
| esc_oct ds v : (1 <= length ds <= 3)%nat -> number 8 ds v -> v < 256 -> escape ds v
| esc_hex ds v : number 16 ds v -> v < 256 -> escape (120 :: ds) v.
(** A shorter reading is not taken when a longer one is possible. *)
Definition longest_escape (e tail : str) : Prop :=
  match e with
  | 120 :: _ => match tail with c :: _ => ~ exists v, digit_value c v | [] => True end
  | c :: _ => 48 <= c <= 55 -> length e = 3%nat \/ match tail with d :: _ => ~ 48 <= d <= 55 | [] => True end
  | [] => True
  end.
(** The characters between quotes and the bytes they stand for. *)
Inductive schars : str -> str -> Prop :=
| sc_nil : schars [] []
| sc_char c s b : 0 < c < 256 -> c <> 34 -> c <> 92 -> schars s b -> schars (c :: s) (c :: b)
| sc_escape e v s b : escape e v -> longest_escape e s -> schars s b -> schars (92 :: e ++ s) (v :: b).

(** The same without the escapes xcc reads otherwise: no escaped question mark, at most
    two hexadecimal digits. *)
Inductive common_schars : str -> str -> Prop :=
| cs_nil : common_schars [] []
| cs_char c s b : 0 < c < 256 -> c <> 34 -> c <> 92 -> common_schars s b -> common_schars (c :: s) (c :: b)
| cs_escape e v s b : escape e v -> longest_escape e s -> head e <> Some 63 -> (head e = Some 120 -> (length e <= 3)%nat) ->
    common_schars s b -> common_schars (92 :: e ++ s) (v :: b).
(** What stands between single quotes: one basic character or one escape. *)
Inductive cchar : str -> Z -> Prop :=
| cc_char c : 0 < c < 128 -> c <> 39 -> c <> 92 -> cchar [c] c
| cc_escape e v : escape e v -> head e <> Some 63 -> (head e = Some 120 -> (length e <= 3)%nat) -> cchar (92 :: e) v.

(** ** 6.4.9, 5.1.1.2 White space, comments and line ends *)
(** A line that starts with # is a line marker left by the preprocessor. *)
Fixpoint text_lines (ls : list str) : list str :=
  match ls with [] => [] | l :: ls => match l with 35 :: _ => text_lines ls | _ => l :: text_lines ls end end.
Definition space (c : Z) : Prop := c = 32 \/ 9 <= c <= 13.
Definition no_end (b : str) : Prop := forall x y, b <> x ++ [42; 47] ++ y.
(** The text after the start of a block comment and what is left after its end. *)
Inductive closes : str -> list str -> str -> list str -> Prop :=
| cl_here b q ls : no_end (b ++ [42]) -> closes (b ++ [42; 47] ++ q) ls q ls
| cl_next p l ls q ls' : no_end p -> closes l ls q ls' -> closes p (l :: ls) q ls'.
(** From a text to the start of the next token; [None]: there is none. *)
Inductive blanks : str -> list str -> option (str * list str) -> Prop :=
| bl_token c p ls : ~ space c -> ~ (c = 47 /\ exists d q, p = d :: q /\ (d = 42 \/ d = 47)) ->
    blanks (c :: p) ls (Some (c :: p, ls))
| bl_space c p ls r : space c -> blanks p ls r -> blanks (c :: p) ls r
| bl_block p ls q ls' r : closes p ls q ls' -> blanks q ls' r -> blanks (47 :: 42 :: p) ls r
| bl_line p l ls r : blanks l ls r -> blanks (47 :: 47 :: p) (l :: ls) r
| bl_line_end p : blanks (47 :: 47 :: p) [] None
| bl_eol l ls r : blanks l ls r -> blanks [] (l :: ls) r
| bl_end : blanks [] [] None.

(** 5.1.1.2 phase 6: string literals one after the other, with blanks between them; the
    bytes of all of them, and what follows. *)
Inductive literals : str -> list str -> str -> option (str * list str) -> Prop :=
| lit_last s b q ls r : common_schars s b -> blanks q ls r ->
    (forall c p l, r = Some (c :: p, l) -> c <> 34 /\ ~ (c = 76 /\ head p = Some 34)) ->
    literals (34 :: s ++ 34 :: q) ls b r
| lit_more s b q ls q' ls' b' r : common_schars s b -> blanks q ls (Some (q', ls')) -> literals q' ls' b' r ->
    literals (34 :: s ++ 34 :: q) ls (b ++ b') r.

(** ** Tokens asked for and handed back *)
(** A request: take the next token if it is accepted; hand a token back. *)
Inductive request := Ask (accept : token -> bool) | Back (t : token).
Definition peek (l : list token) : token := match l with [] => TEof | t :: _ => t end.
(** The answers, when the tokens of the text are [l]. *)
Fixpoint answers (ops : list request) (l : list token) : list (option token) :=
  match ops with
  | [] => []
  | Ask accept :: ops => if accept (peek l) then Some (peek l) :: answers ops (tail l) else None :: answers ops l
  | Back t :: ops => answers ops (match t with TEof => l | _ => t :: l end)
  end.
(** How many tokens are handed back and not asked for again: at most [n] at any time. *)
Fixpoint at_most (n : nat) (ops : list request) (pending : nat) (l : list token) : Prop :=
  (pending <= n)%nat /\
  match ops with
  | [] => True
  | Ask accept :: ops => if accept (peek l) then at_most n ops (pending - 1) (tail l) else at_most n ops pending l
  | Back t :: ops => t <> TEof /\ at_most n ops (S pending) (t :: l)
  end.

(** ** 6.4.4.1 The type of an integer constant *)
(** How many long, unsigned, not decimal: the types to try, int long and long long as 0, 1
    and 2. *)
Definition candidates (l : Z) (u radix : bool) : list (Z * bool) :=
  let from := match l with 0 => [0; 1; 2] | 1 => [1; 2] | 2 => [2] | _ => [] end in
  if u then map (fun k => (k, true)) from
  else if radix then from ≫= (fun k => [(k, false); (k, true)])
  else map (fun k => (k, false)) from.
Definition fits (t : Z * bool) (v : Z) : Prop :=
  0 <= v < 2 ^ ((if fst t =? 0 then 32 else 64) - (if snd t then 0 else 1)).
Definition rank (k : fxk) : Z := match k with FX_CHAR => -1 | FX_INT => 0 | FX_LONG => 1 | FX_LLONG => 2 end.
(** The first type of the list in which the value fits. *)
Inductive constant_type (l : Z) (u radix : bool) (v : Z) (k : fxk) (un : bool) : Prop :=
| ct_first pre suf : candidates l u radix = pre ++ (rank k, un) :: suf -> fits (rank k, un) v ->
    Forall (fun t => ~ fits t v) pre -> constant_type l u radix v k un.
