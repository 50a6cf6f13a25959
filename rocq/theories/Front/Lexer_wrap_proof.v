(** The statements of Lexer_props.v. *)
From Coq Require Import Ascii String.
From stdpp Require Import base list numbers.
From Verif Require Import Cpp.Cond_model Front.Lexer_model Front.Lexer_spec Front.Lexer_op_proof Front.Lexer_word_proof Front.Lexer_str_proof.
Open Scope Z_scope.

Theorem word strtold name tail ls : identifier name -> ends_ident tail -> not_prefix name tail ->
  exists t, token_at false strtold (name ++ tail) ls = Ok (t, tail, ls) /\
    ((exists k, keyword_kind name k /\ t = TKey k) \/ (forall k, ~ keyword_kind name k) /\ t = TIdent name).
Proof.
  intros H1 H2 H3. pose proof (ident_token false strtold name tail ls H1 H2 H3) as H. eexists. split; [exact H|].
  unfold reserved_key. destruct (assoc name kReservedWords) as [k|] eqn:E.
  - left. exists k. split; [by apply keyword_iff|done].
  - right. split; [|done]. intros k Hk%keyword_iff. congruence.
Qed.
Theorem pp_word strtold name tail ls : identifier name -> ends_ident tail -> not_prefix name tail ->
  token_at true strtold (name ++ tail) ls = Ok (TIdent name, tail, ls).
Proof. intros H1 H2 H3. exact (ident_token true strtold name tail ls H1 H2 H3). Qed.

Theorem after_blanks pp strtold p ls r : blanks p (text_lines ls) r ->
  match r with
  | None => get_token pp strtold p ls = Ok (TEof, [], [])
  | Some (q, l) => exists ls', text_lines ls' = l /\ get_token pp strtold p ls = token_at pp strtold q ls'
  end.
Proof.
  intros H. destruct (blanks_skipped p ls r H) as (r' & E & H'). unfold get_token. rewrite E. cbn [bindr].
  destruct r as [[q l]|], r' as [[q' l']|]; try done. destruct H' as [<- H']. by exists l'.
Qed.

Theorem constant_type_chosen l u b v k un : (b = 10 \/ b = 8 \/ b = 16 \/ b = 2) ->
  constant_type l u (negb (b =? 10)) v k un ->
  l = 2 \/ v < 2 ^ 63 /\ (u = true -> l = 0 /\ v < 2 ^ 32) ->
  literal_type (to_int64 v) (IntFlag l u false b) = Ok (k, un).
Proof.
  intros Hb Ht Hok.
  assert (Hv: 0 <= v < 2 ^ 64).
  { destruct Ht as [pre suf _ Hf _]. unfold fits in Hf. cbn [fst snd] in Hf.
    destruct (rank k =? 0), un; lia. }
  rewrite (literal_type_ok l u b v k un Hb Hv Ht).
  destruct Hok as [-> |[H1 H2]]; [done|].
  rewrite (bool_decide_false (2 ^ 63 <= v)) by lia. cbn [orb].
  destruct u; [|by rewrite andb_false_r]. destruct (H2 eq_refl) as [-> ?]. rewrite (bool_decide_false (2 ^ 32 <= v)) by lia. done.
Qed.

Theorem long_constant_undefined v : 0 <= v < 2 ^ 64 ->
  literal_type (to_int64 v) (IntFlag 1 true false 10) = Undef /\ constant_type 1 true false v FX_LONG true.
Proof.
  intros Hv. assert (constant_type 1 true false v FX_LONG true) as H.
  { apply (ct_first _ _ _ _ _ _ [] [(2, true)]); [done|unfold fits; cbn; lia|done]. }
  split; [|done]. rewrite (literal_type_ok 1 true 10 v FX_LONG true); [|by left|done|done]. 
  rewrite (bool_decide_true (1 < 2)) by lia. cbn [andb]. by rewrite (bool_decide_true (1 = 1)), orb_true_r by done.
Qed.

Theorem bad_numbers strtold :
  token_at false strtold (bytes "0x -5;") [] = Ok (TInt (-5) (IntFlag 0 false false 16), bytes ";", []) /\
  token_at false strtold (bytes "0x 5;") [] = Ok (TInt 5 (IntFlag 0 false false 16), bytes ";", []) /\
  token_at false strtold (bytes "18446744073709551616;") [] = Ok (TInt (-1) (IntFlag 0 false false 10), bytes ";", []).
Proof. split; [vm_compute; reflexivity|]. split; vm_compute; reflexivity. Qed.

(** An escaped question mark; one character with three hexadecimal digits; a wide string
    with an escaped backslash and an n. *)
Definition question : str := [92; 63].
Definition three_digits : str := [92; 120; 48; 52; 49].
Definition wide_backslash : str := [76; 34; 92; 92; 110; 34].
Theorem escapes_read_otherwise strtold :
  schars question [63] /\ token_at false strtold (34 :: question ++ [34]) [] = Err /\
  schars three_digits [65] /\ token_at false strtold (34 :: three_digits ++ [34]) [] = Ok (TStr [4; 49; 0], [], []) /\
  token_at false strtold wide_backslash [] = Ok (TWstr [10; 0], [], []) /\
  token_at false strtold [76; 39; 92; 120; 49; 50; 51; 52; 39] [] = Ok (TInt 0x34 (IntFlag 1 true true 10), [], []).
Proof.
  split; [|split; [vm_compute; reflexivity|split; [|split; [vm_compute; reflexivity|split; vm_compute; reflexivity]]]].
  - apply (sc_escape [63] 63 [] []); [|cbn; lia|constructor]. constructor. by apply (bool_decide_unpack _); vm_compute.
  - apply (sc_escape [120; 48; 52; 49] 65 [] []); [|done|constructor]. constructor; [|lia].
    change 65 with ((0 * 16 + 4) * 16 + 1). apply (num_more 16 [48; 52] _ 49 1); [|unfold digit_value; lia|lia].
    apply (num_more 16 [48] _ 52 4); [|unfold digit_value; lia|lia]. constructor; [unfold digit_value; lia|lia].
Qed.

Theorem char_is_char : exists (t : token) (v : Z) (f : intflag) (k : fxk),
    token_at false (fun _ => 0%nat) (39 :: bytes "a" ++ [39]) [] = Ok (t, [], []) /\
    t = TInt v f /\ literal_type v f = Ok (k, false) /\ k <> FX_INT /\ fx_size k = 1.
Proof.
  exists (TInt 97 (IntFlag 0 false true 10)), 97, (IntFlag 0 false true 10), FX_CHAR.
  split; [vm_compute; reflexivity|]. done.
Qed.
