(** C15, C16, C69-C75: macro expansion in the preprocessor. *)
From stdpp Require Import base list numbers gmap sets.
From Verif Require Import Cpp.Macro_model Cpp.Macro_spec Cpp.Macro_fun_spec Cpp.Macro_proof Cpp.Macro_scan_proof.
From Verif Require Import Cpp.Macro_fun_proof Cpp.Macro_subst_proof Cpp.Macro_call_proof.

(** Whatever the object-like macros, the text, the tokens ahead and the hide sets
    left over from before, expansion ends with a result. *)
Theorem C15_expansion_terminates :
  forall (table : gmap str macro), object_like table ->
  forall (out todo : list tok) (s : st),
  exists (n : nat) (r : list tok * st), forall fuel, n <= fuel -> macro_expand table fuel out todo s = Ok r.
Proof. exact terminates. Qed.
Print Assumptions C15_expansion_terminates.

(** #define C A, #define A B, #define B C : a cycle. *)
Example C15_example : object_like cyclic /\ exists r, macro_expand cyclic 10 [] [ident 9 [65%Z]] (St ∅ 10 []) = Ok r /\ shapes r.1 = [(KIdent, [65%Z])].
Proof. split; [unfold object_like; by apply (bool_decide_unpack _); vm_compute|]. eexists. split; [vm_compute; reflexivity|done]. Qed.

(** C16.  What is missing: tables where two macros lead to each other, for which it
    fails (below), and function-like macros. *)
Theorem C16_no_history_partial :
  forall (table : gmap str macro) (n : nat) (sr : list (bool * tok)) (fuel : nat)
    (text : list shape) (before : list (list shape)) (o1 : list shape) (s1 : st) (os : list (list shape)) (s2 : st),
  object_like table -> allocated_below n table -> well_pasted (bodies table) ->
  no_mutual_recursion (bodies table) ->
  expand_texts table fuel (St ∅ n sr) [text] = Ok ([o1], s1) ->
  expand_texts table fuel (St ∅ n sr) (before ++ [text]) = Ok (os, s2) -> last os = Some o1.
Proof. exact no_history. Qed.
Print Assumptions C16_no_history_partial.

(** #define C A, #define A B, #define B C: A expands to A, but after C has been
    expanded it expands to C. *)
Theorem C16_history_refuted :
  exists (table : gmap str macro) (n : nat) (text before o1 : list shape) (o2 : list (list shape)) (fuel : nat) (s1 s2 : st),
    object_like table /\ allocated_below n table /\ well_pasted (bodies table) /\
    expand_texts table fuel (St ∅ n []) [text] = Ok ([o1], s1) /\
    expand_texts table fuel (St ∅ n []) [before; text] = Ok (o2, s2) /\ last o2 <> Some o1.
Proof. exact history_matters. Qed.
Print Assumptions C16_history_refuted.

(** The arguments of an invocation are what stands between the commas outside
    inner parentheses; exactly the text up to the matching ) is used up. *)
Theorem C69_arguments :
  forall (sps : list (bool * tok)) (lp : bool * tok) (p0 : list (bool * tok)) (l : more) (rp : bool * tok) (tail : list (bool * tok)),
  Forall (fun x : bool * tok => knd x.2 = KSpace) sps -> knd lp.2 = KLpar -> knd rp.2 = KRpar ->
  argument p0 -> more_ok l -> (p0 <> [] \/ l <> []) ->
  funargs None (sps ++ lp :: p0 ++ more_text l ++ rp :: tail) =
  Some (Some (contents p0 :: ((fun cp => contents cp.2) <$> l),
              length sps + 1 + length p0 + length (more_text l) + 1, rp.2)).
Proof. exact funargs_fixed. Qed.
Print Assumptions C69_arguments.

Theorem C69_no_arguments :
  forall (sps : list (bool * tok)) (lp rp : bool * tok) (tail : list (bool * tok)),
  Forall (fun x : bool * tok => knd x.2 = KSpace) sps -> knd lp.2 = KLpar -> knd rp.2 = KRpar ->
  funargs None (sps ++ lp :: rp :: tail) = Some (Some ([], length sps + 2, rp.2)).
Proof. exact funargs_none. Qed.
Print Assumptions C69_no_arguments.

(** With k named parameters and an ellipsis, the arguments after the k-th are one
    argument, commas included. *)
Theorem C69_variable_arguments :
  forall (k : nat) (sps : list (bool * tok)) (lp : bool * tok) (p0 : list (bool * tok)) (l : more)
    (c : bool * tok) (p : list (bool * tok)) (l2 : more) (rp : bool * tok) (tail : list (bool * tok)),
  Forall (fun x : bool * tok => knd x.2 = KSpace) sps -> knd lp.2 = KLpar -> knd rp.2 = KRpar ->
  argument p0 -> more_ok l -> knd c.2 = KComma -> argument p -> more_ok l2 -> k = S (length l) ->
  funargs (Some k) (sps ++ lp :: p0 ++ more_text l ++ c :: p ++ more_text l2 ++ rp :: tail) =
  Some (Some (contents p0 :: ((fun cp => contents cp.2) <$> l) ++ [contents (p ++ more_text l2)],
              length sps + 1 + length p0 + length (more_text l) + 1 + length p + length (more_text l2) + 1, rp.2)).
Proof. exact funargs_variadic. Qed.
Print Assumptions C69_variable_arguments.

(** (a(b,c), d) has two arguments. *)
Example C69_example :
  funargs None ((false, lpar 1) :: [(false, ident 2 [97%Z]); (false, lpar 3); (false, ident 4 [98%Z]); (false, comma 5); (true, ident 6 [99%Z]); (false, rpar 7)]
     ++ more_text [((false, comma 8), [(true, ident 9 [100%Z])])] ++ (false, rpar 10) :: [(false, ident 11 X)]) =
  Some (Some ([[ident 2 [97%Z]; lpar 3; ident 4 [98%Z]; comma 5; Tok 0 KSpace [32%Z]; ident 6 [99%Z]; rpar 7]; [ident 9 [100%Z]]], 10, rpar 10)).
Proof. vm_compute. reflexivity. Qed.

(** C70: an empty argument is an error; so is white space between the parentheses
    of a macro without parameters. *)
Theorem C70_empty_argument_refuted :
  exists table t m p lp rp s, table !! txt t = Some m /\ m_params m = Some [p] /\ m_va m = None /\ knd t = KIdent /\
    knd lp = KLpar /\ knd rp = KRpar /\ hid s = ∅ /\ src s = [(false, lp); (false, rp)] /\
    forall fuel, 1 <= fuel -> macro_expand table fuel [] [t] s = Err.
Proof. exact empty_argument_rejected. Qed.
Print Assumptions C70_empty_argument_refuted.

Theorem C70_space_argument_refuted :
  exists table t m s, table !! F = Some m /\ m_params m = Some [] /\ m_va m = None /\
    knd t = KIdent /\ hid s = ∅ /\ src s = [] /\
    (exists m', table !! txt t = Some m' /\ m_params m' = None /\
       shapes (m_body m') = [(KIdent, F); (KLpar, [40%Z]); (KSpace, [32%Z]); (KRpar, [41%Z])]) /\
    forall fuel, 2 <= fuel -> macro_expand table fuel [] [t] s = Err.
Proof. exact space_is_argument. Qed.
Print Assumptions C70_space_argument_refuted.

(** C71: the replacement list comes out with the parameters replaced (fully expanded,
    or as written next to ##), # turned into string literals and ## carried out.
    [expand] is the expansion of an argument; [full] what it gives. *)
Theorem C71_replacement :
  forall (expand : list tok -> st -> res (list tok * st)) (m : macro) (ps : list str)
    (args : list (list tok)) (full : list (list shape)),
  m_params m = Some ps -> m_va m = None -> NoDup ps -> length args = length ps ->
  (forall j a s, args !! j = Some a ->
     exists e s', expand a s = Ok (e, s') /\ shapes e = full !!! j /\ src s' = src s) ->
  forall (hs : gset str) (s : st),
  body_ok (shapes (m_body m)) -> cat_args_nonempty ps (shapes <$> args) false (shapes (m_body m)) ->
  hashed_plain ps (shapes <$> args) (shapes (m_body m)) ->
  exists os s', subst expand m args hs s = Ok (os, s') /\
    shapes os = replaced ps (shapes <$> args) full (shapes (m_body m)) /\ src s' = src s.
Proof. exact subst_replaced. Qed.
Print Assumptions C71_replacement.

(** A whole invocation, from the name to the closing parenthesis, when neither the
    arguments nor the result name further macros. *)
Theorem C71_invocation :
  forall (table : gmap str macro) (t : tok) (m : macro) (ps : list str) (s : st)
    (lp : bool * tok) (p0 : list (bool * tok)) (l : more) (rp : bool * tok) (tail : list (bool * tok)),
  knd t = KIdent -> table !! txt t = Some m -> hid s !! ptr t = None ->
  m_params m = Some ps -> m_va m = None -> NoDup ps -> length ps = S (length l) ->
  src s = lp :: p0 ++ more_text l ++ rp :: tail ->
  knd lp.2 = KLpar -> knd rp.2 = KRpar -> argument p0 -> more_ok l -> (p0 <> [] \/ l <> []) ->
  let args := shapes <$> contents p0 :: ((fun cp => contents cp.2) <$> l) in
  Forall (Forall (no_macro table)) args ->
  body_ok (shapes (m_body m)) -> cat_args_nonempty ps args false (shapes (m_body m)) ->
  hashed_plain ps args (shapes (m_body m)) ->
  Forall (no_macro table) (replaced ps args args (shapes (m_body m))) ->
  exists n, forall fuel, n <= fuel -> exists out s',
    macro_expand table fuel [] [t] s = Ok (out, s') /\
    shapes out = replaced ps args args (shapes (m_body m)) /\ src s' = tail.
Proof. exact invocation. Qed.
Print Assumptions C71_invocation.

(** #define F(x) x ## z #x : F(a b) followed by a token gives a bz, the string and nothing of the rest. *)
Example C71_example :
  let m := Macro (Some [X]) None [ident 1 X; cat 2; ident 3 Z'; Tok 4 KHash [35%Z]; ident 5 X] in
  let s := St ∅ 20 [(false, lpar 6); (false, ident 7 [97%Z]); (true, ident 8 [98%Z]); (false, rpar 9); (false, ident 10 [99%Z])] in
  exists out s', macro_expand {[F := m]} 20 [] [ident 11 F] s = Ok (out, s') /\
    shapes out = [(KIdent, [97%Z]); (KSpace, [32%Z]); (KIdent, [98; 122]%Z); (KStr, [34; 97; 32; 98; 34]%Z)] /\
    src s' = [(false, ident 10 [99%Z])].
Proof. eexists. eexists. split; [vm_compute; reflexivity|]. by vm_compute. Qed.

(** C72: in G(F)(a) the argument F is expanded together with the text after the
    invocation, although F alone expands to F. *)
Theorem C72_argument_alone_refuted :
  exists table t m s lp arg rp tail fuel out s', table !! txt t = Some m /\ m_params m = Some [X] /\ m_va m = None /\
    knd t = KIdent /\ hid s = ∅ /\ knd lp = KLpar /\ knd rp = KRpar /\ argument arg /\
    src s = (false, lp) :: arg ++ (false, rp) :: tail /\
    macro_expand table fuel [] (contents arg) (St ∅ (fresh s) []) = Ok (contents arg, St ∅ (fresh s) []) /\
    macro_expand table fuel [] [t] s = Ok (out, s') /\ src s' <> tail /\
    shapes out <> replaced [X] [shapes (contents arg)] [shapes (contents arg)] (shapes (m_body m)).
Proof. exact argument_reads_on. Qed.
Print Assumptions C72_argument_alone_refuted.

(** C73: an empty left operand of ## takes the right operand with it. *)
Theorem C73_empty_operand_refuted :
  exists table t ps body s args fuel out s', table !! txt t = Some (Macro (Some ps) None body) /\ knd t = KIdent /\
    hid s = ∅ /\ funargs None (src s) = Some (Some (args, 5, rpar 9)) /\ body_ok (shapes body) /\
    Forall (no_macro table) (replaced ps (shapes <$> args) (shapes <$> args) (shapes body)) /\
    macro_expand table fuel [] [t] s = Ok (out, s') /\
    shapes out <> replaced ps (shapes <$> args) (shapes <$> args) (shapes body).
Proof. exact empty_operand_drops. Qed.
Print Assumptions C73_empty_operand_refuted.

(** A string made by # cannot be pasted. *)
Theorem C73_cat_string_refuted :
  exists table t ps body s args fuel out s', table !! txt t = Some (Macro (Some ps) None body) /\ knd t = KIdent /\
    hid s = ∅ /\ funargs None (src s) = Some (Some (args, 3, rpar 9)) /\
    Forall (no_macro table) (replaced ps (shapes <$> args) (shapes <$> args) (shapes body)) /\
    replaced ps (shapes <$> args) (shapes <$> args) (shapes body) = [(KIdent, [76; 34; 97; 34]%Z)] /\
    macro_expand table fuel [] [t] s = Ok (out, s') /\
    shapes out <> replaced ps (shapes <$> args) (shapes <$> args) (shapes body).
Proof. exact cat_string_lost. Qed.
Print Assumptions C73_cat_string_refuted.

(** C74: parameters inside __VA_OPT__( ) are not replaced. *)
Theorem C74_va_opt_refuted :
  exists table t s fuel out s',
    table !! txt t = Some (Macro (Some [X]) (Some va_args) [ident 1 va_opt; lpar 2; ident 3 X; rpar 4]) /\
    knd t = KIdent /\ hid s = ∅ /\
    src s = [(false, lpar 5); (false, ident 6 [97%Z]); (false, comma 7); (false, ident 8 [98%Z]); (false, rpar 9)] /\
    macro_expand table fuel [] [t] s = Ok (out, s') /\ shapes out = [(KIdent, X)].
Proof. exact va_opt_unsubstituted. Qed.
Print Assumptions C74_va_opt_refuted.

(** C75: object-like macros that do not lead to one another expand as the standard
    says, whatever was expanded before; and they do expand. *)
Theorem C75_object_like_macros :
  forall (table : gmap str macro) (n : nat) (sr : list (bool * tok)) (fuel : nat)
    (texts outs : list (list shape)) (s' : st),
  object_like table -> allocated_below n table -> well_pasted (bodies table) ->
  no_mutual_recursion (bodies table) ->
  expand_texts table fuel (St ∅ n sr) texts = Ok (outs, s') ->
  Forall2 (scan (bodies table) ∅) texts outs.
Proof. exact expands_as_standard. Qed.
Print Assumptions C75_object_like_macros.

Theorem C75_texts_end :
  forall (table : gmap str macro) (s : st) (texts : list (list shape)), object_like table ->
  exists k r, forall fuel, k <= fuel -> expand_texts table fuel s texts = Ok r.
Proof. exact texts_end. Qed.
Print Assumptions C75_texts_end.

(** #define F G z, #define G G ## x : F twice. *)
Example C75_example :
  let table := {[F := Macro None None [ident 1 G; ident 2 Z']; G := Macro None None [ident 3 G; cat 4; ident 5 X]]} in
  exists s', expand_texts table 20 (St ∅ 6 []) [[(KIdent, F)]; [(KIdent, F); (KIdent, G)]] =
    Ok ([[(KIdent, [71; 120]%Z); (KIdent, Z')]; [(KIdent, [71; 120]%Z); (KIdent, Z'); (KIdent, [71; 120]%Z)]], s').
Proof. eexists. vm_compute. reflexivity. Qed.
