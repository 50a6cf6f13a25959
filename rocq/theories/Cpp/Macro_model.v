(** Model of macro expansion: /repo/src/cpp/macro.c and pp_funargs in
    /repo/src/cpp/pp_parser.c.

    A token object is its address and what it holds.  Hide sets hang off the
    address (macro.c:43-80, an array sorted by address and searched by bisection;
    here a finite map), and the tokens of a macro body are one set of objects,
    pushed into every expansion.

    Text not yet read by the lexer is a list of tokens, each with a flag saying
    whether white space, a newline or a comment stands before it.
    Simplifications: malloc and alloca do not fail; the lexer does not fail on
    the text read for arguments; token line numbers are left out. *)
From stdpp Require Import base list numbers gmap.
From Verif Require Import Util.Escape_model.
Open Scope Z_scope.

Notation str := (list Z).

Inductive kind := KIdent | KLpar | KRpar | KComma | KSpace | KHash | KCat | KStr | KOther.
#[global] Instance kind_eq_dec : EqDecision kind.
Proof. solve_decision. Defined.

(** lexer.h Token: address, kind, begin..end.  tok->ident is the text of an identifier. *)
Record tok := Tok { ptr : nat; knd : kind; txt : str }.

(** macro.h Macro.  [m_params = None] is params_len -1; the variadic name, if any,
    has index params_len in the table (macro.c:22-34). *)
Record macro := Macro { m_params : option (list str); m_va : option str; m_body : list tok }.

(** The hide sets; the next unused address; the text ahead of the lexer. *)
Record st := St { hid : gmap nat (gset str); fresh : nat; src : list (bool * tok) }.

Inductive res (A : Type) := Ok (a : A) | Err | Undef | NoFuel.
Arguments Ok {A}. Arguments Err {A}. Arguments Undef {A}. Arguments NoFuel {A}.
Definition bindr {A B} (m : res A) (f : A -> res B) : res B :=
  match m with Ok a => f a | Err => Err | Undef => Undef | NoFuel => NoFuel end.
Notation "'let!' p := m 'in' k" := (bindr m (fun p => k))
  (at level 200, p pattern, m at level 100, k at level 200, right associativity).

(** macro.c:22-34, table_try_get(param_table, …): a later parameter of the same
    name replaces an earlier one. *)
Fixpoint index_of (x : str) (l : list str) (i : nat) : option nat :=
  match l with
  | [] => None
  | y :: l => match index_of x l (S i) with
              | Some j => Some j
              | None => if decide (y = x) then Some i else None
              end
  end.
Definition param_index (m : macro) (x : str) : option nat :=
  match m_params m with
  | None => None
  | Some ps => index_of x (ps ++ match m_va m with Some v => [v] | None => [] end) 0
  end.

(** macro.c:57-67 get_hideset. *)
Definition get_hideset (s : st) (t : tok) : option (gset str) := hid s !! ptr t.

(** macro.c:117-135 glue1: the new object is an identifier whatever its text. *)
Definition glue1 (s : st) (os : list tok) (t2 : tok) : list tok * st :=
  match reverse os with
  | t1 :: ros => (reverse (Tok (fresh s) KIdent (txt t1 ++ txt t2) :: ros), St (hid s) (S (fresh s)) (src s))
  | [] => (os ++ [t2], s)
  end.
(** macro.c:137-147 glue; rs is not empty where it is called. *)
Definition glue (s : st) (os rs : list tok) : res (list tok * st) :=
  match os, rs with
  | [], _ => Ok (rs, s)
  | _, [] => Undef
  | _, t2 :: rs' => let '(os', s') := glue1 s os t2 in Ok (os' ++ rs', s')
  end.

(** macro.c:149-171 stringize. *)
Definition stringize (s : st) (arg : list tok) : res (tok * st) :=
  match escape_string (concat (txt <$> arg)) with
  | Some e => Ok (Tok (fresh s) KStr ([34] ++ e ++ [34]), St (hid s) (S (fresh s)) (src s))
  | None => Undef
  end.

(** macro.c:173-186 hsadd. *)
Definition hsadd1 (hs : gset str) (h : gmap nat (gset str)) (t : tok) : gmap nat (gset str) :=
  match knd t with
  | KIdent | KRpar =>
    <[ptr t := match h !! ptr t with Some h' => h' ∪ hs | None => hs end]> h
  | _ => h
  end.
Definition hsadd (hs : gset str) (h : gmap nat (gset str)) (ts : list tok) : gmap nat (gset str) :=
  foldl (hsadd1 hs) h ts.

Definition va_opt : str := [95; 95; 86; 65; 95; 79; 80; 84; 95; 95].

(** Tokens up to the first ')' , and those after it (macro.c:295-299). *)
Fixpoint until_rpar (ts : list tok) : option (list tok * list tok) :=
  match ts with
  | [] => None
  | t :: ts => if decide (knd t = KRpar) then Some ([], ts)
               else match until_rpar ts with Some (a, b) => Some (t :: a, b) | None => None end
  end.

Section expand.
  Context (table : gmap str macro).

  Section subst.
    (** macro_expand on the tokens of an argument. *)
    Context (expand : list tok -> st -> res (list tok * st)).
    Context (m : macro) (args : list (list tok)).

    (** The index of a parameter, if the token is an identifier naming one. *)
    Definition param (t : tok) : option nat :=
      if decide (knd t = KIdent) then param_index m (txt t) else None.

    (** assert(j < args->len). *)
    Definition arg_at (j : nat) : res (list tok) :=
      match args !! j with Some a => Ok a | None => Undef end.

    (** macro.c:188-334 the loop of subst.  [cache] is expanded_args. *)
    Fixpoint subst_loop (fuel : nat) (body : list tok) (os : list tok)
        (cache : gmap nat (list tok)) (s : st) : res (list tok * st) :=
      match fuel with
      | O => NoFuel
      | S fuel =>
        match body with
        | [] => Ok (os, s)
        | t :: rest =>
          let push := subst_loop fuel rest (os ++ [t]) cache s in
          match knd t with
          | KHash =>  (* 210-224 *)
            match rest with
            | next :: rest' =>
              match param next with
              | Some j => let! arg := arg_at j in
                          let! (q, s') := stringize s arg in
                          subst_loop fuel rest' (os ++ [q]) cache s'
              | None => push
              end
            | [] => push
            end
          | KCat =>  (* 226-244 *)
            match os, rest with
            | _ :: _, next :: rest' =>
              match param next with
              | Some j => let! arg := arg_at j in
                          match arg with
                          | [] => subst_loop fuel rest' os cache s
                          | _ => let! (os', s') := glue s os arg in
                                 subst_loop fuel rest' os' cache s'
                          end
              | None => let '(os', s') := glue1 s os next in subst_loop fuel rest' os' cache s'
              end
            | _, _ => push
            end
          | KIdent =>  (* 246-311 *)
            let cat := match rest with c :: _ => bool_decide (knd c = KCat) | [] => false end in
            match param t with
            | Some j =>
              let! arg := arg_at j in
              if cat then
                match arg with
                | [] =>
                  match rest with
                  | _ :: x :: rest' =>
                    match param x with
                    | Some k => let! arg2 := arg_at k in
                                subst_loop fuel rest' (os ++ arg2) cache s
                    | None => subst_loop fuel rest' os cache s
                    end
                  | _ => subst_loop fuel [] os cache s
                  end
                | _ => subst_loop fuel rest (os ++ arg) cache s
                end
              else
                match cache !! j with
                | Some e => subst_loop fuel rest (os ++ e) cache s
                | None => let! (e, s') := expand arg s in
                          subst_loop fuel rest (os ++ e) (<[j := e]> cache) s'
                end
            | None =>
              match m_va m, rest with
              | Some _, l :: rest' =>
                if bool_decide (txt t = va_opt) && bool_decide (knd l = KLpar) then
                  match rest' with
                  | [] => push
                  | _ =>
                    match until_rpar rest', last args with
                    | Some (inner, after), Some va =>
                      subst_loop fuel after (match va with [] => os | _ => os ++ inner end) cache s
                    | Some _, None => Undef
                    | None, _ => push
                    end
                  end
                else push
              | _, _ => push
              end
            end
          | KComma =>  (* 313-330: `, ## __VA_ARGS__' *)
            match m_va m, rest with
            | Some _, c :: x :: rest' =>
              if bool_decide (knd c = KCat) then
                match param x with
                | Some j =>
                  if bool_decide (Some j = length <$> m_params m) then
                    let! arg := arg_at j in
                    match arg with
                    | [] => subst_loop fuel rest' os cache s
                    | _ => subst_loop fuel (x :: rest') (os ++ [t]) cache s
                    end
                  else push
                | None => push
                end
              else push
            | _, _ => push
            end
          | _ => push
          end
        end
      end.

    (** macro.c:188-336 subst. *)
    Definition subst (hs : gset str) (s : st) : res (list tok * st) :=
      let! (os, s') := subst_loop (S (length (m_body m))) (m_body m) [] ∅ s in
      Ok (os, St (hsadd hs (hid s') os) (fresh s') (src s')).
  End subst.

  (** pp_parser.c:196-232, the loop of pp_funargs after the '('.  [inp] is the rest
      of the vector followed by the text ahead of the lexer; a token of the vector
      never counts as preceded by space.  Returns the arguments, how many tokens
      were taken, and the closing ')'; [None]: "`)' expected". *)
  Fixpoint collect (vaarg : option nat) (inp : list (bool * tok)) (args : list (list tok))
      (arg : option (list tok)) (paren n : nat) : option (list (list tok) * nat * tok) :=
    match inp with
    | [] => None
    | (sp, t) :: inp =>
      if bool_decide (knd t = KRpar) && bool_decide (paren = 0%nat)
      then Some (match arg with Some a => args ++ [a] | None => args end, S n, t)
      else
        let paren := match knd t with KLpar => S paren | KRpar => (paren - 1)%nat | _ => paren end in
        let a := default [] arg in
        if bool_decide (knd t = KComma) && bool_decide (paren = 0%nat) &&
           (match vaarg with None => true | Some k => bool_decide (length args < k)%nat end)
        then collect vaarg inp (args ++ [a]) (Some []) paren (S n)
        else
          let a := if sp && bool_decide (a <> []) then a ++ [Tok 0 KSpace [32]] else a in
          let a := if bool_decide (knd t <> KSpace) || bool_decide (a <> []) then a ++ [t] else a in
          collect vaarg inp args (Some a) paren (S n)
    end.

  (** pp_parser.c:191-195: spaces, then '('. *)
  Fixpoint find_lpar (inp : list (bool * tok)) (n : nat) : option (list (bool * tok) * nat) :=
    match inp with
    | [] => None
    | (_, t) :: inp =>
      match knd t with
      | KSpace => find_lpar inp (S n)
      | KLpar => Some (inp, S n)
      | _ => None
      end
    end.

  (** pp_parser.c:189-241 pp_funargs.  The outer option is the diagnosed error, the
      inner one the NULL result. *)
  Definition funargs (vaarg : option nat) (inp : list (bool * tok)) :
      option (option (list (list tok) * nat * tok)) :=
    match find_lpar inp 0 with
    | None => Some None
    | Some (inp', n) =>
      match collect vaarg inp' [] None 0 n with
      | None => None
      | Some (args, n', rp) =>
        let args := match vaarg with
                    | Some k => if bool_decide (length args = k) then args ++ [[]] else args
                    | None => args
                    end in
        Some (Some (args, n', rp))
      end
    end.

  (** macro.c:359-405 macro_expand.  [out]: the tokens before index i; [todo]: those
      from i on.  After a replacement the same index is looked at again. *)
  Fixpoint macro_expand (fuel : nat) (out todo : list tok) (s : st) : res (list tok * st) :=
    match fuel with
    | O => NoFuel
    | S fuel =>
      match todo with
      | [] => Ok (out, s)
      | t :: rest =>
        let keep := macro_expand fuel (out ++ [t]) rest s in
        match knd t with
        | KIdent =>
          match table !! txt t with
          | None => keep
          | Some m =>
            let hs := default ∅ (get_hideset s t) in
            if bool_decide (txt t ∈ hs) then keep
            else
              let expand := macro_expand fuel [] in
              match m_params m with
              | None =>
                let! (r, s') := subst expand m [] (hs ∪ {[txt t]}) s in
                macro_expand fuel out (r ++ rest) s'
              | Some ps =>
                match funargs (match m_va m with Some _ => Some (length ps) | None => None end)
                        (((fun t => (false, t)) <$> rest) ++ src s) with
                | None => Err
                | Some None => keep
                | Some (Some (args, n, rp)) =>
                  let count := (length ps + match m_va m with Some _ => 1 | None => 0 end)%nat in
                  if bool_decide (length args <> count) then Err
                  else
                    let hs2 := default ∅ (get_hideset s rp) in
                    let s1 := St (hid s) (fresh s) (drop (n - length rest) (src s)) in
                    let! (r, s') := subst expand m args ((hs ∩ hs2) ∪ {[txt t]}) s1 in
                    macro_expand fuel out (r ++ drop n rest) s'
                end
              end
          end
        | _ => keep
        end
      end
    end.
End expand.
