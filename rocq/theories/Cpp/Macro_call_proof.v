(** A whole invocation of a function-like macro, and what goes wrong. *)
From stdpp Require Import base list numbers gmap sets.
From Verif Require Import Cpp.Macro_model Cpp.Macro_spec Cpp.Macro_fun_spec Cpp.Macro_proof Cpp.Macro_fun_proof Cpp.Macro_subst_proof.
Open Scope nat_scope.

Lemma expand_nothing table fuel : forall out todo s, Forall (no_macro table) (shapes todo) -> length todo < fuel ->
  macro_expand table fuel out todo s = Ok (out ++ todo, s).
Proof.
  induction fuel as [|fuel IH]; intros out todo s H Hf; [lia|].
  destruct todo as [|t todo]; [by rewrite app_nil_r|]. cbn in H. apply Forall_cons_1 in H as [Ht H]. cbn [macro_expand length] in *.
  assert (Hk: macro_expand table fuel (out ++ [t]) todo s = Ok (out ++ t :: todo, s)).
  { rewrite IH by (done || lia). by rewrite <-app_assoc. }
  destruct (knd t) eqn:Ek; try exact Hk. specialize (Ht Ek). cbn in Ht. rewrite Ht. exact Hk.
Qed.

Theorem invocation table t m ps s lp p0 l rp tail :
  knd t = KIdent -> table !! txt t = Some m -> hid s !! ptr t = None ->
  m_params m = Some ps -> m_va m = None -> NoDup ps -> length ps = S (length l) ->
  src s = lp :: p0 ++ more_text l ++ rp :: tail ->
  knd lp.2 = KLpar -> knd rp.2 = KRpar -> argument p0 -> more_ok l -> (p0 <> [] \/ l <> []) ->
  let args := shapes <$> contents p0 :: ((fun cp => contents cp.2) <$> l) in
  Forall (Forall (no_macro table)) args ->
  body_ok (shapes (m_body m)) -> cat_args_nonempty ps args false (shapes (m_body m)) ->
  hashed_plain ps args (shapes (m_body m)) ->
  Forall (no_macro table) (replaced ps args args (shapes (m_body m))) ->
  exists n, forall fuel, n <= fuel -> exists out s',
    macro_expand table fuel [] [t] s = Ok (out, s') /\
    shapes out = replaced ps args args (shapes (m_body m)) /\ src s' = tail.
Proof.
  intros Ek Em Eh Eps Eva Hnd Hlen Esrc Hlp Hrp Hp0 Hl Hne args Hargs Hb Hcn Hhp Hres.
  set (ra := contents p0 :: ((fun cp => contents cp.2) <$> l)) in *.
  exists (3 + length (replaced ps args args (shapes (m_body m))) + sum_list (length <$> ra)).
  intros fuel Hf. destruct fuel as [|fuel]; [lia|].
  cbn [macro_expand]. rewrite Ek, Em. unfold get_hideset. rewrite Eh. cbn [default].
  rewrite bool_decide_false by set_solver. rewrite Eps, Eva. cbn [fmap list_fmap app]. rewrite Esrc.
  pose proof (funargs_fixed [] lp p0 l rp tail (Forall_nil_2 _) Hlp Hrp Hp0 Hl Hne) as Ef. cbn [app] in Ef. rewrite Ef.
  fold ra. assert (Hra: length ra = length ps) by (unfold ra; cbn; by rewrite fmap_length).
  rewrite bool_decide_false by (rewrite Hra; lia).
  set (s1 := St (hid s) (fresh s) _).
  assert (Es1: src s1 = tail).
  { unfold s1. cbn [src length]. rewrite Nat.sub_0_r.
    replace (lp :: p0 ++ more_text l ++ rp :: tail) with ((lp :: p0 ++ more_text l ++ [rp]) ++ tail)
      by (cbn; by rewrite <-!app_assoc).
    apply drop_app_alt. cbn. rewrite !app_length. cbn. lia. }
  edestruct (subst_replaced (macro_expand table fuel []) m ps ra args Eps Eva Hnd Hra) as (os & s2 & -> & Hsh & Hsr);
    [|exact Hb|exact Hcn|exact Hhp|].
  { intros j a s0 Ha. exists a, s0. split; [|split; [|done]].
    - rewrite expand_nothing; [done| |].
      + rewrite Forall_forall in Hargs. apply Hargs. unfold args. apply elem_of_list_fmap. exists a. split; [done|].
        by eapply elem_of_list_lookup_2.
      + assert (length a <= sum_list (length <$> ra)); [|lia].
        clear -Ha. revert j Ha. induction ra as [|b ra IH]; intros j Ha; [done|]. destruct j; cbn in Ha.
        * injection Ha as ->. cbn. lia.
        * apply IH in Ha. cbn. lia.
    - symmetry. apply list_lookup_total_correct. unfold args. by rewrite list_lookup_fmap, Ha. }
  change (shapes <$> ra) with args in Hsh. cbn [bindr]. rewrite drop_nil, app_nil_r.
  rewrite expand_nothing; [|by rewrite Hsh|].
  - cbn [app]. exists os, s2. split; [done|]. split; [exact Hsh|]. by rewrite Hsr.
  - assert (length os = length (replaced ps args args (shapes (m_body m)))) as -> by (rewrite <-Hsh; unfold shapes; by rewrite fmap_length).
    lia.
Qed.

(** ** Witnesses *)
Definition F : str := [70%Z].
Definition G : str := [71%Z].
Definition X : str := [120%Z].
Definition Z' : str := [122%Z].
Definition ident n x := Tok n KIdent x.
Definition lpar n := Tok n KLpar [40%Z].
Definition rpar n := Tok n KRpar [41%Z].
Definition comma n := Tok n KComma [44%Z].
Definition cat n := Tok n KCat [35%Z; 35%Z].

(** #define F(x) x : F() is an error. *)
Lemma empty_argument_rejected :
  exists table t m p lp rp s, table !! txt t = Some m /\ m_params m = Some [p] /\ m_va m = None /\ knd t = KIdent /\
    knd lp = KLpar /\ knd rp = KRpar /\ hid s = ∅ /\ src s = [(false, lp); (false, rp)] /\
    forall fuel, 1 <= fuel -> macro_expand table fuel [] [t] s = Err.
Proof.
  exists {[F := Macro (Some [X]) None [ident 1 X]]}, (ident 2 F), (Macro (Some [X]) None [ident 1 X]), X, (lpar 3), (rpar 4),
    (St ∅ 5 [(false, lpar 3); (false, rpar 4)]).
  split_and!; try done. intros fuel Hf. destruct fuel; [lia|]. vm_compute. reflexivity.
Qed.

(** #define F() x and #define G F( ) : the white space counts as an argument. *)
Lemma space_is_argument :
  exists table t m s, table !! F = Some m /\ m_params m = Some [] /\ m_va m = None /\
    knd t = KIdent /\ hid s = ∅ /\ src s = [] /\
    (exists m', table !! txt t = Some m' /\ m_params m' = None /\
       shapes (m_body m') = [(KIdent, F); (KLpar, [40%Z]); (KSpace, [32%Z]); (KRpar, [41%Z])]) /\
    forall fuel, 2 <= fuel -> macro_expand table fuel [] [t] s = Err.
Proof.
  exists {[F := Macro (Some []) None [ident 1 X];
           G := Macro None None [ident 2 F; lpar 3; Tok 0 KSpace [32%Z]; rpar 4]]},
    (ident 5 G), (Macro (Some []) None [ident 1 X]), (St ∅ 6 []).
  split_and!; try done; [by eexists|].
  intros fuel Hf. destruct fuel as [|[|fuel]]; [lia|lia|]. vm_compute. reflexivity.
Qed.

(** #define F(x,z) x ## y z : F(,q) should give y q. *)
Lemma empty_operand_drops :
  exists table t ps body s args fuel out s', table !! txt t = Some (Macro (Some ps) None body) /\ knd t = KIdent /\
    hid s = ∅ /\ funargs None (src s) = Some (Some (args, 5, rpar 9)) /\ body_ok (shapes body) /\
    Forall (no_macro table) (replaced ps (shapes <$> args) (shapes <$> args) (shapes body)) /\
    macro_expand table fuel [] [t] s = Ok (out, s') /\
    shapes out <> replaced ps (shapes <$> args) (shapes <$> args) (shapes body).
Proof.
  set (body := [ident 1 X; cat 2; ident 3 [121%Z]; Tok 0 KSpace [32%Z]; ident 4 Z']).
  exists {[F := Macro (Some [X; Z']) None body]}, (ident 5 F), [X; Z'], body,
    (St ∅ 10 [(false, lpar 6); (false, comma 7); (false, ident 8 [113%Z]); (false, Tok 11 KSpace [32%Z]); (false, rpar 9)]),
    [[]; [ident 8 [113%Z]; Tok 11 KSpace [32%Z]]], 20.
  eexists. eexists. split_and!; try done; try (vm_compute; reflexivity).
  - cbn. repeat apply Forall_cons_2; try apply Forall_nil_2; by intros _.
Qed.

(** #define F(x) L ## #x : F(a) should give L"a". *)
Lemma cat_string_lost :
  exists table t ps body s args fuel out s', table !! txt t = Some (Macro (Some ps) None body) /\ knd t = KIdent /\
    hid s = ∅ /\ funargs None (src s) = Some (Some (args, 3, rpar 9)) /\
    Forall (no_macro table) (replaced ps (shapes <$> args) (shapes <$> args) (shapes body)) /\
    replaced ps (shapes <$> args) (shapes <$> args) (shapes body) = [(KIdent, [76; 34; 97; 34]%Z)] /\
    macro_expand table fuel [] [t] s = Ok (out, s') /\
    shapes out <> replaced ps (shapes <$> args) (shapes <$> args) (shapes body).
Proof.
  set (body := [ident 1 [76%Z]; cat 2; Tok 3 KHash [35%Z]; ident 4 X]).
  exists {[F := Macro (Some [X]) None body]}, (ident 5 F), [X], body,
    (St ∅ 10 [(false, lpar 6); (false, ident 8 [97%Z]); (false, rpar 9)]), [[ident 8 [97%Z]]], 20.
  eexists. eexists. split_and!; try done; try (vm_compute; reflexivity).
  - cbn. repeat apply Forall_cons_2; try apply Forall_nil_2; by intros _.
Qed.

(** #define F(x) x z and #define G(x) [x] : in G(F)(a) the argument F is expanded
    with the text after the invocation. *)
Lemma argument_reads_on :
  exists table t m s lp arg rp tail fuel out s', table !! txt t = Some m /\ m_params m = Some [X] /\ m_va m = None /\
    knd t = KIdent /\ hid s = ∅ /\ knd lp = KLpar /\ knd rp = KRpar /\ argument arg /\
    src s = (false, lp) :: arg ++ (false, rp) :: tail /\
    macro_expand table fuel [] (contents arg) (St ∅ (fresh s) []) = Ok (contents arg, St ∅ (fresh s) []) /\
    macro_expand table fuel [] [t] s = Ok (out, s') /\ src s' <> tail /\
    shapes out <> replaced [X] [shapes (contents arg)] [shapes (contents arg)] (shapes (m_body m)).
Proof.
  set (mg := Macro (Some [X]) None [Tok 1 KOther [91%Z]; ident 2 X; Tok 3 KOther [93%Z]]).
  exists {[F := Macro (Some [X]) None [ident 4 X; ident 5 Z']; G := mg]}, (ident 6 G), mg,
    (St ∅ 20 [(false, lpar 7); (false, ident 8 F); (false, rpar 9); (false, lpar 10); (false, ident 11 [97%Z]); (false, rpar 12)]),
    (lpar 7), [(false, ident 8 F)], (rpar 9), [(false, lpar 10); (false, ident 11 [97%Z]); (false, rpar 12)], 20.
  eexists. eexists. split_and!; try done; try (vm_compute; reflexivity).
  - apply A_tok; try done. constructor.
Qed.

(** #define F(x, ...) __VA_OPT__(x) : F(a, b) should give a. *)
Definition va_args : str := [95; 95; 86; 65; 95; 65; 82; 71; 83; 95; 95]%Z.
Lemma va_opt_unsubstituted :
  exists table t s fuel out s',
    table !! txt t = Some (Macro (Some [X]) (Some va_args) [ident 1 va_opt; lpar 2; ident 3 X; rpar 4]) /\
    knd t = KIdent /\ hid s = ∅ /\
    src s = [(false, lpar 5); (false, ident 6 [97%Z]); (false, comma 7); (false, ident 8 [98%Z]); (false, rpar 9)] /\
    macro_expand table fuel [] [t] s = Ok (out, s') /\ shapes out = [(KIdent, X)].
Proof.
  exists {[F := Macro (Some [X]) (Some va_args) [ident 1 va_opt; lpar 2; ident 3 X; rpar 4]]}, (ident 10 F),
    (St ∅ 20 [(false, lpar 5); (false, ident 6 [97%Z]); (false, comma 7); (false, ident 8 [98%Z]); (false, rpar 9)]), 20.
  eexists. eexists. split_and!; try done; vm_compute; reflexivity.
Qed.
