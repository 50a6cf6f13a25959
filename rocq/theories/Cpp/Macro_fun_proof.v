(** Function-like macros: arguments and substitution. *)
From stdpp Require Import base list numbers gmap sets.
From Verif Require Import Util.Escape_model Cpp.Macro_model Cpp.Macro_spec Cpp.Macro_fun_spec Cpp.Macro_proof.
Open Scope nat_scope.

(** ** Collecting arguments *)

(** What the loop does with one token of an argument. *)
Definition push (a : list tok) (x : bool * tok) : list tok :=
  let a := if x.1 && bool_decide (a <> []) then a ++ [Tok 0 KSpace [32%Z]] else a in
  if bool_decide (knd x.2 <> KSpace) || bool_decide (a <> []) then a ++ [x.2] else a.

Lemma push_nonempty a p : a <> [] ->
  foldl push a p = a ++ concat ((fun x : bool * tok => if x.1 then [Tok 0 KSpace [32%Z]; x.2] else [x.2]) <$> p).
Proof.
  revert a. induction p as [|[sp t] p IH]; intros a Ha; cbn [foldl fmap list_fmap concat]; [by rewrite app_nil_r|].
  assert (Hp: push a (sp, t) = a ++ (if sp then [Tok 0 KSpace [32%Z]; t] else [t])).
  { unfold push. cbn [fst snd]. destruct sp; cbn [andb].
    - rewrite (bool_decide_true (a <> [])) by done. rewrite (bool_decide_true (a ++ _ <> [])) by (by destruct a).
      rewrite orb_true_r. by rewrite <-app_assoc.
    - rewrite (bool_decide_true (a <> [])) by done. by rewrite orb_true_r. }
  rewrite Hp, IH by (by destruct a). by rewrite <-app_assoc.
Qed.

Lemma push_contents p : foldl push [] p = contents p.
Proof.
  unfold contents. induction p as [|[sp t] p IH]; [done|]. cbn [foldl fmap list_fmap concat].
  unfold push at 2. cbn [fst snd]. rewrite (bool_decide_false ([] <> [])) by (intros H; by apply H).
  rewrite andb_false_r, orb_false_r.
  destruct (decide (knd t = KSpace)) as [E|E].
  - rewrite bool_decide_false by (intros H; by apply H). rewrite IH.
    destruct sp; cbn [no_leading_space app knd]; repeat (rewrite decide_True by done); done.
  - rewrite bool_decide_true by done. cbn [app]. rewrite push_nonempty by done.
    destruct sp; cbn [no_leading_space app knd]; rewrite ?(decide_True (P := KSpace = KSpace)) by done; by rewrite decide_False by done.
Qed.

Lemma collect_plain va x inp args arg paren n :
  knd x.2 <> KRpar -> knd x.2 <> KLpar ->
  (knd x.2 <> KComma \/ paren <> 0 \/ exists k, va = Some k /\ k <= length args) ->
  collect va (x :: inp) args arg paren n = collect va inp args (Some (push (default [] arg) x)) paren (S n).
Proof.
  intros H1 H2 H3. destruct x as [sp t]. cbn [collect fst snd] in *.
  rewrite (bool_decide_false (knd t = KRpar)) by done. cbn [andb].
  assert (Hp: match knd t with KLpar => S paren | KRpar => paren - 1 | _ => paren end = paren) by (by destruct (knd t)).
  rewrite Hp.
  assert (Hc: bool_decide (knd t = KComma) && bool_decide (paren = 0) &&
    match va with Some k => bool_decide (length args < k) | None => true end = false).
  { destruct H3 as [H3|[H3|(k & -> & H3)]].
    - by rewrite bool_decide_false.
    - rewrite (bool_decide_false (paren = 0)) by done. by rewrite andb_false_r.
    - rewrite (bool_decide_false (length args < k)) by lia. by rewrite andb_false_r. }
  rewrite Hc. done.
Qed.

Lemma collect_paren va x inp args arg paren n : knd x.2 = KLpar ->
  collect va (x :: inp) args arg paren n = collect va inp args (Some (push (default [] arg) x)) (S paren) (S n).
Proof.
  intros H. destruct x as [sp t]. cbn [collect fst snd] in *.
  rewrite (bool_decide_false (knd t = KRpar)) by (by rewrite H). cbn [andb].
  rewrite (bool_decide_false (knd t = KComma)) by (by rewrite H). cbn [andb]. unfold push. cbn [fst snd]. rewrite H. done.
Qed.
Lemma collect_close va x inp args arg paren n : knd x.2 = KRpar ->
  collect va (x :: inp) args arg (S paren) n = collect va inp args (Some (push (default [] arg) x)) paren (S n).
Proof.
  intros H. destruct x as [sp t]. cbn [collect fst snd] in *.
  rewrite (bool_decide_false (S paren = 0)) by done. rewrite andb_false_r.
  rewrite (bool_decide_false (knd t = KComma)) by (by rewrite H). cbn [andb]. unfold push. cbn [fst snd]. rewrite H.
  replace (S paren - 1) with paren by lia. done.
Qed.

Lemma collect_nested va ts : nested ts -> forall inp args a paren n,
  collect va (ts ++ inp) args (Some a) (S paren) n = collect va inp args (Some (foldl push a ts)) (S paren) (n + length ts).
Proof.
  induction 1 as [|t ts H1 H2 Hn IH|l inner r ts Hl Hr Hi IHi Hts IHts]; intros inp args a paren n.
  - cbn. f_equal. lia.
  - cbn [app]. rewrite collect_plain by auto. cbn [default]. rewrite IH. cbn [foldl length]. f_equal. lia.
  - cbn [app]. rewrite <-app_assoc. cbn [app]. rewrite collect_paren by done. rewrite IHi. rewrite collect_close by done.
    rewrite IHts. cbn [default from_option]. cbn [foldl]; rewrite foldl_app; cbn [foldl]. f_equal.
    cbn [length]. rewrite app_length. cbn [length]. unfold id. lia.
Qed.

Lemma collect_argument va ts : argument ts -> forall inp args arg n,
  collect va (ts ++ inp) args arg 0 n =
  collect va inp args (match ts with [] => arg | _ => Some (foldl push (default [] arg) ts) end) 0 (n + length ts).
Proof.
  induction 1 as [|t ts H1 H2 H3 Hn IH|l inner r ts Hl Hr Hi Hts IHts]; intros inp args arg n.
  - cbn. f_equal. lia.
  - cbn [app]. rewrite collect_plain by auto. rewrite IH. cbn [foldl length]. f_equal; [|lia]. by destruct ts.
  - cbn [app]. rewrite <-app_assoc. cbn [app]. rewrite collect_paren by done. rewrite (collect_nested va inner Hi).
    rewrite collect_close by done. rewrite IHts. cbn [default from_option]. f_equal.
    + cbn [foldl]; rewrite foldl_app; cbn [foldl]. unfold id. by destruct ts.
    + cbn [length]. rewrite app_length. cbn [length]. lia.
Qed.

(** Balanced text into the last argument, commas and all. *)
Lemma argument_nested ts : argument ts -> nested ts.
Proof. induction 1; [apply N_nil|by apply N_tok|by apply N_paren]. Qed.
Lemma collect_variadic k ts : nested ts -> forall inp args a n, k <= length args ->
  collect (Some k) (ts ++ inp) args (Some a) 0 n = collect (Some k) inp args (Some (foldl push a ts)) 0 (n + length ts).
Proof.
  induction 1 as [|t ts H1 H2 Hn IH|l inner r ts Hl Hr Hi IHi Hts IHts]; intros inp args a n Hk.
  - cbn. f_equal. lia.
  - cbn [app]. rewrite collect_plain by eauto. rewrite IH by done. cbn [foldl length]. f_equal. lia.
  - cbn [app]. rewrite <-app_assoc. cbn [app]. rewrite collect_paren by done. rewrite (collect_nested _ inner Hi).
    rewrite collect_close by done. rewrite IHts by done. cbn [default from_option]. f_equal.
    + cbn [foldl]; rewrite foldl_app; cbn [foldl]. unfold id. done.
    + cbn [length]. rewrite app_length. cbn [length]. lia.
Qed.
Lemma more_nested l : more_ok l -> nested (more_text l).
Proof.
  unfold more_text. induction 1 as [|[c p] l [Hc Hp] Hl IH]; cbn; [constructor|]. cbn in *.
  apply N_tok; [by rewrite Hc|by rewrite Hc|].
  apply argument_nested in Hp. revert IH. generalize (concat ((fun cp : bool * tok * list (bool * tok) => cp.1 :: cp.2) <$> l)) as r.
  intros r Hr. induction Hp as [|t ts H1 H2 Hn IH|l0 inner r0 ts Hl0 Hr0 Hi IHi Hts IHts]; [done|by apply N_tok|].
  cbn [app]. rewrite <-app_assoc. cbn [app]. by apply (N_paren l0 inner r0).
Qed.

Lemma collect_rpar va t inp args a n : knd t.2 = KRpar ->
  collect va (t :: inp) args (Some a) 0 n = Some (args ++ [a], S n, t.2).
Proof.
  intros H. destruct t as [sp t]. cbn in *. rewrite bool_decide_true by done. rewrite bool_decide_true by done. done.
Qed.
Lemma collect_rpar_none va t inp args n : knd t.2 = KRpar ->
  collect va (t :: inp) args None 0 n = Some (args, S n, t.2).
Proof.
  intros H. destruct t as [sp t]. cbn in *. rewrite bool_decide_true by done. rewrite bool_decide_true by done. done.
Qed.
Lemma collect_comma va c inp args arg n : knd c.2 = KComma ->
  match va with Some k => length args < k | None => True end ->
  collect va (c :: inp) args arg 0 n = collect va inp (args ++ [default [] arg]) (Some []) 0 (S n).
Proof.
  intros H Hk. destruct c as [sp c]. cbn [collect fst snd] in *. rewrite H. cbn [bool_decide].
  rewrite (bool_decide_false (KComma = KRpar)) by done. rewrite (bool_decide_true (KComma = KComma)) by done. cbn [andb].
  rewrite bool_decide_true by done. cbn [andb].
  destruct va as [k|]; [rewrite bool_decide_true by done|]; done.
Qed.

Lemma arg_some ts (a : list tok) :
  match ts with [] => Some a | _ => Some (foldl push a ts) end = Some (foldl push a ts).
Proof. by destruct ts. Qed.

Lemma some3 {A} (a a' : A) (n n' : nat) (t : tok) : a = a' -> n = n' -> Some (a, n, t) = Some (a', n', t).
Proof. by intros -> ->. Qed.
Lemma some4 {A} (a a' : A) (n n' : nat) (t : tok) : a = a' -> n = n' -> Some (Some (a, n, t)) = Some (Some (a', n', t)).
Proof. by intros -> ->. Qed.

Lemma collect_more va l : more_ok l -> forall rp tail args a n, knd rp.2 = KRpar ->
  match va with Some k => length args + length l <= k | None => True end ->
  collect va (more_text l ++ rp :: tail) args (Some a) 0 n =
  Some (args ++ [a] ++ ((fun cp => contents cp.2) <$> l), n + length (more_text l) + 1, rp.2).
Proof.
  unfold more_text. induction 1 as [|[c p] l [Hc Hp] Hl IH]; intros rp tail args a n Hr Hk.
  - cbn [fmap list_fmap concat app length]. rewrite collect_rpar by done. apply some3; [done|lia].
  - cbn in Hc, Hp. cbn [fmap list_fmap concat app fst snd length] in *. rewrite collect_comma by (done || (destruct va; [lia|done])).
    rewrite <-app_assoc. rewrite (collect_argument va p Hp). rewrite arg_some. rewrite push_contents.
    rewrite IH; [|done|destruct va; [rewrite app_length; cbn; lia|done]].
    apply some3; [by rewrite <-app_assoc|]. rewrite app_length. lia.
Qed.

Lemma find_lpar_spaces sps lp inp n : Forall (fun x : bool * tok => knd x.2 = KSpace) sps -> knd lp.2 = KLpar ->
  find_lpar (sps ++ lp :: inp) n = Some (inp, n + length sps + 1).
Proof.
  intros Hs Hl. revert n. induction Hs as [|[b t] sps Ht Hs IH]; intros n.
  - destruct lp as [b t]. cbn in *. rewrite Hl. do 2 f_equal. lia.
  - cbn in *. rewrite Ht, IH. do 2 f_equal. lia.
Qed.

(** A fixed number of parameters. *)
Theorem funargs_fixed sps lp p0 l rp tail :
  Forall (fun x : bool * tok => knd x.2 = KSpace) sps -> knd lp.2 = KLpar -> knd rp.2 = KRpar ->
  argument p0 -> more_ok l -> (p0 <> [] \/ l <> []) ->
  funargs None (sps ++ lp :: p0 ++ more_text l ++ rp :: tail) =
  Some (Some (contents p0 :: ((fun cp => contents cp.2) <$> l),
              length sps + 1 + length p0 + length (more_text l) + 1, rp.2)).
Proof.
  intros Hs Hl Hr Hp Hm Hne. unfold funargs. rewrite find_lpar_spaces by done.
  rewrite (collect_argument None p0 Hp). destruct p0 as [|x p0].
  - destruct Hne as [Hne|Hne]; [done|]. destruct l as [|[c p] l]; [done|].
    apply Forall_cons_1 in Hm as [[Hc Hp'] Hm]. cbn in Hc, Hp'.
    unfold more_text. cbn [fmap list_fmap concat app fst snd]. rewrite collect_comma by done.
    rewrite <-app_assoc. rewrite (collect_argument None p Hp'), arg_some, push_contents.
    fold (more_text l). rewrite (collect_more None l Hm) by done. apply some4; [done|]. cbn. rewrite app_length. unfold more_text. lia.
  - cbn [default from_option]. rewrite push_contents.
    rewrite (collect_more None l Hm) by done. cbn [app]. apply some4; [done|]. cbn. lia.
Qed.

Theorem funargs_none sps lp rp tail :
  Forall (fun x : bool * tok => knd x.2 = KSpace) sps -> knd lp.2 = KLpar -> knd rp.2 = KRpar ->
  funargs None (sps ++ lp :: rp :: tail) = Some (Some ([], length sps + 2, rp.2)).
Proof.
  intros Hs Hl Hr. unfold funargs. rewrite find_lpar_spaces by done. rewrite collect_rpar_none by done.
  apply some4; [done|lia].
Qed.

(** Variadic: the arguments from the k-th on are one, commas included. *)
Theorem funargs_variadic k sps lp p0 l c p l2 rp tail :
  Forall (fun x : bool * tok => knd x.2 = KSpace) sps -> knd lp.2 = KLpar -> knd rp.2 = KRpar ->
  argument p0 -> more_ok l -> knd c.2 = KComma -> argument p -> more_ok l2 -> k = S (length l) ->
  funargs (Some k) (sps ++ lp :: p0 ++ more_text l ++ c :: p ++ more_text l2 ++ rp :: tail) =
  Some (Some (contents p0 :: ((fun cp => contents cp.2) <$> l) ++ [contents (p ++ more_text l2)],
              length sps + 1 + length p0 + length (more_text l) + 1 + length p + length (more_text l2) + 1, rp.2)).
Proof.
  intros Hs Hl Hr Hp0 Hm Hc Hp Hm2 ->. unfold funargs. rewrite find_lpar_spaces by done.
  assert (Hsteps: forall l args a n inp, more_ok l -> length args + length l < S (length args + length l) ->
    forall k, length args + length l < k ->
    collect (Some k) (more_text l ++ inp) args (Some a) 0 n =
    collect (Some k) inp (args ++ take (length l) (a :: ((fun cp => contents cp.2) <$> l)))
      (Some (default [] (last (a :: ((fun cp => contents cp.2) <$> l))))) 0 (n + length (more_text l))).
  { clear. intros l args a n inp Hm _ k. revert args a n. unfold more_text.
    induction Hm as [|[c p] l [Hc Hp] Hm IH]; intros args a n Hk.
    - cbn. rewrite app_nil_r. f_equal. lia.
    - cbn in Hc, Hp. cbn [fmap list_fmap concat app fst snd length] in *. rewrite collect_comma by (done || lia).
      rewrite <-app_assoc. rewrite (collect_argument _ p Hp), arg_some, push_contents.
      rewrite IH by (rewrite app_length; cbn; lia). rewrite <-app_assoc. cbn [default from_option app take].
      f_equal. rewrite app_length. lia. }
  assert (Hall: forall a n, collect (Some (S (length l))) (more_text l ++ c :: p ++ more_text l2 ++ rp :: tail) [] (Some a) 0 n =
    Some (a :: ((fun cp => contents cp.2) <$> l) ++ [contents (p ++ more_text l2)],
      n + length (more_text l) + 1 + length p + length (more_text l2) + 1, rp.2)).
  { intros a n. rewrite Hsteps by (cbn; done || lia). cbn [app].
    assert (Hlen: length (a :: ((fun cp : bool * tok * list (bool * tok) => contents cp.2) <$> l)) = S (length l))
      by (cbn; by rewrite fmap_length).
    rewrite collect_comma; [|done|rewrite take_length, Hlen; lia].
    assert (Ejoin: forall (x : list (list tok)) k, length x = S k -> take k x ++ [default [] (last x)] = x).
    { clear. intros x. induction x as [|y x IH]; intros k Hx; [done|]. destruct k as [|k].
      - destruct x; [done|]. cbn in Hx. lia.
      - cbn in Hx. destruct x as [|z x]; [cbn in Hx; lia|]. cbn [take app]. f_equal. apply IH. cbn in *. lia. }
    cbn [default from_option]. rewrite Ejoin by done.
    rewrite (collect_variadic _ p (argument_nested p Hp)) by (rewrite Hlen; lia).
    rewrite (collect_variadic _ (more_text l2) (more_nested l2 Hm2)) by (rewrite Hlen; lia).
    rewrite <-foldl_app, push_contents. rewrite collect_rpar by done. cbn [app]. apply some3; [done|lia]. }
  rewrite (collect_argument _ p0 Hp0). destruct p0 as [|x p0].
  - (* the first argument is empty; arg is NULL rather than an empty vector *)
    assert (Hnull: forall inp n, (exists c0 inp', inp = c0 :: inp' /\ knd c0.2 = KComma) ->
      collect (Some (S (length l))) inp [] None 0 n = collect (Some (S (length l))) inp [] (Some []) 0 n).
    { intros inp n (c0 & inp' & -> & Hc0). rewrite !collect_comma by (cbn; done || lia). done. }
    rewrite Hnull.
    2:{ destruct l as [|[c0 p1] l]; [by exists c, (p ++ more_text l2 ++ rp :: tail)|].
        apply Forall_cons_1 in Hm as [[Hc0 _] _]. cbn in Hc0. unfold more_text. cbn. eauto. }
    rewrite Hall. rewrite bool_decide_false by (cbn; rewrite app_length, fmap_length; cbn; lia).
    apply some4; [done|]. cbn. lia.
  - cbn [default from_option]. rewrite push_contents, Hall.
    rewrite bool_decide_false by (cbn; rewrite app_length, fmap_length; cbn; lia).
    apply some4; [done|]. cbn. lia.
Qed.
