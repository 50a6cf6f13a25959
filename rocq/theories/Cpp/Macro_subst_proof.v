(** Function-like macros: the replacement list. *)
From stdpp Require Import base list numbers gmap sets.
From Verif Require Import Util.Escape_model Cpp.Macro_model Cpp.Macro_spec Cpp.Macro_fun_spec Cpp.Macro_proof Cpp.Macro_fun_proof.
Open Scope nat_scope.

Lemma index_position x l i : NoDup l -> index_of x l i = (fun j => i + j) <$> position x l.
Proof.
  revert i. induction l as [|y l IH]; intros i Hn; [done|]. apply NoDup_cons in Hn as [Hy Hn].
  cbn [index_of position]. rewrite IH by done. destruct (decide (x = y)) as [->|Hne].
  - assert (Hp: position y l = None).
    { clear -Hy. induction l as [|z l IH]; [done|]. cbn. apply not_elem_of_cons in Hy as [H1 H2].
      rewrite decide_False by done. by rewrite IH. }
    rewrite Hp. cbn. rewrite decide_True by done. f_equal. lia.
  - rewrite (decide_False (P := y = x)) by auto. destruct (position x l); cbn; [f_equal; lia|done].
Qed.
Lemma position_lt x l j : position x l = Some j -> j < length l.
Proof.
  revert j. induction l as [|y l IH]; intros j; cbn; [done|]. destruct (decide _); [intros [= <-]; lia|].
  destruct (position x l) as [k|]; cbn; [|done]. intros [= <-]. specialize (IH k eq_refl). lia.
Qed.

(** ** # *)
Lemma escape_plain run l : Forall printable l -> 
  escape_loop l run false = Some (run ++ concat ((fun c => if bool_decide (c = 34 \/ c = 92)%Z then [92%Z; c] else [c]) <$> l)).
Proof.
  intros H. revert run. induction H as [|c l Hc Hl IH]; intros run.
  - cbn. rewrite app_nil_r. by destruct run.
  - cbn [escape_loop andb fmap list_fmap concat]. unfold printable in Hc.
    destruct (decide (c = 34%Z)) as [->|H1]; [|destruct (decide (c = 92%Z)) as [->|H2]].
    + change (escape 34) with (Some [92; 34]%Z). cbn [mbind option_bind].
      rewrite (bool_decide_false ([92%Z; 34%Z] !! 1 = Some 120%Z)) by done. rewrite IH. rewrite bool_decide_true by auto. done.
    + change (escape 92) with (Some [92; 92]%Z). cbn [mbind option_bind].
      rewrite (bool_decide_false ([92%Z; 92%Z] !! 1 = Some 120%Z)) by done. rewrite IH. rewrite bool_decide_true by auto. done.
    + assert (escape c = None) as ->.
      { unfold escape. rewrite !(proj2 (Z.eqb_neq c _)) by lia.
        rewrite (proj2 (Z.ltb_ge _ _)), (proj2 (Z.leb_gt _ _)) by lia. done. }
      rewrite IH. rewrite bool_decide_false by tauto. by rewrite <-app_assoc.
Qed.
Lemma spell_plain t : plain t ->
  concat ((fun c => if bool_decide (c = 34 \/ c = 92)%Z then [92%Z; c] else [c]) <$> t.2) = spell t.
Proof.
  intros [Hp Hq]. unfold spell. destruct (is_literal t); [done|]. destruct (Hq eq_refl) as [H1 H2]. clear Hq Hp.
  induction t.2 as [|c l IH]; [done|]. cbn. apply not_elem_of_cons in H1 as [? ?], H2 as [? ?].
  rewrite bool_decide_false by (intros [->| ->]; done). cbn. by rewrite IH.
Qed.
Lemma stringize_plain s arg : Forall plain (shapes arg) ->
  exists q s', stringize s arg = Ok (q, s') /\ shape_of q = stringized (shapes arg) /\ hid s' = hid s /\ src s' = src s.
Proof.
  intros H. unfold stringize, escape_string.
  assert (Hpr: Forall printable (concat (txt <$> arg))).
  { induction arg as [|t arg IH]; [constructor|]. cbn in *. apply Forall_cons_1 in H as [[H1 _] H]. apply Forall_app. auto. }
  rewrite escape_plain by done. cbn [app]. eexists. eexists. split; [done|]. split; [|done].
  unfold shape_of, stringized. cbn. f_equal. f_equal. f_equal. clear Hpr.
  induction arg as [|t arg IH]; [done|]. cbn in *. apply Forall_cons_1 in H as [H1 H].
  rewrite fmap_app, concat_app, IH by done. f_equal. apply (spell_plain (shape_of t) H1).
Qed.

(** ** ## *)
Lemma join_snoc l x y r : join (l ++ [x]) (y :: r) = l ++ (KIdent, x.2 ++ y.2) :: r.
Proof.
  induction l as [|z l IH]; [done|]. cbn [app]. rewrite <-IH. cbn. destruct (l ++ [x]) eqn:E; [by destruct l|done].
Qed.
Lemma glue1_shapes s os0 osl t2 : osl <> [] ->
  exists os1 s', glue1 s (os0 ++ osl) t2 = (os0 ++ os1, s') /\ shapes os1 = join (shapes osl) [shape_of t2] /\
    os1 <> [] /\ hid s' = hid s /\ src s' = src s.
Proof.
  intros Hne. destruct osl as [|t1 osl0 _] using rev_ind; [done|]. rewrite app_assoc, glue1_snoc.
  eexists (osl0 ++ _), _. split; [by rewrite <-app_assoc|]. split_and!; try done.
  - unfold shapes. rewrite !fmap_app. cbn. by rewrite join_snoc.
  - by destruct osl0.
Qed.
Lemma join_tail l y r : l <> [] -> join l (y :: r) = join l [y] ++ r.
Proof.
  intros Hne. destruct l as [|x l0 _] using rev_ind; [done|]. rewrite !join_snoc. by rewrite <-app_assoc.
Qed.
Lemma glue_shapes s os0 osl arg : osl <> [] -> arg <> [] ->
  exists os1 s', glue s (os0 ++ osl) arg = Ok (os0 ++ os1, s') /\ shapes os1 = join (shapes osl) (shapes arg) /\
    os1 <> [] /\ hid s' = hid s /\ src s' = src s.
Proof.
  intros H1 H2. destruct arg as [|t2 arg]; [done|]. unfold glue.
  destruct (os0 ++ osl) eqn:E; [by destruct os0, osl|]. rewrite <-E.
  destruct (glue1_shapes s os0 osl t2 H1) as (os1 & s' & -> & Hs & Hne & Hh & Hsr).
  exists (os1 ++ arg), s'. rewrite <-app_assoc. split; [done|]. split; [|split; [by destruct os1|done]].
  cbn. unfold shapes in *. rewrite fmap_app, Hs. symmetry. apply join_tail. by destruct osl.
Qed.

Section subst.
  Context (expand : list tok -> st -> res (list tok * st)) (m : macro) (ps : list str).
  Context (args : list (list tok)) (full : list (list shape)).
  Hypothesis (Hps : m_params m = Some ps) (Hva : m_va m = None) (Hnd : NoDup ps) (Hlen : length args = length ps).
  Hypothesis Hexp : forall j a s, args !! j = Some a ->
    exists e s', expand a s = Ok (e, s') /\ shapes e = full !!! j /\ src s' = src s.
  Notation raw := (shapes <$> args).

  Lemma param_par t : param m t = par ps (shape_of t).
  Proof.
    unfold param, par, param_index. cbn [fst snd shape_of]. destruct (decide (knd t = KIdent)) as [E|N].
    - rewrite E, Hps, Hva, app_nil_r. rewrite index_position by done. cbn. by destruct (position (txt t) ps).
    - by destruct (knd t).
  Qed.
  Lemma par_arg t j : par ps t = Some j -> exists a, args !! j = Some a /\ raw !!! j = shapes a.
  Proof.
    unfold par. intros H. assert (Hj: j < length args) by (rewrite Hlen; destruct t.1; try done; by eapply position_lt).
    apply lookup_lt_is_Some_2 in Hj as [a Ha]. exists a. split; [done|].
    apply list_lookup_total_correct. by rewrite list_lookup_fmap, Ha.
  Qed.
  Lemma par_ident t j : par ps t = Some j -> t.1 = KIdent.
  Proof. unfold par. by destruct t.1. Qed.

  (** What the cache holds. *)
  Definition cache_ok (cache : gmap nat (list tok)) : Prop :=
    forall j e, cache !! j = Some e -> shapes e = full !!! j.

  Lemma shapes_cons t ts : shapes (t :: ts) = shape_of t :: shapes ts.
  Proof. done. Qed.
  Lemma cat_shapes ts : match ts with c :: _ => bool_decide (knd c = KCat) | [] => false end = next_is_cat (shapes ts).
  Proof. destruct ts as [|[p k x] ts]; [done|]. cbn. by destruct k. Qed.

  Lemma shapes_app a b : shapes (a ++ b) = shapes a ++ shapes b.
  Proof. unfold shapes. apply fmap_app. Qed.

  Notation hashed_plain := (hashed_plain ps raw).

  Lemma subst_loop_fun fuel : forall body os0 osl cache s,
    length body < fuel -> cache_ok cache ->
    cats_ok false (shapes body) -> cat_args_nonempty ps raw false (shapes body) -> hashed_plain (shapes body) ->
    (next_is_cat (shapes body) = true -> osl <> []) ->
    exists os' s', subst_loop expand m args fuel body (os0 ++ osl) cache s = Ok (os', s') /\
      shapes os' = shapes os0 ++ paste (shapes osl) (items ps raw full false (shapes body)) /\ src s' = src s.
  Proof.
    induction fuel as [|fuel IH]; intros body os0 osl cache s Hf Hc Hcat Hne Hh Hos; [lia|].
    destruct body as [|t rest].
    { exists (os0 ++ osl), s. cbn. by rewrite shapes_app. }
    cbn [length] in Hf.
    (* one group appended *)
    assert (Hgroup: forall g rest' cache' s1, length rest' < fuel -> cache_ok cache' ->
      cats_ok false (shapes rest') -> cat_args_nonempty ps raw false (shapes rest') -> hashed_plain (shapes rest') ->
      (next_is_cat (shapes rest') = true -> g <> []) ->
      exists os' s', subst_loop expand m args fuel rest' ((os0 ++ osl) ++ g) cache' s1 = Ok (os', s') /\
        shapes os' = shapes os0 ++ shapes osl ++ paste (shapes g) (items ps raw full false (shapes rest')) /\ src s' = src s1).
    { intros g rest' cache' s1 H1 H2 H3 H4 H5 H6.
      destruct (IH rest' (os0 ++ osl) g cache' s1 H1 H2 H3 H4 H5 H6) as (os' & s' & E & Es & Esr).
      exists os', s'. split; [done|]. split; [|done]. rewrite Es, shapes_app. by rewrite <-app_assoc. }
    rewrite shapes_cons in *. destruct Hh as [Hh1 Hh2].
    cbn [subst_loop]. rewrite !Hva. cbn [items cats_ok cat_args_nonempty] in *.
    rewrite !param_par, !cat_shapes. cbn [shape_of fst snd] in Hcat, Hh1 |- *. fold (shape_of t) in *.
    destruct (knd t) eqn:Ek.
    - (* identifier *)
      destruct (par ps (shape_of t)) as [j|] eqn:Ej.
      + destruct Hne as [Hne1 Hne2]. cbn [orb] in Hne1.
        destruct (par_arg _ _ Ej) as (a & Ea & Er). unfold arg_at. rewrite Ea. cbn [bindr orb].
        destruct (next_is_cat (shapes rest)) eqn:Ec.
        * specialize (Hne1 eq_refl). rewrite Er in *. destruct a as [|x a]; [done|].
          destruct (Hgroup (x :: a) rest cache s) as (os' & s' & E & Es & Esr); try done; [lia|].
          exists os', s'. done.
        * destruct (cache !! j) as [e|] eqn:Ece.
          -- destruct (Hgroup e rest cache s) as (os' & s' & E & Es & Esr); try done; try lia; try (by rewrite Ec).
             exists os', s'. rewrite (Hc _ _ Ece) in Es. done.
          -- destruct (Hexp j a s Ea) as (e & s1 & Ee & Hse & Hsrc). rewrite Ee. cbn [bindr].
             destruct (Hgroup e rest (<[j:=e]> cache) s1) as (os' & s' & E & Es & Esr); try done; try lia; try (by rewrite Ec).
             { intros j' e'. destruct (decide (j = j')) as [<-|]; [rewrite lookup_insert; by intros [= <-]|].
               rewrite lookup_insert_ne by done. apply Hc. }
             exists os', s'. rewrite Hse in Es. rewrite Esr. done.
      + rewrite bool_decide_false in Hne by (cbn; by rewrite ?Ek).
      destruct (Hgroup [t] rest cache s) as (os' & s' & E & Es & Esr); try done; [lia|].
        exists os', s'. done.
    - destruct (par ps (shape_of t)) as [j|] eqn:Ej; [apply par_ident in Ej; cbn in Ej; congruence|].
      rewrite bool_decide_false in Hne by (cbn; by rewrite ?Ek).
      destruct (Hgroup [t] rest cache s) as (os' & s' & E & Es & Esr); try done; [lia|]. exists os', s'. done.
    - destruct (par ps (shape_of t)) as [j|] eqn:Ej; [apply par_ident in Ej; cbn in Ej; congruence|].
      rewrite bool_decide_false in Hne by (cbn; by rewrite ?Ek).
      destruct (Hgroup [t] rest cache s) as (os' & s' & E & Es & Esr); try done; [lia|]. exists os', s'. done.
    - destruct (par ps (shape_of t)) as [j|] eqn:Ej; [apply par_ident in Ej; cbn in Ej; congruence|].
      rewrite bool_decide_false in Hne by (cbn; by rewrite ?Ek).
      destruct (Hgroup [t] rest cache s) as (os' & s' & E & Es & Esr); try done; [lia|]. exists os', s'. done.
    - destruct (par ps (shape_of t)) as [j|] eqn:Ej; [apply par_ident in Ej; cbn in Ej; congruence|].
      rewrite bool_decide_false in Hne by (cbn; by rewrite ?Ek).
      destruct (Hgroup [t] rest cache s) as (os' & s' & E & Es & Esr); try done; [lia|]. exists os', s'. done.
    - (* # *)
      destruct (par ps (shape_of t)) as [j0|] eqn:Ej0; [apply par_ident in Ej0; cbn in Ej0; congruence|].
      destruct Hcat as [_ Hcat]. rewrite bool_decide_false in Hne by (cbn; by rewrite ?Ek).
      destruct rest as [|p rest'].
      { destruct (Hgroup [t] [] cache s) as (os' & s' & E & Es & Esr); try done; [cbn; lia|]. exists os', s'. done. }
      rewrite shapes_cons in *. rewrite param_par.
      destruct (par ps (shape_of p)) as [j|] eqn:Ej.
      + destruct (par_arg _ _ Ej) as (a & Ea & Er). unfold arg_at. rewrite Ea. cbn [bindr].
        pose proof (Hh1 eq_refl _ _ j eq_refl Ej) as Hpl. rewrite Er in *.
        destruct (stringize_plain s a Hpl) as (q & s1 & -> & Hq & _ & Hsr). cbn [bindr].
        cbn [cat_args_nonempty cats_ok] in Hne, Hcat. rewrite Ej in Hne. destruct Hne as [_ Hne].
        rewrite (par_ident _ _ Ej) in Hcat. destruct Hh2 as [_ Hh2]. cbn [length] in Hf.
        destruct (Hgroup [q] rest' cache s1) as (os' & s' & E & Es & Esr); try done; [lia|].
        exists os', s'. rewrite Esr. cbn in Es. rewrite Hq in Es. done.
      + destruct (Hgroup [t] (p :: rest') cache s) as (os' & s' & E & Es & Esr); try done; [lia|].
        exists os', s'. done.
    - (* ## *)
      destruct (par ps (shape_of t)) as [j0|] eqn:Ej0; [apply par_ident in Ej0; cbn in Ej0; congruence|].
      destruct Hcat as [_ Hcat]. rewrite bool_decide_true in Hne by (cbn; by rewrite ?Ek).
      assert (Hl: osl <> []). { apply Hos. cbn. unfold shape_of. by rewrite Ek. }
      clear Hgroup. destruct (os0 ++ osl) as [|o1 o2] eqn:Eo; [by destruct os0, osl|]. rewrite <-Eo. clear Eo o1 o2.
      destruct rest as [|p rest']; [done|]. rewrite shapes_cons in *. rewrite param_par.
      cbn [items cats_ok cat_args_nonempty] in *. cbn [length] in Hf.
      destruct (par ps (shape_of p)) as [j|] eqn:Ej.
      + destruct (par_arg _ _ Ej) as (a & Ea & Er). unfold arg_at. rewrite Ea. cbn [bindr].
        rewrite (par_ident _ _ Ej) in *. destruct Hne as [Hne1 Hne2]. specialize (Hne1 eq_refl). rewrite Er in *.
        cbn [orb]. destruct (glue_shapes s os0 osl a Hl) as (os1 & s1 & Eg & Hs1 & Hn1 & _ & Hsr); [by destruct a|].
        destruct a as [|a0 a]; [done|]. rewrite Eg. cbn [bindr].
        destruct (IH rest' os0 os1 cache s1) as (os' & s' & E & Es & Esr); try done; [lia|apply Hh2|].
        exists os', s'. rewrite Esr. rewrite Hs1 in Es. cbn [paste]. done.
      + destruct (glue1_shapes s os0 osl p Hl) as (os1 & s1 & -> & Hs1 & Hn1 & _ & Hsr).
        assert (Hk: (shape_of p).1 <> KCat /\ (shape_of p).1 <> KHash).
        { destruct (shape_of p).1; try done; destruct Hcat; done. }
        rewrite bool_decide_false in Hne by tauto.
        destruct (IH rest' os0 os1 cache s1) as (os' & s' & E & Es & Esr); try done;
          [lia|by destruct ((shape_of p).1); try done; tauto|apply Hh2|].
        exists os', s'. rewrite Esr. rewrite Hs1 in Es.
        split; [done|]. split; [|done]. rewrite Es. f_equal.
        destruct ((shape_of p).1) eqn:Ekp; try done; tauto.
    - destruct (par ps (shape_of t)) as [j|] eqn:Ej; [apply par_ident in Ej; cbn in Ej; congruence|].
      rewrite bool_decide_false in Hne by (cbn; by rewrite ?Ek).
      destruct (Hgroup [t] rest cache s) as (os' & s' & E & Es & Esr); try done; [lia|]. exists os', s'. done.
    - destruct (par ps (shape_of t)) as [j|] eqn:Ej; [apply par_ident in Ej; cbn in Ej; congruence|].
      rewrite bool_decide_false in Hne by (cbn; by rewrite ?Ek).
      destruct (Hgroup [t] rest cache s) as (os' & s' & E & Es & Esr); try done; [lia|]. exists os', s'. done.
  Qed.

  Theorem subst_replaced hs s :
    body_ok (shapes (m_body m)) -> cat_args_nonempty ps raw false (shapes (m_body m)) ->
    hashed_plain (shapes (m_body m)) ->
    exists os s', subst expand m args hs s = Ok (os, s') /\
      shapes os = replaced ps raw full (shapes (m_body m)) /\ src s' = src s.
  Proof.
    intros [Hb1 Hb2] Hn Hh. unfold subst.
    destruct (subst_loop_fun (S (length (m_body m))) (m_body m) [] [] ∅ s) as (os & s1 & E & Es & Esr); try done; [lia| |].
    { by rewrite Hb1. }
    cbn [app] in E. rewrite E. cbn [bindr]. eexists. eexists. split; [done|]. split; [exact Es|exact Esr].
  Qed.
End subst.
