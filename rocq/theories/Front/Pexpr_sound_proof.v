(** What is accepted is grammatical. *)
From stdpp Require Import base list numbers sets.
From Verif Require Import Front.Pexpr_model Front.Pexpr_spec Front.Pexpr_proof.
Local Open Scope nat_scope.

(** The non-terminal for a precedence, and those beyond. *)
Definition lev (n : nat) : nt :=
  match n with
  | 1 => expression | 2 => assignment | 3 => conditional | 4 => logical_or | 5 => logical_and | 6 => inclusive_or | 7 => exclusive_or | 8 => and_nt
  | 9 => equality | 10 => relational | 11 => shift | 12 => additive | 13 => multiplicative | 14 => cast | 15 => unary | _ => postfix
  end.
Lemma lev_rule n : 1 <= n <= 15 -> (rule (lev n)).2 = lev (S n).
Proof. intros H. do 16 (destruct n as [|n]; [try lia; done|]). lia. Qed.
Lemma lev_up ext n p ts e : 1 <= p -> p <= n -> n <= 16 -> derives ext (lev n) ts e -> derives ext (lev p) ts e.
Proof.
  intros H1 H2 H3 Hd. remember (n - p) as k eqn:Ek. revert p H1 H2 Ek. induction k as [|k IH]; intros p H1 H2 Ek; [by replace p with n by lia|].
  apply d_up. rewrite lev_rule by lia. apply IH; lia.
Qed.
(** The next token does not belong to an expression of this level. *)
Definition nxt (n : nat) (ts : list tok) : Prop :=
  if decide (n = 16) then True else if decide (14 <= n) then prec_next ts < 14 else if decide (n = 2 \/ n = 3) then prec_next ts < n else prec_next ts <= n.

Definition cast_start (ts : list tok) : bool := match ts with TLpar :: TType _ :: _ => true | _ => false end.
Lemma cast_start_app a b : cast_start (a ++ b) = false -> cast_start a = false.
Proof. destruct a as [|[] [|[] a]]; done. Qed.
Definition St (n : nat) (u : list tok) (e : ex) : Prop :=
  derives true (lev n) u e /\ (lvalue e = true -> derives true unary u e) /\ (14 <= n -> cast_start u = false -> derives true unary u e).
Lemma St_postfix u e : derives true postfix u e -> St 16 u e.
Proof. intros H. split; [done|]. split; intros; (apply (lev_up true 16 15); [lia..|done]). Qed.
Lemma St_primary u e : derives true primary u e -> St 16 u e.
Proof. intros H. apply St_postfix. by apply (d_up _ postfix). Qed.
Lemma St_down n p u e : 1 <= p -> p <= n -> n <= 16 -> St n u e -> St p u e.
Proof. intros H1 H2 H3 (S1 & S2 & S3). split; [by apply (lev_up true n)|]. split; [done|]. intros. apply S3; [lia|done]. Qed.

Lemma bind_ok {A B} (r : res A) (k : A -> list tok -> res B) b rest : bind r k = Done b rest false -> exists a ts, r = Done a ts false /\ k a ts = Done b rest false.
Proof.
  destruct r as [a ts e| |]; cbn; [|done..]. destruct (k a ts) as [b' rest' e'| |] eqn:E; [|done..]. intros [= -> -> He]. apply orb_false_iff in He as [-> ->]. by exists a, ts.
Qed.
Lemma consume_ok t ts b rest : consume t ts = Done b rest false -> b = true /\ exists t', tok_eqb t' t = true /\ ts = t' :: rest.
Proof. destruct ts as [|t' ts]; cbn; [done|]. destruct (tok_eqb t' t) eqn:E; intros [= <- <-]. split; [done|]. by exists t'. Qed.
Lemma consume_rpar ts b rest : consume TRpar ts = Done b rest false -> ts = TRpar :: rest.
Proof. intros H. apply consume_ok in H as (_ & [] & E & ->); try done. by destruct o. Qed.
Lemma consume_rbr ts b rest : consume TRbr ts = Done b rest false -> ts = TRbr :: rest.
Proof. intros H. apply consume_ok in H as (_ & [] & E & ->); try done. by destruct o. Qed.
Lemma consume_colon ts b rest : consume TColon ts = Done b rest false -> ts = TColon :: rest.
Proof. intros H. apply consume_ok in H as (_ & [] & E & ->); try done. by destruct o. Qed.
Lemma consume_comma ts b rest : consume (TOp Comma) ts = Done b rest false -> b = true /\ ts = TOp Comma :: rest.
Proof. intros H. apply consume_ok in H as (-> & [] & E & ->); try done. by destruct o. Qed.
Lemma as_type_eq ts t ts' : as_type ts = Some (t, ts') -> ts = TType t :: ts'.
Proof. destruct ts as [|[] ts]; by intros [= <- <-]. Qed.
Lemma as_brace_eq ts t ts' : as_brace ts = Some (t, ts') -> ts = TBrace t :: ts'.
Proof. destruct ts as [|[] ts]; by intros [= <- <-]. Qed.
Lemma as_name_eq ts t ts' : as_name ts = Some (t, ts') -> ts = TId t :: ts'.
Proof. destruct ts as [|[] ts]; by intros [= <- <-]. Qed.
Lemma as_rpar_eq ts ts' : as_rpar ts = Some ts' -> ts = TRpar :: ts'.
Proof. destruct ts as [|[] ts]; by intros [= <-]. Qed.
Lemma as_paren_type_eq ts t ts' : as_paren_type ts = Some (t, ts') -> ts = TLpar :: TType t :: ts'.
Proof. destruct ts as [|[] ts]; try done. cbn. intros H. by apply as_type_eq in H as ->. Qed.
Lemma as_paren_type_no ts : as_paren_type ts = None -> cast_start ts = false.
Proof. by destruct ts as [|[] [|[] ts]]. Qed.

Definition ok_parse (f : nat) : Prop := forall p ts v rest, 1 <= p <= 14 -> parse_precedence f p ts = Done v rest false ->
  exists e u, v = Some e /\ ts = u ++ rest /\ prec_next rest < p /\ (lvalues e = true -> St p u e).
Definition ok_infixes (f : nat) : Prop := forall p e0 ts v rest, 1 <= p <= 14 -> infixes f p (Some e0) ts = Done v rest false ->
  exists e u, v = Some e /\ ts = u ++ rest /\ prec_next rest < p /\ (lvalues e = true -> lvalues e0 = true) /\
  (forall n u0, p <= n <= 16 -> nxt n ts -> (lvalues e0 = true -> St n u0 e0) -> lvalues e = true -> St p (u0 ++ u) e).
Definition ok_args (f : nat) : Prop := forall ts v rest, parse_args f ts = Done v rest false ->
  exists l u, v = Some <$> l /\ ts = u ++ rest /\ (forallb lvalues l = true -> u = [TRpar] /\ l = [] \/ exists u', u = u' ++ [TRpar] /\ arguments true u' l).
Definition ok_more (f : nat) : Prop := forall ts v rest, more_args f ts = Done v rest false ->
  exists l u, v = Some <$> l /\ ts = u ++ TRpar :: rest /\ (forallb lvalues l = true -> arguments true u l).

Lemma one_step f p e1 ts v rest (Q : ok_infixes f) : 1 <= p <= 14 -> infixes f p (Some e1) ts = Done v rest false ->
  forall n1 w e0 tsw, tsw = w ++ ts -> p <= n1 <= 16 -> nxt n1 ts -> (lvalues e1 = true -> lvalues e0 = true) ->
  exists e u, v = Some e /\ tsw = u ++ rest /\ prec_next rest < p /\ (lvalues e = true -> lvalues e0 = true) /\
  (forall u0, (lvalues e1 = true -> St n1 (u0 ++ w) e1) -> lvalues e = true -> St p (u0 ++ u) e).
Proof.
  intros Hp Hr n1 w e0 tsw -> Hn Hx Hl. destruct (Q p e1 ts v rest Hp Hr) as (e & u & -> & -> & Hnx & Hl2 & HS).
  exists e, (w ++ u). split; [done|]. split; [by rewrite app_assoc|]. split; [done|]. split; [tauto|].
  intros u0 H1 H2. rewrite app_assoc. by apply (HS n1).
Qed.
Lemma after_prefix f p e1 ts1 v rest (Q : ok_infixes f) : 1 <= p <= 14 -> infixes f p (Some e1) ts1 = Done v rest false ->
  forall n1 w ts, ts = w ++ ts1 -> p <= n1 <= 16 -> nxt n1 ts1 -> (lvalues e1 = true -> St n1 w e1) ->
  exists e u, v = Some e /\ ts = u ++ rest /\ prec_next rest < p /\ (lvalues e = true -> St p u e).
Proof.
  intros Hp Hr n1 w ts -> Hn Hx Hl. destruct (Q p e1 ts1 v rest Hp Hr) as (e & u & -> & -> & Hnx & Hl2 & HS).
  exists e, (w ++ u). split; [done|]. split; [by rewrite app_assoc|]. split; [done|]. intros H. by apply (HS n1).
Qed.
Lemma nxt16 ts : nxt 16 ts. Proof. done. Qed.
Lemma nxt_cast n ts : n = 14 \/ n = 15 -> prec_next ts < 14 -> nxt n ts.
Proof. intros [-> | ->] H; done. Qed.
Lemma sound_parse f : ok_parse f -> ok_infixes f -> ok_parse (S f).
Proof.
  intros P Q p ts v rest Hp. cbn [parse_precedence]. destruct ts as [|t ts]; [done|].
  destruct t as [n|n|o| | | | | | | | |k|n|n|n]; try done.
  - intros H. eapply (after_prefix f p _ _ v rest Q Hp H 16 [TId n]); [done|lia|done|]. intros _. apply St_primary. constructor.
  - intros H. eapply (after_prefix f p _ _ v rest Q Hp H 16 [TLit n]); [done|lia|done|]. intros _. apply St_primary. constructor.
  - destruct (is_unary o) eqn:Ho; [|done]. intros H. apply bind_ok in H as (v1 & ts1 & H1 & H).
    destruct (P 14 ts v1 ts1 ltac:(lia) H1) as (e & u & -> & -> & Hnx & HS).
    eapply (after_prefix f p _ _ v rest Q Hp H 15 (TOp o :: u)); [done|lia|by apply nxt_cast; [right|]|].
    cbn [lvalues]. intros Hl. apply andb_true_iff in Hl as [Hl1 Hl2]. destruct (HS Hl2) as (S1 & S2 & S3).
    assert (Hd : derives true unary (TOp o :: u) (Un o e)).
    { destruct o as [[]|[]| | | | | |]; try done; try (apply (d_unary true _ u e); [set_solver|done]); apply (d_pre true _ u e); [set_solver|by apply S2|set_solver|by apply S2]. }
    split; [done|]. by split.
  - destruct (as_type ts) as [[t ts1]|] eqn:Et.
    + apply as_type_eq in Et as ->. intros H. apply bind_ok in H as (b & ts2 & H1 & H). apply consume_rpar in H1 as ->.
      destruct (as_brace ts2) as [[i ts3]|] eqn:Eb.
      * apply as_brace_eq in Eb as ->. eapply (after_prefix f p _ _ v rest Q Hp H 16 [TLpar; TType t; TRpar; TBrace i]); [done|lia|done|]. intros _. apply St_postfix. constructor.
      * apply bind_ok in H as (v1 & ts3 & H1 & H). destruct (P 14 ts2 v1 ts3 ltac:(lia) H1) as (e & u & -> & -> & Hnx & HS).
        eapply (after_prefix f p _ _ v rest Q Hp H 14 ([TLpar; TType t; TRpar] ++ u)); [done|lia|by apply nxt_cast; [left|]|].
        cbn [lvalues]. intros Hl. destruct (HS Hl) as (S1 & _). split; [by apply d_cast|]. by split.
    + destruct (as_brace ts) as [[i ts1]|] eqn:Eb.
      * apply as_brace_eq in Eb as ->. intros H. apply bind_ok in H as (b & ts2 & H1 & H). apply consume_rpar in H1 as ->.
        eapply (after_prefix f p _ _ v rest Q Hp H 16 [TLpar; TBrace i; TRpar]); [done|lia|done|]. intros _. apply St_primary. by constructor.
      * intros H. apply bind_ok in H as (v1 & ts1 & H1 & H). apply bind_ok in H as (b & ts2 & H2 & H). apply consume_rpar in H2 as ->.
        destruct (P 1 ts v1 (TRpar :: ts2) ltac:(lia) H1) as (e & u & -> & -> & Hnx & HS).
        eapply (after_prefix f p _ _ v rest Q Hp H 16 ([TLpar] ++ u ++ [TRpar])); [by rewrite <- !app_assoc|lia|done|].
        intros Hl. destruct (HS Hl) as (S1 & _). apply St_primary. by apply d_paren.
  - destruct (as_paren_type ts) as [[t ts1]|] eqn:Et.
    + apply as_paren_type_eq in Et as ->. intros H. apply bind_ok in H as (b & ts2 & H1 & H). apply consume_rpar in H1 as ->.
      eapply (after_prefix f p _ _ v rest Q Hp H 16 [TSizeof k; TLpar; TType t; TRpar]); [done|lia|done|]. intros _. apply St_postfix. by constructor.
    + intros H. apply bind_ok in H as (v1 & ts1 & H1 & H). apply as_paren_type_no in Et.
      destruct (P 14 ts v1 ts1 ltac:(lia) H1) as (e & u & -> & -> & Hnx & HS). apply cast_start_app in Et.
      eapply (after_prefix f p _ _ v rest Q Hp H 15 (TSizeof k :: u)); [done|lia|by apply nxt_cast; [right|]|].
      cbn [lvalues]. intros Hl. destruct (HS Hl) as (S1 & S2 & S3). specialize (S3 ltac:(lia) Et).
      assert (Hd : derives true unary (TSizeof k :: u) (SizeE k e)). { destruct k; [by apply (d_alignof true u e)|by apply (d_sizeof true u e)]. }
      split; [done|]. by split.
Qed.
Lemma lev_ops n (o : op) : prec (TOp o) = n -> match o with B _ | R _ | Comma => True | _ => False end -> o ∈ (rule (lev n)).1 /\ (n = 1 \/ 4 <= n <= 13).
Proof. intros <-. destruct o as [[]|[]| | | | | |]; try done; intros _; (split; [cbn; set_solver|first [left; reflexivity|right; vm_compute; lia]]). Qed.
Lemma nxt_op n t ts : nxt n (t :: ts) -> prec t <= 13 -> 1 <= prec t -> prec t <= n /\ (prec t <= 3 -> 1 < prec t -> prec t < n).
Proof.
  unfold nxt. cbn [prec_next]. intros H H1 H2. destruct (decide (n = 16)); [lia|]. destruct (decide (14 <= n)); [lia|]. destruct (decide (n = 2 \/ n = 3)); [lia|].
  split; [lia|]. intros. lia.
Qed.
Lemma nxt_post n t ts : nxt n (t :: ts) -> prec t = 14 -> n = 16 \/ 16 < n.
Proof.
  unfold nxt. cbn [prec_next]. intros H E. rewrite E in H. destruct (decide (n = 16)); [by left|]. destruct (decide (14 <= n)); [lia|]. destruct (decide (n = 2 \/ n = 3)); lia.
Qed.
Lemma nxt_left n ts : n = 1 \/ 4 <= n <= 13 -> prec_next ts < S n -> nxt n ts.
Proof. intros H Hn. unfold nxt. destruct (decide (n = 16)); [done|]. destruct (decide (14 <= n)); [lia|]. destruct (decide (n = 2 \/ n = 3)); lia. Qed.
Lemma mapM_somes (l : list ex) l' : mapM id (Some <$> l) = Some l' -> l' = l.
Proof. revert l'. induction l as [|x l IH]; cbn; [by intros l' [= <-]|]. intros l'. destruct (mapM id (Some <$> l)) as [l1|]; cbn; [|done]. intros [= <-]. by rewrite (IH l1). Qed.
Lemma sound_infixes f : ok_parse f -> ok_infixes f -> ok_args f -> ok_infixes (S f).
Proof.
  intros P Q A p e0 ts v rest Hp. cbn [infixes]. destruct (prec_next ts <? p) eqn:Hpr.
  { intros [= <- <-]. apply Nat.ltb_lt in Hpr. exists e0, []. split; [done|]. split; [done|]. split; [done|]. split; [done|].
    intros n u0 Hn Hx H0 Hl. rewrite app_nil_r. apply (St_down n); [lia..|by apply H0]. }
  apply Nat.ltb_ge in Hpr.
  (** A postfix operator. *)
  assert (Post : forall t e1 ts1 w, infixes f p (Some e1) ts1 = Done v rest false -> ts = w ++ ts1 -> head w = Some t -> prec t = 14 -> (lvalues e1 = true -> lvalues e0 = true) ->
    (forall u0, lvalues e1 = true -> derives true postfix u0 e0 -> derives true postfix (u0 ++ w) e1) ->
    exists e u, v = Some e /\ ts = u ++ rest /\ prec_next rest < p /\ (lvalues e = true -> lvalues e0 = true) /\
      (forall n u0, p <= n <= 16 -> nxt n ts -> (lvalues e0 = true -> St n u0 e0) -> lvalues e = true -> St p (u0 ++ u) e)).
  { intros t e1 ts1 w H -> Hw Ht Hl Hd. destruct (one_step f p e1 ts1 v rest Q Hp H 16 w e0 _ eq_refl ltac:(lia) (nxt16 _) Hl) as (e & u & -> & Eu & Hnx & Hl2 & HS).
    exists e, u. split; [done|]. split; [done|]. split; [done|]. split; [done|]. intros n u0 Hn Hx H0 Hle.
    destruct w as [|t' w]; [done|]. injection Hw as ->. apply nxt_post in Hx; [|done]. assert (n = 16) as -> by lia.
    apply HS; [|done]. intros H1. apply St_postfix. apply Hd; [done|]. by apply H0, Hl. }
  destruct ts as [|t ts]; [cbn in Hpr; unfold PREC_NONE in Hpr; lia|].
  destruct t as [n|n|o| | | | | | | | |k|n|n|n]; try (cbn in Hpr; unfold PREC_NONE in Hpr; lia).
  - (* operators *)
    assert (Left : forall o, match o with B _ | R _ | Comma => True | _ => False end -> (let* r, ts1 := parse_precedence f (S (prec (TOp o))) ts in use r := r in infixes f p (Some (Bin o e0 r)) ts1) = Done v rest false -> p <= prec (TOp o) ->
      exists e u, v = Some e /\ TOp o :: ts = u ++ rest /\ prec_next rest < p /\ (lvalues e = true -> lvalues e0 = true) /\
      (forall n u0, p <= n <= 16 -> nxt n (TOp o :: ts) -> (lvalues e0 = true -> St n u0 e0) -> lvalues e = true -> St p (u0 ++ u) e)).
    { clear Post o Hpr. intros o Ho H Hpr. destruct (lev_ops _ o eq_refl Ho) as [Hr Hlev]. apply bind_ok in H as (v1 & ts1 & H1 & H).
      destruct (P (S (prec (TOp o))) ts v1 ts1 ltac:(lia) H1) as (r & w & -> & -> & Hnx & HS).
      assert (Hlv : lvalues (Bin o e0 r) = true -> lvalues e0 = true /\ lvalues r = true). { cbn [lvalues]. rewrite !andb_true_iff. naive_solver. }
      destruct (one_step f p _ ts1 v rest Q Hp H (prec (TOp o)) (TOp o :: w) e0 _ eq_refl ltac:(lia) (nxt_left _ _ Hlev Hnx)) as (e & u & -> & Eu & Hnx2 & Hl2 & HS2); [by intros; apply Hlv|].
      exists e, u. split; [done|]. split; [done|]. split; [done|]. split; [done|]. intros n u0 Hn Hx H0 Hle. apply HS2; [|done]. intros Hb. destruct (Hlv Hb) as [L1 L2].
      apply nxt_op in Hx as [Hx1 _]; [|lia..]. destruct (H0 L1) as (S1 & _). destruct (HS L2) as (S3 & _).
      split; [|split; [by destruct o|lia]]. apply (d_binary true (lev (prec (TOp o))) o u0 e0 w r); [done|apply (lev_up true n); [lia..|done]|by rewrite lev_rule by lia]. }
    destruct o as [o|o| |o| | | |]; try (cbn in Hpr; unfold PREC_NONE in Hpr; lia).
    + intros H. by apply Left.
    + intros H. by apply Left.
    + intros H. by apply Left.
    + intros H. apply bind_ok in H as (v1 & ts1 & H1 & H). destruct (P 2 ts v1 ts1 ltac:(lia) H1) as (r & w & -> & -> & Hnx & HS).
      assert (Hlv : lvalues (Bin (Assign o) e0 r) = true -> lvalue e0 = true /\ lvalues e0 = true /\ lvalues r = true). { cbn [lvalues]. rewrite !andb_true_iff. naive_solver. }
      assert (Hp2 : p <= 2) by exact Hpr.
      destruct (one_step f p _ ts1 v rest Q Hp H 2 (TOp (Assign o) :: w) e0 _ eq_refl ltac:(lia) Hnx) as (e & u & -> & Eu & Hnx2 & Hl2 & HS2); [by intros; apply Hlv|].
      exists e, u. split; [done|]. split; [done|]. split; [done|]. split; [done|]. intros n u0 Hn Hx H0 Hle. apply HS2; [|done]. intros Hb. destruct (Hlv Hb) as (L0 & L1 & L2).
      destruct (H0 L1) as (_ & S1 & _). destruct (HS L2) as (S3 & _). split; [|split; [done|lia]]. by apply (d_assign true o u0 e0 w r); [apply S1|].
    + intros H. eapply (Post (TOp Inc) _ ts [TOp Inc] H); [done|done|done|cbn [lvalues]; by intros [_ ?]%andb_true_iff|]. intros u0 _ Hd. apply d_post; [set_solver|done].
    + intros H. eapply (Post (TOp Dec) _ ts [TOp Dec] H); [done|done|done|cbn [lvalues]; by intros [_ ?]%andb_true_iff|]. intros u0 _ Hd. apply d_post; [set_solver|done].
  - destruct (as_name ts) as [[n ts1]|] eqn:En; [|intros H; by apply bind_ok in H as (? & ? & _ & ?)]. apply as_name_eq in En as ->. intros H.
    eapply (Post TDot _ ts1 [TDot; TId n] H); [done|done|done|done|]. intros u0 _ Hd. by apply d_dot.
  - destruct (as_name ts) as [[n ts1]|] eqn:En; [|intros H; by apply bind_ok in H as (? & ? & _ & ?)]. apply as_name_eq in En as ->. intros H.
    eapply (Post TArrow _ ts1 [TArrow; TId n] H); [done|done|done|done|]. intros u0 _ Hd. by apply d_arrow.
  - intros H. apply bind_ok in H as (l & ts1 & H1 & H). destruct (A ts l ts1 H1) as (l1 & w & -> & -> & HA).
    destruct (mapM id (Some <$> l1)) as [l2|] eqn:E2; [|done]. apply mapM_somes in E2 as ->.
    eapply (Post TLpar _ ts1 (TLpar :: w) H); [done|done|done|cbn [lvalues]; by intros [? _]%andb_true_iff|].
    intros u0 Hl Hd. cbn [lvalues] in Hl. apply andb_true_iff in Hl as [_ Hl]. destruct (HA Hl) as [[-> ->]|(u' & -> & Ha)]; [by apply d_call0|by apply (d_call true u0 e0 u' l1)].
  - intros H. apply bind_ok in H as (v1 & ts1 & H1 & H). apply bind_ok in H as (b & ts2 & H2 & H). apply consume_rbr in H2 as ->.
    destruct (P 1 ts v1 (TRbr :: ts2) ltac:(lia) H1) as (e & w & -> & -> & Hnx & HS).
    eapply (Post TLbr _ ts2 (TLbr :: w ++ [TRbr]) H); [cbn; by rewrite <- !app_assoc|done|done|cbn [lvalues]; by intros [? _]%andb_true_iff|].
    intros u0 Hl Hd. cbn [lvalues] in Hl. apply andb_true_iff in Hl as [_ Hl]. destruct (HS Hl) as (S1 & _). by apply (d_index true u0 e0 w e).
  - intros H. apply bind_ok in H as (v1 & ts1 & H1 & H). apply bind_ok in H as (b & ts2 & H2 & H). apply consume_colon in H2 as ->. apply bind_ok in H as (v2 & ts3 & H2 & H).
    destruct (P 1 ts v1 (TColon :: ts2) ltac:(lia) H1) as (a & w & -> & -> & Hnx & HS). destruct (P 3 ts2 v2 ts3 ltac:(lia) H2) as (c & w2 & -> & -> & Hnx2 & HS2).
    assert (Hlv : lvalues (Cond e0 a c) = true -> lvalues e0 = true /\ lvalues a = true /\ lvalues c = true). { cbn [lvalues]. rewrite !andb_true_iff. naive_solver. }
    assert (Hp2 : p <= 3) by exact Hpr.
    destruct (one_step f p _ ts3 v rest Q Hp H 3 (TQuestion :: w ++ TColon :: w2) e0 (TQuestion :: w ++ TColon :: w2 ++ ts3)) as (e & u & -> & Eu & Hnx3 & Hl2 & HS3); [cbn; by rewrite <- app_assoc|lia|done|by intros; apply Hlv|].
    exists e, u. split; [done|]. split; [done|]. split; [done|]. split; [done|]. intros n u0 Hn Hx H0 Hle. apply HS3; [|done]. intros Hb. destruct (Hlv Hb) as (L0 & L1 & L2).
    apply nxt_op in Hx as [_ Hx]; [|vm_compute; lia..]. specialize (Hx ltac:(vm_compute; lia) ltac:(vm_compute; lia)). change (prec TQuestion) with 3 in Hx.
    destruct (H0 L0) as (S1 & _). destruct (HS L1) as (S2 & _). destruct (HS2 L2) as (S3 & _). split; [|split; [done|lia]].
    apply (d_conditional true u0 e0 w a w2 c); [apply (lev_up true n 4); [lia..|done]|done|done].
Qed.
Lemma sound_more f : ok_parse f -> ok_more f -> ok_more (S f).
Proof.
  intros P M ts v rest. cbn [more_args]. intros H. apply bind_ok in H as (v1 & ts1 & H1 & H). destruct (P 2 ts v1 ts1 ltac:(lia) H1) as (e & w & -> & -> & Hnx & HS).
  destruct (as_rpar ts1) as [ts2|] eqn:Er.
  - apply as_rpar_eq in Er as ->. injection H as <- <-. exists [e], w. split; [done|]. split; [done|]. cbn. intros [Hl _]%andb_true_iff. destruct (HS Hl) as (S1 & _). by constructor.
  - apply bind_ok in H as (c & ts2 & H2 & H). apply consume_comma in H2 as [-> ->]. apply bind_ok in H as (l & ts3 & H3 & [= <- <-]).
    destruct (M ts2 l ts3 H3) as (l1 & w1 & -> & -> & HA). exists (e :: l1), (w ++ [TOp Comma] ++ w1). split; [done|]. split; [by rewrite <- !app_assoc|].
    cbn. intros [Hl1 Hl2]%andb_true_iff. destruct (HS Hl1) as (S1 & _). apply a_more; [done|by apply HA].
Qed.
Lemma sound_args f : ok_more f -> ok_args (S f).
Proof.
  intros M ts v rest. cbn [parse_args]. destruct (as_rpar ts) as [ts1|] eqn:Er.
  - apply as_rpar_eq in Er as ->. intros [= <- <-]. exists [], [TRpar]. split; [done|]. split; [done|]. intros _. by left.
  - intros H. destruct (M ts v rest H) as (l & u & -> & -> & HA). exists l, (u ++ [TRpar]). split; [done|]. split; [by rewrite <- app_assoc|]. intros Hl. right. exists u. split; [done|by apply HA].
Qed.
Lemma all_sound f : ok_parse f /\ ok_infixes f /\ ok_args f /\ ok_more f.
Proof.
  induction f as [|f (I1 & I2 & I3 & I4)]; [by split; [|split; [|split]]; intros ?|].
  split; [by apply sound_parse|]. split; [by apply sound_infixes|]. split; [by apply sound_args|by apply sound_more].
Qed.
Lemma parse_sound ts v : parse_expr ts = Done v [] false -> exists e, v = Some e /\ (lvalues e = true -> derives true expression ts e).
Proof.
  intros H. destruct (all_sound (fuel_for ts)) as (P & _). destruct (P 1 ts v [] ltac:(lia) H) as (e & u & -> & E & _ & HS). rewrite app_nil_r in E. subst u.
  exists e. split; [done|]. intros Hl. by destruct (HS Hl).
Qed.
