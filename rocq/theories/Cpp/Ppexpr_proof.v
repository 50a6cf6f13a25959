(** Proofs about the #if expression evaluator. *)
From stdpp Require Import base list numbers sets.
From Verif Require Import Cpp.Ppexpr_model Cpp.Ppexpr_spec.
Open Scope Z_scope.

Lemma bindr_assoc {A B C} (m : res A) (f : A -> res B) (g : B -> res C) :
  bindr (bindr m f) g = bindr m (fun a => bindr (f a) g).
Proof. by destruct m. Qed.

#[local] Instance op_eq_dec : EqDecision op.
Proof. solve_decision. Defined.

Section env.
  Context (defined : nat -> bool).
  Notation parse := (parse defined).
  Notation loop := (loop defined).

  (** ** Every call consumes tokens *)
  Lemma consume_len t same ts ts' : consume t same ts = Ok ts' -> (length ts' < length ts)%nat.
  Proof. destruct ts as [|t' ts]; cbn; [done|]. destruct (same t'); [|done]. intros [= <-]. lia. Qed.

  Lemma parse_defined_len ts v rest : parse_defined defined ts = Ok (v, rest) -> (length rest < length ts)%nat.
  Proof.
    unfold parse_defined. destruct ts as [|[] ts]; try done; [intros [= <- <-]; cbn; lia|].
    destruct ts as [|[] ts]; try done.
    destruct (consume TRpar is_rpar ts) as [ts''| | |] eqn:E; cbn; try done.
    intros [= <- <-]. apply consume_len in E. lia.
  Qed.

  Ltac dres H :=
    match type of H with
    | context [bindr ?m _] => let E := fresh "E" in destruct m as [?| | |] eqn:E; cbn [bindr] in H; try discriminate H
    end.

  Lemma len_both fuel : forall prec,
    (forall ts v rest, parse fuel prec ts = Ok (v, rest) -> (length rest < length ts)%nat) /\
    (forall e ts v rest, loop fuel prec e ts = Ok (v, rest) -> (length rest <= length ts)%nat).
  Proof.
    induction fuel as [|fuel IH]; intros prec; [done|]. split.
    - intros [|t ts] v rest; [done|]. cbn [Ppexpr_model.parse]. intros H.
      dres H. destruct a as [v1 r1]. apply IH in H. cbn.
      cut (length r1 <= length ts)%nat; [lia|]. clear H.
      destruct t; simplify_eq; try lia.
      + apply parse_defined_len in E. lia.
      + destruct (has_unary o); [|done]. dres E. destruct a as [v2 r2]. dres E. simplify_eq.
        apply IH in E0. lia.
      + dres E. destruct a as [v2 r2]. dres E. simplify_eq. apply IH in E0. apply consume_len in E1. lia.
    - intros e [|t ts] v rest; [by intros [= <- <-]|]. cbn [Ppexpr_model.loop].
      destruct (prec >? precedence t); [by intros [= <- <-]|]. intros H. cbn.
      destruct t; try done.
      + dres H. destruct a as [v2 r2]. dres H. apply IH in H. apply IH in E. lia.
      + dres H. destruct a as [v2 r2]. dres H. dres H. destruct a0 as [v3 r3].
        apply IH in H, E, E1. apply consume_len in E0. lia.
  Qed.
  Lemma parse_len fuel prec ts v rest : parse fuel prec ts = Ok (v, rest) -> (length rest < length ts)%nat.
  Proof. apply len_both. Qed.
  Lemma loop_len fuel prec e ts v rest : loop fuel prec e ts = Ok (v, rest) -> (length rest <= length ts)%nat.
  Proof. apply len_both. Qed.

  Lemma bindr_ext {A B} (m : res A) (f g : A -> res B) :
    (forall a, m = Ok a -> f a = g a) -> bindr m f = bindr m g.
  Proof. destruct m; cbn; auto. Qed.

  Lemma fuel_both f1 : forall f2 prec,
    (forall ts, (length ts < f1)%nat -> (length ts < f2)%nat -> parse f1 prec ts = parse f2 prec ts) /\
    (forall e ts, (length ts < f1)%nat -> (length ts < f2)%nat -> loop f1 prec e ts = loop f2 prec e ts).
  Proof.
    induction f1 as [|f1 IH]; intros f2 prec; [split; intros; lia|].
    destruct f2 as [|f2]; [split; intros; lia|]. split.
    - intros [|t ts] H1 H2; [done|]. cbn [Ppexpr_model.parse length] in *.
      assert (Hp: forall p, parse f1 p ts = parse f2 p ts) by (intros p; apply IH; lia).
      assert (Hpre: forall g : Z * list tok -> res (Z * list tok), True) by done.
      match goal with |- bindr ?m1 _ = bindr ?m2 _ => assert (Em: m1 = m2) end.
      { destruct t; try done; rewrite Hp; done. }
      rewrite Em. apply bindr_ext. intros [v r] Er. apply IH.
      + rewrite <-Em in Er. clear -Er H1.
        cut (length r <= length ts)%nat; [lia|].
        destruct t; simplify_eq; try lia.
        * apply parse_defined_len in Er. lia.
        * destruct (has_unary o); [|done]. dres Er. destruct a as [v2 r2]. dres Er. simplify_eq. apply parse_len in E. lia.
        * dres Er. destruct a as [v2 r2]. dres Er. simplify_eq. apply parse_len in E. apply consume_len in E0. lia.
      + rewrite <-Em in Er. clear -Er H2.
        cut (length r <= length ts)%nat; [lia|].
        destruct t; simplify_eq; try lia.
        * apply parse_defined_len in Er. lia.
        * destruct (has_unary o); [|done]. dres Er. destruct a as [v2 r2]. dres Er. simplify_eq. apply parse_len in E. lia.
        * dres Er. destruct a as [v2 r2]. dres Er. simplify_eq. apply parse_len in E. apply consume_len in E0. lia.
    - intros e [|t ts] H1 H2; [done|]. cbn [Ppexpr_model.loop length] in *.
      destruct (prec >? precedence t); [done|].
      assert (Hp: forall p, parse f1 p ts = parse f2 p ts) by (intros p; apply IH; lia).
      destruct t; try done.
      + rewrite Hp. apply bindr_ext. intros [v r] Er. apply bindr_ext. intros v' _.
        apply parse_len in Er. apply IH; lia.
      + rewrite Hp. apply bindr_ext. intros [v r] Er. apply bindr_ext. intros r2 Er2.
        apply parse_len in Er. apply consume_len in Er2.
        rewrite (proj1 (IH f2 PREC_TERNARY)) by lia. apply bindr_ext. intros [v3 r3] Er3.
        apply parse_len in Er3. apply IH; lia.
  Qed.

  Lemma nofuel_both fuel : forall prec,
    (forall ts, (length ts < fuel)%nat -> parse fuel prec ts <> NoFuel) /\
    (forall e ts, (length ts < fuel)%nat -> loop fuel prec e ts <> NoFuel).
  Proof.
    assert (Hb: forall {A B} (m : res A) (f : A -> res B), m <> NoFuel ->
      (forall a, m = Ok a -> f a <> NoFuel) -> bindr m f <> NoFuel).
    { intros A B [] f; cbn; auto. }
    assert (Hc: forall t same ts, consume t same ts <> NoFuel).
    { intros t same [|t' ts]; cbn; [done|]. by destruct (same t'). }
    assert (Hbin: forall o a b, binary o a b <> NoFuel).
    { intros o a b. unfold binary, arith. by repeat case_match. }
    induction fuel as [|fuel IH]; intros prec; [split; intros; lia|]. split.
    - intros [|t ts] H; [done|]. cbn [Ppexpr_model.parse length] in *. apply Hb.
      + destruct t; try done.
        * unfold parse_defined. destruct ts as [|[] ts]; try done. destruct ts as [|[] ts]; try done.
          apply Hb; [apply Hc|done].
        * destruct (has_unary o); [|done]. apply Hb; [apply IH; lia|]. intros [v r] _.
          apply Hb; [|done]. unfold unary, arith. by repeat case_match.
        * apply Hb; [apply IH; lia|]. intros [v r] _. apply Hb; [apply Hc|done].
      + intros [v r] Er. apply IH.
        cut (length r <= length ts)%nat; [lia|].
        destruct t; simplify_eq; try lia.
        * apply parse_defined_len in Er. lia.
        * destruct (has_unary o); [|done]. dres Er. destruct a as [v2 r2]. dres Er. simplify_eq. apply parse_len in E. lia.
        * dres Er. destruct a as [v2 r2]. dres Er. simplify_eq. apply parse_len in E. apply consume_len in E0. lia.
    - intros e [|t ts] H; [done|]. cbn [Ppexpr_model.loop length] in *.
      destruct (prec >? precedence t); [done|].
      destruct t; try done.
      + apply Hb; [apply IH; lia|]. intros [v r] Er. apply Hb; [apply Hbin|]. intros v' _.
        apply parse_len in Er. apply IH. lia.
      + apply Hb; [apply IH; lia|]. intros [v r] Er. apply Hb; [apply Hc|]. intros r2 Er2.
        apply parse_len in Er. apply consume_len in Er2.
        apply Hb; [apply IH; lia|]. intros [v3 r3] Er3. apply parse_len in Er3. apply IH. lia.
  Qed.

  Theorem terminates ts : pp_expr defined ts <> NoFuel.
  Proof. apply nofuel_both. lia. Qed.

  (** ** Equations without fuel *)
  Definition P (p : Z) (ts : list tok) := parse (S (length ts)) p ts.
  Definition L (p e : Z) (ts : list tok) := loop (S (length ts)) p e ts.

  Lemma P_any fuel p ts : (length ts < fuel)%nat -> parse fuel p ts = P p ts.
  Proof. intros. apply fuel_both; [done|lia]. Qed.
  Lemma L_any fuel p e ts : (length ts < fuel)%nat -> loop fuel p e ts = L p e ts.
  Proof. intros. apply fuel_both; [done|lia]. Qed.

  Definition prefix (t : tok) (ts : list tok) : res (Z * list tok) :=
    match t with
    | TInt _ v => Ok (to_int64 v, ts)
    | TId _ => Ok (0, ts)
    | TDefined => parse_defined defined ts
    | TLpar => let! (v, ts1) := P PREC_COMMA ts in
               let! ts2 := consume TRpar is_rpar ts1 in Ok (v, ts2)
    | TOp o => if has_unary o
               then let! (v, ts1) := P PREC_POSTFIX ts in
                    let! v' := unary o v in Ok (v', ts1)
               else Err
    | _ => Err
    end.

  Lemma prefix_len t ts v r : prefix t ts = Ok (v, r) -> (length r <= length ts)%nat.
  Proof.
    intros Er. destruct t; cbn [prefix] in Er; simplify_eq; try lia.
    * apply parse_defined_len in Er. lia.
    * destruct (has_unary o); [|done]. dres Er. destruct a as [v2 r2]. dres Er. simplify_eq. apply parse_len in E. lia.
    * dres Er. destruct a as [v2 r2]. dres Er. simplify_eq. apply parse_len in E. apply consume_len in E0. lia.
  Qed.

  Lemma P_cons p t ts : P p (t :: ts) = let! (v, rest) := prefix t ts in L p v rest.
  Proof.
    unfold P. cbn [length]. 
    change (parse (S (S (length ts))) p (t :: ts)) with
      (let! (v, rest) := match t with
          | TInt _ v => Ok (to_int64 v, ts)
          | TId _ => Ok (0, ts)
          | TDefined => parse_defined defined ts
          | TLpar => let! (v, ts1) := P PREC_COMMA ts in
                     let! ts2 := consume TRpar is_rpar ts1 in Ok (v, ts2)
          | TOp o => if has_unary o
                     then let! (v, ts1) := P PREC_POSTFIX ts in
                          let! v' := unary o v in Ok (v', ts1)
                     else Err
          | _ => Err
          end in loop (S (length ts)) p v rest).
    fold (prefix t ts). apply bindr_ext. intros [v r] Er. apply L_any. apply prefix_len in Er. lia.
  Qed.

  Lemma loop_S f p e t ts : loop (S f) p e (t :: ts) =
    if p >? precedence t then Ok (e, t :: ts)
    else match t with
         | TOp o =>
             let! (rhs, ts1) := parse f (op_precedence o + 1) ts in
             let! v := binary o e rhs in loop f p v ts1
         | TQuestion =>
             let! (tval, ts1) := parse f PREC_COMMA ts in
             let! ts2 := consume TColon is_colon ts1 in
             let! (fval, ts3) := parse f PREC_TERNARY ts2 in
             loop f p (if e =? 0 then fval else tval) ts3
         | _ => Undef
         end.
  Proof. done. Qed.
  Lemma L_nil p e : L p e [] = Ok (e, []).
  Proof. done. Qed.
  Lemma L_stop p e t ts : precedence t < p -> L p e (t :: ts) = Ok (e, t :: ts).
  Proof. intros H. unfold L. cbn [length]. rewrite loop_S. rewrite (proj2 (Z.gtb_lt _ _)) by lia. done. Qed.
  Lemma L_op p e o ts : p <= op_precedence o ->
    L p e (TOp o :: ts) =
      let! (rhs, ts1) := P (op_precedence o + 1) ts in let! v := binary o e rhs in L p v ts1.
  Proof.
    intros H. unfold L at 1. cbn [length]. rewrite loop_S. cbn [precedence].
    rewrite Z.gtb_ltb, (proj2 (Z.ltb_ge _ _)) by lia. fold (P (op_precedence o + 1) ts).
    apply bindr_ext. intros [v r] Er. apply bindr_ext. intros v' _. apply L_any. apply parse_len in Er. lia.
  Qed.
  Lemma L_question p e ts : p <= PREC_TERNARY ->
    L p e (TQuestion :: ts) =
      let! (tval, ts1) := P PREC_COMMA ts in
      let! ts2 := consume TColon is_colon ts1 in
      let! (fval, ts3) := P PREC_TERNARY ts2 in
      L p (if e =? 0 then fval else tval) ts3.
  Proof.
    intros H. unfold L at 1. cbn [length]. rewrite loop_S. cbn [precedence].
    rewrite Z.gtb_ltb, (proj2 (Z.ltb_ge _ _)) by lia. fold (P PREC_COMMA ts).
    apply bindr_ext. intros [v r] Er. apply bindr_ext. intros r2 Er2.
    apply parse_len in Er. apply consume_len in Er2. rewrite P_any by lia.
    apply bindr_ext. intros [v3 r3] Er3. apply L_any. apply parse_len in Er3. lia.
  Qed.

  (** ** What the code computes for a parsed expression *)
  Fixpoint heval (e : expr) : res Z :=
    match e with
    | Num _ v => Ok (to_int64 v)
    | Ident _ => Ok 0
    | Defined n => Ok (of_bool (defined n))
    | Un o e => let! v := heval e in unary o v
    | Bin o e1 e2 => let! a := heval e1 in let! b := heval e2 in binary o a b
    | Cond e1 e2 e3 => let! a := heval e1 in let! b := heval e2 in let! c := heval e3 in
                       Ok (if a =? 0 then c else b)
    end.

  Definition level (n : nt) : Z :=
    match n with
    | expression => 1 | conditional => 3 | logical_or => 4 | logical_and => 5
    | inclusive_or => 6 | exclusive_or => 7 | and_nt => 8 | equality => 9 | relational => 10
    | shift => 11 | additive => 12 | multiplicative => 13 | unary_nt => 14 | primary => 15
    end.
  Definition lim (n : nt) : Z := match n with conditional => 2 | _ => level n end.
  (** Precedence of the next token. *)
  Definition hp (ts : list tok) : Z := match ts with t :: _ => precedence t | [] => 0 end.

  Lemma hp_max ts : hp ts <= 13.
  Proof. destruct ts as [|[| | |[]| | | | |] ts]; cbn; vm_compute; done. Qed.
  Lemma L_hp p e ts : 1 <= p -> hp ts < p -> L p e ts = Ok (e, ts).
  Proof. intros Hp H. destruct ts as [|t ts]; [apply L_nil|]. by apply L_stop. Qed.

  Lemma rule_level n : level n <= level (rule n).2 /\ lim n <= lim (rule n).2.
  Proof. destruct n; cbn; lia. Qed.
  Lemma rule_op n o : o ∈ (rule n).1 -> op_precedence o = level n /\ level n + 1 <= level (rule n).2 /\ lim n = level n.
  Proof.
    destruct n; cbn [rule fst snd]; rewrite ?elem_of_cons, ?elem_of_nil; intros H;
      repeat destruct H as [->|H]; try destruct H; vm_compute; done.
  Qed.

  Lemma parse_complete n ts e : derives n ts e -> forall p rest, 1 <= p <= level n -> hp rest <= lim n ->
    P p (ts ++ rest) = let! v := heval e in L p v rest.
  Proof.
    induction 1 as [u v|nm|ts e H IH|nm|nm|o ts e Ho H IH|n o ts1 e1 ts2 e2 Ho H1 IH1 H2 IH2
      |ts1 e1 ts2 e2 ts3 e3 H1 IH1 H2 IH2 H3 IH3|n ts e H IH]; intros p rest Hp Hr.
    - cbn [app]. by rewrite P_cons.
    - cbn [app]. by rewrite P_cons.
    - cbn [app]. rewrite P_cons. cbn [prefix]. rewrite <-app_assoc. cbn [app].
      rewrite IH by (vm_compute; done || (split; vm_compute; done)).
      rewrite !bindr_assoc. apply bindr_ext. intros v _. rewrite L_hp by (vm_compute; done). done.
    - cbn [app]. by rewrite P_cons.
    - cbn [app]. by rewrite P_cons.
    - cbn [app]. rewrite P_cons. cbn [prefix].
      assert (has_unary o = true) as ->.
      { rewrite !elem_of_cons, elem_of_nil in Ho. by destruct Ho as [->|[->|[->|[->|[]]]]]. }
      pose proof (hp_max rest) as Hm.
      rewrite IH by (unfold PREC_POSTFIX; cbn [level lim]; lia).
      cbn [heval]. rewrite !bindr_assoc. apply bindr_ext. intros v _.
      rewrite L_hp by (unfold PREC_POSTFIX; lia). cbn [bindr]. by rewrite !bindr_assoc.
    - destruct (rule_op n o Ho) as (Ho1 & Ho2 & Ho3). destruct (rule_level n) as [Hl1 Hl2].
      rewrite <-!app_assoc. cbn [app].
      rewrite IH1; [|done|cbn; lia].
      cbn [heval]. rewrite !bindr_assoc. apply bindr_ext. intros a _.
      rewrite L_op by lia. rewrite IH2 by lia. rewrite !bindr_assoc. apply bindr_ext. intros b _.
      rewrite L_hp by lia. cbn [bindr]. done.
    - rewrite <-!app_assoc. cbn [app]. rewrite <-?app_assoc. cbn [app]. cbn [level lim] in *.
      rewrite IH1 by (cbn; unfold PREC_TERNARY; lia). cbn [heval]. rewrite !bindr_assoc. apply bindr_ext. intros a _.
      rewrite L_question by (unfold PREC_TERNARY; lia).
      rewrite IH2 by (cbn; unfold PREC_COMMA, PREC_NONE; lia). rewrite !bindr_assoc. apply bindr_ext. intros b _.
      rewrite L_hp by (cbn; unfold PREC_COMMA, PREC_NONE; lia). cbn [bindr consume is_colon].
      rewrite IH3 by (cbn; unfold PREC_TERNARY; lia). rewrite !bindr_assoc. apply bindr_ext. intros c _.
      rewrite L_hp by (unfold PREC_TERNARY; lia). cbn [bindr]. done.
    - destruct (rule_level n) as [Hl1 Hl2]. apply IH; lia.
  Qed.

  Lemma pp_expr_complete ts e : derives expression ts e ->
    pp_expr defined ts = let! v := heval e in Ok (v, []).
  Proof.
    intros H. unfold pp_expr. change (P PREC_COMMA ts = let! v := heval e in Ok (v, [])).
    pose proof (parse_complete _ _ _ H 1 []) as E. rewrite app_nil_r in E. apply E; cbn; lia.
  Qed.

  (** ** The computed value is the value C gives *)
  Lemma to_int64_id v : - 2 ^ 63 <= v < 2 ^ 63 -> to_int64 v = v.
  Proof. intros H. unfold to_int64. rewrite Z.mod_small by lia. lia. Qed.

  Lemma arith_fit z : arith z = match fit false z with Some v => Ok v | None => Undef end.
  Proof.
    unfold arith, fit, in64, min64, max64.
    destruct (Z.leb_spec (- 2 ^ 63) z), (Z.ltb_spec z (2 ^ 63)), (Z.leb_spec z (2 ^ 63 - 1)); cbn; try lia; done.
  Qed.

  Lemma unary_eager o a : o ∈ [Add; Sub; Not; Tilda] ->
    unary o a = match unary_op o false a with Some v => Ok v | None => Undef end.
  Proof.
    rewrite !elem_of_cons, elem_of_nil. intros [->|[->|[->|[->|[]]]]]; cbn [unary unary_op].
    - done.
    - apply arith_fit.
    - unfold truth. by destruct (a =? 0).
    - done.
  Qed.

  Definition eager_op (o : op) (a b : Z) : option Z :=
    match o with
    | Land => Some (bool_val (truth a && truth b))
    | Lor => Some (bool_val (truth a || truth b))
    | Div | Mod => if b =? 0 then Some a else arith_op o false a b
    | _ => arith_op o false a b
    end.

  Lemma fit_false z v : fit false z = Some v -> v = z /\ - 2 ^ 63 <= z < 2 ^ 63.
  Proof.
    unfold fit. destruct (Z.leb_spec (- 2 ^ 63) z), (Z.ltb_spec z (2 ^ 63)); cbn; intros; simplify_eq. lia.
  Qed.

  Lemma binary_eager o a b : o ∉ [Not; Tilda] ->
    binary o a b = match eager_op o a b with Some v => Ok v | None => Undef end.
  Proof.
    intros Ho. destruct o; cbn [binary eager_op arith_op]; try apply arith_fit; try done.
    - destruct (b =? 0); [done|]. apply arith_fit.
    - destruct (Z.eqb_spec b 0); [done|].
      destruct (fit false (Z.quot a b)) as [q|] eqn:E.
      + apply fit_false in E as [-> Hq].
        assert (Hin: in64 (Z.quot a b) = true).
        { unfold in64, min64, max64. apply andb_true_intro. split; apply Z.leb_le; lia. }
        rewrite Hin. f_equal. rewrite Z.rem_eq by done. lia.
      + assert (Hin: in64 (Z.quot a b) = false).
        { revert E. unfold fit, in64, min64, max64.
          destruct (Z.leb_spec (- 2 ^ 63) (Z.quot a b)), (Z.ltb_spec (Z.quot a b) (2 ^ 63)),
            (Z.leb_spec (Z.quot a b) (2 ^ 63 - 1)); cbn; try lia; done. }
        by rewrite Hin.
    - destruct (Z.leb_spec 0 b), (Z.ltb_spec b 64), (Z.leb_spec 0 a), (Z.ltb_spec b 0), (Z.leb_spec 64 b),
        (Z.ltb_spec a 0); cbn; try lia; try done.
      rewrite Z.shiftl_mul_pow2 by lia. apply arith_fit.
    - destruct (Z.leb_spec 0 b), (Z.ltb_spec b 64), (Z.ltb_spec b 0), (Z.leb_spec 64 b); cbn; try lia; try done.
      by rewrite Z.shiftr_div_pow2 by lia.
    - f_equal. unfold of_bool, bool_val. by rewrite Z.geb_leb.
    - f_equal. unfold of_bool, bool_val. by rewrite Z.gtb_ltb.
  Qed.

  (** Operators where the grammar puts them. *)
  Fixpoint wf (e : expr) : Prop :=
    match e with
    | Num _ _ | Ident _ | Defined _ => True
    | Un o e => o ∈ [Add; Sub; Not; Tilda] /\ wf e
    | Bin o e1 e2 => o ∉ [Not; Tilda] /\ wf e1 /\ wf e2
    | Cond e1 e2 e3 => wf e1 /\ wf e2 /\ wf e3
    end.
  Lemma derives_wf n ts e : derives n ts e -> wf e.
  Proof.
    induction 1; cbn; auto. split; [|done].
    destruct n; cbn in H; set_solver.
  Qed.

  Lemma heval_eager e : wf e -> all_signed e ->
    heval e = match eager defined e with Some v => Ok v | None => Undef end.
  Proof.
    induction e as [u v|n|n|o e IH|o e1 IH1 e2 IH2|e1 IH1 e2 IH2 e3 IH3]; cbn [wf all_signed heval eager].
    - intros _ [_ H]. by rewrite to_int64_id.
    - done.
    - done.
    - intros [Ho Hw] Hs. rewrite IH by done. destruct (eager defined e) as [a|]; [|done]. cbn.
      by apply unary_eager.
    - intros (Ho & Hw1 & Hw2) [Hs1 Hs2]. rewrite IH1, IH2 by done.
      destruct (eager defined e1) as [a|]; [|done]. cbn.
      destruct (eager defined e2) as [b|]; [|done]. cbn.
      rewrite binary_eager by done. done.
    - intros (Hw1 & Hw2 & Hw3) (Hs1 & Hs2 & Hs3). rewrite IH1, IH2, IH3 by done.
      destruct (eager defined e1) as [a|]; [|done]. cbn.
      destruct (eager defined e2) as [b|]; [|done]. cbn.
      destruct (eager defined e3) as [c|]; [|done]. cbn. unfold truth. by destruct (a =? 0).
  Qed.

  Lemma all_signed_unsigned e : all_signed e -> unsigned e = false.
  Proof.
    induction e as [u v|n|n|o e IH|o e1 IH1 e2 IH2|e1 IH1 e2 IH2 e3 IH3]; cbn [all_signed unsigned]; try done.
    - intros [-> H]. cbn. apply Z.leb_gt. lia.
    - intros H. destruct o; auto.
    - intros [H1 H2]. destruct o; rewrite ?IH1, ?IH2 by done; auto.
    - intros (H1 & H2 & H3). by rewrite IH2, IH3.
  Qed.

  Lemma value_eager e v w : all_signed e -> value defined e = Some v -> eager defined e = Some w -> v = w.
  Proof.
    revert v w. induction e as [u v0|n|n|o e IH|o e1 IH1 e2 IH2|e1 IH1 e2 IH2 e3 IH3];
      cbn [all_signed]; intros v w Hs Hv He.
    - cbn in *. congruence.
    - cbn in *. congruence.
    - cbn in *. congruence.
    - cbn [value eager] in *. rewrite (all_signed_unsigned e Hs) in Hv.
      destruct (value defined e) as [a|]; [|done]. destruct (eager defined e) as [b|]; [|done].
      cbn in *. rewrite (IH a b) in Hv by done. congruence.
    - destruct Hs as [Hs1 Hs2].
      pose proof (all_signed_unsigned e1 Hs1) as Hu1. pose proof (all_signed_unsigned e2 Hs2) as Hu2.
      cbn [eager] in He.
      destruct (eager defined e1) as [a'|] eqn:Ea'; [|done]. cbn in He.
      destruct (eager defined e2) as [b'|] eqn:Eb'; [|done]. cbn in He. fold (eager_op o a' b') in He.
      destruct (value defined e1) as [a|] eqn:Ea.
      2:{ cbn [value] in Hv. rewrite Ea in Hv. by destruct o. }
      assert (a = a') as -> by auto.
      destruct (decide (o = Land)) as [->|]; [|destruct (decide (o = Lor)) as [->|]].
      + cbn [value] in Hv. rewrite Ea in Hv. cbn in Hv, He.
        destruct (truth a'); cbn in *; [|congruence].
        destruct (value defined e2) as [b|] eqn:Eb; [|done]. assert (b = b') as -> by auto.
        cbn in Hv. congruence.
      + cbn [value] in Hv. rewrite Ea in Hv. cbn in Hv, He.
        destruct (truth a'); cbn in *; [congruence|].
        destruct (value defined e2) as [b|] eqn:Eb; [|done]. assert (b = b') as -> by auto.
        cbn in Hv. congruence.
      + assert (Hv': match value defined e2 with Some b => arith_op o false a' b | None => None end = Some v).
        { cbn [value] in Hv. rewrite Ea, Hu1, Hu2 in Hv. 
          destruct (value defined e2) as [b|]; destruct o; cbn in Hv; try done. }
        destruct (value defined e2) as [b|] eqn:Eb; [|done]. assert (b = b') as -> by auto.
        destruct o; cbn [eager_op] in He; try congruence; cbn [arith_op] in Hv', He;
          destruct (b' =? 0); congruence.
    - destruct Hs as (Hs1 & Hs2 & Hs3). cbn [value eager] in *.
      rewrite (all_signed_unsigned e2 Hs2), (all_signed_unsigned e3 Hs3) in Hv.
      destruct (eager defined e1) as [a'|] eqn:Ea'; [|done].
      destruct (eager defined e2) as [b'|] eqn:Eb'; [|done].
      destruct (eager defined e3) as [c'|] eqn:Ec'; [|done]. cbn in He.
      destruct (value defined e1) as [a|] eqn:Ea; [|done]. cbn in Hv. assert (a = a') as -> by auto.
      destruct (truth a').
      + destruct (value defined e2) as [b|] eqn:Eb; [|done]. cbn in Hv. assert (b = b') by auto. congruence.
      + destruct (value defined e3) as [c|] eqn:Ec; [|done]. cbn in Hv. assert (c = c') by auto. congruence.
  Qed.

  Theorem evaluates ts e v : derives expression ts e -> all_signed e ->
    no_overflow_anywhere defined e -> value defined e = Some v ->
    pp_expr defined ts = Ok (v, []).
  Proof.
    intros Hd Hs Hn Hv. rewrite (pp_expr_complete ts e Hd), heval_eager by eauto using derives_wf.
    unfold no_overflow_anywhere in Hn. destruct (eager defined e) as [w|] eqn:E; [|done].
    by rewrite (value_eager e v w).
  Qed.

  (** ** What is accepted is grammatical *)
  Definition lv (p : Z) : nt :=
    if p <=? 1 then expression else if p <=? 3 then conditional else if p =? 4 then logical_or
    else if p =? 5 then logical_and else if p =? 6 then inclusive_or else if p =? 7 then exclusive_or
    else if p =? 8 then and_nt else if p =? 9 then equality else if p =? 10 then relational
    else if p =? 11 then shift else if p =? 12 then additive else if p =? 13 then multiplicative
    else unary_nt.

  Lemma step_down p ts e : 1 <= p <= 13 -> derives (lv (p + 1)) ts e -> derives (lv p) ts e.
  Proof.
    intros Hp. assert (Hc: p = 1 \/ p = 2 \/ p = 3 \/ p = 4 \/ p = 5 \/ p = 6 \/ p = 7 \/ p = 8 \/ p = 9
      \/ p = 10 \/ p = 11 \/ p = 12 \/ p = 13) by lia.
    repeat destruct Hc as [->|Hc]; subst; cbn; intros H; try done;
      (apply (d_up expression) in H || apply (d_up conditional) in H || apply (d_up logical_or) in H ||
       apply (d_up logical_and) in H || apply (d_up inclusive_or) in H || apply (d_up exclusive_or) in H ||
       apply (d_up and_nt) in H || apply (d_up equality) in H || apply (d_up relational) in H ||
       apply (d_up shift) in H || apply (d_up additive) in H || apply (d_up multiplicative) in H); exact H.
  Qed.
  Lemma down p q ts e : 1 <= p <= q -> q <= 14 -> derives (lv q) ts e -> derives (lv p) ts e.
  Proof.
    intros Hp Hq H. remember (Z.to_nat (q - p)) as k eqn:Ek. revert p Hp Ek.
    induction k as [|k IH]; intros p Hp Ek; [by replace p with q by lia|].
    apply step_down; [lia|]. apply IH; lia.
  Qed.

  Lemma op_rule o : 1 <= op_precedence o -> o ∈ (rule (lv (op_precedence o))).1 /\
    (op_precedence o <= 13) /\ (rule (lv (op_precedence o))).2 = lv (op_precedence o + 1) /\
    op_precedence o <> 3 /\ op_precedence o <> 2.
  Proof. destruct o; cbn; intros H; try (vm_compute in H; done); split_and!; try set_solver; done. Qed.

  (** The prefix and the infix parts, by induction on the fuel. *)
  Lemma sound_both fuel :
    (forall p ts v rest, 1 <= p <= 14 -> parse fuel p ts = Ok (v, rest) ->
      exists ts0 e, ts = ts0 ++ rest /\ derives (lv p) ts0 e /\ hp rest < p) /\
    (forall p q tl el x ts v rest, 1 <= p <= q -> q <= 14 -> derives (lv q) tl el ->
      hp ts <= q -> (hp ts = 3 -> 4 <= q) -> loop fuel p x ts = Ok (v, rest) ->
      exists ts0 e, ts = ts0 ++ rest /\ derives (lv p) (tl ++ ts0) e /\ hp rest < p).
  Proof.
    induction fuel as [|fuel [IHp IHl]]; [done|]. split.
    - intros p [|t ts] v rest Hp H; [done|]. cbn [Ppexpr_model.parse] in H. dres H. destruct a as [v1 r1].
      assert (Hpre: exists tp ep, t :: ts = tp ++ r1 /\ derives unary_nt tp ep).
      { clear H. destruct t; simplify_eq.
        - exists [TInt u v0], (Num u v0). split; [done|]. apply (d_up unary_nt). constructor.
        - exists [TId name], (Ident name). split; [done|]. apply (d_up unary_nt). constructor.
        - destruct ts as [|[] ts]; cbn in E; simplify_eq.
          + exists [TDefined; TId name], (Defined name). split; [done|]. apply (d_up unary_nt). constructor.
          + destruct ts as [|[] ts]; try done. destruct ts as [|[] ts]; cbn in E; simplify_eq.
            exists [TDefined; TLpar; TId name; TRpar], (Defined name). split; [done|].
            apply (d_up unary_nt). constructor.
        - destruct (has_unary o) eqn:Eo; [|done]. dres E. destruct a as [v2 r2]. dres E. simplify_eq.
          apply IHp in E0 as (ts0 & e & -> & Hd & _); [|unfold PREC_POSTFIX; lia].
          exists ([TOp o] ++ ts0), (Un o e). split; [done|]. constructor; [|done].
          destruct o; try done; set_solver.
        - dres E. destruct a as [v2 r2]. dres E. simplify_eq.
          apply IHp in E0 as (ts0 & e & -> & Hd & _); [|unfold PREC_COMMA; lia].
          destruct r2 as [|[] r2]; cbn in E1; simplify_eq.
          exists ([TLpar] ++ ts0 ++ [TRpar]), e. split; [by rewrite <-!app_assoc|].
          apply (d_up unary_nt). by constructor. }
      destruct Hpre as (tp & ep & -> & Hd).
      pose proof (hp_max r1) as Hm.
      destruct (IHl p 14 tp ep v1 r1 v rest) as (ts0 & e & -> & Hd' & Hr); [lia|lia|done|lia|lia|done|].
      exists (tp ++ ts0), e. by rewrite app_assoc.
    - intros p q tl el x [|t ts] v rest Hpq Hq Hd Hh H3 H.
      { cbn in H. simplify_eq. exists [], el. rewrite (app_nil_r tl). split; [done|]. split; [apply (down p q); [lia|lia|done]|cbn; lia]. }
      rewrite loop_S in H. rewrite Z.gtb_ltb in H. destruct (Z.ltb_spec (precedence t) p) as [Hlt|Hge].
      { simplify_eq. exists [], el. rewrite (app_nil_r tl). split; [done|]. split; [apply (down p q); [lia|lia|done]|done]. }
      cbn [hp] in Hh, H3.
      destruct t as [| | |o| | | | |]; try done; cbn [precedence] in *.
      + dres H. destruct a as [v2 r2]. dres H.
        destruct (op_rule o) as (Ho & Ho13 & Ho2 & Hn3 & Hn2); [lia|].
        apply IHp in E as (ts2 & e2 & -> & Hd2 & Hr2); [|lia].
        destruct (IHl p (op_precedence o) (tl ++ [TOp o] ++ ts2) (Bin o el e2) a r2 v rest) as (ts0 & e & -> & Hd' & Hr);
          [lia|lia| |lia|lia|done|].
        { apply d_binary; [done| |by rewrite Ho2]. apply (down _ q); [lia|lia|done]. }
        exists ([TOp o] ++ ts2 ++ ts0), e. split; [by rewrite <-!app_assoc|]. split; [|done].
        rewrite <-!app_assoc in Hd'. exact Hd'.
      + dres H. destruct a as [v2 r2]. dres H. dres H. destruct a0 as [v3 r3].
        apply IHp in E as (ts2 & e2 & -> & Hd2 & Hr2); [|unfold PREC_COMMA; lia].
        destruct r2 as [|[] r2]; cbn in E0; simplify_eq.
        apply IHp in E1 as (ts3 & e3 & -> & Hd3 & Hr3); [|unfold PREC_TERNARY; lia].
        unfold PREC_TERNARY in *.
        apply (IHl p 3 (tl ++ [TQuestion] ++ ts2 ++ [TColon] ++ ts3) (Cond el e2 e3)) in H
          as (ts0 & e & -> & Hd' & Hr); [|lia|lia| |lia|lia].
        2:{ cbn. apply d_conditional; [|done|done]. apply (down 4 q); [lia|lia|done]. }
        exists ([TQuestion] ++ ts2 ++ [TColon] ++ ts3 ++ ts0), e. split; [by rewrite <-!app_assoc|].
        split; [|done]. rewrite <-!app_assoc in Hd'. cbn [app] in *. rewrite <-?app_assoc in Hd'. exact Hd'.
  Qed.

  Theorem accepted_is_grammatical ts v : pp_expr defined ts = Ok (v, []) -> exists e, derives expression ts e.
  Proof.
    intros H. apply sound_both in H as (ts0 & e & -> & Hd & _); [|unfold PREC_COMMA; lia].
    exists e. by rewrite app_nil_r.
  Qed.

  Theorem unambiguous_value ts e1 e2 v1 v2 : derives expression ts e1 -> derives expression ts e2 ->
    heval e1 = Ok v1 -> heval e2 = Ok v2 -> v1 = v2.
  Proof.
    intros H1 H2 E1 E2. apply pp_expr_complete in H1, H2. rewrite E1 in H1. rewrite E2 in H2. cbn in *. congruence.
  Qed.
End env.

(** ** Witnesses *)
Lemma up_from_additive ts e : derives additive ts e -> derives expression ts e.
Proof. intros H. do 10 (apply d_up; cbn [rule snd]). exact H. Qed.

Lemma unsigned_wrong :
  exists (defined : nat -> bool) (ts : list tok) (e : expr) (v w : Z),
    derives expression ts e /\ value defined e = Some v /\
    pp_expr defined ts = Ok (w, []) /\ v <> w.
Proof.
  exists (fun _ => false), [TOp Sub; TInt false 1; TOp Lt; TInt true 0],
    (Bin Lt (Un Sub (Num false 1)) (Num true 0)), 0, 1.
  split; [|split; [vm_compute; reflexivity|split; [vm_compute; reflexivity|done]]].
  do 8 (apply d_up; cbn [rule snd]).
  apply (d_binary relational Lt [TOp Sub; TInt false 1] _ [TInt true 0]); [cbn; repeat constructor| |].
  - do 4 (apply d_up; cbn [rule snd]).
    apply (d_unary Sub [TInt false 1]); [repeat constructor|]. apply d_up. constructor.
  - cbn [rule snd]. do 4 (apply d_up; cbn [rule snd]). constructor.
Qed.

Lemma unevaluated_traps :
  exists (defined : nat -> bool) (ts : list tok) (e : expr) (v : Z),
    derives expression ts e /\ all_signed e /\ value defined e = Some v /\
    pp_expr defined ts = Undef.
Proof.
  exists (fun _ => false),
    ([TInt false 0] ++ [TOp Land] ++
     (([TLpar] ++ ([TOp Sub; TInt false (2 ^ 63 - 1)] ++ [TOp Sub] ++ [TInt false 1]) ++ [TRpar]) ++
      [TOp Div] ++ [TOp Sub; TInt false 1])),
    (Bin Land (Num false 0)
       (Bin Div (Bin Sub (Un Sub (Num false (2 ^ 63 - 1))) (Num false 1)) (Un Sub (Num false 1)))), 0.
  assert (Hneg: forall v, derives unary_nt [TOp Sub; TInt false v] (Un Sub (Num false v))).
  { intros v. apply (d_unary Sub [TInt false v]); [repeat constructor|]. apply d_up. constructor. }
  split; [|split; [cbn; lia|split; vm_compute; reflexivity]].
  do 3 (apply d_up; cbn [rule snd]).
  apply (d_binary logical_and Land); [cbn; repeat constructor| |].
  - do 9 (apply d_up; cbn [rule snd]). apply d_up. constructor.
  - cbn [rule snd]. do 7 (apply d_up; cbn [rule snd]).
    apply (d_binary multiplicative Div); [cbn; repeat constructor| |cbn [rule snd]; apply Hneg].
    do 2 (apply d_up; cbn [rule snd]). apply d_paren. apply up_from_additive.
    apply (d_binary additive Sub); [cbn; repeat constructor| |].
    + do 2 (apply d_up; cbn [rule snd]). apply Hneg.
    + cbn [rule snd]. do 2 (apply d_up; cbn [rule snd]). constructor.
Qed.

Lemma zero_division_accepted :
  exists (defined : nat -> bool) (ts : list tok) (e : expr) (w : Z),
    derives expression ts e /\ value defined e = None /\ pp_expr defined ts = Ok (w, []).
Proof.
  exists (fun _ => false), ([TInt false 1] ++ [TOp Div] ++ [TInt false 0]),
    (Bin Div (Num false 1) (Num false 0)), 1.
  split; [|split; vm_compute; reflexivity].
  apply up_from_additive. apply d_up. cbn [rule snd].
  apply (d_binary multiplicative Div); [cbn; repeat constructor| |].
  - do 2 (apply d_up; cbn [rule snd]). constructor.
  - cbn [rule snd]. apply d_up. constructor.
Qed.
