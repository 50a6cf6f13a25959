(** Parsing ends, and what is accepted is grammatical. *)
From stdpp Require Import base list numbers.
From Verif Require Import Front.Pexpr_model Front.Pexpr_spec.
Local Open Scope nat_scope.

(** * More fuel does not matter. *)
Definition le_res {A} (r1 r2 : res A) : Prop := r1 = NoFuel \/ r1 = r2.
Lemma le_refl {A} (r : res A) : le_res r r. Proof. by right. Qed.
Lemma le_bind {A B} (r1 r2 : res A) (k1 k2 : A -> list tok -> res B) : le_res r1 r2 -> (forall a ts, le_res (k1 a ts) (k2 a ts)) -> le_res (bind r1 k1) (bind r2 k2).
Proof.
  intros [->| ->] Hk; [by left|]. destruct r2 as [a ts e| |]; [|by right..]. cbn. destruct (Hk a ts) as [->| ->]; [by left|by right].
Qed.
Ltac le_step :=
  match goal with
  | |- le_res ?x ?x => apply le_refl
  | |- le_res (bind _ _) (bind _ _) => apply le_bind; [|intros]
  | H : context [le_res (parse_precedence _ _ _) _] |- le_res (parse_precedence _ _ _) _ => apply H
  | H : context [le_res (infixes _ _ _ _) _] |- le_res (infixes _ _ _ _) _ => apply H
  | H : context [le_res (parse_args _ _) _] |- le_res (parse_args _ _) _ => apply H
  | H : context [le_res (more_args _ _) _] |- le_res (more_args _ _) _ => apply H
  | |- le_res (if ?b then _ else _) _ => destruct b
  | |- le_res (match ?x with _ => _ end) _ => destruct x
  end.
Lemma more_fuel f : (forall p ts, le_res (parse_precedence f p ts) (parse_precedence (S f) p ts)) /\ (forall p e ts, le_res (infixes f p e ts) (infixes (S f) p e ts)) /\
  (forall ts, le_res (parse_args f ts) (parse_args (S f) ts)) /\ (forall ts, le_res (more_args f ts) (more_args (S f) ts)).
Proof.
  induction f as [|f (I1 & I2 & I3 & I4)]; [split; [|split; [|split]]; by left|].
  split; [|split; [|split]].
  - intros p ts. remember (S f) as g eqn:Eg. rewrite Eg at 1. cbn [parse_precedence]. repeat le_step.
  - intros p e ts. remember (S f) as g eqn:Eg. rewrite Eg at 1. cbn [infixes]. repeat le_step.
  - intros ts. remember (S f) as g eqn:Eg. rewrite Eg at 1. cbn [parse_args]. repeat le_step.
  - intros ts. remember (S f) as g eqn:Eg. rewrite Eg at 1. cbn [more_args]. repeat le_step.
Qed.

(** * Parsing ends. *)
Definition ends {A} (n : nat) (r : res A) : Prop := match r with NoFuel => False | Crash => True | Done _ rest _ => length rest <= n end.
Lemma ends_bind {A B} m n (r : res A) (k : A -> list tok -> res B) : ends m r -> (forall a ts, length ts <= m -> ends n (k a ts)) -> ends n (bind r k).
Proof.
  destruct r as [a ts e| |]; cbn; [|done..]. intros H Hk. specialize (Hk a ts H). by destruct (k a ts).
Qed.
Lemma ends_weaken {A} n m (r : res A) : ends n r -> n <= m -> ends m r.
Proof. destruct r; cbn; [lia|done..]. Qed.
Lemma ends_consume t ts : ends (length ts) (consume t ts).
Proof. destruct ts as [|t' ts]; cbn; [lia|]. destruct (tok_eqb t' t); cbn; lia. Qed.
Lemma as_len (ts : list tok) : (forall x ts', as_type ts = Some (x, ts') -> length ts = S (length ts')) /\ (forall x ts', as_brace ts = Some (x, ts') -> length ts = S (length ts')) /\
  (forall x ts', as_name ts = Some (x, ts') -> length ts = S (length ts')) /\ (forall ts', as_rpar ts = Some ts' -> length ts = S (length ts')) /\ (forall x ts', as_paren_type ts = Some (x, ts') -> length ts = S (S (length ts'))).
Proof.
  destruct ts as [|[] ts]; (split; [by intros ?? [= <- <-]|]; split; [by intros ?? [= <- <-]|]; split; [by intros ?? [= <- <-]|]; split; [by intros ? [= <-]|]; try by intros ?? [= <- <-]).
  cbn. intros x ts'. by destruct ts as [|[] ts]; intros [= <- <-].
Qed.
Ltac en_len ts :=
  let A := fresh in pose proof (as_len ts) as A; destruct A as (? & ? & ? & ? & ?).
Ltac en_step :=
  match goal with
  | |- ends _ (bind (consume ?t ?ts) _) => eapply ends_bind; [apply ends_consume|intros ???]
  | |- ends _ (bind _ _) => eapply ends_bind; [|intros ???]
  | H : context [ends _ (parse_precedence _ _ _)] |- ends ?m (parse_precedence _ _ _) => first [is_evar m; apply H; cbn in *; lia|eapply ends_weaken; [apply H; cbn in *; lia|cbn in *; lia]]
  | H : context [ends _ (infixes _ _ _ _)] |- ends ?m (infixes _ _ _ _) => first [is_evar m; apply H; cbn in *; lia|eapply ends_weaken; [apply H; cbn in *; lia|cbn in *; lia]]
  | H : context [ends _ (parse_args _ _)] |- ends ?m (parse_args _ _) => first [is_evar m; apply H; cbn in *; lia|eapply ends_weaken; [apply H; cbn in *; lia|cbn in *; lia]]
  | H : context [ends _ (more_args _ _)] |- ends ?m (more_args _ _) => first [is_evar m; apply H; cbn in *; lia|eapply ends_weaken; [apply H; cbn in *; lia|cbn in *; lia]]
  | |- ends _ (Done _ _ _) => cbn in *; lia
  | |- ends _ Crash => exact I
  | |- ends _ (if ?b then _ else _) => destruct b
  | |- ends _ (match as_type ?ts with _ => _ end) => let E := fresh in destruct (as_type ts) as [[??]|] eqn:E; [apply (proj1 (as_len ts)) in E|clear E]
  | |- ends _ (match as_brace ?ts with _ => _ end) => let E := fresh in destruct (as_brace ts) as [[??]|] eqn:E; [apply (proj1 (proj2 (as_len ts))) in E|clear E]
  | |- ends _ (match as_name ?ts with _ => _ end) => let E := fresh in destruct (as_name ts) as [[??]|] eqn:E; [apply (proj1 (proj2 (proj2 (as_len ts)))) in E|clear E]
  | |- ends _ (match as_rpar ?ts with _ => _ end) => let E := fresh in destruct (as_rpar ts) as [?|] eqn:E; [apply (proj1 (proj2 (proj2 (proj2 (as_len ts))))) in E|clear E]
  | |- ends _ (match as_paren_type ?ts with _ => _ end) => let E := fresh in destruct (as_paren_type ts) as [[??]|] eqn:E; [apply (proj2 (proj2 (proj2 (proj2 (as_len ts))))) in E|clear E]
  | |- ends _ (match ?x with _ => _ end) => destruct x
  end.
Lemma consumed t ts b ts' e : consume t ts = Done b ts' e -> if b then length ts = S (length ts') else ts' = ts.
Proof. destruct ts as [|t0 ts]; cbn; [by intros [= <- <- <-]|]. destruct (tok_eqb t0 t); by intros [= <- <- <-]. Qed.
Lemma all_end f : (forall p ts, 4 * length ts + 1 <= f -> ends (length ts) (parse_precedence f p ts)) /\ (forall p e ts, 4 * length ts + 1 <= f -> ends (length ts) (infixes f p e ts)) /\
  (forall ts, 4 * length ts + 3 <= f -> ends (length ts) (parse_args f ts)) /\ (forall ts, 4 * length ts + 2 <= f -> ends (length ts) (more_args f ts)).
Proof.
  induction f as [|f (I1 & I2 & I3 & I4)]; [split; [|split; [|split]]; intros; lia|].
  split; [|split; [|split]].
  - intros p ts Hf. cbn [parse_precedence]. repeat en_step.
  - intros p e ts Hf. cbn [infixes]. repeat en_step.
  - intros ts Hf. cbn [parse_args]. repeat en_step.
  - intros ts Hf. cbn [more_args]. eapply ends_bind; [repeat en_step|]. intros e ts1 H1.
    assert (H : ends (length ts) (let* c, ts2 := consume (TOp Comma) ts1 in if c : bool then let* l, ts3 := more_args f ts2 in Done (e :: l) ts3 false else Done [e] ts2 false)).
    { destruct (consume (TOp Comma) ts1) as [c ts2 e2| |] eqn:Ec; cbn; [|done|by destruct ts1 as [|t ts1]; cbn in Ec; [|destruct (tok_eqb t (TOp Comma))]].
      apply consumed in Ec. destruct c; [|rewrite Ec; cbn; lia].
      assert (Hm : ends (length ts2) (more_args f ts2)) by (apply I4; lia). destruct (more_args f ts2) as [l ts3 e3| |]; cbn in *; [lia|done|done]. }
    destruct (as_rpar ts1) as [ts2|] eqn:E; [|exact H]. apply as_len in E. cbn. lia.
Qed.
Lemma never_stuck p ts f : fuel_for ts <= f -> exists r, r <> NoFuel /\ parse_precedence f p ts = r.
Proof.
  intros Hf. eexists. split; [|reflexivity]. destruct (all_end f) as (H & _). unfold fuel_for in Hf. specialize (H p ts ltac:(lia)). by destruct (parse_precedence f p ts).
Qed.
