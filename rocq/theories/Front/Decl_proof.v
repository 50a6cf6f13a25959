(** Parsing declarators ends. *)
From stdpp Require Import base list numbers.
From Verif Require Import Front.Decl_model Front.Decl_spec.
Local Open Scope nat_scope.

(** * More fuel does not matter. *)
Definition le_res {A} (r1 r2 : res A) : Prop := r1 = NoFuel \/ r1 = r2.
Lemma le_refl {A} (r : res A) : le_res r r. Proof. by right. Qed.
Lemma le_report {A} e (r1 r2 : res A) : le_res r1 r2 -> le_res (report e r1) (report e r2).
Proof. intros [->| ->]; [by left|by right]. Qed.
Lemma le_bind {A B} (r1 r2 : res A) (k1 k2 : A -> heap -> list dtok -> res B) : le_res r1 r2 -> (forall a h ts, le_res (k1 a h ts) (k2 a h ts)) -> le_res (bind r1 k1) (bind r2 k2).
Proof.
  intros [->| ->] Hk; [by left|]. destruct r2 as [a h ts e| | |]; [|by right..]. cbn. by apply le_report.
Qed.
Ltac le_step :=
  match goal with
  | |- le_res ?x ?x => apply le_refl
  | |- le_res (bind _ _) (bind _ _) => apply le_bind; [|intros]
  | |- le_res (report _ _) (report _ _) => apply le_report
  | H : context [le_res (suffix _ _ _ _ _) _] |- le_res (suffix _ _ _ _ _) _ => apply H
  | H : context [le_res (direct _ _ _ _ _) _] |- le_res (direct _ _ _ _ _) _ => apply H
  | H : context [le_res (declarator _ _ _ _ _) _] |- le_res (declarator _ _ _ _ _) _ => apply H
  | H : context [le_res (funparams _ _ _) _] |- le_res (funparams _ _ _) _ => apply H
  | H : context [le_res (more_params _ _ _ _) _] |- le_res (more_params _ _ _ _) _ => apply H
  | |- le_res (if ?b then _ else _) _ => destruct b
  | |- le_res (match ?x with _ => _ end) _ => destruct x
  | |- _ => progress cbv zeta
  end.
Lemma more_fuel f : (forall fp h t ts, le_res (suffix f fp h t ts) (suffix (S f) fp h t ts)) /\ (forall fp h t ts, le_res (direct f fp h t ts) (direct (S f) fp h t ts)) /\
  (forall fp h t ts, le_res (declarator f fp h t ts) (declarator (S f) fp h t ts)) /\ (forall h ts, le_res (funparams f h ts) (funparams (S f) h ts)) /\
  (forall vs h ts, le_res (more_params f vs h ts) (more_params (S f) vs h ts)).
Proof.
  induction f as [|f (I1 & I2 & I3 & I4 & I5)]; [split_and!; by left|].
  split_and!.
  - intros fp h t ts. remember (S f) as g eqn:Eg. rewrite Eg at 1. cbn [suffix]. repeat le_step.
  - intros fp h t ts. remember (S f) as g eqn:Eg. rewrite Eg at 1. cbn [direct]. repeat le_step.
  - intros fp h t ts. remember (S f) as g eqn:Eg. rewrite Eg at 1. cbn [declarator]. repeat le_step.
  - intros h ts. remember (S f) as g eqn:Eg. rewrite Eg at 1. cbn [funparams]. repeat le_step.
  - intros vs h ts. remember (S f) as g eqn:Eg. rewrite Eg at 1. cbn [more_params]. repeat le_step.
Qed.
Lemma suffix_mono f g fp h t ts r : suffix f fp h t ts = r -> r <> NoFuel -> f <= g -> suffix g fp h t ts = r.
Proof. intros H Hr Hg. induction Hg as [|g Hg IH]; [done|]. destruct (more_fuel g) as (M & _). destruct (M fp h t ts) as [E|E]; congruence. Qed.
Lemma direct_mono f g fp h t ts r : direct f fp h t ts = r -> r <> NoFuel -> f <= g -> direct g fp h t ts = r.
Proof. intros H Hr Hg. induction Hg as [|g Hg IH]; [done|]. destruct (more_fuel g) as (_ & M & _). destruct (M fp h t ts) as [E|E]; congruence. Qed.
Lemma declarator_mono f g fp h t ts r : declarator f fp h t ts = r -> r <> NoFuel -> f <= g -> declarator g fp h t ts = r.
Proof. intros H Hr Hg. induction Hg as [|g Hg IH]; [done|]. destruct (more_fuel g) as (_ & _ & M & _). destruct (M fp h t ts) as [E|E]; congruence. Qed.
Lemma funparams_mono f g h ts r : funparams f h ts = r -> r <> NoFuel -> f <= g -> funparams g h ts = r.
Proof. intros H Hr Hg. induction Hg as [|g Hg IH]; [done|]. destruct (more_fuel g) as (_ & _ & _ & M & _). destruct (M h ts) as [E|E]; congruence. Qed.
Lemma more_params_mono f g vs h ts r : more_params f vs h ts = r -> r <> NoFuel -> f <= g -> more_params g vs h ts = r.
Proof. intros H Hr Hg. induction Hg as [|g Hg IH]; [done|]. destruct (more_fuel g) as (_ & _ & _ & _ & M). destruct (M vs h ts) as [E|E]; congruence. Qed.

(** * Parsing ends. *)
Definition ends {A} (n : nat) (r : res A) : Prop := match r with NoFuel => False | Done _ _ rest _ => length rest <= n | _ => True end.
Lemma ends_report {A} n e (r : res A) : ends n r -> ends n (report e r).
Proof. by destruct r. Qed.
Lemma ends_bind {A B} m n (r : res A) (k : A -> heap -> list dtok -> res B) : ends m r -> (forall a h ts, length ts <= m -> ends n (k a h ts)) -> ends n (bind r k).
Proof. destruct r as [a h ts e| | |]; cbn; [|done..]. intros H Hk. by apply ends_report, Hk. Qed.
Lemma ends_weaken {A} n m (r : res A) : ends n r -> n <= m -> ends m r.
Proof. destruct r; cbn; [lia|done..]. Qed.
Lemma as_len (ts : list dtok) : (forall ts', as_lbr ts = Some ts' -> length ts = S (length ts')) /\ (forall ts', as_lpar ts = Some ts' -> length ts = S (length ts')) /\
  (forall x ts', as_name ts = Some (x, ts') -> length ts = S (length ts')) /\ (forall ts', as_rpar ts = Some ts' -> length ts = S (length ts')) /\ (forall ts', as_dots ts = Some ts' -> length ts = S (length ts')) /\
  (forall ts', as_rbr ts = Some ts' -> length ts = S (length ts')) /\ (forall b q ts', as_base ts = Some (b, q, ts') -> length ts = S (length ts')) /\ (forall ts', restricts ts = Some ts' -> length ts = S (length ts')).
Proof.
  destruct ts as [|[] ts]; (split_and!; try (by intros ? [= <-]); try (by intros ?? [= <- <-]); try (by intros ??? [= <- <- <-])).
  intros ts'. cbn. case_match; [|done]. by intros [= <-].
Qed.
Lemma ends_rpar h ts : ends (length ts) (consume_rpar h ts). Proof. destruct ts as [|[] ts]; cbn; lia. Qed.
Lemma ends_rbr h ts : ends (length ts) (consume_rbr h ts). Proof. destruct ts as [|[] ts]; cbn; lia. Qed.
Lemma ends_pointer ts : forall h t, ends (length ts) (parse_pointer h t ts).
Proof.
  induction ts as [|tk ts IH]; intros h t; [cbn; lia|]. destruct tk; try (cbn; lia); cbn [parse_pointer length].
  - eapply ends_weaken; [apply IH|lia].
  - case_match; [|apply ends_report]; (eapply ends_weaken; [apply IH|lia]).
Qed.
Lemma ends_size h ts : ends (length ts) (parse_array_size h ts).
Proof. destruct ts as [|tk [|tk2 ts]]; [done|destruct tk; cbn; try case_match; cbn; (done || lia)|]. destruct tk; try done; [destruct tk2; cbn; lia|]. cbn. case_match; cbn; lia. Qed.
Lemma skip_len ts : length (skip_static ts) <= length ts.
Proof. induction ts as [|[] ts IH]; cbn; lia. Qed.
Lemma ends_brackets fp h ts : ends (length ts) (brackets fp h ts).
Proof.
  unfold brackets. destruct (as_rbr ts) as [ts'|] eqn:E; [apply (as_len ts) in E; cbn; lia|]. pose proof (skip_len ts).
  eapply (ends_bind (length ts)).
  - destruct (as_name (skip_static ts)) as [[x ts']|] eqn:En.
    + apply (as_len (skip_static ts)) in En. destruct (match fp with Some l => _ | None => _ end); [cbn; lia|]. eapply ends_weaken; [apply ends_size|lia].
    + eapply ends_weaken; [apply ends_size|lia].
  - intros l h' ts' Hl. eapply ends_bind; [apply ends_rbr|]. intros ? h2 ts2 H2. cbn. lia.
Qed.
Lemma comma_len h ts b h' ts' e : consume_comma h ts = Done b h' ts' e -> if b then length ts = S (length ts') else ts' = ts.
Proof. destruct ts as [|[] ts]; by intros [= <- <- <- <-]. Qed.
Ltac len_of E ts := first [apply (as_len ts) in E | idtac].
Ltac en_step :=
  match goal with
  | |- ends _ (bind (consume_rpar _ _) _) => eapply ends_bind; [apply ends_rpar|intros ????]
  | |- ends _ (bind (brackets _ _ _) _) => eapply ends_bind; [apply ends_brackets|intros ????]
  | |- ends _ (bind (parse_pointer _ _ _) _) => eapply ends_bind; [apply ends_pointer|intros ????]
  | |- ends ?m (bind (suffix _ _ _ _ ?ts) _) => apply (ends_bind (length ts)); [|intros ????]
  | |- ends ?m (bind (declarator _ _ _ _ ?ts) _) => apply (ends_bind (length ts)); [|intros ????]
  | |- ends ?m (bind (funparams _ _ ?ts) _) => apply (ends_bind (length ts)); [|intros ????]
  | |- ends _ (report _ _) => apply ends_report
  | H : context [ends _ (suffix _ _ _ _ _)] |- ends ?m (suffix _ _ _ _ _) => eapply ends_weaken; [apply H; cbn in *; lia|cbn in *; lia]
  | H : context [ends _ (direct _ _ _ _ _)] |- ends ?m (direct _ _ _ _ _) => eapply ends_weaken; [apply H; cbn in *; lia|cbn in *; lia]
  | H : context [ends _ (declarator _ _ _ _ _)] |- ends ?m (declarator _ _ _ _ _) => eapply ends_weaken; [apply H; cbn in *; lia|cbn in *; lia]
  | H : context [ends _ (funparams _ _ _)] |- ends ?m (funparams _ _ _) => eapply ends_weaken; [apply H; cbn in *; lia|cbn in *; lia]
  | H : context [ends _ (more_params _ _ _ _)] |- ends ?m (more_params _ _ _ _) => eapply ends_weaken; [apply H; cbn in *; lia|cbn in *; lia]
  | |- ends _ (Done _ _ _ _) => cbn in *; lia
  | |- ends _ Crash => exact I
  | |- ends _ Stop => exact I
  | |- ends _ (match restricts ?ts with _ => _ end) => let E := fresh in destruct (restricts ts) as [?|] eqn:E; [apply (as_len ts) in E|clear E]
  | |- ends _ (match as_lbr ?ts with _ => _ end) => let E := fresh in destruct (as_lbr ts) as [?|] eqn:E; [apply (as_len ts) in E|clear E]
  | |- ends _ (match as_lpar ?ts with _ => _ end) => let E := fresh in destruct (as_lpar ts) as [?|] eqn:E; [apply (as_len ts) in E|clear E]
  | |- ends _ (match as_rpar ?ts with _ => _ end) => let E := fresh in destruct (as_rpar ts) as [?|] eqn:E; [apply (as_len ts) in E|clear E]
  | |- ends _ (match as_dots ?ts with _ => _ end) => let E := fresh in destruct (as_dots ts) as [?|] eqn:E; [apply (as_len ts) in E|clear E]
  | |- ends _ (match as_name ?ts with _ => _ end) => let E := fresh in destruct (as_name ts) as [[??]|] eqn:E; [apply (as_len ts) in E|clear E]
  | |- ends _ (match as_base ?ts with _ => _ end) => let E := fresh in destruct (as_base ts) as [[[??]?]|] eqn:E; [apply (as_len ts) in E|clear E]
  | |- ends _ (if ?b then _ else _) => destruct b
  | |- ends _ (match ?x with _ => _ end) => destruct x
  | |- _ => progress cbv zeta
  end.
Lemma all_end f : (forall fp h t ts, 4 * length ts + 1 <= f -> ends (length ts) (suffix f fp h t ts)) /\ (forall fp h t ts, 4 * length ts + 2 <= f -> ends (length ts) (direct f fp h t ts)) /\
  (forall fp h t ts, 4 * length ts + 3 <= f -> ends (length ts) (declarator f fp h t ts)) /\ (forall h ts, 4 * length ts + 2 <= f -> ends (length ts) (funparams f h ts)) /\
  (forall vs h ts, 4 * length ts + 1 <= f -> ends (length ts) (more_params f vs h ts)).
Proof.
  induction f as [|f (I1 & I2 & I3 & I4 & I5)]; [split_and!; intros; lia|].
  split_and!.
  - intros fp h t ts Hf. cbn [suffix]. destruct (as_lbr ts) as [ts1|] eqn:E1; [apply (as_len ts) in E1|clear E1].
    + set (X := match restricts ts1 with Some ts => _ | None => _ end). assert (HX : length X.2 <= length ts1).
      { unfold X. destruct (restricts ts1) eqn:Er; [apply (as_len ts1) in Er; cbn; lia|cbn; lia]. }
      destruct X as [t1 ts2]. cbn in HX. repeat en_step.
    + repeat en_step.
  - intros fp h t ts Hf. cbn [direct]. repeat en_step.
  - intros fp h t ts Hf. cbn [declarator]. repeat en_step.
  - intros h ts Hf. cbn [funparams]. repeat en_step.
  - intros vs h ts Hf. cbn [more_params]. repeat en_step.
    + match goal with |- ends _ (bind (consume_comma ?hh ?l0) _) => destruct (consume_comma hh l0) as [c h1 ts1 e| | |] eqn:Ec; try (by destruct l0 as [|[] l0]) end.
      apply comma_len in Ec. cbn [bind]. apply ends_report. destruct c; repeat en_step. subst; cbn in *; lia.
Qed.
Lemma never_stuck f t ts : fuel_for ts <= f -> declarator f None [] t ts <> NoFuel.
Proof. unfold fuel_for. intros Hf E. destruct (all_end f) as (_ & _ & I & _). specialize (I None [] t ts ltac:(lia)). by rewrite E in I. Qed.
