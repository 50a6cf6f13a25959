(** Lookup proofs. *)
From stdpp Require Import base list numbers gmap.
From Verif Require Import Front.Scope_model Front.Scope_spec Front.Scope_proof.
Open Scope nat_scope.

Lemma innermost_fun es P s a b : innermost es P s a -> innermost es P s b -> a = b.
Proof.
  intros H. revert b. induction H as [s Hs|s p s' Hs Hp _ IH]; intros b Hb; inversion Hb; subst; try done.
  apply IH. congruence.
Qed.
Lemma innermost_nowhere es P s a : innermost es P s a -> nowhere es P s -> False.
Proof.
  intros H. induction H as [s Hs|s p s' Hs Hp _ IH]; intros Hb; inversion Hb; subst; try done; [congruence|].
  apply IH. congruence.
Qed.
Lemma innermost_holds es P s a : innermost es P s a -> P a.
Proof. by induction 1. Qed.
Lemma innermost_ext es P Q s a : (forall x, P x <-> Q x) -> innermost es P s a -> innermost es Q s a.
Proof.
  intros He. induction 1 as [s Hs|s p s' Hs Hp _ IH]; [apply in_here; by apply He|].
  eapply in_outer; [|done..]. by rewrite <- He.
Qed.
Lemma nowhere_ext es P Q s : (forall x, P x <-> Q x) -> nowhere es P s -> nowhere es Q s.
Proof.
  intros He. induction 1 as [s Hs Hp|s p Hs Hp _ IH]; [apply no_outermost; [by rewrite <- He|done]|].
  eapply no_outer; [|done..]. by rewrite <- He.
Qed.

Lemma nn {A} (l : list A) : l = [] -> ~ (l <> []).
Proof. tauto. Qed.

Section lookups.
  Context (es : list event) (st : state) (A : agree es st).

  Lemma scope_of s : s < scope_count es -> exists sc, scopes st !! s = Some sc.
  Proof. intros H. apply lookup_lt_is_Some. by rewrite (a_count _ _ A). Qed.
  Lemma outer_scope s p : s < scope_count es -> around es s = Some p -> p < scope_count es.
  Proof. intros ? H%(a_down _ _ A). lia. Qed.
  Lemma root s : s < scope_count es -> around es s = None -> s = 0.
  Proof. destruct s as [|s]; [done|]. cbn. unfold scope_count. intros ? H%lookup_ge_None. lia. Qed.

  Lemma scope_find_ok n : forall fuel s, s < fuel -> s < scope_count es ->
    exists r, scope_find fuel st s n = Some r /\
      match r with
      | (Some i, s') => innermost es (declares_var es n) s s' /\
          exists sc v, scopes st !! s' = Some sc /\ vars sc !! i = Some v /\ effective (var_decls es s' n) = Some v
      | (None, s') => s' = 0 /\ nowhere es (declares_var es n) s
      end.
  Proof.
    induction fuel as [|fuel IH]; intros s Hf Hs; [lia|]. destruct (scope_of s Hs) as [sc Hsc]. cbn [scope_find]. rewrite Hsc.
    pose proof (a_vars _ _ A s sc n Hsc) as Hv.
    destruct (parent sc) as [p|] eqn:Hp; rewrite (a_parent _ _ A _ _ Hsc) in Hp.
    - destruct (var_find (vars sc) n) as [i|] eqn:Hi.
      + exists (Some i, s). split; [done|]. destruct Hv as (v&Hl&He). split; [|by exists sc, v].
        apply in_here. unfold declares_var. intros H. by rewrite H in He.
      + pose proof (a_down _ _ A _ _ Hp).
        destruct (IH p ltac:(lia) ltac:(lia)) as ([[i|] s']&E&H').
        * exists (Some i, s'). split; [done|]. destruct H' as [H' ?]. split; [|done]. eapply in_outer; [|exact Hp|exact H']. by apply nn.
        * exists (None, s'). split; [done|]. destruct H' as [-> H']. split; [done|]. eapply no_outer; [|exact Hp|exact H']. by apply nn.
    - pose proof (root s Hs Hp) as ->. exists (gvars st !! n, 0). split; [done|].
      rewrite (a_gvars _ _ A sc n Hsc). destruct (var_find (vars sc) n) as [i|] eqn:Hi.
      + destruct Hv as (v&Hl&He). split; [|by exists sc, v]. apply in_here. unfold declares_var. intros H. by rewrite H in He.
      + split; [done|]. apply no_outermost; [|done]. by apply nn.
  Qed.

  Lemma found_some s n s' v : s < scope_count es ->
    (found_var st s n = Some (s', v) <-> innermost es (declares_var es n) s s' /\ effective (var_decls es s' n) = Some v).
  Proof.
    intros Hs. unfold found_var.
    destruct (scope_find_ok n (enough st) s ltac:(unfold enough; by rewrite (a_count _ _ A)) Hs) as ([[i|] s0]&->&H).
    - destruct H as (Hin&sc&v0&Hsc&Hi&He). rewrite Hsc, Hi. cbn. split.
      + intros [= <- <-]. done.
      + intros [Hin' He']. pose proof (innermost_fun _ _ _ _ _ Hin Hin') as <-. congruence.
    - split; [done|]. intros [Hin _]. exfalso. destruct H. by eapply innermost_nowhere.
  Qed.
  Lemma found_none s n : s < scope_count es -> (found_var st s n = None <-> nowhere es (declares_var es n) s).
  Proof.
    intros Hs. unfold found_var.
    destruct (scope_find_ok n (enough st) s ltac:(unfold enough; by rewrite (a_count _ _ A)) Hs) as ([[i|] s0]&->&H).
    - destruct H as (Hin&sc&v0&Hsc&Hi&He). rewrite Hsc, Hi. cbn. split; [done|]. intros Hn. exfalso. by eapply innermost_nowhere.
    - split; [tauto|done].
  Qed.

  Lemma find_struct_ok n : forall fuel s, s < fuel -> s < scope_count es ->
    exists r, find_struct fuel st s n = Some r /\
      match r with
      | Some (i, s') => innermost es (declares_struct es n) s s' /\ last (struct_decls es s' n) = Some i
      | None => nowhere es (declares_struct es n) s
      end.
  Proof.
    induction fuel as [|fuel IH]; intros s Hf Hs; [lia|]. destruct (scope_of s Hs) as [sc Hsc]. cbn [find_struct]. rewrite Hsc.
    pose proof (a_struct _ _ A s sc n Hsc) as Hv. rewrite Hv. destruct (last (struct_decls es s n)) as [i|] eqn:Hl.
    - exists (Some (i, s)). split; [done|]. split; [|done]. apply in_here. unfold declares_struct. intros H. by rewrite H in Hl.
    - apply last_None in Hl. destruct (parent sc) as [p|] eqn:Hp; rewrite (a_parent _ _ A _ _ Hsc) in Hp.
      + pose proof (a_down _ _ A _ _ Hp). destruct (IH p ltac:(lia) ltac:(lia)) as (r&E&H'). exists r. split; [done|].
        destruct r as [[i s']|].
        * destruct H' as [H' ?]. split; [|done]. eapply in_outer; [|done..]. by apply nn.
        * eapply no_outer; [|done..]. by apply nn.
      + exists None. split; [done|]. apply no_outermost; [|done]. by apply nn.
  Qed.
  Lemma find_enum_ok n : forall fuel s, s < fuel -> s < scope_count es ->
    exists r, find_enum fuel st s n = Some r /\
      match r with
      | Some i => exists s', innermost es (declares_enum es n) s s' /\ last (enum_decls es s' n) = Some i
      | None => nowhere es (declares_enum es n) s
      end.
  Proof.
    induction fuel as [|fuel IH]; intros s Hf Hs; [lia|]. destruct (scope_of s Hs) as [sc Hsc]. cbn [find_enum]. rewrite Hsc.
    pose proof (a_enum _ _ A s sc n Hsc) as Hv. rewrite Hv. destruct (last (enum_decls es s n)) as [i|] eqn:Hl.
    - exists (Some i). split; [done|]. exists s. split; [|done]. apply in_here. unfold declares_enum. intros H. by rewrite H in Hl.
    - apply last_None in Hl. destruct (parent sc) as [p|] eqn:Hp; rewrite (a_parent _ _ A _ _ Hsc) in Hp.
      + pose proof (a_down _ _ A _ _ Hp). destruct (IH p ltac:(lia) ltac:(lia)) as (r&E&H'). exists r. split; [done|].
        destruct r as [i|].
        * destruct H' as (s'&H'&?). exists s'. split; [|done]. eapply in_outer; [|done..]. by apply nn.
        * eapply no_outer; [|done..]. by apply nn.
      + exists None. split; [done|]. apply no_outermost; [|done]. by apply nn.
  Qed.
  (** The innermost scope with [n] as an ordinary identifier, if it is a typedef there. *)
  Lemma find_typedef_ok n : forall fuel s, s < fuel -> s < scope_count es ->
    exists r, find_typedef fuel st s n = Some r /\
      match r with
      | Some (t, s') => innermost es (declares_ordinary es n) s s' /\ head (typedef_decls es s' n) = Some t
      | None => nowhere es (declares_ordinary es n) s \/
          exists s', innermost es (declares_ordinary es n) s s' /\ typedef_decls es s' n = []
      end.
  Proof.
    induction fuel as [|fuel IH]; intros s Hf Hs; [lia|]. destruct (scope_of s Hs) as [sc Hsc]. cbn [find_typedef]. rewrite Hsc.
    pose proof (a_typedef _ _ A s sc n Hsc) as Ht. pose proof (a_vars _ _ A s sc n Hsc) as Hv. rewrite Ht.
    destruct (typedef_decls es s n) as [|t ts] eqn:Hl; cbn [head].
    - destruct (var_find (vars sc) n) as [i|] eqn:Hi.
      + exists None. split; [done|]. right. exists s. split; [|done]. apply in_here. left.
        destruct Hv as (v&_&He). intros H. by rewrite H in He.
      + assert (Hno : ~ declares_ordinary es n s) by (unfold declares_ordinary; rewrite Hl, Hv; by intros []).
        destruct (parent sc) as [p|] eqn:Hp; rewrite (a_parent _ _ A _ _ Hsc) in Hp.
        * pose proof (a_down _ _ A _ _ Hp). destruct (IH p ltac:(lia) ltac:(lia)) as (r&E&H'). exists r. split; [done|].
          destruct r as [[t s']|].
          -- destruct H' as [H' ?]. split; [|done]. by eapply in_outer.
          -- destruct H' as [H'|(s'&H'&?)]; [left; by eapply no_outer|right]. exists s'. split; [|done]. by eapply in_outer.
        * exists None. split; [done|]. left. by apply no_outermost.
    - exists (Some (t, s)). split; [done|]. split; [|by rewrite Hl]. apply in_here. right. by rewrite Hl.
  Qed.
End lookups.

(** Declarations that do not matter. *)
Lemma enc_trans es a b c : encloses es a b -> encloses es b c -> encloses es a c.
Proof. intros H1 H2. induction H2 as [|s p ? ? IH]; [done|]. by eapply enc_outer. Qed.
Lemma innermost_enc es P s a : innermost es P s a -> encloses es a s.
Proof. induction 1; [constructor|by eapply enc_outer]. Qed.

Lemma around_open es e s p : around es s = Some p -> around (es ++ [e]) s = Some p.
Proof. unfold around. destruct s; [done|]. intros H. rewrite opened_snoc. by apply lookup_app_l_Some. Qed.

Lemma innermost_same es e P Q s a :
  (forall x, encloses es x s -> encloses es a x -> (P x <-> Q x)) ->
  innermost es P s a -> innermost (es ++ [e]) Q s a.
Proof.
  intros He Hi. revert He. induction Hi as [s Hs|s p s' Hs Hp Hin IH]; intros He.
  - apply in_here. apply He; [constructor..|done].
  - pose proof (innermost_enc _ _ _ _ Hin).
    eapply in_outer; [|by apply around_open|].
    + rewrite <- He; [done|constructor|]. by eapply enc_outer.
    + apply IH. intros x H1 H2. apply He; [|done]. by eapply enc_outer.
Qed.

Lemma lookup_stable es e st st' s n s0 v : run init_global es = Some st -> step st e = Some st' -> s < scope_count es ->
  found_var st s n = Some (s0, v) -> ~ matters es e s n s0 -> found_var st' s n = Some (s0, v).
Proof.
  intros Hr Hst Hs Hf Hm. pose proof (agree_run _ _ Hr) as A. pose proof (agree_step _ _ _ _ A Hst) as A'.
  apply (found_some es) in Hf as [Hi He]; [|done..].
  assert (Hd : forall x, encloses es x s -> encloses es s0 x -> var_decls (es ++ [e]) x n = var_decls es x n).
  { intros x H1 H2. rewrite var_decls_snoc. destruct e as [|s' w| | |]; rewrite ?app_nil_r; try done.
    rewrite bool_decide_eq_false_2; [by rewrite app_nil_r|]. intros [-> Hw]. apply Hm. done. }
  apply (found_some (es ++ [e])); [done|rewrite count_snoc; lia|]. split.
  - eapply innermost_same; [|exact Hi]. intros x H1 H2. unfold declares_var. by rewrite Hd.
  - rewrite Hd; [done| |constructor]. by eapply innermost_enc.
Qed.

Lemma innermost_lookup es st s n s' v : run init_global es = Some st -> s < scope_count es ->
  (found_var st s n = Some (s', v) <-> innermost es (declares_var es n) s s' /\ effective (var_decls es s' n) = Some v).
Proof. intros H. apply found_some. by apply agree_run. Qed.
Lemma undeclared_lookup es st s n : run init_global es = Some st -> s < scope_count es ->
  (found_var st s n = None <-> nowhere es (declares_var es n) s).
Proof. intros H. apply found_none. by apply agree_run. Qed.
Lemma lookup_ends es st s n : run init_global es = Some st -> s < scope_count es -> scope_find (enough st) st s n <> None.
Proof.
  intros H Hs. pose proof (agree_run _ _ H) as A.
  destruct (scope_find_ok _ _ A n (enough st) s ltac:(unfold enough; by rewrite (a_count _ _ A)) Hs) as (r&->&_). done.
Qed.

Lemma struct_lookup es st s n : run init_global es = Some st -> s < scope_count es ->
  exists r, find_struct (enough st) st s n = Some r /\
    match r with
    | Some (i, s') => innermost es (declares_struct es n) s s' /\ last (struct_decls es s' n) = Some i
    | None => nowhere es (declares_struct es n) s
    end.
Proof. intros H Hs. pose proof (agree_run _ _ H) as A. apply find_struct_ok; try done. unfold enough. by rewrite (a_count _ _ A). Qed.
Lemma enum_lookup es st s n : run init_global es = Some st -> s < scope_count es ->
  exists r, find_enum (enough st) st s n = Some r /\
    match r with
    | Some i => exists s', innermost es (declares_enum es n) s s' /\ last (enum_decls es s' n) = Some i
    | None => nowhere es (declares_enum es n) s
    end.
Proof. intros H Hs. pose proof (agree_run _ _ H) as A. apply find_enum_ok; try done. unfold enough. by rewrite (a_count _ _ A). Qed.
Lemma typedef_lookup es st s n : run init_global es = Some st -> s < scope_count es ->
  exists r, find_typedef (enough st) st s n = Some r /\
    match r with
    | Some (t, s') => innermost es (declares_ordinary es n) s s' /\ head (typedef_decls es s' n) = Some t
    | None => nowhere es (declares_ordinary es n) s \/
        exists s', innermost es (declares_ordinary es n) s s' /\ typedef_decls es s' n = []
    end.
Proof. intros H Hs. pose proof (agree_run _ _ H) as A. apply find_typedef_ok; try done. unfold enough. by rewrite (a_count _ _ A). Qed.

(** A typedef name that hides no other typedef. *)
Lemma def_type_ok same es st s n t complete : run init_global es = Some st -> s < scope_count es ->
  find_typedef (enough st) st s n = Some None -> var_decls es s n = [] ->
  exists st', def_type same st s n t complete = Some (st', Declared) /\ step st (DeclTypedef s n t) = Some st' /\
    find_typedef (enough st') st' s n = Some (Some (t, s)).
Proof.
  intros Hr Hs Hf Hv. pose proof (agree_run _ _ Hr) as A. unfold def_type. rewrite Hf.
  destruct (scope_of _ _ A s Hs) as [sc Hsc].
  assert (Ht : typedef_decls es s n = []).
  { destruct (typedef_lookup es st s n Hr Hs) as (r&E&H). rewrite Hf in E. injection E as <-.
    destruct (typedef_decls es s n) eqn:Hd; [done|]. exfalso.
    assert (declares_ordinary es n s) by (right; by rewrite Hd).
    destruct H as [H|(s'&H&H')]; [inversion H; done|]. inversion H; subst; [congruence|done]. }
  assert (Hadd : exists st', add_typedef st s n t = Some (st', true)).
  { unfold add_typedef. rewrite Hsc, (a_typedef _ _ A _ _ _ Hsc), Ht. eauto. }
  destruct Hadd as [st' Ha]. exists st'. rewrite Ha.
  assert (Hstep : step st (DeclTypedef s n t) = Some st') by (cbn [step]; by rewrite Ha).
  pose proof (agree_step _ _ _ _ A Hstep) as A'.
  split; [|split; [done|]].
  - destruct (scope_find_ok _ _ A n (enough st) s ltac:(unfold enough; by rewrite (a_count _ _ A)) Hs) as ([[i|] s']&->&H'); [|done].
    destruct (Nat.eqb_spec s' s) as [->|]; [|done]. destruct H' as [H' _]. apply innermost_holds in H'. by destruct H'.
  - destruct (find_typedef_ok _ _ A' n (enough st') s) as (r&->&H').
    + unfold enough. rewrite (a_count _ _ A'), count_snoc. lia.
    + rewrite count_snoc. lia.
    + assert (Ht' : typedef_decls (es ++ [DeclTypedef s n t]) s n = [t]).
      { rewrite typedef_decls_snoc, Ht. by rewrite bool_decide_eq_true_2. }
      assert (declares_ordinary (es ++ [DeclTypedef s n t]) n s) by (right; by rewrite Ht').
      destruct r as [[t' s']|].
      * destruct H' as [H' Hh]. inversion H'; subst; [|done]. rewrite Ht' in Hh. by injection Hh as <-.
      * exfalso. destruct H' as [H'|(s'&H'&Hn)]; [inversion H'; done|]. inversion H'; subst; [congruence|done].
Qed.
