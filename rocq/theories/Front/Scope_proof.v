(** Proofs about scopes. *)
From stdpp Require Import base list numbers gmap.
From Verif Require Import Front.Scope_model Front.Scope_spec.
Open Scope nat_scope.

Lemma omap_snoc {A B} (f : A -> option B) l x : omap f (l ++ [x]) = omap f l ++ match f x with Some y => [y] | None => [] end.
Proof. rewrite omap_app. cbn. by destruct (f x). Qed.

Lemma opened_snoc es e : opened (es ++ [e]) = opened es ++ match e with Open p => [p] | _ => [] end.
Proof. unfold opened. rewrite omap_snoc. by destruct e. Qed.
Lemma var_decls_snoc es e s n : var_decls (es ++ [e]) s n =
  var_decls es s n ++ match e with DeclVar s' v => if bool_decide (s' = s /\ v_ident v = n) then [v] else [] | _ => [] end.
Proof. unfold var_decls. rewrite omap_snoc. destruct e; try done. by case_bool_decide. Qed.
Lemma struct_decls_snoc es e s n : struct_decls (es ++ [e]) s n =
  struct_decls es s n ++ match e with DeclStruct s' n' i => if bool_decide (s' = s /\ n' = n) then [i] else [] | _ => [] end.
Proof. unfold struct_decls. rewrite omap_snoc. destruct e; try done. by case_bool_decide. Qed.
Lemma typedef_decls_snoc es e s n : typedef_decls (es ++ [e]) s n =
  typedef_decls es s n ++ match e with DeclTypedef s' n' i => if bool_decide (s' = s /\ n' = n) then [i] else [] | _ => [] end.
Proof. unfold typedef_decls. rewrite omap_snoc. destruct e; try done. by case_bool_decide. Qed.
Lemma enum_decls_snoc es e s n : enum_decls (es ++ [e]) s n =
  enum_decls es s n ++ match e with DeclEnum s' n' i => if bool_decide (s' = s /\ n' = n) then [i] else [] | _ => [] end.
Proof. unfold enum_decls. rewrite omap_snoc. destruct e; try done. by case_bool_decide. Qed.

Lemma effective_snoc vs v : effective (vs ++ [v]) =
  match effective vs with
  | None => Some v
  | Some old => Some (if vs_extern (v_storage old) then v else old)
  end.
Proof.
  induction vs as [|w vs IH]; [done|]. cbn [effective app]. rewrite IH.
  destruct (effective vs) as [old|]; [|done]. by destruct (vs_extern (v_storage w)) eqn:?; [destruct (vs_extern (v_storage old))|rewrite Heqb].
Qed.
Lemma effective_nil vs : effective vs = None <-> vs = [].
Proof. destruct vs; [done|]. cbn. split; [|done]. by destruct (effective vs). Qed.

(** var_find. *)
Lemma var_find_some vs n i : var_find vs n = Some i -> exists v, vs !! i = Some v /\ v_ident v = n.
Proof.
  revert i. induction vs as [|v vs IH]; intros i; cbn [var_find]; [done|].
  destruct (Nat.eqb_spec (v_ident v) n); [intros [= <-]; eauto|].
  destruct (var_find vs n) as [j|]; [|done]. intros [= <-]. by apply IH.
Qed.
Lemma var_find_snoc vs v n : var_find (vs ++ [v]) n =
  match var_find vs n with Some i => Some i | None => if Nat.eqb (v_ident v) n then Some (length vs) else None end.
Proof.
  induction vs as [|w vs IH]; cbn [var_find app length]; [by destruct (Nat.eqb _ _)|].
  destruct (Nat.eqb (v_ident w) n); [done|]. rewrite IH. destruct (var_find vs n); [done|]. by destruct (Nat.eqb _ _).
Qed.
Lemma var_find_update vs i v w n : vs !! i = Some w -> v_ident v = v_ident w -> var_find (<[i := v]> vs) n = var_find vs n.
Proof.
  revert i. induction vs as [|x vs IH]; intros i Hi Hv; [done|]. destruct i as [|i]; cbn in Hi |- *.
  - injection Hi as ->. by rewrite Hv.
  - by rewrite IH.
Qed.

(** The state agrees with the history. *)
Record agree (es : list event) (st : state) : Prop := {
  a_count : length (scopes st) = scope_count es;
  a_parent : forall s sc, scopes st !! s = Some sc -> parent sc = around es s;
  a_down : forall s p, around es s = Some p -> p < s;
  a_range : forall s n, scope_count es <= s ->
    var_decls es s n = [] /\ struct_decls es s n = [] /\ typedef_decls es s n = [] /\ enum_decls es s n = [];
  a_vars : forall s sc n, scopes st !! s = Some sc ->
    match var_find (vars sc) n with
    | Some i => exists v, vars sc !! i = Some v /\ effective (var_decls es s n) = Some v
    | None => var_decls es s n = []
    end;
  a_gvars : forall sc n, scopes st !! 0 = Some sc -> gvars st !! n = var_find (vars sc) n;
  a_struct : forall s sc n, scopes st !! s = Some sc -> struct_table sc !! n = last (struct_decls es s n);
  a_typedef : forall s sc n, scopes st !! s = Some sc -> typedef_table sc !! n = head (typedef_decls es s n);
  a_enum : forall s sc n, scopes st !! s = Some sc -> enum_table sc !! n = last (enum_decls es s n) }.

Lemma agree_init : agree [] init_global.
Proof.
  split; try done.
  - by intros [|s] sc; [intros [= <-]|].
  - by intros [|s] p.
  - intros [|s] sc n; [intros [= <-]|done]. done.
  - by intros sc n [= <-].
  - by intros [|s] sc n; [intros [= <-]|].
  - by intros [|s] sc n; [intros [= <-]|].
  - by intros [|s] sc n; [intros [= <-]|].
Qed.

Lemma count_snoc es e : scope_count (es ++ [e]) = scope_count es + match e with Open _ => 1 | _ => 0 end.
Proof. unfold scope_count. rewrite opened_snoc, app_length. destruct e; cbn; lia. Qed.
Lemma around_snoc es e s : (forall p, e <> Open p) -> around (es ++ [e]) s = around es s.
Proof. intros He. unfold around. rewrite opened_snoc. destruct s; [done|]. destruct e; rewrite ?app_nil_r; try done. by edestruct He. Qed.

(** Steps that change one scope in place. *)
Lemma agree_update es st e s sc sc' gv :
  agree es st -> (forall p, e <> Open p) -> scopes st !! s = Some sc -> parent sc' = parent sc ->
  (forall s' n, s' <> s -> var_decls (es ++ [e]) s' n = var_decls es s' n /\ struct_decls (es ++ [e]) s' n = struct_decls es s' n /\
     typedef_decls (es ++ [e]) s' n = typedef_decls es s' n /\ enum_decls (es ++ [e]) s' n = enum_decls es s' n) ->
  (forall n, match var_find (vars sc') n with
    | Some i => exists v, vars sc' !! i = Some v /\ effective (var_decls (es ++ [e]) s n) = Some v
    | None => var_decls (es ++ [e]) s n = []
    end) ->
  (forall n, s = 0 -> gv !! n = var_find (vars sc') n) -> (s <> 0 -> gv = gvars st) ->
  (forall n, struct_table sc' !! n = last (struct_decls (es ++ [e]) s n)) ->
  (forall n, typedef_table sc' !! n = head (typedef_decls (es ++ [e]) s n)) ->
  (forall n, enum_table sc' !! n = last (enum_decls (es ++ [e]) s n)) ->
  agree (es ++ [e]) (State (<[s := sc']> (scopes st)) gv).
Proof.
  intros A He Hs Hp Ho Hv Hg Hg' Hst Htd Hen. destruct A.
  assert (Hlt : s < length (scopes st)) by (by eapply lookup_lt_Some).
  split; cbn [scopes gvars].
  - rewrite insert_length, a_count0, count_snoc. destruct e; try lia. by edestruct He.
  - intros s' sc0. rewrite around_snoc by done. destruct (decide (s' = s)) as [->|Hne].
    + rewrite list_lookup_insert by done. intros [= <-]. rewrite Hp. by apply a_parent0.
    + rewrite list_lookup_insert_ne by done. apply a_parent0.
  - intros s' p. rewrite around_snoc by done. apply a_down0.
  - intros s' n. rewrite count_snoc. intros Hge. destruct (decide (s' = s)) as [->|Hne].
    + exfalso. rewrite a_count0 in Hlt. lia.
    + destruct (Ho s' n Hne) as (->&->&->&->). apply a_range0. lia.
  - intros s' sc0 n. destruct (decide (s' = s)) as [->|Hne].
    + rewrite list_lookup_insert by done. intros [= <-]. apply Hv.
    + rewrite list_lookup_insert_ne by done. destruct (Ho s' n Hne) as (->&_). apply a_vars0.
  - intros sc0 n. destruct (decide (s = 0)) as [->|Hne].
    + rewrite list_lookup_insert by done. intros [= <-]. by apply Hg.
    + rewrite list_lookup_insert_ne by done. rewrite Hg' by done. apply a_gvars0.
  - intros s' sc0 n. destruct (decide (s' = s)) as [->|Hne].
    + rewrite list_lookup_insert by done. intros [= <-]. apply Hst.
    + rewrite list_lookup_insert_ne by done. destruct (Ho s' n Hne) as (_&->&_). apply a_struct0.
  - intros s' sc0 n. destruct (decide (s' = s)) as [->|Hne].
    + rewrite list_lookup_insert by done. intros [= <-]. apply Htd.
    + rewrite list_lookup_insert_ne by done. destruct (Ho s' n Hne) as (_&_&->&_). apply a_typedef0.
  - intros s' sc0 n. destruct (decide (s' = s)) as [->|Hne].
    + rewrite list_lookup_insert by done. intros [= <-]. apply Hen.
    + rewrite list_lookup_insert_ne by done. destruct (Ho s' n Hne) as (_&_&_&->). apply a_enum0.
Qed.

Ltac others := intros ? ? Hne; rewrite var_decls_snoc, struct_decls_snoc, typedef_decls_snoc, enum_decls_snoc;
  cbn match; try rewrite bool_decide_eq_false_2 by naive_solver; by rewrite ?app_nil_r.

Lemma last_snoc' {A} (l : list A) x : last (l ++ [x]) = Some x.
Proof. apply last_snoc. Qed.

Lemma state_eta st : State (scopes st) (gvars st) = st. Proof. by destruct st. Qed.

Lemma agree_step es st e st' : agree es st -> step st e = Some st' -> agree (es ++ [e]) st'.
Proof.
  intros A. destruct e as [p|s v|s n i|s n t|s n t]; cbn [step].
  - unfold new_scope. destruct (scopes st !! p) as [sp|] eqn:Hp; [|done]. cbn [fmap option_fmap option_map fst]. intros [= <-].
    assert (Hlt : p < length (scopes st)) by (by eapply lookup_lt_Some). destruct A.
    assert (Har : forall s, around (es ++ [Open p]) s = if decide (s = length (scopes st)) then Some p else around es s).
    { intros [|s]; cbn [around]; [by rewrite decide_False by lia|]. rewrite opened_snoc.
      unfold scope_count in a_count0. destruct (decide (S s = length (scopes st))).
      - rewrite lookup_app_r by lia. by replace (s - length (opened es)) with 0 by lia.
      - destruct (decide (s < length (opened es))); [by rewrite lookup_app_l|].
        rewrite !(lookup_ge_None_2 _ s); rewrite ?app_length; cbn [length]; try lia. done. }
    assert (Hd : forall s n, var_decls (es ++ [Open p]) s n = var_decls es s n /\ struct_decls (es ++ [Open p]) s n = struct_decls es s n /\
      typedef_decls (es ++ [Open p]) s n = typedef_decls es s n /\ enum_decls (es ++ [Open p]) s n = enum_decls es s n).
    { intros s n. rewrite var_decls_snoc, struct_decls_snoc, typedef_decls_snoc, enum_decls_snoc. by rewrite !app_nil_r. }
    assert (Hl : forall s sc, (scopes st ++ [Scope (Some p) [] ∅ ∅ ∅]) !! s = Some sc ->
      scopes st !! s = Some sc /\ s <> length (scopes st) \/ s = length (scopes st) /\ sc = Scope (Some p) [] ∅ ∅ ∅).
    { intros s sc [H|[H1 H2]]%lookup_app_Some.
      - left. split; [done|]. apply lookup_lt_Some in H. lia.
      - apply list_lookup_singleton_Some in H2 as [? <-]. right. split; [lia|done]. }
    split; cbn [scopes gvars].
    + rewrite app_length, a_count0, count_snoc. done.
    + intros s sc [[H Hne]|[-> ->]]%Hl; rewrite Har; [rewrite decide_False by done; by apply a_parent0|by rewrite decide_True].
    + intros s q. rewrite Har. destruct (decide _) as [->|?]; [by intros [= <-]|apply a_down0].
    + intros s n. rewrite count_snoc. intros ?. destruct (Hd s n) as (->&->&->&->). apply a_range0. lia.
    + intros s sc n Hs. destruct (Hd s n) as (->&_). apply Hl in Hs as [[H Hne]|[-> ->]]; [by apply a_vars0|].
      cbn. apply a_range0. lia.
    + intros sc n [[H Hne]|[? _]]%Hl; [by apply a_gvars0|unfold scope_count in a_count0; lia].
    + intros s sc n Hs. destruct (Hd s n) as (_&->&_). apply Hl in Hs as [[H Hne]|[-> ->]]; [by apply a_struct0|].
      cbn [struct_table]. rewrite lookup_empty. destruct (a_range0 (length (scopes st)) n ltac:(lia)) as (_&->&_). done.
    + intros s sc n Hs. destruct (Hd s n) as (_&_&->&_). apply Hl in Hs as [[H Hne]|[-> ->]]; [by apply a_typedef0|].
      cbn [typedef_table]. rewrite lookup_empty. destruct (a_range0 (length (scopes st)) n ltac:(lia)) as (_&_&->&_). done.
    + intros s sc n Hs. destruct (Hd s n) as (_&_&_&->). apply Hl in Hs as [[H Hne]|[-> ->]]; [by apply a_enum0|].
      cbn [enum_table]. rewrite lookup_empty. destruct (a_range0 (length (scopes st)) n ltac:(lia)) as (_&_&_&->). done.
  - unfold scope_add. destruct (scopes st !! s) as [sc|] eqn:Hs; [|done].
    assert (Htab : (forall n, struct_table sc !! n = last (struct_decls (es ++ [DeclVar s v]) s n)) /\
      (forall n, typedef_table sc !! n = head (typedef_decls (es ++ [DeclVar s v]) s n)) /\
      (forall n, enum_table sc !! n = last (enum_decls (es ++ [DeclVar s v]) s n))).
    { split; [|split]; intros n; rewrite ?struct_decls_snoc, ?typedef_decls_snoc, ?enum_decls_snoc, app_nil_r; by apply A. }
    destruct Htab as (T1&T2&T3).
    assert (Hadd : forall vs, var_add (vars sc) v = Some vs -> forall n,
      match var_find vs n with
      | Some i => exists v', vs !! i = Some v' /\ effective (var_decls (es ++ [DeclVar s v]) s n) = Some v'
      | None => var_decls (es ++ [DeclVar s v]) s n = []
      end).
    { unfold var_add. intros vs. destruct (var_find (vars sc) (v_ident v)) eqn:Hf; [done|]. intros [= <-] n.
      rewrite var_find_snoc, var_decls_snoc. pose proof (a_vars _ _ A s sc n Hs) as Hn.
      destruct (Nat.eqb_spec (v_ident v) n) as [<-|Hne].
      - rewrite Hf in Hn |- *. rewrite Hn. rewrite bool_decide_eq_true_2 by done. exists v. split; [|done].
        by apply list_lookup_middle.
      - rewrite bool_decide_eq_false_2 by naive_solver. rewrite app_nil_r. destruct (var_find (vars sc) n) as [i|]; [|done].
        destruct Hn as (v'&Hi&He). exists v'. split; [|done]. by apply lookup_app_l_Some. }
    destruct (parent sc) as [p|] eqn:Hp.
    + destruct (var_add (vars sc) v) as [vs|] eqn:Ha; [|done]. intros [= <-]. unfold set_scope.
      eapply agree_update; [exact A|done|exact Hs|done|others|by apply Hadd| |done|done..].
      intros n ->. rewrite (a_parent _ _ A _ _ Hs) in Hp. done.
    + assert (s = 0) as ->.
      { rewrite (a_parent _ _ A _ _ Hs) in Hp. destruct s as [|s]; [done|]. cbn in Hp. apply lookup_ge_None in Hp.
        apply lookup_lt_Some in Hs. rewrite (a_count _ _ A) in Hs. unfold scope_count in Hs. lia. }
      unfold define_global. rewrite (a_gvars _ _ A sc) by done.
      destruct (var_find (vars sc) (v_ident v)) as [i|] eqn:Hf.
      * pose proof (a_vars _ _ A 0 sc (v_ident v) Hs) as Hv. rewrite Hf in Hv. destruct Hv as (old&Hi&He). rewrite Hi.
        pose proof (var_find_some _ _ _ Hf) as (old'&Hi'&Hid). rewrite Hi in Hi'. injection Hi' as <-.
        assert (Hother : forall n, n <> v_ident v -> var_decls (es ++ [DeclVar 0 v]) 0 n = var_decls es 0 n).
        { intros n Hne. rewrite var_decls_snoc. rewrite bool_decide_eq_false_2 by naive_solver. by rewrite app_nil_r. }
        assert (Hthis : effective (var_decls (es ++ [DeclVar 0 v]) 0 (v_ident v)) = Some (if vs_extern (v_storage old) then v else old)).
        { rewrite var_decls_snoc, bool_decide_eq_true_2 by done. by rewrite effective_snoc, He. }
        assert (Hno : forall n j, n <> v_ident v -> var_find (vars sc) n = Some j -> j <> i).
        { intros n j Hne Hj ->. apply var_find_some in Hj as (w&Hw&<-). rewrite Hi in Hw. injection Hw as <-. done. }
        destruct (vs_extern (v_storage old)) eqn:Hx; cbn [negb].
        -- intros [= <-]. unfold set_scope.
           eapply agree_update; [exact A|done|exact Hs|done|others| | |done|done..].
           ++ intros n. cbn [vars set_vars]. rewrite (var_find_update _ _ _ old) by done.
              pose proof (a_vars _ _ A 0 sc n Hs) as Hn. destruct (decide (n = v_ident v)) as [->|Hne].
              ** rewrite Hf. exists v. split; [|done]. apply list_lookup_insert. by eapply lookup_lt_Some.
              ** rewrite Hother by done. destruct (var_find (vars sc) n) as [j|] eqn:Hj; [|done].
                 rewrite list_lookup_insert_ne by (pose proof (Hno n j Hne Hj); congruence). done.
           ++ intros n _. cbn [vars set_vars]. rewrite (var_find_update _ _ _ old) by done. by apply (a_gvars _ _ A).
        -- destruct (vs_extern (v_storage v)); [|done]. intros [= <-]. rewrite <- (state_eta st).
           rewrite <- (list_insert_id (scopes st) 0 sc Hs).
           eapply agree_update; [exact A|done|exact Hs|done|others| | |done|done..].
           ++ intros n. pose proof (a_vars _ _ A 0 sc n Hs) as Hn. destruct (decide (n = v_ident v)) as [->|Hne].
              ** rewrite Hf. eauto.
              ** by rewrite Hother.
           ++ intros n _. by apply (a_gvars _ _ A).
      * destruct (var_add (vars sc) v) as [vs|] eqn:Ha; [|done]. intros [= <-].
        eapply agree_update; [exact A|done|exact Hs|done|others|by apply Hadd| |done|done..].
        intros n _. cbn [vars set_vars]. unfold var_add in Ha. rewrite Hf in Ha. injection Ha as <-. rewrite var_find_snoc.
        destruct (Nat.eqb_spec (v_ident v) n) as [<-|Hne]; [rewrite lookup_insert; by rewrite Hf|].
        rewrite lookup_insert_ne by done. rewrite (a_gvars _ _ A sc) by done. by destruct (var_find (vars sc) n).
  - unfold define_struct. destruct (scopes st !! s) as [sc|] eqn:Hs; [|done]. intros [= <-]. unfold set_scope.
    eapply agree_update; [exact A|done|exact Hs|done|others| | |done|..]; cbn [vars struct_table typedef_table enum_table].
    + intros n'. rewrite var_decls_snoc, app_nil_r. by apply (a_vars _ _ A).
    + intros n' ->. by apply (a_gvars _ _ A).
    + intros n'. rewrite struct_decls_snoc. destruct (decide (n' = n)) as [->|Hne].
      * rewrite lookup_insert, bool_decide_eq_true_2 by done. by rewrite last_snoc'.
      * rewrite lookup_insert_ne by done. rewrite bool_decide_eq_false_2 by naive_solver. rewrite app_nil_r. by apply A.
    + intros n'. rewrite typedef_decls_snoc, app_nil_r. by apply A.
    + intros n'. rewrite enum_decls_snoc, app_nil_r. by apply A.
  - unfold add_typedef. destruct (scopes st !! s) as [sc|] eqn:Hs; [|done].
    destruct (typedef_table sc !! n) as [t'|] eqn:Ht; cbn [fmap option_fmap option_map fst]; intros [= <-].
    + rewrite <- (state_eta st). rewrite <- (list_insert_id (scopes st) s sc Hs).
      eapply agree_update; [exact A|done|exact Hs|done|others| | |done|..].
      * intros n'. rewrite var_decls_snoc, app_nil_r. by apply (a_vars _ _ A).
      * intros n' ->. by apply (a_gvars _ _ A).
      * intros n'. rewrite struct_decls_snoc, app_nil_r. by apply A.
      * intros n'. rewrite typedef_decls_snoc. destruct (decide (n' = n)) as [->|Hne].
        -- rewrite (a_typedef _ _ A _ _ _ Hs) in Ht |- *. destruct (typedef_decls es s n); [done|]. by case_bool_decide.
        -- rewrite bool_decide_eq_false_2 by naive_solver. rewrite app_nil_r. by apply A.
      * intros n'. rewrite enum_decls_snoc, app_nil_r. by apply A.
    + unfold set_scope.
      eapply agree_update; [exact A|done|exact Hs|done|others| | |done|..]; cbn [vars struct_table typedef_table enum_table].
      * intros n'. rewrite var_decls_snoc, app_nil_r. by apply (a_vars _ _ A).
      * intros n' ->. by apply (a_gvars _ _ A).
      * intros n'. rewrite struct_decls_snoc, app_nil_r. by apply A.
      * intros n'. rewrite typedef_decls_snoc. destruct (decide (n' = n)) as [->|Hne].
        -- rewrite (a_typedef _ _ A _ _ _ Hs) in Ht. rewrite lookup_insert, bool_decide_eq_true_2 by done.
           by destruct (typedef_decls es s n).
        -- rewrite lookup_insert_ne by done. rewrite bool_decide_eq_false_2 by naive_solver. rewrite app_nil_r. by apply A.
      * intros n'. rewrite enum_decls_snoc, app_nil_r. by apply A.
  - unfold define_enum. destruct (scopes st !! s) as [sc|] eqn:Hs; [|done]. intros [= <-]. unfold set_scope.
    eapply agree_update; [exact A|done|exact Hs|done|others| | |done|..]; cbn [vars struct_table typedef_table enum_table].
    + intros n'. rewrite var_decls_snoc, app_nil_r. by apply (a_vars _ _ A).
    + intros n' ->. by apply (a_gvars _ _ A).
    + intros n'. rewrite struct_decls_snoc, app_nil_r. by apply A.
    + intros n'. rewrite typedef_decls_snoc, app_nil_r. by apply A.
    + intros n'. rewrite enum_decls_snoc. destruct (decide (n' = n)) as [->|Hne].
      * rewrite lookup_insert, bool_decide_eq_true_2 by done. by rewrite last_snoc'.
      * rewrite lookup_insert_ne by done. rewrite bool_decide_eq_false_2 by naive_solver. rewrite app_nil_r. by apply A.
Qed.

Lemma agree_run' es' : forall es st st', agree es st -> run st es' = Some st' -> agree (es ++ es') st'.
Proof.
  induction es' as [|e es' IH]; intros es st st' A; cbn [run]; [intros [= <-]; by rewrite app_nil_r|].
  destruct (step st e) as [st1|] eqn:E; [|done]. intros H. rewrite cons_middle, app_assoc.
  eapply IH; [|exact H]. by eapply agree_step.
Qed.
Lemma agree_run es st : run init_global es = Some st -> agree es st.
Proof. intros H. by apply (agree_run' es [] init_global st agree_init). Qed.
