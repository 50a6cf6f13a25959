From stdpp Require Import base list numbers gmap.
From Coq Require Import Lia.
From Verif Require Import Ld.Sym_model Ld.Sym_spec.

(** ** Symbols of an object *)
Lemma find_sym_in n s l : NoDup l.*1 -> find_sym n l = Some s <-> (n, s) ∈ l.
Proof.
  induction l as [|[m t] l IH]; intros Hn; cbn [find_sym]; [split; [done|intros H; inversion H]|].
  cbn in Hn. apply stdpp.list.NoDup_cons in Hn as [Hm Hn]. rewrite elem_of_cons. destruct (decide (m = n)) as [->|Hne].
  - split; [intros [= ->]; left; done|]. intros [[= ->]|H]; [done|].
    exfalso. apply Hm. apply elem_of_list_fmap. exists (n, s). done.
  - rewrite IH by done. split; [right; done|]. intros [[= -> ->]|H]; done.
Qed.
Lemma find_sym_none n l : find_sym n l = None <-> n ∉ l.*1.
Proof.
  induction l as [|[m t] l IH]; cbn [find_sym]; [split; [intros _ H; inversion H|done]|].
  cbn. rewrite not_elem_of_cons. destruct (decide (m = n)) as [->|Hne]; [split; [done|intros [? ?]; done]|].
  rewrite IH. split; [intros; split; congruence|intros [_ ?]; done].
Qed.

Section pool.
Context (pool : list obj) (gen : gset name).
Hypothesis Hpool : pool_ok pool.

Definition defb (n : name) (id : nat) : bool := match obj_sym pool id n with Some s => negb (is_undef s) | None => false end.
Definition strongb (n : name) (id : nat) : bool :=
  match obj_sym pool id n with Some s => negb (is_undef s) && negb (gives_way s) | None => false end.
Definition refb (n : name) (id : nat) : bool := match obj_sym pool id n with Some s => is_undef s | None => false end.

Lemma obj_sym_in id n s : obj_sym pool id n = Some s <-> exists o, pool !! id = Some o /\ (n, s) ∈ o_syms o.
Proof using Hpool.
  unfold obj_sym. destruct (pool !! id) as [o|] eqn:E; cbn; [|split; [done|intros (o & ? & _); done]].
  assert (NoDup (o_syms o).*1) as Hn.
  { unfold pool_ok in Hpool. rewrite stdpp.list.Forall_forall in Hpool. apply Hpool. eapply elem_of_list_lookup_2. done. }
  rewrite find_sym_in by done. split; [intros H; exists o; done|intros (o' & [= <-] & H); done].
Qed.
Lemma defb_spec n id : defb n id = true <-> defines pool id n.
Proof using Hpool.
  unfold defb, defines. split.
  - destruct (obj_sym pool id n) as [s|] eqn:E; [|done]. apply obj_sym_in in E as (o & Ho & Hs).
    unfold is_undef. intros H. exists o, s. split; [done|]. split; [done|]. destruct (s_shndx s); done.
  - intros (o & s & Ho & Hs & Hu). rewrite (proj2 (obj_sym_in id n s)) by (exists o; done).
    unfold is_undef. destruct (s_shndx s); done.
Qed.
Lemma refb_spec n id : refb n id = true <-> refers pool id n.
Proof using Hpool.
  unfold refb, refers. split.
  - destruct (obj_sym pool id n) as [s|] eqn:E; [|done]. apply obj_sym_in in E as (o & Ho & Hs).
    unfold is_undef. intros H. exists o, s. split; [done|]. split; [done|]. destruct (s_shndx s); done.
  - intros (o & s & Ho & Hs & Hu). rewrite (proj2 (obj_sym_in id n s)) by (exists o; done).
    unfold is_undef. rewrite Hu. done.
Qed.
Lemma strongb_spec n id : strongb n id = true <-> strong pool id n.
Proof using Hpool.
  unfold strongb, strong. split.
  - destruct (obj_sym pool id n) as [s|] eqn:E; [|done]. apply obj_sym_in in E as (o & Ho & Hs).
    unfold is_undef, gives_way. intros H. destruct (s_shndx s) as [| |k] eqn:Ek; [done|rewrite orb_true_r in H; done|].
    exists o, s, k. rewrite orb_false_r in H. destruct (s_weak s); done.
  - intros (o & s & k & Ho & Hs & Hu & Hw). rewrite (proj2 (obj_sym_in id n s)) by (exists o; done).
    unfold is_undef, gives_way. rewrite Hu, Hw. done.
Qed.
Lemma strongb_defb n id : strongb n id = true -> defb n id = true.
Proof. unfold strongb, defb. destruct (obj_sym pool id n); [|done]. intros H. apply andb_true_iff in H. apply H. Qed.

(** ** One object, name by name *)
Definition new_def (id : nat) (n : name) (d : option nat) (s : sym) : option nat :=
  if is_undef s then d else
  match d with
  | Some p => if gives_way s then d else if strongb n p then d else Some id
  | None => if bool_decide (n ∈ gen) then None else Some id
  end.
Definition new_un (n : name) (d : option nat) (u : bool) (s : sym) : bool :=
  match d with
  | Some p => u
  | None => if bool_decide (n ∈ gen) then u else is_undef s
  end.
Definition dup (n : name) (d : option nat) (s : sym) : bool :=
  if is_undef s then false else
  match d with
  | Some p => negb (gives_way s) && strongb n p
  | None => bool_decide (n ∈ gen)
  end.

(** What the table says about a name is about an object that defines it. *)
Definition backed (st : state) : Prop := forall n p, defined st !! n = Some p -> defb n p = true.

Lemma resolve_sym_spec id st n s : backed st -> obj_sym pool id n = Some s -> exists st',
  resolve_sym pool gen id st (n, s) = Some st' /\ backed st' /\
  (forall m, m <> n -> defined st' !! m = defined st !! m /\ bool_decide (m ∈ unresolved st') = bool_decide (m ∈ unresolved st)) /\
  defined st' !! n = new_def id n (defined st !! n) s /\
  bool_decide (n ∈ unresolved st') = new_un n (defined st !! n) (bool_decide (n ∈ unresolved st)) s /\
  errors st' = (errors st + if dup n (defined st !! n) s then 1 else 0)%nat.
Proof.
  intros Hb Hs. unfold resolve_sym, new_def, new_un, dup.
  assert (forall p, defined st !! n = Some p -> exists ps, obj_sym pool p n = Some ps /\ strongb n p = negb (gives_way ps)) as Hps.
  { intros p Hp. pose proof (Hb n p Hp) as Hd. unfold defb in Hd. unfold strongb.
    destruct (obj_sym pool p n) as [ps|]; [|done]. exists ps. split; [done|]. rewrite Hd. done. }
  destruct (defined st !! n) as [p|] eqn:Ed.
  - rewrite (bool_decide_eq_true_2 (is_Some (Some p))) by done. cbn [orb].
    destruct (is_undef s) eqn:Eu; [eexists; split; [done|]; split; [done|]; split; [done|]; rewrite Ed, Nat.add_0_r; done|].
    destruct (gives_way s) eqn:Ew; [eexists; split; [done|]; split; [done|]; split; [done|]; rewrite Ed, Nat.add_0_r; done|].
    destruct (Hps p eq_refl) as (ps & -> & ->). destruct (gives_way ps) eqn:Ep; cbn [negb andb].
    + eexists. split; [done|]. cbn [defined unresolved errors]. split; [|split; [|split; [|split]]].
      * intros m q. cbn [defined]. destruct (decide (m = n)) as [->|Hne].
        -- rewrite lookup_insert. intros [= <-]. unfold defb. rewrite Hs, Eu. done.
        -- rewrite lookup_insert_ne by done. apply Hb.
      * intros m Hm. rewrite lookup_insert_ne by done. done.
      * apply lookup_insert.
      * done.
      * lia.
    + eexists. split; [done|]. cbn [defined unresolved errors]. split; [done|]. split; [done|]. split; [done|]. split; [done|lia].
  - rewrite (bool_decide_eq_false_2 (is_Some None)) by (intros [? ?]; done). cbn [orb].
    destruct (bool_decide (n ∈ gen)) eqn:Eg.
    + destruct (is_undef s) eqn:Eu; (eexists; split; [done|]; cbn [defined unresolved errors]; split; [done|]; split; [done|]; split; [done|]; split; [done|lia]).
    + destruct (is_undef s) eqn:Eu.
      * eexists. split; [done|]. cbn [defined unresolved errors]. split; [done|]. split; [|split; [done|split; [|lia]]].
        -- intros m Hm. split; [done|]. apply bool_decide_ext. set_solver.
        -- apply bool_decide_eq_true_2. set_solver.
      * eexists. split; [done|]. cbn [defined unresolved errors]. split; [|split; [|split; [|split]]].
        -- intros m q. cbn [defined]. destruct (decide (m = n)) as [->|Hne].
           ++ rewrite lookup_insert. intros [= <-]. unfold defb. rewrite Hs, Eu. done.
           ++ rewrite lookup_insert_ne by done. apply Hb.
        -- intros m Hm. rewrite lookup_insert_ne by done. split; [done|]. apply bool_decide_ext. set_solver.
        -- apply lookup_insert.
        -- apply bool_decide_eq_false_2. set_solver.
        -- lia.
Qed.

Lemma resolve_syms_spec id l st : backed st -> NoDup l.*1 -> (forall n s, (n, s) ∈ l -> obj_sym pool id n = Some s) -> exists st',
  resolve_syms pool gen id st l = Some st' /\ backed st' /\
  (forall n, n ∉ l.*1 -> defined st' !! n = defined st !! n /\ bool_decide (n ∈ unresolved st') = bool_decide (n ∈ unresolved st)) /\
  (forall n s, (n, s) ∈ l -> defined st' !! n = new_def id n (defined st !! n) s /\
     bool_decide (n ∈ unresolved st') = new_un n (defined st !! n) (bool_decide (n ∈ unresolved st)) s) /\
  (errors st' = 0%nat <-> errors st = 0%nat /\ forall n s, (n, s) ∈ l -> dup n (defined st !! n) s = false).
Proof.
  revert st. induction l as [|[n s] l IH]; intros st Hb Hn Hin; cbn [resolve_syms].
  { exists st. split; [done|]. split; [done|]. split; [done|]. split; [intros n s H; inversion H|].
    split; [intros H; split; [done|intros n s H'; inversion H']|intros [H _]; done]. }
  cbn in Hn. apply stdpp.list.NoDup_cons in Hn as [Hnl Hn].
  destruct (resolve_sym_spec id st n s Hb (Hin n s ltac:(left))) as (st1 & E1 & Hb1 & Ho1 & Hd1 & Hu1 & He1). rewrite E1.
  destruct (IH st1 Hb1 Hn) as (st' & E & Hb' & Ho & Hi & He); [intros m t Hm; apply Hin; right; done|].
  exists st'. split; [exact E|]. split; [done|].
  assert (forall m t, (m, t) ∈ l -> m <> n) as Hne.
  { intros m t Hm ->. apply Hnl. apply elem_of_list_fmap. exists (n, t). done. }
  split; [|split].
  - intros m Hm. cbn in Hm. apply not_elem_of_cons in Hm as [Hm1 Hm2].
    destruct (Ho m Hm2) as [-> ->]. apply Ho1. done.
  - intros m t Hm. apply elem_of_cons in Hm as [[= -> ->]|Hm].
    + destruct (Ho n Hnl) as [-> ->]. done.
    + destruct (Hi m t Hm) as [-> ->]. destruct (Ho1 m (Hne m t Hm)) as [-> ->]. done.
  - rewrite He, He1. split.
    + intros [H1 H2]. destruct (dup n (defined st !! n) s) eqn:Ed; [lia|]. split; [lia|].
      intros m t Hm. apply elem_of_cons in Hm as [[= -> ->]|Hm]; [done|].
      rewrite <- (proj1 (Ho1 m (Hne m t Hm))). apply H2. done.
    + intros [H1 H2]. rewrite (H2 n s) by left. split; [lia|]. intros m t Hm.
      rewrite (proj1 (Ho1 m (Hne m t Hm))). apply H2. right. done.
Qed.

(** ** The tables as a function of the objects resolved *)
Definition pick (n : name) (l : list nat) : option nat :=
  match filter (fun id => strongb n id = true) l with
  | id :: _ => Some id
  | [] => head (filter (fun id => defb n id = true) l)
  end.
Context (entry : name).
Hypothesis Hentry : entry ∉ gen.

Definition miss (n : name) (l : list nat) : Prop :=
  (n = entry \/ Exists (fun id => refb n id = true) l) /\ n ∉ gen /\ filter (fun id => defb n id = true) l = [].
Record inv (l : list nat) (st : state) : Prop := {
  inv_def : forall n, defined st !! n = if bool_decide (n ∈ gen) then None else pick n l;
  inv_un : forall n, n ∈ unresolved st <-> miss n l;
  inv_err : errors st = 0%nat <-> forall n, if bool_decide (n ∈ gen) then filter (fun id => defb n id = true) l = []
                                             else (length (filter (fun id => strongb n id = true) l) <= 1)%nat;
}.

Lemma inv_start : inv [] (State ∅ {[entry]} 0).
Proof using Hentry.
  split; cbn [defined unresolved errors].
  - intros n. rewrite lookup_empty. cbn. case_bool_decide; done.
  - intros n. rewrite elem_of_singleton. unfold miss. split.
    + intros ->. split; [left; done|]. split; [done|]. done.
    + intros [[?|H] _]; [done|inversion H].
  - split; [|done]. intros _ n. case_bool_decide; [done|cbn; lia].
Qed.

Lemma pick_in n l id : pick n l = Some id -> id ∈ l /\ defb n id = true.
Proof.
  unfold pick. destruct (filter (fun id => strongb n id = true) l) as [|x xs] eqn:E.
  - destruct (filter (fun id => defb n id = true) l) as [|y ys] eqn:E'; [done|]. intros [= ->].
    assert (id ∈ filter (fun id => defb n id = true) l) as H by (rewrite E'; left).
    apply elem_of_list_filter in H. tauto.
  - intros [= ->]. assert (id ∈ filter (fun id => strongb n id = true) l) as H by (rewrite E; left).
    apply elem_of_list_filter in H as [H1 H2]. split; [done|]. apply strongb_defb. done.
Qed.
Lemma inv_backed l st : inv l st -> backed st.
Proof.
  intros H n p Hp. rewrite (inv_def _ _ H) in Hp. case_bool_decide; [done|]. apply pick_in in Hp. apply Hp.
Qed.

Lemma filter_snoc (P : nat -> bool) l id : filter (fun i => P i = true) (l ++ [id]) = filter (fun i => P i = true) l ++ (if P id then [id] else []).
Proof.
  rewrite filter_app. f_equal. destruct (P id) eqn:E.
  - rewrite filter_cons_True by done. done.
  - rewrite filter_cons_False by congruence. done.
Qed.

Lemma filter_strong_nil n l : filter (fun id => defb n id = true) l = [] -> filter (fun id => strongb n id = true) l = [].
Proof.
  intros H. destruct (filter (fun id => strongb n id = true) l) as [|x xs] eqn:E; [done|].
  assert (x ∈ filter (fun id => strongb n id = true) l) as Hx by (rewrite E; left).
  apply elem_of_list_filter in Hx as [H1 H2].
  assert (x ∈ filter (fun id => defb n id = true) l) as Hx.
  { apply elem_of_list_filter. split; [apply strongb_defb; done|done]. }
  rewrite H in Hx. inversion Hx.
Qed.
Lemma pick_none n l : pick n l = None <-> filter (fun id => defb n id = true) l = [].
Proof.
  unfold pick. split.
  - destruct (filter (fun id => strongb n id = true) l); [|done]. destruct (filter _ l); done.
  - intros H. rewrite (filter_strong_nil n l H), H. done.
Qed.

Lemma pick_snoc n l id s : obj_sym pool id n = Some s -> n ∉ gen -> pick n (l ++ [id]) = new_def id n (pick n l) s.
Proof.
  intros Hs Hg. unfold new_def. rewrite (bool_decide_eq_false_2 _ Hg).
  destruct (pick n l) as [p|] eqn:Ep.
  - unfold pick in *. rewrite !filter_snoc.
    assert (strongb n id = negb (is_undef s) && negb (gives_way s)) as -> by (unfold strongb; rewrite Hs; done).
    assert (defb n id = negb (is_undef s)) as -> by (unfold defb; rewrite Hs; done).
    destruct (filter (fun id0 => strongb n id0 = true) l) as [|x xs] eqn:E.
    + destruct (filter (fun id0 => defb n id0 = true) l) as [|y ys] eqn:E'; [done|]. injection Ep as ->.
      assert (strongb n p = false) as ->.
      { destruct (strongb n p) eqn:Es; [|done]. assert (p ∈ filter (fun id => defb n id = true) l) as H by (rewrite E'; left).
        apply elem_of_list_filter in H as [_ H]. assert (p ∈ filter (fun id => strongb n id = true) l) as H'.
        { apply elem_of_list_filter. done. } rewrite E in H'. inversion H'. }
      destruct (is_undef s); cbn [negb andb app]; [done|]. destruct (gives_way s); done.
    + injection Ep as ->. cbn [app].
      assert (strongb n p = true) as ->.
      { assert (p ∈ filter (fun id => strongb n id = true) l) as H by (rewrite E; left). apply elem_of_list_filter in H. apply H. }
      destruct (is_undef s), (gives_way s); done.
  - apply pick_none in Ep. pose proof (filter_strong_nil n l Ep) as Es. unfold pick. rewrite !filter_snoc, Ep, Es. cbn [app].
    assert (strongb n id = negb (is_undef s) && negb (gives_way s)) as -> by (unfold strongb; rewrite Hs; done).
    assert (defb n id = negb (is_undef s)) as -> by (unfold defb; rewrite Hs; done).
    destruct (is_undef s), (gives_way s); done.
Qed.
Lemma pick_other n l id : obj_sym pool id n = None -> pick n (l ++ [id]) = pick n l.
Proof.
  intros Hs. unfold pick. rewrite !filter_snoc.
  assert (strongb n id = false) as -> by (unfold strongb; rewrite Hs; done).
  assert (defb n id = false) as -> by (unfold defb; rewrite Hs; done). rewrite !app_nil_r. done.
Qed.

Lemma dup_spec n l id s : obj_sym pool id n = Some s ->
  let d := if bool_decide (n ∈ gen) then None else pick n l in
  dup n d s = false /\
  (if bool_decide (n ∈ gen) then filter (fun id => defb n id = true) l = [] else (length (filter (fun id => strongb n id = true) l) <= 1)%nat) <->
  (if bool_decide (n ∈ gen) then filter (fun id => defb n id = true) (l ++ [id]) = [] else (length (filter (fun id => strongb n id = true) (l ++ [id])) <= 1)%nat).
Proof.
  intros Hs d. unfold dup, d. rewrite !filter_snoc.
  assert (strongb n id = negb (is_undef s) && negb (gives_way s)) as -> by (unfold strongb; rewrite Hs; done).
  assert (defb n id = negb (is_undef s)) as -> by (unfold defb; rewrite Hs; done).
  destruct (bool_decide (n ∈ gen)).
  - destruct (is_undef s); cbn [negb]; [rewrite app_nil_r; tauto|].
    split; [intros [? ?]; done|]. intros H. apply app_eq_nil in H as [_ ?]. done.
  - destruct (is_undef s); cbn [negb andb]; [rewrite app_nil_r; tauto|].
    destruct (pick n l) as [p|] eqn:Ep.
    + destruct (gives_way s); cbn [negb andb]; [rewrite app_nil_r; tauto|]. rewrite app_length. cbn [length].
      unfold pick in Ep. destruct (filter (fun id0 => strongb n id0 = true) l) as [|x xs] eqn:E.
      * cbn [length]. destruct (strongb n p) eqn:Es; [|split; [lia|intros _; split; [done|lia]]].
        destruct (filter (fun id0 => defb n id0 = true) l) as [|y ys] eqn:E'; [done|]. injection Ep as ->.
        assert (p ∈ filter (fun id => defb n id = true) l) as H by (rewrite E'; left).
        apply elem_of_list_filter in H as [_ H]. assert (p ∈ filter (fun id => strongb n id = true) l) as H'.
        { apply elem_of_list_filter. done. } rewrite E in H'. inversion H'.
      * injection Ep as ->. assert (strongb n p = true) as ->.
        { assert (p ∈ filter (fun id => strongb n id = true) l) as H by (rewrite E; left). apply elem_of_list_filter in H. apply H. }
        cbn [length]. split; [intros [? ?]; done|lia].
    + apply pick_none in Ep. rewrite (filter_strong_nil n l Ep). cbn [app length].
      destruct (gives_way s); cbn; (split; [lia|intros _; split; [done|lia]]).
Qed.

Lemma resolve_obj_inv l st id : inv l st -> is_Some (pool !! id) -> exists st', resolve_obj pool gen id st = Some st' /\ inv (l ++ [id]) st'.
Proof using Hpool.
  intros HI [o Ho]. unfold resolve_obj. rewrite Ho.
  assert (NoDup (o_syms o).*1) as Hn.
  { unfold pool_ok in Hpool. rewrite stdpp.list.Forall_forall in Hpool. apply Hpool. eapply elem_of_list_lookup_2. done. }
  assert (forall n s, (n, s) ∈ o_syms o <-> obj_sym pool id n = Some s) as Hin.
  { intros n s. rewrite obj_sym_in. split; [intros H; exists o; done|intros (o' & E & H)]. congruence. }
  assert (forall n, n ∉ (o_syms o).*1 <-> obj_sym pool id n = None) as Hout.
  { intros n. unfold obj_sym. rewrite Ho. cbn. symmetry. apply find_sym_none. }
  destruct (resolve_syms_spec id (o_syms o) st (inv_backed _ _ HI) Hn ltac:(apply Hin)) as (st' & E & _ & Ho' & Hi & He).
  exists st'. split; [exact E|]. split.
  - intros n. destruct (obj_sym pool id n) as [s|] eqn:Es.
    + destruct (Hi n s) as [Hd _]; [apply Hin; done|]. rewrite Hd, (inv_def _ _ HI). case_bool_decide as Hg.
      * unfold new_def. rewrite (bool_decide_eq_true_2 _ Hg). destruct (is_undef s); done.
      * symmetry. apply pick_snoc; done.
    + destruct (Ho' n) as [Hd _]; [apply Hout; done|]. rewrite Hd, (inv_def _ _ HI), pick_other by done. done.
  - intros n. unfold miss. rewrite !filter_snoc. pose proof (inv_un _ _ HI n) as Hu. unfold miss in Hu.
    rewrite Exists_app. assert (Exists (λ id0, refb n id0 = true) [id] <-> refb n id = true) as ->.
    { split; [intros H; inversion H as [? ? ?|? ? H']; subst; [done|inversion H']|intros H; left; done]. }
    destruct (obj_sym pool id n) as [s|] eqn:Es.
    + destruct (Hi n s) as [_ Hd]; [apply Hin; done|]. rewrite <- (bool_decide_eq_true (n ∈ unresolved st')), Hd, (inv_def _ _ HI).
      assert (defb n id = negb (is_undef s)) as -> by (unfold defb; rewrite Es; done).
      assert (refb n id = is_undef s) as -> by (unfold refb; rewrite Es; done).
      unfold new_un. destruct (decide (n ∈ gen)) as [Hg|Hg]; [rewrite (bool_decide_eq_true_2 (n ∈ gen)) by done|rewrite (bool_decide_eq_false_2 (n ∈ gen)) by done].
      * rewrite bool_decide_eq_true, Hu. tauto.
      * destruct (pick n l) as [p|] eqn:Ep.
        -- rewrite bool_decide_eq_true, Hu. split; [intros (_ & _ & H); apply pick_none in H; congruence|].
           intros (_ & _ & H). apply app_eq_nil in H as [H _]. apply pick_none in H. congruence.
        -- apply pick_none in Ep. rewrite Ep. destruct (is_undef s); cbn [negb app]; intuition (done || congruence).
    + destruct (Ho' n) as [_ Hd]; [apply Hout; done|].
      rewrite <- (bool_decide_eq_true (n ∈ unresolved st')), Hd, bool_decide_eq_true, Hu.
      assert (defb n id = false) as -> by (unfold defb; rewrite Es; done).
      assert (refb n id = false) as -> by (unfold refb; rewrite Es; done). rewrite app_nil_r. intuition congruence.
  - rewrite He, (inv_err _ _ HI). split.
    + intros [H1 H2] n. destruct (obj_sym pool id n) as [s|] eqn:Es.
      * apply (dup_spec n l id s Es). split; [|apply H1]. rewrite <- (inv_def _ _ HI n). apply H2. apply Hin. done.
      * specialize (H1 n). rewrite !filter_snoc. assert (defb n id = false) as -> by (unfold defb; rewrite Es; done).
        assert (strongb n id = false) as -> by (unfold strongb; rewrite Es; done). rewrite !app_nil_r. done.
    + intros H. split.
      * intros n. specialize (H n). destruct (obj_sym pool id n) as [s|] eqn:Es.
        -- apply (dup_spec n l id s Es). done.
        -- rewrite !filter_snoc in H. assert (defb n id = false) as Ed by (unfold defb; rewrite Es; done).
           assert (strongb n id = false) as Et by (unfold strongb; rewrite Es; done). rewrite Ed, Et, !app_nil_r in H. done.
      * intros n s Hs. apply Hin in Hs. rewrite (inv_def _ _ HI n). apply (dup_spec n l id s Hs). apply H.
Qed.

Lemma miss_missing n l : miss n l <-> missing pool gen entry l n.
Proof using Hpool.
  unfold miss, missing, wanted. rewrite Exists_exists. setoid_rewrite refb_spec.
  assert (filter (fun id => defb n id = true) l = [] <-> forall id, id ∈ l -> ~ defines pool id n) as ->; [|done].
  split.
  - intros H id Hid Hd. assert (id ∈ filter (fun id => defb n id = true) l) as Hx.
    { apply elem_of_list_filter. split; [apply defb_spec; done|done]. } rewrite H in Hx. inversion Hx.
  - intros H. destruct (filter (fun id => defb n id = true) l) as [|x xs] eqn:E; [done|].
    assert (x ∈ filter (fun id => defb n id = true) l) as Hx by (rewrite E; left).
    apply elem_of_list_filter in Hx as [H1 H2]. exfalso. apply (H x H2). apply defb_spec. done.
Qed.

(** ** Archives *)
Context (order : nat -> gset name -> list name).
Hypothesis Horder : order_ok order.

Lemma first_in_some ar l m : first_in ar l = Some m -> exists n, n ∈ l /\ ar !! n = Some m.
Proof.
  unfold first_in. induction l as [|n l IH]; [done|]. cbn [omap list_omap]. destruct (ar !! n) as [k|] eqn:E.
  - cbn. intros [= ->]. exists n. split; [left|done].
  - intros H. destruct (IH H) as (n' & ? & ?). exists n'. split; [right; done|done].
Qed.
Lemma first_in_none ar l : first_in ar l = None -> forall n, n ∈ l -> ar !! n = None.
Proof.
  unfold first_in. induction l as [|n l IH]; intros H n' Hn'; [inversion Hn'|]. cbn [omap list_omap] in H.
  destruct (ar !! n) as [k|] eqn:E; [done|]. apply elem_of_cons in Hn' as [->|Hn']; [done|]. apply IH; done.
Qed.

Lemma members_spec ar m : m ∈ members ar <-> exists n, ar !! n = Some m.
Proof.
  unfold members. rewrite elem_of_list_to_set, elem_of_list_fmap. split.
  - intros ([n m'] & -> & H). apply elem_of_map_to_list in H. exists n. done.
  - intros [n H]. exists (n, m). split; [done|]. apply elem_of_map_to_list. done.
Qed.

Lemma resolve_archive_inv ar fuel x : index_ok pool ar -> inv (loaded x) (tables x) -> NoDup (loaded x) ->
  (size (members ar ∖ list_to_set (loaded x)) < fuel)%nat ->
  exists x', resolve_archive pool gen order ar fuel x = Done x' /\ inv (loaded x') (tables x') /\ NoDup (loaded x') /\
    pulled pool gen entry ar (loaded x) (loaded x') /\ (forall n, missing pool gen entry (loaded x') n -> ar !! n = None).
Proof using Hpool Horder Hentry.
  intros Hix. revert x. induction fuel as [|fuel IH]; intros x HI HN Hf; [lia|]. cbn [resolve_archive].
  destruct (first_in ar _) as [m|] eqn:E.
  - apply first_in_some in E as (n & Hn & Hm). rewrite (Horder _ _) in Hn. apply elem_of_elements in Hn.
    apply (inv_un _ _ HI) in Hn. apply miss_missing in Hn.
    assert (m ∉ loaded x) as Hml.
    { intros H. destruct Hn as (_ & _ & Hn). apply (Hn m H). apply Hix. done. }
    assert (is_Some (pool !! m)) as Hpm. { destruct (Hix n m Hm) as (o & s & Ho & _). exists o. done. }
    destruct (resolve_obj_inv _ _ m HI Hpm) as (st & -> & HI').
    assert (load m (loaded x) = loaded x ++ [m]) as -> by (unfold load; rewrite decide_False by done; done).
    destruct (IH (L st (loaded x ++ [m]) (S (rounds x)))) as (x' & E' & H1 & H2 & H3 & H4); cbn [loaded tables].
    + exact HI'.
    + apply stdpp.list.NoDup_app. split; [done|]. split; [|apply NoDup_singleton]. intros y Hy Hy'. apply elem_of_list_singleton in Hy'. subst. done.
    + assert (m ∈ members ar ∖ list_to_set (loaded x)) as Hin.
      { apply elem_of_difference. split; [apply members_spec; exists n; done|]. rewrite elem_of_list_to_set. done. }
      assert (members ar ∖ list_to_set (loaded x ++ [m]) ⊂ members ar ∖ list_to_set (loaded x)) as Hs.
      { rewrite list_to_set_app_L. cbn. set_solver. }
      apply subset_size in Hs. lia.
    + exists x'. split; [exact E'|]. split; [done|]. split; [done|]. split; [|done].
      cbn [loaded] in H3. clear - H3 Hm Hn. remember (loaded x ++ [m]) as b eqn:Eb. induction H3 as [|l k Hl IHl Hk].
      * subst b. apply pulled_one; [apply pulled_none|]. exists n. done.
      * apply pulled_one; done.
  - eexists. split; [done|]. cbn [loaded tables]. split; [done|]. split; [done|]. split; [apply pulled_none|].
    intros n Hn. apply (first_in_none _ _ E). rewrite (Horder _ _). apply elem_of_elements.
    apply (inv_un _ _ HI). apply miss_missing. done.
Qed.

Lemma pulled_ids ar l l' id : pulled pool gen entry ar l l' -> id ∈ l' -> id ∈ l \/ exists n, ar !! n = Some id.
Proof.
  induction 1 as [|l' m H IH (n & Hn & _)]; [tauto|]. rewrite elem_of_app, elem_of_list_singleton. intros [Hi| ->]; [tauto|].
  right. exists n. done.
Qed.

Lemma resolve_files_inv fuel fs x :
  files_ok pool fs -> enough fs fuel -> inv (loaded x) (tables x) -> NoDup (loaded x) ->
  (forall f id, f ∈ fs -> ids f id -> id ∉ loaded x) ->
  exists x', resolve_files pool gen order fuel fs x = Done x' /\ inv (loaded x') (tables x') /\ NoDup (loaded x') /\
    gathers pool gen entry (loaded x) fs (loaded x').
Proof using Hpool Horder Hentry.
  revert x. induction fs as [|f fs IH]; intros x [Hd Hp] Hf HI HN Hfr; cbn [resolve_files].
  { exists x. split; [done|]. split; [done|]. split; [done|]. apply g_nil. }
  apply stdpp.list.Forall_cons in Hp as [Hp1 Hp]. apply stdpp.list.Forall_cons in Hf as [Hf1 Hf].
  assert (files_ok pool fs) as Hok.
  { split; [|done]. intros i j f' g' id Hi Hj H1 H2. assert (S i = S j); [|lia]. apply (Hd (S i) (S j) f' g' id); done. }
  assert (forall f' id, f' ∈ fs -> ids f' id -> ids f id -> False) as Hsep.
  { intros f' id Hin H1 H2. apply elem_of_list_lookup in Hin as [i Hi].
    assert (0 = S i)%nat; [|lia]. apply (Hd 0%nat (S i) f f' id); done. }
  destruct f as [id|ar].
  - destruct (resolve_obj_inv _ _ id HI Hp1) as (st & -> & HI').
    destruct (IH (L st (loaded x ++ [id]) (rounds x))) as (x' & E & H1 & H2 & H3); cbn [loaded tables].
    + done.
    + done.
    + exact HI'.
    + apply stdpp.list.NoDup_app. split; [done|]. split; [|apply NoDup_singleton].
      intros y Hy Hy'. apply elem_of_list_singleton in Hy'. subst. apply (Hfr (FObj id) id); [left|done|done].
    + intros f' i Hin Hi. rewrite elem_of_app, elem_of_list_singleton. intros [H| ->].
      * apply (Hfr f' i); [right; done|done|done].
      * apply (Hsep f' id); done.
    + exists x'. split; [exact E|]. split; [done|]. split; [done|]. apply g_obj. done.
  - destruct (resolve_archive_inv ar fuel x Hp1 HI HN) as (x1 & -> & HI1 & HN1 & Hpu & Hno).
    { assert (members ar ∖ list_to_set (loaded x) ⊆ members ar) as Hs by set_solver. apply subseteq_size in Hs. lia. }
    destruct (IH x1 Hok Hf HI1 HN1) as (x' & E & H1 & H2 & H3).
    + intros f' i Hin Hi Hl. destruct (pulled_ids _ _ _ _ Hpu Hl) as [Hl'|Hl'].
      * apply (Hfr f' i); [right; done|done|done].
      * apply (Hsep f' i); done.
    + exists x'. split; [exact E|]. split; [done|]. split; [done|]. apply (g_ar _ _ _ _ _ (loaded x1)); done.
Qed.

Lemma inv_no_clash l st : NoDup l -> inv l st -> errors st = 0%nat <-> no_clash pool gen l.
Proof using Hpool.
  intros HN HI. rewrite (inv_err _ _ HI). unfold no_clash. split.
  - intros H. split.
    + intros n i j Hi Hj Si Sj. specialize (H n). case_bool_decide as Hg.
      * exfalso. assert (i ∈ filter (fun id => defb n id = true) l) as Hx.
        { apply elem_of_list_filter. split; [apply strongb_defb, strongb_spec; done|done]. } rewrite H in Hx. inversion Hx.
      * assert (i ∈ filter (fun id => strongb n id = true) l) as Hx by (apply elem_of_list_filter; split; [apply strongb_spec; done|done]).
        assert (j ∈ filter (fun id => strongb n id = true) l) as Hy by (apply elem_of_list_filter; split; [apply strongb_spec; done|done]).
        destruct (filter _ l) as [|a [|b t]]; cbn in H; [inversion Hx| |lia].
        apply elem_of_list_singleton in Hx, Hy. congruence.
    + intros n i Hi Hg Hd. specialize (H n). rewrite (bool_decide_eq_true_2 _ Hg) in H.
      assert (i ∈ filter (fun id => defb n id = true) l) as Hx by (apply elem_of_list_filter; split; [apply defb_spec; done|done]).
      rewrite H in Hx. inversion Hx.
  - intros [H1 H2] n. case_bool_decide as Hg.
    + destruct (filter (fun id => defb n id = true) l) as [|x xs] eqn:E; [done|].
      assert (x ∈ filter (fun id => defb n id = true) l) as Hx by (rewrite E; left).
      apply elem_of_list_filter in Hx as [? ?]. exfalso. apply (H2 n x); [done|done|apply defb_spec; done].
    + destruct (filter (fun id => strongb n id = true) l) as [|a [|b t]] eqn:E; cbn; [lia|lia|].
      exfalso. assert (NoDup (filter (fun id => strongb n id = true) l)) as Hnd by (apply NoDup_filter; done).
      assert (a ∈ filter (fun id => strongb n id = true) l) as Ha by (rewrite E; left).
      assert (b ∈ filter (fun id => strongb n id = true) l) as Hb by (rewrite E; right; left).
      apply elem_of_list_filter in Ha as [? ?]. apply elem_of_list_filter in Hb as [? ?].
      assert (a = b) as ->. { apply (H1 n); [done|done|apply strongb_spec; done|apply strongb_spec; done]. }
      rewrite E in Hnd. apply stdpp.list.NoDup_cons in Hnd as [Hnd _]. apply Hnd. left.
Qed.

Lemma pick_binds n l id : pick n l = Some id -> binds_to pool l n id.
Proof using Hpool.
  intros H. destruct (pick_in _ _ _ H) as [H1 H2]. split; [done|]. split; [apply defb_spec; done|].
  unfold pick in H. destruct (filter (fun id => strongb n id = true) l) as [|x xs] eqn:E.
  - split.
    + intros j Hj Sj. exfalso. assert (j ∈ filter (fun id => strongb n id = true) l) as Hx by (apply elem_of_list_filter; split; [apply strongb_spec; done|done]).
      rewrite E in Hx. inversion Hx.
    + intros _. clear -H Hpool. induction l as [|y l IH]; [done|]. destruct (defb n y) eqn:Ey.
      * rewrite filter_cons_True in H by done. injection H as ->. exists [], l. split; [done|]. intros j Hj. inversion Hj.
      * rewrite filter_cons_False in H by congruence. destruct (IH H) as (l1 & l2 & -> & Hl).
        exists (y :: l1), l2. split; [done|]. intros j Hj. apply elem_of_cons in Hj as [->|Hj]; [|apply Hl; done].
        rewrite <- defb_spec. congruence.
  - injection H as ->. assert (strongb n id = true) as Hs.
    { assert (id ∈ filter (fun id => strongb n id = true) l) as Hx by (rewrite E; left). apply elem_of_list_filter in Hx. apply Hx. }
    apply strongb_spec in Hs. split; [done|]. intros. done.
Qed.
End pool.

(** ** The whole *)
Lemma link_ok pool gen order fuel entry fs :
  pool_ok pool -> entry ∉ gen -> order_ok order -> files_ok pool fs -> enough fs fuel ->
  exists x, link pool gen order fuel entry fs = Done x /\ inv pool gen entry (loaded x) (tables x) /\ NoDup (loaded x) /\
    gathers pool gen entry [] fs (loaded x).
Proof.
  intros Hp He Ho Hf Hfu.
  apply (resolve_files_inv pool gen Hp entry He order Ho fuel fs (L (State ∅ {[entry]} 0) [] 0)); cbn [loaded tables].
  - done.
  - done.
  - apply inv_start. done.
  - apply NoDup_nil_2.
  - intros f id _ _ H. inversion H.
Qed.

Lemma binding pool gen order fuel entry fs gaddr addr x id n :
  pool_ok pool -> entry ∉ gen -> order_ok order -> files_ok pool fs -> enough fs fuel ->
  link pool gen order fuel entry fs = Done x -> accepted x ->
  n = entry \/ (id ∈ loaded x /\ refers pool id n) ->
  (n ∈ gen /\ (forall j, j ∈ loaded x -> ~ defines pool j n) /\ symbol_address pool gaddr addr x n = Some (gaddr !! n)) \/
  (n ∉ gen /\ exists d s, binds_to pool (loaded x) n d /\ obj_sym pool d n = Some s /\
     symbol_address pool gaddr addr x n = match s_shndx s with
       | Undef => None
       | Sec k => Some (Some ((addr d k + s_value s) mod 2 ^ 64)%Z)
       | Common => match pool !! d ≫= o_nobit with Some k => Some (Some ((addr d k + s_value s) mod 2 ^ 64)%Z) | None => Some None end
       end /\ s_shndx s <> Undef).
Proof.
  intros Hp He Ho Hf Hfu Hl [Ha1 Ha2] Hn.
  destruct (link_ok pool gen order fuel entry fs Hp He Ho Hf Hfu) as (x' & E & HI & HN & _).
  rewrite Hl in E. injection E as <-. pose proof (proj1 (inv_no_clash pool gen Hp entry _ _ HN HI) Ha1) as [_ Hg].
  unfold symbol_address. rewrite (inv_def _ _ _ _ _ HI). destruct (decide (n ∈ gen)) as [Hin|Hin].
  - left. rewrite bool_decide_eq_true_2 by done. split; [done|]. split; [|done]. intros j Hj. apply Hg; done.
  - right. rewrite bool_decide_eq_false_2 by done. split; [done|].
    destruct (pick pool n (loaded x)) as [d|] eqn:Ep.
    + destruct (pick_in _ _ _ _ Ep) as [_ Hd]. apply (pick_binds pool Hp) in Ep.
      unfold defb in Hd. destruct (obj_sym pool d n) as [s|] eqn:Es; [|done]. exists d, s. rewrite Es. split; [done|]. split; [done|].
      unfold is_undef in Hd. destruct (s_shndx s); done.
    + exfalso. apply pick_none in Ep. assert (n ∈ unresolved (tables x)) as Hu; [|rewrite Ha2 in Hu; set_solver].
      apply (inv_un _ _ _ _ _ HI). split; [|done]. destruct Hn as [->|[Hid Hr]]; [left; done|].
      right. apply Exists_exists. exists id. split; [done|]. apply refb_spec; done.
Qed.

Lemma binds_unique pool gen l l' n i j s :
  (forall k, k ∈ l <-> k ∈ l') -> no_clash pool gen l -> binds_to pool l n i -> binds_to pool l' n j ->
  s ∈ l -> strong pool s n -> i = s /\ j = s.
Proof.
  intros Hll [Hc _] (Hi & _ & Hsi & _) (Hj & _ & Hsj & _) Hs Hss. split; apply (Hc n); try done.
  - apply (Hsi s); done.
  - apply Hll. done.
  - apply (Hsj s); [apply Hll; done|done].
Qed.

Lemma rela_global pool gen order fuel entry fs gaddr addr x id idx b section n s addend :
  pool_ok pool -> entry ∉ gen -> order_ok order -> files_ok pool fs -> enough fs fuel ->
  link pool gen order fuel entry fs = Done x -> accepted x ->
  id ∈ loaded x -> refers pool id n -> b = BGlobal \/ b = BWeak ->
  (exists d t k, binds_to pool (loaded x) n d /\ obj_sym pool d n = Some t /\ s_shndx t = Sec k /\ n ∉ gen /\
     rela_sym_address pool gaddr addr x id idx b section n s addend = Some ((addr d k + s_value t + addend) mod 2 ^ 64)%Z) \/
  (n ∈ gen /\ rela_sym_address pool gaddr addr x id idx b section n s addend = (fun a => (a + addend) mod 2 ^ 64)%Z <$> gaddr !! n) \/
  (exists d t, binds_to pool (loaded x) n d /\ obj_sym pool d n = Some t /\ s_shndx t = Common).
Proof.
  intros Hp He Ho Hf Hfu Hl Ha Hid Hr Hb.
  destruct (binding pool gen order fuel entry fs gaddr addr x id n Hp He Ho Hf Hfu Hl Ha (or_intror (conj Hid Hr)))
    as [(Hg & _ & E)|(Hg & d & t & Hbt & Hs & E & Hu)].
  - right. left. split; [done|]. unfold rela_sym_address. rewrite E. destruct Hb as [-> | ->]; destruct (gaddr !! n); done.
  - destruct (s_shndx t) as [| |k] eqn:Et; [done|right; right; exists d, t; done|].
    left. exists d, t, k. split; [done|]. split; [done|]. split; [done|]. split; [done|].
    unfold rela_sym_address. rewrite E. destruct Hb as [-> | ->]; rewrite Zplus_mod_idemp_l; done.
Qed.
