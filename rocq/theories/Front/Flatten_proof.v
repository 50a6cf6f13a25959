(** The search for the next subobject. *)
From stdpp Require Import base list numbers.
From Verif Require Import Front.Static_model Front.Flatten_model Front.Flatten_spec.
Local Open Scope Z_scope.

Lemma fty_ind' (P : fty -> Prop) :
  (forall w, P (FChar w)) -> (forall f, P (FScalar f)) -> (forall t len, P t -> P (FArr t len)) ->
  (forall u ms, Forall (fun m => P (snd m)) ms -> P (FStruct u ms)) -> forall t, P t.
Proof.
  intros H1 H2 H3 H4. fix IH 1. intros [w|f|t len|u ms]; [apply H1|apply H2|apply H3, IH|].
  apply H4. induction ms as [|[m t] ms IHm]; constructor; [apply IH|apply IHm].
Qed.

Lemma child_part t i t' : child t i = Some t' <-> part t i t'.
Proof.
  unfold child, part. destruct (Z.ltb_spec i 0) as [H|H].
  - split; [done|]. lia.
  - destruct t as [w|f|t len|u ms]; try (split; [done|tauto]).
    + destruct len as [n|].
      * destruct (Z.ltb_spec i (Z.of_nat n)); split; try done; [intros [= ->]; auto|intros (_ & -> & _); done|intros (_ & _ & ?); lia].
      * split; [intros [= ->]; auto|intros (_ & -> & _); done].
    + split.
      * intros E. split; [done|]. destruct (ms !! Z.to_nat i) as [[m t0]|] eqn:El; [|done]. cbn in E. injection E as <-. eauto.
      * intros (_ & m & El). rewrite El. done.
Qed.
Lemma type_at_sub p : forall t t', type_at t p = Some t' <-> sub t p t'.
Proof.
  induction p as [|i p IH]; intros t t'; cbn.
  - split; [intros [= ->]; constructor|intros H; inversion H; done].
  - split.
    + destruct (child t i) as [t0|] eqn:E; [|done]. intros H. econstructor; [by apply child_part|by apply IH].
    + intros H. inversion H as [|? ? ? ? ? Hp Hs]; subst. apply child_part in Hp. rewrite Hp. by apply IH.
Qed.
Lemma sub_app t p q t' : sub t (p ++ q) t' <-> exists t0, sub t p t0 /\ sub t0 q t'.
Proof.
  revert t. induction p as [|i p IH]; intros t; cbn.
  - split; [intros H; exists t; split; [constructor|done]|intros (t0 & H & H'); inversion H; subst; done].
  - split.
    + intros H. inversion H as [|? ? t1 ? ? Hp Hs]; subst. apply IH in Hs as (t0 & H1 & H2). exists t0. split; [|done]. econstructor; eauto.
    + intros (t0 & H1 & H2). inversion H1 as [|? ? t1 ? ? Hp Hs]; subst. econstructor; [done|]. apply IH. eauto.
Qed.
Lemma sub_fun t p t1 t2 : sub t p t1 -> sub t p t2 -> t1 = t2.
Proof. intros H1 H2. apply type_at_sub in H1, H2. congruence. Qed.
Lemma turns_sub t p t' : turns t p t' -> sub t p t'.
Proof. induction 1 as [|t i t' p t'' [H _] _ IH]; econstructor; eauto. Qed.
Lemma after_sub t p q t' : after t p q t' -> sub t q t'.
Proof. intros (c & i & s & j & s' & t0 & -> & -> & _ & H & H'). apply sub_app. exists t0. split; [done|]. by apply turns_sub. Qed.
Lemma sub_nonneg t p t' : sub t p t' -> Forall (fun i => 0 <= i) p.
Proof. induction 1 as [|t i t' p t'' [H _] _ IH]; constructor; auto. Qed.

(** ** Members in turn *)
Definition okm (m : fmem * fty) : Prop := ok (snd m) /\ (fst m = Plain \/ fst m = Unnamed 0).
Lemma ok_struct u ms : ok (FStruct u ms) -> Forall okm ms /\ (u = true -> exists t ms', ms = (Plain, t) :: ms').
Proof.
  cbn. intros [H Hu]. split; [|done]. clear Hu. induction ms as [|[m t] ms IH]; constructor; cbn in H; [apply H|apply IH, H].
Qed.
Lemma ok_part t i t' : ok t -> part t i t' -> ok t'.
Proof.
  intros H [_ Hp]. destruct t as [w|f|t len|u ms]; try done.
  - destruct Hp as [-> _]. destruct len; [done|apply H].
  - apply ok_struct in H as [H _]. destruct Hp as (m & E). apply (Forall_lookup_1 _ _ _ _ H E).
Qed.
Lemma ok_sub t p t' : ok t -> sub t p t' -> ok t'.
Proof. intros H Hs. induction Hs; eauto using ok_part. Qed.

Lemma member_from_spec ms i : Forall okm ms ->
  match member_from ms i with
  | Some (j, t) => exists k, j = i + Z.of_nat k /\ ms !! k = Some (Plain, t) /\ forall k' m, (k' < k)%nat -> ms !! k' = Some m -> fst m <> Plain
  | None => forall k m, ms !! k = Some m -> fst m <> Plain
  end.
Proof.
  intros H. revert i. induction H as [|[m t] ms [Ho Hm] H IH]; intros i; cbn; [intros k m; by rewrite lookup_nil|].
  cbn in Hm. destruct Hm as [-> | ->].
  - exists O. split; [lia|]. split; [done|]. lia.
  - specialize (IH (i + 1)). destruct (member_from ms (i + 1)) as [[j t']|].
    + destruct IH as (k & -> & E & Hk). exists (S k). split; [lia|]. split; [done|].
      intros [|k'] m Hk' Em; [by injection Em as <-|]. apply (Hk k' m); [lia|done].
    + intros [|k] m E; [by injection E as <-|]. eauto.
Qed.

(** What [place_at] finds. *)
Lemma place_at_spec t i : ok t -> is_multi t = true -> 0 <= i ->
  match place_at t i with
  | Here j t' => i <= j /\ turn t j t' /\ forall k t'', i <= k < j -> ~ turn t k t''
  | Up => forall k t'', i <= k -> ~ turn t k t''
  | Bad => False
  end.
Proof.
  intros Ho Hm Hi. destruct t as [w|f|t len|u ms]; try done; cbn.
  - destruct len as [n|].
    + destruct (Z.ltb_spec i (Z.of_nat n)).
      * split; [lia|]. split; [|lia]. repeat split; done.
      * intros k t'' Hk [(_ & _ & ?) _]. lia.
    + split; [lia|]. split; [|lia]. repeat split; done.
  - apply ok_struct in Ho as [Ho Hu]. destruct u; cbn.
    + destruct (Hu eq_refl) as (t0 & ms' & ->). rewrite bool_decide_eq_false_2 by done. rewrite andb_false_r.
      destruct (Z.to_nat i) as [|i'] eqn:Ei; cbn.
      * assert (i = 0) as -> by lia. split; [lia|]. split; [|lia].
        split; [split; [lia|by exists Plain]|]. split; [done|]. intros _ j m Hj. lia.
      * replace (drop i' (take 0 ms')) with (@nil (fmem * fty)) by (by destruct i', ms'). cbn. intros k t'' Hk [_ [_ Hlt]]. apply (Hlt eq_refl O (Plain, t0)); [lia|done|done].
    + assert (H := member_from_spec (drop (Z.to_nat i) ms) i (Forall_drop _ _ _ Ho)).
      destruct (member_from (drop (Z.to_nat i) ms) i) as [[j t']|].
      * destruct H as (k & -> & E & Hk). rewrite lookup_drop in E. split; [lia|].
        replace (Z.to_nat i + k)%nat with (Z.to_nat (i + Z.of_nat k)) in E by lia.
        split; [split; [split; [lia|eauto]|done]|].
        intros k' t'' Hk' [_ [E' _]]. apply (Hk (Z.to_nat k' - Z.to_nat i)%nat (Plain, t'')); [lia| |done].
        rewrite lookup_drop. by replace (Z.to_nat i + (Z.to_nat k' - Z.to_nat i))%nat with (Z.to_nat k') by lia.
      * intros k t'' Hk [_ [E' _]]. apply (H (Z.to_nat k - Z.to_nat i)%nat (Plain, t'')); [|done].
        rewrite lookup_drop. by replace (Z.to_nat i + (Z.to_nat k - Z.to_nat i))%nat with (Z.to_nat k) by lia.
Qed.

(** ** The search *)
Lemma turn_fun t i t1 t2 : turn t i t1 -> turn t i t2 -> t1 = t2.
Proof. intros [H1 _] [H2 _]. apply child_part in H1, H2. congruence. Qed.
Lemma snoc_split {A} (u : list A) x c i s : u ++ [x] = c ++ i :: s -> (u = c /\ x = i /\ s = []) \/ exists s', s = s' ++ [x] /\ u = c ++ i :: s'.
Proof.
  intros E. destruct s as [|y s] using rev_ind.
  - left. apply app_inj_tail in E as [-> ->]. done.
  - right. clear IHs. rewrite app_comm_cons, app_assoc in E. apply app_inj_tail in E as [-> <-]. eauto.
Qed.

Lemma after_up root u t0 i q t' : sub root u t0 -> (forall k t'', i <= k -> ~ turn t0 k t'') ->
  after root (u ++ [i - 1]) q t' <-> after root u q t'.
Proof.
  intros Hs Hn. split.
  - intros (c & k & s & j & s' & t1 & E & -> & Hlt & Hc & Ht). apply snoc_split in E as [(<- & <- & ->)|(s1 & -> & ->)].
    + rewrite (sub_fun _ _ _ _ Hc Hs) in Ht. inversion Ht; subst. exfalso. eapply Hn; [|done]. lia.
    + exists c, k, s1, j, s', t1. done.
  - intros (c & k & s & j & s' & t1 & -> & -> & Hlt & Hc & Ht). exists c, k, (s ++ [i - 1]), j, s', t1. by rewrite <- app_assoc.
Qed.
Lemma after_here root u t0 i i' t1 q t' : sub root u t0 -> i <= i' -> turn t0 i' t1 -> (forall k t'', i <= k < i' -> ~ turn t0 k t'') ->
  after root (u ++ [i - 1]) q t' <-> (q = u ++ [i'] /\ t' = t1) \/ after root ((u ++ [i']) ++ [-1]) q t'.
Proof.
  intros Hs Hle Ht1 Hn. split.
  - intros (c & k & s & j & s' & t2 & E & -> & Hlt & Hc & Ht). apply snoc_split in E as [(<- & <- & ->)|(s1 & -> & ->)].
    + rewrite (sub_fun _ _ _ _ Hc Hs) in Ht. inversion Ht as [|? ? t3 ? ? Hj Hr]; subst.
      assert (i' <= j) by (destruct (decide (i' <= j)); [done|exfalso; eapply (Hn j); [lia|done]]).
      destruct (decide (j = i')) as [->|Hne].
      * rewrite (turn_fun _ _ _ _ Hj Ht1) in Hr. destruct s' as [|a s'].
        -- left. inversion Hr; done.
        -- right. exists (u ++ [i']), (-1), [], a, s', t1.
           assert (turn t1 a (match child t1 a with Some x => x | None => t1 end)) as [[Ha _] _].
           { inversion Hr as [|? ? t4 ? ? H4 _]; subst. destruct H4 as [H4 H4']. assert (H5 := H4). apply child_part in H5. rewrite H5. done. }
           repeat split; [by rewrite <- app_assoc|lia| |done]. apply sub_app. exists t0. split; [done|]. econstructor; [apply Ht1|constructor].
      * right. exists u, i', [-1], j, s', t0. repeat split; [by rewrite <- app_assoc|lia|done|done].
    + right. exists c, k, (s1 ++ [i'; -1]), j, s', t2. rewrite <- !app_assoc. done.
  - intros [[-> ->]|(c & k & s & j & s' & t2 & E & -> & Hlt & Hc & Ht)].
    + exists u, (i - 1), [], i', [], t0. repeat split; [lia|done|]. econstructor; [done|constructor].
    + apply snoc_split in E as [(<- & <- & ->)|(s1 & -> & E)].
      * apply sub_app in Hc as (t3 & H3 & H4). rewrite (sub_fun _ _ _ _ H3 Hs) in H4. inversion H4 as [|? ? t4 ? ? H5 H6]; subst. inversion H6; subst.
        exists u, (i - 1), [], i', (j :: s'), t0. rewrite <- app_assoc. repeat split; [lia|done|].
        econstructor; [done|]. destruct Ht1 as [H7 _]. apply child_part in H5, H7. assert (t2 = t1) as -> by congruence. done.
      * apply snoc_split in E as [(<- & <- & ->)|(s2 & -> & ->)].
        -- exists u, (i - 1), [], j, s', t0. repeat split; [lia|done|]. by rewrite <- (sub_fun _ _ _ _ Hc Hs).
        -- exists c, k, (s2 ++ [i - 1]), j, s', t2. by rewrite <- !app_assoc.
Qed.
Lemma after_later root p q t' : after root (p ++ [-1]) q t' -> earlier p q.
Proof.
  intros (c & k & s & j & s' & t2 & E & -> & Hlt & Hc & Ht). apply snoc_split in E as [(<- & <- & ->)|(s1 & -> & ->)].
  - left. eauto.
  - right. exists c, k, s1, j, s'. done.
Qed.

Section search.
  Context (obj : iexpr -> option fty) (same : fty -> fty -> bool).

  Lemma stops_takes t r : stops obj same t r = true <-> takes obj same t r.
  Proof.
    unfold stops, takes, whole. destruct t as [w|f|t len|u ms]; cbn; destruct r as [e|l]; try (destruct e; split; done); try (split; done).
    - destruct e; cbn; try (destruct t; (destruct (obj _) as [t'|] eqn:E; cbn; [split; [eauto|intros (? & [= ->] & ?); done]|split; [done|intros (? & ? & ?); done]])).
      destruct t; cbn; try done. rewrite orb_true_iff. destruct wide, wide0; cbn; intuition congruence.
    - destruct e; cbn; try (destruct (obj _) as [t'|] eqn:E; cbn; [split; [eauto|intros (? & [= ->] & ?); done]|split; [done|intros (? & ? & ?); done]]).
      done.
  Qed.

  Lemma search_spec root r (Hok : ok root) n : forall i up t0, sub root (reverse up) t0 -> is_multi t0 = true -> 0 <= i ->
    match search obj same n root (i :: up) r with
    | Done (q, t') => next obj same root (reverse up ++ [i - 1]) r (reverse q) t'
    | Rejected => forall q t', after root (reverse up ++ [i - 1]) q t' -> ~ takes obj same t' r
    | NoFuel => True
    | _ => False
    end.
  Proof.
    induction n as [|n IH]; intros i up t0 Hs Hm Hi; [done|]. cbn [search].
    assert (Ht := Hs). apply type_at_sub in Ht. rewrite Ht.
    assert (Hok0 := ok_sub _ _ _ Hok Hs). assert (Hp := place_at_spec t0 i Hok0 Hm Hi).
    destruct (place_at t0 i) as [|i' t'|]; [| |done].
    - assert (Ha := fun q t' => after_up root (reverse up) t0 i q t' Hs Hp). destruct up as [|j up].
      + intros q t' H. apply Ha in H as (c & k & s & j & s' & t2 & E & _). by destruct c.
      + assert (exists t1, sub root (reverse up) t1 /\ part t1 j t0) as (t1 & Hs1 & Hp1).
        { rewrite reverse_cons in Hs. apply sub_app in Hs as (t1 & H1 & H2). exists t1. split; [done|]. inversion H2 as [|? ? ? ? ? H3 H4]; subst. inversion H4; subst. done. }
        assert (is_multi t1 = true) as Hm1 by (destruct Hp1 as [_ ?]; by destruct t1).
        specialize (IH (j + 1) up t1 Hs1 Hm1 ltac:(destruct Hp1; lia)). replace (j + 1 - 1) with j in IH by lia.
        destruct (search obj same n root (j + 1 :: up) r) as [[q t']| | | |]; try done.
        * destruct IH as (H1 & H2 & H3). rewrite <- reverse_cons in H1. split; [by apply Ha|]. split; [done|].
          intros q' t2 H. apply Ha in H. apply H3. by rewrite <- reverse_cons.
        * intros q t' H. apply (IH q t'). rewrite <- reverse_cons. by apply Ha.
    - destruct Hp as (Hle & Htu & Hn). assert (Ha := fun q t2 => after_here root (reverse up) t0 i i' t' q t2 Hs Hle Htu Hn).
      destruct (stops obj same t' r) eqn:Es.
      + apply stops_takes in Es. rewrite reverse_cons. split; [apply Ha; auto|]. split; [done|].
        intros q' t2 H _. apply Ha in H as [[-> _]|H]; [auto|]. right. by apply after_later in H.
      + assert (~ takes obj same t' r) as Ht' by (rewrite <- stops_takes; congruence).
        assert (is_multi t' = true) as Hm' by (unfold stops in Es; by destruct (is_multi t')).
        assert (sub root (reverse (i' :: up)) t') as Hs'.
        { rewrite reverse_cons. apply sub_app. exists t0. split; [done|]. econstructor; [apply Htu|constructor]. }
        specialize (IH 0 (i' :: up) t' Hs' Hm' ltac:(lia)). rewrite reverse_cons in IH. change (0 - 1) with (-1) in IH.
        destruct (search obj same n root (0 :: i' :: up) r) as [[q t2]| | | |]; try done.
        * destruct IH as (H1 & H2 & H3). split; [apply Ha; auto|]. split; [done|].
          intros q' t3 H H4. apply Ha in H as [[-> ->]|H]; [done|]. eauto.
        * intros q t2 H. apply Ha in H as [[-> ->]|H]; eauto.
  Qed.

  Lemma search_le root r n m path : (n <= m)%nat -> search obj same n root path r <> NoFuel -> search obj same m root path r = search obj same n root path r.
  Proof.
    revert m path. induction n as [|n IH]; intros m path Hle; [done|]. destruct m as [|m]; [lia|]. cbn [search].
    destruct path as [|i up]; [done|]. destruct (type_at root (reverse up)) as [t|]; [|done].
    destruct (place_at t i) as [|i' t'|]; [|destruct (stops _ _ _ _); [done|]|done].
    - destruct up as [|j up]; [done|]. apply IH. lia.
    - apply IH. lia.
  Qed.
End search.
