(** The search for the next subobject ends. *)
From stdpp Require Import base list numbers.
From Verif Require Import Front.Static_model Front.Flatten_model Front.Flatten_spec Front.Flatten_proof.
Local Open Scope Z_scope.

Section term.
  Context (obj : iexpr -> option fty) (same : fty -> fty -> bool) (root : fty) (r : raw) (Hok : ok root).

  Definition found (n : nat) (path : list Z) : Prop := exists res, forall f, search obj same (n + f) root path r = Done res.
  Definition leaves (n : nat) (i : Z) (up : list Z) : Prop :=
    forall f, search obj same (n + f) root (i :: up) r = match up with [] => Rejected | j :: up => search obj same f root (j + 1 :: up) r end.

  Definition claim (t : fty) : Prop := forall up, sub root (reverse up) t -> is_multi t = true ->
    exists n, found n (0 :: up) \/ (leaves n 0 up /\ ~ holds t).

  Definition bound (t : fty) : Z :=
    match t with FArr _ (Some n) => Z.of_nat n | FStruct _ ms => Z.of_nat (length ms) | _ => 0 end.
  Lemma turn_bound t i t' : turn t i t' -> (forall t0, t <> FArr t0 None) -> i < bound t.
  Proof.
    intros [[Hi Hp] _] Hn. destruct t as [w|f|t len|u ms]; try done; cbn.
    - destruct len as [n|]; [apply Hp|]. by destruct (Hn t).
    - destruct Hp as (m & E). apply lookup_lt_Some in E. lia.
  Qed.

  (** One place: it stops there, or everything in it is passed. *)
  Lemma one_place t up i i' t' : sub root (reverse up) t -> claim t' -> place_at t i = Here i' t' -> turn t i' t' ->
    exists n, found n (i :: up) \/ ((forall f, search obj same (n + f) root (i :: up) r = search obj same f root (i' + 1 :: up) r) /\ ~ holds t').
  Proof.
    intros Hs Hc Hp Ht. assert (Hty := Hs). apply type_at_sub in Hty.
    destruct (stops obj same t' r) eqn:Es.
    - exists 1%nat. left. exists (i' :: up, t'). intros f. cbn [Nat.add search]. rewrite Hty, Hp, Es. done.
    - assert (is_multi t' = true) as Hm by (unfold stops in Es; by destruct (is_multi t')).
      destruct (Hc (i' :: up)) as (n & Hn); [|done|].
      { rewrite reverse_cons. apply sub_app. exists t. split; [done|]. econstructor; [apply Ht|constructor]. }
      exists (S n). destruct Hn as [(res & Hn)|[Hn Hh]].
      + left. exists res. intros f. cbn [Nat.add search]. rewrite Hty, Hp, Es. apply Hn.
      + right. split; [|done]. intros f. cbn [Nat.add search]. rewrite Hty, Hp, Es. apply Hn.
  Qed.

  Lemma level t up (Hs : sub root (reverse up) t) (Hm : is_multi t = true) (Hc : forall i t', turn t i t' -> claim t')
      (Hn : forall t0, t <> FArr t0 None) :
    forall d i, 0 <= i -> bound t - i <= Z.of_nat d ->
    exists n, found n (i :: up) \/ (leaves n i up /\ forall k t', i <= k -> turn t k t' -> ~ holds t').
  Proof.
    induction d as [|d IH]; intros i Hi Hd;
      (assert (Hp := place_at_spec t i (ok_sub _ _ _ Hok Hs) Hm Hi); destruct (place_at t i) as [|i' t'|] eqn:Epl; [| |done]).
    1,3: exists 1%nat; right; split; [|intros k t' Hk Ht; by destruct (Hp k t' Hk)];
         intros f; cbn [Nat.add search]; assert (Hty := Hs); apply type_at_sub in Hty; rewrite Hty, Epl; done.
    - destruct Hp as (Hle & Ht & _). assert (Hb := turn_bound _ _ _ Ht Hn). lia.
    - destruct Hp as (Hle & Ht & Hno).
      destruct (one_place t up i i' t' Hs (Hc _ _ Ht) Epl Ht) as (n & [Hf|[Hr Hh]]); [eauto|].
      destruct (IH (i' + 1) ltac:(lia) ltac:(lia)) as (n2 & [(res & Hf)|[Hl Hh2]]).
      + exists (n + n2)%nat. left. exists res. intros f. rewrite <- Nat.add_assoc, Hr. apply Hf.
      + exists (n + n2)%nat. right. split.
        * intros f. rewrite <- Nat.add_assoc, Hr. apply Hl.
        * intros k t2 Hk Ht2. destruct (decide (k < i')); [by destruct (Hno k t2 ltac:(lia))|].
          destruct (decide (k = i')) as [->|]; [by rewrite (turn_fun _ _ _ _ Ht2 Ht)|]. apply (Hh2 k); [lia|done].
  Qed.

  Lemma open_level t up : sub root (reverse up) (FArr t None) -> claim t -> forall i, 0 <= i -> exists n, found n (i :: up).
  Proof.
    intros Hs Hc i Hi.
    assert (turn (FArr t None) i t) as Ht by (split; [split; [done|split; done]|done]).
    destruct (one_place (FArr t None) up i i t Hs Hc eq_refl Ht) as (n & [Hf|[_ Hh]]); [eauto|].
    assert (Ho := ok_sub _ _ _ Hok Hs). by destruct Ho.
  Qed.

  Lemma claim_all t : claim t.
  Proof.
    induction t as [w|f|t len IH|u ms IH] using fty_ind'; intros up Hs Hm; try done.
    - destruct len as [n|].
      + assert (forall i t', turn (FArr t (Some n)) i t' -> claim t') as Hc by (intros i t' [[_ [-> _]] _]; done).
        destruct (level _ up Hs Hm Hc ltac:(done) n 0) as (k & [Hf|[Hl Hh]]); [lia|cbn; lia|eauto|].
        exists k. right. split; [done|]. inversion 1 as [| |? n' Ht'| |]; subst. apply (Hh 0 t); [lia| |done].
        split; [|done]. split; [lia|]. split; [done|lia].
      + destruct (open_level t up Hs IH 0 ltac:(lia)) as [n Hn]. eauto.
    - assert (forall i t', turn (FStruct u ms) i t' -> claim t') as Hc.
      { intros i t' [_ [E _]]. apply (Forall_lookup_1 _ _ _ _ IH E). }
      destruct (level _ up Hs Hm Hc ltac:(done) (length ms) 0) as (k & [Hf|[Hl Hh]]); [lia|cbn; lia|eauto|].
      exists k. right. split; [done|]. inversion 1 as [| | | |u' ms' i t Htu Hh']; subst. apply (Hh i t); [|done|done].
      apply Htu.
  Qed.

  (** From any place on it ends. *)
  Lemma level_ends up i t : sub root (reverse up) t -> is_multi t = true -> 0 <= i -> exists n, found n (i :: up) \/ leaves n i up.
  Proof.
    intros Hs Hm Hi. assert ((exists t0, t = FArr t0 None) \/ forall t0, t <> FArr t0 None) as [(t0 & ->)|Hn].
    { destruct t as [| |t [n|]|]; [right; done|right; done|right; done|left; eauto|right; done]. }
    - destruct (open_level t0 up Hs (claim_all t0) i Hi) as [n Hf]. eauto.
    - destruct (level t up Hs Hm (fun i t' _ => claim_all t') Hn (Z.to_nat (bound t)) i Hi) as (n & [Hf|[Hl _]]); [|eauto|eauto]. lia.
  Qed.
  Lemma search_ends up : forall i t, sub root (reverse up) t -> is_multi t = true -> 0 <= i ->
    exists n res, res <> NoFuel /\ forall f, search obj same (n + f) root (i :: up) r = res.
  Proof.
    induction up as [|j up IH]; intros i t Hs Hm Hi; destruct (level_ends _ i t Hs Hm Hi) as (n & [(res & Hf)|Hl]).
    1,3: exists n, (Done res); split; [done|exact Hf].
    - exists n, Rejected. split; [done|exact Hl].
    - rewrite reverse_cons in Hs. apply sub_app in Hs as (t1 & H1 & H2). inversion H2 as [|? ? ? ? ? H3 _]; subst.
      destruct (IH (j + 1) t1 H1) as (n2 & res & Hr & Hf); [destruct H3 as [_ H3]; by destruct t1|destruct H3; lia|].
      exists (n + n2)%nat, res. split; [done|]. intros f. rewrite <- Nat.add_assoc, Hl. apply Hf.
  Qed.
End term.
