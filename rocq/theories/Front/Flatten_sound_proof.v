(** A flattened initialiser gives each subobject what it should. *)
From stdpp Require Import base list numbers.
From Verif Require Import Front.Static_model Front.Flatten_model Front.Flatten_spec Front.Flatten_proof Front.Flatten_store_proof.
Local Open Scope Z_scope.

Lemma raw_ind' (P : raw -> Prop) :
  (forall e, P (RSingle e)) -> (forall l, Forall (fun x => P (snd x)) l -> P (RMulti l)) -> forall r, P r.
Proof.
  intros H1 H2. fix IH 1. intros [e|l]; [apply H1|]. apply H2.
  induction l as [|[ds r] l IHl]; constructor; [apply IH|apply IHl].
Qed.

(** ** Lists of what is given *)
Lemma suffix_app_both q p s : suffix (q ++ p) (q ++ s) = suffix p s.
Proof. induction q as [|i q IH]; [done|]. cbn [app]. by rewrite suffix_cons, Z.eqb_refl. Qed.
Lemma suffix_app_none q p s : suffix q s = None -> suffix (q ++ p) s = None.
Proof.
  intros H. destruct (suffix (q ++ p) s) as [x|] eqn:E; [|done]. apply suffix_app in E. rewrite <- app_assoc in E.
  apply suffix_app in E. congruence.
Qed.
Definition give (p : list Z) (acc : option (iexpr * list Z)) (x : list Z * option iexpr) : option (iexpr * list Z) :=
  let '(q, v) := x in match suffix q p with Some s => (fun e => (e, s)) <$> v | None => acc end.
Lemma last_given_eq l p : last_given l p = foldl (give p) None l.
Proof. done. Qed.
Lemma give_inside q o p s acc : suffix q p = Some s -> foldl (give p) acc (inside q o) = foldl (give s) acc o.
Proof.
  intros H. apply suffix_app in H as ->. revert acc. induction o as [|[c v] o IH]; intros acc; [done|].
  cbn. rewrite suffix_app_both. apply IH.
Qed.
Lemma give_outside q o p acc : suffix q p = None -> foldl (give p) acc (inside q o) = acc.
Proof.
  intros H. revert acc. induction o as [|[c v] o IH]; intros acc; [done|]. cbn. rewrite suffix_app_none by done. apply IH.
Qed.
Lemma means_head obj same st t r o : means obj same st t r o -> exists v o', o = ([], v) :: o'.
Proof. inversion 1; subst; eauto. Qed.

Lemma intact_app l1 l2 p : intact (l1 ++ l2) p -> intact l1 p.
Proof. intros H A c e B d v D s i s' -> . apply (H A c e B d v (D ++ l2) s i s'). by rewrite <- !app_assoc, <- !app_comm_cons, <- app_assoc. Qed.
Lemma inside_app q l1 l2 : inside q (l1 ++ l2) = inside q l1 ++ inside q l2.
Proof. apply map_app. Qed.
Lemma intact_inside l q o p s : suffix q p = Some s -> intact (l ++ inside q o) p -> intact o s.
Proof.
  intros Hq H A c e B d v D s0 i s' -> H1 H2. apply suffix_app in Hq as ->.
  specialize (H (l ++ inside q A) (q ++ c) e (inside q B) (q ++ d) v (inside q D) s0 i s').
  rewrite !suffix_app_both in H. apply H; [|done|done].
  rewrite inside_app. cbn [inside map]. rewrite <- app_assoc. do 2 f_equal. rewrite (map_app _ B). done.
Qed.

(** What the tree holds is what was given. *)
Definition holds_given (i : option init) (O : list (list Z * option iexpr)) : Prop :=
  (forall p, intact O p -> value_at i p = last_given O p) /\
  (forall p e s, value_at i p = Some (e, s) -> exists c, suffix c p = Some s /\ (c, Some e) ∈ O).

Lemma stored_given tree tree' q v O o v0 o' : stored tree tree' q v -> holds_given (Some (IMulti tree)) O -> holds_given (Some v) o ->
  o = ([], v0) :: o' -> holds_given (Some (IMulti tree')) (O ++ inside q o).
Proof.
  intros Hst [HO1 HO2] [Ho1 Ho2] Eo. split.
  - intros p Hin. specialize (Hst p). rewrite last_given_eq, foldl_app. destruct (suffix q p) as [s|] eqn:Es.
    + rewrite Hst, (give_inside _ _ _ _ _ Es). rewrite (Ho1 s) by (by eapply intact_inside). subst o. done.
    + rewrite give_outside by done. rewrite <- last_given_eq, <- HO1 by (by eapply intact_app).
      destruct Hst as [Hst|(Hst & e & c & s & i & s' & H1 & H2 & H3)]; [done|].
      destruct (HO2 _ _ _ H1) as (c' & H4 & H5). exfalso.
      assert (c' = c) as -> by (apply suffix_app in H2, H4; rewrite H2 in H4; by apply app_inv_tail in H4).
      apply elem_of_list_split in H5 as (A & B & ->). subst o.
      apply (Hin A c e B q v0 (inside q o') s i s'); [|done|done|done]. cbn [inside map].
      rewrite <- app_assoc, app_nil_r. done.
  - intros p e s. specialize (Hst p). destruct (suffix q p) as [s0|] eqn:Es.
    + rewrite Hst. intros H. apply Ho2 in H as (c & H1 & H2). exists (q ++ c). split.
      * apply suffix_app in Es as ->. by rewrite suffix_app_both.
      * apply elem_of_app. right. apply elem_of_list_fmap. exists (c, Some e). done.
    + intros H. destruct Hst as [Hst|[Hst _]]; [|congruence]. rewrite Hst in H. apply HO2 in H as (c & H1 & H2).
      exists c. split; [done|]. apply elem_of_app. auto.
Qed.

Lemma array_end_app l1 l2 : array_end (l1 ++ l2) = Nat.max (array_end l1) (array_end l2).
Proof. unfold array_end. induction l1 as [|[[|i p] v] l1 IH]; [done|exact IH|]. cbn [foldr app]. rewrite IH. lia. Qed.
Lemma array_end_inside i q o v0 o' : o = ([], v0) :: o' -> array_end (inside (i :: q) o) = S (Z.to_nat i).
Proof.
  intros ->. cbn. assert (array_end (map (fun '(p, v) => (i :: q ++ p, v)) o') <= S (Z.to_nat i))%nat; [|unfold array_end in *; lia].
  induction o' as [|[p v] o' IH]; cbn; [lia|]. unfold array_end in IH. lia.
Qed.

(** ** Designators *)
Lemma dots_spec l : forall t acc p t', l <> [] -> dots t acc l = Done (p, t') -> exists q, p = reverse q ++ acc /\ dotted t l q t'.
Proof.
  induction l as [|i l IH]; intros t acc p t' Hne H; [done|]. cbn in H.
  destruct t as [w|f|t len|u ms]; try done. destruct (ms !! i) as [[m t]|] eqn:E; [|done].
  destruct l as [|j l].
  - injection H as <- <-. exists [Z.of_nat i]. split; [done|]. by econstructor.
  - apply IH in H as (q & -> & Hd); [|done]. exists (Z.of_nat i :: q). split; [by rewrite reverse_cons, <- app_assoc|]. by econstructor.
Qed.
Lemma dotted_sub t l q t' : dotted t l q t' -> sub t q t'.
Proof.
  induction 1 as [u ms i m t E|u ms i m t l p t' E _ IH].
  - econstructor; [|constructor]. split; [lia|]. exists m. by rewrite Nat2Z.id.
  - econstructor; [|done]. split; [lia|]. exists m. by rewrite Nat2Z.id.
Qed.
Lemma walk_spec ds : forall t acc p t', walk t acc ds = Done (p, t') ->
  exists q, p = reverse q ++ acc /\ forall t2, sub t q t2 -> t2 = t' /\ designated t ds q t'.
Proof.
  induction ds as [|[l|i] ds IH]; intros t acc p t' H; cbn in H.
  - injection H as <- <-. exists []. split; [done|]. intros t2 H. inversion H; subst. split; [done|constructor].
  - destruct t as [w|f|t len|u ms]; try done. destruct l as [|j l]; [done|].
    destruct (dots (FStruct u ms) acc (j :: l)) as [[p1 t1]| | | |] eqn:Ed; try done. cbn [bind] in H.
    apply dots_spec in Ed as (q1 & -> & Hd); [|done]. apply IH in H as (q & -> & Hq).
    exists (q1 ++ q). split; [by rewrite reverse_app, app_assoc|]. intros t2 Hs.
    apply sub_app in Hs as (t3 & H3 & H4). rewrite (sub_fun _ _ _ _ H3 (dotted_sub _ _ _ _ Hd)) in H4.
    destruct (Hq _ H4) as [-> Hdes]. split; [done|]. by econstructor.
  - destruct t as [w|f|t len|u ms]; try done. apply IH in H as (q & -> & Hq).
    exists (i :: q). split; [by rewrite reverse_cons, <- app_assoc|]. intros t2 Hs. inversion Hs as [|? ? t3 ? ? Hp Hs']; subst.
    assert (t3 = t) as -> by (by destruct Hp as (_ & -> & _)). destruct (Hq _ Hs') as [-> Hdes]. split; [done|]. by constructor.
Qed.
Lemma designated_sub t ds q t' : designated t ds q t' -> sub t q t'.
Proof.
  induction 1 as [|t len i ds p t' Hp _ IH|t l p t' ds p' t'' Hd _ IH].
  - constructor.
  - econstructor; done.
  - apply sub_app. exists t'. split; [by eapply dotted_sub|done].
Qed.
Lemma designated_nil t ds q t' : designated t ds q t' -> ds <> [] -> q <> [].
Proof. intros H Hne. destruct H as [t|t len i ds p t' Hp Hd|t l p t' ds p' t'' Hd Hd']; [done|done|]. by destruct Hd. Qed.

(** ** The items *)
Section sound.
  Context (obj : iexpr -> option fty) (same : fty -> fty -> bool) (fuel : nat).
  Notation flatten := (flatten obj same fuel).

  Definition pos_ok (t : fty) (path : list Z) : Prop :=
    exists i up t0, path = i :: up /\ sub t (reverse up) t0 /\ is_multi t0 = true /\ -1 <= i.
  Lemma pos_sub t path t' : sub t (reverse path) t' -> path <> [] -> pos_ok t path.
  Proof.
    intros H Hne. destruct path as [|i up]; [done|]. rewrite reverse_cons in H. apply sub_app in H as (t0 & H1 & H2).
    inversion H2 as [|? ? ? ? ? H3 _]; subst. exists i, up, t0. repeat split; [done| |destruct H3; lia]. destruct H3 as [_ H3]. by destruct t0.
  Qed.

  Lemma locate_next t path r p t' : ok t -> pos_ok t path -> search obj same fuel t (next_index path) r = Done (p, t') ->
    next obj same t (reverse path) r (reverse p) t'.
  Proof.
    intros Hok (i & up & t0 & -> & Hs & Hm & Hi) E. cbn [next_index] in E.
    assert (H := search_spec obj same t r Hok fuel (i + 1) up t0 Hs Hm ltac:(lia)). rewrite E in H.
    replace (i + 1 - 1) with i in H by lia. by rewrite reverse_cons.
  Qed.
  Lemma next_nonempty t p r q t' : next obj same t p r q t' -> q <> [].
  Proof. intros [(c & i & s & j & s' & t0 & _ & -> & _) _]. by destruct c. Qed.

  Definition sound (r : raw) : Prop := forall t v, ok t -> flatten r t = Done v ->
    exists o, means obj same true t r o /\ shape t v /\ holds_given (Some v) o.

  (** Where an item goes. *)
  Lemma item_step t path ds r p t' v tree tree' l o o2 : ok t -> pos_ok t path -> shape t (IMulti tree) ->
    locate obj same fuel t path ds r = Done (p, t') -> flatten r t' = Done v -> store t tree (reverse p) v = Some tree' ->
    (ok t' -> means obj same true t' r o) -> 
    sub t (reverse p) t' /\ p <> [] /\ (items obj same true t (reverse p) l o2 -> items obj same true t (reverse path) ((ds, r) :: l) (inside (reverse p) o ++ o2)).
  Proof.
    intros Hok Hpos Hsh Hloc Hfl Hst Hm. destruct ds as [|d ds].
    - cbn in Hloc. assert (Hn := locate_next _ _ _ _ _ Hok Hpos Hloc). assert (Hs : sub t (reverse p) t') by (by eapply after_sub; apply Hn).
      split; [done|]. split; [intros ->; by apply (next_nonempty _ _ _ _ _ Hn)|].
      intros Hi. econstructor; [exact Hn|apply Hm; by eapply ok_sub|done].
    - unfold locate in Hloc. destruct (walk t [] (d :: ds)) as [[p1 t1]| | | |] eqn:Ew; try done. cbn [bind] in Hloc.
      apply walk_spec in Ew as (q & -> & Hq). rewrite app_nil_r in Hloc.
      destruct (store_sub _ _ _ _ _ Hsh Hst) as [t2 Hs2].
      assert (Hwhole : forall e, r = RSingle e -> is_multi t1 && (match whole obj e with None => true | Some _ => false end) = false -> takes obj same t' r -> 
        Done (reverse q, t1) = Done (p, t') -> sub t (reverse p) t' /\ p <> [] /\ (items obj same true t (reverse p) l o2 -> items obj same true t (reverse path) ((d :: ds, r) :: l) (inside (reverse p) o ++ o2))).
      { intros e -> _ Ht [= <- <-]. rewrite reverse_involutive in *. destruct (Hq _ Hs2) as [-> Hdes].
        split; [done|]. split; [intros E; apply (f_equal reverse) in E; rewrite reverse_involutive in E; by apply (designated_nil _ _ _ _ Hdes)|].
        intros Hi. eapply it_there; [done|exact Hdes|done|eauto|apply Hm; by eapply ok_sub|done]. }
      destruct r as [e|lr].
      + destruct (is_multi t1 && _) eqn:Eb.
        * apply andb_true_iff in Eb as [Hm1 Hw]. destruct (whole obj e) as [|] eqn:Ew; [done|].
          assert (exists tx, type_at t (reverse (reverse q)) = Some tx) as [tx Htx].
          { destruct fuel as [|n]; [done|]. cbn [search] in Hloc. destruct (type_at t (reverse (reverse q))); [eauto|done]. }
          rewrite reverse_involutive in Htx. apply type_at_sub in Htx. destruct (Hq _ Htx) as [-> Hdes].
          assert (Hn := search_spec obj same t (RSingle e) Hok fuel 0 (reverse q) t1 ltac:(by rewrite reverse_involutive) Hm1 ltac:(lia)).
          rewrite Hloc in Hn. rewrite reverse_involutive in Hn. change (0 - 1) with (-1) in Hn.
          assert (Hs : sub t (reverse p) t') by (by eapply after_sub; apply Hn).
          split; [done|]. split; [intros ->; by apply (next_nonempty _ _ _ _ _ Hn)|]. intros Hi.
          eapply it_part; [done|exact Hdes| |done|exact Hn|apply Hm; by eapply ok_sub|done].
          intros Ht. apply stops_takes in Ht. unfold stops in Ht. rewrite Hm1, Ew, orb_false_r in Ht.
          destruct t1 as [| |[]|], e; done.
        * apply (Hwhole e eq_refl Eb); [|done]. cbn in Hfl. destruct (stops obj same t' (RSingle e)) eqn:Es; [by apply stops_takes|].
          by destruct t'.
      + destruct (is_multi t1) eqn:Em; [|done]. injection Hloc as <- <-. rewrite reverse_involutive in *. destruct (Hq _ Hs2) as [-> Hdes].
        split; [done|]. split; [intros E; apply (f_equal reverse) in E; rewrite reverse_involutive in E; by apply (designated_nil _ _ _ _ Hdes)|].
        intros Hi. eapply it_there; [done|exact Hdes|by destruct t1|auto|apply Hm; by eapply ok_sub|done].
  Qed.

  Lemma item_loop_sound t (Hok : ok t) l : Forall (fun x => sound (snd x)) l -> forall path tree v O,
    pos_ok t path -> shape t (IMulti tree) -> holds_given (Some (IMulti tree)) O ->
    item_loop obj same fuel flatten t l path tree = Done v ->
    exists out tree', v = IMulti tree' /\ items obj same true t (reverse path) l out /\ shape t v /\ holds_given (Some v) (O ++ out) /\
      length tree' = Nat.max (length tree) (array_end out).
  Proof.
    induction 1 as [|[ds r] l Hr _ IH]; intros path tree v O Hpos Hsh Hg E.
    - injection E as <-. exists [], tree. rewrite app_nil_r. split; [done|]. split; [apply it_nil|]. split; [done|]. split; [done|]. cbn; lia.
    - cbn [item_loop] in E. destruct (locate obj same fuel t path ds r) as [[p t']| | | |] eqn:El; try done. cbn [bind] in E.
      destruct (flatten r t') as [v1| | | |] eqn:Ef; try done. cbn [bind] in E.
      destruct (store t tree (reverse p) v1) as [tree1|] eqn:Es; [|done]. cbn [check bind] in E.
      assert (Hstep := fun o o2 => item_step t path ds r p t' v1 tree tree1 l o o2 Hok Hpos Hsh El Ef Es).
      assert (ok t') as Hok'.
      { destruct (store_sub _ _ _ _ _ Hsh Es) as [t2 Hs2]. 
        destruct (decide (ds = [])) as [->|Hne].
        - cbn in El. eapply ok_sub; [exact Hok|]. eapply after_sub. by apply (locate_next _ _ _ _ _ Hok Hpos El).
        - unfold locate in El. destruct ds as [|d ds]; [done|]. destruct (walk t [] (d :: ds)) as [[p1 t1]| | | |] eqn:Ew; try done. cbn [bind] in El.
          apply walk_spec in Ew as (q & -> & Hq). rewrite app_nil_r in El.
          assert (Done (reverse q, t1) = Done (p, t') -> ok t') as Hdir.
          { intros [= <- <-]. rewrite reverse_involutive in Hs2. destruct (Hq _ Hs2) as [-> _]. by eapply ok_sub. }
          destruct r as [e|lr]; [|destruct (is_multi t1); [auto|done]].
          destruct (is_multi t1 && _) eqn:Eb; [|auto]. apply andb_true_iff in Eb as [Hm1 _].
          assert (exists tx, type_at t (reverse (reverse q)) = Some tx) as [tx Htx].
          { destruct fuel as [|n]; [done|]. cbn [search] in El. destruct (type_at t (reverse (reverse q))); [eauto|done]. }
          apply type_at_sub in Htx. assert (Htx' := Htx). rewrite reverse_involutive in Htx'. destruct (Hq _ Htx') as [-> _].
          assert (Hn := search_spec obj same t (RSingle e) Hok fuel 0 (reverse q) t1 Htx Hm1 ltac:(lia)). rewrite El in Hn.
          eapply ok_sub; [exact Hok|]. eapply after_sub. apply Hn. }
      destruct (Hr _ _ Hok' Ef) as (o & Hme & Hsh1 & Hg1). destruct (means_head _ _ _ _ _ _ Hme) as (v0 & o' & Eo).
      destruct (Hstep o [] (fun _ => Hme)) as (Hs & Hne & _).
      destruct (store_spec (reverse p) t tree v1 t' Hsh Hs) as (tree2 & Es2 & Hsh2 & Hst2 & Hlen); [|done|].
      { intros E0. apply (f_equal reverse) in E0. rewrite reverse_involutive in E0. done. }
      assert (tree2 = tree1) as -> by congruence.
      destruct (IH p tree1 v (O ++ inside (reverse p) o)) as (out & tree' & -> & Hit & Hshv & Hgv & Hlv).
      + by eapply pos_sub.
      + done.
      + by eapply stored_given.
      + done.
      + exists (inside (reverse p) o ++ out), tree'. split; [done|].
        destruct (Hstep o out (fun _ => Hme)) as (_ & _ & Hcons). split; [by apply Hcons|]. split; [done|]. rewrite app_assoc. split; [done|].
        rewrite array_end_app, Hlv, Hlen. destruct (reverse p) as [|i q] eqn:Erev.
        * apply (f_equal reverse) in Erev. rewrite reverse_involutive in Erev. done.
        * rewrite (array_end_inside _ _ _ _ _ Eo). lia.
  Qed.

  Lemma reserve_given t tree : reserve t = Some tree -> holds_given (Some (IMulti tree)) [([], None)].
  Proof.
    intros H. split.
    - intros p _. rewrite (value_reserve _ _ _ H). done.
    - intros p e s. rewrite (value_reserve _ _ _ H). done.
  Qed.
  Lemma single_given e : holds_given (Some (ISingle e)) [([], Some e)].
  Proof.
    split.
    - intros p _. by rewrite value_single.
    - intros p e' s. rewrite value_single. intros [= <- <-]. exists []. split; [done|]. by apply elem_of_list_singleton.
  Qed.
  Lemma lone_string_spec t l e : lone_string t l = Some e <-> string_of t l e.
  Proof.
    unfold lone_string, string_of. split.
    - destruct l as [|[[|d ds] [e'|l']] [|y l]]; try done. unfold string_for.
      destruct t as [w|f|[w| | |] len|u ms]; try done. destruct e'; try done. destruct (eqb w wide) eqn:Ew; [|done].
      apply eqb_prop in Ew as ->. intros [= <-]. eauto 10.
    - intros (w & us & len & -> & -> & ->). cbn. by rewrite eqb_reflx.
  Qed.

  Lemma multi_sound t l v : is_multi t = true -> lone_string t l = None -> ok t -> Forall (fun x => sound (snd x)) l -> flatten (RMulti l) t = Done v ->
    exists out tree, v = IMulti tree /\ means obj same true t (RMulti l) (([], None) :: out) /\ shape t v /\ holds_given (Some v) (([], None) :: out) /\
      length tree = Nat.max (match t with FArr _ None => O | FArr _ (Some n) => n | FStruct _ ms => length ms | _ => O end) (array_end out).
  Proof.
    intros Hm Hls Hok HF E. cbn [Flatten_model.flatten] in E. rewrite Hm, Hls in E. destruct (reserve t) as [tree0|] eqn:Er; [|done].
    assert (Hg0 := reserve_given _ _ Er). apply reserve_shape in Er as Hr. destruct Hr as [Hsh0 _].
    destruct (item_loop_sound t Hok l HF [-1] tree0 v [([], None)]) as (out & tree & -> & Hit & Hsh & Hg & Hlen).
    - exists (-1), [], t. repeat split; [constructor|done|lia].
    - done.
    - done.
    - done.
    - exists out, tree. split; [done|]. split; [|split; [done|split; [done|]]].
      + constructor; [done| |done]. intros e He. apply lone_string_spec in He. congruence.
      + rewrite Hlen. f_equal. destruct t as [w|f|t [n|]|u ms]; try done; cbn in Er; injection Er as <-; by rewrite ?replicate_length.
  Qed.

  Lemma flatten_sound r : sound r.
  Proof.
    induction r as [e|l IH] using raw_ind'; intros t v Hok E.
    - cbn [Flatten_model.flatten] in E. destruct (stops obj same t (RSingle e)) eqn:Es; [|by destruct t].
      injection E as <-. exists [([], Some e)]. split; [constructor; by apply stops_takes|]. split; [constructor|apply single_given].
    - destruct (is_multi t) eqn:Em.
      + destruct (lone_string t l) as [e|] eqn:Els.
        * cbn [Flatten_model.flatten] in E. rewrite Em, Els in E. injection E as <-. exists [([], Some e)].
          split; [apply me_string; by apply lone_string_spec|]. split; [constructor|apply single_given].
        * destruct (multi_sound t l v Em Els Hok IH E) as (out & tree & -> & H1 & H2 & H3 & _). eauto.
      + cbn [Flatten_model.flatten] in E. rewrite Em in E. destruct l as [|[[|d ds] [e|l']] [|y l]]; try done; injection E as <-.
        * exists [([], Some (zero t))]. split; [by constructor|]. split; [constructor|apply single_given].
        * exists [([], Some e)]. split; [by constructor|]. split; [constructor|apply single_given].
  Qed.
End sound.
