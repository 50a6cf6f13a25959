From stdpp Require Import base list numbers sorting.
From Coq Require Import Lia.
From Verif Require Import Back.Alloc_model.
Open Scope Z_scope.

Section lin.
  Context (se : settings) (vs : list vinfo) (iv : ivals) (occ : list N).
  Local Notation st := (start_of iv).
  Local Notation en := (end_of iv).
  Local Notation fl := (flo_of vs).
  Definition max_of (c : bool) : nat := if c then fphys_max se else phys_max se.
  Definition temp_of (c : bool) : nat := if c then ftemporary se else temporary se.
  Definition range_ok : Prop := forall v i ip r, vs !! v = Some i -> pindex i = Some ip ->
    (if flo i then Some ip else mapping se ip) = Some r -> (r < max_of (flo i))%nat.
  Hypothesis Hrange : range_ok.
  Hypothesis Htemp : forall c, (temp_of c <= max_of c)%nat.
  (** An interval that is inside another one is not occupied more. *)
  Hypothesis Hmono : forall u v r, fl u = fl v -> st u <= st v -> en v < en u ->
    N.testbit (occ_of occ v) r = true -> N.testbit (occ_of occ u) r = true.

  Record cinv (c : bool) (done : list nat) (cur : Z) (p : regset) (ps : list place) : Prop := {
    ci_act : forall v, v ∈ active p -> v ∈ done /\ fl v = c /\ exists r, ps !! v = Some (Reg r) /\ N.testbit (inuse p) (N.of_nat r) = true;
    ci_nodup : NoDup (active p);
    ci_dist : forall u v r, u ∈ active p -> v ∈ active p -> ps !! u = Some (Reg r) -> ps !! v = Some (Reg r) -> u = v;
    ci_done : forall v r, ps !! v = Some (Reg r) -> fl v = c -> v ∈ done /\ N.testbit (occ_of occ v) (N.of_nat r) = false /\
      N.testbit (used p) (N.of_nat r) = true /\ (r < max_of c)%nat /\ (v ∈ active p \/ en v <= cur);
    ci_pair : forall u v r, fl u = c -> fl v = c -> ps !! u = Some (Reg r) -> ps !! v = Some (Reg r) -> u <> v ->
      st u <= st v -> en u <= st v;
    ci_bit : forall b, N.testbit (inuse p) b = true -> exists v r, v ∈ active p /\ ps !! v = Some (Reg r) /\ N.of_nat r = b;
  }.

  Lemma expire_list_ok s ps l : forall u0, 
    (forall v, v ∈ l -> exists r, ps !! v = Some (Reg r) /\ N.testbit u0 (N.of_nat r) = true) ->
    NoDup l -> (forall u v r, u ∈ l -> v ∈ l -> ps !! u = Some (Reg r) -> ps !! v = Some (Reg r) -> u = v) ->
    exists l1, l = l1 ++ (expire_list iv s ps l u0).1 /\ (forall v, v ∈ l1 -> en v <= s) /\
      (forall b, N.testbit (expire_list iv s ps l u0).2 b = true -> N.testbit u0 b = true /\ forall v r, v ∈ l1 -> ps !! v = Some (Reg r) -> N.of_nat r <> b) /\
      (forall v, v ∈ (expire_list iv s ps l u0).1 -> exists r, ps !! v = Some (Reg r) /\ N.testbit (expire_list iv s ps l u0).2 (N.of_nat r) = true).
  Proof.
    induction l as [|v l IH]; intros u0 Hb Hn Hd; cbn [expire_list].
    - exists []. split; [done|]. split; [intros v Hv; by apply elem_of_nil in Hv|]. split; [|intros v Hv; by apply elem_of_nil in Hv].
      intros b Hb'. split; [done|]. intros v r Hv. by apply elem_of_nil in Hv.
    - destruct (s <? en v) eqn:E.
      + exists []. split; [done|]. split; [intros x Hx; by apply elem_of_nil in Hx|]. split; [|done].
        intros b Hb'. split; [done|]. intros w r Hv. by apply elem_of_nil in Hv.
      + apply Z.ltb_ge in E. apply NoDup_cons in Hn as [Hv Hn].
        destruct (Hb v) as (rv & Hrv & Hbv); [by left|]. rewrite Hrv. cbn [clear].
        destruct (IH (N.clearbit u0 (N.of_nat rv))) as (l1 & E1 & H1 & H3 & H2).
        * intros x Hx. destruct (Hb x) as (r & Hr & Ht); [by right|]. exists r. split; [done|].
          rewrite N.clearbit_neq; [done|]. intros Heq. apply Nat2N.inj in Heq as ->.
          apply Hv. rewrite (Hd v x r); [done|by left|by right|done|done].
        * done.
        * intros x y r Hx Hy. apply Hd; by right.
        * exists (v :: l1). split; [cbn; by rewrite <- E1|]. split; [|split; [|done]].
          -- intros x Hx. apply elem_of_cons in Hx as [->|Hx]; [done|by apply H1].
          -- intros b Hb'. destruct (H3 b Hb') as [Q1 Q2]. rewrite N.clearbit_iff in Q1. destruct Q1 as [Q1 Q3]. split; [done|].
             intros w r Hw Hr. apply elem_of_cons in Hw as [->|Hw]; [|by apply (Q2 w)]. rewrite Hr in Hrv. injection Hrv as ->. done.
  Qed.

  Lemma expire_ok c done cur p ps s : cinv c done cur p ps -> cur <= s -> cinv c done s (expire iv s ps p) ps.
  Proof.
    intros H Hs. unfold expire.
    destruct (expire_list_ok s ps (active p) (inuse p)) as (l1 & E1 & H1 & H3 & H2).
    { intros v Hv. by destruct (ci_act _ _ _ _ _ H v Hv) as (_ & _ & ?). }
    { by apply (ci_nodup _ _ _ _ _ H). }
    { by apply (ci_dist _ _ _ _ _ H). }
    destruct (expire_list iv s ps (active p) (inuse p)) as [l u] eqn:E. cbn [fst snd] in *.
    assert (Hl : forall v, v ∈ l -> v ∈ active p) by (intros v Hv; rewrite E1; apply elem_of_app; by right).
    destruct H; split; cbn [active inuse used].
    - intros v Hv. destruct (ci_act0 v (Hl v Hv)) as (Ha & Hb & _). split; [done|]. split; [done|]. by apply H2.
    - rewrite E1 in ci_nodup0. by apply NoDup_app in ci_nodup0 as (_ & _ & ?).
    - intros a b r Ha Hb. apply ci_dist0; by apply Hl.
    - intros v r Hv Hf. destruct (ci_done0 v r Hv Hf) as (A1 & A2 & A3 & A4 & A5). repeat (split; [done|]).
      destruct A5 as [A5|A5]; [|right; lia]. rewrite E1 in A5. apply elem_of_app in A5 as [A5|A5]; [right; by apply H1|by left].
    - done.
    - intros b Hb. destruct (H3 b Hb) as [Q1 Q2]. destruct (ci_bit0 b Q1) as (v & r & Hv & Hr & Hrb). exists v, r. split; [|done].
      rewrite E1 in Hv. apply elem_of_app in Hv as [Hv|Hv]; [|done]. by destruct (Q2 v r Hv Hr).
  Qed.

  Lemma find_free_ok fuel j o r : find_free fuel j o = Some r -> N.testbit o (N.of_nat r) = false /\ (j <= r < j + fuel)%nat.
  Proof.
    revert j. induction fuel as [|fuel IH]; intros j H; [done|]. cbn in H.
    destruct (N.testbit o (N.of_nat j)) eqn:E.
    - apply IH in H as [H1 H2]. split; [done|lia].
    - injection H as <-. split; [done|lia].
  Qed.
  Lemma choose_ok v i o r : vs !! v = Some i -> choose se i (max_of (flo i)) (temp_of (flo i)) o = Some r ->
    N.testbit o (N.of_nat r) = false /\ (r < max_of (flo i))%nat.
  Proof.
    intros Hv. unfold choose. pose proof (Htemp (flo i)) as Ht.
    assert (Hf : find_free (max_of (flo i) - temp_of (flo i)) (temp_of (flo i)) o = Some r -> N.testbit o (N.of_nat r) = false /\ (r < max_of (flo i))%nat).
    { intros H. apply find_free_ok in H as [? ?]. split; [done|lia]. }
    destruct (pindex i) as [ip|] eqn:Ep.
    - destruct (if flo i then Some ip else mapping se ip) as [q|] eqn:Eq; [|done].
      destruct (N.testbit o (N.of_nat q)) eqn:Eb; [done|]. intros [= <-]. split; [done|]. by apply (Hrange v i ip).
    - intros H. apply find_free_ok in H as [? ?]. split; [done|lia].
  Qed.

  Lemma insert_active_perm l v : insert_active iv l v ≡ₚ v :: l.
  Proof.
    induction l as [|p l IH]; cbn; [done|]. destruct (en v <? en p); [done|]. rewrite IH. apply Permutation_swap.
  Qed.
  Lemma insert_active_in l v x : x ∈ insert_active iv l v <-> x = v \/ x ∈ l.
  Proof. rewrite (elem_of_Permutation_proper x _ _ (insert_active_perm l v)). apply elem_of_cons. Qed.

  (** Order of processing: [done] are before [v]. *)
  Lemma place1_ok v i done p ps p' ps' : vs !! v = Some i -> v ∉ done -> (v < length ps)%nat ->
    (forall u, u ∈ done -> before iv u v) ->
    cinv (flo i) done (st v) p ps -> place1 se iv occ v i p ps = Some (p', ps') ->
    cinv (flo i) (v :: done) (st v) p' ps' /\ length ps' = length ps /\
    (forall q, cinv (negb (flo i)) done (st v) q ps -> cinv (negb (flo i)) (v :: done) (st v) q ps').
  Proof.
    intros Hv Hnew Hlen Hbef H. unfold place1.
    assert (Ef : fl v = flo i) by (unfold flo_of; by rewrite Hv).
    assert (Emt : (if flo i then (fphys_max se, ftemporary se) else (phys_max se, temporary se)) = (max_of (flo i), temp_of (flo i))).
    { unfold max_of, temp_of. by destruct (flo i). }
    rewrite Emt.
    assert (Hst : forall u, u ∈ done -> st u <= st v). { intros u Hu. destruct (Hbef u Hu) as [?|[? _]]; lia. }
    assert (Hnv : forall r, ps !! v <> Some (Reg r)).
    { intros r Hr. apply Hnew. by destruct (ci_done _ _ _ _ _ H v r Hr Ef). }
    assert (Hneq : forall u r, ps !! u = Some (Reg r) -> u <> v) by (intros u r Hu ->; by apply (Hnv r)).
    destruct (choose se i (max_of (flo i)) (temp_of (flo i)) (N.lor (inuse p) (occ_of occ v))) as [r|] eqn:Ec.
    - intros [= <- <-]. apply (choose_ok v i _ r Hv) in Ec as [Hfree Hr]. rewrite N.lor_spec in Hfree. apply orb_false_iff in Hfree as [Hfree Hocc].
      assert (Hold : forall u q, <[v := Reg r]> ps !! u = Some (Reg q) -> (u = v /\ q = r) \/ (u <> v /\ ps !! u = Some (Reg q))).
      { intros u q Hu. destruct (decide (u = v)) as [->|Hne].
        - rewrite list_lookup_insert in Hu by done. left. split; [done|congruence].
        - rewrite list_lookup_insert_ne in Hu by done. by right. }
      assert (Hclash : forall u, ps !! u = Some (Reg r) -> fl u = flo i -> en u <= st v).
      { intros u Hu Hfu. destruct (ci_done _ _ _ _ _ H u r Hu Hfu) as (_ & _ & _ & _ & [Hin|?]); [|done]. exfalso.
        destruct (ci_act _ _ _ _ _ H u Hin) as (_ & _ & q & Hq & Hb). rewrite Hu in Hq. injection Hq as <-. congruence. }
      assert (Hclash' : forall u, ps !! u = Some (Reg r) -> fl u = flo i -> st v <= st u -> en v <= st u).
      { intros u Hu Hfu Hle. destruct (ci_done _ _ _ _ _ H u r Hu Hfu) as (Hdu & _). specialize (Hclash u Hu Hfu).
        destruct (Hbef u Hdu) as [?|[? [?|[? _]]]]; lia. }
      split; [|split; [by rewrite insert_length|]].
      + split; cbn [active inuse used].
        * intros u Hu. apply insert_active_in in Hu as [->|Hu].
          -- split; [by left|]. split; [done|]. exists r. rewrite list_lookup_insert by done. split; [done|]. by rewrite N.setbit_eq.
          -- destruct (ci_act _ _ _ _ _ H u Hu) as (A1 & A2 & q & A3 & A4). split; [by right|]. split; [done|]. exists q.
             rewrite list_lookup_insert_ne by (intros ->; by apply (Hneq u q A3)). split; [done|]. rewrite N.setbit_eqb, A4. by rewrite orb_true_r.
        * rewrite insert_active_perm. apply NoDup_cons. split; [|by apply (ci_nodup _ _ _ _ _ H)].
          intros Hu. destruct (ci_act _ _ _ _ _ H v Hu) as (_ & _ & q & A3 & _). by apply (Hnv q).
        * assert (Hx : forall x, x ∈ active p -> ps !! x = Some (Reg r) -> False).
          { intros x Hx Hq. destruct (ci_act _ _ _ _ _ H x Hx) as (_ & _ & q & A3 & A4). rewrite Hq in A3. injection A3 as <-. congruence. }
          intros a b q Ha Hb Qa Qb. apply insert_active_in in Ha as [->|Ha]; apply insert_active_in in Hb as [->|Hb]; [done|..].
          -- apply Hold in Qa as [[_ ->]|[? _]]; [|done]. apply Hold in Qb as [[-> _]|[_ Qb]]; [done|]. by destruct (Hx b).
          -- apply Hold in Qb as [[_ ->]|[? _]]; [|done]. apply Hold in Qa as [[-> _]|[_ Qa]]; [done|]. by destruct (Hx a).
          -- apply Hold in Qa as [[-> _]|[_ Qa]]; [destruct (ci_act _ _ _ _ _ H v Ha) as (_ & _ & q' & A3 & _); by destruct (Hnv q')|].
             apply Hold in Qb as [[-> _]|[_ Qb]]; [destruct (ci_act _ _ _ _ _ H v Hb) as (_ & _ & q' & A3 & _); by destruct (Hnv q')|].
             by apply (ci_dist _ _ _ _ _ H a b q).
        * intros u q Hu Hfu. apply Hold in Hu as [[-> ->]|[_ Hu]].
          -- split; [by left|]. split; [done|]. split; [by rewrite N.lor_spec, N.setbit_eq, orb_true_r|]. split; [done|]. left. apply insert_active_in. by left.
          -- destruct (ci_done _ _ _ _ _ H u q Hu Hfu) as (A1 & A2 & A3 & A4 & A5). split; [by right|]. split; [done|].
             split; [by rewrite N.lor_spec, A3|]. split; [done|]. destruct A5 as [A5|A5]; [left; apply insert_active_in; by right|by right].
        * intros a b q Ha Hb Qa Qb Hne Hle. apply Hold in Qa as [[-> ->]|[_ Qa]]; apply Hold in Qb as [[-> Eq]|[_ Qb]]; [done|..].
          -- by apply Hclash'.
          -- subst q. by apply Hclash.
          -- by apply (ci_pair _ _ _ _ _ H a b q).
        * intros b Hb. apply N.setbit_iff in Hb as [Hb|Hb].
          -- exists v, r. split; [apply insert_active_in; by left|]. split; [by rewrite list_lookup_insert by done|done].
          -- destruct (ci_bit _ _ _ _ _ H b Hb) as (u & q & Hu & Hq & Hqb). exists u, q. split; [apply insert_active_in; by right|]. split; [|done].
             rewrite list_lookup_insert_ne; [done|]. intros ->. by apply (Hneq u q Hq).
      + intros q Hq. destruct Hq; split; try done.
        * intros u Hu. destruct (ci_act0 u Hu) as (A1 & A2 & z & A3 & A4). split; [by right|]. split; [done|]. exists z.
          rewrite list_lookup_insert_ne by (intros ->; by apply (Hneq u z A3)). done.
        * intros a b z Ha Hb Qa Qb.
          assert (Hca : a <> v) by (intros ->; destruct (ci_act0 v Ha) as (_ & A2 & _); rewrite Ef in A2; by destruct (flo i)).
          assert (Hcb : b <> v) by (intros ->; destruct (ci_act0 v Hb) as (_ & A2 & _); rewrite Ef in A2; by destruct (flo i)).
          rewrite list_lookup_insert_ne in Qa by done. rewrite list_lookup_insert_ne in Qb by done. by apply (ci_dist0 a b z).
        * intros u z Hu Hfu. assert (Hne : u <> v) by (intros ->; rewrite Ef in Hfu; by destruct (flo i)).
          rewrite list_lookup_insert_ne in Hu by done. destruct (ci_done0 u z Hu Hfu) as (A1 & A2). split; [by right|done].
        * intros a b z Ha Hb Qa Qb.
          assert (Hca : a <> v) by (intros ->; rewrite Ef in Ha; by destruct (flo i)).
          assert (Hcb : b <> v) by (intros ->; rewrite Ef in Hb; by destruct (flo i)).
          rewrite list_lookup_insert_ne in Qa by done. rewrite list_lookup_insert_ne in Qb by done. by apply (ci_pair0 a b z).
        * intros b Hb. destruct (ci_bit0 b Hb) as (u & z & Hu & Hz & Hzb). exists u, z. split; [done|]. split; [|done].
          rewrite list_lookup_insert_ne; [done|]. intros ->. by apply (Hneq u z Hz).
    - clear Ec. destruct (list.last (active p)) as [s|] eqn:El; [|done]. cbn [mbind option_bind].
      apply last_Some in El as [l El].
      assert (Hs : s ∈ active p) by (rewrite El; apply elem_of_app; right; by left).
      destruct (ci_act _ _ _ _ _ H s Hs) as (Sd & Sf & r & Sr & Sb).
      assert (Hsv : s <> v) by (by apply (Hneq s r)).
      destruct (en v <? en s) eqn:E.
      + rewrite Sr. cbn [mbind option_bind]. intros [= <- <-]. apply Z.ltb_lt in E.
        assert (Hls : (s < length ps)%nat) by (by apply lookup_lt_Some in Sr).
        assert (Hrl : removelast (active p) = l) by (rewrite El; apply removelast_last). rewrite Hrl.
        assert (Hl : forall x, x ∈ l -> x ∈ active p) by (intros x Hx; rewrite El; apply elem_of_app; by left).
        assert (Hnd : NoDup (l ++ [s])) by (rewrite <- El; by apply (ci_nodup _ _ _ _ _ H)).
        apply NoDup_app in Hnd as (Hndl & Hsl & _).
        assert (Hsl' : forall x, x ∈ l -> x <> s) by (intros x Hx ->; apply (Hsl s Hx); by left).
        assert (Hold : forall u q, <[s := Spill]> (<[v := Reg r]> ps) !! u = Some (Reg q) -> u <> s /\ ((u = v /\ q = r) \/ (u <> v /\ ps !! u = Some (Reg q)))).
        { intros u q Hu. destruct (decide (u = s)) as [->|Hne].
          - rewrite list_lookup_insert in Hu by (by rewrite insert_length). done.
          - rewrite list_lookup_insert_ne in Hu by done. split; [done|]. destruct (decide (u = v)) as [->|Hne'].
            + rewrite list_lookup_insert in Hu by done. left. split; [done|congruence].
            + rewrite list_lookup_insert_ne in Hu by done. by right. }
        assert (Hin : forall u q, u <> s -> u <> v -> ps !! u = Some (Reg q) -> <[s := Spill]> (<[v := Reg r]> ps) !! u = Some (Reg q)).
        { intros u q H1 H2 Hu. by rewrite !list_lookup_insert_ne by done. }
        assert (Hinv : <[s := Spill]> (<[v := Reg r]> ps) !! v = Some (Reg r)).
        { rewrite list_lookup_insert_ne by done. by rewrite list_lookup_insert by done. }
        assert (Hclash : forall u, u <> s -> ps !! u = Some (Reg r) -> fl u = flo i -> en u <= st v).
        { intros u Hus Hu Hfu. destruct (ci_done _ _ _ _ _ H u r Hu Hfu) as (_ & _ & _ & _ & [Hi|?]); [|done]. exfalso.
          apply Hus. by apply (ci_dist _ _ _ _ _ H u s r). }
        assert (Hclash' : forall u, u <> s -> ps !! u = Some (Reg r) -> fl u = flo i -> st v <= st u -> en v <= st u).
        { intros u Hus Hu Hfu Hle. destruct (ci_done _ _ _ _ _ H u r Hu Hfu) as (Hdu & _). specialize (Hclash u Hus Hu Hfu).
          destruct (Hbef u Hdu) as [?|[? [?|[? _]]]]; lia. }
        destruct (ci_done _ _ _ _ _ H s r Sr Sf) as (_ & Socc & Sused & Smax & _).
        split; [|split; [by rewrite !insert_length|]].
        * split; cbn [active inuse used].
          -- intros u Hu. apply insert_active_in in Hu as [->|Hu].
             ++ split; [by left|]. split; [done|]. by exists r.
             ++ destruct (ci_act _ _ _ _ _ H u (Hl u Hu)) as (A1 & A2 & q & A3 & A4). split; [by right|]. split; [done|]. exists q.
                split; [|done]. apply Hin; [by apply Hsl'|by apply (Hneq u q)|done].
          -- rewrite insert_active_perm. apply NoDup_cons. split; [|done].
             intros Hu. destruct (ci_act _ _ _ _ _ H v (Hl v Hu)) as (_ & _ & q & A3 & _). by apply (Hnv q).
          -- assert (Hx : forall x, x ∈ l -> ps !! x = Some (Reg r) -> False).
             { intros x Hx Hq. apply (Hsl' x Hx). by apply (ci_dist _ _ _ _ _ H x s r (Hl x Hx)). }
             assert (Hlv : v ∉ l). { intros Hx0. destruct (ci_act _ _ _ _ _ H v (Hl v Hx0)) as (_ & _ & q' & A3 & _). by destruct (Hnv q'). }
             intros a b q Ha Hb Qa Qb. apply insert_active_in in Ha as [->|Ha]; apply insert_active_in in Hb as [->|Hb]; [done|..].
             ++ apply Hold in Qa as [_ [[_ ->]|[? _]]]; [|done]. apply Hold in Qb as [_ [[-> _]|[_ Qb]]]; [done|]. by destruct (Hx b).
             ++ apply Hold in Qb as [_ [[_ ->]|[? _]]]; [|done]. apply Hold in Qa as [_ [[-> _]|[_ Qa]]]; [done|]. by destruct (Hx a).
             ++ apply Hold in Qa as [_ [[-> _]|[_ Qa]]]; [done|]. apply Hold in Qb as [_ [[-> _]|[_ Qb]]]; [done|].
                apply (ci_dist _ _ _ _ _ H a b q); auto.
          -- intros u q Hu Hfu. apply Hold in Hu as [Hus [[-> ->]|[_ Hu]]].
             ++ split; [by left|]. split.
                { destruct (N.testbit (occ_of occ v) (N.of_nat r)) eqn:Eo; [|done].
                  rewrite (Hmono s v (N.of_nat r)) in Socc; [done|congruence|by apply Hst|done|done]. }
                split; [by rewrite N.lor_spec, Sused|]. split; [done|]. left. apply insert_active_in. by left.
             ++ destruct (ci_done _ _ _ _ _ H u q Hu Hfu) as (A1 & A2 & A3 & A4 & A5). split; [by right|]. split; [done|].
                split; [by rewrite N.lor_spec, A3|]. split; [done|]. destruct A5 as [A5|A5]; [|by right]. left. apply insert_active_in. right.
                rewrite El in A5. apply elem_of_app in A5 as [?|A5]; [done|]. by apply elem_of_list_singleton in A5.
          -- intros a b q Ha Hb Qa Qb Hne Hle. apply Hold in Qa as [Has [[-> ->]|[_ Qa]]]; apply Hold in Qb as [Hbs [[-> Eq]|[_ Qb]]]; [done|..].
             ++ by apply Hclash'.
             ++ subst q. by apply Hclash.
             ++ by apply (ci_pair _ _ _ _ _ H a b q).
          -- intros b Hb. destruct (ci_bit _ _ _ _ _ H b Hb) as (u & q & Hu & Hq & Hqb). destruct (decide (u = s)) as [->|Hne].
             ++ rewrite Sr in Hq. injection Hq as <-. exists v, r. split; [apply insert_active_in; by left|]. done.
             ++ exists u, q. split; [|split; [|done]].
                ** apply insert_active_in. right. rewrite El in Hu. apply elem_of_app in Hu as [?|Hu]; [done|]. by apply elem_of_list_singleton in Hu.
                ** apply Hin; [done|by apply (Hneq u q)|done].
        * intros q Hq.
          assert (Hoth : forall u, fl u = negb (flo i) -> u <> v /\ u <> s).
          { intros u Hu. split; intros ->; [rewrite Ef in Hu|rewrite Sf in Hu]; by destruct (flo i). }
          destruct Hq; split; try done.
          -- intros u Hu. destruct (ci_act0 u Hu) as (A1 & A2 & z & A3 & A4). split; [by right|]. split; [done|]. exists z.
             destruct (Hoth u A2). split; [by apply Hin|done].
          -- intros a b z Ha Hb Qa Qb. destruct (ci_act0 a Ha) as (_ & A2 & _). destruct (ci_act0 b Hb) as (_ & B2 & _).
             destruct (Hoth a A2), (Hoth b B2).
             apply Hold in Qa as [_ [[-> _]|[_ Qa]]]; [done|]. apply Hold in Qb as [_ [[-> _]|[_ Qb]]]; [done|]. by apply (ci_dist0 a b z).
          -- intros u z Hu Hfu. destruct (Hoth u Hfu). apply Hold in Hu as [_ [[-> _]|[_ Hu]]]; [done|].
             destruct (ci_done0 u z Hu Hfu) as (A1 & A2). split; [by right|done].
          -- intros a b z Ha Hb Qa Qb. destruct (Hoth a Ha), (Hoth b Hb).
             apply Hold in Qa as [_ [[-> _]|[_ Qa]]]; [done|]. apply Hold in Qb as [_ [[-> _]|[_ Qb]]]; [done|]. by apply (ci_pair0 a b z).
          -- intros b Hb. destruct (ci_bit0 b Hb) as (u & z & Hu & Hz & Hzb). exists u, z. split; [done|]. split; [|done].
             destruct (ci_act0 u Hu) as (_ & A2 & _). destruct (Hoth u A2). by apply Hin.
      + intros [= <- <-].
        assert (Hold : forall u q, <[v := Spill]> ps !! u = Some (Reg q) -> ps !! u = Some (Reg q)).
        { intros u q Hu. destruct (decide (u = v)) as [->|Hne]; [by rewrite list_lookup_insert in Hu by done|].
          by rewrite list_lookup_insert_ne in Hu by done. }
        split; [|split; [by rewrite insert_length|]].
        * destruct H; split; cbn [active inuse used].
          -- intros u Hu. destruct (ci_act0 u Hu) as (A1 & A2 & q & A3 & A4). split; [by right|]. split; [done|]. exists q.
             split; [|done]. rewrite list_lookup_insert_ne; [done|]. intros ->. by apply (Hneq u q A3).
          -- done.
          -- intros a b q Ha Hb Qa Qb. apply (ci_dist0 a b q); auto.
          -- intros u q Hu Hfu. destruct (ci_done0 u q (Hold u q Hu) Hfu) as (A1 & A2 & A3 & A4). split; [by right|]. split; [done|].
             split; [by rewrite N.lor_spec, A3|done].
          -- intros a b q Ha Hb Qa Qb. apply (ci_pair0 a b q); auto.
          -- intros b Hb. destruct (ci_bit0 b Hb) as (u & z & Hu & Hz & Hzb). exists u, z. split; [done|]. split; [|done].
             rewrite list_lookup_insert_ne; [done|]. intros ->. by apply (Hneq u z Hz).
        * intros q Hq. destruct Hq; split; try done.
          -- intros u Hu. destruct (ci_act0 u Hu) as (A1 & A2 & z & A3 & A4). split; [by right|]. split; [done|]. exists z.
             split; [|done]. rewrite list_lookup_insert_ne; [done|]. intros ->. by apply (Hneq u z A3).
          -- intros a b z Ha Hb Qa Qb. apply (ci_dist0 a b z); auto.
          -- intros u z Hu Hfu. destruct (ci_done0 u z (Hold u z Hu) Hfu) as (A1 & A2). split; [by right|done].
          -- intros a b z Ha Hb Qa Qb. apply (ci_pair0 a b z); auto.
          -- intros b Hb. destruct (ci_bit0 b Hb) as (u & z & Hu & Hz & Hzb). exists u, z. split; [done|]. split; [|done].
             rewrite list_lookup_insert_ne; [done|]. intros ->. by apply (Hneq u z Hz).
  Qed.

  Lemma cinv_skip c done cur p ps v s : cinv c done cur p ps -> cur <= s -> cinv c (v :: done) s p ps.
  Proof.
    intros [] Hs. split; try done.
    - intros u Hu. destruct (ci_act0 u Hu) as (A1 & A2). split; [by right|done].
    - intros u z Hu Hfu. destruct (ci_done0 u z Hu Hfu) as (A1 & A2 & A3 & A4 & A5). split; [by right|]. repeat (split; [done|]).
      destruct A5; [by left|right; lia].
  Qed.

  Definition all_inv (done : list nat) (cur : Z) (x : regset * regset * list place) : Prop :=
    length x.2 = length vs /\ cinv false done cur x.1.1 x.2 /\ cinv true done cur x.1.2 x.2.
  Definition settled (ps : list place) (v : nat) : Prop :=
    match vs !! v, ps !! v with
    | Some i, Some p => present i = true -> p <> NotYet
    | _, _ => False
    end.
  Lemma scan1_ok done cur x v y : (v < length vs)%nat -> v ∉ done -> cur <= st v -> (forall u, u ∈ done -> before iv u v) ->
    all_inv done cur x -> scan1 se vs iv occ v x = Some y -> all_inv (v :: done) (st v) y.
  Proof.
    intros Hlt Hnd Hcur Hbv HI E1. destruct x as [[ir fr] ps]. destruct HI as (Hlen & Hi & Hfr). cbn [fst snd] in *. unfold scan1 in E1.
    destruct (lookup_lt_is_Some_2 vs v Hlt) as [i Hi']. rewrite Hi' in E1. cbn [mbind option_bind] in E1.
    destruct (negb (present i) || vspilled i).
    - injection E1 as <-. split; [done|]. cbn [fst snd]. split; by apply (cinv_skip _ _ cur).
    - apply (expire_ok _ _ _ _ _ (st v)) in Hi; [|done]. apply (expire_ok _ _ _ _ _ (st v)) in Hfr; [|done].
      destruct (flo i) eqn:Efl.
      + destruct (place1 se iv occ v i (expire iv (st v) ps fr) ps) as [[fr' ps']|] eqn:Ep; [|done].
        cbn [mbind option_bind] in E1. injection E1 as <-.
        destruct (place1_ok v i done _ ps fr' ps' Hi' Hnd ltac:(lia) Hbv ltac:(by rewrite Efl) Ep) as (P1 & P2 & P3).
        rewrite Efl in P1, P3. split; [cbn [fst snd]; by rewrite P2|]. cbn [fst snd]. split; [by apply P3|done].
      + destruct (place1 se iv occ v i (expire iv (st v) ps ir) ps) as [[ir' ps']|] eqn:Ep; [|done].
        cbn [mbind option_bind] in E1. injection E1 as <-.
        destruct (place1_ok v i done _ ps ir' ps' Hi' Hnd ltac:(lia) Hbv ltac:(by rewrite Efl) Ep) as (P1 & P2 & P3).
        rewrite Efl in P1, P3. split; [cbn [fst snd]; by rewrite P2|]. cbn [fst snd]. split; [done|by apply P3].
  Qed.
  Lemma scan_ok l : forall done cur x x', StronglySorted (before iv) l -> (forall u v, u ∈ done -> v ∈ l -> before iv u v) ->
    (forall v, v ∈ l -> (v < length vs)%nat /\ v ∉ done /\ cur <= st v) -> NoDup l ->
    all_inv done cur x -> scan se vs iv occ l x = Some x' -> exists cur', all_inv (reverse l ++ done) cur' x'.
  Proof.
    induction l as [|v l IH]; intros done cur x x' Hs Hb Hl Hn HI E; cbn [scan] in E.
    - injection E as <-. by exists cur.
    - apply StronglySorted_inv in Hs as [Hs Hf]. apply NoDup_cons in Hn as [Hvl Hn].
      destruct (Hl v) as (Hlt & Hnd & Hcur); [by left|].
      destruct (scan1 se vs iv occ v x) as [y|] eqn:E1; [|done]. cbn [mbind option_bind] in E.
      assert (HI' : all_inv (v :: done) (st v) y).
      { apply (scan1_ok done cur x); [done..| |done|done]. intros u Hu. apply Hb; [done|by left]. }
      destruct (IH (v :: done) (st v) y x' Hs) as (cur' & HI''); [..|done|done|].
      + intros u w Hu Hw. apply elem_of_cons in Hu as [->|Hu]; [by apply (proj1 (stdpp.list.Forall_forall _ _) Hf)|apply Hb; [done|by right]].
      + intros w Hw. destruct (Hl w) as (W1 & W2 & W3); [by right|]. split; [done|]. split.
        * intros Hx. apply elem_of_cons in Hx as [->|Hx]; done.
        * assert (before iv v w) as [?|[? _]] by (by apply (proj1 (stdpp.list.Forall_forall _ _) Hf)); lia.
      + done.
      + exists cur'. rewrite reverse_cons, <- app_assoc. done.
  Qed.

  (** No failure, when some register is never occupied. *)
  Definition never_occupied (c : bool) : Prop := exists r, (temp_of c <= r < max_of c)%nat /\ forall v, fl v = c -> N.testbit (occ_of occ v) (N.of_nat r) = false.
  Lemma find_free_none fuel j o r : find_free fuel j o = None -> (j <= r < j + fuel)%nat -> N.testbit o (N.of_nat r) = true.
  Proof.
    revert j. induction fuel as [|fuel IH]; intros j H Hr; [lia|]. cbn in H. destruct (N.testbit o (N.of_nat j)) eqn:E; [|done].
    destruct (decide (r = j)) as [->|Hne]; [done|]. apply (IH (S j) H). lia.
  Qed.
  Lemma choose_none i o r : choose se i (max_of (flo i)) (temp_of (flo i)) o = None -> (temp_of (flo i) <= r < max_of (flo i))%nat -> N.testbit o (N.of_nat r) = true.
  Proof.
    unfold choose. intros H Hr.
    assert (Hf : find_free (max_of (flo i) - temp_of (flo i)) (temp_of (flo i)) o = None -> N.testbit o (N.of_nat r) = true).
    { intros H'. apply (find_free_none _ _ _ _ H'). lia. }
    destruct (pindex i) as [ip|].
    - destruct (if flo i then Some ip else mapping se ip) as [q|]; [|by apply Hf]. destruct (N.testbit o (N.of_nat q)); [by apply Hf|done].
    - apply (find_free_none _ _ _ _ H). lia.
  Qed.
  Lemma place1_total v i done p ps : vs !! v = Some i -> never_occupied (flo i) -> cinv (flo i) done (st v) p ps ->
    exists y, place1 se iv occ v i p ps = Some y.
  Proof.
    intros Hv (r & Hr & Hocc) H. unfold place1.
    assert (Ef : fl v = flo i) by (unfold flo_of; by rewrite Hv).
    assert (Emt : (if flo i then (fphys_max se, ftemporary se) else (phys_max se, temporary se)) = (max_of (flo i), temp_of (flo i))).
    { unfold max_of, temp_of. by destruct (flo i). }
    rewrite Emt. destruct (choose _ _ _ _ _) as [q|] eqn:Ec; [by eexists|].
    apply (choose_none i _ r) in Ec; [|done]. rewrite N.lor_spec, (Hocc v Ef), orb_false_r in Ec.
    destruct (ci_bit _ _ _ _ _ H _ Ec) as (u & q & Hu & _).
    destruct (list.last (active p)) as [s|] eqn:El.
    - cbn [mbind option_bind]. destruct (en v <? en s); [|by eexists]. apply last_Some in El as [l El].
      destruct (ci_act _ _ _ _ _ H s) as (_ & _ & z & Hz & _); [rewrite El; apply elem_of_app; right; by left|]. rewrite Hz. by eexists.
    - apply last_None in El. rewrite El in Hu. by apply elem_of_nil in Hu.
  Qed.
  Lemma scan_total l : (forall c, never_occupied c) -> forall done cur x, StronglySorted (before iv) l -> (forall u v, u ∈ done -> v ∈ l -> before iv u v) ->
    (forall v, v ∈ l -> (v < length vs)%nat /\ v ∉ done /\ cur <= st v) -> NoDup l ->
    all_inv done cur x -> exists x', scan se vs iv occ l x = Some x'.
  Proof.
    intros Hnever. induction l as [|v l IH]; intros done cur x Hs Hb Hl Hn HI; cbn [scan]; [by eexists|].
    apply StronglySorted_inv in Hs as [Hs Hf]. apply NoDup_cons in Hn as [Hvl Hn].
    destruct (Hl v) as (Hlt & Hnd & Hcur); [by left|].
    assert (exists y, scan1 se vs iv occ v x = Some y) as [y E1].
    { destruct x as [[ir fr] ps]. destruct HI as (Hlen & Hi & Hfr). cbn [fst snd] in *. unfold scan1.
      destruct (lookup_lt_is_Some_2 vs v Hlt) as [i Hi']. rewrite Hi'. cbn [mbind option_bind].
      destruct (negb (present i) || vspilled i); [by eexists|].
      apply (expire_ok _ _ _ _ _ (st v)) in Hi; [|done]. apply (expire_ok _ _ _ _ _ (st v)) in Hfr; [|done].
      destruct (flo i) eqn:Efl.
      - destruct (place1_total v i done (expire iv (st v) ps fr) ps Hi' (Hnever _) ltac:(by rewrite Efl)) as [[y1 y2] ->]. by eexists.
      - destruct (place1_total v i done (expire iv (st v) ps ir) ps Hi' (Hnever _) ltac:(by rewrite Efl)) as [[y1 y2] ->]. by eexists. }
    rewrite E1. cbn [mbind option_bind]. apply (IH (v :: done) (st v)).
    - done.
    - intros u w Hu Hw. apply elem_of_cons in Hu as [->|Hu]; [by apply (proj1 (stdpp.list.Forall_forall _ _) Hf)|apply Hb; [done|by right]].
    - intros w Hw. destruct (Hl w) as (W1 & W2 & W3); [by right|]. split; [done|]. split.
      * intros Hx. apply elem_of_cons in Hx as [->|Hx]; done.
      * assert (before iv v w) as [?|[? _]] by (by apply (proj1 (stdpp.list.Forall_forall _ _) Hf)); lia.
    - done.
    - apply (scan1_ok done cur x); [done..| |done|done]. intros u Hu. apply Hb; [done|by left].
  Qed.
  (** Every register gets a place. *)
  Lemma place1_settled done v i p ps p' ps' : vs !! v = Some i -> (v < length ps)%nat -> cinv (flo i) done (st v) p ps ->
    place1 se iv occ v i p ps = Some (p', ps') ->
    settled ps' v /\ forall u, settled ps u -> settled ps' u.
  Proof.
    intros Hv Hlen H. unfold place1. destruct (if flo i then _ else _) as [mx tm].
    assert (Hset : forall (l : list place) u q, (u < length l)%nat -> q <> NotYet -> u = v -> settled (<[u := q]> l) v).
    { intros l u q Hu Hq ->. unfold settled. rewrite Hv, list_lookup_insert by done. done. }
    assert (Hkeep : forall (l : list place) u q w, q <> NotYet -> settled l w -> settled (<[u := q]> l) w).
    { intros l u q w Hq Hw. unfold settled in *. destruct (vs !! w) as [j|]; [|done]. destruct (decide (w = u)) as [->|Hne].
      - destruct (l !! u) as [z|] eqn:El; [|done]. rewrite list_lookup_insert by (by apply lookup_lt_Some in El). done.
      - by rewrite list_lookup_insert_ne. }
    destruct (choose se i mx tm _) as [r|].
    - intros [= <- <-]. split; [by apply Hset|]. intros u Hu. by apply Hkeep.
    - destruct (list.last (active p)) as [s|] eqn:El; [|done]. cbn [mbind option_bind]. apply last_Some in El as [l El].
      destruct (ci_act _ _ _ _ _ H s) as (_ & _ & r & Sr & _); [rewrite El; apply elem_of_app; right; by left|].
      destruct (en v <? en s).
      + rewrite Sr. cbn [mbind option_bind]. intros [= <- <-]. split; [apply Hkeep; [done|by apply Hset]|]. intros u Hu. apply Hkeep; [done|]. by apply Hkeep.
      + intros [= <- <-]. split; [by apply Hset|]. intros u Hu. by apply Hkeep.
  Qed.
  Lemma scan_settled l : forall done cur x x', StronglySorted (before iv) l -> (forall u v, u ∈ done -> v ∈ l -> before iv u v) ->
    (forall v, v ∈ l -> (v < length vs)%nat /\ v ∉ done /\ cur <= st v) -> NoDup l ->
    all_inv done cur x -> (forall v i, vs !! v = Some i -> vspilled i = true -> settled x.2 v) ->
    scan se vs iv occ l x = Some x' -> 
    (forall v, v ∈ l -> settled x'.2 v) /\ (forall v, settled x.2 v -> settled x'.2 v).
  Proof.
    induction l as [|v l IH]; intros done cur x x' Hs Hb Hl Hn HI Hsp E; cbn [scan] in E.
    - injection E as <-. split; [intros v Hv; by apply elem_of_nil in Hv|done].
    - apply StronglySorted_inv in Hs as [Hs Hf]. apply NoDup_cons in Hn as [Hvl Hn].
      destruct (Hl v) as (Hlt & Hnd & Hcur); [by left|].
      destruct (scan1 se vs iv occ v x) as [y|] eqn:E1; [|done]. cbn [mbind option_bind] in E.
      assert (HI' : all_inv (v :: done) (st v) y).
      { apply (scan1_ok done cur x); [done..| |done|done]. intros u Hu. apply Hb; [done|by left]. }
      assert (Hy : settled y.2 v /\ forall u, settled x.2 u -> settled y.2 u).
      { destruct x as [[ir fr] ps]. destruct HI as (Hlen & Hi & Hfr). cbn [fst snd] in *. unfold scan1 in E1.
        destruct (lookup_lt_is_Some_2 vs v Hlt) as [i Hi']. rewrite Hi' in E1. cbn [mbind option_bind] in E1.
        destruct (negb (present i) || vspilled i) eqn:Ei.
        - injection E1 as <-. cbn [snd]. split; [|done]. apply orb_true_iff in Ei as [Ei|Ei]; [|by apply (Hsp v i)].
          unfold settled. rewrite Hi'. destruct (lookup_lt_is_Some_2 ps v ltac:(lia)) as [z ->]. by destruct (present i).
        - apply (expire_ok _ _ _ _ _ (st v)) in Hi; [|done]. apply (expire_ok _ _ _ _ _ (st v)) in Hfr; [|done].
          destruct (flo i) eqn:Efl.
          + destruct (place1 se iv occ v i (expire iv (st v) ps fr) ps) as [[fr' ps']|] eqn:Ep; [|done].
            cbn [mbind option_bind] in E1. injection E1 as <-. cbn [snd].
            apply (place1_settled done v i (expire iv (st v) ps fr) ps fr' ps' Hi'); [lia|by rewrite Efl|done].
          + destruct (place1 se iv occ v i (expire iv (st v) ps ir) ps) as [[ir' ps']|] eqn:Ep; [|done].
            cbn [mbind option_bind] in E1. injection E1 as <-. cbn [snd].
            apply (place1_settled done v i (expire iv (st v) ps ir) ps ir' ps' Hi'); [lia|by rewrite Efl|done]. }
      destruct Hy as [Hy1 Hy2].
      destruct (IH (v :: done) (st v) y x' Hs) as [K1 K2]; [..|done|done| |done|].
      + intros u w Hu Hw. apply elem_of_cons in Hu as [->|Hu]; [by apply (proj1 (stdpp.list.Forall_forall _ _) Hf)|apply Hb; [done|by right]].
      + intros w Hw. destruct (Hl w) as (W1 & W2 & W3); [by right|]. split; [done|]. split.
        * intros Hx. apply elem_of_cons in Hx as [->|Hx]; done.
        * assert (before iv v w) as [?|[? _]] by (by apply (proj1 (stdpp.list.Forall_forall _ _) Hf)); lia.
      + intros w j Hw Hj. apply Hy2. by apply (Hsp w j).
      + split; [|by auto]. intros w Hw. apply elem_of_cons in Hw as [->|Hw]; [by apply K2|by apply K1].
  Qed.
End lin.

Lemma before_trans iv : Transitive (before iv).
Proof. intros a b c. unfold before. lia. Qed.
Lemma before_total iv : Total (before iv).
Proof. intros a b. unfold before. lia. Qed.
Lemma sorted_ok vs iv : StronglySorted (before iv) (sorted_intervals vs iv) /\ sorted_intervals vs iv ≡ₚ seq 0 (length vs).
Proof.
  split; [|apply merge_sort_Permutation]. apply StronglySorted_merge_sort; [apply before_trans|apply before_total].
Qed.
