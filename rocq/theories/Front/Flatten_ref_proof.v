(** Lengths of arrays, and initialisers that are not treated as they should. *)
From stdpp Require Import base list numbers.
From Verif Require Import Front.Static_model Front.Flatten_model Front.Flatten_spec Front.Flatten_proof Front.Flatten_term_proof
  Front.Flatten_store_proof Front.Flatten_sound_proof Front.Flatten_full_proof.
Local Open Scope Z_scope.

Section lengths.
  Context (obj : iexpr -> option fty) (same : fty -> fty -> bool) (fuel : nat).

  Lemma declared_length t l t' v : ok (FArr t None) -> (forall e, ~ string_of (FArr t None) l e) ->
    declared obj same fuel (FArr t None) (RMulti l) = Done (t', v) ->
    exists out, means obj same true (FArr t None) (RMulti l) (([], None) :: out) /\ t' = FArr t (Some (array_end out)).
  Proof.
    intros Hok Hn E. unfold declared in E. destruct (flatten obj same fuel (RMulti l) (FArr t None)) as [v'| | | |] eqn:Ef; try done.
    destruct (lone_string (FArr t None) l) as [e|] eqn:Els; [apply lone_string_spec in Els; by destruct (Hn e)|].
    destruct (multi_sound obj same fuel (FArr t None) l v' eq_refl Els Hok) as (out & tree & -> & Hm & _ & _ & Hlen); [|done|].
    { apply stdpp.list.Forall_forall. intros x _. apply flatten_sound. }
    cbn [bind] in E. cbn in E. injection E as <- <-. exists out. split; [done|]. rewrite Nat2Z.id. rewrite Hlen. done.
  Qed.

  Lemma scalar_items t n (Ht : is_multi t = false) l : forall i out, -1 <= i ->
    items obj same true (FArr t (Some n)) [i] l out -> forall len, 0 <= len -> count_raw l (i + 1) len = Z.max len (Z.of_nat (array_end out)).
  Proof.
    assert (Hsub : forall q t', sub t q t' -> q = []) by (intros q t' H; inversion H as [|? ? ? ? ? [_ Hp]]; subst; [done|by destruct t]).
    induction l as [|[ds r] l IH]; intros i out Hi H len Hlen; inversion H as [|? ? ? ? q t' o1 o2 Hn Hm Hi2|? ? ? ? ? q t' o1 o2 Hne Hd Htk Hs Hm Hi2|? ? ? ? ? c t0 q t' o1 o2 Hne Hd Htk Hs Hn Hm Hi2]; subst.
    - cbn. lia.
    - assert (q = [i + 1]) as ->.
      { destruct Hn as (Ha & Htk & Hmin). destruct Ha as (c & k & s & j & s' & t0 & E & -> & Hlt & Hc & Hts).
        destruct c as [|x c]; [|by destruct c]. injection E as <- <-. inversion Hc; subst.
        inversion Hts as [|? ? t1 ? ? Hj Hr]; subst. destruct Hj as [[Hj0 [-> Hjn]] _]. apply turns_sub, Hsub in Hr as ->. cbn [app].
        destruct (Hmin [i + 1] t) as [[= <-]|He]; [|by destruct t, r as [[]|]|done|].
        - exists [], i, [], (i + 1), [], (FArr t (Some n)). repeat split; [lia|constructor|]. econstructor; [|constructor].
          split; [|done]. split; [lia|]. split; [done|lia].
        - apply earlier_cons in He as [|[-> _]]; [lia|done]. }
      destruct (means_head _ _ _ _ _ _ Hm) as (v0 & o' & Eo). rewrite array_end_app, (array_end_inside _ _ _ _ _ Eo). cbn [count_raw].
      rewrite (IH (i + 1) _ ltac:(lia) Hi2) by lia. lia.
    - assert (exists k, ds = [DBrkt k] /\ q = [k] /\ 0 <= k) as (k & -> & -> & Hk).
      { inversion Hd as [|? ? ? ? ? ? Hp Hd'|? ? ? ? ? ? ? Hdot]; subst; [done| |inversion Hdot].
        assert (Hz := Hsub _ _ (designated_sub _ _ _ _ Hd')). subst.
        assert (ds0 = []) as -> by (destruct ds0; [done|]; by destruct (designated_nil _ _ _ _ Hd')).
        exists i0. split; [done|]. split; [done|apply Hp]. }
      destruct (means_head _ _ _ _ _ _ Hm) as (v0 & o' & Eo). rewrite array_end_app, (array_end_inside _ _ _ _ _ Eo). cbn [count_raw].
      rewrite (IH k _ ltac:(lia) Hi2) by lia. lia.
    - exfalso. inversion Hd as [|? ? ? ? ? ? Hp Hd'|? ? ? ? ? ? ? Hdot]; subst; [done| |inversion Hdot].
      assert (Hz := designated_sub _ _ _ _ Hd'). assert (Hz' := Hsub _ _ Hz). subst. inversion Hz; subst. apply Htk. destruct t0, e; done.
  Qed.

  Lemma literal_length t l t' v : is_multi t = false -> (forall n e, ~ string_of (FArr t n) l e) ->
    literal obj same fuel (FArr t None) l = Done (t', v) ->
    exists out, means obj same true t' (RMulti l) (([], None) :: out) /\ t' = FArr t (Some (array_end out)).
  Proof.
    intros Ht Hn E. unfold literal in E. cbn [fix_array_size bind] in E. set (n := Z.to_nat (count_raw l 0 0)) in *.
    assert (ok (FArr t (Some n))) as Hok by (by destruct t).
    destruct (flatten obj same fuel (RMulti l) (FArr t (Some n))) as [v'| | | |] eqn:Ef; try done. injection E as <- <-.
    destruct (lone_string (FArr t (Some n)) l) as [e|] eqn:Els; [apply lone_string_spec in Els; by destruct (Hn (Some n) e)|].
    destruct (multi_sound obj same fuel (FArr t (Some n)) l v' eq_refl Els Hok) as (out & tree & -> & Hm & _ & _ & _); [|done|].
    { apply stdpp.list.Forall_forall. intros x _. apply flatten_sound. }
    exists out. split; [done|]. inversion Hm as [| | | |? ? ? _ _ Hi]; subst.
    assert (H := scalar_items t n Ht l (-1) out ltac:(lia) Hi 0 ltac:(lia)). change (-1 + 1) with 0 in H. do 2 f_equal. lia.
  Qed.
End lengths.

(** ** Refutations *)
Lemma string_part : exists t r v out p, ok t /\
  (forall f, (5 <= f)%nat -> flatten no_obj no_same f r t = Done v) /\ means no_obj no_same false t r out /\
  last_given out p = Some (XStr false abc, [2]) /\ value_at (Some v) p = None.
Proof.
  exists name_type, name_raw.
  destruct (flatten_sound no_obj no_same 5 name_raw name_type (IMulti [Some (IMulti [None; Some (ISingle (XFix 88)); None; None])])) as (out & Hm & _).
  { cbn. intuition. all: congruence. }
  { done. }
  eexists _, out, [0; 2]. split; [cbn; intuition; congruence|]. split; [|split; [by apply means_weaken|]].
  - intros f Hf. apply (flatten_le no_obj no_same 5 f name_raw Hf). reflexivity.
  - split; [|done].
    assert (means no_obj no_same true name_type name_raw [([], None); ([0], Some (XStr false abc)); ([0; 1], Some (XFix 88))]) as Hm2.
    { apply me_list; [done|by intros e (? & ? & ? & ? & ? & ?)|].
      apply (it_next no_obj no_same true name_type [-1] (str abc) _ [0] (FArr (FChar false) (Some 4%nat)) [([], Some (XStr false abc))] [([0; 1], Some (XFix 88))]).
      - assert (H := search_spec no_obj no_same name_type (str abc) ltac:(cbn; intuition; congruence) 5 0 [] name_type ltac:(constructor) eq_refl ltac:(lia)). exact H.
      - apply me_expr. cbn. auto.
      - apply (it_there no_obj no_same true name_type [0] _ (num 88) [] [0; 1] (FChar false) [([], Some (XFix 88))] []); [done| |done|eauto|by apply me_expr|constructor].
        change [0; 1] with ([Z.of_nat 0] ++ [1]). eapply de_member; [by econstructor|]. apply de_index; [|constructor]. split; [lia|]. split; [done|lia]. }
    assert (out = _) as -> by (apply (proj1 (means_unique no_obj no_same true) _ _ _ Hm _ Hm2)). done.
Qed.

Lemma braced_scalar : exists t r out, ok t /\ means no_obj no_same false t r out /\ forall f, flatten no_obj no_same f r t = Crash.
Proof.
  exists one_type, one_raw. eexists. split; [cbn; intuition; congruence|]. split; [|done].
  apply me_list; [done|by intros e (? & ? & ? & ? & ? & ?)|].
  eapply (it_there no_obj no_same false one_type [-1] _ (RMulti [([], num 1)]) [] [0] (FScalar false)); [done| |done|done|by apply me_braced|constructor].
  change [0] with ([Z.of_nat 0] ++ []). eapply de_member; [by econstructor|constructor].
Qed.

Lemma string_inside : exists t r out, ok t /\ means no_obj no_same false t r out /\ forall f, flatten no_obj no_same f r t = Misfit.
Proof.
  exists names_type, names_raw. eexists. split; [cbn; intuition; congruence|]. split; [|done].
  apply me_list; [done|by intros e (? & ? & ? & ? & ? & ?)|].
  eapply (it_part no_obj no_same false names_type [-1] _ (XStr false abc) [] [0] (FArr (FArr (FChar false) (Some 4%nat)) (Some 2%nat)) [0; 0] (FArr (FChar false) (Some 4%nat))); [done| |done|done| | |constructor].
  - change [0] with ([Z.of_nat 0] ++ []). eapply de_member; [by econstructor|constructor].
  - assert (H := search_spec no_obj no_same names_type (str abc) ltac:(cbn; intuition; congruence) 5 0 [0] _ ltac:(apply type_at_sub; reflexivity) eq_refl ltac:(lia)). exact H.
  - apply me_expr. cbn. auto.
Qed.

Lemma unnamed : exists t r v out, (forall f, (1 <= f)%nat -> flatten no_obj no_same f r t = Done v) /\ means no_obj no_same false t r out /\
  last_given out [2] = Some (XFix 2, []) /\ value_at (Some v) [2] = None /\ value_at (Some v) [1] = Some (XFix 2, []).
Proof.
  exists bits_type, bits_raw, (IMulti [Some (ISingle (XFix 1)); Some (ISingle (XFix 2)); None]), [([], None); ([0], Some (XFix 1)); ([2], Some (XFix 2))].
  split; [by intros [|f] Hf; [lia|]|]. split; [|done].
  assert (Hleaf : forall p t', turns (FScalar false) p t' -> p = []).
  { intros p t' H. inversion H as [|? ? ? ? ? Hj]; subst; [done|]. by destruct Hj as [[_ H'] _]. }
  assert (Hnext : forall i j, -1 <= i < j -> (j = 0 \/ (i = 0 /\ j = 2)) -> next no_obj no_same bits_type [i] (num (j / 2 + 1)) [j] (FScalar false)).
  { intros i j Hi Hj. split; [|split; [done|]].
    - exists [], i, [], j, [], bits_type. repeat split; [lia|constructor|]. econstructor; [|constructor].
      split; [split; [lia|]|]; destruct Hj as [->|[-> ->]]; [by exists Plain|by exists Plain|done|done].
    - intros q' t0 (c & k & s & j' & s' & t1 & E & -> & Hlt & Hc & Ht) _. destruct c as [|x c]; [|by destruct c]. injection E as <- <-.
      inversion Hc; subst. inversion Ht as [|? ? t2 ? ? Hj2 Hr]; subst. destruct Hj2 as [[Hj0 _] [E2 _]]. cbn [app].
      assert (t2 = FScalar false /\ (j' = 0 \/ j' = 2)) as [-> Hj'].
      { destruct (decide (3 <= Z.to_nat j')%nat) as [H3|H3]; [by rewrite lookup_ge_None_2 in E2|].
        assert (Z.to_nat j' = 0 \/ Z.to_nat j' = 1 \/ Z.to_nat j' = 2)%nat as [H|[H|H]] by lia; rewrite H in E2; cbn in E2; try done; injection E2 as <-; split; try done; lia. }
      apply Hleaf in Hr as ->. destruct (decide (j' = j)) as [->|Hne]; [auto|]. right. right. exists [], j, [], j', []. repeat split; lia. }
  apply me_list; [done|by intros e (? & ? & ? & ? & ? & ?)|].
  apply (it_next no_obj no_same false bits_type [-1] (num 1) _ [0] (FScalar false) [([], Some (XFix 1))] [([2], Some (XFix 2))]); [apply (Hnext (-1) 0); lia|by apply me_expr|].
  apply (it_next no_obj no_same false bits_type [0] (num 2) _ [2] (FScalar false) [([], Some (XFix 2))] []); [apply (Hnext 0 2); lia|by apply me_expr|constructor].
Qed.

Lemma endless_search i f : 0 <= i -> search no_obj no_same f empties [i] (num 1) = NoFuel.
Proof.
  revert i. induction f as [f IH] using lt_wf_ind. intros i Hi. destruct f as [|f]; [done|]. cbn [search]. cbn [reverse rev_append type_at place_at empties].
  replace (stops no_obj no_same (FStruct false []) (num 1)) with false by done.
  destruct f as [|f]; [done|]. cbn [search].
  replace (type_at empties (reverse [i])) with (Some (FStruct false [])); [|cbn; unfold child; destruct (Z.ltb_spec i 0); [lia|done]].
  cbn. apply IH; lia.
Qed.
Lemma endless f : flatten no_obj no_same f (RMulti [([], num 1)]) empties = NoFuel.
Proof. cbn [flatten is_multi empties lone_string string_for num]. cbn [reserve item_loop locate next_index]. by rewrite endless_search by lia. Qed.

Lemma out_of_range f : flatten no_obj no_same f (RMulti [([DBrkt 5], num 1)]) (FArr (FScalar false) (Some 3%nat)) = Crash.
Proof. done. Qed.

Lemma points_ok : ok (FArr point None).
Proof. cbn. split; [intuition; congruence|]. apply (ho_struct false _ 0 (FScalar false)); [|constructor]. split; [split; [lia|by exists Plain]|done]. Qed.
Lemma literal_elided : exists l out v, means no_obj no_same false (FArr point None) (RMulti l) (([], None) :: out) /\ array_end out = 2%nat /\
  forall f, (4 <= f)%nat -> literal no_obj no_same f (FArr point None) l = Done (FArr point (Some 4%nat), v).
Proof.
  exists four. destruct (declared_length no_obj no_same 10 point four (FArr point (Some 2%nat))
    (IMulti [Some (IMulti [Some (ISingle (XFix 1)); Some (ISingle (XFix 2))]); Some (IMulti [Some (ISingle (XFix 3)); Some (ISingle (XFix 4))])])
    points_ok) as (out & Hm & E); [|done|].
  { by intros e (? & ? & ? & ? & ? & ?). }
  exists out. eexists. split; [by apply means_weaken|]. injection E as <-. split; [done|]. intros f Hf.
  unfold literal. cbn [bind fix_array_size]. erewrite (flatten_le no_obj no_same 4 f (RMulti four) Hf); reflexivity.
Qed.
Lemma literal_rejected : exists out, means no_obj no_same false (FArr point (Some 2%nat)) (RMulti four) out /\
  forall f, literal no_obj no_same f (FArr point (Some 2%nat)) four = Rejected.
Proof.
  destruct (flatten_sound no_obj no_same 10 (RMulti four) (FArr point (Some 2%nat)) _ ltac:(cbn; intuition; congruence) eq_refl) as (out & Hm & _).
  exists out. split; [by apply means_weaken|done].
Qed.
Lemma literal_string f : literal no_obj no_same f (FArr (FChar false) None) [([], str abc)] = Done (FArr (FChar false) (Some 1%nat), ISingle (XStr false abc)).
Proof. done. Qed.
