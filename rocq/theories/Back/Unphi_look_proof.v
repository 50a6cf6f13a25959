(** Proofs about blocks with labels, and the order of phis. *)
From stdpp Require Import base list numbers.
From Verif Require Import Back.Unused_model Back.Unphi_model Back.Unphi_spec.
From Verif Require Back.Phi_model Back.Phi_spec Back.Phi_proof Back.Phi_frame_proof.
Local Open Scope nat_scope.

Section Look.
  Context {K C : Type}.
  Implicit Types f : list (nat * blk K (jmp C)).
  Lemma look_inv f l x nx : look f l = Some (x, nx) -> exists i, f !! i = Some (l, x) /\ nx = fst <$> f !! S i.
  Proof.
    induction f as [|[l' y] f IH]; [done|]. cbn [look]. destruct (l' =? l) eqn:E.
    - intros H. injection H as <- <-. apply Nat.eqb_eq in E as ->. exists 0. split; [done|]. by destruct f.
    - intros H. destruct (IH H) as (i & H1 & H2). by exists (S i).
  Qed.
  Lemma look_at f i l x : NoDup (fst <$> f) -> f !! i = Some (l, x) -> look f l = Some (x, fst <$> f !! S i).
  Proof.
    revert i. induction f as [|[l' y] f IH]; intros i Hn Hi; [done|]. cbn [look]. rewrite fmap_cons in Hn. apply stdpp.list.NoDup_cons in Hn as [Hn1 Hn2]. destruct i as [|i].
    - injection Hi as -> ->. rewrite Nat.eqb_refl. by destruct f.
    - change (f !! i = Some (l, x)) in Hi. destruct (l' =? l) eqn:E; [|by apply IH].
      apply Nat.eqb_eq in E as ->. exfalso. apply Hn1. apply elem_of_list_fmap. exists (l, x). split; [done|]. by eapply elem_of_list_lookup_2.
  Qed.
  Lemma look_none f l : look f l = None -> forall i x, f !! i <> Some (l, x).
  Proof.
    induction f as [|[l' y] f IH]; intros H i x; [done|]. cbn [look] in H. destruct (l' =? l) eqn:E; [done|]. destruct i as [|i]; [|by apply IH].
    cbn. intros [= -> _]. by rewrite Nat.eqb_refl in E.
  Qed.
  Lemma label_inj f i j l x y : NoDup (fst <$> f) -> f !! i = Some (l, x) -> f !! j = Some (l, y) -> i = j.
  Proof. intros Hn Hi Hj. eapply NoDup_lookup; [exact Hn| |]; rewrite list_lookup_fmap; [rewrite Hi|rewrite Hj]; done. Qed.
  Lemma pos_at f i l x : NoDup (fst <$> f) -> f !! i = Some (l, x) -> pos l f = Some i.
  Proof.
    revert i. induction f as [|[l' y] f IH]; intros i Hn Hi; [done|]. cbn [pos]. rewrite fmap_cons in Hn. apply stdpp.list.NoDup_cons in Hn as [Hn1 Hn2]. destruct i as [|i].
    - injection Hi as -> ->. by rewrite Nat.eqb_refl.
    - change (f !! i = Some (l, x)) in Hi. destruct (l' =? l) eqn:E; [|by rewrite (IH i)].
      apply Nat.eqb_eq in E as ->. exfalso. apply Hn1. apply elem_of_list_fmap. exists (l, x). split; [done|]. by eapply elem_of_list_lookup_2.
  Qed.
  Lemma pos_inv f i l : pos l f = Some i -> exists x, f !! i = Some (l, x).
  Proof.
    revert i. induction f as [|[l' y] f IH]; intros i H; [done|]. cbn [pos] in H. destruct (l' =? l) eqn:E.
    - injection H as <-. apply Nat.eqb_eq in E as ->. by exists y.
    - destruct (pos l f) as [k|] eqn:Ek; [|done]. injection H as <-. by apply IH.
  Qed.
  Lemma put_lt f k b i : i < k -> k <= length f -> put k b f !! i = f !! i.
  Proof. intros H1 H2. unfold put. rewrite lookup_app_l by (rewrite take_length; lia). by apply lookup_take. Qed.
  Lemma put_eq f k b : k <= length f -> put k b f !! k = Some b.
  Proof. intros H. unfold put. rewrite lookup_app_r by (rewrite take_length; lia). rewrite take_length. by replace (k - k `min` length f) with 0 by lia. Qed.
  Lemma put_gt f k b i : k <= i -> k <= length f -> put k b f !! S i = f !! i.
  Proof.
    intros H1 H2. unfold put. rewrite lookup_app_r by (rewrite take_length; lia). rewrite take_length.
    replace (S i - k `min` length f) with (S (i - k)) by lia. change (drop k f !! (i - k) = f !! i). rewrite lookup_drop. f_equal. lia.
  Qed.
  Lemma put_length f k b : k <= length f -> length (put k b f) = S (length f).
  Proof. intros H. unfold put. rewrite app_length. cbn [length]. rewrite take_length, drop_length. lia. Qed.
  Lemma put_perm f k b : put k b f ≡ₚ b :: f.
  Proof. unfold put. rewrite <- Permutation_middle. by rewrite take_drop. Qed.
  Lemma put_labels f k b : NoDup (fst <$> f) -> b.1 ∉ fst <$> f -> NoDup (fst <$> put k b f).
  Proof. intros H1 H2. rewrite put_perm, fmap_cons. by apply stdpp.list.NoDup_cons. Qed.
  Lemma set_labels f i l x y : f !! i = Some (l, x) -> fst <$> <[i := (l, y)]> f = fst <$> f.
  Proof. intros H. rewrite list_fmap_insert. apply list_insert_id. by rewrite list_lookup_fmap, H. Qed.
End Look.

(** The phis are only reordered. *)
Section Perm.
  Import Phi_model.
  Implicit Types l : phis.
  Lemma perm_take l j p : l !! j = Some (Some p) -> omap id l ≡ₚ p :: omap id (<[j := None]> l).
  Proof.
    revert j. induction l as [|x l IH]; intros j H; [done|]. destruct j as [|j].
    - by injection H as ->.
    - change (l !! j = Some (Some p)) in H. change (<[S j := None]> (x :: l)) with (x :: <[j := None]> l). destruct x as [q|].
      + change (q :: omap id l ≡ₚ p :: q :: omap id (<[j := None]> l)). rewrite (IH j H). apply perm_swap.
      + change (omap id l ≡ₚ p :: omap id (<[j := None]> l)). by apply IH.
  Qed.
  Lemma pick_perm fuel l j i c l' : pick fuel l j i = Some (c, l') -> omap id l ≡ₚ c ++ omap id l' /\ length l' = length l.
  Proof.
    revert l j c l'. induction fuel as [|fuel IH]; intros l j c l' H; cbn [pick] in H; [done|].
    destruct (l !! j) as [[p|]|] eqn:Ej; try done. pose proof (perm_take _ _ _ Ej) as Hp.
    destruct (i <=? j).
    - injection H as <- <-. split; [done|]. apply insert_length.
    - destruct (find_dst _ _ _) as [k|]; [|done]. destruct (pick fuel _ _ i) as [[c2 l2]|] eqn:E; [|done].
      injection H as <- <-. destruct (IH _ _ _ _ E) as [H1 H2]. split; [by rewrite Hp, H1|]. by rewrite H2, insert_length.
  Qed.
  Definition clear_from (n : nat) l : Prop := forall i x, n <= i -> l !! i = Some x -> x = None.
  Lemma ins_perm l k x y : l !! k = Some x -> y :: l ≡ₚ x :: <[k := y]> l.
  Proof.
    revert k. induction l as [|z l IH]; intros k H; [done|]. destruct k as [|k].
    - injection H as ->. apply perm_swap.
    - change (l !! k = Some x) in H. change (<[S k := y]> (z :: l)) with (z :: <[k := y]> l). rewrite perm_swap. rewrite (IH k H). apply perm_swap.
  Qed.
  Lemma swap_perm l k m y : l !! k = Some None -> l !! m = Some y -> <[m := None]> (<[k := y]> l) ≡ₚ l.
  Proof.
    intros Hk Hm. destruct (decide (k = m)) as [->|Hne].
    - assert (y = None) as -> by congruence. rewrite list_insert_insert. by rewrite list_insert_id.
    - assert (H2 : (<[k := y]> l) !! m = Some y) by (by rewrite list_lookup_insert_ne).
      apply (Permutation_cons_inv (a := y)). rewrite <- (ins_perm _ _ _ None H2). by rewrite <- (ins_perm _ _ _ y Hk).
  Qed.
  Lemma fill_perm fuel k n l l' n' : n <= length l -> clear_from n l -> fill fuel k n l = (l', n') -> l' ≡ₚ l /\ n' <= n /\ clear_from n' l'.
  Proof.
    revert k n l. induction fuel as [|fuel IH]; intros k n l Hn Hc H; cbn [fill] in H.
    { destruct (n <=? k); injection H as <- <-; done. }
    destruct (n <=? k) eqn:Enk; [by injection H as <- <-|]. apply Nat.leb_gt in Enk.
    destruct (l !! k) as [[p|]|] eqn:Ek; [by apply (IH _ _ _ Hn Hc H)| |by apply (IH _ _ _ Hn Hc H)].
    destruct (lookup_lt_is_Some_2 l (pred n)) as [y Ey]; [lia|]. rewrite Ey in H. cbn [default from_option] in H.
    pose proof (swap_perm l k (pred n) y Ek Ey) as Hp.
    apply IH in H as (H1 & H2 & H3).
    - split; [by rewrite H1|]. split; [lia|done].
    - rewrite !insert_length. lia.
    - intros i x Hi Hx. destruct (decide (i = pred n)) as [->|Hne].
      + rewrite list_lookup_insert in Hx by (rewrite insert_length; lia). by injection Hx as <-.
      + rewrite list_lookup_insert_ne in Hx by done. rewrite list_lookup_insert_ne in Hx by lia. apply (Hc i); [lia|done].
  Qed.
  Lemma trim_clear n l : clear_from n l -> trim n l <= n /\ clear_from (trim n l) l.
  Proof.
    induction n as [|n IH]; intros H; [done|]. cbn [trim]. destruct (l !! n) as [[p|]|] eqn:E; try (split; [lia|done]).
    destruct IH as [H1 H2]; [|split; [lia|done]]. intros i x Hi Hx. destruct (decide (i = n)) as [->|]; [congruence|]. apply (H i); [lia|done].
  Qed.
  Lemma clear_take n l : clear_from n l -> omap id (take n l) = omap id l.
  Proof.
    revert n. induction l as [|x l IH]; intros n H; [by rewrite take_nil|]. destruct n as [|n].
    - assert (Hx : x = None) by (apply (H 0); [lia|done]). subst x. cbn. assert (omap id l = []) as ->; [|done]. rewrite <- (IH 0); [done|]. intros i y Hi Hy. by apply (H (S i)); [lia|].
    - cbn. change (match id x with Some y => y :: omap id (take n l) | None => omap id (take n l) end = match id x with Some y => y :: omap id l | None => omap id l end).
      rewrite IH; [done|]. intros i y Hi Hy. by apply (H (S i)); [lia|].
  Qed.
  Lemma detect_perm fuel i n l cs r cs' : n <= length l -> clear_from n l -> detect fuel i n l cs = Some (r, cs') ->
    omap id l ++ concat cs ≡ₚ omap id r ++ concat cs'.
  Proof.
    revert i n l cs. induction fuel as [|fuel IH]; intros i n l cs Hn Hc H; cbn [detect] in H.
    { destruct (n <=? i); [|done]. injection H as <- <-. by rewrite clear_take. }
    destruct (n <=? i). { injection H as <- <-. by rewrite clear_take. }
    destruct (l !! i) as [[p|]|]; try done. destruct (find_dst l i (src p)) as [j|]; [|done].
    destruct (j <? i); [|by apply (IH _ _ _ _ Hn Hc H)].
    destruct (pick (S i) l j i) as [[c l2]|] eqn:Ep; [|done]. destruct (fill n 0 n l2) as [l3 n3] eqn:Ef.
    assert (Hc2 : clear_from n l2).
    { clear -Ep Hc. revert j c l l2 Hc Ep. generalize (S i) at 1. intros fuel. induction fuel as [|fuel IH]; intros j c l l2 Hc H; cbn [pick] in H; [done|].
      destruct (l !! j) as [[p|]|] eqn:Ej; try done.
      assert (Hc' : clear_from n (<[j := None]> l)).
      { intros k x Hk Hx. destruct (decide (k = j)) as [->|]; [rewrite list_lookup_insert in Hx by (by eapply lookup_lt_Some); by injection Hx as <-|].
        rewrite list_lookup_insert_ne in Hx by done. by apply (Hc k). }
      destruct (i <=? j); [by injection H as <- <-|]. destruct (find_dst _ _ _) as [k|]; [|done]. destruct (pick fuel _ _ i) as [[c2 l3]|] eqn:E; [|done].
      injection H as <- <-. by apply (IH _ _ _ _ Hc' E). }
    apply pick_perm in Ep as [H1 H2]. apply fill_perm in Ef as (H3 & H4 & H5); [|lia|done].
    destruct (trim_clear n3 l3 H5) as [H6 H7].
    apply IH in H; [|apply Permutation_length in H3; lia|done]. rewrite <- H, H1, concat_app. cbn. rewrite app_nil_r.
    assert (omap id l3 ≡ₚ omap id l2) as -> by (apply omap_Permutation; done). solve_Permutation.
  Qed.
  Lemma extract_perm ps l (l' : list phi) cs : extract_cyclic_dependency ps = Some (l, cs) -> mapM id l = Some l' -> l' ++ concat cs ≡ₚ ps.
  Proof.
    unfold extract_cyclic_dependency. destruct (reorder (length ps) 0 (length ps) (Some <$> ps)) as [l2|] eqn:Er; [|done]. intros Ed Em.
    apply Phi_proof.reorder_perm in Er; [|by rewrite fmap_length].
    assert (Hs : forall q : list phi, omap id (Some <$> q) = q) by (induction q as [|x q IH]; [done|]; cbn; f_equal; exact IH).
    apply detect_perm in Ed.
    - cbn in Ed. rewrite app_nil_r in Ed. apply Phi_proof.mapM_id_some in Em. subst l. rewrite Hs in Ed. rewrite <- Ed. rewrite (omap_Permutation id _ _ Er). by rewrite Hs.
    - apply Permutation_length in Er. rewrite fmap_length in Er. lia.
    - intros i x Hi Hx. apply lookup_lt_Some in Hx. apply Permutation_length in Er. rewrite fmap_length in Er. lia.
  Qed.
End Perm.
