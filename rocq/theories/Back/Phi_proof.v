From stdpp Require Import base list numbers.
From Verif Require Import Back.Phi_model Back.Phi_spec.

Lemma find_dst_spec l i r j : find_dst l i r = Some j ->
  j <= i /\ (forall k, k < j -> exists p, l !! k = Some (Some p) /\ dst p <> r) /\
  (j < i -> exists p, l !! j = Some (Some p) /\ dst p = r).
Proof.
  revert l j. induction i as [|i IH]; intros l j H; cbn [find_dst] in H.
  - injection H as <-. split; [done|]. split; intros; lia.
  - destruct l as [|[p|] l]; try done. destruct (Nat.eqb_spec (dst p) r) as [E|E].
    + injection H as <-. split; [lia|]. split; [intros; lia|]. intros _. by exists p.
    + destruct (find_dst l i r) as [j'|] eqn:Ej; [|done]. cbn in H. injection H as <-.
      destruct (IH l j' Ej) as (H1 & H2 & H3). split; [lia|]. split.
      * intros [|k] Hk; [by exists p|]. apply (H2 k). lia.
      * intros Hj. apply H3. lia.
Qed.

Lemma move_before_perm l j i : j <= i -> i < length l -> move_before l j i ≡ₚ l.
Proof.
  intros Hj Hi. destruct (lookup_lt_is_Some_2 l i Hi) as [x Hx].
  assert (E : l = take j l ++ drop j (take i l) ++ x :: drop (S i) l).
  { rewrite app_assoc. replace (take j l) with (take j (take i l)) by (rewrite take_take; f_equal; lia).
    rewrite take_drop. by rewrite <- (drop_S l x i Hx), take_drop. }
  unfold move_before. rewrite (drop_S l x i Hx). change (take 1 (x :: drop (S i) l)) with [x].
  transitivity (take j l ++ drop j (take i l) ++ x :: drop (S i) l); [|by rewrite <- E].
  apply Permutation_app_head. change ([x] ++ drop j (take i l) ++ drop (S i) l) with (x :: (drop j (take i l) ++ drop (S i) l)).
  by rewrite Permutation_middle.
Qed.
Lemma move_before_length l j i : j <= i -> i < length l -> length (move_before l j i) = length l.
Proof. intros. by apply Permutation_length, move_before_perm. Qed.

Lemma reorder_perm fuel i n l l' : n <= length l -> reorder fuel i n l = Some l' -> l' ≡ₚ l.
Proof.
  revert i l. induction fuel as [|fuel IH]; intros i l Hn H; cbn [reorder] in H.
  - destruct (n <=? i); [by injection H as <-|done].
  - destruct (Nat.leb_spec n i); [by injection H as <-|].
    destruct (l !! i) as [[p|]|] eqn:Ei; try done.
    destruct (find_dst l i (src p)) as [j|] eqn:Ej; [|done].
    destruct (find_dst_spec _ _ _ _ Ej) as (H1 & H2 & H3).
    destruct (Nat.ltb_spec j i).
    + apply IH in H; [|rewrite move_before_length; lia]. rewrite H. apply move_before_perm; lia.
    + by apply (IH (S i)).
Qed.
(** With every element present, reordering does not fail. *)
Lemma find_dst_some l i r : i <= length l -> (forall k x, l !! k = Some x -> x <> None) -> is_Some (find_dst l i r).
Proof.
  revert l. induction i as [|i IH]; intros l Hi Hl; cbn [find_dst]; [by eexists|].
  destruct l as [|x l]; cbn in Hi; [lia|]. destruct x as [p|]; [|by destruct (Hl 0 None)].
  destruct (dst p =? r); [by eexists|]. destruct (IH l) as [j ->]; [lia| |by eexists].
  intros k x Hk. by apply (Hl (S k)).
Qed.

Lemma detect_grows fuel i n l cs r cs' : detect fuel i n l cs = Some (r, cs') -> exists more, cs' = cs ++ more.
Proof.
  revert i n l cs. induction fuel as [|fuel IH]; intros i n l cs H; cbn [detect] in H.
  - destruct (n <=? i); [|done]. injection H as _ <-. exists []. by rewrite app_nil_r.
  - destruct (n <=? i). { injection H as _ <-. exists []. by rewrite app_nil_r. }
    destruct (l !! i) as [[p|]|]; try done. destruct (find_dst l i (src p)) as [j|]; [|done].
    destruct (j <? i).
    + destruct (pick (S i) l j i) as [[c l2]|]; [|done]. destruct (fill n 0 n l2) as [l3 n3].
      apply IH in H as [more ->]. exists ([c] ++ more). by rewrite app_assoc.
    + by apply IH in H.
Qed.
Lemma detect_none fuel i n l r : detect fuel i n l [] = Some (r, []) ->
  r = take n l /\ forall k p, i <= k -> k < n -> l !! k = Some (Some p) -> forall m q, m < k -> l !! m = Some (Some q) -> dst q <> src p.
Proof.
  revert i. induction fuel as [|fuel IH]; intros i H; cbn [detect] in H.
  - destruct (Nat.leb_spec n i); [|done]. injection H as <-. split; [done|]. intros; lia.
  - destruct (Nat.leb_spec n i). { injection H as <-. split; [done|]. intros; lia. }
    destruct (l !! i) as [[p|]|] eqn:Ei; try done. destruct (find_dst l i (src p)) as [j|] eqn:Ej; [|done].
    destruct (Nat.ltb_spec j i).
    + destruct (pick (S i) l j i) as [[c l2]|]; [|done]. destruct (fill n 0 n l2) as [l3 n3].
      apply detect_grows in H as [more H]. by destruct more.
    + apply IH in H as [Hx H2]. split; [done|]. intros k p' Hk1 Hk2 Hp' m q Hm Hq.
      destruct (decide (k = i)) as [->|Hne].
      * rewrite Ei in Hp'. injection Hp' as <-. destruct (find_dst_spec _ _ _ _ Ej) as (_ & H3 & _).
        destruct (H3 m ltac:(lia)) as (q' & Hq' & Hd). congruence.
      * by apply (H2 k p' ltac:(lia) Hk2 Hp' m).
Qed.

Lemma mapM_id_some (l : phis) ps : mapM id l = Some ps -> l = Some <$> ps.
Proof.
  revert ps. induction l as [|x l IH]; intros ps H.
  - by injection H as <-.
  - cbn in H. destruct x as [p|]; [|done]. cbn in H. destruct (mapM id l) as [ps'|] eqn:E; [|done]. cbn in H.
    injection H as <-. cbn. f_equal. by apply IH.
Qed.

(** Moves one after the other. *)
Definition mv (p : phi) : nat * nat := (dst p, src p).
Lemma run_app a b regs : run (a ++ b) regs = run b (run a regs).
Proof. revert regs. induction a as [|[d s] a IH]; intros regs; cbn; [done|]. apply IH. Qed.
Lemma run_other moves regs r : r ∉ moves.*1 -> run moves regs r = regs r.
Proof.
  revert regs. induction moves as [|[d s] moves IH]; intros regs H; cbn; [done|].
  cbn in H. apply not_elem_of_cons in H as [H1 H2]. rewrite IH by done. unfold upd.
  by rewrite (proj2 (Nat.eqb_neq r d) H1).
Qed.
Lemma run_seq ps : NoDup (dst <$> ps) ->
  (forall k p m q, ps !! k = Some p -> m < k -> ps !! m = Some q -> dst q <> src p) -> parallel ps (mv <$> ps).
Proof.
  intros Hnd Hs regs p Hp. apply elem_of_list_lookup in Hp as [k Hk].
  rewrite <- (take_drop_middle ps k p Hk). rewrite fmap_app, run_app. cbn [fmap list_fmap run mv].
  assert (Hsrc : run (mv <$> take k ps) regs (src p) = regs (src p)).
  { apply run_other. rewrite <- list_fmap_compose. intros Hin. apply elem_of_list_fmap in Hin as (q & Hq & Hin).
    apply elem_of_list_lookup in Hin as [m Hm]. apply lookup_take_Some in Hm as [Hm Hlt].
    by apply (Hs k p m q Hk Hlt Hm). }
  rewrite run_other.
  - unfold upd. by rewrite Nat.eqb_refl.
  - rewrite <- list_fmap_compose. intros Hin. apply elem_of_list_fmap in Hin as (q & Hq & Hin).
    apply elem_of_list_lookup in Hin as [m Hm]. rewrite lookup_drop in Hm.
    assert (E : S k + m = k); [|lia].
    apply (NoDup_lookup (dst <$> ps) (S k + m) k (dst p)); [done|by rewrite list_lookup_fmap, Hm, Hq|by rewrite list_lookup_fmap, Hk].
Qed.

Lemma no_cycle tmp ps moves l : NoDup (dst <$> ps) -> extract_cyclic_dependency ps = Some (l, []) ->
  replace_phis tmp ps = Some moves -> parallel ps moves.
Proof.
  intros Hnd He Hr. unfold replace_phis in Hr. rewrite He in Hr. destruct (mapM id l) as [qs|] eqn:Eq; [|done].
  injection Hr as <-. rewrite app_nil_r. apply mapM_id_some in Eq. subst l.
  unfold extract_cyclic_dependency in He.
  destruct (reorder (length ps) 0 (length ps) (Some <$> ps)) as [l|] eqn:Er; [|done].
  apply reorder_perm in Er; [|by rewrite fmap_length]. apply detect_none in He as [Hl Hs].
  assert (Hlen : length l = length ps) by (rewrite Er; apply fmap_length).
  rewrite take_ge in Hl by lia. subst l.
  assert (Hp : qs ≡ₚ ps).
  { apply (Permutation_map (fun x => match x with Some p => p | None => Phi 0 0 end)) in Er.
    rewrite !map_map in Er. by rewrite !map_id in Er. }
  rewrite fmap_length in Hlen.
  assert (H : parallel qs (mv <$> qs)).
  { apply run_seq; [by rewrite Hp|]. intros k p m q Hk Hm Hq.
    apply (Hs k p ltac:(lia)) with (m := m) (q := q); [|by rewrite list_lookup_fmap, Hk|done|by rewrite list_lookup_fmap, Hq].
    apply lookup_lt_Some in Hk. lia. }
  intros regs p Hin. apply H. by rewrite Hp.
Qed.
