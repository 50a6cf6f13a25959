From stdpp Require Import base list numbers sets.
From Verif Require Import Back.Phi_model Back.Phi_spec Back.Phi_proof.

(** The phis that are moved around are those given. *)
Definition from (ps : list phi) (x : option phi) : Prop := forall p, x = Some p -> p ∈ ps.
Section frame.
  Context (ps : list phi).
  Notation ok := (Forall (from ps)).
  Lemma ok_lookup l i p : ok l -> l !! i = Some (Some p) -> p ∈ ps.
  Proof. intros H Hi. apply (proj1 (Forall_lookup _ _) H i _ Hi). done. Qed.
  Lemma ok_insert l i x : ok l -> from ps x -> ok (<[i := x]> l).
  Proof. intros. by apply Forall_insert. Qed.
  Lemma ok_none : from ps None.
  Proof. by intros p Hp. Qed.
  Lemma pick_from fuel l j i c l' : ok l -> pick fuel l j i = Some (c, l') -> ok l' /\ forall p, p ∈ c -> p ∈ ps.
  Proof.
    revert l j c l'. induction fuel as [|fuel IH]; intros l j c l' Hl H; cbn [pick] in H; [done|].
    destruct (l !! j) as [[p|]|] eqn:Ej; try done. pose proof (ok_lookup l j p Hl Ej) as Hp.
    pose proof (ok_insert l j None Hl ok_none) as Hl2.
    destruct (i <=? j).
    - injection H as <- <-. split; [done|]. intros q Hq. by apply elem_of_list_singleton in Hq as ->.
    - destruct (find_dst _ _ _) as [k|]; [|done]. destruct (pick fuel _ _ i) as [[c2 l2]|] eqn:E; [|done].
      injection H as <- <-. destruct (IH _ _ _ _ Hl2 E) as [H1 H2]. split; [done|].
      intros q Hq. apply elem_of_cons in Hq as [->|Hq]; [done|by apply H2].
  Qed.
  Lemma fill_from fuel k n l : ok l -> ok (fill fuel k n l).1.
  Proof.
    revert k n l. induction fuel as [|fuel IH]; intros k n l Hl; cbn [fill]; [by destruct (n <=? k)|].
    destruct (n <=? k); [done|]. destruct (l !! k) as [[p|]|]; try (by apply IH).
    apply IH. apply ok_insert; [|apply ok_none]. apply ok_insert; [done|].
    destruct (l !! pred n) as [x|] eqn:E; [|apply ok_none]. cbn. apply (proj1 (Forall_lookup _ _) Hl _ _ E).
  Qed.
  Lemma detect_from fuel i n l cs r cs' : ok l -> (forall c p, c ∈ cs -> p ∈ c -> p ∈ ps) ->
    detect fuel i n l cs = Some (r, cs') -> ok r /\ (forall c p, c ∈ cs' -> p ∈ c -> p ∈ ps).
  Proof.
    revert i n l cs. induction fuel as [|fuel IH]; intros i n l cs Hl Hc H; cbn [detect] in H.
    - destruct (n <=? i); [|done]. injection H as <- <-. split; [by apply Forall_take|done].
    - destruct (n <=? i). { injection H as <- <-. split; [by apply Forall_take|done]. }
      destruct (l !! i) as [[p|]|]; try done. destruct (find_dst l i (src p)) as [j|]; [|done].
      destruct (j <? i); [|by apply (IH _ _ _ _ Hl Hc H)].
      destruct (pick (S i) l j i) as [[c l2]|] eqn:Ep; [|done]. destruct (pick_from _ _ _ _ _ _ Hl Ep) as [Hl2 Hc2].
      pose proof (fill_from n 0 n l2 Hl2) as Hf. destruct (fill n 0 n l2) as [l3 n3]. cbn in Hf.
      apply (IH _ _ _ _ Hf) in H; [done|]. intros c' q Hc' Hq. apply elem_of_app in Hc' as [Hc'|Hc']; [by apply (Hc c')|].
      apply elem_of_list_singleton in Hc' as ->. by apply Hc2.
  Qed.
End frame.

Lemma cycle_dsts tmp c d : d ∈ (cycle_moves tmp c).*1 -> d = tmp \/ exists p, p ∈ c /\ d = dst p.
Proof.
  destruct c as [|p c]; cbn; [by intros ?%elem_of_nil|]. rewrite fmap_app, <- list_fmap_compose. intros H.
  apply elem_of_cons in H as [->|H]; [by left|]. right. apply elem_of_app in H as [H|H].
  - apply elem_of_list_fmap in H as (q & -> & Hq). exists q. split; [by right|done].
  - apply elem_of_list_singleton in H as ->. exists p. split; [by left|done].
Qed.
Lemma cycles_dsts tmp cs d : d ∈ (cycles_moves tmp cs).*1 -> tmp <= d \/ exists c p, c ∈ cs /\ p ∈ c /\ d = dst p.
Proof.
  revert tmp. induction cs as [|c cs IH]; intros tmp H; cbn in H; [by apply elem_of_nil in H|].
  rewrite fmap_app in H. apply elem_of_app in H as [H|H].
  - apply cycle_dsts in H as [-> |(p & Hp & ->)]; [by left|]. right. exists c, p. split; [by left|done].
  - apply IH in H as [H|(c' & p & H1 & H2 & H3)]; [left; lia|]. right. exists c', p. split; [by right|done].
Qed.
Lemma replace_frame tmp ps moves : replace_phis tmp ps = Some moves -> frame ps tmp moves.
Proof.
  intros Hr regs r Hlt Hni. apply run_other. intros Hin. apply Hni.
  unfold replace_phis, extract_cyclic_dependency in Hr.
  destruct (reorder (length ps) 0 (length ps) (Some <$> ps)) as [l|] eqn:Er; [|done].
  destruct (detect _ _ _ l []) as [[l2 cs]|] eqn:Ed; [|done]. destruct (mapM id l2) as [qs|] eqn:Eq; [|done].
  injection Hr as <-. apply mapM_id_some in Eq. subst l2.
  apply reorder_perm in Er; [|by rewrite fmap_length].
  assert (Hl : Forall (from ps) l).
  { rewrite Er. apply Forall_fmap, stdpp.list.Forall_forall. intros p Hp q Hq. injection Hq as <-. done. }
  apply (detect_from ps) in Ed as [H1 H2]; [|done|by intros c p Hc%elem_of_nil].
  rewrite fmap_app in Hin. apply elem_of_app in Hin as [Hin|Hin].
  - rewrite <- list_fmap_compose in Hin. apply elem_of_list_fmap in Hin as (q & -> & Hq).
    apply elem_of_list_fmap. exists q. split; [done|]. apply elem_of_list_lookup in Hq as [k Hk].
    apply (ok_lookup ps (Some <$> qs) k q H1). by rewrite list_lookup_fmap, Hk.
  - apply cycles_dsts in Hin as [?|(c & p & Hc & Hp & ->)]; [lia|].
    apply elem_of_list_fmap. exists p. split; [done|]. by apply (H2 c).
Qed.
