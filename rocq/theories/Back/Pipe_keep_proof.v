(** What is kept when copies are propagated and unused results are removed. *)
From stdpp Require Import base list numbers gmap.
From Verif Require Import Back.Unused_model Back.Cprop_model.
Local Open Scope nat_scope.

Section Keep.
  Context {K J : Type} (mov : K) (is_copy : K -> bool) (fold_ins : ins K -> ins K) (fold_exit : J -> list (Z + nat) -> option (J * list (Z + nat))) (pinned : nat -> bool).
  Context (Q : nat -> phi -> Prop) (P : ins K -> Prop) (E : list (Z + nat) -> Prop) (ok : Z + nat -> Prop).
  Hypothesis HQ : forall b p d v, ok v -> Q b p -> Q b (Phi (pdst p) (sub d v <$> params p)).
  Hypothesis HP : forall i d v, ok v -> P i -> P (Ins (op i) (is_call i) (dst i) (sub d v <$> oprs i)).
  Hypothesis HE : forall l d v, ok v -> E l -> E (sub d v <$> l).
  Hypothesis Hfold : forall i, P i -> P (fold_ins i).
  Hypothesis Hfold_exit : forall j l j' l', E l -> fold_exit j l = Some (j', l') -> E l'.
  Hypothesis Hcol : forall b p v rest, Q b p -> params p = v :: rest -> P (Ins mov false (Some (pdst p)) [v]).
  Hypothesis Hok : forall i d v, P i -> dst i = Some d -> oprs i = [v] -> is_pinned pinned v = false -> ok v.
  Definition exit_inv (e : option (J * list (Z + nat))) : Prop := forall j l, e = Some (j, l) -> E l.
  Definition blk_inv (b : nat) (x : blk K J) : Prop := (forall p, p ∈ phis x -> Q b p) /\ (forall i, i ∈ irs x -> P i) /\ exit_inv (exit x).
  Definition all_inv (bs : list (blk K J)) : Prop := forall b x, bs !! b = Some x -> blk_inv b x.

  Lemma in_bb_inv d v : ok v -> forall l e ip l' e' f, replace_in_bb d v l e ip = (l', e', f) -> (forall i, i ∈ l -> P i) -> exit_inv e ->
    (forall i, i ∈ l' -> P i) /\ exit_inv e'.
  Proof using HP HE.
    intros Hv. induction l as [|i l IH]; intros e ip l' e' f H Hl He; cbn [replace_in_bb] in H.
    - destruct e as [[j lo]|]; injection H as <- <- _; split; try (by intros i Hi; apply elem_of_nil in Hi); [|done].
      intros j' l' [= <- <-]. apply HE; [done|]. by eapply He.
    - case_decide; [by injection H as <- <- _|]. destruct (replace_in_bb d v l e (S ip)) as [[l1 e1] f1] eqn:E1. injection H as <- <- _.
      destruct (IH _ _ _ _ _ E1) as [H1 H2]; [intros k Hk; apply Hl; by right|done|]. split; [|done].
      intros k Hk. apply elem_of_cons in Hk as [->|Hk]; [apply HP; [done|]; apply Hl; by left|by apply H1].
  Qed.
  Lemma blks_inv d v : ok v -> forall bs ip bs' f k, replace_blks d v bs ip = (bs', f) -> (forall b x, bs !! b = Some x -> blk_inv (k + b) x) ->
    forall b x, bs' !! b = Some x -> blk_inv (k + b) x.
  Proof using HP HE HQ.
    intros Hv. induction bs as [|x bs IH]; intros ip bs' f k H Hb; cbn [replace_blks] in H; [by injection H as <- _|].
    destruct (replace_in_bb d v (irs x) (exit x) ip) as [[l e] fi] eqn:E1. destruct (replace_blks d v bs (ip + blk_len x)) as [bs1 fb] eqn:E2. injection H as <- _.
    destruct (Hb 0 x eq_refl) as (B1 & B2 & B3). intros [|b] y Hy.
    - injection Hy as <-. destruct (in_bb_inv d v Hv _ _ _ _ _ _ E1 B2 B3) as [H1 H2]. split; [|done].
      intros p Hp. cbn in Hp. apply elem_of_list_fmap in Hp as (q & -> & Hq). apply HQ; [done|by apply B1].
    - change (bs1 !! b = Some y) in Hy. rewrite Nat.add_succ_r. apply (IH _ _ _ (S k) E2); [|done]. intros b' z Hz. rewrite Nat.add_succ_l, <- Nat.add_succ_r. by apply Hb.
  Qed.
  Lemma register_inv d v bs bs' f : replace_register pinned bs d v = (bs', f) -> (is_pinned pinned v = false -> ok v) -> all_inv bs -> all_inv bs'.
  Proof using HP HE HQ.
    unfold replace_register. destruct (pinned d || is_pinned pinned v) eqn:Ep; [by intros [= <- _]|]. apply orb_false_iff in Ep as [_ Ep]. intros H Hv Hb b x Hx.
    eapply (blks_inv d v (Hv Ep) bs 0 bs' f 0); [done|apply Hb|done].
  Qed.
  Lemma collapse_inv b : forall ps l ps' l', collapse mov ps l = Some (ps', l') -> (forall p, p ∈ ps -> Q b p) -> (forall i, i ∈ l -> P i) ->
    (forall p, p ∈ ps' -> Q b p) /\ (forall i, i ∈ l' -> P i).
  Proof using Hcol.
    induction ps as [|p ps IH]; intros l ps' l' H Hp Hl; cbn [collapse] in H; [by injection H as <- <-|].
    destruct (one_value p) as [[value|]|] eqn:Ev; cbn [mbind option_bind] in H; [| |done].
    - eapply IH; [exact H|intros q Hq; apply Hp; by right|]. intros i Hi. apply elem_of_cons in Hi as [->|Hi]; [|by apply Hl].
      unfold one_value in Ev. destruct (params p) as [|v rest] eqn:Epp; [done|]. injection Ev as Ev. case_decide; [|done]. injection Ev as <-. eapply Hcol; [apply Hp; by left|done].
    - destruct (collapse mov ps l) as [[ps1 l1]|] eqn:Ec; [|done]. injection H as <- <-. destruct (IH _ _ _ Ec) as [H1 H2]; [intros q Hq; apply Hp; by right|done|].
      split; [|done]. intros q Hq. apply elem_of_cons in Hq as [->|Hq]; [apply Hp; by left|by apply H1].
  Qed.
  Lemma set_inv bs b y : all_inv bs -> blk_inv b y -> all_inv (<[b := y]> bs).
  Proof using. intros H Hy c x Hx. apply list_lookup_insert_Some in Hx as [(<- & <- & _)|(_ & Hx)]; [done|by apply H]. Qed.
  Lemma at_ins_inv b i ip bs ag bs' ag' : at_ins is_copy fold_ins pinned b i ip bs ag = Some (bs', ag') -> all_inv bs -> all_inv bs'.
  Proof using All.
    unfold at_ins. intros H Hb. destruct (bs !! b) as [x|] eqn:Ex; [|done]. cbn [mbind option_bind] in H. destruct (irs x !! i) as [c|] eqn:Ec; [|done]. cbn [mbind option_bind] in H.
    destruct (Hb b x Ex) as (B1 & B2 & B3).
    assert (Hc : P (fold_ins c)) by (apply Hfold, B2; by eapply elem_of_list_lookup_2).
    assert (Hbs : all_inv (<[b := Blk (phis x) (<[i := fold_ins c]> (irs x)) (exit x)]> bs)).
    { apply set_inv; [done|]. split; [done|]. split; [|done]. intros k Hk. cbn in Hk. apply elem_of_list_lookup in Hk as [m Hk]. apply list_lookup_insert_Some in Hk as [(_ & <- & _)|(_ & Hk)]; [done|].
      apply B2. by eapply elem_of_list_lookup_2. }
    destruct (copy_of is_copy (fold_ins c)) as [[d o]|] eqn:Eo; [|by injection H as <- _].
    destruct (replace_register pinned _ d o) as [bs1 first] eqn:Er. injection H as <- _. eapply register_inv; [exact Er| |done].
    intros Hp. unfold copy_of in Eo. destruct (is_copy (op (fold_ins c))); [|done]. destruct (dst (fold_ins c)) as [d'|] eqn:Ed; [|done].
    destruct (oprs (fold_ins c)) as [|o' [|]] eqn:El; try done. injection Eo as -> ->. by eapply Hok.
  Qed.
  Lemma irs_loop_inv n : forall b i ip bs ag bs' ag', irs_loop is_copy fold_ins pinned n b i ip bs ag = Some (bs', ag') -> all_inv bs -> all_inv bs'.
  Proof using All.
    induction n as [|n IH]; intros b i ip bs ag bs' ag' H Hb; cbn [irs_loop] in H; [by injection H as <- _|].
    destruct (at_ins is_copy fold_ins pinned b i ip bs ag) as [[bs1 ag1]|] eqn:Ea; [|done]. cbn [mbind option_bind] in H. eapply IH; [exact H|]. by eapply at_ins_inv.
  Qed.
  Lemma at_exit_inv b bs bs' : at_exit fold_exit b bs = Some bs' -> all_inv bs -> all_inv bs'.
  Proof using Hfold_exit.
    unfold at_exit. intros H Hb. destruct (bs !! b) as [x|] eqn:Ex; [|done]. cbn [mbind option_bind] in H. injection H as <-. destruct (exit x) as [[j l]|] eqn:Ee; [|done].
    destruct (Hb b x Ex) as (B1 & B2 & B3). apply set_inv; [done|]. split; [done|]. split; [done|]. intros j' l' Hf. cbn in Hf. eapply Hfold_exit; [by eapply B3|done].
  Qed.
  Lemma blks_loop_inv from n : forall b ip bs ag bs' ag', blks_loop mov is_copy fold_ins fold_exit pinned from n b ip bs ag = Some (bs', ag') -> all_inv bs -> all_inv bs'.
  Proof using All.
    induction n as [|n IH]; intros b ip bs ag bs' ag' H Hb; cbn [blks_loop] in H; [by injection H as <- _|].
    destruct (from !! b) as [f|]; [|done]. cbn [mbind option_bind] in H. case_decide; [by eapply IH|].
    destruct (bs !! b) as [x|] eqn:Ex; [|done]. cbn [mbind option_bind] in H. destruct (collapse mov (phis x) (irs x)) as [[ps l]|] eqn:Ec; [|done]. cbn [mbind option_bind] in H.
    destruct (Hb b x Ex) as (B1 & B2 & B3). destruct (collapse_inv b _ _ _ _ Ec B1 B2) as [C1 C2].
    destruct (irs_loop _ _ _ _ _ _ _ _ _) as [[bs1 ag1]|] eqn:Ei; [|done]. cbn [mbind option_bind] in H.
    assert (H1 : all_inv bs1) by (eapply irs_loop_inv; [exact Ei|]; by apply set_inv).
    destruct (at_exit fold_exit b bs1) as [bs2|] eqn:Ee; [|done]. cbn [mbind option_bind] in H. assert (H2 : all_inv bs2) by (by eapply at_exit_inv).
    destruct (bs2 !! b) as [x2|]; [|done]. cbn [mbind option_bind] in H. by eapply IH.
  Qed.
  Lemma rounds_inv from n : forall bs bs', copy_rounds mov is_copy fold_ins fold_exit pinned n from bs = Some bs' -> all_inv bs -> all_inv bs'.
  Proof using All.
    induction n as [|n IH]; intros bs bs' H Hb; cbn [copy_rounds] in H; [done|].
    destruct (blks_loop _ _ _ _ _ _ _ _ _ _ _) as [[bs1 ag]|] eqn:El; [|done]. cbn [mbind option_bind] in H. assert (all_inv bs1) by (by eapply blks_loop_inv).
    destruct ag; [by eapply IH|by injection H as <-].
  Qed.
  Lemma propagation_inv from bs bs' : copy_propagation mov is_copy fold_ins fold_exit pinned from bs = Some bs' -> all_inv bs -> all_inv bs'.
  Proof using All. apply rounds_inv. Qed.
End Keep.

(** After unused results are removed, a block has fewer phis and instructions, and the same jump. *)
Definition less {K J} (x y : blk K J) : Prop :=
  ((forall p, p ∈ phis y -> p ∈ phis x) /\ (NoDup (pdst <$> phis x) -> NoDup (pdst <$> phis y))) /\
  (forall i, i ∈ irs y -> exists j, j ∈ irs x /\ op i = op j /\ oprs i = oprs j /\ (dst i = dst j \/ dst i = None)) /\ exit y = exit x.
Lemma less_refl {K J} (x : blk K J) : less x x.
Proof.
  split; [|split; [|done]].
  - done.
  - intros i Hi. exists i. split; [done|]. split; [done|]. split; [done|by left].
Qed.
Lemma less_trans {K J} (x y z : blk K J) : less x y -> less y z -> less x z.
Proof.
  intros ((P1 & D1) & I1 & X1) ((P2 & D2) & I2 & X2). split; [|split; [|congruence]].
  - split; [intros p Hp; by apply P1, P2|intros H; by apply D2, D1].
  - intros i Hi. destruct (I2 i Hi) as (j & Hj & ? & ? & Hd). destruct (I1 j Hj) as (k & Hk & ? & ? & Hd'). exists k. split; [done|]. split; [congruence|]. split; [congruence|].
    destruct Hd as [->|]; [done|by right].
Qed.
Lemma less_prune {K J} read (x : blk K J) : less x (prune read x).
Proof.
  split; [|split; [|done]].
  - cbn. split; [intros p Hp; by apply elem_of_list_filter in Hp as [_ ?]|]. intros H. induction (phis x) as [|p l IH]; [done|].
    rewrite fmap_cons in H. apply stdpp.list.NoDup_cons in H as [H1 H2]. rewrite filter_cons. case_decide; [|by apply IH]. rewrite fmap_cons. apply stdpp.list.NoDup_cons. split; [|by apply IH].
    intros Hp. apply H1. apply elem_of_list_fmap in Hp as (q & E & Hq). apply elem_of_list_filter in Hq as [_ Hq]. apply elem_of_list_fmap. by exists q.
  - intros i Hi. cbn in Hi. apply elem_of_list_bind in Hi as (j & Hi & Hj). exists j. split; [done|]. unfold keep_ins in Hi. destruct (dst j) as [d|] eqn:Ed.
    + case_decide; [apply elem_of_list_singleton in Hi as ->; split; [done|split; [done|by left]]|].
      destruct (is_call j); [|by apply elem_of_nil in Hi]. apply elem_of_list_singleton in Hi as ->. split; [done|]. split; [done|by right].
    + apply elem_of_list_singleton in Hi as ->. split; [done|]. split; [done|by left].
Qed.
Lemma unused_less {K J} keep alive (bs bs' : list (blk K J)) : remove_unused_vregs keep alive bs = Some bs' ->
  length bs' = length bs /\ forall b y, bs' !! b = Some y -> exists x, bs !! b = Some x /\ less x y.
Proof.
  unfold remove_unused_vregs. generalize (S (length alive)). intros n. revert alive bs. induction n as [|n IH]; intros alive bs H; [done|]. cbn [unused_rounds] in H.
  set (read := vreg_read keep alive bs) in *.
  assert (Hp : forall b y, (prune read <$> bs) !! b = Some y -> exists x, bs !! b = Some x /\ less x y).
  { intros b y Hy. rewrite list_lookup_fmap in Hy. destruct (bs !! b) as [x|]; [|done]. injection Hy as <-. exists x. split; [done|apply less_prune]. }
  case_decide; [injection H as <-; split; [by rewrite fmap_length|done]|].
  destruct (IH _ _ H) as [Hl Hy]. rewrite fmap_length in Hl. split; [done|]. intros b y Hb. destruct (Hy b y Hb) as (z & Hz & Hzy). destruct (Hp b z Hz) as (x & Hx & Hxz).
  exists x. split; [done|by eapply less_trans].
Qed.
