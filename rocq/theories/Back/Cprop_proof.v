(** Copy propagation as a whole. *)
From stdpp Require Import base list numbers gmap.
From Verif Require Import Back.Unused_model Back.Unused_spec Back.Ssa_spec Back.Cprop_model Back.Cprop_spec Back.Cprop_inv_proof Back.Cprop_step_proof.
From Verif Require Back.Flow_model.
Local Open Scope nat_scope.

Section Main.
  Context {K J W : Type}.
  Context (endof : J -> Flow_model.ending) (pinned param : nat -> bool) (index : nat -> nat -> nat).
  Context (M : machine K J W) (mov : K) (is_copy : K -> bool) (fold_ins : ins K -> ins K) (fold_exit : J -> list (Z + nat) -> option (J * list (Z + nat))).
  Hypothesis Hjumps : jumps_as_said endof M.
  Hypothesis Hcopy : copies_as_said M is_copy.
  Hypothesis Hmov : is_copy mov = true.
  Hypothesis Hfi : folds_ins M pinned fold_ins.
  Hypothesis Hfe : folds_exit endof M pinned fold_exit.
  Context (from : list (list nat)).
  Definition E (a b : nat) : Prop := exists f, from !! b = Some f /\ a ∈ f.
  Hypothesis Hreach : forall a b, E a b -> rr E a.
  Implicit Types bs : list (blk K J).
  Notation good := (good pinned param index E). Notation flw := (flw endof E).

  Definition uses bs (u : nat) : Prop := u ∈ bs ≫= used.
  Lemma uses_in bs u : uses bs u <-> exists b x, bs !! b = Some x /\ u ∈ used x.
  Proof using.
    unfold uses. rewrite elem_of_list_bind. split.
    - intros (x & Hu & Hx). apply elem_of_list_lookup in Hx as [b Hb]. by exists b, x.
    - intros (b & x & Hb & Hu). exists x. split; [done|]. by eapply elem_of_list_lookup_2.
  Qed.
  Record step bs bs' : Prop := {
    s_good : good bs';
    s_flw : flw bs';
    s_len : length bs' = length bs;
    s_trace : forall n a s, trace M pinned index n bs' a 0 s = trace M pinned index n bs a 0 s;
    s_uses : forall u, uses bs' u -> uses bs u
  }.
  Lemma step_refl bs : good bs -> flw bs -> step bs bs.
  Proof using. intros H1 H2. by split. Qed.
  Lemma step_trans bs1 bs2 bs3 : step bs1 bs2 -> step bs2 bs3 -> step bs1 bs3.
  Proof using.
    intros [] []. split; [done|done|congruence| |auto]. intros n a s. congruence.
  Qed.
  Lemma flw_insert bs b x y : flw bs -> bs !! b = Some x -> exit y = exit x -> flw (<[b := y]> bs).
  Proof using.
    intros Hf Hb He b' z c Hr Hz Hc Hl. rewrite insert_length in Hc. destruct (decide (b' = b)) as [->|Hne].
    - rewrite list_lookup_insert in Hz by (by eapply lookup_lt_Some). injection Hz as <-. rewrite He in Hl. by eapply Hf.
    - rewrite list_lookup_insert_ne in Hz by done. by eapply Hf.
  Qed.
  Lemma uses_insert bs b x y : bs !! b = Some x -> (forall u, u ∈ used y -> u ∈ used x) -> forall u, uses (<[b := y]> bs) u -> uses bs u.
  Proof using.
    intros Hb Hy u Hu. apply uses_in in Hu as (b' & z & Hz & Hu). apply uses_in. destruct (decide (b' = b)) as [->|Hne].
    - rewrite list_lookup_insert in Hz by (by eapply lookup_lt_Some). injection Hz as <-. exists b, x. auto.
    - rewrite list_lookup_insert_ne in Hz by done. by exists b', z.
  Qed.
  Lemma trace_pt bs bs' : length bs' = length bs ->
    (forall b x x', bs !! b = Some x -> bs' !! b = Some x' -> (forall k s, execs M pinned (irs x') (enter M pinned (phis x') k s) = execs M pinned (irs x) (enter M pinned (phis x) k s)) /\
      forall s, nxt M pinned b x' s = nxt M pinned b x s) ->
    forall n a b s, trace M pinned index n bs' a b s = trace M pinned index n bs a b s.
  Proof using.
    intros Hlen Hx. induction n as [|n IH]; intros a b s; [done|]. rewrite !trace_S. destruct (bs !! b) as [x|] eqn:Hb.
    - destruct (lookup_lt_is_Some_2 bs' b) as [x' Hb']; [rewrite Hlen; by eapply lookup_lt_Some|]. rewrite Hb'. destruct (Hx _ _ _ Hb Hb') as [H1 H2]. cbn zeta. rewrite H1, H2. by rewrite IH.
    - rewrite lookup_ge_None in Hb. rewrite <- Hlen in Hb. rewrite <- lookup_ge_None in Hb. by rewrite Hb.
  Qed.

  Lemma used_irs (x : blk K J) u : u ∈ used x <-> (exists p, p ∈ phis x /\ u ∈ regs (params p)) \/ (exists i, i ∈ irs x /\ u ∈ regs (oprs i)) \/ (exists j l, exit x = Some (j, l) /\ u ∈ regs l).
  Proof using.
    unfold used. rewrite !elem_of_app, !elem_of_list_bind. split.
    - intros [(p & H1 & H2)|[(i & H1 & H2)|H]]; [left; by exists p|right; left; by exists i|right; right]. destruct (exit x) as [[j l]|]; [by exists j, l|by apply elem_of_nil in H].
    - intros [(p & H1 & H2)|[(i & H1 & H2)|(j & l & -> & H)]]; [left; by exists p|right; left; by exists i|right; by right].
  Qed.

  (** One phi. *)
  Lemma step_phi bs b x ps1 p ps2 value rest : good bs -> flw bs -> rr E b -> bs !! b = Some x -> phis x = ps1 ++ p :: ps2 -> params p = value :: rest ->
    Forall (fun o => o = value \/ o = inr (pdst p)) rest -> step bs (<[b := x0' (pdst p) value mov x ps1 ps2]> bs).
  Proof using All.
    intros G F Hr Hb Hps Hpar Hrest. assert (Hp : p ∈ phis x) by (rewrite Hps; apply elem_of_app; right; by left).
    assert (Hall : Forall (fun o => o = value \/ o = inr (pdst p)) (params p)) by (rewrite Hpar; constructor; [by left|done]).
    destruct (g_free _ _ _ _ _ G _ _ _ Hb Hp) as [Hd Hfr].
    assert (Hv : is_pinned pinned value = false). { destruct value as [z|r]; [done|]. cbn. apply Hfr. rewrite Hpar. left. }
    assert (Hdv : value <> inr (pdst p)).
    { intros ->. eapply (no_self_phi pinned param index E bs b x p); try done. eapply Forall_impl; [exact Hall|]. intros o [?|?]; done. }
    destruct (only_phi pinned param index E is_copy bs b x p (pdst p) value G Hb Hp eq_refl Hall) as (O1 & O2 & O3).
    assert (O3' : exists b, dfs bs b (pdst p)) by (by exists b).
    assert (Hcopy' : forall k, is_copy k = true -> seen M k = false /\ forall z w, act M k [z] w = (z, w)) by exact Hcopy.
    split.
    - eapply (good_one endof pinned param index E M is_copy); try done.
    - by eapply flw_insert.
    - by rewrite insert_length.
    - intros n a s. eapply (trace_one pinned param index E M is_copy Hcopy' bs G (pdst p) value Hd Hv Hdv O1 O2 O3' (flw_dyn endof pinned E M Hjumps bs F) mov Hmov b x ps1 ps2 p Hb Hps eq_refl n a 0 s s); [constructor|done|].
      eexists. eapply (start_entry pinned param index E M is_copy Hcopy' bs G (pdst p) value Hd Hv Hdv O1 O2 O3').
    - apply uses_insert with x; [done|]. intros u Hu. apply used_irs in Hu. apply used_irs. cbn [phis irs exit x0'] in Hu. destruct Hu as [(q & Hq & Hu)|[(i & Hi & Hu)|Hu]].
      + left. exists q. split; [|done]. rewrite Hps. apply elem_of_app in Hq as [Hq|Hq]; apply elem_of_app; [by left|right; by right].
      + apply elem_of_cons in Hi as [->|Hi]; [|right; left; by exists i]. left. exists p. split; [done|]. cbn [oprs] in Hu. rewrite Hpar. apply regs_in. apply regs_in, elem_of_list_singleton in Hu as <-. left.
      + by right; right.
  Qed.
  Lemma step_collapse ps : forall bs b l e kept, good bs -> flw bs -> rr E b -> (b <> 0 -> exists a, E a b) -> bs !! b = Some (Blk (kept ++ ps) l e) ->
    exists ps' l', collapse mov ps l = Some (ps', l') /\ step bs (<[b := Blk (kept ++ ps') l' e]> bs).
  Proof using All.
    induction ps as [|p ps IH]; intros bs b l e kept G F Hr Hpre Hb.
    - exists [], l. split; [done|]. rewrite list_insert_id by done. by apply step_refl.
    - cbn [collapse]. unfold one_value. assert (Hp : p ∈ phis (Blk (kept ++ p :: ps) l e)) by (cbn; apply elem_of_app; right; left).
      assert (Hne : exists value rest, params p = value :: rest).
      { destruct (decide (b = 0)) as [->|H0]; [pose proof (g_zero _ _ _ _ _ G _ Hb) as Hz; cbn in Hz; by destruct kept|].
        destruct (Hpre H0) as [a He]. destruct (g_full _ _ _ _ _ G _ _ _ _ He Hb Hp) as [o Ho]. destruct (params p) as [|value rest]; [done|]. by exists value, rest. }
      destruct Hne as (value & rest & Hpar). rewrite Hpar. cbn [mbind option_bind]. destruct (decide (Forall _ rest)) as [Hrest|Hrest].
      + pose proof (step_phi bs b _ kept p ps value rest G F Hr Hb eq_refl Hpar Hrest) as Hs. unfold x0' in Hs. cbn [irs exit] in Hs.
        pose proof (lookup_lt_Some _ _ _ Hb) as Hlt.
        destruct (IH _ b (Ins mov false (Some (pdst p)) [value] :: l) e kept (s_good _ _ Hs) (s_flw _ _ Hs) Hr Hpre ltac:(by rewrite list_lookup_insert)) as (ps' & l' & H1 & H2).
        exists ps', l'. split; [done|]. rewrite list_insert_insert in H2. by eapply step_trans.
      + destruct (IH bs b l e (kept ++ [p]) G F Hr Hpre ltac:(by rewrite <- app_assoc)) as (ps' & l' & -> & H2). exists (p :: ps'), l'. split; [done|]. by rewrite <- app_assoc in H2.
  Qed.

  (** Constants. *)
  Lemma omap_insert_same (l : list (ins K)) i c c' : l !! i = Some c -> dst c' = dst c -> omap dst (<[i := c']> l) = omap dst l.
  Proof using. revert i. induction l as [|k l IH]; intros [|i] Hi Hd; try done; cbn in *. - injection Hi as ->. by rewrite Hd. - pose proof (IH i Hi Hd) as H. change (match dst k with Some y => y :: omap dst (<[i:=c']> l) | None => omap dst (<[i:=c']> l) end = match dst k with Some y => y :: omap dst l | None => omap dst l end). rewrite H. done. Qed.
  Lemma execs_insert (l : list (ins K)) i c c' : l !! i = Some c -> (forall s, exec M pinned c' s = exec M pinned c s) -> forall s, execs M pinned (<[i := c']> l) s = execs M pinned l s.
  Proof using.
    revert i. induction l as [|k l IH]; intros [|i] Hi Hd s; try done; cbn in *.
    - injection Hi as ->. by rewrite Hd.
    - destruct (exec M pinned k s) as [e t]. change (list_insert i c' l) with (<[i := c']> l). by rewrite (IH i).
  Qed.
  Lemma step_fold_ins bs b x i c : good bs -> flw bs -> bs !! b = Some x -> irs x !! i = Some c -> step bs (<[b := Blk (phis x) (<[i := fold_ins c]> (irs x)) (exit x)]> bs).
  Proof using All.
    intros G F Hb Hi. destruct (Hfi c) as (H1 & H2 & H3). pose proof (omap_insert_same (irs x) i c (fold_ins c) Hi H1) as Hom. split.
    - eapply (good_less pinned param index E bs); [by rewrite insert_length| |done]. intros b' y y' Hy Hy'. destruct (decide (b' = b)) as [->|Hne].
      + rewrite list_lookup_insert in Hy' by (by eapply lookup_lt_Some). injection Hy' as <-. assert (y = x) as -> by congruence. unfold defs. cbn [phis irs]. rewrite Hom. split; [done|]. split; [done|].
        intros u [Hf1 Hf2]. split; [done|]. cbn [irs exit phis] in *. destruct Hf2 as [(pre & k & post & Hk & Hr & Hn)|(j & l & He & Hr & Hn)]; [left|right; exists j, l; by rewrite Hom in Hn].
        pose proof (lookup_lt_Some _ _ _ Hi) as Hlt. destruct (decide (i = length pre)) as [Hil|Hil].
        * assert (Hck : k = fold_ins c). { pose proof (list_lookup_insert (irs x) i (fold_ins c) Hlt) as Hx. rewrite Hk, Hil, list_lookup_middle in Hx by done. congruence. }
          subst k. exists pre, c, post. split; [|split; [by apply H2|done]]. rewrite <- (list_insert_id (irs x) i c Hi) at 1. rewrite <- (list_insert_insert (irs x) i c (fold_ins c)). rewrite Hk, Hil. rewrite <- (Nat.add_0_r (length pre)). by rewrite insert_app_r.
        * rewrite <- (list_insert_id (irs x) i c Hi). rewrite <- (list_insert_insert (irs x) i c (fold_ins c)). rewrite Hk. destruct (decide (i < length pre)) as [Hl|Hl].
          -- exists (<[i := c]> pre), k, post. split; [by rewrite insert_app_l|]. split; [done|]. rewrite (omap_insert_same pre i (fold_ins c) c); [done| |done].
             pose proof (list_lookup_insert (irs x) i (fold_ins c) Hlt) as Hx. rewrite Hk, lookup_app_l in Hx by done. done.
          -- exists pre, k, (<[i - S (length pre) := c]> post). split; [|done]. replace i with (length pre + (i - length pre)) at 1 by lia. rewrite insert_app_r. f_equal. destruct (i - length pre) as [|n] eqn:En; [lia|]. cbn. do 2 f_equal. lia.
      + rewrite list_lookup_insert_ne in Hy' by done. assert (y' = y) as -> by congruence. done.
    - by eapply flw_insert.
    - by rewrite insert_length.
    - intros n a s. apply trace_pt; [by rewrite insert_length|]. intros b' y y' Hy Hy'. destruct (decide (b' = b)) as [->|Hne].
      + rewrite list_lookup_insert in Hy' by (by eapply lookup_lt_Some). injection Hy' as <-. assert (y = x) as -> by congruence. split; [|done]. intros k s'. cbn [irs phis]. by eapply execs_insert.
      + rewrite list_lookup_insert_ne in Hy' by done. by assert (y' = y) as -> by congruence.
    - apply uses_insert with x; [done|]. intros u Hu. apply used_irs in Hu. apply used_irs. cbn [phis irs exit] in Hu. destruct Hu as [Hu|[(k & Hk & Hu)|Hu]]; [by left|right; left|by right; right].
      apply elem_of_list_lookup in Hk as [n Hk]. destruct (decide (n = i)) as [->|Hne].
      + rewrite list_lookup_insert in Hk by (by eapply lookup_lt_Some). injection Hk as <-. exists c. split; [by eapply elem_of_list_lookup_2|by apply H2].
      + rewrite list_lookup_insert_ne in Hk by done. exists k. split; [by eapply elem_of_list_lookup_2|done].
  Qed.
  Lemma step_fold_exit bs b x j l : good bs -> flw bs -> bs !! b = Some x -> exit x = Some (j, l) -> step bs (<[b := Blk (phis x) (irs x) (fold_exit j l)]> bs).
  Proof using All.
    intros G F Hb He. destruct (Hfe j l) as (H1 & H2 & H3). split.
    - eapply (good_less pinned param index E bs); [by rewrite insert_length| |done]. intros b' y y' Hy Hy'. destruct (decide (b' = b)) as [->|Hne].
      + rewrite list_lookup_insert in Hy' by (by eapply lookup_lt_Some). injection Hy' as <-. assert (y = x) as -> by congruence. split; [done|]. split; [done|].
        intros u [Hf1 Hf2]. split; [done|]. cbn [irs exit phis] in *. destruct Hf2 as [Hf2|(j' & l' & He' & Hr & Hn)]; [by left|right]. exists j, l. split; [done|]. split; [by eapply H2|done].
      + rewrite list_lookup_insert_ne in Hy' by done. assert (y' = y) as -> by congruence. done.
    - intros b' y c Hr Hy Hc Hl. rewrite insert_length in Hc. destruct (decide (b' = b)) as [->|Hne].
      + rewrite list_lookup_insert in Hy by (by eapply lookup_lt_Some). injection Hy as <-. cbn [exit] in Hl. apply (F b x c Hr Hb Hc). rewrite He. unfold leads in *. destruct (fold_exit j l) as [[j' l']|].
        * destruct H3 as [H3|(t & Ht & [H3|H3])]; [by rewrite <- H3|rewrite Ht; rewrite H3 in Hl; by right|rewrite Ht; rewrite H3 in Hl; by left].
        * destruct H3 as [H3|(t & Ht & [H3|H3])]; [by rewrite <- H3|rewrite Ht; by right|done].
      + rewrite list_lookup_insert_ne in Hy by done. by eapply F.
    - by rewrite insert_length.
    - intros n a s. apply trace_pt; [by rewrite insert_length|]. intros b' y y' Hy Hy'. destruct (decide (b' = b)) as [->|Hne].
      + rewrite list_lookup_insert in Hy' by (by eapply lookup_lt_Some). injection Hy' as <-. assert (y = x) as -> by congruence. split; [done|]. intros s'. unfold nxt. cbn [exit]. rewrite He. rewrite <- H1. by destruct (fold_exit j l) as [[j' l']|].
      + rewrite list_lookup_insert_ne in Hy' by done. by assert (y' = y) as -> by congruence.
    - apply uses_insert with x; [done|]. intros u Hu. apply used_irs in Hu. apply used_irs. cbn [phis irs exit] in Hu. destruct Hu as [Hu|[Hu|(j' & l' & Hu & Hr)]]; [by left|by right; left|right; right]. exists j, l. split; [done|]. by eapply H2.
  Qed.

  (** Replacing. *)
  Lemma replace_bb_sub d v (l : list (ins K)) (e : option (J * list (Z + nat))) : (forall i, i ∈ l -> dst i = Some d -> oprs i = [v]) -> forall ip,
    (replace_in_bb d v l e ip).1 = (sub_ins d v <$> l, match e with Some (j, lo) => Some ((j : J), sub d v <$> lo) | None => None end) /\
    ((replace_in_bb d v l e ip).2 <> None -> (exists i, i ∈ l /\ d ∈ regs (oprs i)) \/ exists j lo, e = Some (j, lo) /\ d ∈ regs lo).
  Proof using.
    induction l as [|i l IH]; intros Hl ip.
    - cbn. destruct e as [[j lo]|]; [|done]. cbn. split; [done|]. unfold hit. destruct (decide (inr d ∈ lo)) as [Hi|]; [|done]. intros _. right. exists j, lo. split; [done|]. by apply regs_in.
    - cbn [replace_in_bb]. rewrite decide_False. 2:{ intros [H1 H2]. rewrite (Hl i ltac:(left) H1) in H2. done. }
      destruct (IH ltac:(intros k Hk; apply Hl; by right) (S ip)) as [H1 H2]. destruct (replace_in_bb d v l e (S ip)) as [[l' e'] f]. cbn [fst snd] in *. injection H1 as -> ->. split; [done|].
      intros Hf. unfold hit in Hf. destruct (decide (inr d ∈ oprs i)) as [Hi|Hi].
      + left. exists i. split; [left|by apply regs_in].
      + destruct H2 as [(k & Hk & Hr)|H2]; [done| |by right]. left. exists k. split; [by right|done].
  Qed.
  Lemma replace_blks_sub d v bs : (forall x i, x ∈ bs -> i ∈ irs x -> dst i = Some d -> oprs i = [v]) -> forall ip,
    (replace_blks d v bs ip).1 = sub_blk d v <$> bs /\ ((replace_blks d v bs ip).2 <> None -> uses bs d).
  Proof using.
    unfold uses. induction bs as [|x bs IH]; intros Hl ip; [done|]. cbn [replace_blks].
    destruct (replace_bb_sub d v (irs x) (exit x) ltac:(intros i Hi; apply (Hl x); [left|done]) ip) as [H1 H2].
    destruct (IH ltac:(intros y i Hy; apply (Hl y); by right) (ip + blk_len x)) as [H3 H4].
    destruct (replace_in_bb d v (irs x) (exit x) ip) as [[l e] fi]. destruct (replace_blks d v bs (ip + blk_len x)) as [bs' fb]. cbn [fst snd] in *. injection H1 as -> ->. subst bs'. split; [done|].
    intros Hf. change ((x :: bs) ≫= used) with (used x ++ (bs ≫= used)). apply elem_of_app.
    assert (Hp : foldr (fun p => omin (hit d (params p) ip)) None (phis x) <> None -> d ∈ used x).
    { intros Hx. apply used_irs. left. revert Hx. clear. induction (phis x) as [|p ps IH]; [done|]. cbn. unfold hit at 1. destruct (decide (inr d ∈ params p)) as [Hi|Hi].
      - intros _. exists p. split; [left|by apply regs_in].
      - intros Hx. destruct (IH Hx) as (q & Hq & Hu). exists q. split; [by right|done]. }
    destruct (foldr _ _ (phis x)) as [fp|]; [left; by apply Hp|]. destruct fi as [fi|].
    - left. apply used_irs. right. destruct H2 as [?|?]; [done|by left|by right].
    - right. by apply H4.
  Qed.
  Lemma step_replace bs b x c d v : good bs -> flw bs -> rr E b -> bs !! b = Some x -> c ∈ irs x -> copy_of is_copy c = Some (d, v) ->
    step bs (replace_register pinned bs d v).1 /\
    ((replace_register pinned bs d v).2 <> None -> uses bs d /\ ~ uses (replace_register pinned bs d v).1 d) /\
    forall b' x', bs !! b' = Some x' -> exists y', (replace_register pinned bs d v).1 !! b' = Some y' /\ length (irs y') = length (irs x') /\ blk_len y' = blk_len x'.
  Proof using All.
    intros G F Hr Hb Hc Hco. unfold replace_register. destruct (pinned d || is_pinned pinned v) eqn:Ep.
    { cbn [fst snd]. split; [by apply step_refl|]. split; [done|]. intros b' x' Hx. by exists x'. }
    apply orb_false_iff in Ep as [Hd Hv]. unfold copy_of in Hco. destruct (is_copy (op c)) eqn:Ec; [|done]. destruct (dst c) as [d'|] eqn:Edc; [|done].
    destruct (oprs c) as [|o [|? ?]] eqn:Eo; try done. injection Hco as -> ->.
    assert (Hdv : v <> inr d) by (intros ->; by eapply (no_self_ins pinned param index E bs b x c d)).
    destruct (only_mov pinned param index E is_copy bs b x c d v G Hd Hb Hc Edc Ec Eo) as (O1 & O2 & O3).
    destruct (replace_blks_sub d v bs) with (ip := 0) as [R1 R2].
    { intros y i Hy Hi Hdi. apply elem_of_list_lookup in Hy as [b' Hb']. by apply (O2 b' y i). }
    rewrite R1. assert (O3' : exists b, dfs bs b d) by (by exists b).
    assert (Hcopy' : forall k, is_copy k = true -> seen M k = false /\ forall z w, act M k [z] w = (z, w)) by exact Hcopy.
    assert (Hus : forall u, uses (sub_blk d v <$> bs) u -> (uses bs u /\ u <> d) \/ v = inr u).
    { intros u Hu. apply uses_in in Hu as (b' & y & Hy & Hu). rewrite list_lookup_fmap in Hy. destruct (bs !! b') as [z|] eqn:Hz; [|done]. injection Hy as <-.
      assert (Hg : (u ∈ used z /\ u <> d) \/ v = inr u); [|destruct Hg as [[? ?]|?]; [left; split; [apply uses_in; by exists b', z|done]|by right]].
      apply used_irs in Hu. cbn [phis irs exit sub_blk] in Hu. destruct Hu as [(p & Hp & Hu)|[(i & Hi & Hu)|(j & l & He & Hu)]].
      - apply elem_of_list_fmap in Hp as (q & -> & Hq). cbn [params sub_phi] in Hu. destruct (regs_sub d v _ u Hdv Hu) as [[? ?]|[? ?]]; [left; split; [|done]; apply used_irs; left; by exists q|by right].
      - apply elem_of_list_fmap in Hi as (q & -> & Hq). cbn [oprs sub_ins] in Hu. destruct (regs_sub d v _ u Hdv Hu) as [[? ?]|[? ?]]; [left; split; [|done]; apply used_irs; right; left; by exists q|by right].
      - destruct (exit z) as [[j' l']|] eqn:Ez; [|done]. injection He as -> <-. destruct (regs_sub d v _ u Hdv Hu) as [[? ?]|[? ?]]; [left; split; [|done]; apply used_irs; right; right; by exists j, l'|by right]. }
    split; [|split].
    - split.
      + eapply (good_sub endof pinned param index E M is_copy); done.
      + intros b' y e Hr' Hy He Hl. rewrite fmap_length in He. rewrite list_lookup_fmap in Hy. destruct (bs !! b') as [z|] eqn:Hz; [|done]. injection Hy as <-. apply (F b' z e Hr' Hz He). cbn [exit sub_blk] in Hl. by destruct (exit z) as [[j l]|].
      + by rewrite fmap_length.
      + intros n a s. eapply (trace_sub pinned param index E M is_copy Hcopy' bs G d v Hd Hv Hdv O1 O2 O3' (flw_dyn endof pinned E M Hjumps bs F)); [constructor|].
        eexists. eapply (start_entry pinned param index E M is_copy Hcopy' bs G d v Hd Hv Hdv O1 O2 O3').
      + intros u Hu. destruct (Hus u Hu) as [[? _]|Hvu]; [done|]. apply uses_in. exists b, x. split; [done|]. apply used_irs. right. left. exists c. split; [done|]. rewrite Eo, Hvu. left.
    - intros Hf. split; [by apply R2|]. intros Hu. by destruct (Hus d Hu) as [[_ ?]|?].
    - intros b' x' Hx. exists (sub_blk d v x'). rewrite list_lookup_fmap, Hx. split; [done|]. unfold blk_len. cbn [irs exit sub_blk]. rewrite fmap_length. split; [done|]. by destruct (exit x') as [[j l]|].
  Qed.

  (** The loops.  [usz] is the number of registers that are read. *)
  Definition usz bs : nat := size (list_to_set (bs ≫= used) : gset nat).
  Lemma usz_le bs bs' : (forall u, uses bs' u -> uses bs u) -> usz bs' <= usz bs.
  Proof using. intros H. unfold usz. apply subseteq_size. intros u Hu. apply elem_of_list_to_set in Hu. apply elem_of_list_to_set. by apply H. Qed.
  Lemma usz_lt bs bs' d : (forall u, uses bs' u -> uses bs u) -> uses bs d -> ~ uses bs' d -> usz bs' < usz bs.
  Proof using.
    intros H H1 H2. unfold usz. apply subset_size. split.
    - intros u Hu. apply elem_of_list_to_set in Hu. apply elem_of_list_to_set. by apply H.
    - intros Hs. apply H2. unfold uses. apply (elem_of_list_to_set (C := gset nat)). apply Hs. by apply elem_of_list_to_set.
  Qed.
  Definition less bs bs' (again again' : bool) : Prop := again' = true -> again = true \/ usz bs' < usz bs.
  Lemma step_at_ins bs b x i ip again : good bs -> flw bs -> rr E b -> bs !! b = Some x -> i < length (irs x) ->
    exists bs' again' x', at_ins is_copy fold_ins pinned b i ip bs again = Some (bs', again') /\ step bs bs' /\ less bs bs' again again' /\ bs' !! b = Some x' /\ length (irs x') = length (irs x).
  Proof using All.
    intros G F Hr Hb Hi. destruct (lookup_lt_is_Some_2 _ _ Hi) as [c Hc]. unfold at_ins. rewrite Hb. cbn [mbind option_bind]. rewrite Hc. cbn [mbind option_bind].
    pose proof (step_fold_ins bs b x i c G F Hb Hc) as Hs. set (bs1 := <[b := _]> bs) in *. pose proof (lookup_lt_Some _ _ _ Hb) as Hlt.
    assert (Hb1 : bs1 !! b = Some (Blk (phis x) (<[i := fold_ins c]> (irs x)) (exit x))) by (by apply list_lookup_insert).
    destruct (copy_of is_copy (fold_ins c)) as [[d v]|] eqn:Eco.
    - destruct (step_replace bs1 b _ (fold_ins c) d v (s_good _ _ Hs) (s_flw _ _ Hs) Hr Hb1) as (R1 & R2 & R3); [|done|].
      { cbn [irs]. eapply elem_of_list_lookup_2. by apply list_lookup_insert. }
      destruct (replace_register pinned bs1 d v) as [bs2 first]. cbn [fst snd] in *. destruct (R3 b _ Hb1) as (y & Hy & Hl & _).
      exists bs2, (again || before first ip), y. split; [done|]. split; [by eapply step_trans|]. split; [|split; [done|]; rewrite Hl; cbn; by rewrite insert_length].
      intros Ha. apply orb_true_iff in Ha as [Ha|Ha]; [by left|right]. destruct first as [f|]; [|done]. destruct (R2 ltac:(done)) as [U1 U2].
      eapply Nat.lt_le_trans; [eapply (usz_lt bs1 bs2 d); [apply R1|done|done]|]. apply usz_le, Hs.
    - exists bs1, again, (Blk (phis x) (<[i := fold_ins c]> (irs x)) (exit x)). split; [done|]. split; [done|]. split; [by left|]. split; [done|]. cbn. by rewrite insert_length.
  Qed.
  Lemma less_trans bs1 bs2 bs3 a1 a2 a3 : step bs1 bs2 -> step bs2 bs3 -> less bs1 bs2 a1 a2 -> less bs2 bs3 a2 a3 -> less bs1 bs3 a1 a3.
  Proof using.
    intros S1 S2 L1 L2 Ha. pose proof (usz_le _ _ (s_uses _ _ S1)). pose proof (usz_le _ _ (s_uses _ _ S2)). destruct (L2 Ha) as [Ha2|?]; [|right; lia]. destruct (L1 Ha2); [by left|right; lia].
  Qed.
  Lemma step_irs n : forall bs b x i ip again, good bs -> flw bs -> rr E b -> bs !! b = Some x -> i + n <= length (irs x) ->
    exists bs' again' x', irs_loop is_copy fold_ins pinned n b i ip bs again = Some (bs', again') /\ step bs bs' /\ less bs bs' again again' /\ bs' !! b = Some x'.
  Proof using All.
    induction n as [|n IH]; intros bs b x i ip again G F Hr Hb Hi.
    - exists bs, again, x. split; [done|]. split; [by apply step_refl|]. split; [by left|done].
    - cbn [irs_loop]. destruct (step_at_ins bs b x i ip again G F Hr Hb ltac:(lia)) as (bs1 & a1 & x1 & -> & S1 & L1 & Hb1 & Hl1). cbn [mbind option_bind].
      destruct (IH bs1 b x1 (S i) (S ip) a1 (s_good _ _ S1) (s_flw _ _ S1) Hr Hb1 ltac:(lia)) as (bs2 & a2 & x2 & -> & S2 & L2 & Hb2).
      exists bs2, a2, x2. split; [done|]. split; [by eapply step_trans|]. split; [by eapply less_trans|done].
  Qed.
  Lemma step_blks n : forall bs b ip again, good bs -> flw bs -> length bs = length from -> b + n = length bs ->
    exists bs' again', blks_loop mov is_copy fold_ins fold_exit pinned from n b ip bs again = Some (bs', again') /\ step bs bs' /\ less bs bs' again again'.
  Proof using All.
    induction n as [|n IH]; intros bs b ip again G F Hlen Hn.
    - exists bs, again. split; [done|]. split; [by apply step_refl|by left].
    - cbn [blks_loop]. destruct (lookup_lt_is_Some_2 from b ltac:(lia)) as [f Hf]. rewrite Hf. cbn [mbind option_bind].
      destruct (decide (f = [] /\ b <> 0)) as [Hsk|Hsk]; [apply IH; try done; lia|].
      assert (Hpre : b <> 0 -> exists a, E a b). { intros H0. destruct f as [|a f]; [by exfalso; apply Hsk|]. exists a, (a :: f). split; [done|left]. }
      assert (Hr : rr E b). { destruct (decide (b = 0)) as [->|H0]; [constructor|]. destruct (Hpre H0) as [a Ha]. eapply rr_step; [by eapply Hreach|done]. }
      destruct (lookup_lt_is_Some_2 bs b ltac:(lia)) as [x Hb]. rewrite Hb. cbn [mbind option_bind].
      destruct (step_collapse (phis x) bs b (irs x) (exit x) [] G F Hr Hpre) as (ps & l & -> & S1); [rewrite Hb; by destruct x|]. cbn [mbind option_bind]. cbn [app] in S1.
      assert (Hb1 : <[b := Blk ps l (exit x)]> bs !! b = Some (Blk ps l (exit x))) by (apply list_lookup_insert; lia).
      destruct (step_irs (length l) _ b _ 0 ip again (s_good _ _ S1) (s_flw _ _ S1) Hr Hb1 ltac:(cbn; lia)) as (bs2 & a2 & x2 & -> & S2 & L2 & Hb2). cbn [mbind option_bind].
      unfold at_exit. rewrite Hb2. cbn [mbind option_bind].
      assert (S3 : exists bs3 x3, match exit x2 with Some (j, lo) => <[b := Blk (phis x2) (irs x2) (fold_exit j lo)]> bs2 | None => bs2 end = bs3 /\ step bs2 bs3 /\ bs3 !! b = Some x3).
      { destruct (exit x2) as [[j lo]|] eqn:Ex.
        - eexists _, _. split; [done|]. split; [eapply step_fold_exit; [apply S2|apply S2|done|done]|]. apply list_lookup_insert. by eapply lookup_lt_Some.
        - exists bs2, x2. split; [done|]. split; [|done]. apply step_refl; apply S2. }
      destruct S3 as (bs3 & x3 & -> & S3 & Hb3). rewrite Hb3. cbn [mbind option_bind].
      assert (S13 : step bs bs3) by (eapply step_trans; [|exact S3]; by eapply step_trans).
      destruct (IH bs3 (S b) (ip + blk_len x3) a2 (s_good _ _ S13) (s_flw _ _ S13)) as (bs4 & a4 & -> & S4 & L4); [rewrite (s_len _ _ S13); done|rewrite (s_len _ _ S13); lia|].
      exists bs4, a4. split; [done|]. split; [by eapply step_trans|]. eapply less_trans; [exact S13|exact S4| |exact L4].
      eapply (less_trans bs bs2 bs3 again a2 a2); [eapply step_trans; [exact S1|exact S2]|exact S3| |by left]. eapply (less_trans _ _ _ again again a2); [exact S1|exact S2|by left|done].
  Qed.
  Lemma step_rounds fuel : forall bs, good bs -> flw bs -> length bs = length from -> usz bs <= fuel ->
    exists bs', copy_rounds mov is_copy fold_ins fold_exit pinned (S fuel) from bs = Some bs' /\ step bs bs'.
  Proof using All.
    induction fuel as [|fuel IH]; intros bs G F Hlen Hf; change (copy_rounds mov is_copy fold_ins fold_exit pinned (S ?n) from bs) with
      ('(bs', again) ← blks_loop mov is_copy fold_ins fold_exit pinned from (length bs) 0 0 bs false; if again : bool then copy_rounds mov is_copy fold_ins fold_exit pinned n from bs' else Some bs').
    - destruct (step_blks (length bs) bs 0 0 false G F Hlen eq_refl) as (bs1 & a1 & -> & S1 & L1). cbn [mbind option_bind].
      destruct a1; [destruct (L1 eq_refl); [done|lia]|]. by exists bs1.
    - destruct (step_blks (length bs) bs 0 0 false G F Hlen eq_refl) as (bs1 & a1 & -> & S1 & L1). cbn [mbind option_bind].
      destruct a1; [|by exists bs1]. destruct (L1 eq_refl) as [?|Hlt]; [done|].
      destruct (IH bs1 (s_good _ _ S1) (s_flw _ _ S1) ltac:(by rewrite (s_len _ _ S1)) ltac:(lia)) as (bs2 & -> & S2). exists bs2. split; [done|]. by eapply step_trans.
  Qed.
  Lemma copy_ok bs : good bs -> flw bs -> length bs = length from ->
    exists bs', copy_propagation mov is_copy fold_ins fold_exit pinned from bs = Some bs' /\ step bs bs'.
  Proof using All.
    intros G F Hlen. apply step_rounds; [done|done|done|]. unfold usz. generalize (bs ≫= used). intros l. induction l as [|u l IH]; [done|]. cbn [list_to_set length].
    rewrite size_union_alt, size_singleton. pose proof (subseteq_size (list_to_set l ∖ {[u]} : gset nat) (list_to_set l)) as Hs. specialize (Hs ltac:(set_solver)). lia.
  Qed.
End Main.
