(** The block inserted before a successor. *)
From stdpp Require Import base list numbers.
From Verif Require Import Back.Unused_model Back.Unused_spec Back.Unphi_model Back.Unphi_spec Back.Unphi_look_proof Back.Unphi_sim_proof.
Local Open Scope nat_scope.

Section Put.
  Context {K C : Type}.
  Implicit Types f : list (nat * blk K (jmp C)).
  Implicit Types x y z : blk K (jmp C).
  Lemma look_put f k N z i b x : NoDup (fst <$> f) -> N ∉ fst <$> f -> k <= length f -> f !! i = Some (b, x) ->
    look (put k (N, z) f) b = Some (x, if decide (S i = k) then Some N else fst <$> f !! S i).
  Proof.
    intros Hn HN Hk Hi. assert (Hn2 : NoDup (fst <$> put k (N, z) f)) by (by apply put_labels). destruct (decide (i < k)) as [Hlt|Hge].
    - rewrite (look_at _ i b x Hn2) by (by rewrite put_lt). case_decide as E; [by rewrite E, put_eq by done|by rewrite put_lt by lia].
    - rewrite (look_at _ (S i) b x Hn2) by (rewrite put_gt by lia; done). rewrite put_gt by lia. by rewrite decide_False by lia.
  Qed.
  Lemma look_put_new f k N z : NoDup (fst <$> f) -> N ∉ fst <$> f -> k <= length f -> look (put k (N, z) f) N = Some (z, fst <$> f !! k).
  Proof. intros Hn HN Hk. rewrite (look_at _ k N z) by (by first [apply put_labels|apply put_eq]). by rewrite put_gt. Qed.
  Lemma put_inv f k N z i l x : k <= length f -> put k (N, z) f !! i = Some (l, x) -> (i = k /\ l = N /\ x = z) \/ (i < k /\ f !! i = Some (l, x)) \/ (exists i', i = S i' /\ k <= i' /\ f !! i' = Some (l, x)).
  Proof.
    intros Hk H. destruct (Nat.lt_trichotomy i k) as [Hlt|[->|Hgt]].
    - rewrite put_lt in H by done. right. by left.
    - rewrite put_eq in H by done. injection H as <- <-. by left.
    - destruct i as [|i]; [lia|]. rewrite put_gt in H by lia. right. right. exists i. split; [done|]. split; [lia|done].
  Qed.
End Put.

Section Insert.
  Context {K C W : Type} (M : machine K (jmp C) W) (pinned : nat -> bool) (inv : C -> C).
  Hypothesis HL : labels_free M inv.
  Implicit Types x y : blk K (jmp C).
  Notation gtrace := (gtrace M pinned). Notation ok := (ok pinned). Notation tidy := (tidy pinned).
  Context (R : nat -> Prop) (f : @fn K C) (fr : nat -> list nat) (dn : nat -> nat) (nv a to j ito ifrom : nat) x y (e : jmp C) (l : list (Z + nat)).
  Hypothesis O : ok R (body f) fr dn (newl f) nv.
  Hypothesis Hj : fr to !! j = Some a.
  Hypothesis Hdn : dn to = j.
  Hypothesis Rto : R to.
  Hypothesis Hto : body f !! ito = Some (to, y).
  Hypothesis Hfrom : body f !! ifrom = Some (a, x).
  Hypothesis He : exit x = Some (e, l).
  Hypothesis Hg : forall t, e <> Goto t.
  Notation N := (newl f).
  Notation nd := (o_nd _ _ _ _ _ _ _ O).

  (** What is known of the result; [e'] is the new jump and [at_] the place of the new block. *)
  Section Built.
    Context (e' : jmp C) (at_ : nat).
    Definition f1 := <[ifrom := (a, set_exit (Some (e', l)) x)]> (body f).
    Definition bN : blk K (jmp C) := Blk [] [] (if at_ =? ito then None else Some (Goto to, [])).
    Definition f2 := put at_ (N, bN) f1.
    Hypothesis Hat : at_ < length (body f).
    Hypothesis Hat2 : at_ = S ifrom \/ at_ = ito.
    Hypothesis Hturn : turn inv to N (Some (e, l)) (fst <$> body f !! S ifrom) (Some (e', l)) (if decide (S ifrom = at_) then Some N else fst <$> body f !! S ifrom).
    Hypothesis Hprev : forall b z i, S i = at_ -> i <> ifrom -> body f !! i = Some (b, z) -> falls (exit z) = false.
    Lemma from_lt : ifrom < length (body f). Proof using All. by eapply lookup_lt_Some. Qed.
    Lemma from_last : S ifrom <> length (body f).
    Proof using All. intros H. destruct (o_last _ _ _ _ _ _ _ O _ _ _ _ _ Hfrom H He) as [t ->]. by apply (Hg t). Qed.
    Lemma len_f1 : length f1 = length (body f). Proof using All. apply insert_length. Qed.
    Lemma lab_f1 : fst <$> f1 = fst <$> body f. Proof using All. by eapply set_labels. Qed.
    Lemma nd_f1 : NoDup (fst <$> f1). Proof using All. rewrite lab_f1. apply O. Qed.
    Lemma N_f1 : N ∉ fst <$> f1.
    Proof using All. rewrite lab_f1. intros H. apply elem_of_list_fmap in H as ([l' z] & E & H). apply elem_of_list_lookup in H as [i Hi]. cbn in E. subst. apply (o_lab _ _ _ _ _ _ _ O) in Hi. lia. Qed.
    Lemma lab_at i : fst <$> f1 !! i = fst <$> body f !! i. Proof using All. rewrite <- !list_lookup_fmap. by rewrite lab_f1. Qed.
    Lemma at_f1 i b z : f1 !! i = Some (b, z) -> (i = ifrom /\ b = a /\ z = set_exit (Some (e', l)) x) \/ (i <> ifrom /\ body f !! i = Some (b, z)).
    Proof using All.
      intros H. destruct (decide (i = ifrom)) as [->|Hne].
      - unfold f1 in H. rewrite list_lookup_insert in H by exact from_lt. injection H as <- <-. by left.
      - unfold f1 in H. rewrite list_lookup_insert_ne in H by done. by right.
    Qed.
    Lemma built_split : split inv (body f) f2 a to N.
    Proof using All.
      assert (Hk : at_ <= length f1) by (rewrite len_f1; lia). split.
      - exists (exit bN), (fst <$> f1 !! at_). split; [by apply look_put_new; [exact nd_f1|exact N_f1|]|]. unfold bN. cbn [exit]. destruct (at_ =? ito) eqn:E; [left|by right]. apply Nat.eqb_eq in E. split; [done|]. rewrite lab_at, E, Hto. done.
      - intros b z nz Hb Hz. apply look_inv in Hz as (i & Hi & ->). assert (i <> ifrom) by (intros ->; congruence).
        assert (Hi1 : f1 !! i = Some (b, z)) by (unfold f1; by rewrite list_lookup_insert_ne). eexists. split; [eapply look_put; [exact nd_f1|exact N_f1|done|done]|].
        destruct (decide (S i = at_)) as [E|E]; [right; by eapply Hprev|left; apply lab_at].
      - assert (Hi1 : f1 !! ifrom = Some (a, set_exit (Some (e', l)) x)) by (unfold f1; apply list_lookup_insert; exact from_lt).
        exists x, (fst <$> body f !! S ifrom), (Some (e', l)). eexists. split; [by apply look_at; [apply O|]|]. split; [eapply look_put; [exact nd_f1|exact N_f1|done|done]|]. rewrite lab_at, He. exact Hturn.
    Qed.
    Lemma built_in i b z : f2 !! i = Some (b, z) -> (i = at_ /\ b = N /\ z = bN) \/ (exists i', (i' < at_ /\ i = i' \/ at_ <= i' /\ i = S i') /\
      ((i' = ifrom /\ b = a /\ z = set_exit (Some (e', l)) x) \/ (i' <> ifrom /\ body f !! i' = Some (b, z)))).
    Proof using All.
      intros H. unfold f2 in H. apply put_inv in H as [H|[[H1 H2]|(i' & -> & H1 & H2)]]; [by left|right; exists i; split; [by left|by apply at_f1]|right; exists i'; split; [by right|by apply at_f1]|].
      rewrite len_f1. lia.
    Qed.
    Lemma e'_table ts : e' = Multi ts -> ts <> [].
    Proof using All.
      intros ->. unfold turn in Hturn. destruct e as [t|c t|ts'] eqn:Ee; [by destruct (Hg t)| |].
      - destruct Hturn as [(_ & m & _ & H & _)|[(_ & H & _)|(_ & _ & H & _)]]; done.
      - injection Hturn as ->. intros E. apply fmap_nil_inv in E. by apply (o_table _ _ _ _ _ _ _ O _ _ _ _ _ Hfrom He).
    Qed.
    Lemma bN_tidy : tidy nv bN.
    Proof using All.
      unfold bN. split; cbn [phis irs exit]; [constructor|by intros p ?%elem_of_nil|by intros i v ?%elem_of_nil|].
      intros j' l' v H Hv. destruct (at_ =? ito); [done|]. injection H as <- <-. by apply elem_of_nil in Hv.
    Qed.
    Lemma from_tidy : tidy nv (set_exit (Some (e', l)) x).
    Proof using All.
      destruct (o_tidy _ _ _ _ _ _ _ O _ _ _ Hfrom) as [H1 H2 H3 H4]. split; [done|done|done|]. cbn [exit set_exit]. intros q1 q2 v [= <- <-]. by eapply H4.
    Qed.
    Lemma f2_len : length f2 = S (length (body f)).
    Proof using All. unfold f2. rewrite put_length; rewrite len_f1; lia. Qed.
    Lemma built_pre : NoDup (fst <$> f2) /\ (forall i b z, f2 !! i = Some (b, z) -> b = N \/ exists i' y, body f !! i' = Some (b, y)) /\
      (forall i b z q1 q2, f2 !! i = Some (b, z) -> S i = length f2 -> exit z = Some (q1, q2) -> exists t, q1 = Goto t) /\
      (forall i b z ts q, f2 !! i = Some (b, z) -> exit z = Some (Multi ts, q) -> ts <> []) /\ (forall i b z, f2 !! i = Some (b, z) -> tidy nv z).
    Proof using All.
      repeat split_and.
      - apply put_labels; [exact nd_f1|exact N_f1].
      - intros i b z H. apply built_in in H as [(_ & -> & _)|(i' & _ & [(-> & -> & _)|[_ H]])]; [by left|right; eauto..].
      - intros i b z q1 q2 H Hl Hz. rewrite f2_len in Hl. pose proof from_last as Hfl. apply built_in in H as [(-> & _ & _)|(i' & Hi & [(-> & _ & _)|[_ H]])]; [lia|lia|]. eapply (o_last _ _ _ _ _ _ _ O); [exact H|lia|done].
      - intros i b z ts q H Hz. apply built_in in H as [(_ & _ & ->)|(i' & _ & [(_ & _ & ->)|[_ H]])].
        + unfold bN in Hz. cbn in Hz. by destruct (at_ =? ito).
        + cbn in Hz. injection Hz as E _. by apply e'_table.
        + by eapply (o_table _ _ _ _ _ _ _ O).
      - intros i b z H. apply built_in in H as [(_ & _ & ->)|(i' & _ & [(_ & _ & ->)|[_ H]])]; [exact bN_tidy|exact from_tidy|by eapply (o_tidy _ _ _ _ _ _ _ O)].
    Qed.
    Definition ito2 : nat := if at_ <=? ito then S ito else ito.
    Lemma built_to : exists y2, f2 !! ito2 = Some (to, y2) /\ phis y2 = phis y /\ look f2 to = Some (y2, fst <$> f2 !! S ito2).
    Proof using All.
      assert (H1 : exists y2, f1 !! ito = Some (to, y2) /\ phis y2 = phis y).
      { unfold f1. destruct (decide (ifrom = ito)) as [E|E].
        - rewrite E in Hfrom |- *. rewrite Hfrom in Hto. injection Hto as -> ->. exists (set_exit (Some (e', l)) y). split; [|done]. apply list_lookup_insert. by eapply lookup_lt_Some.
        - exists y. split; [by rewrite list_lookup_insert_ne|done]. }
      destruct H1 as (y2 & H1 & H2). exists y2. assert (Hk : at_ <= length f1) by (rewrite len_f1; lia).
      assert (H3 : f2 !! ito2 = Some (to, y2)).
      { unfold f2, ito2. destruct (at_ <=? ito) eqn:E; [apply Nat.leb_le in E; by rewrite put_gt|apply Nat.leb_gt in E; by rewrite put_lt]. }
      split; [done|]. split; [done|]. apply look_at; [apply built_pre|done].
    Qed.
  End Built.
  Lemma Ra : R a. Proof using All. eapply (o_fr _ _ _ _ _ _ _ O). by eapply elem_of_list_lookup_2. Qed.
  Lemma insert_total : exists e' at_, insert_bb inv f ito ifrom e l = Some (Fn (f2 e' at_) (S N) (newv f), N, at_) /\ at_ < length (body f) /\ (at_ = S ifrom \/ at_ = ito) /\
    turn inv to N (Some (e, l)) (fst <$> body f !! S ifrom) (Some (e', l)) (if decide (S ifrom = at_) then Some N else fst <$> body f !! S ifrom) /\
    (forall b z i, S i = at_ -> i <> ifrom -> body f !! i = Some (b, z) -> falls (exit z) = false).
  Proof using All.
    pose proof Ra as HRa. assert (Hitol : ito < length (body f)) by (by eapply lookup_lt_Some). assert (Hfl : ifrom < length (body f)) by (by eapply lookup_lt_Some).
    assert (Hnl : S ifrom <> length (body f)) by (intros H; destruct (o_last _ _ _ _ _ _ _ O _ _ _ _ _ Hfrom H He) as [t ->]; by apply (Hg t)).
    destruct (lookup_lt_is_Some_2 (body f) (S ifrom)) as [[nxt zn] Hnx]; [lia|].
    set (ft := if ito =? 0 then false else match body f !! (ito - 1) with Some (_, p) => falls (exit p) | None => false end).
    assert (Hft : (if ito =? 0 then Some false else '(_, p) ← body f !! (ito - 1); Some (falls (exit p))) = Some ft).
    { unfold ft. destruct (ito =? 0) eqn:E; [done|]. apply Nat.eqb_neq in E. destruct (lookup_lt_is_Some_2 (body f) (ito - 1)) as [[p1 p2] Hp]; [lia|]. by rewrite Hp. }
    assert (Hf1 : ft = false -> forall b z i, S i = ito -> body f !! i = Some (b, z) -> falls (exit z) = false).
    { intros E b z i Hi Hz. unfold ft in E. subst ito. cbn [Nat.eqb] in E. replace (S i - 1) with i in E by lia. by rewrite Hz in E. }
    assert (Hf2 : ito = S ifrom -> ft = falls (Some (e, l))).
    { intros E. unfold ft. rewrite E. cbn [Nat.eqb]. replace (S ifrom - 1) with ifrom by lia. by rewrite Hfrom, He. }
    assert (Hcase : forall ft' e', ft = ft' -> match e with Goto t => Some (Goto t) | Cond c t => if t =? to then if ft then '(next, _) ← body f !! S ifrom; Some (Cond (inv c) next) else Some (Cond c N) else Some (Cond c t)
        | Multi ts => _ ← body f !! S ifrom; Some (Multi ((fun t => if t =? to then N else t) <$> ts)) end = Some e' ->
        insert_bb inv f ito ifrom e l = Some (Fn (f2 e' (if ft' then S ifrom else ito)) (S N) (newv f), N, if ft' then S ifrom else ito)).
    { intros ft' e' <- E. unfold insert_bb. rewrite Hto. cbn [mbind option_bind]. rewrite Hfrom. cbn [mbind option_bind]. rewrite Hft. cbn [mbind option_bind]. rewrite E. cbn [mbind option_bind]. reflexivity. }
    rewrite Hnx in Hcase |- *. cbn [mbind option_bind fmap option_fmap option_map fst] in Hcase |- *.
    assert (Hlead : forall c t, e = Cond c t -> t <> to -> nxt = to).
    { intros c t Ec Hne. rewrite Ec in He. assert (H : leads (exit x) (Some nxt) to).
      { apply leads_times; [by rewrite He|]. rewrite <- (o_count _ _ _ _ _ _ _ O a x _ to HRa); [|rewrite (look_at _ _ _ _ nd Hfrom), Hnx; done|by rewrite He]. apply occ_elem. by eapply elem_of_list_lookup_2. }
      rewrite He in H. cbn in H. destruct H as [H|H]; [by destruct Hne|congruence]. }
    destruct e as [t|c t|ts] eqn:Ee; [by destruct (Hg t)| |].
    - destruct (decide (t = to)) as [->|Hne].
      + rewrite Nat.eqb_refl in Hcase. destruct ft eqn:Eft.
        * exists (Cond (inv c) nxt), (S ifrom). split; [by apply (Hcase true)|]. split; [lia|]. split; [by left|]. split; [|intros b z i E; lia]. cbn [turn]. left. split; [done|]. exists nxt. by rewrite decide_True.
        * exists (Cond c N), ito. split; [by apply (Hcase false)|]. split; [lia|]. split; [by right|]. assert (Hni : S ifrom <> ito) by (intros E; symmetry in E; by specialize (Hf2 E)). rewrite decide_False by done.
          split; [cbn [turn]; right; by left|]. intros b z i E _ Hz. by eapply Hf1.
      + assert (Hq : nxt = to) by (by eapply Hlead). assert (Ei : ito = S ifrom) by (eapply (label_inj (body f)); [apply O|done|]; by rewrite Hnx, Hq). assert (ft = true) as Eft by (by apply Hf2).
        exists (Cond c t), (S ifrom). split; [apply (Hcase true); [done|]; by rewrite (proj2 (Nat.eqb_neq t to) Hne)|]. split; [lia|]. split; [by left|]. split; [|intros b z i E; lia]. cbn [turn]. right. right. rewrite decide_True by done. by subst.
    - exists (Multi ((fun t => if t =? to then N else t) <$> ts)). destruct ft eqn:Eft.
      + exists (S ifrom). split; [by apply (Hcase true)|]. split; [lia|]. split; [by left|]. split; [done|]. intros b z i E; lia.
      + exists ito. split; [by apply (Hcase false)|]. split; [lia|]. split; [by right|]. split; [done|]. intros b z i E _ Hz. by eapply Hf1.
  Qed.
End Insert.
