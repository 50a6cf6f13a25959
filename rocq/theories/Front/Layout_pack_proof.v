(** Bit-fields that follow each other share a unit while there is room. *)
From stdpp Require Import base list numbers.
From Verif Require Import Front.Layout_model Front.Layout_spec Front.Layout_proof.
Local Open Scope Z_scope.

Section proof.
  Context (lp64 : bool).
  Notation fsize := (fixnum_size lp64).

  (** Where the fields of a unit start, the first at [pos]. *)
  Fixpoint starts (pos : Z) (ms : list mem) : list Z :=
    match ms with [] => [] | m :: ms => pos :: starts (pos + default 0 (m_width m)) ms end.
  Definition sum (ms : list mem) : Z := foldr (fun m n => default 0 (m_width m) + n) 0 ms.

  Lemma pack_chain ms : forall k pos ps kf rest, plain k = true -> 0 <= pos <= 8 * fsize k ->
    pack lp64 k pos ms = (ps, kf, rest) ->
    exists used, ms = used ++ rest /\ ps = starts pos used /\ pos + sum used <= 8 * fsize kf /\
      Forall (fun m => 0 < default 0 (m_width m)) used /\
      match rest with [] => True | m :: _ => 0 < default 0 (m_width m) -> 8 * fsize kf < pos + sum used + default 0 (m_width m) end.
  Proof.
    induction ms as [|m ms IH]; intros k pos ps kf rest Hk Hpos H; cbn [pack] in H.
    { injection H as <- <- <-. exists []. cbn. split_and!; (done || lia || constructor). }
    destruct (Z.eqb_spec pos (fsize k * 8)) as [Ep|Ep].
    { injection H as <- <- <-. exists []. cbn. split_and!; (done || lia || constructor). }
    destruct (Z.leb_spec (default 0 (m_width m)) 0) as [Ew|Ew].
    { injection H as <- <- <-. exists []. cbn. split_and!; (done || lia || constructor). }
    set (w := default 0 (m_width m)) in *.
    remember (if fsize k * 8 <? pos + w then widen lp64 (after k) (pos + w) else Some k) as next eqn:En.
    destruct next as [k'|].
    - assert (plain k' = true /\ pos + w <= 8 * fsize k') as (Hk2 & Hk3).
      { destruct (Z.ltb_spec (fsize k * 8) (pos + w)).
        - symmetry in En. apply widen_in in En as [Hin Hne]. apply (after_size lp64) in Hin as [? ?]. done.
        - injection En as ->. split; [done|lia]. }
      destruct (pack lp64 k' (pos + w) ms) as [[ps' kf'] rest'] eqn:Epk. injection H as <- <- <-.
      destruct (IH k' (pos + w) ps' kf' rest' Hk2 ltac:(lia) Epk) as (used & -> & -> & H1 & H2 & H3).
      exists (m :: used). cbn [sum foldr starts]. fold w. fold (sum used). split; [done|]. split; [done|]. split; [lia|]. split; [constructor; [lia|done]|].
      destruct rest' as [|m' rest']; [done|]. intros H. specialize (H3 H). lia.
    - injection H as <- <- <-. exists []. cbn. fold w. split; [done|]. split; [done|]. split; [lia|]. split; [constructor|]. intros _.
      destruct (Z.ltb_spec (fsize k * 8) (pos + w)); [lia|done].
  Qed.

  (** [pw] is the width and the place of the member before. *)
  Definition joined (pw : option (Z * placed)) (w' : option Z) (p' : placed) : Prop :=
    match pw, w' with
    | Some (w, p), Some w' => 0 < w -> 0 < w' -> position p + w + w' <= 8 * fsize (base_kind p) -> p' = Placed (offset p) (position p + w) (base_kind p)
    | _, _ => True
    end.
  Definition before (m : mem) (p : placed) : option (Z * placed) := match m_width m with Some w => Some (w, p) | None => None end.
  Fixpoint follows (pw : option (Z * placed)) (ms : list mem) (pls : list placed) : Prop :=
    match ms, pls with
    | m :: ms, p :: pls => joined pw (m_width m) p /\ follows (before m p) ms pls
    | _, _ => True
    end.
  Definition full (pw : option (Z * placed)) (ms : list mem) : Prop :=
    match pw, ms with
    | Some (w, p), m :: _ => 0 < w -> 0 < default 0 (m_width m) -> 8 * fsize (base_kind p) < position p + w + default 0 (m_width m)
    | _, _ => True
    end.
  Lemma full_joined pw m ms p : full pw (m :: ms) -> joined pw (m_width m) p.
  Proof. unfold full, joined. destruct pw as [[w p0]|]; [|done]. destruct (m_width m) as [w'|]; [|done]. cbn. intros H H1 H2 H3. specialize (H H1 H2). lia. Qed.

  (** A whole unit, then the rest. *)
  Lemma follows_unit off kf used : forall pos pw rest pls, Forall (fun m => 0 < default 0 (m_width m)) used ->
    match pw with None => True | Some (w, p) => 0 < w /\ base_kind p = kf /\ offset p = off /\ position p + w = pos end ->
    (forall pw', match pw' with None => used = [] /\ pw = None | Some (w, p) => 0 < w /\ base_kind p = kf /\ position p + w = pos + sum used end -> follows pw' rest pls) ->
    follows pw (used ++ rest) (((fun q => Placed off q kf) <$> starts pos used) ++ pls).
  Proof.
    induction used as [|m used IH]; intros pos pw rest pls Hu Hpw Hrest.
    - cbn [app starts fmap list_fmap]. apply Hrest. destruct pw as [[w p]|]; [|done]. cbn. destruct Hpw as (? & ? & ? & ?). split_and!; try done. lia.
    - apply stdpp.list.Forall_cons in Hu as [Hm Hu]. cbn [app starts fmap list_fmap follows]. split.
      + unfold joined. destruct pw as [[w p]|]; [|done]. destruct (m_width m) as [w'|]; [|done]. destruct Hpw as (_ & <- & <- & <-). done.
      + unfold before. destruct (m_width m) as [w|] eqn:Ew; cbn [default id] in Hm; [|lia]. cbn [default id]. apply IH; [done|cbn; done|].
        intros [[w' p']|] H; apply Hrest; [|destruct H as [_ ?]; done]. destruct H as (Hw' & Hkf & Hps). split_and!; try done. cbn [sum foldr]. fold (sum used).
        rewrite Hps. replace (default 0 (m_width m)) with w by (rewrite Ew; done). lia.
  Qed.

  Lemma layout_follows fuel : forall ms size maxa pls s a pw, Forall (mem_ok lp64) ms ->
    layout lp64 fuel ms size maxa = Some (pls, s, a) -> full pw ms -> follows pw ms pls.
  Proof.
    induction fuel as [|fuel IH]; intros ms size maxa pls s a pw Hms H Hfull; (destruct ms as [|m ms]; [cbn [layout] in H; injection H as <- <- <-; done|]); [done|].
    cbn [layout] in H. destruct (place lp64 m ms size) as [[[[pl rest] size'] align]|] eqn:Ep; [|done].
    destruct (layout lp64 fuel rest size' (Z.max maxa align)) as [[[pls' s'] a']|] eqn:El; [|done]. injection H as <- <- <-.
    apply stdpp.list.Forall_cons in Hms as [Hm Hms]. destruct Hm as (Hal & Hsz & Hw).
    unfold place in Ep. destruct (m_width m) as [w|] eqn:Ew.
    - destruct (Z.eqb_spec w 0) as [->|Hw0].
      { injection Ep as <- <- <- <-. cbn [app follows]. split; [apply (full_joined pw m ms); done|]. eapply IH; [done|exact El|].
        unfold before. rewrite Ew. unfold full. destruct ms; [done|]. lia. }
      destruct Hw as (k & Hk & Hb & Hwr & Hse). rewrite Hk in Ep.
      destruct (initial_ok lp64 k size (m_align m) Hal Hb) as (k0 & Hi & Hp0). rewrite Hi in Ep.
      destruct (pack lp64 k0 0 (m :: ms)) as [[ps kf] rest'] eqn:Epk. injection Ep as <- <- <- <-.
      destruct (pack_chain (m :: ms) k0 0 ps kf rest' Hp0 ltac:(pose proof (fsize_pos lp64 k0); lia) Epk) as (used & E & -> & H1 & H2 & H3).
      destruct used as [|m0 used].
      { exfalso. cbn in E. assert (Forall (mem_ok lp64) (m :: ms)) as Hall.
        { constructor; [|done]. split; [done|]. split; [done|]. rewrite Ew. eauto 10. }
        destruct (pack_ok lp64 (m :: ms) k0 0 _ kf rest' Hall Hp0 ltac:(pose proof (fsize_pos lp64 k0); lia) Epk) as (used & E2 & _ & _ & _ & _ & _ & H5).
        specialize (H5 ltac:(rewrite Ew; cbn; lia) eq_refl). destruct used as [|m' used]; [done|]. apply (f_equal length) in E2.
        rewrite app_length in E2. rewrite <- E in E2. cbn in E2. lia. }
      cbn in E. injection E as <- ->. cbn [app starts fmap list_fmap follows]. split; [apply (full_joined pw m (used ++ rest')); done|].
      apply stdpp.list.Forall_cons in H2 as [Hm2 H2]. apply Forall_app in Hms as [_ Hrest].
      rewrite Ew. cbn [default id]. unfold before. rewrite Ew. apply follows_unit; [done|cbn; split_and!; (done || lia)|].
      intros [[w' p']|]; [|intros [_ ?]; done]. intros (Hw' & Hkf & Hpos).
      eapply IH; [done|exact El|]. unfold full. destruct rest' as [|m1 rest']; [done|]. intros _ H. specialize (H3 H).
      cbn [sum foldr] in H3. fold (sum used) in H3. rewrite Ew in H3. cbn [default id] in H3. rewrite Hkf. lia.
    - injection Ep as <- <- <- <-. cbn [app follows]. split; [apply (full_joined pw m ms); done|]. eapply IH; [done|exact El|].
      unfold before. rewrite Ew. done.
  Qed.

  Lemma follows_lookup ms : forall pw pls (i : nat) m m' p p' w, follows pw ms pls ->
    ms !! i = Some m -> ms !! S i = Some m' -> pls !! i = Some p -> pls !! S i = Some p' -> m_width m = Some w ->
    joined (Some (w, p)) (m_width m') p'.
  Proof.
    induction ms as [|m0 ms IH]; intros pw pls i m m' p p' w H Hi Hi' Hp Hp' Hw; [done|]. destruct pls as [|p0 pls]; [done|].
    cbn [follows] in H. destruct H as [_ H]. destruct i as [|i]; cbn in *.
    - injection Hi as ->. injection Hp as ->. destruct ms as [|m1 ms]; [done|]. destruct pls as [|p1 pls]; [done|]. cbn in *. injection Hi' as ->. injection Hp' as ->.
      destruct H as [H _]. unfold before in H. rewrite Hw in H. done.
    - exact (IH _ _ _ _ _ _ _ _ H Hi Hi' Hp Hp' Hw).
  Qed.
  Theorem fields_packed ms pls s a : legal_members lp64 ms -> struct_layout lp64 false ms = Some (pls, s, a) ->
    forall (i : nat) t t' w w' p p', ms !! i = Some (t, Some w) -> ms !! S i = Some (t', Some w') -> 0 < w -> 0 < w' ->
      pls !! i = Some p -> pls !! S i = Some p' -> position p + w + w' <= 8 * fsize (base_kind p) ->
      offset p' = offset p /\ base_kind p' = base_kind p /\ position p' = position p + w.
  Proof.
    intros H E i t t' w w' p p' Hi Hi' Hw Hw' Hp Hp' Hfit.
    destruct (proj2 (legal_sound lp64) ms H) as (l & El & Hl). pose proof (members_rel lp64 ms l El) as Hrel.
    unfold struct_layout in E. rewrite El in E. unfold calc_struct_size in E.
    pose proof (layout_follows _ _ _ _ _ _ _ None Hl E I) as Hf.
    destruct (Forall2_lookup_l _ _ _ _ _ Hrel Hi) as (x & Hx & Hwx & _).
    destruct (Forall2_lookup_l _ _ _ _ _ Hrel Hi') as (x' & Hx' & Hwx' & _). cbn in Hwx, Hwx'.
    pose proof (follows_lookup l None pls i x x' p p' w Hf Hx Hx' Hp Hp' Hwx) as J. rewrite Hwx' in J. cbn in J.
    rewrite (J Hw Hw' Hfit). done.
  Qed.
End proof.
