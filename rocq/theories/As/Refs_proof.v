(** A section from the source to the linked bytes, for any architecture. *)
From stdpp Require Import base list list_numbers numbers gmap option.
From Verif Require Import Util.Data_model As.Asm_model As.Asm_arch_model As.Asm_spec As.Asm_proof As.Asm_res_proof As.Asm_arch_proof As.Refs_model As.Refs_spec As.Refs_link_proof.
From Verif Require Ld.Rela_model Ld.Rela_spec Ld.Rela_proof.
From Coq Require Import Lia.
Local Open Scope Z_scope.

Record good {I} (step : gmap nat Z -> option nat -> Z -> Z -> code I -> option (stepped I)) (R : code I -> list (code I) -> Prop) : Prop := Good {
  g_extra : forall t last st a c s, step t last st a c = Some s -> upgraded s = false -> extra s = None;
  g_one : forall c cs, R c cs -> (exists c1, cs = [c1]) \/ (exists c1 c2, cs = [c1; c2]);
  g_step : forall c c1 t last st a s, R c [c1] -> step t last st a c1 = Some s ->
    match extra s with None => R c [new s] | Some c2 => R c [new s; c2] end;
  g_step1 : forall c c1 c2 t last st a s, R c [c1; c2] -> step t last st a c1 = Some s -> extra s = None /\ R c [new s; c2];
  g_step2 : forall c c1 c2 t last st a s, R c [c1; c2] -> step t last st a c2 = Some s -> extra s = None /\ R c [c1; new s];
  g_len : forall c cs c1 t last st a s, R c cs -> c1 ∈ cs -> step t last st a c1 = Some s -> upgraded s = false ->
    length (buf (new s)) = length (buf c1) }.

Notation slice o n c := (take n (drop o c)).
Definition bytes_of {I} (ps : list (Z * code I)) : list Z := ps ≫= fun p => buf p.2.
Fixpoint pos_ok {I} (st : Z) (o : nat) (ps : list (Z * code I)) : Prop :=
  match ps with [] => True | p :: ps => p.1 = u64 (st + Z.of_nat o) /\ pos_ok st (o + length (buf p.2)) ps end.

Section Refs.
  Context {I : Type}.
  Variable step : gmap nat Z -> option nat -> Z -> Z -> code I -> option (stepped I).
  Variable R : code I -> list (code I) -> Prop.
  Hypothesis G : good step R.

  (** ** The last pass, with its references *)
  Inductive steps (t : gmap nat Z) (st : Z) : list (code I) -> list (Z * code I) -> list unres -> Prop :=
    | st_nil : steps t st [] [] []
    | st_cons c a last s cs ps us : step t last st a c = Some s -> upgraded s = false -> steps t st cs ps us ->
        steps t st (c :: cs) ((a, new s) :: ps) (refs s ++ us).
  Inductive passed (t : gmap nat Z) (st : Z) : list (ir I) -> list (ir I) -> list unres -> Prop :=
    | pa_nil : passed t st [] [] []
    | pa_code c a last s l l' us : step t last st a c = Some s -> upgraded s = false -> passed t st l l' us ->
        passed t st (IR (ICode c) a :: l) (IR (ICode (new s)) a :: l') (refs s ++ us)
    | pa_expr k v n a l l' us : vlab v = Some n -> passed t st l l' us ->
        passed t st (IR (IExpr k v) a :: l) (IR (IExpr k v) a :: l') (Unres UAbs64 n (u64 (a - st)) (s32 (vofs v)) :: us)
    | pa_other i a l l' us : (forall c, i <> ICode c) -> (forall k v, i <> IExpr k v) -> passed t st l l' us ->
        passed t st (IR i a :: l) (IR i a :: l') us.
  Inductive refd (t : gmap nat Z) (st : Z) : list (item I) -> list (ir I) -> list unres -> Prop :=
    | rd_nil : refd t st [] [] []
    | rd_code c cs ps us l l' us' : R c cs -> steps t st cs ps us -> refd t st l l' us' ->
        refd t st (ICode c :: l) (((fun p => IR (ICode p.2) p.1) <$> ps) ++ l') (us ++ us')
    | rd_expr k v n a l l' us : vlab v = Some n -> refd t st l l' us ->
        refd t st (IExpr k v :: l) (IR (IExpr k v) a :: l') (Unres UAbs64 n (u64 (a - st)) (s32 (vofs v)) :: us)
    | rd_other i a l l' us : (forall c, i <> ICode c) -> (forall k v, i <> IExpr k v) -> refd t st l l' us ->
        refd t st (i :: l) (IR i a :: l') us.

  Lemma resolve_passed t st : forall l len last l' us, resolve_irs step t st last len l = Some (l', false, us) -> (length l <= len)%nat -> passed t st l l' us.
  Proof.
    induction l as [|[i a] l IH]; intros len last l' us E Hl.
    { destruct len; cbn in E; injection E as <- <-; constructor. }
    destruct len as [|len]; [cbn in Hl; lia|]. cbn in Hl. cbn [resolve_irs] in E.
    destruct i as [n|c|bs|n|n|al|k v].
    2: { destruct (step t last st a c) as [s|] eqn:Es; [|done]. cbn [mbind option_bind] in E. destruct (extra s) as [c2|] eqn:Ex.
      - assert (Hu : upgraded s = true) by (destruct (upgraded s) eqn:Eu; [done|]; apply (g_extra _ _ G) in Es; [congruence|done]). rewrite Hu in E.
        destruct len as [|len]; [done|]. destruct (step t last st a c2) as [s'|]; [|done]. cbn in E. destruct (extra s'); [done|].
        destruct (resolve_irs step t st last len l) as [[[l1 up1] us1]|]; done.
      - destruct (resolve_irs step t st last len l) as [[[l1 up1] us1]|] eqn:E1; [|done]. cbn in E. injection E as <- Hu <-.
        apply orb_false_iff in Hu as [Hu ->]. apply IH in E1; [|lia]. by eapply pa_code. }
    6: { destruct (vlab v) as [n|] eqn:Ev; [|done]. destruct (resolve_irs step t st last len l) as [[[l1 up1] us1]|] eqn:E1; [|done].
      cbn in E. injection E as <- -> <-. apply IH in E1; [|lia]. by constructor. }
    all: (match type of E with context [resolve_irs ?q1 ?q2 ?q3 ?x ?q4 ?q5] => destruct (resolve_irs q1 q2 q3 x q4 q5) as [[[l1 up1] us1]|] eqn:E1 end; [|done]);
      cbn in E; injection E as <- -> <-; apply IH in E1; [|lia]; by constructor.
  Qed.
  Lemma passed_codes t st : forall cs l k l' us, kind <$> l = (ICode <$> cs) ++ k -> passed t st l l' us ->
    exists ps us1 l1 l2 us2, steps t st cs ps us1 /\ l' = ((fun p => IR (ICode p.2) p.1) <$> ps) ++ l2 /\ us = us1 ++ us2 /\ kind <$> l1 = k /\ passed t st l1 l2 us2.
  Proof.
    induction cs as [|c cs IH]; intros l k l' us Hk Hp.
    - exists [], [], l, l', us. split; [constructor|]. done.
    - cbn in Hk. apply kind_cons in Hk as (a & l1 & -> & Hk). inversion Hp; subst.
      + match goal with H : passed t st l1 _ _ |- _ => rename H into H7 end. destruct (IH _ _ _ _ Hk H7) as (ps & us1 & l2 & l3 & us2 & K1 & -> & -> & K4 & K5).
        exists ((a, new s) :: ps), (refs s ++ us1), l2, l3, us2. split; [by eapply st_cons|]. split; [done|]. split; [by rewrite app_assoc|]. done.
      + match goal with H : forall c0, _ <> ICode c0 |- _ => by destruct (H c) end.
  Qed.
  Lemma passed_refd t st src k : prog R src k -> forall l l' us, kind <$> l = k -> passed t st l l' us -> refd t st src l' us.
  Proof.
    intros Hp. induction Hp as [|c cs src k HR Hp IH|i src k Hi Hp IH]; intros l l' us Hk Ha.
    - destruct l; [|done]. inversion Ha; subst. constructor.
    - destruct (passed_codes _ _ _ _ _ _ _ Hk Ha) as (ps & us1 & l1 & l2 & us2 & K1 & -> & -> & K4 & K5). eapply rd_code; [done|done|]. by eapply IH.
    - apply kind_cons in Hk as (a & l1 & -> & Hk). inversion Ha; subst.
      + by destruct (Hi c).
      + apply rd_expr; [done|]. by eapply IH.
      + apply rd_other; [done|done|]. by eapply IH.
  Qed.

  (** ** All sections *)
  Definition st_of (s : section I) : Z := match irs s with IR _ a :: _ => a | [] => 0 end.
  Lemma resolve_refd t ss0 ss : inv R ss0 ss -> forall ss' us, resolve_relative_address step t ss = Some (ss', false, us) ->
    forall k s0 s u, ss0 !! k = Some s0 -> ss' !! k = Some s -> us !! k = Some u -> refd t (st_of s) (items s0) (irs s) u.
  Proof.
    intros [H1 _]. induction H1 as [|s0 s ss0 ss [G1 G2] Hs IH]; intros ss' us E k s0' s' u Hk0 Hk Hu; cbn [resolve_relative_address] in E; [by injection E as <- <-|].
    destruct (resolve_irs _ _ _ _ _ _) as [[[l1 up1] us1]|] eqn:E1; [|done]. cbn in E.
    destruct (resolve_relative_address step t ss) as [[[ss2 up2] us2]|] eqn:E2; [|done]. cbn in E. injection E as <- Hup <-. apply orb_false_iff in Hup as [-> ->].
    destruct k as [|k]; [|by apply (IH _ _ eq_refl k)]. cbn in Hk0, Hk, Hu. injection Hk0 as <-. injection Hk as <-. injection Hu as <-.
    apply resolve_passed in E1; [|lia]. cbn [irs st_of]. unfold st_of. cbn [irs].
    assert (Hst : match irs s with IR _ a :: _ => a | [] => 0 end = match l1 with IR _ a :: _ => a | [] => 0 end) by (inversion E1; done).
    rewrite <- Hst. by apply (passed_refd _ _ _ _ G2 (irs s)).
  Qed.
  Lemma settle_last a ss0 fuel : forall ss t ss' t' us, inv R ss0 ss -> settle step fuel a ss t = Done ss' t' us ->
    exists t0 ss1 ss2, inv R ss0 ss1 /\ calc_sections t0 a true ss1 = Some (ss2, t', true) /\ inv R ss0 ss2 /\ resolve_relative_address step t' ss2 = Some (ss', false, us).
  Proof.
    induction fuel as [|fuel IH]; intros ss t ss' t' us Hi E; [done|]. cbn [settle] in E. unfold calc_label_address in E.
    destruct (calc_sections t a true ss) as [[[ss1 t1] ok1]|] eqn:E1; [|done]. pose proof (inv_calc _ _ _ _ _ _ _ _ _ E1 Hi) as Hi1.
    destruct (resolve_relative_address step t1 ss1) as [[[ss2 up] us2]|] eqn:E2; [|done].
    pose proof (inv_resolve step R (g_one _ _ G) (g_step _ _ G) (g_step1 _ _ G) (g_step2 _ _ G) _ _ _ Hi1 _ _ _ E2) as Hi2.
    destruct (ok1 && negb up) eqn:Eo; [|by apply (IH ss2 t1 ss' t' us)]. injection E as <- <- <-.
    apply andb_true_iff in Eo as [-> Hup]. destruct up; [done|]. by exists t, ss, ss1.
  Qed.

  (** The start of a section is the address of its first item. *)
  Lemma calc_first ss : forall t a ss' t', calc_sections t a true ss = Some (ss', t', true) -> Forall sec_ok ss ->
    Forall (fun s => irs s = [] \/ st_of s = start s) ss'.
  Proof.
    induction ss as [|s ss IH]; intros t a ss' t' E Hok; cbn [calc_sections] in E.
    { injection E as <- <-. constructor. }
    destruct (calc_irs _ _ _ _ _) as [[[[[l1 t1] a1] sa1] ok1]|] eqn:E1; [|done]. cbn in E.
    destruct (calc_sections t1 a1 ok1 ss) as [[[ss2 t2] ok2]|] eqn:E2; [|done]. cbn in E. injection E as <- <- ->.
    pose proof (calc_sections_settled _ _ _ _ _ _ _ E2) as (_ & _ & Hok1 & _). specialize (Hok1 eq_refl) as ->.
    apply stdpp.list.Forall_cons in Hok as [[Hp Hal] Hok]. constructor; [|by apply (IH _ _ _ _ E2)]. cbn [irs start]. unfold st_of. cbn [irs].
    destruct l1 as [|[i b] l1]; [by left|]. right.
    destruct (irs s) as [|[j b0] l] eqn:El; [done|]. unfold items, aligns_ok in Hal. rewrite El in Hal. cbn [fmap list_fmap kind] in Hal. cbn [calc_irs] in E1.
    destruct j as [n|c|bs|n|n|al|k v]; try destruct (t !! n) eqn:En; try done;
      (match type of E1 with context [calc_irs ?x ?y ?z ?w l] => destruct (calc_irs x y z w l) as [[[[[l2 t2'] a2] sa2] ok2']|] eqn:E3 end; [|done]);
      cbn in E1; injection E1 as <- <- <- <- <- <- ->; try done.
    destruct (align s <? al) eqn:Hlt.
    { rewrite andb_false_r in E3. apply calc_settled in E3 as (_ & _ & _ & H4 & _). by destruct (H4 eq_refl). }
    apply Z.ltb_ge in Hlt. assert (Hpa : pow2 al) by (apply Hal; left).
    destruct (pow2_divides al (align s) Hpa Hp ltac:(lia)) as [q Hq].
    destruct Hp as (k1 & Hk1 & Hs). destruct Hpa as (k2 & Hk2 & ->).
    rewrite Hs in *. assert (0 < 2 ^ k1) by (apply Z.pow_pos_nonneg; lia). assert (0 < 2 ^ k2) by (apply Z.pow_pos_nonneg; lia).
    assert (Hm : ALIGN a (2 ^ k1) mod 2 ^ k2 = 0).
    { rewrite ALIGN_eq by done. rewrite mod_u64 by done.
      assert (Hd : (2 ^ k1 | a + (- a) mod 2 ^ k1)).
      { apply Z.mod_divide; [lia|]. rewrite Z.add_mod_idemp_r by lia. rewrite Z.add_opp_diag_r. by apply Z.mod_0_l; lia. }
      apply Z.mod_divide; [lia|]. destruct Hd as [z ->]. exists (z * q). rewrite Hq. lia. }
    rewrite (ALIGN_eq (ALIGN a (2 ^ k1)) k2) by done. set (x := ALIGN a (2 ^ k1)) in *.
    assert (Hx : 0 <= x < 2 ^ 64) by (unfold x; rewrite ALIGN_eq by done; apply u64_range).
    assert ((- x) mod 2 ^ k2 = 0) as -> by (apply Z_mod_zero_opp_full; done). rewrite Z.add_0_r. by apply u64_small.
  Qed.

  Lemma calc_start (ss : list (section I)) : forall t a ok ss' t' ok', calc_sections t a ok ss = Some (ss', t', ok') -> Forall sec_ok ss -> Forall (fun s : section I => 0 <= start s) ss'.
  Proof.
    induction ss as [|s ss IH]; intros t a ok ss' t' ok' E Hok; cbn [calc_sections] in E; [injection E as <- <-; constructor|].
    destruct (calc_irs _ _ _ _ _) as [[[[[l1 t1] a1] sa1] ok1]|] eqn:E1; [|done]. cbn in E.
    destruct (calc_sections t1 a1 ok1 ss) as [[[ss2 t2] ok2]|] eqn:E2; [|done]. cbn in E. injection E as <- <- ->.
    apply stdpp.list.Forall_cons in Hok as [[(k & Hk & Hp) Hal] Hok]. constructor; [|by apply (IH _ _ _ _ _ _ E2)]. cbn [start].
    rewrite Hp, ALIGN_eq by done. apply u64_range.
  Qed.

  (** ** The items of a section *)
  Variables (t : gmap nat Z) (sym : nat -> Z) (sec : Z).
  Variable relaof : unres -> option Rela_model.rela.
  Variable codeP : Z -> code I -> list Z -> Prop.
  Variable more : code I -> Prop.
  Variable s : section I.
  Hypothesis abs_ok : forall u r, ukind_of u = UAbs64 -> relaof u = Some r ->
    (Rela_model.r_type r = Rela_model.X_64 \/ Rela_model.r_type r = Rela_model.A_ABS64 \/ Rela_model.r_type r = Rela_model.R_64) /\
    Rela_model.r_offset r = Z.to_nat (uoffset u) /\ Rela_model.r_target r = u64 (sym (ulabel u) + uadd u).
  Hypothesis target_ok : forall u r, relaof u = Some r -> 0 <= Rela_model.r_target r < 2 ^ 64.
  Hypothesis nobss : bss s = false.
  Hypothesis placed_ok : item_placed t s.
  Hypothesis aligned : aligns_ok (items s).
  Hypothesis own : own_labels sym sec (items s).
  Hypothesis st_ok : irs s = [] \/ st_of s = start s.
  Hypothesis st_pos : 0 <= start s.
  Hypothesis code_ok : forall c cs ps us g o, more c -> R c cs -> steps t (start s) cs ps us -> pos_ok (start s) o ps -> mapM relaof us = Some g ->
    start s + Z.of_nat (o + length (bytes_of ps)) < 2 ^ 64 ->
    group_ok o (length (bytes_of ps)) g /\
    forall b b', slice o (length (bytes_of ps)) b = bytes_of ps -> (o + length (bytes_of ps) <= length b)%nat -> length b' = length b ->
      linked sec o (length (bytes_of ps)) g b b' -> codeP (u64 (sec + Z.of_nat o)) c (slice o (length (bytes_of ps)) b').

  Lemma slice_next (o n : nat) (b : list Z) : drop o b = slice o n b ++ drop (o + n) b.
  Proof. rewrite <- drop_drop. by rewrite take_drop. Qed.
  Lemma slice_mid (x y z : list Z) : slice (length x) (length y) (x ++ y ++ z) = y.
  Proof. rewrite drop_app. by rewrite take_app. Qed.
  Lemma emit_codes (ps : list (Z * code I)) : forall b0 o, emit_items false (b0, 0) (kind <$> ((fun p => IR (ICode p.2) p.1) <$> ps)) = Some o -> o = (b0 ++ bytes_of ps, 0).
  Proof.
    induction ps as [|p ps IH]; intros b0 o E; cbn in E.
    - injection E as <-. by rewrite app_nil_r.
    - apply IH in E as ->. unfold bytes_of. cbn. by rewrite app_assoc.
  Qed.
  Lemma emit_only (l : list (item I)) : forall b0 b n, emit_items false (b0, 0) l = Some (b, n) -> n = 0 /\ exists x, b = b0 ++ x.
  Proof.
    induction l as [|i l IH]; intros b0 b n E; cbn in E.
    - injection E as <- <-. split; [done|]. exists []. by rewrite app_nil_r.
    - destruct i; cbn in E; try done; try (by apply IH in E);
        apply IH in E as [-> [x ->]]; (split; [done|]; rewrite <- app_assoc; by eexists).
  Qed.

  Lemma codes_pos ps : forall pre l' b0, irs s = pre ++ ((fun p => IR (ICode p.2) p.1) <$> ps) ++ l' -> emit_items false ([], 0) (kind <$> pre) = Some (b0, 0) ->
    pos_ok (start s) (length b0) ps.
  Proof.
    induction ps as [|p ps IH]; intros pre l' b0 Hs He; [done|]. cbn [pos_ok]. split.
    - pose proof (placed_ok pre (ICode p.2) p.1 _ (b0, 0) Hs ltac:(by rewrite nobss)) as H. cbn in H. by rewrite nobss in H.
    - replace (length b0 + length (buf p.2))%nat with (length (b0 ++ buf p.2)) by (by rewrite app_length).
      apply (IH (pre ++ [IR (ICode p.2) p.1]) l'); [by rewrite Hs, <- app_assoc|].
      rewrite fmap_app, emit_items_app, He. done.
  Qed.

  Lemma image l src us : refd t (st_of s) src l us -> forall pre b0 b, irs s = pre ++ l -> emit_items false ([], 0) (kind <$> pre) = Some (b0, 0) ->
    emit_items false (b0, 0) (kind <$> l) = Some (b, 0) -> start s + Z.of_nat (length b) < 2 ^ 64 ->
    (forall c, ICode c ∈ src -> more c) -> exprs_ok src -> forall relas, mapM relaof us = Some relas ->
    exists gs, relas = all_relas gs /\ groups_ok (length b0) gs /\ forall b', length b' = length b ->
      (forall gs0 n g gs1, gs = gs0 ++ (n, g) :: gs1 -> linked sec (length b0 + sum_list_with fst gs0) n g b b') ->
      loaded (piece sym sec codeP) (u64 (sec + Z.of_nat (length b0))) src (drop (length b0) b').
  Proof.
    intros Hr. remember (st_of s) as stz eqn:Est. induction Hr as [|c cs ps us src l us' HR Hst Hr IH|k v n a src l us Hv Hr IH|i a src l us Hi1 Hi2 Hr IH]; intros pre b0 b Hs He Hb Hl Hm Hx relas Hrel.
    - cbn in Hb. injection Hb as <-. cbn in Hrel. injection Hrel as <-. exists []. split; [done|]. split; [done|]. intros b' Hlb _. rewrite drop_ge by lia. constructor.
    - assert (Hss : stz = start s). { destruct st_ok as [E|E]; [|congruence]. rewrite E in Hs. destruct pre; [|done]. cbn in Hs. destruct ps; [|done]. cbn in Hs. subst l.
        (* no items at all: nothing depends on the start *) inversion Hst; subst. destruct (g_one _ _ G _ _ HR) as [[? ?]|(? & ? & ?)]; done. }
      pose proof Hst as Hst'. rewrite Hss in Hst'.
      rewrite fmap_app, emit_items_app in Hb. destruct (emit_items false (b0, 0) (kind <$> (_ <$> ps))) as [o|] eqn:Ep; [|done]. cbn [mbind option_bind] in Hb.
      pose proof (emit_codes _ _ _ Ep) as ->.
      apply mapM_Some in Hrel. apply Forall2_app_inv_l in Hrel as (g & rest & Hg & Hrest & ->). apply mapM_Some in Hg. apply mapM_Some in Hrest.
      destruct (IH (pre ++ ((fun p => IR (ICode p.2) p.1) <$> ps)) (b0 ++ bytes_of ps) b) with (relas := rest) as (gs & -> & Hgs & Hload); try done.
      { by rewrite Hs, <- app_assoc. }
      { rewrite fmap_app, emit_items_app, He. done. }
      { intros c0 Hc0. apply Hm. by right. }
      { intros k v Hkv. apply (Hx k v). by right. }
      destruct (emit_only _ _ _ _ Hb) as [_ [x Hbx]].
      destruct (code_ok c cs ps us g (length b0)) as [Hgo Hcode]; try done.
      { apply Hm. left. }
      { by eapply codes_pos. }
      { rewrite Hbx, !app_length in Hl. lia. }
      exists ((length (bytes_of ps), g) :: gs). split; [done|]. split; [split; [done|]; by rewrite app_length in Hgs|].
      intros b' Hlb Hlink. rewrite (slice_next _ (length (bytes_of ps))). apply loaded_cons.
      + cbn [piece]. apply (Hcode b); [rewrite Hbx, <- app_assoc; apply slice_mid|rewrite Hbx, !app_length; lia|done|].
        specialize (Hlink [] (length (bytes_of ps)) g gs eq_refl). cbn in Hlink. by rewrite Nat.add_0_r in Hlink.
      + rewrite take_length, drop_length, Hlb. rewrite u64_u64_l. rewrite Nat.min_l by (rewrite Hbx, !app_length; lia).
        specialize (Hload b' Hlb). rewrite app_length in Hload. rewrite Nat2Z.inj_add, Z.add_assoc in Hload. apply Hload.
        intros gs0 n g0 gs1 Hgs0. specialize (Hlink ((length (bytes_of ps), g) :: gs0) n g0 gs1). cbn in Hlink. rewrite Nat.add_assoc in Hlink. apply Hlink. by rewrite Hgs0.
    - assert (k = 3%nat) as -> by (apply (Hx k v); left).
      assert (Hss : stz = start s) by (destruct st_ok as [E|E]; [rewrite E in Hs; by destruct pre|congruence]).
      cbn [fmap list_fmap kind emit_items emit_item] in Hb. cbn [mbind option_bind] in Hb. set (z8 := replicate (2 ^ 3) 0) in *.
      assert (L8 : length z8 = 8%nat) by done.
      cbn [mapM mbind option_bind] in Hrel. destruct (relaof _) as [r|] eqn:Er; [|done]. cbn [mbind option_bind] in Hrel. destruct (mapM relaof us) as [rest|] eqn:Erest; [|done]. cbn in Hrel. injection Hrel as <-.
      pose proof (fun u H => abs_ok u r H) as HA. specialize (HA _ (eq_refl : ukind_of (Unres UAbs64 n (u64 (a - stz)) (s32 (vofs v))) = UAbs64) Er). destruct HA as (Ht & Ho & HT). cbn [uoffset ulabel uadd] in Ho, HT.
      pose proof (placed_ok pre (IExpr 3 v) a _ (b0, 0) Hs ltac:(by rewrite nobss)) as Ha. cbn in Ha. rewrite nobss in Ha. cbn in Ha.
      destruct (IH (pre ++ [IR (IExpr 3 v) a]) (b0 ++ z8) b) with (relas := rest) as (gs & -> & Hgs & Hload); try done.
      { by rewrite Hs, <- app_assoc. }
      { rewrite fmap_app, emit_items_app, He. done. }
      { intros c0 Hc0. apply Hm. by right. }
      { intros k' v' Hkv. apply (Hx k' v'). by right. }
      destruct (emit_only _ _ _ _ Hb) as [_ [x Hbx]].
      assert (Hoff : Rela_model.r_offset r = length b0).
      { rewrite Ho, Hss, Ha. rewrite Hbx, !app_length in Hl.
        replace (u64 (u64 (start s + Z.of_nat (length b0)) - start s)) with (Z.of_nat (length b0)); [lia|].
        unfold Z.sub. rewrite u64_u64_l. replace (start s + Z.of_nat (length b0) + - start s) with (Z.of_nat (length b0)) by lia. rewrite u64_small; lia. }
      assert (Hf : Rela_spec.field [r] 0 r = (length b0, 8%nat)).
      { unfold Rela_spec.field. destruct Ht as [-> |[-> | ->]]; by rewrite Hoff. }
      exists ((8%nat, [r]) :: gs). split; [done|]. split.
      { split; [|by rewrite app_length, L8 in Hgs]. split; [|split].
        - intros j r' Hj. destruct j; [|done]. cbn in Hj. injection Hj as <-. by destruct Ht as [-> |[-> | ->]].
        - intros j r' Hj. destruct j; [|done]. cbn in Hj. injection Hj as <-. rewrite Hf. cbn. right. lia.
        - intros j k r1 r2 Hjk Hj Hk. destruct j; [|done]. by destruct k. }
      intros b' Hlb Hlink. rewrite (slice_next _ 8). apply loaded_cons.
      + cbn [piece]. split; [rewrite take_length, drop_length, Hlb, Hbx, !app_length; lia|]. intros n' d (Hn & Hofs & ->).
        assert (n' = n) as -> by congruence.
        specialize (Hlink [] 8%nat [r] gs eq_refl). destruct Hlink as (_ & Hach & _). specialize (Hach 0%nat r eq_refl).
        assert (Hat : Rela_spec.at_ 8 b' (Rela_model.r_offset r) = Rela_model.r_target r) by (unfold Rela_spec.achieves in Hach; by destruct Ht as [Ht|[Ht|Ht]]; rewrite Ht in Hach).
        rewrite Hoff, HT in Hat. unfold Rela_spec.at_ in Hat. rewrite Rela_proof.word_take in Hat. rewrite Hat. f_equal. f_equal.
        unfold s32. rewrite Z.mod_small by lia. lia.
      + rewrite take_length, drop_length, Hlb. rewrite u64_u64_l. rewrite Nat.min_l by (rewrite Hbx, !app_length; lia).
        specialize (Hload b' Hlb). rewrite app_length, L8 in Hload. rewrite Nat2Z.inj_add, Z.add_assoc in Hload. apply Hload.
        intros gs0 n0 g0 gs1 Hgs0. specialize (Hlink ((8%nat, [r]) :: gs0) n0 g0 gs1). cbn [sum_list_with fst] in Hlink. rewrite Nat.add_assoc in Hlink. apply Hlink. by rewrite Hgs0.
    - cbn [fmap list_fmap kind emit_items] in Hb. destruct (emit_item false (b0, 0) i) as [[b1 z]|] eqn:Ei; [|done]. cbn [mbind option_bind] in Hb.
      assert (Hy : exists y, b1 = b0 ++ y /\ z = 0 /\ piece sym sec codeP (u64 (sec + Z.of_nat (length b0))) i y).
      { destruct i as [n|c|bs|n|n|al|k v]; cbn in Ei; try done.
        - injection Ei as <- <-. exists []. split; [by rewrite app_nil_r|]. split; [done|]. split; [done|].
          apply (own (kind <$> pre) n (kind <$> l) b0 0); [|done]. unfold items. by rewrite Hs, fmap_app.
        - by destruct (Hi1 c).
        - injection Ei as <- <-. by exists bs.
        - injection Ei as <- <-. by eexists.
        - injection Ei as <- <-. eexists. split; [done|]. split; [done|]. cbn [piece]. eexists. split; [done|].
          assert (Hp : pow2 al) by (apply aligned; unfold items; rewrite Hs, fmap_app; apply elem_of_app; right; left).
          destruct Hp as (k & Hk & ->). assert (Hpos : 0 < 2 ^ k) by (apply Z.pow_pos_nonneg; lia). rewrite ALIGN_eq by done.
          set (len := Z.of_nat (length b0)). pose proof (Z.mod_pos_bound (- len) (2 ^ k) Hpos) as Hbd. set (pad := (- len) mod 2 ^ k) in *.
          assert (Hk31 : 2 ^ k <= 2 ^ 31) by (apply Z.pow_le_mono_r; lia).
          assert (Hpad : u64 (u64 (len + pad) - len) = pad). { unfold Z.sub. rewrite u64_u64_l. replace (len + pad + - len) with pad by lia. apply u64_small. lia. }
          rewrite Hpad. rewrite Z2Nat.id by lia. split; [lia|]. intros Hsec.
          rewrite <- Z.add_mod_idemp_l, mod_u64, Z.add_mod_idemp_l by (done || lia).
          replace (sec + len + pad) with (sec + (len + pad)) by lia. rewrite <- Z.add_mod_idemp_l, Hsec by lia. cbn [Z.add].
          change (0 + (len + pad)) with (len + pad). unfold pad. rewrite Z.add_mod_idemp_r by lia. rewrite Z.add_opp_diag_r. apply Z.mod_0_l. lia.
        - by destruct (Hi2 k v). }
      destruct Hy as (y & -> & -> & Hpy).
      destruct (IH (pre ++ [IR i a]) (b0 ++ y) b) with (relas := relas) as (gs & -> & Hgs & Hload); try done.
      { by rewrite Hs, <- app_assoc. }
      { rewrite fmap_app, emit_items_app, He. cbn [fmap list_fmap kind emit_items mbind option_bind]. by rewrite Ei. }
      { intros c0 Hc0. apply Hm. by right. }
      { intros k' v' Hkv. apply (Hx k' v'). by right. }
      destruct (emit_only _ _ _ _ Hb) as [_ [x Hbx]].
      exists ((length y, []) :: gs). split; [done|]. split.
      { split; [|by rewrite app_length in Hgs]. split; [|split]; by intros j. }
      intros b' Hlb Hlink. rewrite (slice_next _ (length y)). apply loaded_cons.
      + specialize (Hlink [] (length y) [] gs eq_refl). cbn in Hlink. rewrite Nat.add_0_r in Hlink. rewrite (unlinked _ _ _ _ _ Hlink), Hbx, <- app_assoc, slice_mid. done.
      + rewrite take_length, drop_length, Hlb. rewrite u64_u64_l. rewrite Nat.min_l by (rewrite Hbx, !app_length; lia).
        specialize (Hload b' Hlb). rewrite app_length in Hload. rewrite Nat2Z.inj_add, Z.add_assoc in Hload. apply Hload.
        intros gs0 n0 g0 gs1 Hgs0. specialize (Hlink ((length y, []) :: gs0) n0 g0 gs1). cbn [sum_list_with fst] in Hlink. rewrite Nat.add_assoc in Hlink. apply Hlink. by rewrite Hgs0.
  Qed.

  Lemma section_image src u relas b b' : refd t (st_of s) src (irs s) u -> emit s = Some (b, 0) -> start s + Z.of_nat (length b) < 2 ^ 64 -> Rela_spec.bytes_ok b ->
    (forall c, ICode c ∈ src -> more c) -> exprs_ok src -> mapM relaof u = Some relas ->
    Rela_model.apply_relas sec relas b = Rela_model.Ok (b', 0%nat) -> loaded (piece sym sec codeP) (u64 sec) src b'.
  Proof.
    intros Hr Hb Hl Hok Hm Hx Hrel Happ. unfold emit in Hb. rewrite nobss in Hb.
    destruct (image _ _ _ Hr [] [] b eq_refl eq_refl Hb Hl Hm Hx relas Hrel) as (gs & -> & Hgs & Hload). cbn [length] in *.
    destruct (groups_linked sec gs b b') as [Hlen Hlink]; try done.
    { apply mapM_Some in Hrel. unfold Rela_spec.targets_ok. clear -Hrel target_ok. induction Hrel; constructor; [by eapply target_ok|done]. }
    specialize (Hload b' Hlen Hlink). cbn in Hload. rewrite Z.add_0_r in Hload. exact Hload.
  Qed.
End Refs.

(** ** All together *)
Definition meets (t : gmap nat Z) (sym : nat -> Z) (sec st : Z) (own : nat -> Prop) : Prop :=
  forall n, own n -> exists p, t !! n = Some (u64 (st + p)) /\ sym n = u64 (sec + p).
Definition code_good {I} step (R : code I -> list (code I) -> Prop) relaof sec (codeP : Z -> code I -> list Z -> Prop) (more : code I -> Prop) t st : Prop :=
  forall c cs ps us g o, more c -> R c cs -> steps step t st cs ps us -> pos_ok st o ps -> mapM relaof us = Some g ->
    0 <= st -> st + Z.of_nat (o + length (bytes_of ps)) < 2 ^ 64 ->
    group_ok o (length (bytes_of ps)) g /\
    forall b b', slice o (length (bytes_of ps)) b = bytes_of ps -> (o + length (bytes_of ps) <= length b)%nat -> length b' = length b ->
      linked sec o (length (bytes_of ps)) g b b' -> codeP (u64 (sec + Z.of_nat o)) c (slice o (length (bytes_of ps)) b').

Lemma labels_split {I} (l : list (item I)) n : n ∈ labels l -> exists pre post, l = pre ++ ILabel n :: post.
Proof.
  unfold labels. rewrite elem_of_list_omap. intros (i & Hi & E). destruct i; try done. injection E as ->. apply elem_of_list_split in Hi as (l1 & l2 & ->). by exists l1, l2.
Qed.
Lemma label_rel {I} t (s : section I) sym sec b : bss s = false -> item_placed t s -> own_labels sym sec (items s) -> emit s = Some (b, 0) ->
  meets t sym sec (start s) (fun n => n ∈ labels (items s)).
Proof.
  intros Hb Hp Ho He n Hn. apply labels_split in Hn as (pre & post & Hs). unfold items in Hs. apply fmap_app_inv in Hs as (l1 & l2 & -> & Hk & Hl).
  symmetry in Hk. apply kind_cons in Hk as (a & l3 & -> & <-).
  unfold emit, items in He. rewrite Hb, Hl, fmap_app, emit_items_app in He. destruct (emit_items false ([], 0) (kind <$> l1)) as [[b1 z]|] eqn:E1; [|done].
  exists (Z.of_nat (length b1)). split.
  - destruct (Hp l1 (ILabel n) a l3 (b1, z) Hl ltac:(by rewrite Hb)) as [-> H]. rewrite H. by rewrite Hb.
  - apply (Ho (kind <$> l1) n (kind <$> l3) b1 z); [|done]. unfold items. by rewrite Hl, fmap_app.
Qed.

Theorem refs_image {I} step (R : code I -> list (code I) -> Prop) (fresh : code I -> Prop) sym sec relaof codeP more fuel a ss t ss' t' us k s0 s u b relas b' :
  good step R -> (forall c, fresh c -> R c [c]) ->
  (forall u r, ukind_of u = UAbs64 -> relaof u = Some r ->
    (Rela_model.r_type r = Rela_model.X_64 \/ Rela_model.r_type r = Rela_model.A_ABS64 \/ Rela_model.r_type r = Rela_model.R_64) /\
    Rela_model.r_offset r = Z.to_nat (uoffset u) /\ Rela_model.r_target r = u64 (sym (ulabel u) + uadd u)) ->
  (forall u r, relaof u = Some r -> 0 <= Rela_model.r_target r < 2 ^ 64) ->
  (forall t st own, meets t sym sec st own -> code_good step R relaof sec (codeP own (fun n => is_Some (t !! n))) (more t) t st) ->
  parsed fresh ss t -> settle step fuel a ss t = Done ss' t' us ->
  ss !! k = Some s0 -> ss' !! k = Some s -> us !! k = Some u -> bss s = false ->
  emit s = Some (b, 0) -> start s + Z.of_nat (length b) < 2 ^ 64 -> Rela_spec.bytes_ok b ->
  (forall c, ICode c ∈ items s0 -> more t' c) -> exprs_ok (items s0) -> own_labels sym sec (items s) ->
  mapM relaof u = Some relas -> Rela_model.apply_relas sec relas b = Rela_model.Ok (b', 0%nat) ->
  loaded (piece sym sec (codeP (fun n => n ∈ labels (items s0)) (fun n => is_Some (t' !! n)))) (u64 sec) (items s0) b'.
Proof.
  intros HG HR Habs Htar Hcode Hp E Hk0 Hk Hu Hb He Hl Hbo Hm Hx Ho Hrel Happ.
  pose proof (Asm_arch_proof.parsed_inv R fresh ss t HR Hp) as Hi.
  destruct (settle_last step R HG a ss fuel ss t ss' t' us Hi E) as (t0 & ss1 & ss2 & Hi1 & E1 & Hi2 & E2).
  pose proof (resolve_refd step R HG _ _ _ Hi2 _ _ E2 _ _ _ _ Hk0 Hk Hu) as Hrd.
  pose proof (resolve_final_all step (g_extra _ _ HG) R (g_len _ _ HG) _ _ _ Hi2 _ _ E2) as Hf.
  assert (Hnd : NoDup (all_labels ss1)) by (rewrite (inv_labels _ _ _ Hi1); apply Hp).
  destruct (calc_sections_placed _ _ _ _ _ E1 (proj2 Hi1) Hnd) as [P1 _].
  pose proof (calc_first _ _ _ _ _ E1 (proj2 Hi1)) as F1.
  apply Forall2_lookup_r with (i := k) (y := s) in Hf as (s2 & Hs2 & Hf); [|done].
  assert (Hs2in : s2 ∈ ss2) by (by eapply elem_of_list_lookup_2).
  assert (Hst0 : 0 <= start s). { destruct Hf as (_ & _ & -> & _). pose proof (calc_start _ _ _ _ _ _ _ E1 (proj2 Hi1)) as F2. rewrite stdpp.list.Forall_forall in F2. by apply F2. }
  assert (Hpl : item_placed t' s) by (apply (sec_final_placed step t' s2 s Hf); by apply P1).
  destruct Hi2 as [Hi2 Hi2'].
  destruct (Forall2_lookup_lr _ _ _ _ _ _ Hi2 Hk0 Hs2) as [_ Hprog].
  assert (Hlab : labels (items s) = labels (items s0)).
  { rewrite <- (prog_labels R _ _ Hprog). destruct Hf as (_ & _ & _ & _ & Hsz). clear -Hsz. induction Hsz as [|x y l l' H Hsz IH]; [done|]. 
    rewrite !labels_cons. unfold same_size in H. destruct x; try (subst y; by rewrite IH). destruct H as (c' & -> & _). done. }
  apply (section_image step R HG t' sym sec relaof _ (more t') s) with (u := u) (relas := relas) (b := b); try done.
  - destruct (stdpp.list.Forall_forall sec_ok ss2) as [Hsok _]. destruct (Hsok Hi2' s2 Hs2in) as [_ Hal]. intros al Hal'. apply Hal.
    destruct Hf as (_ & _ & _ & _ & Hsz). clear -Hsz Hal'. induction Hsz as [|x y l l' H Hsz IH]; [by apply elem_of_nil in Hal'|].
    apply elem_of_cons in Hal' as [<-|Hin]; [|right; by apply IH]. unfold same_size in H. destruct x; try done; [by destruct H as (? & ? & _)|]. rewrite H. left.
  - rewrite stdpp.list.Forall_forall in F1. destruct (F1 _ Hs2in) as [F|F]; destruct Hf as (_ & _ & Hst & [st Hfin] & _).
    + left. rewrite F in Hfin. by inversion Hfin.
    + right. rewrite Hst, <- F. unfold st_of. destruct Hfin as [|x y l l' [Hxy _] _]; [done|]. destruct x, y. cbn in Hxy. done.
  - intros c cs ps us0 g o H1 H2 H3 H4 H5 H6.
    assert (Hme : meets t' sym sec (start s) (fun n => n ∈ labels (items s0))) by (rewrite <- Hlab; by eapply label_rel).
    apply (Hcode t' (start s) _ Hme c cs ps us0 g o); done.
Qed.

(** ** A single relocation in a window *)
Lemma u64_move st o k sec q : u64 (u64 (st + o) + k) = u64 (st + q) -> u64 (u64 (sec + o) + k) = u64 (sec + q).
Proof.
  rewrite !u64_u64_l. intros H. destruct (u64_div (st + o + k)) as [x Hx]. destruct (u64_div (st + q)) as [y Hy].
  apply u64_congr. exists (x - y). lia.
Qed.
Lemma window1 sec o n d k r b b' : Rela_spec.field [r] 0 r = ((o + d)%nat, k) -> (d + k = n)%nat -> linked sec o n [r] b b' ->
  slice o n b' = take d (slice o n b) ++ slice (o + d) k b'.
Proof.
  intros Hf <- (H1 & _). rewrite <- (take_drop d (slice o (d + k) b')) at 1. rewrite !take_take, Nat.min_l by lia. f_equal.
  - apply Rela_proof.slice_ext. intros i Hi. apply H1; [lia|]. intros j r' Hj. destruct j; [|done]. cbn in Hj. injection Hj as <-. rewrite Hf. unfold Rela_spec.in_field. cbn. lia.
  - rewrite skipn_firstn_comm. rewrite drop_drop. f_equal. lia.
Qed.
Lemma at_slice n b o : Rela_spec.at_ n b o = word n (slice o n b).
Proof. unfold Rela_spec.at_. apply Rela_proof.word_take. Qed.
