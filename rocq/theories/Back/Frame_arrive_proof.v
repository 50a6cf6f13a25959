(** Values of arguments arrive at the homes of parameters, and va_arg finds the others. *)
From stdpp Require Import base numbers list sets.
From Coq Require Import Lia.
From Verif Require Import Back.Frame_model Back.Frame_spec Back.Frame_proof Back.Frame_run_proof Back.Frame_args_proof.
Open Scope Z_scope.

Lemma gp_kind l : forall ir fr off i t p, l !! i = Some t -> gp ir fr off l !! i = Some p ->
  match p with
  | InReg k => (ir <= k < 6)%nat /\ t_struct t = false
  | InFreg k => (fr <= k < 8)%nat /\ t_struct t = false /\ t_flo t = true
  | OnStack _ => True
  end.
Proof.
  induction l as [|u l IH]; intros ir fr off i t p Hi Hp; [done|]. cbn [gp] in Hp. destruct i as [|i].
  - cbn in Hi. injection Hi as ->. destruct (t_struct t) eqn:Es; [by injection Hp as <-|]. destruct (t_flo t) eqn:Ef.
    + destruct (fr <? 8)%nat eqn:E; cbn in Hp; injection Hp as <-; [apply Nat.ltb_lt in E; split_and!; try done; lia|done].
    + destruct (ir <? 6)%nat eqn:E; cbn in Hp; injection Hp as <-; [apply Nat.ltb_lt in E; split_and!; try done; lia|done].
  - cbn in Hi. destruct (t_struct u); [|destruct (t_flo u); [destruct (fr <? 8)%nat|destruct (ir <? 6)%nat]]; cbn in Hp;
      specialize (IH _ _ _ _ _ _ Hi Hp); destruct p; try done; intuition lia.
Qed.

Lemma pw_of L : (forall i j e e', i <> j -> L !! i = Some e -> L !! j = Some e' -> diff e e') -> pw L.
Proof.
  induction L as [|e L IH]; intros H; [done|]. split.
  - intros e' He'. apply elem_of_list_lookup in He' as [j Hj]. by apply (H 0%nat (S j)).
  - apply IH. intros i j a b Hn Hi Hj. apply (H (S i) (S j)); [lia|done|done].
Qed.
Lemma in_filter (p : ent -> bool) L e : e ∈ List.filter p L -> e ∈ L /\ p e = true.
Proof. rewrite !elem_of_list_In, List.filter_In. done. Qed.
Lemma pw_filter p L : pw L -> pw (List.filter p L).
Proof.
  induction L as [|e L IH]; intros H; [done|]. destruct H as [H1 H2]. cbn. destruct (p e); [|by apply IH].
  split; [|by apply IH]. intros e' He'. apply H1. exact (proj1 (in_filter _ _ _ He')).
Qed.
Lemma pw_app A B : pw A -> pw B -> (forall a b, a ∈ A -> b ∈ B -> diff a b) -> pw (A ++ B).
Proof.
  induction A as [|a A IH]; intros HA HB H; [done|]. destruct HA as [H1 H2]. cbn. split.
  - intros e' He'. apply elem_of_app in He' as [He'|He']; [by apply H1|]. apply H; [left|done].
  - apply IH; [done|done|]. intros x b Hx Hb. apply H; [by right|done].
Qed.
Lemma mvs_app A B : mvs (A ++ B) = mvs A ++ mvs B.
Proof. unfold mvs. by rewrite map_app, concat_app. Qed.

Lemma lookup_shift b P i : map (shift b) P !! i = shift b <$> P !! i.
Proof. apply list_lookup_fmap. Qed.
Lemma good_shift f va t p a b : good_home f va t (shift b p) a <-> good_home f va t p a.
Proof. by destruct p. Qed.
Lemma different_shift t t' p p' a a' b : different t t' (shift b p) (shift b p') a a' <-> different t t' p p' a a'.
Proof. by destruct p, p'. Qed.

(** ** Saving the argument registers *)

Lemma stores_run (st : nat -> ins) (c : Z) (v : (nat -> Z) -> (nat -> Z) -> nat -> Z) :
  (forall i s, exec (st i) s = St (regs s) (fregs s) (rsp s) (storen 8 (mem s) (regs s RBP + c + Z.of_nat i * 8) (v (regs s) (fregs s) i))) ->
  forall n a s, let s' := run (map st (seq a n)) s in
  regs s' = regs s /\ fregs s' = fregs s /\ rsp s' = rsp s /\
  (forall x, x < regs s RBP + c + Z.of_nat a * 8 \/ regs s RBP + c + Z.of_nat (a + n) * 8 <= x -> mem s' x = mem s x) /\
  (forall i, (a <= i < a + n)%nat -> loadn 8 (mem s') (regs s RBP + c + Z.of_nat i * 8) = v (regs s) (fregs s) i mod word).
Proof.
  intros Hst. induction n as [|n IH]; intros a s; cbn [seq map].
  - cbn. split_and!; try done. intros; lia.
  - rewrite run_cons. specialize (IH (S a) (exec (st a) s)). rewrite Hst in IH |- *. cbn zeta in *. cbn [regs fregs rsp mem] in IH.
    destruct IH as (H1 & H2 & H3 & H4 & H5). set (s1 := St _ _ _ _) in *. split_and!; try done.
    + intros x Hx. rewrite H4 by lia. apply storen_out. lia.
    + intros i Hi. destruct (decide (i = a)) as [->|Hn]; [|apply H5; lia].
      rewrite (loadn_ext _ _ (storen 8 (mem s) (regs s RBP + c + Z.of_nat a * 8) (v (regs s) (fregs s) a))).
      * rewrite loadn_store by lia. by rewrite word_eq.
      * intros x Hx. apply H4. lia.
Qed.
Lemma va_saves_run l s : let s' := run (va_saves l) s in
  regs s' = regs s /\ fregs s' = fregs s /\ rsp s' = rsp s /\
  (forall x, x < regs s RBP - 112 \/ regs s RBP <= x -> mem s' x = mem s x) /\
  (forall i, (iparam_count l <= i < 6)%nat -> loadn 8 (mem s') (regs s RBP - 112 + Z.of_nat i * 8) = regs s (i + 1) mod word) /\
  (forall i, (fparam_count l <= i < 8)%nat -> loadn 8 (mem s') (regs s RBP - 64 + Z.of_nat i * 8) = fregs s i mod word).
Proof.
  unfold va_saves. rewrite run_app. cbn zeta.
  assert (Hi : (iparam_count l <= 6)%nat) by (unfold iparam_count, MAX_REG_ARGS; lia).
  assert (Hf : (fparam_count l <= 8)%nat) by (unfold fparam_count, MAX_FREG_ARGS; lia).
  unfold MAX_REG_ARGS, MAX_FREG_ARGS.
  destruct (stores_run (fun i => Store 8 (i + 1) FromRbp ((Z.of_nat i - Z.of_nat 6 - Z.of_nat 8) * 8)) (-112) (fun r _ i => r (i + 1)%nat)) with (n := (6 - iparam_count l)%nat) (a := iparam_count l) (s := s)
    as (A1 & A2 & A3 & A4 & A5).
  { intros i s1. cbn [exec]. f_equal. f_equal. unfold addr. lia. }
  cbn zeta in *. set (s1 := run (map _ _) s) in *.
  destruct (stores_run (fun i => FStore 8 i FromRbp ((Z.of_nat i - Z.of_nat 8) * 8)) (-64) (fun _ r i => r i)) with (n := (8 - fparam_count l)%nat) (a := fparam_count l) (s := s1)
    as (B1 & B2 & B3 & B4 & B5).
  { intros i s2. cbn [exec]. f_equal. f_equal. unfold addr. lia. }
  cbn zeta in *. set (s2 := run (map _ _) s1) in *. rewrite A1 in *.
  split_and!; try congruence.
  - intros x Hx. rewrite B4, A4 by lia. done.
  - intros i Hk. rewrite <- A5 by lia. apply loadn_ext. intros x Hx. apply B4. lia.
  - intros i Hk. rewrite <- A2. replace (regs s RBP - 64 + Z.of_nat i * 8) with (regs s RBP + -64 + Z.of_nat i * 8) by lia. apply B5. lia.
Qed.

(** ** Everything before the first statement *)

Lemma frame_start_nonneg va : 0 <= frame_start va.
Proof. destruct va; unfold frame_start; lia. Qed.

Lemma entry f va l a s : Forall type_ok l -> 0 <= fsize f -> 0 <= work f ->
  assigned f va l (fun_places (used f) false l) a ->
  let s' := run (prologue f ++ param_moves va (zip l a)) s in
  rsp s' = rsp s - saved_size f - total_size f /\
  (rbp_saved f = true -> regs s' RBP = rsp s - saved_size f) /\
  (rbp_saved f = true -> forall x, rsp s <= x -> mem s' x = mem s x) /\
  (forall i t p b, l !! i = Some t -> call_places false l !! i = Some p -> a !! i = Some b ->
    match p with
    | InReg k => at_home s' t (home_of p b) (regs s (k + 1) mod 256 ^ t_size t)
    | InFreg k => at_home s' t (home_of p b) (fregs s k mod 256 ^ t_size t)
    | OnStack o => True
    end) /\
  (va = true ->
    (forall i, (iparam_count l <= i < 6)%nat -> loadn 8 (mem s') (regs s' RBP - 112 + Z.of_nat i * 8) = regs s (i + 1) mod word) /\
    (forall i, (fparam_count l <= i < 8)%nat -> loadn 8 (mem s') (regs s' RBP - 64 + Z.of_nat i * 8) = fregs s i mod word)).
Proof.
  intros Hl Hf Hw (Hlen & Hva & Hgood & Hdiff). rewrite fun_places_eq in Hgood, Hdiff by done.
  assert (Hcp : call_places false l = gp 0 0 0 l) by (by rewrite call_places_gp).
  rewrite Hcp in *. set (P := gp 0 0 0 l) in *.
  set (L := zip (zip l P) a).
  set (M := List.filter is_i L ++ List.filter is_f L).
  assert (Hmv : imoves 0 (zip l a) ++ fmoves 0 (zip l a) = mvs M).
  { unfold M. rewrite mvs_app. unfold L, P. rewrite <- (imoves_mvs l a 0 0 0), <- (fmoves_mvs l a 0 0 0) by done. done. }
  assert (HL : forall i e, L !! i = Some e -> exists t p b, e = (t, p, b) /\ l !! i = Some t /\ P !! i = Some p /\ a !! i = Some b).
  { intros i [[t p] b] Hi. exists t, p, b. unfold L in Hi. apply lookup_zip_with_Some in Hi as ([x1 x2] & x3 & Hx & H1 & H2).
    apply lookup_zip_with_Some in H1 as (y1 & y2 & Hy & H3 & H4). simplify_eq. done. }
  assert (HD : forall i j e e', i <> j -> L !! i = Some e -> L !! j = Some e' -> diff e e').
  { intros i j e e' Hn Hi Hj. apply HL in Hi as (t & p & b & -> & ? & Hp & ?). apply HL in Hj as (t' & p' & b' & -> & ? & Hp' & ?).
    cbn. apply (different_shift _ _ _ _ _ _ (param_bottom (used f))). eapply (Hdiff i j); eauto.
    - by rewrite lookup_shift, Hp.
    - by rewrite lookup_shift, Hp'. }
  assert (HM : Forall (ent_ok f va) M).
  { apply List.Forall_forall. intros e He. apply elem_of_list_In in He.
    assert (He' : e ∈ L /\ (is_i e = true \/ is_f e = true)).
    { unfold M in He. apply elem_of_app in He as [He|He]; apply in_filter in He as [? ?]; auto. }
    destruct He' as [He' Hk]. apply elem_of_list_lookup in He' as [i Hi]. apply HL in Hi as (t & p & b & -> & Ht & Hp & Hb).
    cbn. split_and!.
    - eapply Forall_lookup_1; eauto.
    - apply (good_shift _ _ _ _ _ (param_bottom (used f))). eapply (Hgood i); eauto. by rewrite lookup_shift, Hp.
    - pose proof (gp_kind _ _ _ _ _ _ _ Ht Hp) as K. destruct p; [split; [lia|tauto]|split_and!; [lia|tauto|tauto]|]. destruct Hk; done. }
  assert (Hpw : pw M).
  { pose proof (pw_of L HD) as HpL. apply pw_app; [by apply pw_filter..|].
    intros x y Hx Hy. apply in_filter in Hx as [Hx Kx]. apply in_filter in Hy as [Hy Ky].
    apply elem_of_list_lookup in Hx as [i Hi]. apply elem_of_list_lookup in Hy as [j Hj].
    eapply (HD i j); eauto. intros ->. rewrite Hi in Hj. injection Hj as <-. destruct x as [[? q] ?]. by destruct q. }
  unfold param_moves. rewrite (app_assoc (imoves 0 (zip l a))), Hmv, !run_app.
  destruct (prologue_ok f s Hf Hw) as (P1 & P2 & P3 & P4 & P5 & P6). cbn zeta in *. set (s1 := run (prologue f) s) in *.
  destruct (moves_run f va M s1 HM Hpw) as (M1 & M2 & M3 & M4 & M5 & M6). cbn zeta in *. set (s2 := run (mvs M) s1) in *.
  assert (T : exists s3, run (if va then va_saves (map fst (zip l a)) else []) s2 = s3 /\
    regs s3 = regs s2 /\ fregs s3 = fregs s2 /\ rsp s3 = rsp s2 /\
    (forall x, (rbp_saved f = true) -> x < regs s2 RBP - frame_start va \/ regs s2 RBP <= x -> mem s3 x = mem s2 x) /\
    (va = true ->
      (forall i, (iparam_count l <= i < 6)%nat -> loadn 8 (mem s3) (regs s2 RBP - 112 + Z.of_nat i * 8) = regs s2 (i + 1) mod word) /\
      (forall i, (fparam_count l <= i < 8)%nat -> loadn 8 (mem s3) (regs s2 RBP - 64 + Z.of_nat i * 8) = fregs s2 i mod word))).
  { eexists. split; [reflexivity|]. destruct va; [|done].
    assert (Hz : map fst (zip l a) = l) by (apply fst_zip; lia). rewrite Hz.
    destruct (va_saves_run l s2) as (V1 & V2 & V3 & V4 & V5 & V6). split_and!; try done. intros x _ Hx. apply V4. unfold frame_start, MAX_REG_ARGS, MAX_FREG_ARGS in Hx. lia. }
  destruct T as (s3 & -> & V1 & V2 & V3 & V4 & V5).
  assert (Hbp : rbp_saved f = true -> regs s3 RBP = rsp s - saved_size f).
  { intros Hb. rewrite V1, M5 by done. by destruct (P5 Hb). }
  pose proof (frame_start_nonneg va) as Hfs.
  split_and!.
  - congruence.
  - done.
  - intros Hb x Hx. assert (0 <= saved_size f) by (unfold saved_size; destruct (rbp_saved f); lia).
    destruct (P5 Hb) as [Hb1 _]. rewrite V4; [|done|rewrite M5 by done; lia]. rewrite M4; [apply P3; lia| |done].
    intros [[t p] b] He Ht. pose proof (proj1 (List.Forall_forall _ _) HM _ (proj1 (elem_of_list_In _ _) He)) as (_ & G & K).
    cbn [mtouched] in Ht. destruct p as [k|k|o]; [| |done]; destruct b as [d|o]; try done; destruct G as (_ & G1 & G2); lia.
  - intros i t p b Ht Hp Hb. destruct p as [k|k|o]; [| |done].
    + assert (He : (t, InReg k, b) ∈ M).
      { unfold M. apply elem_of_app. left. apply elem_of_list_In, List.filter_In. split; [|done]. apply elem_of_list_In.
        apply elem_of_list_lookup. exists i. unfold L. apply lookup_zip_with_Some. exists (t, InReg k), b. split_and!; try done.
        apply lookup_zip_with_Some. by exists t, (InReg k). }
      pose proof (M6 _ He) as Hh. cbn [ent_ty ent_home source] in Hh.
      pose proof (proj1 (List.Forall_forall _ _) HM _ (proj1 (elem_of_list_In _ _) He)) as (Hty & G & K).
      rewrite P4 in Hh by (left; unfold RBP; lia).
      destruct b as [d|o]; cbn [home_of at_home] in *; [by rewrite V1|]. destruct G as (Gb & G1 & G2).
      rewrite V1, <- Hh. apply loadn_ext. intros x Hx. apply V4; [done|]. rewrite (size_nat t Hty) in Hx. left. lia.
    + assert (He : (t, InFreg k, b) ∈ M).
      { unfold M. apply elem_of_app. right. apply elem_of_list_In, List.filter_In. split; [|done]. apply elem_of_list_In.
        apply elem_of_list_lookup. exists i. unfold L. apply lookup_zip_with_Some. exists (t, InFreg k), b. split_and!; try done.
        apply lookup_zip_with_Some. by exists t, (InFreg k). }
      pose proof (M6 _ He) as Hh. cbn [ent_ty ent_home source] in Hh.
      pose proof (proj1 (List.Forall_forall _ _) HM _ (proj1 (elem_of_list_In _ _) He)) as (Hty & G & K).
      rewrite P1 in Hh.
      destruct b as [d|o]; cbn [home_of at_home] in *; [by rewrite V2|]. destruct G as (Gb & G1 & G2).
      rewrite V1, <- Hh. apply loadn_ext. intros x Hx. apply V4; [done|]. rewrite (size_nat t Hty) in Hx. left. lia.
  - intros ->. destruct (V5 eq_refl) as [W1 W2]. rewrite V1. split; intros i Hi.
    + rewrite W1 by done. rewrite M2 by lia. by rewrite P4 by (left; unfold RBP; lia).
    + rewrite W2 by done. rewrite M3 by lia. by rewrite P1.
Qed.

Lemma params_ok f va l a vals s i t v b p : Forall type_ok l -> 0 <= fsize f -> 0 <= work f ->
  assigned f va l (fun_places (used f) false l) a -> all_held s l (call_places false l) vals ->
  l !! i = Some t -> vals !! i = Some v -> a !! i = Some b -> fun_places (used f) false l !! i = Some p ->
  at_home (run (prologue f ++ param_moves va (zip l a)) s) t (home_of p b) v.
Proof.
  intros Hl Hf Hw Ha Hh Ht Hv Hb Hp. destruct (entry f va l a s Hl Hf Hw Ha) as (E1 & E2 & E3 & E4 & _). cbn zeta in *.
  set (s' := run _ s) in *. pose proof Hp as Hp'. rewrite fun_places_eq, lookup_shift in Hp by done.
  destruct (call_places false l !! i) as [q|] eqn:Eq; [|done]. cbn in Hp. injection Hp as <-.
  specialize (E4 i t q b Ht Eq Hb). specialize (Hh i t q v Ht Eq Hv). destruct q as [k|k|o]; cbn [held shift] in *.
  - by rewrite <- Hh.
  - by rewrite <- Hh.
  - destruct Ha as (_ & _ & Hg & _). specialize (Hg i t _ b Ht Hp' Hb). cbn in Hg. destruct b; cbn [home_of at_home]; rewrite E2 by done; rewrite <- Hh.
    all: unfold saved_size, param_bottom; rewrite Hg.
    all: replace (rsp s - (Z.of_nat (length (callee_saves (used f))) * 8 + 8) + (Z.of_nat (length (callee_saves (used f))) * 8 + 8 * 2 + o)) with (rsp s + 8 + o) by lia.
    all: apply loadn_ext; intros x Hx; apply E3; [done|].
    all: rewrite call_places_gp in Eq by done; pose proof (gp_bounds _ _ _ _ _ _ _ Hl Ht Eq); lia.
Qed.
