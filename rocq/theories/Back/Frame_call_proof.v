(** Objects in the frame, alloca, registers around calls. *)
From stdpp Require Import base numbers list sets.
From Coq Require Import Lia.
From Verif Require Import Back.Frame_model Back.Frame_spec Back.Frame_proof Back.Frame_run_proof.
Open Scope Z_scope.

(** ** Layout *)

Lemma lay_bounds l : forall fs, Forall obj_ok l -> fs <= (lay fs l).2 /\
  forall i n a o, l !! i = Some (n, a) -> (lay fs l).1 !! i = Some o -> - (lay fs l).2 <= o /\ o + n <= - fs /\ o mod a = 0.
Proof.
  induction l as [|[n a] l IH]; intros fs Hl; [split; [done|]; done|]. inversion Hl as [|? ? [Hn Ha] Hl']; subst. cbn in Hn, Ha.
  cbn [lay add_object fst snd]. destruct (align_up_ok (fs + n) a Ha) as [B1 B2].
  destruct (IH (align_up (fs + n) a) Hl') as [I1 I2]. split; [lia|]. intros [|i] n' a' o Hi Ho.
  - cbn in Hi, Ho. simplify_eq. split_and!; [lia|lia|]. pose proof (pow2_pos a' Ha). by apply Z.mod_opp_l_z; [lia|].
  - cbn in Hi, Ho. destruct (I2 i n' a' o Hi Ho) as (J1 & J2 & J3). split_and!; [lia|lia|done].
Qed.
Lemma lay_apart l : forall fs i j n a n' a' o o', Forall obj_ok l -> (i < j)%nat ->
  l !! i = Some (n, a) -> l !! j = Some (n', a') -> (lay fs l).1 !! i = Some o -> (lay fs l).1 !! j = Some o' -> o' + n' <= o.
Proof.
  induction l as [|[m b] l IH]; intros fs i j n a n' a' o o' Hl Hij Hi Hj Ho Ho'; [done|]. inversion Hl as [|? ? [Hm Hb] Hl']; subst.
  destruct j as [|j]; [lia|]. cbn [lay add_object fst snd] in *. destruct i as [|i].
  - cbn in Hi, Hj, Ho, Ho'. simplify_eq. by destruct (proj2 (lay_bounds l (align_up (fs + n) a) Hl') _ _ _ _ Hj Ho') as (_ & ? & _).
  - cbn in Hi, Hj, Ho, Ho'. eapply (IH _ i j); eauto. lia.
Qed.
Lemma frame_objects_ok locals spills : Forall obj_ok locals -> Forall obj_ok (frame_objects locals spills).
Proof.
  intros H. unfold frame_objects. apply Forall_app. split.
  - apply List.Forall_map. eapply Forall_impl; [exact H|]. intros [n a] [H1 H2]. split; cbn in *; [|done]. destruct (n <? 1); lia.
  - apply List.Forall_map. apply Forall_true. intros p. split; cbn; [lia|]. exists (Z.of_nat p). split; [lia|done].
Qed.

Lemma objects_ok va locals spills i n a o : Forall obj_ok locals ->
  frame_objects locals spills !! i = Some (n, a) -> (frame_layout va locals spills).1 !! i = Some o ->
  - (frame_layout va locals spills).2 <= o /\ o + n <= - frame_start va /\ o mod a = 0.
Proof. intros H. apply lay_bounds. by apply frame_objects_ok. Qed.
Lemma objects_apart va locals spills i j n a m b o p : Forall obj_ok locals -> i <> j ->
  frame_objects locals spills !! i = Some (n, a) -> frame_objects locals spills !! j = Some (m, b) ->
  (frame_layout va locals spills).1 !! i = Some o -> (frame_layout va locals spills).1 !! j = Some p -> apart o n p m.
Proof.
  intros H Hn Hi Hj Ho Hp. pose proof (frame_objects_ok _ spills H) as H'.
  destruct (Nat.lt_total i j) as [L|[?|L]]; [|done|].
  - right. eapply (lay_apart _ _ i j); eauto.
  - left. eapply (lay_apart _ _ j i); eauto.
Qed.

Lemma frame_room f s : 0 <= fsize f -> 0 <= work f -> rsp s mod 16 = 8 -> rbp_saved f = true ->
  let s' := run (prologue f) s in
  regs s' RBP mod 8 = 0 /\ rsp s' + work f <= regs s' RBP - fsize f /\ regs s' RBP + saved_size f = rsp s.
Proof.
  intros Hf Hw Hs Hb. destruct (prologue_ok f s Hf Hw) as (_ & P2 & _ & _ & P5 & _). destruct (P5 Hb) as [B _]. cbn zeta in *.
  rewrite B, P2. pose proof (total_nonneg f Hf Hw). split_and!; [|lia|lia].
  unfold saved_size. rewrite Hb. rewrite (Z.div_mod (rsp s) 16), Hs by lia.
  replace (16 * (rsp s / 16) + 8 - (Z.of_nat (length (callee_saves (used f))) * 8 + 8)) with ((2 * (rsp s / 16) - Z.of_nat (length (callee_saves (used f)))) * 8) by lia.
  apply Z.mod_mul. lia.
Qed.

(** ** alloca *)

Lemma alloca_size n : 0 <= n -> n <= Z.land (n + (16 - 1)) (-16) /\ Z.land (n + (16 - 1)) (-16) mod 16 = 0.
Proof.
  intros H. pose proof (align_up_ok n 16 ltac:(by exists 4)) as [A B]. unfold align_up in A, B.
  replace (n + 16 - 1) with (n + (16 - 1)) in A, B by lia. change (- (16)) with (-16) in A, B. split; [lia|done].
Qed.
Lemma allocas_ok f l : forall sp, Forall (fun n => 0 <= n) l ->
  (allocas f sp l).1 <= sp /\ (sp mod 16 = 0 -> (allocas f sp l).1 mod 16 = 0) /\
  (forall i n p, l !! i = Some n -> (allocas f sp l).2 !! i = Some p ->
     (allocas f sp l).1 + work f <= p /\ p + n <= sp + work f /\ (sp mod 16 = 0 -> work f mod 8 = 0 -> p mod 8 = 0)) /\
  (forall i j n m p q, (i < j)%nat -> l !! i = Some n -> l !! j = Some m ->
     (allocas f sp l).2 !! i = Some p -> (allocas f sp l).2 !! j = Some q -> q + m <= p).
Proof.
  induction l as [|n l IH]; intros sp Hl; [cbn; split_and!; try done; lia|]. inversion Hl as [|? ? Hn Hl']; subst.
  cbn [allocas alloca fst snd]. destruct (alloca_size n Hn) as [A B]. set (k := Z.land (n + (16 - 1)) (-16)) in *.
  destruct (IH (sp - k) Hl') as (I1 & I2 & I3 & I4).
  assert (H16 : sp mod 16 = 0 -> (sp - k) mod 16 = 0).
  { intros Hsp. by rewrite Zminus_mod, Hsp, B. }
  split_and!.
  - lia.
  - auto.
  - intros [|i] m p Hi Hp; cbn in Hi, Hp.
    + simplify_eq. split_and!; [lia|lia|]. intros Hsp Hw. apply mod8_add; [|done].
      specialize (H16 Hsp). apply Z.mod_divide in H16 as [q ->]; [|lia]. replace (q * 16) with (q * 2 * 8) by lia. apply Z.mod_mul. lia.
    + destruct (I3 i m p Hi Hp) as (J1 & J2 & J3). split_and!; [lia|lia|auto].
  - intros i j n' m p q Hij Hi Hj Hp Hq. destruct j as [|j]; [lia|]. destruct i as [|i]; cbn in Hi, Hj, Hp, Hq.
    + simplify_eq. by destruct (I3 j m q Hj Hq) as (_ & ? & _).
    + eapply (I4 i j); eauto. lia.
Qed.

(** ** Registers around a call *)

Definition val (s : state) (r : nat + nat) : Z := match r with inl r => regs s r | inr x => fregs s x end.
Lemma save_run l : forall off s, let s' := run (save_regs off l) s in
  regs s' = regs s /\ fregs s' = fregs s /\ rsp s' = rsp s /\
  (forall x, x < rsp s + off - Z.of_nat (length l) * 8 \/ rsp s + off <= x -> mem s' x = mem s x) /\
  (forall i r, l !! i = Some r -> loadn 8 (mem s') (rsp s + off - 8 * (Z.of_nat i + 1)) = val s r mod word).
Proof.
  induction l as [|r l IH]; intros off s; [cbn; split_and!; done|]. cbn [save_regs]. rewrite run_cons.
  set (s1 := exec _ s).
  assert (A : regs s1 = regs s /\ fregs s1 = fregs s /\ rsp s1 = rsp s /\ mem s1 = storen 8 (mem s) (rsp s + (off - 8)) (val s r)) by (by destruct r).
  destruct A as (A1 & A2 & A3 & A4). destruct (IH (off - 8) s1) as (I1 & I2 & I3 & I4 & I5). cbn zeta in *. set (s2 := run _ s1) in *.
  rewrite A3 in I4, I5. split_and!; [congruence|congruence|congruence| |].
  - intros x Hx. cbn [length] in Hx. rewrite I4 by lia. rewrite A4. apply storen_out. lia.
  - intros [|i] q Hi; cbn in Hi.
    + injection Hi as <-. rewrite (loadn_ext _ _ (mem s1)) by (intros x Hx; apply I4; lia). rewrite A4.
      replace (rsp s + off - 8 * (Z.of_nat 0 + 1)) with (rsp s + (off - 8)) by lia. rewrite loadn_store by lia. by rewrite word_eq.
    + specialize (I5 i q Hi). replace (val s q) with (val s1 q) by (destruct q; cbn; congruence). rewrite <- I5. f_equal. lia.
Qed.
Lemma load_regs_app a : forall off b, load_regs off (a ++ b) = load_regs off a ++ load_regs (off + Z.of_nat (length a) * 8) b.
Proof.
  induction a as [|x a IH]; intros off b; cbn [app load_regs length]; [f_equal; lia|]. rewrite IH. do 2 f_equal. f_equal. lia.
Qed.
Lemma load_run l : forall v off s, NoDup l ->
  (forall i r, l !! i = Some r -> loadn 8 (mem s) (rsp s + off + 8 * (Z.of_nat (length l) - 1 - Z.of_nat i)) = v r) ->
  let s' := run (load_regs off (rev l)) s in
  rsp s' = rsp s /\ mem s' = mem s /\ (forall r, r ∈ l -> val s' r = v r) /\ (forall r, r ∉ l -> val s' r = val s r).
Proof.
  induction l as [|x l IH]; intros v off s Hd H.
  - cbn. split_and!; try done. intros r Hr. by apply elem_of_nil in Hr.
  - cbn [rev]. rewrite load_regs_app, run_app. inversion Hd as [|? ? Hx Hd']; subst.
    destruct (IH v off s Hd') as (I1 & I2 & I3 & I4).
    { intros i r Hi. rewrite <- (H (S i) r Hi). f_equal. cbn [length]. lia. }
    cbn zeta in *. set (s1 := run (load_regs off (rev l)) s) in *. rewrite rev_length. cbn [load_regs].
    set (o := off + Z.of_nat (length l) * 8).
    assert (Hv : loadn 8 (mem s1) (rsp s1 + o) = v x).
    { rewrite I1, I2. rewrite <- (H 0%nat x eq_refl). f_equal. unfold o. cbn [length]. lia. }
    set (s2 := run _ s1).
    assert (A : rsp s2 = rsp s1 /\ mem s2 = mem s1 /\ val s2 x = v x /\ forall r, r <> x -> val s2 r = val s1 r).
    { unfold s2. destruct x as [x|x]; cbn [run fold_left exec rsp mem val regs fregs addr]; (split_and!; [done|done|rewrite upd_eq; exact Hv|]).
      - intros [r|r] Hr; [apply upd_ne; congruence|done].
      - intros [r|r] Hr; [done|apply upd_ne; congruence]. }
    destruct A as (A1 & A2 & A3 & A4). split_and!; [congruence|congruence| |].
    + intros r Hr. destruct (decide (r = x)) as [->|Hn]; [done|]. rewrite A4 by done. apply I3. apply elem_of_cons in Hr as [?|?]; done.
    + intros r Hr. rewrite A4 by (intros ->; apply Hr; left). apply I4. intros Hi. apply Hr. by right.
Qed.

Lemma caller_saves_nodup living : NoDup (caller_saves living).
Proof.
  unfold caller_saves. apply NoDup_app. split_and!.
  - apply (NoDup_fmap_2 inl). apply NoDup_filter. repeat (constructor; [set_solver|]). constructor.
  - intros r H1 H2. apply elem_of_list_fmap in H1 as (a & -> & _). apply elem_of_list_fmap in H2 as (b & E & _). done.
  - apply (NoDup_fmap_2 inr). apply NoDup_filter. repeat (constructor; [set_solver|]). constructor.
Qed.
Lemma caller_saves_reg living r : inl r ∈ caller_saves living <-> r ∈ caller_save_regs /\ living r = true.
Proof.
  unfold caller_saves. rewrite elem_of_app. split.
  - intros [H|H]; apply elem_of_list_fmap in H as (a & E & H); [|done]. injection E as <-.
    apply elem_of_list_filter in H as [H1 H2]. split; [done|by apply Is_true_true].
  - intros [H1 H2]. left. apply elem_of_list_fmap. exists r. split; [done|]. apply elem_of_list_filter. split; [by apply Is_true_true|done].
Qed.
Lemma caller_saves_freg living r : inr r ∈ caller_saves living <-> r ∈ caller_save_fregs /\ living (r + 15)%nat = true.
Proof.
  unfold caller_saves, PHYSICAL_REG_MAX. rewrite elem_of_app. split.
  - intros [H|H]; apply elem_of_list_fmap in H as (a & E & H); [done|]. injection E as <-.
    apply elem_of_list_filter in H as [H1 H2]. split; [done|by apply Is_true_true].
  - intros [H1 H2]. right. apply elem_of_list_fmap. exists r. split; [done|]. apply elem_of_list_filter. split; [by apply Is_true_true|done].
Qed.

Lemma call_ok living total s s2 : 0 <= total -> state_ok s ->
  let saves := caller_saves living in
  let s1 := run (push_caller_saves saves total) s in
  call_keeps total s1 s2 ->
  let s3 := run (pop_caller_saves saves total) s2 in
  rsp s3 = rsp s /\
  (forall r, (7 <= r < 15)%nat -> living r = true -> regs s3 r = regs s r) /\
  (forall x, (8 <= x < 16)%nat -> living (x + 15)%nat = true -> fregs s3 x = fregs s x) /\
  (forall r, (r < 7)%nat -> regs s3 r = regs s2 r) /\ (forall x, (x < 8)%nat -> fregs s3 x = fregs s2 x) /\
  (forall r, (r < 7)%nat -> regs s1 r = regs s r) /\ (forall x, (x < 8)%nat -> fregs s1 x = fregs s x) /\
  (forall a, rsp s <= a < rsp s + total -> mem s1 a = mem s a) /\
  (forall a, rsp s + total + Z.of_nat (length saves) * 8 <= a -> mem s3 a = mem s a).
Proof.
  intros Ht Hs saves s1 (K1 & K2 & K3) s3. unfold push_caller_saves in s1. unfold pop_caller_saves in s3.
  destruct (save_run saves (total + Z.of_nat (length saves) * 8) s) as (S1 & S2 & S3 & S4 & S5). cbn zeta in *. fold s1 in S1, S2, S3, S4, S5.
  assert (Hmod : forall r, val s r mod word = val s r) by (destruct Hs; intros [r|r]; cbn; by apply Z.mod_small).
  destruct (load_run saves (val s) total s2) as (L1 & L2 & L3 & L4).
  { apply caller_saves_nodup. }
  { intros i r Hi. rewrite <- Hmod, <- (S5 i r Hi). pose proof (lookup_lt_Some _ _ _ Hi). rewrite K1, S3.
    replace (rsp s + total + 8 * (Z.of_nat (length saves) - 1 - Z.of_nat i)) with (rsp s + (total + Z.of_nat (length saves) * 8) - 8 * (Z.of_nat i + 1)) by lia.
    apply loadn_ext. intros x Hx. apply K3. rewrite S3. lia. }
  cbn zeta in *. fold s3 in L1, L2, L3, L4.
  assert (N7 : forall r, (r < 13)%nat -> inl r ∉ saves).
  { intros r Hr Hi. apply caller_saves_reg in Hi as [Hi _]. unfold caller_save_regs in Hi. rewrite !elem_of_cons, elem_of_nil in Hi. lia. }
  assert (N8 : forall r, (r < 8)%nat -> inr r ∉ saves).
  { intros r Hr Hi. apply caller_saves_freg in Hi as [Hi _]. unfold caller_save_fregs in Hi. rewrite !elem_of_cons, elem_of_nil in Hi. lia. }
  split_and!.
  - congruence.
  - intros r Hr Hl. destruct (decide (r < 13)%nat) as [H13|H13].
    + pose proof (L4 (inl r) (N7 r H13)) as E. cbn [val] in E. rewrite E, K2, S1; [done|].
      unfold callee_save_regs. rewrite !elem_of_cons. lia.
    + apply (L3 (inl r)). apply caller_saves_reg. split; [|done]. unfold caller_save_regs. rewrite !elem_of_cons. lia.
  - intros x Hx Hl. apply (L3 (inr x)). apply caller_saves_freg. split; [|done]. unfold caller_save_fregs. rewrite !elem_of_cons. lia.
  - intros r Hr. apply (L4 (inl r)). apply N7. lia.
  - intros x Hx. apply (L4 (inr x)). by apply N8.
  - intros r _. by rewrite S1.
  - intros r _. by rewrite S2.
  - intros a Ha. apply S4. lia.
  - intros a Ha. rewrite L2, K3 by (rewrite S3; lia). apply S4. lia.
Qed.

Lemma work_ok l n saves : (n, saves) ∈ l -> n + Z.of_nat (length saves) * 8 <= work_size l.
Proof.
  induction l as [|[m k] l IH]; intros H; [by apply elem_of_nil in H|]. cbn [work_size]. apply elem_of_cons in H as [H|H].
  - injection H as -> ->. lia.
  - specialize (IH H). lia.
Qed.
Lemma work_nonneg l : 0 <= work_size l.
Proof. induction l as [|[m k] l IH]; cbn [work_size]; lia. Qed.
Lemma work_mod l : (forall n saves, (n, saves) ∈ l -> n mod 8 = 0) -> work_size l mod 8 = 0.
Proof.
  induction l as [|[m k] l IH]; intros H; [done|]. cbn [work_size].
  destruct (Z.max_spec (m + Z.of_nat (length k) * 8) (work_size l)) as [[_ ->]|[_ ->]].
  - apply IH. intros n s Hn. apply (H n s). by right.
  - apply mod8_add; [apply (H m k); left|apply Z.mod_mul; lia].
Qed.

(** ** Registers in use *)

(** An entry which is not dropped before [nip] reaches the end of [x]. *)
Definition stays (nip : Z) (v : livings) (x : interval) : Prop :=
  forall b, bit x = Some b -> lo x < nip -> nip < hi x -> exists y, v b = Some y /\ ~ (nip <= hi y < hi x).
Definition alive (nip : Z) (v : livings) (x : interval) : Prop :=
  forall b, bit x = Some b -> lo x < nip -> nip < hi x -> exists y, v b = Some y /\ ~ (nip + 1 <= hi y < hi x).

Lemma set_eq v b o : set_living v b o b = o.
Proof. unfold set_living. by rewrite Nat.eqb_refl. Qed.
Lemma set_ne v b o k : k <> b -> set_living v b o k = v k.
Proof. unfold set_living. destruct (Nat.eqb k b) eqn:E; [apply Nat.eqb_eq in E; congruence|done]. Qed.

Definition indep (x y : interval) : Prop := forall r, bit x = Some r -> bit y = Some r -> hi x <= lo y \/ hi y <= lo x.

Lemma living_params_ok all l : forall v done_, all = done_ ++ l -> sorted all -> exclusive all ->
  (forall x, x ∈ done_ -> lo x < 0 /\ stays 0 v x) -> forall x, x ∈ all -> stays 0 (living_params v l) x.
Proof.
  induction l as [|i l IH]; intros v dn Hall Hs He Hd x Hx.
  - rewrite app_nil_r in Hall. subst. by apply Hd.
  - cbn [living_params]. destruct (0 <=? lo i) eqn:E.
    + apply Z.leb_le in E. rewrite Hall in Hx. apply elem_of_app in Hx as [Hx|Hx]; [by apply Hd|].
      intros b Hb Hlo _. exfalso. apply elem_of_cons in Hx as [->|Hx]; [lia|].
      apply elem_of_list_lookup in Hx as [j Hj].
      pose proof (Hs (length dn) (length dn + S j)%nat i x ltac:(lia)) as Hle.
      rewrite Hall in Hle. rewrite !lookup_app_r in Hle by lia. rewrite Nat.sub_diag in Hle.
      replace (length dn + S j - length dn)%nat with (S j) in Hle by lia. specialize (Hle eq_refl Hj). lia.
    + apply Z.leb_gt in E. apply (IH _ (dn ++ [i])); [by rewrite <- app_assoc|done|done| |done].
      intros y Hy. apply elem_of_app in Hy as [Hy|Hy].
      * destruct (Hd y Hy) as [H1 H2]. split; [done|]. destruct (bit i) as [c|] eqn:Ec; [|done].
        intros b Hb Hlo Hhi. destruct (decide (b = c)) as [->|Hn].
        -- rewrite set_eq. exists i. split; [done|].
           apply elem_of_list_lookup in Hy as [j Hj]. pose proof (lookup_lt_Some _ _ _ Hj).
           destruct (He j (length dn) y i c) as [?|?]; try done; try lia.
           ++ rewrite Hall. by rewrite lookup_app_l.
           ++ rewrite Hall. by rewrite lookup_app_r, Nat.sub_diag by lia.
        -- rewrite set_ne by done. by apply H2.
      * apply elem_of_list_singleton in Hy as ->. split; [done|]. intros b Hb _ _. rewrite Hb, set_eq. exists i. split; [done|lia].
Qed.

Lemma drop_alive nip v x : stays nip v x -> alive nip (drop_ended nip v) x.
Proof.
  intros H b Hb Hl Hh. destruct (H b Hb Hl Hh) as (y & Hy & Hn). exists y. unfold drop_ended. rewrite Hy.
  destruct (nip =? hi y) eqn:E; [apply Z.eqb_eq in E; lia|]. split; [done|lia].
Qed.

Lemma add_started_ok all nip l : forall v dn, all = dn ++ l -> sorted all -> exclusive all ->
  (forall x, x ∈ dn -> lo x <= nip /\ stays (nip + 1) v x) ->
  (forall x, x ∈ l -> nip <= lo x) ->
  let q := add_started nip v l in
  exists dn', all = dn' ++ q.2 /\ (forall x, x ∈ dn' -> lo x <= nip /\ stays (nip + 1) q.1 x) /\ (forall x, x ∈ q.2 -> nip + 1 <= lo x).
Proof.
  induction l as [|i l IH]; intros v dn Hall Hs He Hd Hl.
  - exists dn. cbn. split_and!; try done. intros x Hx. by apply elem_of_nil in Hx.
  - cbn [add_started]. destruct (nip <? lo i) eqn:E.
    + apply Z.ltb_lt in E. exists dn. cbn. split_and!; try done. intros x Hx. apply elem_of_cons in Hx as [->|Hx]; [lia|].
      apply elem_of_list_lookup in Hx as [j Hj].
      pose proof (Hs (length dn) (length dn + S j)%nat i x ltac:(lia)) as Hle.
      rewrite Hall in Hle. rewrite !lookup_app_r in Hle by lia. rewrite Nat.sub_diag in Hle.
      replace (length dn + S j - length dn)%nat with (S j) in Hle by lia. specialize (Hle eq_refl Hj). lia.
    + apply Z.ltb_ge in E. assert (Ei : lo i = nip) by (specialize (Hl i ltac:(left)); lia).
      apply (IH _ (dn ++ [i])); [by rewrite <- app_assoc|done|done| |].
      * intros y Hy. apply elem_of_app in Hy as [Hy|Hy].
        -- destruct (Hd y Hy) as [H1 H2]. split; [done|]. destruct (bit i) as [c|] eqn:Ec; [|done].
           rewrite Ei, Z.eqb_refl. intros b Hb Hlo Hhi. destruct (decide (b = c)) as [->|Hn].
           ++ rewrite set_eq. exists i. split; [done|].
              apply elem_of_list_lookup in Hy as [j Hj]. pose proof (lookup_lt_Some _ _ _ Hj).
              destruct (He j (length dn) y i c) as [?|?]; try done; try lia.
              ** rewrite Hall. by rewrite lookup_app_l.
              ** rewrite Hall. by rewrite lookup_app_r, Nat.sub_diag by lia.
           ++ rewrite set_ne by done. by apply H2.
        -- apply elem_of_list_singleton in Hy as ->. split; [lia|]. intros b Hb _ _. rewrite Hb, Ei, Z.eqb_refl, set_eq. exists i. split; [done|lia].
      * intros x Hx. apply Hl. by right.
Qed.

Lemma living_at_ok all : sorted all -> exclusive all -> forall n nip v l dn, all = dn ++ l ->
  (forall x, x ∈ dn -> lo x < nip /\ stays nip v x) -> (forall x, x ∈ l -> nip <= lo x) ->
  forall k bits x b, living_at n nip v l !! k = Some bits -> x ∈ all -> bit x = Some b -> lo x < nip + Z.of_nat k -> nip + Z.of_nat k < hi x ->
  bits b = true.
Proof.
  intros Hs He. induction n as [|n IH]; intros nip v l dn Hall Hd Hl k bits x b Hk Hx Hb Hlo Hhi; [done|].
  cbn [living_at] in Hk. destruct k as [|k].
  - cbn in Hk. injection Hk as <-. rewrite Z.add_0_r in *. rewrite Hall in Hx. apply elem_of_app in Hx as [Hx|Hx].
    + destruct (Hd x Hx) as [_ H]. destruct (drop_alive _ _ _ H b Hb Hlo Hhi) as (y & -> & _). done.
    + specialize (Hl x Hx). lia.
  - cbn in Hk. destruct (add_started_ok all nip l (drop_ended nip v) dn Hall Hs He) as (dn' & A1 & A2 & A3).
    + intros y Hy. destruct (Hd y Hy) as [H1 H2]. split; [lia|]. intros c Hc _ Hh.
      exact (drop_alive _ _ _ H2 c Hc ltac:(lia) ltac:(lia)).
    + done.
    + cbn zeta in *. apply (IH (nip + 1) (add_started nip (drop_ended nip v) l).1 _ dn' A1) with (k := k) (x := x); [|done|done|done|done|lia|lia].
      intros y Hy. destruct (A2 y Hy). split; [lia|done].
Qed.

Lemma detect_ok n l k bits x b : sorted l -> exclusive l -> detect_living n l !! k = Some bits ->
  x ∈ l -> bit x = Some b -> lo x < Z.of_nat k < hi x -> bits b = true.
Proof.
  intros Hs He Hk Hx Hb [Hlo Hhi]. unfold detect_living in Hk.
  (* the loop starts at the head of the list, where parameters are passed over *)
  pose proof (living_params_ok l l (fun _ => None) [] eq_refl Hs He ltac:(intros y Hy; by apply elem_of_nil in Hy)) as Hp.
  set (v := living_params (fun _ => None) l) in *.
  destruct n as [|n]; [done|]. cbn [living_at] in Hk.
  assert (Hdrop : forall y, y ∈ l -> stays 1 (drop_ended 0 v) y \/ 0 <= lo y).
  { intros y Hy. destruct (decide (0 <= lo y)) as [?|Hn]; [by right|left]. intros c Hc _ Hh. exact (drop_alive 0 _ _ (Hp y Hy) c Hc ltac:(lia) ltac:(lia)). }
  assert (G : forall l2 dn w, l = dn ++ l2 -> (forall y, y ∈ dn -> lo y <= 0 /\ stays 1 w y) -> (forall y, y ∈ l2 -> stays 1 w y \/ 0 <= lo y) ->
    exists dn', l = dn' ++ (add_started 0 w l2).2 /\ (forall y, y ∈ dn' -> lo y <= 0 /\ stays 1 (add_started 0 w l2).1 y) /\ (forall y, y ∈ (add_started 0 w l2).2 -> 1 <= lo y)).
  { induction l2 as [|i l2 IH]; intros dn w Hl2 Hd H2.
    - exists dn. cbn. split_and!; try done. intros y Hy. by apply elem_of_nil in Hy.
    - destruct (decide (0 <= lo i)) as [Hi|Hi].
      + apply (add_started_ok l 0 (i :: l2) w dn Hl2 Hs He Hd).
        intros y Hy. apply elem_of_cons in Hy as [->|Hy]; [done|].
        apply elem_of_list_lookup in Hy as [j Hj].
        pose proof (Hs (length dn) (length dn + S j)%nat i y ltac:(lia)) as Hle.
        rewrite Hl2 in Hle. rewrite !lookup_app_r in Hle by lia. rewrite Nat.sub_diag in Hle.
        replace (length dn + S j - length dn)%nat with (S j) in Hle by lia. specialize (Hle eq_refl Hj). lia.
      + cbn [add_started]. rewrite (proj2 (Z.ltb_ge 0 (lo i))) by lia. rewrite (proj2 (Z.eqb_neq 0 (lo i))) by lia.
        replace (match bit i with Some _ => w | None => w end) with w by (by destruct (bit i)).
        apply (IH (dn ++ [i])); [by rewrite <- app_assoc| |].
        * intros y Hy. apply elem_of_app in Hy as [Hy|Hy]; [by apply Hd|]. apply elem_of_list_singleton in Hy as ->.
          split; [lia|]. destruct (H2 i ltac:(left)) as [?|?]; [done|lia].
        * intros y Hy. apply H2. by right. }
  destruct k as [|k].
  - cbn in Hk. injection Hk as <-. destruct (drop_alive 0 _ _ (Hp x Hx) b Hb Hlo Hhi) as (y & -> & _). done.
  - cbn in Hk. destruct (G l [] (drop_ended 0 v) eq_refl ltac:(intros y Hy; by apply elem_of_nil in Hy) Hdrop) as (dn' & A1 & A2 & A3).
    apply (living_at_ok l Hs He n 1 (add_started 0 (drop_ended 0 v) l).1 _ dn' A1) with (k := k) (x := x); [|done|done|done|done|lia|lia].
    intros y Hy. destruct (A2 y Hy). split; [lia|done].
Qed.
