(** Running the beginning and the end of a function. *)
From stdpp Require Import base numbers list sets.
From Coq Require Import Lia.
From Verif Require Import Back.Frame_model Back.Frame_spec Back.Frame_proof.
Open Scope Z_scope.

(** ** Memory *)

Lemma storen_out n m a v x : x < a \/ a + Z.of_nat n <= x -> storen n m a v x = m x.
Proof.
  intros H. unfold storen. destruct (a <=? x) eqn:E; [|done]. destruct (x <? a + Z.of_nat n) eqn:F; [|done].
  apply Z.leb_le in E. apply Z.ltb_lt in F. lia.
Qed.
Lemma storen_in n m a v x : a <= x < a + Z.of_nat n -> storen n m a v x = (v / 256 ^ (x - a)) mod 256.
Proof.
  intros H. unfold storen. rewrite (proj2 (Z.leb_le a x)) by lia. by rewrite (proj2 (Z.ltb_lt x (a + Z.of_nat n))) by lia.
Qed.
Lemma loadn_ext n : forall m m' a, (forall x, a <= x < a + Z.of_nat n -> m x = m' x) -> loadn n m a = loadn n m' a.
Proof.
  induction n as [|n IH]; intros m m' a H; [done|]. cbn [loadn]. rewrite (H a) by lia.
  rewrite (IH m m' (a + 1)); [done|]. intros x Hx. apply H. lia.
Qed.
Lemma loadn_apart n k m a b v : apart a (Z.of_nat n) b (Z.of_nat k) -> loadn n (storen k m b v) a = loadn n m a.
Proof. intros H. apply loadn_ext. intros x Hx. apply storen_out. unfold apart in H. lia. Qed.
Lemma loadn_stored k n m a v : forall j, 0 <= j -> j + Z.of_nat k <= Z.of_nat n ->
  loadn k (storen n m a v) (a + j) = (v / 256 ^ j) mod 256 ^ Z.of_nat k.
Proof.
  induction k as [|k IH]; intros j Hj Hk.
  - cbn [loadn]. change (256 ^ Z.of_nat 0) with 1. by rewrite Z.mod_1_r.
  - cbn [loadn]. rewrite storen_in by lia. replace (a + j - a) with j by lia. rewrite Z.mod_mod by lia.
    replace (a + j + 1) with (a + (j + 1)) by lia. rewrite (IH (j + 1)) by lia.
    rewrite Z.pow_add_r by lia. change (256 ^ 1) with 256. rewrite <- Z.div_div by lia.
    set (w := v / 256 ^ j). rewrite Nat2Z.inj_succ, Z.pow_succ_r by lia.
    rewrite Z.rem_mul_r by lia. lia.
Qed.
Lemma loadn_store n k m a v : (k <= n)%nat -> loadn k (storen n m a v) a = v mod 256 ^ Z.of_nat k.
Proof.
  intros H. pose proof (loadn_stored k n m a v 0 ltac:(lia) ltac:(lia)) as E. rewrite Z.add_0_r in E.
  rewrite E. change (256 ^ 0) with 1. by rewrite Z.div_1_r.
Qed.
Lemma word_eq : 256 ^ Z.of_nat 8 = word.
Proof. done. Qed.
Lemma upd_eq f r v : upd f r v r = v.
Proof. unfold upd. by rewrite Nat.eqb_refl. Qed.
Lemma upd_ne f r v x : x <> r -> upd f r v x = f x.
Proof. intros H. unfold upd. destruct (Nat.eqb x r) eqn:E; [apply Nat.eqb_eq in E; congruence|done]. Qed.
Lemma run_app l k s : run (l ++ k) s = run k (run l s).
Proof. unfold run. apply fold_left_app. Qed.
Lemma run_cons i l s : run (i :: l) s = run l (exec i s).
Proof. done. Qed.

(** ** Pushing and popping *)

Lemma pushes rs : forall s, let s' := run (map Push rs) s in
  regs s' = regs s /\ fregs s' = fregs s /\ rsp s' = rsp s - Z.of_nat (length rs) * 8 /\
  (forall a, a < rsp s' \/ rsp s <= a -> mem s' a = mem s a) /\
  (forall i r, rs !! i = Some r -> loadn 8 (mem s') (rsp s - 8 * (Z.of_nat i + 1)) = regs s r mod word).
Proof.
  induction rs as [|r rs IH]; intros s; cbn [map].
  - cbn. split_and!; try done. lia.
  - rewrite run_cons. specialize (IH (exec (Push r) s)). cbn zeta in IH |- *.
    destruct IH as (H1 & H2 & H3 & H4 & H5). cbn [exec regs fregs rsp mem] in H1, H2, H3, H4, H5 |- *.
    split_and!; [done|done|rewrite H3; cbn [length]; lia| |].
    + intros a Ha. rewrite H3 in Ha. cbn [length] in Ha.
      rewrite H4 by (rewrite H3; lia). apply storen_out. lia.
    + intros [|i] x Hx; cbn in Hx.
      * injection Hx as <-. rewrite (loadn_ext _ _ (storen 8 (mem s) (rsp s - 8) (regs s r))).
        { replace (rsp s - 8 * (Z.of_nat 0 + 1)) with (rsp s - 8) by lia. rewrite loadn_store by lia. by rewrite word_eq. }
        intros a Ha. apply H4. lia.
      * specialize (H5 i x Hx). rewrite <- H5. f_equal. lia.
Qed.
Lemma pops rs : forall v s, NoDup rs ->
  (forall i r, rs !! i = Some r -> loadn 8 (mem s) (rsp s + 8 * (Z.of_nat (length rs) - 1 - Z.of_nat i)) = v r) ->
  let s' := run (map Pop (rev rs)) s in
  rsp s' = rsp s + Z.of_nat (length rs) * 8 /\ mem s' = mem s /\ fregs s' = fregs s /\
  (forall r, r ∈ rs -> regs s' r = v r) /\ (forall r, r ∉ rs -> regs s' r = regs s r).
Proof.
  induction rs as [|x rs IH]; intros v s Hd H.
  - cbn. split_and!; try done; [lia|]. intros r Hr. by apply elem_of_nil in Hr.
  - cbn [rev]. rewrite map_app, run_app. inversion Hd as [|? ? Hx Hd']; subst.
    specialize (IH v s Hd'). cbn zeta in IH |- *. destruct IH as (H1 & H2 & H3 & H4 & H5).
    { intros i r Hi. rewrite <- (H (S i) r Hi). f_equal. cbn [length]. lia. }
    set (s1 := run (map Pop (rev rs)) s) in *. cbn [map]. rewrite run_cons. cbn [run fold_left exec regs fregs rsp mem].
    split_and!; [rewrite H1; cbn [length]; lia|done|done| |].
    + intros r Hr. destruct (decide (r = x)) as [->|Hn].
      * rewrite upd_eq, H1, H2. rewrite <- (H 0%nat x eq_refl). f_equal. cbn [length]. lia.
      * rewrite upd_ne by done. apply H4. apply elem_of_cons in Hr as [?|?]; [done|done].
    + intros r Hr. rewrite upd_ne by (intros ->; apply Hr; left). apply H5. intros Hi. apply Hr. by right.
Qed.

Lemma callee_saves_nodup u : NoDup (callee_saves u).
Proof. apply NoDup_filter. unfold callee_save_regs. repeat (constructor; [set_solver|]). constructor. Qed.
Lemma callee_saves_in u r : r ∈ callee_saves u <-> r ∈ callee_save_regs /\ u r = true.
Proof. unfold callee_saves. rewrite elem_of_list_filter, Is_true_true. tauto. Qed.

(** ** The prologue *)

Lemma total_nonneg f : 0 <= fsize f -> 0 <= work f -> fsize f + work f <= total_size f.
Proof.
  intros H1 H2. unfold total_size. destruct (calls f); [|lia].
  assert (0 <= Z.land (- (fsize f + work f + Z.of_nat (length (callee_saves (used f))) * 8 + (if rbp_saved f then 0 else 8))) 15)
    by (apply Z.land_nonneg; lia). lia.
Qed.
Lemma sub_opt n s : 0 <= n -> run (if 0 <? n then [SubRsp n] else []) s = St (regs s) (fregs s) (rsp s - n) (mem s).
Proof.
  intros H. destruct (0 <? n) eqn:E; [done|]. apply Z.ltb_ge in E. replace n with 0 by lia. rewrite Z.sub_0_r. by destruct s.
Qed.
Lemma prologue_ok f s : 0 <= fsize f -> 0 <= work f -> let s' := run (prologue f) s in
  fregs s' = fregs s /\ rsp s' = rsp s - saved_size f - total_size f /\
  (forall a, a < rsp s - saved_size f \/ rsp s <= a -> mem s' a = mem s a) /\
  (forall r, r <> RBP \/ rbp_saved f = false -> regs s' r = regs s r) /\
  (rbp_saved f = true -> regs s' RBP = rsp s - saved_size f /\ loadn 8 (mem s') (regs s' RBP) = regs s RBP mod word) /\
  (forall i r, callee_saves (used f) !! i = Some r -> loadn 8 (mem s') (rsp s - 8 * (Z.of_nat i + 1)) = regs s r mod word).
Proof.
  intros Hf Hw. pose proof (total_nonneg f Hf Hw) as Ht. unfold prologue, saved_size.
  rewrite !run_app. destruct (pushes (callee_saves (used f)) s) as (P1 & P2 & P3 & P4 & P5).
  set (s1 := run (map Push (callee_saves (used f))) s) in *. cbn zeta.
  rewrite sub_opt by lia. cbn [regs fregs rsp mem]. destruct (rbp_saved f) eqn:Er.
  - cbn [run fold_left exec regs fregs rsp mem]. split_and!.
    + done.
    + lia.
    + intros a Ha. rewrite storen_out by lia. apply P4. lia.
    + intros r [Hr|Hr]; [|done]. by rewrite upd_ne, P1.
    + intros _. rewrite upd_eq. split; [lia|]. rewrite loadn_store by lia. by rewrite word_eq, P1.
    + intros i r Hi. rewrite loadn_apart; [by apply P5|]. apply lookup_lt_Some in Hi. unfold apart. lia.
  - cbn [run fold_left]. split_and!.
    + done.
    + lia.
    + intros a Ha. apply P4. lia.
    + intros r _. by rewrite P1.
    + done.
    + intros i r Hi. by apply P5.
Qed.

(** ** The whole function *)

Lemma epilogue_ok f s s2 : 0 <= fsize f -> 0 <= work f -> state_ok s -> keeps f s (run (prologue f) s) s2 ->
  let s3 := run (epilogue f) s2 in
  rsp s3 = rsp s /\ (forall r, r ∈ callee_save_regs -> regs s3 r = regs s r) /\
  mem s3 = mem s2 /\ loadn 8 (mem s3) (rsp s3) = loadn 8 (mem s) (rsp s) /\
  fregs s3 = fregs s2 /\ (forall r, r ∉ callee_save_regs -> regs s3 r = regs s2 r).
Proof.
  intros Hf Hw [Hs _] (K1 & K2 & K3). destruct (prologue_ok f s Hf Hw) as (P1 & P2 & P3 & P4 & P5 & P6).
  set (s1 := run (prologue f) s) in *. unfold epilogue. rewrite run_app. cbn zeta.
  assert (Hmod : forall r, regs s r mod word = regs s r) by (intros; by apply Z.mod_small).
  set (rs := callee_saves (used f)) in *.
  set (s' := run (if rbp_saved f then _ else _) s2).
  assert (B : rsp s' = rsp s - Z.of_nat (length rs) * 8 /\ mem s' = mem s2 /\ fregs s' = fregs s2 /\
    (forall r, r <> RBP -> regs s' r = regs s2 r) /\ (regs s' RBP = regs s RBP \/ used f RBP = true)).
  { unfold s', saved_size in *. fold rs in K2, P2, P3, P5. destruct (rbp_saved f) eqn:Er.
    - destruct (P5 eq_refl) as [Q1 Q2]. cbn [run fold_left exec regs fregs rsp mem]. rewrite K1. split_and!; try done; [lia| |].
      + intros r Hr. by rewrite upd_ne.
      + left. rewrite upd_eq. rewrite <- (Hmod RBP), <- Q2. apply loadn_ext. intros a Ha. apply K2. lia.
    - assert (Hr : regs s2 RBP = regs s RBP \/ used f RBP = true).
      { destruct (used f RBP) eqn:Eu; [by right|left]. rewrite K3; [|by do 5 right; left|done]. apply P4. by right. }
      pose proof (total_nonneg f Hf Hw). destruct (0 <? total_size f) eqn:E.
      + cbn [run fold_left exec regs fregs rsp mem]. rewrite K1. split_and!; try done. lia.
      + apply Z.ltb_ge in E. cbn [run fold_left]. rewrite K1. split_and!; try done. lia. }
  destruct B as (B1 & B2 & B3 & B4 & B5).
  destruct (pops rs (regs s) s') as (Q1 & Q2 & Q3 & Q4 & Q5).
  { apply callee_saves_nodup. }
  { intros i r Hi. rewrite <- (Hmod r), <- (P6 i r Hi), B1, B2. pose proof (lookup_lt_Some _ _ _ Hi).
    replace (rsp s - Z.of_nat (length rs) * 8 + 8 * (Z.of_nat (length rs) - 1 - Z.of_nat i)) with (rsp s - 8 * (Z.of_nat i + 1)) by lia.
    apply loadn_ext. intros a Ha. apply K2. unfold saved_size. fold rs. destruct (rbp_saved f); lia. }
  cbn zeta in Q1, Q2, Q3, Q4, Q5. split_and!.
  - lia.
  - intros r Hr. destruct (used f r) eqn:Eu.
    + apply Q4. by apply callee_saves_in.
    + rewrite Q5 by (intros Hi; apply callee_saves_in in Hi as [_ ?]; congruence).
      destruct (decide (r = RBP)) as [->|Hn]; [destruct B5; congruence|].
      rewrite B4, K3 by done. apply P4. by left.
  - by rewrite Q2.
  - rewrite Q1, Q2, B1, B2. replace (rsp s - Z.of_nat (length rs) * 8 + Z.of_nat (length rs) * 8) with (rsp s) by lia.
    apply loadn_ext. intros a Ha. rewrite K2 by (unfold saved_size; destruct (rbp_saved f); lia). apply P3. by right; lia.
  - by rewrite Q3.
  - intros r Hr. rewrite Q5 by (intros Hi; apply callee_saves_in in Hi; tauto). apply B4. intros ->. apply Hr. by do 5 right; left.
Qed.

Lemma aligned_ok f s : 0 <= fsize f -> 0 <= work f -> calls f = true -> rsp s mod 16 = 8 -> rsp (run (prologue f) s) mod 16 = 0.
Proof.
  intros Hf Hw Hc Hs. destruct (prologue_ok f s Hf Hw) as (_ & -> & _). unfold saved_size, total_size. rewrite Hc.
  set (c := Z.of_nat (length (callee_saves (used f)))). set (o := if rbp_saved f then 0 else 8).
  change 15 with (Z.ones 4). rewrite Z.land_ones by lia. change (2 ^ 4) with 16.
  set (y := fsize f + work f). pose proof (Z.div_mod (- (y + c * 8 + o)) 16 ltac:(lia)) as E.
  pose proof (Z.div_mod (rsp s) 16 ltac:(lia)) as E2. rewrite Hs in E2.
  set (q := (- (y + c * 8 + o)) / 16) in *. set (p := rsp s / 16) in *.
  assert (G : exists z, rsp s - (c * 8 + (if rbp_saved f then 8 else 0)) - (y + (- (y + c * 8 + o)) mod 16) = z * 16).
  { unfold o in *. destruct (rbp_saved f).
    - exists (p + q). lia.
    - exists (p + q + 1). lia. }
  destruct G as [z ->]. apply Z.mod_mul. lia.
Qed.
