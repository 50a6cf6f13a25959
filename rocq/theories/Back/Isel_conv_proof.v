(** Conversions between integers and floating-point numbers. *)
From stdpp Require Import base numbers list sets.
From Coq Require Import Lia.
From Verif Require Import Back.Isel_model Back.Isel_spec Back.Isel_proof Back.Isel_ops_proof.
Open Scope Z_scope.

Lemma pow_split a b : 0 <= b <= a -> 2 ^ a = 2 ^ (a - b) * 2 ^ b.
Proof. intros H. rewrite <- Z.pow_add_r by lia. f_equal. lia. Qed.
Lemma pow_pos a : 0 <= a -> 0 < 2 ^ a.
Proof. intros H. apply Z.pow_pos_nonneg; lia. Qed.

Lemma rep_multiple p e u : 0 < p -> 0 <= e -> representable p u -> 2 ^ (p - 1 + e) <= u -> exists t, u = t * 2 ^ e.
Proof.
  intros Hp He (m & k & Hk & Hm & ->) Hu. destruct (Z.le_gt_cases e k) as [Hle|Hgt].
  - exists (m * 2 ^ (k - e)). rewrite (pow_split k e) by lia. lia.
  - exfalso. pose proof (pow_pos k Hk) as P1.
    assert (2 ^ (p - 1 + e) = 2 ^ (e - k - 1) * 2 ^ p * 2 ^ k) as E.
    { rewrite <- !Z.pow_add_r by lia. f_equal. lia. }
    pose proof (pow_pos (e - k - 1) ltac:(lia)) as P2. pose proof (pow_pos p ltac:(lia)) as P3.
    assert (m < 2 ^ p) as Hm' by lia. rewrite E in Hu.
    assert (2 ^ p * 2 ^ k <= 2 ^ (e - k - 1) * 2 ^ p * 2 ^ k) by (rewrite <- Z.mul_assoc; nia).
    assert (m * 2 ^ k < 2 ^ p * 2 ^ k) by (by apply Z.mul_lt_mono_pos_r). lia.
Qed.
Lemma rep_neg p u : representable p u -> representable p (- u).
Proof. intros (m & e & He & Hm & ->). exists (- m), e. split_and!; [done|rewrite Z.abs_opp; done|lia]. Qed.
Lemma neighbour_neg p z v : neighbour p z v -> neighbour p (- z) (- v).
Proof.
  intros [H1 H2]. split; [by apply rep_neg|]. intros u Hu. destruct (H2 (- u) (rep_neg p u Hu)). split; lia.
Qed.
Lemma neighbour_self p z : 0 < p -> Z.abs z < 2 ^ p -> neighbour p z z.
Proof. intros Hp Hz. split; [exists z, 0; split_and!; [lia|done|lia]|]. intros u _. lia. Qed.
Lemma gap E q t : 0 < E -> q * E < t * E -> t * E < (q + 1) * E -> False.
Proof. intros H H1%Z.mul_lt_mono_pos_r H2%Z.mul_lt_mono_pos_r; lia. Qed.
Lemma nb_core p e q z : 0 < p -> 0 <= e -> 2 ^ (p - 1) <= q < 2 ^ p -> q * 2 ^ e <= z < (q + 1) * 2 ^ e ->
  neighbour p z (q * 2 ^ e) /\ (q * 2 ^ e < z -> neighbour p z ((q + 1) * 2 ^ e)).
Proof.
  intros Hp He Hq Hz. pose proof (pow_pos e He) as PE. pose proof (pow_pos (p - 1) ltac:(lia)) as PP.
  assert (2 ^ (p - 1 + e) <= q * 2 ^ e) as Hlow by (rewrite Z.pow_add_r by lia; nia).
  split; [|intros Hlt]; split.
  - exists q, e. split_and!; [done|lia|done].
  - intros u Hu. split; [|lia]. intros [H1 H2]. destruct (rep_multiple p e u Hp He Hu ltac:(lia)) as [t ->]. apply (gap (2 ^ e) q t); lia.
  - destruct (Z.eq_dec (q + 1) (2 ^ p)) as [E|E].
    + exists 1, (p + e). split_and!; [lia| |].
      * change (Z.abs 1) with (2 ^ 0). apply Z.pow_lt_mono_r; lia.
      * rewrite E, Z.pow_add_r by lia. lia.
    + exists (q + 1), e. split_and!; [done|lia|done].
  - intros u Hu. split; [lia|]. intros [H1 H2]. destruct (rep_multiple p e u Hp He Hu ltac:(lia)) as [t ->]. apply (gap (2 ^ e) q t); lia.
Qed.

Lemma rnd_shape p a : 0 < p -> 2 ^ p <= a ->
  let e := Z.log2 a - p + 1 in let q := a / 2 ^ e in
  1 <= e /\ 2 ^ (p - 1) <= q < 2 ^ p /\ q * 2 ^ e <= a < (q + 1) * 2 ^ e /\
  (rnd p a = Fin q e \/ (rnd p a = Fin (q + 1) e /\ q * 2 ^ e < a)).
Proof.
  intros Hp Ha e q. pose proof (pow_pos p ltac:(lia)) as PP.
  assert (0 < a) as Ha0 by lia. pose proof (Z.log2_spec a Ha0) as Hl.
  assert (p <= Z.log2 a) as Hpl by (apply Z.log2_le_pow2; lia).
  assert (1 <= e) as He by (unfold e; lia). pose proof (pow_pos e ltac:(lia)) as PE.
  pose proof (Z.div_mod a (2 ^ e) ltac:(lia)) as Hdm. pose proof (Z.mod_pos_bound a (2 ^ e) PE) as Hmb. fold q in Hdm.
  split; [done|]. split; [|split].
  - replace (Z.log2 a) with (p - 1 + e) in Hl by (unfold e; lia).
    replace (Z.succ (p - 1 + e)) with (p + e) in Hl by lia. rewrite !Z.pow_add_r in Hl by lia.
    split.
    + apply Z.div_le_lower_bound; lia.
    + apply Z.div_lt_upper_bound; lia.
  - lia.
  - unfold rnd. rewrite (Z.abs_eq a) by lia. rewrite (proj2 (Z.ltb_ge a (2 ^ p)) Ha). cbv zeta. fold e. fold q.
    rewrite (Z.sgn_pos a Ha0), Z.mul_1_l.
    destruct ((2 ^ (e - 1) <? a mod 2 ^ e) || ((2 ^ (e - 1) =? a mod 2 ^ e) && Z.odd q)) eqn:E; [right|by left].
    split; [done|]. pose proof (pow_pos (e - 1) ltac:(lia)).
    apply orb_prop in E as [E|E]; [apply Z.ltb_lt in E|apply andb_prop in E as [E _]; apply Z.eqb_eq in E]; lia.
Qed.
Lemma rnd_neg p z : rnd p (- z) = match rnd p z with Fin m e => Fin (- m) e | f => f end.
Proof.
  unfold rnd. rewrite Z.abs_opp. destruct (Z.abs z <? 2 ^ p); [done|]. cbv zeta. rewrite Z.sgn_opp. f_equal. lia.
Qed.
Lemma rnd_ok p z : 0 < p -> exists v, is_int (rnd p z) v /\ neighbour p z v.
Proof.
  intros Hp.
  assert (forall z, 0 <= z -> exists v, is_int (rnd p z) v /\ neighbour p z v) as Hpos.
  { clear z. intros z Hz. destruct (Z.lt_ge_cases z (2 ^ p)) as [Hlt|Hge].
    - exists z. split; [|apply neighbour_self; [done|lia]]. exists z, 0. split_and!; [|lia|lia].
      unfold rnd. by rewrite (proj2 (Z.ltb_lt (Z.abs z) (2 ^ p)) ltac:(lia)).
    - destruct (rnd_shape p z Hp Hge) as (He & Hq & Hr & Hs).
      set (e := Z.log2 z - p + 1) in *. set (q := z / 2 ^ e) in *. destruct (nb_core p e q z Hp ltac:(lia) Hq Hr) as [N1 N2].
      destruct Hs as [Hs|[Hs Hlt]]; rewrite Hs; eexists; (split; [eexists _, _; split; [reflexivity|split; [lia|reflexivity]]|]); auto. }
  destruct (Z.le_gt_cases 0 z) as [Hz|Hz]; [by apply Hpos|].
  destruct (Hpos (- z) ltac:(lia)) as (v & (m & e & Hf & He & Hv) & Hn).
  exists (- v). split.
  - exists (- m), e. split_and!; [|done|lia]. rewrite <- (Z.opp_involutive z), rnd_neg, Hf. done.
  - rewrite <- (Z.opp_involutive z). by apply neighbour_neg.
Qed.
Lemma rnd_half p z : 0 < p <= 62 -> 2 ^ 63 <= z < 2 ^ 64 ->
  exists m e, rnd p (z / 2) = Fin m e /\ 0 <= e /\ neighbour p z (m * 2 ^ (e + 1)).
Proof.
  intros Hp Hz. assert (2 ^ p <= z / 2) as Hge.
  { apply Z.div_le_lower_bound; [lia|]. pose proof (Z.pow_le_mono_r 2 p 62 ltac:(lia) ltac:(lia)). lia. }
  destruct (rnd_shape p (z / 2) ltac:(lia) Hge) as (He & Hq & Hr & Hs).
  set (e := Z.log2 (z / 2) - p + 1) in *. set (q := (z / 2) / 2 ^ e) in *. cbv zeta in *.
  assert (2 ^ (e + 1) = 2 ^ e * 2) as E by (rewrite Z.pow_add_r by lia; done).
  pose proof (Z.div_mod z 2 ltac:(lia)) as D. pose proof (Z.mod_pos_bound z 2 ltac:(lia)) as M.
  destruct (nb_core p (e + 1) q z ltac:(lia) ltac:(lia) Hq ltac:(rewrite E; lia)) as [N1 N2].
  destruct Hs as [Hs|[Hs Hlt]]; rewrite Hs; eexists _, _; (split; [reflexivity|]); (split; [lia|]); [done|].
  apply N2. rewrite E. lia.
Qed.

Lemma low_setr3 d v s r : low 3 (regs (setr 3 d v s) r) = if Nat.eqb r d then low 3 v else low 3 (regs s r).
Proof. rewrite regs_setr. case_match; [apply low_wr|done]. Qed.
Lemma low_nested j k v : (j <= k)%nat -> low j (low k v) = low j v.
Proof.
  intros H. unfold low. replace (2 ^ bits k) with (2 ^ bits j * 2 ^ (bits k - bits j)).
  - apply mod_mod_divide; [apply pow_bits_pos|]. apply pow_pos. unfold bits.
    pose proof (Z.pow_le_mono_r 2 (Z.of_nat j) (Z.of_nat k)). lia.
  - unfold bits. pose proof (Z.pow_le_mono_r 2 (Z.of_nat j) (Z.of_nat k)). pose proof (Z.pow_nonneg 2 (Z.of_nat j)).
    rewrite <- Z.pow_add_r by lia. f_equal. lia.
Qed.
Lemma sgn_small k v : (1 <= bits k) -> 0 <= v < 2 ^ (bits k - 1) -> sgn k v = v.
Proof.
  intros Hk Hv. assert (low k v = v) as E.
  { unfold low. apply Z.mod_small. pose proof (Z.pow_le_mono_r 2 (bits k - 1) (bits k)). lia. }
  unfold sgn. cbv zeta. rewrite E. by rewrite (proj2 (Z.ltb_lt v (2 ^ (bits k - 1))) ltac:(lia)).
Qed.

Lemma run_test p l s : run 0 (ITest 3 (Reg p) p :: l) s = run 0 l (setfl (testflags 3 (Z.land (low 3 (regs s p)) (low 3 (regs s p)))) s).
Proof. done. Qed.
Lemma run_jcc c n l s b : evalcc c s = Some b -> run 0 (IJcc c n :: l) s = run (if b : bool then n else 0%nat) l s.
Proof. intros H. simpl. by rewrite H. Qed.

Definition plain (i : inst) : Prop := match i with IJcc _ _ | IJmp _ | IJto _ => False | _ => True end.
Lemma run_cons i l s s' : plain i -> step i s = Some s' -> run 0 (i :: l) s = run 0 l s'.
Proof. intros Hp Hs. destruct i; try done; cbn [run]; by rewrite Hs. Qed.
Lemma half_ok prec p d s x : 0 < prec <= 62 -> low 3 (regs s p) = x -> 2 ^ 63 <= x ->
  exists s' v, run 0 [IPush AREG; IMov 3 (Reg p) AREG; IShr 3 (Some 1) AREG; ICvtsi2f prec 3 AREG d; IFdouble d; IPop AREG] s = Some (false, s') /\
  is_int (fregs s' d) v /\ neighbour prec x v /\ (forall r, low 3 (regs s' r) = low 3 (regs s r)) /\
  (forall f, f <> d -> fregs s' f = fregs s f) /\ stk s' = stk s.
Proof.
  intros Hp Hx Hge. pose proof (low_range 3 (regs s p)) as Hr. change (bits 3) with 64 in Hr. rewrite Hx in Hr.
  destruct (rnd_half prec x Hp ltac:(lia)) as (m & e & Hf & He & Hn).
  set (s1 := St (regs s) (fregs s) (getr 3 AREG s :: stk s) (fla s)).
  set (s2 := setr 3 AREG x s1). set (s3 := unk (setr 3 AREG (x / 2) s2)).
  set (s4 := setf d (Fin m e) s3). set (s5 := setf d (Fin m (e + 1)) s4).
  set (s6 := setr 3 AREG (getr 3 AREG s) (St (regs s5) (fregs s5) (stk s) (fla s5))).
  assert (0 <= x / 2 < 2 ^ 63) as Hh by (split; [apply Z.div_pos; lia|apply Z.div_lt_upper_bound; lia]).
  rewrite (run_cons _ _ s s1) by done.
  rewrite (run_cons _ _ s1 s2); [|done|cbn [step gets mbind option_bind]; unfold getr, s1 at 1; cbn [regs]; by rewrite Hx].
  rewrite (run_cons _ _ s2 s3); [|done|].
  2:{ cbn [step]. unfold s3, shcount. do 3 f_equal. change (1 mod (if Nat.eqb 3 3 then 64 else 32)) with 1. change (2 ^ 1) with 2.
      f_equal. unfold getr, s2. rewrite low_setr. rewrite <- Hx. apply low_low. }
  rewrite (run_cons _ _ s3 s4); [|done|].
  2:{ cbn [step]. unfold s4. do 2 f_equal. rewrite <- Hf. f_equal. unfold s3, unk. cbn [regs]. rewrite regs_setr, Nat.eqb_refl. cbn [wr].
      rewrite sgn_low. apply sgn_small; [vm_compute; congruence|]. change (bits 3 - 1) with 63. lia. }
  rewrite (run_cons _ _ s4 s5); [|done|cbn [step]; unfold s4 at 1; cbn [setf fregs]; by rewrite upd_same].
  rewrite (run_cons _ _ s5 s6) by done.
  exists s6, (m * 2 ^ (e + 1)). split; [done|]. split_and!.
  - exists m, (e + 1). split_and!; [|lia|done]. unfold s6, s5. cbn [setr setf fregs]. by rewrite upd_same.
  - done.
  - intros r. unfold s6. rewrite low_setr3. case_match eqn:Er.
    + apply Nat.eqb_eq in Er as ->. unfold getr. apply low_low.
    + apply Nat.eqb_neq in Er. cbn [regs]. unfold s5, s4, s3, unk, setf. cbn [regs]. rewrite setr_other by done. unfold s2. by rewrite setr_other.
  - intros f Hfd. unfold s6, s5, s4, s3, unk, s2. cbn [setr setf fregs]. by rewrite !upd_other by done.
  - done.
Qed.
Lemma i2f_ok uns prec ss p d s : 0 < prec <= 62 -> (ss < 4)%nat ->
  (uns = true -> ss = 2%nat -> regs s p mod 2 ^ 64 < 2 ^ 32) ->
  exists s' v, run 0 (emit_i2f uns prec ss p d) s = Some (false, s') /\
  is_int (fregs s' d) v /\ neighbour prec (number uns (bits ss) (low ss (regs s p))) v /\
  low ss (regs s' p) = low ss (regs s p) /\
  (forall r, r <> p -> low 3 (regs s' r) = low 3 (regs s r)) /\
  (forall f, f <> d -> fregs s' f = fregs s f) /\ stk s' = stk s.
Proof.
  intros Hp Hss Hu.
  assert (forall i z s1, (forall l s, run 0 (i :: l) s = (s' ← step i s; run 0 l s')) ->
    step i s = Some s1 -> fregs s1 = fregs s -> stk s1 = stk s -> low ss (regs s1 p) = low ss (regs s p) ->
    (forall r, r <> p -> low 3 (regs s1 r) = low 3 (regs s r)) ->
    forall k, sgn k (regs s1 p) = z -> number uns (bits ss) (low ss (regs s p)) = z ->
    exists s' v, run 0 [i; ICvtsi2f prec k p d] s = Some (false, s') /\
      is_int (fregs s' d) v /\ neighbour prec (number uns (bits ss) (low ss (regs s p))) v /\
      low ss (regs s' p) = low ss (regs s p) /\
      (forall r, r <> p -> low 3 (regs s' r) = low 3 (regs s r)) /\
      (forall f, f <> d -> fregs s' f = fregs s f) /\ stk s' = stk s) as Hext.
  { intros i z s1 Hrun Hs1 Hf Hk Hl Hr k Hz Hn.
    rewrite Hrun, Hs1. cbn [mbind option_bind run step]. destruct (rnd_ok prec z ltac:(lia)) as (v & Hi & Hv).
    eexists _, v. split; [reflexivity|]. cbn [setf regs fregs stk]. rewrite upd_same, Hz, Hn.
    split_and!; try done. intros f Hfd. rewrite upd_other by done. by rewrite Hf. }
  assert (forall k z, sgn k (regs s p) = z -> number uns (bits ss) (low ss (regs s p)) = z ->
    exists s' v, run 0 [ICvtsi2f prec k p d] s = Some (false, s') /\
      is_int (fregs s' d) v /\ neighbour prec (number uns (bits ss) (low ss (regs s p))) v /\
      low ss (regs s' p) = low ss (regs s p) /\
      (forall r, r <> p -> low 3 (regs s' r) = low 3 (regs s r)) /\
      (forall f, f <> d -> fregs s' f = fregs s f) /\ stk s' = stk s) as Hone.
  { intros k z Hz Hn. cbn [mbind option_bind run step]. destruct (rnd_ok prec z ltac:(lia)) as (v & Hi & Hv).
    eexists _, v. split; [reflexivity|]. cbn [setf regs fregs stk]. rewrite upd_same, Hz, Hn.
    split_and!; try done. intros f Hfd. by rewrite upd_other. }
  unfold emit_i2f. destruct (Nat.ltb ss 2) eqn:E2.
  - apply Nat.ltb_lt in E2. rewrite Nat.max_r by lia. cbn [app]. pose proof (low_range ss (regs s p)) as Hr.
    assert (2 ^ bits ss <= 2 ^ 16) as H16 by (destruct ss as [|[|?]]; [vm_compute; congruence|vm_compute; congruence|lia]).
    destruct uns; cbn [negb].
    + change (Nat.ltb 2 3) with true. cbv iota.
      eapply (Hext _ (number true (bits ss) (low ss (regs s p))) (setr 2 p (getr ss p s) s)); try done.
      * rewrite regs_setr, Nat.eqb_refl. unfold wr, getr. rewrite (low_nested ss 2) by lia. apply low_low.
      * intros r Hr'. by rewrite setr_other.
      * rewrite regs_setr, Nat.eqb_refl. unfold wr, getr.
        assert (low 2 (low ss (regs s p)) = low ss (regs s p)) as ->.
        { unfold low at 1. apply Z.mod_small. change (2 ^ bits 2) with (2 ^ 32). lia. }
        cbn [number]. apply sgn_small; [vm_compute; congruence|]. change (bits 3 - 1) with 63. lia.
    + eapply (Hext _ (number false (bits ss) (low ss (regs s p))) (setr 2 p (sgn ss (regs s p)) s)); try done.
      * rewrite regs_setr, Nat.eqb_refl. unfold wr. rewrite (low_nested ss 2) by lia. apply low_sgn.
      * intros r Hr'. by rewrite setr_other.
      * rewrite regs_setr, Nat.eqb_refl. unfold wr. rewrite sgn_low.
        pose proof (signed_range ss (regs s p) ltac:(lia)) as Hg.
        assert (2 ^ (bits ss - 1) <= 2 ^ 15) as H15 by (destruct ss as [|[|?]]; [vm_compute; congruence|vm_compute; congruence|lia]).
        cbn [number]. rewrite <- (sgn_signed ss (regs s p)). set (x := sgn ss (regs s p)) in *. unfold sgn. cbv zeta.
        unfold low. change (2 ^ bits 2) with (2 ^ 32). change (bits 2 - 1) with 31.
        destruct (Z.le_gt_cases 0 x) as [H0|H0].
        -- rewrite Z.mod_small by lia. by rewrite (proj2 (Z.ltb_lt x (2 ^ 31)) ltac:(lia)).
        -- replace (x mod 2 ^ 32) with (x + 2 ^ 32).
           2:{ rewrite <- (Z.mod_add x 1 (2 ^ 32)) by lia. rewrite Z.mod_small by lia. lia. }
           rewrite (proj2 (Z.ltb_ge (x + 2 ^ 32) (2 ^ 31)) ltac:(lia)). lia.
  - apply Nat.ltb_ge in E2. rewrite Nat.max_l by lia. cbn [app]. destruct uns; cbn [negb].
    2:{ by eapply Hone. }
    destruct (Nat.ltb ss 3) eqn:E3.
    + apply Nat.ltb_lt in E3. assert (ss = 2%nat) as -> by lia. specialize (Hu eq_refl eq_refl).
      pose proof (Z.mod_pos_bound (regs s p) (2 ^ 64) ltac:(lia)) as Hb.
      assert (low 3 (regs s p) = low 2 (regs s p)) as E.
      { rewrite <- (low_nested 2 3) by lia. unfold low at 2. rewrite Z.mod_small; [done|].
        change (2 ^ bits 2) with (2 ^ 32). unfold low. change (bits 3) with 64. lia. }
      eapply Hone; [|done]. rewrite <- sgn_low, E. apply sgn_small; [vm_compute; congruence|].
      pose proof (low_range 2 (regs s p)) as Hr. change (2 ^ bits 2) with (2 ^ 32) in Hr. change (bits 3 - 1) with 63. lia.
    + apply Nat.ltb_ge in E3. assert (ss = 3%nat) as -> by lia. clear Hu Hone Hext.
      pose proof (low_range 3 (regs s p)) as Hr. change (bits 3) with 64 in Hr.
      set (x := low 3 (regs s p)) in *.
      rewrite run_test. fold x. rewrite Z.land_diag. erewrite run_jcc; [|reflexivity].
      cbn [cceval sf testflags]. change (bits 3 - 1) with 63.
      destruct (2 ^ 63 <=? x) eqn:Eg.
      * apply Z.leb_le in Eg. cbn [run].
        destruct (half_ok prec p d (setfl (testflags 3 x) s) x Hp eq_refl Eg) as (s' & v & H1 & H2 & H3 & H4 & H5 & H6).
        exists s', v. split; [exact H1|]. split_and!; try done; [unfold x; apply H4|intros r _; apply H4].
      * apply Z.leb_gt in Eg. rewrite (run_cons _ _ _ (setf d (rnd prec (sgn 3 (regs s p))) (setfl (testflags 3 x) s))) by done. cbn [run].
        assert (sgn 3 (regs s p) = x) as E1.
        { rewrite <- sgn_low. fold x. apply sgn_small; [vm_compute; congruence|]. change (bits 3 - 1) with 63. lia. }
        destruct (rnd_ok prec x ltac:(lia)) as (v & Hi & Hv). rewrite E1.
        eexists _, v. split; [reflexivity|]. cbn [setf setfl regs fregs stk]. rewrite upd_same. split_and!; try done.
        intros f Hfd. by rewrite upd_other.
Qed.

Lemma trunc_ok m e z : truncated (Fin m e) z -> ftrunc m e = z.
Proof.
  intros (m' & e' & Hf & H1 & H2). injection Hf as <- <-. unfold ftrunc. destruct (0 <=? e) eqn:E.
  - apply Z.leb_le in E. symmetry. by apply H1.
  - apply Z.leb_gt in E. destruct (H2 E) as (A & B & C). pose proof (pow_pos (- e) ltac:(lia)) as P. set (D := 2 ^ - e) in *.
    destruct (Z.le_gt_cases 0 m) as [Hm|Hm].
    + rewrite Z.quot_div_nonneg by lia. symmetry. apply (Z.div_unique_pos m D z (m - z * D)); [|lia].
      destruct (Z.eq_dec m 0) as [->|]; [nia|]. assert (0 <= z) by nia. nia.
    + rewrite <- (Z.opp_involutive m), Z.quot_opp_l by lia. rewrite Z.quot_div_nonneg by lia.
      assert (z <= 0) by nia. assert (- z = - m / D); [|lia]. apply (Z.div_unique_pos (- m) D (- z) (- m + z * D)); [|lia]. nia.
Qed.
Lemma f2i_ok uns sd f d s z : (sd < 4)%nat -> truncated (fregs s f) z -> in_range uns (bits sd) z = true ->
  (uns = true -> (2 <= sd)%nat -> z < 2 ^ (bits sd - 1)) ->
  exists s', run 0 (emit_f2i sd f d) s = Some (false, s') /\ low sd (regs s' d) = z mod 2 ^ bits sd /\
  (forall r, r <> d -> regs s' r = regs s r) /\ fregs s' = fregs s /\ stk s' = stk s.
Proof.
  intros Hsd Ht Hr Hu. unfold emit_f2i. pose proof Ht as (m & e & Hf & _). rewrite Hf in Ht. apply trunc_ok in Ht.
  assert (- 2 ^ (bits (Nat.max sd 2) - 1) <= z < 2 ^ (bits (Nat.max sd 2) - 1)) as HR.
  { unfold in_range in Hr. destruct uns; apply andb_prop in Hr as [Ha Hb]; apply Z.leb_le in Ha; apply Z.ltb_lt in Hb.
    - destruct (Nat.le_gt_cases 2 sd) as [H2|H2].
      + rewrite Nat.max_l by done. specialize (Hu eq_refl H2). pose proof (pow_bits_pos sd). pose proof (pow_pos (bits sd - 1)).
        assert (1 <= bits sd) by (destruct sd as [|[|[|[|?]]]]; try lia; vm_compute; congruence). lia.
      + rewrite Nat.max_r by lia. change (bits 2 - 1) with 31. destruct sd as [|[|?]]; [| |lia].
        * change (bits 0) with 8 in Hb. lia.
        * change (bits 1) with 16 in Hb. lia.
    - destruct sd as [|[|[|[|?]]]]; [..|lia].
      + change (bits 0 - 1) with 7 in *. change (bits (Nat.max 0 2) - 1) with 31. lia.
      + change (bits 1 - 1) with 15 in *. change (bits (Nat.max 1 2) - 1) with 31. lia.
      + done.
      + done. }
  rewrite (run_cons _ _ s (setr (Nat.max sd 2) d z s)); [|done|].
  2:{ cbn [step]. rewrite Hf. cbv zeta. rewrite Ht.
      by rewrite (proj2 (Z.ltb_ge z _) ltac:(apply HR)), (proj2 (Z.leb_gt _ z) ltac:(apply HR)). }
  eexists. split; [reflexivity|].
  split_and!; [|intros r Hne; by rewrite setr_other|done|done].
  rewrite <- (low_nested sd (Nat.max sd 2)) by lia. rewrite low_setr. rewrite low_nested by lia. done.
Qed.

(** The upper half is not cleared by a cast. *)
Lemma u32_bad : exists s p d c s' v, emit_cast true 2 p (OReg 3 p) = Some c /\
  run 0 (c ++ emit_i2f true 53 2 p d) s = Some (false, s') /\ is_int (fregs s' d) v /\
  ~ neighbour 53 (number true 32 (regs s p mod 2 ^ 32)) v.
Proof.
  exists (St (fun _ => 2 ^ 32 + 1) (fun _ => NaN) [] None), 0%nat, 0%nat, [].
  eexists _, (2 ^ 32 + 1). split; [done|]. split; [reflexivity|]. split.
  - exists (2 ^ 32 + 1), 0. split_and!; [vm_compute; done|lia|done].
  - intros [_ H]. destruct (H 1) as [_ H2]; [exists 1, 0; split_and!; [lia|vm_compute; done|done]|].
    apply H2. vm_compute. split; congruence.
Qed.
Lemma f2u_bad : exists s f d z sd s', truncated (fregs s f) z /\ in_range true (bits sd) z = true /\
  run 0 (emit_f2i sd f d) s = Some (false, s') /\ low sd (regs s' d) <> z mod 2 ^ bits sd.
Proof.
  exists (St (fun _ => 0) (fun _ => Fin 3000000000 0) [] None), 0%nat, 0%nat, 3000000000, 2%nat.
  eexists. split; [|split; [vm_compute; done|split; [reflexivity|vm_compute; congruence]]].
  exists 3000000000, 0. split; [done|]. split; intros; lia.
Qed.
Lemma f2ul_bad : exists s f d z s', truncated (fregs s f) z /\ in_range true 64 z = true /\
  run 0 (emit_f2i 3 f d) s = Some (false, s') /\ low 3 (regs s' d) <> z mod 2 ^ 64.
Proof.
  exists (St (fun _ => 0) (fun _ => Fin 10000000000000000000 0) [] None), 0%nat, 0%nat, 10000000000000000000.
  eexists. split; [|split; [vm_compute; done|split; [reflexivity|vm_compute; congruence]]].
  exists 10000000000000000000, 0. split; [done|]. split; intros; lia.
Qed.
