(** Preservation of the invariant by malloc, realloc and the client's writes. *)
From stdpp Require Import base list numbers list_numbers gmap.
From Coq Require Import Lia ZArith Bool.
From Verif Require Import Lib.Malloc_model Lib.Malloc_proof.
Local Open Scope Z_scope.

Lemma set_size_any s u k : mapped s u = true -> 0 <= k < 2^32 ->
  exists x, set_size s u k = Some (upd s u (Hdr x k)).
Proof. intros Hm Hk. unfold set_size. rewrite Hm, Z.mod_small by done. eauto. Qed.

Lemma inv_range s rest live (I : Inv s rest live) : hi s < 2^32 + lo s.
Proof.
  pose proof (inv_hi_limit _ _ _ I). destruct (i_lim _ _ _ I) as (? & ? & ? & ?).
  assert ((limit s - start s) / 16 < 2^32) by (apply Z.div_lt_upper_bound; lia). lia.
Qed.

(** Units outside the free list keep their contents. *)
Definition keeps (s s' : st) (rest : list block) : Prop :=
  forall u, u <> base s -> u ∉ all_units rest -> u < hi s -> mem s' !! u = mem s !! u.
Definition same_env (s s' : st) : Prop := base s' = base s /\ start s' = start s /\ limit s' = limit s.

(** Taking a block out of the free list. *)
Lemma found_step s R1 p n R2 live nu f (I : Inv s (R1 ++ (p, n) :: R2) live) : 1 <= nu -> nu <= n ->
  exists s' u rest', malloc_loop (S f) s (last_addr (base s) R1) p nu = Some (s', Some u) /\
    Inv s' rest' ((u, nu) :: live) /\ keeps s s' (R1 ++ (p, n) :: R2) /\ same_env s s' /\ cur s' = cur s.
Proof.
  intros Hnu Hn. destruct (last_split s R1) as (X & ps & EX & Hend & HX). set (prev := last_addr (base s) R1) in *.
  assert (EL : (base s, 0) :: R1 ++ (p, n) :: R2 = ((base s, 0) :: R1) ++ (p, n) :: R2) by done.
  pose proof (inv_get _ _ _ I _ _ _ _ EL) as Hgp.
  assert (Hpin : (p, n) ∈ R1 ++ (p, n) :: R2) by (apply elem_of_app; right; left).
  destruct (inv_rest _ _ _ I _ _ Hpin) as (Hp1 & Hp2 & Hp3).
  pose proof (inv_range _ _ _ I) as Hrange.
  assert (EL2 : (base s, 0) :: R1 ++ (p, n) :: R2 = X ++ (prev, ps) :: (p, n) :: R2).
  { rewrite EL, EX, <- app_assoc. done. }
  pose proof (inv_get _ _ _ I _ _ _ _ EL2) as Hgprev. cbn [hd_addr] in Hgprev.
  destruct (NoDup_addrs _ _ _ I _ _ _ _ EL) as [HpR1 HpR2].
  destruct (NoDup_addrs _ _ _ I _ _ _ _ EL2) as [HvX HvR2]. cbn [fmap list_fmap fst] in HvR2.
  apply not_elem_of_cons in HvR2 as [Hvp HvR2].
  pose proof (i_ring _ _ _ I) as Hring. rewrite EL2 in Hring. apply seg_app in Hring as [HgX Hring].
  cbn [hd_addr seg] in HgX, Hring. destruct Hring as (Hmv & Hmp & HgR2).
  pose proof (i_srt _ _ _ I) as Hsrt. apply srt_app in Hsrt as [HsR1 HsR2]. cbn in HsR2. destruct HsR2 as (Hs1 & Hs2 & Hs3).
  pose proof (i_tile _ _ _ I) as Htile.
  assert (Hbasep : base s < p).
  { pose proof (i_base _ _ _ I). lia. }
  (* headers of live blocks are elsewhere *)
  assert (Hlive : forall a k, (a, k) ∈ live -> a <> prev /\ (a < p \/ p + n <= a)).
  { intros a k Hin. destruct (inv_live _ _ _ I _ _ Hin) as (?&?&?). split.
    - destruct HX as [(-> & -> & ->)|(X' & -> & EX')].
      + unfold prev. cbn. pose proof (i_base _ _ _ I). lia.
      + assert (Hvin : (prev, ps) ∈ R1 ++ (p, n) :: R2) by (rewrite EX'; apply elem_of_app; left; apply elem_of_app; right; left).
        destruct (inv_rest _ _ _ I _ _ Hvin) as (?&?&?).
        destruct (inv_rest_live _ _ _ I _ _ _ _ Hvin Hin); lia.
    - destruct (inv_rest_live _ _ _ I _ _ _ _ Hpin Hin); lia. }
  assert (Hvu : prev = base s \/ prev ∈ all_units (R1 ++ (p, n) :: R2)).
  { destruct HX as [(-> & -> & ->)|(X' & -> & EX')]; [left; done|right].
    assert (Hvin : (prev, ps) ∈ R1 ++ (p, n) :: R2) by (rewrite EX'; apply elem_of_app; left; apply elem_of_app; right; left).
    destruct (inv_rest _ _ _ I _ _ Hvin) as (?&?&?).
    apply elem_all_units. exists (prev, ps). split; [done|]. apply elem_units. cbn. lia. }
  cbn [malloc_loop]. rewrite Hgp. cbn [mbind option_bind]. rewrite decide_True by done.
  destruct (decide (n = nu)) as [->|Hne].
  - rewrite (set_ptr_ok _ _ _ _ _ Hgprev). cbn [mbind option_bind].
    exists (set_freep (upd s prev (Hdr (hd_addr R2 (base s)) ps)) prev), p, (R1 ++ R2).
    split; [done|]. split; [|split; [|split; [done|done]]].
    + constructor; cbn [set_freep upd mem freep base start cur limit].
      * apply (i_al _ _ _ I).
      * apply (i_lim _ _ _ I).
      * apply (i_base _ _ _ I).
      * change ((base s, 0) :: R1 ++ R2) with (((base s, 0) :: R1) ++ R2). rewrite EX, <- app_assoc.
        apply seg_app. split; [rewrite seg_upd by done; exact HgX|].
        cbn [app seg hd_addr]. split; [by rewrite lookup_insert|]. rewrite seg_upd by done. exact HgR2.
      * apply srt_app. split; [done|]. eapply srt_weaken; [|exact Hs3]. lia.
      * change (lo (set_freep _ _)) with (lo s). change (hi (set_freep _ _)) with (hi s). rewrite <- Htile.
        apply all_units_perm. rewrite <- !app_assoc. apply Permutation_app_head. cbn. rewrite <- Permutation_middle. done.
      * change ((base s, 0) :: R1 ++ R2) with (((base s, 0) :: R1) ++ R2). rewrite EX, fmap_app, fmap_app.
        apply elem_of_app. left. apply elem_of_app. right. left.
      * apply List.Forall_cons.
        -- cbn. split; [lia|]. exists (hd_addr R2 (base s)). rewrite lookup_insert_ne by congruence. exact Hmp.
        -- apply Forall_forall. intros [a k] Hin. destruct (Hlive _ _ Hin) as [Ha _].
           destruct (proj1 (Forall_forall _ _) (i_live _ _ _ I) _ Hin) as [Hk [y Hy]]. cbn in *.
           split; [done|]. exists y. rewrite lookup_insert_ne by done. done.
    + intros u Hu1 Hu2 Hu3. cbn. apply lookup_insert_ne. intros <-. destruct Hvu; done.
  - rewrite (set_size_ok _ _ _ _ _ Hgp) by lia. cbn [mbind option_bind].
    rewrite get_upd. rewrite decide_True by done. rewrite (get_mapped _ _ _ Hgp). cbn [mbind option_bind].
    destruct (i_al _ _ _ I) as [Hal1 Hal2].
    destruct (set_size_any (upd s p (Hdr (hd_addr R2 (base s)) (n - nu))) (p + (n - nu)) nu) as [x Hx].
    { rewrite mapped_upd. apply mapped_in; [done|done|lia]. } { lia. }
    rewrite Hx. cbn [mbind option_bind].
    exists (set_freep (upd (upd s p (Hdr (hd_addr R2 (base s)) (n - nu))) (p + (n - nu)) (Hdr x nu)) prev), (p + (n - nu)),
      (R1 ++ (p, n - nu) :: R2).
    assert (HqX : p + (n - nu) ∉ ((base s, 0) :: R1).*1).
    { apply forall_notin. left. destruct (inv_split_gt _ _ _ I _ _ _ _ EL) as [_ H].
      eapply Forall_impl; [exact H|]. intros [] ?; cbn in *; lia. }
    assert (HqR2 : p + (n - nu) ∉ R2.*1).
    { apply forall_notin. right. apply srt_forall in Hs3. eapply Forall_impl; [exact Hs3|]. intros [] ?; cbn in *; lia. }
    split; [done|]. split; [|split; [|split; [done|done]]].
    + constructor; cbn [set_freep upd mem freep base start cur limit].
      * done.
      * apply (i_lim _ _ _ I).
      * apply (i_base _ _ _ I).
      * change ((base s, 0) :: R1 ++ (p, n - nu) :: R2) with (((base s, 0) :: R1) ++ (p, n - nu) :: R2).
        apply seg_app. split.
        -- rewrite seg_upd, seg_upd by done. cbn [hd_addr].
           pose proof (i_ring _ _ _ I) as Hring. rewrite EL in Hring. apply seg_app in Hring as [Hr _]. exact Hr.
        -- cbn [seg]. split.
           ++ rewrite lookup_insert_ne by lia. by rewrite lookup_insert.
           ++ rewrite seg_upd, seg_upd by done. exact HgR2.
      * apply srt_app. split; [done|]. cbn. split; [done|]. split; [lia|]. eapply srt_weaken; [|exact Hs3]. lia.
      * change (lo (set_freep _ _)) with (lo s). change (hi (set_freep _ _)) with (hi s). rewrite <- Htile.
        rewrite !all_units_app. cbn [all_units flat_map]. fold (all_units live). fold (all_units R2).
        replace (units (p, n)) with (units (p, n - nu) ++ units (p + (n - nu), nu)).
        2:{ rewrite <- units_split by lia. do 2 f_equal. lia. }
        rewrite <- !app_assoc. do 2 apply Permutation_app_head. apply Permutation_app_swap_app.
      * change ((base s, 0) :: R1 ++ (p, n - nu) :: R2) with (((base s, 0) :: R1) ++ (p, n - nu) :: R2).
        rewrite EX, fmap_app, fmap_app. apply elem_of_app. left. apply elem_of_app. right. left.
      * apply List.Forall_cons.
        -- cbn. split; [lia|]. exists x. by rewrite lookup_insert.
        -- apply Forall_forall. intros [a k] Hin. destruct (Hlive _ _ Hin) as [_ Ha].
           destruct (proj1 (Forall_forall _ _) (i_live _ _ _ I) _ Hin) as [Hk [y Hy]]. cbn in *.
           split; [done|]. exists y. rewrite !lookup_insert_ne by lia. done.
    + intros u Hu1 Hu2 Hu3. cbn.
      assert (Hu : u < p \/ p + n <= u).
      { destruct (Z.lt_ge_cases u p); [by left|]. destruct (Z.le_gt_cases (p + n) u); [by right|].
        exfalso. apply Hu2. apply elem_all_units. exists (p, n). split; [done|]. apply elem_units. cbn. lia. }
      rewrite lookup_insert_ne by lia. apply lookup_insert_ne. lia.
Qed.

(* walking over blocks that are too small *)
Lemma scan s rest live (I : Inv s rest live) nu : forall C X D prev fuel,
  (base s, 0) :: rest = X ++ C ++ D ->
  Forall (fun x : block => x.2 < nu /\ x.1 <> freep s) C ->
  malloc_loop (length C + fuel) s prev (hd_addr (C ++ D) (base s)) nu =
  malloc_loop fuel s (last_addr prev C) (hd_addr D (base s)) nu.
Proof.
  induction C as [|[c n] C IH]; intros X D prev fuel E HC; [done|].
  cbn [length Nat.add app hd_addr malloc_loop last_addr]. cbn [app] in E.
  rewrite (inv_get _ _ _ I _ _ _ _ E). cbn [mbind option_bind].
  apply Forall_cons_1 in HC as [[Hc1 Hc2] HC]. cbn in Hc1, Hc2.
  rewrite decide_False by lia. rewrite decide_False by done.
  apply (IH (X ++ [(c, n)])); [rewrite <- app_assoc; done|done].
Qed.

Lemma first_fit (nu : Z) (L : list block) : Forall (fun x : block => x.2 < nu) L \/
  exists L1 p n L2, L = L1 ++ (p, n) :: L2 /\ Forall (fun x : block => x.2 < nu) L1 /\ nu <= n.
Proof.
  induction L as [|[a n] L IH]; [by left|]. destruct (Z.lt_ge_cases n nu).
  - destruct IH as [IH|(L1 & p & n' & L2 & -> & H1 & H2)]; [left; apply List.Forall_cons; done|].
    right. exists ((a, n) :: L1), p, n', L2. split; [done|]. split; [apply List.Forall_cons; done|done].
  - right. exists [], a, n, L. done.
Qed.

Lemma small_ne (nu f : Z) (L : list block) : Forall (fun x : block => x.2 < nu) L -> f ∉ L.*1 ->
  Forall (fun x : block => x.2 < nu /\ x.1 <> f) L.
Proof.
  intros H Hf. apply Forall_forall. intros [a n] Hin. split; [exact (proj1 (Forall_forall _ _) H _ Hin)|].
  cbn. intros ->. apply Hf. apply elem_of_list_fmap. exists (f, n). done.
Qed.

(* one turn around the ring *)
Lemma cycle s rest live (I : Inv s rest live) nu fuel : 1 <= nu ->
  exists nx fs, get s (freep s) = Some (nx, fs) /\
  ((exists R1 p n R2 f', rest = R1 ++ (p, n) :: R2 /\ nu <= n /\
     malloc_loop (length rest + 1 + fuel) s (freep s) nx nu = malloc_loop (S f') s (last_addr (base s) R1) p nu) \/
   (Forall (fun x : block => x.2 < nu) rest /\ fs < nu /\ exists prev,
     malloc_loop (length rest + 1 + fuel) s (freep s) nx nu = malloc_loop (S fuel) s prev (freep s) nu)).
Proof.
  intros Hnu. pose proof (i_freep _ _ _ I) as Hf. apply elem_of_list_fmap in Hf as ([f fs] & Ef & Hf). cbn in Ef.
  apply elem_of_list_split in Hf as (A & B & E).
  exists (hd_addr B (base s)), fs. rewrite Ef. split; [exact (inv_get _ _ _ I _ _ _ _ E)|].
  destruct (NoDup_addrs _ _ _ I _ _ _ _ E) as [HfA HfB].
  assert (Hlen : (length rest + 1 = length A + 1 + length B)%nat).
  { apply (f_equal length) in E. rewrite app_length in E. cbn in E. lia. }
  destruct (first_fit nu B) as [HB|(B1 & p & n & B2 & -> & HB1 & Hn)].
  - (* nothing after freep *)
    assert (Hgo : malloc_loop (length rest + 1 + fuel) s f (hd_addr B (base s)) nu =
                  malloc_loop (length A + 1 + fuel) s (last_addr f B) (base s) nu).
    { replace (length rest + 1 + fuel)%nat with (length B + (length A + 1 + fuel))%nat by lia.
      pose proof (scan _ _ _ I nu B (A ++ [(f, fs)]) [] f (length A + 1 + fuel)) as H.
      rewrite !app_nil_r in H. rewrite H; [done|rewrite E, <- app_assoc; done|].
      apply small_ne; [done|]. by rewrite Ef. }
    rewrite Hgo. destruct A as [|a A]; cbn in E.
    + injection E as Eb <- E. right. split; [by rewrite E|]. split; [lia|].
      exists (last_addr f B). rewrite <- Eb. cbn. done.
    + injection E as <- E. destruct (first_fit nu A) as [HA|(A1 & p & n & A2 & -> & HA1 & Hn)].
      * assert (Hgo2 : malloc_loop (length ((base s, 0%Z) :: A) + 1 + fuel) s (last_addr f B) (base s) nu =
                  malloc_loop (1 + fuel) s (last_addr (base s) A) f nu).
        { replace (length ((base s, 0%Z) :: A) + 1 + fuel)%nat with (length ((base s, 0%Z) :: A) + (1 + fuel))%nat by lia.
          pose proof (scan _ _ _ I nu ((base s, 0) :: A) [] ((f, fs) :: B) (last_addr f B) (1 + fuel)) as H.
          cbn [app hd_addr] in H. rewrite H; [done|rewrite E; done|].
          apply small_ne; [apply List.Forall_cons; [cbn; lia|done]|]. by rewrite Ef. }
        rewrite Hgo2. destruct (Z.lt_ge_cases fs nu).
        -- right. split.
           ++ rewrite E. apply Forall_app. split; [done|]. apply List.Forall_cons; done.
           ++ split; [done|]. exists (last_addr (base s) A). done.
        -- left. exists A, f, fs, B, fuel. done.
      * left. exists A1, p, n, (A2 ++ (f, fs) :: B), (length A2 + 1 + fuel)%nat.
        split; [rewrite E, <- app_assoc; done|]. split; [done|].
        replace (length ((base s, 0%Z) :: A1 ++ (p, n) :: A2) + 1 + fuel)%nat with
          (length ((base s, 0%Z) :: A1) + S (length A2 + 1 + fuel))%nat by (cbn; rewrite app_length; cbn; lia).
        pose proof (scan _ _ _ I nu ((base s, 0) :: A1) [] ((p, n) :: A2 ++ (f, fs) :: B) (last_addr f B) (S (length A2 + 1 + fuel))) as H.
        cbn [app hd_addr] in H. rewrite H; [done|rewrite E, <- app_assoc; done|].
        apply small_ne; [apply List.Forall_cons; [cbn; lia|done]|].
        rewrite Ef. cbn in HfA |- *. rewrite fmap_app in HfA. set_solver.
  - left. rewrite app_length in Hlen. cbn in Hlen.
    assert (Hgo : malloc_loop (length rest + 1 + fuel) s f (hd_addr (B1 ++ (p, n) :: B2) (base s)) nu =
                  malloc_loop (S (length A + 1 + length B2 + fuel)) s (last_addr f B1) p nu).
    { replace (length rest + 1 + fuel)%nat with (length B1 + S (length A + 1 + length B2 + fuel))%nat by lia.
      pose proof (scan _ _ _ I nu B1 (A ++ [(f, fs)]) ((p, n) :: B2) f (S (length A + 1 + length B2 + fuel))) as H.
      rewrite H; [done|rewrite E, <- app_assoc; done|].
      apply small_ne; [done|]. rewrite Ef. rewrite fmap_app in HfB. set_solver. }
    rewrite Hgo. destruct A as [|a A]; cbn in E.
    + injection E as Eb <- E. exists B1, p, n, B2, (length (A:=block) [] + 1 + length B2 + fuel)%nat. split; [done|]. split; [done|]. by rewrite Eb.
    + injection E as <- E. exists (A ++ (f, fs) :: B1), p, n, B2, (length ((base s, 0%Z) :: A) + 1 + length B2 + fuel)%nat.
      split; [rewrite E, <- app_assoc; done|]. split; [done|]. rewrite last_addr_app. done.
Qed.

(** Bytes asked from sbrk: whole pages. *)
Definition pages (nu : Z) : Z := (nu * 16 + 4095) / 4096 * 4096.

Lemma morecore_ok s rest live nu (I : Inv s rest live) : 1 <= nu -> nu * 16 + 4095 < 2^63 ->
  (morecore s nu = Some (s, None) /\ limit s < cur s + pages nu) \/
  (exists s' rest', morecore s nu = Some (s', Some (freep s')) /\ Inv s' rest' live /\ keeps s s' rest /\
     same_env s s' /\ cur s' = cur s + pages nu /\ exists a n, (a, n) ∈ rest' /\ nu <= n).
Proof.
  intros Hnu Hmax. unfold morecore. rewrite Z.mod_small by lia. fold (pages nu).
  assert (Hpg : nu * 16 <= pages nu < 2^63 /\ pages nu mod 4096 = 0).
  { unfold pages. pose proof (Z.div_mod (nu * 16 + 4095) 4096 ltac:(lia)).
    pose proof (Z.mod_pos_bound (nu * 16 + 4095) 4096 ltac:(lia)). rewrite Z.mod_mul by lia. lia. }
  destruct Hpg as [Hpg Hpgm]. destruct (i_lim _ _ _ I) as (Hl1 & Hl2 & Hl3 & Hl4). destruct (i_al _ _ _ I) as [Ha1 Ha2].
  unfold sbrk. unfold s64. rewrite (Z.mod_small (pages nu + 2^63)) by lia.
  replace (pages nu + 2^63 - 2^63) with (pages nu) by lia. rewrite (Z.mod_small (cur s + pages nu)) by lia.
  destruct (decide (start s <= cur s + pages nu <= limit s)) as [Hfit|Hno].
  - right. rewrite decide_False by lia.
    set (s1 := St (mem s) (freep s) (base s) (start s) (cur s + pages nu) (limit s)).
    assert (Hk : pages nu / 16 * 16 = pages nu).
    { pose proof (Z.div_mod (pages nu) 4096 ltac:(lia)).
      replace (pages nu) with ((pages nu / 4096 * 256) * 16) by lia. rewrite Z.div_mul by lia. done. }
    set (k := pages nu / 16) in *.
    assert (Hcur : cur s = 16 * hi s) by (unfold hi; pose proof (Z.div_mod (cur s) 16 ltac:(lia)); lia).
    assert (Hst : start s = 16 * lo s) by (unfold lo; pose proof (Z.div_mod (start s) 16 ltac:(lia)); lia).
    assert (Hhi1 : hi s1 = hi s + k).
    { unfold hi, s1. cbn. replace (cur s + pages nu) with ((cur s / 16 + k) * 16) by (unfold hi in Hcur; lia). apply Z.div_mul. lia. }
    assert (Hlo1 : lo s1 = lo s) by done.
    assert (Ha1' : cur s1 mod 16 = 0).
    { cbn. replace (cur s + pages nu) with ((hi s + k) * 16) by lia. apply Z.mod_mul. lia. }
    assert (Hk0 : nu <= k) by lia. fold (hi s).
    destruct (set_size_any s1 (hi s) k) as [x Hx].
    { apply mapped_in; [done|done|]. rewrite Hhi1, Hlo1. unfold lo, hi. split; [apply Z.div_le_mono; lia|fold (hi s); lia]. }
    { lia. }
    rewrite Hx. cbn [mbind option_bind]. set (s2 := upd s1 (hi s) (Hdr x k)).
    assert (Hbnd : forall a n, (a, n) ∈ rest ++ live -> a < hi s).
    { intros a n Hin. apply elem_of_app in Hin as [Hin|Hin];
        [destruct (inv_rest _ _ _ I _ _ Hin) as (?&?&?)|destruct (inv_live _ _ _ I _ _ Hin) as (?&?&?)]; lia. }
    assert (Hlohi : lo s <= hi s) by lia.
    assert (I2 : Inv s2 rest ((hi s, k) :: live)).
    { constructor; cbn [s2 s1 upd mem freep base start cur limit].
      - done.
      - lia.
      - apply (i_base _ _ _ I).
      - rewrite seg_upd; [apply (i_ring _ _ _ I)|]. cbn [fmap list_fmap fst]. apply not_elem_of_cons.
        split; [pose proof (i_base _ _ _ I); lia|]. apply forall_notin. left. apply Forall_forall. intros [a n] Hin.
        apply (Hbnd a n). apply elem_of_app. by left.
      - apply (i_srt _ _ _ I).
      - change (lo s2) with (lo s). change (hi s2) with (hi s1). rewrite Hhi1.
        replace (hi s + k - lo s) with ((hi s - lo s) + k) by lia. rewrite seqZ_app by lia.
        rewrite <- (i_tile _ _ _ I). replace (lo s + (hi s - lo s)) with (hi s) by lia.
        rewrite !all_units_app. cbn [all_units flat_map]. fold (all_units live). change (units (hi s, k)) with (seqZ (hi s) k).
        rewrite <- app_assoc. apply Permutation_app_head. apply Permutation_app_comm.
      - apply (i_freep _ _ _ I).
      - apply List.Forall_cons.
        + cbn. split; [lia|]. exists x. by rewrite lookup_insert.
        + apply Forall_forall. intros [a n] Hin. destruct (proj1 (Forall_forall _ _) (i_live _ _ _ I) _ Hin) as [Hn [y Hy]].
          cbn in *. split; [done|]. exists y. rewrite lookup_insert_ne; [done|].
          pose proof (Hbnd a n ltac:(apply elem_of_app; by right)). lia. }
    destruct (free_block_ok _ _ _ _ _ I2) as (s3 & rest3 & Hfree & I3 & Hkeep & Hb3 & Hs3 & Hc3 & Hl3' & (a & n & Hin & Hle)).
    unfold free. rewrite decide_False by lia.
    replace (16 * (hi s + 1) / 16 - 1) with (hi s) by (rewrite Z.mul_comm, Z.div_mul by lia; lia).
    rewrite Hfree. cbn [mbind option_bind]. exists s3, rest3. split; [done|]. split; [done|]. split; [|split; [|split]].
    + intros u Hu1 Hu2 Hu3. rewrite Hkeep; [|done|done|lia]. cbn. apply lookup_insert_ne. lia.
    + split; [done|]. split; [done|]. done.
    + rewrite Hc3. done.
    + exists a, n. split; [done|lia].
  - left. rewrite decide_True by lia. split; [by destruct s|lia].
Qed.

(** [malloc]'s loop as a whole. *)
Lemma malloc_loop_ok s rest live nu (I : Inv s rest live) : 1 <= nu -> nu * 16 + 4095 < 2^63 ->
  exists nx fs s' r, get s (freep s) = Some (nx, fs) /\
    malloc_loop (4 * bound s) s (freep s) nx nu = Some (s', r) /\ keeps s s' rest /\ same_env s s' /\
    (Exists (fun x : block => nu <= x.2) rest -> r <> None /\ cur s' = cur s) /\
    match r with
    | None => s' = s /\ limit s < cur s + pages nu
    | Some u => exists rest', Inv s' rest' ((u, nu) :: live)
    end.
Proof.
  intros Hnu Hmax. pose proof (inv_bound _ _ _ I) as Hb.
  set (fuel := (4 * bound s - (length rest + 1))%nat).
  destruct (cycle _ _ _ I nu fuel Hnu) as (nx & fs & Hg & [(R1 & p & n & R2 & f' & -> & Hn & Hloop)|(Hsm & Hfs & prev & Hloop)]).
  - destruct (found_step _ _ _ _ _ _ _ f' I Hnu Hn) as (s' & u & rest' & Hfound & I' & Hk & He & Hc).
    exists nx, fs, s', (Some u). split; [done|].
    replace (4 * bound s)%nat with (length (R1 ++ (p, n) :: R2) + 1 + fuel)%nat by lia. rewrite Hloop.
    split; [done|]. split; [done|]. split; [done|]. split; [done|]. by exists rest'.
  - exists nx, fs. replace (4 * bound s)%nat with (length rest + 1 + fuel)%nat by lia. rewrite Hloop.
    cbn [malloc_loop]. rewrite Hg. cbn [mbind option_bind]. rewrite decide_False by lia. rewrite decide_True by done.
    assert (Hnex : Exists (fun x : block => nu <= x.2) rest -> False).
    { intros Hex. apply Exists_exists in Hex as ([a n] & Hin & Hle). pose proof (proj1 (Forall_forall _ _) Hsm _ Hin). cbn in *. lia. }
    destruct (morecore_ok _ _ _ _ I Hnu Hmax) as [[Hmc Hlim]|(s2 & rest2 & Hmc & I2 & Hk2 & He2 & Hc2 & (a & n & Hin & Hle))].
    + rewrite Hmc. cbn [mbind option_bind]. exists s, None. repeat split; try done.
    + rewrite Hmc. cbn [mbind option_bind].
      pose proof (inv_bound _ _ _ I2) as Hb2.
      assert (Hbe : bound s2 = bound s) by (unfold bound; destruct He2 as (_ & -> & ->); done).
      destruct (cycle _ _ _ I2 nu (fuel - (length rest2 + 1)) Hnu) as (nx2 & fs2 & Hg2 & [(R1 & p & n' & R2 & f' & -> & Hn & Hloop2)|(Hsm2 & Hfs2 & prev2 & Hloop2)]).
      * rewrite Hg2. cbn [mbind option_bind].
        replace fuel with (length (R1 ++ (p, n') :: R2) + 1 + (fuel - (length (R1 ++ (p, n') :: R2) + 1)))%nat by lia. rewrite Hloop2.
        destruct (found_step _ _ _ _ _ _ _ f' I2 Hnu Hn) as (s' & u & rest' & Hfound & I' & Hk & He & Hc).
        exists s', (Some u). split; [done|]. split; [done|].
        assert (Hhi : hi s <= hi s2).
        { unfold hi. rewrite Hc2. apply Z.div_le_mono; [lia|]. unfold pages. 
          assert (0 <= (nu * 16 + 4095) / 4096) by (apply Z.div_pos; lia). lia. }
        split; [|split; [|split; [done|by exists rest']]].
        -- intros v Hv1 Hv2 Hv3. rewrite Hk.
           ++ apply Hk2; done.
           ++ destruct He2 as (-> & _). done.
           ++ (* v is in a live block or outside the old heap *)
              intros Hv. destruct (Z.lt_ge_cases v (lo s)) as [Hlo|Hlo].
              { apply elem_all_units in Hv as ([a' k'] & Hin' & Hv). apply elem_units in Hv. cbn in Hv.
                destruct (inv_rest _ _ _ I2 _ _ Hin') as (H1 & _). assert (lo s2 = lo s) by (unfold lo; destruct He2 as (_ & -> & _); done). lia. }
              assert (Hin0 : v ∈ all_units (rest ++ live)).
              { rewrite (i_tile _ _ _ I). apply elem_of_seqZ. lia. }
              rewrite all_units_app in Hin0. apply elem_of_app in Hin0 as [?|Hlv]; [done|].
              pose proof (i_tile _ _ _ I2) as Ht2.
              assert (Hnd : NoDup (all_units ((R1 ++ (p, n') :: R2) ++ live))) by (rewrite Ht2; apply NoDup_seqZ).
              rewrite all_units_app in Hnd. apply NoDup_app in Hnd as (_ & Hd & _). apply (Hd v); done.
           ++ lia.
        -- destruct He2 as (H1 & H2 & H3), He as (H4 & H5 & H6). unfold same_env. rewrite H4, H5, H6. done.
      * exfalso. pose proof (proj1 (Forall_forall _ _) Hsm2 _ Hin). cbn in *. lia.
Qed.

(** The client overwrites part of a block it holds. *)
Lemma write_ok s rest live a k u v (I : Inv s rest live) : (a, k) ∈ live -> a < u < a + k ->
  Inv (upd s u v) rest live.
Proof.
  intros Hin Hu. destruct (inv_live _ _ _ I _ _ Hin) as (?&?&?).
  assert (Hr : forall b n, (b, n) ∈ rest -> u < b \/ b + n <= u).
  { intros b n Hb. destruct (inv_rest_live _ _ _ I _ _ _ _ Hb Hin); lia. }
  constructor; cbn [upd mem freep base start cur limit]; try apply I.
  - rewrite seg_upd; [apply I|]. cbn [fmap list_fmap fst]. apply not_elem_of_cons. split.
    + pose proof (i_base _ _ _ I). lia.
    + intros Hx. apply elem_of_list_fmap in Hx as ([b n] & -> & Hb). cbn in *.
      destruct (Hr _ _ Hb); [lia|]. destruct (inv_rest _ _ _ I _ _ Hb) as (?&?&?). lia.
  - apply Forall_forall. intros [b n] Hb. destruct (proj1 (Forall_forall _ _) (i_live _ _ _ I) _ Hb) as [Hn [y Hy]]. cbn in *.
    split; [done|]. exists y. rewrite lookup_insert_ne; [done|]. intros ->.
    destruct (decide ((b, n) = (a, k))) as [[= -> ->]|Hne]; [lia|].
    apply elem_of_Permutation in Hin as (o & Ho). assert (Hb' : (b, n) ∈ o).
    { rewrite Ho in Hb. apply elem_of_cons in Hb as [?|?]; done. }
    apply elem_of_Permutation in Hb' as (o' & Ho').
    destruct (tile_disj s (rest ++ live) a k b n (rest ++ o') (i_tile _ _ _ I)) as [?|?]; [|lia|lia|lia|lia].
    rewrite Ho, Ho'. rewrite (Permutation_app_comm rest). cbn. do 2 f_equiv. apply Permutation_app_comm.
Qed.
