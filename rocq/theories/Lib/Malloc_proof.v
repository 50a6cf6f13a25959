(** The free-list invariant of malloc.c and its preservation. *)
From stdpp Require Import base list numbers list_numbers gmap.
From Coq Require Import Lia ZArith Bool.
From Verif Require Import Lib.Malloc_model.
Local Open Scope Z_scope.

Notation block := (Z * Z)%type.

(** The units of a block. *)
Definition units (b : block) : list Z := seqZ b.1 b.2.
Definition all_units (l : list block) : list Z := flat_map units l.

Definition hd_addr (L : list block) (fin : Z) : Z := match L with [] => fin | (a, _) :: _ => a end.
Fixpoint last_addr (d : Z) (L : list block) : Z := match L with [] => d | (a, _) :: L => last_addr a L end.
Fixpoint end_addr (d : Z) (L : list block) : Z := match L with [] => d | (a, n) :: L => end_addr (a + n) L end.

(** The headers of [L] are linked in this order, the last one to [fin]. *)
Fixpoint seg (m : gmap Z unit_) (L : list block) (fin : Z) : Prop :=
  match L with
  | [] => True
  | (a, n) :: L => m !! a = Some (Hdr (hd_addr L fin) n) /\ seg m L fin
  end.

(** Increasing, non-empty, and with a gap between neighbours. *)
Fixpoint srt (lo : Z) (L : list block) : Prop :=
  match L with
  | [] => True
  | (a, n) :: L => lo < a /\ 0 < n /\ srt (a + n) L
  end.

Definition lo (s : st) := start s / 16.
Definition hi (s : st) := cur s / 16.

Record Inv (s : st) (rest live : list block) : Prop := {
  i_al : start s mod 16 = 0 /\ cur s mod 16 = 0;
  i_lim : start s <= cur s <= limit s /\ 0 < start s /\ limit s < 2^62 /\ limit s - start s < 2^36;
  i_base : base s < lo s;
  i_ring : seg (mem s) ((base s, 0) :: rest) (base s);
  i_srt : srt (base s) rest;
  i_tile : all_units (rest ++ live) ≡ₚ seqZ (lo s) (hi s - lo s);
  i_freep : freep s ∈ ((base s, 0) :: rest).*1;
  i_live : Forall (fun b : block => 0 < b.2 /\ exists x, mem s !! b.1 = Some (Hdr x b.2)) live
}.

(* ---------- lists ---------- *)
Lemma all_units_app a b : all_units (a ++ b) = all_units a ++ all_units b.
Proof. apply flat_map_app. Qed.
Lemma all_units_perm a b : a ≡ₚ b -> all_units a ≡ₚ all_units b.
Proof. intros H. unfold all_units. induction H; cbn [flat_map]; [done|by rewrite IHPermutation| |by etrans].
  rewrite !app_assoc. apply Permutation_app_tail, Permutation_app_comm. Qed.
Lemma elem_units u b : u ∈ units b <-> b.1 <= u < b.1 + b.2.
Proof. apply elem_of_seqZ. Qed.
Lemma elem_all_units u l : u ∈ all_units l <-> exists b, b ∈ l /\ u ∈ units b.
Proof. unfold all_units. rewrite elem_of_list_In, in_flat_map. setoid_rewrite elem_of_list_In. done. Qed.

Lemma hd_addr_app X Y fin : hd_addr (X ++ Y) fin = hd_addr X (hd_addr Y fin).
Proof. destruct X as [|[] ]; done. Qed.
Lemma seg_app m X Y fin : seg m (X ++ Y) fin <-> seg m X (hd_addr Y fin) /\ seg m Y fin.
Proof.
  induction X as [|[a n] X IH]; cbn [app seg]; [tauto|]. rewrite IH, hd_addr_app. tauto.
Qed.
Lemma seg_upd m X fin u h : u ∉ X.*1 -> seg (<[u := h]> m) X fin <-> seg m X fin.
Proof.
  induction X as [|[a n] X IH]; intros Hu; cbn [seg]; [tauto|]. cbn [fmap list_fmap fst] in Hu.
  apply not_elem_of_cons in Hu as [Hu1 Hu2]. rewrite IH by done. rewrite lookup_insert_ne by done. done.
Qed.
Lemma last_addr_app d X Y : last_addr d (X ++ Y) = last_addr (last_addr d X) Y.
Proof. revert d; induction X as [|[a n] X IH]; intros d; cbn; [done|apply IH]. Qed.
Lemma end_addr_app d X Y : end_addr d (X ++ Y) = end_addr (end_addr d X) Y.
Proof. revert d; induction X as [|[a n] X IH]; intros d; cbn; [done|apply IH]. Qed.
Lemma srt_app l X Y : srt l (X ++ Y) <-> srt l X /\ srt (end_addr l X) Y.
Proof. revert l; induction X as [|[a n] X IH]; intros l; cbn [app srt end_addr]; [tauto|]. rewrite IH. tauto. Qed.
Lemma srt_weaken l l' L : l' <= l -> srt l L -> srt l' L.
Proof. destruct L as [|[a n] L]; [done|]. cbn. intuition lia. Qed.
Lemma srt_lb l L a n : srt l L -> (a, n) ∈ L -> l < a /\ 0 < n.
Proof.
  revert l. induction L as [|[a' n'] L IH]; intros l Hs Hin; [by apply elem_of_nil in Hin|].
  cbn in Hs. destruct Hs as (H1 & H2 & H3). apply elem_of_cons in Hin as [[= -> ->]|Hin]; [done|].
  destruct (IH _ H3 Hin). lia.
Qed.
Lemma srt_addr_lb l L a : srt l L -> a ∈ L.*1 -> l < a.
Proof. intros Hs Hin. apply elem_of_list_fmap in Hin as ([a' n] & -> & Hin). eapply srt_lb; done. Qed.
Lemma end_addr_ge l L : srt l L -> l <= end_addr l L.
Proof. revert l; induction L as [|[a n] L IH]; intros l Hs; cbn in *; [lia|]. destruct Hs as (?&?&Hs). specialize (IH _ Hs). lia. Qed.
Lemma srt_addr_ub l L a n : srt l L -> (a, n) ∈ L -> a + n <= end_addr l L.
Proof.
  revert l. induction L as [|[a' n'] L IH]; intros l Hs Hin; [by apply elem_of_nil in Hin|].
  cbn in *. destruct Hs as (H1 & H2 & H3). apply elem_of_cons in Hin as [[= -> ->]|Hin].
  - apply end_addr_ge. done.
  - apply IH; done.
Qed.

(* ---------- tiling ---------- *)
Lemma tile_in s bl a n : all_units bl ≡ₚ seqZ (lo s) (hi s - lo s) -> (a, n) ∈ bl -> 0 < n ->
  lo s <= a /\ a + n <= hi s.
Proof.
  intros Ht Hin Hn.
  assert (H1 : a ∈ all_units bl) by (apply elem_all_units; exists (a, n); split; [done|apply elem_units; cbn; lia]).
  assert (H2 : a + n - 1 ∈ all_units bl) by (apply elem_all_units; exists (a, n); split; [done|apply elem_units; cbn; lia]).
  rewrite Ht in H1, H2. apply elem_of_seqZ in H1, H2. lia.
Qed.
Lemma tile_disj s bl a n b k o : all_units bl ≡ₚ seqZ (lo s) (hi s - lo s) ->
  bl ≡ₚ (a, n) :: (b, k) :: o -> 0 < n -> 0 < k -> a + n <= b \/ b + k <= a.
Proof.
  intros Ht Hp Hn Hk. rewrite (all_units_perm _ _ Hp) in Ht.
  assert (Hnd : NoDup (all_units ((a, n) :: (b, k) :: o))) by (rewrite Ht; apply NoDup_seqZ).
  cbn [all_units flat_map] in Hnd. apply NoDup_app in Hnd as (_ & Hd & _).
  destruct (Z.le_gt_cases (a + n) b) as [|H1]; [by left|]. right.
  destruct (Z.le_gt_cases (b + k) a) as [|H2]; [done|]. exfalso.
  apply (Hd (Z.max a b)); [apply elem_units; cbn; lia|]. apply elem_of_app. left. apply elem_units; cbn; lia.
Qed.
Lemma units_split a n k : 0 <= n -> 0 <= k -> units (a, n + k) = units (a, n) ++ units (a + n, k).
Proof. intros. unfold units. cbn. apply seqZ_app; lia. Qed.

Lemma perm_pick {A} (x y : A) l1 l2 : x ∈ l1 -> y ∈ l2 -> exists o, l1 ++ l2 ≡ₚ x :: y :: o.
Proof.
  intros Hx Hy. apply elem_of_Permutation in Hx as (l1' & H1). apply elem_of_Permutation in Hy as (l2' & H2).
  exists (l1' ++ l2'). rewrite H1, H2. cbn. rewrite <- Permutation_middle. done.
Qed.

(* ---------- accesses ---------- *)
Lemma mapped_base s : mapped s (base s) = true.
Proof. unfold mapped. rewrite bool_decide_eq_true_2 by done. done. Qed.
Lemma mapped_in s u : start s mod 16 = 0 -> cur s mod 16 = 0 -> lo s <= u < hi s -> mapped s u = true.
Proof.
  intros H1 H2 Hu. unfold mapped, lo, hi in *.
  pose proof (Z.div_mod (start s) 16 ltac:(lia)). pose proof (Z.div_mod (cur s) 16 ltac:(lia)).
  rewrite (bool_decide_eq_true_2 (start s <= _)) by lia. rewrite (bool_decide_eq_true_2 (_ <= cur s)) by lia.
  apply orb_true_r.
Qed.
Lemma mapped_upd s u h v : mapped (upd s u h) v = mapped s v. Proof. done. Qed.

Lemma length_units l lo0 : srt lo0 l -> (length l <= length (all_units l))%nat.
Proof.
  revert lo0. induction l as [|[a n] l IH]; intros lo0 Hs; [done|]. cbn in Hs. destruct Hs as (_ & Hn & Hs).
  cbn [all_units flat_map length]. rewrite app_length. specialize (IH _ Hs). unfold all_units in IH.
  unfold units at 1. cbn. rewrite seqZ_length. lia.
Qed.

Section S.
Context (s : st) (rest live : list block) (I : Inv s rest live).
Lemma inv_len : (length rest <= Z.to_nat (hi s - lo s))%nat.
Proof.
  pose proof (length_units _ _ (i_srt _ _ _ I)) as H. pose proof (Permutation_length (i_tile _ _ _ I)) as Hl.
  rewrite all_units_app, app_length, seqZ_length in Hl. lia.
Qed.
Lemma inv_hi_limit : hi s - lo s <= (limit s - start s) / 16.
Proof.
  destruct (i_al _ _ _ I) as [Ha1 Ha2], (i_lim _ _ _ I) as (Hl1 & Hl2 & Hl3 & Hl4). unfold hi, lo.
  pose proof (Z.div_mod (start s) 16 ltac:(lia)). pose proof (Z.div_mod (cur s) 16 ltac:(lia)).
  apply Z.div_le_lower_bound; lia.
Qed.
Lemma inv_bound : (length rest + 4 <= bound s)%nat.
Proof. pose proof inv_len. pose proof inv_hi_limit. unfold bound. lia. Qed.
Lemma inv_rest a n : (a, n) ∈ rest -> lo s <= a /\ a + n <= hi s /\ 0 < n.
Proof.
  intros Hin. destruct (srt_lb _ _ _ _ (i_srt _ _ _ I) Hin) as [_ Hn].
  destruct (tile_in s _ a n (i_tile _ _ _ I) ltac:(apply elem_of_app; by left) Hn). done.
Qed.
Lemma inv_live a n : (a, n) ∈ live -> lo s <= a /\ a + n <= hi s /\ 0 < n.
Proof.
  intros Hin. pose proof (proj1 (Forall_forall _ _) (i_live _ _ _ I) _ Hin) as [Hn _]. cbn in Hn.
  destruct (tile_in s _ a n (i_tile _ _ _ I) ltac:(apply elem_of_app; by right) Hn). done.
Qed.
Lemma inv_rest_live a n b k : (a, n) ∈ rest -> (b, k) ∈ live -> a + n <= b \/ b + k <= a.
Proof.
  intros Hr Hl. destruct (perm_pick _ _ _ _ Hr Hl) as [o Ho].
  destruct (inv_rest _ _ Hr) as (_ & _ & ?), (inv_live _ _ Hl) as (_ & _ & ?).
  eapply tile_disj; [apply (i_tile _ _ _ I)|done|done|done].
Qed.
Lemma inv_mapped a n : (a, n) ∈ (base s, 0) :: rest -> mapped s a = true.
Proof.
  intros [[= -> ->]|Hin]%elem_of_cons; [apply mapped_base|].
  destruct (inv_rest _ _ Hin) as (?&?&?). destruct (i_al _ _ _ I). apply mapped_in; [done|done|lia].
Qed.
Lemma inv_mapped_live a n : (a, n) ∈ live -> mapped s a = true.
Proof. intros Hin. destruct (inv_live _ _ Hin) as (?&?&?). destruct (i_al _ _ _ I). apply mapped_in; [done|done|lia]. Qed.

(* splitting the ring *)
Lemma inv_get X a n Y : (base s, 0) :: rest = X ++ (a, n) :: Y -> get s a = Some (hd_addr Y (base s), n).
Proof.
  intros E. unfold get. rewrite (inv_mapped a n) by (rewrite E; apply elem_of_app; right; left).
  pose proof (i_ring _ _ _ I) as H. rewrite E in H. apply seg_app in H as [_ H]. cbn [seg] in H.
  destruct H as [-> _]. done.
Qed.
Lemma inv_get_live a n : (a, n) ∈ live -> exists x, get s a = Some (x, n).
Proof.
  intros Hin. destruct (proj1 (Forall_forall _ _) (i_live _ _ _ I) _ Hin) as [_ [x Hx]]. cbn in Hx.
  exists x. unfold get. rewrite (inv_mapped_live a n) by done. rewrite Hx. done.
Qed.
End S.

(* the list as seen from [base]: addresses increase *)
Definition addrs_inc (L : list block) : Prop := forall X a n Y, L = X ++ (a, n) :: Y ->
  Forall (fun b : block => a < b.1) Y /\ Forall (fun b : block => b.1 < a) X.

Lemma srt_forall l L : srt l L -> Forall (fun b : block => l < b.1) L.
Proof. intros H. apply Forall_forall. intros [a n] Hin. eapply srt_lb; done. Qed.

Lemma inv_split_gt s rest live (I : Inv s rest live) X a n Y :
  (base s, 0) :: rest = X ++ (a, n) :: Y ->
  Forall (fun b : block => a < b.1) Y /\ Forall (fun b : block => b.1 < a) X.
Proof.
  intros E. pose proof (i_srt _ _ _ I) as Hs. destruct X as [|x X]; cbn in E.
  - injection E as <- <- <-. split; [|constructor]. apply srt_forall in Hs. done.
  - injection E as <- ->. apply srt_app in Hs as [Hs1 Hs2]. cbn in Hs2. destruct Hs2 as (H1 & H2 & H3).
    split.
    + apply srt_forall in H3. eapply Forall_impl; [done|]. intros [] ?; cbn in *. lia.
    + apply List.Forall_cons; [cbn; apply end_addr_ge in Hs1; lia|].
      apply Forall_forall. intros [b k] Hin. cbn. pose proof (srt_addr_ub _ _ _ _ Hs1 Hin).
      pose proof (srt_lb _ _ _ _ Hs1 Hin). lia.
Qed.

(* ---------- the search loop of free ---------- *)
Lemma ff_fwd s rest live b (I : Inv s rest live) R2 : base s < b -> forall C X fuel c,
  (base s, 0) :: rest = X ++ (c :: C) ++ R2 ->
  Forall (fun x : block => x.1 < b) (c :: C) -> Forall (fun x : block => b < x.1) R2 ->
  (length C < fuel)%nat ->
  free_find fuel s b c.1 = Some (last_addr c.1 C).
Proof.
  intros Hb. induction C as [|[c' n'] C IH]; intros X fuel [c n] E Hlt Hgt Hf; (destruct fuel as [|fuel]; [cbn in Hf; lia|]).
  - cbn [free_find fst last_addr]. rewrite (inv_get _ _ _ I _ _ _ _ E). cbn [mbind option_bind].
    apply Forall_cons_1 in Hlt as [Hc _]. cbn in Hc.
    destruct R2 as [|[a2 n2] R2]; cbn [hd_addr].
    + rewrite decide_False by lia. rewrite decide_True; [done|].
      split; [|left; done]. pose proof (inv_split_gt _ _ _ I X c n [] E) as [_ HX].
      destruct X as [|x X]; cbn in E; [injection E as E1 _ _; lia|]. injection E as <- E2.
      apply Forall_cons_1 in HX as [HX _]. cbn in HX. lia.
    + apply Forall_cons_1 in Hgt as [Hg _]. cbn in Hg. rewrite decide_True by lia. done.
  - cbn [free_find fst last_addr]. rewrite (inv_get _ _ _ I _ _ _ _ E). cbn [mbind option_bind].
    cbn [app hd_addr]. pose proof Hlt as Hlt0. apply Forall_cons_1 in Hlt as [Hc Hlt].
    pose proof Hlt as Hlt1. apply Forall_cons_1 in Hlt1 as [Hc' _]. cbn in Hc, Hc'.
    rewrite decide_False by lia.
    destruct (inv_split_gt _ _ _ I _ _ _ _ E) as [HY _]. cbn [app] in HY. apply Forall_cons_1 in HY as [HY _]. cbn in HY.
    rewrite decide_False by lia.
    apply (IH (X ++ [(c, n)]) fuel (c', n')); [rewrite <- app_assoc; done|done|done|cbn in Hf; lia].
Qed.

Lemma ff_end s rest live b (I : Inv s rest live) : base s < b -> forall D X fuel d,
  (base s, 0) :: rest = X ++ d :: D -> X <> [] ->
  Forall (fun x : block => b < x.1) (d :: D) ->
  free_find (length (d :: D) + fuel) s b d.1 = free_find fuel s b (base s).
Proof.
  intros Hb. induction D as [|[d' n'] D IH]; intros X fuel [d n] E HX Hgt.
  - cbn [length Nat.add free_find fst]. rewrite (inv_get _ _ _ I _ _ _ _ E). cbn [mbind option_bind hd_addr].
    apply Forall_cons_1 in Hgt as [Hd _]. cbn in Hd.
    rewrite decide_False by lia. rewrite decide_False by lia. done.
  - cbn [length Nat.add free_find fst]. rewrite (inv_get _ _ _ I _ _ _ _ E). cbn [mbind option_bind hd_addr].
    pose proof Hgt as Hgt0. apply Forall_cons_1 in Hgt as [Hd Hgt]. cbn in Hd.
    destruct (inv_split_gt _ _ _ I _ _ _ _ E) as [HY _]. apply Forall_cons_1 in HY as [HY _]. cbn in HY.
    rewrite decide_False by lia. rewrite decide_False by lia.
    apply (IH (X ++ [(d, n)]) fuel (d', n')); [rewrite <- app_assoc; done| |done].
    intros H. by apply app_nil in H as [_ ?].
Qed.

Lemma srt_split l L b : srt l L -> b ∉ L.*1 -> exists R1 R2, L = R1 ++ R2 /\
  Forall (fun x : block => x.1 < b) R1 /\ Forall (fun x : block => b < x.1) R2.
Proof.
  revert l. induction L as [|[a n] L IH]; intros l Hs Hb.
  - exists [], []. done.
  - cbn in Hs. destruct Hs as (H1 & H2 & H3). cbn in Hb. apply not_elem_of_cons in Hb as [Hb1 Hb2].
    destruct (Z.lt_ge_cases a b).
    + destruct (IH _ H3 Hb2) as (R1 & R2 & -> & Ha & Hb). exists ((a, n) :: R1), R2.
      split; [done|]. split; [|done]. apply List.Forall_cons; done.
    + exists [], ((a, n) :: L). split; [done|]. split; [done|].
      apply List.Forall_cons; [cbn; lia|]. apply srt_forall in H3. eapply Forall_impl; [done|].
      intros [] ?; cbn in *. lia.
Qed.

Lemma free_find_ok s rest live b t (I : Inv s rest ((b, t) :: live)) :
  exists R1 R2, rest = R1 ++ R2 /\
    Forall (fun x : block => x.1 < b) R1 /\ Forall (fun x : block => b < x.1) R2 /\
    free_find (2 * bound s) s b (freep s) = Some (last_addr (base s) R1).
Proof.
  assert (Hbl : (b, t) ∈ (b, t) :: live) by left.
  destruct (inv_live _ _ _ I _ _ Hbl) as (Hb1 & Hb2 & Ht). pose proof (i_base _ _ _ I) as Hbase.
  destruct (srt_split _ _ b (i_srt _ _ _ I)) as (R1 & R2 & E & HR1 & HR2).
  { intros Hin. apply elem_of_list_fmap in Hin as ([a n] & -> & Hin). cbn in *.
    destruct (inv_rest _ _ _ I _ _ Hin) as (?&?&?).
    destruct (inv_rest_live _ _ _ I _ _ _ _ Hin Hbl); lia. }
  exists R1, R2. split; [done|]. split; [done|]. split; [done|].
  pose proof (inv_bound _ _ _ I) as Hbd.
  assert (HR1' : Forall (fun x : block => x.1 < b) ((base s, 0) :: R1)) by (apply List.Forall_cons; [cbn; lia|done]).
  assert (Hlen : length rest = (length R1 + length R2)%nat) by (rewrite E, app_length; done).
  pose proof (i_freep _ _ _ I) as Hf. rewrite E in Hf. change ((base s, 0) :: R1 ++ R2) with (((base s, 0) :: R1) ++ R2) in Hf.
  rewrite fmap_app in Hf. apply elem_of_app in Hf as [Hf|Hf].
  - apply elem_of_list_fmap in Hf as ([f fs] & Ef & Hf). cbn in Ef.
    apply elem_of_list_split in Hf as (X & C & EX).
    replace (freep s) with (f, fs).1 by done.
    erewrite (ff_fwd s rest _ b I R2 ltac:(lia) C X (2 * bound s) (f, fs)).
    + f_equal. change R1 with (tail ((base s, 0) :: R1)) . rewrite EX. destruct X as [|x X]; cbn.
      * cbn in EX. injection EX as <- <- <-. done.
      * cbn in EX. injection EX as <- EX. rewrite last_addr_app. done.
    + rewrite E. change ((base s, 0) :: R1 ++ R2) with (((base s, 0) :: R1) ++ R2). rewrite EX. rewrite <- app_assoc. done.
    + rewrite EX in HR1'. apply Forall_app in HR1' as [_ ?]. done.
    + done.
    + assert (length ((base s, 0) :: R1) = length (X ++ (f, fs) :: C)) by (by rewrite EX).
      rewrite app_length in H. cbn in H. lia.
  - apply elem_of_list_fmap in Hf as ([f fs] & Ef & Hf). cbn in Ef.
    apply elem_of_list_split in Hf as (X & C & EX).
    replace (freep s) with (f, fs).1 by done.
    assert (E' : (base s, 0) :: rest = (((base s, 0) :: R1) ++ X) ++ (f, fs) :: C).
    { rewrite E, EX. cbn. by rewrite <- app_assoc. }
    assert (length R2 = length (X ++ (f, fs) :: C)) by (by rewrite EX). rewrite app_length in H. cbn in H.
    replace (2 * bound s)%nat with (length ((f, fs) :: C) + (2 * bound s - S (length C)))%nat by (cbn; lia).
    erewrite (ff_end s rest _ b I ltac:(lia) C _ _ (f, fs)); [|exact E'|done|].
    2:{ rewrite EX in HR2. apply Forall_app in HR2 as [_ ?]. done. }
    change (base s) with (base s, 0).1 at 1. rewrite (ff_fwd s rest _ b I R2 ltac:(lia) R1 [] _ (base s, 0)); [done| |done|done|lia].
    rewrite E. done.
Qed.

Lemma get_upd s u v p n : get (upd s u (Hdr p n)) v = if decide (u = v) then if mapped s v then Some (p, n) else None else get s v.
Proof.
  unfold get. change (mapped (upd s u (Hdr p n)) v) with (mapped s v). cbn [upd mem].
  destruct (decide (u = v)) as [->|Hne].
  - rewrite lookup_insert. done.
  - rewrite lookup_insert_ne by done. done.
Qed.
Lemma set_ptr_ok s u p q n : get s u = Some (q, n) -> set_ptr s u p = Some (upd s u (Hdr p n)).
Proof.
  unfold get, set_ptr. destruct (mapped s u); [|done]. destruct (mem s !! u) as [[? ?|?]|]; try done.
  intros [= -> ->]. done.
Qed.
Lemma set_size_ok s u k q n : get s u = Some (q, n) -> 0 <= k < 2^32 -> set_size s u k = Some (upd s u (Hdr q k)).
Proof.
  unfold get, set_size. destruct (mapped s u); [|done]. destruct (mem s !! u) as [[? ?|?]|]; try done.
  intros [= -> ->] Hk. rewrite Z.mod_small by done. done.
Qed.
Lemma upd_upd s u h h' : upd (upd s u h) u h' = upd s u h'.
Proof. unfold upd. cbn. f_equal. apply insert_insert. Qed.
Lemma get_mapped s u x : get s u = Some x -> mapped s u = true.
Proof. unfold get. destruct (mapped s u); done. Qed.

(* the last element of base :: R1 *)
Lemma last_split s R1 : exists X ps, (base s, 0) :: R1 = X ++ [(last_addr (base s) R1, ps)] /\
  last_addr (base s) R1 + ps = end_addr (base s) R1 /\
  (R1 = [] /\ X = [] /\ ps = 0 \/ exists X', X = (base s, 0) :: X' /\ R1 = X' ++ [(last_addr (base s) R1, ps)]).
Proof.
  destruct (decide (R1 = [])) as [->|Hne].
  - exists [], 0. split; [done|]. split; [cbn; lia|]. left. done.
  - destruct (exists_last Hne) as (X' & [a n] & ->). exists ((base s, 0) :: X'), n.
    rewrite last_addr_app, end_addr_app. cbn. split; [done|]. split; [done|]. right. exists X'. done.
Qed.

Lemma NoDup_addrs s rest live (I : Inv s rest live) X a n Y : (base s, 0) :: rest = X ++ (a, n) :: Y ->
  a ∉ X.*1 /\ a ∉ Y.*1.
Proof.
  intros E. destruct (inv_split_gt _ _ _ I _ _ _ _ E) as [H1 H2]. split; intros Hin;
    apply elem_of_list_fmap in Hin as ([b k] & -> & Hin); cbn in *.
  - pose proof (proj1 (Forall_forall _ _) H2 _ Hin). cbn in *. lia.
  - pose proof (proj1 (Forall_forall _ _) H1 _ Hin). cbn in *. lia.
Qed.

Lemma forall_notin (b : Z) (R : list block) : (Forall (fun x : block => x.1 < b) R \/ Forall (fun x : block => b < x.1) R) -> b ∉ R.*1.
Proof.
  intros H Hin. apply elem_of_list_fmap in Hin as ([a k] & -> & Hin). cbn in *.
  destruct H as [H|H]; pose proof (proj1 (Forall_forall _ _) H _ Hin); cbn in *; lia.
Qed.

(** [free] keeps the invariant, gives the block back, and touches only headers
    of free blocks and of the freed block. *)
Lemma free_block_ok s rest live b t (I : Inv s rest ((b, t) :: live)) :
  exists s' rest', free_block s b = Some s' /\ Inv s' rest' live /\
    (forall u, u <> base s -> u ∉ all_units rest -> u <> b -> mem s' !! u = mem s !! u) /\
    base s' = base s /\ start s' = start s /\ cur s' = cur s /\ limit s' = limit s /\
    (exists a n, (a, n) ∈ rest' /\ t <= n).
Proof.
  assert (Hbl : (b, t) ∈ (b, t) :: live) by left.
  destruct (inv_live _ _ _ I _ _ Hbl) as (Hb1 & Hb2 & Ht). pose proof (i_base _ _ _ I) as Hbase.
  destruct (free_find_ok _ _ _ _ _ I) as (R1 & R2 & E & HR1 & HR2 & Hff).
  destruct (last_split s R1) as (X & ps & EX & Hend & HX).
  set (p := last_addr (base s) R1) in *.
  assert (EL : (base s, 0) :: rest = X ++ (p, ps) :: R2).
  { rewrite E. change ((base s, 0) :: R1 ++ R2) with (((base s, 0) :: R1) ++ R2). rewrite EX, <- app_assoc. done. }
  pose proof (inv_get _ _ _ I _ _ _ _ EL) as Hgp.
  destruct (inv_get_live _ _ _ I _ _ Hbl) as [bx Hgb].
  pose proof (i_srt _ _ _ I) as Hsrt. rewrite E in Hsrt. apply srt_app in Hsrt as [HsR1 HsR2]. rewrite <- Hend in HsR2.
  assert (Hpb : p < b).
  { destruct HX as [(-> & -> & ->)|(X' & -> & EX')]; [unfold p; cbn; lia|].
    rewrite EX' in HR1. apply Forall_app in HR1 as [_ HR1]. apply Forall_cons_1 in HR1 as [HR1 _]. exact HR1. }
  assert (Hpsb : p + ps <= b).
  { destruct HX as [(-> & -> & ->)|(X' & -> & EX')]; [unfold p; cbn; lia|].
    destruct (inv_rest_live _ _ _ I p ps b t) as [?|?]; [|left|done|].
    - rewrite E, EX'. apply elem_of_app. left. apply elem_of_app. right. left.
    - lia. }
  assert (Hps : 0 <= ps).
  { destruct HX as [(-> & -> & ->)|(X' & -> & EX')]; [lia|].
    destruct (inv_rest _ _ _ I p ps) as (?&?&?); [|lia].
    rewrite E, EX'. apply elem_of_app. left. apply elem_of_app. right. left. }
  assert (Hhb : hi s < 2^32 + lo s).
  { pose proof (inv_hi_limit _ _ _ I). destruct (i_lim _ _ _ I) as (? & ? & ? & ?).
    assert ((limit s - start s) / 16 < 2^32) by (apply Z.div_lt_upper_bound; lia). lia. }
  (* stage 1 *)
  assert (Hst1 : exists t' R2' pre, (t' = t /\ R2' = R2 /\ pre = [] \/ exists ns, R2 = (b + t, ns) :: R2' /\ t' = t + ns /\ 0 < ns /\ pre = [(b + t, ns)]) /\
     (forall K : option st -> Prop,
       K (Some (upd s b (Hdr (hd_addr R2' (base s)) t'))) ->
       K (if decide (b + t = hd_addr R2 (base s)) then
         '(_, ns) ← get s (hd_addr R2 (base s));
         s1 ← set_size s b (t + ns);
         '(nnx, _) ← get s1 (hd_addr R2 (base s));
         set_ptr s1 b nnx
       else set_ptr s b (hd_addr R2 (base s)))) /\ srt (b + t') R2' /\ b + t' <= hi s).
  { destruct (decide (b + t = hd_addr R2 (base s))) as [Em|Em].
    - destruct R2 as [|[a2 n2] R2']; [cbn in Em; lia|]. cbn in Em. subst a2. cbn [hd_addr].
      cbn in HsR2. destruct HsR2 as (_ & Hn2 & HsR2).
      assert (Hin2 : (b + t, n2) ∈ rest) by (rewrite E; apply elem_of_app; right; left).
      destruct (inv_rest _ _ _ I _ _ Hin2) as (?&?&?).
      exists (t + n2), R2', [(b + t, n2)]. split; [right; exists n2; done|]. split.
      + intros K HK.
        assert (EL2 : (base s, 0) :: rest = (X ++ [(p, ps)]) ++ (b + t, n2) :: R2') by (rewrite EL, <- app_assoc; done).
        pose proof (inv_get _ _ _ I _ _ _ _ EL2) as Hg2. rewrite Hg2. cbn [mbind option_bind].
        rewrite (set_size_ok _ _ _ _ _ Hgb) by lia. cbn [mbind option_bind].
        rewrite get_upd. rewrite decide_False by lia. rewrite Hg2. cbn [mbind option_bind].
        rewrite (set_ptr_ok _ b _ bx (t + n2)).
        * rewrite upd_upd. done.
        * rewrite get_upd. rewrite decide_True by done. rewrite (get_mapped _ _ _ Hgb). done.
      + split; [|lia]. replace (b + (t + n2)) with (b + t + n2) by lia. done.
    - exists t, R2, []. split; [left; done|]. split.
      + intros K HK. rewrite (set_ptr_ok _ _ _ _ _ Hgb). done.
      + split; [|lia]. destruct R2 as [|[a2 n2] R2']; [done|]. cbn in *. destruct HsR2 as (H1 & H2 & H3).
        split; [|done]. apply Forall_cons_1 in HR2 as [HR2 _]. cbn in HR2.
        destruct (inv_rest_live _ _ _ I a2 n2 b t) as [?|?]; [|done|lia|lia].
        rewrite E. apply elem_of_app. right. left. }
  destruct Hst1 as (t' & R2' & pre & Hm & HK & HsR2' & Hhi').
  assert (Htt : t <= t') by (destruct Hm as [(-> & _)|(ns & _ & -> & ? & _)]; lia).
  assert (ER2 : R2 = pre ++ R2') by (destruct Hm as [(_ & -> & ->)|(ns & -> & _ & _ & ->)]; done).
  assert (Huni : units (b, t') = units (b, t) ++ all_units pre).
  { destruct Hm as [(-> & _ & ->)|(ns & _ & -> & ? & ->)]; [cbn; by rewrite app_nil_r|].
    rewrite units_split by lia. cbn. by rewrite app_nil_r. }
  unfold free_block. rewrite Hff. cbn [mbind option_bind]. rewrite Hgp. cbn [mbind option_bind].
  rewrite Hgb. cbn [mbind option_bind].
  eapply (HK (fun o => exists s' rest', (o ≫= _) = Some s' /\ _)). clear HK. cbn [mbind option_bind].
  set (s1 := upd s b (Hdr (hd_addr R2' (base s)) t')).
  assert (Hgp1 : get s1 p = Some (hd_addr R2 (base s), ps)).
  { unfold s1. rewrite get_upd. rewrite decide_False by lia. exact Hgp. }
  rewrite Hgp1. cbn [mbind option_bind].
  assert (Hgb1 : get s1 b = Some (hd_addr R2' (base s), t')).
  { unfold s1. rewrite get_upd. rewrite decide_True by done. rewrite (get_mapped _ _ _ Hgb). done. }
  (* facts about the ring *)
  pose proof (i_ring _ _ _ I) as Hring. rewrite EL in Hring. apply seg_app in Hring as [HgX Hring].
  cbn [hd_addr] in HgX. destruct Hring as [Hmp HgR2].
  rewrite ER2 in HgR2. apply seg_app in HgR2 as [_ HgR2'].
  destruct (NoDup_addrs _ _ _ I _ _ _ _ EL) as [HpX HpR2].
  assert (HpR2' : p ∉ R2'.*1) by (intros H; apply HpR2; rewrite ER2, fmap_app; apply elem_of_app; by right).
  assert (HbX : b ∉ X.*1).
  { apply forall_notin. left. destruct (inv_split_gt _ _ _ I _ _ _ _ EL) as [_ HX2].
    eapply Forall_impl; [exact HX2|]. intros [] ?; cbn in *; lia. }
  assert (HbR2' : b ∉ R2'.*1).
  { apply forall_notin. right. rewrite ER2 in HR2. apply Forall_app in HR2 as [_ ?]. done. }
  assert (Hlive' : forall a n, (a, n) ∈ live -> a <> b /\ a <> p).
  { intros a n Hin. assert (Hin' : (a, n) ∈ (b, t) :: live) by (by right).
    destruct (inv_live _ _ _ I _ _ Hin') as (? & ? & ?). split.
    - apply elem_of_Permutation in Hin as (o & Ho).
      destruct (tile_disj s (rest ++ (b, t) :: live) b t a n (rest ++ o) (i_tile _ _ _ I)) as [?|?]; [|lia|lia|lia|lia].
      rewrite Ho. rewrite (Permutation_app_comm rest). cbn. do 2 f_equiv. apply Permutation_app_comm.
    - destruct HX as [(-> & -> & ->)|(X' & -> & EX')]; [unfold p; cbn; lia|].
      assert (Hpin : (p, ps) ∈ rest) by (rewrite E, EX'; apply elem_of_app; left; apply elem_of_app; right; left).
      destruct (inv_rest _ _ _ I _ _ Hpin) as (?&?&?).
      destruct (inv_rest_live _ _ _ I _ _ _ _ Hpin Hin'); lia. }
  assert (Hfree_live : forall m' : gmap Z unit_, (forall u, u <> b -> u <> p -> m' !! u = mem s !! u) ->
    Forall (fun x : block => 0 < x.2 /\ exists y, m' !! x.1 = Some (Hdr y x.2)) live).
  { intros m' Hm'. pose proof (i_live _ _ _ I) as Hl. apply Forall_cons_1 in Hl as [_ Hl].
    apply Forall_forall. intros [a n] Hin. destruct (Hlive' _ _ Hin) as [? ?].
    pose proof (proj1 (Forall_forall _ _) Hl _ Hin) as [? [y Hy]]. cbn in *. split; [done|]. exists y. rewrite Hm' by done. done. }
  assert (Hpu : p = base s \/ p ∈ all_units rest).
  { destruct HX as [(-> & -> & ->)|(X' & -> & EX')]; [left; done|right].
    assert (Hpin : (p, ps) ∈ rest) by (rewrite E, EX'; apply elem_of_app; left; apply elem_of_app; right; left).
    destruct (inv_rest _ _ _ I _ _ Hpin) as (?&?&?).
    apply elem_all_units. exists (p, ps). split; [done|]. apply elem_units. cbn. lia. }
  destruct (decide (p + ps = b)) as [Eleft|Eleft].
  - (* merge with the block before *)
    destruct HX as [(-> & -> & ->)|(X' & -> & EX')]; [unfold p in Eleft; cbn in Eleft; lia|].
    assert (Hpin : (p, ps) ∈ rest) by (rewrite E, EX'; apply elem_of_app; left; apply elem_of_app; right; left).
    destruct (inv_rest _ _ _ I _ _ Hpin) as (Hp1 & Hp2 & Hp3).
    rewrite Hgb1. cbn [mbind option_bind].
    rewrite (set_size_ok _ _ _ _ _ Hgp1) by lia. cbn [mbind option_bind].
    rewrite get_upd. rewrite decide_False by lia. rewrite Hgb1. cbn [mbind option_bind].
    rewrite (set_ptr_ok _ p _ (hd_addr R2 (base s)) (ps + t')).
    2:{ rewrite get_upd. rewrite decide_True by done. rewrite (get_mapped _ _ _ Hgp1). done. }
    rewrite upd_upd. cbn [mbind option_bind].
    exists (set_freep (upd s1 p (Hdr (hd_addr R2' (base s)) (ps + t'))) p), (X' ++ (p, ps + t') :: R2').
    split; [done|]. split.
    + constructor; cbn [set_freep upd s1 mem freep base start cur limit].
      * apply (i_al _ _ _ I).
      * apply (i_lim _ _ _ I).
      * apply (i_base _ _ _ I).
      * change ((base s, 0) :: X' ++ (p, ps + t') :: R2') with (((base s, 0) :: X') ++ (p, ps + t') :: R2').
        apply seg_app. split.
        -- rewrite seg_upd, seg_upd by done. exact HgX.
        -- split; [by rewrite lookup_insert|]. rewrite seg_upd, seg_upd by done. exact HgR2'.
      * rewrite EX' in HsR1. apply srt_app in HsR1 as [Ha Hb]. cbn in Hb. destruct Hb as (Hb & Hc & _).
        apply srt_app. split; [done|]. cbn. split; [done|]. split; [lia|].
        replace (p + (ps + t')) with (b + t') by lia. done.
      * change (lo (set_freep _ _)) with (lo s). change (hi (set_freep _ _)) with (hi s).
        rewrite <- (i_tile _ _ _ I). rewrite E, EX', ER2.
        rewrite !all_units_app. cbn [all_units flat_map]. fold (all_units live). fold (all_units R2').
        rewrite units_split by lia. rewrite Eleft, Huni. rewrite app_nil_r.
        rewrite <- !app_assoc. apply Permutation_app_head. apply Permutation_app_head.
        rewrite Permutation_app_swap_app. apply Permutation_app_head. apply Permutation_app_swap_app.
      * change (((base s, 0) :: X' ++ (p, ps + t') :: R2').*1) with (base s :: (X' ++ (p, ps + t') :: R2').*1).
        rewrite fmap_app. right. apply elem_of_app. right. left.
      * apply Hfree_live. intros u Hu1 Hu2. rewrite lookup_insert_ne by done. apply lookup_insert_ne. done.
    + split; [|split; [done|split; [done|split; [done|split; [done|]]]]].
      * intros u Hu1 Hu2 Hu3. cbn. rewrite lookup_insert_ne by (intros <-; destruct Hpu; done). apply lookup_insert_ne. done.
      * exists p, (ps + t'). split; [apply elem_of_app; right; left|lia].
  - rewrite (set_ptr_ok _ p _ _ _ Hgp1). cbn [mbind option_bind].
    exists (set_freep (upd s1 p (Hdr b ps)) p), (R1 ++ (b, t') :: R2').
    split; [done|]. split.
    + constructor; cbn [set_freep upd s1 mem freep base start cur limit].
      * apply (i_al _ _ _ I).
      * apply (i_lim _ _ _ I).
      * apply (i_base _ _ _ I).
      * change ((base s, 0) :: R1 ++ (b, t') :: R2') with (((base s, 0) :: R1) ++ (b, t') :: R2').
        rewrite EX, <- app_assoc. apply seg_app. split.
        -- rewrite seg_upd, seg_upd by done. exact HgX.
        -- cbn [app seg hd_addr]. split; [by rewrite lookup_insert|].
           split; [rewrite lookup_insert_ne by lia; by rewrite lookup_insert|].
           rewrite seg_upd, seg_upd by done. exact HgR2'.
      * apply srt_app. split; [done|]. rewrite <- Hend. cbn. split; [lia|]. split; [lia|done].
      * change (lo (set_freep _ _)) with (lo s). change (hi (set_freep _ _)) with (hi s).
        rewrite <- (i_tile _ _ _ I). rewrite E, ER2.
        rewrite !all_units_app. cbn [all_units flat_map]. fold (all_units live). fold (all_units R2').
        rewrite Huni. rewrite <- !app_assoc. apply Permutation_app_head.
        rewrite Permutation_app_swap_app. apply Permutation_app_head. apply Permutation_app_swap_app.
      * change ((base s, 0) :: R1 ++ (b, t') :: R2') with (((base s, 0) :: R1) ++ (b, t') :: R2').
        rewrite EX, fmap_app, fmap_app. apply elem_of_app. left. apply elem_of_app. right. left.
      * apply Hfree_live. intros u Hu1 Hu2. rewrite lookup_insert_ne by done. apply lookup_insert_ne. done.
    + split; [|split; [done|split; [done|split; [done|split; [done|]]]]].
      * intros u Hu1 Hu2 Hu3. cbn. rewrite lookup_insert_ne by (intros <-; destruct Hpu; done). apply lookup_insert_ne. done.
      * exists b, t'. split; [apply elem_of_app; right; left|lia].
Qed.
