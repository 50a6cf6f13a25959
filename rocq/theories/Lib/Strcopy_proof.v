(** The library functions that write to memory. *)
From stdpp Require Import base list numbers gmap.
From Coq Require Import Lia ZArith.
From Verif Require Import Lib.Cmem Lib.String_model Lib.String_spec Lib.String_proof.
Local Open Scope Z_scope.

Lemma memcpy_up : forall l m d s, bytes_at m s l -> accessible m d (length l) ->
  (d <= s \/ s + Z.of_nat (length l) <= d) ->
  exists m', memcpy m d s (length l) = Some m' /\ stored m d l m'.
Proof.
  induction l as [|c l IH]; intros m d s Hs Hd Hov; cbn [memcpy length].
  - exists m. split; [done|apply stored_nil].
  - apply bytes_cons in Hs as [Hc Hs]. cbn [length] in Hd. apply accessible_S in Hd as [Hw Hd].
    unfold read. rd Hc. rewrite write_ok by done. cbn [mbind option_bind].
    simpl length in Hov.
    destruct (IH (<[d:=c]> m) (d + 1) (s + 1)) as (m' & H1 & H2).
    + apply bytes_insert; [done|lia].
    + apply accessible_insert. done.
    + lia.
    + exists m'. split; [done|]. apply stored_cons. done.
Qed.

Lemma stored_snoc_first m d l c m' : stored (<[d + Z.of_nat (length l) := c]> m) d l m' ->
  stored m d (l ++ [c]) m'.
Proof.
  intros H a. rewrite (H a), app_length. simpl length.
  destruct (decide (d <= a < d + Z.of_nat (length l))) as [Hin|Hout].
  - rewrite decide_True by lia. rewrite lookup_app_l by lia. done.
  - destruct (decide (a = d + Z.of_nat (length l))) as [->|Hne].
    + rewrite lookup_insert, decide_True by lia.
      replace (Z.to_nat (d + Z.of_nat (length l) - d)) with (length l) by lia.
      rewrite lookup_app_r by lia. rewrite Nat.sub_diag. done.
    + rewrite lookup_insert_ne by done. rewrite decide_False by lia. done.
Qed.

Lemma copy_down_ok : forall l m d s, bytes_at m s l -> accessible m d (length l) -> s < d ->
  exists m', copy_down m (d + Z.of_nat (length l)) (s + Z.of_nat (length l)) (length l) = Some m' /\
    stored m d l m'.
Proof.
  induction l as [|c l IH] using rev_ind; intros m d s Hs Hd Hov.
  - exists m. split; [done|apply stored_nil].
  - rewrite app_length in *. simpl length in *. rewrite Nat.add_1_r in *. cbn [copy_down].
    apply bytes_app in Hs as [Hs Hc]. apply read_0 in Hc.
    replace (s + Z.of_nat (S (length l)) - 1) with (s + Z.of_nat (length l)) by lia.
    replace (d + Z.of_nat (S (length l)) - 1) with (d + Z.of_nat (length l)) by lia.
    unfold read. rd Hc. rewrite write_ok by (apply Hd; lia). cbn [mbind option_bind].
    destruct (IH (<[d + Z.of_nat (length l):=c]> m) d s) as (m' & H1 & H2).
    + apply bytes_insert; [done|lia].
    + apply accessible_insert. intros i Hi. apply Hd. lia.
    + done.
    + exists m'. split; [done|]. apply stored_snoc_first. done.
Qed.

Lemma memmove_ok l m d s : bytes_at m s l -> accessible m d (length l) ->
  exists m', memmove m d s (length l) = Some m' /\ stored m d l m'.
Proof.
  intros Hs Hd. unfold memmove. destruct (decide _) as [H|H].
  - apply copy_down_ok; [done|done|lia].
  - apply memcpy_up; [done|done|lia].
Qed.

Lemma memset_ok : forall n m p v, accessible m p n ->
  exists m', memset m p v n = Some m' /\ stored m p (replicate n (v mod 256)) m'.
Proof.
  induction n as [|n IH]; intros m p v Hp; cbn [memset].
  - exists m. split; [done|apply stored_nil].
  - apply accessible_S in Hp as [Hw Hp]. rewrite write_ok by done. cbn [mbind option_bind].
    destruct (IH (<[p := v mod 256]> m) (p + 1) v) as (m' & H1 & H2); [apply accessible_insert; done|].
    exists m'. split; [done|]. apply stored_cons. done.
Qed.

Lemma copy_str_ok : forall str m d s fuel, cstr m s str -> accessible m d (S (length str)) ->
  apart s (S (length str)) d (S (length str)) -> (length str < fuel)%nat ->
  exists m', copy_str fuel m d s = Some (m', d + Z.of_nat (length str) + 1) /\ stored m d (str ++ [0]) m'.
Proof.
  induction str as [|c str IH]; intros m d s fuel Hs Hd Hap Hf; (destruct fuel as [|fuel]; [simpl in Hf; lia|]); cbn [copy_str]; unfold read.
  - rd (cstr_nil _ _ Hs). apply accessible_S in Hd as [Hw _]. rewrite write_ok by done. cbn [mbind option_bind].
    rewrite decide_True by done. eexists. split; [f_equal; f_equal; simpl; lia|].
    apply stored_cons, stored_nil.
  - apply cstr_cons in Hs as (Hc & Hcr & Hs). rd Hc. apply accessible_S in Hd as [Hw Hd].
    rewrite write_ok by done. cbn [mbind option_bind]. rewrite decide_False by lia.
    unfold apart in Hap. simpl length in *.
    destruct (IH (<[d:=c]> m) (d + 1) (s + 1) fuel) as (m' & H1 & H2).
    + destruct Hs as [Hb Hn]. split; [|done]. apply bytes_insert; [done|]. rewrite app_length. simpl. lia.
    + apply accessible_insert. done.
    + unfold apart. lia.
    + lia.
    + exists m'. split; [rewrite H1; f_equal; f_equal; lia|]. apply stored_cons. done.
Qed.

Lemma strcpy_ok str m d s fuel : cstr m s str -> accessible m d (S (length str)) ->
  apart s (S (length str)) d (S (length str)) -> (length str < fuel)%nat ->
  exists m', strcpy fuel m d s = Some m' /\ stored m d (str ++ [0]) m'.
Proof.
  intros Hs Hd Hap Hf. destruct (copy_str_ok str m d s fuel Hs Hd Hap Hf) as (m' & H1 & H2).
  unfold strcpy. rewrite H1. exists m'. done.
Qed.

Lemma cstr_join m p s t m' : cstr m p s -> stored m (p + Z.of_nat (length s)) (t ++ [0]) m' -> nonzero t ->
  cstr m' p (s ++ t).
Proof.
  intros [Hb Hn] Hst Ht. split; [|apply Forall_app; done]. rewrite <- app_assoc. apply bytes_app. split.
  - apply bytes_app in Hb as [Hb _]. intros i c Hi. rewrite (stored_other _ _ _ _ _ Hst); [auto|].
    apply lookup_lt_Some in Hi. lia.
  - apply stored_bytes in Hst. done.
Qed.

Lemma strcat_ok m d s a b fuel : cstr m d a -> cstr m s b -> accessible m d (S (length a + length b)) ->
  apart s (S (length b)) d (S (length a + length b)) -> (length a < fuel)%nat -> (length b < fuel)%nat ->
  exists m', strcat fuel m d s = Some m' /\ cstr m' d (a ++ b) /\
    stored m (d + Z.of_nat (length a)) (b ++ [0]) m'.
Proof.
  intros Ha Hb Hd Hap Hfa Hfb. unfold strcat. rd (strlen_ok _ _ _ _ Ha Hfa).
  destruct (strcpy_ok b m (d + Z.of_nat (length a)) s fuel Hb) as (m' & H1 & H2).
  - intros i Hi. rewrite <- Z.add_assoc, <- Nat2Z.inj_add. apply Hd. lia.
  - unfold apart in *. lia.
  - done.
  - exists m'. split; [done|]. split; [|done]. eapply cstr_join; [done|done|]. apply Hb.
Qed.

Lemma ncat_ok : forall n m d s str, cstr m s str -> accessible m d (S (Nat.min n (length str))) ->
  apart s (S (length str)) d (S (Nat.min n (length str))) ->
  exists m', ncat_loop m d s n = Some m' /\ stored m d (take n str ++ [0]) m'.
Proof.
  induction n as [|n IH]; intros m d s str Hs Hd Hap; cbn [ncat_loop].
  - apply accessible_S in Hd as [Hw _]. rewrite write_ok by done. eexists. split; [done|].
    apply stored_cons, stored_nil.
  - unfold read. destruct str as [|c str].
    + rd (cstr_nil _ _ Hs). apply accessible_S in Hd as [Hw _]. rewrite write_ok by done.
      eexists. split; [done|]. apply stored_cons, stored_nil.
    + apply cstr_cons in Hs as (Hc & Hcr & Hs). rd Hc. rewrite decide_False by lia.
      simpl Nat.min in *. apply accessible_S in Hd as [Hw Hd]. rewrite write_ok by done. cbn [mbind option_bind].
      unfold apart in Hap. simpl length in *.
      destruct (IH (<[d:=c]> m) (d + 1) (s + 1) str) as (m' & H1 & H2).
      * destruct Hs as [Hb Hn]. split; [|done]. apply bytes_insert; [done|]. rewrite app_length. simpl. lia.
      * apply accessible_insert. done.
      * unfold apart. lia.
      * exists m'. split; [done|]. simpl take. apply (stored_cons _ _ c (take n str ++ [0])). done.
Qed.

Lemma nonzero_take n s : nonzero s -> nonzero (take n s).
Proof. intros H. apply Forall_take. done. Qed.

Lemma strncat_ok n m d s a b fuel : cstr m d a -> cstr m s b ->
  accessible m d (S (length a + Nat.min n (length b))) ->
  apart s (S (length b)) d (S (length a + Nat.min n (length b))) -> (length a < fuel)%nat ->
  exists m', strncat fuel m d s n = Some m' /\ cstr m' d (a ++ take n b) /\
    stored m (d + Z.of_nat (length a)) (take n b ++ [0]) m'.
Proof.
  intros Ha Hb Hd Hap Hfa. unfold strncat. rd (strlen_ok _ _ _ _ Ha Hfa).
  destruct (ncat_ok n m (d + Z.of_nat (length a)) s b Hb) as (m' & H1 & H2).
  - intros i Hi. rewrite <- Z.add_assoc, <- Nat2Z.inj_add. apply Hd. lia.
  - unfold apart in *. lia.
  - exists m'. split; [done|]. split; [|done]. eapply cstr_join; [done|done|]. apply nonzero_take, Hb.
Qed.

(* strncpy: the characters that are copied; there is no padding *)
Lemma strncpy_ok : forall n m d s str, cstr m s str -> accessible m d (Nat.min n (S (length str))) ->
  apart s (S (length str)) d (Nat.min n (S (length str))) ->
  exists m', strncpy m d s n = Some m' /\ stored m d (take n (str ++ [0])) m'.
Proof.
  induction n as [|n IH]; intros m d s str Hs Hd Hap; cbn [strncpy].
  - exists m. split; [done|apply stored_nil].
  - simpl Nat.min in *. apply accessible_S in Hd as [Hw Hd]. unfold read. destruct str as [|c str].
    + rd (cstr_nil _ _ Hs). rewrite write_ok by done. cbn [mbind option_bind]. rewrite decide_True by done.
      eexists. split; [done|]. simpl take. rewrite take_nil. apply stored_cons, stored_nil.
    + apply cstr_cons in Hs as (Hc & Hcr & Hs). rd Hc. rewrite write_ok by done. cbn [mbind option_bind].
      rewrite decide_False by lia. unfold apart in Hap. simpl length in *.
      destruct (IH (<[d:=c]> m) (d + 1) (s + 1) str) as (m' & H1 & H2).
      * destruct Hs as [Hb Hn]. split; [|done]. apply bytes_insert; [done|]. rewrite app_length. simpl. lia.
      * apply accessible_insert. done.
      * unfold apart. lia.
      * exists m'. split; [done|]. simpl take. apply stored_cons. done.
Qed.

(* C requires the rest of the n bytes to be zero *)
Lemma strncpy_no_pad : exists m d s n m', cstr m s [97] /\ accessible m d n /\ apart s 2 d n /\
  strncpy m d s n = Some m' /\ ~ bytes_at m' d ([97] ++ replicate (n - 1) 0).
Proof.
  exists (mem_of 10 [97; 0; 1; 1; 1; 1]), 12, 10, 4%nat. eexists.
  split; [split; [|repeat constructor; lia]; intros [|[|i]] c Hc; simpl in Hc; simplify_eq; reflexivity|].
  split; [intros [|[|[|[|i]]]] Hi; try lia; vm_compute; eauto|].
  split; [left; simpl; lia|]. split; [reflexivity|].
  intros H. specialize (H 3%nat 0 eq_refl). vm_compute in H. done.
Qed.

(* stpcpy must return the address of the NUL *)
Lemma stpcpy_off_by_one : exists m d s str m', cstr m s str /\ accessible m d (S (length str)) /\
  apart s (S (length str)) d (S (length str)) /\
  stpcpy 5 m d s = Some (m', d + Z.of_nat (length str) + 1) /\ m' !! (d + Z.of_nat (length str)) = Some 0.
Proof.
  exists (mem_of 10 [97; 0; 1; 1]), 12, 10, [97]. eexists.
  split; [split; [|repeat constructor; lia]; intros [|[|i]] c Hc; simpl in Hc; simplify_eq; reflexivity|].
  split; [intros [|[|i]] Hi; simpl in Hi; try lia; vm_compute; eauto|].
  split; [left; simpl; lia|]. split; reflexivity.
Qed.

(* memccpy must copy the searched character too and return the address after it *)
Lemma memccpy_wrong : exists m d s m', bytes_at m s [97; 98; 99] /\ accessible m d 3 /\
  memccpy m d s 98 3 = Some (d, m') /\ m' !! (d + 1) = m !! (d + 1) /\ m !! (d + 1) <> Some 98.
Proof.
  exists (mem_of 10 [97; 98; 99; 1; 1; 1]), 13, 10. eexists.
  split; [intros [|[|[|i]]] c Hc; simpl in Hc; simplify_eq; reflexivity|].
  split; [intros [|[|[|i]]] Hi; simpl in Hi; try lia; vm_compute; eauto|].
  split; [reflexivity|]. split; [reflexivity|]. vm_compute. congruence.
Qed.

(* strcasecmp distinguishes case *)
Lemma strcasecmp_wrong : exists m p q, cstr m p [97] /\ cstr m q [65] /\
  map fold_case [97] = map fold_case [65] /\ strcasecmp 5 m p q = Some 32.
Proof.
  exists (mem_of 10 [97; 0; 65; 0]), 10, 12.
  split; [split; [|repeat constructor; lia]; intros [|[|i]] c Hc; simpl in Hc; simplify_eq; reflexivity|].
  split; [split; [|repeat constructor; lia]; intros [|[|i]] c Hc; simpl in Hc; simplify_eq; reflexivity|].
  split; reflexivity.
Qed.

Lemma fold_case_nz c : 0 < c < 256 -> tolower c <> 0.
Proof. intros Hc. unfold tolower. destruct ((65 <=? c) && (c <=? 90)); lia. Qed.

Lemma strncasecmp_ok m : forall n s t p q, cstr m p s -> cstr m q t ->
  exists r, strncasecmp m p q n = Some r /\
    (r ?= 0) = lex (map fold_case (take n s)) (map fold_case (take n t)).
Proof.
  induction n as [|n IH]; intros s t p q Hp Hq; cbn [strncasecmp]; [eauto|]. unfold read.
  destruct s as [|c s].
  - rd (cstr_nil _ _ Hp). destruct t as [|d t].
    + rd (cstr_nil _ _ Hq). change (tolower 0) with 0. rewrite decide_False by lia.
      rewrite decide_True by done. eauto.
    + apply cstr_cons in Hq as (Hq & Hd & _). rd Hq. change (tolower 0) with 0.
      assert (tolower d > 0) by (unfold tolower; destruct ((65 <=? d) && (d <=? 90)); lia).
      rewrite decide_True by lia. eexists; split; [done|]. simpl. apply Z.compare_lt_iff. lia.
  - apply cstr_cons in Hp as (Hp & Hc & Hs). rd Hp.
    assert (tolower c > 0) by (unfold tolower; destruct ((65 <=? c) && (c <=? 90)); lia).
    destruct t as [|d t].
    + rd (cstr_nil _ _ Hq). change (tolower 0) with 0. rewrite decide_True by lia.
      eexists; split; [done|]. simpl. apply Z.compare_gt_iff. lia.
    + apply cstr_cons in Hq as (Hq & Hd & Ht). rd Hq. simpl take. simpl map. simpl lex.
      change (fold_case c) with (tolower c). change (fold_case d) with (tolower d).
      destruct (decide (tolower c - tolower d <> 0)) as [Hne|He].
      * eexists; split; [done|]. rewrite (Z.compare_sub (tolower c) (tolower d)).
        destruct (tolower c - tolower d ?= 0) eqn:E; try done. apply Z.compare_eq in E. lia.
      * rewrite decide_False by lia. assert (E : tolower c = tolower d) by lia. rewrite E, Z.compare_refl.
        apply IH; done.
Qed.

(** * strtok *)
Section Tok.
Context (t : list Z).
Notation isd := (is_delim t).
Notation closed := (ends_in_delim t).

Lemma tokens_delims ds : Forall (fun c => c ∈ t) ds -> forall k s,
  tokens_from isd [] k (ds ++ s) = tokens_from isd [] (k + length ds) s.
Proof.
  induction ds as [|c ds IH]; intros Hd k s; simpl; [rewrite Nat.add_0_r; done|].
  apply Forall_cons_1 in Hd as [Hc Hd]. unfold is_delim at 1. rewrite bool_decide_true by done.
  rewrite IH by done. f_equal. lia.
Qed.
Lemma tokens_word w : Forall (fun c => c ∉ t) w -> forall cur k s,
  tokens_from isd cur k (w ++ s) = tokens_from isd (rev w ++ cur) (k + length w) s.
Proof.
  induction w as [|c w IH]; intros Hw cur k s; simpl; [rewrite Nat.add_0_r; done|].
  apply Forall_cons_1 in Hw as [Hc Hw]. unfold is_delim at 1. rewrite bool_decide_false by done.
  rewrite IH by done. rewrite <- app_assoc. f_equal. lia.
Qed.

(* one call, token followed by a delimiter *)
Lemma strtok_token m p q fuel ds w c rest : cstr m p (ds ++ w ++ c :: rest) -> cstr m q t ->
  Forall (fun c => c ∈ t) ds -> Forall (fun c => c ∉ t) w -> w <> [] -> c ∈ t ->
  apart p (S (length (ds ++ w ++ c :: rest))) q (S (length t)) ->
  (length (ds ++ w ++ c :: rest) < fuel)%nat -> (length t < fuel)%nat ->
  forall src ptr, default ptr src = p ->
  let a := p + Z.of_nat (length ds) in
  let e := a + Z.of_nat (length w) in
  strtok_r fuel m src q ptr = Some (Some a, e + 1, <[e := 0]> m) /\
  cstr (<[e := 0]> m) (e + 1) rest /\ cstr (<[e := 0]> m) q t /\ cstr (<[e := 0]> m) a w.
Proof.
  intros Hp Hq Hds Hw Hwne Hc Hap Hf Hft src ptr Hptr. cbn zeta.
  set (s := ds ++ w ++ c :: rest) in *. unfold strtok_r. rewrite Hptr.
  destruct (strspn_ok m t q fuel Hq Hft s p fuel Hp Hf) as (n & H1 & (Hn1 & Hn2 & Hn3)). rd H1.
  assert (Hn : n = length ds).
  { destruct w as [|x w]; [done|]. apply Forall_cons_1 in Hw as [Hx _].
    destruct (decide (n < length ds)%nat) as [Hlt|Hge].
    - exfalso. assert (is_Some (ds !! n)) as [y Hy] by (apply lookup_lt_is_Some; done).
      apply (Hn3 y). { unfold s. rewrite lookup_app_l by done. done. }
      rewrite Forall_lookup in Hds. eapply Hds; done.
    - destruct (decide (length ds < n)%nat) as [Hlt|]; [|lia]. exfalso. apply Hx.
      rewrite Forall_lookup in Hn2. apply (Hn2 (length ds)). rewrite lookup_take by done.
      unfold s. rewrite lookup_app_r by lia. rewrite Nat.sub_diag. done. }
  subst n. set (a := p + Z.of_nat (length ds)). set (e := a + Z.of_nat (length w)).
  assert (Ha : cstr m a (w ++ c :: rest)).
  { destruct Hp as [Hb Hnz]. unfold s in Hb, Hnz. rewrite <- app_assoc in Hb. apply bytes_app in Hb as [_ Hb].
    apply Forall_app in Hnz as [_ Hnz]. split; done. }
  destruct w as [|x w]; [done|]. pose proof Ha as Ha0. simpl app in Ha0. apply cstr_cons in Ha0 as (Hx & Hxr & _).
  unfold read. rd Hx. rewrite decide_False by lia.
  assert (Hls : length s = (length ds + length ((x :: w) ++ c :: rest))%nat) by (unfold s; rewrite app_length; done).
  destruct (strcspn_ok m t q fuel Hq Hft ((x :: w) ++ c :: rest) a fuel Ha) as (k & H2 & (Hk1 & Hk2 & Hk3)); [lia|].
  rewrite H2. cbn [mbind option_bind].
  assert (Hk : k = length (x :: w)).
  { destruct (decide (k < length (x :: w))%nat) as [Hlt|Hge].
    - exfalso. assert (is_Some ((x :: w) !! k)) as [y Hy] by (apply lookup_lt_is_Some; done).
      apply (Hk3 y). { rewrite lookup_app_l by done. done. }
      rewrite Forall_lookup in Hw. eapply Hw; done.
    - destruct (decide (length (x :: w) < k)%nat) as [Hlt|]; [|lia]. exfalso.
      rewrite Forall_lookup in Hk2. eapply (Hk2 (length (x :: w))); [|exact Hc].
      rewrite lookup_take by done. rewrite lookup_app_r by lia. rewrite Nat.sub_diag. done. }
  subst k. fold e.
  assert (He : cstr m e (c :: rest)).
  { destruct Ha as [Hb Hnz]. rewrite <- app_assoc in Hb. apply bytes_app in Hb as [_ Hb].
    apply Forall_app in Hnz as [_ Hnz]. split; done. }
  apply cstr_cons in He as (He & Hcr & Hrest).
  rewrite write_ok by eauto. cbn [mbind option_bind]. split; [done|].
  assert (Hlw : length ((x :: w) ++ c :: rest) = (length (x :: w) + S (length rest))%nat)
    by (rewrite app_length; done).
  split; [|split].
  - destruct Hrest as [Hb Hnz]. split; [|done]. apply bytes_insert; [done|lia].
  - destruct Hq as [Hb Hnz]. split; [|done]. apply bytes_insert; [done|]. unfold apart in Hap.
    rewrite app_length. simpl length. lia.
  - split.
    + apply bytes_app. split.
      * apply bytes_insert; [|lia]. destruct Ha as [Hb _]. rewrite <- app_assoc in Hb. apply bytes_app in Hb as [Hb _]. done.
      * apply bytes_cons. split; [|apply bytes_nil]. fold e. apply lookup_insert.
    + destruct Ha as [_ Hnz]. apply Forall_app in Hnz as [Hnz _]. done.
Qed.

(* one call, only delimiters left *)
Lemma strtok_end m p q fuel ds : cstr m p ds -> cstr m q t -> Forall (fun c => c ∈ t) ds ->
  (length ds < fuel)%nat -> (length t < fuel)%nat -> forall src ptr, default ptr src = p ->
  strtok_r fuel m src q ptr = Some (None, p + Z.of_nat (length ds), m) /\ cstr m (p + Z.of_nat (length ds)) [].
Proof.
  intros Hp Hq Hds Hf Hft src ptr Hptr. unfold strtok_r. rewrite Hptr.
  destruct (strspn_ok m t q fuel Hq Hft ds p fuel Hp Hf) as (n & H1 & (Hn1 & Hn2 & Hn3)). rd H1.
  assert (n = length ds) as ->.
  { destruct (decide (n < length ds)%nat) as [Hlt|]; [|lia]. exfalso.
    assert (is_Some (ds !! n)) as [y Hy] by (apply lookup_lt_is_Some; done).
    apply (Hn3 y); [done|]. rewrite Forall_lookup in Hds. eapply Hds; done. }
  assert (He : cstr m (p + Z.of_nat (length ds)) []).
  { destruct Hp as [Hb _]. apply bytes_app in Hb as [_ Hb]. split; [done|constructor]. }
  unfold read. rd (cstr_nil _ _ He). done.
Qed.

Lemma split_string s : closed s ->
  Forall (fun c => c ∈ t) s \/
  exists ds w c rest, s = ds ++ w ++ c :: rest /\ Forall (fun c => c ∈ t) ds /\
    Forall (fun c => c ∉ t) w /\ w <> [] /\ c ∈ t /\ closed rest.
Proof.
  intros Hcl.
  assert (Hsp : forall (P : Z -> Prop) `{!forall x, Decision (P x)} (l : list Z),
    exists l1 l2, l = l1 ++ l2 /\ Forall P l1 /\ (forall x r, l2 = x :: r -> ~ P x)).
  { intros P HP l. induction l as [|x l IH].
    - exists [], []. split; [done|]. split; [constructor|done].
    - destruct (HP x) as [Hx|Hx].
      + destruct IH as (l1 & l2 & -> & H1 & H2). exists (x :: l1), l2. split; [done|].
        split; [constructor; done|done].
      + exists [], (x :: l). split; [done|]. split; [constructor|]. intros y r [= <- <-]. done. }
  destruct (Hsp (fun c => c ∈ t) _ s) as (ds & r & -> & Hds & Hr).
  destruct r as [|x r]; [left; rewrite app_nil_r; done|]. right.
  specialize (Hr x r eq_refl).
  destruct (Hsp (fun c => c ∉ t) _ (x :: r)) as (w & r2 & E & Hw & Hr2).
  assert (Hwne : w <> []).
  { intros ->. simpl in E. subst r2. apply (Hr2 x r eq_refl). done. }
  rewrite E in Hcl |- *. destruct r2 as [|c rest].
  { exfalso. rewrite app_nil_r in Hcl. destruct Hcl as [Hcl|(y & c & Hy & Hc)].
    - apply app_nil in Hcl as [_ ->]. done.
    - destruct (exists_last Hwne) as (w0 & z & ->). rewrite app_assoc in Hy. apply app_inj_tail in Hy as [_ ->].
      apply Forall_app in Hw as [_ Hw]. apply Forall_cons_1 in Hw as [Hw _]. done. }
  exists ds, w, c, rest. split; [done|]. split; [done|]. split; [done|]. split; [done|].
  assert (Hc : c ∈ t).
  { destruct (decide (c ∈ t)); [done|]. exfalso. apply (Hr2 c rest eq_refl). done. }
  split; [done|]. destruct (decide (rest = [])) as [->|Hne]; [left; done|]. right.
  destruct Hcl as [Hcl|(y & z & Hy & Hz)].
  - apply app_nil in Hcl as [_ Hcl]. apply app_nil in Hcl as [_ Hcl]. done.
  - destruct (exists_last Hne) as (y' & z' & ->). exists y', z'. split; [done|].
    replace (ds ++ w ++ c :: y' ++ [z']) with ((ds ++ w ++ c :: y') ++ [z']) in Hy
      by (rewrite <- !app_assoc; simpl; rewrite <- ?app_assoc; done).
    apply app_inj_tail in Hy as [_ ->]. done.
Qed.

Lemma tokens_split k ds w c rest : Forall (fun c => c ∈ t) ds -> Forall (fun c => c ∉ t) w -> w <> [] -> c ∈ t ->
  tokens_from isd [] k (ds ++ w ++ c :: rest) =
  ((k + length ds)%nat, w) :: tokens_from isd [] (k + length ds + length w + 1) rest.
Proof.
  intros Hds Hw Hne Hc. rewrite tokens_delims by done. rewrite tokens_word by done.
  cbn [tokens_from]. unfold is_delim at 1. rewrite bool_decide_true by done. rewrite app_nil_r.
  destruct (rev w) as [|x r] eqn:E.
  { exfalso. apply Hne. rewrite <- (rev_involutive w), E. done. }
  rewrite <- E, rev_involutive, rev_length. f_equal; [f_equal; lia|f_equal; lia].
Qed.
Lemma tokens_none k ds : Forall (fun c => c ∈ t) ds -> tokens_from isd [] k ds = [].
Proof. intros H. rewrite <- (app_nil_r ds), tokens_delims by done. done. Qed.

Lemma strtok_nulls m q fuel : cstr m q t -> (length t < fuel)%nat -> forall extra ptr,
  (0 < fuel)%nat -> cstr m ptr [] ->
  strtok_calls fuel extra m None q ptr = Some (replicate extra None, m).
Proof.
  intros Hq Hft. induction extra as [|n IH]; intros ptr Hf Hp; [done|]. cbn [strtok_calls replicate].
  destruct (strtok_end m ptr q fuel [] Hp Hq) with (src := None : option Z) (ptr := ptr) as [H1 H2]; [constructor|simpl; lia|lia|done|].
  rewrite H1. cbn [mbind option_bind]. rewrite IH; [done|done|done].
Qed.

Lemma strtok_seq q fuel extra p0 : (length t < fuel)%nat ->
  forall n s, (length s <= n)%nat -> closed s -> forall m p k src ptr, cstr m p s -> cstr m q t ->
  apart p (S (length s)) q (S (length t)) -> (length s < fuel)%nat -> default ptr src = p ->
  p = p0 + Z.of_nat k ->
  let toks := tokens_from isd [] k s in
  exists m', strtok_calls fuel (length toks + S extra) m src q ptr =
    Some (map (fun x => Some (p0 + Z.of_nat (fst x))) toks ++ replicate (S extra) None, m') /\
    Forall (fun x => cstr m' (p0 + Z.of_nat (fst x)) (snd x)) toks /\
    (forall a, a < p -> m' !! a = m !! a) /\ (forall a, p + Z.of_nat (length s) <= a -> m' !! a = m !! a).
Proof.
  intros Hft. induction n as [|n IH]; intros s Hn Hcl m p k src ptr Hp Hq Hap Hf Hptr Hpk; cbn zeta.
  - destruct s; [|simpl in Hn; lia]. cbn [tokens_from length map]. 
    destruct (strtok_end m p q fuel [] Hp Hq) with (src := src) (ptr := ptr) as [H1 H2]; [constructor|simpl in *; lia|lia|done|].
    exists m. split.
    + cbn [Nat.add strtok_calls]. rewrite H1. cbn [mbind option_bind].
      rewrite (strtok_nulls m q fuel Hq Hft) by (done || lia). done.
    + split; [constructor|done].
  - destruct (split_string s Hcl) as [Hall|(ds & w & c & rest & -> & Hds & Hw & Hwne & Hc & Hcl')].
    + rewrite tokens_none by done. cbn [length map].
      destruct (strtok_end m p q fuel s Hp Hq) with (src := src) (ptr := ptr) as [H1 H2]; [done|lia|lia|done|].
      exists m. split.
      * cbn [Nat.add strtok_calls]. rewrite H1. cbn [mbind option_bind].
        rewrite (strtok_nulls m q fuel Hq Hft) by (done || lia). done.
      * split; [constructor|done].
    + rewrite tokens_split by done.
      destruct (strtok_token m p q fuel ds w c rest Hp Hq Hds Hw Hwne Hc Hap Hf Hft src ptr Hptr)
        as (H1 & H2 & H3 & H4). cbn zeta in H1.
      set (a := p + Z.of_nat (length ds)) in *. set (e := a + Z.of_nat (length w)) in *.
      rewrite !app_length in *. simpl length in *.
      destruct (IH rest ltac:(lia) Hcl' (<[e:=0]> m) (e + 1) (k + length ds + length w + 1)%nat None (e + 1))
        as (m' & G1 & G2 & G3 & G4); [done|done|unfold apart in *; lia|lia|done|lia|].
      exists m'. split.
      * cbn [length Nat.add strtok_calls]. rewrite H1. cbn [mbind option_bind].
        rewrite G1. cbn [mbind option_bind]. cbn [map app fst]. do 4 f_equal. lia.
      * split.
        -- apply List.Forall_cons; [|done]. cbn [fst snd].
           replace (p0 + Z.of_nat (k + length ds)) with a by lia.
           destruct H4 as [Hb Hnz]. split; [|done]. intros i x Hi. rewrite G3; [auto|].
           apply lookup_lt_Some in Hi. rewrite app_length in Hi. simpl in Hi. lia.
        -- split.
           ++ intros b Hb. rewrite G3 by lia. rewrite lookup_insert_ne by lia. done.
           ++ intros b Hb. rewrite G4 by lia. rewrite lookup_insert_ne by lia. done.
Qed.

Lemma strtok_splits m p s q fuel extra ptr : cstr m p s -> cstr m q t -> closed s ->
  apart p (S (length s)) q (S (length t)) -> (length s < fuel)%nat -> (length t < fuel)%nat ->
  let toks := tokens isd s in
  exists m', strtok_calls fuel (length toks + S extra) m (Some p) q ptr =
    Some (map (fun x => Some (p + Z.of_nat (fst x))) toks ++ replicate (S extra) None, m') /\
    Forall (fun x => cstr m' (p + Z.of_nat (fst x)) (snd x)) toks.
Proof.
  intros Hp Hq Hcl Hap Hf Hft.
  destruct (strtok_seq q fuel extra p Hft (length s) s ltac:(lia) Hcl m p 0 (Some p) ptr)
    as (m' & H1 & H2 & _); try done; [simpl; lia|]. exists m'. done.
Qed.
End Tok.

(* "a" with delimiter ",": the second call reads beyond the string *)
Lemma strtok_overrun : exists m p q, cstr m p [97] /\ cstr m q [44] /\
  tokens (is_delim [44]) [97] = [(0%nat, [97])] /\
  (exists r, strtok_calls 9 1 m (Some p) q 0 = Some r) /\
  strtok_calls 9 2 m (Some p) q 0 = None.
Proof.
  exists (mem_of 10 [44; 0; 97; 0]), 12, 10.
  split; [split; [|repeat constructor; lia]; intros [|[|i]] c Hc; simpl in Hc; simplify_eq; reflexivity|].
  split; [split; [|repeat constructor; lia]; intros [|[|i]] c Hc; simpl in Hc; simplify_eq; reflexivity|].
  split; [reflexivity|]. split; [eexists; reflexivity|reflexivity].
Qed.
