(** Proofs about [Env_model]. *)
From stdpp Require Import base list numbers gmap.
From Verif Require Import Lib.Cmem Lib.String_model Lib.String_spec Lib.String_proof Lib.Env_model Lib.Env_spec.
Local Open Scope Z_scope.

Lemma cstr_drop m p a b : cstr m p (a ++ b) -> cstr m (p + Z.of_nat (length a)) b.
Proof.
  intros [H N]. apply Forall_app in N as [_ N]. rewrite <- app_assoc in H. apply bytes_app in H as [_ H]. by split.
Qed.
Lemma cmp_eq r c : (r ?= 0) = c -> (r = 0 <-> c = Eq).
Proof. intros <-. split; [by intros -> | apply Z.compare_eq]. Qed.

Lemma getenv_loop_ok m q name : cstr m q name -> forall ps es rest,
  Forall2 (fun p e => p <> 0 /\ cstr m p e) ps es ->
  exists r, getenv_loop m (ps ++ 0 :: rest) q (length name) = Some r /\ value_of m es name r.
Proof.
  intros Q ps es rest H. induction H as [|p e ps es [Np Cp] H IH].
  { exists None. split; [done|]. intros j w. by rewrite lookup_nil. }
  destruct IH as (r & E & V). cbn [getenv_loop app]. rewrite decide_False by done.
  destruct (strncmp_ok m (length name) e name p q Cp Q) as (d & Ed & Hd). rewrite Ed. cbn [mbind option_bind].
  apply cmp_eq in Hd. rewrite (take_ge name) in Hd by lia. rewrite lex_eq in Hd.
  assert ((forall w, e <> entry name w) -> value_of m (e :: es) name r) as Next.
  { intros Ne. destruct r as [a|]; cbn in *.
    - destruct V as (i & v & V1 & V2 & V3). exists (S i), v. split_and!; [done|done|].
      intros [|j] w Hj; cbn; [intros X; injection X; apply Ne|apply V3; lia].
    - intros [|j] w; cbn; [intros X; injection X; apply Ne|apply V]. }
  destruct (decide (d = 0)) as [Hz|Hz].
  - apply Hd in Hz. rewrite <- (take_drop (length name) e) in Cp. rewrite Hz in Cp.
    pose proof (cstr_drop _ _ _ _ Cp) as D.
    assert (e = name ++ drop (length name) e) as Ee by (rewrite <- Hz at 1; by rewrite take_drop).
    destruct (drop (length name) e) as [|c v] eqn:F.
    + apply cstr_nil in D. unfold read. rewrite D. cbn. exists r. split; [done|]. apply Next.
      intros w X. rewrite Ee in X. unfold entry in X. apply app_inv_head in X. done.
    + apply cstr_cons in D as (D1 & D2 & D3). unfold read. rewrite D1. cbn [mbind option_bind].
      destruct (decide (schar c = 61)) as [G|G].
      * assert (c = 61) as ->. { unfold schar in G. destruct (c <? 128); lia. }
        eexists. split; [done|]. exists 0%nat, v. split_and!; [by rewrite Ee|done|]. intros j w Hj. lia.
      * exists r. split; [done|]. apply Next. intros w X. rewrite Ee in X. unfold entry in X. apply app_inv_head in X.
        injection X as -> ->. by apply G.
  - exists r. split; [done|]. apply Next. intros w ->. apply Hz, Hd. unfold entry. by rewrite take_app.
Qed.
Lemma getenv_ok m ptrs es q name fuel : environment m ptrs es -> cstr m q name -> (length name < fuel)%nat ->
  exists r, getenv fuel m (Some ptrs) q = Some r /\ value_of m es name r.
Proof.
  intros (ps & rest & -> & H) Q F. unfold getenv. rewrite (strlen_ok m name q fuel Q F). cbn [mbind option_bind].
  rewrite Nat2Z.id. by apply getenv_loop_ok.
Qed.

(** ** Paths *)
Lemma skip_none P l : (forall c, head l = Some c -> P c = false) -> skip P l = l.
Proof. destruct l as [|c l]; [done|]. intros H. cbn. by rewrite (H c). Qed.
Lemma skip_all P a b : Forall (fun c => P c = true) a -> skip P (a ++ b) = skip P b.
Proof. induction 1 as [|c a H _ IH]; [done|]. cbn. by rewrite H. Qed.
Lemma keep_all P a b : Forall (fun c => P c = true) a -> (forall c, head b = Some c -> P c = false) -> keep P (a ++ b) = a.
Proof.
  intros H Hb. induction H as [|c a H _ IH]; [|cbn; by rewrite H, IH].
  destruct b as [|c b]; [done|]. cbn. by rewrite (Hb c).
Qed.
Lemma stripped_id s : ~ ends_in_slash s -> stripped s = s.
Proof.
  intros H. unfold stripped. rewrite skip_none; [apply rev_involutive|]. intros c Hc.
  destruct (slash c) eqn:E; [|done]. apply Z.eqb_eq in E. subst c. exfalso. apply H.
  destruct (rev s) as [|d l] eqn:F; [done|]. cbn in Hc. injection Hc as ->.
  exists (rev l). rewrite <- (rev_involutive s), F. done.
Qed.
Lemma no_slash_rev s : no_slash s -> Forall (fun c => negb (slash c) = true) (rev s).
Proof.
  intros H. apply Forall_rev. eapply Forall_impl; [exact H|]. intros c Hc. cbn in Hc. unfold slash. by rewrite (proj2 (Z.eqb_neq _ _) Hc).
Qed.
(** The last slash, if any. *)
Lemma split_last s : no_slash s \/ exists a b, s = a ++ 47 :: b /\ no_slash b.
Proof.
  induction s as [|c s IH]; [by left; constructor|]. destruct IH as [IH|(a & b & -> & N)].
  - destruct (decide (c = 47)) as [->|H]; [right; by exists [], s|left; by constructor].
  - right. by exists (c :: a), b.
Qed.
Lemma no_slash_ends s : no_slash s -> ~ ends_in_slash s.
Proof. intros H (t & ->). apply Forall_app in H as [_ H]. apply Forall_cons_1 in H as [H _]. done. Qed.
Lemma ends_cons a b : ends_in_slash (a ++ 47 :: b) -> no_slash b -> b = [].
Proof.
  intros (t & E) N. destruct b as [|x b] using rev_ind; [done|].
  rewrite app_comm_cons, app_assoc in E. apply app_inj_tail in E as [_ ->]. apply Forall_app in N as [_ N].
  apply Forall_cons_1 in N as [N _]. done.
Qed.
Lemma strrchr_slash m p s fuel : cstr m p s -> (length s < fuel)%nat ->
  exists r, strrchr fuel m p 47 = Some r /\
  ((r = None /\ no_slash s) \/ (exists a b, s = a ++ 47 :: b /\ no_slash b /\ r = Some (p + Z.of_nat (length a)))).
Proof.
  intros C F. destruct (strrchr_ok m 47 ltac:(lia) s p fuel C F) as (r & E & R). exists r. split; [done|].
  change (47 mod 256) with 47 in R. destruct (split_last s) as [N|(a & b & -> & N)].
  - left. split; [|done]. destruct r as [q|]; [|done]. destruct R as (i & _ & (c & Hc & ->) & _).
    apply elem_of_list_lookup_2 in Hc. apply elem_of_app in Hc as [Hc|Hc].
    + by apply (proj1 (Forall_forall _ _) N) in Hc.
    + apply elem_of_list_singleton in Hc. done.
  - right. exists a, b. split_and!; [done|done|]. destruct r as [q|].
    + destruct R as (i & -> & (c & Hc & ->) & R). do 2 f_equal.
      rewrite <- app_assoc in Hc, R. destruct (Nat.lt_trichotomy i (length a)) as [L|[->|L]]; [|done|].
      * exfalso. apply (R (length a) 47 L); [|done]. by rewrite lookup_app_r, Nat.sub_diag by lia.
      * exfalso. rewrite lookup_app_r in Hc by lia. destruct (i - length a)%nat as [|k] eqn:K; [lia|]. cbn in Hc.
        apply elem_of_list_lookup_2 in Hc. apply elem_of_app in Hc as [Hc|Hc].
        -- by apply (proj1 (Forall_forall _ _) N) in Hc.
        -- apply elem_of_list_singleton in Hc. done.
    + exfalso. cbn in R. rewrite !Forall_app, Forall_cons in R. destruct R as [[_ [R _]] _]. done.
Qed.
Lemma posix_basename_slash a b : b <> [] -> no_slash b -> posix_basename (a ++ 47 :: b) = b.
Proof.
  intros Nb N. unfold posix_basename.
  destruct (a ++ 47 :: b) as [|c l] eqn:E; [by destruct a|]. rewrite <- E. rewrite stripped_id by (intros H; apply Nb; by apply (ends_cons a)).
  rewrite E. rewrite <- E. rewrite rev_app_distr. cbn [rev]. rewrite <- app_assoc.
  rewrite keep_all; [apply rev_involutive|by apply no_slash_rev|]. cbn. intros x X. injection X as <-. done.
Qed.
Lemma posix_basename_plain s : s <> [] -> no_slash s -> posix_basename s = s.
Proof.
  intros Ns N. unfold posix_basename. 
  destruct s as [|c l] eqn:E; [done|]. rewrite <- E in *. rewrite stripped_id by (by apply no_slash_ends). rewrite E. rewrite <- E. rewrite <- (app_nil_r (rev s)).
  rewrite keep_all; [apply rev_involutive|by apply no_slash_rev|]. done.
Qed.
Lemma basename_ok m p s fuel : cstr m p s -> (length s < fuel)%nat -> s <> [] -> ~ ends_in_slash s ->
  exists a, basename fuel m p = Some a /\ cstr m a (posix_basename s).
Proof.
  intros C F Ns Ne. unfold basename. destruct (strrchr_slash m p s fuel C F) as (r & -> & [[-> N]|(a & b & -> & N & ->)]); cbn [mbind option_bind].
  - exists p. split; [done|]. by rewrite posix_basename_plain.
  - eexists. split; [done|]. rewrite posix_basename_slash; [|intros ->; apply Ne; by exists a|done].
    replace (p + Z.of_nat (length a) + 1) with (p + Z.of_nat (length (a ++ [47]))) by (rewrite app_length; cbn; lia).
    apply cstr_drop. by rewrite <- app_assoc.
Qed.
Lemma posix_dirname_slash a b : b <> [] -> no_slash b -> a <> [] -> ~ ends_in_slash a -> posix_dirname (a ++ 47 :: b) = a.
Proof.
  intros Nb N Na Ne. unfold posix_dirname.
  destruct (a ++ 47 :: b) as [|c l] eqn:E; [by destruct a|]. rewrite <- E. rewrite stripped_id by (intros H; apply Nb; by apply (ends_cons a)).
  rewrite E. rewrite <- E. rewrite rev_app_distr. cbn [rev]. rewrite <- app_assoc.
  rewrite skip_all by (by apply no_slash_rev).
  change (skip (fun c0 : Z => negb (slash c0)) ([47] ++ rev a)) with (47 :: rev a).
  change (rev (47 :: rev a)) with (rev (rev a) ++ [47]). rewrite rev_involutive.
  destruct (a ++ [47]) as [|d k] eqn:G; [by destruct a|]. rewrite <- G.
  assert (stripped (a ++ [47]) = a) as ->.
  { pose proof (stripped_id a Ne) as Hs. unfold stripped in *. rewrite rev_app_distr. cbn. done. }
  by destruct a.
Qed.
Lemma posix_dirname_plain s : no_slash s -> posix_dirname s = [46].
Proof.
  intros N. unfold posix_dirname. 
  destruct s as [|c l] eqn:E; [done|]. rewrite <- E in *. rewrite stripped_id by (by apply no_slash_ends). rewrite E. rewrite <- E. rewrite <- (app_nil_r (rev s)).
  rewrite skip_all by (by apply no_slash_rev). done.
Qed.
Lemma dirname_ok m p s fuel : cstr m p s -> (length s < fuel)%nat ->
  (forall a b, s = a ++ 47 :: b -> no_slash b -> b <> [] /\ a <> [] /\ ~ ends_in_slash a) ->
  exists r, dirname fuel m p = Some r /\ denotes r (posix_dirname s) /\
  (forall x, x < p \/ p + Z.of_nat (length s) < x -> snd r !! x = m !! x).
Proof.
  intros C F Hs. unfold dirname. destruct (strrchr_slash m p s fuel C F) as (r & -> & [[-> N]|(a & b & -> & N & ->)]); cbn [mbind option_bind].
  - eexists. split; [done|]. split; [|done]. cbn. by apply posix_dirname_plain.
  - destruct (Hs a b eq_refl N) as (Nb & Na & Ne). destruct C as [Cb Cn]. pose proof Cb as Cb'.
    rewrite <- app_assoc in Cb. apply bytes_app in Cb as [Ca Cr]. cbn in Cr. apply bytes_cons in Cr as [C0 _].
    unfold write. rewrite C0. cbn [mbind option_bind]. eexists. split; [done|]. split.
    + cbn. rewrite posix_dirname_slash by done. apply Forall_app in Cn as [Cn _]. split; [|done].
      apply bytes_app. split.
      * intros i c Hi. rewrite lookup_insert_ne; [by apply Ca|]. apply lookup_lt_Some in Hi. lia.
      * intros [|i] c Hi; [|done]. cbn in Hi. injection Hi as <-. rewrite Z.add_0_r. by rewrite lookup_insert.
    + intros x Hx. cbn. rewrite lookup_insert_ne; [done|]. rewrite app_length in Hx. cbn in Hx. lia.
Qed.
