From stdpp Require Import base list numbers gmap.
From Coq Require Import Lia ZArith.
From Verif Require Import Lib.Cmem Lib.String_model Lib.String_spec.
Local Open Scope Z_scope.

Ltac rd H := rewrite H; cbn [mbind option_bind].

Lemma strlen_ok m s : forall p fuel, cstr m p s -> (length s < fuel)%nat ->
  strlen fuel m p = Some (Z.of_nat (length s)).
Proof.
  induction s as [|c s IH]; intros p fuel H Hf; (destruct fuel as [|fuel]; [simpl in Hf; lia|]); cbn [strlen]; unfold read.
  - rd (cstr_nil _ _ H). done.
  - apply cstr_cons in H as (H & Hc & Hs). rd H. rewrite decide_False by lia.
    rewrite IH by (simpl in Hf; done || lia). cbn [mbind option_bind]. simpl length. f_equal. lia.
Qed.

(* strnlen needs either the terminator or [n] readable characters. *)
Lemma strnlen_ok m : forall n s p, bytes_at m p s -> nonzero s ->
  ((n <= length s)%nat \/ m !! (p + Z.of_nat (length s)) = Some 0) ->
  strnlen m p n = Some (Z.of_nat (Nat.min n (length s))).
Proof.
  induction n as [|n IH]; intros s p H Hn Hb; [done|]. cbn [strnlen]; unfold read.
  destruct s as [|c s].
  - simpl in Hb. rewrite Z.add_0_r in Hb. destruct Hb as [Hb|Hb]; [lia|]. rd Hb. done.
  - apply bytes_cons in H as [H1 H2]. apply Forall_cons_1 in Hn as [Hc Hn]. rd H1.
    rewrite decide_False by lia. rewrite (IH s) by (done || (simpl in Hb;
      replace (p + 1 + Z.of_nat (length s)) with (p + Z.of_nat (S (length s))) by lia; intuition lia)).
    cbn [mbind option_bind]. simpl length. f_equal. lia.
Qed.

Lemma strcmp_ok m s : forall t p q fuel, cstr m p s -> cstr m q t -> (length s < fuel)%nat ->
  exists r, strcmp fuel m p q = Some r /\ (r ?= 0) = lex s t.
Proof.
  induction s as [|c s IH]; intros t p q fuel Hp Hq Hf; (destruct fuel as [|fuel]; [simpl in Hf; lia|]); cbn [strcmp]; unfold read.
  - rd (cstr_nil _ _ Hp). rewrite decide_False by lia. destruct t as [|d t].
    + rd (cstr_nil _ _ Hq). eauto.
    + apply cstr_cons in Hq as (Hq & Hd & _). rd Hq. eexists; split; [done|].
      simpl lex. apply Z.compare_lt_iff. lia.
  - apply cstr_cons in Hp as (Hp & Hc & Hs). rd Hp. rewrite decide_True by lia.
    destruct t as [|d t].
    + rd (cstr_nil _ _ Hq). rewrite decide_False by lia. eexists; split; [done|].
      simpl lex. apply Z.compare_gt_iff. lia.
    + apply cstr_cons in Hq as (Hq & Hd & Ht). rd Hq. destruct (decide (c = d)) as [->|Hne].
      * destruct (IH t (p + 1) (q + 1) fuel Hs Ht) as (r & H1 & H2); [simpl in Hf; lia|].
        exists r. split; [done|]. simpl. rewrite Z.compare_refl. done.
      * eexists; split; [done|]. simpl. rewrite (Z.compare_sub c d).
        destruct (c - d ?= 0) eqn:E; try done. apply Z.compare_eq in E. lia.
Qed.

Lemma strncmp_ok m : forall n s t p q, cstr m p s -> cstr m q t ->
  exists r, strncmp m p q n = Some r /\ (r ?= 0) = lex (take n s) (take n t).
Proof.
  induction n as [|n IH]; intros s t p q Hp Hq; cbn [strncmp]; [eauto|]. unfold read.
  destruct s as [|c s].
  - rd (cstr_nil _ _ Hp). destruct t as [|d t].
    + rd (cstr_nil _ _ Hq). rewrite decide_False by lia. eauto.
    + apply cstr_cons in Hq as (Hq & Hd & _). rd Hq. rewrite decide_False by lia.
      eexists; split; [done|]. simpl. apply Z.compare_lt_iff. lia.
  - apply cstr_cons in Hp as (Hp & Hc & Hs). rd Hp. destruct t as [|d t].
    + rd (cstr_nil _ _ Hq). rewrite decide_False by lia. eexists; split; [done|].
      simpl. apply Z.compare_gt_iff. lia.
    + apply cstr_cons in Hq as (Hq & Hd & Ht). rd Hq. destruct (decide (c = d /\ c <> 0)) as [[-> _]|Hne].
      * destruct (IH s t (p + 1) (q + 1) Hs Ht) as (r & H1 & H2).
        exists r. split; [done|]. simpl. rewrite Z.compare_refl. done.
      * eexists; split; [done|]. simpl. rewrite (Z.compare_sub c d).
        destruct (c - d ?= 0) eqn:E; try done. apply Z.compare_eq in E. lia.
Qed.

Lemma memcmp_ok m : forall s t p q, length s = length t -> bytes_at m p s -> bytes_at m q t ->
  exists r, memcmp m p q (length s) = Some r /\ (r ?= 0) = lex s t.
Proof.
  induction s as [|c s IH]; intros t p q Hl Hp Hq; destruct t as [|d t]; try done; cbn [memcmp length].
  - eauto.
  - apply bytes_cons in Hp as [Hp Hs], Hq as [Hq Ht]. unfold read. rd Hp. rd Hq.
    destruct (decide (c - d <> 0)) as [Hne|He].
    + eexists; split; [done|]. simpl. rewrite (Z.compare_sub c d).
      destruct (c - d ?= 0) eqn:E; try done. apply Z.compare_eq in E. lia.
    + assert (c = d) as -> by lia. destruct (IH t (p + 1) (q + 1)) as (r & H1 & H2); [simpl in Hl; lia|done|done|].
      exists r. split; [done|]. simpl. rewrite Z.compare_refl. done.
Qed.

(* searching *)
Lemma first_at_S P c l i : ~ P c -> first_at P l i -> first_at P (c :: l) (S i).
Proof.
  intros Hc [H1 H2]. split; [done|]. intros [|j] x Hj Hx; [simpl in Hx; congruence|].
  eapply H2; [|done]. lia.
Qed.
Lemma first_at_0 (P : Z -> Prop) c l : P c -> first_at P (c :: l) 0.
Proof. intros Hc. split; [eauto|]. intros; lia. Qed.
Lemma found_first_S P p c l r : ~ P c -> found_first P (p + 1) l r -> found_first P p (c :: l) r.
Proof.
  intros Hc. destruct r as [a|]; simpl.
  - intros (i & -> & Hi). exists (S i). split; [lia|]. apply first_at_S; done.
  - intros H. apply Forall_cons; done.
Qed.
Lemma found_first_0 (P : Z -> Prop) p c l : P c -> found_first P p (c :: l) (Some p).
Proof. intros Hc. exists 0%nat. split; [lia|]. apply first_at_0. done. Qed.

Lemma schar_mod b c : 0 <= b < 256 -> -128 <= c < 128 -> (schar b = c <-> b = c mod 256).
Proof.
  intros Hb Hc. unfold schar. destruct (Z.ltb_spec b 128).
  - split; intros E.
    + subst. rewrite Z.mod_small by lia. done.
    + destruct (decide (c < 0)); [|rewrite Z.mod_small in E by lia; lia].
      assert (c mod 256 = c + 256) by (rewrite <- (Z_mod_plus_full c 1 256), Z.mod_small; lia). lia.
  - split; intros E.
    + subst. rewrite <- (Z_mod_plus_full (b - 256) 1 256), Z.mod_small; lia.
    + destruct (decide (c < 0)); [|rewrite Z.mod_small in E by lia; lia].
      assert (c mod 256 = c + 256) by (rewrite <- (Z_mod_plus_full c 1 256), Z.mod_small; lia). lia.
Qed.

Lemma memchr_ok m c : -128 <= c < 128 -> forall l p, bytes_at m p l -> Forall (fun b => 0 <= b < 256) l ->
  exists r, memchr m p c (length l) = Some r /\ found_first (fun b => b = c mod 256) p l r.
Proof.
  intros Hc. induction l as [|b l IH]; intros p Hp Hl; cbn [memchr length].
  - exists None. split; [done|]. constructor.
  - apply bytes_cons in Hp as [Hp H]. apply Forall_cons_1 in Hl as [Hb Hl]. unfold read. rd Hp.
    destruct (decide (schar b = c)) as [He|Hne].
    + eexists; split; [done|]. apply found_first_0. apply schar_mod; done.
    + destruct (IH (p + 1) H Hl) as (r & H1 & H2). exists r. split; [done|].
      apply found_first_S; [|done]. intros E. apply Hne, schar_mod; done.
Qed.

Lemma strchr_ok m c : -128 <= c < 128 -> forall s p fuel, cstr m p s -> (length s < fuel)%nat ->
  exists r, strchr fuel m p c = Some r /\ found_first (fun b => b = c mod 256) p (s ++ [0]) r.
Proof.
  intros Hc. induction s as [|b s IH]; intros p fuel Hp Hf; (destruct fuel as [|fuel]; [simpl in Hf; lia|]); cbn [strchr app]; unfold read.
  - rd (cstr_nil _ _ Hp). destruct (decide (schar 0 = c)) as [He|Hne].
    + eexists; split; [done|]. apply found_first_0. apply (schar_mod _ c); [lia|done|done].
    + exists None. split; [done|]. simpl. apply Forall_singleton. intros E.
      apply Hne, (schar_mod _ c); [lia|done|done].
  - apply cstr_cons in Hp as (Hp & Hb & Hs). rd Hp. destruct (decide (schar b = c)) as [He|Hne].
    + eexists; split; [done|]. apply found_first_0. apply (schar_mod _ c); [lia|done|done].
    + rewrite decide_False by lia. destruct (IH (p + 1) fuel Hs) as (r & H1 & H2); [simpl in Hf; lia|].
      exists r. split; [done|]. apply found_first_S; [|done]. intros E.
      apply Hne, (schar_mod _ c); [lia|done|done].
Qed.

Lemma strrchr_loop_ok m c : -128 <= c < 128 -> forall s p fuel last, cstr m p s -> (length s < fuel)%nat ->
  exists r, strrchr_loop fuel m p c last = Some r /\
    ((r = last /\ found_last (fun b => b = c mod 256) p (s ++ [0]) None) \/
     (is_Some r /\ found_last (fun b => b = c mod 256) p (s ++ [0]) r)).
Proof.
  intros Hc. induction s as [|b s IH]; intros p fuel last Hp Hf; (destruct fuel as [|fuel]; [simpl in Hf; lia|]); cbn [strrchr_loop app]; unfold read.
  - rd (cstr_nil _ _ Hp). rewrite (decide_True (P := 0 = 0)) by done. destruct (decide (schar 0 = c)) as [He|Hne].
    + eexists; split; [done|]. right. split; [eauto|]. exists 0%nat. split; [lia|].
      split; [exists 0; split; [done|apply (schar_mod _ c); [lia|done|done]]|].
      intros j x Hj Hx. destruct j as [|j]; [lia|]. done.
    + eexists. split; [done|]. left. split; [done|]. simpl. apply Forall_singleton. intros E.
      apply Hne, (schar_mod _ c); [lia|done|done].
  - apply cstr_cons in Hp as (Hp & Hb & Hs). rd Hp. rewrite (decide_False (P := b = 0)) by lia.
    destruct (IH (p + 1) fuel (if decide (schar b = c) then Some p else last) Hs) as (r & H1 & H2); [simpl in Hf; lia|].
    exists r. split; [done|]. destruct H2 as [[-> H2]|[Hr H2]].
    + destruct (decide (schar b = c)) as [He|Hne].
      * right. split; [eauto|]. exists 0%nat. split; [lia|]. split; [exists b; split; [done|apply (schar_mod _ c); [lia|done|done]]|].
        intros [|j] x Hj Hx; [lia|]. simpl in Hx, H2. rewrite Forall_lookup in H2. eapply H2; done.
      * left. split; [done|]. simpl. apply List.Forall_cons; [|done]. intros E. apply Hne, (schar_mod _ c); [lia|done|done].
    + right. split; [done|]. destruct r as [a|]; [|destruct Hr; done].
      destruct H2 as (i & -> & [Hi1 Hi2]). exists (S i). split; [lia|]. split; [done|].
      intros [|j] x Hj Hx; [lia|]. eapply Hi2; [|done]. lia.
Qed.

Lemma strrchr_ok m c : -128 <= c < 128 -> forall s p fuel, cstr m p s -> (length s < fuel)%nat ->
  exists r, strrchr fuel m p c = Some r /\ found_last (fun b => b = c mod 256) p (s ++ [0]) r.
Proof.
  intros Hc s p fuel Hp Hf. destruct (strrchr_loop_ok m c Hc s p fuel None Hp Hf) as (r & H1 & H2).
  exists r. split; [done|]. destruct H2 as [[-> H2]|[_ H2]]; done.
Qed.

(* membership of a character of the string in a set given as a C string *)
Lemma strchr_mem m b t q fuel : 0 < b < 256 -> cstr m q t -> (length t < fuel)%nat ->
  exists r, strchr fuel m q (schar b) = Some r /\ (is_Some r <-> b ∈ t).
Proof.
  intros Hb Hq Hf.
  assert (Hs : -128 <= schar b < 128) by (unfold schar; destruct (Z.ltb_spec b 128); lia).
  assert (Hm : schar b mod 256 = b).
  { symmetry. apply (proj1 (schar_mod b (schar b) ltac:(lia) Hs)). done. }
  destruct (strchr_ok m (schar b) Hs t q fuel Hq Hf) as (r & H1 & H2). exists r. split; [done|].
  rewrite Hm in H2. destruct r as [a|]; simpl in H2.
  - split; [|eauto]. intros _. destruct H2 as (i & _ & [(c & Hc & ->) _]).
    apply elem_of_list_lookup_2 in Hc. apply elem_of_app in Hc as [Hc|Hc]; [done|].
    apply elem_of_list_singleton in Hc. lia.
  - split; [intros [? ?]; done|]. intros Hin. exfalso. rewrite Forall_forall in H2.
    eapply H2; [apply elem_of_app; left; exact Hin|done].
Qed.

Lemma span_S (P : Z -> Prop) c s n : P c -> span P s n -> span P (c :: s) (S n).
Proof.
  intros Hc (H1 & H2 & H3). split; [simpl; lia|]. split; [simpl; apply Forall_cons; done|].
  intros x Hx. eapply H3. done.
Qed.

Lemma strspn_ok m t q fuel2 : cstr m q t -> (length t < fuel2)%nat ->
  forall s p fuel, cstr m p s -> (length s < fuel)%nat ->
  exists n, strspn fuel fuel2 m p q = Some (Z.of_nat n) /\ span (fun c => c ∈ t) s n.
Proof.
  intros Hq Hf2. induction s as [|b s IH]; intros p fuel Hp Hf; (destruct fuel as [|fuel]; [simpl in Hf; lia|]); cbn [strspn]; unfold read.
  - rd (cstr_nil _ _ Hp). exists 0%nat. split; [done|]. split; [simpl; lia|]. split; [constructor|done].
  - apply cstr_cons in Hp as (Hp & Hb & Hs). rd Hp. rewrite decide_False by lia.
    destruct (strchr_mem m b t q fuel2 Hb Hq Hf2) as (r & H1 & H2). rd H1. destruct r as [a|].
    + destruct (IH (p + 1) fuel Hs) as (n & H3 & H4); [simpl in Hf; lia|]. rd H3.
      exists (S n). split; [f_equal; lia|]. apply span_S; [|done]. apply H2. eauto.
    + exists 0%nat. split; [done|]. split; [simpl; lia|]. split; [constructor|].
      intros c [= <-] Hin. apply H2 in Hin as [? ?]. done.
Qed.

Lemma strcspn_ok m t q fuel2 : cstr m q t -> (length t < fuel2)%nat ->
  forall s p fuel, cstr m p s -> (length s < fuel)%nat ->
  exists n, strcspn fuel fuel2 m p q = Some (Z.of_nat n) /\ span (fun c => c ∉ t) s n.
Proof.
  intros Hq Hf2. induction s as [|b s IH]; intros p fuel Hp Hf; (destruct fuel as [|fuel]; [simpl in Hf; lia|]); cbn [strcspn]; unfold read.
  - rd (cstr_nil _ _ Hp). exists 0%nat. split; [done|]. split; [simpl; lia|]. split; [constructor|done].
  - apply cstr_cons in Hp as (Hp & Hb & Hs). rd Hp. rewrite decide_False by lia.
    destruct (strchr_mem m b t q fuel2 Hb Hq Hf2) as (r & H1 & H2). rd H1. destruct r as [a|].
    + exists 0%nat. split; [done|]. split; [simpl; lia|]. split; [constructor|].
      intros c [= <-] Hin. apply Hin, H2. eauto.
    + destruct (IH (p + 1) fuel Hs) as (n & H3 & H4); [simpl in Hf; lia|]. rd H3.
      exists (S n). split; [f_equal; lia|]. apply span_S; [|done]. intros Hin.
      apply H2 in Hin as [? ?]. done.
Qed.

Lemma cstr_lookup m p s n : cstr m p s -> (n <= length s)%nat ->
  m !! (p + Z.of_nat n) = Some (default 0 (s !! n)).
Proof.
  intros [H _] Hn. apply H. destruct (decide (n = length s)) as [->|Hne].
  - rewrite lookup_app_r by lia. rewrite Nat.sub_diag.
    rewrite (lookup_ge_None_2 s) by lia. done.
  - rewrite lookup_app_l by lia. assert (is_Some (s !! n)) as [x Hx] by (apply lookup_lt_is_Some; lia).
    rewrite Hx. done.
Qed.

Lemma strpbrk_ok m s p t q fuel fuel2 : cstr m p s -> cstr m q t -> (length s < fuel)%nat ->
  (length t < fuel2)%nat ->
  exists r, strpbrk fuel fuel2 m p q = Some r /\ found_first (fun b => b ∈ t) p s r.
Proof.
  intros Hp Hq Hf Hf2. destruct (strcspn_ok m t q fuel2 Hq Hf2 s p fuel Hp Hf) as (n & H1 & (H2 & H3 & H4)).
  unfold strpbrk. rd H1. unfold read. rd (cstr_lookup _ _ _ _ Hp H2).
  destruct (s !! n) as [c|] eqn:E; simpl default.
  - assert (Hc : 0 < c < 256).
    { destruct Hp as [_ Hp]. unfold nonzero in Hp. rewrite Forall_lookup in Hp. eapply Hp; done. }
    rewrite decide_False by lia. eexists. split; [done|]. exists n. split; [done|]. split.
    + exists c. split; [done|]. destruct (decide (c ∈ t)); [done|]. exfalso. eapply H4; done.
    + intros j x Hj Hx. rewrite Forall_lookup in H3. apply (H3 j). rewrite lookup_take by done. done.
  - rewrite decide_True by done. eexists. split; [done|]. simpl.
    apply lookup_ge_None in E. rewrite take_ge in H3 by lia. done.
Qed.

Lemma lex_eq s : forall t, lex s t = Eq <-> s = t.
Proof.
  induction s as [|c s IH]; intros [|d t]; simpl; try done.
  destruct (c ?= d) eqn:E.
  - apply Z.compare_eq in E as ->. rewrite IH. split; [intros ->; done|intros [= ->]; done].
  - split; [done|]. intros [= -> ->]. rewrite Z.compare_refl in E. done.
  - split; [done|]. intros [= -> ->]. rewrite Z.compare_refl in E. done.
Qed.

Lemma strstr_loop_ok m t q : cstr m q t -> t <> [] -> forall s p fuel, cstr m p s -> (length s < fuel)%nat ->
  exists r, strstr_loop fuel m p q (length t) = Some r /\ found_sub p s t r.
Proof.
  intros Hq Ht. induction s as [|b s IH]; intros p fuel Hp Hf; (destruct fuel as [|fuel]; [simpl in Hf; lia|]); cbn [strstr_loop]; unfold read.
  - rd (cstr_nil _ _ Hp). exists None. split; [done|]. intros i [Hi Hpre]. simpl in Hi.
    rewrite drop_nil in Hpre. apply prefix_nil_inv in Hpre. done.
  - pose proof Hp as Hp0. apply cstr_cons in Hp as (Hp & Hb & Hs). rd Hp. rewrite decide_False by lia.
    destruct (strncmp_ok m (length t) (b :: s) t p q Hp0 Hq) as (r & H1 & H2). rd H1.
    rewrite (take_ge t) in H2 by lia.
    assert (Hpre : r = 0 <-> t `prefix_of` b :: s).
    { rewrite <- Z.compare_eq_iff, H2, lex_eq. split.
      - intros E. exists (drop (length t) (b :: s)). rewrite <- E at 1. rewrite take_drop. done.
      - intros [k ->]. rewrite take_app. done. }
    destruct (decide (r = 0)) as [He|Hne].
    + eexists. split; [done|]. exists 0%nat. split; [lia|]. split; [split; [simpl; lia|apply Hpre; done]|].
      intros; lia.
    + destruct (IH (p + 1) fuel Hs) as (r' & H3 & H4); [simpl in Hf; lia|]. exists r'. split; [done|].
      destruct r' as [a|]; simpl in H4 |- *.
      * destruct H4 as (i & -> & [Hi1 Hi2] & Hi3). exists (S i). split; [lia|]. split; [split; [simpl; lia|done]|].
        intros [|j] Hj [Hj1 Hj2]; [apply Hne, Hpre; done|]. apply (Hi3 j); [lia|]. split; [simpl in Hj1; lia|done].
      * intros [|i] [Hi1 Hi2]; [apply Hne, Hpre; done|]. apply (H4 i). split; [simpl in Hi1; lia|done].
Qed.

Lemma strstr_ok m s t p q fuel : cstr m p s -> cstr m q t -> (length s < fuel)%nat -> (length t < fuel)%nat ->
  (s <> [] \/ t <> []) ->
  exists r, strstr fuel m p q = Some r /\ found_sub p s t r.
Proof.
  intros Hp Hq Hf1 Hf2 Hne. unfold strstr. rd (strlen_ok m t q fuel Hq Hf2). rewrite Nat2Z.id.
  destruct t as [|d t]; [|apply strstr_loop_ok; done].
  destruct Hne as [Hne|]; [|done]. destruct s as [|c s]; [done|].
  destruct fuel as [|fuel]; [simpl in Hf1; lia|]. cbn [strstr_loop length]. unfold read.
  apply cstr_cons in Hp as (Hp & Hc & _). rd Hp. rewrite decide_False by lia. simpl.
  exists (Some p). split; [done|]. exists 0%nat. split; [lia|]. split; [split; [lia|apply prefix_nil]|].
  intros; lia.
Qed.

(* "" in "" must be found at the start *)
Lemma strstr_empty : exists m p q, cstr m p [] /\ cstr m q [] /\ strstr 1 m p q = Some None /\
  ~ found_sub p [] [] None.
Proof.
  exists (mem_of 10 [0; 0]), 10, 11.
  split; [split; [|constructor]; apply bytes_cons; split; [reflexivity|apply bytes_nil]|].
  split; [split; [|constructor]; apply bytes_cons; split; [reflexivity|apply bytes_nil]|].
  split; [reflexivity|]. intros H. apply (H 0%nat). split; [simpl; lia|apply prefix_nil].
Qed.

(* a byte above 127 passed as unsigned char is not found *)
Lemma strchr_high : exists m p s c, cstr m p s /\ 0 <= c < 256 /\ strchr 2 m p c = Some None /\
  ~ found_first (fun b => b = c) p (s ++ [0]) None.
Proof.
  exists (mem_of 10 [255; 0]), 10, [255], 255.
  split; [split; [|repeat constructor; lia]; apply (mem_of_bytes [255; 0] 10)|].
  split; [lia|]. split; [reflexivity|]. simpl. intros H. inversion H. done.
Qed.
Lemma memchr_high : exists m p l c, bytes_at m p l /\ 0 <= c < 256 /\ memchr m p c (length l) = Some None /\
  ~ found_first (fun b => b = c) p l None.
Proof.
  exists (mem_of 10 [200]), 10, [200], 200.
  split; [apply (mem_of_bytes [200] 10)|].
  split; [lia|]. split; [reflexivity|]. simpl. intros H. inversion H. done.
Qed.
