(** A declarator has one type; wrong sets of specifiers get a message. *)
From stdpp Require Import base list numbers sets.
From Coq Require Import ZifyBool.
From Verif Require Import Front.Decl_model Front.Decl_spec Front.Decl_full_proof Front.Decl_raw_proof.
Local Open Scope Z_scope.

Lemma resolves_one h : forall t T T', resolves h t T -> resolves h t T' -> T = T'.
Proof.
  fix IH 4. intros t T T' H H'. destruct H as [b q|t T q Ht|t T n q Ht|t T va q Ht|t T l L va q Ht Hl|k t T Hk Ht].
  - by inversion H'.
  - inversion H' as [|? T1 ? Ht1| | | |]; subst. by rewrite (IH _ _ _ Ht Ht1).
  - inversion H' as [| |? T1 ? ? Ht1| | |]; subst. by rewrite (IH _ _ _ Ht Ht1).
  - inversion H' as [| | |? T1 ? ? Ht1| |]; subst. by rewrite (IH _ _ _ Ht Ht1).
  - inversion H' as [| | | |? T1 ? L1 ? ? Ht1 Hl1|]; subst. rewrite (IH _ _ _ Ht Ht1).
    assert (HL : L = L1).
    { clear -IH Hl Hl1. revert L1 Hl1. induction Hl as [|x y l L Hx Hl IHl]; intros L1 Hl1; inversion Hl1 as [|? y1 ? L2 Hx1 Hl2]; subst; [done|].
      by rewrite (IH _ _ _ Hx Hx1), (IHl _ Hl2). }
    by rewrite HL.
  - inversion H' as [| | | | |? t1 ? Hk1 Ht1]; subst. rewrite Hk in Hk1. injection Hk1 as <-. by apply (IH _ _ _ Ht Ht1).
Qed.
Lemma declares_one b q ts x t x' t' : declares false Decl (Base b q) ts x t -> declares false Decl (Base b q) ts x' t' -> x = x' /\ t = t'.
Proof.
  intros H H'. destruct (declarator_full b q ts x t [] H I) as (r & h & E & R). destruct (declarator_full b q ts x' t' [] H' I) as (r' & h' & E' & R').
  rewrite E in E'. injection E' as -> -> ->. split; [done|]. by eapply resolves_one.
Qed.

(** ** Wrong sets of specifiers *)
Definition canon (n : arith -> nat) : list arith :=
  replicate (n KUnsigned) KUnsigned ++ replicate (n KSigned) KSigned ++ replicate (n KChar) KChar ++ replicate (n KShort) KShort ++ replicate (n KLong) KLong ++ replicate (n KInt) KInt ++
  replicate (n KFloat) KFloat ++ replicate (n KDouble) KDouble.
Lemma canon_perm ks : ks ≡ₚ canon (fun k => count k ks).
Proof.
  induction ks as [|k ks IH]; [done|]. transitivity (k :: canon (fun k => count k ks)); [by f_equiv|].
  assert (E : forall k', count k' (k :: ks) = if decide (k' = k) then S (count k' ks) else count k' ks) by (intros k'; unfold count; rewrite filter_cons; by destruct (decide (k' = k))).
  unfold canon. rewrite !E. destruct k; cbn [decide]; repeat (rewrite decide_True by done || rewrite decide_False by done); cbn [replicate app];
  repeat first [reflexivity | etransitivity; [apply Permutation_middle|apply Permutation_app_head]].
Qed.
Lemma count_in k ks : k ∈ ks <-> (0 < count k ks)%nat.
Proof.
  unfold count. induction ks as [|k' ks IH]; [cbn; split; [by intros ?%elem_of_nil|lia]|]. rewrite filter_cons, elem_of_cons, IH. destruct (decide (k = k')); cbn; [split; [lia|by left]|]. split; [intros [?|?]; [done|lia]|by right].
Qed.
Definition combos : list (list nat) :=
  u ← [0;1]%nat; s ← [0;1]%nat; c ← [0;1]%nat; sh ← [0;1]%nat; l ← [0;1;2]%nat; i ← [0;1]%nat; f ← [0;1]%nat; d ← [0;1]%nat; [[u;s;c;sh;l;i;f;d]].
Definition as_num (l : list nat) (k : arith) : nat :=
  default 0%nat (l !! match k with KUnsigned => 0 | KSigned => 1 | KChar => 2 | KShort => 3 | KLong => 4 | KInt => 5 | KFloat => 6 | KDouble => 7 end%nat).
Definition excluded (c : tc) : bool := (some c KSigned && some c KUnsigned) || (some c KChar && some c KInt) || (some c KFloat && some c KDouble).
Lemma combos_ok : forallb (fun l => negb (check_type_combination (Tc (as_num l) 0 0)) || excluded (Tc (as_num l) 0 0) || no_nums (Tc (as_num l) 0 0) ||
  bool_decide (canon (as_num l) ∈ arith_types.*1)) combos = true.
Proof. vm_compute. reflexivity. Qed.
Lemma checked_ok c ks : (forall k, num c k = count k ks) -> check_type_combination c = true -> no_nums c = false -> excluded c = false -> is_arith_type ks.
Proof.
  intros Hc H1 H2 H3. pose (l := [num c KUnsigned; num c KSigned; num c KChar; num c KShort; num c KLong; num c KInt; num c KFloat; num c KDouble]).
  assert (Hn : forall k, num c k = as_num l k) by (intros []; reflexivity).
  assert (Hl : l ∈ combos).
  { assert (Hb : (num c KUnsigned <= 1 /\ num c KSigned <= 1 /\ num c KChar <= 1 /\ num c KShort <= 1 /\ num c KLong <= 2 /\ num c KInt <= 1 /\ num c KFloat <= 1 /\ num c KDouble <= 1)%nat)
      by (unfold check_type_combination, some in H1; lia).
    unfold combos. assert (Hs : forall n, (n <= 1)%nat -> n ∈ [0;1]%nat) by (intros n Hn'; set_unfold; lia).
    apply elem_of_list_bind; exists (num c KUnsigned); split; [|apply Hs; lia].
    apply elem_of_list_bind; exists (num c KSigned); split; [|apply Hs; lia].
    apply elem_of_list_bind; exists (num c KChar); split; [|apply Hs; lia].
    apply elem_of_list_bind; exists (num c KShort); split; [|apply Hs; lia].
    apply elem_of_list_bind; exists (num c KLong); split; [|set_unfold; lia].
    apply elem_of_list_bind; exists (num c KInt); split; [|apply Hs; lia].
    apply elem_of_list_bind; exists (num c KFloat); split; [|apply Hs; lia].
    apply elem_of_list_bind; exists (num c KDouble); split; [|apply Hs; lia].
    by apply elem_of_list_singleton. }
  pose proof (proj1 (forallb_forall _ _) combos_ok l (proj1 (elem_of_list_In _ _) Hl)) as F. cbv beta in F.
  assert (E1 : check_type_combination (Tc (as_num l) 0 0) = true) by (rewrite <- H1; apply check_num; intros k; by rewrite Hn).
  assert (E2 : no_nums (Tc (as_num l) 0 0) = false) by (rewrite <- H2; unfold no_nums, some; cbn [num]; by rewrite !Hn).
  assert (E3 : excluded (Tc (as_num l) 0 0) = false) by (rewrite <- H3; unfold excluded, some; cbn [num]; by rewrite !Hn).
  rewrite E1, E2, E3 in F. cbn [negb orb] in F. apply bool_decide_eq_true in F. apply elem_of_list_fmap in F as ([ks' b] & E & Hin). cbn [fst] in E.
  exists ks', b. split; [|done]. rewrite <- E. rewrite (canon_perm ks) at 1. unfold canon. by rewrite <- !Hn, <- !Hc.
Qed.
Lemma set_err_no e r t st rest : set_err e r = Raw t st rest false -> e = false /\ r = Raw t st rest false.
Proof. destruct r as [t' s' r' e'|]; cbn; [|done]. intros [= -> -> -> H]. by apply orb_false_iff in H as [-> ->]. Qed.
Lemma run_back ts : forall c t first rest T st rest', Forall simple ts -> specifiers c t first (ts ++ rest) = Raw T st rest' false ->
  (first = false -> check_type_combination c = true) /\
  exists c', (forall k, num c' k = num c k + count k (ariths ts))%nat /\ specifiers c' t (if ts then first else false) rest = Raw T st rest' false.
Proof.
  induction ts as [|tk ts IH]; intros c t first rest T st rest' Hs H.
  - cbn [app] in H. split; [|exists c; split; [intros; cbn; lia|done]].
    intros ->. destruct rest; cbn [specifiers] in H; apply set_err_no in H as [H _]; cbn in H; by destruct (check_type_combination c).
  - inversion_clear Hs as [|?? Hs1 Hs2]. cbn [app specifiers] in H. apply set_err_no in H as [H0 H]. split; [intros ->; by destruct (check_type_combination c)|].
    destruct tk as [k|s|q1| |]; try done.
    + apply IH in H as (_ & c' & H1 & H2); [|done]. exists c'. split; [|by destruct ts].
      intros k'. rewrite H1. change (ariths (PArith k :: ts)) with (k :: ariths ts). unfold count. rewrite filter_cons. unfold add_num. cbn [num]. destruct (decide (k' = k)); cbn [length]; lia.
    + destruct (_ =? 0); [|done]. apply IH in H as (_ & c' & H1 & H2); [|done]. exists c'. split; [done|by destruct ts].
    + destruct (_ =? 0); [|done]. apply IH in H as (_ & c' & H1 & H2); [|done]. exists c'. split; [done|by destruct ts].
Qed.
Lemma wrong_set ts rest T st rest' : Forall (fun t => match t with POther _ => False | _ => True end) ts -> named ts = [] -> ariths ts <> [] -> ~ unchecked (ariths ts) -> no_specifier rest ->
  parse_raw_type (ts ++ rest) = Raw T st rest' false -> is_arith_type (ariths ts).
Proof.
  intros Hs0 Hnm Hne Hu Hr H. pose proof (simple_of ts Hs0 Hnm) as Hs. unfold parse_raw_type in H. apply run_back in H as (_ & c' & H1 & H2); [|done].
  assert (Hc : forall k, num c' k = count k (ariths ts)) by (intros k; by rewrite H1).
  destruct ts as [|tk ts']; [done|]. set (ts := tk :: ts') in *.
  assert (Hok : check_type_combination c' = true) by (destruct rest; cbn [specifiers] in H2; apply set_err_no in H2 as [H2 _]; cbn in H2; by destruct (check_type_combination c')).
  apply (checked_ok c'); [done|done| |].
  - destruct (no_nums c') eqn:E; [|done]. destruct Hne. unfold no_nums, some in E. destruct (ariths ts) as [|k l] eqn:Ea; [done|]. assert (Hk : k ∈ k :: l) by set_solver.
    apply count_in in Hk. rewrite <- Hc in Hk. destruct k; lia.
  - destruct (excluded c') eqn:E; [|done]. destruct Hu. unfold excluded, some in E. rewrite !Hc in E. unfold unchecked. rewrite !count_in. lia.
Qed.
Lemma not_type ks : Forall (fun e : list arith * base => existsb (fun k => negb (count k ks =? count k e.1)%nat) [KUnsigned; KSigned; KChar; KShort; KInt; KLong; KFloat; KDouble] = true) arith_types -> ~ is_arith_type ks.
Proof.
  intros H (ks' & b & Hp & Hin). rewrite Forall_forall in H. specialize (H _ Hin). apply existsb_exists in H as (k & _ & Hk). cbn [fst] in Hk. rewrite (count_perm k ks ks' Hp), Nat.eqb_refl in Hk. done.
Qed.
Lemma not_signs : ~ is_arith_type [KSigned; KUnsigned]. Proof. apply not_type. by repeat constructor. Qed.
Lemma not_char_int : ~ is_arith_type [KChar; KInt]. Proof. apply not_type. by repeat constructor. Qed.
Lemma not_float_double : ~ is_arith_type [KFloat; KDouble]. Proof. apply not_type. by repeat constructor. Qed.
