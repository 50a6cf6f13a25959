From stdpp Require Import base list numbers.
From Coq Require Import Floats.SpecFloat.
From Verif Require Import Back.Ir_model Back.Ir_spec.
Open Scope Z_scope.

(** The opposite comparison, and the one with the operands exchanged. *)
Definition inv (k : cmp) : cmp :=
  match k with CNever => CAlways | CAlways => CNever | CEq => CNe | CNe => CEq
  | CLt => CGe | CLe => CGt | CGe => CLt | CGt => CLe end.
Definition swp (k : cmp) : cmp :=
  match k with CLt => CGt | CLe => CGe | CGe => CLe | CGt => CLt | k => k end.

#[global] Instance cmp_dec : EqDecision cmp. Proof. solve_decision. Defined.
Lemma invert_code k u f : k <> CNever -> k <> CAlways ->
  invert_cond (cond_code k u f) = Some (cond_code (inv k) u f).
Proof. destruct k, u, f; try done; by vm_compute. Qed.
Lemma invert_rejects k u f : k = CNever \/ k = CAlways -> invert_cond (cond_code k u f) = None.
Proof. intros [-> | ->]; destruct u, f; by vm_compute. Qed.
Lemma swap_code k : swap_cond (cond_code k false false) = Some (cond_code (swp k) false false).
Proof. destruct k; by vm_compute. Qed.
Lemma split_code k u f :
  Z.land (cond_code k u f) COND_MASK = cond_code k false false /\
  forall k', Z.lor (cond_code k' false false) (Z.land (cond_code k u f) (Z.lnot COND_MASK)) = cond_code k' u f.
Proof. split; [destruct k, u, f; by vm_compute|]. intros k'; destruct k, u, f, k'; by vm_compute. Qed.

Lemma cmp_inv k a b : cmp_int (inv k) a b = negb (cmp_int k a b).
Proof. destruct k; cbn; try done; repeat case_bool_decide; cbn; try done; lia. Qed.
Lemma cmp_swp k a b : cmp_int (swp k) b a = cmp_int k a b.
Proof. destruct k; cbn; try done; repeat case_bool_decide; cbn; try done; lia. Qed.

Lemma holds_code size k u f a b :
  cond_holds size (cond_code k u f) a b = cmp_int k (view size u a) (view size u b).
Proof. unfold cond_holds. destruct k, u, f; reflexivity. Qed.

Lemma invert_ok size k u f c a b : invert_cond (cond_code k u f) = Some c ->
  cond_holds size c a b = negb (cond_holds size (cond_code k u f) a b).
Proof.
  intros H. destruct (decide (k = CNever \/ k = CAlways)) as [Hn|Hn].
  - by rewrite invert_rejects in H.
  - rewrite invert_code in H by tauto. injection H as <-. rewrite !holds_code. apply cmp_inv.
Qed.
Lemma swap_ok size k u f : exists c, swap_cond (Z.land (cond_code k u f) COND_MASK) = Some c /\
  forall a b, cond_holds size (Z.lor c (Z.land (cond_code k u f) (Z.lnot COND_MASK))) b a =
    cond_holds size (cond_code k u f) a b.
Proof.
  destruct (split_code k u f) as [H1 H2]. rewrite H1, swap_code. eexists; split; [done|].
  intros a b. rewrite H2, !holds_code. apply cmp_swp.
Qed.
Lemma SFcompare_sym a b :
  SFcompare b a = match SFcompare a b with Some c => Some (CompOpp c) | None => None end.
Proof.
  destruct a as [sa|sa| |sa ma ea]; destruct b as [sb|sb| |sb mb eb]; cbn;
    repeat match goal with s : bool |- _ => destruct s end; try done.
  - rewrite (Z.compare_antisym ea eb). destruct (Z.compare ea eb); cbn; try done.
    f_equal. rewrite CompOpp_involutive.
    change (Pcompare mb ma Eq) with (Pos.compare mb ma). change (Pcompare ma mb Eq) with (Pos.compare ma mb).
    by rewrite Pos.compare_antisym, CompOpp_involutive.
  - rewrite (Z.compare_antisym ea eb). destruct (Z.compare ea eb); cbn; try done.
    f_equal. change (Pcompare mb ma Eq) with (Pos.compare mb ma). change (Pcompare ma mb Eq) with (Pos.compare ma mb).
    by rewrite Pos.compare_antisym.
Qed.
Lemma swap_float k a b : cmp_float (swp k) b a = cmp_float k a b.
Proof.
  unfold cmp_float. rewrite SFcompare_sym. destruct k; cbn; try done; destruct (SFcompare a b) as [[]|]; done.
Qed.
Lemma swap_float_ok k u : exists k',
  swap_cond (Z.land (cond_code k u true) COND_MASK) = Some (cond_code k' false false) /\
  Z.lor (cond_code k' false false) (Z.land (cond_code k u true) (Z.lnot COND_MASK)) = cond_code k' u true /\
  forall a b, cmp_float k' b a = cmp_float k a b.
Proof.
  exists (swp k). destruct (split_code k u true) as [H1 H2]. rewrite H1, swap_code, H2.
  split; [done|]. split; [done|]. intros; apply swap_float.
Qed.
Lemma invert_float k k' u a b : invert_cond (cond_code k u true) = Some (cond_code k' u true) ->
  (k = CEq \/ k = CNe \/ SFcompare a b <> None) -> cmp_float k' a b = negb (cmp_float k a b).
Proof.
  intros H Hn. destruct (decide (k = CNever \/ k = CAlways)) as [Hx|Hx].
  - by rewrite invert_rejects in H.
  - rewrite invert_code in H by tauto. assert (k' = inv k) as ->.
    { injection H as H. revert H. destruct k, k', u; vm_compute; congruence. }
    unfold cmp_float. destruct k; cbn; try tauto; destruct (SFcompare a b) as [[]|] eqn:E; try done;
      by destruct Hn as [?|[?|?]].
Qed.
Lemma invert_twice k u f c : invert_cond (cond_code k u f) = Some c -> invert_cond c = Some (cond_code k u f).
Proof.
  intros H. destruct (decide (k = CNever \/ k = CAlways)) as [Hn|Hn].
  - by rewrite invert_rejects in H.
  - rewrite invert_code in H by tauto. injection H as <-. rewrite invert_code; destruct k; try done; tauto.
Qed.
