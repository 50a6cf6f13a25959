(** Which labels and registers the code of an expression takes. *)
From stdpp Require Import base list numbers.
From Verif Require Import Back.Ir_model Back.Ir_spec Back.Opt_model Back.Opt_spec Back.Opt_proof Back.Gen_model Back.Gen_spec Back.Gen_op_proof.
Local Open Scope Z_scope.

Scheme expr_mut := Induction for expr Sort Prop
  with exprs_mut := Induction for exprs Sort Prop.

(** * Labels and registers taken *)
Definition hit (x y : lbl) : nat := if decide (x = y) then 1%nat else 0%nat.
Fixpoint cnt (x : lbl) (code : list item) : nat :=
  match code with [] => 0%nat | Lab y :: code => (hit x y + cnt x code)%nat | _ :: code => cnt x code end.
Lemma cnt_app x c1 c2 : cnt x (c1 ++ c2) = (cnt x c1 + cnt x c2)%nat.
Proof. induction c1 as [|[] c1 IH]; cbn [cnt app]; rewrite ?IH; lia. Qed.
Lemma hit_new n m : hit (LNew n) (LNew m) = if decide (n = m) then 1%nat else 0%nat.
Proof. unfold hit. repeat case_decide; simplify_eq; done. Qed.
Lemma hit_user n m : hit (LUser n) (LNew m) = 0%nat.
Proof. unfold hit. by rewrite decide_False. Qed.
(** Each of the labels from [l] to [l'] once, and no other. *)
Definition uses (l l' : nat) (c : list item) : Prop :=
  (forall n, cnt (LNew n) c = if decide (l <= n < l')%nat then 1%nat else 0%nat) /\ (forall id, cnt (LUser id) c = 0%nat).
Lemma uses_nil l : uses l l [].
Proof. split; intros n; cbn [cnt]; [case_decide; lia|done]. Qed.

Ltac inv_bind H := let y := fresh "y" in let E := fresh "E" in apply bind_Some in H; destruct H as (y & E & H).
Ltac uses_tac := split; intros ?n; [repeat match goal with H : uses _ _ _ |- _ => destruct H as [H _] end|repeat match goal with H : uses _ _ _ |- _ => destruct H as [_ H] end];
  repeat (rewrite cnt_app || cbn [cnt]); rewrite ?hit_new, ?hit_user; repeat match goal with H : context [cnt _ ?c] |- context [cnt _ ?c] => rewrite (H _) end;
  cbn [cnt]; repeat case_decide; lia.

Lemma put_bop_shape k a sa b sb v u r o s c r1 : put_bop k a sa b sb v u r = Some (o, s, c, r1) -> (r <= r1)%nat /\ forall x, cnt x c = 0%nat.
Proof. unfold put_bop. repeat case_match; intros ?; simplify_eq; split; done || lia. Qed.
Lemma put_una_shape k a v u r o s c r1 : put_una k a v u r = Some (o, s, c, r1) -> (r <= r1)%nat /\ forall x, cnt x c = 0%nat.
Proof. unfold put_una. repeat case_match; intros ?; simplify_eq; split; done || lia. Qed.
Lemma cjmp_shape cmp l x : cnt x (cjmp cmp l) = 0%nat.
Proof. by destruct cmp as [[]|[[[]]]]. Qed.

Ltac dest5 y := destruct y as [[[[? ?] ?] ?] ?].
Ltac dest4 y := destruct y as [[[? ?] ?] ?].
Ltac use_ih := repeat match goal with
  | IH : forall m r l o s c r' l', gen m ?e r l = _ -> _, E : gen _ ?e _ _ = Some _ |- _ => apply IH in E as (? & ? & ?)
  | IH : forall i r l n c r' l', gen_args ?e i r l = _ -> _, E : gen_args ?e _ _ _ = Some _ |- _ => apply IH in E as (? & ? & ?)
  | E : put_bop _ _ _ _ _ _ _ _ = Some _ |- _ => apply put_bop_shape in E as [? ?]
  | E : put_una _ _ _ _ _ = Some _ |- _ => apply put_una_shape in E as [? ?]
  end.
Ltac zeros := repeat match goal with H : forall x, cnt x ?c = 0%nat |- _ => lazymatch goal with |- context [cnt ?y c] => rewrite (H y) end end.
Ltac uses_tac2 := split; intros ?n; [repeat match goal with H : uses _ _ _ |- _ => destruct H as [H _] end|repeat match goal with H : uses _ _ _ |- _ => destruct H as [_ H] end];
  repeat (rewrite cnt_app || cbn [cnt]); rewrite ?cjmp_shape, ?hit_new, ?hit_user; repeat match goal with H : forall n, cnt _ ?c = _ |- context [cnt _ ?c] => rewrite (H _) end;
  cbn [cnt]; repeat case_decide; lia.
Ltac finish := use_ih; (split; [lia|]; split; [lia|]; uses_tac2).
Lemma gen_shape e : forall m r l o s c r' l', gen m e r l = Some (o, s, c, r', l') -> (r <= r')%nat /\ (l <= l')%nat /\ uses l l' c.
Proof.
  induction e using expr_mut with (P0 := fun es => forall i r l n c r' l', gen_args es i r l = Some (n, c, r', l') -> (r <= r')%nat /\ (l <= l')%nat /\ uses l l' c);
    first [intros m rr ll oo ss cc rr' ll' H|intros ii rr ll nn cc rr' ll' H].
  - destruct m as [[tb fb]|]; cbn [gen] in H; simplify_eq; finish.
  - destruct m as [[tb fb]|]; cbn [gen] in H; simplify_eq; finish.
  - destruct m as [[tb fb]|]; cbn [gen] in H; [done|]. inv_bind H. dest5 y. inv_bind H. dest5 y. inv_bind H. dest4 y. simplify_eq. finish.
  - cbn [gen] in H. inv_bind H. dest5 y. inv_bind H. dest5 y. inv_bind H. clear E1. destruct m as [[tb fb]|]; [simplify_eq; finish|].
    destruct y as [|[[[]]]]; simplify_eq; finish.
  - destruct m as [[tb fb]|]; cbn [gen] in H; inv_bind H; dest5 y; inv_bind H; dest5 y; simplify_eq; finish.
  - destruct m as [[tb fb]|]; cbn [gen] in H; inv_bind H; dest5 y; inv_bind H; dest5 y; simplify_eq; finish.
  - cbn [gen] in H. inv_bind H. dest5 y. inv_bind H. dest5 y. simplify_eq. finish.
  - destruct m as [[tb fb]|]; cbn [gen] in H; [done|]. inv_bind H. dest5 y. simplify_eq. finish.
  - destruct m as [[tb fb]|]; cbn [gen] in H; [done|]. destruct post; inv_bind H; dest4 y; simplify_eq; finish.
  - destruct m as [[tb fb]|]; cbn [gen] in H; [done|]. inv_bind H. dest5 y. inv_bind H. dest4 y. simplify_eq. finish.
  - destruct m as [[tb fb]|]; cbn [gen] in H; [done|]. inv_bind H. dest5 y. inv_bind H. dest4 y. simplify_eq. finish.
  - destruct m as [[tb fb]|]; cbn [gen] in H; [done|]. by apply IHe in H.
  - destruct m as [[tb fb]|]; cbn [gen] in H; [done|]. inv_bind H. destruct y as [[[[yo ?] ?] ?] ?]. destruct yo; [case_match|]; simplify_eq; finish.
  - destruct m as [[tb fb]|]; cbn [gen] in H; [done|]. inv_bind H. dest5 y. inv_bind H. dest5 y. inv_bind H. dest5 y. simplify_eq. finish.
  - destruct m as [[tb fb]|]; cbn [gen] in H; [done|]. inv_bind H. dest5 y. simplify_eq. finish.
  - destruct m as [[tb fb]|]; cbn [gen] in H; [done|]. inv_bind H. dest5 y. inv_bind H. dest5 y. simplify_eq. finish.
  - destruct m as [[tb fb]|]; cbn [gen] in H; [done|]. inv_bind H. dest4 y. simplify_eq. finish.
  - cbn [gen_args] in H. simplify_eq. finish.
  - cbn [gen_args] in H. inv_bind H. dest4 y. inv_bind H. dest5 y. simplify_eq. finish.
Qed.
