(** Jumps end their blocks. *)
From stdpp Require Import base list numbers list_numbers.
From Verif Require Import Back.Ir_model Back.Ir_spec Back.Opt_model Back.Opt_spec Back.Opt_proof Back.Gen_model Back.Gen_spec Back.Gen_op_proof Back.Gen_shape_proof Back.Gen_expr_proof Back.Gen_stmt_proof.
Local Open Scope Z_scope.

Definition seals (c : list item) : Prop := forall x rest, jumps_last rest = true -> jumps_last (c ++ Lab x :: rest) = true.
Definition flows (c : list item) : Prop := forall rest, jumps_last rest = true -> jumps_last (c ++ rest) = true.
Lemma jl_lab x rest : jumps_last rest = true -> jumps_last (Lab x :: rest) = true.
Proof. done. Qed.
Lemma jl_other i rest : is_jump i = false -> jumps_last rest = true -> jumps_last (i :: rest) = true.
Proof. intros Hi Hr. cbn [jumps_last]. by rewrite Hi, Hr. Qed.
Lemma jl_jump i x rest : jumps_last rest = true -> jumps_last (i :: Lab x :: rest) = true.
Proof. intros Hr. cbn [jumps_last is_lab is_jump negb orb andb]. by rewrite Hr, orb_true_r. Qed.
Lemma cjmp_seals cmp l : seals (cjmp cmp l).
Proof. intros x rest Hr. by destruct cmp as [[]|[[[] ?] ?]]; cbn; rewrite ?Hr. Qed.
Lemma put_bop_flows k a sa b sb v u r o s c r1 : put_bop k a sa b sb v u r = Some (o, s, c, r1) -> flows c.
Proof. unfold put_bop. repeat case_match; intros ? ? ?; simplify_eq; done. Qed.
Lemma put_una_flows k a v u r o s c r1 : put_una k a v u r = Some (o, s, c, r1) -> flows c.
Proof. unfold put_una. repeat case_match; intros ? ? ?; simplify_eq; done. Qed.
Definition good_end (m : option (lbl * lbl)) (c : list item) : Prop := match m with None => flows c | Some _ => seals c end.
Ltac jstep := first
  [ done
  | match goal with H : flows ?c |- jumps_last (?c ++ _) = true => apply H end
  | match goal with H : seals ?c |- jumps_last (?c ++ Lab _ :: _) = true => apply H end
  | match goal with |- jumps_last (cjmp _ _ ++ _) = true => apply cjmp_seals end
  | match goal with |- jumps_last (Lab _ :: _) = true => apply jl_lab end
  | match goal with |- jumps_last (_ :: Lab _ :: _) = true => apply jl_jump end
  | match goal with |- jumps_last (_ :: _) = true => apply jl_other; [reflexivity|] end ].
Ltac jih := repeat match goal with
  | IH : forall m r l o s c r' l', gen m ?e r l = _ -> _, E : gen _ ?e _ _ = Some _ |- _ => apply IH in E; cbn [good_end] in E
  | IH : forall i r l n c r' l', gen_args ?e i r l = _ -> _, E : gen_args ?e _ _ _ = Some _ |- _ => apply IH in E
  | IH : forall E r l c r' l', gen_stmt E ?s r l = _ -> _, H : gen_stmt _ ?s _ _ = Some _ |- _ => apply IH in H
  | E : put_bop _ _ _ _ _ _ _ _ = Some _ |- _ => apply put_bop_flows in E
  | E : put_una _ _ _ _ _ = Some _ |- _ => apply put_una_flows in E
  end.
Ltac jnorm := cbn [app]; repeat (rewrite <- app_assoc; cbn [app]).
Ltac jgo := match goal with
  | |- flows _ => intros ?rest ?Hrest
  | |- seals _ => intros ?x ?rest ?Hrest end; jnorm; repeat jstep.
Ltac jfin := jih; cbn [good_end]; jgo.
Lemma gen_jumps e : forall m r l o s c r' l', gen m e r l = Some (o, s, c, r', l') -> good_end m c.
Proof.
  induction e using expr_mut with (P0 := fun es => forall i r l n c r' l', gen_args es i r l = Some (n, c, r', l') -> flows c);
    match goal with |- forall i : nat, _ => intros ii rr ll nn cc rr' ll' H | |- _ => intros m rr ll oo ss cc rr' ll' H end.
  - destruct m as [[tb fb]|]; cbn [gen] in H; simplify_eq; jfin.
  - destruct m as [[tb fb]|]; cbn [gen] in H; simplify_eq; jfin.
  - destruct m as [[tb fb]|]; cbn [gen] in H; [done|]. inv_bind H. dest5 y. inv_bind H. dest5 y. inv_bind H. dest4 y. simplify_eq. jfin.
  - cbn [gen] in H. inv_bind H. dest5 y. inv_bind H. dest5 y. inv_bind H. clear E1. destruct m as [[tb fb]|]; [simplify_eq; jfin|].
    destruct y as [|[[[]]]]; simplify_eq; jfin.
  - destruct m as [[tb fb]|]; cbn [gen] in H; inv_bind H; dest5 y; inv_bind H; dest5 y; simplify_eq; jfin.
  - destruct m as [[tb fb]|]; cbn [gen] in H; inv_bind H; dest5 y; inv_bind H; dest5 y; simplify_eq; jfin.
  - cbn [gen] in H. inv_bind H. dest5 y. inv_bind H. dest5 y. simplify_eq. destruct m; jfin.
  - destruct m as [[tb fb]|]; cbn [gen] in H; [done|]. inv_bind H. dest5 y. simplify_eq. jfin.
  - destruct m as [[tb fb]|]; cbn [gen] in H; [done|]. destruct post; inv_bind H; dest4 y; simplify_eq; jfin.
  - destruct m as [[tb fb]|]; cbn [gen] in H; [done|]. inv_bind H. dest5 y. inv_bind H. dest4 y. simplify_eq. jfin.
  - destruct m as [[tb fb]|]; cbn [gen] in H; [done|]. inv_bind H. dest5 y. inv_bind H. dest4 y. simplify_eq. jfin.
  - destruct m as [[tb fb]|]; cbn [gen] in H; [done|]. by apply (IHe None) in H.
  - destruct m as [[tb fb]|]; cbn [gen] in H; [done|]. inv_bind H. destruct y as [[[[yo ?] ?] ?] ?]. destruct yo; [case_match|]; simplify_eq; jfin.
  - destruct m as [[tb fb]|]; cbn [gen] in H; [done|]. inv_bind H. dest5 y. inv_bind H. dest5 y. inv_bind H. dest5 y. simplify_eq. jfin.
  - destruct m as [[tb fb]|]; cbn [gen] in H; [done|]. inv_bind H. dest5 y. simplify_eq. jfin.
  - destruct m as [[tb fb]|]; cbn [gen] in H; [done|]. inv_bind H. dest5 y. inv_bind H. dest5 y. simplify_eq. jfin.
  - destruct m as [[tb fb]|]; cbn [gen] in H; [done|]. inv_bind H. dest4 y. simplify_eq. jfin.
  - cbn [gen_args] in H. simplify_eq. jfin.
  - cbn [gen_args] in H. inv_bind H. dest4 y. inv_bind H. dest5 y. simplify_eq. jfin.
Qed.

Ltac sih := repeat match goal with H : gen _ _ _ _ = Some _ |- _ => apply gen_jumps in H; cbn [good_end] in H end.
Ltac jfin ::= sih; jih; jgo.
Lemma stmt_jumps s : forall E r l c r' l', gen_stmt E s r l = Some (c, r', l') -> flows c.
Proof.
  induction s using stmt_ind2; intros E r l cc r' l' H'; cbn [gen_stmt] in H'.
  - simplify_eq. jfin.
  - inv_bind H'. dest5 y. simplify_eq. jfin.
  - destruct e; [|simplify_eq; jfin]. inv_bind H'. dest5 y. simplify_eq. jfin.
  - inv_bind H'. destruct y as [[? ?] ?]. inv_bind H'. destruct y as [[? ?] ?]. simplify_eq. jfin.
  - inv_bind H'. dest5 y. inv_bind H'. destruct y as [[? ?] ?]. destruct s2 as [s2|].
    + inv_bind H'. destruct y as [[? ?] ?]. specialize (H s2 eq_refl). simplify_eq. jfin.
    + simplify_eq. jfin.
  - inv_bind H'. dest5 y. inv_bind H'. destruct y as [[? ?] ?]. simplify_eq. jfin.
  - inv_bind H'. destruct y as [[? ?] ?]. simplify_eq. jfin.
  - inv_bind H'. destruct y as [[? ?] ?]. inv_bind H'. dest5 y. simplify_eq. jfin.
  - inv_bind H'. destruct y as [[? ?] ?]. inv_bind H'. dest5 y. simplify_eq. jfin.
  - inv_bind H'. destruct y as [[? ?] ?]. inv_bind H'. destruct y as [[? ?] ?]. inv_bind H'. destruct y as [[? ?] ?]. inv_bind H'. destruct y as [[? ?] ?].
    assert (Ho : forall e r l c r' l', match e with None => Some ([], r, l) | Some e => '(_, _, c, r, l) ← gen None e r l; Some (c, r, l) end = Some (c, r', l') -> flows c).
    { intros [e|] ? ? ? ? ? Ho; [|simplify_eq; jfin]. inv_bind Ho. dest5 y. simplify_eq. exact (gen_jumps _ _ _ _ _ _ _ _ _ E4). }
    assert (Ht : forall e m r l c r' l', match e with None => Some ([Jump m.1], r, l) | Some e => '(_, _, c, r, l) ← gen (Some m) e r l; Some (c, r, l) end = Some (c, r', l') -> seals c).
    { intros [e|] ? ? ? ? ? ? Ht; [|simplify_eq; jfin]. inv_bind Ht. dest5 y. simplify_eq. exact (gen_jumps _ _ _ _ _ _ _ _ _ E4). }
    apply (Ht _ (LNew l, LNew (S (S (S l))))) in E3. clear Ht. apply Ho in E0, E2. clear Ho. simplify_eq. jfin.
  - inv_bind H'. simplify_eq. jfin.
  - inv_bind H'. simplify_eq. jfin.
  - simplify_eq. jfin.
Qed.
