(** The code of a function does what its statements do. *)
From stdpp Require Import base list numbers list_numbers.
From Verif Require Import Back.Ir_model Back.Ir_spec Back.Opt_model Back.Opt_spec Back.Opt_proof Back.Gen_model Back.Gen_spec Back.Gen_op_proof Back.Gen_shape_proof Back.Gen_expr_proof.
Local Open Scope Z_scope.

Section Ind.
  Context (P : stmt -> Prop).
  Context (H1 : P SEmpty) (H2 : forall e, P (SExpr e)) (H3 : forall e, P (SReturn e)) (H4 : forall s1 s2, P s1 -> P s2 -> P (SSeq s1 s2))
    (H5 : forall c s1 s2, P s1 -> (forall s, s2 = Some s -> P s) -> P (SIf c s1 s2)) (H6 : forall e t cases d s, P s -> P (SSwitch e t cases d s))
    (H7 : forall id s, P s -> P (SLabel id s)) (H8 : forall c s, P s -> P (SWhile c s)) (H9 : forall c s, P s -> P (SDo s c))
    (H10 : forall pre c post s, P s -> P (SFor pre c post s)) (H11 : P SBreak) (H12 : P SContinue) (H13 : forall id, P (SGoto id)).
  Fixpoint stmt_ind2 (s : stmt) : P s.
  Proof using H1 H2 H3 H4 H5 H6 H7 H8 H9 H10 H11 H12 H13.
    destruct s as [|e|e|s1 s2|c s1 s2|e t cases d s|id s|c s|s c|pre c post s| | |id].
    - exact H1.
    - exact (H2 e).
    - exact (H3 e).
    - exact (H4 s1 s2 (stmt_ind2 s1) (stmt_ind2 s2)).
    - refine (H5 c s1 s2 (stmt_ind2 s1) _). destruct s2 as [s2|]; [|discriminate]. intros s E. injection E as <-. exact (stmt_ind2 s2).
    - exact (H6 e t cases d s (stmt_ind2 s)).
    - exact (H7 id s (stmt_ind2 s)).
    - exact (H8 c s (stmt_ind2 s)).
    - exact (H9 c s (stmt_ind2 s)).
    - exact (H10 pre c post s (stmt_ind2 s)).
    - exact H11.
    - exact H12.
    - exact (H13 id).
  Defined.
End Ind.

Fixpoint count (id : nat) (l : list nat) : nat := match l with [] => 0%nat | x :: l => ((if decide (id = x) then 1 else 0) + count id l)%nat end.
Lemma count_app id l1 l2 : count id (l1 ++ l2) = (count id l1 + count id l2)%nat.
Proof. induction l1 as [|x l1 IH]; cbn [count app]; [done|]. rewrite IH. lia. Qed.
Lemma count_nodup id l : NoDup l -> (count id l <= 1)%nat.
Proof.
  induction 1 as [|x l Hx H IH]; cbn [count]; [lia|]. case_decide as E; [|lia]. subst x.
  assert (count id l = 0%nat) as ->; [|lia]. clear -Hx. induction l as [|y l IH]; [done|]. cbn [count]. apply not_elem_of_cons in Hx as [Hn Hx]. rewrite decide_False by done. by apply IH.
Qed.
Lemma hit_user_user n m : hit (LUser n) (LUser m) = if decide (n = m) then 1%nat else 0%nat.
Proof. unfold hit. repeat case_decide; simplify_eq; done. Qed.
Lemma hit_new_user n m : hit (LNew n) (LUser m) = 0%nat.
Proof. unfold hit. by rewrite decide_False. Qed.

(** The labels of the code *)
Definition uses2 (l l' : nat) (ids : list nat) (c : list item) : Prop :=
  (forall n, cnt (LNew n) c = if decide (l <= n < l')%nat then 1%nat else 0%nat) /\ (forall id, cnt (LUser id) c = count id ids).
Ltac uses2_tac := split; intros ?n;
  [repeat match goal with H : uses _ _ _ |- _ => destruct H as [H _] | H : uses2 _ _ _ _ |- _ => destruct H as [H _] end
  |repeat match goal with H : uses _ _ _ |- _ => destruct H as [_ H] | H : uses2 _ _ _ _ |- _ => destruct H as [_ H] end];
  repeat (rewrite cnt_app || cbn [cnt]); rewrite ?hit_new, ?hit_user, ?hit_user_user, ?hit_new_user; repeat match goal with H : forall n, cnt _ ?c = _ |- context [cnt _ ?c] => rewrite (H _) end;
  cbn [cnt count user_labels]; rewrite ?count_app; cbn [count]; repeat case_decide; lia.
Ltac use_ih2 := repeat match goal with
  | IH : forall E r l c r' l', gen_stmt E ?s r l = _ -> _, H : gen_stmt _ ?s _ _ = Some _ |- _ => apply IH in H as (? & ? & ?)
  | H : gen _ _ _ _ = Some _ |- _ => apply gen_shape in H as (? & ? & ?)
  end.
Ltac finish2 := use_ih2; split; [lia|]; split; [lia|]; uses2_tac.
Lemma stmt_shape s : forall E r l c r' l', gen_stmt E s r l = Some (c, r', l') -> (r <= r')%nat /\ (l <= l')%nat /\ uses2 l l' (user_labels s) c.
Proof.
  induction s using stmt_ind2; intros E r l cc r' l' H'; cbn [gen_stmt] in H'.
  - simplify_eq. finish2.
  - inv_bind H'. dest5 y. simplify_eq. finish2.
  - destruct e; [|simplify_eq; finish2]. inv_bind H'. dest5 y. simplify_eq. finish2.
  - inv_bind H'. destruct y as [[? ?] ?]. inv_bind H'. destruct y as [[? ?] ?]. simplify_eq. finish2.
  - inv_bind H'. dest5 y. inv_bind H'. destruct y as [[? ?] ?]. destruct s2 as [s2|].
    + inv_bind H'. destruct y as [[? ?] ?]. specialize (H s2 eq_refl). simplify_eq. finish2.
    + simplify_eq. finish2.
  - inv_bind H'. dest5 y. inv_bind H'. destruct y as [[? ?] ?]. simplify_eq. finish2.
  - inv_bind H'. destruct y as [[? ?] ?]. simplify_eq. finish2.
  - inv_bind H'. destruct y as [[? ?] ?]. inv_bind H'. dest5 y. simplify_eq. finish2.
  - inv_bind H'. destruct y as [[? ?] ?]. inv_bind H'. dest5 y. simplify_eq. finish2.
  - inv_bind H'. destruct y as [[? ?] ?]. inv_bind H'. destruct y as [[? ?] ?]. inv_bind H'. destruct y as [[? ?] ?]. inv_bind H'. destruct y as [[? ?] ?].
    assert (forall e r l c r' l', match e with None => Some ([], r, l) | Some e => '(_, _, c, r, l) ← gen None e r l; Some (c, r, l) end = Some (c, r', l') -> (r <= r')%nat /\ (l <= l')%nat /\ uses l l' c) as Ho.
    { intros [e|] ? ? ? ? ? Ho; [|simplify_eq; split; [lia|]; split; [lia|]; apply uses_nil]. inv_bind Ho. dest5 y. simplify_eq. by apply gen_shape in E4. }
    assert (forall e m r l c r' l', match e with None => Some ([Jump m.1], r, l) | Some e => '(_, _, c, r, l) ← gen (Some m) e r l; Some (c, r, l) end = Some (c, r', l') -> (r <= r')%nat /\ (l <= l')%nat /\ uses l l' c) as Ht.
    { intros [e|] ? ? ? ? ? ? Ht; [|simplify_eq; split; [lia|]; split; [lia|]; uses_tac2]. inv_bind Ht. dest5 y. simplify_eq. by apply gen_shape in E4. }
    apply (Ht _ (LNew l, LNew (S (S (S l))))) in E3 as (? & ? & ?). clear Ht. apply Ho in E0 as (? & ? & ?), E2 as (? & ? & ?). clear Ho. simplify_eq. finish2.
  - inv_bind H'. simplify_eq. finish2.
  - inv_bind H'. simplify_eq. finish2.
  - simplify_eq. finish2.
Qed.

Section Stmt.
  Context {W : Type} (ld : W -> Z -> Z -> option Z) (st : W -> Z -> Z -> Z -> option W)
    (call : W -> nat -> list Z -> option (Z * W)) (nv : nat) (vt : nat -> ty).
  Context (body : stmt) (code : list item) (fin : nat) (Huniq : forall x, (cnt x code <= 1)%nat) (Hvt : forall x, good_ty (vt x)).
  Context (Hfin : code !! fin = Some (Lab (LNew 1))).
  Notation eval := (eval ld st call).
  Notation typed := (typed true nv vt).
  Notation typed_opt := (typed_opt true nv vt).
  Notation typed_stmt := (typed_stmt true nv vt).
  Notation matches := (matches nv vt).
  Notation mstep := (mstep ld st call code).
  Notation msteps := (msteps ld st call code).
  Notation runs := (runs ld st call code).
  Notation at_ := (at_ code).
  Notation step := (step ld st call body).
  Notation steps := (steps ld st call body).
  Notation gen_ok := (gen_ok ld st call nv vt code Huniq Hvt).

  Definition opt_code (e : option expr) (c : list item) : Prop :=
    match e with None => c = [] | Some e => exists r l o sz r' l', gen None e r l = Some (o, sz, c, r', l') /\ (nv <= r)%nat end.
  Definition test_code (e : option expr) (tb fb : lbl) (c : list item) : Prop :=
    match e with None => c = [Jump tb] | Some e => exists r l o sz r' l', gen (Some (tb, fb)) e r l = Some (o, sz, c, r', l') /\ (nv <= r)%nat end.
  Definition stmt_code (E : env) (s : stmt) (p q : nat) : Prop :=
    exists r l c r' l', gen_stmt E s r l = Some (c, r', l') /\ (nv <= r)%nat /\ at_ p c /\ q = (p + length c)%nat.
  Definition inner (nx ct : lbl) : env := Env (Some nx) (Some ct) (LNew 1).
  (** A loop: label, body, label [ct] at [a], expression, label at [b], test, label [nx] at [n]. *)
  Definition while_at (c : expr) (s : stmt) (q a n : nat) (lo ct nx : lbl) : Prop :=
    code !! q = Some (Lab lo) /\ stmt_code (inner nx ct) s (S q) a /\ typed c /\ typed_stmt s /\ code !! a = Some (Lab ct) /\
    (exists c2, test_code (Some c) lo nx c2 /\ at_ (S a) c2 /\ n = (S a + length c2)%nat) /\ code !! n = Some (Lab nx).
  Definition for_at (c post : option expr) (s : stmt) (q a b n : nat) (lo ct cd nx : lbl) : Prop :=
    code !! q = Some (Lab lo) /\ stmt_code (inner nx ct) s (S q) a /\ typed_opt c /\ typed_opt post /\ typed_stmt s /\ code !! a = Some (Lab ct) /\
    (exists c2, opt_code post c2 /\ at_ (S a) c2 /\ b = (S a + length c2)%nat) /\ code !! b = Some (Lab cd) /\
    (exists c3, test_code c lo nx c3 /\ at_ (S b) c3 /\ n = (S b + length c3)%nat) /\ code !! n = Some (Lab nx).

  (** The code from [p] on does what is still to be done. *)
  Inductive mk : cont -> env -> nat -> Prop :=
  | mk_lab k E p l : code !! p = Some (Lab l) -> mk k E (S p) -> mk k E p
  | mk_jump k E p q l : code !! p = Some (Jump l) -> code !! q = Some (Lab l) -> mk k E q -> mk k E p
  | mk_stop : mk Kstop (Env None None (LNew 1)) fin
  | mk_seq s k E p q : stmt_code E s p q -> typed_stmt s -> mk k E q -> mk (Kseq s k) E p
  | mk_while c s k E q a n lo ct nx : while_at c s q a n lo ct nx -> mk k E (S n) -> mk (Kwhile c s k) (inner nx ct) a
  | mk_for c post s k E q a b n lo ct cd nx : for_at c post s q a b n lo ct cd nx -> mk k E (S n) -> mk (Kfor c post s k) (inner nx ct) a
  | mk_cond c post s k E q a b n lo ct cd nx : for_at c post s q a b n lo ct cd nx -> mk k E (S n) -> mk (Kcond c post s k) (inner nx ct) b
  | mk_switch k E p br : code !! p = Some (Lab br) -> mk k E (S p) -> mk (Kswitch k) (Env (Some br) (e_cnt E) (LNew 1)) p.

  Lemma mk_ret k E p : mk k E p -> e_ret E = LNew 1.
  Proof using. induction 1; done. Qed.

  Lemma break_ok k E p k' : mk k E p -> break_to k = Some k' -> exists br q E', e_brk E = Some br /\ code !! q = Some (Lab br) /\ mk k' E' (S q).
  Proof using.
    induction 1; cbn [break_to]; intros H'; try done; eauto; simplify_eq.
    - match goal with H : while_at _ _ _ _ _ _ _ _ |- _ => destruct H as (? & ? & ? & ? & ? & ? & ?) end. eexists _, _, _. by repeat split.
    - match goal with H : for_at _ _ _ _ _ _ _ _ _ _ _ |- _ => destruct H as (? & ? & ? & ? & ? & ? & ? & ? & ? & ?) end. eexists _, _, _. by repeat split.
    - eexists _, _, _. by repeat split.
  Qed.
  Lemma continue_ok k E p k' : mk k E p -> continue_to k = Some k' -> exists ct q E', e_cnt E = Some ct /\ code !! q = Some (Lab ct) /\ mk k' E' q.
  Proof using.
    induction 1; cbn [continue_to]; intros H'; try done; eauto; simplify_eq.
    - eexists _, _, _. split; [done|]. split; [|by eapply mk_while]. match goal with H : while_at _ _ _ _ _ _ _ _ |- _ => by destruct H as (? & ? & ? & ? & ? & ? & ?) end.
    - eexists _, _, _. split; [done|]. split; [|by eapply mk_for]. match goal with H : for_at _ _ _ _ _ _ _ _ _ _ _ |- _ => by destruct H as (? & ? & ? & ? & ? & ? & ? & ? & ? & ?) end.
  Qed.

  (** The places of the parts of a statement *)
  Definition test_at (e : option expr) (tb fb : lbl) (p q : nat) : Prop := exists c, test_code e tb fb c /\ at_ p c /\ q = (p + length c)%nat.
  Definition opt_at (e : option expr) (p q : nat) : Prop := exists c, opt_code e c /\ at_ p c /\ q = (p + length c)%nat.
  Ltac cut_at H := cbn [app] in H; repeat match type of H with Gen_expr_proof.at_ _ _ (_ ++ _) => apply at_app in H as [? H] | Gen_expr_proof.at_ _ _ (_ :: _) => apply at_cons in H as [? H] end.
  Ltac open H := let r := fresh "r" in let l := fresh "l" in let c := fresh "cc" in let r' := fresh "r'" in let l' := fresh "l'" in
    let Hg := fresh "Hg" in let Hr := fresh "Hr" in let Ha := fresh "Ha" in destruct H as (r & l & c & r' & l' & Hg & Hr & Ha & ->); cbn [gen_stmt] in Hg.
  Ltac lens := repeat (rewrite ?app_length; cbn [length app]); lia.
  Ltac mono := repeat match goal with
    | H : gen _ _ _ _ = Some _ |- _ => apply gen_shape in H as [H _]
    | H : gen_stmt _ _ _ _ = Some _ |- _ => apply stmt_shape in H as [H _] end; lia.
  Lemma give_stmt E s r l c r' l' p q : gen_stmt E s r l = Some (c, r', l') -> at_ p c -> (nv <= r)%nat -> q = (p + length c)%nat -> stmt_code E s p q.
  Proof using. intros. by exists r, l, c, r', l'. Qed.
  Lemma give_test e tb fb r l o sz c r' l' p q : gen (Some (tb, fb)) e r l = Some (o, sz, c, r', l') -> at_ p c -> (nv <= r)%nat -> q = (p + length c)%nat -> test_at (Some e) tb fb p q.
  Proof using. intros. exists c. split; [|done]. by exists r, l, o, sz, r', l'. Qed.
  Ltac give := first [eapply give_stmt|eapply give_test]; [eassumption|eassumption|mono|first [reflexivity|lens]].

  Lemma code_seq E s1 s2 p q : stmt_code E (SSeq s1 s2) p q -> exists m, stmt_code E s1 p m /\ stmt_code E s2 m q.
  Proof using.
    intros H. open H. inv_bind Hg. destruct y as [[? ?] ?]. inv_bind Hg. destruct y as [[? ?] ?]. simplify_eq. cut_at Ha.
    eexists. split; [give|give].
  Qed.
  Lemma code_if E c s1 s2 p q : stmt_code E (SIf c s1 s2) p q -> exists tb fb a b,
    test_at (Some c) tb fb p a /\ code !! a = Some (Lab tb) /\ stmt_code E s1 (S a) b /\
    match s2 with
    | None => code !! b = Some (Lab fb) /\ q = S b
    | Some s2 => exists nb d, code !! b = Some (Jump nb) /\ code !! (S b) = Some (Lab fb) /\ stmt_code E s2 (S (S b)) d /\ code !! d = Some (Lab nb) /\ q = S d
    end.
  Proof using.
    intros H. open H. inv_bind Hg. dest5 y. inv_bind Hg. destruct y as [[? ?] ?]. destruct s2 as [s2|].
    - inv_bind Hg. destruct y as [[? ?] ?]. simplify_eq. cut_at Ha. eexists _, _, _, _. split; [give|]. split; [eassumption|]. split; [give|].
      eexists _, _. split; [eassumption|]. split; [eassumption|]. split; [give|]. split; [eassumption|lens].
    - simplify_eq. cut_at Ha. eexists _, _, _, _. split; [give|]. split; [eassumption|]. split; [give|]. split; [eassumption|lens].
  Qed.
  Lemma code_label E id s p q : stmt_code E (SLabel id s) p q -> code !! p = Some (Lab (LUser id)) /\ stmt_code E s (S p) q.
  Proof using. intros H. open H. inv_bind Hg. destruct y as [[? ?] ?]. simplify_eq. cut_at Ha. split; [eassumption|give]. Qed.
  Lemma code_do E s c p q : stmt_code E (SDo s c) p q -> e_ret E = LNew 1 -> typed c -> typed_stmt s -> exists a n lo ct nx, while_at c s p a n lo ct nx /\ q = S n.
  Proof using.
    intros H HE Hc Hs. open H. inv_bind Hg. destruct y as [[? ?] ?]. inv_bind Hg. dest5 y. simplify_eq. cut_at Ha. rewrite HE in *.
    eexists _, _, _, _, _. split; [|shelve]. split; [eassumption|]. split; [give|]. split; [done|]. split; [done|]. split; [eassumption|]. split; [|eassumption].
    eexists. split; [|split; [eassumption|reflexivity]]. eexists _, _, _, _, _, _. split; [eassumption|mono].
    Unshelve. lens.
  Qed.
  Lemma code_while E s c p q : stmt_code E (SWhile c s) p q -> e_ret E = LNew 1 -> typed c -> typed_stmt s -> exists a n lo ct nx, while_at c s (S p) a n lo ct nx /\ q = S n /\ code !! p = Some (Jump ct).
  Proof using.
    intros H HE Hc Hs. open H. inv_bind Hg. destruct y as [[? ?] ?]. inv_bind Hg. dest5 y. simplify_eq. cut_at Ha. rewrite HE in *.
    eexists _, _, _, _, _. split; [|split; [shelve|eassumption]]. split; [eassumption|]. split; [give|]. split; [done|]. split; [done|]. split; [eassumption|]. split; [|eassumption].
    eexists. split; [|split; [eassumption|reflexivity]]. eexists _, _, _, _, _, _. split; [eassumption|mono].
    Unshelve. lens.
  Qed.
  Lemma opt_some e r l c r' l' : match e with None => Some ([], r, l) | Some e => '(_, _, c, r, l) ← gen None e r l; Some (c, r, l) end = Some (c, r', l') ->
    (nv <= r)%nat -> opt_code e c /\ (r <= r')%nat.
  Proof using.
    intros H Hr. destruct e as [e|]; [|by simplify_eq]. inv_bind H. dest5 y. simplify_eq. split; [|by apply gen_shape in E as [? _]]. cbn [opt_code]. repeat eexists; eassumption.
  Qed.
  Lemma test_some e tb fb r l c r' l' : match e with None => Some ([Jump tb], r, l) | Some e => '(_, _, c, r, l) ← gen (Some (tb, fb)) e r l; Some (c, r, l) end = Some (c, r', l') ->
    (nv <= r)%nat -> test_code e tb fb c /\ (r <= r')%nat.
  Proof using.
    intros H Hr. destruct e as [e|]; [|by simplify_eq]. inv_bind H. dest5 y. simplify_eq. split; [|by apply gen_shape in E as [? _]]. cbn [test_code]. repeat eexists; eassumption.
  Qed.
  Lemma code_for E pre c post s p q : stmt_code E (SFor pre c post s) p q -> e_ret E = LNew 1 -> typed_opt c -> typed_opt post -> typed_stmt s ->
    exists j a b n lo ct cd nx, opt_at pre p j /\ code !! j = Some (Jump cd) /\ for_at c post s (S j) a b n lo ct cd nx /\ q = S n.
  Proof using.
    intros H HE Hc Hp Hs. open H. inv_bind Hg. destruct y as [[? ?] ?]. inv_bind Hg. destruct y as [[? ?] ?]. inv_bind Hg. destruct y as [[? ?] ?]. inv_bind Hg. destruct y as [[? ?] ?].
    simplify_eq. rewrite HE in *. cut_at Ha.
    apply opt_some in E0 as [Ho0 Hx0]; [|done]. pose proof (proj1 (stmt_shape _ _ _ _ _ _ _ E1)). apply opt_some in E2 as [Ho2 Hx2]; [|lia]. apply test_some in E3 as [Ht Hx3]; [|lia].
    eexists _, _, _, _, _, _, _, _. split; [eexists; split; [exact Ho0|]; split; [eassumption|reflexivity]|]. split; [eassumption|]. split; [|shelve].
    split; [eassumption|]. split; [give|]. split; [done|]. split; [done|]. split; [done|]. split; [eassumption|].
    split; [eexists; split; [exact Ho2|]; split; [eassumption|reflexivity]|]. split; [eassumption|].
    split; [eexists; split; [exact Ht|]; split; [eassumption|reflexivity]|]. eassumption.
    Unshelve. lens.
  Qed.
  Lemma code_switch E e t cases d s p q : stmt_code E (SSwitch e t cases d s) p q -> e_ret E = LNew 1 -> exists br o sz r l c0 r' l' a,
    gen None e r l = Some (o, sz, c0, r', l') /\ (nv <= r)%nat /\ at_ p c0 /\ 
    code !! (p + length c0)%nat = Some (Switch o sz (tuns t) ((fun p => (p.1, LUser p.2)) <$> cases) (match d with Some id => LUser id | None => br end)) /\
    stmt_code (Env (Some br) (e_cnt E) (LNew 1)) s (S (S (p + length c0))) a /\ code !! a = Some (Lab br) /\ q = S a.
  Proof using.
    intros H HE. open H. inv_bind Hg. dest5 y. inv_bind Hg. destruct y as [[? ?] ?]. simplify_eq. rewrite HE in *. cut_at Ha.
    eexists _, _, _, _, _, _, _, _, _. split; [eassumption|]. split; [done|]. split; [done|]. split; [eassumption|]. split; [give|]. split; [eassumption|lens].
  Qed.

  (** A label of the program is found where its statement is. *)
  Lemma find_ok id s : forall k E p q s' k', stmt_code E s p q -> typed_stmt s -> mk k E q -> find_label id s k = Some (s', k') ->
    exists E' p' q', code !! p' = Some (Lab (LUser id)) /\ stmt_code E' s' (S p') q' /\ typed_stmt s' /\ mk k' E' q'.
  Proof using.
    induction s using stmt_ind2; intros k E p q s' k' Hc Ht Hk Hf; cbn [find_label Gen_spec.typed_stmt] in *; try done.
    - apply code_seq in Hc as (m & Hc1 & Hc2). destruct Ht as [Ht1 Ht2]. destruct (find_label id s1 (Kseq s2 k)) as [[? ?]|] eqn:E1; simplify_eq.
      + eapply IHs1; [exact Hc1|done| |exact E1]. by eapply mk_seq.
      + by eapply IHs2.
    - apply code_if in Hc as (tb & fb & a & b & _ & _ & H1 & H2). destruct Ht as (_ & Ht1 & Ht2). destruct s2 as [s2|].
      + destruct H2 as (nb & d & Hb & Hf' & Hc2 & Hd & ->). destruct (find_label id s k) as [[? ?]|] eqn:E1; simplify_eq.
        * eapply IHs; [exact H1|done| |exact E1]. eapply mk_jump; [done|done|]. by eapply mk_lab.
        * eapply (H s2 eq_refl); [exact Hc2|done| |exact Hf]. by eapply mk_lab.
      + destruct H2 as [Hb ->]. eapply IHs; [exact H1|done| |exact Hf]. by eapply mk_lab.
    - apply code_switch in Hc as (br & o & sz & r & l & c0 & r' & l' & a & _ & _ & _ & _ & Hc & Ha & ->); [|by eapply mk_ret]. destruct Ht as (_ & _ & Ht).
      eapply IHs; [exact Hc|done| |exact Hf]. by apply mk_switch.
    - apply code_label in Hc as [Hl Hc]. case_decide as Ei; simplify_eq.
      + eexists _, _, _. split; [done|]. split; [done|]. by split.
      + by eapply IHs.
    - apply code_while in Hc as (a & n & lo & ct & nx & Hw & -> & _); [|by eapply mk_ret|by destruct Ht..]. destruct Ht as [_ Ht].
      eapply IHs; [|exact Ht| |exact Hf]; [apply Hw|]. by eapply mk_while.
    - apply code_do in Hc as (a & n & lo & ct & nx & Hw & ->); [|by eapply mk_ret|by destruct Ht..]. destruct Ht as [_ Ht].
      eapply IHs; [|exact Ht| |exact Hf]; [apply Hw|]. by eapply mk_while.
    - destruct Ht as (_ & Hc' & Hp' & Ht). apply code_for in Hc as (j & a & b & n & lo & ct & cd & nx & _ & _ & Hw & ->); [|by eapply mk_ret|done..].
      eapply IHs; [|exact Ht| |exact Hf]; [apply Hw|]. by eapply mk_for.
  Qed.

  (** What is found after labels and jumps *)
  Definition skips (p p' : nat) : Prop := forall regs args ret w, runs (Mach p regs args ret w) (Mach p' regs args ret w).
  Lemma skips_refl p : skips p p.
  Proof using. intros ????. apply runs_refl. Qed.
  Lemma skips_lab p p' l : code !! p = Some (Lab l) -> skips (S p) p' -> skips p p'.
  Proof using. intros H H' ????. eapply runs_trans; [by eapply run_lab|apply H']. Qed.
  Lemma skips_jump p q p' l : code !! p = Some (Jump l) -> code !! q = Some (Lab l) -> skips q p' -> skips p p'.
  Proof using Huniq. intros H Hq H' ????. eapply runs_trans; [by eapply run_jump|apply H']. Qed.
  Definition head (k : cont) (E : env) (p : nat) : Prop :=
    match k with
    | Kstop => p = fin
    | Kseq s k => exists q, stmt_code E s p q /\ typed_stmt s /\ mk k E q
    | Kwhile c s k => exists q n lo ct nx E', while_at c s q p n lo ct nx /\ mk k E' (S n) /\ E = inner nx ct
    | Kfor c post s k => exists q b n lo ct cd nx E', for_at c post s q p b n lo ct cd nx /\ mk k E' (S n) /\ E = inner nx ct
    | Kcond c post s k => exists q a n lo ct cd nx E', for_at c post s q a p n lo ct cd nx /\ mk k E' (S n) /\ E = inner nx ct
    | Kswitch k => exists br E', code !! p = Some (Lab br) /\ mk k E' (S p)
    end.
  Lemma mk_head k E p : mk k E p -> exists p', skips p p' /\ head k E p'.
  Proof using Huniq.
    induction 1 as [? ? ? ? ? ? (p' & Hs & Hh)|? ? ? ? ? ? ? ? (p' & Hs & Hh)| | | | | |].
    - exists p'. split; [by eapply skips_lab|done].
    - exists p'. split; [by eapply skips_jump|done].
    - exists fin. split; [apply skips_refl|done].
    - eexists. split; [apply skips_refl|]. cbn [head]. eauto.
    - eexists. split; [apply skips_refl|]. cbn [head]. eauto 10.
    - eexists. split; [apply skips_refl|]. cbn [head]. eauto 12.
    - eexists. split; [apply skips_refl|]. cbn [head]. eauto 12.
    - eexists. split; [apply skips_refl|]. cbn [head]. eauto.
  Qed.

  (** Expressions *)
  Definition plus (m m' : @mach W) : Prop := exists n, msteps (S n) m m'.
  Lemma plus_runs m m' : plus m m' -> runs m m'.
  Proof using. intros [n H]. by exists (S n). Qed.
  Lemma plus_l m1 m2 m3 : plus m1 m2 -> runs m2 m3 -> plus m1 m3.
  Proof using. intros [n H] [n' H']. exists (n + n')%nat. by apply (msteps_trans _ _ _ _ (S n) n' m1 m2 m3). Qed.
  Lemma plus_r m1 m2 m3 : runs m1 m2 -> plus m2 m3 -> plus m1 m3.
  Proof using. intros [n H] [n' H']. exists (n + n')%nat. rewrite <- Nat.add_succ_r. by eapply msteps_trans. Qed.
  Lemma plus_one m m' : mstep m = Some m' -> plus m m'.
  Proof using. intros H. exists 0%nat. econstructor; [done|constructor]. Qed.
  Lemma plus_lab p l regs args ret w : code !! p = Some (Lab l) -> plus (Mach p regs args ret w) (Mach (S p) regs args ret w).
  Proof using. intros Hp. apply plus_one. unfold Gen_spec.mstep. by rewrite Hp. Qed.
  Lemma plus_jump p q l regs args ret w : code !! p = Some (Jump l) -> code !! q = Some (Lab l) -> plus (Mach p regs args ret w) (Mach q regs args ret w).
  Proof using Huniq. intros Hp Hq. apply plus_one. unfold Gen_spec.mstep. rewrite Hp. cbn [mbind option_bind]. by rewrite (find_lab_at _ Huniq q). Qed.

  Lemma opt_runs e c p s w s' w' regs args ret : opt_code e c -> at_ p c -> typed_opt e -> matches s regs -> eval_opt ld st call e s w = Some (s', w') ->
    exists regs' args', runs (Mach p regs args ret w) (Mach (p + length c) regs' args' ret w') /\ matches s' regs'.
  Proof using Huniq Hvt.
    intros Hc Ha Ht Hm He. destruct e as [e|]; cbn [opt_code eval_opt Gen_spec.typed_opt] in *.
    - destruct Hc as (r & l & o & sz & r' & l' & Hg & Hr). inv_bind He. dest5 y. simplify_eq.
      destruct (proj1 (gen_ok e) _ _ _ _ _ _ _ p s w _ _ _ _ _ regs args ret Hg Ht Hr Ha Hm E) as (regs' & args' & H1 & H2 & _). eauto.
    - simplify_eq. cbn [length]. rewrite Nat.add_0_r. eexists _, _. split; [apply runs_refl|done].
  Qed.
  Lemma test_runs e tb fb c p q s w (b : bool) s' w' regs args ret : test_code e tb fb c -> at_ p c -> typed_opt e -> matches s regs ->
    test_opt ld st call e s w = Some (b, s', w') -> code !! q = Some (Lab (if b then tb else fb)) ->
    exists regs' args', runs (Mach p regs args ret w) (Mach q regs' args' ret w') /\ matches s' regs'.
  Proof using Huniq Hvt.
    intros Hc Ha Ht Hm He Hq. destruct e as [e|]; cbn [test_code test_opt Gen_spec.typed_opt] in *.
    - destruct Hc as (r & l & o & sz & r' & l' & Hg & Hr). inv_bind He. dest5 y. simplify_eq.
      destruct (proj2 (gen_ok e) _ _ _ _ _ _ _ _ _ p s w _ _ _ _ _ regs args ret q Hg Ht Hr Ha Hm E Hq) as (regs' & args' & H1 & H2 & _). eauto.
    - simplify_eq. apply at_cons in Ha as [Ha _]. eexists _, _. split; [by eapply run_jump|done].
  Qed.
  Lemma pick_user {A B} (f : A -> B) size u cases z : pick_case size u ((fun p : Z * A => (p.1, f p.2)) <$> cases) z = f <$> pick_case size u cases z.
  Proof using. induction cases as [|[y a] cases IH]; [done|]. cbn [fmap list_fmap pick_case fst snd]. case_match; [done|]. apply IH. Qed.

  (** * Each step is done by the code. *)
  Definition ms (S : @conf W) (m : @mach W) : Prop :=
    match S with
    | Run s k v w => exists E q, stmt_code E s (m_pc m) q /\ typed_stmt s /\ mk k E q /\ matches v (m_regs m) /\ m_ret m = None /\ m_w m = w
    | Done ret v w => m_pc m = Datatypes.S fin /\ matches v (m_regs m) /\ m_ret m = ret /\ m_w m = w
    end.
  Fixpoint ssize (s : stmt) : nat := match s with SExpr _ => 2 | SSeq s1 s2 => S (ssize s1 + ssize s2) | _ => 1 end.
  Fixpoint ksize (k : cont) : nat := match k with Kseq s k => ssize s + ksize k | _ => 0 end.
  Definition measure (S : @conf W) : nat := match S with Run s k _ _ => ssize s + ksize k | Done _ _ _ => 0 end.
  Lemma ssize_pos s : (1 <= ssize s)%nat.
  Proof using. destruct s; cbn; lia. Qed.
  Definition follows (S S' : @conf W) (m : @mach W) : Prop := exists m', ms S' m' /\ (plus m m' \/ (runs m m' /\ (measure S' < measure S)%nat)).

  Lemma empty_code E p : stmt_code E SEmpty p p.
  Proof using nv. exists nv, 0%nat, [], nv, 0%nat. split; [done|]. split; [lia|]. split; [by intros ? ? ?|cbn; lia]. Qed.
  Lemma at_empty E p q : stmt_code E SEmpty p q -> q = p.
  Proof using. intros (r & l & c & r' & l' & Hg & _ & _ & ->). cbn in Hg. simplify_eq. cbn. lia. Qed.
  Lemma ms_empty k E v w p regs args : mk k E p -> matches v regs -> ms (Run SEmpty k v w) (Mach p regs args None w).
  Proof using. intros Hk Hm. exists E, p. split; [apply empty_code|]. by repeat split. Qed.
  Lemma ms_run s k E v w p q regs args : stmt_code E s p q -> typed_stmt s -> mk k E q -> matches v regs -> ms (Run s k v w) (Mach p regs args None w).
  Proof using. intros. exists E, q. by repeat split. Qed.

  Lemma sim_empty k v w S' m : step (Run SEmpty k v w) = Some S' -> ms (Run SEmpty k v w) m -> follows (Run SEmpty k v w) S' m.
  Proof using Huniq Hvt Hfin.
    intros Hs (E & q & Hc & _ & Hk & Hm & Hret & Hw). destruct m as [p regs args ret w']. cbn [m_pc m_regs m_ret m_w] in *. subst ret w'.
    apply at_empty in Hc as ->. apply mk_head in Hk as (p' & Hsk & Hh). destruct k as [|s k|c s k|c post s k|c post s k|k]; cbn [Gen_spec.step head] in *.
    - simplify_eq. eexists. split; [|left; eapply plus_r; [apply Hsk|by eapply plus_lab]]. by repeat split.
    - simplify_eq. destruct Hh as (q & Hc & Ht & Hk). eexists. split; [|right; split; [apply Hsk|cbn; lia]]. by eapply ms_run.
    - destruct Hh as (q & n & lo & ct & nx & E' & Hwh & Hk & ->). inv_bind Hs. destruct y as [[b v'] w']. simplify_eq.
      pose proof Hwh as (Hq & Hc1 & Htc & Hts & Ha & (c2 & Hc2 & Ha2 & ->) & Hn).
      destruct b.
      + destruct (test_runs _ _ _ _ _ q v w true v' w' regs args None Hc2 Ha2 Htc Hm E Hq) as (regs' & args' & Hr & Hm').
        eexists. split; [|left; eapply plus_r; [apply Hsk|]; eapply plus_l; [by eapply plus_lab|]; eapply runs_trans; [exact Hr|by eapply run_lab]].
        eapply ms_run; [done|done| |done]. by eapply mk_while.
      + destruct (test_runs _ _ _ _ _ _ v w false v' w' regs args None Hc2 Ha2 Htc Hm E Hn) as (regs' & args' & Hr & Hm').
        eexists. split; [|left; eapply plus_r; [apply Hsk|]; eapply plus_l; [by eapply plus_lab|]; eapply runs_trans; [exact Hr|by eapply run_lab]].
        by eapply ms_empty.
    - destruct Hh as (q & b & n & lo & ct & cd & nx & E' & Hwh & Hk & ->). inv_bind Hs. destruct y as [v' w']. simplify_eq.
      pose proof Hwh as (Hq & Hc1 & Htc & Htp & Hts & Ha & (c2 & Hc2 & Ha2 & ->) & Hb & _).
      destruct (opt_runs _ _ _ v w v' w' regs args None Hc2 Ha2 Htp Hm E) as (regs' & args' & Hr & Hm').
      eexists. split; [|left; eapply plus_r; [apply Hsk|]; eapply plus_l; [by eapply plus_lab|exact Hr]].
      eapply ms_empty; [|done]. by eapply mk_cond.
    - destruct Hh as (q & a & n & lo & ct & cd & nx & E' & Hwh & Hk & ->). inv_bind Hs. destruct y as [[b v'] w']. simplify_eq.
      pose proof Hwh as (Hq & Hc1 & Htc & Htp & Hts & Ha & _ & Hb & (c3 & Hc3 & Ha3 & ->) & Hn).
      destruct b.
      + destruct (test_runs _ _ _ _ _ q v w true v' w' regs args None Hc3 Ha3 Htc Hm E Hq) as (regs' & args' & Hr & Hm').
        eexists. split; [|left; eapply plus_r; [apply Hsk|]; eapply plus_l; [by eapply plus_lab|]; eapply runs_trans; [exact Hr|by eapply run_lab]].
        eapply ms_run; [done|done| |done]. by eapply mk_for.
      + destruct (test_runs _ _ _ _ _ _ v w false v' w' regs args None Hc3 Ha3 Htc Hm E Hn) as (regs' & args' & Hr & Hm').
        eexists. split; [|left; eapply plus_r; [apply Hsk|]; eapply plus_l; [by eapply plus_lab|]; eapply runs_trans; [exact Hr|by eapply run_lab]].
        by eapply ms_empty.
    - simplify_eq. destruct Hh as (br & E' & Hp & Hk). eexists. split; [|left; eapply plus_r; [apply Hsk|by eapply plus_lab]]. by eapply ms_empty.
  Qed.

  Context (Hbody : stmt_code (Env None None (LNew 1)) body 1 fin) (Hbt : typed_stmt body).
  Lemma sim S S' m : step S = Some S' -> ms S m -> follows S S' m.
  Proof using Huniq Hvt Hfin Hbody Hbt.
    destruct S as [s k v w|]; [|done]. intros Hs Hms. assert (Hne : s = SEmpty \/ s <> SEmpty) by (destruct s; (by left) || by right). destruct Hne as [->|Hne]; [by apply sim_empty|].
    destruct Hms as (E & q & Hc & Ht & Hk & Hm & Hret & Hw). destruct m as [p regs args ret w']. cbn [m_pc m_regs m_ret m_w] in *. subst ret w'.
    pose proof (mk_ret _ _ _ Hk) as HE.
    destruct s as [|e|e|s1 s2|c s1 s2|e t cases d s|id s|c s|s c|pre c post s| | |id]; cbn [Gen_spec.step Gen_spec.typed_stmt] in *.
    - done.
    - inv_bind Hs. destruct y as [v' w']. simplify_eq. open Hc. inv_bind Hg. dest5 y. simplify_eq.
      destruct (opt_runs (Some e) _ _ v w v' w' regs args None ltac:(by repeat eexists) Ha Ht Hm E0) as (regs' & args' & Hr' & Hm').
      eexists. split; [|right; split; [exact Hr'|cbn; lia]]. by eapply ms_empty.
    - open Hc. rewrite HE in Hg. destruct e as [e|].
      + inv_bind Hg. dest5 y. inv_bind Hs. dest5 y. simplify_eq. cut_at Ha.
        destruct (proj1 (gen_ok e) _ _ _ _ _ _ _ p v w _ _ _ _ _ regs args None E0 Ht Hr H Hm E1) as (regs' & args' & Hr1 & Hm1 & _ & -> & Hv & _).
        eexists. split; [|left; eapply plus_r; [exact Hr1|]; eapply plus_l; [apply plus_one; unfold Gen_spec.mstep; rewrite H0; reflexivity|]; eapply runs_trans; [by eapply run_jump|by eapply run_lab]].
        repeat split; [done|]. cbn [m_ret]. f_equal. rewrite <- Hv. symmetry. apply cut_conv. by eapply typed_good.
      + simplify_eq. cut_at Ha. eexists. split; [|left; eapply plus_l; [by eapply plus_jump|by eapply run_lab]]. by repeat split.
    - simplify_eq. apply code_seq in Hc as (m & Hc1 & Hc2). eexists. split; [|right; split; [apply runs_refl|cbn; lia]].
      destruct Ht. eapply ms_run; [done|done| |done]. by eapply mk_seq.
    - inv_bind Hs. destruct y as [[b v'] w']. simplify_eq. apply code_if in Hc as (tb & fb & a & b0 & (c0 & Hc0 & Ha0 & ->) & Ha & Hc1 & Hc2). destruct Ht as (Htc & Ht1 & Ht2).
      destruct b.
      + destruct (test_runs (Some c) _ _ _ _ _ v w true v' w' regs args None Hc0 Ha0 Htc Hm E0 Ha) as (regs' & args' & Hr & Hm').
        eexists. split; [|left; eapply plus_r; [exact Hr|by eapply plus_lab]]. eapply ms_run; [exact Hc1|done| |done].
        destruct s2 as [s2|]; [destruct Hc2 as (nb & d & ? & ? & ? & ? & ->); eapply mk_jump; [done|done|]|destruct Hc2 as [? ->]]; by eapply mk_lab.
      + destruct s2 as [s2|].
        * destruct Hc2 as (nb & d & Hj & Hf & Hc2 & Hd & ->). destruct (test_runs (Some c) _ _ _ _ _ v w false v' w' regs args None Hc0 Ha0 Htc Hm E0 Hf) as (regs' & args' & Hr & Hm').
          eexists. split; [|left; eapply plus_r; [exact Hr|by eapply plus_lab]]. eapply ms_run; [exact Hc2|done| |done]. by eapply mk_lab.
        * destruct Hc2 as [Hf ->]. destruct (test_runs (Some c) _ _ _ _ _ v w false v' w' regs args None Hc0 Ha0 Htc Hm E0 Hf) as (regs' & args' & Hr & Hm').
          eexists. split; [|left; eapply plus_r; [exact Hr|by eapply plus_lab]]. by eapply ms_empty.
    - inv_bind Hs. dest5 y. destruct Ht as (Hte & Htt & Hts).
      apply code_switch in Hc as (br & o & sz & r & l' & c0 & r' & l'' & a & Hg & Hr & Ha0 & Hsw & Hc & Ha & ->); [|done].
      destruct (proj1 (gen_ok e) _ _ _ _ _ _ _ p v w _ _ _ _ _ regs args None Hg Hte Hr Ha0 Hm E0) as (regs' & args' & Hr1 & Hm1 & _ & -> & Hv & _).
      assert (Hgo : forall id q0, match pick_case (size_of (tsz t)) (tuns t) cases z with Some id => LUser id | None => match d with Some id => LUser id | None => br end end = id ->
        code !! q0 = Some (Lab id) -> plus (Mach (p + length c0) regs' args' None w0) (Mach q0 regs' args' None w0)).
      { intros id q0 Hid Hq0. apply plus_one. unfold Gen_spec.mstep. rewrite Hsw. cbn [mbind option_bind]. rewrite pick_user. 
        assert (view (size_of (tsz (typeof e))) (tuns t) (val regs' o) = z) as -> by (rewrite <- Hv, <- Htt; done). rewrite Htt.
        rewrite (find_lab_at _ Huniq q0); [done|]. rewrite Hq0. do 2 f_equal. rewrite <- Hid. by destruct (pick_case _ _ _ _). }
      destruct (match pick_case _ _ _ _ with Some id => Some id | None => d end) as [id|] eqn:Ep.
      + inv_bind Hs. destruct y as [s' k']. simplify_eq.
        eapply find_ok in E1 as (E' & p' & q' & Hp' & Hc' & Ht' & Hk'); [|exact Hc|done|by apply mk_switch].
        eexists. split; [|left; eapply plus_r; [exact Hr1|]; eapply plus_l; [eapply Hgo; [|exact Hp']|by eapply run_lab]]; [by eapply ms_run|].
        destruct (pick_case _ _ _ _); by simplify_eq.
      + simplify_eq. eexists. split; [|left; eapply plus_r; [exact Hr1|]; eapply plus_l; [eapply Hgo; [|exact Ha]|by eapply run_lab]]; [by eapply ms_empty|].
        destruct (pick_case _ _ _ _); by simplify_eq.
    - simplify_eq. apply code_label in Hc as [Hl Hc]. eexists. split; [|left; by eapply plus_lab]. by eapply ms_run.
    - simplify_eq. destruct Ht. apply code_while in Hc as (a & n & lo & ct & nx & Hwh & -> & Hj); [|done..].
      eexists. split; [|left; eapply plus_jump; [exact Hj|by apply Hwh]]. eapply ms_empty; [|done]. by eapply mk_while.
    - simplify_eq. destruct Ht. apply code_do in Hc as (a & n & lo & ct & nx & Hwh & ->); [|done..].
      eexists. split; [|left; eapply plus_lab, Hwh]. eapply ms_run; [apply Hwh|done| |done]. by eapply mk_while.
    - destruct Ht as (Htp & Htc & Htq & Hts). inv_bind Hs. destruct y as [v' w']. simplify_eq.
      apply code_for in Hc as (j & a & b & n & lo & ct & cd & nx & (c0 & Hc0 & Ha0 & ->) & Hj & Hf & ->); [|done..].
      destruct (opt_runs _ _ _ v w v' w' regs args None Hc0 Ha0 Htp Hm E0) as (regs' & args' & Hr & Hm').
      eexists. split; [|left; eapply plus_r; [exact Hr|]; eapply plus_jump; [exact Hj|apply Hf]]. eapply ms_empty; [|done]. by eapply mk_cond.
    - inv_bind Hs. simplify_eq. eapply break_ok in E0 as (br & q' & E' & Hb & Hq & Hk'); [|exact Hk]. open Hc. rewrite Hb in Hg. cbn in Hg. simplify_eq. cut_at Ha.
      eexists. split; [|left; eapply plus_l; [by eapply plus_jump|by eapply run_lab]]. by eapply ms_empty.
    - inv_bind Hs. simplify_eq. eapply continue_ok in E0 as (br & q' & E' & Hb & Hq & Hk'); [|exact Hk]. open Hc. rewrite Hb in Hg. cbn in Hg. simplify_eq. cut_at Ha.
      eexists. split; [|left; by eapply plus_jump]. by eapply ms_empty.
    - inv_bind Hs. destruct y as [s' k']. simplify_eq. eapply find_ok in E0 as (E' & p' & q' & Hp' & Hc' & Ht' & Hk'); [|exact Hbody|done|apply mk_stop].
      open Hc. simplify_eq. cut_at Ha. eexists. split; [|left; eapply plus_l; [by eapply plus_jump|by eapply run_lab]]. by eapply ms_run.
  Qed.

  (** * Runs *)
  Lemma sim_steps n S S' m : steps n S S' -> ms S m -> exists m', runs m m' /\ ms S' m'.
  Proof using Huniq Hvt Hfin Hbody Hbt.
    intros H. revert m. induction H as [|n c c' c'' Hs H IH]; intros m Hm; [exists m; split; [apply runs_refl|done]|].
    destruct (sim _ _ _ Hs Hm) as (m1 & Hm1 & Hr). destruct (IH _ Hm1) as (m2 & Hr2 & Hm2). exists m2. split; [|done].
    eapply runs_trans; [|exact Hr2]. destruct Hr as [Hr|[Hr _]]; [by apply plus_runs|done].
  Qed.
  Lemma msteps_prefix n n' m m' : msteps n m m' -> (n' <= n)%nat -> exists m'', msteps n' m m''.
  Proof using.
    intros H. revert n'. induction H as [|n m1 m2 m3 Hs H IH]; intros n' Hn; [exists m; replace n' with 0%nat by lia; constructor|].
    destruct n' as [|n']; [exists m1; constructor|]. destruct (IH n') as [m'' ?]; [lia|]. exists m''. by econstructor.
  Qed.
  Lemma diverges S m : (forall n, exists S', steps n S S') -> ms S m -> forall n, exists m', msteps n m m'.
  Proof using Huniq Hvt Hfin Hbody Hbt.
    intros Hd Hm n. cut (exists n' m', (n <= n')%nat /\ msteps n' m m').
    { intros (n' & m' & Hn & H). by eapply msteps_prefix. }
    revert S m Hd Hm. induction n as [|n IH]; intros S m Hd Hm; [exists 0%nat, m; split; [lia|constructor]|].
    remember (measure S) as k eqn:Hk. revert S m Hd Hm Hk. induction (lt_wf k) as [k _ IHk]; intros S m Hd Hm ->.
    destruct (Hd 1%nat) as [S1 H1]. inversion H1 as [|? ? S' ? Hs _]; subst.
    assert (Hd' : forall n, exists S2, steps n S' S2).
    { intros j. destruct (Hd (Datatypes.S j)) as [S2 H2]. inversion H2 as [|? ? S0 ? Hs' H2']; subst. rewrite Hs in Hs'. injection Hs' as <-. by exists S2. }
    destruct (sim _ _ _ Hs Hm) as (m1 & Hm1 & [[j Hr]|[[j Hr] Hlt]]).
    - destruct (IH _ _ Hd' Hm1) as (n' & m' & Hn & H'). exists (Datatypes.S j + n')%nat, m'. split; [lia|]. by eapply msteps_trans.
    - destruct (IHk _ Hlt _ _ Hd' Hm1 eq_refl) as (n' & m' & Hn & H'). exists (j + n')%nat, m'. split; [lia|]. by eapply msteps_trans.
  Qed.
End Stmt.
