(** The loop of the assembler, for any architecture whose treatment of instructions has the
    properties assumed in the section below. *)
From stdpp Require Import base list numbers gmap option.
From Verif Require Import Util.Data_model As.Asm_model As.Asm_arch_model As.Asm_spec As.Asm_proof.
Open Scope Z_scope.

Section Loop.
  Context {I : Type}.
  Implicit Types (l : list (ir I)) (ss : list (section I)) (t : table) (o : list Z * Z).
  Variable step : table -> option nat -> Z -> Z -> code I -> option (stepped I).
  Variable mu : code I -> nat.
  Definition mu_opt (c : option (code I)) : nat := match c with Some c => mu c | None => 0%nat end.
  Hypothesis step_mu : forall t last st a c s, step t last st a c = Some s ->
    (mu (new s) + mu_opt (extra s) + (if upgraded s then 1 else 0) <= mu c)%nat.
  Hypothesis step_extra : forall t last st a c s, step t last st a c = Some s -> upgraded s = false -> extra s = None.

  (** ** Items other than instructions *)
  Definition noncode (i : item I) : option (item I) := match i with ICode _ => None | _ => Some i end.
  Lemma noncode_labels (l l' : list (item I)) : omap noncode l = omap noncode l' -> labels l = labels l'.
  Proof.
    assert (H : forall l : list (item I), labels l = omap (fun i => match i with ILabel n => Some n | _ => None end) (omap noncode l)).
    { clear. induction l as [|[] l IH]; try done; cbn; try (by rewrite <- IH). }
    intros E. by rewrite (H l), (H l'), E.
  Qed.
  Lemma noncode_align (l l' : list (item I)) a : omap noncode l = omap noncode l' -> IAlign a ∈ l -> IAlign a ∈ l'.
  Proof.
    intros E Ha. assert (H : IAlign a ∈ omap noncode l) by (apply elem_of_list_omap; by exists (IAlign a)).
    rewrite E in H. apply elem_of_list_omap in H as (i & Hi & Ei). destruct i; try done. cbn in Ei. by injection Ei as ->.
  Qed.
  Lemma resolve_noncode t st : forall len last l l' up us, resolve_irs step t st last len l = Some (l', up, us) ->
    omap noncode (kind <$> l') = omap noncode (kind <$> l).
  Proof.
    intros len. induction len as [len IH] using lt_wf_ind. intros last l l' up us E. destruct len as [|len]; [by injection E as <- <- <-|].
    destruct l as [|[i a] l]; [by injection E as <- <- <-|]. cbn [resolve_irs] in E. destruct i; 
      try ((match type of E with context [resolve_irs step t st ?x len l] => destruct (resolve_irs step t st x len l) as [[[l1 up1] us1]|] eqn:E1 end; [|done]);
           cbn in E; injection E as <- <- <-; apply IH in E1; [|lia]; cbn; by rewrite E1).
    - destruct (step t last st a c) as [s|]; [|done]. cbn in E. destruct (extra s) as [c'|].
      + destruct len as [|len]; [by injection E as <- <- <-|]. destruct (step t last st a c') as [s'|]; [|done]. cbn in E. destruct (extra s'); [done|].
        destruct (resolve_irs step t st last len l) as [[[l1 up1] us1]|] eqn:E1; [|done]. cbn in E. injection E as <- <- <-. apply IH in E1; [|lia]. by cbn.
      + destruct (resolve_irs step t st last len l) as [[[l1 up1] us1]|] eqn:E1; [|done]. cbn in E. injection E as <- <- <-. apply IH in E1; [|lia]. by cbn.
    - destruct (vlab v); [|done]. destruct (resolve_irs step t st last len l) as [[[l1 up1] us1]|] eqn:E1; [|done]. cbn in E. injection E as <- <- <-. apply IH in E1; [|lia]. cbn. by rewrite E1.
  Qed.

  (** ** The loop ends *)
  Definition mu_item (i : item I) : nat := match i with ICode c => mu c | _ => 0%nat end.
  Definition mus (l : list (item I)) : nat := sum_list_with mu_item l.
  Lemma resolve_mu t st : forall len last l l' up us, resolve_irs step t st last len l = Some (l', up, us) ->
    (mus (kind <$> l') + (if (up : bool) then 1 else 0) <= mus (kind <$> l))%nat.
  Proof.
    intros len. induction len as [len IH] using lt_wf_ind. intros last l l' up us E. destruct len as [|len]; [injection E as <- <- <-; lia|].
    destruct l as [|[i a] l]; [injection E as <- <- <-; cbn; lia|]. cbn [resolve_irs] in E. destruct i;
      try ((match type of E with context [resolve_irs step t st ?x len l] => destruct (resolve_irs step t st x len l) as [[[l1 up1] us1]|] eqn:E1 end; [|done]);
           cbn in E; injection E as <- <- <-; apply IH in E1; [|lia]; unfold mus in *; cbn in *; lia).
    - destruct (step t last st a c) as [s|] eqn:Es; [|done]. apply step_mu in Es. cbn in E. destruct (extra s) as [c'|].
      + destruct len as [|len]; [injection E as <- <- <-; unfold mus; cbn in *; lia|]. destruct (step t last st a c') as [s'|] eqn:Es'; [|done]. apply step_mu in Es'. cbn in E. destruct (extra s'); [done|].
        destruct (resolve_irs step t st last len l) as [[[l1 up1] us1]|] eqn:E1; [|done]. cbn in E. injection E as <- <- <-. apply IH in E1; [|lia]. unfold mus in *. cbn in *.
        destruct (upgraded s), (upgraded s'), up1; cbn in *; lia.
      + destruct (resolve_irs step t st last len l) as [[[l1 up1] us1]|] eqn:E1; [|done]. cbn in E. injection E as <- <- <-. apply IH in E1; [|lia]. unfold mus in *. cbn in *.
        destruct (upgraded s), up1; cbn in *; lia.
    - destruct (vlab v); [|done]. destruct (resolve_irs step t st last len l) as [[[l1 up1] us1]|] eqn:E1; [|done]. cbn in E. injection E as <- <- <-. apply IH in E1; [|lia]. unfold mus in *; cbn in *; lia.
  Qed.
  Definition mu_sections ss : nat := sum_list_with (fun s => mus (items s)) ss.
  Definition all_settled ss : Prop := Forall (fun s => settled (align s) (items s)) ss.
  Definition noncode_same (s s' : section I) : Prop := bss s' = bss s /\ align s' = align s /\ start s' = start s /\ omap noncode (items s') = omap noncode (items s).
  Lemma resolve_sections ss : forall t ss' up us, resolve_relative_address step t ss = Some (ss', up, us) ->
    (mu_sections ss' + (if (up : bool) then 1 else 0) <= mu_sections ss)%nat /\ Forall2 noncode_same ss ss'.
  Proof.
    induction ss as [|s ss IH]; intros t ss' up us E; cbn [resolve_relative_address] in E; [injection E as <- <- <-; cbn; split; [lia|constructor]|].
    destruct (resolve_irs _ _ _ _ _ _) as [[[l1 up1] us1]|] eqn:E1; [|done]. cbn in E.
    destruct (resolve_relative_address step t ss) as [[[ss2 up2] us2]|] eqn:E2; [|done]. cbn in E. injection E as <- <- <-.
    destruct (IH _ _ _ _ E2) as [H1 H2]. pose proof (resolve_noncode _ _ _ _ _ _ _ _ E1) as Hn. apply resolve_mu in E1. split.
    - change (mu_sections (_ :: ss2)) with (mus (kind <$> l1) + mu_sections ss2)%nat. change (mu_sections (s :: ss)) with (mus (kind <$> irs s) + mu_sections ss)%nat.
      destruct up1, up2; cbn [orb]; lia.
    - constructor; [|done]. split; [done|]. split; [done|]. split; [done|]. unfold items. done.
  Qed.
  Lemma settled_noncode sa (l l' : list (item I)) : omap noncode l' = omap noncode l -> settled sa l -> settled sa l'.
  Proof. intros E H a Ha. apply H. by apply (noncode_align l'). Qed.
  Lemma resolve_settled ss ss' : Forall2 noncode_same ss ss' -> all_settled ss -> all_settled ss'.
  Proof.
    induction 1 as [|s s' ss ss' (H1 & H2 & H3 & H4) Hs IH]; intros Ha; [constructor|]. apply stdpp.list.Forall_cons in Ha as [Ha Ha']. constructor; [|by apply IH].
    rewrite H2. by apply (settled_noncode _ (items s)).
  Qed.
  Lemma calc_mu ss ss' : Forall2 same_items ss ss' -> mu_sections ss' = mu_sections ss.
  Proof. induction 1 as [|s s' ss ss' [_ H] Hs IH]; [done|]. unfold mu_sections in *. cbn. by rewrite H, IH. Qed.

  Lemma settle_ends_settled a fuel : forall ss t, all_settled ss -> (mu_sections ss < fuel)%nat -> settle step fuel a ss t <> NoFuel.
  Proof.
    induction fuel as [|fuel IH]; intros ss t Hs Hf; [lia|]. cbn [settle]. unfold calc_label_address.
    destruct (calc_sections t a true ss) as [[[ss1 t1] ok1]|] eqn:E1; [|done].
    pose proof (calc_sections_settled _ _ _ _ _ _ _ E1) as (G1 & G2 & _ & _). rewrite (G2 eq_refl Hs). clear G2.
    apply calc_sections_items, calc_mu in E1.
    destruct (resolve_relative_address step t1 ss1) as [[[ss2 up] us]|] eqn:E2; [|done].
    destruct (resolve_sections _ _ _ _ _ E2) as [H1 H2]. destruct up; [|done]. cbn. apply IH; [by apply (resolve_settled ss1)|lia].
  Qed.
  Lemma settle_ends a fuel ss t : (S (mu_sections ss) < fuel)%nat -> settle step fuel a ss t <> NoFuel.
  Proof.
    destruct fuel as [|fuel]; [lia|]. intros Hf. cbn [settle]. unfold calc_label_address.
    destruct (calc_sections t a true ss) as [[[ss1 t1] ok1]|] eqn:E1; [|done].
    pose proof (calc_sections_settled _ _ _ _ _ _ _ E1) as (G1 & _ & _ & _).
    apply calc_sections_items, calc_mu in E1.
    destruct (resolve_relative_address step t1 ss1) as [[[ss2 up] us]|] eqn:E2; [|done].
    destruct (resolve_sections _ _ _ _ _ E2) as [H1 H2]. destruct (ok1 && negb up); [done|].
    apply settle_ends_settled; [by apply (resolve_settled ss1)|lia].
  Qed.

  (** ** What it ends with *)
  (** [R c cs]: the source instruction [c] is [cs] by now. *)
  Variable R : code I -> list (code I) -> Prop.
  Hypothesis R_one : forall c cs, R c cs -> (exists c1, cs = [c1]) \/ (exists c1 c2, cs = [c1; c2]).
  Hypothesis R_step : forall c c1 t last st a s, R c [c1] -> step t last st a c1 = Some s ->
    match extra s with
    | None => R c [new s]
    | Some c2 => R c [new s; c2]
    end.
  Hypothesis R_step1 : forall c c1 c2 t last st a s, R c [c1; c2] -> step t last st a c1 = Some s -> extra s = None /\ R c [new s; c2].
  Hypothesis R_step2 : forall c c1 c2 t last st a s, R c [c1; c2] -> step t last st a c2 = Some s -> extra s = None /\ R c [c1; new s].
  Hypothesis R_len : forall c cs c1 t last st a s, R c cs -> c1 ∈ cs -> step t last st a c1 = Some s -> upgraded s = false ->
    length (buf (new s)) = length (buf c1).

  Inductive prog : list (item I) -> list (item I) -> Prop :=
    | prog_nil : prog [] []
    | prog_code c cs (l l' : list (item I)) : R c cs -> prog l l' -> prog (ICode c :: l) ((ICode <$> cs) ++ l')
    | prog_other i (l l' : list (item I)) : (forall c, i <> ICode c) -> prog l l' -> prog (i :: l) (i :: l').

  Lemma kind_cons l i (k : list (item I)) : kind <$> l = i :: k -> exists a l', l = IR i a :: l' /\ kind <$> l' = k.
  Proof. destruct l as [|[j a] l]; [done|]. cbn. intros [= -> <-]. by exists a, l. Qed.

  Lemma resolve_prog t st src k : prog src k -> forall l len last l' up us, kind <$> l = k -> resolve_irs step t st last len l = Some (l', up, us) -> prog src (kind <$> l').
  Proof.
    intros Hp. induction Hp as [|c cs src k HR Hp IH|i src k Hi Hp IH]; intros l len last l' up us Hk E.
    - destruct l; [|done]. destruct len; cbn in E; injection E as <- <- <-; constructor.
    - destruct (R_one _ _ HR) as [[c1 ->]|(c1 & c2 & ->)]; cbn in Hk.
      + apply kind_cons in Hk as (a & l1 & -> & Hk). destruct len as [|len].
        { cbn in E. injection E as <- <- <-. cbn. rewrite Hk. by apply (prog_code c [c1]). }
        cbn [resolve_irs] in E. destruct (step t last st a c1) as [s|] eqn:Es; [|done]. pose proof (R_step _ _ _ _ _ _ _ HR Es) as HR'. cbn in E.
        destruct (extra s) as [c2|].
        * destruct len as [|len]. { injection E as <- <- <-. cbn. rewrite Hk. by apply (prog_code c [new s; c2]). }
          destruct (step t last st a c2) as [s'|] eqn:Es'; [|done]. destruct (R_step2 _ _ _ _ _ _ _ _ HR' Es') as [Hx HR'']. cbn in E. rewrite Hx in E.
          destruct (resolve_irs step t st last len l1) as [[[l2 up1] us1]|] eqn:E1; [|done]. cbn in E. injection E as <- <- <-. cbn.
          apply (prog_code c [new s; new s']); [done|]. by apply IH in E1.
        * destruct (resolve_irs step t st last len l1) as [[[l2 up1] us1]|] eqn:E1; [|done]. cbn in E. injection E as <- <- <-. cbn.
          apply (prog_code c [new s]); [done|]. by apply IH in E1.
      + apply kind_cons in Hk as (a & l1 & -> & Hk). apply kind_cons in Hk as (a2 & l2 & -> & Hk).
        destruct len as [|len]. { cbn in E. injection E as <- <- <-. cbn. rewrite Hk. by apply (prog_code c [c1; c2]). }
        cbn [resolve_irs] in E. destruct (step t last st a c1) as [s|] eqn:Es; [|done]. destruct (R_step1 _ _ _ _ _ _ _ _ HR Es) as [Hx HR']. cbn in E. rewrite Hx in E.
        destruct len as [|len]. { cbn in E. injection E as <- <- <-. cbn. rewrite Hk. by apply (prog_code c [new s; c2]). }
        cbn [resolve_irs] in E. destruct (step t last st a2 c2) as [s'|] eqn:Es'; [|done]. destruct (R_step2 _ _ _ _ _ _ _ _ HR' Es') as [Hx' HR'']. cbn in E. rewrite Hx' in E.
        destruct (resolve_irs step t st last len l2) as [[[l3 up1] us1]|] eqn:E1; [|done]. cbn in E. injection E as <- <- <-. cbn.
        apply (prog_code c [new s; new s']); [done|]. by apply IH in E1.
    - apply kind_cons in Hk as (a & l1 & -> & Hk). destruct len as [|len].
      { cbn in E. injection E as <- <- <-. cbn. rewrite Hk. by constructor. }
      cbn [resolve_irs] in E. destruct i; try (by destruct (Hi c)); try (destruct (vlab v); [|done]);
        (match type of E with context [resolve_irs step t st ?x len l1] => destruct (resolve_irs step t st x len l1) as [[[l2 up1] us1]|] eqn:E1 end; [|done]);
        cbn in E; injection E as <- <- <-; cbn; (constructor; [done|by apply IH in E1]).
  Qed.

  (** The last pass. *)
  Definition final t st (x y : ir I) : Prop :=
    address y = address x /\
    match kind x with
    | ICode c => exists last s, step t last st (address x) c = Some s /\ upgraded s = false /\ kind y = ICode (new s)
    | i => kind y = i
    end.
  Lemma resolve_final t st : forall l len last l' us, resolve_irs step t st last len l = Some (l', false, us) -> (length l <= len)%nat -> Forall2 (final t st) l l'.
  Proof.
    induction l as [|[i a] l IH]; intros len last l' us E Hl.
    { destruct len; cbn in E; injection E as <- <-; constructor. }
    destruct len as [|len]; [cbn in Hl; lia|]. cbn in Hl. cbn [resolve_irs] in E.
    destruct i; try destruct (step t last st a c) as [s|] eqn:Es; try destruct (vlab v); try done; cbn [mbind option_bind] in E; try destruct (extra s) as [c2|] eqn:Ex;
      try ((match type of E with context [resolve_irs step t st ?x len l] => destruct (resolve_irs step t st x len l) as [[[l1 up1] us1]|] eqn:E1 end; [|done]);
        cbn in E).
    all: try (injection E as <- -> <-; constructor; [by split|by apply IH in E1; [|lia]]).
    - assert (Hu : upgraded s = true) by (destruct (upgraded s) eqn:Eu; [done|]; apply step_extra in Es; [congruence|done]). rewrite Hu in E.
      destruct len as [|len]; [done|]. destruct (step t last st a c2) as [s'|]; [|done]. cbn in E. destruct (extra s'); [done|].
      destruct (resolve_irs step t st last len l) as [[[l1 up1] us1]|]; done.
    - injection E as <- Hu <-. apply orb_false_iff in Hu as [Hu ->]. constructor; [|by apply IH in E1; [|lia]].
      split; [done|]. cbn. by exists last, s.
  Qed.

  (** Addresses of neighbours. *)
  Lemma calc_head l : forall t a sa ok i b l' t' a' sa' ok', calc_irs t a sa ok l = Some (IR i b :: l', t', a', sa', ok') -> (forall al, i <> IAlign al) -> b = a.
  Proof.
    destruct l as [|[j b0] l]; intros t a sa ok i b l' t' a' sa' ok' E Hi; cbn [calc_irs] in E; [done|].
    destruct j; try destruct (t !! n) eqn:En; try done;
      (match type of E with context [calc_irs ?x ?y ?z ?w l] => destruct (calc_irs x y z w l) as [[[[[l1 t1] a1] sa1] ok1]|] eqn:E1 end; [|done]);
      cbn in E; injection E as <- <- <- <- <- <- <-; try done. by destruct (Hi a0).
  Qed.
  Lemma calc_consec l : forall t a sa ok l' t' a' sa' ok', calc_irs t a sa ok l = Some (l', t', a', sa', ok') ->
    forall pre c b c2 b2 post, l' = pre ++ IR (ICode c) b :: IR (ICode c2) b2 :: post -> b2 = u64 (b + Z.of_nat (length (buf c))).
  Proof.
    induction l as [|[j b0] l IH]; intros t a sa ok l' t' a' sa' ok' E pre c b c2 b2 post Hl; cbn [calc_irs] in E.
    { injection E as <- <- <- <- <-. by destruct pre. }
    destruct j; try destruct (t !! n) eqn:En; try done;
      (match type of E with context [calc_irs ?x ?y ?z ?w l] => destruct (calc_irs x y z w l) as [[[[[l1 t1] a1] sa1] ok1]|] eqn:E1 end; [|done]);
      cbn in E; injection E as <- <- <- <- <-; (destruct pre as [|x pre]; cbn in Hl; [|injection Hl as _ Hl; by apply (IH _ _ _ _ _ _ _ _ _ E1 pre c b c2 b2 post)]); try done.
    injection Hl as <- <- ->. apply calc_head in E1; [|done]. done.
  Qed.
  Definition consec l : Prop := forall pre c b c2 b2 post, l = pre ++ IR (ICode c) b :: IR (ICode c2) b2 :: post -> b2 = u64 (b + Z.of_nat (length (buf c))).
  Lemma consec_app l1 l2 : consec (l1 ++ l2) -> consec l2.
  Proof. intros H pre c b c2 b2 post E. apply (H (l1 ++ pre) c b c2 b2 post). rewrite E. by rewrite app_assoc. Qed.

  Variable Rf : table -> code I -> list (Z * code I) -> Prop.
  Hypothesis R_final : forall t st c cs ps, R c cs ->
    Forall2 (fun c p => exists last s, step t last st p.1 c = Some s /\ upgraded s = false /\ p.2 = new s) cs ps ->
    (forall p1 p2, ps = [p1; p2] -> p2.1 = u64 (p1.1 + Z.of_nat (length (buf p1.2)))) -> Rf t c ps.

  Lemma final_code t st c a y : final t st (IR (ICode c) a) y -> exists last s, step t last st a c = Some s /\ upgraded s = false /\ y = IR (ICode (new s)) a.
  Proof. destruct y as [i b]. intros [H1 (last & s & H2 & H3 & H4)]. cbn in *. subst. by exists last, s. Qed.
  Lemma final_rewritten t st src k : prog src k -> forall l l', kind <$> l = k -> consec l -> Forall2 (final t st) l l' -> rewritten (Rf t) src l'.
  Proof.
    intros Hp. induction Hp as [|c cs src k HR Hp IH|i src k Hi Hp IH]; intros l l' Hk Hc Hf.
    - destruct l; [|done]. inversion Hf; subst. constructor.
    - destruct (R_one _ _ HR) as [[c1 ->]|(c1 & c2 & ->)]; cbn in Hk.
      + apply kind_cons in Hk as (a & l1 & -> & Hk). apply Forall2_cons_inv_l in Hf as (y & l2 & Hy & Hf & ->).
        apply final_code in Hy as (last & s & H1 & H2 & ->).
        apply (rw_code _ c [(a, new s)]).
        * apply (R_final t st c [c1]); [done| |done]. constructor; [|constructor]. by exists last, s.
        * apply (IH l1); [done| |done]. by apply (consec_app [IR (ICode c1) a]).
      + apply kind_cons in Hk as (a & l1 & -> & Hk). apply Forall2_cons_inv_l in Hf as (y & l2 & Hy & Hf & ->).
        apply kind_cons in Hk as (a2 & l3 & -> & Hk). apply Forall2_cons_inv_l in Hf as (y2 & l4 & Hy2 & Hf & ->).
        apply final_code in Hy as (last & s & H1 & H2 & ->). apply final_code in Hy2 as (last2 & s2 & G1 & G2 & ->).
        apply (rw_code _ c [(a, new s); (a2, new s2)]).
        * apply (R_final t st c [c1; c2]); [done| |].
          { constructor; [|constructor; [|constructor]]; [by exists last, s|by exists last2, s2]. }
          intros p1 p2 [= <- <-]. cbn. rewrite (R_len c [c1; c2] c1 _ _ _ _ _ HR ltac:(left) H1 H2). by apply (Hc [] c1 a c2 a2 l3).
        * apply (IH l3); [done| |done]. by apply (consec_app [IR (ICode c1) a; IR (ICode c2) a2]).
    - apply kind_cons in Hk as (a & l1 & -> & Hk). apply Forall2_cons_inv_l in Hf as (y & l2 & Hy & Hf & ->).
      assert (y = IR i a) as ->. { destruct y as [j b]. destruct Hy as [H1 H2]. cbn in *. subst b. f_equal. destruct i; try done. by destruct (Hi c). }
      constructor; [done|]. apply (IH l1); [done| |done]. by apply (consec_app [IR i a]).
  Qed.

  (** The last pass changes no size. *)
  Lemma prog_in src k : prog src k -> forall c, ICode c ∈ k -> exists c0 cs, R c0 cs /\ c ∈ cs.
  Proof.
    induction 1 as [|c0 cs src k HR Hp IH|i src k Hi Hp IH]; intros c Hc.
    - by apply elem_of_nil in Hc.
    - apply elem_of_app in Hc as [Hc|Hc]; [|by apply IH]. apply elem_of_list_fmap in Hc as (c1 & [= <-] & Hc). by exists c0, cs.
    - apply elem_of_cons in Hc as [Hc|Hc]; [by destruct (Hi c)|by apply IH].
  Qed.
  Definition same_size (i j : item I) : Prop :=
    match i with ICode c => exists c', j = ICode c' /\ length (buf c') = length (buf c) | _ => j = i end.
  Lemma final_same t st src l l' : prog src (kind <$> l) -> Forall2 (final t st) l l' -> Forall2 same_size (kind <$> l) (kind <$> l').
  Proof.
    intros Hp Hf. pose proof (prog_in _ _ Hp) as Hin. clear Hp. induction Hf as [|x y l l' Hx Hf IH]; [constructor|].
    cbn in *. constructor; [|apply IH; intros c Hc; apply Hin; by right].
    destruct x as [i a]. cbn in *. destruct i; try (by destruct Hx).
    apply final_code in Hx as (last & s & H1 & H2 & ->). destruct (Hin c ltac:(left)) as (c0 & cs & HR & Hc). exists (new s). split; [done|]. by apply (R_len c0 cs c t last st a).
  Qed.
  Lemma emit_item_same b i j o1 o2 o2' : same_size i j -> size_of b o1 = size_of b o2 -> emit_item b o2 j = Some o2' ->
    exists o1', emit_item b o1 i = Some o1' /\ size_of b o1' = size_of b o2'.
  Proof.
    destruct o1 as [bs1 n1], o2 as [bs2 n2]. intros Hs Ho E.
    destruct i; cbn in Hs; [subst j|destruct Hs as (c' & -> & Hl)|subst j ..]; destruct b; cbn in *; try done; injection E as <-; eexists; (split; [reflexivity|]);
      cbn; rewrite ?app_length, ?replicate_length; try lia; try (by subst). 
    rewrite Ho. lia.
  Qed.
  Lemma emit_same b (l1 l2 : list (item I)) : Forall2 same_size l1 l2 -> forall o1 o2 o2', size_of b o1 = size_of b o2 -> emit_items b o2 l2 = Some o2' ->
    exists o1', emit_items b o1 l1 = Some o1' /\ size_of b o1' = size_of b o2'.
  Proof.
    induction 1 as [|i j l1 l2 Hij Hl IH]; intros o1 o2 o2' Ho E; cbn in *.
    - injection E as <-. by exists o1.
    - destruct (emit_item b o2 j) as [o|] eqn:Ej; [|done]. cbn in E.
      destruct (emit_item_same _ _ _ _ _ _ Hij Ho Ej) as (o' & -> & Ho'). cbn. by apply (IH o' o).
  Qed.

  (** ** All sections *)
  Definition inv ss0 ss : Prop := Forall2 (fun s0 s => bss s = bss s0 /\ prog (items s0) (items s)) ss0 ss /\ Forall sec_ok ss.
  Lemma prog_labels src k : prog src k -> labels k = labels src.
  Proof.
    induction 1 as [|c cs src k HR Hp IH|i src k Hi Hp IH]; [done| |].
    - rewrite labels_cons. unfold labels in *. rewrite omap_app, IH.
      by replace (omap _ (ICode <$> cs)) with (@nil nat) by (clear; induction cs; done).
    - rewrite !labels_cons. by rewrite IH.
  Qed.
  Lemma inv_labels ss0 ss : inv ss0 ss -> all_labels ss = all_labels ss0.
  Proof. intros [H _]. unfold all_labels. induction H as [|s0 s ss0 ss [_ H] Hs IH]; [done|]. cbn. by rewrite (prog_labels _ _ H), IH. Qed.
  Lemma inv_calc t a ok ss0 ss ss' t' ok' : calc_sections t a ok ss = Some (ss', t', ok') -> inv ss0 ss -> inv ss0 ss'.
  Proof.
    intros E [H1 H2]. split.
    - apply calc_sections_items in E. clear H2. revert ss' E. induction H1 as [|s0 s ss0 ss [G1 G2] Hs IH]; intros ss' E; [inversion E; subst; constructor|].
      apply Forall2_cons_inv_l in E as (s' & ss1 & [F1 F2] & E & ->). constructor; [|by apply IH]. by rewrite F1, F2.
    - apply calc_sections_settled in E as (_ & _ & _ & E). by apply E.
  Qed.
  Lemma inv_resolve t ss0 ss : inv ss0 ss -> forall ss' up us, resolve_relative_address step t ss = Some (ss', up, us) -> inv ss0 ss'.
  Proof.
    intros [H1 H2]. induction H1 as [|s0 s ss0 ss [G1 G2] Hs IH]; intros ss' up us E; cbn [resolve_relative_address] in E; [by injection E as <- <- <-|].
    destruct (resolve_irs _ _ _ _ _ _) as [[[l1 up1] us1]|] eqn:E1; [|done]. cbn in E.
    destruct (resolve_relative_address step t ss) as [[[ss2 up2] us2]|] eqn:E2; [|done]. cbn in E. injection E as <- <- <-.
    apply stdpp.list.Forall_cons in H2 as [[F1 F2] H2]. destruct (IH H2 _ _ _ eq_refl) as [J1 J2].
    pose proof (resolve_noncode _ _ _ _ _ _ _ _ E1) as Hn.
    pose proof (resolve_prog _ _ _ _ G2 _ _ _ _ _ _ eq_refl E1) as Hp. split; (constructor; [|done]).
    - by split.
    - split; [done|]. intros x Hx. apply F2. unfold items in *. cbn in Hx. by apply (noncode_align _ _ _ Hn).
  Qed.

  Definition sec_final t (s s' : section I) : Prop := bss s' = bss s /\ align s' = align s /\ start s' = start s /\
    (exists st, Forall2 (final t st) (irs s) (irs s')) /\ Forall2 same_size (items s) (items s').
  Lemma resolve_final_all t ss0 ss : inv ss0 ss -> forall ss' us, resolve_relative_address step t ss = Some (ss', false, us) -> Forall2 (sec_final t) ss ss'.
  Proof.
    intros [H1 H2]. induction H1 as [|s0 s ss0 ss [G1 G2] Hs IH]; intros ss' us E; cbn [resolve_relative_address] in E; [by injection E as <- <-|].
    destruct (resolve_irs _ _ _ _ _ _) as [[[l1 up1] us1]|] eqn:E1; [|done]. cbn in E.
    destruct (resolve_relative_address step t ss) as [[[ss2 up2] us2]|] eqn:E2; [|done]. cbn in E. injection E as <- Hu <-. apply orb_false_iff in Hu as [-> ->].
    apply stdpp.list.Forall_cons in H2 as [_ H2]. constructor; [|by apply (IH H2 _ us2)].
    apply resolve_final in E1; [|lia]. split; [done|]. split; [done|]. split; [done|]. split; [by eexists|]. cbn. by apply (final_same _ _ _ _ _ G2 E1).
  Qed.
  Lemma sec_final_placed t s s' : sec_final t s s' ->
    (forall pre i c post o, irs s = pre ++ IR i c :: post -> emit_items (bss s) ([], 0) (kind <$> pre) = Some o -> addr_right (bss s) (start s) t i c o) ->
    item_placed t s'.
  Proof.
    intros (H1 & H2 & H3 & [st H4] & H5) Hp pre i a post o Hl Ho. rewrite Hl in H4. rewrite H1 in Ho |- *. rewrite H3.
    apply Forall2_app_inv_r in H4 as (pre0 & l0 & F1 & F2 & Hl0). apply Forall2_cons_inv_r in F2 as (x & post0 & F2 & F3 & ->).
    unfold items in H5. rewrite Hl, Hl0, !fmap_app in H5.
    apply Forall2_app_inv in H5 as [H5 _]; [|rewrite !fmap_length; by apply Forall2_length in F1].
    destruct (emit_same (bss s) _ _ H5 ([], 0) ([], 0) o eq_refl Ho) as (o1 & G1 & G2).
    destruct x as [j b]. specialize (Hp _ _ _ _ _ Hl0 G1). destruct F2 as [E1 E2]. cbn in E1, E2. subst b.
    rewrite <- G2. destruct j; try (subst i; done). destruct E2 as (last & s1 & _ & _ & ->). done.
  Qed.
  Lemma in_sequence_final t ss ss' : Forall2 (sec_final t) ss ss' -> forall a, in_sequence a ss -> in_sequence a ss'.
  Proof.
    induction 1 as [|s s' ss ss' (H1 & H2 & H3 & _ & H5) Hs IH]; intros a Ha; [done|]. cbn in *. rewrite H1, H2, H3. destruct Ha as (Ha1 & Ha2 & Ha3).
    split; [done|]. split; [done|]. intros o Ho. apply IH. unfold emit in Ho. rewrite H1 in Ho.
    destruct (emit_same (bss s) _ _ H5 ([], 0) ([], 0) o eq_refl Ho) as (o1 & G1 & G2). rewrite <- G2. apply Ha3. done.
  Qed.
  Lemma calc_sections_consec ss : forall t a ok ss' t' ok', calc_sections t a ok ss = Some (ss', t', ok') -> Forall (fun s => consec (irs s)) ss'.
  Proof.
    induction ss as [|s ss IH]; intros t a ok ss' t' ok' E; cbn [calc_sections] in E; [by injection E as <- <- <-|].
    destruct (calc_irs _ _ _ _ _) as [[[[[l1 t1] a1] sa1] ok1]|] eqn:E1; [|done]. cbn in E.
    destruct (calc_sections t1 a1 ok1 ss) as [[[ss2 t2] ok2]|] eqn:E2; [|done]. cbn in E. injection E as <- <- <-.
    constructor; [|by apply IH in E2]. intros pre c b c2 b2 post Hl. by apply (calc_consec _ _ _ _ _ _ _ _ _ _ E1 pre c b c2 b2 post).
  Qed.

  Theorem settle_done a ss0 fuel : forall ss t ss' t' us, inv ss0 ss -> NoDup (all_labels ss0) -> settle step fuel a ss t = Done ss' t' us ->
    placed a ss' t' /\ rewritten_all (Rf t') ss0 ss'.
  Proof.
    induction fuel as [|fuel IH]; intros ss t ss' t' us Hi Hnd E; [done|]. cbn [settle] in E. unfold calc_label_address in E.
    destruct (calc_sections t a true ss) as [[[ss1 t1] ok1]|] eqn:E1; [|done]. pose proof (inv_calc _ _ _ _ _ _ _ _ E1 Hi) as Hi1.
    destruct (resolve_relative_address step t1 ss1) as [[[ss2 up] us2]|] eqn:E2; [|done]. pose proof (inv_resolve _ _ _ Hi1 _ _ _ E2) as Hi2.
    destruct (ok1 && negb up) eqn:Eo; [|by apply (IH ss2 t1 ss' t' us)]. injection E as <- <- <-.
    apply andb_true_iff in Eo as [-> Hup]. destruct up; [done|]. clear Hup IH.
    pose proof (resolve_final_all _ _ _ Hi1 _ _ E2) as Hf.
    rewrite <- (inv_labels _ _ Hi) in Hnd. destruct Hi as [_ Hok].
    destruct (calc_sections_placed _ _ _ _ _ E1 Hok Hnd) as [P1 P2].
    apply calc_sections_consec in E1. split; [split|].
    - intros s Hs. clear -P1 Hf Hs. induction Hf as [|s1 s2 l1 l2 H Hf IH]; [by apply elem_of_nil in Hs|].
      apply elem_of_cons in Hs as [->|Hs]; [|apply IH; [|done]; intros s' Hs'; apply P1; by right].
      apply (sec_final_placed _ _ _ H). apply P1. left.
    - by apply (in_sequence_final _ _ _ Hf).
    - clear P1 P2 E2 Hok Hnd Hi2. destruct Hi1 as [Hi1 _]. revert ss2 Hf. induction Hi1 as [|s0 s ss0 ss1 [G1 G2] Hs IH]; intros ss2 Hf; [inversion Hf; constructor|].
      apply stdpp.list.Forall_cons in E1 as [C1 C2]. apply Forall2_cons_inv_l in Hf as (s' & ss3 & (F1 & F2 & F3 & [st F4] & F5) & Hf & ->).
      constructor; [|by apply IH]. split; [by rewrite F1|]. by apply (final_rewritten _ st _ _ G2 (irs s)).
  Qed.
End Loop.
