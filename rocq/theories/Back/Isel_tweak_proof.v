(** Preparing the operations changes nothing and leaves what instructions exist for. *)
From stdpp Require Import base numbers list sets.
From Coq Require Import Lia.
From Verif Require Import Back.Isel_model Back.Isel_spec Back.Isel_proof Back.Isel_ops_proof Back.Isel_cmp_proof Back.Isel_block_proof.
Open Scope Z_scope.

Lemma exec_app l1 l2 e e1 o1 e2 o2 : exec l1 e = Some (e1, o1) -> exec l2 e1 = Some (e2, o2) ->
  exec (l1 ++ l2) e = Some (e2, o1 ++ o2).
Proof.
  revert e o1. induction l1 as [|i l1 IH]; intros e o1 H1 H2.
  - injection H1 as <- <-. done.
  - cbn [exec app] in *. destruct (exec1 i e) as [[e' o']|]; [|done]. cbn [mbind option_bind fst snd] in *.
    destruct (exec l1 e') as [[e'' o'']|] eqn:E; [|done]. cbn [mbind option_bind fst snd] in *.
    injection H1 as <- <-. rewrite (IH e' o'' E H2). cbn [mbind option_bind fst snd]. by rewrite app_assoc.
Qed.
Lemma exec_one i e e1 o1 : exec1 i e = Some (e1, o1) -> exec [i] e = Some (e1, o1).
Proof. intros H. cbn [exec]. rewrite H. cbn [mbind option_bind fst snd]. by rewrite app_nil_r. Qed.

Definition eqv (n : nat) (e e2 : env) : Prop := forall v, (v < n)%nat -> e2 v = e v.
Definition below (n : nat) (a : vopr) : Prop := forall v, v ∈ opr_vreg a -> (v < n)%nat.
Lemma vval_eqv n e e2 a : eqv n e e2 -> below n a -> vval e2 a = vval e a.
Proof. intros H Hb. destruct a as [k v|]; [|done]. simpl. rewrite H; [done|]. apply Hb. simpl. set_solver. Qed.
Lemma vval_idem e a : vval e a mod 2 ^ bits (vsize a) = vval e a.
Proof. destruct a; simpl; apply Z.mod_mod; pose proof (pow_bits_pos sz); lia. Qed.
Lemma assign_same e d z : assign e d z d = z.
Proof. unfold assign. by rewrite Nat.eqb_refl. Qed.
Lemma assign_other e d z v : v <> d -> assign e d z v = e v.
Proof. intros H. unfold assign. by rewrite (proj2 (Nat.eqb_neq v d) H). Qed.
Lemma eqv_assign n e e2 d z : eqv n e e2 -> eqv n (assign e d z) (assign e2 d z).
Proof. intros H v Hv. unfold assign. case_match; [done|]. by apply H. Qed.
Lemma below_mono n m a : (n <= m)%nat -> below n a -> below m a.
Proof. intros H Hb v Hv. specialize (Hb v Hv). lia. Qed.

Lemma exec1_eqv n i e e2 e' o : eqv n e e2 -> known n i -> exec1 i e = Some (e', o) ->
  exists e2', exec1 i e2 = Some (e2', o) /\ eqv n e' e2'.
Proof.
  intros He Hk Hx.
  assert (forall a, (forall v, v ∈ opr_vreg a -> v ∈ uses i) -> vval e2 a = vval e a) as Hv.
  { intros a Ha. eapply vval_eqv; [exact He|]. intros v Hv. apply Hk. left. by apply Ha. }
  destruct i as [op uns k d a b|op k d a|uns k d a|k d a|uns cd d a b|a|uns cd a b]; cbn [exec1] in *.
  1: rewrite (Hv a), (Hv b) by (intros ? ?; cbn [uses]; rewrite ?elem_of_app; by auto).
  2-4, 6: rewrite (Hv a) by (intros ? ?; cbn [uses]; rewrite ?elem_of_app; by auto).
  6, 7: rewrite (Hv a), (Hv b) by (intros ? ?; cbn [uses]; rewrite ?elem_of_app; by auto).
  1: destruct (bop_val _ _ _ _ _) as [z|]; [|done]; cbn [mbind option_bind] in *.
  all: injection Hx as <- <-; eexists; (split; [reflexivity|]); try (by apply eqv_assign); done.
Qed.

(** Two-operand form. *)
Definition two (i : vir) : Prop :=
  match i with
  | VBop _ _ sz d a _ | VUop _ sz d a => a = VReg sz d
  | _ => True
  end.
Lemma to2_ok sz n i e e2 e' o : typed sz i -> second_free i -> known n i -> eqv n e e2 -> exec1 i e = Some (e', o) ->
  exists e2', exec (to2 i) e2 = Some (e2', o) /\ eqv n e' e2'.
Proof.
  intros Ht Hs Hk He Hx. destruct (exec1_eqv n i e e2 e' o He Hk Hx) as (e3 & Hx3 & He3).
  destruct i as [op uns k d a b|op k d a|uns k d a|k d a|uns cd d a b|a|uns cd a b];
    try (exists e3; split; [by apply exec_one|done]).
  - destruct Ht as (_ & _ & _ & _ & Hak & _). simpl second_free in Hs.
    assert (vval (assign e2 d (vval e2 a)) (VReg k d) = vval e2 a) as E1.
    { simpl. rewrite assign_same. rewrite <- Hak. apply vval_idem. }
    assert (vval (assign e2 d (vval e2 a)) b = vval e2 b) as E2.
    { destruct b as [kb v|]; [|done]. simpl. rewrite assign_other; [done|]. intros ->. apply Hs. simpl. set_solver. }
    cbn [exec1] in Hx3. destruct (bop_val op uns (bits k) (vval e2 a) (vval e2 b)) as [z|] eqn:Ez; [|done].
    cbn [mbind option_bind] in Hx3. injection Hx3 as <- <-.
    exists (assign (assign e2 d (vval e2 a)) d z). split.
    + change (to2 (VBop op uns k d a b)) with ([VMov k d a] ++ [VBop op uns k d (VReg k d) b]).
      change (@nil obs) with (@nil obs ++ []). eapply exec_app; [apply exec_one; reflexivity|]. apply exec_one.
      cbn [exec1]. rewrite E1, E2, Ez. done.
    + intros v Hv. unfold assign at 1. specialize (He3 v Hv). unfold assign at 1 in He3. case_match; [done|].
      rewrite assign_other; [done|]. by apply Nat.eqb_neq.
  - destruct Ht as (_ & _ & _ & Hak).
    assert (vval (assign e2 d (vval e2 a)) (VReg k d) = vval e2 a) as E1.
    { simpl. rewrite assign_same. rewrite <- Hak. apply vval_idem. }
    cbn [exec1] in Hx3. injection Hx3 as <- <-.
    exists (assign (assign e2 d (vval e2 a)) d (uop_val op (bits k) (vval e2 a))). split.
    + change (to2 (VUop op k d a)) with ([VMov k d a] ++ [VUop op k d (VReg k d)]).
      change (@nil obs) with (@nil obs ++ []). eapply exec_app; [apply exec_one; reflexivity|]. apply exec_one.
      cbn [exec1]. rewrite E1. done.
    + intros v Hv. unfold assign at 1. specialize (He3 v Hv). unfold assign at 1 in He3. case_match; [done|].
      rewrite assign_other; [done|]. by apply Nat.eqb_neq.
Qed.
Lemma convert_cons i l : convert (i :: l) = to2 i ++ convert l.
Proof. done. Qed.
Lemma convert_ok sz n l : forall e e2 e' o, Forall (typed sz) l -> Forall second_free l -> Forall (known n) l -> eqv n e e2 ->
  exec l e = Some (e', o) -> exists e2', exec (convert l) e2 = Some (e2', o) /\ eqv n e' e2'.
Proof.
  induction l as [|i l IH]; intros e e2 e' o Ht Hs Hk He Hx.
  - injection Hx as <- <-. exists e2. done.
  - apply Forall_cons in Ht as [Ht1 Ht]. apply Forall_cons in Hs as [Hs1 Hs]. apply Forall_cons in Hk as [Hk1 Hk].
    cbn [exec] in Hx. destruct (exec1 i e) as [[e1 o1]|] eqn:E1; [|done]. cbn [mbind option_bind fst snd] in Hx.
    destruct (exec l e1) as [[e3 o3]|] eqn:E3; [|done]. cbn [mbind option_bind fst snd] in Hx. injection Hx as <- <-.
    destruct (to2_ok sz n i e e2 e1 o1 Ht1 Hs1 Hk1 He E1) as (e4 & X4 & V4).
    destruct (IH e1 e4 e3 o3 Ht Hs Hk V4 E3) as (e5 & X5 & V5).
    exists e5. split; [|done]. rewrite convert_cons. by eapply exec_app.
Qed.
Lemma to2_facts sz n i : typed sz i -> known n i ->
  Forall (typed sz) (to2 i) /\ Forall (known n) (to2 i) /\ Forall two (to2 i) /\
  (dest i <> None -> Forall (fun j => dest j <> None) (to2 i)).
Proof.
  intros Ht Hk.
  destruct i as [op uns k d a b|op k d a|uns k d a|k d a|uns cd d a b|a|uns cd a b];
    try (split_and!; repeat (constructor; try done); done).
  - assert (known n (VMov k d a)) as K1.
    { intros v [Hv|Hv]; apply Hk; [left; cbn [uses]; rewrite elem_of_app; by left|by right]. }
    assert (known n (VBop op uns k d (VReg k d) b)) as K2.
    { intros v [Hv|Hv]; [|apply Hk; by right]. cbn [uses opr_vreg] in Hv. apply elem_of_app in Hv as [Hv|Hv].
      - apply Hk. right. cbn [dest]. f_equal. set_solver.
      - apply Hk. left. cbn [uses]. rewrite elem_of_app. by right. }
    destruct Ht as (T1 & T2 & T3 & T4 & T5 & T6 & T7).
    split_and!.
    + constructor; [done|]. constructor; [|done]. by split_and!.
    + by repeat constructor.
    + by repeat constructor.
    + intros _. by repeat constructor.
  - assert (known n (VMov k d a)) as K1.
    { intros v [Hv|Hv]; apply Hk; [left; done|by right]. }
    assert (known n (VUop op k d (VReg k d))) as K2.
    { intros v [Hv|Hv]; apply Hk; right; [|done]. cbn [uses opr_vreg dest] in *. f_equal. set_solver. }
    destruct Ht as (T1 & T2 & T3 & T4).
    split_and!.
    + constructor; [done|]. constructor; [|done]. by split_and!.
    + by repeat constructor.
    + by repeat constructor.
    + intros _. by repeat constructor.
Qed.
Lemma convert_facts sz n l : Forall (typed sz) l -> Forall (known n) l ->
  Forall (typed sz) (convert l) /\ Forall (known n) (convert l) /\ Forall two (convert l) /\ (straight l -> straight (convert l)).
Proof.
  induction l as [|i l IH]; intros Ht Hk; [split_and!; done || constructor|].
  apply Forall_cons in Ht as [Ht1 Ht]. apply Forall_cons in Hk as [Hk1 Hk].
  destruct (to2_facts sz n i Ht1 Hk1) as (A1 & A2 & A3 & A4). destruct (IH Ht Hk) as (B1 & B2 & B3 & B4).
  rewrite convert_cons. split_and!; try (by apply Forall_app).
  intros [H1 H2]%Forall_cons. apply Forall_app. split; [by apply A4|by apply B4].
Qed.

(** Moves of constants. *)
Definition gone (P : nat -> Prop) (a a' : vopr) (v : nat) : Prop :=
  v ∈ opr_vreg a \/ (P v /\ (v ∈ opr_vreg a' -> v ∈ opr_vreg a)).
Lemma tmp_mov_ok go n0 m a l a' m' : tmp_mov go m a = (l, a', m') -> (go = true -> is_con a = true) ->
  (n0 <= m)%nat -> below m a ->
  (m <= m')%nat /\ vsize a' = vsize a /\ below m' a' /\ (is_con a = false -> a' = a) /\ (go = false -> a' = a) /\
  (go = true -> is_con a' = false) /\
  Forall prepared l /\ straight l /\
  (forall e, exists e', exec l e = Some (e', []) /\ eqv m e e' /\ vval e' a' = vval e a) /\
  (forall P v, live_before l P v -> gone P a a' v) /\
  (forall sz, sized sz a -> exists sz1, (forall v, (v < m)%nat -> sz1 v = sz v) /\ Forall (typed sz1) l /\ Forall (known m') l /\ sized sz1 a').
Proof.
  intros H Hg Hn Hb. unfold tmp_mov in H. destruct go; injection H as <- <- <-.
  - specialize (Hg eq_refl). destruct a as [|k c]; [done|]. cbn [vsize].
    split_and!; try done; try lia.
    + intros v Hv. simpl in Hv. assert (v = m) by set_solver. lia.
    + by repeat constructor.
    + by repeat constructor.
    + intros e. eexists. split; [apply exec_one; reflexivity|]. split.
      * intros v Hv. apply assign_other. lia.
      * cbn [vval]. rewrite assign_same. apply (vval_idem e (VCon k c)).
    + intros P v [Hv|[Hv Hd]]; [by left|]. right. split; [exact Hv|]. intros Hin. exfalso. apply Hd. cbn [dest]. f_equal. simpl in Hin. set_solver.
    + intros sz Hs. exists (fun v => if Nat.eqb v m then k else sz v). split.
      * intros v Hv. rewrite (proj2 (Nat.eqb_neq v m)); [done|lia].
      * split; [|split].
        -- constructor; [|done]. cbn [typed vsize]. rewrite Nat.eqb_refl. by split_and!.
        -- constructor; [|done]. intros v [Hv|Hv]; [simpl in Hv; set_solver|]. injection Hv as <-. lia.
        -- cbn [sized]. rewrite Nat.eqb_refl. done.
  - split_and!; try done; try lia.
    + constructor.
    + intros e. exists e. done.
    + intros P v Hv. right. done.
    + intros sz Hs. exists sz. split; [done|]. split; [constructor|]. split; [constructor|done].
Qed.
Lemma big_con a : big a = true -> is_con a = true.
Proof. by destruct a. Qed.
Lemma small_fits a : big a = false -> fits32 a.
Proof. destruct a; [done|]. simpl. intros H. apply negb_false_iff in H. by apply is_im32_inv. Qed.
Lemma big_fits m a l a' m' : tmp_mov (big a) m a = (l, a', m') -> fits32 a'.
Proof. unfold tmp_mov. destruct (big a) eqn:E; injection 1 as <- <- <-; [done|by apply small_fits]. Qed.

Lemma typed_ext sz sz' i : (forall v, v ∈ uses i \/ dest i = Some v -> sz' v = sz v) -> typed sz i -> typed sz' i.
Proof.
  intros H Ht.
  assert (forall a, (forall v, v ∈ opr_vreg a -> v ∈ uses i) -> sized sz a -> sized sz' a) as Hs.
  { intros [k v|] Ha; [|done]. intros [-> Hlt]. split; [|done]. symmetry. apply H. left. apply Ha. simpl. set_solver. }
  destruct i as [op uns k d a b|op k d a|uns k d a|k d a|uns cd d a b|a|uns cd a b]; cbn [typed] in *;
    try (assert (sz' d = sz d) as -> by (apply H; by right)); destruct_and?; split_and?; try done;
    apply Hs; try done; intros ? ?; cbn [uses]; rewrite ?elem_of_app; by auto.
Qed.
Lemma live_app l1 l2 L v : live_before (l1 ++ l2) L v <-> live_before l1 (live_before l2 L) v.
Proof. revert v. induction l1 as [|i l1 IH]; intros v; [done|]. simpl. by rewrite IH. Qed.

(** What is shown about the list [l] that replaces an operation [i]; [m] and [m'] are the numbers of
    registers before and after. *)
Record replaced (n0 m : nat) (i : vir) (l : list vir) (m' : nat) : Prop := {
  r_le : (m <= m')%nat;
  r_prep : Forall prepared l;
  r_str : dest i <> None -> straight l;
  r_exec : forall e e2 e' o, eqv n0 e e2 -> exec1 i e = Some (e', o) ->
    exists e2', exec l e2 = Some (e2', o) /\ eqv n0 e' e2';
  r_live : forall (P : nat -> Prop) v, (forall v, P v -> (v < n0)%nat) -> live_before l P v -> v ∈ uses i \/ (P v /\ dest i <> Some v);
  r_typed : forall sz, typed sz i -> exists sz1, (forall v, (v < m)%nat -> sz1 v = sz v) /\ Forall (typed sz1) l /\ Forall (known m') l
}.

Lemma known_mono n m i : (n <= m)%nat -> known n i -> known m i.
Proof. intros H Hk v Hv. specialize (Hk v Hv). lia. Qed.
Lemma fa_mono n m l : (n <= m)%nat -> Forall (known n) l -> Forall (known m) l.
Proof. intros H Hl. eapply Forall_impl; [exact Hl|]. intros i. by apply known_mono. Qed.
Lemma fa_ext m sz sz' l : (forall v, (v < m)%nat -> sz' v = sz v) -> Forall (known m) l -> Forall (typed sz) l -> Forall (typed sz') l.
Proof.
  intros H Hk Ht. rewrite Forall_forall in *. intros i Hi. apply (typed_ext sz); [|by apply Ht].
  intros v Hv. apply H. by apply (Hk i Hi).
Qed.
Lemma eqv_trans n m e1 e2 e3 : (n <= m)%nat -> eqv n e1 e2 -> eqv m e2 e3 -> eqv n e1 e3.
Proof. intros H H1 H2 v Hv. rewrite H2 by lia. by apply H1. Qed.

Lemma tweak1_ok n0 m i l m' : tweak1 m i = (l, m') -> (n0 <= m)%nat -> known n0 i -> two i -> replaced n0 m i l m'.
Proof.
  intros H Hn Hk H2.
  assert (forall a, (forall v, v ∈ opr_vreg a -> v ∈ uses i) -> below n0 a) as Hb.
  { intros a Ha v Hv. apply Hk. left. by apply Ha. }
  (* one operand *)
  assert (forall (f : vopr -> vir) a,
    (forall v, v ∈ opr_vreg a -> v ∈ uses i) -> (forall a', uses (f a') = opr_vreg a') -> (forall a', dest (f a') = dest i) -> i = f a ->
    (forall a', (is_con a = false -> a' = a) -> fits32 a' -> prepared (f a')) ->
    (forall e e2 a' e' o, eqv n0 e e2 -> vsize a' = vsize a -> vval e2 a' = vval e a -> exec1 (f a) e = Some (e', o) ->
      exists e2', exec1 (f a') e2 = Some (e2', o) /\ eqv n0 e' e2') ->
    (forall sz, typed sz (f a) -> sized sz a) ->
    (forall sz sz1 a', typed sz (f a) -> (forall d, dest i = Some d -> sz1 d = sz d) -> sized sz1 a' -> vsize a' = vsize a ->
       (is_con a = false -> is_con a' = false) -> typed sz1 (f a')) ->
    forall l1 a' m1, tmp_mov (big a) m a = (l1, a', m1) -> replaced n0 m i (l1 ++ [f a']) m1) as Hone.
  { intros f a Ha Hu Hd Hi Hp He Hsz Hty l1 a' m1 E1.
    destruct (tmp_mov_ok _ n0 m a l1 a' m1 E1 (big_con a) Hn) as (A1 & A2 & A3 & A4 & A5 & A6 & A7 & A8 & A9 & A10 & A11).
    { eapply below_mono; [exact Hn|by apply Hb]. }
    split.
    - done.
    - apply Forall_app. split; [done|]. constructor; [|done]. apply Hp; [done|by eapply big_fits].
    - intros Hdi. apply Forall_app. split; [done|]. constructor; [|done]. by rewrite Hd.
    - intros e e2 e' o Hev Hx. destruct (A9 e2) as (e3 & X3 & V3 & W3). rewrite Hi in Hx.
      destruct (He e e3 a' e' o) as (e4 & X4 & V4); try done.
      + by eapply eqv_trans.
      + rewrite W3. eapply vval_eqv; [exact Hev|by apply Hb].
      + exists e4. split; [|done]. change o with ([] ++ o). eapply exec_app; [done|by apply exec_one].
    - intros P v HP Hv. apply live_app in Hv. apply A10 in Hv as [Hv|[Hv Hg]]; [left; by apply Ha|].
      cbn [live_before] in Hv. rewrite Hu, Hd in Hv. destruct Hv as [Hv|Hv]; [left; apply Ha; by apply Hg|by right].
    - intros sz Ht. rewrite Hi in Ht. destruct (A11 sz (Hsz sz Ht)) as (sz1 & B1 & B2 & B3 & B4).
      exists sz1. split; [done|]. split; (apply Forall_app; split; [done|]; constructor; [|done]).
      + eapply Hty; try done.
        * intros d Hdd. apply B1. specialize (Hk d (or_intror Hdd)). lia.
        * intros Hc. by rewrite (A4 Hc).
      + intros v [Hv|Hv]; [rewrite Hu in Hv; by apply A3|]. rewrite Hd in Hv. specialize (Hk v (or_intror Hv)). lia. }
  (* two operands *)
  assert (forall (f : vopr -> vopr -> vir) a b (nr : bool),
    uses i = opr_vreg a ++ opr_vreg b -> (forall a' b', uses (f a' b') = opr_vreg a' ++ opr_vreg b') -> (forall a' b', dest (f a' b') = dest i) -> i = f a b ->
    (forall a' b', (is_con a = false -> a' = a) -> fits32 a' -> fits32 b' -> (nr = true -> is_con b' = false) -> prepared (f a' b')) ->
    (forall e e2 a' b' e' o, eqv n0 e e2 -> vsize a' = vsize a -> vval e2 a' = vval e a -> vsize b' = vsize b -> vval e2 b' = vval e b ->
      exec1 (f a b) e = Some (e', o) -> exists e2', exec1 (f a' b') e2 = Some (e2', o) /\ eqv n0 e' e2') ->
    (forall sz, typed sz (f a b) -> sized sz a /\ sized sz b) ->
    (forall sz sz1 a' b', typed sz (f a b) -> (forall d, dest i = Some d -> sz1 d = sz d) -> sized sz1 a' -> sized sz1 b' -> vsize a' = vsize a -> vsize b' = vsize b ->
       (is_con a = false -> is_con a' = false) -> typed sz1 (f a' b')) ->
    forall l1 a' m1 l2 b' m2 l3 b'' m3, tmp_mov (big a) m a = (l1, a', m1) -> tmp_mov (big b) m1 b = (l2, b', m2) ->
    tmp_mov (nr && is_con b') m2 b' = (l3, b'', m3) ->
    replaced n0 m i (l1 ++ l2 ++ l3 ++ [f a' b'']) m3) as Htwo.
  { intros f a b nr Hui Hu Hd Hi Hp He Hsz Hty l1 a' m1 l2 b' m2 l3 b'' m3 E1 E2 E3.
    assert (below n0 a) as Ba by (apply Hb; intros v Hv; rewrite Hui, elem_of_app; by left).
    assert (below n0 b) as Bb by (apply Hb; intros v Hv; rewrite Hui, elem_of_app; by right).
    destruct (tmp_mov_ok _ n0 m a l1 a' m1 E1 (big_con a) Hn) as (A1 & A2 & A3 & A4 & A5 & A6 & A7 & A8 & A9 & A10 & A11).
    { by eapply below_mono. }
    destruct (tmp_mov_ok _ n0 m1 b l2 b' m2 E2 (big_con b)) as (B1 & B2 & B3 & B4 & B5 & B6 & B7 & B8 & B9 & B10 & B11); [lia|..].
    { eapply below_mono; [|exact Bb]. lia. }
    assert (nr && is_con b' = true -> is_con b' = true) as Hnr by (by intros [_ ?]%andb_prop).
    destruct (tmp_mov_ok _ n0 m2 b' l3 b'' m3 E3 Hnr) as (C1 & C2 & C3 & C4 & C5 & C6 & C7 & C8 & C9 & C10 & C11); [lia|done|..].
    assert (fits32 b'') as F3.
    { destruct (nr && is_con b') eqn:E; [|rewrite C5 by done; by eapply big_fits]. specialize (C6 eq_refl). by destruct b''. }
    split.
    - lia.
    - rewrite !Forall_app. split_and!; try done. constructor; [|done]. apply Hp; try done; [by eapply big_fits|].
      intros ->. destruct (is_con b') eqn:E; [by apply C6|]. by rewrite C5.
    - intros Hdi. unfold straight. rewrite !Forall_app. split_and!; try done. constructor; [|done]. by rewrite Hd.
    - intros e e2 e' o Hev Hx. destruct (A9 e2) as (e3 & X3 & V3 & W3). destruct (B9 e3) as (e4 & X4 & V4 & W4). destruct (C9 e4) as (e5 & X5 & V5 & W5).
      rewrite Hi in Hx.
      assert (eqv n0 e e3) as Q3 by (by eapply eqv_trans). assert (eqv n0 e e4) as Q4 by (eapply eqv_trans; [|exact Q3|exact V4]; lia).
      assert (eqv n0 e e5) as Q5 by (eapply eqv_trans; [|exact Q4|exact V5]; lia).
      destruct (He e e5 a' b'' e' o) as (e6 & X6 & V6); try done.
      + rewrite (vval_eqv m2 e4 e5 a' V5) by (by eapply below_mono; [|exact A3]). rewrite (vval_eqv m1 e3 e4 a' V4 A3).
        rewrite W3. by eapply vval_eqv.
      + by rewrite C2.
      + rewrite W5, W4. by eapply vval_eqv.
      + exists e6. split; [|done]. change o with ([] ++ ([] ++ ([] ++ o))).
        eapply exec_app; [done|]. eapply exec_app; [done|]. eapply exec_app; [done|]. by apply exec_one.
    - intros P v HP Hv. rewrite Hui, elem_of_app. rewrite !live_app in Hv.
      apply A10 in Hv as [Hv|[Hv Hg1]]; [by left; left|].
      rewrite live_app in Hv. apply B10 in Hv as [Hv|[Hv Hg2]]; [by left; right|].
      rewrite live_app in Hv. apply C10 in Hv as [Hv|[Hv Hg3]]; [left; right; by apply Hg2|].
      cbn [live_before] in Hv. rewrite Hu, Hd, elem_of_app in Hv.
      destruct Hv as [[Hv|Hv]|Hv]; [left; left; by apply Hg1|left; right; by apply Hg2, Hg3|by right].
    - intros sz Ht. rewrite Hi in Ht. destruct (Hsz sz Ht) as [Sa Sb].
      destruct (A11 sz Sa) as (sz1 & D1 & D2 & D3 & D4).
      assert (sized sz1 b) as Sb1.
      { destruct b as [kb v|]; [|done]. destruct Sb as [-> ?]. split; [|done]. symmetry. apply D1.
        assert (v < n0)%nat by (apply Bb; simpl; set_solver). lia. }
      destruct (B11 sz1 Sb1) as (sz2 & F1 & F2 & F3' & F4).
      destruct (C11 sz2 F4) as (sz3 & G1 & G2 & G3 & G4).
      exists sz3. split; [intros v Hv; rewrite G1, F1, D1 by lia; done|].
      assert (forall v, (v < m1)%nat -> sz3 v = sz1 v) as Q1 by (intros v Hv; rewrite G1, F1 by lia; done).
      rewrite !Forall_app. split; split_and!; try done.
      + by apply (fa_ext m1 sz1).
      + by apply (fa_ext m2 sz2).
      + constructor; [|done]. eapply Hty; try done.
        * intros d Hdd. specialize (Hk d (or_intror Hdd)). rewrite G1, F1, D1 by lia. done.
        * destruct a' as [ka v|]; [|done]. destruct D4 as [-> ?]. split; [|done]. symmetry. apply Q1. apply A3. simpl. set_solver.
        * by rewrite C2.
        * intros Hc. by rewrite (A4 Hc).
      + eapply fa_mono; [|exact D3]. lia.
      + eapply fa_mono; [|exact F3']. lia.
      + constructor; [|done]. intros v [Hv|Hv].
        * rewrite Hu, elem_of_app in Hv. destruct Hv as [Hv|Hv]; [|by apply C3]. specialize (A3 v Hv). lia.
        * rewrite Hd in Hv. specialize (Hk v (or_intror Hv)). lia. }
  destruct i as [op uns k d a b|op k d a|uns k d a|k d a|uns cd d a b|a|uns cd a b]; cbn [tweak1] in H.
  - destruct (tmp_mov (big a) m a) as [[l1 a'] m1] eqn:E1. destruct (tmp_mov (big b) m1 b) as [[l2 b'] m2] eqn:E2.
    destruct (tmp_mov (needs_reg op && is_con b') m2 b') as [[l3 b''] m3] eqn:E3. injection H as <- <-.
    apply (Htwo (VBop op uns k d) a b (needs_reg op)) with m1 b' m2; try done.
    + intros a0 b0 Ha0 Hfa Hfb Hnr. cbn [two prepared] in *. subst a. specialize (Ha0 eq_refl). subst a0.
      split_and!; try done. intros [-> | [-> | ->]]; by apply Hnr.
    + intros e e2 a0 b0 e' o He Hs1 Hv1 Hs2 Hv2 Hx. cbn [exec1] in *. rewrite Hv1, Hv2.
      destruct (bop_val _ _ _ _ _); [|done]. cbn [mbind option_bind] in *. injection Hx as <- <-. eexists. split; [done|]. by apply eqv_assign.
    + intros sz Ht. cbn [typed] in Ht. tauto.
    + intros sz sz1 a0 b0 Ht Hd Sa Sb Va Vb _. cbn [typed] in *. rewrite (Hd d eq_refl). destruct_and!. split_and!; try done; congruence || (intros; rewrite Vb; auto).
  - destruct (tmp_mov (big a) m a) as [[l1 a'] m1] eqn:E1. injection H as <- <-.
    apply (Hone (VUop op k d) a); try done.
    + intros a0 Ha0 _. cbn [two prepared] in *. subst a. by apply Ha0.
    + intros e e2 a0 e' o He Hs1 Hv1 Hx. cbn [exec1] in *. rewrite Hv1. injection Hx as <- <-. eexists. split; [done|]. by apply eqv_assign.
    + intros sz Ht. cbn [typed] in Ht. tauto.
    + intros sz sz1 a0 Ht Hd Sa Va _. cbn [typed] in *. rewrite (Hd d eq_refl). destruct_and!. split_and!; try done; congruence.
  - destruct (tmp_mov (big a) m a) as [[l1 a'] m1] eqn:E1. injection H as <- <-.
    apply (Hone (VCast uns k d) a); try done.
    + intros e e2 a0 e' o He Hs1 Hv1 Hx. cbn [exec1] in *. rewrite Hv1, Hs1. injection Hx as <- <-. eexists. split; [done|]. by apply eqv_assign.
    + intros sz Ht. cbn [typed] in Ht. tauto.
    + intros sz sz1 a0 Ht Hd Sa Va Hc. cbn [typed] in *. rewrite (Hd d eq_refl). destruct_and!. split_and!; try done; [congruence|by apply Hc].
  - injection H as <- <-. split.
    + done.
    + by repeat constructor.
    + intros _. by repeat constructor.
    + intros e e2 e' o He Hx. destruct (exec1_eqv n0 _ e e2 e' o He Hk Hx) as (e3 & X3 & V3). exists e3. split; [by apply exec_one|done].
    + intros P v HP [Hv|Hv]; [by left|by right].
    + intros sz Ht. exists sz. split; [done|]. split; constructor; try done. by eapply known_mono.
  - destruct (tmp_mov (big a) m a) as [[l1 a'] m1] eqn:E1. destruct (tmp_mov (big b) m1 b) as [[l2 b'] m2] eqn:E2. injection H as <- <-.
    change [VCond uns cd d a' b'] with ([] ++ [VCond uns cd d a' b']).
    apply (Htwo (VCond uns cd d) a b false) with m1 b' m2; try done.
    + intros e e2 a0 b0 e' o He Hs1 Hv1 Hs2 Hv2 Hx. cbn [exec1] in *. rewrite Hv1, Hv2, Hs1. injection Hx as <- <-. eexists. split; [done|]. by apply eqv_assign.
    + intros sz Ht. cbn [typed] in Ht. tauto.
    + intros sz sz1 a0 b0 Ht Hd Sa Sb Va Vb Hc. cbn [typed] in *. rewrite (Hd d eq_refl). destruct_and!. split_and!; try done; [congruence|by apply Hc].
  - destruct (tmp_mov (big a) m a) as [[l1 a'] m1] eqn:E1. injection H as <- <-.
    apply (Hone VResult a); try done.
    + intros e e2 a0 e' o He Hs1 Hv1 Hx. cbn [exec1] in *. rewrite Hv1. injection Hx as <- <-. eexists. split; done.
  - destruct (tmp_mov (big a) m a) as [[l1 a'] m1] eqn:E1. destruct (tmp_mov (big b) m1 b) as [[l2 b'] m2] eqn:E2. injection H as <- <-.
    change [VJmp uns cd a' b'] with ([] ++ [VJmp uns cd a' b']).
    apply (Htwo (VJmp uns cd) a b false) with m1 b' m2; try done.
    + intros e e2 a0 b0 e' o He Hs1 Hv1 Hs2 Hv2 Hx. cbn [exec1] in *. rewrite Hv1, Hv2, Hs1. injection Hx as <- <-. eexists. split; done.
    + intros sz Ht. cbn [typed] in Ht. tauto.
    + intros sz sz1 a0 b0 Ht Hd Sa Sb Va Vb Hc. cbn [typed] in *. destruct_and!. split_and!; try done; [congruence|by apply Hc].
Qed.

Lemma live_known n (l : list vir) (L : nat -> Prop) v : Forall (known n) l -> (forall v, L v -> (v < n)%nat) -> live_before l L v -> (v < n)%nat.
Proof.
  revert v. induction l as [|i l IH]; intros v Hk HL Hv; [by apply HL|].
  apply Forall_cons in Hk as [Hk1 Hk]. destruct Hv as [Hv|[Hv _]]; [apply Hk1; by left|by apply IH].
Qed.
Lemma live_mono (l : list vir) (L L' : nat -> Prop) v : (forall v, L v -> L' v) -> live_before l L v -> live_before l L' v.
Proof.
  intros H. revert v. induction l as [|i l IH]; intros v Hv; [by apply H|].
  destruct Hv as [Hv|[Hv Hd]]; [by left|right]. split; [by apply IH|done].
Qed.

Lemma tweak_list_ok n0 l : forall m, (n0 <= m)%nat -> Forall (known n0) l -> Forall two l ->
  Forall prepared (tweak_list m l) /\ (straight l -> straight (tweak_list m l)) /\
  (forall e e2 e' o, eqv n0 e e2 -> exec l e = Some (e', o) -> exists e2', exec (tweak_list m l) e2 = Some (e2', o) /\ eqv n0 e' e2') /\
  (forall (L : nat -> Prop) v, (forall v, L v -> (v < n0)%nat) -> live_before (tweak_list m l) L v -> live_before l L v) /\
  (forall sz, Forall (typed sz) l -> exists sz', (forall v, (v < m)%nat -> sz' v = sz v) /\ Forall (typed sz') (tweak_list m l)).
Proof.
  induction l as [|i l IH]; intros m Hm Hk H2.
  - simpl. split_and!; try done.
    + intros e e2 e' o He Hx. injection Hx as <- <-. by exists e2.
    + intros sz _. exists sz. split; [done|constructor].
  - apply Forall_cons in Hk as [Hk1 Hk]. apply Forall_cons in H2 as [H21 H2].
    simpl. destruct (tweak1 m i) as [l1 m'] eqn:E1.
    destruct (tweak1_ok n0 m i l1 m' E1 Hm Hk1 H21) as [Hle Hp Hs Hx Hl Ht].
    destruct (IH m' ltac:(lia) Hk H2) as (I1 & I2 & I3 & I4 & I5). split_and!.
    + by apply Forall_app.
    + intros [S1 S2]%Forall_cons. apply Forall_app. split; [by apply Hs|by apply I2].
    + intros e e2 e' o He Hex. destruct (exec1 i e) as [[e1 o1]|] eqn:X1; [|done]. cbn [mbind option_bind fst snd] in Hex.
      destruct (exec l e1) as [[e3 o3]|] eqn:X3; [|done]. cbn [mbind option_bind fst snd] in Hex. injection Hex as <- <-.
      destruct (Hx e e2 e1 o1 He X1) as (e4 & X4 & V4). destruct (I3 e1 e4 e3 o3 V4 X3) as (e5 & X5 & V5).
      exists e5. split; [|done]. by eapply exec_app.
    + intros L v HL Hv. rewrite live_app in Hv.
      assert (forall v, live_before (tweak_list m' l) L v -> live_before l L v) as I4' by (intros v0; by apply I4).
      apply (live_mono _ _ _ _ I4') in Hv. apply Hl in Hv; [done|]. intros v0. by apply live_known.
    + intros sz [T1 T2]%Forall_cons. destruct (Ht sz T1) as (sz1 & A1 & A2 & A3).
      destruct (I5 sz1) as (sz2 & B1 & B2); [apply (fa_ext n0 sz); [intros v Hv; apply A1; lia|done|done]|].
      exists sz2. split; [intros v Hv; rewrite B1, A1 by lia; done|].
      apply Forall_app. split; [|done]. by apply (fa_ext m' sz1).
Qed.

Lemma to2_live i (L : nat -> Prop) v : live_before (to2 i) L v -> v ∈ uses i \/ (L v /\ dest i <> Some v).
Proof.
  destruct i as [op uns k d a b|op k d a|uns k d a|k d a|uns cd d a b|a|uns cd a b];
    cbn [to2 live_before uses dest opr_vreg]; try tauto.
  - rewrite !elem_of_app, elem_of_list_singleton. intros [?|[[[->|?]|[? ?]] Hd]]; try tauto.
  - rewrite elem_of_list_singleton. intros [?|[[->|[? ?]] Hd]]; try tauto.
Qed.
Lemma convert_live l (L : nat -> Prop) v : live_before (convert l) L v -> live_before l L v.
Proof.
  revert v. induction l as [|i l IH]; intros v; [done|]. rewrite convert_cons, live_app. intros Hv.
  apply to2_live. by eapply live_mono; [|exact Hv].
Qed.

Lemma tweak_same sz n l e e' o : Forall (typed sz) l -> Forall second_free l -> Forall (known n) l ->
  exec l e = Some (e', o) ->
  exists e2, exec (tweak n l) e = Some (e2, o) /\ forall v, (v < n)%nat -> e2 v = e' v.
Proof.
  intros Ht Hs Hk Hx.
  destruct (convert_ok sz n l e e e' o Ht Hs Hk ltac:(done) Hx) as (e1 & X1 & V1).
  destruct (convert_facts sz n l Ht Hk) as (A1 & A2 & A3 & A4).
  destruct (tweak_list_ok n (convert l) n ltac:(lia) A2 A3) as (_ & _ & B3 & _).
  destruct (B3 e e e1 o ltac:(done) X1) as (e2 & X2 & V2). exists e2. split; [exact X2|].
  intros v Hv. rewrite V2 by done. by apply V1.
Qed.
Lemma tweak_prepared sz n l : Forall (typed sz) l -> Forall (known n) l ->
  Forall prepared (tweak n l) /\ exists sz', (forall v, (v < n)%nat -> sz' v = sz v) /\ Forall (typed sz') (tweak n l).
Proof.
  intros Ht Hk. destruct (convert_facts sz n l Ht Hk) as (A1 & A2 & A3 & A4).
  destruct (tweak_list_ok n (convert l) n ltac:(lia) A2 A3) as (B1 & _ & _ & _ & B5). split; [done|]. by apply B5.
Qed.
Lemma code_ok sz ph n l (L : nat -> Prop) e e' o s :
  Forall (typed sz) l -> Forall second_free l -> Forall (known n) l -> straight l -> (forall v, L v -> (v < n)%nat) ->
  fits ph (tweak n l) L -> exec l e = Some (e', o) -> agree sz ph (live_before l L) e s ->
  exists c s', emit_list ph (tweak n l) = Some c /\ run 0 c s = Some (false, s') /\ agree sz ph L e' s' /\
  fregs s' = fregs s /\ stk s' = stk s.
Proof.
  intros Ht Hs Hk Hst HL Hf Hx Ha.
  destruct (tweak_same sz n l e e' o Ht Hs Hk Hx) as (e2 & X2 & V2).
  destruct (tweak_prepared sz n l Ht Hk) as (Hp & sz' & Hsz & Ht').
  destruct (convert_facts sz n l Ht Hk) as (A1 & A2 & A3 & A4).
  destruct (tweak_list_ok n (convert l) n ltac:(lia) A2 A3) as (_ & B2 & _ & B4 & _).
  destruct (block_ok sz' ph (tweak n l) L e e2 o s Ht' Hp (B2 (A4 Hst)) Hf X2) as (c & s' & C1 & C2 & C3 & C4).
  { intros v Hv. apply B4 in Hv; [|done]. pose proof (live_known n (convert l) L v A2 HL Hv) as Hlt.
    apply convert_live in Hv. rewrite Hsz by done. by apply Ha. }
  exists c, s'. split; [done|]. split; [done|]. split; [|done].
  intros v Hv. specialize (C3 v Hv). rewrite Hsz in C3 by (by apply HL). rewrite V2 in C3 by (by apply HL). exact C3.
Qed.
