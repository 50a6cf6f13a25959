From stdpp Require Import base list numbers sorting.
From Coq Require Import Lia.
From Verif Require Import Back.Flow_model Back.Flow_spec Back.Flow_proof.
Open Scope nat_scope.

Definition I (st : list sets) (b : nat) : list nat := default [] (ins <$> st !! b).
Definition O_ (st : list sets) (b : nat) : list nat := default [] (outs <$> st !! b).
Definition A (st : list sets) (b : nat) : list nat := default [] (assigned <$> st !! b).
Definition all_ok (st : list sets) : Prop := forall b s, st !! b = Some s -> set_ok s.

Section at_insert.
  Context (st : list sets) (b : nat) (s s' : sets).
  Hypothesis Hb : st !! b = Some s.
  Lemma I_insert c : I (<[b := s']> st) c = if decide (c = b) then ins s' else I st c.
  Proof. unfold I. case_decide as E; [subst; by rewrite list_lookup_insert by (by apply lookup_lt_Some in Hb)|]. by rewrite list_lookup_insert_ne by done. Qed.
  Lemma O_insert c : O_ (<[b := s']> st) c = if decide (c = b) then outs s' else O_ st c.
  Proof. unfold O_. case_decide as E; [subst; by rewrite list_lookup_insert by (by apply lookup_lt_Some in Hb)|]. by rewrite list_lookup_insert_ne by done. Qed.
  Lemma A_insert c : A (<[b := s']> st) c = if decide (c = b) then assigned s' else A st c.
  Proof. unfold A. case_decide as E; [subst; by rewrite list_lookup_insert by (by apply lookup_lt_Some in Hb)|]. by rewrite list_lookup_insert_ne by done. Qed.
  Lemma all_insert : all_ok st -> set_ok s' -> all_ok (<[b := s']> st).
  Proof.
    intros Ha Hs c x Hx. destruct (decide (c = b)) as [->|Hne].
    - rewrite list_lookup_insert in Hx by (by apply lookup_lt_Some in Hb). by injection Hx as <-.
    - rewrite list_lookup_insert_ne in Hx by done. by apply (Ha c).
  Qed.
End at_insert.

(** [v] was propagated to block [a]. *)
Definition sat (st : list sets) (v a : nat) : Prop := v ∈ O_ st a /\ (v ∈ A st a \/ v ∈ I st a).
(** From [st] to [st'] only [v] was added. *)
Record grows (v : nat) (st st' : list sets) : Prop := {
  g_len : length st' = length st;
  g_ok : all_ok st -> all_ok st';
  g_A : forall b, A st' b = A st b;
  g_I : forall b x, x ∈ I st b -> x ∈ I st' b;
  g_O : forall b x, x ∈ O_ st b -> x ∈ O_ st' b;
  g_Inew : forall b x, x ∈ I st' b -> x ∈ I st b \/ x = v;
  g_Onew : forall b x, x ∈ O_ st' b -> x ∈ O_ st b \/ x = v;
  g_same : forall b, v ∈ I st b -> I st' b = I st b;
}.
Lemma grows_refl v st : grows v st st.
Proof. split; tauto. Qed.
Lemma grows_trans v a b c : grows v a b -> grows v b c -> grows v a c.
Proof.
  intros [] []; split.
  - congruence.
  - auto.
  - congruence.
  - auto.
  - auto.
  - intros x y Hy. destruct (g_Inew1 x y Hy) as [H|H]; [by apply g_Inew0|by right].
  - intros x y Hy. destruct (g_Onew1 x y Hy) as [H|H]; [by apply g_Onew0|by right].
  - intros x Hx. rewrite g_same1; [by apply g_same0|by apply g_I0].
Qed.
Lemma sat_grows v st st' a : grows v st st' -> sat st v a -> sat st' v a.
Proof. intros [] [H1 H2]. split; [by apply g_O0|]. rewrite g_A0. destruct H2 as [H2|H2]; [by left|right; by apply g_I0]. Qed.
Lemma sat_grows' v x st st' a : grows v st st' -> sat st x a -> sat st' x a.
Proof. intros [] [H1 H2]. split; [by apply g_O0|]. rewrite g_A0. destruct H2 as [H2|H2]; [by left|right; by apply g_I0]. Qed.

Definition pot (from : list (list nat)) (v : nat) (st : list sets) : nat :=
  sum (imap (fun a f => if decide (v ∈ I st a) then 0 else length f) from).
Lemma pot_le from v st st' : (forall b x, x ∈ I st b -> x ∈ I st' b) -> pot from v st' <= pot from v st.
Proof. intros H. apply sum_le. intros i x Hx. repeat case_decide; try lia. naive_solver. Qed.
Lemma pot_max from v st : pot from v st <= sum (length <$> from).
Proof.
  unfold pot. replace (length <$> from) with (imap (fun (_ : nat) (f : list nat) => length f) from).
  - apply sum_le. intros i x Hx. case_decide; lia.
  - clear. induction from as [|x from IH]; [done|]. cbn. f_equal. rewrite <- IH. done.
Qed.

Section prop.
  Context (from : list (list nat)) (v : nat).
  Definition inside (W : list nat) : Prop := forall a, a ∈ W -> a < length from.
  Hypothesis Hin : forall b f, from !! b = Some f -> inside f.
  Context (P Q : nat -> Prop).

  Lemma propagate_ok fuel : forall W st, length st = length from -> all_ok st -> inside W ->
    length W + pot from v st <= fuel ->
    exists st', propagate fuel from v W st = Some st' /\ grows v st st' /\
      (forall a, a ∈ W -> sat st' v a) /\
      (forall b f a, v ∈ I st' b -> v ∉ I st b -> from !! b = Some f -> a ∈ f -> sat st' v a) /\
      ((forall a, a ∈ W -> Q a) -> (forall a, Q a -> v ∉ A st a -> P a) ->
       (forall b f a, P b -> from !! b = Some f -> a ∈ f -> Q a) ->
       (forall b, v ∈ I st' b -> v ∈ I st b \/ P b) /\ (forall b, v ∈ O_ st' b -> v ∈ O_ st b \/ Q b)).
  Proof.
    induction fuel as [|fuel IH]; intros W st Hlen Hok HW Hf.
    - destruct W as [|b W]; [|cbn in Hf; lia]. exists st. cbn. split; [done|]. split; [apply grows_refl|].
      split; [by intros a ?%elem_of_nil|]. split; [done|]. intros _ _ _. split; tauto.
    - destruct W as [|b W].
      { exists st. cbn. split; [done|]. split; [apply grows_refl|].
        split; [by intros a ?%elem_of_nil|]. split; [done|]. intros _ _ _. split; tauto. }
      cbn [propagate].
      assert (Hb : b < length from) by (apply HW; by left).
      destruct (lookup_lt_is_Some_2 st b ltac:(lia)) as [s Hs]. rewrite Hs. cbn [mbind option_bind].
      destruct (Hok b s Hs) as (Ki & Ko & Ka).
      destruct (insert_ok (outs s) v Ko) as (o & bo & -> & Hso & Hino & _). cbn [mbind option_bind fst].
      set (s1 := Sets (ins s) o (assigned s)). set (st1 := <[b := s1]> st).
      assert (EI : I st b = ins s) by (unfold I; by rewrite Hs).
      assert (EO : O_ st b = outs s) by (unfold O_; by rewrite Hs).
      assert (EA : A st b = assigned s) by (unfold A; by rewrite Hs).
      assert (G1 : grows v st st1).
      { split.
        - by apply insert_length.
        - intros _. by apply (all_insert st b s s1 Hs).
        - intros c. unfold st1. rewrite (A_insert st b s s1 Hs). case_decide; [by subst|done].
        - intros c x. unfold st1. rewrite (I_insert st b s s1 Hs). case_decide; [subst; by rewrite EI|done].
        - intros c x. unfold st1. rewrite (O_insert st b s s1 Hs). case_decide; [subst; rewrite EO; intros; apply Hino; by right|done].
        - intros c x. unfold st1. rewrite (I_insert st b s s1 Hs). case_decide; [subst; rewrite EI; by left|by left].
        - intros c x. unfold st1. rewrite (O_insert st b s s1 Hs). case_decide; [subst; rewrite EO; intros [?|?]%Hino; tauto|by left].
        - intros c. unfold st1. rewrite (I_insert st b s s1 Hs). case_decide; [subst; by rewrite EI|done]. }
      assert (Hlen1 : length st1 = length from) by (rewrite (g_len _ _ _ G1); done).
      assert (Hok1 : all_ok st1) by (by apply (g_ok _ _ _ G1)).
      assert (Hs1 : st1 !! b = Some s1) by (unfold st1; rewrite list_lookup_insert; [done|lia]).
      assert (HW' : inside W) by (intros a Ha; apply HW; by right).
      assert (HO1 : v ∈ O_ st1 b) by (unfold O_; rewrite Hs1; cbn; apply Hino; by left).
      assert (HI1 : forall c, I st1 c = I st c).
      { intros c. unfold st1. rewrite (I_insert st b s s1 Hs). case_decide; [by subst|done]. }
      assert (HO1' : forall c, v ∈ O_ st1 c -> v ∈ O_ st c \/ c = b).
      { intros c. unfold st1. rewrite (O_insert st b s s1 Hs). case_decide; tauto. }
      assert (Hpot1 : pot from v st1 <= pot from v st) by (apply pot_le; intros; by rewrite HI1).
      cbn in Hf.
      assert (Hskip : (v ∈ A st b \/ v ∈ I st b) -> exists st', propagate fuel from v W st1 = Some st' /\ grows v st st' /\
        (forall a, a ∈ b :: W -> sat st' v a) /\
        (forall b f a, v ∈ I st' b -> v ∉ I st b -> from !! b = Some f -> a ∈ f -> sat st' v a) /\
        ((forall a, a ∈ b :: W -> Q a) -> (forall a, Q a -> v ∉ A st a -> P a) ->
         (forall b f a, P b -> from !! b = Some f -> a ∈ f -> Q a) ->
         (forall b, v ∈ I st' b -> v ∈ I st b \/ P b) /\ (forall b, v ∈ O_ st' b -> v ∈ O_ st b \/ Q b))).
      { intros Hav. destruct (IH W st1 Hlen1 Hok1 HW' ltac:(lia)) as (st' & E & G & S1 & S2 & S3).
        exists st'. split; [done|]. split; [by apply (grows_trans v st st1)|]. split; [|split].
        - intros a Ha. apply elem_of_cons in Ha as [->|Ha]; [|by apply S1]. apply (sat_grows v st1); [done|]. split; [done|].
          rewrite (g_A _ _ _ G1), HI1. done.
        - intros c f a H1 H2. apply S2; [done|]. by rewrite HI1.
        - intros T1 T2 T3. destruct S3 as [S3 S4].
          + intros a Ha. apply T1. by right.
          + intros a Ha. rewrite (g_A _ _ _ G1). by apply T2.
          + done.
          + split; [intros c Hc; rewrite <- HI1; by apply S3|]. intros c Hc. destruct (S4 c Hc) as [H|H]; [|by right].
            destruct (HO1' c H) as [H'|H']; [by left|]. right. subst c. apply T1. by left. }
      fold s1. fold st1. change (assigned s1) with (assigned s). change (ins s1) with (ins s).
      case_decide as Hd.
      { apply Hskip. left. by rewrite EA. }
      destruct (insert_ok (ins s) v Ki) as (w & bw & -> & Hsw & Hinw & Htrue & Hfalse). destruct bw.
      2: { apply Hskip. right. rewrite EI. by apply Hfalse. }
      specialize (Htrue eq_refl).
      destruct (lookup_lt_is_Some_2 from b Hb) as [f Hfb]. rewrite Hfb. cbn [mbind option_bind].
      set (s2 := Sets w (outs s1) (assigned s)). set (st2 := <[b := s2]> st1).
      assert (G2 : grows v st1 st2).
      { split.
        - by apply insert_length.
        - intros _. by apply (all_insert st1 b s1 s2 Hs1).
        - intros c. unfold st2. rewrite (A_insert st1 b s1 s2 Hs1). case_decide; [subst; unfold A; by rewrite Hs1|done].
        - intros c x. unfold st2. rewrite (I_insert st1 b s1 s2 Hs1). case_decide; [subst; rewrite HI1, EI; intros; apply Hinw; by right|done].
        - intros c x. unfold st2. rewrite (O_insert st1 b s1 s2 Hs1). case_decide; [subst; unfold O_; by rewrite Hs1|done].
        - intros c x. unfold st2. rewrite (I_insert st1 b s1 s2 Hs1). case_decide; [subst; rewrite HI1, EI; intros [?|?]%Hinw; tauto|by left].
        - intros c x. unfold st2. rewrite (O_insert st1 b s1 s2 Hs1). case_decide; [subst; unfold O_; rewrite Hs1; by left|by left].
        - intros c. unfold st2. rewrite (I_insert st1 b s1 s2 Hs1). case_decide; [subst; rewrite HI1, EI; done|done]. }
      assert (HI2 : forall c, v ∈ I st2 c -> v ∈ I st c \/ c = b).
      { intros c. unfold st2. rewrite (I_insert st1 b s1 s2 Hs1). case_decide; [tauto|]. rewrite HI1. tauto. }
      assert (HIb : v ∈ I st2 b).
      { unfold st2. rewrite (I_insert st1 b s1 s2 Hs1). rewrite decide_True by done. apply Hinw. by left. }
      assert (HO2 : forall c, O_ st2 c = O_ st1 c).
      { intros c. unfold st2. rewrite (O_insert st1 b s1 s2 Hs1). case_decide; [subst; unfold O_; by rewrite Hs1|done]. }
      assert (Hpot2 : pot from v st2 + length f <= pot from v st).
      { unfold pot. pose proof (sum_dec from (fun a f => if decide (v ∈ I st2 a) then 0 else length f)
          (fun a f => if decide (v ∈ I st a) then 0 else length f) b f Hfb) as Hd2.
        cbv beta in Hd2. rewrite (decide_True (P := v ∈ I st2 b)) in Hd2 by done.
        rewrite (decide_False (P := v ∈ I st b)) in Hd2 by (by rewrite EI). apply Hd2; [done|].
        intros i x Hx. repeat case_decide; try lia. exfalso. naive_solver (eauto using (g_I _ _ _ G1), (g_I _ _ _ G2)). }
      destruct (IH (reverse f ++ W) st2) as (st' & E & G & S1 & S2 & S3).
      + rewrite (g_len _ _ _ G2). done.
      + by apply (g_ok _ _ _ G2).
      + intros a Ha. apply elem_of_app in Ha as [Ha|Ha]; [apply (Hin b f Hfb); by apply elem_of_reverse|by apply HW'].
      + rewrite app_length, reverse_length. lia.
      + exists st'. split; [done|]. split; [apply (grows_trans v st st1); [done|by apply (grows_trans v st1 st2)]|]. split; [|split].
        * intros a Ha. apply elem_of_cons in Ha as [->|Ha]; [|apply S1, elem_of_app; by right].
          apply (sat_grows v st2); [done|]. split; [by rewrite HO2|by right].
        * intros c g a H1 H2 H3 H4. destruct (decide (c = b)) as [->|Hne].
          -- assert (g = f) as -> by congruence. apply S1, elem_of_app. left. by apply elem_of_reverse.
          -- apply (S2 c g a H1); [|done..]. intros H. apply HI2 in H. tauto.
        * intros T1 T2 T3.
          assert (Pb : P b). { apply T2; [apply T1; by left|]. rewrite EA. done. }
          destruct S3 as [S3 S4].
          -- intros a Ha. apply elem_of_app in Ha as [Ha|Ha]; [apply (T3 b f a Pb Hfb); by apply elem_of_reverse|apply T1; by right].
          -- intros a Ha. rewrite (g_A _ _ _ G2), (g_A _ _ _ G1). by apply T2.
          -- done.
          -- split.
             ++ intros c Hc. destruct (S3 c Hc) as [H|H]; [|by right]. destruct (HI2 c H) as [H'|H']; [by left|]. right. by subst c.
             ++ intros c Hc. destruct (S4 c Hc) as [H|H]; [|by right]. rewrite HO2 in H. destruct (HO1' c H) as [H'|H']; [by left|].
                right. subst c. apply T1. by left.
  Qed.
End prop.
