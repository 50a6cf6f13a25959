From stdpp Require Import base list numbers.
From Verif Require Import Lib.Stdout_model Lib.Stdout_spec.
Local Open Scope Z_scope.

Definition wf (s : st) : Prop := writable s.1 = true /\ (0 < wcapa s.1)%nat /\ (length (wbuf s.1) <= wcapa s.1)%nat.
(** Everything taken so far. *)
Definition total (s : st) : list Z := written s.2 ++ wbuf s.1.

Lemma full_no_short es : all_full es -> no_short es.
Proof. intros H. eapply List.Forall_impl; [|exact H]. by intros ? ->. Qed.

Lemma fflush_spec s s' ok : wf s -> fflush s = (s', ok) ->
  wf s' /\ wcapa s'.1 = wcapa s.1 /\ binary s'.1 = binary s.1 /\
  (ok = true -> wbuf s'.1 = []) /\
  (no_short (answers s.2) -> total s' = total s /\ no_short (answers s'.2)) /\
  (all_full (answers s.2) -> ok = true /\ all_full (answers s'.2)).
Proof.
  destruct s as [f o]. intros (Hw & Hc & Hl) H. unfold fflush in H. simpl in Hw, Hc, Hl. rewrite Hw in H.
  destruct (wbuf f) as [|b bs] eqn:Eb.
  { injection H as <- <-. cbn [fst snd]. split.
    { split_and!; cbn [fst snd]; [done|done|]. rewrite Eb. simpl. lia. }
    split_and!; done. }
  rewrite <- Eb in *. assert (Hne : wbuf f <> []) by (rewrite Eb; done).
  unfold os_write in H. destruct (answers o) as [|[|k|] es] eqn:Ea.
  - rewrite decide_False in H by tauto. injection H as <- <-. simpl. unfold total. simpl. rewrite Ea.
    split; [repeat split; simpl; try done; lia|].
    split_and!; try done. intros _. split; [by rewrite app_nil_r|constructor].
  - rewrite decide_False in H by tauto. injection H as <- <-. simpl. unfold total. simpl. rewrite Ea.
    split; [repeat split; simpl; try done; lia|].
    split_and!; try done.
    + intros Hn. apply Forall_cons_1 in Hn as [_ Hn]. by rewrite app_nil_r.
    + intros Hn. apply Forall_cons_1 in Hn as [_ Hn]. done.
  - rewrite decide_True in H.
    2:{ assert (length (wbuf f) <> 0%nat) by (by destruct (wbuf f)). lia. }
    injection H as <- <-. simpl. rewrite Ea.
    split; [repeat split; simpl; try done; lia|]. split_and!; try done; simpl.
    + intros Hn. by apply Forall_cons_1 in Hn as [? _].
    + intros Hn. by apply Forall_cons_1 in Hn as [? _].
  - rewrite decide_True in H by lia. injection H as <- <-. simpl. rewrite Ea.
    split; [repeat split; simpl; try done; lia|]. split_and!; try done; simpl.
    + intros Hn. by apply Forall_cons_1 in Hn as [_ ?].
    + intros Hn. by apply Forall_cons_1 in Hn as [? _].
Qed.

Definition no_newline (l : list Z) : Prop := Forall (fun c => c <> 10) l.

Lemma loop_spec buf : forall s i, wf s -> (length (wbuf s.1) < wcapa s.1)%nat ->
  exists s' r, fwrite_loop s buf i = Some (s', i + r) /\ wf s' /\
    wcapa s'.1 = wcapa s.1 /\ binary s'.1 = binary s.1 /\
    0 <= r <= Z.of_nat (length buf) /\
    (no_short (answers s.2) -> no_short (answers s'.2) /\
       exists k, (k = Z.to_nat r \/ k = S (Z.to_nat r) /\ r < Z.of_nat (length buf)) /\
         total s' = total s ++ take k buf) /\
    (all_full (answers s.2) -> r = Z.of_nat (length buf) /\ all_full (answers s'.2) /\
       (length (wbuf s'.1) < wcapa s'.1)%nat /\
       (binary s.1 = false -> no_newline (wbuf s.1) -> no_newline (wbuf s'.1)) /\
       total s' = total s ++ buf).
Proof.
  induction buf as [|c buf IH]; intros s i Hwf Hlt.
  - exists s, 0. rewrite Z.add_0_r. split_and!; try done.
    + intros Hn. split; [done|]. exists 0%nat. split; [by left|]. by rewrite app_nil_r.
    + intros H. split; [done|]. split; [done|]. split; [done|]. split; [done|]. by rewrite app_nil_r.
  - cbn [fwrite_loop]. destruct s as [f o]. simpl in Hlt. rewrite decide_True by done.
    destruct Hwf as (Hw & Hc & Hl). simpl in Hw, Hc, Hl.
    cbn [wbuf wcapa binary writable].
    set (f1 := OFile (wbuf f ++ [c]) (wcapa f) (binary f) (writable f)).
    assert (Hwf1 : wf (f1, o)).
    { split_and!; [done|done|]. unfold f1. simpl. rewrite app_length. simpl. lia. }
    assert (Htot1 : total (f1, o) = total (f, o) ++ [c]).
    { unfold total, f1. simpl. by rewrite app_assoc. }
    match goal with |- context [if ?b then _ else _] => destruct b eqn:Econd end.
    + destruct (fflush (f1, o)) as [s1 ok] eqn:Ef.
      apply fflush_spec in Ef as (Hwf' & Hcap & Hbin & Hempty & Hns & Haf); [|done].
      cbn [fst snd] in *.
      destruct ok.
      * specialize (Hempty eq_refl).
        destruct (IH s1 (i + 1) Hwf') as (s2 & r & Hrun & Hwf2 & Hcap2 & Hbin2 & Hr & Hns2 & Haf2).
        { rewrite Hempty. destruct Hwf' as (_ & ? & _). done. }
        exists s2, (1 + r). rewrite Hrun. split; [do 2 f_equal; lia|].
        split; [done|]. split; [by rewrite Hcap2, Hcap|]. split; [by rewrite Hbin2, Hbin|]. split; [simpl; lia|]. split.
        -- intros Hn. specialize (Hns Hn) as [Ht1 Hn1]. specialize (Hns2 Hn1) as (Hn2 & k & Hk & Ht2).
           split; [done|]. exists (S k). split.
           ++ destruct Hk as [->|[-> ?]]; [left; lia|right; split; [lia|simpl; lia]].
           ++ rewrite Ht2, Ht1, Htot1. by rewrite <- app_assoc.
        -- intros Hn. specialize (Haf Hn) as [_ Hn1].
           assert (Hnn : no_short (answers o)).
           { by apply full_no_short. }
           specialize (Hns Hnn) as [Ht1 _].
           specialize (Haf2 Hn1) as (-> & Hn2 & Hl2 & Hnl & Ht2).
           split_and!; [simpl; lia|done|done| |].
           ++ intros Hb _. apply Hnl; [by rewrite Hbin|]. rewrite Hempty. constructor.
           ++ rewrite Ht2, Ht1, Htot1. by rewrite <- app_assoc.
      * exists s1, 0. rewrite Z.add_0_r. split; [done|]. split; [done|]. split; [done|]. split; [done|].
        split; [simpl; lia|]. split.
        -- intros Hn. specialize (Hns Hn) as [Ht1 Hn1]. split; [done|]. exists 1%nat.
           split; [right; simpl; lia|]. rewrite Ht1, Htot1. done.
        -- intros Hn. specialize (Haf Hn) as [? _]. done.
    + apply orb_false_elim in Econd as [Ec1 Ec2]. 
      assert (Hlt1 : (length (wbuf f1) < wcapa f1)%nat).
      { apply bool_decide_eq_false in Ec1. unfold f1. simpl in *. lia. }
      destruct (IH (f1, o) (i + 1) Hwf1 Hlt1) as (s2 & r & Hrun & Hwf2 & Hcap2 & Hbin2 & Hr & Hns2 & Haf2).
      exists s2, (1 + r). rewrite Hrun. split; [do 2 f_equal; lia|].
      split; [done|]. split; [done|]. split; [done|]. split; [simpl; lia|]. cbn [fst snd] in *. split.
      * intros Hn. specialize (Hns2 Hn) as (Hn2 & k & Hk & Ht2).
        split; [done|]. exists (S k). split.
        -- destruct Hk as [->|[-> ?]]; [left; lia|right; split; [lia|simpl; lia]].
        -- rewrite Ht2, Htot1. by rewrite <- app_assoc.
      * intros Hn. specialize (Haf2 Hn) as (-> & Hn2 & Hl2 & Hnl & Ht2).
        split_and!; [simpl; lia|done|done| |].
        -- intros Hb Hnn. apply Hnl; [done|]. unfold f1. simpl. apply Forall_app. split; [done|].
           apply List.Forall_cons; [|done]. rewrite Hb in Ec2. simpl in Ec2. rewrite andb_true_r in Ec2.
           by apply bool_decide_eq_false in Ec2.
        -- rewrite Ht2, Htot1. by rewrite <- app_assoc.
Qed.

Lemma fwrite_spec s d : wf s ->
  exists s' r, fwrite s 1 d = Some (s', r) /\ wf s' /\
    wcapa s'.1 = wcapa s.1 /\ binary s'.1 = binary s.1 /\
    0 <= r <= Z.of_nat (length d) /\
    (no_short (answers s.2) -> no_short (answers s'.2) /\
       exists k, (k = Z.to_nat r \/ k = S (Z.to_nat r) /\ r < Z.of_nat (length d)) /\
         total s' = total s ++ take k d) /\
    (all_full (answers s.2) -> (length (wbuf s.1) < wcapa s.1)%nat ->
       r = Z.of_nat (length d) /\ all_full (answers s'.2) /\
       (length (wbuf s'.1) < wcapa s'.1)%nat /\
       (binary s.1 = false -> no_newline (wbuf s.1) -> no_newline (wbuf s'.1)) /\
       total s' = total s ++ d).
Proof.
  intros Hwf. unfold fwrite, fwrite1. pose proof Hwf as (Hw & Hc & Hl). rewrite Hw.
  destruct (decide (wcapa s.1 <= length (wbuf s.1))%nat) as [Hfull|Hnf].
  - destruct (fflush s) as [s1 ok] eqn:Ef.
    apply fflush_spec in Ef as (Hwf1 & Hcap1 & Hbin1 & Hempty & Hns & Haf); [|done].
    destruct ok.
    + destruct (loop_spec d s1 0 Hwf1) as (s2 & r & Hrun & Hwf2 & Hcap2 & Hbin2 & Hr & Hns2 & Haf2).
      { rewrite (Hempty eq_refl). destruct Hwf1 as (_ & ? & _). done. }
      rewrite Hrun. cbn [mbind option_bind]. rewrite (decide_True (P := 0 <= _)) by lia. rewrite decide_False by lia.
      exists s2, r. rewrite Z.add_0_l, Z.div_1_r. split_and!; try done; try congruence; try lia.
      intros Hn. specialize (Hns Hn) as [Ht1 Hn1]. specialize (Hns2 Hn1) as (? & k & ? & Ht2).
      split; [done|]. exists k. split; [done|]. by rewrite Ht2, Ht1.
    + cbn [mbind option_bind]. rewrite decide_False by lia.
      exists s1, 0. split_and!; try done; try congruence; try lia.
      intros Hn. specialize (Hns Hn) as [Ht1 Hn1]. split; [done|]. exists 0%nat. split; [by left|].
      by rewrite app_nil_r.
  - destruct (loop_spec d s 0 Hwf ltac:(lia)) as (s2 & r & Hrun & Hwf2 & Hcap2 & Hbin2 & Hr & Hns2 & Haf2).
    rewrite Hrun. cbn [mbind option_bind]. rewrite (decide_True (P := 0 <= _)) by lia. rewrite decide_False by lia.
    exists s2, r. rewrite Z.add_0_l, Z.div_1_r. split_and!; try done; try lia. intros Hn _. by apply Haf2.
Qed.

(** Never an access outside the buffer. *)
Lemma run_defined ops : forall s, wf s -> exists s' rs, run s ops = Some (s', rs) /\ wf s'.
Proof.
  induction ops as [|[d|] ops IH]; intros s Hwf; cbn [run].
  - by exists s, [].
  - destruct (fwrite_spec s d Hwf) as (s1 & r & -> & Hwf1 & _). cbn [mbind option_bind].
    destruct (IH s1 Hwf1) as (s2 & rs & -> & ?). cbn [mbind option_bind]. eauto.
  - destruct (fflush s) as [s1 ok] eqn:Ef. apply fflush_spec in Ef as (Hwf1 & _); [|done].
    destruct (IH s1 Hwf1) as (s2 & rs & -> & ?). cbn [mbind option_bind]. eauto.
Qed.

Lemma run_no_short ops : forall s s' rs, wf s -> no_short (answers s.2) -> run s ops = Some (s', rs) ->
  exists t, taken ops rs t /\ total s' = total s ++ t.
Proof.
  induction ops as [|[d|] ops IH]; intros s s' rs Hwf Hn H; cbn [run] in H.
  - injection H as <- <-. exists []. rewrite app_nil_r. split; [constructor|done].
  - destruct (fwrite_spec s d Hwf) as (s1 & r & Hf & Hwf1 & _ & _ & Hr & Hns & _).
    rewrite Hf in H. cbn [mbind option_bind] in H.
    destruct (run s1 ops) as [[s2 rs2]|] eqn:Er; [|discriminate]. cbn [mbind option_bind] in H.
    injection H as <- <-. specialize (Hns Hn) as (Hn1 & k & Hk & Ht).
    destruct (IH s1 s2 rs2 Hwf1 Hn1 Er) as (t & Htk & Ht2).
    exists (take k d ++ t). split; [constructor; [lia|done|done]|]. by rewrite Ht2, Ht, app_assoc.
  - destruct (fflush s) as [s1 ok] eqn:Ef. apply fflush_spec in Ef as (Hwf1 & _ & _ & _ & Hns & _); [|done].
    destruct (run s1 ops) as [[s2 rs2]|] eqn:Er; [|discriminate]. cbn [mbind option_bind] in H.
    injection H as <- <-. specialize (Hns Hn) as (Ht & Hn1).
    destruct (IH s1 s2 rs2 Hwf1 Hn1 Er) as (t & Htk & Ht2).
    exists t. split; [by constructor|]. by rewrite Ht2, Ht.
Qed.

Lemma run_full ops : forall s, wf s -> all_full (answers s.2) -> (length (wbuf s.1) < wcapa s.1)%nat ->
  exists s', run s ops = Some (s', results_full ops) /\ total s' = total s ++ offered ops /\
    wf s' /\ all_full (answers s'.2) /\ binary s'.1 = binary s.1 /\
    (binary s.1 = false -> no_newline (wbuf s.1) -> no_newline (wbuf s'.1)).
Proof.
  induction ops as [|[d|] ops IH]; intros s Hwf Hn Hl; cbn [run offered results_full map].
  - exists s. rewrite app_nil_r. done.
  - destruct (fwrite_spec s d Hwf) as (s1 & r & -> & Hwf1 & Hc1 & Hb1 & Hr & _ & Haf).
    cbn [mbind option_bind]. specialize (Haf Hn Hl) as (-> & Hn1 & Hl1 & Hnl & Ht).
    destruct (IH s1 Hwf1 Hn1 Hl1) as (s2 & -> & Ht2 & Hwf2 & Hn2 & Hb2 & Hnl2). cbn [mbind option_bind].
    exists s2. split_and!; try done; try congruence.
    + by rewrite Ht2, Ht, app_assoc.
    + intros Hb Hq. apply Hnl2; [congruence|by apply Hnl].
  - destruct (fflush s) as [s1 ok] eqn:Ef.
    apply fflush_spec in Ef as (Hwf1 & Hc1 & Hb1 & Hempty & Hns & Haf); [|done].
    specialize (Haf Hn) as (-> & Hn1). specialize (Hempty eq_refl).
    assert (Hnn : no_short (answers s.2)).
    { by apply full_no_short. }
    specialize (Hns Hnn) as [Ht _].
    destruct (IH s1 Hwf1 Hn1) as (s2 & -> & Ht2 & Hwf2 & Hn2 & Hb2 & Hnl2).
    { rewrite Hempty. destruct Hwf1 as (_ & ? & _). done. }
    cbn [mbind option_bind]. exists s2. split_and!; try done; try congruence.
    intros Hb _. apply Hnl2; [congruence|]. rewrite Hempty. constructor.
Qed.

Lemma opened_wf capa bin es : (0 < capa)%nat -> wf (opened capa bin es).
Proof. intros H. split_and!; simpl; [done|done|lia]. Qed.

Lemma safe_ok capa bin es ops : (0 < capa)%nat ->
  exists s rs, run (opened capa bin es) ops = Some (s, rs) /\ (length (wbuf s.1) <= wcapa s.1)%nat.
Proof.
  intros Hc. destruct (run_defined ops (opened capa bin es)) as (s & rs & H & Hwf); [by apply opened_wf|].
  exists s, rs. split; [done|apply Hwf].
Qed.
Lemma no_short_ok capa bin es ops s rs : (0 < capa)%nat -> no_short es ->
  run (opened capa bin es) ops = Some (s, rs) ->
  taken ops rs (written s.2 ++ wbuf s.1).
Proof.
  intros Hc Hn H. apply run_no_short in H as (t & Ht & He); [|by apply opened_wf|done].
  unfold total in He. simpl in He. by rewrite He.
Qed.
Lemma full_ok capa bin es ops : (0 < capa)%nat -> all_full es ->
  exists s, run (opened capa bin es) ops = Some (s, results_full ops) /\
    written s.2 ++ wbuf s.1 = offered ops.
Proof.
  intros Hc Hn. destruct (run_full ops (opened capa bin es)) as (s & H & Ht & _); [by apply opened_wf|done|done|].
  exists s. split; [done|]. done.
Qed.
Lemma flushed_ok capa bin es ops : (0 < capa)%nat -> all_full es ->
  exists s, run (opened capa bin es) (ops ++ [Flush]) = Some (s, results_full ops ++ [0]) /\
    written s.2 = offered ops.
Proof.
  intros Hc Hn. destruct (run_full ops (opened capa bin es)) as (s & H & Ht & Hwf & Hn' & _); [by apply opened_wf|done|done|].
  assert (Happ : forall a b s0, run s0 (a ++ b) =
     ('(s1, r1) ← run s0 a; '(s2, r2) ← run s1 b; Some (s2, r1 ++ r2))).
  { clear. induction a as [|[d|] a IH]; intros b s0; cbn [app run].
    - cbn [mbind option_bind]. destruct (run s0 b) as [[]|]; done.
    - destruct (fwrite s0 1 d) as [[s1 r]|]; [|done]. cbn [mbind option_bind]. rewrite IH.
      destruct (run s1 a) as [[s2 r2]|]; [|done]. cbn [mbind option_bind].
      destruct (run s2 b) as [[]|]; done.
    - destruct (fflush s0) as [s1 ok]. rewrite IH.
      destruct (run s1 a) as [[s2 r2]|]; [|done]. cbn [mbind option_bind].
      destruct (run s2 b) as [[]|]; done. }
  rewrite Happ, H. cbn [mbind option_bind run].
  destruct (fflush s) as [s1 ok] eqn:Ef.
  apply fflush_spec in Ef as (Hwf1 & Hc1 & Hb1 & Hempty & Hns & Haf); [|done].
  specialize (Haf Hn') as (-> & Hn1). specialize (Hempty eq_refl).
  assert (Hnn : no_short (answers s.2)).
  { by apply full_no_short. }
  specialize (Hns Hnn) as [Ht1 _]. exists s1. split; [done|].
  unfold total in *. rewrite Hempty, app_nil_r in Ht1. rewrite Ht1, Ht. done.
Qed.
Lemma line_ok capa es ops : (0 < capa)%nat -> all_full es ->
  exists s, run (opened capa false es) ops = Some (s, results_full ops) /\ Forall (fun c => c <> 10) (wbuf s.1).
Proof.
  intros Hc Hn. destruct (run_full ops (opened capa false es)) as (s & H & Ht & _ & _ & _ & Hnl); [by apply opened_wf|done|done|].
  exists s. split; [done|]. apply Hnl; [done|constructor].
Qed.

Lemma short_write : exists capa es ops s rs,
  run (opened capa true es) ops = Some (s, rs) /\ offered ops = [65; 66; 67] /\
  written s.2 ++ wbuf s.1 = [65; 66; 65; 66; 67].
Proof. exists 128%nat, [WShort 2], [Write [65;66;67]; Flush; Flush]. do 2 eexists. vm_compute. done. Qed.

Lemma under_report : exists capa es ops s rs, no_short es /\
  run (opened capa true es) ops = Some (s, rs) /\ accepted ops rs <> written s.2 ++ wbuf s.1.
Proof.
  exists 2%nat, [WFail], [Write [65;66;67]]. do 2 eexists. split; [repeat constructor|].
  split; [vm_compute; reflexivity|]. vm_compute. discriminate.
Qed.

Lemma size_zero s : writable s.1 = true -> (length (wbuf s.1) < wcapa s.1)%nat -> fwrite s 0 [] = None.
Proof.
  intros Hw Hl. unfold fwrite, fwrite1. rewrite Hw, decide_False by lia. done.
Qed.

(** puts *)
Lemma puts_ok capa bin es str : (0 < capa)%nat -> all_full es -> str <> [] ->
  exists s, puts (opened capa bin es) str = Some (s, 10) /\ written s.2 ++ wbuf s.1 = str ++ [10].
Proof.
  intros Hc Hn Hne. unfold puts, fputs.
  destruct (fwrite_spec (opened capa bin es) str (opened_wf _ _ _ Hc)) as (s1 & r & -> & Hwf1 & Hc1 & Hb1 & Hr & _ & Haf).
  cbn [mbind option_bind]. specialize (Haf Hn Hc) as (-> & Hn1 & Hl1 & _ & Ht).
  assert (length str <> 0%nat) by (by destruct str).
  rewrite (decide_True (P := Z.of_nat _ <> 0)) by lia. cbn [mbind option_bind]. rewrite (decide_True (P := 0 <= _)) by lia.
  unfold fputc. pose proof Hwf1 as (Hw1 & _). rewrite Hw1.
  change (10 mod 256) with 10. unfold fwrite1. rewrite decide_False by lia.
  destruct (loop_spec [10] s1 0 Hwf1 Hl1) as (s2 & r2 & -> & _ & _ & _ & _ & _ & Haf2).
  cbn [mbind option_bind]. specialize (Haf2 Hn1) as (-> & _ & _ & _ & Ht2). simpl.
  exists s2. split; [done|]. unfold total in *. rewrite Ht2, Ht. done.
Qed.
Lemma puts_empty capa bin es : (0 < capa)%nat -> puts (opened capa bin es) [] = Some (opened capa bin es, -1).
Proof. intros Hc. destruct capa; [lia|]. reflexivity. Qed.
