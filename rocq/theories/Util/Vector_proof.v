From stdpp Require Import base list numbers.
From Coq Require Import Lia.
From Verif Require Import Util.Mem Util.Vector_model Util.Vector_spec.

(* The vector represents [l]. *)
Definition rep (v : vector) (l : list N) : Prop :=
  exists rest, v_data v = map Some l ++ rest /\ v_len v = length l.

Lemma rep_contents v l : rep v l -> vcontents v = map Some l.
Proof.
  intros (rest & Hd & Hl). unfold vcontents. rewrite Hd, Hl.
  rewrite take_app_alt; [done|]. rewrite map_length. done.
Qed.

Lemma splice_app {A} (a b c bs : list A) :
  length b = length bs -> splice (a ++ b ++ c) (length a) bs = Some (a ++ bs ++ c).
Proof.
  intros Hl. unfold splice. rewrite decide_True by (rewrite !app_length; lia).
  f_equal. rewrite take_app. f_equal. f_equal.
  rewrite <- Hl, app_assoc, drop_app_alt by (rewrite app_length; done). done.
Qed.

Lemma slice_app {A} (a b c : list A) : slice (a ++ b ++ c) (length a) (length b) = Some b.
Proof.
  unfold slice. rewrite decide_True by (rewrite !app_length; lia).
  rewrite drop_app, take_app. done.
Qed.

Lemma push_ok v l x : rep v l -> exists v', vec_push v x = Some v' /\ rep v' (l ++ [x]).
Proof.
  intros (rest & Hd & Hl). unfold vec_push.
  set (d := if decide _ then _ else _).
  assert (exists y rest', d = map Some l ++ [y] ++ rest') as (y & rest' & ->).
  { unfold d, v_capacity. clear d. destruct (decide _) as [Hc|Hc].
    - rewrite Hd in *. rewrite app_length, map_length in *.
      assert (rest = []) as -> by (destruct rest; simpl in *; [done|lia]).
      rewrite app_nil_r. simpl in *. unfold realloc_cells.
      rewrite take_ge by (rewrite map_length; destruct (decide _); lia).
      rewrite map_length.
      set (k := (if decide _ then _ else _) - length l).
      assert (exists k', k = S k') as [k' ->].
      { unfold k. destruct (decide _); [exists (15 - length l); lia|].
        exists (length l - 1). lia. }
      exists None, (replicate k' None). done.
    - rewrite Hd, app_length, map_length in *. destruct rest as [|y rest]; simpl in *; [lia|].
      exists y, rest. done. }
  unfold store. replace (v_len v) with (length (map Some l)) by (rewrite map_length; done).
  rewrite splice_app by done. cbn [mbind option_bind].
  eexists; split; [reflexivity|]. exists rest'. simpl. rewrite map_app, <- app_assoc. split; [done|].
  rewrite app_length, map_length. simpl. lia.
Qed.

Lemma concat_ok xs : forall v l, rep v l -> exists v', vec_concat v xs = Some v' /\ rep v' (l ++ xs).
Proof.
  induction xs as [|x xs IH]; intros v l Hr; simpl.
  - exists v. rewrite app_nil_r. done.
  - destruct (push_ok v l x Hr) as (v1 & -> & Hr1). simpl.
    destruct (IH _ _ Hr1) as (v2 & -> & Hr2). exists v2. split; [done|].
    rewrite <- app_assoc in Hr2. done.
Qed.

Lemma pop_ok v l : rep v l ->
  exists v', vec_pop v = Some (v', match rev l with [] => 0%N | x :: _ => x end) /\
    rep v' (match rev l with [] => l | _ :: r => rev r end).
Proof.
  intros (rest & Hd & Hl). unfold vec_pop.
  destruct (rev l) as [|x r] eqn:Hrev.
  - assert (l = []) as -> by (rewrite <- (rev_involutive l), Hrev; done).
    rewrite decide_False by (simpl in Hl; lia). exists v. split; [done|]. exists rest. done.
  - assert (l = rev r ++ [x]) as -> by (rewrite <- (rev_involutive l), Hrev; done).
    rewrite app_length in Hl. simpl in Hl.
    rewrite decide_True by lia. rewrite Hd, Hl, map_app.
    replace (length (rev r) + 1 - 1) with (length (rev r)) by lia.
    rewrite <- app_assoc.
    cbn [map app]. rewrite list_lookup_middle by (rewrite map_length; done). cbn [mbind option_bind].
    eexists; split; [reflexivity|]. exists (Some x :: rest). done.
Qed.

Lemma insert_ok v l p x : rep v l -> exists v', vec_insert v p x = Some v' /\
  rep v' (if (0 <=? p)%Z && (p <=? Z.of_nat (length l))%Z
     then firstn (Z.to_nat p) l ++ x :: skipn (Z.to_nat p) l else l).
Proof.
  intros Hr. assert (Hl : v_len v = length l) by (destruct Hr as (? & _ & ?); done).
  unfold vec_insert. rewrite Hl.
  destruct (decide _) as [H1|H1].
  - exists v. split; [done|].
    destruct (0 <=? p)%Z eqn:E1; destruct (p <=? Z.of_nat (length l))%Z eqn:E2; simpl; try done. lia.
  - assert ((0 <=? p)%Z && (p <=? Z.of_nat (length l))%Z = true) as -> by lia.
    destruct (decide _) as [H2|H2].
    + destruct (push_ok v l 0%N Hr) as (v1 & -> & (rest & Hd & Hl1)). cbn [mbind option_bind].
      set (q := Z.to_nat p). assert (Hq : q < length l) by lia.
      set (a := take q l).
      destruct (drop q l) as [|y b] eqn:Eb.
      { apply (f_equal length) in Eb. rewrite drop_length in Eb. simpl in Eb. lia. }
      assert (Hab : l = a ++ y :: b) by (unfold a; rewrite <- Eb, take_drop; done).
      assert (Hla : length a = q) by (unfold a; rewrite take_length; lia).
      assert (Hlb : length l - q = length (y :: b)) by (rewrite <- Eb, drop_length; done).
      assert (Hd1 : v_data v1 = map Some a ++ (map Some (y :: b) ++ [Some 0%N]) ++ rest).
      { rewrite Hd, Hab, !map_app, <- !app_assoc. done. }
      rewrite Hd1. unfold memmove.
      assert (slice (map Some a ++ (map Some (y :: b) ++ [Some 0%N]) ++ rest) q (length l - q)
              = Some (map Some (y :: b))) as ->.
      { rewrite Hlb, <- Hla. rewrite <- (map_length Some a), <- (map_length Some (y :: b)).
        rewrite <- app_assoc. apply slice_app. }
      cbn [mbind option_bind].
      assert (splice (map Some a ++ (map Some (y :: b) ++ [Some 0%N]) ++ rest) (q + 1) (map Some (y :: b))
              = Some (map Some a ++ [Some y] ++ map Some (y :: b) ++ rest)) as ->.
      { replace (map Some a ++ (map Some (y :: b) ++ [Some 0%N]) ++ rest)
          with ((map Some a ++ [Some y]) ++ (map Some b ++ [Some 0%N]) ++ rest)
          by (simpl; rewrite <- !app_assoc; done).
        replace (q + 1) with (length (map Some a ++ [Some y]))
          by (rewrite app_length, map_length; simpl; lia).
        rewrite splice_app by (rewrite app_length, !map_length; simpl; lia).
        rewrite <- !app_assoc. done. }
      cbn [mbind option_bind]. unfold store. rewrite <- Hla, <- (map_length Some a).
      rewrite splice_app by done. cbn [mbind option_bind].
      eexists; split; [reflexivity|]. exists rest. cbn [v_data v_len].

      split.
      * rewrite map_app. cbn [map]. rewrite <- !app_assoc. done.
      * rewrite Hl1, Hab, !app_length. simpl. lia.
    + destruct (push_ok v l x Hr) as (v1 & -> & Hr1). exists v1. split; [done|].
      assert (Z.to_nat p = length l) as -> by lia.
      rewrite firstn_all, skipn_all. done.
Qed.

Lemma remove_ok v l i : rep v l -> exists v', vec_remove_at v i = Some v' /\
  rep v' (if (0 <=? i)%Z && (i <? Z.of_nat (length l))%Z
     then firstn (Z.to_nat i) l ++ skipn (S (Z.to_nat i)) l else l).
Proof.
  intros Hr. destruct Hr as (rest & Hd & Hl).
  unfold vec_remove_at. rewrite Hl.
  destruct (decide _) as [H1|H1].
  - exists v. split; [done|]. exists rest.
    destruct (0 <=? i)%Z eqn:E1; destruct (i <? Z.of_nat (length l))%Z eqn:E2; simpl; try done. lia.
  - assert ((0 <=? i)%Z && (i <? Z.of_nat (length l))%Z = true) as -> by lia.
    set (q := Z.to_nat i). assert (Hq : q < length l) by lia.
    set (a := take q l).
    destruct (drop q l) as [|y b] eqn:Eb.
    { apply (f_equal length) in Eb. rewrite drop_length in Eb. simpl in Eb. lia. }
    assert (Hab : l = a ++ y :: b) by (unfold a; rewrite <- Eb, take_drop; done).
    assert (Hla : length a = q) by (unfold a; rewrite take_length; lia).
    assert (Hlb : length l - q - 1 = length b).
    { rewrite Hab, app_length. simpl. lia. }
    assert (Hsk : skipn (S q) l = b).
    { rewrite Hab. change (S q) with (1 + q). rewrite <- Hla.
      replace (1 + length a) with (length a + 1) by lia.
      change (drop (length a + 1) (a ++ y :: b) = b). rewrite drop_app_ge by lia.
      replace (length a + 1 - length a) with 1 by lia. done. }
    change (firstn q l) with a. rewrite Hsk.
    assert (exists rest', (if decide (0 < length l - q - 1) then memmove (v_data v) q (q + 1) (length l - q - 1)
               else Some (v_data v)) = Some (map Some (a ++ b) ++ rest')) as (rest' & ->).
    { rewrite Hlb, Hd, Hab. destruct (decide _) as [Hb|Hb].
      - unfold memmove.
        assert (slice (map Some (a ++ y :: b) ++ rest) (q + 1) (length b) = Some (map Some b)) as ->.
        { replace (map Some (a ++ y :: b) ++ rest) with ((map Some a ++ [Some y]) ++ map Some b ++ rest)
            by (rewrite map_app; simpl; rewrite <- !app_assoc; done).
          replace (q + 1) with (length (map Some a ++ [Some y]))
            by (rewrite app_length, map_length; simpl; lia).
          rewrite <- (map_length Some b). apply slice_app. }
        cbn [mbind option_bind].
        destruct b as [|z b] using rev_ind; [simpl in Hb; lia|]. clear IHb.
        set (bz := b ++ [z]).
        exists (Some z :: rest).
        replace (map Some (a ++ y :: bz) ++ rest)
          with (map Some a ++ map Some (y :: b) ++ (Some z :: rest))
          by (unfold bz; rewrite !map_app; simpl; rewrite map_app, <- !app_assoc; simpl;
              rewrite <- !app_assoc; done).
        rewrite <- Hla, <- (map_length Some a).
        rewrite splice_app; [|unfold bz; rewrite !map_length, app_length; simpl; lia].
        rewrite map_app, <- app_assoc. done.
      - destruct b; [|simpl in Hb; lia].
        exists (Some y :: rest). rewrite app_nil_r, map_app. simpl. rewrite <- app_assoc. done. }
    cbn [mbind option_bind]. eexists; split; [reflexivity|]. exists rest'. cbn [v_data v_len].
    split; [done|]. rewrite app_length. lia.
Qed.

Lemma contains_ok x : forall l a rest,
  contains_from (map Some (a ++ l) ++ rest) (length a) (length l) x = Some (existsb (N.eqb x) l).
Proof.
  induction l as [|y l IH]; intros a rest; simpl; [done|].
  rewrite map_app, <- app_assoc. simpl.
  rewrite list_lookup_middle by (rewrite map_length; done). cbn [mbind option_bind].
  destruct (decide (y = x)) as [->|Hne].
  - rewrite N.eqb_refl. done.
  - assert ((x =? y)%N = false) as -> by (apply N.eqb_neq; congruence). simpl.
    specialize (IH (a ++ [y]) rest). rewrite app_length in IH. simpl in IH.
    replace (length a + 1) with (S (length a)) in IH by lia.
    rewrite <- IH. f_equal. rewrite !map_app, <- !app_assoc. done.
Qed.

Lemma vstep_ok v l o : rep v l ->
  exists v', vstep v o = Some (v', snd (lstep l o)) /\ rep v' (fst (lstep l o)).
Proof.
  intros Hr. destruct o as [x| |p x|i| |x|xs]; simpl.
  - destruct (push_ok v l x Hr) as (v' & -> & ?). simpl. eauto.
  - destruct (pop_ok v l Hr) as (v' & -> & Hr'). simpl.
    destruct (rev l); simpl in *; eauto.
  - destruct (insert_ok v l p x Hr) as (v' & -> & ?). simpl. eauto.
  - destruct (remove_ok v l i Hr) as (v' & -> & ?). simpl. eauto.
  - eexists; split; [done|]. destruct Hr as (rest & Hd & Hl). exists (v_data v). done.
  - destruct Hr as (rest & Hd & Hl). unfold vec_contains. rewrite Hd, Hl.
    pose proof (contains_ok x l [] rest) as H. simpl in H. rewrite H. simpl.
    eexists; split; [done|]. exists rest. done.
  - destruct (concat_ok xs v l Hr) as (v' & -> & ?). simpl. eauto.
Qed.

Lemma vrun_ok ops : forall v l, rep v l ->
  exists v', vrun v ops = Some (v', snd (lrun l ops)) /\ rep v' (fst (lrun l ops)).
Proof.
  induction ops as [|o ops IH]; intros v l Hr; simpl; [eauto|].
  destruct (vstep_ok v l o Hr) as (v1 & -> & Hr1).
  destruct (lstep l o) as [l1 r1]. simpl in *.
  destruct (IH _ _ Hr1) as (v2 & -> & Hr2).
  destruct (lrun l1 ops) as [l2 rs]. simpl in *. eauto.
Qed.

Lemma vector_refines_list ops :
  exists v, vrun vec_init ops = Some (v, snd (lrun [] ops)) /\
    vcontents v = map Some (fst (lrun [] ops)).
Proof.
  destruct (vrun_ok ops vec_init []) as (v & H & Hr); [exists []; done|].
  exists v. split; [done|]. apply rep_contents. done.
Qed.
