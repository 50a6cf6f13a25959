From stdpp Require Import base list numbers sorting.
From Verif Require Import Lib.Fopen_model Lib.Fopen_spec.
Local Open Scope Z_scope.

(** The state of the scan: the counts of r, w, a, +, b seen so far. *)
Record seen := Seen { sr : nat; sw : nat; sa : nat; sp : nat; sb : nat }.
Definition ok (s : seen) : Prop := (sr s + sw s + sa s <= 1)%nat /\ (sp s <= 1)%nat /\ (sb s <= 1)%nat.
Definition enc (s : seen) : Z :=
  Z.of_nat (sr s) * cR + Z.of_nat (sw s) * cW + Z.of_nat (sa s) * Z.lor cW cA + Z.of_nat (sp s) * cP + Z.of_nat (sb s) * cB.
Definition letter (c : Z) : Prop := c ∈ [114; 119; 97; 43; 98].
Definition plus (s : seen) (mode : list Z) : seen :=
  Seen (sr s + count 114 mode) (sw s + count 119 mode) (sa s + count 97 mode) (sp s + count 43 mode) (sb s + count 98 mode).

Lemma count_cons c x l : count c (x :: l) = ((if decide (x = c) then 1 else 0) + count c l)%nat.
Proof. unfold count. rewrite filter_cons. destruct (decide (x = c)); simpl; lia. Qed.
Lemma letter_cases c : letter c <-> (c = 114 \/ c = 119 \/ c = 97 \/ c = 43 \/ c = 98).
Proof. unfold letter. rewrite !elem_of_cons, elem_of_nil. tauto. Qed.
Lemma classify_bad c : ~ letter c -> classify c = None.
Proof.
  rewrite letter_cases. intros H. unfold classify.
  rewrite (decide_False (P := c = 114)) by tauto. rewrite (decide_False (P := c = 119)) by tauto.
  rewrite (decide_False (P := c = 97)) by tauto. rewrite (decide_False (P := c = 43)) by tauto.
  by rewrite (decide_False (P := c = 98)) by tauto.
Qed.

Lemma ok_cases s : ok s -> exists k p b : nat, (k <= 3)%nat /\ (p <= 1)%nat /\ (b <= 1)%nat /\
  s = Seen (if decide (k = 1)%nat then 1 else 0) (if decide (k = 2)%nat then 1 else 0) (if decide (k = 3)%nat then 1 else 0) p b.
Proof.
  destruct s as [r w a p b]. intros (H1 & H2 & H3). simpl in *.
  exists (r + 2 * w + 3 * a)%nat, p, b. split; [lia|]. split; [lia|]. split; [lia|].
  assert (r = 0 /\ w = 0 /\ a = 0 \/ r = 1 /\ w = 0 /\ a = 0 \/ r = 0 /\ w = 1 /\ a = 0 \/ r = 0 /\ w = 0 /\ a = 1)%nat as D by lia.
  destruct D as [(-> & -> & ->)|[(-> & -> & ->)|[(-> & -> & ->)|(-> & -> & ->)]]]; reflexivity.
Qed.

Definition sum (s t : seen) : seen := Seen (sr s + sr t) (sw s + sw t) (sa s + sa t) (sp s + sp t) (sb s + sb t).
Lemma step s c : ok s -> letter c -> exists e, classify c = Some e /\
  if decide (ok (plus s [c])) then Z.land (enc s) e = 0 /\ Z.lor (enc s) e = enc (plus s [c]) else Z.land (enc s) e <> 0.
Proof.
  intros Hs Hc. destruct (ok_cases s Hs) as (k & p & b & Hk & Hp & Hb & ->). apply letter_cases in Hc.
  assert (k = 0 \/ k = 1 \/ k = 2 \/ k = 3)%nat as Dk by lia. assert (p = 0 \/ p = 1)%nat as Dp by lia.
  assert (b = 0 \/ b = 1)%nat as Db by lia.
  destruct Hc as [->|[->|[->|[->| ->]]]]; (eexists; split; [reflexivity|]);
  destruct Dk as [->|[->|[->| ->]]]; destruct Dp as [->| ->]; destruct Db as [->| ->];
  (destruct (decide _) as [D|D];
   [first [ (vm_compute; done) | (exfalso; destruct D as (D1 & D2 & D3); vm_compute in D1, D2, D3; lia) ]
   |first [ (vm_compute; done) | (exfalso; apply D; unfold ok; vm_compute; lia) ]]).
Qed.

Lemma plus_plus s c m : plus (plus s [c]) m = plus s (c :: m).
Proof.
  unfold plus; simpl. rewrite !count_cons. change (count _ []) with 0%nat. f_equal; lia.
Qed.

Lemma ok_mono s m : ok (plus s m) -> ok s.
Proof. unfold ok, plus; simpl. lia. Qed.

Lemma scan_ok mode : forall s, ok s ->
  if decide (Forall letter mode /\ ok (plus s mode)) then scan mode (enc s) = Some (enc (plus s mode)) else scan mode (enc s) = None.
Proof.
  induction mode as [|c mode IH]; intros s Hs.
  - assert (E : plus s [] = s) by (destruct s; unfold plus; simpl; change (count _ []) with 0%nat; f_equal; lia).
    destruct (decide _) as [_|D]; [by rewrite E|]. exfalso; apply D. rewrite E. split; [constructor|done].
  - cbn [scan]. destruct (decide (letter c)) as [Hc|Hc].
    2:{ rewrite classify_bad by done. cbn. destruct (decide _) as [[D _]|_]; [|done].
        by apply Forall_cons_1 in D as [D _]. }
    destruct (step s c Hs Hc) as (e & -> & Hstep). cbn [mbind option_bind].
    destruct (decide (ok (plus s [c]))) as [Hok|Hok].
    + destruct Hstep as [L O]. rewrite (decide_False (P := Z.land (enc s) e <> 0)) by tauto. rewrite O.
      specialize (IH _ Hok). rewrite plus_plus in IH.
      destruct (decide (Forall letter mode /\ _)) as [D|D]; destruct (decide (Forall letter (c :: mode) /\ _)) as [D'|D']; try done.
      * exfalso. apply D'. destruct D. split; [by constructor|done].
      * exfalso. apply D. destruct D' as [D1 D2]. apply Forall_cons_1 in D1 as [_ D1]. done.
    + rewrite (decide_True (P := Z.land (enc s) e <> 0)) by done.
      destruct (decide (Forall letter (c :: mode) /\ _)) as [[_ D]|_]; [|done].
      exfalso. apply Hok. rewrite <- plus_plus in D. by eapply ok_mono.
Qed.

Lemma has_count c m : (count c m <= 1)%nat -> has c m = bool_decide (count c m = 1%nat).
Proof.
  intros H. unfold has. destruct (decide (c ∈ m)) as [D|D].
  - rewrite bool_decide_true by done. symmetry. apply bool_decide_eq_true.
    assert (c ∈ filter (fun x => x = c) m) as F by (by apply elem_of_list_filter).
    unfold count in *. destruct (filter _ m); [by apply elem_of_nil in F|simpl in *; lia].
  - rewrite bool_decide_false by done. symmetry. apply bool_decide_eq_false. intros E. apply D.
    unfold count in E. destruct (filter (fun x => x = c) m) as [|y l] eqn:F; [done|].
    assert (y ∈ filter (fun x => x = c) m) as G by (rewrite F; left). apply elem_of_list_filter in G as [-> G]. done.
Qed.

Global Instance good_mode_dec mode : Decision (good_mode mode).
Proof. unfold good_mode. apply _. Defined.

Lemma detect_ok mode : detect_open_flag mode = Some (if decide (good_mode mode) then flags_of mode else -1).
Proof.
  unfold detect_open_flag. set (z := Seen 0 0 0 0 0).
  assert (Hz : ok z) by (unfold ok, z; simpl; lia).
  pose proof (scan_ok mode z Hz) as S. change (enc z) with 0 in S.
  destruct (decide (Forall letter mode /\ ok (plus z mode))) as [[HL HO]|Hbad].
  - rewrite S. unfold flags_of. unfold ok, z, plus in HO. simpl in HO.
    rewrite !has_count by lia. set (s := plus z mode) in *.
    assert (Hs : ok s) by (unfold ok, s, z, plus; simpl; lia).
    assert (Eg : good_mode mode <-> (sr s + sw s + sa s = 1)%nat).
    { unfold good_mode. unfold s, z, plus; simpl. split; [tauto|]. intros. split_and!; try done; lia. }
    assert (E1 : count 43 mode = sp s) by done. assert (E2 : count 114 mode = sr s) by done.
    assert (E3 : count 119 mode = sw s) by done. assert (E4 : count 97 mode = sa s) by done.
    rewrite E1, E2, E3, E4. clear E1 E2 E3 E4 S HO. clearbody s.
    destruct (ok_cases s Hs) as (k & p & b & Hk & Hp & Hb & ->).
    assert (k = 0 \/ k = 1 \/ k = 2 \/ k = 3)%nat as Dk by lia. assert (p = 0 \/ p = 1)%nat as Dp by lia.
    assert (b = 0 \/ b = 1)%nat as Db by lia.
    destruct Dk as [->|[->|[->| ->]]]; simpl in Eg;
    [rewrite (decide_False (P := good_mode mode)) by (rewrite Eg; lia)
    |rewrite (decide_True (P := good_mode mode)) by (rewrite Eg; lia)
    |rewrite (decide_True (P := good_mode mode)) by (rewrite Eg; lia)
    |rewrite (decide_True (P := good_mode mode)) by (rewrite Eg; lia)];
    destruct Dp as [->| ->]; destruct Db as [->| ->]; vm_compute; reflexivity.
  - rewrite S. rewrite (decide_False (P := good_mode mode)); [done|].
    intros (G1 & G2 & G3 & G4). apply Hbad. split; [exact G1|]. unfold ok, z, plus; simpl. lia.
Qed.

Lemma flags_rw mode : good_mode mode ->
  stream_flags mode = Some (has 114 mode || has 43 mode, negb (has 114 mode) || has 43 mode, has 98 mode).
Proof.
  intros H. unfold stream_flags. rewrite detect_ok. rewrite (decide_True (P := good_mode mode)) by done.
  cbn [mbind option_bind]. unfold flags_of. fold (has 98 mode).
  destruct H as (_ & H & H1 & _). rewrite (has_count 119), (has_count 97), (has_count 114), (has_count 43) by lia.
  assert (count 114 mode = 1 /\ count 119 mode = 0 /\ count 97 mode = 0 \/ count 114 mode = 0 /\ count 119 mode = 1 /\ count 97 mode = 0 \/
    count 114 mode = 0 /\ count 119 mode = 0 /\ count 97 mode = 1)%nat as D by lia.
  assert (count 43 mode = 0 \/ count 43 mode = 1)%nat as Dp by lia.
  destruct D as [(-> & -> & ->)|[(-> & -> & ->)|(-> & -> & ->)]]; destruct Dp as [-> | ->]; reflexivity.
Qed.

Definition listed (m : fileman) : list Z := take (used m) (slots m).
Definition fwf (m : fileman) : Prop := (used m <= length (slots m))%nat.

Lemma flush_ok m : fwf m -> flush_opened m = Some (listed m).
Proof.
  unfold fwf, flush_opened, listed. intros H.
  assert (G : forall n i, (i + n <= length (slots m))%nat -> flush_from n i m = Some (take n (drop i (slots m)))).
  { induction n as [|n IH]; intros i Hi; [done|]. cbn [flush_from].
    destruct (lookup_lt_is_Some_2 (slots m) i) as [x Hx]; [lia|]. rewrite Hx. cbn [mbind option_bind].
    rewrite IH by lia. cbn. rewrite (drop_S _ x i) by done. done. }
  by rewrite (G (used m) 0%nat) by lia.
Qed.

Lemma add_ok m fp : fwf m -> exists m', add_opened m fp = Some m' /\ fwf m' /\ listed m' = listed m ++ [fp].
Proof.
  unfold fwf, add_opened, listed. intros H. set (s := if decide (length (slots m) <= used m)%nat then _ else _).
  assert (Hs : (used m < length s)%nat /\ take (used m) s = take (used m) (slots m)).
  { unfold s. destruct (decide (length (slots m) <= used m)%nat).
    - rewrite app_length, replicate_length. split.
      + destruct (decide (0 < length (slots m))%nat); lia.
      + rewrite take_app_le by lia. done.
    - split; [lia|done]. }
  destruct Hs as [H1 H2]. rewrite decide_True by done. eexists. split; [reflexivity|]. simpl.
  rewrite insert_length. split; [lia|].
  rewrite (take_S_r _ _ fp) by (by apply list_lookup_insert). rewrite take_insert by lia. by rewrite H2.
Qed.

Lemma remove_loop m fp : fwf m -> forall fuel i, (i + fuel = used m)%nat -> NoDup (listed m) ->
  exists m', remove_from fuel i m fp = Some m' /\ fwf m' /\
    (Forall (fun x => x <> fp) (take i (listed m)) -> listed m' ≡ₚ filter (fun x => x <> fp) (listed m)).
Proof.
  intros Hw. induction fuel as [|fuel IH]; intros i Hi Hnd.
  - exists m. split; [done|]. split; [done|]. intros HF. cbn.
    rewrite take_ge in HF by (unfold listed; rewrite take_length; lia).
    clear -HF. induction (listed m) as [|x l IHl]; [done|]. apply Forall_cons_1 in HF as [Hx HF].
    rewrite filter_cons_True by done. by rewrite <- IHl.
  - cbn [remove_from]. unfold fwf in Hw.
    destruct (lookup_lt_is_Some_2 (slots m) i) as [x Hx]; [lia|]. rewrite Hx. cbn [mbind option_bind].
    assert (Hxl : listed m !! i = Some x) by (unfold listed; rewrite lookup_take by lia; done).
    assert (Hll : length (listed m) = used m) by (unfold listed; rewrite take_length; lia).
    destruct (decide (x = fp)) as [->|Hne].
    + (* everything else differs *)
      assert (Hf : filter (fun x => x <> fp) (listed m) = take i (listed m) ++ drop (S i) (listed m)).
      { rewrite <- (take_drop_middle _ _ _ Hxl) at 1. rewrite filter_app. rewrite filter_cons_False by tauto.
        rewrite <- (take_drop_middle _ _ _ Hxl) in Hnd. apply NoDup_app in Hnd as (N1 & N2 & N3).
        apply NoDup_cons in N3 as [N3 N4].
        assert (K : forall l : list Z, fp ∉ l -> filter (fun x => x <> fp) l = l).
        { clear. induction l as [|y l IHl]; intros H; [done|]. apply not_elem_of_cons in H as [H1 H2].
          rewrite filter_cons_True by done. by rewrite IHl. }
        rewrite (K (drop (S i) (listed m))) by done. rewrite K; [done|]. intros E. apply (N2 fp E). left. }
      destruct (decide (i < used m - 1)%nat) as [Hlt|Hge].
      * destruct (lookup_lt_is_Some_2 (slots m) (used m - 1)) as [y Hy]; [lia|]. rewrite Hy. cbn [mbind option_bind].
        eexists. split; [reflexivity|]. split; [unfold fwf; simpl; rewrite insert_length; lia|]. intros _.
        rewrite Hf. unfold listed at 1. cbn [used slots].
        rewrite insert_take_drop by lia. rewrite take_app_ge by (rewrite take_length; lia).
        rewrite take_length. rewrite Nat.min_l by lia.
        destruct (used m - 1 - i)%nat as [|k] eqn:Ek; [lia|]. cbn [take].
        assert (Hd : drop (S i) (listed m) = take k (drop (S i) (slots m)) ++ [y]).
        { unfold listed. rewrite skipn_firstn_comm. replace (used m - S i)%nat with (S k) by lia.
          rewrite (take_S_r _ _ y); [done|]. rewrite lookup_drop. replace (S i + k)%nat with (used m - 1)%nat by lia. done. }
        rewrite Hd. unfold listed. rewrite take_take. rewrite Nat.min_l by lia. apply Permutation_app_head.
        apply Permutation_cons_append.
      * eexists. split; [reflexivity|]. split; [unfold fwf; simpl; lia|]. intros _. rewrite Hf.
        unfold listed at 1. cbn [used slots]. rewrite (drop_ge (listed m)) by lia. rewrite app_nil_r.
        unfold listed. rewrite take_take. rewrite Nat.min_l by lia. replace (used m - 1)%nat with i by lia. done.
    + destruct (IH (S i)) as (m' & E & W' & P'); [lia|done|]. exists m'. split; [exact E|]. split; [done|].
      intros HF. apply P'. rewrite (take_S_r _ _ x) by done. apply Forall_app. split; [done|]. by constructor.
Qed.

Lemma remove_ok m fp : fwf m -> NoDup (listed m) -> exists m', remove_opened m fp = Some m' /\ fwf m' /\
  listed m' ≡ₚ filter (fun x => x <> fp) (listed m).
Proof.
  intros H N. destruct (remove_loop m fp H (used m) 0) as (m' & E & W & P); [lia|done|]. exists m'. split_and!; try done. apply P. constructor.
Qed.

Lemma fruns_ok ops : forall m l, fwf m -> listed m ≡ₚ l -> NoDup l -> fresh l ops ->
  exists m', fruns m ops = Some m' /\ fwf m' /\ listed m' ≡ₚ live l ops.
Proof.
  induction ops as [|[fp|fp] ops IH]; intros m l W P N F; cbn [fruns live].
  - by exists m.
  - destruct F as [F1 F2]. destruct (add_ok m fp W) as (m' & -> & W' & L'). cbn [mbind option_bind].
    apply IH; [done| | |done].
    + rewrite L'. by rewrite P.
    + apply NoDup_app. split_and!; [done| |apply NoDup_singleton]. intros x Hx Hy%elem_of_list_singleton. by subst.
  - destruct (remove_ok m fp W) as (m' & -> & W' & L'); [by rewrite P|]. cbn [mbind option_bind].
    apply IH; [done| | |done].
    + rewrite L'. by rewrite P.
    + by apply NoDup_filter.
Qed.

Lemma exit_flushes ops : fresh [] ops -> exists m l, fruns fm_init ops = Some m /\
  flush_opened m = Some l /\ NoDup l /\ l ≡ₚ live [] ops.
Proof.
  intros F. destruct (fruns_ok ops fm_init []) as (m & E & W & P); [unfold fwf; simpl; lia|done|constructor|done|].
  exists m, (listed m). split; [done|]. split; [by apply flush_ok|]. split; [|done].
  rewrite P. clear -F. assert (NoDup ([] : list Z)) as N by constructor. revert F N. generalize ([] : list Z).
  induction ops as [|[fp|fp] ops IH]; intros l F N; cbn [live]; [done| |].
  - destruct F as [F1 F2]. apply IH; [done|]. apply NoDup_app. split_and!; [done| |apply NoDup_singleton].
    intros x Hx Hy%elem_of_list_singleton. by subst.
  - apply IH; [done|]. by apply NoDup_filter.
Qed.
