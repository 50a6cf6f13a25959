From stdpp Require Import base list numbers.
From Coq Require Import Lia ZArith.
From Verif Require Import Ld.Place_model Ld.Place_spec.
From Verif Require Util.Data_model Util.Data_proof.
Local Open Scope Z_scope.

(** ** Rounding *)
Lemma pow2_pos a : pow2 a -> 0 < a <= 2 ^ 30.
Proof. intros (k & Hk & ->). split; [apply Z.pow_pos_nonneg; lia|apply Z.pow_le_mono_r; lia]. Qed.
Lemma pow2_divides a b : pow2 a -> pow2 b -> a <= b -> (a | b).
Proof.
  intros (k & Hk & ->) (j & Hj & ->) Hle. apply Z.pow_le_mono_r_iff in Hle; [|lia|lia].
  exists (2 ^ (j - k)). rewrite <- Z.pow_add_r by lia. f_equal. lia.
Qed.
Lemma align_rounded x a : pow2 a -> 0 <= x < 2 ^ 63 -> ALIGN x a = rounded x a.
Proof. intros (k & Hk & ->) Hx. apply Data_proof.ALIGN_ok; lia. Qed.
Lemma rounded_bounds x a : 0 < a -> x <= rounded x a < x + a.
Proof. intros Ha. unfold rounded. pose proof (Z.mod_pos_bound (- x) a). lia. Qed.
Lemma rounded_divide x a : 0 < a -> (a | rounded x a).
Proof.
  intros Ha. unfold rounded. exists (- ((- x) / a)). pose proof (Z.div_mod (- x) a). lia.
Qed.
Lemma rounded_shift S n a : 0 < a -> (a | S) -> rounded (S + n) a = S + rounded n a.
Proof.
  intros Ha [q ->]. unfold rounded. replace (- (q * a + n)) with (- n + (- q) * a) by lia. rewrite Z_mod_plus_full. lia.
Qed.
Lemma rounded_id x a : 0 < a -> (a | x) -> rounded x a = x.
Proof. intros Ha [q ->]. unfold rounded. replace (- (q * a)) with ((- q) * a) by lia. rewrite Z_mod_mult. lia. Qed.

(** ** Addresses *)
Definition item_ok (it : item) : Prop := match it with ISec s => sec_ok s | ISym _ => True | IAlign a => pow2 a end.
Definition cost (it : item) : Z := match it with ISec s => i_size s + i_align s | ISym _ => 0 | IAlign a => a end.
Definition costs (l : list item) : Z := foldr (fun it n => cost it + n) 0 l.
Lemma cost_nonneg it : item_ok it -> 0 <= cost it.
Proof. destruct it as [s| |a]; cbn; [|lia|]. - intros (Ha & Hs & _). apply pow2_pos in Ha. lia. - intros Ha. apply pow2_pos in Ha. lia. Qed.
Lemma costs_nonneg l : Forall item_ok l -> 0 <= costs l.
Proof. induction 1 as [|it l H _ IH]; cbn; [lia|]. apply cost_nonneg in H. fold (costs l). lia. Qed.
Lemma costs_app l1 l2 : costs (l1 ++ l2) = costs l1 + costs l2.
Proof. induction l1 as [|it l IH]; cbn; [done|]. fold (costs (l ++ l2)) (costs l). lia. Qed.

Definition item_align (it : item) : Z := match it with ISec s => i_align s | ISym _ => 1 | IAlign a => a end.

(** One step of [calc]. *)
Lemma calc_cons address it l : item_ok it -> 0 <= address -> address + cost it < 2 ^ 63 ->
  calc address (it :: l) =
    let a := rounded address (item_align it) in
    let (r, e) := calc (a + item_size it) l in ((it, a) :: r, e).
Proof.
  intros Hok H0 Hb. destruct it as [s|g|b]; cbn [calc item_align item_size cost item_ok] in *.
  - destruct Hok as (Ha & Hs & _). pose proof (pow2_pos _ Ha). rewrite align_rounded by (try done; lia).
    pose proof (rounded_bounds address (i_align s)). rewrite Z.mod_small by lia. done.
  - unfold rounded. rewrite Z.mod_1_r, !Z.add_0_r. done.
  - pose proof (pow2_pos _ Hok). rewrite align_rounded by (try done; lia). rewrite Z.add_0_r. done.
Qed.
Lemma step_bounds address it : item_ok it -> 0 <= address ->
  address <= rounded address (item_align it) /\ 0 <= item_size it /\
  rounded address (item_align it) + item_size it <= address + cost it.
Proof.
  intros Hok H0. destruct it as [s|g|b]; cbn [item_align item_size cost item_ok] in *.
  - destruct Hok as (Ha & Hs & _). pose proof (pow2_pos _ Ha). pose proof (rounded_bounds address (i_align s)). lia.
  - unfold rounded. rewrite Z.mod_1_r. lia.
  - pose proof (pow2_pos _ Hok). pose proof (rounded_bounds address b). lia.
Qed.

Lemma calc_app address l1 l2 : calc address (l1 ++ l2) =
  let (r1, e1) := calc address l1 in let (r2, e2) := calc e1 l2 in (r1 ++ r2, e2).
Proof.
  revert address. induction l1 as [|it l1 IH]; intros address; cbn [app calc]; [destruct (calc address l2); done|].
  destruct it as [s|g|b].
  - rewrite IH. destruct (calc _ l1) as [r1 e1]. destruct (calc e1 l2). done.
  - rewrite IH. destruct (calc _ l1) as [r1 e1]. destruct (calc e1 l2). done.
  - rewrite IH. destruct (calc _ l1) as [r1 e1]. destruct (calc e1 l2). done.
Qed.

Record laid (address : Z) (l : list item) (r : list (item * Z)) (e : Z) : Prop := {
  laid_items : r.*1 = l;
  laid_end : address <= e <= address + costs l;
  laid_in : forall i it a, r !! i = Some (it, a) -> address <= a /\ a + item_size it <= e /\ 0 <= item_size it;
  laid_order : forall i j it a it' a', (i < j)%nat -> r !! i = Some (it, a) -> r !! j = Some (it', a') -> a + item_size it <= a';
  laid_aligned : forall i s a, r !! i = Some (ISec s, a) -> (i_align s | a);
}.
Lemma calc_laid l address : Forall item_ok l -> 0 <= address -> address + costs l < 2 ^ 63 ->
  laid address l (calc address l).1 (calc address l).2.
Proof.
  revert address. induction l as [|it l IH]; intros address Hok H0 Hb.
  - cbn. split; cbn; [done|lia|intros; done|intros; done|intros; done].
  - apply stdpp.list.Forall_cons in Hok as [Hit Hl]. cbn [costs foldr] in Hb. fold (costs l) in Hb.
    pose proof (costs_nonneg l Hl) as Hc. pose proof (cost_nonneg it Hit) as Hci.
    rewrite calc_cons by (try done; lia). cbn zeta.
    destruct (step_bounds address it Hit H0) as (S1 & S2 & S3). set (a := rounded address (item_align it)) in *.
    specialize (IH (a + item_size it) Hl ltac:(lia) ltac:(lia)). destruct (calc (a + item_size it) l) as [r e]. cbn [fst snd] in *.
    destruct IH as [I1 I2 I3 I4 I5]. split.
    + cbn. f_equal. done.
    + cbn [costs foldr]. fold (costs l). lia.
    + intros [|i] it' a' H; [injection H as <- <-; lia|]. apply I3 in H. lia.
    + intros [|i] [|j] it1 a1 it2 a2 Hij H1 H2; [lia| |lia|].
      * injection H1 as <- <-. apply I3 in H2. lia.
      * apply (I4 i j it1 a1 it2 a2); [lia|done|done].
    + intros [|i] s a' H; [|apply (I5 i); done]. injection H as -> <-. unfold a. cbn [item_align]. apply rounded_divide.
      destruct Hit as (Ha & _). apply pow2_pos in Ha. lia.
Qed.

(** ** Bytes *)
Lemma pad_length b a : pow2 a -> Z.of_nat (length b) < 2 ^ 63 -> Z.of_nat (length (pad b a)) = rounded (Z.of_nat (length b)) a.
Proof.
  intros Ha Hb. unfold pad. rewrite app_length, replicate_length, align_rounded by (try done; lia).
  pose proof (rounded_bounds (Z.of_nat (length b)) a). apply pow2_pos in Ha. lia.
Qed.
Lemma pad_prefix b a : exists z, pad b a = b ++ z.
Proof. eexists. reflexivity. Qed.
Lemma add_prefix b it : exists z, add_item b it = b ++ z.
Proof.
  destruct it as [s|g|a]; cbn.
  - destruct (i_nobits s); [exists []; rewrite app_nil_r; done|]. destruct (pad_prefix b (i_align s)) as [z ->].
    exists (z ++ i_content s). rewrite <- app_assoc. done.
  - exists []. rewrite app_nil_r. done.
  - apply pad_prefix.
Qed.
Lemma adds_prefix l b : exists z, fold_left add_item l b = b ++ z.
Proof.
  revert b. induction l as [|it l IH]; intros b; cbn; [exists []; rewrite app_nil_r; done|].
  destruct (IH (add_item b it)) as [z ->]. destruct (add_prefix b it) as [y ->]. exists (y ++ z). rewrite app_assoc. done.
Qed.

Definition has_bits (it : item) : Prop := match it with ISec s => i_nobits s = false | _ => True end.

Lemma bytes_laid l b start : Forall item_ok l -> Forall has_bits l -> 0 <= start -> Forall (fun it => (item_align it | start)) l ->
  start + Z.of_nat (length b) + costs l < 2 ^ 63 ->
  let R := fold_left add_item l b in
  let C := calc (start + Z.of_nat (length b)) l in
  C.2 = start + Z.of_nat (length R) /\
  forall i s a, C.1 !! i = Some (ISec s, a) -> start <= a /\ forall k v, i_content s !! k = Some v -> R !! (Z.to_nat (a - start) + k)%nat = Some v.
Proof.
  revert b. induction l as [|it l IH]; intros b Hok Hbits H0 Hal Hb.
  - cbn. split; [done|]. intros i s a H. done.
  - apply stdpp.list.Forall_cons in Hok as [Hit Hl]. apply stdpp.list.Forall_cons in Hbits as [Hbit Hbits].
    apply stdpp.list.Forall_cons in Hal as [Hai Hal]. cbn [costs foldr] in Hb. fold (costs l) in Hb.
    pose proof (costs_nonneg l Hl) as Hc. pose proof (cost_nonneg it Hit) as Hci.
    cbv zeta. rewrite calc_cons by (try done; lia). cbn zeta. cbn [fold_left].
    assert (0 < item_align it) as Hpos.
    { destruct it as [s| |a]; cbn in *; [|lia|apply pow2_pos in Hit; lia]. destruct Hit as (Ha & _). apply pow2_pos in Ha. lia. }
    rewrite rounded_shift by done.
    destruct (step_bounds (start + Z.of_nat (length b)) it Hit ltac:(lia)) as (S1 & S2 & S3).
    rewrite rounded_shift in S1, S3 by done.
    assert (start + rounded (Z.of_nat (length b)) (item_align it) + item_size it = start + Z.of_nat (length (add_item b it))) as E.
    { destruct it as [s|g|a]; cbn [add_item item_align item_size item_ok has_bits cost] in *.
      - rewrite Hbit, app_length. destruct Hit as (Ha & Hs & Hcn). rewrite (Hcn Hbit) in *.
        pose proof (pad_length b (i_align s) Ha ltac:(lia)). lia.
      - unfold rounded. rewrite Z.mod_1_r. lia.
      - pose proof (pad_length b a Hit ltac:(lia)). lia. }
    specialize (IH (add_item b it) Hl Hbits H0 Hal ltac:(lia)). cbv zeta in IH. rewrite E.
    destruct (calc (start + Z.of_nat (length (add_item b it))) l) as [r e]. cbn [fst snd] in *.
    destruct IH as [I1 I2]. split; [done|]. intros [|i] s a H; [|apply (I2 i); done].
    injection H as -> <-. cbn [add_item item_align item_size item_ok has_bits cost] in *. split; [lia|]. intros k v Hk.
    rewrite Hbit in *. destruct Hit as (Ha & Hs & Hcn). pose proof (pad_length b (i_align s) Ha ltac:(lia)) as Hp.
    destruct (adds_prefix l (pad b (i_align s) ++ i_content s)) as [z ->].
    replace (Z.to_nat _ + k)%nat with (length (pad b (i_align s)) + k)%nat by lia.
    rewrite <- app_assoc, lookup_app_r by lia. replace (_ + k - _)%nat with k by lia.
    apply lookup_app_l_Some. done.
Qed.

Lemma group_align_fold l base : pow2 base -> Forall item_ok l ->
  pow2 (group_align base l) /\ base <= group_align base l /\ (forall it, it ∈ l -> item_align it <= group_align base l) /\
  (forall M, base <= M -> (forall it, it ∈ l -> item_align it <= M) -> group_align base l <= M).
Proof.
  revert base. induction l as [|it l IH]; intros base Hb Hok.
  { cbn. split; [done|]. split; [lia|]. split; [intros it H; inversion H|intros; done]. }
  apply stdpp.list.Forall_cons in Hok as [Hit Hl]. cbn [group_align fold_left].
  set (base' := match it with ISec s => Z.max base (i_align s) | ISym _ => base | IAlign b => Z.max base b end).
  assert (pow2 base' /\ base <= base' /\ item_align it <= base' /\ (forall M, base <= M -> item_align it <= M -> base' <= M)) as (B1 & B2 & B3 & B4).
  { unfold base'. destruct it as [s|g|a]; cbn [item_align item_ok] in *.
    - destruct Hit as (Ha & _). split; [destruct (Z.max_spec base (i_align s)) as [[_ ->]|[_ ->]]; done|]. split; [lia|]. split; [lia|]. lia.
    - split; [done|]. split; [lia|]. apply pow2_pos in Hb. split; [lia|]. lia.
    - split; [destruct (Z.max_spec base a) as [[_ ->]|[_ ->]]; done|]. split; [lia|]. split; [lia|]. lia. }
  destruct (IH base' B1 Hl) as (I1 & I2 & I3 & I4). fold (group_align base' l). split; [done|]. split; [lia|]. split.
  - intros it' H. apply elem_of_cons in H as [->|H]; [lia|]. apply I3. done.
  - intros M HM HM'. apply I4; [apply B4; [done|apply HM'; left]|]. intros it' H. apply HM'. right. done.
Qed.
Lemma item_pow2 it : item_ok it -> pow2 (item_align it).
Proof. destruct it as [s|g|a]; cbn; [intros (? & _); done| |done]. intros _. exists 0. split; [lia|done]. Qed.
