(** Copying and clearing write the whole object and nothing else. *)
From stdpp Require Import base list numbers.
From Verif Require Import Front.Static_model Front.Static_spec Front.Local_model Front.Local_spec Front.Static_proof Front.Local_proof Back.Copy_model Back.Copy_spec.
Local Open Scope Z_scope.

Definition unit_size (e : Z) : Prop := e = 1 \/ e = 2 \/ e = 4 \/ e = 8.

Lemma halve_ok size : 0 < size -> unit_size (halve 4 8 size) /\ (halve 4 8 size | size).
Proof.
  intros Hs. cbn [halve]. unfold unit_size.
  change (8 / 2) with 4. change (4 / 2) with 2. change (2 / 2) with 1. change (1 / 2) with 0.
  change (1 <? 8) with true. change (1 <? 4) with true. change (1 <? 2) with true. change (1 <? 1) with false. cbn [andb].
  assert (forall k, 0 < k -> (k <=? size) && (size mod k =? 0) = true -> (k | size)) as Hk.
  { intros k Hk [_ H]%andb_true_iff. apply Z.eqb_eq in H. apply Z.mod_divide in H; [done|lia]. }
  destruct ((8 <=? size) && (size mod 8 =? 0)) eqn:E8; cbn [negb].
  { split; [lia|]. apply Hk; [lia|done]. }
  destruct ((4 <=? size) && (size mod 4 =? 0)) eqn:E4; cbn [negb].
  { split; [lia|]. apply Hk; [lia|done]. }
  destruct ((2 <=? size) && (size mod 2 =? 0)) eqn:E2; cbn [negb].
  { split; [lia|]. apply Hk; [lia|done]. }
  split; [lia|apply Z.divide_1_l].
Qed.

Lemma elem_size_ok size align : sized size align -> 0 < size -> unit_size (elem_size size align) /\ (elem_size size align | size).
Proof.
  intros (_ & Ha & Hd) Hs. unfold elem_size.
  destruct (negb (Z.land (Z.min align size) (Z.min align size - 1) =? 0) || (8 <? Z.min align size)) eqn:E.
  { apply halve_ok. done. }
  apply orb_false_iff in E as [E1 E2]. apply negb_false_iff, Z.eqb_eq in E1. apply Z.ltb_ge in E2. split.
  - unfold unit_size. assert (exists k, Z.min align size = k) as [k Hk] by eauto. rewrite Hk in *.
    assert (k = 1 \/ k = 2 \/ k = 3 \/ k = 4 \/ k = 5 \/ k = 6 \/ k = 7 \/ k = 8) as H by lia.
    destruct H as [->|[->|[->|[->|[->|[->|[->| ->]]]]]]]; try done; auto; vm_compute in E1; done.
  - destruct (Z.le_gt_cases size align); [rewrite Z.min_r by lia; apply Z.divide_refl|].
    rewrite Z.min_l by lia. destruct Hd as [Hd|Hd]; [lia|done].
Qed.

Lemma unit_log e : unit_size e -> 2 ^ Z.log2 e = e /\ 0 < e.
Proof. intros [->|[->|[->| ->]]]; done. Qed.

Lemma put_lookup a bs m (i : nat) : 0 <= a -> a + Z.of_nat (length bs) <= Z.of_nat (length m) ->
  put a bs m !! i = if decide (a <= Z.of_nat i < a + Z.of_nat (length bs)) then bs !! (i - Z.to_nat a)%nat else m !! i.
Proof.
  intros Ha Hm. unfold put. assert (length (take (Z.to_nat a) m) = Z.to_nat a) as Hl by (rewrite take_length; lia).
  case_decide as H.
  - rewrite lookup_app_r by lia. rewrite lookup_app_l by lia. rewrite Hl. done.
  - destruct (Z.lt_ge_cases (Z.of_nat i) a).
    + rewrite lookup_app_l by lia. apply lookup_take. lia.
    + rewrite lookup_app_r by lia. rewrite lookup_app_r by lia. rewrite lookup_drop. f_equal. lia.
Qed.
Lemma put_length a bs m : 0 <= a -> a + Z.of_nat (length bs) <= Z.of_nat (length m) -> length (put a bs m) = length m.
Proof. intros Ha Hm. unfold put. rewrite !app_length, take_length, drop_length. lia. Qed.
Lemma put_written a bs m : 0 <= a -> a + Z.of_nat (length bs) <= Z.of_nat (length m) -> written a bs m (put a bs m).
Proof. intros Ha Hm. split; [apply put_length; done|]. intros i. apply put_lookup; done. Qed.

Lemma le_number l : Forall byte l -> le (length l) (number_at l) = l.
Proof.
  induction 1 as [|b l Hb Hl IH]; [done|]. unfold byte in Hb. cbn [length number_at].
  change (le (S (length l)) (b + 256 * number_at l)) with ((b + 256 * number_at l) mod 256 :: le (length l) ((b + 256 * number_at l) / 256)).
  rewrite (Z.mul_comm 256), Z.mod_add, Z.mod_small by lia. rewrite Z.div_add, Z.div_small by lia. rewrite Z.add_0_l, IH. done.
Qed.

(** One element. *)
Lemma store_load v a b m : Forall byte m -> 0 <= v -> within a (2 ^ v) m -> within b (2 ^ v) m ->
  store v a (load v b m) m = put a (piece b (2 ^ v) m) m.
Proof.
  intros Hm Hv Ha Hb. unfold store, load, within in *. assert (0 < 2 ^ v) by (apply Z.pow_pos_nonneg; lia). f_equal.
  change (take (Z.to_nat (2 ^ v)) (drop (Z.to_nat b) m)) with (piece b (2 ^ v) m).
  assert (length (piece b (2 ^ v) m) = Z.to_nat (2 ^ v)) as Hl by (unfold piece; rewrite take_length, drop_length; lia).
  rewrite <- Hl at 1. apply le_number. unfold piece. apply Forall_take, Forall_drop. done.
Qed.

Lemma piece_length a n m : within a n m -> 0 <= n -> length (piece a n m) = Z.to_nat n.
Proof. intros [H1 H2] H3. unfold piece. rewrite take_length, drop_length. lia. Qed.
Lemma piece_zero a m : piece a 0 m = [].
Proof. unfold piece. apply take_0. Qed.
Lemma piece_lookup a n m (i : nat) : 0 <= a -> piece a n m !! i = if decide (Z.of_nat i < n) then m !! (Z.to_nat a + i)%nat else None.
Proof.
  intros Ha. unfold piece. case_decide.
  - rewrite lookup_take by lia. apply lookup_drop.
  - apply lookup_take_ge. lia.
Qed.

(** One round of the loop; [p] bytes are in place, and [p + e] of the [size] afterwards. *)
Lemma step_ok v dst src m p m1 size : let e := 2 ^ v in 0 <= v <= 3 -> Forall byte m -> 0 <= p -> p + e <= size ->
  within dst size m -> within src size m -> apart size dst src -> Forall byte m1 -> written dst (piece src p m) m m1 ->
  let m2 := store v (dst + p) (load v (src + p) m1) m1 in Forall byte m2 /\ written dst (piece src (p + e) m) m m2.
Proof.
  intros e Hv Hm Hp Hsize Hd Hs Hapart Hm1 [Hl1 Hw1] m2. assert (0 < 2 ^ v) as He by (apply Z.pow_pos_nonneg; lia). fold e in He.
  assert (within (dst + p) e m1) as Hdk by (unfold within in *; rewrite Hl1; lia).
  assert (within (src + p) e m1) as Hsk by (unfold within in *; rewrite Hl1; lia).
  assert (length (piece src p m) = Z.to_nat p) as Hpl by (apply piece_length; unfold within in *; lia).
  unfold m2. rewrite store_load by (done || lia). fold e.
  assert (length (piece (src + p) e m1) = Z.to_nat e) as Hpl1 by (apply piece_length; [done|lia]).
  assert (length (piece src (p + e) m) = Z.to_nat (p + e)) as Hpl2 by (apply piece_length; unfold within in *; lia).
  split; [|split].
  - unfold put. repeat apply Forall_app_2; [apply Forall_take; done| |apply Forall_drop; done].
    unfold piece. apply Forall_take, Forall_drop. done.
  - rewrite put_length; [done|unfold within in *; lia|rewrite Hpl1; unfold within in *; lia].
  - intros i. rewrite put_lookup by (rewrite ?Hpl1; unfold within in *; lia).
    rewrite Hpl1, Hpl2, Hw1, Hpl. rewrite !Z2Nat.id by lia. unfold within, apart in *.
    destruct (decide (dst + p <= Z.of_nat i < dst + p + e)) as [Hnew|Hold].
    + rewrite decide_True by lia. rewrite !piece_lookup by lia. rewrite !decide_True by lia.
      rewrite Hw1, Hpl, decide_False by lia. f_equal. lia.
    + destruct (decide (dst <= Z.of_nat i < dst + p)) as [Hin|Hout].
      * rewrite decide_True by lia. rewrite !piece_lookup by lia. rewrite !decide_True by lia. done.
      * rewrite decide_False by lia. done.
Qed.

(** After [k] elements out of [k + n] the first [k] are in place. *)
Lemma loop_ok v dst src m : 0 <= v <= 3 -> Forall byte m -> Z.of_nat (length m) <= 2 ^ 64 -> forall n k m1 fuel,
  within dst (2 ^ v * (k + Z.of_nat (S n))) m -> within src (2 ^ v * (k + Z.of_nat (S n))) m ->
  apart (2 ^ v * (k + Z.of_nat (S n))) dst src -> 0 <= k -> (n < fuel)%nat ->
  Forall byte m1 -> written dst (piece src (2 ^ v * k) m) m m1 ->
  exists m', copy_loop fuel v (dst + 2 ^ v * k) (src + 2 ^ v * k) (Z.of_nat (S n)) m1 = Some m' /\
    written dst (piece src (2 ^ v * (k + Z.of_nat (S n))) m) m m'.
Proof.
  intros Hv Hm Hlen. assert (0 < 2 ^ v) as Hp by (apply Z.pow_pos_nonneg; lia).
  set (e := 2 ^ v) in *.
  intros n. induction n as [|n IH]; intros k m1 fuel Hd Hs Hapart Hk Hf Hm1 Hw.
  all: destruct fuel as [|fuel]; [lia|]; cbn [copy_loop]; fold e.
  all: match type of Hd with within _ (?y * (?z + Z.of_nat ?x)) _ => assert (y * z + y <= y * (z + Z.of_nat x)) as Hle by nia end.
  all: assert (0 <= e * k) as Hp0 by nia.
  all: destruct (step_ok v dst src m (e * k) m1 _ Hv Hm Hp0 Hle Hd Hs Hapart Hm1 Hw) as [Hm2 Hw2]; fold e in Hm2, Hw2.
  - change (Z.of_nat 1 - 1) with 0. change (reg 0 =? 0) with true. cbv iota. eexists. split; [reflexivity|].
    replace (e * (k + Z.of_nat 1)) with (e * k + e) by lia. exact Hw2.
  - assert (e * (k + Z.of_nat (S (S n))) = e * k + e + e * Z.of_nat (S n)) as Hsum by lia.
    assert (Z.of_nat (S n) <= e * Z.of_nat (S n)) as Hmul by nia.
    set (p := e * k) in *. set (r := e * Z.of_nat (S n)) in *.
    assert (reg (Z.of_nat (S (S n)) - 1) = Z.of_nat (S n)) as ->. { unfold reg. rewrite Z.mod_small; [lia|]. unfold within in *. lia. }
    rewrite (proj2 (Z.eqb_neq (Z.of_nat (S n)) 0)) by lia.
    assert (reg (src + p + e) = src + e * (k + 1)) as ->. { unfold reg. rewrite Z.mod_small; [lia|]. unfold within in *. lia. }
    assert (reg (dst + p + e) = dst + e * (k + 1)) as ->. { unfold reg. rewrite Z.mod_small; [lia|]. unfold within in *. lia. }
    replace (k + Z.of_nat (S (S n))) with (k + 1 + Z.of_nat (S n)) in * by lia.
    apply IH; try done; try lia. replace (e * (k + 1)) with (p + e) by lia. exact Hw2.
Qed.

Lemma copy_ok fuel size align dst src m : sized size align -> Forall byte m -> Z.of_nat (length m) <= 2 ^ 64 ->
  within dst size m -> within src size m -> apart size dst src -> size < Z.of_nat fuel ->
  exists m', copy fuel size align dst src m = Some m' /\ written dst (piece src size m) m m'.
Proof.
  intros Hsz Hm Hlen Hd Hs Ha Hf. unfold copy. destruct (Z.eqb_spec size 0) as [->|Hn].
  { exists m. split; [done|]. split; [done|]. intros i. rewrite piece_zero, decide_False by (cbn [length]; lia). done. }
  assert (0 < size) as Hpos by (unfold sized in Hsz; lia).
  destruct (elem_size_ok size align Hsz Hpos) as [Hu Hdiv]. set (e := elem_size size align) in *.
  destruct (unit_log e Hu) as [Hlog He]. rewrite (proj2 (Z.leb_gt e 0)) by done.
  rewrite Z.shiftr_div_pow2 by apply Z.log2_nonneg. rewrite Hlog. destruct Hdiv as [q Hq].
  assert (size / e = q) as -> by (rewrite Hq; apply Z.div_mul; lia).
  assert (0 < q) by nia. rewrite (proj2 (Z.leb_gt q 0)) by done.
  assert (0 <= Z.log2 e <= 3) as Hv by (destruct Hu as [->|[->|[->| ->]]]; vm_compute; split; discriminate).
  destruct (Z.eqb_spec q 1) as [->|Hq1].
  - replace size with e by lia. rewrite store_load; rewrite ?Hlog; try done; try lia.
    2, 3: replace e with size by lia; done.
    eexists. split; [done|]. assert (length (piece src e m) = Z.to_nat e) as Hpl. { apply piece_length; [replace e with size by lia; done|lia]. }
    apply put_written; unfold within in *; rewrite ?Hpl; lia.
  - destruct (loop_ok (Z.log2 e) dst src m Hv Hm Hlen (Z.to_nat (q - 1)) 0 m fuel) as (m' & E & Hw).
    1-7: rewrite ?Hlog; try (replace (e * (0 + Z.of_nat (S (Z.to_nat (q - 1))))) with size by lia); try done; try nia.
    { split; [done|]. intros i. rewrite Z.mul_0_r, piece_zero, decide_False by (cbn [length]; lia). done. }
    exists m'. rewrite Hlog in *. rewrite Z.mul_0_r, !Z.add_0_r in E.
    replace (Z.of_nat (S (Z.to_nat (q - 1)))) with q in * by lia. split; [done|]. replace size with (e * (0 + q)) by lia. done.
Qed.

(** Clearing, whatever the size and the alignment. *)
Lemma clear_any size align pre X post : sized size align -> Z.of_nat (length X) = size ->
  clear size align (Z.of_nat (length pre)) (pre ++ X ++ post) = Some (pre ++ replicate (Z.to_nat size) 0 ++ post).
Proof.
  intros Hsz HX. unfold clear. destruct (Z.eqb_spec size 0) as [->|Hn].
  { destruct X; [done|cbn in HX; lia]. }
  assert (0 < size) as Hpos by (unfold sized in Hsz; lia).
  destruct (elem_size_ok size align Hsz Hpos) as [Hu Hdiv]. set (e := elem_size size align) in *.
  destruct (unit_log e Hu) as [Hlog He].
  rewrite Z.shiftr_div_pow2 by apply Z.log2_nonneg. rewrite Hlog. destruct Hdiv as [q Hq].
  assert (size / e = q) as -> by (rewrite Hq; apply Z.div_mul; lia).
  assert (0 < q) by nia. rewrite (proj2 (Z.leb_gt q 0)) by done.
  rewrite (clear_ok (Z.to_nat q) e); [|done|done|rewrite Z2Nat.id; lia].
  rewrite Z2Nat.id by lia. do 3 f_equal. unfold zeros. f_equal. lia.
Qed.
Lemma cleared size align a m : sized size align -> within a size m ->
  exists m', clear size align a m = Some m' /\ written a (replicate (Z.to_nat size) 0) m m'.
Proof.
  intros Hsz Hw. unfold within, sized in *.
  pose proof (clear_any size align (take (Z.to_nat a) m) (piece a size m) (drop (Z.to_nat a + Z.to_nat size) m)) as H.
  assert (length (take (Z.to_nat a) m) = Z.to_nat a) as Hl by (rewrite take_length; lia).
  assert (take (Z.to_nat a) m ++ piece a size m ++ drop (Z.to_nat a + Z.to_nat size) m = m) as E.
  { unfold piece. rewrite <- drop_drop, take_drop, take_drop. done. }
  rewrite E, Hl, Z2Nat.id in H by lia. eexists. split; [apply H; [done|rewrite piece_length; unfold within; lia]|].
  pose proof (put_written a (replicate (Z.to_nat size) 0) m) as P. rewrite replicate_length in P. unfold put in P.
  rewrite replicate_length in P. apply P; lia.
Qed.
