From stdpp Require Import base list numbers.
From Coq Require Import Lia ZArith.
From Verif Require Import Util.Mem Util.Vector_proof Util.Data_model Util.Data_spec.
Local Open Scope Z_scope.

(* LEB128 *)

Lemma land127 v : Z.land v 127 = v mod 128.
Proof. change 127 with (Z.ones 7). rewrite Z.land_ones by lia. done. Qed.

Lemma lor128 x : 0 <= x < 128 -> Z.lor x 128 = x + 128.
Proof.
  intros H. symmetry. rewrite <- Z.lxor_lor, <- Z.add_nocarry_lxor; [done| |].
  all: apply Z.bits_inj'; intros n Hn; rewrite Z.land_spec, Z.bits_0.
  all: destruct (decide (n = 7)) as [->|Hne].
  1,3: rewrite (Z.bits_above_log2 x 7); [done|lia|];
    destruct (decide (x = 0)) as [->|]; [done|]; apply Z.log2_lt_pow2; lia.
  all: change 128 with (2^7); rewrite Z.pow2_bits_false by lia; apply andb_false_r.
Qed.

Lemma cont_byte v : Z.lor (Z.land v 127) 128 = v mod 128 + 128.
Proof. rewrite land127. apply lor128. apply Z.mod_pos_bound. lia. Qed.

Lemma shiftr7 v : Z.shiftr v 7 = v / 128.
Proof. rewrite Z.shiftr_div_pow2 by lia. done. Qed.

Lemma uleb_loop_ok : forall room v, 0 <= v < 128 ^ Z.of_nat room -> (0 < room)%nat ->
  exists bs, uleb_loop room v = Some bs /\ (length bs <= room)%nat /\ Forall is_byte bs /\
    forall rest, uleb_dec (bs ++ rest) = Some (v, rest).
Proof.
  induction room as [|room IH]; intros v Hv Hr; [lia|].
  cbn [uleb_loop]. destruct (v <? 128) eqn:E.
  - eexists; split; [done|]. split; [simpl; lia|]. rewrite land127, Z.mod_small by lia.
    split; [repeat constructor; unfold is_byte; lia|].
    intros rest. cbn. rewrite E. done.
  - assert (Hd : 0 <= v / 128 < 128 ^ Z.of_nat room).
    { split; [apply Z.div_pos; lia|]. apply Z.div_lt_upper_bound; [lia|].
      rewrite Nat2Z.inj_succ, Z.pow_succ_r in Hv by lia. lia. }
    assert (0 < room)%nat.
    { destruct room; [|lia]. simpl in Hd. assert (1 <= v / 128) by (apply Z.div_le_lower_bound; lia). lia. }
    rewrite shiftr7. destruct (IH _ Hd) as (bs & -> & Hl & Hb & Hdec); [lia|].
    cbn [mbind option_bind]. rewrite cont_byte.
    pose proof (Z.mod_pos_bound v 128 ltac:(lia)). eexists; split; [done|]. split; [simpl; lia|].
    split; [constructor; [unfold is_byte; lia|done]|].
    intros rest. cbn. rewrite Hdec. assert (v mod 128 + 128 <? 128 = false) as -> by lia.
    pose proof (Z.div_mod v 128 ltac:(lia)). do 2 f_equal. lia.
Qed.

Lemma leb_loop_ok : forall room v, - 64 * 128 ^ (Z.of_nat room - 1) <= v < 64 * 128 ^ (Z.of_nat room - 1) ->
  (0 < room)%nat ->
  exists bs, leb_loop room v = Some bs /\ (length bs <= room)%nat /\ Forall is_byte bs /\
    forall rest, sleb_dec (bs ++ rest) = Some (v, rest).
Proof.
  induction room as [|room IH]; intros v Hv Hr; [lia|].
  cbn [leb_loop]. destruct ((v <? 64) && (v >=? -64)) eqn:E.
  - eexists; split; [done|]. split; [simpl; lia|]. rewrite land127.
    split; [repeat constructor; unfold is_byte; pose proof (Z.mod_pos_bound v 128 ltac:(lia)); lia|].
    intros rest. cbn.
    destruct (decide (0 <= v)).
    + rewrite Z.mod_small by lia. assert (v <? 64 = true) as -> by lia. done.
    + assert (v mod 128 = v + 128) as ->.
      { symmetry. apply (Z.mod_unique_pos _ _ (-1)); lia. }
      assert (v + 128 <? 64 = false) as -> by lia. assert (v + 128 <? 128 = true) as -> by lia.
      do 2 f_equal. lia.
  - destruct (decide (room = 0%nat)) as [->|Hne].
    { simpl in Hv. lia. }
    assert (Hd : - 64 * 128 ^ (Z.of_nat room - 1) <= v / 128 < 64 * 128 ^ (Z.of_nat room - 1)).
    { replace (Z.of_nat (S room) - 1) with (Z.succ (Z.of_nat room - 1)) in Hv by lia.
      rewrite Z.pow_succ_r in Hv by lia.
      split; [apply Z.div_le_lower_bound; lia|apply Z.div_lt_upper_bound; lia]. }
    rewrite shiftr7. destruct (IH _ Hd) as (bs & -> & Hl & Hb & Hdec); [lia|].
    cbn [mbind option_bind]. rewrite cont_byte.
    pose proof (Z.mod_pos_bound v 128 ltac:(lia)). eexists; split; [done|]. split; [simpl; lia|].
    split; [constructor; [unfold is_byte; lia|done]|].
    intros rest. cbn. rewrite Hdec. assert (v mod 128 + 128 <? 64 = false) as -> by lia. assert (v mod 128 + 128 <? 128 = false) as -> by lia.
    pose proof (Z.div_mod v 128 ltac:(lia)). do 2 f_equal. lia.
Qed.

(* more room does not change the bytes *)
Lemma uleb_loop_mono : forall r1 r2 v bs, (r1 <= r2)%nat ->
  uleb_loop r1 v = Some bs -> uleb_loop r2 v = Some bs.
Proof.
  induction r1 as [|r1 IH]; intros r2 v bs Hle H; [done|].
  destruct r2 as [|r2]; [lia|]. cbn [uleb_loop] in *. destruct (v <? 128); [done|].
  destruct (uleb_loop r1 _) as [bs1|] eqn:E; [|done].
  rewrite (IH r2 _ _ ltac:(lia) E). done.
Qed.
Lemma leb_loop_mono : forall r1 r2 v bs, (r1 <= r2)%nat ->
  leb_loop r1 v = Some bs -> leb_loop r2 v = Some bs.
Proof.
  induction r1 as [|r1 IH]; intros r2 v bs Hle H; [done|].
  destruct r2 as [|r2]; [lia|]. cbn [leb_loop] in *. destruct (_ && _); [done|].
  destruct (leb_loop r1 _) as [bs1|] eqn:E; [|done].
  rewrite (IH r2 _ _ ltac:(lia) E). done.
Qed.

Lemma varuint_ok : forall i v, 0 <= v < 128 ^ (Z.of_nat i + 1) ->
  length (varuint_loop i v) = S i /\ Forall is_byte (varuint_loop i v) /\
  forall rest, uleb_dec (varuint_loop i v ++ rest) = Some (v, rest).
Proof.
  induction i as [|i IH]; intros v Hv.
  - cbn. rewrite land127. rewrite Z.mod_small by (simpl in Hv; lia). split; [done|].
    simpl in Hv. split; [repeat constructor; unfold is_byte; lia|].
    intros rest. assert (v <? 128 = true) as -> by lia. done.
  - cbn [varuint_loop]. rewrite cont_byte, shiftr7.
    destruct (IH (v / 128)) as (Hl & Hb & Hd).
    { split; [apply Z.div_pos; lia|]. apply Z.div_lt_upper_bound; [lia|].
      replace (Z.of_nat (S i) + 1) with (Z.succ (Z.of_nat i + 1)) in Hv by lia.
      rewrite Z.pow_succ_r in Hv by lia. lia. }
    pose proof (Z.mod_pos_bound v 128 ltac:(lia)).
    split; [simpl; lia|]. split; [constructor; [unfold is_byte; lia|done]|].
    intros rest. cbn. rewrite Hd. assert (v mod 128 + 128 <? 128 = false) as -> by lia.
    pose proof (Z.div_mod v 128 ltac:(lia)). do 2 f_equal. lia.
Qed.

(* Buffers *)

Definition drep (d : data) (l : list Z) : Prop :=
  exists rest, d_buf d = map Some l ++ rest /\ d_len d = length l.

Lemma drep_bytes d l : drep d l -> bytes_of d l.
Proof.
  intros (rest & Hd & Hl). unfold bytes_of, contents. rewrite Hd, Hl.
  rewrite take_app_alt; [done|]. rewrite map_length. done.
Qed.

Lemma reserve_ok d l n : drep d l ->
  exists rest, d_buf (data_reserve d n) = map Some l ++ rest /\
    d_len (data_reserve d n) = length l /\ (n <= length (d_buf (data_reserve d n)))%nat /\
    d_stack (data_reserve d n) = d_stack d.
Proof.
  intros (rest & Hd & Hl). unfold data_reserve.
  destruct (decide _) as [Hc|Hc].
  - cbn [d_buf d_len d_stack]. eexists. rewrite Hd at 1. rewrite <- app_assoc.
    split; [reflexivity|]. split; [done|]. split; [|done].
    rewrite app_length, replicate_length.
    destruct (decide (n < length (d_buf d) * 2)%nat); destruct (decide _); lia.
  - exists rest. split; [done|]. split; [done|]. split; [lia|done].
Qed.

Lemma insert_data_ok d l pos bs : drep d l -> (default (length l) pos <= length l)%nat ->
  exists d', data_insert d pos bs = Some d' /\ d_stack d' = d_stack d /\
    drep d' (firstn (default (length l) pos) l ++ bs ++ skipn (default (length l) pos) l).
Proof.
  intros Hr Hp. assert (Hl : d_len d = length l) by (destruct Hr as (? & _ & ?); done).
  unfold data_insert. rewrite Hl.
  set (p := default (length l) pos) in *. clearbody p. rewrite decide_True by lia.
  destruct (reserve_ok d l (length l + length bs) Hr) as (rest & Hb & Hl' & Hcap & Hst).
  set (d1 := data_reserve d (length l + length bs)) in *. clearbody d1.
  rewrite Hl'.
  set (a := take p l). set (b := drop p l).
  assert (Hab : l = a ++ b) by (unfold a, b; rewrite take_drop; done).
  assert (Hla : length a = p) by (unfold a; rewrite take_length; lia).
  assert (Hlb : (length l - p)%nat = length b) by (unfold b; rewrite drop_length; lia).
  (* split the spare cells *)
  assert (Hrest : (length bs <= length rest)%nat).
  { rewrite Hb, app_length, map_length in Hcap. lia. }
  set (spare := take (length bs) rest). set (rest' := drop (length bs) rest).
  assert (Hsr : rest = spare ++ rest') by (unfold spare, rest'; rewrite take_drop; done).
  assert (Hls : length spare = length bs) by (unfold spare; rewrite take_length; lia).
  assert (exists mid, (if decide (p < length l)%nat
     then memmove (d_buf d1) (p + length bs) p (length l - p) else Some (d_buf d1))
     = Some (map Some a ++ mid ++ map Some b ++ rest') /\ length mid = length bs) as (mid & -> & Hmid).
  { rewrite Hb. destruct (decide _) as [Hlt|Hge].
    - unfold memmove. rewrite Hlb.
      assert (slice (map Some l ++ rest) p (length b) = Some (map Some b)) as ->.
      { rewrite Hab, map_app, <- app_assoc. rewrite <- Hla, <- (map_length Some a), <- (map_length Some b).
        apply slice_app. }
      cbn [mbind option_bind].
      set (full := map Some b ++ spare).
      set (m1 := take (length bs) full). set (m2 := drop (length bs) full).
      assert (Hfull : full = m1 ++ m2) by (unfold m1, m2; rewrite take_drop; done).
      assert (length m1 = length bs) as Hm1.
      { unfold m1, full. rewrite take_length, app_length. lia. }
      assert (length m2 = length (map Some b)) as Hm2.
      { unfold m2, full. rewrite drop_length, app_length. lia. }
      exists m1. split; [|done].
      replace (map Some l ++ rest) with ((map Some a ++ m1) ++ m2 ++ rest').
      + replace (p + length bs)%nat with (length (map Some a ++ m1))
          by (rewrite app_length, map_length; lia).
        rewrite splice_app by done. rewrite <- app_assoc. done.
      + rewrite Hsr, Hab, map_app, <- !app_assoc. f_equal.
        rewrite !app_assoc, <- Hfull. unfold full. rewrite <- !app_assoc. done.
    - assert (b = []) as Hbn by (destruct b; simpl in Hlb; [done|lia]).
      exists spare. split; [|done]. rewrite Hab, Hbn, app_nil_r, Hsr. done. }
  cbn [mbind option_bind].
  assert (splice (map Some a ++ mid ++ map Some b ++ rest') p (map Some bs)
          = Some (map Some a ++ map Some bs ++ map Some b ++ rest')) as ->.
  { rewrite <- Hla, <- (map_length Some a). apply splice_app. rewrite map_length. done. }
  cbn [mbind option_bind].
  eexists; split; [reflexivity|]. cbn [d_stack]. split; [done|].
  exists rest'. cbn [d_buf d_len]. rewrite !map_app, <- !app_assoc. split; [done|].
  rewrite !app_length. lia.
Qed.

Lemma append_data_ok d l bs : drep d l ->
  exists d', data_append d bs = Some d' /\ d_stack d' = d_stack d /\ drep d' (l ++ bs).
Proof.
  intros Hr. destruct (insert_data_ok d l None bs Hr) as (d' & H & Hs & Hr'); [simpl; lia|].
  exists d'. split; [done|]. split; [done|]. simpl in Hr'.
  rewrite firstn_all, skipn_all, app_nil_r in Hr'. done.
Qed.

Lemma land_neg_pow2 x k : 0 <= k <= 62 -> 0 <= x < 2^64 -> Z.land x ((- 2^k) mod 2^64) = x - x mod 2^k.
Proof.
  intros Hk Hx.
  assert (Hm : (- 2^k) mod 2^64 = Z.ones 64 - Z.ones k).
  { assert (0 < 2^k) by (apply Z.pow_pos_nonneg; lia).
    assert (2^k <= 2^62) by (apply Z.pow_le_mono_r; lia).
    symmetry. apply (Z.mod_unique_pos _ _ (-1)); rewrite !Z.ones_equiv; lia. }
  rewrite Hm.
  assert (Z.ones 64 - Z.ones k = Z.shiftl (Z.ones (64 - k)) k) as ->.
  { rewrite Z.shiftl_mul_pow2, !Z.ones_equiv by lia.
    replace (2^64) with (2^(64 - k) * 2^k) by (rewrite <- Z.pow_add_r by lia; f_equal; lia). lia. }
  rewrite <- (Z.land_ones x k) by lia.
  apply Z.bits_inj'. intros n Hn.
  assert (Hsub : x - Z.land x (Z.ones k) = Z.ldiff x (Z.ones k)).
  { rewrite Z.sub_nocarry_ldiff.
    - apply Z.bits_inj'. intros i Hi. rewrite !Z.ldiff_spec, Z.land_spec.
      destruct (Z.testbit x i), (Z.testbit (Z.ones k) i); done.
    - apply Z.bits_inj'. intros i Hi. rewrite Z.ldiff_spec, Z.land_spec, Z.bits_0.
      destruct (Z.testbit x i), (Z.testbit (Z.ones k) i); done. }
  rewrite Hsub, Z.ldiff_spec, Z.land_spec, Z.shiftl_spec by lia.
  rewrite (Z.testbit_ones k) by lia.
  destruct (decide (n < k)).
  - rewrite (Z.testbit_neg_r _ (n - k)) by lia.
    assert (0 <=? n = true) as -> by lia. assert (n <? k = true) as -> by lia.
    rewrite !andb_false_r. done.
  - rewrite (Z.testbit_ones (64 - k)) by lia.
    assert (n <? k = false) as -> by lia. rewrite andb_false_r. simpl. rewrite andb_true_r.
    assert (0 <=? n - k = true) as -> by lia. simpl.
    destruct (decide (n < 64)).
    + assert (n - k <? 64 - k = true) as -> by lia. rewrite andb_true_r. done.
    + assert (n - k <? 64 - k = false) as -> by lia. rewrite andb_false_r.
      symmetry. destruct (decide (x = 0)) as [->|]; [apply Z.bits_0|].
      apply Z.bits_above_log2; [lia|]. enough (Z.log2 x < 64) by lia.
      apply Z.log2_lt_pow2; lia.
Qed.

Lemma ALIGN_ok x k : 0 <= k < 31 -> 0 <= x -> x < 2^63 ->
  ALIGN x (2^k) = x + (- x) mod 2^k.
Proof.
  intros Hk Hx Hx2. unfold ALIGN.
  assert (Hp : 0 < 2^k) by (apply Z.pow_pos_nonneg; lia).
  assert (Hp2 : 2^k <= 2^30) by (apply Z.pow_le_mono_r; lia).
  rewrite (Z.mod_small (x + 2^k - 1)) by lia.
  rewrite land_neg_pow2 by lia.
  (* y = x + p - 1; y - y mod p *)
  set (p := 2^k) in *. clearbody p.
  pose proof (Z.mod_pos_bound (-x) p Hp) as Hr.
  pose proof (Z.div_mod (-x) p ltac:(lia)) as Hd.
  assert ((x + p - 1) mod p = p - 1 - (-x) mod p) as ->; [|lia].
  symmetry. apply (Z.mod_unique_pos _ _ (- ((-x) / p))); lia.
Qed.

Lemma repeat_replicate {A} (x : A) n : repeat x n = replicate n x.
Proof. induction n; simpl; congruence. Qed.

Lemma align_data_ok d l k : drep d l -> 0 <= k < 31 -> Z.of_nat (length l) < 2^63 ->
  exists d', data_align d (2^k) = Some d' /\ d_stack d' = d_stack d /\
    drep d' (l ++ repeat 0 (Z.to_nat ((- Z.of_nat (length l)) mod 2^k))).
Proof.
  intros Hr Hk Hs. assert (Hl : d_len d = length l) by (destruct Hr as (? & _ & ?); done).
  unfold data_align. rewrite Hl, ALIGN_ok by lia.
  assert (Hp : 0 < 2^k) by (apply Z.pow_pos_nonneg; lia).
  assert (Hp2 : 2^k <= 2^30) by (apply Z.pow_le_mono_r; lia).
  pose proof (Z.mod_pos_bound (- Z.of_nat (length l)) (2^k) Hp) as Hb.
  set (r := (- Z.of_nat (length l)) mod 2^k) in *. clearbody r.
  replace (Z.of_nat (length l) + r - Z.of_nat (length l)) with r by lia.
  rewrite (Z.mod_small r) by lia.
  destruct (decide (r <= 0)).
  - assert (r = 0) as -> by lia. simpl. rewrite app_nil_r. eauto.
  - destruct (append_data_ok d l (replicate (Z.to_nat r) 0) Hr) as (d' & -> & Hst & Hr').
    cbn [mbind option_bind].
    assert (Hl' : d_len d' = length (l ++ replicate (Z.to_nat r) 0)) by (destruct Hr' as (? & _ & ?); done).
    rewrite app_length, replicate_length in Hl'.
    rewrite decide_True by lia. exists d'. split; [done|]. split; [done|].
    rewrite repeat_replicate. done.
Qed.

Lemma csize_nonneg c : 0 <= csize c.
Proof. induction c; cbn [csize]; lia. Qed.

Lemma drun_ok ops : forall d l l', drep d l -> Forall align_ok ops -> sizes_ok l ops ->
  sdrun l ops = Some l' -> exists d', drun d ops = Some d' /\ drep d' l'.
Proof.
  induction ops as [|o ops IH]; intros d l l' Hr Ha Hs Hrun; cbn [sdrun drun] in *.
  - injection Hrun as <-. eauto.
  - apply Forall_cons_1 in Ha as [Ho Ha]. destruct Hs as [Hs Hs'].
    destruct (sdstep l o) as [l1|] eqn:E; [|done].
    assert (exists d1, dstep d o = Some d1 /\ drep d1 l1) as (d1 & -> & Hr1).
    { destruct o as [p bs|bs|c|a|bs]; cbn [sdstep dstep] in *.
      - destruct (p <=? length l)%nat eqn:Ep; [|done]. injection E as <-.
        destruct (insert_data_ok d l (Some p) bs Hr) as (d' & H1 & _ & H2).
        { cbn. apply Nat.leb_le in Ep. done. } eauto.
      - injection E as <-. destruct (append_data_ok d l bs Hr) as (d' & H1 & _ & H2). eauto.
      - injection E as <-. unfold data_push.
        destruct (append_data_ok d l [c mod 256] Hr) as (d' & H1 & _ & H2). eauto.
      - destruct Ho as (k & Hk & ->). injection E as <-.
        destruct (align_data_ok d l k Hr Hk Hs) as (d' & H1 & _ & H2). eauto.
      - injection E as <-. unfold data_concat.
        destruct (append_data_ok d l bs Hr) as (d' & H1 & _ & H2). eauto. }
    cbn [mbind option_bind]. eapply IH; done.
Qed.

Lemma drep_init : drep data_init [].
Proof. exists []. done. Qed.

Lemma data_refines_bytes ops l :
  Forall align_ok ops -> sizes_ok [] ops -> sdrun [] ops = Some l ->
  exists d, drun data_init ops = Some d /\ bytes_of d l.
Proof.
  intros Ha Hs Hr. destruct (drun_ok ops _ _ _ drep_init Ha Hs Hr) as (d & H & Hrep).
  exists d. split; [done|]. apply drep_bytes. done.
Qed.

(* Position out of range is rejected, as in the specification. *)
Lemma insert_out_of_range d l p bs : drep d l -> (length l < p)%nat ->
  data_insert d (Some p) bs = None.
Proof.
  intros (rest & _ & Hl) Hp. unfold data_insert. cbn. rewrite decide_False by lia. done.
Qed.

Lemma uleb64 v : 0 <= v < 2^64 -> exists bs, uleb_loop 12 v = Some bs /\ (length bs <= 10)%nat /\
  Forall is_byte bs /\ uleb_of v bs.
Proof.
  intros Hv. destruct (uleb_loop_ok 10 v) as (bs & H & Hl & Hb & Hd); [split; [lia|]|lia|].
  { simpl Z.of_nat. assert (2^64 <= 128^10) by (vm_compute; done). lia. }
  exists bs. split; [eapply uleb_loop_mono; [|done]; lia|]. done.
Qed.

Lemma uleb32 v bs : 0 <= v < 2^32 -> uleb_loop 12 v = Some bs -> (length bs <= 5)%nat.
Proof.
  intros Hv H. destruct (uleb_loop_ok 5 v) as (bs' & H' & Hl & _); [split; [lia|]|lia|].
  { simpl Z.of_nat. assert (2^32 <= 128^5) by (vm_compute; done). lia. }
  apply (uleb_loop_mono _ 12) in H'; [|lia]. congruence.
Qed.

Lemma leb64 v : -2^63 <= v < 2^63 -> exists bs, leb_loop 12 v = Some bs /\ (length bs <= 10)%nat /\
  Forall is_byte bs /\ forall rest, sleb_dec (bs ++ rest) = Some (v, rest).
Proof.
  intros Hv. destruct (leb_loop_ok 10 v) as (bs & H & Hl & Hb & Hd); [|lia|].
  { simpl Z.of_nat. assert (2^63 <= 64 * 128^9) by (vm_compute; done). simpl Z.sub. lia. }
  exists bs. split; [eapply leb_loop_mono; [|done]; lia|]. done.
Qed.

Lemma data_uleb_ok d l pos v : drep d l -> (default (length l) pos <= length l)%nat -> 0 <= v < 2^64 ->
  exists d' bs, data_uleb128 d pos v = Some d' /\ d_stack d' = d_stack d /\
    drep d' (firstn (default (length l) pos) l ++ bs ++ skipn (default (length l) pos) l) /\
    (length bs <= 10)%nat /\ Forall is_byte bs /\ uleb_of v bs.
Proof.
  intros Hr Hp Hv. unfold data_uleb128. rewrite Z.mod_small by lia.
  destruct (uleb64 v Hv) as (bs & -> & Hl & Hb & Hd). cbn [mbind option_bind].
  destruct (insert_data_ok d l pos bs Hr Hp) as (d' & -> & Hs & Hr'). eauto 10.
Qed.

(* Chunks *)
Lemma firstn_app_exact {A} (a b : list A) : firstn (length a) (a ++ b) = a.
Proof. apply take_app. Qed.
Lemma skipn_app_exact {A} (a b : list A) : skipn (length a) (a ++ b) = b.
Proof. apply drop_app. Qed.

Lemma emit_ok c : forall d l, drep d l -> counts_ok c ->
  Z.of_nat (length l) + csize c < 2^63 ->
  exists d' w, emit d c = Some d' /\ d_stack d' = d_stack d /\ drep d' (l ++ w) /\ wire c w /\
    Z.of_nat (length w) <= csize c.
Proof.
  induction c as [|bs c IH|ci IHi cn IHn|n ci IHi cn IHn]; intros d l Hr Hc Hsz; cbn [emit csize counts_ok] in *.
  - exists d, []. rewrite app_nil_r. split; [done|]. split; [done|]. split; [done|]. split; [constructor|]. simpl; lia.
  - destruct (append_data_ok d l bs Hr) as (d1 & -> & Hs1 & Hr1). cbn [mbind option_bind].
    destruct (IH d1 (l ++ bs) Hr1 Hc) as (d2 & w & H2 & Hs2 & Hr2 & Hw & Hl).
    { rewrite app_length. lia. }
    exists d2, (bs ++ w). split; [done|]. split; [congruence|]. rewrite app_assoc. split; [done|].
    split; [constructor; done|]. rewrite app_length. lia.
  - destruct Hc as [Hci Hcn]. pose proof (csize_nonneg ci). pose proof (csize_nonneg cn).
    assert (Hr0 : drep (data_open_chunk d) l) by exact Hr.
    destruct (IHi _ l Hr0 Hci) as (d1 & w1 & -> & Hs1 & Hr1 & Hw1 & Hl1); [lia|].
    cbn [mbind option_bind]. unfold data_close_chunk. rewrite Hs1. cbn [data_open_chunk d_stack].
    assert (Hlen0 : d_len d = length l) by (destruct Hr as (? & _ & ?); done).
    assert (Hlen1 : d_len d1 = length (l ++ w1)) by (destruct Hr1 as (? & _ & ?); done).
    rewrite decide_True by done. rewrite Hlen0, Hlen1, app_length.
    replace (Z.of_nat (length l + length w1) - Z.of_nat (length l)) with (Z.of_nat (length w1)) by lia.
    rewrite (Z.mod_small (Z.of_nat (length w1))) by lia.
    rewrite <- app_length, <- Hlen1.
    destruct (data_uleb_ok (Data (d_stack d) (d_buf d1) (d_len d1)) (l ++ w1) (Some (length l))
      (Z.of_nat (length w1))) as (d2 & p & -> & Hs2 & Hr2 & Hlp & _ & Hp).
    { exact Hr1. } { cbn. rewrite app_length. lia. } { lia. }
    cbn [mbind option_bind default] in *. cbn [d_stack] in Hs2.
    unfold default, id in Hr2. rewrite firstn_app_exact, skipn_app_exact in Hr2.
    destruct (IHn d2 _ Hr2 Hcn) as (d3 & w2 & H3 & Hs3 & Hr3 & Hw2 & Hl2).
    { rewrite !app_length. lia. }
    exists d3, (p ++ w1 ++ w2). split; [done|]. split; [congruence|].
    rewrite <- !app_assoc in Hr3. split; [done|]. split; [constructor; done|].
    rewrite !app_length. lia.
  - destruct Hc as (Hn & Hci & Hcn). pose proof (csize_nonneg ci). pose proof (csize_nonneg cn).
    assert (Hr0 : drep (data_open_chunk d) l) by exact Hr.
    destruct (IHi _ l Hr0 Hci) as (d1 & w1 & -> & Hs1 & Hr1 & Hw1 & Hl1); [lia|].
    cbn [mbind option_bind]. unfold data_close_chunk. rewrite Hs1. cbn [data_open_chunk d_stack].
    assert (Hlen0 : d_len d = length l) by (destruct Hr as (? & _ & ?); done).
    assert (Hlen1 : d_len d1 = length (l ++ w1)) by (destruct Hr1 as (? & _ & ?); done).
    rewrite decide_False by lia. rewrite Hlen0.
    destruct (data_uleb_ok (Data (d_stack d) (d_buf d1) (d_len d1)) (l ++ w1) (Some (length l)) n)
      as (d2 & p & -> & Hs2 & Hr2 & Hlp & _ & Hp).
    { exact Hr1. } { cbn. rewrite app_length. lia. } { lia. }
    cbn [mbind option_bind default] in *. cbn [d_stack] in Hs2.
    unfold default, id in Hr2. rewrite firstn_app_exact, skipn_app_exact in Hr2.
    destruct (IHn d2 _ Hr2 Hcn) as (d3 & w2 & H3 & Hs3 & Hr3 & Hw2 & Hl2).
    { rewrite !app_length. lia. }
    exists d3, (p ++ w1 ++ w2). split; [done|]. split; [congruence|].
    rewrite <- !app_assoc in Hr3. split; [done|]. split; [constructor; done|].
    rewrite !app_length. lia.
Qed.

Lemma chunks_well_formed c : counts_ok c -> csize c < 2^63 ->
  exists d w, emit data_init c = Some d /\ bytes_of d w /\ wire c w /\ d_stack d = [].
Proof.
  intros Hc Hs. destruct (emit_ok c _ _ drep_init Hc) as (d & w & H & Hst & Hr & Hw & _); [simpl; lia|].
  exists d, w. split; [done|]. split; [|done]. apply drep_bytes. done.
Qed.

(* Theorems about LEB insertion in any buffer built by operations. *)
Lemma drun_drep ops d : Forall align_ok ops -> sizes_ok [] ops -> drun data_init ops = Some d ->
  forall l, sdrun [] ops = Some l -> drep d l.
Proof.
  intros Ha Hs Hd l Hl. destruct (drun_ok ops _ _ _ drep_init Ha Hs Hl) as (d' & H & Hr). congruence.
Qed.

Lemma uleb_insert ops d l pos v :
  Forall align_ok ops -> sizes_ok [] ops -> drun data_init ops = Some d -> sdrun [] ops = Some l ->
  (pos <= length l)%nat -> 0 <= v < 2^64 ->
  exists d' bs, data_uleb128 d (Some pos) v = Some d' /\
    bytes_of d' (firstn pos l ++ bs ++ skipn pos l) /\ (length bs <= 10)%nat /\
    Forall is_byte bs /\ uleb_of v bs.
Proof.
  intros Ha Hs Hd Hl Hp Hv. pose proof (drun_drep _ _ Ha Hs Hd _ Hl) as Hr.
  destruct (data_uleb_ok d l (Some pos) v Hr Hp Hv) as (d' & bs & H & _ & Hr' & Hlen & Hb & Hu).
  exists d', bs. split; [done|]. split; [apply drep_bytes; done|]. done.
Qed.

Lemma leb_insert ops d l pos v :
  Forall align_ok ops -> sizes_ok [] ops -> drun data_init ops = Some d -> sdrun [] ops = Some l ->
  (pos <= length l)%nat -> -2^63 <= v < 2^63 ->
  exists d' bs, data_leb128 d (Some pos) v = Some d' /\
    bytes_of d' (firstn pos l ++ bs ++ skipn pos l) /\ (length bs <= 10)%nat /\
    Forall is_byte bs /\ forall rest, sleb_dec (bs ++ rest) = Some (v, rest).
Proof.
  intros Ha Hs Hd Hl Hp Hv. pose proof (drun_drep _ _ Ha Hs Hd _ Hl) as Hr.
  unfold data_leb128. destruct (leb64 v Hv) as (bs & -> & Hlen & Hb & Hu). cbn [mbind option_bind].
  destruct (insert_data_ok d l (Some pos) bs Hr Hp) as (d' & -> & _ & Hr').
  exists d', bs. split; [done|]. split; [apply drep_bytes; done|]. done.
Qed.

Lemma varuint32_insert ops d l pos v :
  Forall align_ok ops -> sizes_ok [] ops -> drun data_init ops = Some d -> sdrun [] ops = Some l ->
  (pos <= length l)%nat -> 0 <= v < 2^32 ->
  exists d' bs, data_varuint32 d (Some pos) v = Some d' /\
    bytes_of d' (firstn pos l ++ bs ++ skipn pos l) /\ length bs = 5%nat /\
    Forall is_byte bs /\ uleb_of v bs.
Proof.
  intros Ha Hs Hd Hl Hp Hv. pose proof (drun_drep _ _ Ha Hs Hd _ Hl) as Hr.
  unfold data_varuint32. rewrite Z.mod_small by lia.
  destruct (insert_data_ok d l (Some pos) (varuint_loop 4 v) Hr Hp) as (d' & -> & _ & Hr').
  destruct (varuint_ok 4 v) as (H1 & H2 & H3).
  { assert (2^32 <= 128^(Z.of_nat 4 + 1)) by (vm_compute; done). lia. }
  eexists _, _. split; [done|]. split; [apply drep_bytes; done|]. done.
Qed.
