From stdpp Require Import base list numbers.
From Verif Require Import Lib.Printf_model Lib.Printf_proof Lib.Memstream_model Lib.Memstream_spec.
Local Open Scope Z_scope.

Lemma poke_app a x b v : poke (a ++ x :: b) (Z.of_nat (length a)) v = Some (a ++ v :: b).
Proof.
  unfold poke. rewrite decide_True by (rewrite app_length; simpl; lia).
  rewrite Nat2Z.id. rewrite insert_app_r_alt by lia. by rewrite Nat.sub_diag.
Qed.

Lemma split_at (m : list Z) k : (k < length m)%nat -> exists x, m = take k m ++ x :: drop (S k) m.
Proof. intros H. destruct (lookup_lt_is_Some_2 m k H) as [x Hx]. exists x. symmetry. by apply take_drop_middle. Qed.

(** Chunks may be written one after the other. *)
Lemma memwrite_app alloc junk a b f :
  (growmem f = false \/ forall n, alloc n = true) ->
  memwrite alloc junk f (a ++ b) = (f ← memwrite alloc junk f a; memwrite alloc junk f b).
Proof.
  revert f. induction a as [|c a IH]; intros f Hg; [done|]. cbn [app memwrite].
  assert (S : forall f', growmem f' = growmem f ->
    (b0 ← poke (wbuf f') (wp f') c;
     memwrite alloc junk (MFile b0 (to_u32 (wp f' + 1)) (wcapa f') (growmem f')) (a ++ b)) =
    (f ← (b0 ← poke (wbuf f') (wp f') c;
          memwrite alloc junk (MFile b0 (to_u32 (wp f' + 1)) (wcapa f') (growmem f')) a);
     memwrite alloc junk f b)).
  { intros f' Hf'. destruct (poke _ _ _); [|done]. simpl. apply IH. simpl. by rewrite Hf'. }
  destruct (decide _) as [Hfull|Hfull]; [|by apply S].
  destruct (growmem f) eqn:Eg.
  - unfold grow. destruct Hg as [Hg|Hg]; [done|]. rewrite Hg. by apply S.
  - simpl. destruct b as [|d b]; [done|]. cbn [memwrite]. rewrite decide_True by done. by rewrite Eg.
Qed.

(** * snprintf *)

(** Writing into a fixed buffer: [done] is what is already there. *)
Lemma memwrite_fixed alloc junk capa text pre m :
  let k := Z.to_nat (Z.min (Z.of_nat (length text)) (capa - 1 - Z.of_nat (length pre))) in
  0 <= capa < 2^32 -> (Z.of_nat (length pre) < capa \/ pre = [] /\ capa = 0) ->
  (length pre + k <= length m)%nat -> take (length pre) m = pre ->
  memwrite alloc junk (MFile m (Z.of_nat (length pre)) capa false) text =
  Some (MFile (pre ++ take k text ++ drop (length pre + k) m) (Z.of_nat (length pre + k)) capa false).
Proof.
  intros k Hc. revert pre m k. induction text as [|c text IH]; intros pre m k Hp Hl Hpre.
  - assert (k = 0%nat) as -> by (unfold k; simpl; lia). simpl. rewrite Nat.add_0_r.
    rewrite <- (take_drop (length pre) m) at 1. by rewrite Hpre.
  - cbn [memwrite wbuf wp wcapa growmem].
    assert (Hu : to_u32 (Z.of_nat (length pre) + 1) = Z.of_nat (length pre) + 1).
    { apply to_u32_small. destruct Hp as [Hp|[-> ->]]; simpl; lia. }
    rewrite Hu. destruct (decide _) as [Hf|Hf].
    + assert (k = 0%nat) as -> by (unfold k; lia). simpl. rewrite Nat.add_0_r.
      rewrite <- (take_drop (length pre) m) at 1. by rewrite Hpre.
    + assert (Hk0 : (0 < k)%nat) by (unfold k; cbn [length]; lia).
      assert (Hlt : (length pre < length m)%nat) by lia.
      destruct (split_at m (length pre) Hlt) as [x Hm]. rewrite Hpre in Hm.
      set (tl := drop (S (length pre)) m) in *. clearbody tl.
      assert (Hlm : length m = (length pre + S (length tl))%nat).
      { rewrite Hm at 1. rewrite app_length. done. }
      rewrite Hm, poke_app. cbn [mbind option_bind].
      replace (pre ++ c :: tl) with ((pre ++ [c]) ++ tl) by (by rewrite <- app_assoc).
      replace (Z.of_nat (length pre) + 1) with (Z.of_nat (length (pre ++ [c])))
        by (rewrite app_length; simpl; lia).
      rewrite IH.
      * rewrite app_length. cbn [length].
        set (k' := Z.to_nat (Z.min (Z.of_nat (length text)) _)).
        assert (Hk : k = S k') by (unfold k, k'; cbn [length]; lia).
        rewrite Hk. cbn [take]. rewrite <- app_assoc. cbn [app]. f_equal. f_equal; [|lia].
        do 3 f_equal. rewrite !drop_app_ge by (rewrite ?app_length; simpl; lia).
        rewrite app_length. simpl.
        replace (length pre + 1 + k' - (length pre + 1))%nat with k' by lia.
        replace (length pre + S k' - length pre)%nat with (S k') by lia. done.
      * left. rewrite app_length. simpl. lia.
      * rewrite !app_length. unfold k in Hl. cbn [length] in *. lia.
      * by rewrite take_app.
Qed.

Lemma snprintf_ok out n fmt args text r :
  0 < n < 2^32 -> n <= Z.of_nat (length out) -> vfprintf fmt args = Some (text, r) ->
  vsnprintf out n fmt args = Some (store_cstr (take (Z.to_nat (n - 1)) text) out, r).
Proof.
  intros Hn Hl Hv. unfold vsnprintf. rewrite Hv. cbn [mbind option_bind].
  rewrite to_u32_small by lia.
  pose proof (memwrite_fixed (fun _ => false) 0 n text [] out) as H. cbn [length] in H.
  change (Z.of_nat 0) with 0 in H.
  set (k := Z.to_nat (Z.min (Z.of_nat (length text)) (n - 1 - 0))) in *.
  rewrite H; [|lia|lia|simpl; unfold k; lia|done]. cbn [mbind option_bind].
  unfold memflush. cbn [wbuf wp wcapa growmem app plus].
  rewrite decide_True by (unfold k; lia).
  assert (Ht : take k text = take (Z.to_nat (n - 1)) text).
  { destruct (Z.le_gt_cases (n - 1) (Z.of_nat (length text))).
    - f_equal. unfold k. lia.
    - rewrite !take_ge by (unfold k; lia). done. }
  assert (Hk : length (take k text) = k) by (rewrite take_length; unfold k; lia).
  destruct (split_at out k ltac:(unfold k; lia)) as [x Hx].
  assert (drop k out = x :: drop (S k) out) as ->.
  { rewrite Hx at 1. rewrite drop_app_ge by (rewrite take_length; lia).
    rewrite take_length. replace (k - k `min` length out)%nat with 0%nat by (unfold k; lia). done. }
  pose proof (poke_app (take k text) x (drop (S k) out) 0) as P. rewrite Hk in P. rewrite P. cbn [mbind option_bind]. unfold store_cstr. cbn [wbuf].
  rewrite <- Ht, Hk. done.
Qed.

Lemma snprintf_zero out fmt args text r :
  vfprintf fmt args = Some (text, r) -> vsnprintf out 0 fmt args = Some (out, r).
Proof.
  intros Hv. unfold vsnprintf. rewrite Hv. cbn [mbind option_bind].
  destruct text as [|c text]; reflexivity.
Qed.

Lemma sprintf_ok out fmt args text r :
  vfprintf fmt args = Some (text, r) -> Z.of_nat (length text) < 2^32 - 1 -> (length text < length out)%nat ->
  sprintf out fmt args = Some (store_cstr text out, r).
Proof.
  intros Hv Ht Hl. unfold sprintf, vsnprintf. rewrite Hv. cbn [mbind option_bind].
  change (to_u32 (2^64 - 1)) with (2^32 - 1).
  pose proof (memwrite_fixed (fun _ => false) 0 (2^32 - 1) text [] out) as H. cbn [length] in H.
  change (Z.of_nat 0) with 0 in H.
  replace (Z.to_nat (Z.min (Z.of_nat (length text)) (2^32 - 1 - 1 - 0))) with (length text) in H by lia.
  rewrite H; [|lia|lia|simpl; lia|done]. cbn [mbind option_bind].
  unfold memflush. cbn [wbuf wp wcapa growmem app plus].
  rewrite decide_True by lia. rewrite take_ge by lia.
  destruct (split_at out (length text) Hl) as [x Hx].
  assert (drop (length text) out = x :: drop (S (length text)) out) as ->.
  { rewrite Hx at 1. rewrite drop_app_ge by (rewrite take_length; lia).
    rewrite take_length. replace (length text - length text `min` length out)%nat with 0%nat by lia. done. }
  rewrite poke_app. reflexivity.
Qed.

Lemma snprintf_4g out fmt args text r :
  vfprintf fmt args = Some (text, r) -> vsnprintf out (2^32) fmt args = Some (out, r).
Proof.
  intros Hv. unfold vsnprintf. rewrite Hv. cbn [mbind option_bind].
  destruct text as [|c text]; reflexivity.
Qed.

(** * open_memstream *)

(** [data] has been written: either nothing is allocated yet, or the capacity
    is [16 * 2^k], the data fills more than half of it (unless k = 0) and
    leaves at least one byte. *)
Definition inv (f : mfile) (data : list Z) : Prop :=
  growmem f = true /\ wp f = Z.of_nat (length data) /\
  ((data = [] /\ wcapa f = 0 /\ wbuf f = []) \/
   exists k tl, wbuf f = data ++ tl /\ tl <> [] /\ 0 <= k /\
     wcapa f = Z.of_nat (length (wbuf f)) /\ wcapa f = 2 ^ (k + 4) /\
     (k = 0 \/ 2 ^ (k + 3) <= Z.of_nat (length data)) /\ data <> []).

Section grow.
  Context (alloc : Z -> bool) (junk : Z) (Halloc : forall n, alloc n = true).

  Lemma write_byte f data c buf :
    inv f data -> Z.of_nat (length data) < 2^30 - 1 ->
    exists f', memwrite alloc junk f (c :: buf) = memwrite alloc junk f' buf /\ inv f' (data ++ [c]).
  Proof.
    intros (Hg & Hwp & Hcase) Hlen. cbn [memwrite]. rewrite Hwp.
    rewrite to_u32_small by lia. rewrite Hg.
    destruct Hcase as [(-> & Hcap & Hbuf)|(k & tl & Hbuf & Htl & Hk & Hcl & Hcap & Hhalf & Hne)].
    - rewrite Hcap, decide_True by (simpl; lia).
      unfold grow. rewrite Hcap. change (to_s32 (to_u32 (0 * 2))) with 0. cbn [Z.mul].
      change (to_s32 (to_u32 0)) with 0.
      rewrite decide_True by lia. rewrite Halloc. rewrite Hbuf. cbn [length].
      change (Z.to_nat 16) with (length ([] : list Z) + 16)%nat. cbn [length plus Nat.sub].
      cbn [wbuf wp]. rewrite Hwp. rewrite take_nil. cbn [app].
      eexists. split.
      { cbn [length]. change (Z.of_nat 0) with (Z.of_nat (length ([] : list Z))).
        change (replicate 16 junk) with ([] ++ junk :: replicate 15 junk).
        rewrite poke_app. cbn [mbind option_bind]. reflexivity. }
      split_and!; [done|reflexivity|]. right. exists 0, (replicate 15 junk).
      split_and!; try done. by left.
    - assert (Hroom : wcapa f = Z.of_nat (length data) + Z.of_nat (length tl)).
      { rewrite Hcl, Hbuf, app_length. lia. }
      assert (length tl <> 0%nat) by (by destruct tl).
      destruct (decide (wcapa f <= Z.of_nat (length data) + 1)) as [Hf|Hf].
      + (* grow *)
        assert (Htl1 : length tl = 1%nat) by lia.
        assert (Hk25 : k < 26).
        { apply Z.nle_gt. intros Hge. assert (2 ^ 30 <= 2 ^ (k + 4)) by (apply Z.pow_le_mono_r; lia). lia. }
        assert (Hpow : 2 ^ (k + 4) < 2 ^ 30) by (apply Z.pow_lt_mono_r; lia).
        assert (Hpow0 : 16 <= 2 ^ (k + 4)).
        { change 16 with (2 ^ 4). apply Z.pow_le_mono_r; lia. }
        unfold grow. rewrite (to_u32_small (wcapa f * 2)), to_s32_small by lia.
        rewrite decide_False by lia. rewrite Halloc. cbn [wbuf wp wcapa growmem]. rewrite Hwp.
        assert (Hlb : length (wbuf f) = Z.to_nat (wcapa f)) by lia.
        rewrite take_ge by lia.
        set (extra := replicate _ junk).
        assert (Hex : length extra = Z.to_nat (wcapa f)).
        { unfold extra. rewrite replicate_length. lia. }
        clearbody extra.
        destruct tl as [|x tl]; [done|]. destruct tl; [|simpl in Htl1; lia].
        eexists. split.
        { rewrite Hbuf, <- app_assoc. cbn [app]. rewrite poke_app. cbn [mbind option_bind].
          rewrite Hg. reflexivity. }
        split_and!; [done|cbn [wp]; rewrite app_length; simpl; rewrite to_u32_small; lia|].
        right. exists (k + 1), extra. cbn [wbuf wcapa]. rewrite !app_length. cbn [length].
        assert (2 ^ (k + 1 + 4) = 2 * 2 ^ (k + 4)) as Hp2.
        { replace (k + 1 + 4) with (Z.succ (k + 4)) by lia. rewrite Z.pow_succ_r by lia. lia. }
        split_and!.
        * by rewrite <- app_assoc.
        * intros ->. simpl in Hex. lia.
        * lia.
        * cbn [length] in Hroom. lia.
        * lia.
        * right. replace (k + 1 + 3) with (k + 4) by lia. cbn [length] in Hroom. lia.
        * by destruct data.
      + destruct tl as [|x tl]; [done|].
        eexists. split.
        { rewrite Hbuf, poke_app. cbn [mbind option_bind]. reflexivity. }
        split_and!; [done|cbn [wp]; rewrite app_length; simpl; lia|].
        right. exists k, tl. cbn [wbuf wcapa]. rewrite !app_length. cbn [length].
        rewrite Hbuf, app_length in Hcl. cbn [length] in *.
        split_and!; try done.
        * by rewrite <- app_assoc.
        * intros ->. simpl in *. lia.
        * destruct Hhalf; [by left|right; lia].
        * by destruct data.
  Qed.

  Lemma write_ok buf : forall f data, inv f data -> Z.of_nat (length (data ++ buf)) < 2^30 ->
    exists f', memwrite alloc junk f buf = Some f' /\ inv f' (data ++ buf).
  Proof.
    induction buf as [|c buf IH]; intros f data Hi Hl.
    - exists f. split; [done|]. by rewrite app_nil_r.
    - rewrite app_length in Hl. cbn [length] in Hl.
      destruct (write_byte f data c buf Hi ltac:(lia)) as (f' & -> & Hi').
      destruct (IH f' (data ++ [c]) Hi') as (f2 & -> & Hi2).
      { rewrite !app_length. simpl. lia. }
      exists f2. split; [done|]. by rewrite <- app_assoc in Hi2.
  Qed.

  Lemma flush_ok s data : inv (file s) data ->
    exists s', memflush2 s = Some s' /\ inv (file s') data /\
      exists r, published s' = Some r /\
        (if decide (data = []) then r = (None, 0) else publishes r data).
  Proof.
    intros (Hg & Hwp & Hcase). unfold memflush2, memflush.
    destruct Hcase as [(-> & Hcap & Hbuf)|(k & tl & Hbuf & Htl & Hk & Hcl & Hcap & Hhalf & Hne)].
    - rewrite decide_False by (simpl in Hwp; lia). cbn [mbind option_bind].
      eexists. split; [reflexivity|]. cbn [file published]. split.
      { split_and!; [done|done|]. by left. }
      eexists. split; [reflexivity|]. rewrite decide_True by done. rewrite decide_True by done. by rewrite Hwp.
    - assert (length tl <> 0%nat) by (by destruct tl).
      assert (Hroom : wcapa (file s) = Z.of_nat (length data) + Z.of_nat (length tl)).
      { rewrite Hcl, Hbuf, app_length. lia. }
      rewrite decide_True by lia. destruct tl as [|x tl]; [done|].
      rewrite Hwp, Hbuf, poke_app. cbn [mbind option_bind].
      eexists. split; [reflexivity|]. cbn [file published wbuf wp wcapa growmem].
      assert (Hlen : Z.of_nat (length (data ++ 0 :: tl)) = wcapa (file s)).
      { rewrite app_length. cbn [length] in *. lia. }
      split.
      + split_and!; [done|done|]. right. exists k, (0 :: tl). cbn [wbuf wcapa]. split_and!; done.
      + eexists. split; [reflexivity|].
        rewrite (decide_False (P := data = [])) by done.
        rewrite decide_False.
        * exists (data ++ 0 :: tl), tl. done.
        * intros H0. rewrite H0 in Hcap. assert (0 < 2 ^ (k + 4)) by (apply Z.pow_pos_nonneg; lia). lia.
  Qed.

  Lemma run_ok ops : forall s data, inv (file s) data -> Z.of_nat (length (data ++ written ops)) < 2^30 ->
    exists s', run alloc junk s ops = Some s' /\ inv (file s') (data ++ written ops).
  Proof.
    induction ops as [|[d|] ops IH]; intros s data Hi Hl; cbn [run written] in *.
    - exists s. rewrite app_nil_r. done.
    - destruct (write_ok d (file s) data Hi) as (f & -> & Hf).
      { rewrite !app_length in *. lia. }
      cbn [mbind option_bind]. destruct (IH (MemStream f (published s)) (data ++ d) Hf) as (s' & -> & Hs').
      { by rewrite <- app_assoc. }
      exists s'. by rewrite <- app_assoc in Hs'.
    - destruct (flush_ok s data Hi) as (s1 & -> & Hs1 & _). cbn [mbind option_bind]. by apply IH.
  Qed.

  Lemma open_inv : inv (file open_memstream) [].
  Proof. split_and!; [done|done|]. by left. Qed.

  Lemma session_ok ops : written ops <> [] -> Z.of_nat (length (written ops)) < 2^30 ->
    exists r, session alloc junk ops = Some (Some r) /\ publishes r (written ops).
  Proof.
    intros Hne Hl. unfold session.
    destruct (run_ok ops open_memstream [] open_inv Hl) as (s & -> & Hs). cbn [mbind option_bind].
    destruct (flush_ok s _ Hs) as (s' & -> & _ & r & Hr & Hp). cbn [mbind option_bind].
    rewrite Hr. exists r. split; [done|]. simpl in Hp. by rewrite decide_False in Hp.
  Qed.

  Lemma session_empty ops : written ops = [] -> session alloc junk ops = Some (Some (None, 0)).
  Proof.
    intros He. unfold session.
    destruct (run_ok ops open_memstream [] open_inv) as (s & -> & Hs); [by rewrite He|]. cbn [mbind option_bind].
    destruct (flush_ok s _ Hs) as (s' & -> & _ & r & Hr & Hp). cbn [mbind option_bind].
    rewrite Hr. rewrite decide_True in Hp by done. by subst r.
  Qed.

  (** A flush in the middle publishes what has been written so far. *)
  Lemma mid_flush ops : written ops <> [] -> Z.of_nat (length (written ops)) < 2^30 ->
    exists s r, run alloc junk open_memstream (ops ++ [MFlush]) = Some s /\ published s = Some r /\
      publishes r (written ops).
  Proof.
    intros Hne Hl.
    destruct (run_ok ops open_memstream [] open_inv Hl) as (s & Hs & Hi).
    destruct (flush_ok s _ Hi) as (s' & Hf & _ & r & Hr & Hp).
    exists s', r. split_and!; [|done|simpl in Hp; by rewrite decide_False in Hp].
    assert (Happ : forall a b s0, run alloc junk s0 (a ++ b) =
              (s1 ← run alloc junk s0 a; run alloc junk s1 b)).
    { clear. induction a as [|[d|] a IH]; intros b s0; cbn [app run]; [done| |].
      - destruct (memwrite alloc junk (file s0) d); [|done]. simpl. apply IH.
      - destruct (memflush2 s0); [|done]. simpl. apply IH. }
    rewrite Happ, Hs. cbn [mbind option_bind run]. by rewrite Hf.
  Qed.

  (** One byte more than 2^30 - 1: [newsiz] overflows. *)
  Lemma huge data c : Z.of_nat (length data) = 2^30 - 1 ->
    run alloc junk open_memstream [MWrite data; MWrite [c]] = None.
  Proof.
    intros Hl. cbn [run]. destruct (write_ok data (file open_memstream) [] open_inv) as (f & -> & Hf).
    { simpl. lia. }
    cbn [mbind option_bind file]. destruct Hf as (Hg & Hwp & Hcase). cbn [app] in *.
    assert (data <> []) as Hne by (intros ->; simpl in Hl; lia).
    destruct Hcase as [(-> & _)|(k & tl & Hbuf & Htl & Hk & Hcl & Hcap & Hhalf & _)]; [done|].
    assert (length tl <> 0%nat) by (by destruct tl).
    assert (Hroom : wcapa f = Z.of_nat (length data) + Z.of_nat (length tl)).
    { rewrite Hcl, Hbuf, app_length. lia. }
    assert (k = 26).
    { assert (~ k < 26).
      { intros Hlt. assert (2 ^ (k + 4) <= 2 ^ 29) by (apply Z.pow_le_mono_r; lia). lia. }
      assert (~ 26 < k).
      { intros Hgt. destruct Hhalf as [->|Hhalf]; [lia|].
        assert (2 ^ 30 <= 2 ^ (k + 3)) by (apply Z.pow_le_mono_r; lia). lia. }
      lia. }
    subst k. cbn [memwrite]. rewrite Hwp, Hl. change (to_u32 (2^30 - 1 + 1)) with (2^30).
    change (2 ^ (26 + 4)) with (2^30) in Hcap.
    rewrite decide_True by lia. rewrite Hg. unfold grow. rewrite Hcap.
    change (to_s32 (to_u32 (2 ^ 30 * 2))) with (-2^31). rewrite decide_True by lia.
    rewrite Halloc. cbn [wbuf wp]. rewrite Hwp.
    unfold poke. rewrite decide_False; [done|].
    rewrite app_length, take_length, replicate_length. lia.
  Qed.
End grow.

(** realloc fails: the byte is dropped and the write still reports success. *)
Lemma alloc_failure :
  session (fun n => n <=? 16) 0 [MWrite (replicate 15 7); MWrite [8; 9]] =
    Some (Some (Some (replicate 15 7 ++ [0]), 15)).
Proof. vm_compute. reflexivity. Qed.
Lemma alloc_failure_ex : exists alloc junk ops r,
  written ops <> [] /\ session alloc junk ops = Some (Some r) /\ ~ publishes r (written ops).
Proof.
  exists (fun n => n <=? 16), 0, [MWrite (replicate 15 7); MWrite [8; 9]], (Some (replicate 15 7 ++ [0]), 15).
  split_and!; [done|exact alloc_failure|]. intros (b & tl & _ & _ & H). discriminate.
Qed.
Lemma session_empty_ex alloc junk : (forall n, alloc n = true) -> exists ops r,
  session alloc junk ops = Some (Some r) /\ ~ publishes r (written ops).
Proof.
  intros H. exists [MFlush], (None, 0). split; [by apply session_empty|]. intros (b & tl & E & _). discriminate.
Qed.
Lemma huge_ex alloc junk : (forall n, alloc n = true) -> exists ops, session alloc junk ops = None.
Proof.
  intros H. exists [MWrite (replicate (Z.to_nat (2^30 - 1)) 0); MWrite [1]]. unfold session.
  rewrite huge; [done|done|]. rewrite replicate_length. rewrite Z2Nat.id; [reflexivity|discriminate].
Qed.
