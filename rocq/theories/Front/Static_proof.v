From stdpp Require Import base list numbers.
From Coq Require Import Lia ZArith.
From Verif Require Import Front.Layout_model Front.Layout_spec Front.Layout_proof Front.Static_model Front.Static_spec.
Local Open Scope Z_scope.

(** ** Bytes *)
Lemma le_length n z : length (le n z) = n.
Proof. revert z. induction n as [|n IH]; intros z; cbn; [done|]. rewrite IH. done. Qed.
Lemma le_zero n : le n 0 = replicate n 0.
Proof. induction n as [|n IH]; cbn; [done|]. f_equal. exact IH. Qed.
Lemma unle_le n z : unle (le n z) = z mod 256 ^ Z.of_nat n.
Proof.
  revert z. induction n as [|n IH]; intros z; [cbn; rewrite Z.mod_1_r; done|]. cbn [le unle]. rewrite IH.
  rewrite Nat2Z.inj_succ, Z.pow_succ_r by lia. rewrite Z.rem_mul_r by (try lia; apply Z.pow_nonzero; lia). done.
Qed.
Lemma le_mod n z : le n (z mod 256 ^ Z.of_nat n) = le n z.
Proof.
  revert z. induction n as [|n IH]; intros z; [done|]. cbn [le]. rewrite Nat2Z.inj_succ, Z.pow_succ_r by lia.
  rewrite Z.rem_mul_r by (try lia; apply Z.pow_nonzero; lia). f_equal.
  - rewrite Z.mul_comm, Z_mod_plus_full, Z.mod_mod by lia. done.
  - rewrite (Z.mul_comm 256), Z.div_add by lia. rewrite (Z.div_small (z mod 256)) by (apply Z.mod_pos_bound; lia). apply IH.
Qed.

Definition zeros (n : Z) : list Z := replicate (Z.to_nat n) 0.
Lemma zeros_length n : 0 <= n -> Z.of_nat (length (zeros n)) = n.
Proof. intros H. unfold zeros. rewrite replicate_length. lia. Qed.
Lemma zeros_add a b : 0 <= a -> 0 <= b -> zeros (a + b) = zeros a ++ zeros b.
Proof. intros H1 H2. unfold zeros. rewrite Z2Nat.inj_add by lia. apply replicate_add. Qed.

(** ** Stores *)
Definition in_range (n : Z) (s : store) : Prop :=
  match s with Bytes o bs => 0 <= o /\ o + Z.of_nat (length bs) <= n | Bits o unit _ _ _ => 0 <= o /\ 0 <= unit /\ o + unit <= n end.
Lemma in_range_shift n d N s : 0 <= d -> d + n <= N -> in_range n s -> in_range N (shift d s).
Proof. destruct s; cbn; lia. Qed.
Lemma patch_length o bs m : (o + length bs <= length m)%nat -> length (patch o bs m) = length m.
Proof. intros H. unfold patch. rewrite !app_length, take_length, drop_length. lia. Qed.
Lemma apply_length m s : in_range (Z.of_nat (length m)) s -> length (apply_store m s) = length m.
Proof.
  destruct s as [o bs|o unit pos w v]; cbn; intros H; apply patch_length; [lia|]. rewrite le_length. lia.
Qed.
Lemma stores_length L m : Forall (in_range (Z.of_nat (length m))) L -> length (foldl apply_store m L) = length m.
Proof.
  revert m. induction L as [|s L IH]; intros m H; [done|]. apply stdpp.list.Forall_cons in H as [H1 H2]. cbn.
  rewrite IH; rewrite apply_length; done.
Qed.
Lemma patch_frame pre m post o bs : (o + length bs <= length m)%nat ->
  patch (length pre + o) bs (pre ++ m ++ post) = pre ++ patch o bs m ++ post.
Proof.
  intros H. unfold patch. rewrite take_app_ge by lia. replace (length pre + o - length pre)%nat with o by lia.
  rewrite take_app_le by lia. rewrite drop_app_ge by lia. replace (length pre + o + length bs - length pre)%nat with (o + length bs)%nat by lia.
  rewrite drop_app_le by lia. rewrite <- !app_assoc. done.
Qed.
Lemma apply_frame pre m post s : in_range (Z.of_nat (length m)) s ->
  apply_store (pre ++ m ++ post) (shift (Z.of_nat (length pre)) s) = pre ++ apply_store m s ++ post.
Proof.
  destruct s as [o bs|o unit pos w v]; cbn; intros H.
  - replace (Z.to_nat (Z.of_nat (length pre) + o)) with (length pre + Z.to_nat o)%nat by lia. apply patch_frame. lia.
  - replace (Z.to_nat (Z.of_nat (length pre) + o)) with (length pre + Z.to_nat o)%nat by lia.
    rewrite patch_frame by (rewrite le_length; lia). do 3 f_equal. f_equal. f_equal. f_equal.
    rewrite drop_app_ge by lia. replace (length pre + _ - length pre)%nat with (Z.to_nat o) by lia.
    rewrite drop_app_le by lia. rewrite take_app_le; [done|]. rewrite drop_length. lia.
Qed.
Lemma stores_frame pre m post L : Forall (in_range (Z.of_nat (length m))) L ->
  foldl apply_store (pre ++ m ++ post) (shift (Z.of_nat (length pre)) <$> L) = pre ++ foldl apply_store m L ++ post.
Proof.
  revert m. induction L as [|s L IH]; intros m H; [done|]. apply stdpp.list.Forall_cons in H as [H1 H2]. cbn [fmap list_fmap foldl].
  rewrite apply_frame by done. apply IH. rewrite apply_length by done. done.
Qed.
Lemma shift_add a b s : shift a (shift b s) = shift (a + b) s.
Proof. destruct s; cbn; f_equal; lia. Qed.
Lemma shift_zero s : shift 0 s = s.
Proof. destruct s; cbn; f_equal; lia. Qed.

(** ** Output *)
Lemma assemble_app env pos a b : assemble env pos (a ++ b) = assemble env pos a ++ assemble env (pos + Z.of_nat (length (assemble env pos a))) b.
Proof.
  revert pos. induction a as [|e a IH]; intros pos; [cbn; rewrite Z.add_0_r; done|]. cbn [app assemble].
  set (out := match e with EAlign _ => _ | ENum _ _ _ => _ | EStr _ _ => _ end). rewrite IH, <- app_assoc. do 2 f_equal.
  rewrite app_length. f_equal. lia.
Qed.

Lemma pow2_facts a : pow2 a -> 0 < a.
Proof. unfold pow2. lia. Qed.
Lemma ALIGN_same x a : pow2 a -> x mod a = 0 -> ALIGN x a = x.
Proof.
  intros Ha Hx. pose proof (pow2_facts a Ha). destruct (ALIGN_least x a Ha) as (_ & H1 & H2).
  specialize (H2 x ltac:(apply Z.mod_divide; [lia|done]) ltac:(lia)). lia.
Qed.
Lemma ALIGN_shift b x a : pow2 a -> (a | b) -> ALIGN (b + x) a = b + ALIGN x a.
Proof.
  intros Ha Hb. destruct (ALIGN_least x a Ha) as (D1 & L1 & M1). destruct (ALIGN_least (b + x) a Ha) as (D2 & L2 & M2).
  apply Z.le_antisymm.
  - apply M2; [apply Z.divide_add_r; done|lia].
  - assert (ALIGN x a <= ALIGN (b + x) a - b) as H; [|lia]. apply M1; [apply Z.divide_sub_r; done|lia].
Qed.
(** [pad_to] advances from [off] to the next multiple. *)
Lemma pad_ok env base off a : pow2 a -> (a | base) ->
  exists evs, pad_to off a = (evs, ALIGN off a) /\ assemble env (base + off) evs = zeros (ALIGN off a - off).
Proof.
  intros Ha Hb. unfold pad_to. destruct (Z.eqb_spec (off mod a) 0) as [E|E].
  - exists []. rewrite ALIGN_same by done. split; [done|]. rewrite Z.sub_diag. done.
  - exists [EAlign a]. split; [done|]. cbn. rewrite ALIGN_shift by done. rewrite app_nil_r.
    destruct (Z.leb_spec a 1) as [H1|H1]; [|unfold zeros; f_equal; lia].
    pose proof (pow2_facts a Ha). assert (a = 1) as -> by lia. rewrite Z.mod_1_r in E. done.
Qed.
Lemma tail_ok lp64 env pos d : 0 <= d -> assemble env pos (tail lp64 d) = zeros d.
Proof.
  intros Hd. unfold tail. destruct (Z.eqb_spec d 0) as [->|H]; [done|]. case_bool_decide.
  - cbn [assemble]. rewrite app_nil_r, le_zero. done.
  - unfold zeros. clear. generalize (Z.to_nat d) as n. intros n. revert pos. induction n as [|n IH]; intros pos; [done|]. cbn. f_equal. apply IH.
Qed.

(** ** Numbers and addresses *)
Lemma number_eval e : number e -> exists z, eval_initial_value e = Some (None, z) /\ forall env, den env e = Some z.
Proof.
  induction 1; cbn; repeat match goal with H : exists _, _ |- _ => destruct H as (? & ? & ?) end;
    repeat match goal with H : eval_initial_value _ = _ |- _ => rewrite H; clear H end;
    try (eexists; split; [reflexivity|]; intros env; repeat match goal with H : forall env, den env _ = _ |- _ => rewrite (H env) end; done).
Qed.
Lemma address_eval e : address e -> exists n z, eval_initial_value e = Some (Some n, z) /\ forall env, den env e = Some (env n + z).
Proof.
  induction 1; cbn;
    repeat match goal with H : number _ |- _ => apply number_eval in H end;
    repeat match goal with H : exists _, _ |- _ => destruct H as (? & H) | H : _ /\ _ |- _ => destruct H end;
    repeat match goal with H : eval_initial_value _ = _ |- _ => rewrite H; clear H end;
    (eexists _, _; split; [reflexivity|]; intros env; repeat match goal with H : forall env, den env _ = _ |- _ => rewrite (H env) end; f_equal; lia).
Qed.
