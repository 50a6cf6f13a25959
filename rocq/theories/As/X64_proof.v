(** Proofs about the decoder, and the way from headers to instructions. *)
From stdpp Require Import base numbers list.
From Verif Require Import As.X64_model As.X64_spec.
From Coq Require Import Lia ZArith.
Open Scope Z_scope.

Global Instance mn_dec : EqDecision mn. Proof. solve_decision. Defined.
Global Instance mem_dec : EqDecision mem. Proof. solve_decision. Defined.
Global Instance opd_dec : EqDecision opd. Proof. solve_decision. Defined.
Global Instance tmpl_dec : EqDecision tmpl. Proof. solve_decision. Defined.
Global Instance shape_dec : EqDecision shape. Proof. solve_decision. Defined.

(** ** What follows does not matter to a header *)

Lemma prefixes_app p l px r tl : prefixes p l = Some (px, r) -> prefixes p (l ++ tl) = Some (px, r ++ tl).
Proof.
  revert p; induction l as [|b l IH]; intros p H; [done|]. cbn [prefixes app] in *.
  repeat case_match; eauto; simplify_eq; done.
Qed.

Lemma modrm_app p x l a r tl : modrm p x l = Some (a, r) -> modrm p x (l ++ tl) = Some (a, r ++ tl).
Proof.
  destruct l as [|b l]; [done|]. unfold modrm. cbn [app].
  destruct (_ =? 3); [intros; simplify_eq; done|].
  destruct (_ =? 4).
  - destruct l as [|s l]; [done|]. cbn [app]. destruct (_ && _); intros; simplify_eq; done.
  - destruct (_ && _); intros; simplify_eq; done.
Qed.

Lemma with_rm_app p x f k l s r tl : with_rm p x f k l = Some (s, r) -> with_rm p x f k (l ++ tl) = Some (s, r ++ tl).
Proof.
  unfold with_rm. destruct (modrm p x l) as [[[rg rm] r0]|] eqn:E; [|done].
  rewrite (modrm_app _ _ _ _ _ tl E).
  destruct rm; destruct (k _ _) as [[[[? ?] ?] ?]|]; intros; simplify_eq; done.
Qed.

Lemma one_app p x b l s r tl : one p x b l = Some (s, r) -> one p x b (l ++ tl) = Some (s, r ++ tl).
Proof.
  unfold one.
  destruct ((b <? 0x40) && (b mod 8 <? 6)).
  { destruct (nth_mn _ _); [|done].
    destruct (b mod 8 <? 2); [apply with_rm_app|]. destruct (b mod 8 <? 4); [apply with_rm_app|].
    intros; simplify_eq; done. }
  do 25 (match goal with
    | |- (if (b =? 0xfe) || _ then _ else _) = _ -> _ => fail 1
    | |- (if ?c then _ else _) = _ -> _ => destruct c; [first [apply with_rm_app | intros; simplify_eq; done
        | destruct (rexw x); [apply with_rm_app | done]]|]
    end || idtac).
  destruct (b =? 0xfe); cbn [orb]; [apply with_rm_app|].
  destruct (b =? 0xff); cbn [andb]; [|done].
  destruct l as [|c l]; [intros H; cbn in H; discriminate|]. cbn [app].
  destruct (_ <? 2); change (c :: l ++ tl) with ((c :: l) ++ tl); apply with_rm_app.
Qed.

Lemma two_app p x b l s r tl : two p x b l = Some (s, r) -> two p x b (l ++ tl) = Some (s, r ++ tl).
Proof.
  unfold two. destruct (b =? 0x05); [intros; simplify_eq; done|].
  destruct (b =? 0x1e). { destruct l as [|c l]; [done|]. cbn [app]. destruct (_ && _); intros; simplify_eq; done. }
  repeat match goal with
    | |- (if ?c then _ else _) = _ -> _ => destruct c
    | |- match fprec p with _ => _ end = _ -> _ => destruct (fprec p)
    | |- with_rm _ _ _ _ _ = _ -> _ => apply with_rm_app
    | |- None = _ -> _ => done
    end.
Qed.

Lemma header_app l s r tl : header l = Some (s, r) -> header (l ++ tl) = Some (s, r ++ tl).
Proof.
  unfold header. destruct (prefixes _ l) as [[[p x] [|b r0]]|] eqn:E; try done.
  rewrite (prefixes_app _ _ _ _ tl E). cbn [app].
  destruct (b =? 0x0f); [|apply one_app].
  destruct r0 as [|c r1]; [done|]. cbn [app]. apply two_app.
Qed.

(** ** Numbers *)

Lemma take_im n v tl : take_le n (im n v ++ tl) = Some (v mod 2 ^ (8 * Z.of_nat n), tl).
Proof.
  revert v; induction n as [|n IH]; intros v; cbn [take_le im app].
  - rewrite Z.mod_1_r. done.
  - rewrite IH. do 2 f_equal.
    replace (8 * Z.of_nat (S n)) with (8 + 8 * Z.of_nat n) by lia.
    rewrite Z.pow_add_r by lia. rewrite Z.rem_mul_r by lia.
    rewrite Z.shiftr_div_pow2 by lia. change (2 ^ 8) with 256. done.
Qed.

Lemma im_bytes n v : Forall byte (im n v).
Proof.
  revert v; induction n as [|n IH]; intros v; cbn [im]; constructor; [|done].
  unfold byte. apply Z.mod_pos_bound. lia.
Qed.

Definition sgn (n : nat) (v : Z) : Z := to_signed n (v mod 2 ^ (8 * Z.of_nat n)).

Lemma sgn1 v : is_im8 v = true -> sgn 1 v = v.
Proof.
  unfold is_im8, sgn, to_signed. rewrite andb_true_iff, !Z.leb_le. intros [? ?].
  change (2 ^ (8 * Z.of_nat 1)) with 256. change (2 ^ (8 * Z.of_nat 1 - 1)) with 128.
  destruct (Z.ltb_spec (v mod 256) 128); destruct (decide (0 <= v));
    pose proof (Z.mod_pos_bound v 256 ltac:(lia)); pose proof (Z.div_mod v 256 ltac:(lia)); nia.
Qed.
Lemma sgn4 v : fits32 v = true -> sgn 4 v = v.
Proof.
  unfold fits32, sgn, to_signed. rewrite andb_true_iff, Z.leb_le, Z.ltb_lt. intros [? ?].
  change (2 ^ (8 * Z.of_nat 4)) with 4294967296. change (2 ^ (8 * Z.of_nat 4 - 1)) with 2147483648.
  destruct (Z.ltb_spec (v mod 4294967296) 2147483648); destruct (decide (0 <= v));
    pose proof (Z.mod_pos_bound v 4294967296 ltac:(lia)); pose proof (Z.div_mod v 4294967296 ltac:(lia)); lia.
Qed.
Lemma fits32_im32 v : fits32 v = is_im32 v.
Proof. unfold fits32, is_im32. rewrite andb_comm. f_equal. destruct (Z.leb_spec v (2 ^ 31 - 1)), (Z.ltb_spec v (2 ^ 31)); lia. Qed.
Lemma sgn0 v : sgn 0 v = 0.
Proof. done. Qed.

(** The bytes of a constant of the size of the operand give the constant. *)
Lemma const_sgn sz n v : 0 <= sz -> (1 <= n)%nat -> bits sz <= 8 * Z.of_nat n -> const sz (sgn n v) = const sz v.
Proof.
  intros Hs Hn Hb. unfold const, sgn, to_signed. destruct n as [|n]; [lia|]. f_equal.
  set (k := 8 * Z.of_nat (S n)) in *.
  assert (Hk : 2 ^ k = 2 ^ bits sz * 2 ^ (k - bits sz)).
  { rewrite <- Z.pow_add_r; [f_equal; lia| |lia]. unfold bits. pose proof (Z.pow_pos_nonneg 2 sz). lia. }
  assert (0 < 2 ^ bits sz). { apply Z.pow_pos_nonneg; [lia|]. unfold bits. pose proof (Z.pow_pos_nonneg 2 sz). lia. }
  assert (0 < 2 ^ (k - bits sz)) by (apply Z.pow_pos_nonneg; lia).
  assert (E : v mod 2 ^ k = v + (- (v / 2 ^ k) * 2 ^ (k - bits sz)) * 2 ^ bits sz).
  { pose proof (Z.div_mod v (2 ^ k)). nia. }
  destruct (_ <? _).
  - rewrite E. apply Z_mod_plus_full.
  - rewrite E. replace (v + - (v / 2 ^ k) * 2 ^ (k - bits sz) * 2 ^ bits sz - 2 ^ k)
      with (v + (- (v / 2 ^ k) * 2 ^ (k - bits sz) - 2 ^ (k - bits sz)) * 2 ^ bits sz) by (rewrite Hk; ring).
    apply Z_mod_plus_full.
Qed.

(** ** Finite checks *)

Definition byteb (b : Z) : bool := (0 <=? b) && (b <? 256).
Definition chk (h : list Z) (m : mn) (sz : Z) (ops : list tmpl) (nd ni : nat) : bool :=
  forallb byteb h && bool_decide (header h = Some (Sh m sz ops nd ni, [])).

Definition imp (a b : bool) : bool := if a then b else true.
Lemma imp_true a b : a = true -> imp a b = true -> b = true.
Proof. intros ->. done. Qed.

Definition zs (n : Z) : list Z := map Z.of_nat (seq 0 (Z.to_nat n)).
Definition allz (n : Z) (f : Z -> bool) : bool := forallb f (zs n).
Lemma allz_spec n f k : 0 <= k < n -> allz n f = true -> f k = true.
Proof.
  unfold allz, zs. rewrite forallb_forall. intros Hk H. apply H. apply in_map_iff. exists (Z.to_nat k). split; [lia|]. apply in_seq. lia.
Qed.
Definition allr (f : reg -> bool) : bool :=
  allz 4 (fun s => allz 8 (fun n => allz 3 (fun x => imp (reg_ok (Reg s n x)) (f (Reg s n x))))).
Lemma allr_spec f r : reg_ok r = true -> allr f = true -> f r = true.
Proof.
  unfold allr. intros Hr H. destruct r as [s n x]. pose proof Hr as Hr0. unfold reg_ok in Hr. cbn [size no X64_model.x] in Hr.
  repeat rewrite ?andb_true_iff, ?orb_true_iff, ?Z.leb_le, ?Z.eqb_eq in Hr.
  eapply (allz_spec _ _ s) in H; [|lia]. eapply (allz_spec _ _ n) in H; [|lia]. eapply (allz_spec _ _ x) in H; [|lia].
  exact (imp_true _ _ Hr0 H).
Qed.
Definition all64 (f : reg -> bool) : bool := allz 8 (fun n => allz 2 (fun x => f (Reg 3 n x))).
Lemma all64_spec f r : r64 r = true -> all64 f = true -> f r = true.
Proof.
  unfold all64, r64. intros Hr H. destruct r as [s n x]. unfold reg_ok in Hr. cbn [size no X64_model.x] in Hr.
  repeat rewrite ?andb_true_iff, ?orb_true_iff, ?Z.leb_le, ?Z.eqb_eq in Hr.
  assert (s = 3) as -> by lia.
  eapply (allz_spec _ _ n) in H; [|lia]. eapply (allz_spec _ _ x) in H; [|lia]. exact H.
Qed.
(** offset = 0 and is_im8 of it *)
Definition all3 (f : bool -> bool -> bool) : bool := f true true && f false true && f false false.
Lemma all3_spec f off : all3 f = true -> f (off =? 0) (is_im8 off) = true.
Proof.
  unfold all3. rewrite !andb_true_iff. intros [[? ?] ?].
  destruct (Z.eqb_spec off 0) as [->|]; [done|]. destruct (is_im8 off); done.
Qed.

Lemma chk_bytes h m sz ops nd ni off v : chk h m sz ops nd ni = true -> Forall byte (h ++ im nd off ++ im ni v).
Proof.
  unfold chk. rewrite andb_true_iff, forallb_forall. intros [H _].
  rewrite !Forall_app. split_and!; try apply im_bytes.
  apply Forall_forall. intros b Hb%elem_of_list_In. specialize (H b Hb). unfold byteb in H.
  rewrite andb_true_iff, Z.leb_le, Z.ltb_lt in H. exact H.
Qed.
Lemma chk_decode h m sz ops nd ni off v tl : chk h m sz ops nd ni = true ->
  decode ((h ++ im nd off ++ im ni v) ++ tl) = Some (D m sz (map (fill (sgn nd off) (sgn ni v)) ops), tl).
Proof.
  unfold chk. rewrite andb_true_iff, bool_decide_eq_true. intros [_ H].
  unfold decode. rewrite <- !app_assoc. rewrite (header_app _ _ _ _ H). cbn [app sdisp simm].
  rewrite take_im. cbn [sdisp simm]. rewrite take_im. done.
Qed.

(** A checked header, the displacement and the immediate: an instruction as written. *)
Lemma encoded_by i h m sz ops nd ni off v :
  assemble i = Bytes (h ++ im nd off ++ im ni v) -> chk h m sz ops nd ni = true ->
  meaning i = D m sz (map (fill (sgn nd off) (sgn ni v)) ops) -> encoded i.
Proof.
  intros Ha Hc Hm. exists (h ++ im nd off ++ im ni v). split; [done|]. split; [eapply chk_bytes, Hc|].
  intros tl. rewrite Hm. apply chk_decode, Hc.
Qed.

Definition ndisp (nothing e : bool) : nat := if nothing then 0 else if e then 1 else 4.
Lemma put_offset_im nothing v : put_offset nothing v = im (ndisp nothing (is_im8 v)) v.
Proof. unfold put_offset, ndisp. destruct nothing; [done|]. destruct (is_im8 v); done. Qed.
Lemma sgn_ndisp b v : fits32 v = true -> (b = true -> v = 0) -> sgn (ndisp b (is_im8 v)) v = v.
Proof.
  intros Hv Hb. unfold ndisp. destruct b; [rewrite Hb by done; done|].
  destruct (is_im8 v) eqn:E; [apply sgn1, E|apply sgn4, Hv].
Qed.
