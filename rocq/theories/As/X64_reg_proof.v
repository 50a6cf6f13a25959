(** Instructions without operands in memory: the headers are checked for all registers, constants are arbitrary. *)
From stdpp Require Import base numbers list.
From Verif Require Import As.X64_model As.X64_spec As.X64_proof.
From Coq Require Import Lia ZArith.
Open Scope Z_scope.

Lemma encoded_plain i h m sz ops :
  assemble i = Bytes h -> chk h m sz ops 0 0 = true -> meaning i = D m sz (map (fill 0 0) ops) -> encoded i.
Proof.
  intros Ha Hc Hm. eapply (encoded_by i h m sz ops 0 0 0 0); [|done|done]. cbn [im]. rewrite !app_nil_r. done.
Qed.
Lemma encoded_imm i h m sz ops n v :
  assemble i = Bytes (h ++ im n v) -> chk h m sz ops 0 n = true ->
  meaning i = D m sz (map (fill 0 (sgn n v)) ops) -> encoded i.
Proof. intros Ha Hc Hm. eapply (encoded_by i h m sz ops 0 n 0 v); done. Qed.

Ltac bools := repeat match goal with
  | H : _ && _ = true |- _ => apply andb_true_iff in H as [? ?]
  | H : (_ =? _) = true |- _ => apply Z.eqb_eq in H
  | H : (_ <=? _) = true |- _ => apply Z.leb_le in H
  | H : (_ <? _) = true |- _ => apply Z.ltb_lt in H
  | H : negb _ = true |- _ => apply negb_true_iff in H
  end.

Lemma reg_size r : reg_ok r = true -> 0 <= size r <= 3.
Proof. unfold reg_ok. intros H. bools. lia. Qed.

(** *** Two registers *)
Definition rr_ops : list (Z * mn) :=
  [(0x88, MOV); (0x84, TEST)] ++ map (fun o => (alu_rr o, mn_alu o)) [Add; Or; And; Sub; Xor; Cmp].
Lemma rr_chk_all : forallb (fun '(op, m) => allr (fun s => allr (fun d => imp ((size s =? size d) && together s d)
  (chk (asm_rr op (size d) s d) m (size d) [TOp (name s); TOp (name d)] 0 0)))) rr_ops = true.
Proof. vm_compute. reflexivity. Qed.
Lemma rr_chk op m s d : In (op, m) rr_ops -> rr s d = true -> together s d = true ->
  chk (asm_rr op (size d) s d) m (size d) [TOp (name s); TOp (name d)] 0 0 = true.
Proof.
  intros Hin Hr Ht. pose proof rr_chk_all as H. rewrite forallb_forall in H. specialize (H _ Hin). cbv beta iota in H.
  unfold rr in Hr. apply andb_true_iff in Hr as [Hr He]. apply andb_true_iff in Hr as [Hs Hd].
  eapply (allr_spec _ s) in H; [|exact Hs]. eapply (allr_spec _ d) in H; [|exact Hd].
  eapply imp_true; [|exact H]. rewrite He, Ht. done.
Qed.
Lemma rr_size s d : rr s d = true -> size s = size d.
Proof. unfold rr. intros H. bools. done. Qed.

Lemma mov_rr_ok s d : rr s d = true -> together s d = true -> encoded (MovRR s d).
Proof.
  intros H T. eapply encoded_plain; [cbn [assemble]; rewrite (rr_size _ _ H); reflexivity|apply (rr_chk 0x88 MOV); [cbn; tauto|done|done]|reflexivity].
Qed.
Lemma test_ok s d : rr s d = true -> together s d = true -> encoded (Test s d).
Proof.
  intros H T. eapply encoded_plain; [cbn [assemble]; rewrite (rr_size _ _ H); reflexivity|apply (rr_chk 0x84 TEST); [cbn; tauto|done|done]|reflexivity].
Qed.
Lemma alu_rr_ok o s d : rr s d = true -> together s d = true -> encoded (AluRR o s d).
Proof.
  intros H T. eapply encoded_plain; [cbn [assemble]; rewrite (rr_size _ _ H)|
    apply (rr_chk (alu_rr o) (mn_alu o)); [destruct o; cbn; tauto|exact H|exact T]|reflexivity].
  destruct o; reflexivity.
Qed.

(** *** Constants *)
Ltac closed := first [lia | vm_compute; lia | vm_compute; congruence].
Lemma const_im32 v : fits32 v = true -> const 3 (sgn 4 v) = const 3 v.
Proof. intros H. rewrite sgn4 by done. done. Qed.
Lemma const_n4 sz v : 0 <= sz <= 3 -> (sz <=? 2) || fits32 v = true -> const sz (sgn (bytes4 sz) v) = const sz v.
Proof.
  intros Hs H. assert (sz = 0 \/ sz = 1 \/ sz = 2 \/ sz = 3) as [->|[->|[->| ->]]] by lia; cbn [bytes4 Z.eqb].
  1-3: apply const_sgn; closed.
  apply const_im32. exact H.
Qed.
Lemma const_im8 sz v : is_im8 v = true -> const sz (sgn 1 v) = const sz v.
Proof. intros H. rewrite sgn1 by done. done. Qed.

Lemma mov_imr_chk : allr (fun d => imp (negb (high d))
  (imp (size d =? 3) (chk [(if x d =? 0 then 0x48 else 0x49); 0xc7; 0xc0 .| no d] MOV (size d) [TIm (size d); TOp (name d)] 0 4) &&
   chk (filtered (MAKE_REX0 (size d) 0 (regno d) (0xb0 .| (if size d =? 0 then 0 else 8) .| no d)))
     MOV (size d) [TIm (size d); TOp (name d)] 0 (bytes (size d)))) = true.
Proof. vm_compute. reflexivity. Qed.
Lemma mov_imr_ok v d : reg_ok d = true -> negb (high d) = true -> encoded (MovImR v d).
Proof.
  intros Hd Hh. pose proof (allr_spec _ d Hd mov_imr_chk) as H. eapply imp_true in H; [|exact Hh].
  apply andb_true_iff in H as [H1 H2]. pose proof (reg_size d Hd) as Hs.
  destruct ((size d =? 3) && is_im32 v) eqn:E.
  - apply andb_true_iff in E as [E1 E2]. eapply imp_true in H1; [|exact E1].
    eapply encoded_imm; [cbn [assemble]; unfold asm_mov_imr; rewrite E1, E2; reflexivity|exact H1|].
    cbn [meaning map fill]. rewrite <- fits32_im32 in E2. apply Z.eqb_eq in E1. rewrite E1, const_im32 by done. done.
  - eapply encoded_imm; [cbn [assemble]; unfold asm_mov_imr; rewrite E; reflexivity|exact H2|].
    cbn [meaning map fill]. rewrite const_sgn; [done|lia| |];
      assert (size d = 0 \/ size d = 1 \/ size d = 2 \/ size d = 3) as [->|[->|[->| ->]]] by lia; closed.
Qed.

Definition imr_chk (h : reg -> list Z) (m : mn) (n : reg -> nat) (c : reg -> bool) : bool :=
  allr (fun d => imp (c d) (chk (h d) m (size d) [TIm (size d); TOp (name d)] 0 (n d))).
Lemma addsub_chk : forallb (fun '(acc, e, m) =>
    imr_chk (fun d => bop_imr_head acc e (size d) (regno d) true) m (fun _ => 1%nat) (fun _ => true) &&
    imr_chk (fun d => bop_imr_head acc e (size d) (regno d) false) m (fun d => bytes4 (size d)) (fun d => negb (size d =? 0)))
  [(0x04, 0xc0, ADD); (0x2c, 0xe8, SUB)] = true.
Proof. vm_compute. reflexivity. Qed.
Lemma addsub_ok o acc e v d : In (acc, e, mn_alu o) [(0x04, 0xc0, ADD); (0x2c, 0xe8, SUB)] ->
  assemble (AluImR o v d) = asm_addsub_imr acc e v d -> reg_ok d = true -> fits32 v = true -> encoded (AluImR o v d).
Proof.
  intros Hin Ha Hd Hv. pose proof addsub_chk as H. rewrite forallb_forall in H. specialize (H _ Hin). cbv beta iota in H.
  apply andb_true_iff in H as [H1 H2]. pose proof (reg_size d Hd) as Hs.
  unfold asm_addsub_imr in Ha. rewrite <- fits32_im32, Hv in Ha. cbv zeta in Ha.
  destruct (is_im8 v || (size d =? 0)) eqn:E.
  - eapply (allr_spec _ d) in H1; [|exact Hd]. cbv beta in H1. cbn [imp] in H1. eapply encoded_imm; [exact Ha|exact H1|].
    cbn [meaning map fill]. apply orb_true_iff in E as [E|E]; [rewrite const_im8 by done; done|].
    apply Z.eqb_eq in E. rewrite E, const_sgn by closed. done.
  - apply orb_false_iff in E as [E1 E2]. eapply (allr_spec _ d) in H2; [|exact Hd]. cbv beta in H2. rewrite E2 in H2. cbn [imp negb] in H2.
    eapply encoded_imm; [exact Ha|exact H2|]. cbn [meaning map fill]. rewrite const_n4; [done|done|]. rewrite Hv. apply orb_true_r.
Qed.

Lemma and_chk : forallb (fun '(acc, e, m) =>
    imr_chk (fun d => put_rex1 (size d) e (regno d) (if size d =? 0 then 0x80 else 0x83)) m (fun _ => 1%nat) (fun _ => true) &&
    imr_chk (fun d => if regno d =? 0 then put_rex0 (size d) 0 (regno d) (if size d =? 0 then acc else acc + 1)
           else put_rex1 (size d) e (regno d) (if size d =? 0 then 0x80 else 0x81)) m (fun d => bytes4 (size d)) (fun _ => true))
  [(0x24, 0xe0, AND); (0x0c, 0xc8, OR); (0x34, 0xf0, XOR)] = true.
Proof. vm_compute. reflexivity. Qed.
Lemma and_ok o acc e v d : In (acc, e, mn_alu o) [(0x24, 0xe0, AND); (0x0c, 0xc8, OR); (0x34, 0xf0, XOR)] ->
  assemble (AluImR o v d) = asm_and_imr acc e v d -> reg_ok d = true -> (size d <=? 2) || fits32 v = true -> encoded (AluImR o v d).
Proof.
  intros Hin Ha Hd Hv. pose proof and_chk as H. rewrite forallb_forall in H. specialize (H _ Hin). cbv beta iota in H.
  apply andb_true_iff in H as [H1 H2]. pose proof (reg_size d Hd) as Hs.
  eapply (allr_spec _ d) in H1; [|exact Hd]. eapply (allr_spec _ d) in H2; [|exact Hd]. cbv beta in H1, H2. cbn [imp] in H1, H2.
  unfold asm_and_imr in Ha. rewrite <- fits32_im32, Hv in Ha.
  destruct (is_im8 v && (negb (size d =? 0) || negb (regno d =? 0))) eqn:E.
  - apply andb_true_iff in E as [E _]. eapply encoded_imm; [exact Ha|exact H1|].
    cbn [meaning map fill]. rewrite const_im8 by done. done.
  - eapply encoded_imm; [exact Ha|exact H2|]. cbn [meaning map fill]. rewrite const_n4 by done. done.
Qed.

Lemma cmp_chk : imr_chk (fun d => cmp_head (size d) (regno d) true) CMP (fun _ => 1%nat) (fun _ => true) &&
  imr_chk (fun d => cmp_head (size d) (regno d) false) CMP (fun d => bytes4 (size d)) (fun d => negb (size d =? 0)) = true.
Proof. vm_compute. reflexivity. Qed.
Lemma const_signed sz v : 0 <= sz <= 3 -> const sz (signed_immediate v sz) = const sz v.
Proof.
  intros Hs. unfold const, signed_immediate, bits. f_equal. set (n := 8 * 2 ^ sz).
  assert (8 <= n). { unfold n. pose proof (Z.pow_pos_nonneg 2 sz). lia. }
  assert (0 < 2 ^ n) by (apply Z.pow_pos_nonneg; lia).
  rewrite Zminus_mod_idemp_l. f_equal. lia.
Qed.
Lemma signed8 v : is_im8 (signed_immediate v 0) = true.
Proof.
  unfold is_im8, signed_immediate. change (2 ^ (8 * 2 ^ 0)) with 256. change (2 ^ (8 * 2 ^ 0 - 1)) with 128.
  pose proof (Z.mod_pos_bound (v + 128) 256 ltac:(lia)).
  apply andb_true_iff. rewrite !Z.leb_le. lia.
Qed.
Lemma cmp_ok v d : reg_ok d = true -> (size d <=? 2) || fits32 ((v + 2 ^ 63) mod 2 ^ 64 - 2 ^ 63) = true -> encoded (AluImR Cmp v d).
Proof.
  intros Hd Hv. pose proof cmp_chk as H. apply andb_true_iff in H as [H1 H2]. pose proof (reg_size d Hd) as Hs.
  assert (Hv' : (size d <=? 2) || fits32 (signed_immediate v (size d)) = true).
  { destruct (Z.leb_spec (size d) 2); [done|]. assert (size d = 3) as -> by lia. exact Hv. }
  assert (Ha : assemble (AluImR Cmp v d) = asm_cmp_imr v d) by done.
  unfold asm_cmp_imr in Ha. cbv zeta in Ha. rewrite <- fits32_im32, orb_comm, Hv' in Ha.
  destruct (is_im8 (signed_immediate v (size d))) eqn:E.
  - eapply (allr_spec _ d) in H1; [|exact Hd]. cbv beta in H1. cbn [imp] in H1. eapply encoded_imm; [exact Ha|exact H1|].
    cbn [meaning map fill]. rewrite const_im8, const_signed by done. done.
  - eapply (allr_spec _ d) in H2; [|exact Hd]. cbv beta in H2.
    assert (E0 : negb (size d =? 0) = true).
    { apply negb_true_iff, Z.eqb_neq. intros E0. rewrite E0, signed8 in E. done. }
    rewrite E0 in H2. cbn [imp] in H2. eapply encoded_imm; [exact Ha|exact H2|].
    cbn [meaning map fill]. rewrite const_n4, const_signed by done. done.
Qed.

(** *** One register *)
Definition r_chk (h : reg -> list Z) (m : mn) (c : reg -> bool) : bool :=
  allr (fun d => imp (c d) (chk (h d) m (size d) [TOp (name d)] 0 0)).
Lemma r_ok i h m c d : r_chk h m c = true -> reg_ok d = true -> c d = true ->
  assemble i = Bytes (h d) -> meaning i = D m (size d) [name d] -> encoded i.
Proof.
  intros H Hd Hc Ha Hm. eapply (allr_spec _ d) in H; [|exact Hd]. eapply imp_true in H; [|exact Hc].
  eapply encoded_plain; [exact Ha|exact H|exact Hm].
Qed.
Definition r64_chk (h : reg -> list Z) (m : mn) : bool := all64 (fun d => chk (h d) m 3 [TOp (name d)] 0 0).
Lemma r64_ok i h m d : r64_chk h m = true -> r64 d = true -> assemble i = Bytes (h d) -> meaning i = D m 3 [name d] -> encoded i.
Proof.
  intros H Hd Ha Hm. eapply (all64_spec _ d) in H; [|exact Hd]. eapply encoded_plain; [exact Ha|exact H|exact Hm].
Qed.
Definition any (r : reg) : bool := true.
Lemma one_chk : r_chk (asm_mul 0xe0) MUL (fun d => negb (high d)) && r_chk (asm_mul 0xf0) DIV (fun d => negb (high d)) &&
  r_chk (asm_mul 0xf8) IDIV (fun d => negb (high d)) && r_chk (asm_neg 0xd8) NEG (fun d => negb (size d =? 0)) &&
  r_chk (asm_neg 0xd0) NOT (fun d => negb (size d =? 0)) && r_chk (asm_inc 0xc0) INC any && r_chk (asm_inc 0xc8) DEC any = true.
Proof. vm_compute. reflexivity. Qed.
Lemma one64_chk : r64_chk (asm_jmp_der 0xe0) JMP && r64_chk (asm_jmp_der 0xd0) CALL && r64_chk (asm_push_r 0x50) PUSH &&
  r64_chk (asm_push_r 0x58) POP = true.
Proof. vm_compute. reflexivity. Qed.

Lemma set_chk : allz 16 (fun cc => allr (fun d => imp ((size d =? 0) && negb (high d)) (chk (asm_set cc d) (SET cc) 0 [TOp (name d)] 0 0))) = true.
Proof. vm_compute. reflexivity. Qed.
Lemma set_ok cc d : cc_ok cc = true -> reg_ok d = true -> (size d =? 0) = true -> negb (high d) = true -> encoded (SetCc cc d).
Proof.
  intros Hc Hd Hs Hh. pose proof set_chk as H. unfold cc_ok in Hc. bools.
  eapply (allz_spec _ _ cc) in H; [|lia]. eapply (allr_spec _ d) in H; [|exact Hd].
  eapply imp_true in H; [|rewrite Hs, Hh; done]. eapply encoded_plain; [reflexivity|exact H|reflexivity].
Qed.

(** *** Shifts *)
Definition shifts : list X64_model.shift := [Shl; Shr; Sar].
Lemma shift_chk : forallb (fun o => allr (fun d =>
    chk (asm_shift_cl (shift_ext o) d) (mn_shift o) (size d) [TOp (OReg 0 1); TOp (name d)] 0 0 &&
    chk (put_rex1 (size d) (shift_ext o) (regno d) (if size d =? 0 then 0xd0 else 0xd1)) (mn_shift o) (size d) [TOp (OImm 1); TOp (name d)] 0 0 &&
    chk (put_rex1 (size d) (shift_ext o) (regno d) (if size d =? 0 then 0xc0 else 0xc1)) (mn_shift o) (size d) [TIm 0; TOp (name d)] 0 1)) shifts = true.
Proof. vm_compute. reflexivity. Qed.
Lemma shift_in o : In o shifts.
Proof. destruct o; cbn; tauto. Qed.
Lemma shift_cl_ok o d : reg_ok d = true -> encoded (ShiftCl o d).
Proof.
  intros Hd. pose proof shift_chk as H. rewrite forallb_forall in H. specialize (H o (shift_in o)). cbv beta in H.
  eapply (allr_spec _ d) in H; [|exact Hd]. cbv beta in H. apply andb_true_iff in H as [H _]. apply andb_true_iff in H as [H _].
  eapply encoded_plain; [reflexivity|exact H|reflexivity].
Qed.
Lemma const_byte v : 0 <= v < 256 -> const 0 (sgn 1 v) = OImm v.
Proof. intros H. rewrite const_sgn by closed. unfold const. change (2 ^ bits 0) with 256. rewrite Z.mod_small by lia. done. Qed.
Lemma shift_im_ok o v d : reg_ok d = true -> (0 <=? v) && (v <? 256) = true -> encoded (ShiftIm o v d).
Proof.
  intros Hd Hv. pose proof shift_chk as H. rewrite forallb_forall in H. specialize (H o (shift_in o)). cbv beta in H.
  eapply (allr_spec _ d) in H; [|exact Hd]. cbv beta in H. apply andb_true_iff in H as [H H3]. apply andb_true_iff in H as [_ H2].
  bools. assert (Ha : assemble (ShiftIm o v d) = asm_shift_im (shift_ext o) v d) by done.
  unfold asm_shift_im in Ha. destruct ((v <? 0) || (256 <=? v)) eqn:E.
  { apply orb_true_iff in E as [E|E]; bools; lia. }
  destruct (Z.eqb_spec v 1) as [->|].
  - eapply encoded_plain; [exact Ha|exact H2|reflexivity].
  - eapply encoded_imm; [exact Ha|exact H3|]. cbn [meaning map fill]. rewrite const_byte by lia. done.
Qed.

(** *** Extensions *)
Definition movx_bytes (sx : bool) (s d : reg) : list Z := match asm_movszx sx s d with Bytes l => l | _ => [] end.
Lemma movx_chk : forallb (fun sx => allr (fun s => allr (fun d => imp ((size s <? size d) && (negb (high s) && (sx || (size s <? 2))))
  (chk (movx_bytes sx s d) (if sx then MOVSX else MOVZX) (size d) [TOp (name s); TOp (name d)] 0 0)))) [true; false] = true.
Proof. vm_compute. reflexivity. Qed.
Lemma movx_ok sx s d : reg_ok s = true -> reg_ok d = true -> (size s <? size d) = true ->
  negb (high s) && (sx || (size s <? 2)) = true -> encoded (Movx sx s d).
Proof.
  intros Hs Hd Hl Hf. pose proof movx_chk as H. rewrite forallb_forall in H.
  assert (Hin : In sx [true; false]) by (destruct sx; cbn; tauto). specialize (H sx Hin). cbv beta in H.
  eapply (allr_spec _ s) in H; [|exact Hs]. eapply (allr_spec _ d) in H; [|exact Hd]. eapply imp_true in H; [|rewrite Hl, Hf; done].
  unfold movx_bytes in H. destruct (asm_movszx sx s d) as [l| |] eqn:E.
  - eapply encoded_plain; [exact E|exact H|reflexivity].
  - destruct sx; vm_compute in H; discriminate.
  - destruct sx; vm_compute in H; discriminate.
Qed.

(** *** Floating point *)
Definition allx (f : Z -> Z -> bool) : bool := allz 16 (fun s => allz 16 (f s)).
Lemma allx_spec f s d : xmm_ok s = true -> xmm_ok d = true -> allx f = true -> f s d = true.
Proof.
  intros Hs Hd H. unfold xmm_ok in *. bools. eapply (allz_spec _ _ s) in H; [|lia]. eapply (allz_spec _ _ d) in H; [|lia]. done.
Qed.
Definition xx_list : list (Z * Z * mn * Z) :=
  flat_map (fun s => [(pr s, 0x10, MOVS, prec s); (pr66 s, 0x57, XORP, prec s); (pr66 s, 0x2e, UCOMIS, prec s);
    (pr66 s, 0x2f, COMIS, prec s); (pr s, 0x5a, CVTS2S, prec s)] ++
    map (fun o => (pr s, fop_op o, mn_fop o, prec s)) [FAdd; FMul; FSub; FDiv]) [true; false] ++ [(0xf2, 0x51, SQRTS, 3)].
Lemma xx_chk : forallb (fun '(p, op, m, f) => allx (fun s d => chk (asm_xx p op s d) m f [TOp (OXmm s); TOp (OXmm d)] 0 0)) xx_list = true.
Proof. vm_compute. reflexivity. Qed.
Lemma xx_ok i p op m f s d : In (p, op, m, f) xx_list -> xmm_ok s = true -> xmm_ok d = true ->
  assemble i = Bytes (asm_xx p op s d) -> meaning i = D m f [OXmm s; OXmm d] -> encoded i.
Proof.
  intros Hin Hs Hd Ha Hm. pose proof xx_chk as H. rewrite forallb_forall in H. specialize (H _ Hin). cbv beta iota in H.
  eapply (allx_spec _ s d) in H; [|done|done]. eapply encoded_plain; [exact Ha|exact H|exact Hm].
Qed.
Lemma cvt_chk : forallb (fun single => allr (fun r => imp (2 <=? size r) (allz 16 (fun n =>
    chk (asm_cvt single 0x2a (size r) (regno r) n) CVTSI2S (prec single) [TOp (name r); TOp (OXmm n)] 0 0 &&
    chk (asm_cvt single 0x2c (size r) n (regno r)) CVTTS2SI (prec single) [TOp (OXmm n); TOp (name r)] 0 0)))) [true; false] = true.
Proof. vm_compute. reflexivity. Qed.
Lemma cvt_ok single r n : reg_ok r = true -> (2 <=? size r) = true -> xmm_ok n = true ->
  encoded (Cvtsi2s single r n) /\ encoded (Cvtts2si single n r).
Proof.
  intros Hr Hs Hn. pose proof cvt_chk as H. rewrite forallb_forall in H.
  assert (Hin : In single [true; false]) by (destruct single; cbn; tauto). specialize (H _ Hin). cbv beta in H.
  eapply (allr_spec _ r) in H; [|exact Hr]. eapply imp_true in H; [|exact Hs]. unfold xmm_ok in Hn. bools.
  eapply (allz_spec _ _ n) in H; [|lia]. apply andb_true_iff in H as [K1 K2].
  split; [eapply encoded_plain; [reflexivity|exact K1|reflexivity]|eapply encoded_plain; [reflexivity|exact K2|reflexivity]].
Qed.

Lemma jcc_chk : allz 16 (fun cc => chk [0x70 + cc] (JCC cc) 3 [TIm 3] 0 1) = true.
Proof. vm_compute. reflexivity. Qed.

Theorem reg_encoded i : parsed i = true -> fine_reg i = true -> encoded i.
Proof.
  pose proof one_chk as K1. repeat rewrite andb_true_iff in K1. destruct K1 as [[[[[[? ?] ?] ?] ?] ?] ?].
  pose proof one64_chk as K2. repeat rewrite andb_true_iff in K2. destruct K2 as [[[? ?] ?] ?].
  intros Hp Hf. destruct i; cbn [parsed fine_reg] in Hp, Hf; try discriminate Hf.
  - apply mov_rr_ok; done.
  - apply mov_imr_ok; done.
  - apply andb_true_iff in Hp as [Hp ?]. apply andb_true_iff in Hp as [? ?]. apply movx_ok; assumption.
  - apply alu_rr_ok; done.
  - destruct o.
    + eapply addsub_ok; [|reflexivity|done|done]. cbn. tauto.
    + eapply and_ok; [|reflexivity|done|done]. cbn. tauto.
    + eapply and_ok; [|reflexivity|done|done]. cbn. tauto.
    + eapply addsub_ok; [|reflexivity|done|done]. cbn. tauto.
    + eapply and_ok; [|reflexivity|done|done]. cbn. tauto.
    + apply cmp_ok; done.
  - eapply (r_ok _ (asm_mul 0xe0)); [eassumption|exact Hp|exact Hf|reflexivity|reflexivity].
  - eapply (r_ok _ (asm_mul 0xf0)); [eassumption|exact Hp|exact Hf|reflexivity|reflexivity].
  - eapply (r_ok _ (asm_mul 0xf8)); [eassumption|exact Hp|exact Hf|reflexivity|reflexivity].
  - eapply (r_ok _ (asm_neg 0xd8)); [eassumption|exact Hp|exact Hf|reflexivity|reflexivity].
  - eapply (r_ok _ (asm_neg 0xd0)); [eassumption|exact Hp|exact Hf|reflexivity|reflexivity].
  - eapply (r_ok _ (asm_inc 0xc0)); [eassumption|exact Hp|reflexivity|reflexivity|reflexivity].
  - eapply (r_ok _ (asm_inc 0xc8)); [eassumption|exact Hp|reflexivity|reflexivity|reflexivity].
  - apply shift_cl_ok; done.
  - apply shift_im_ok; done.
  - apply test_ok; done.
  - eapply (encoded_plain _ [0x98] CONVA 2 []); reflexivity.
  - eapply (encoded_plain _ [0x99] CONVD 2 []); reflexivity.
  - eapply (encoded_plain _ [0x48; 0x99] CONVD 3 []); reflexivity.
  - apply andb_true_iff in Hp as [Hp ?]. apply andb_true_iff in Hp as [? ?]. apply set_ok; assumption.
  - eapply (encoded_imm _ [0xeb] JMP 3 [TIm 3] 1 0); reflexivity.
  - eapply (r64_ok _ (asm_jmp_der 0xe0)); [eassumption|exact Hp|reflexivity|reflexivity].
  - unfold cc_ok in Hp. bools. eapply (encoded_imm _ [0x70 + cc] (JCC cc) 3 [TIm 3] 1 0); [reflexivity| |reflexivity].
    refine (allz_spec _ _ cc _ jcc_chk). lia.
  - eapply (encoded_imm _ [0xe8] CALL 3 [TIm 3] 4 0); reflexivity.
  - eapply (r64_ok _ (asm_jmp_der 0xd0)); [eassumption|exact Hp|reflexivity|reflexivity].
  - eapply (encoded_plain _ [0xc3] RET 3 []); reflexivity.
  - eapply (r64_ok _ (asm_push_r 0x50)); [eassumption|exact Hp|reflexivity|reflexivity].
  - assert (Ha : assemble (PushIm v) = asm_push_im v) by done. unfold asm_push_im in Ha.
    rewrite <- fits32_im32, Hf in Ha. destruct (is_im8 v) eqn:E.
    + eapply (encoded_imm _ [0x6a] PUSH 3 [TIm 3] 1 v); [exact Ha|reflexivity|].
      cbn [meaning map fill]. rewrite const_im8 by done. done.
    + eapply (encoded_imm _ [0x68] PUSH 3 [TIm 3] 4 v); [exact Ha|reflexivity|].
      cbn [meaning map fill]. rewrite const_im32 by done. done.
  - eapply (r64_ok _ (asm_push_r 0x58)); [eassumption|exact Hp|reflexivity|reflexivity].
  - bools. eapply (encoded_imm _ [0xcd] INT 0 [TIm 0] 1 v); [reflexivity|reflexivity|].
    cbn [meaning map fill]. rewrite const_byte by lia. done.
  - eapply (encoded_plain _ [0x0f; 0x05] SYSCALL 3 []); reflexivity.
  - eapply (encoded_plain _ [0xf3; 0x0f; 0x1e; 0xfa] ENDBR64 3 []); reflexivity.
  - apply andb_true_iff in Hp as [? ?]. eapply (xx_ok _ (pr single) 0x10 MOVS (prec single) s d); [destruct single; repeat (first [left; reflexivity | right])|assumption|assumption|reflexivity|reflexivity].
  - apply andb_true_iff in Hp as [? ?]. eapply (xx_ok _ (pr single) (fop_op o) (mn_fop o) (prec single) s d); [destruct single, o; repeat (first [left; reflexivity | right])|assumption|assumption|reflexivity|reflexivity].
  - apply andb_true_iff in Hp as [? ?]. eapply (xx_ok _ 0xf2 0x51 SQRTS 3 s d); [repeat (first [left; reflexivity | right])|assumption|assumption|reflexivity|reflexivity].
  - apply andb_true_iff in Hp as [? ?]. eapply (xx_ok _ (pr66 single) 0x57 XORP (prec single) s d); [destruct single; repeat (first [left; reflexivity | right])|assumption|assumption|reflexivity|reflexivity].
  - apply andb_true_iff in Hp as [? ?].
    eapply (xx_ok _ (pr66 single) (if unordered then 0x2e else 0x2f) (if unordered then UCOMIS else COMIS) (prec single) s d); [destruct single, unordered; repeat (first [left; reflexivity | right])|assumption|assumption|reflexivity|reflexivity].
  - apply andb_true_iff in Hp as [Hp ?]. apply andb_true_iff in Hp as [? ?]. apply cvt_ok; assumption.
  - apply andb_true_iff in Hp as [Hp ?]. apply andb_true_iff in Hp as [? ?]. apply cvt_ok; assumption.
  - apply andb_true_iff in Hp as [? ?]. eapply (xx_ok _ (pr single) 0x5a CVTS2S (prec single) s d); [destruct single; repeat (first [left; reflexivity | right])|assumption|assumption|reflexivity|reflexivity].
Qed.
