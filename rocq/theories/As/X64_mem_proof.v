(** Instructions with an operand in memory: headers are checked for all registers, offsets and constants are
    arbitrary. *)
From stdpp Require Import base numbers list.
From Verif Require Import As.X64_model As.X64_spec As.X64_proof As.X64_reg_proof.
From Coq Require Import Lia ZArith.
Open Scope Z_scope.

Lemma encoded_off i h m sz ops b off :
  assemble i = Bytes (h ++ put_offset b off) -> chk h m sz ops (ndisp b (is_im8 off)) 0 = true ->
  fits32 off = true -> (b = true -> off = 0) ->
  meaning i = D m sz (map (fill off 0) ops) -> encoded i.
Proof.
  intros Ha Hc Hf Hb Hm. eapply (encoded_by i h m sz ops _ 0 off 0); [|exact Hc|].
  - cbn [im]. rewrite app_nil_r, <- put_offset_im. exact Ha.
  - rewrite sgn_ndisp by done. exact Hm.
Qed.
Lemma encoded_off_imm i h m sz ops b off n v :
  assemble i = Bytes (h ++ put_offset b off ++ im n v) -> chk h m sz ops (ndisp b (is_im8 off)) n = true ->
  fits32 off = true -> (b = true -> off = 0) ->
  meaning i = D m sz (map (fill off (sgn n v)) ops) -> encoded i.
Proof.
  intros Ha Hc Hf Hb Hm. eapply (encoded_by i h m sz ops _ n off v); [|exact Hc|].
  - rewrite <- put_offset_im. exact Ha.
  - rewrite sgn_ndisp by done. exact Hm.
Qed.
Lemma zero_and off b : (off =? 0) && b = true -> off = 0.
Proof. intros H. apply andb_true_iff in H as [H _]. apply Z.eqb_eq, H. Qed.

Definition mb (b : reg) : mem := Mem false false (Some (num b)) None.
Definition mi (b i : reg) (k : Z) : mem := Mem false false (Some (num b)) (Some (num i, 2 ^ k)).
Definition nb (z e : bool) (b : reg) : nat := ndisp (z && negb ((regno b .& 7) =? RBP)) e.

(** *** mov *)
Lemma mov_mem_chk : all64 (fun b => allr (fun r => imp (together r b) (all3 (fun z e =>
    chk (mov_head 0x8a (size r) (regno r) (regno b) z e) MOV (size r) [TMem (mb b); TOp (name r)] (nb z e b) 0 &&
    chk (mov_head 0x88 (size r) (regno r) (regno b) z e) MOV (size r) [TOp (name r); TMem (mb b)] (nb z e b) 0)))) = true.
Proof. vm_compute. reflexivity. Qed.
Lemma mov_mem_ok off b r : r64 b = true -> reg_ok r = true -> fits32 off && together r b = true ->
  encoded (MovIR off b r) /\ encoded (MovRI r off b).
Proof.
  intros Hb Hr Hf. apply andb_true_iff in Hf as [Hf Ht]. pose proof mov_mem_chk as H.
  eapply (all64_spec _ b) in H; [|exact Hb]. eapply (allr_spec _ r) in H; [|exact Hr]. eapply imp_true in H; [|exact Ht].
  eapply (all3_spec _ off) in H. apply andb_true_iff in H as [K1 K2].
  split; [eapply encoded_off; [reflexivity|exact K1|exact Hf|apply zero_and|reflexivity]
         |eapply encoded_off; [reflexivity|exact K2|exact Hf|apply zero_and|reflexivity]].
Qed.

Lemma scale_k i sc : index_ok i sc = true -> exists k, 0 <= k < 4 /\
  match sc with Some s => msb s | None => 0 end = k /\ msb (scale_of sc) = k /\
  match sc with Some s => is_power s && (msb s <? 4) | None => true end = true /\
  (1 <=? scale_of sc) && (scale_of sc <=? 8) && is_power (scale_of sc) = true /\
  match sc with Some s => s | None => 1 end = 2 ^ k.
Proof.
  unfold index_ok. intros H. apply andb_true_iff in H as [_ H]. destruct sc as [s|]; [|exists 0; split_and!; done].
  assert (s = 1 \/ s = 2 \/ s = 4 \/ s = 8) as [->|[->|[->| ->]]].
  { rewrite !orb_true_iff, !Z.eqb_eq in H. lia. }
  - exists 0; split_and!; done.
  - exists 1; split_and!; done.
  - exists 2; split_and!; done.
  - exists 3; split_and!; done.
Qed.
Lemma index_not4 i sc : index_ok i sc = true -> negb (num i =? 4) = true.
Proof. unfold index_ok. intros H. apply andb_true_iff in H as [H _]. exact H. Qed.

Lemma mov_iir_chk : all64 (fun b => all64 (fun i => imp (negb (num i =? 4)) (allr (fun d =>
  imp ((size d =? 3) || negb (ext b || ext i || ext d)) (allz 4 (fun k => all3 (fun z e => imp (negb (no b =? 5) || negb z)
    (chk (mov_iir_head (size d) (regno d) (regno b) (regno i) k z e) MOV (size d) [TMem (mi b i k); TOp (name d)] (ndisp z e) 0))))))))
  = true.
Proof. vm_compute. reflexivity. Qed.
Lemma mov_iir_ok off b i sc d : r64 b = true -> r64 i = true -> reg_ok d = true -> fits32 off = true -> index_ok i sc = true ->
  negb (no b =? 5) || negb (off =? 0) = true -> (size d =? 3) || negb (ext b || ext i || ext d) = true -> encoded (MovIIR off b i sc d).
Proof.
  intros Hb Hi Hd Hf Hx Hz Hs. pose proof mov_iir_chk as H.
  eapply (all64_spec _ b) in H; [|exact Hb]. eapply (all64_spec _ i) in H; [|exact Hi].
  eapply imp_true in H; [|exact (index_not4 _ _ Hx)]. eapply (allr_spec _ d) in H; [|exact Hd]. eapply imp_true in H; [|exact Hs].
  destruct (scale_k _ _ Hx) as (k & Hk & Ek & _ & Ep & _ & E2).
  eapply (allz_spec _ _ k) in H; [|exact Hk]. eapply (all3_spec _ off) in H. eapply imp_true in H; [|exact Hz].
  eapply encoded_off; [|exact H|exact Hf|apply Z.eqb_eq|].
  - cbn [assemble]. unfold asm_mov_iir. rewrite <- fits32_im32, Hf, Ep, Ek. reflexivity.
  - cbn [meaning map fill]. unfold at_index. rewrite E2. reflexivity.
Qed.

Lemma direct_chk : allr (fun r => imp (negb (ext r))
   (chk (filtered [ (if size r =? 1 then 0x66 else if size r =? 3 then 0x48 else -1); (if size r =? 0 then 0x8a else 0x8a + 1);
      ((regno r .& 7) .<< 3) .| 0x04; 0x25 ]) MOV (size r) [TMem (Mem false false None None); TOp (name r)] 4 0 &&
    chk (filtered [ (if size r =? 1 then 0x66 else if size r =? 3 then 0x48 else -1); (if size r =? 0 then 0x88 else 0x88 + 1);
      ((regno r .& 7) .<< 3) .| 0x04; 0x25 ]) MOV (size r) [TOp (name r); TMem (Mem false false None None)] 4 0)) = true.
Proof. vm_compute. reflexivity. Qed.
Lemma direct_ok r : reg_ok r = true -> negb (ext r) = true -> encoded (MovDR r) /\ encoded (MovRD r).
Proof.
  intros Hr He. pose proof direct_chk as H. eapply (allr_spec _ r) in H; [|exact Hr]. eapply imp_true in H; [|exact He].
  apply andb_true_iff in H as [K1 K2].
  split; [eapply (encoded_by _ _ _ _ _ 4 0 0 0); [|exact K1|reflexivity]|eapply (encoded_by _ _ _ _ _ 4 0 0 0); [|exact K2|reflexivity]];
    cbn [assemble]; unfold asm_mov_direct; rewrite (app_nil_r (im 4 0) : im 4 0 ++ im 0 0 = im 4 0); reflexivity.
Qed.
Lemma rip_chk : all64 (fun d =>
  chk [(if x d =? 0 then 0x48 else 0x4c); 0x8b; 0x05 .| (no d .<< 3)] MOV 3 [TMem (Mem false true None None); TOp (name d)] 4 0 &&
  chk [(if x d =? 0 then 0x48 else 0x4c); 0x8d; 0x05 .| (no d .<< 3)] LEA 3 [TMem (Mem false true None None); TOp (name d)] 4 0) = true.
Proof. vm_compute. reflexivity. Qed.
Lemma rip_ok d : r64 d = true -> encoded (MovRipR d) /\ encoded (LeaRipR d).
Proof.
  intros Hd. pose proof rip_chk as H. eapply (all64_spec _ d) in H; [|exact Hd]. apply andb_true_iff in H as [K1 K2].
  assert (size d = 3) as E. { unfold r64 in Hd. bools. done. }
  split; [eapply (encoded_by _ _ _ _ _ 4 0 0 0); [|exact K1|cbn [meaning]; rewrite E; reflexivity]
         |eapply (encoded_by _ _ _ _ _ 4 0 0 0); [|exact K2|reflexivity]];
    cbn [assemble]; unfold asm_rip; rewrite (app_nil_r (im 4 0) : im 4 0 ++ im 0 0 = im 4 0); reflexivity.
Qed.
Lemma sr_ok v d : r64 d = true -> fits32 v = true -> (num d =? 0) = true -> encoded (MovSR v d).
Proof.
  intros Hd Hv Hn. assert (d = Reg 3 0 0) as ->.
  { destruct d as [s n y]. unfold r64, reg_ok in Hd. unfold num in Hn. cbn [size no x] in *. bools. f_equal; lia. }
  eapply (encoded_by _ [0x64; 0x48; 0x8b; 0x04; 0x25] MOV 3 [TMem (Mem true false None None); TOp (OReg 3 0)] 4 0 v 0).
  - cbn [im]. rewrite !app_nil_r. reflexivity.
  - vm_compute. reflexivity.
  - rewrite sgn4 by done. reflexivity.
Qed.

Lemma imi_chk : allz 4 (fun sz => all64 (fun b => all3 (fun z e =>
  chk (imi_head sz (regno b) z e) MOV sz [TIm sz; TMem (mb b)] (nb z e b) (bytes4 sz)))) = true.
Proof. vm_compute. reflexivity. Qed.
Lemma offset_32 (c : bool) off : fits32 off = true ->
  (if c then [] else if is_im8 off then im 1 off else if is_im32 off then im 4 off else []) = put_offset c off.
Proof. intros H. rewrite <- fits32_im32, H. done. Qed.
Lemma imi_ok sz v off b : size_ok sz = true -> r64 b = true -> fits32 off && ((sz <=? 2) || fits32 v) = true -> encoded (MovImI sz v off b).
Proof.
  intros Hs Hb Hf. apply andb_true_iff in Hf as [Hf Hv]. pose proof imi_chk as H. unfold size_ok in Hs. bools.
  eapply (allz_spec _ _ sz) in H; [|lia]. eapply (all64_spec _ b) in H; [|exact Hb]. eapply (all3_spec _ off) in H.
  eapply encoded_off_imm; [|exact H|exact Hf|apply zero_and|].
  - cbn [assemble]. unfold asm_mov_imi. rewrite offset_32 by done. reflexivity.
  - cbn [meaning map fill]. rewrite const_n4 by (done || lia). reflexivity.
Qed.
Lemma imd_chk : allz 4 (fun sz =>
  chk (filtered [ (if sz =? 1 then 0x66 else -1); (if sz =? 3 then 0x48 else -1); 0xc6 .| (if sz =? 0 then 0 else 1); 0x04; 0x25 ])
    MOV sz [TIm sz; TMem (Mem false false None None)] 4 (bytes4 sz)) = true.
Proof. vm_compute. reflexivity. Qed.
Lemma imd_ok sz v a : size_ok sz = true -> fits32 a && ((sz <=? 2) || fits32 v) = true -> encoded (MovImD sz v a).
Proof.
  intros Hs Hf. apply andb_true_iff in Hf as [Hf Hv]. pose proof imd_chk as H. unfold size_ok in Hs. bools.
  eapply (allz_spec _ _ sz) in H; [|lia].
  eapply (encoded_by _ _ _ _ _ 4 (bytes4 sz) a v); [|exact H|].
  - cbn [assemble]. unfold asm_mov_imd. rewrite <- fits32_im32, Hf. reflexivity.
  - cbn [meaning map fill]. rewrite sgn4 by done. rewrite const_n4 by (done || lia). reflexivity.
Qed.

(** *** lea, add, sub, inc, dec *)
Definition nd (z e : bool) (b : reg) : nat := ndisp (z && negb (no b =? RBP)) e.
Definition ind_cond (b : reg) (z : bool) : bool := negb (num b =? 12) && (negb (num b =? 13) || negb z).
Lemma ind_chk : all64 (fun b => all3 (fun z e => imp (ind_cond b z) (
  all64 (fun r => chk (filtered (MAKE_REX_INDIRECT (size r) (regno r) (regno b) 0x8c 0 z e)) LEA 3 [TMem (mb b); TOp (name r)] (nd z e b) 0) &&
  allr (fun r => imp (negb (high r)) (
    chk (filtered (MAKE_REX_INDIRECT (size r) (regno r) (regno b) 0x02 0 z e)) ADD (size r) [TMem (mb b); TOp (name r)] (nd z e b) 0 &&
    chk (filtered (MAKE_REX_INDIRECT (size r) (regno r) (regno b) 0x2a 0 z e)) SUB (size r) [TMem (mb b); TOp (name r)] (nd z e b) 0)) &&
  allz 4 (fun sz =>
    chk (filtered (MAKE_REX_INDIRECT sz 0 (regno b) 0xfe 0 z e)) INC sz [TMem (mb b)] (nd z e b) 0 &&
    chk (filtered (MAKE_REX_INDIRECT sz 1 (regno b) 0xfe 8 z e)) DEC sz [TMem (mb b)] (nd z e b) 0)))) = true.
Proof. vm_compute. reflexivity. Qed.
Ltac ind_start off b Hb Hf Hc :=
  let H := fresh "H" in pose proof ind_chk as H; eapply (all64_spec _ b) in H; [|exact Hb]; eapply (all3_spec _ off) in H;
  eapply imp_true in H; [|exact Hc]; apply andb_true_iff in H as [H K3]; apply andb_true_iff in H as [K1 K2].
Lemma lea_ir_ok off b d : r64 b = true -> r64 d = true -> fits32 off = true -> ind_cond b (off =? 0) = true -> encoded (LeaIR off b d).
Proof.
  intros Hb Hd Hf Hc. ind_start off b Hb Hf Hc. eapply (all64_spec _ d) in K1; [|exact Hd].
  eapply encoded_off; [reflexivity|exact K1|exact Hf|apply zero_and|reflexivity].
Qed.
Lemma alu_ir_ok sub off b d : r64 b = true -> reg_ok d = true -> fits32 off = true -> negb (high d) = true -> ind_cond b (off =? 0) = true ->
  encoded (AluIR sub off b d).
Proof.
  intros Hb Hd Hf Hh Hc. ind_start off b Hb Hf Hc. eapply (allr_spec _ d) in K2; [|exact Hd]. eapply imp_true in K2; [|exact Hh].
  apply andb_true_iff in K2 as [K2 K4].
  destruct sub; [eapply encoded_off; [reflexivity|exact K4|exact Hf|apply zero_and|reflexivity]
                |eapply encoded_off; [reflexivity|exact K2|exact Hf|apply zero_and|reflexivity]].
Qed.
Lemma inc_ok sz off b : size_ok sz = true -> r64 b = true -> fits32 off = true -> ind_cond b (off =? 0) = true ->
  encoded (IncI sz off b) /\ encoded (DecI sz off b).
Proof.
  intros Hs Hb Hf Hc. ind_start off b Hb Hf Hc. unfold size_ok in Hs. bools. eapply (allz_spec _ _ sz) in K3; [|lia].
  apply andb_true_iff in K3 as [K4 K5].
  split; [eapply encoded_off; [reflexivity|exact K4|exact Hf|apply zero_and|reflexivity]
         |eapply encoded_off; [reflexivity|exact K5|exact Hf|apply zero_and|reflexivity]].
Qed.

Lemma lea_iir_chk : all64 (fun b => all64 (fun i => imp (negb (num i =? 4) && negb (num b =? 4)) (all64 (fun d =>
  allz 4 (fun k => all3 (fun z e => imp (negb (num b =? 13) || negb z)
    (chk (lea_iir_head (regno d) (regno b) (regno i) k z e) LEA 3 [TMem (mi b i k); TOp (name d)] (ndisp (z && negb (regno b =? RBP)) e) 0)))))))
  = true.
Proof. vm_compute. reflexivity. Qed.
Lemma lea_iir_ok off b i sc d : r64 b = true -> r64 i = true -> r64 d = true -> fits32 off = true -> index_ok i sc = true ->
  negb (num b =? 4) = true -> negb (num b =? 13) || negb (off =? 0) = true -> encoded (LeaIIR off b i sc d).
Proof.
  intros Hb Hi Hd Hf Hx H4 Hz. pose proof lea_iir_chk as H.
  eapply (all64_spec _ b) in H; [|exact Hb]. eapply (all64_spec _ i) in H; [|exact Hi].
  eapply imp_true in H; [|rewrite (index_not4 _ _ Hx), H4; done]. eapply (all64_spec _ d) in H; [|exact Hd].
  destruct (scale_k _ _ Hx) as (k & Hk & _ & Ek & _ & Ep & E2).
  eapply (allz_spec _ _ k) in H; [|exact Hk]. eapply (all3_spec _ off) in H. eapply imp_true in H; [|exact Hz].
  eapply encoded_off; [|exact H|exact Hf|apply zero_and|].
  - cbn [assemble]. unfold asm_lea_iir. cbv zeta. rewrite <- fits32_im32, Hf, Ek. cbn [andb]. rewrite Ep. reflexivity.
  - cbn [meaning map fill]. unfold at_index. rewrite E2. reflexivity.
Qed.

Definition bop_bytes (op k : Z) (b i d : reg) : list Z :=
  [0x48 .| x b .| (x i .<< 1) .| (x d .<< 2); op; 0x04 .| (no d .<< 3); no b .| (no i .<< 3) .| (k .<< 6)].
Lemma bop_chk : all64 (fun b => imp (negb (no b =? 5)) (all64 (fun i => imp (negb (num i =? 4)) (all64 (fun d => allz 3 (fun k =>
  chk (bop_bytes 0x03 k b i d) ADD 3 [TMem (mi b i k); TOp (name d)] 0 0 &&
  chk (bop_bytes 0x2b k b i d) SUB 3 [TMem (mi b i k); TOp (name d)] 0 0)))))) = true.
Proof. vm_compute. reflexivity. Qed.
Lemma bop_ok sub b i sc d : r64 b = true -> r64 i = true -> r64 d = true -> negb (num i =? 4) = true -> negb (no b =? 5) = true ->
  match sc with None => true | Some s => (s =? 2) || (s =? 4) end = true -> encoded (AluIIR sub 0 b i sc d).
Proof.
  intros Hb Hi Hd H4 H5 Hs. pose proof bop_chk as H. eapply (all64_spec _ b) in H; [|exact Hb]. eapply imp_true in H; [|exact H5].
  eapply (all64_spec _ i) in H; [|exact Hi]. eapply imp_true in H; [|exact H4]. eapply (all64_spec _ d) in H; [|exact Hd].
  assert (E3 : size d = 3). { unfold r64 in Hd. bools. done. }
  assert (exists k, 0 <= k < 3 /\ asm_bop_iir (if sub then 0x2b else 0x03) 0 b i sc d = Bytes (bop_bytes (if sub then 0x2b else 0x03) k b i d) /\
    match sc with Some s => s | None => 1 end = 2 ^ k) as (k & Hk & Ha & E2).
  { destruct sc as [s|]; [|exists 0; split_and!; done]. apply orb_true_iff in Hs as [Hs|Hs]; apply Z.eqb_eq in Hs; subst s.
    - exists 1; split_and!; done.
    - exists 2; split_and!; done. }
  eapply (allz_spec _ _ k) in H; [|exact Hk]. apply andb_true_iff in H as [K1 K2].
  destruct sub; [eapply encoded_plain; [exact Ha|exact K2|]|eapply encoded_plain; [exact Ha|exact K1|]];
    cbn [meaning map fill mn_as]; unfold at_index; rewrite E2, E3; reflexivity.
Qed.

Lemma bopq_chk : all64 (fun b => all3 (fun z e => forallb (fun v8 : bool =>
  chk (bopq_head 0 (regno b) z e v8) ADD 3 [TIm 3; TMem (mb b)] (nb z e b) (if v8 then 1 else 4) &&
  imp (z && negb (no b =? 5)) (chk (bopq_head 0x28 (regno b) z e v8) SUB 3 [TIm 3; TMem (mb b)] (nb z e b) (if v8 then 1 else 4)))
  [true; false])) = true.
Proof. vm_compute. reflexivity. Qed.
Lemma bopq_ok sub v off b : r64 b = true -> fits32 v = true -> fits32 off = true -> negb sub || ((off =? 0) && negb (no b =? 5)) = true ->
  encoded (AluQ sub v off b).
Proof.
  intros Hb Hv Hf Hc. pose proof bopq_chk as H. eapply (all64_spec _ b) in H; [|exact Hb]. eapply (all3_spec _ off) in H. cbv beta in H.
  rewrite forallb_forall in H. specialize (H (is_im8 v)). cbv beta in H.
  assert (Hin : In (is_im8 v) [true; false]) by (destruct (is_im8 v); cbn; tauto). specialize (H Hin).
  apply andb_true_iff in H as [K1 K2].
  assert (Ev : (if is_im8 v then im 1 v else im 4 v) = im (if is_im8 v then 1 else 4) v) by (destruct (is_im8 v); done).
  assert (Ec : const 3 (sgn (if is_im8 v then 1 else 4) v) = const 3 v).
  { destruct (is_im8 v) eqn:E; [rewrite sgn1 by done; done|rewrite sgn4 by done; done]. }
  destruct sub.
  - cbn [negb orb] in Hc. eapply imp_true in K2; [|exact Hc].
    eapply encoded_off_imm; [|exact K2|exact Hf|apply zero_and|].
    + cbn [assemble]. unfold asm_bopq_imi. rewrite <- (fits32_im32 v), Hv, offset_32, Ev by done. reflexivity.
    + cbn [meaning map fill mn_as]. rewrite Ec. reflexivity.
  - eapply encoded_off_imm; [|exact K1|exact Hf|apply zero_and|].
    + cbn [assemble]. unfold asm_bopq_imi. rewrite <- (fits32_im32 v), Hv, offset_32, Ev by done. reflexivity.
    + cbn [meaning map fill mn_as]. rewrite Ec. reflexivity.
Qed.

(** *** Jumps *)
Lemma dei_chk : all64 (fun b => all3 (fun z e => imp (negb (no b =? 4) && (negb (no b =? 5) || negb z))
  (chk (filtered [(if x b =? 0 then -1 else 0x41); 0xff; (if z then 0x20 else if e then 0x60 else 0xa0) .| no b])
     JMP 3 [TMem (mb b)] (ndisp z e) 0))) = true.
Proof. vm_compute. reflexivity. Qed.
Lemma dei_ok off b : r64 b = true -> fits32 off = true -> negb (no b =? 4) && (negb (no b =? 5) || negb (off =? 0)) = true ->
  encoded (JmpDei off b).
Proof.
  intros Hb Hf Hc. pose proof dei_chk as H. eapply (all64_spec _ b) in H; [|exact Hb]. eapply (all3_spec _ off) in H.
  eapply imp_true in H; [|exact Hc]. eapply encoded_off; [|exact H|exact Hf|apply Z.eqb_eq|reflexivity].
  cbn [assemble]. unfold asm_jmp_dei. rewrite <- fits32_im32, Hf. reflexivity.
Qed.
Lemma deii_chk : all64 (fun b => all64 (fun i => imp (negb (num i =? 4)) (allz 4 (fun k => all3 (fun z e =>
  chk (jmp_deii_head (x b) (no b) (x i) (no i) k z e) JMP 3 [TMem (mi b i k)] (nd z e b) 0))))) = true.
Proof. vm_compute. reflexivity. Qed.
Lemma deii_ok off b i sc : r64 b = true -> r64 i = true -> fits32 off = true -> index_ok i sc = true -> encoded (JmpDeii off b i sc).
Proof.
  intros Hb Hi Hf Hx. pose proof deii_chk as H. eapply (all64_spec _ b) in H; [|exact Hb]. eapply (all64_spec _ i) in H; [|exact Hi].
  eapply imp_true in H; [|exact (index_not4 _ _ Hx)]. destruct (scale_k _ _ Hx) as (k & Hk & _ & Ek & _ & Ep & E2).
  eapply (allz_spec _ _ k) in H; [|exact Hk]. eapply (all3_spec _ off) in H.
  eapply encoded_off; [|exact H|exact Hf|apply zero_and|].
  - cbn [assemble]. unfold asm_jmp_deii. cbv zeta. rewrite <- fits32_im32, Hf, Ek. cbn [andb]. rewrite Ep. reflexivity.
  - cbn [meaning map fill]. unfold at_index. rewrite E2. reflexivity.
Qed.

(** *** Floating point *)
Lemma movs_chk : all64 (fun b => allz 16 (fun r => all3 (fun z e => forallb (fun single : bool =>
  chk (movs_head (if single then 0xf3 else 0xf2) 0x10 r (regno b) z e) MOVS (prec single) [TMem (mb b); TOp (OXmm r)] (nb z e b) 0 &&
  chk (movs_head (if single then 0xf3 else 0xf2) 0x11 r (regno b) z e) MOVS (prec single) [TOp (OXmm r); TMem (mb b)] (nb z e b) 0)
  [true; false]))) = true.
Proof. vm_compute. reflexivity. Qed.
Lemma movs_ok single off b r : r64 b = true -> xmm_ok r = true -> fits32 off = true ->
  encoded (MovsIX single off b r) /\ encoded (MovsXI single r off b).
Proof.
  intros Hb Hr Hf. pose proof movs_chk as H. eapply (all64_spec _ b) in H; [|exact Hb]. unfold xmm_ok in Hr. bools.
  eapply (allz_spec _ _ r) in H; [|lia]. eapply (all3_spec _ off) in H. cbv beta in H.
  rewrite forallb_forall in H. specialize (H single). cbv beta in H.
  assert (Hin : In single [true; false]) by (destruct single; cbn; tauto). specialize (H Hin).
  apply andb_true_iff in H as [K1 K2].
  split; [eapply encoded_off; [|exact K1|exact Hf|apply zero_and|reflexivity]|eapply encoded_off; [|exact K2|exact Hf|apply zero_and|reflexivity]];
    cbn [assemble]; unfold asm_movs_mem; rewrite <- fits32_im32, Hf; reflexivity.
Qed.

Theorem mem_encoded i : parsed i = true -> fine_mem i = true -> encoded i.
Proof.
  intros Hp Hf. destruct i; cbn [parsed fine_mem] in Hp, Hf; try discriminate Hf;
    repeat match goal with H : _ && _ = true |- _ => apply andb_true_iff in H as [? ?] end.
  - apply mov_mem_ok; [assumption|assumption|apply andb_true_iff; split; assumption].
  - apply mov_mem_ok; [assumption|assumption|apply andb_true_iff; split; assumption].
  - apply mov_iir_ok; assumption.
  - apply rip_ok. unfold r64. apply andb_true_iff. split; assumption.
  - apply direct_ok; assumption.
  - apply direct_ok; assumption.
  - apply sr_ok; assumption.
  - apply imi_ok; [assumption|assumption|apply andb_true_iff; split; assumption].
  - apply imd_ok; [assumption|apply andb_true_iff; split; assumption].
  - apply lea_ir_ok; [assumption|assumption|assumption|apply andb_true_iff; split; assumption].
  - apply rip_ok; assumption.
  - apply lea_iir_ok; assumption.
  - apply alu_ir_ok; [assumption|assumption|assumption|assumption|apply andb_true_iff; split; assumption].
  - match goal with H : (off =? 0) = true |- _ => apply Z.eqb_eq in H; subst off end.
    apply bop_ok; try assumption. unfold r64. apply andb_true_iff. split; assumption.
  - apply bopq_ok; assumption.
  - apply inc_ok; [assumption|assumption|assumption|apply andb_true_iff; split; assumption].
  - apply inc_ok; [assumption|assumption|assumption|apply andb_true_iff; split; assumption].
  - apply dei_ok; [assumption|assumption|apply andb_true_iff; split; assumption].
  - apply deii_ok; assumption.
  - apply movs_ok; assumption.
  - apply movs_ok; assumption.
Qed.
