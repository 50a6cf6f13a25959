(** Proofs about the RISC-V encoder. *)
From stdpp Require Import base list numbers list_numbers option.
From Verif Require Import As.Rv_model As.Rv_spec.
From Coq Require Import Lia ZifyBool.
Open Scope Z_scope.

Ltac Zify.zify_post_hook ::= Z.to_euclidean_division_equations.

#[global] Instance ldop_eq : EqDecision ldop. Proof. solve_decision. Defined.
#[global] Instance sdop_eq : EqDecision sdop. Proof. solve_decision. Defined.
#[global] Instance brop_eq : EqDecision brop. Proof. solve_decision. Defined.
#[global] Instance f3op_eq : EqDecision f3op. Proof. solve_decision. Defined.
#[global] Instance fcop_eq : EqDecision fcop. Proof. solve_decision. Defined.
#[global] Instance fiop_eq : EqDecision fiop. Proof. solve_decision. Defined.
#[global] Instance ifop_eq : EqDecision ifop. Proof. solve_decision. Defined.
#[global] Instance base_eq : EqDecision base. Proof. solve_decision. Defined.

(** ** Decoding piecewise *)
Definition dec1 (bs : list Z) (b : base) : Prop :=
  forall f r, decode (S f) (bs ++ r) =
    match decode f r with Some l => Some (b :: l) | None => None end.
Definition decs (bs : list Z) (l : list base) : Prop :=
  exists f, decode f bs = Some l.

Lemma decode_mono f : forall bs l g, decode f bs = Some l -> (f <= g)%nat ->
  decode g bs = Some l.
Proof.
  induction f as [|f IH]; intros bs l g Hd Hg.
  - destruct bs; [|done]. destruct g; done.
  - destruct g as [|g]; [lia|]. cbn [decode] in *.
    destruct bs as [|b0 [|b1 r]]; try done.
    destruct (b0 mod 4 =? 3).
    + destruct r as [|b2 [|b3 r']]; try done.
      destruct (decode32 _); [|done].
      destruct (decode f r') eqn:E; [|done].
      by rewrite (IH _ _ g E) by lia.
    + destruct (decode16 _); [|done].
      destruct (decode f r) eqn:E; [|done].
      by rewrite (IH _ _ g E) by lia.
Qed.

Lemma decode_length f : forall bs l, decode f bs = Some l -> decodes bs l.
Proof.
  unfold decodes. induction f as [|f IH]; intros bs l Hd.
  - by destruct bs.
  - cbn [decode] in Hd. destruct bs as [|b0 [|b1 r]]; [done|done|].
    assert (Hg : (length r < length (b1 :: r))%nat) by (cbn; lia).
    change (length (b0 :: b1 :: r)) with (S (length (b1 :: r))).
    revert Hg. generalize (length (b1 :: r)). intros g Hg. cbn [decode].
    destruct (b0 mod 4 =? 3).
    + destruct r as [|b2 [|b3 r']]; try done.
      destruct (decode32 _); [|done].
      destruct (decode f r') eqn:E; [|done].
      rewrite (decode_mono _ _ _ g (IH _ _ E)) by (cbn in Hg; lia). done.
    + destruct (decode16 _); [|done].
      destruct (decode f r) eqn:E; [|done].
      by rewrite (decode_mono _ _ _ g (IH _ _ E)) by lia.
Qed.

Lemma decs_decodes bs l : decs bs l -> decodes bs l.
Proof. intros [f Hf]. by eapply decode_length. Qed.

Lemma decs_nil : decs [] [].
Proof. by exists 0%nat. Qed.

Lemma decs_cons c b bs l : dec1 c b -> decs bs l -> decs (c ++ bs) (b :: l).
Proof. intros H1 [f Hf]. exists (S f). by rewrite H1, Hf. Qed.

Lemma decs_one c b : dec1 c b -> decs c [b].
Proof. intros H1. rewrite <- (app_nil_r c). by apply decs_cons, decs_nil. Qed.

Lemma decs_app c k l m : decs c l -> decs k m -> decs (c ++ k) (l ++ m).
Proof.
  intros [f Hf]. revert c l Hf. induction f as [|f IH]; intros c l Hf Hk.
  - destruct c; [|done]. cbn in Hf. by injection Hf as <-.
  - cbn [decode] in Hf. destruct c as [|b0 [|b1 r]]; [by injection Hf as <-|done|].
    destruct (b0 mod 4 =? 3) eqn:E3.
    + destruct r as [|b2 [|b3 r']]; try done.
      destruct (decode32 _) eqn:Ed; [|done].
      destruct (decode f r') eqn:E; [|done]. injection Hf as <-.
      destruct (IH _ _ E Hk) as [g Hg]. exists (S g). cbn [decode app].
      by rewrite E3, Ed, Hg.
    + destruct (decode16 _) eqn:Ed; [|done].
      destruct (decode f r) eqn:E; [|done]. injection Hf as <-.
      destruct (IH _ _ E Hk) as [g Hg]. exists (S g). cbn [decode app].
      by rewrite E3, Ed, Hg.
Qed.

Lemma dec1_W w b : 0 <= w < 2 ^ 32 -> w mod 4 = 3 -> decode32 w = Some b -> dec1 (W w) b.
Proof.
  intros Hw H3 Hd f r. unfold W. cbn [app decode].
  replace (w mod 256 mod 4 =? 3) with true by lia.
  replace (w mod 256 + w / 256 mod 256 * 256 + w / 65536 mod 256 * 65536
           + w / 16777216 mod 256 * 16777216) with w by lia.
  by rewrite Hd.
Qed.

(** Compressed instructions: the finitely many words are all looked at. *)
Definition chk16 (bs : list Z) (b : base) : bool :=
  match bs with
  | [b0; b1] => negb (b0 mod 4 =? 3) && bool_decide (decode16 (b0 + b1 * 256) = Some b)
  | _ => false
  end.
Lemma chk16_dec1 bs b : chk16 bs b = true -> dec1 bs b.
Proof.
  destruct bs as [|b0 [|b1 [|]]]; try done. cbn [chk16].
  intros [H3 Hd%bool_decide_eq_true]%andb_true_iff f r. cbn [app decode].
  destruct (b0 mod 4 =? 3); [done|]. by rewrite Hd.
Qed.

Definition all (lo n : Z) (f : Z -> bool) : bool := forallb f (seqZ lo n).
Lemma all_spec lo n f : all lo n f = true -> forall x, lo <= x < lo + n -> f x = true.
Proof.
  intros H x Hx. unfold all in H. rewrite forallb_forall in H. apply H.
  apply elem_of_list_In, elem_of_seqZ. lia.
Qed.

Ltac enum1 c :=
  let H := fresh in assert (H : c = true) by (vm_compute; reflexivity);
  unfold all in H.

Definition rA : Z -> Z -> Prop := fun x n => 0 <= x < n.

Lemma enum_r_r (f : Z -> Z -> list Z) (g : Z -> Z -> base) lo1 n1 lo2 n2 :
  all lo1 n1 (fun a => all lo2 n2 (fun b => chk16 (f a b) (g a b))) = true ->
  forall a b, lo1 <= a < lo1 + n1 -> lo2 <= b < lo2 + n2 -> dec1 (f a b) (g a b).
Proof.
  intros H a b Ha Hb. apply chk16_dec1.
  exact (all_spec _ _ _ (all_spec _ _ _ H a Ha) b Hb).
Qed.

Lemma dec_C_MV rd rs : reg_ok rd -> 1 <= rs < 32 -> dec1 (C_MV rd rs) (BR ADD rd 0 rs).
Proof. intros. apply (enum_r_r C_MV (fun a b => BR ADD a 0 b) 0 32 1 31);
  [vm_compute; reflexivity|unfold reg_ok in *; lia|lia]. Qed.
Lemma dec_C_ADD rd rs : reg_ok rd -> 1 <= rs < 32 -> dec1 (C_ADD rd rs) (BR ADD rd rd rs).
Proof. intros. apply (enum_r_r C_ADD (fun a b => BR ADD a a b) 0 32 1 31);
  [vm_compute; reflexivity|unfold reg_ok in *; lia|lia]. Qed.
Lemma dec_C_LI rd imm : reg_ok rd -> -32 <= imm < 32 -> dec1 (C_LI rd imm) (BI ADDI rd 0 imm).
Proof. intros. apply (enum_r_r C_LI (fun a b => BI ADDI a 0 b) 0 32 (-32) 64);
  [vm_compute; reflexivity|unfold reg_ok in *; lia|lia]. Qed.
Lemma dec_C_ADDI rd imm : reg_ok rd -> -32 <= imm < 32 -> dec1 (C_ADDI rd imm) (BI ADDI rd rd imm).
Proof. intros. apply (enum_r_r C_ADDI (fun a b => BI ADDI a a b) 0 32 (-32) 64);
  [vm_compute; reflexivity|unfold reg_ok in *; lia|lia]. Qed.
Lemma dec_C_ADDIW rd imm : 1 <= rd < 32 -> -32 <= imm < 32 -> dec1 (C_ADDIW rd imm) (BI ADDIW rd rd imm).
Proof. intros. apply (enum_r_r C_ADDIW (fun a b => BI ADDIW a a b) 1 31 (-32) 64);
  [vm_compute; reflexivity|lia|lia]. Qed.
Lemma dec_C_ANDI rd imm : 8 <= rd < 16 -> -32 <= imm < 32 -> dec1 (C_ANDI rd imm) (BI ANDI rd rd imm).
Proof. intros. apply (enum_r_r C_ANDI (fun a b => BI ANDI a a b) 8 8 (-32) 64);
  [vm_compute; reflexivity|lia|lia]. Qed.
Lemma dec_C_SLLI rd imm : reg_ok rd -> 0 <= imm < 64 -> dec1 (C_SLLI rd imm) (BI SLLI rd rd imm).
Proof. intros. apply (enum_r_r C_SLLI (fun a b => BI SLLI a a b) 0 32 0 64);
  [vm_compute; reflexivity|unfold reg_ok in *; lia|lia]. Qed.
Lemma dec_C_SRLI rd imm : 8 <= rd < 16 -> 0 <= imm < 64 -> dec1 (C_SRLI rd imm) (BI SRLI rd rd imm).
Proof. intros. apply (enum_r_r C_SRLI (fun a b => BI SRLI a a b) 8 8 0 64);
  [vm_compute; reflexivity|lia|lia]. Qed.
Lemma dec_C_SRAI rd imm : 8 <= rd < 16 -> 0 <= imm < 64 -> dec1 (C_SRAI rd imm) (BI SRAI rd rd imm).
Proof. intros. apply (enum_r_r C_SRAI (fun a b => BI SRAI a a b) 8 8 0 64);
  [vm_compute; reflexivity|lia|lia]. Qed.

(** The three-register arithmetic on x8..x15. *)
Lemma dec_C_alu (f : Z -> Z -> list Z) (o : op3) rd rs :
  all 8 8 (fun a => all 8 8 (fun b => chk16 (f a b) (BR o a a b))) = true ->
  8 <= rd < 16 -> 8 <= rs < 16 -> dec1 (f rd rs) (BR o rd rd rs).
Proof. intros H Hd Hs. exact (enum_r_r f (fun a b => BR o a a b) 8 8 8 8 H rd rs Hd Hs). Qed.

(** [c.addi16sp] with the multiples of 16. *)
Lemma dec_C_ADDI16SP imm : -32 <= Z.shiftr imm 4 < 32 -> Z.land imm 15 = 0 -> imm <> 0 ->
  dec1 (C_ADDI16SP imm) (BI ADDI 2 2 imm).
Proof.
  intros H1 H2 H3.
  change 15 with (Z.ones 4) in H2. rewrite Z.land_ones in H2 by lia.
  rewrite Z.shiftr_div_pow2 in H1 by lia.
  assert (Hc : all (-32) 64 (fun k => (k =? 0) || chk16 (C_ADDI16SP (16 * k)) (BI ADDI 2 2 (16 * k))) = true)
    by (vm_compute; reflexivity).
  pose proof (all_spec _ _ _ Hc (imm / 2 ^ 4)) as Hk. cbn beta in Hk.
  replace (16 * (imm / 2 ^ 4)) with imm in Hk by lia.
  apply chk16_dec1.
  destruct (Z.eqb_spec (imm / 2 ^ 4) 0); [lia|]. apply Hk. lia.
Qed.

(** Loads and stores with scaled offsets. *)
Lemma enum_mem (f : Z -> Z -> Z -> list Z) (g : Z -> Z -> Z -> base) sc n lo1 n1 lo2 n2 :
  all lo1 n1 (fun a => all lo2 n2 (fun b =>
    all 0 n (fun k => chk16 (f a (sc * k) b) (g a (sc * k) b)))) = true ->
  forall a b o, 0 < sc -> lo1 <= a < lo1 + n1 -> lo2 <= b < lo2 + n2 ->
  0 <= o < sc * n -> o mod sc = 0 -> dec1 (f a o b) (g a o b).
Proof.
  intros H a b o Hs Ha Hb Ho Hm. apply chk16_dec1.
  pose proof (all_spec _ _ _ (all_spec _ _ _ (all_spec _ _ _ H a Ha) b Hb) (o / sc)) as Hk.
  cbn beta in Hk. replace (sc * (o / sc)) with o in Hk.
  - apply Hk. split; [apply Z.div_pos; lia|]. apply Z.div_lt_upper_bound; lia.
  - pose proof (Z.div_mod o sc). lia.
Qed.

Lemma dec_C_LW rd ofs rs : 8 <= rd < 16 -> 8 <= rs < 16 -> 0 <= ofs < 128 -> ofs mod 4 = 0 ->
  dec1 (C_LW rd ofs rs) (BLoad LW rd rs ofs).
Proof. intros. apply (enum_mem C_LW (fun a o b => BLoad LW a b o) 4 32 8 8 8 8);
  try lia. vm_compute; reflexivity. Qed.
Lemma dec_C_LD rd ofs rs : 8 <= rd < 16 -> 8 <= rs < 16 -> 0 <= ofs < 256 -> ofs mod 8 = 0 ->
  dec1 (C_LD rd ofs rs) (BLoad LD rd rs ofs).
Proof. intros. apply (enum_mem C_LD (fun a o b => BLoad LD a b o) 8 32 8 8 8 8);
  try lia. vm_compute; reflexivity. Qed.
Lemma dec_C_SW rs2 ofs rs1 : 8 <= rs2 < 16 -> 8 <= rs1 < 16 -> 0 <= ofs < 128 -> ofs mod 8 = 0 ->
  dec1 (C_SW rs2 ofs rs1) (BStore SW rs2 rs1 ofs).
Proof. intros. apply (enum_mem C_SW (fun a o b => BStore SW a b o) 8 16 8 8 8 8);
  try lia. vm_compute; reflexivity. Qed.
Lemma dec_C_SD rs2 ofs rs1 : 8 <= rs2 < 16 -> 8 <= rs1 < 16 -> 0 <= ofs < 256 -> ofs mod 8 = 0 ->
  dec1 (C_SD rs2 ofs rs1) (BStore SD rs2 rs1 ofs).
Proof. intros. apply (enum_mem C_SD (fun a o b => BStore SD a b o) 8 32 8 8 8 8);
  try lia. vm_compute; reflexivity. Qed.
Lemma dec_C_FLD rd ofs rs : 8 <= rd < 16 -> 8 <= rs < 16 -> 0 <= ofs < 256 -> ofs mod 8 = 0 ->
  dec1 (C_FLD rd ofs rs) (BFload true rd rs ofs).
Proof. intros. apply (enum_mem C_FLD (fun a o b => BFload true a b o) 8 32 8 8 8 8);
  try lia. vm_compute; reflexivity. Qed.
Lemma dec_C_FSD rs2 ofs rs1 : 8 <= rs2 < 16 -> 8 <= rs1 < 16 -> 0 <= ofs < 256 -> ofs mod 8 = 0 ->
  dec1 (C_FSD rs2 ofs rs1) (BFstore true rs2 rs1 ofs).
Proof. intros. apply (enum_mem C_FSD (fun a o b => BFstore true a b o) 8 32 8 8 8 8);
  try lia. vm_compute; reflexivity. Qed.
Lemma dec_C_LDSP rd ofs : 1 <= rd < 32 -> 0 <= ofs < 512 -> ofs mod 8 = 0 ->
  dec1 (C_LDSP rd ofs) (BLoad LD rd 2 ofs).
Proof. intros. apply (enum_mem (fun a o b => C_LDSP a o) (fun a o b => BLoad LD a 2 o) 8 64 1 31 0 1)
  with (b := 0); try lia. vm_compute; reflexivity. Qed.
Lemma dec_C_SDSP rs ofs : reg_ok rs -> 0 <= ofs < 512 -> ofs mod 8 = 0 ->
  dec1 (C_SDSP rs ofs) (BStore SD rs 2 ofs).
Proof. intros. apply (enum_mem (fun a o b => C_SDSP a o) (fun a o b => BStore SD a 2 o) 8 64 0 32 0 1)
  with (b := 0); unfold reg_ok in *; try lia. vm_compute; reflexivity. Qed.
Lemma dec_C_FLDSP rd ofs : reg_ok rd -> 0 <= ofs < 512 -> ofs mod 8 = 0 ->
  dec1 (C_FLDSP rd ofs) (BFload true rd 2 ofs).
Proof. intros. apply (enum_mem (fun a o b => C_FLDSP a o) (fun a o b => BFload true a 2 o) 8 64 0 32 0 1)
  with (b := 0); unfold reg_ok in *; try lia. vm_compute; reflexivity. Qed.
Lemma dec_C_FSDSP rs ofs : reg_ok rs -> 0 <= ofs < 512 -> ofs mod 8 = 0 ->
  dec1 (C_FSDSP rs ofs) (BFstore true rs 2 ofs).
Proof. intros. apply (enum_mem (fun a o b => C_FSDSP a o) (fun a o b => BFstore true a 2 o) 8 64 0 32 0 1)
  with (b := 0); unfold reg_ok in *; try lia. vm_compute; reflexivity. Qed.

Lemma dec_C_JR rs : 1 <= rs < 32 -> dec1 (C_JR rs) (BJalr 0 rs 0).
Proof. intros. apply (enum_r_r (fun a _ => C_JR a) (fun a _ => BJalr 0 a 0) 1 31 0 1) with (b := 0);
  [vm_compute; reflexivity|lia|lia]. Qed.
Lemma dec_C_JALR rs : 1 <= rs < 32 -> dec1 (C_JALR rs) (BJalr 1 rs 0).
Proof. intros. apply (enum_r_r (fun a _ => C_JALR a) (fun a _ => BJalr 1 a 0) 1 31 0 1) with (b := 0);
  [vm_compute; reflexivity|lia|lia]. Qed.
Lemma dec_C_BEQZ rs : 8 <= rs < 16 -> dec1 (H (C_BEQZ_word rs)) (BBr BEQ rs 0 0).
Proof. intros. apply (enum_r_r (fun a _ => Rv_model.H (C_BEQZ_word a)) (fun a _ => BBr BEQ a 0 0) 8 8 0 1) with (b := 0);
  [vm_compute; reflexivity|lia|lia]. Qed.
Lemma dec_C_BNEZ rs : 8 <= rs < 16 -> dec1 (H (C_BNEZ_word rs)) (BBr BNE rs 0 0).
Proof. intros. apply (enum_r_r (fun a _ => Rv_model.H (C_BNEZ_word a)) (fun a _ => BBr BNE a 0 0) 8 8 0 1) with (b := 0);
  [vm_compute; reflexivity|lia|lia]. Qed.

(** ** 32-bit words as sums *)
Lemma lor_add b k a : 0 <= k -> 0 <= a < 2 ^ k -> Z.lor (Z.shiftl b k) a = b * 2 ^ k + a.
Proof.
  intros Hk Ha. rewrite Z.shiftl_mul_pow2 by done.
  assert (Hl : Z.land (b * 2 ^ k) a = 0).
  { apply Z.bits_inj'; intros n Hn. rewrite Z.land_spec, Z.bits_0.
    destruct (Z.lt_ge_cases n k).
    - by rewrite Z.mul_pow2_bits_low by done.
    - rewrite <- (Z.mod_small a (2 ^ k)) by done.
      rewrite (Z.mod_pow2_bits_high a k n) by lia. apply andb_false_r. }
  by rewrite <- Z.lxor_lor, Z.add_nocarry_lxor by done.
Qed.
