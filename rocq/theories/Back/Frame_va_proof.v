(** Variable arguments. *)
From stdpp Require Import base numbers list sets.
From Coq Require Import Lia.
From Verif Require Import Back.Frame_model Back.Frame_spec Back.Frame_proof Back.Frame_run_proof Back.Frame_args_proof Back.Frame_arrive_proof.
Open Scope Z_scope.

Lemma gp_app l : forall ir fr off e,
  gp ir fr off (l ++ e) = gp ir fr off l ++ gp (ir + count int_class l) (fr + count flo_class l) (gsize ir fr off l) e.
Proof.
  induction l as [|t l IH]; intros ir fr off e; [cbn [app gp gsize count]; by rewrite !Nat.add_0_r|].
  cbn [app gp gsize count]. unfold int_class, flo_class in *.
  destruct (t_struct t); cbn [negb andb].
  - by rewrite IH.
  - destruct (t_flo t); cbn [negb]; [destruct (fr <? 8)%nat|destruct (ir <? 6)%nat]; rewrite IH; cbn [app];
      rewrite ?Nat.add_succ_r, ?Nat.add_succ_l; done.
Qed.
Lemma gsize_scalar l : forall ir fr off, Forall type_ok l -> Forall (fun t => t_struct t = false) l ->
  gsize ir fr off l = off + (Z.max (Z.of_nat (ir + count int_class l) - 6) 0 - Z.max (Z.of_nat ir - 6) 0
    + Z.max (Z.of_nat (fr + count flo_class l) - 8) 0 - Z.max (Z.of_nat fr - 8) 0) * 8.
Proof.
  induction l as [|t l IH]; intros ir fr off Hl Hs; [cbn; rewrite !Nat.add_0_r; lia|].
  inversion Hl as [|? ? Ht Hl']; subst. inversion Hs as [|? ? Hst Hs']; subst.
  cbn [gsize count]. unfold int_class, flo_class in *. rewrite Hst. cbn [negb andb]. rewrite (round8_scalar t Ht Hst).
  destruct (t_flo t); cbn [negb].
  - destruct (fr <? 8)%nat eqn:E; [apply Nat.ltb_lt in E|apply Nat.ltb_ge in E]; rewrite IH by done; lia.
  - destruct (ir <? 6)%nat eqn:E; [apply Nat.ltb_lt in E|apply Nat.ltb_ge in E]; rewrite IH by done; lia.
Qed.

Lemma land8 x : Z.land x (-8) = x - x mod 8.
Proof. apply (land_neg x 3). lia. Qed.
Lemma va_mem ap t off B : type_ok t -> overflow ap = B + off -> (B + off) mod 8 = 0 ->
  va_arg_mem ap t = (Va (gp_offset ap) (fp_offset ap) (B + (off + round8 (t_size t))) (save_area ap), B + off).
Proof.
  intros (Hz & Ha & _) Ho Hm. unfold va_arg_mem.
  assert (H8 : (8 <? t_align t) = false).
  { apply Z.ltb_ge. repeat (apply elem_of_cons in Ha as [->|Ha]); [lia..|by apply elem_of_nil in Ha]. }
  rewrite H8, Ho, land8. f_equal. f_equal. unfold round8.
  apply Z.mod_divide in Hm as [q Hq]; [|lia]. rewrite Hq.
  replace (q * 8 + t_size t + 7) with (t_size t + 7 + q * 8) by lia. rewrite Z.mod_add by lia.
  pose proof (Z.div_mod (t_size t + 7) 8 ltac:(lia)). lia.
Qed.

Lemma va_args_gp e : forall ir fr off B S ap i a p, Forall type_ok e -> B mod 8 = 0 -> off mod 8 = 0 ->
  gp_offset ap = Z.min (Z.of_nat ir) 6 * 8 -> fp_offset ap = (6 + Z.min (Z.of_nat fr) 8) * 8 -> overflow ap = B + off -> save_area ap = S ->
  va_args ap e !! i = Some a -> gp ir fr off e !! i = Some p ->
  a = match p with InReg k => S + Z.of_nat k * 8 | InFreg k => S + 48 + Z.of_nat k * 8 | OnStack o => B + o end.
Proof.
  induction e as [|t e IH]; intros ir fr off B S ap i a p He HB Hoff Hg Hf Ho Hs Ha Hp; [done|].
  inversion He as [|? ? Ht He']; subst. cbn [va_args gp] in *.
  pose proof (va_mem ap t off B Ht Ho ltac:(by apply mod8_add)) as Hm.
  assert (Hoff' : (off + round8 (t_size t)) mod 8 = 0) by (apply mod8_add; [done|apply round8_mod]).
  unfold va_arg in Ha. rewrite Hm in Ha. unfold GP_OFFSET_MAX, FP_OFFSET_MAX, GP_OFFSET_MAX in Ha.
  destruct (t_struct t).
  - destruct i as [|i]; cbn in Ha, Hp.
    + injection Ha as <-. injection Hp as <-. done.
    + eapply (IH ir fr _ B _ _ i _ _ He' HB Hoff'); try exact Ha; try exact Hp; done.
  - destruct (t_flo t).
    + destruct (fr <? 8)%nat eqn:E; [apply Nat.ltb_lt in E|apply Nat.ltb_ge in E].
      * rewrite (proj2 (Z.ltb_lt _ _)) in Ha by lia. destruct i as [|i]; cbn [lookup list_lookup fst snd] in Ha, Hp.
        -- injection Ha as <-. injection Hp as <-. lia.
        -- eapply (IH ir (Datatypes.S fr) _ B _ _ i _ _ He' HB Hoff); try exact Ha; try exact Hp; cbn [gp_offset fp_offset overflow save_area]; try done. lia.
      * rewrite (proj2 (Z.ltb_ge _ _)) in Ha by lia. destruct i as [|i]; cbn [lookup list_lookup fst snd] in Ha, Hp.
        -- injection Ha as <-. injection Hp as <-. done.
        -- eapply (IH ir (Datatypes.S fr) _ B _ _ i _ _ He' HB Hoff'); try exact Ha; try exact Hp; cbn [gp_offset fp_offset overflow save_area]; try done. lia.
    + destruct (ir <? 6)%nat eqn:E; [apply Nat.ltb_lt in E|apply Nat.ltb_ge in E].
      * rewrite (proj2 (Z.ltb_lt _ _)) in Ha by lia. destruct i as [|i]; cbn [lookup list_lookup fst snd] in Ha, Hp.
        -- injection Ha as <-. injection Hp as <-. lia.
        -- eapply (IH (Datatypes.S ir) fr _ B _ _ i _ _ He' HB Hoff); try exact Ha; try exact Hp; cbn [gp_offset fp_offset overflow save_area]; try done. lia.
      * rewrite (proj2 (Z.ltb_ge _ _)) in Ha by lia. destruct i as [|i]; cbn [lookup list_lookup fst snd] in Ha, Hp.
        -- injection Ha as <-. injection Hp as <-. done.
        -- eapply (IH (Datatypes.S ir) fr _ B _ _ i _ _ He' HB Hoff'); try exact Ha; try exact Hp; cbn [gp_offset fp_offset overflow save_area]; try done. lia.
Qed.

Lemma loadn_le n : forall k m a, (k <= n)%nat -> loadn k m a = loadn n m a mod 256 ^ Z.of_nat k.
Proof.
  induction n as [|n IH]; intros k m a Hk.
  - assert (k = 0%nat) as -> by lia. done.
  - destruct k as [|k]; [cbn [loadn]; change (256 ^ Z.of_nat 0) with 1; by rewrite Z.mod_1_r|].
    cbn [loadn]. rewrite (IH k) by lia. set (X := loadn n m (a + 1)). set (b := m a mod 256).
    assert (0 <= b < 256) by (apply Z.mod_pos_bound; lia).
    rewrite Nat2Z.inj_succ, Z.pow_succ_r by lia. rewrite Z.rem_mul_r by lia.
    replace (b + 256 * X) with (b + X * 256) by lia. rewrite Z.mod_add, Z.div_add by lia.
    rewrite (Z.mod_small b), (Z.div_small b) by lia. rewrite Z.add_0_l. done.
Qed.
Lemma mod_word v n : (n <= 8)%nat -> (v mod word) mod 256 ^ Z.of_nat n = v mod 256 ^ Z.of_nat n.
Proof.
  intros H. unfold word. replace (2 ^ 64) with (256 ^ Z.of_nat n * 256 ^ (8 - Z.of_nat n)).
  - rewrite Z.rem_mul_r by lia. rewrite (Z.mul_comm (256 ^ Z.of_nat n)), Z.mod_add by lia. by rewrite Z.mod_mod by lia.
  - rewrite <- Z.pow_add_r by lia. by replace (Z.of_nat n + (8 - Z.of_nat n)) with 8 by lia.
Qed.

Lemma va_ok l e : Forall (fun t => t_struct t = false) l -> va_right false l e.
Proof.
  intros Hns f a vals s i t addr v Hle Hf Hw Hsp Ha Hh s' Ht Hv Haddr. unfold all_params in *.
  pose proof (proj1 (Forall_app _ _ _) Hle) as [Hl He].
  destruct (entry f true l a s Hl Hf Hw Ha) as (E1 & E2 & E3 & _ & E5). cbn zeta in *. fold s' in E1, E2, E3, E5.
  destruct Ha as (_ & Hfr & _). assert (Hb : rbp_saved f = true) by (unfold rbp_saved; rewrite (Hfr eq_refl); apply orb_true_r).
  specialize (E2 Hb). destruct (E5 eq_refl) as [W1 W2]. clear E5.
  set (bp := regs s' RBP) in *. rewrite call_places_gp in Hh by done. cbn [arg_start] in Hh.
  pose proof (gp_app l 0 0 0 e) as Hga. rewrite !Nat.add_0_l in Hga.
  destruct (gp (count int_class l) (count flo_class l) (gsize 0 0 0 l) e !! i) as [p|] eqn:Ep.
  2:{ apply lookup_ge_None in Ep. rewrite gp_length in Ep. apply lookup_lt_Some in Ht. lia. }
  assert (Hheld : held s t p v).
  { eapply (Hh (length l + i)%nat).
    - rewrite lookup_app_r by lia. by replace (length l + i - length l)%nat with i by lia.
    - rewrite Hga, lookup_app_r by (rewrite gp_length; lia). rewrite gp_length. by replace (length l + i - length l)%nat with i by lia.
    - done. }
  assert (Hoff : gsize 0 0 0 l = (Z.max (Z.of_nat (count int_class l) - 6) 0 + Z.max (Z.of_nat (count flo_class l) - 8) 0) * 8).
  { rewrite gsize_scalar by done. cbn [Nat.add]. lia. }
  assert (HB : (bp + param_bottom (used f)) = rsp s + 8).
  { rewrite E2. unfold saved_size, param_bottom. rewrite Hb. lia. }
  assert (Hm8 : (rsp s + 8) mod 8 = 0).
  { rewrite (Z.div_mod (rsp s) 16), Hsp by lia. replace (16 * (rsp s / 16) + 8 + 8) with ((2 * (rsp s / 16) + 2) * 8) by lia. apply Z.mod_mul. lia. }
  pose proof (va_args_gp e (count int_class l) (count flo_class l) (gsize 0 0 0 l) (rsp s + 8) (bp - 112)
    (va_start (used f) bp l) i addr p He Hm8) as HA.
  rewrite HA; clear HA; [|rewrite Hoff; apply Z.mod_mul; lia|cbn [gp_offset va_start]; unfold MAX_REG_ARGS; lia
    |cbn [fp_offset va_start]; unfold MAX_REG_ARGS, MAX_FREG_ARGS; lia
    |cbn [overflow va_start]; unfold MAX_REG_ARGS, MAX_FREG_ARGS; rewrite Hoff; lia
    |cbn [save_area va_start]; unfold MAX_REG_ARGS, MAX_FREG_ARGS; lia|done|done].
  pose proof (Forall_lookup_1 _ _ _ _ He Ht) as Hty. pose proof (size_nat t Hty) as Hn.
  pose proof (gp_kind _ _ _ _ _ _ _ Ht Ep) as K.
  destruct p as [k|k|o]; cbn [held] in Hheld.
  - destruct K as [K1 K2]. pose proof (size_le8 t Hty K2) as H8. rewrite (loadn_le 8) by lia.
    rewrite W1 by (unfold iparam_count, MAX_REG_ARGS; lia). rewrite mod_word by lia. by rewrite Hn.
  - destruct K as (K1 & K2 & _). pose proof (size_le8 t Hty K2) as H8. rewrite (loadn_le 8) by lia.
    replace (bp - 112 + 48 + Z.of_nat k * 8) with (bp - 64 + Z.of_nat k * 8) by lia.
    rewrite W2 by (unfold fparam_count, MAX_FREG_ARGS; lia). rewrite mod_word by lia. by rewrite Hn.
  - rewrite <- Hheld. apply loadn_ext. intros x Hx. apply E3; [done|].
    destruct (gp_bounds _ _ _ _ _ _ _ He Ht Ep) as (G1 & _ & _). assert (0 <= gsize 0 0 0 l) by (rewrite Hoff; lia). lia.
Qed.

(** ** A list handed to code of another compiler *)

Lemma abi_same e : forall ap k, Forall type_ok e -> Forall (fun t => int_class t = true) e ->
  gp_offset ap = 8 * k -> overflow ap mod 8 = 0 -> abi_va_args ap e = va_args ap e.
Proof.
  induction e as [|t e IH]; intros ap k He Hi Hg Ho; [done|]. inversion He as [|? ? Ht He']; subst. inversion Hi as [|? ? Hit Hi']; subst.
  unfold int_class in Hit. apply andb_true_iff in Hit as [H1 H2]. apply negb_true_iff in H1, H2.
  cbn [abi_va_args va_args]. unfold va_arg. rewrite H1, H2. cbn [andb negb]. unfold GP_OFFSET_MAX.
  destruct (gp_offset ap <? 6 * 8) eqn:E; [apply Z.ltb_lt in E|apply Z.ltb_ge in E].
  - rewrite (proj2 (Z.leb_le _ _)) by lia. cbn [fst snd]. f_equal; [lia|]. by apply (IH _ (k + 1)); cbn [gp_offset overflow]; [..|lia|].
  - rewrite (proj2 (Z.leb_gt _ _)) by lia. rewrite (va_mem ap t 0 (overflow ap) Ht) by (rewrite ?Z.add_0_r; done). cbn [fst snd].
    rewrite Z.add_0_r, Z.add_0_l. f_equal. apply (IH _ k); [done|done|done|]. cbn [overflow]. apply mod8_add; [done|apply round8_mod].
Qed.
Lemma abi_ok l e : Forall (fun t => t_struct t = false) l -> Forall (fun t => int_class t = true) e -> va_right_by abi_va_args false l e.
Proof.
  intros Hl He f a vals s i t addr v Hle Hf Hw Hsp Ha Hh s' Ht Hv Haddr.
  eapply (va_ok l e Hl f a vals s i t addr v); eauto. fold s'. rewrite <- Haddr. f_equal. symmetry.
  apply Forall_app in Hle as [Hlo Heo].
  apply (abi_same e _ (Z.min (Z.of_nat (count int_class l)) 6)); [done|done|cbn [gp_offset va_start]; unfold MAX_REG_ARGS; lia|].
  destruct (entry f true l a s Hlo Hf Hw Ha) as (_ & E2 & _). cbn zeta in E2. unfold all_params in s'. fold s' in E2.
  destruct Ha as (_ & Hfr & _). assert (Hb : rbp_saved f = true) by (unfold rbp_saved; rewrite (Hfr eq_refl); apply orb_true_r).
  cbn [overflow va_start]. rewrite E2 by done. unfold saved_size, param_bottom. rewrite Hb. rewrite (Z.div_mod (rsp s) 16), Hsp by lia.
  set (c := Z.of_nat (length (callee_saves (used f)))). set (g := Z.max _ _ + Z.max _ _). set (q := rsp s / 16).
  replace (16 * q + 8 - (c * 8 + 8) + (c * 8 + 8 * 2) + g * 8) with ((2 * q + 2 + g) * 8) by lia. apply Z.mod_mul. lia.
Qed.

(** ** Where it goes wrong *)

Definition int_ty : aty := Aty false false 4 4.
Definition dbl_ty : aty := Aty false true 8 8.
Definition big_ty : aty := Aty true false 16 8.
Definition va_fn : fn := Fn (fun _ => false) true 112 0 false.

Ltac in_list := repeat first [left | right].
Lemma int_ok : type_ok int_ty. Proof. split; [cbn; lia|]. split; [set_solver|]. intros _. split; [set_solver|done]. Qed.
Lemma dbl_ok : type_ok dbl_ty. Proof. split; [cbn; lia|]. split; [set_solver|]. intros _. split; [set_solver|]. intros _. set_solver. Qed.
Lemma big_ok : type_ok big_ty. Proof. split; [cbn; lia|]. split; [set_solver|done]. Qed.

Definition sret_state : state := St (fun r => match r with 1%nat => 4096 | 2%nat => 5 | 3%nat => 77 | _ => 0 end) (fun _ => 0) 1000 (fun _ => 0).
Lemma sret_wrong : ~ va_right true [int_ty] [int_ty].
Proof.
  intros H. specialize (H va_fn [Phys 1; Phys 2] [4096; 5; 77] sret_state 0%nat int_ty 888 77).
  assert (E : loadn (Z.to_nat (t_size int_ty)) (mem (run (prologue va_fn ++ param_moves true (zip (all_params true [int_ty]) [Phys 1; Phys 2])) sret_state)) 888 = 77).
  { apply H; try done.
    - repeat constructor; apply int_ok.
    - split; [done|]. split; [done|]. split.
      + intros i t q b Hi Hq Hb. destruct i as [|[|i]]; vm_compute in Hi, Hq, Hb; simplify_eq; cbn; auto.
      + intros i j t t' q q' b b' Hn Hi Hj Hq Hq' Hb Hb'. destruct i as [|[|i]], j as [|[|j]]; try done; vm_compute in Hi, Hj, Hq, Hq', Hb, Hb'; simplify_eq; cbn; lia.
    - intros i t q v Hi Hq Hv. destruct i as [|[|[|i]]]; vm_compute in Hi, Hq, Hv; simplify_eq; done. }
  vm_compute in E. done.
Qed.

(** struct of 16 bytes, int; six further integers: the last is behind the structure. *)
Definition sparam_state : state := St (fun r => match r with O => 0 | S r => 10 + Z.of_nat r end) (fun _ => 0) 1000 (fun a => if a =? 1024 then 9 else 0).
Lemma sparam_wrong : ~ va_right false [big_ty; int_ty] (replicate 6 int_ty).
Proof.
  intros H. specialize (H va_fn [Phys 1; Phys 1] [0; 10; 11; 12; 13; 14; 15; 9] sparam_state 5%nat int_ty 1008 9).
  assert (E : loadn (Z.to_nat (t_size int_ty)) (mem (run (prologue va_fn ++ param_moves true (zip (all_params false [big_ty; int_ty]) [Phys 1; Phys 1])) sparam_state)) 1008 = 9).
  { apply H; try done.
    - constructor; [apply big_ok|]. cbn. repeat constructor; apply int_ok.
    - split; [done|]. split; [done|]. split.
      + intros i t q b Hi Hq Hb. destruct i as [|[|i]]; vm_compute in Hi, Hq, Hb; simplify_eq; cbn; auto.
      + intros i j t t' q q' b b' Hn Hi Hj Hq Hq' Hb Hb'. destruct i as [|[|i]], j as [|[|j]]; try done; vm_compute in Hi, Hj, Hq, Hq', Hb, Hb'; simplify_eq; done.
    - intros i t q v Hi Hq Hv. do 8 (destruct i as [|i]; [vm_compute in Hi, Hq, Hv; simplify_eq; done|]). vm_compute in Hi; done. }
  vm_compute in E. done.
Qed.

Definition abi_state : state := St (fun _ => 3) (fun x => 100 + Z.of_nat x) 1000 (fun _ => 0).
Lemma abi_wrong : ~ va_right_by abi_va_args false [int_ty] [dbl_ty; dbl_ty].
Proof.
  intros H. specialize (H va_fn [Phys 1] [3; 100; 101] abi_state 1%nat dbl_ty 944 101).
  assert (E : loadn (Z.to_nat (t_size dbl_ty)) (mem (run (prologue va_fn ++ param_moves true (zip (all_params false [int_ty]) [Phys 1])) abi_state)) 944 = 101).
  { apply H; try done.
    - constructor; [apply int_ok|]. cbn. repeat constructor; apply dbl_ok.
    - split; [done|]. split; [done|]. split.
      + intros i t q b Hi Hq Hb. destruct i as [|i]; vm_compute in Hi, Hq, Hb; simplify_eq; cbn; auto.
      + intros i j t t' q q' b b' Hn Hi Hj Hq Hq' Hb Hb'. destruct i as [|i], j as [|j]; try done; vm_compute in Hi, Hj; done.
    - intros i t q v Hi Hq Hv. do 3 (destruct i as [|i]; [vm_compute in Hi, Hq, Hv; simplify_eq; done|]). vm_compute in Hi; done. }
  vm_compute in E. done.
Qed.
