(** C130 to C133: the x64 instructions for integer operations, comparisons and conversions. *)
From stdpp Require Import base numbers list sets.
From Coq Require Import Lia.
From Verif Require Import Back.Isel_model Back.Isel_spec Back.Isel_block_proof Back.Isel_cmp_proof Back.Isel_tweak_proof Back.Isel_conv_proof Back.Isel_final_proof.
Open Scope Z_scope.

(** ** C130 *)

(** For operations of any number, and any assignment of registers in which registers in use at the
    same time differ and those that an operation overwrites are free: there are instructions for
    the operations, and after them the registers that are needed hold the values that C asks for. *)
Theorem C130_block : forall sz ph n l (L : nat -> Prop) e e' o s,
  Forall (typed sz) l -> Forall second_free l -> Forall (known n) l -> straight l -> (forall v, L v -> (v < n)%nat) ->
  fits ph (tweak n l) L -> exec l e = Some (e', o) -> agree sz ph (live_before l L) e s ->
  exists c s', emit_list ph (tweak n l) = Some c /\ run 0 c s = Some (false, s') /\ agree sz ph L e' s' /\
  fregs s' = fregs s /\ stk s' = stk s.
Proof. exact code_ok. Qed.
Print Assumptions C130_block.

(** A returned value ends up in the register for results. *)
Theorem C130_result : forall sz ph a e s, sized sz a -> agree sz ph (fun v => v ∈ opr_vreg a) e s ->
  exists s', run 0 (emit_result (place ph a)) s = Some (false, s') /\ regs s' AREG mod 2 ^ bits (vsize a) = vval e a.
Proof. exact result_ok. Qed.
Print Assumptions C130_result.

(** int f(int a, int b, unsigned char c) { return a * 100 / b - (c << 2) + (a < b); } *)
Definition sample : list vir := [
  VBop Mul false 2 3 (VReg 2 0) (VCon 2 100);
  VBop Div false 2 4 (VReg 2 3) (VReg 2 1);
  VCast true 2 5 (VReg 0 2);
  VBop Shl false 2 6 (VReg 2 5) (VCon 2 2);
  VBop Sub false 2 7 (VReg 2 4) (VReg 2 6);
  VCond false LT 8 (VReg 2 0) (VReg 2 1);
  VBop Add false 2 9 (VReg 2 7) (VReg 2 8)].
Definition sample_sz (v : nat) : nat := if Nat.eqb v 2 then 0%nat else 2%nat.
Definition sample_ph (v : nat) : nat := match v with 0 => 1 | 1 => 2 | 2 => 5 | 10 => 10 | _ => v + 4 end%nat.
Definition sample_state : state :=
  St (fun r => match r with 1%nat => 2 ^ 32 - 7 | 2%nat => 50 | 5%nat => 2 ^ 40 + 3 | _ => 12345 end) (fun _ => NaN) [] None.
Definition sample_env (v : nat) : Z := match v with 0%nat => -7 | 1%nat => 50 | 2%nat => 3 | _ => 0 end.
Example C130_sample_typed : Forall (typed sample_sz) sample /\ Forall second_free sample /\ Forall (known 10) sample /\ straight sample /\
  fits sample_ph (tweak 10 sample) (fun v => v = 9%nat) /\ agree sample_sz sample_ph (live_before sample (fun v => v = 9%nat)) sample_env sample_state.
Proof.
  split_and!.
  - repeat (constructor; [cbn; repeat split; try lia; try congruence; try (intros [H|H]; congruence)|]); constructor.
  - repeat (constructor; [cbn; rewrite ?elem_of_list_singleton, ?elem_of_nil; auto; lia|]); constructor.
  - repeat (constructor; [intros v [H|H]; cbn in H; [rewrite ?elem_of_list_singleton, ?elem_of_cons, ?elem_of_nil in H; lia|injection H; lia]|]); constructor.
  - unfold straight, sample. repeat (apply Forall_cons; split; [discriminate|]). apply Forall_nil. exact I.
  - match goal with |- fits _ ?t _ => let t' := eval vm_compute in t in change t with t' end.
    repeat split; cbn; intros; repeat match goal with
      | H : Some _ = Some _ |- _ => injection H as H; subst
      | H : _ ∈ [] |- _ => by apply elem_of_nil in H
      | H : _ ∈ _ :: _ |- _ => apply elem_of_cons in H
      | H : _ \/ _ |- _ => destruct H
      | H : _ /\ _ |- _ => destruct H
      | H : _ = _ :> nat |- _ => subst
      end; try congruence; try (vm_compute; congruence); try (rewrite ?elem_of_cons, ?elem_of_nil; vm_compute; intuition congruence).
  - intros v Hv. cbn in Hv. repeat match goal with
      | H : _ ∈ [] |- _ => by apply elem_of_nil in H
      | H : _ ∈ _ :: _ |- _ => apply elem_of_cons in H
      | H : _ \/ _ |- _ => destruct H
      | H : _ /\ _ |- _ => destruct H
      | H : _ = _ :> nat |- _ => subst
      end; try congruence; vm_compute; congruence.
Qed.
Example C130_sample_code : emit_list sample_ph (tweak 10 sample) = Some [
  IMov 2 (Reg 1) 7; IMov 2 (Imm 100) 10; IMov 2 (Reg 7) 0; IMul 2 10; IMov 2 (Reg 0) 7;
  IMov 2 (Reg 7) 8; IMov 2 (Reg 8) 0; ICltd; IIdiv 2 2; IMov 2 (Reg 0) 8;
  IMovzx 0 2 5 9; IMov 2 (Reg 9) 10; IShl 2 (Some 2) 10; IMov 2 (Reg 8) 11; ISub 2 (Reg 10) 11;
  ICmp 2 (Reg 2) 1; ISet CL 12; IMovsx 0 2 12 12; IMov 2 (Reg 11) 13; IAdd 2 (Reg 12) 13].
Proof. vm_compute. reflexivity. Qed.
Example C130_sample_run : match emit_list sample_ph (tweak 10 sample) with
  | Some c => match run 0 c sample_state with Some (_, s) => Some (regs s 13) | None => None end
  | None => None end = Some ((-14 - 12 + 1) mod 2 ^ 32).
Proof. vm_compute. reflexivity. Qed.

(** ** C131 *)

(** A conditional jump of integers is taken if the condition holds. *)
Theorem C131_jump : forall sz ph uns c a b e s, typed sz (VJmp uns c a b) -> fits32 b ->
  agree sz ph (fun v => v ∈ opr_vreg a ++ opr_vreg b) e s ->
  exists cd s', emit ph (VJmp uns c a b) = Some cd /\
  run 0 cd s = Some (holds c (number uns (bits (vsize a)) (vval e a)) (number uns (bits (vsize a)) (vval e b)), s') /\
  regs s' = regs s /\ fregs s' = fregs s /\ stk s' = stk s.
Proof. exact vjmp_ok. Qed.
Print Assumptions C131_jump.

(** A jump on floating-point numbers too, whether or not they are numbers. *)
Theorem C131_float_jump : forall c f1 f2 s,
  exists s', run 0 (emit_fjmp c f1 f2) s = Some (fholds c (fregs s f1) (fregs s f2), s') /\
  regs s' = regs s /\ fregs s' = fregs s /\ stk s' = stk s.
Proof. exact fjmp_ok. Qed.
Print Assumptions C131_float_jump.

(** The value of a comparison of floating-point numbers. *)
Theorem C131_float_value : forall c d f1 f2 s,
  exists s', run 0 (emit_fcond c d f1 f2) s = Some (false, s') /\
  regs s' d mod 2 ^ 32 = (if fholds c (fregs s f1) (fregs s f2) then 1 else 0) /\
  (forall r, r <> d -> regs s' r = regs s r) /\ fregs s' = fregs s /\ stk s' = stk s.
Proof. exact fcond_full. Qed.
Print Assumptions C131_float_value.

(** The index of a table of jumps is extended without sign. *)
Theorem C131_index : forall k p s, (k < 4)%nat -> exists s', run 0 (emit_index k p) s = Some (false, s') /\
  regs s' p mod 2 ^ 64 = regs s p mod 2 ^ bits k /\ forall r, r <> p -> regs s' r = regs s r.
Proof. exact index_ok. Qed.
Print Assumptions C131_index.

Example C131_unsigned : match emit (fun v => v) (VJmp true LT (VReg 2 0) (VCon 2 (-1))) with
  | Some c => match run 0 c (St (fun _ => 5) (fun _ => NaN) [] None) with Some (b, _) => Some b | None => None end
  | None => None end = Some true.
Proof. vm_compute. reflexivity. Qed.
Example C131_nan : match run 0 (emit_fjmp LE 0 1) (St (fun _ => 0) (fun r => if Nat.eqb r 0 then NaN else Fin 1 0) [] None) with
  | Some (b, _) => Some b | None => None end = Some false.
Proof. vm_compute. reflexivity. Qed.

(** ** C132 *)

(** An integer becomes itself or a neighbour among the floating-point numbers of [prec] digits.
    Missing: unsigned integers of 4 bytes, if the upper half of the register is not zero. *)
Theorem C132_to_float_partial : forall uns prec ss p d s, 0 < prec <= 62 -> (ss < 4)%nat ->
  (uns = true -> ss = 2%nat -> regs s p mod 2 ^ 64 < 2 ^ 32) ->
  exists s' v, run 0 (emit_i2f uns prec ss p d) s = Some (false, s') /\
  is_int (fregs s' d) v /\ neighbour prec (number uns (bits ss) (regs s p mod 2 ^ bits ss)) v /\
  regs s' p mod 2 ^ bits ss = regs s p mod 2 ^ bits ss /\
  (forall r, r <> p -> regs s' r mod 2 ^ 64 = regs s r mod 2 ^ 64) /\
  (forall f, f <> d -> fregs s' f = fregs s f) /\ stk s' = stk s.
Proof. exact i2f_ok. Qed.
Print Assumptions C132_to_float_partial.

(** The cast of 8 to 4 bytes that precedes in (double)(unsigned int)x leaves the upper half. *)
Theorem C132_to_float_refuted : exists s p d c s' v, emit_cast true 2 p (OReg 3 p) = Some c /\
  run 0 (c ++ emit_i2f true 53 2 p d) s = Some (false, s') /\ is_int (fregs s' d) v /\
  ~ neighbour 53 (number true 32 (regs s p mod 2 ^ 32)) v.
Proof. exact u32_bad. Qed.
Print Assumptions C132_to_float_refuted.

(** A floating-point number becomes the integer before its point, if the type has it.
    Missing: unsigned types of 4 and 8 bytes for the upper half of their values. *)
Theorem C132_to_int_partial : forall uns sd f d s z, (sd < 4)%nat -> truncated (fregs s f) z -> in_range uns (bits sd) z = true ->
  (uns = true -> (2 <= sd)%nat -> z < 2 ^ (bits sd - 1)) ->
  exists s', run 0 (emit_f2i sd f d) s = Some (false, s') /\ regs s' d mod 2 ^ bits sd = z mod 2 ^ bits sd /\
  (forall r, r <> d -> regs s' r = regs s r) /\ fregs s' = fregs s /\ stk s' = stk s.
Proof. exact f2i_ok. Qed.
Print Assumptions C132_to_int_partial.

(** (unsigned int)3000000000.0 *)
Theorem C132_to_unsigned_refuted : exists s f d z sd s', truncated (fregs s f) z /\ in_range true (bits sd) z = true /\
  run 0 (emit_f2i sd f d) s = Some (false, s') /\ regs s' d mod 2 ^ bits sd <> z mod 2 ^ bits sd.
Proof. exact f2u_bad. Qed.
Print Assumptions C132_to_unsigned_refuted.
(** (unsigned long)1e19 *)
Theorem C132_to_unsigned_long_refuted : exists s f d z s', truncated (fregs s f) z /\ in_range true 64 z = true /\
  run 0 (emit_f2i 3 f d) s = Some (false, s') /\ regs s' d mod 2 ^ 64 <> z mod 2 ^ 64.
Proof. exact f2ul_bad. Qed.
Print Assumptions C132_to_unsigned_long_refuted.

Example C132_top : match run 0 (emit_i2f true 53 3 5 2) (St (fun _ => 2 ^ 64 - 1) (fun _ => NaN) [] None) with
  | Some (_, s) => Some (fregs s 2%nat) | None => None end = Some (Fin (2 ^ 53) 11).
Proof. vm_compute. reflexivity. Qed.
Example C132_minus : match run 0 (emit_f2i 1 0 4) (St (fun _ => 7) (fun _ => Fin (-5) (-1)) [] None) with
  | Some (_, s) => Some (regs s 4%nat mod 2 ^ 16) | None => None end = Some (2 ^ 16 - 2).
Proof. vm_compute. reflexivity. Qed.

(** ** C133 *)

(** Bringing operations into the form for which there are instructions does not change what they
    do, observations included. *)
Theorem C133_same : forall sz n l e e' o, Forall (typed sz) l -> Forall second_free l -> Forall (known n) l ->
  exec l e = Some (e', o) ->
  exists e2, exec (tweak n l) e = Some (e2, o) /\ forall v, (v < n)%nat -> e2 v = e' v.
Proof. exact tweak_same. Qed.
Print Assumptions C133_same.

(** And afterwards they have this form; new registers have sizes that agree with their uses. *)
Theorem C133_form : forall sz n l, Forall (typed sz) l -> Forall (known n) l ->
  Forall prepared (tweak n l) /\ exists sz', (forall v, (v < n)%nat -> sz' v = sz v) /\ Forall (typed sz') (tweak n l).
Proof. exact tweak_prepared. Qed.
Print Assumptions C133_form.

(** In this form every operation has instructions. *)
Theorem C133_instructions : forall sz ph i L, typed sz i -> prepared i -> fits1 ph i L -> exists c, emit ph i = Some c.
Proof. exact emit_total. Qed.
Print Assumptions C133_instructions.

Example C133_big : tweak 2 [VBop Mul true 3 1 (VReg 3 0) (VCon 3 (2 ^ 40)); VBop And true 3 1 (VReg 3 1) (VCon 3 255); VJmp true GE (VReg 3 1) (VCon 3 (2 ^ 31))] =
  [VMov 3 1 (VReg 3 0); VMov 3 2 (VCon 3 (2 ^ 40)); VBop Mul true 3 1 (VReg 3 1) (VReg 3 2);
   VMov 3 1 (VReg 3 1); VBop And true 3 1 (VReg 3 1) (VCon 3 255);
   VMov 3 3 (VCon 3 (2 ^ 31)); VJmp true GE (VReg 3 1) (VReg 3 3)].
Proof. vm_compute. reflexivity. Qed.
