(** C112: code of expressions.  C113: code of functions. *)
From stdpp Require Import base list numbers.
From Verif Require Import Back.Ir_model Back.Ir_spec Back.Opt_model Back.Opt_spec Back.Gen_model Back.Gen_spec Back.Gen_fun_proof.
Local Open Scope Z_scope.

(** The code of an expression, anywhere in a function, computes its value and has its effects. *)
Theorem C112_value : forall (W : Type) (ld : W -> Z -> Z -> option Z) (st : W -> Z -> Z -> Z -> option W) (call : W -> nat -> list Z -> option (Z * W))
    (nv : nat) (vt : nat -> ty) P c Q e r l o sz r' l' s w v s' w' R M regs args ret,
  (forall x, good_ty (vt x)) -> NoDup (labs (P ++ c ++ Q)) ->
  gen None e r l = Some (o, sz, c, r', l') -> typed true nv vt e -> (nv <= r)%nat -> matches nv vt s regs ->
  eval ld st call e s w = Some (v, s', w', R, M) ->
  exists n regs' args',
    msteps ld st call (P ++ c ++ Q) n (Mach (length P) regs args ret w) (Mach (length P + length c) regs' args' ret w') /\
    matches nv vt s' regs' /\ stands regs' o (typeof e) v /\ sz = tsz (typeof e) /\ (forall x, (nv <= x < r)%nat -> regs' x = regs x).
Proof. exact @value_ok. Qed.
Print Assumptions C112_value.

(** As a condition, it goes to the place for its value. *)
Theorem C112_condition : forall (W : Type) (ld : W -> Z -> Z -> option Z) (st : W -> Z -> Z -> Z -> option W) (call : W -> nat -> list Z -> option (Z * W))
    (nv : nat) (vt : nat -> ty) P c Q e tb fb r l o sz r' l' s w v s' w' R M regs args ret q,
  (forall x, good_ty (vt x)) -> NoDup (labs (P ++ c ++ Q)) ->
  gen (Some (tb, fb)) e r l = Some (o, sz, c, r', l') -> typed true nv vt e -> (nv <= r)%nat -> matches nv vt s regs ->
  eval ld st call e s w = Some (v, s', w', R, M) ->
  (P ++ c ++ Q) !! q = Some (Lab (if truth v then tb else fb)) ->
  exists n regs' args',
    msteps ld st call (P ++ c ++ Q) n (Mach (length P) regs args ret w) (Mach q regs' args' ret w') /\
    matches nv vt s' regs' /\ (forall x, (nv <= x < r)%nat -> regs' x = regs x).
Proof. exact @condition_ok. Qed.
Print Assumptions C112_condition.

Definition no_ld (w : unit) (a s : Z) : option Z := None.
Definition no_st (w : unit) (a s v : Z) : option unit := None.
Definition no_call (w : unit) (f : nat) (args : list Z) : option (Z * unit) := None.
Definition int_ : ty := Ty 2 false.
Definition unsigned_ : ty := Ty 2 true.

(** (unsigned)(i = -1) == 4294967295u is true, and is compiled to 0. *)
Theorem C112_cast_refuted : exists e s v s' w' R M o sz c r' l',
  typed false 1 (fun _ => int_) e /\ eval no_ld no_st no_call e s tt = Some (v, s', w', R, M) /\
  gen None e 1 0 = Some (o, sz, c, r', l') /\ ~ (forall regs, stands regs o (typeof e) v).
Proof.
  exists (ERel REq unsigned_ (ECast unsigned_ int_ (EAssign 0 int_ (EFix (-1) int_))) (EFix 4294967295 unsigned_)), (fun _ => 0).
  eexists _, _, _, _, _, _, _, _, _, _. split; [|split; [reflexivity|split; [reflexivity|]]].
  - cbn. unfold is_var, good_ty, vsizes, fixnum_of, int64, canon. cbn. repeat split; try lia; auto; right; left; done.
  - intros H. specialize (H (fun _ => 0)). by vm_compute in H.
Qed.
Print Assumptions C112_cast_refuted.

(** A function returns what its statements say, with the same effects. *)
Theorem C113_result : forall (W : Type) (ld : W -> Z -> Z -> option Z) (st : W -> Z -> Z -> Z -> option W) (call : W -> nat -> list Z -> option (Z * W))
    (nv : nat) (vt : nat -> ty) (body : stmt) (code : list item),
  (forall x, good_ty (vt x)) -> typed_stmt true nv vt body -> gen_body nv body = Some code -> NoDup (user_labels body) ->
  forall n v w ret v' w' regs args, matches nv vt v regs -> steps ld st call body n (start body v w) (Done ret v' w') ->
  exists n' regs' args', msteps ld st call code n' (Mach 0 regs args None w) (Mach (length code) regs' args' ret w') /\ matches nv vt v' regs'.
Proof. exact @body_ends. Qed.
Print Assumptions C113_result.

(** And the code can end in no other way. *)
Theorem C113_only_result : forall (W : Type) (ld : W -> Z -> Z -> option Z) (st : W -> Z -> Z -> Z -> option W) (call : W -> nat -> list Z -> option (Z * W))
    (nv : nat) (vt : nat -> ty) (body : stmt) (code : list item),
  (forall x, good_ty (vt x)) -> typed_stmt true nv vt body -> gen_body nv body = Some code -> NoDup (user_labels body) ->
  forall n v w ret v' w' regs args, matches nv vt v regs -> steps ld st call body n (start body v w) (Done ret v' w') ->
  forall n' m, msteps ld st call code n' (Mach 0 regs args None w) m -> mstep ld st call code m = None ->
  m_pc m = length code /\ m_ret m = ret /\ m_w m = w' /\ matches nv vt v' (m_regs m).
Proof. exact @body_only. Qed.
Print Assumptions C113_only_result.

(** Whatever state the statements come to, the code comes to it. *)
Theorem C113_progress : forall (W : Type) (ld : W -> Z -> Z -> option Z) (st : W -> Z -> Z -> Z -> option W) (call : W -> nat -> list Z -> option (Z * W))
    (nv : nat) (vt : nat -> ty) (body : stmt) (code : list item),
  (forall x, good_ty (vt x)) -> typed_stmt true nv vt body -> gen_body nv body = Some code -> NoDup (user_labels body) ->
  forall n v w s k v' w' regs args, matches nv vt v regs -> steps ld st call body n (start body v w) (Run s k v' w') ->
  exists n' p' regs' args', msteps ld st call code n' (Mach 0 regs args None w) (Mach p' regs' args' None w') /\ matches nv vt v' regs'.
Proof. exact @body_tracks. Qed.
Print Assumptions C113_progress.

(** A function that never ends has code that never ends, nor gets stuck. *)
Theorem C113_divergence : forall (W : Type) (ld : W -> Z -> Z -> option Z) (st : W -> Z -> Z -> Z -> option W) (call : W -> nat -> list Z -> option (Z * W))
    (nv : nat) (vt : nat -> ty) (body : stmt) (code : list item),
  (forall x, good_ty (vt x)) -> typed_stmt true nv vt body -> gen_body nv body = Some code -> NoDup (user_labels body) ->
  forall v w regs args, matches nv vt v regs -> (forall n, exists c, steps ld st call body n (start body v w) c) ->
  forall n, exists m, msteps ld st call code n (Mach 0 regs args None w) m.
Proof. exact @body_diverges. Qed.
Print Assumptions C113_divergence.

(** The labels of the code are distinct, and a jump is only followed by a label: the code falls into blocks. *)
Theorem C113_labels : forall nv s code, gen_body nv s = Some code -> NoDup (user_labels s) -> NoDup (labs code).
Proof. exact @body_labels. Qed.
Print Assumptions C113_labels.
Theorem C113_blocks : forall nv s code, gen_body nv s = Some code -> jumps_last code = true.
Proof. exact @body_jumps. Qed.
Print Assumptions C113_blocks.

(** s = 0; for (i = 1; i <= n; i++) { switch (i) { case 3: continue; default: s = s + i; } } return s; *)
Definition sample : stmt :=
  SSeq (SExpr (EAssign 1 int_ (EFix 0 int_)))
    (SSeq (SFor (Some (EAssign 2 int_ (EFix 1 int_))) (Some (ERel RLe int_ (EVar 2 int_) (EVar 0 int_))) (Some (EIncVar true false int_ 1 2))
             (SSwitch (EVar 2 int_) int_ [(3, 0%nat)] (Some 1%nat)
               (SSeq (SLabel 0 SContinue) (SLabel 1 (SExpr (EAssign 1 int_ (EBop IR_ADD int_ (EVar 1 int_) (EVar 2 int_))))))))
       (SReturn (Some (EVar 1 int_)))).
Example C113_sample_code : gen_body 3 sample = Some [
  Lab (LNew 0); Ins (Mov 1 (OConst 0) 2); Ins (Mov 2 (OConst 1) 2); Jump (LNew 4);
  Lab (LNew 2); Switch (OReg 2) 2 false [(3, LUser 0)] (LUser 1); Lab (LNew 7); Lab (LUser 0); Jump (LNew 3); Lab (LNew 8);
  Lab (LUser 1); Ins (Bop IR_ADD 3 (OReg 1) (OReg 2) 2 2 false); Ins (Mov 1 (OReg 3) 2); Lab (LNew 6);
  Lab (LNew 3); Ins (Mov 4 (OReg 2) 2); Ins (Bop IR_ADD 5 (OReg 2) (OConst 1) 2 2 false); Ins (Mov 2 (OReg 5) 2);
  Lab (LNew 4); CJump COND_LE (OReg 2) (OReg 0) 2 (LNew 2); Lab (LNew 9); Jump (LNew 5); Lab (LNew 5);
  Result (OReg 1) 2; Jump (LNew 1); Lab (LNew 10); Lab (LNew 1)].
Proof. vm_compute. reflexivity. Qed.
Example C113_sample_source : match run_source no_ld no_st no_call sample 100 (start sample (fun x => if decide (x = 0%nat) then 4 else 0) tt) with
  Done ret _ _ => ret | _ => None end = Some 7.
Proof. vm_compute. reflexivity. Qed.
Example C113_sample_run : match gen_body 3 sample with
  | Some code => m_ret (run_code no_ld no_st no_call code 200 (Mach 0 (fun x => if decide (x = 0%nat) then 4 else 0) (fun _ => 0) None tt))
  | None => None end = Some 7.
Proof. vm_compute. reflexivity. Qed.
Example C113_sample_typed : typed_stmt true 3 (fun _ => int_) sample.
Proof. cbn. unfold is_var, good_ty, vsizes, fixnum_of, int64, canon. cbn. repeat split; try lia; auto. Qed.
