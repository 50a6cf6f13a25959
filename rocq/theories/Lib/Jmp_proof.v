(** Proofs about [Jmp_model]. *)
From stdpp Require Import base numbers list.
From Verif Require Import Back.Frame_model Back.Frame_spec Back.Frame_run_proof Lib.Jmp_model Lib.Jmp_spec.
Local Open Scope Z.

Definition saves (b : Z) (t : list (Z * Z)) : list ins := map (fun p => Store (fst p) b (snd p)) t.
Definition loads (b : Z) (t : list (Z * Z)) : list ins := map (fun p => Load (fst p) b (snd p)) t.
Lemma run_app a : forall b s, run (a ++ b) s = run b (run a s).
Proof. induction a as [|i a IH]; intros b s; [done|]. cbn. apply IH. Qed.

(** Offsets go up by 8 at least, from [lo], and end at or below [hi]. *)
Fixpoint rising (lo hi : Z) (t : list (Z * Z)) : bool :=
  match t with [] => lo <=? hi | (_, o) :: t => (lo <=? o) && rising (o + 8) hi t end.
Lemma rising_le t : forall lo hi, rising lo hi t = true -> lo <= hi.
Proof.
  induction t as [|[r o] t IH]; intros lo hi H; cbn in H; [by apply Z.leb_le|].
  apply andb_prop in H as [A B]. apply IH in B. apply Z.leb_le in A. lia.
Qed.
Lemma saves_run b t : forall lo hi s, rising lo hi t = true ->
  regs (run (saves b t) s) = regs s /\
  (forall x, x < regs s b + lo \/ regs s b + hi <= x -> mem (run (saves b t) s) x = mem s x) /\
  (forall r o, (r, o) ∈ t -> lo <= o /\ o + 8 <= hi /\ loadn 8 (mem (run (saves b t) s)) (regs s b + o) = regs s r mod 2 ^ 64).
Proof.
  induction t as [|[r o] t IH]; intros lo hi s H.
  { split_and!; [done|done|]. intros r o E. by apply elem_of_nil in E. }
  cbn in H. apply andb_prop in H as [A B]. apply Z.leb_le in A. pose proof (rising_le _ _ _ B) as C.
  change (run (saves b ((r, o) :: t)) s) with (run (saves b t) (exec (Store r b o) s)).
  destruct (IH (o + 8) hi (exec (Store r b o) s) B) as (I1 & I2 & I3). cbn [exec regs mem] in I1, I2, I3 |- *.
  split_and!.
  - done.
  - intros x Hx. rewrite I2 by lia. apply storen_out. lia.
  - intros r' o' E. apply elem_of_cons in E as [E|E].
    + injection E as -> ->. split_and!; [lia|lia|].
      rewrite (loadn_ext 8 _ (storen 8 (mem s) (regs s b + o) (regs s r))); [by rewrite loadn_store by lia|].
      intros x Hx. apply I2. lia.
    + destruct (I3 _ _ E) as (P & Q & R). split_and!; [lia|lia|done].
Qed.
Lemma loads_run b t : forall s, NoDup (map fst t) -> b ∉ map fst t ->
  mem (run (loads b t) s) = mem s /\
  (forall r o, (r, o) ∈ t -> regs (run (loads b t) s) r = loadn 8 (mem s) (regs s b + o)) /\
  (forall r, r ∉ map fst t -> regs (run (loads b t) s) r = regs s r).
Proof.
  induction t as [|[r o] t IH]; intros s N Hb.
  { split_and!; [done| |done]. intros r o E. by apply elem_of_nil in E. }
  cbn in N, Hb. apply NoDup_cons in N as [N1 N2]. apply not_elem_of_cons in Hb as [Hb1 Hb2].
  change (run (loads b ((r, o) :: t)) s) with (run (loads b t) (exec (Load r b o) s)).
  destruct (IH (exec (Load r b o) s) N2 Hb2) as (I1 & I2 & I3). cbn [exec regs mem] in I1, I2, I3 |- *.
  assert (upd (regs s) r (loadn 8 (mem s) (regs s b + o)) b = regs s b) as Eb.
  { unfold upd. destruct (b =? r) eqn:E; [|done]. apply Z.eqb_eq in E. done. }
  split_and!.
  - done.
  - intros r' o' E. apply elem_of_cons in E as [E|E].
    + injection E as -> ->. rewrite I3 by done. unfold upd. by rewrite Z.eqb_refl.
    + rewrite (I2 _ _ E). by rewrite Eb.
  - intros r' E. cbn in E. apply not_elem_of_cons in E as [E1 E2]. rewrite I3 by done.
    unfold upd. destruct (r' =? r) eqn:F; [|done]. apply Z.eqb_eq in F. done.
Qed.
Lemma loadn_range n : forall m a, 0 <= loadn n m a < 256 ^ Z.of_nat n.
Proof.
  induction n as [|n IH]; intros m a; [cbn; lia|]. cbn [loadn]. specialize (IH m (a + 1)).
  pose proof (Z.mod_pos_bound (m a) 256 ltac:(lia)). rewrite Nat2Z.inj_succ, Z.pow_succ_r by lia. lia.
Qed.
Lemma word_mod v : 0 <= v < 2 ^ 64 -> v mod 2 ^ 64 = v.
Proof. intros. by apply Z.mod_small. Qed.

Ltac mem_list := repeat first [apply elem_of_list_here | apply elem_of_list_further].
Ltac nodup := apply (bool_decide_unpack _); vm_compute; exact I.

(** ** x64 *)
Definition xt : list (Z * Z) :=
  [(RAX, 0); (RBP, 8); (RSP, 16); (RBX, 24); (12, 32); (13, 40); (14, 48); (15, 56);
   (XMM 0, 64); (XMM 1, 72); (XMM 2, 80); (XMM 3, 88); (XMM 4, 96); (XMM 5, 104); (XMM 6, 112); (XMM 7, 120)].
Lemma x64_setjmp_eq : x64_setjmp = Load RAX RSP 0 :: saves RDI xt ++ [Imm RAX 0].
Proof. reflexivity. Qed.
Lemma x64_longjmp_eq : x64_longjmp = loads RDI xt ++ [Store RAX RSP 0; Mov32 RAX RSI; IfZero32 RAX 1].
Proof. reflexivity. Qed.

Lemma x64_set s : words s -> apart (regs s RDI) 128 (regs s RSP) 8 ->
  set_ok x64_preserved RSP RAX RDI x64_jmp_buf s (regs s RSP + 8) (x64_ret (run x64_setjmp s)) (loadn 8 (mem s) (regs s RSP)).
Proof.
  intros W A. rewrite x64_setjmp_eq. change (run (Load RAX RSP 0 :: ?l) s) with (run l (exec (Load RAX RSP 0) s)).
  rewrite run_app. set (s1 := exec (Load RAX RSP 0) s).
  destruct (saves_run RDI xt 0 128 s1 eq_refl) as (I1 & I2 & I3). revert I1 I2 I3. generalize (run (saves RDI xt) s1). intros s2 I1 I2 I3.
  change (regs s1 RDI) with (regs s RDI) in I2. change (mem s1) with (mem s) in I2.
  unfold x64_ret, set_ok. cbn [run exec fst snd regs mem]. rewrite I1. split_and!.
  - change (upd (regs s1) RAX 0 RSP) with (regs s RSP). apply loadn_ext. intros x Hx. apply I2. unfold apart in A. lia.
  - reflexivity.
  - repeat constructor.
  - reflexivity.
  - intros x Hx. apply I2. unfold x64_jmp_buf in Hx. lia.
Qed.

Lemma x64_jump s s' : words s -> apart (regs s RDI) 128 (regs s RSP) 8 ->
  regs s' RDI = regs s RDI -> intact (regs s RDI) x64_jmp_buf (snd (x64_ret (run x64_setjmp s))) s' ->
  jump_ok x64_preserved RSP RAX (x64_ret (run x64_setjmp s)) s' (regs s' RSI) (x64_ret (run x64_longjmp s'))
    (fun x => regs s RSP <= x < regs s RSP + 8).
Proof.
  intros W A Ed B. pose proof (x64_set s W A) as (Z1 & Z2 & Z3 & Z4 & Z5).
  unfold jump_ok. rewrite Z1, Z2. unfold same_at in *.
  rewrite x64_longjmp_eq, run_app.
  destruct (loads_run RDI xt s') as (L1 & L2 & L3); [nodup|nodup|]. revert L1 L2 L3. generalize (run (loads RDI xt) s'). intros s3 L1 L2 L3.
  revert B Z3. rewrite x64_setjmp_eq. change (run (Load RAX RSP 0 :: ?l) s) with (run l (exec (Load RAX RSP 0) s)).
  rewrite run_app. set (s1 := exec (Load RAX RSP 0) s).
  destruct (saves_run RDI xt 0 128 s1 eq_refl) as (I1 & I2 & I3). revert I1 I2 I3. generalize (run (saves RDI xt) s1). intros s2 I1 I2 I3.
  cbn [run]. intros B Z3.
  assert (forall r o, (r, o) ∈ xt -> regs s3 r = regs s1 r mod 2 ^ 64) as K.
  { intros r o E. rewrite (L2 r o E). rewrite Ed. destruct (I3 r o E) as (P & Q & R). rewrite <- R.
    change (regs s1 RDI) with (regs s RDI). apply loadn_ext. intros x Hx. unfold intact in B. rewrite B by (unfold x64_jmp_buf; lia). done. }
  assert (regs s3 RSP = regs s RSP) as Ks.
  { rewrite (K RSP 16) by mem_list. change (regs s1 RSP) with (regs s RSP). apply word_mod, W. }
  assert (regs s3 RAX = loadn 8 (mem s) (regs s RSP)) as Ka.
  { rewrite (K RAX 0) by mem_list. change (regs s1 RAX) with (loadn 8 (mem s) (regs s RSP + 0)). rewrite Z.add_0_r.
    apply word_mod. apply (loadn_range 8). }
  assert (regs s3 RSI = regs s' RSI) as Ki by (apply L3; nodup).
  cbn [exec]. cbn [regs mem]. change (upd ?f RAX ?v RAX) with v. cbn [Z.eqb].
  set (m' := storen 8 (mem s3) (regs s3 RSP + 0) (regs s3 RAX)).
  assert (loadn 8 m' (regs s RSP) = loadn 8 (mem s) (regs s RSP)) as Hm.
  { unfold m'. rewrite Ks, Z.add_0_r, loadn_store by lia. rewrite Ka. apply word_mod, (loadn_range 8). }
  rewrite Ki. unfold int_of. rewrite Zmod_mod.
  destruct (regs s' RSI mod 2 ^ 32 =? 0) eqn:Ez; unfold x64_ret; cbn [fst snd regs mem].
  - split_and!.
    + change (upd (upd (regs s3) ?a ?b) ?c ?d RSP) with (regs s3 RSP). by rewrite Ks.
    + change (upd (upd (upd (regs s3) ?a ?b) ?c ?d) RSP ?e RSP) with (regs s3 RSP + 8). by rewrite Ks.
    + unfold x64_preserved. repeat constructor; unfold upd; cbn [Z.eqb Pos.eqb RAX RSP]; rewrite I1;
        match goal with |- regs s3 ?r = _ => first [rewrite (K r 8) by mem_list|rewrite (K r 24) by mem_list|rewrite (K r 32) by mem_list|rewrite (K r 40) by mem_list|rewrite (K r 48) by mem_list|rewrite (K r 56) by mem_list] end; apply word_mod, W.
    + reflexivity.
    + intros x Hx. unfold m'. rewrite storen_out by lia. by rewrite L1.
  - split_and!.
    + change (upd (regs s3) ?a ?b RSP) with (regs s3 RSP). by rewrite Ks.
    + change (upd (upd (regs s3) ?a ?b) RSP ?e RSP) with (regs s3 RSP + 8). by rewrite Ks.
    + unfold x64_preserved. repeat constructor; unfold upd; cbn [Z.eqb Pos.eqb RAX RSP]; rewrite I1;
        match goal with |- regs s3 ?r = _ => first [rewrite (K r 8) by mem_list|rewrite (K r 24) by mem_list|rewrite (K r 32) by mem_list|rewrite (K r 40) by mem_list|rewrite (K r 48) by mem_list|rewrite (K r 56) by mem_list] end; apply word_mod, W.
    + change (upd (upd (regs s3) RAX ?v) RSP ?e RAX) with v. by rewrite Zmod_mod.
    + intros x Hx. unfold m'. rewrite storen_out by lia. by rewrite L1.
Qed.

(** ** What was saved is loaded again *)
Lemma back b t hi s s' : rising 0 hi t = true -> NoDup (map fst t) -> b ∉ map fst t -> words s ->
  regs s' b = regs s b ->
  (forall x, regs s b <= x < regs s b + hi -> mem s' x = mem (run (saves b t) s) x) ->
  forall r, r ∈ map fst t -> regs (run (loads b t) s') r = regs s r.
Proof.
  intros A N Hb W E M r Hr. apply elem_of_list_fmap in Hr as ((r' & o) & -> & Ho). cbn [fst].
  destruct (saves_run b t 0 hi s A) as (_ & _ & I3). destruct (I3 _ _ Ho) as (P & Q & R).
  destruct (loads_run b t s' N Hb) as (_ & L2 & _). rewrite (L2 _ _ Ho), E, <- (word_mod (regs s r')) by apply W.
  rewrite <- R. apply loadn_ext. intros x Hx. apply M. lia.
Qed.
Ltac sees := apply (bool_decide_unpack _); vm_compute; exact I.

(** ** AArch64 *)
Definition at' : list (Z * Z) :=
  [(29, 0); (30, 8); (9, 16); (19, 24); (20, 32); (21, 40); (22, 48); (23, 56); (24, 64); (25, 72); (26, 80); (27, 88); (28, 96);
   (D 8, 112); (D 9, 120); (D 10, 128); (D 11, 136); (D 12, 144); (D 13, 152); (D 14, 160); (D 15, 168)].
Lemma a64_setjmp_run s : run a64_setjmp s = run [Imm 0 0] (run (saves 0 at') (exec (Mov 9 SP) s)).
Proof.
  change a64_setjmp with ([Store 29 0 0; Store 30 0 8; Mov 9 SP] ++ saves 0 (drop 2 at') ++ [Imm 0 0]).
  rewrite !run_app.
  change (saves 0 at') with ([Store 29 0 0; Store 30 0 8] ++ saves 0 (drop 2 at')).
  rewrite run_app. reflexivity.
Qed.
Lemma a64_longjmp_run s : run a64_longjmp s = run [Mov SP 9; Mov32 0 1; IfZero32 0 1] (run (loads 0 at') s).
Proof. change a64_longjmp with (loads 0 at' ++ [Mov SP 9; Mov32 0 1; IfZero32 0 1]). apply run_app. Qed.

Lemma a64_set s : set_ok a64_preserved SP 0 0 a64_jmp_buf s (regs s SP) (a64_ret (run a64_setjmp s)) (regs s 30).
Proof.
  rewrite a64_setjmp_run. destruct (saves_run 0 at' 0 176 (exec (Mov 9 SP) s) eq_refl) as (I1 & I2 & _).
  revert I1 I2. generalize (run (saves 0 at') (exec (Mov 9 SP) s)). intros s2 I1 I2.
  unfold a64_ret, set_ok. cbn [run exec fst snd regs mem] in *. rewrite I1. split_and!; try reflexivity.
  - repeat constructor.
  - intros x Hx. apply I2. change (upd (regs s) 9 (regs s SP) 0) with (regs s 0). unfold a64_jmp_buf in Hx. lia.
Qed.
Lemma a64_imm q x : mem (snd (a64_ret (run [Imm 0 0] q))) x = mem q x.
Proof. reflexivity. Qed.
Lemma a64_set_mem s x : mem (snd (a64_ret (run a64_setjmp s))) x = mem (run (saves 0 at') (exec (Mov 9 SP) s)) x.
Proof. rewrite a64_setjmp_run. apply a64_imm. Qed.
Lemma a64_jump s s' : words s -> regs s' 0 = regs s 0 ->
  intact (regs s 0) a64_jmp_buf (snd (a64_ret (run a64_setjmp s))) s' ->
  jump_ok a64_preserved SP 0 (a64_ret (run a64_setjmp s)) s' (regs s' 1) (a64_ret (run a64_longjmp s')) (fun _ => False).
Proof.
  intros W E B. pose proof (a64_set s) as Z. pose proof (a64_set_mem s) as M. revert Z M B.
  generalize (a64_ret (run a64_setjmp s)). intros q Z M B. destruct Z as (Z1 & Z2 & Z3 & Z4 & Z5).
  unfold jump_ok. rewrite Z1, Z2. unfold same_at in *.
  rewrite a64_longjmp_run. revert M. set (s1 := exec (Mov 9 SP) s). intros M.
  assert (words s1) as W1.
  { intros r. unfold s1. cbn [exec regs]. unfold upd. destruct (r =? 9); apply W. }
  assert (forall r, r ∈ map fst at' -> regs (run (loads 0 at') s') r = regs s1 r) as K.
  { apply (back 0 at' 176); [reflexivity|sees|sees|exact W1|exact E|].
    intros x Hx. change (regs s1 0) with (regs s 0) in Hx. unfold intact in B. rewrite B by (unfold a64_jmp_buf; lia).
    apply M. }
  destruct (loads_run 0 at' s') as (L1 & _ & L3); [sees|sees|].
  assert (regs (run (loads 0 at') s') 1 = regs s' 1) as Ki by (apply L3; sees).
  revert K L1 L3 Ki. generalize (run (loads 0 at') s'). intros s3 K L1 L3 Ki.
  assert (Forall (fun r => regs s3 r = regs s r) a64_preserved) as Kp.
  { unfold a64_preserved. repeat constructor; (rewrite K by sees; reflexivity). }
  pose proof Z3 as Kq. clear Z1 Z2 Z3 Z4 Z5 B M.
  assert (regs s3 9 = regs s SP) as Ks by (rewrite K by sees; reflexivity).
  assert (regs s3 30 = regs s 30) as Kl by (rewrite K by sees; reflexivity).
  cbn [run exec regs mem]. change (upd ?f 0 ?v 0) with v. change (upd ?f SP ?v 1) with (f 1). rewrite Ki, Zmod_mod. unfold int_of.
  destruct (regs s' 1 mod 2 ^ 32 =? 0) eqn:Ez; unfold a64_ret; cbn [fst snd regs mem]; split_and!.
  - exact Kl.
  - exact Ks.
  - apply Forall_forall. intros r Hr. rewrite (proj1 (Forall_forall _ _) Kq r Hr), <- (proj1 (Forall_forall _ _) Kp r Hr).
    unfold upd, SP. destruct (r =? 0) eqn:F; [apply Z.eqb_eq in F; subst; exfalso; revert Hr; sees|].
    destruct (r =? 31) eqn:G; [apply Z.eqb_eq in G; subst; exfalso; revert Hr; sees|]. done.
  - reflexivity.
  - intros x _. by rewrite L1.
  - exact Kl.
  - exact Ks.
  - apply Forall_forall. intros r Hr. rewrite (proj1 (Forall_forall _ _) Kq r Hr), <- (proj1 (Forall_forall _ _) Kp r Hr).
    unfold upd, SP. destruct (r =? 0) eqn:F; [apply Z.eqb_eq in F; subst; exfalso; revert Hr; sees|].
    destruct (r =? 31) eqn:G; [apply Z.eqb_eq in G; subst; exfalso; revert Hr; sees|]. done.
  - change (upd ?f 0 ?v 0) with v. by rewrite Zmod_mod.
  - intros x _. by rewrite L1.
Qed.

(** ** RISC-V *)
Definition rt : list (Z * Z) :=
  [(1, 0); (2, 8); (8, 16); (9, 24); (18, 32); (19, 40); (20, 48); (21, 56); (22, 64); (23, 72); (24, 80); (25, 88); (26, 96);
   (27, 104); (F 8, 112); (F 9, 120); (F 18, 128); (F 19, 136); (F 20, 144); (F 21, 152); (F 22, 160); (F 23, 168);
   (F 24, 176); (F 25, 184); (F 26, 192); (F 27, 200)].
Lemma rv_setjmp_run s : run rv_setjmp s = run [Imm 10 0] (run (saves 10 rt) s).
Proof. change rv_setjmp with (saves 10 rt ++ [Imm 10 0]). apply run_app. Qed.
Lemma rv_longjmp_run s : run rv_longjmp s = run [Mov 10 11; IfZero 10 1] (run (loads 10 rt) s).
Proof. change rv_longjmp with (loads 10 rt ++ [Mov 10 11; IfZero 10 1]). apply run_app. Qed.
Lemma rv_set s : set_ok rv_preserved 2 10 10 rv_jmp_buf s (regs s 2) (rv_ret (run rv_setjmp s)) (regs s 1).
Proof.
  rewrite rv_setjmp_run. destruct (saves_run 10 rt 0 208 s eq_refl) as (I1 & I2 & _).
  revert I1 I2. generalize (run (saves 10 rt) s). intros s2 I1 I2.
  unfold rv_ret, set_ok. cbn [run exec fst snd regs mem] in *. rewrite I1. split_and!; try reflexivity.
  - repeat constructor.
  - intros x Hx. apply I2. unfold rv_jmp_buf in Hx. lia.
Qed.
Lemma rv_imm q x : mem (snd (rv_ret (run [Imm 10 0] q))) x = mem q x.
Proof. reflexivity. Qed.
Lemma rv_set_mem s x : mem (snd (rv_ret (run rv_setjmp s))) x = mem (run (saves 10 rt) s) x.
Proof. rewrite rv_setjmp_run. apply rv_imm. Qed.
Lemma rv_jump s s' : words s -> regs s' 10 = regs s 10 ->
  intact (regs s 10) rv_jmp_buf (snd (rv_ret (run rv_setjmp s))) s' ->
  (int_of (regs s' 11) = 0 -> regs s' 11 = 0) ->
  jump_ok rv_preserved 2 10 (rv_ret (run rv_setjmp s)) s' (regs s' 11) (rv_ret (run rv_longjmp s')) (fun _ => False).
Proof.
  intros W E B Hv. pose proof (rv_set s) as Z. pose proof (rv_set_mem s) as M. revert Z M B.
  generalize (rv_ret (run rv_setjmp s)). intros q Z M B. destruct Z as (Z1 & Z2 & Z3 & Z4 & Z5).
  unfold jump_ok. rewrite Z1, Z2. unfold same_at in *.
  rewrite rv_longjmp_run.
  assert (forall r, r ∈ map fst rt -> regs (run (loads 10 rt) s') r = regs s r) as K.
  { apply (back 10 rt 208); [reflexivity|sees|sees|exact W|exact E|].
    intros x Hx. unfold intact in B. rewrite B by (unfold rv_jmp_buf; lia).
    apply M. }
  destruct (loads_run 10 rt s') as (L1 & _ & L3); [sees|sees|].
  assert (regs (run (loads 10 rt) s') 11 = regs s' 11) as Ki by (apply L3; sees).
  revert K L1 L3 Ki. generalize (run (loads 10 rt) s'). intros s3 K L1 L3 Ki.
  assert (Forall (fun r => regs s3 r = regs s r) rv_preserved) as Kp.
  { unfold rv_preserved. repeat constructor; (rewrite K by sees; reflexivity). }
  pose proof Z3 as Kq. clear Z1 Z2 Z3 Z4 Z5 B M.
  assert (regs s3 2 = regs s 2) as Ks by (apply K; sees).
  assert (regs s3 1 = regs s 1) as Kl by (apply K; sees).
  cbn [run exec regs mem]. change (upd ?f 10 ?v 10) with v. rewrite Ki.
  destruct (regs s' 11 =? 0) eqn:Ez; unfold rv_ret; cbn [fst snd regs mem]; split_and!.
  - exact Kl.
  - exact Ks.
  - apply Forall_forall. intros r Hr. rewrite (proj1 (Forall_forall _ _) Kq r Hr), <- (proj1 (Forall_forall _ _) Kp r Hr).
    unfold upd. destruct (r =? 10) eqn:F; [apply Z.eqb_eq in F; subst; exfalso; revert Hr; sees|]. done.
  - apply Z.eqb_eq in Ez. rewrite Ez. reflexivity.
  - intros x _. by rewrite L1.
  - exact Kl.
  - exact Ks.
  - apply Forall_forall. intros r Hr. rewrite (proj1 (Forall_forall _ _) Kq r Hr), <- (proj1 (Forall_forall _ _) Kp r Hr).
    unfold upd. destruct (r =? 10) eqn:F; [apply Z.eqb_eq in F; subst; exfalso; revert Hr; sees|]. done.
  - change (upd ?f 10 ?v 10) with v. destruct (int_of (regs s' 11) =? 0) eqn:G; [|done].
    apply Z.eqb_eq in G. apply Hv in G. apply Z.eqb_neq in Ez. done.
  - intros x _. by rewrite L1.
Qed.
