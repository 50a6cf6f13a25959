(** Whole functions, and the statements of the properties. *)
From stdpp Require Import base list numbers list_numbers.
From Verif Require Import Back.Ir_model Back.Ir_spec Back.Opt_model Back.Opt_spec Back.Opt_proof Back.Gen_model Back.Gen_spec Back.Gen_op_proof Back.Gen_shape_proof Back.Gen_expr_proof Back.Gen_stmt_proof Back.Gen_jump_proof.
Local Open Scope Z_scope.

Lemma cnt_in x code : x ∈ labs code -> (1 <= cnt x code)%nat.
Proof.
  induction code as [|i code IH]; [by intros ?%elem_of_nil|]. destruct i; cbn [labs cnt]; try done. intros [->|H]%elem_of_cons.
  - unfold hit. rewrite decide_True by done. lia.
  - specialize (IH H). lia.
Qed.
Lemma cnt_notin x code : x ∉ labs code -> cnt x code = 0%nat.
Proof.
  induction code as [|i code IH]; [done|]. destruct i; cbn [labs cnt]; try done. intros [H1 H2]%not_elem_of_cons.
  unfold hit. rewrite decide_False by done. rewrite IH by done. done.
Qed.
Lemma nodup_cnt code : NoDup (labs code) -> forall x, (cnt x code <= 1)%nat.
Proof.
  induction code as [|i code IH]; [cbn; lia|]. destruct i; cbn [labs cnt]; try done. intros [H1 H2]%stdpp.list.NoDup_cons x.
  unfold hit. case_decide; [subst; rewrite cnt_notin by done; lia|]. by apply IH.
Qed.
Lemma cnt_nodup code : (forall x, (cnt x code <= 1)%nat) -> NoDup (labs code).
Proof.
  induction code as [|i code IH]; intros H; [constructor|]. destruct i; cbn [labs cnt] in *; try by apply IH. constructor.
  - intros Hi%cnt_in. specialize (H l). unfold hit in H. rewrite decide_True in H by done. lia.
  - apply IH. intros x. specialize (H x). lia.
Qed.

Lemma at_mid P c Q : at_ (P ++ c ++ Q) (length P) c.
Proof. intros i x Hi. rewrite lookup_app_r by lia. rewrite Nat.add_comm, Nat.add_sub. by apply lookup_app_l_Some. Qed.

Section Fun.
  Context {W : Type} (ld : W -> Z -> Z -> option Z) (st : W -> Z -> Z -> Z -> option W)
    (call : W -> nat -> list Z -> option (Z * W)) (nv : nat) (vt : nat -> ty).

  Lemma value_ok P c Q e r l o sz r' l' s w v s' w' R M regs args ret : (forall x, good_ty (vt x)) -> NoDup (labs (P ++ c ++ Q)) ->
    gen None e r l = Some (o, sz, c, r', l') -> typed true nv vt e -> (nv <= r)%nat -> matches nv vt s regs -> eval ld st call e s w = Some (v, s', w', R, M) ->
    exists n regs' args', msteps ld st call (P ++ c ++ Q) n (Mach (length P) regs args ret w) (Mach (length P + length c) regs' args' ret w') /\
      matches nv vt s' regs' /\ stands regs' o (typeof e) v /\ sz = tsz (typeof e) /\ (forall x, (nv <= x < r)%nat -> regs' x = regs x).
  Proof.
    intros Hvt Hn Hg Ht Hr Hm He.
    destruct (proj1 (gen_ok ld st call nv vt (P ++ c ++ Q) (nodup_cnt _ Hn) Hvt e) _ _ _ _ _ _ _ (length P) s w _ _ _ _ _ regs args ret Hg Ht Hr (at_mid P c Q) Hm He)
      as (regs' & args' & [n H1] & H2 & H3 & H4 & H5 & _). exists n, regs', args'. by repeat split.
  Qed.
  Lemma condition_ok P c Q e tb fb r l o sz r' l' s w v s' w' R M regs args ret q : (forall x, good_ty (vt x)) -> NoDup (labs (P ++ c ++ Q)) ->
    gen (Some (tb, fb)) e r l = Some (o, sz, c, r', l') -> typed true nv vt e -> (nv <= r)%nat -> matches nv vt s regs -> eval ld st call e s w = Some (v, s', w', R, M) ->
    (P ++ c ++ Q) !! q = Some (Lab (if truth v then tb else fb)) ->
    exists n regs' args', msteps ld st call (P ++ c ++ Q) n (Mach (length P) regs args ret w) (Mach q regs' args' ret w') /\
      matches nv vt s' regs' /\ (forall x, (nv <= x < r)%nat -> regs' x = regs x).
  Proof.
    intros Hvt Hn Hg Ht Hr Hm He Hq.
    destruct (proj2 (gen_ok ld st call nv vt (P ++ c ++ Q) (nodup_cnt _ Hn) Hvt e) _ _ _ _ _ _ _ _ _ (length P) s w _ _ _ _ _ regs args ret q Hg Ht Hr (at_mid P c Q) Hm He Hq)
      as (regs' & args' & [n H1] & H2 & H3 & _). exists n, regs', args'. by repeat split.
  Qed.

  Lemma body_cnt s code : gen_body nv s = Some code -> NoDup (user_labels s) -> forall x, (cnt x code <= 1)%nat.
  Proof using.
    intros Hg Hn x. unfold gen_body in Hg. inv_bind Hg. destruct y as [[c r'] l']. simplify_eq. apply stmt_shape in E as (Hr & Hl & Hu1 & Hu2).
    cbn [app cnt]. rewrite cnt_app. cbn [cnt]. destruct x as [n|id].
    - rewrite Hu1, !hit_new. repeat case_decide; lia.
    - rewrite Hu2, !hit_user. pose proof (count_nodup id _ Hn). lia.
  Qed.
  Lemma body_labels s code : gen_body nv s = Some code -> NoDup (user_labels s) -> NoDup (labs code).
  Proof using. intros Hg Hn. eapply cnt_nodup, body_cnt; done. Qed.
  Lemma body_jumps s code : gen_body nv s = Some code -> jumps_last code = true.
  Proof using.
    intros Hg. unfold gen_body in Hg. inv_bind Hg. destruct y as [[c r'] l']. simplify_eq. apply stmt_jumps in E. cbn [app]. apply jl_lab. by apply E.
  Qed.

  Context (body : stmt) (code : list item) (Hvt : forall x, good_ty (vt x)) (Ht : typed_stmt true nv vt body) (Hg : gen_body nv body = Some code) (Hn : NoDup (user_labels body)).
  Lemma layout : exists fin, code !! fin = Some (Lab (LNew 1)) /\ S fin = length code /\ stmt_code nv code (Env None None (LNew 1)) body 1 fin.
  Proof using Hg.
    pose proof Hg as Hg'. unfold gen_body in Hg'. inv_bind Hg'. destruct y as [[c r'] l']. injection Hg' as <-. exists (S (length c)). split; [|split].
    - assert ((c ++ [Lab (LNew 1)]) !! length c = Some (Lab (LNew 1))) as H; [|exact H]. rewrite lookup_app_r by lia. by rewrite Nat.sub_diag.
    - cbn. rewrite app_length. cbn. lia.
    - exists nv, 2%nat, c, r', l'. split; [done|]. split; [lia|]. split; [|done]. apply (at_mid [Lab (LNew 0)] c [Lab (LNew 1)]).
  Qed.
  Lemma ms_start v (w : W) regs args : matches nv vt v regs -> forall fin, stmt_code nv code (Env None None (LNew 1)) body 1 fin ->
    ms nv vt code fin (start body v w) (Mach 1 regs args None w).
  Proof using Ht. intros Hm fin Hc. eapply ms_run; [exact Hc|done|apply mk_stop|done]. Qed.
  Lemma enter regs args ret (w : W) : msteps ld st call code 1 (Mach 0 regs args ret w) (Mach 1 regs args ret w).
  Proof using Hg.
    pose proof Hg as Hg'. unfold gen_body in Hg'. inv_bind Hg'. destruct y as [[c r'] l']. injection Hg' as <-. econstructor; [reflexivity|constructor].
  Qed.

  Lemma body_ends n v w ret v' w' regs args : matches nv vt v regs -> steps ld st call body n (start body v w) (Done ret v' w') ->
    exists n' regs' args', msteps ld st call code n' (Mach 0 regs args None w) (Mach (length code) regs' args' ret w') /\ matches nv vt v' regs'.
  Proof using Hvt Ht Hg Hn.
    intros Hm Hs. destruct layout as (fin & Hf & Hl & Hc).
    eapply sim_steps with (code := code) (fin := fin) in Hs as (m' & [n' Hr] & Hms); [|by eapply body_cnt|done|done|done|done|by eapply (ms_start v w regs args)].
    destruct m' as [p regs' args' ret' w'']. destruct Hms as (Hp & Hm' & Hret & Hw). cbn [m_pc m_regs m_ret m_w] in *. subst ret' w'' p. rewrite Hl in Hr.
    exists (1 + n')%nat, regs', args'. split; [|done]. eapply msteps_trans; [apply enter|exact Hr].
  Qed.
  Lemma body_tracks n v w s k v' w' regs args : matches nv vt v regs -> steps ld st call body n (start body v w) (Run s k v' w') ->
    exists n' p' regs' args', msteps ld st call code n' (Mach 0 regs args None w) (Mach p' regs' args' None w') /\ matches nv vt v' regs'.
  Proof using Hvt Ht Hg Hn.
    intros Hm Hs. destruct layout as (fin & Hf & Hl & Hc).
    eapply sim_steps with (code := code) (fin := fin) in Hs as (m' & [n' Hr] & Hms); [|by eapply body_cnt|done|done|done|done|by eapply (ms_start v w regs args)].
    destruct m' as [p regs' args' ret' w'']. destruct Hms as (E & q & _ & _ & _ & Hm' & Hret & Hw). cbn [m_pc m_regs m_ret m_w] in *. subst ret' w''.
    exists (1 + n')%nat, p, regs', args'. split; [|done]. eapply msteps_trans; [apply enter|exact Hr].
  Qed.
  Lemma body_diverges v w regs args : matches nv vt v regs -> (forall n, exists c, steps ld st call body n (start body v w) c) ->
    forall n, exists m, msteps ld st call code n (Mach 0 regs args None w) m.
  Proof using Hvt Ht Hg Hn.
    intros Hm Hd n. destruct layout as (fin & Hf & Hl & Hc).
    destruct (diverges ld st call nv vt body code fin (body_cnt _ _ Hg Hn) Hvt Hf Hc Ht _ (Mach 1 regs args None w) Hd (ms_start _ _ _ _ Hm _ Hc) n) as [m H].
    destruct n as [|n]; [exists (Mach 0 regs args None w); constructor|].
    eapply (msteps_prefix ld st call code) with (n := (1 + S n)%nat); [|lia]. eapply msteps_trans; [apply enter|exact H].
  Qed.
  Lemma msteps_det n m m1 m2 n' : msteps ld st call code n m m1 -> mstep ld st call code m1 = None -> msteps ld st call code n' m m2 -> mstep ld st call code m2 = None -> m1 = m2.
  Proof using.
    intros H. revert n' m2. induction H as [m|n m a b Hs H IH]; intros n' m2 H1 H2 H3; inversion H2; subst; congruence || eauto.
    rewrite Hs in *. simplify_eq. eauto.
  Qed.
  Lemma body_only n v w ret v' w' regs args : matches nv vt v regs -> steps ld st call body n (start body v w) (Done ret v' w') ->
    forall n' m, msteps ld st call code n' (Mach 0 regs args None w) m -> mstep ld st call code m = None ->
    m_pc m = length code /\ m_ret m = ret /\ m_w m = w' /\ matches nv vt v' (m_regs m).
  Proof using Hvt Ht Hg Hn.
    intros Hm Hs n' m Hr Hstop. destruct (body_ends _ _ _ _ _ _ _ args Hm Hs) as (n1 & regs1 & args1 & H1 & H2).
    assert (m = Mach (length code) regs1 args1 ret w') as ->; [|done].
    eapply msteps_det; [exact Hr|done|exact H1|]. cbn [mstep]. by rewrite lookup_ge_None_2.
  Qed.
End Fun.
