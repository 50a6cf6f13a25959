(** Copy propagation of functions in SSA form. *)
From stdpp Require Import base list numbers gmap.
From Verif Require Import Back.Unused_model Back.Unused_spec Back.Ssa_spec Back.Cprop_model Back.Cprop_spec Back.Cprop_inv_proof Back.Cprop_step_proof Back.Cprop_proof.
From Verif Require Back.Flow_model Back.Flow_spec Back.Ssa_model Back.Ssa_proof.
Local Open Scope nat_scope.

Lemma nodup_pos (P : nat -> bool) (l : list nat) : (forall p1 p2 v, P v = false -> l !! p1 = Some v -> l !! p2 = Some v -> p1 = p2) -> NoDup (filter (fun v => P v = false) l).
Proof.
  induction l as [|x l IH]; intros H; [constructor|]. rewrite filter_cons. assert (Hl : NoDup (filter (fun v => P v = false) l)).
  { apply IH. intros p1 p2 v Hv H1 H2. specialize (H (S p1) (S p2) v Hv H1 H2). congruence. }
  destruct (decide (P x = false)) as [Hx|Hx]; [|done]. apply NoDup_cons. split; [|done]. intros Hin. apply elem_of_list_filter in Hin as [_ Hin].
  apply elem_of_list_lookup in Hin as [p Hp]. specialize (H 0 (S p) x Hx eq_refl Hp). done.
Qed.
Section Bridge.
  Context {K J : Type}.
  Context (endof : J -> Flow_model.ending) (pinned param : nat -> bool) (index : nat -> nat -> nat) (from : list (list nat)).
  Implicit Types bs : list (blk K J).
  Lemma fr_read (x : blk K J) u : fr x u <-> first_read endof x u.
  Proof using.
    unfold fr, first_read, Flow_spec.reads_first, Ssa_model.flow_blk. cbn [Flow_model.irs]. split; intros [H1 H2]; (split; [done|]).
    - destruct H2 as [(pre & i & post & Hi & Hr & Hn)|(j & l & He & Hr & Hn)].
      + exists (Ssa_model.flow_ins <$> pre), (Ssa_model.flow_ins i), ((Ssa_model.flow_ins <$> post) ++ Ssa_model.flow_exit (exit x)). split; [rewrite Hi, fmap_app, fmap_cons; by rewrite <- app_assoc|]. split; [done|].
        intros k Hk Hd. apply elem_of_list_fmap in Hk as (i' & -> & Hi'). apply Hn. apply elem_of_list_omap. by exists i'.
      + exists (Ssa_model.flow_ins <$> irs x), (Flow_model.Ir (regs l) None), []. rewrite He. split; [done|]. split; [done|].
        intros k Hk Hd. apply elem_of_list_fmap in Hk as (i' & -> & Hi'). apply Hn. apply elem_of_list_omap. by exists i'.
    - destruct H2 as (pre & i & post & Hi & Hr & Hn).
      assert (Hnd : forall l : list (ins K), (forall k, k ∈ (Ssa_model.flow_ins <$> l) -> k ∈ pre) -> u ∉ omap dst l).
      { intros l Hl Hu. apply elem_of_list_omap in Hu as (i' & Hi' & Hd). apply (Hn (Ssa_model.flow_ins i')); [|done]. apply Hl. apply elem_of_list_fmap. by exists i'. }
      apply app_eq_app in Hi as (t & [[Hi1 Hi2]|[Hi1 Hi2]]).
      + destruct t as [|i2 t]; cbn in Hi2.
        * right. rewrite app_nil_r in Hi1. destruct (exit x) as [[j l]|] eqn:Ex; [|done]. cbn in Hi2. injection Hi2 as -> ->. exists j, l. split; [done|]. split; [done|]. apply Hnd. intros k Hk. by rewrite <- Hi1.
        * left. injection Hi2 as <- Hi2. apply fmap_app_inv in Hi1 as (pre' & r & -> & Hr2 & Hix). destruct r as [|i' post']; [done|]. injection Hr2 as -> ->.
          exists pre', i', post'. split; [done|]. split; [done|]. apply Hnd. done.
      + right. destruct (exit x) as [[j l]|] eqn:Ex; [|by destruct t]. cbn in Hi2. destruct t as [|y t]; [|by destruct t]. cbn in Hi2. injection Hi2 as <- <-. exists j, l. split; [done|]. split; [done|].
        apply Hnd. intros k Hk. rewrite Hi1, app_nil_r. done.
  Qed.
  Lemma leads_edge bs b x c : bs !! b = Some x -> c < length bs -> leads endof (exit x) b c <-> edge endof bs b c.
  Proof using.
    intros Hb Hc. unfold edge, Flow_spec.edge, flow. rewrite list_lookup_fmap, Hb, fmap_length. cbn [fmap option_fmap option_map]. unfold leads, Ssa_model.flow_blk. split.
    - intros H. eexists. split; [done|]. split; [done|]. cbn. destruct (exit x) as [[j l]|]; [|done]. by destruct (endof j).
    - intros (y & Hy & _ & H). injection Hy as <-. cbn in H. destruct (exit x) as [[j l]|]; [|done]. by destruct (endof j).
  Qed.
  Lemma edge_get bs a b : edge endof bs a b -> (exists x, bs !! a = Some x) /\ b < length bs.
  Proof using.
    intros (y & Hy & Hb & _). unfold flow in *. rewrite fmap_length in Hb. rewrite list_lookup_fmap in Hy. destruct (bs !! a) as [x|]; [|done]. split; [by exists x|done].
  Qed.
  Section In.
    Context (bs : list (blk K J)).
    Hypothesis Hpreds : preds_of endof bs from.
    Hypothesis Hplace : forall a b f, from !! b = Some f -> a ∈ f -> f !! index a b = Some a.
    Hypothesis Honce : assigned_once pinned param bs.
    Hypothesis Hinit : initialised endof pinned param index bs.
    Hypothesis Hfull : phis_full pinned from bs.
    Notation E := (E from).
    Lemma E_edge a b : E a b <-> reach endof bs a /\ edge endof bs a b.
    Proof using Hpreds. apply Hpreds. Qed.
    Lemma reach_rr b : reach endof bs b -> rr E b.
    Proof using Hpreds. induction 1 as [H|a b H IH He]; [constructor|]. apply rr_step with a; [done|]. by apply E_edge. Qed.
    Lemma rr_reach b : 0 < length bs -> rr E b -> reach endof bs b.
    Proof using Hpreds.
      intros Hl. induction 1 as [|a b H IH He]; [constructor; unfold flow; by rewrite fmap_length|]. apply E_edge in He as [? ?]. by eapply Flow_spec.reach_step.
    Qed.
    Lemma lk_lacks u b : lk param E bs u b -> lacks endof param bs u b.
    Proof using Hpreds.
      induction 1 as [H|a b H IH Hn He]; [by constructor|]. apply E_edge in He as [_ He]. destruct (edge_get _ _ _ He) as [[x Hx] _]. eapply lacks_step; [done|done| |done].
      intros Hu. apply Hn. by exists x.
    Qed.
    Lemma in_good : good pinned param index E bs.
    Proof using All.
      destruct Honce as [O1 O2]. destruct Hinit as [I1 I2]. destruct Hfull as [F1 F2]. split.
      - intros b x Hb. apply nodup_pos. intros p1 p2 v Hv H1 H2. by destruct (O1 b x p1 b x p2 v Hb Hb Hv H1 H2).
      - intros b1 b2 u Hu (x1 & Hb1 & H1) (x2 & Hb2 & H2). apply elem_of_list_lookup in H1 as [p1 H1], H2 as [p2 H2]. by destruct (O1 b1 x1 p1 b2 x2 p2 u Hb1 Hb2 Hu H1 H2).
      - intros b u Hu (x & Hb & H). by eapply O2.
      - intros b x u Hb Hu Hf Hl. eapply I1; [done|done|by apply fr_read|by apply lk_lacks].
      - intros a b y p u He Hb Hp Hpar [Hl Hn]. destruct (proj1 (E_edge a b) He) as [Hr He']. destruct (edge_get _ _ _ He') as [[x Hx] _]. apply Hn. exists x. split; [done|].
        destruct He as (f & Hf & _). destruct (F1 b f y p Hf Hb Hp) as (_ & _ & Hfr). apply (I2 a b x y p u); try done; [apply Hfr; by eapply elem_of_list_lookup_2|by apply lk_lacks].
      - intros b x p Hb Hp. destruct Hpreds as [Hlen _]. destruct (lookup_lt_is_Some_2 from b) as [f Hf]; [rewrite Hlen; by eapply lookup_lt_Some|]. by destruct (F1 b f x p Hf Hb Hp) as (_ & ? & ?).
      - intros a b x p (f & Hf & Ha) Hb Hp. destruct (F1 b f x p Hf Hb Hp) as (Hl & _). apply lookup_lt_is_Some_2. rewrite Hl. eapply lookup_lt_Some. by apply Hplace.
      - done.
    Qed.
    Lemma in_flw : flw endof E bs.
    Proof using Hpreds.
      intros b x c Hr Hb Hc Hl. apply E_edge. split; [apply rr_reach; [lia|done]|]. by eapply leads_edge.
    Qed.
    Lemma in_reach a b : E a b -> rr E a.
    Proof using Hpreds. intros He. apply E_edge in He as [? _]. by apply reach_rr. Qed.
  End In.
  Section Out.
    Context (bs : list (blk K J)).
    Hypothesis G : good pinned param index (E from) bs.
    Hypothesis F : flw endof (E from) bs.
    Lemma out_once : assigned_once pinned param bs.
    Proof using G.
      split.
      - intros b1 x1 p1 b2 x2 p2 v Hb1 Hb2 Hv H1 H2. assert (b1 = b2) as ->.
        { apply (g_apart _ _ _ _ _ G b1 b2 v Hv); [exists x1|exists x2]; (split; [done|]; by eapply elem_of_list_lookup_2). }
        split; [done|]. assert (x1 = x2) as -> by congruence. eapply Ssa_proof.filter_pos; [|exact Hv|done|done]. by eapply (g_nodup _ _ _ _ _ G).
      - intros b x v Hb Hv Hp. eapply (g_param _ _ _ _ _ G b v Hp). by exists x.
    Qed.
    Lemma out_reach b : reach endof bs b -> rr (E from) b.
    Proof using F.
      induction 1 as [H|a b H IH He]; [constructor|]. destruct (edge_get _ _ _ He) as [[x Hx] Hl]. apply rr_step with a; [done|]. eapply F; [done|done|done|]. by eapply leads_edge.
    Qed.
    Lemma out_edge a b : rr (E from) a -> edge endof bs a b -> E from a b.
    Proof using F. intros Hr He. destruct (edge_get _ _ _ He) as [[x Hx] Hl]. eapply F; [done|done|done|]. by eapply leads_edge. Qed.
    Lemma lacks_lk u b : lacks endof param bs u b -> rr (E from) b /\ lk param (E from) bs u b.
    Proof using F.
      induction 1 as [H|a b x H [IH1 IH2] Hx Hn He]; [split; by constructor|]. pose proof (out_edge a b IH1 He) as Hab. split; [by apply rr_step with a|]. apply lk_step with a; [done| |done].
      intros (y & Hy & Hu). congruence.
    Qed.
    Lemma out_init : initialised endof pinned param index bs.
    Proof using G F.
      split.
      - intros b x v Hb Hv Hf Hl. eapply (g_read _ _ _ _ _ G b x v Hb Hv); [by apply (fr_read x v)|]. by apply lacks_lk.
      - intros a b x y p v He Hr Hx Hy Hp Hpar Hv Hl. destruct (decide (v ∈ defs x)) as [|Hn]; [done|]. exfalso.
        eapply (g_phi _ _ _ _ _ G a b y p v); [apply out_edge; [by apply out_reach|done]|done|done|done|]. split; [by apply lacks_lk|]. intros (z & Hz & Hu). congruence.
    Qed.
  End Out.
End Bridge.

Section All.
  Context {K J W : Type} (endof : J -> Flow_model.ending) (pinned param : nat -> bool) (index : nat -> nat -> nat) (from : list (list nat)).
  Context (M : machine K J W) (mov : K) (is_copy : K -> bool) (fold_ins : ins K -> ins K) (fold_exit : J -> list (Z + nat) -> option (J * list (Z + nat))) (bs : list (blk K J)).
  Lemma copy_all : jumps_as_said endof M -> copies_as_said M is_copy -> is_copy mov = true -> folds_ins M pinned fold_ins -> folds_exit endof M pinned fold_exit ->
    preds_of endof bs from -> (forall a b f, from !! b = Some f -> a ∈ f -> f !! index a b = Some a) -> phis_full pinned from bs ->
    assigned_once pinned param bs -> initialised endof pinned param index bs ->
    exists bs', copy_propagation mov is_copy fold_ins fold_exit pinned from bs = Some bs' /\ length bs' = length bs /\
      (forall n a s, trace M pinned index n bs' a 0 s = trace M pinned index n bs a 0 s) /\
      assigned_once pinned param bs' /\ initialised endof pinned param index bs'.
  Proof using.
    intros H1 H2 H3 H4 H5 H6 H7 H8 H9 H10.
    pose proof (in_good endof pinned param index from bs H6 H7 H9 H10 H8) as G. pose proof (in_flw endof from bs H6) as F.
    destruct (copy_ok endof pinned param index M mov is_copy fold_ins fold_exit H1 H2 H3 H4 H5 from (in_reach endof from bs H6) bs G F) as (bs' & E' & S); [symmetry; apply H6|].
    exists bs'. split; [done|]. split; [apply S|]. split; [apply S|]. split; [eapply out_once; apply S|eapply out_init; apply S].
  Qed.
End All.

From Verif Require Import Back.Ssa_model Back.Ssa_all_proof.
Lemma copy_total {K J W} endof pinned param index from (M : machine K J W) mov is_copy fold_ins fold_exit (bs : list (blk K J)) :
  jumps_as_said endof M -> copies_as_said M is_copy -> is_copy mov = true -> folds_ins M pinned fold_ins -> folds_exit endof M pinned fold_exit ->
  preds_of endof bs from -> (forall a b f, from !! b = Some f -> a ∈ f -> f !! index a b = Some a) -> phis_full pinned from bs ->
  assigned_once pinned param bs -> initialised endof pinned param index bs ->
  is_Some (copy_propagation mov is_copy fold_ins fold_exit pinned from bs).
Proof. intros H1 H2 H3 H4 H5 H6 H7 H8 H9 H10. destruct (copy_all endof pinned param index from M mov is_copy fold_ins fold_exit bs H1 H2 H3 H4 H5 H6 H7 H8 H9 H10) as (bs' & E & _). by exists bs'. Qed.
Lemma copy_same {K J W} endof pinned param index from (M : machine K J W) mov is_copy fold_ins fold_exit (bs bs' : list (blk K J)) :
  jumps_as_said endof M -> copies_as_said M is_copy -> is_copy mov = true -> folds_ins M pinned fold_ins -> folds_exit endof M pinned fold_exit ->
  preds_of endof bs from -> (forall a b f, from !! b = Some f -> a ∈ f -> f !! index a b = Some a) -> phis_full pinned from bs ->
  assigned_once pinned param bs -> initialised endof pinned param index bs ->
  copy_propagation mov is_copy fold_ins fold_exit pinned from bs = Some bs' ->
  length bs' = length bs /\ forall n a s, trace M pinned index n bs' a 0 s = trace M pinned index n bs a 0 s.
Proof.
  intros H1 H2 H3 H4 H5 H6 H7 H8 H9 H10 E'. destruct (copy_all endof pinned param index from M mov is_copy fold_ins fold_exit bs H1 H2 H3 H4 H5 H6 H7 H8 H9 H10) as (bs2 & E & Hl & H & _).
  assert (bs2 = bs') as -> by congruence. done.
Qed.
Lemma copy_form {K J W} endof pinned param index from (M : machine K J W) mov is_copy fold_ins fold_exit (bs bs' : list (blk K J)) :
  jumps_as_said endof M -> copies_as_said M is_copy -> is_copy mov = true -> folds_ins M pinned fold_ins -> folds_exit endof M pinned fold_exit ->
  preds_of endof bs from -> (forall a b f, from !! b = Some f -> a ∈ f -> f !! index a b = Some a) -> phis_full pinned from bs ->
  assigned_once pinned param bs -> initialised endof pinned param index bs ->
  copy_propagation mov is_copy fold_ins fold_exit pinned from bs = Some bs' ->
  assigned_once pinned param bs' /\ initialised endof pinned param index bs'.
Proof.
  intros H1 H2 H3 H4 H5 H6 H7 H8 H9 H10 E'. destruct (copy_all endof pinned param index from M mov is_copy fold_ins fold_exit bs H1 H2 H3 H4 H5 H6 H7 H8 H9 H10) as (bs2 & E & Hl & _ & H).
  assert (bs2 = bs') as -> by congruence. done.
Qed.
Lemma copy_after {K J W} endof pinned param nv index (M : machine K J W) mov is_copy fold_ins fold_exit (bs : list (blk K J)) :
  jumps_as_said endof M -> copies_as_said M is_copy -> is_copy mov = true -> folds_ins M pinned fold_ins -> folds_exit endof M pinned fold_exit ->
  plain endof nv bs -> bs <> [] -> (forall v, pinned v = true -> v < nv) -> (forall v, param v = true -> v < nv) -> unreached_empty endof bs ->
  index_ok endof bs index -> initialised endof pinned param index bs ->
  exists from bs1 bs2, Flow_model.detect_from_bbs (flow endof bs) = Some from /\ make_ssa endof pinned param nv bs = Some bs1 /\
    copy_propagation mov is_copy fold_ins fold_exit pinned from bs1 = Some bs2 /\
    forall n a s, trace M pinned index n bs2 a 0 s = trace M pinned index n bs a 0 s.
Proof.
  intros H1 H2 H3 H4 H5 H6 H7 H8 H9 H10 H11 H12. destruct (ssa_total endof pinned param nv bs H6 H7 H8) as [bs1 E]. pose proof H11 as (from & Ef & Hidx).
  destruct (ssa_phis endof pinned param nv bs bs1 from H6 H8 E Ef) as [Hp Hf].
  destruct (copy_all endof pinned param index from M mov is_copy fold_ins fold_exit bs1 H1 H2 H3 H4 H5 Hp Hidx Hf (ssa_single endof pinned param nv bs bs1 H6 H8 H9 H10 E)
    (ssa_initialised endof pinned param nv bs bs1 index H6 H8 H10 H11 E H12)) as (bs2 & E2 & _ & Ht & _).
  exists from, bs1, bs2. repeat split; try done. intros n a s. rewrite Ht. by apply (ssa_same endof pinned param nv bs bs1).
Qed.

(** int a, b; a = b; b = a; *)
Definition swap : list (blk nat nat) := [Blk [] [Ins 0 false (Some 0) [inr 1]; Ins 0 false (Some 1) [inr 0]; Ins 3 true None [inr 1]] None].
Definition swap1 : list (blk nat nat) := [Blk [] [Ins 0 false (Some 0) [inr 1]; Ins 0 false (Some 1) [inr 1]; Ins 3 true None [inr 1]] None].
Definition none : nat -> bool := fun _ => false.
Lemma swap_hangs : exists bs from bs1, plain Flow_model.CJump 2 bs /\ unreached_empty Flow_model.CJump bs /\ Flow_model.detect_from_bbs (flow Flow_model.CJump bs) = Some from /\
  make_ssa Flow_model.CJump none none 2 bs = Some bs1 /\
  forall fuel, copy_rounds 0 (fun k => k =? 0) id (fun j l => Some (j, l)) none fuel from bs1 = None.
Proof.
  exists swap, [[]], swap. split; [|split; [|split; [|split]]].
  - split.
    + intros b x Hb. destruct b; [by injection Hb as <-|done].
    + intros b x v Hb Hv. destruct b; [|done]. injection Hb as <-. vm_compute in Hv. repeat (apply elem_of_cons in Hv as [->|Hv]; [lia|]); by apply elem_of_nil in Hv.
    + intros b x Hb. destruct b; [injection Hb as <-; cbn; exact I|done].
    + intros a (x & Ha & _ & H). destruct a; [injection Ha as <-; cbn in H; lia|done].
  - intros b x Hb Hn. destruct b; [|done]. exfalso. apply Hn. constructor. cbn. lia.
  - by vm_compute.
  - by vm_compute.
  - assert (H : forall fuel, copy_rounds 0 (fun k => k =? 0) id (fun (j : nat) l => Some (j, l)) none fuel [[]] swap1 = None).
    { induction fuel as [|fuel IH]; [done|]. cbn [copy_rounds]. 
      replace (blks_loop 0 (fun k => k =? 0) id (fun (j : nat) l => Some (j, l)) none [[]] (length swap1) 0 0 swap1 false) with (Some (swap1, true)) by (by vm_compute). exact IH. }
    intros [|fuel]; [done|]. cbn [copy_rounds].
    destruct (blks_loop 0 (fun k => k =? 0) id (fun (j : nat) l => Some (j, l)) none [[]] (length swap) 0 0 swap false) as [[q g]|] eqn:E; vm_compute in E; [|done].
    injection E as <- <-. exact (H fuel).
Qed.
