(** The registers that hold a copy, along an execution. *)
From stdpp Require Import base list numbers gmap.
From Verif Require Import Back.Unused_model Back.Unused_spec Back.Ssa_spec Back.Cprop_model.
From Verif Require Back.Ssa_proof.
Local Open Scope nat_scope.

Section Good.
  Context {K J : Type}.
  Context (pinned param : nat -> bool) (index : nat -> nat -> nat).
  (** The edges of the function at the start. *)
  Context (E : nat -> nat -> Prop).
  Implicit Types bs : list (blk K J).
  Definition dfs bs (a u : nat) : Prop := exists x, bs !! a = Some x /\ u ∈ defs x.
  Inductive lk bs (u : nat) : nat -> Prop :=
  | lk_start : param u = false -> lk bs u 0
  | lk_step a b : lk bs u a -> ~ dfs bs a u -> E a b -> lk bs u b.
  Definition lke bs (u a : nat) : Prop := lk bs u a /\ ~ dfs bs a u.
  Inductive rr : nat -> Prop := rr_start : rr 0 | rr_step a b : rr a -> E a b -> rr b.
  (** The block reads [u] where nothing of it has assigned [u]. *)
  Definition fr (x : blk K J) (u : nat) : Prop := u ∉ pdst <$> phis x /\
    ((exists pre i post, irs x = pre ++ i :: post /\ u ∈ regs (oprs i) /\ u ∉ omap dst pre) \/
     (exists j l, exit x = Some (j, l) /\ u ∈ regs l /\ u ∉ omap dst (irs x))).
  Record good bs : Prop := {
    g_nodup : forall b x, bs !! b = Some x -> NoDup (filter (fun u => pinned u = false) (defs x));
    g_apart : forall b1 b2 u, pinned u = false -> dfs bs b1 u -> dfs bs b2 u -> b1 = b2;
    g_param : forall b u, pinned u = false -> dfs bs b u -> param u = false;
    g_read : forall b x u, bs !! b = Some x -> pinned u = false -> fr x u -> ~ lk bs u b;
    g_phi : forall a b y p u, E a b -> bs !! b = Some y -> p ∈ phis y -> params p !! index a b = Some (inr u) -> ~ lke bs u a;
    g_free : forall b x p, bs !! b = Some x -> p ∈ phis x -> pinned (pdst p) = false /\ forall u, inr u ∈ params p -> pinned u = false;
    g_full : forall a b x p, E a b -> bs !! b = Some x -> p ∈ phis x -> is_Some (params p !! index a b);
    g_zero : forall x, bs !! 0 = Some x -> phis x = []
  }.
  Lemma regs_in l u : inr u ∈ l <-> u ∈ regs l.
  Proof using.
    unfold regs. rewrite elem_of_list_bind. split.
    - intros H. exists (inr u). split; [by apply elem_of_list_singleton|done].
    - intros (o & H1 & H2). destruct o as [z|w]; [by apply elem_of_nil in H1|]. by apply elem_of_list_singleton in H1 as ->.
  Qed.
End Good.

(** States that agree register by register. *)
Section Ext.
  Context {K J W : Type} (M : machine K J W) (pinned : nat -> bool) (index : nat -> nat -> nat).
  Definition steq (s s' : state W) : Prop := (forall u, s.1 u = s'.1 u) /\ s.2 = s'.2.
  Lemma rd_ext o s s' : steq s s' -> rd M pinned o s = rd M pinned o s'.
  Proof using. intros [H1 H2]. destruct o as [z|u]; [done|]. cbn. rewrite H1, H2. done. Qed.
  Lemma rds_ext (l : list (Z + nat)) s s' : steq s s' -> (fun o => rd M pinned o s) <$> l = (fun o => rd M pinned o s') <$> l.
  Proof using. intros H. apply list_fmap_ext. intros k o _. by apply rd_ext. Qed.
  Lemma wr_ext u x s s' : steq s s' -> steq (wr M pinned u x s) (wr M pinned u x s').
  Proof using. intros [H1 H2]. unfold wr. destruct (pinned u); split; cbn; [done|by rewrite H2| |done]. intros z. by rewrite H1. Qed.
  Lemma exec_ext i s s' : steq s s' -> (exec M pinned i s).1 = (exec M pinned i s').1 /\ steq (exec M pinned i s).2 (exec M pinned i s').2.
  Proof using.
    intros H. unfold exec. rewrite (rds_ext _ _ _ H). destruct H as [H1 H2]. rewrite H2. destruct (act _ _ _ _) as [x w]. cbn. split; [done|].
    destruct (dst i) as [u|]; [|done]. by apply wr_ext.
  Qed.
  Lemma execs_ext l : forall s s', steq s s' -> (execs M pinned l s).1 = (execs M pinned l s').1 /\ steq (execs M pinned l s).2 (execs M pinned l s').2.
  Proof using.
    induction l as [|i l IH]; intros s s' H; [done|]. cbn. destruct (exec_ext i s s' H) as [H1 H2].
    destruct (exec M pinned i s) as [e t], (exec M pinned i s') as [e' t']. cbn in H1, H2. destruct (IH t t' H2) as [H3 H4].
    destruct (execs M pinned l t), (execs M pinned l t'). cbn in *. by subst.
  Qed.
  Lemma enter_ext ps k s s' : steq s s' -> steq (enter M pinned ps k s) (enter M pinned ps k s').
  Proof using.
    intros H. unfold enter. assert (Hg : forall t t', steq t t' -> steq (foldr (fun p s' => wr M pinned (pdst p) (rd M pinned (default (inl 0%Z) (params p !! k)) s) s') t ps)
      (foldr (fun p s'0 => wr M pinned (pdst p) (rd M pinned (default (inl 0%Z) (params p !! k)) s') s'0) t' ps)).
    { intros t t' Ht. induction ps as [|p ps IH]; [done|]. cbn. rewrite (rd_ext _ _ _ H). by apply wr_ext. }
    by apply Hg.
  Qed.
  Definition nxt (b : nat) (x : blk K J) (s : state W) : nat :=
    match exit x with Some (j, l) => default (S b) (target M j ((fun o => rd M pinned o s) <$> l) s.2) | None => S b end.
  Lemma nxt_ext b x s s' : steq s s' -> nxt b x s = nxt b x s'.
  Proof using. intros H. unfold nxt. destruct (exit x) as [[j l]|]; [|done]. rewrite (rds_ext _ _ _ H). by destruct H as [_ ->]. Qed.
  Lemma trace_S n bs a b s : trace M pinned index (S n) bs a b s =
    match bs !! b with
    | None => [Ended s.2]
    | Some x => let r := execs M pinned (irs x) (enter M pinned (phis x) (index a b) s) in r.1 ++ trace M pinned index n bs b (nxt b x r.2) r.2
    end.
  Proof using. cbn. destruct (bs !! b) as [x|]; [|done]. destruct (execs _ _ _ _) as [es t]. done. Qed.
  (** Every jump that is taken is an edge. *)
  Definition dyn (E : nat -> nat -> Prop) (bs : list (blk K J)) : Prop := forall b x s, rr E b -> bs !! b = Some x -> is_Some (bs !! nxt b x s) -> E b (nxt b x s).
End Ext.

Section Copy.
  Context {K J W : Type}.
  Context (pinned param : nat -> bool) (index : nat -> nat -> nat) (E : nat -> nat -> Prop).
  Context (M : machine K J W) (is_copy : K -> bool).
  Hypothesis Hcopy : forall k, is_copy k = true -> seen M k = false /\ forall z w, act M k [z] w = (z, w).
  Context (bs : list (blk K J)) (G : good pinned param index E bs).
  Context (d : nat) (v : Z + nat).
  Hypothesis Hd : pinned d = false.
  Hypothesis Hv : is_pinned pinned v = false.
  Hypothesis Hdv : v <> inr d.
  Hypothesis Hphi : forall b x p, bs !! b = Some x -> p ∈ phis x -> pdst p = d -> Forall (fun o => o = v \/ o = inr d) (params p).
  Hypothesis Hins : forall b x i, bs !! b = Some x -> i ∈ irs x -> dst i = Some d -> is_copy (op i) = true /\ oprs i = [v].
  Hypothesis Hdef : exists b, dfs bs b d.
  Notation lk := (lk param E bs). Notation lke := (lke param E bs).

  Lemma d_param : param d = false.
  Proof using All. destruct Hdef as (b & H). by eapply g_param. Qed.

  (** Where [r] may be missing, so may [d]. *)
  Lemma phi_arg r a b x p : v = inr r -> E a b -> bs !! b = Some x -> p ∈ phis x -> pdst p = d -> lke r a -> lke d a -> False.
  Proof using All.
    intros Hr He Hb Hp Hpd H1 H2. destruct (g_full _ _ _ _ _ G _ _ _ _ He Hb Hp) as [o Ho].
    pose proof (proj1 (stdpp.list.Forall_forall _ _) (Hphi _ _ _ Hb Hp Hpd) o (elem_of_list_lookup_2 _ _ _ Ho)) as [-> | ->].
    - rewrite Hr in Ho. by eapply (g_phi _ _ _ _ _ G).
    - by eapply (g_phi _ _ _ _ _ G).
  Qed.
  Lemma ins_arg r b x pre i post : v = inr r -> bs !! b = Some x -> irs x = pre ++ i :: post -> dst i = Some d -> lk r b -> r ∉ pdst <$> phis x -> r ∉ omap dst pre -> False.
  Proof using All.
    intros Hr Hb Hi Hdi H1 H2 H3. assert (Hp : pinned r = false) by (by rewrite Hr in Hv).
    apply (g_read _ _ _ _ _ G b x r Hb Hp); [|done]. split; [done|]. left. exists pre, i, post. split; [done|]. split; [|done].
    destruct (Hins b x i Hb) as [_ Ho]; [rewrite Hi; apply elem_of_app; right; left|done|]. rewrite Ho, Hr. left.
  Qed.
  Lemma not_dst_pre r b x pre post : v = inr r -> bs !! b = Some x -> irs x = pre ++ post -> lk r b -> r ∉ pdst <$> phis x -> r ∉ omap dst pre -> d ∉ omap dst pre.
  Proof using All.
    intros Hr Hb Hi H1 H2 H3 H. apply elem_of_list_omap in H as (i & H & Hdi). apply elem_of_list_split in H as (q & q' & ->).
    eapply (ins_arg r b x q i (q' ++ post)); try done. { rewrite Hi. by rewrite <- app_assoc. }
    intros H. apply H3. rewrite omap_app. apply elem_of_app. by left.
  Qed.
  Lemma lke_copy r a : v = inr r -> lke r a -> lke d a.
  Proof using All.
    intros Hr [Hl Hn]. revert Hn. induction Hl as [Hp|a b Hl IH Hn He]; intros Hm.
    - split; [constructor; exact d_param|]. intros (x & Hx & H). unfold defs in H. pose proof (g_zero _ _ _ _ _ G _ Hx) as H0. rewrite H0 in H.
      assert (Hr' : r ∉ omap dst (irs x)) by (intros H'; apply Hm; exists x; split; [done|]; unfold defs; apply elem_of_app; by right).
      revert H. eapply (not_dst_pre r 0 x (irs x) []); try done. { by rewrite app_nil_r. } { by constructor. } rewrite H0. apply not_elem_of_nil.
    - pose proof (IH Hn) as IHd. assert (Hld : lk d b) by (destruct IHd; by eapply lk_step). split; [done|].
      assert (Hlr : lk r b) by (by eapply lk_step).
      intros (x & Hx & H). unfold defs in H. apply elem_of_app in H as [H|H].
      + apply elem_of_list_fmap in H as (p & Hpd & Hp). eapply (phi_arg r a b x p); try done.
      + assert (Hr1 : r ∉ pdst <$> phis x) by (intros H'; apply Hm; exists x; split; [done|]; unfold defs; apply elem_of_app; by left).
        assert (Hr2 : r ∉ omap dst (irs x)) by (intros H'; apply Hm; exists x; split; [done|]; unfold defs; apply elem_of_app; by right).
        revert H. eapply (not_dst_pre r b x (irs x) []); try done. by rewrite app_nil_r.
  Qed.
  Lemma lk_copy r b : v = inr r -> lk r b -> lk d b /\ forall x, bs !! b = Some x -> d ∉ pdst <$> phis x.
  Proof using All.
    intros Hr [Hp|a b' Hl Hn He].
    - split; [constructor; exact d_param|]. intros x Hx. rewrite (g_zero _ _ _ _ _ G _ Hx). apply not_elem_of_nil.
    - destruct (lke_copy r a Hr (conj Hl Hn)) as [H1 H2]. split; [by eapply lk_step|]. intros x Hx H.
      apply elem_of_list_fmap in H as (p & Hpd & Hp). by eapply (phi_arg r a b' x p).
  Qed.

  (** Along an execution: [L] are the registers that may be missing here, [H] those assigned so far. *)
  Definition has (H : gset nat) (u : nat) : Prop := param u = true \/ u ∈ H.
  Definition rdv (s : state W) : Z := match v with inl z => z | inr r => s.1 r end.
  Lemma rdv_rd s : rd M pinned v s = rdv s.
  Proof using All. unfold rd, rdv. destruct v as [z|r]; [done|]. cbn in Hv. by rewrite Hv. Qed.
  Definition st_of (r : nat) (b1 : nat) (x1 : blk K J) (p1 : nat) : Prop := lk d b1 /\ d ∉ take (Nat.max (S p1) (length (phis x1))) (defs x1).
  Record pt (L : nat -> Prop) (s : state W) (H : gset nat) : Prop := {
    p_has : forall u, pinned u = false -> ~ L u -> has H u;
    p_dep : has H d -> forall r, v = inr r -> has H r;
    p_def : forall r b1 x1 p1, v = inr r -> bs !! b1 = Some x1 -> defs x1 !! p1 = Some r -> r ∈ H -> ~ ~ st_of r b1 x1 p1;
    p_val : ~ L d -> s.1 d = rdv s
  }.
  Lemma pt_weak (L L' : nat -> Prop) s H : (forall u, L u -> L' u) -> pt L s H -> pt L' s H.
  Proof using All.
    intros Hl [H1 H2 H3 H4]. split; [|done|done|].
    - intros u Hu Hn. apply H1; [done|]. intros H'. by apply Hn, Hl.
    - intros Hn. apply H4. intros H'. by apply Hn, Hl.
  Qed.

  Lemma rd_sub L s H o : pt L s H -> (o = inr d -> ~ L d) -> rd M pinned (sub d v o) s = rd M pinned o s.
  Proof using All.
    intros P Ho. unfold sub. destruct (decide (o = inr d)) as [->|]; [|done].
    rewrite rdv_rd. cbn [rd]. rewrite Hd. symmetry. apply (p_val _ _ _ P). by apply Ho.
  Qed.
  Lemma rds_sub L s H l : pt L s H -> (d ∈ regs l -> ~ L d) -> (fun o => rd M pinned o s) <$> (sub d v <$> l) = (fun o => rd M pinned o s) <$> l.
  Proof using All.
    intros P Hl. rewrite <- list_fmap_compose. apply list_fmap_ext. intros k o Ho. cbn. eapply rd_sub; [done|]. intros ->. apply Hl. apply regs_in. by eapply elem_of_list_lookup_2.
  Qed.

  Definition Lat (b : nat) (x : blk K J) (pre : list (ins K)) (u : nat) : Prop := lk u b /\ u ∉ (pdst <$> phis x) ++ omap dst pre.
  Lemma Lat_read b x pre i post u : bs !! b = Some x -> irs x = pre ++ i :: post -> pinned u = false -> u ∈ regs (oprs i) -> ~ Lat b x pre u.
  Proof using All.
    intros Hb Hi Hp Hu [H1 H2]. apply not_elem_of_app in H2 as [H2 H3].
    apply (g_read _ _ _ _ _ G b x u Hb Hp); [|done]. split; [done|]. left. exists pre, i, post. done.
  Qed.
  Lemma Lat_exit b x j l u : bs !! b = Some x -> exit x = Some (j, l) -> pinned u = false -> u ∈ regs l -> ~ Lat b x (irs x) u.
  Proof using All.
    intros Hb Hi Hp Hu [H1 H2]. apply not_elem_of_app in H2 as [H2 H3].
    apply (g_read _ _ _ _ _ G b x u Hb Hp); [|done]. split; [done|]. right. exists j, l. done.
  Qed.

  Lemma take_def (x : blk K J) pre i post u : irs x = pre ++ i :: post -> dst i = Some u ->
    take (Nat.max (S (length (phis x) + length (omap dst pre))) (length (phis x))) (defs x) = (pdst <$> phis x) ++ omap dst pre ++ [u].
  Proof using All.
    intros Hi Eu. unfold defs. rewrite Hi, omap_app. replace (omap dst (i :: post)) with ([u] ++ omap dst post) by (cbn; by rewrite Eu).
    rewrite !app_assoc. rewrite take_app_ge by (rewrite !app_length, fmap_length; cbn; lia).
    rewrite !app_length, fmap_length. cbn [length]. replace (Nat.max _ _ - _) with 0 by lia. by rewrite take_0, app_nil_r, <- app_assoc.
  Qed.
  Definition sub_ins (i : ins K) : ins K := Ins (op i) (is_call i) (dst i) (sub d v <$> oprs i).
  Lemma exec_sub b x pre i post s H : bs !! b = Some x -> irs x = pre ++ i :: post -> pt (Lat b x pre) s H ->
    exec M pinned (sub_ins i) s = exec M pinned i s /\
    pt (Lat b x (pre ++ [i])) (exec M pinned i s).2 (match dst i with Some u => {[u]} ∪ H | None => H end).
  Proof using All.
    intros Hb Hi P. split.
    { unfold exec. cbn [oprs op sub_ins dst]. by rewrite (rds_sub _ _ _ _ P (fun Hr => Lat_read b x pre i post d Hb Hi Hd Hr)). }
    unfold exec. set (l := (fun o => rd M pinned o s) <$> oprs i).
    destruct (act M (op i) l s.2) as [y w] eqn:Ea. cbn [snd].
    assert (Hii : i ∈ irs x) by (rewrite Hi; apply elem_of_app; right; left).
    assert (HL : forall u, Lat b x (pre ++ [i]) u <-> Lat b x pre u /\ dst i <> Some u).
    { intros u. unfold Lat. rewrite omap_app, app_assoc, (not_elem_of_app (_ ++ _)). cbn. split.
      - intros (H1 & H2 & H3). split; [done|]. intros Hu. rewrite Hu in H3. apply H3. left.
      - intros ((H1 & H2) & H3). split; [done|]. split; [done|]. destruct (dst i) as [u'|]; [|apply not_elem_of_nil]. intros Hu%elem_of_list_singleton. congruence. }
    destruct (dst i) as [u|] eqn:Eu.
    2:{ destruct P as [P1 P2 P3 P4]. split.
        - intros z Hz Hn. apply P1; [done|]. intros H'. apply Hn, HL. done.
        - done.
        - done.
        - intros Hn. unfold rdv. cbn [fst]. apply P4. intros H'. apply Hn, HL. done. }
    destruct P as [P1 P2 P3 P4].
    assert (Hst : forall s' w', (wr M pinned u y (s', w')).1 = if pinned u then s' else fun z => if decide (z = u) then y else s' z).
    { intros s' w'. unfold wr. by destruct (pinned u). }
    split.
    - intros z Hz Hn. destruct (decide (z = u)) as [->|Hne]; [right; set_solver|].
      destruct (P1 z Hz) as [H'|H']; [|by left|right; set_solver]. intros H'. apply Hn, HL. split; [done|]. congruence.
    - intros Hh r Hr. destruct (decide (d = u)) as [<-|Hne].
      + destruct (Hins b x i Hb Hii Eu) as [_ Ho]. assert (Hr' : has H r). { apply P1; [by rewrite Hr in Hv|]. eapply (Lat_read b x pre i post r); [done|done|by rewrite Hr in Hv|]. rewrite Ho, Hr. left. }
        destruct Hr'; [by left|right; set_solver].
      + assert (Hr' : has H r). { apply P2; [|done]. destruct Hh as [Hh|Hh]; [by left|right; set_solver]. } destruct Hr'; [by left|right; set_solver].
    - intros r b1 x1 p1 Hr Hb1 Hp1 Hin.
      destruct (decide (r ∈ H)) as [Hrh|Hrh]; [by eapply P3|].
      assert (r = u) as -> by set_solver. clear Hin.
      assert (Hru : pinned u = false) by (by rewrite Hr in Hv). 
      assert (Hne : d <> u) by (intros ->; congruence).
      assert (b1 = b) as ->. { apply (g_apart _ _ _ _ _ G b1 b u Hru); [exists x1; split; [done|]; by eapply elem_of_list_lookup_2|]. exists x. split; [done|]. unfold defs. apply elem_of_app. right. apply elem_of_list_omap. by exists i. }
      rewrite Hb in Hb1. injection Hb1 as <-.
      assert (Hpos : p1 = length (phis x) + length (omap dst pre)).
      { pose proof (g_nodup _ _ _ _ _ G _ _ Hb) as Hnd. eapply (Ssa_proof.filter_pos pinned _ Hnd p1 _ u Hru Hp1).
        unfold defs. rewrite lookup_app_r by (rewrite fmap_length; lia). rewrite fmap_length. replace (_ + _ - _) with (length (omap dst pre)) by lia.
        rewrite Hi, omap_app. rewrite lookup_app_r by lia. rewrite Nat.sub_diag. cbn. by rewrite Eu. }
      assert (Hpu : param u = false). { eapply (g_param _ _ _ _ _ G b u Hru). exists x. split; [done|]. by eapply elem_of_list_lookup_2. }
      intros Hns. assert (Hnd : ~ has H d). { intros Hh. destruct (P2 Hh u Hr) as [?|?]; [congruence|done]. }
      apply Hnd. apply P1; [done|]. intros [HL1 HL2]. apply Hns. split; [done|]. subst p1.
      pose proof (take_def x pre i post u Hi Eu) as Htk.
      rewrite Htk, app_assoc. rewrite not_elem_of_app. split; [done|]. intros Hx%elem_of_list_singleton. done.
    - intros Hn. destruct (decide (d = u)) as [<-|Hne].
      + destruct (Hins b x i Hb Hii Eu) as [Hc Ho]. destruct (Hcopy _ Hc) as [_ Hact]. unfold l in Ea. rewrite Ho in Ea. cbn in Ea. rewrite Hact in Ea. injection Ea as <- <-.
        unfold rdv. rewrite !Hst, Hd. rewrite decide_True by done. pose proof (rdv_rd s) as Hrs. unfold rdv in Hrs. rewrite Hrs. destruct v as [z|r]; [done|]. rewrite decide_False by congruence. done.
      + destruct (decide (v = inr u)) as [Hvu|Hvu].
        * (* the copied register is assigned *)
          assert (Hru : pinned u = false) by (by rewrite Hvu in Hv). exfalso.
          destruct (decide (u ∈ H)) as [Huh|Huh].
          -- assert (Hp1 : defs x !! (length (phis x) + length (omap dst pre)) = Some u).
             { unfold defs. rewrite lookup_app_r by (rewrite fmap_length; lia). rewrite fmap_length. replace (_ + _ - _) with (length (omap dst pre)) by lia.
               rewrite Hi, omap_app. rewrite lookup_app_r by lia. rewrite Nat.sub_diag. cbn. by rewrite Eu. }
             apply (P3 u b x _ Hvu Hb Hp1 Huh). intros [HL1 HL2]. apply Hn, HL. split; [|congruence]. split; [done|].
             intros Hx. apply HL2. pose proof (take_def x pre i post u Hi Eu) as Htk.
             rewrite Htk, app_assoc. apply elem_of_app. by left.
          -- assert (Hpu : param u = false). { eapply (g_param _ _ _ _ _ G b u Hru). exists x. split; [done|]. unfold defs. apply elem_of_app. right. apply elem_of_list_omap. by exists i. }
             assert (Hnd : ~ has H d). { intros Hh. destruct (P2 Hh u Hvu) as [?|?]; [congruence|done]. }
             apply Hnd. apply P1; [done|]. intros HL1. apply Hn, HL. split; [done|congruence].
        * unfold rdv. rewrite !Hst. pose proof (P4 ltac:(intros H'; apply Hn, HL; split; [done|congruence])) as Hp4. unfold rdv in Hp4.
          destruct (pinned u); [done|]. rewrite decide_False by done. destruct v as [z|r]; [done|]. rewrite decide_False by congruence. done.
  Qed.

  Lemma phis_nodup b x : bs !! b = Some x -> NoDup (pdst <$> phis x).
  Proof using All.
    intros Hb. pose proof (g_nodup _ _ _ _ _ G _ _ Hb) as Hn. unfold defs in Hn. rewrite filter_app in Hn. apply NoDup_app in Hn as [Hn _].
    assert (Hf : forall p, p ∈ phis x -> pinned (pdst p) = false) by (intros p Hp; exact (proj1 (g_free _ _ _ _ _ G b x p Hb Hp))).
    revert Hn Hf. generalize (phis x). intros ps. induction ps as [|p ps IH]; intros Hn Hf; [constructor|].
    rewrite fmap_cons in *. rewrite filter_cons, decide_True in Hn by (apply Hf; by left). apply NoDup_cons in Hn as [Hn1 Hn2]. apply NoDup_cons. split.
    - intros H. apply Hn1. apply elem_of_list_filter. split; [apply Hf; by left|done].
    - apply IH; [done|]. intros q Hq. apply Hf. by right.
  Qed.
  Lemma phis_free b x p : bs !! b = Some x -> p ∈ phis x -> pinned (pdst p) = false.
  Proof using All. intros Hb Hp. exact (proj1 (g_free _ _ _ _ _ G b x p Hb Hp)). Qed.

  Definition entry (a b : nat) (s : state W) (H : gset nat) : Prop := (b = 0 /\ pt (fun u => lk u 0) s H) \/ (E a b /\ pt (fun u => lke u a) s H).
  Lemma start_entry a s : entry a 0 s ∅.
  Proof using All.
    left. split; [done|]. split.
    - intros u Hu Hn. left. destruct (param u) eqn:E0; [done|]. exfalso. apply Hn. by constructor.
    - intros [Hp|Hp]; [|set_solver]. by rewrite d_param in Hp.
    - intros r b1 x1 p1 _ _ _ H. set_solver.
    - intros Hn. exfalso. apply Hn. constructor. exact d_param.
  Qed.
  Definition sub_phi (p : phi) : phi := Phi (pdst p) (sub d v <$> params p).

  Lemma enter_sub a b x s H : bs !! b = Some x -> entry a b s H ->
    enter M pinned (sub_phi <$> phis x) (index a b) s = enter M pinned (phis x) (index a b) s /\
    pt (Lat b x []) (enter M pinned (phis x) (index a b) s) (list_to_set (pdst <$> phis x) ∪ H) /\
    forall p, p ∈ phis x -> pdst p = d -> rd M pinned (default (inl 0%Z) (params p !! index a b)) s = rdv s /\ forall r, v = inr r -> r ∉ pdst <$> phis x.
  Proof using All.
    intros Hb [[Hz0 P]|[He P]]; [subst b|].
    { pose proof (g_zero _ _ _ _ _ G _ Hb) as Hz. rewrite Hz. cbn [fmap list_fmap enter foldr]. split; [done|]. split; [|intros p Hp; by apply elem_of_nil in Hp].
      cbn [list_to_set]. replace (∅ ∪ H) with H by set_solver. unfold enter. cbn [foldr].
      eapply pt_weak; [|exact P]. intros u Hu. split; [done|]. rewrite Hz. apply not_elem_of_nil. }
    assert (Hsub : forall p, p ∈ phis x -> rd M pinned (default (inl 0%Z) (sub d v <$> params p !! index a b)) s = rd M pinned (default (inl 0%Z) (params p !! index a b)) s).
    { intros p Hp. destruct (g_full _ _ _ _ _ G _ _ _ _ He Hb Hp) as [o Ho]. rewrite Ho. change (rd M pinned (sub d v o) s = rd M pinned o s).
      eapply rd_sub; [exact P|]. intros ->. by eapply (g_phi _ _ _ _ _ G). }
    destruct (Ssa_proof.enter_ok M pinned (phis x) (index a b) s) as (N1 & N2 & N3); [by eapply phis_nodup|intros p Hp; by eapply phis_free|].
    pose proof P as [P1 P2 P3 P4].
    (* the parameter of a phi for [d] *)
    assert (Hpar : forall p, p ∈ phis x -> pdst p = d -> rd M pinned (default (inl 0%Z) (params p !! index a b)) s = rdv s /\ forall r, v = inr r -> has H r).
    { intros p Hp Hpd. destruct (g_full _ _ _ _ _ G _ _ _ _ He Hb Hp) as [o Ho]. rewrite Ho. change (default _ (Some o)) with o.
      pose proof (proj1 (stdpp.list.Forall_forall _ _) (Hphi _ _ _ Hb Hp Hpd) o (elem_of_list_lookup_2 _ _ _ Ho)) as [-> | ->].
      - split; [by apply rdv_rd|]. intros r Hr. apply P1; [by rewrite Hr in Hv|]. rewrite Hr in Ho. by eapply (g_phi _ _ _ _ _ G).
      - pose proof (g_phi _ _ _ _ _ G _ _ _ _ _ He Hb Hp Ho) as Hnd. split; [cbn; rewrite Hd; by apply P4|]. intros r Hr. apply P2; [|done]. by apply P1. }
    assert (Hpos : forall u, u ∈ pdst <$> phis x -> exists p1, p1 < length (phis x) /\ defs x !! p1 = Some u).
    { intros u Hu. apply elem_of_list_lookup in Hu as [p1 Hp1]. exists p1. pose proof (lookup_lt_Some _ _ _ Hp1) as Hl. rewrite fmap_length in Hl. split; [done|].
      unfold defs. rewrite lookup_app_l; [done|]. by rewrite fmap_length. }
    assert (Hnew : forall r, v = inr r -> r ∈ pdst <$> phis x -> ~ ~ (lk d b /\ d ∉ pdst <$> phis x)).
    { intros r Hr Hin. assert (Hrp : pinned r = false) by (by rewrite Hr in Hv). destruct (Hpos r Hin) as (p1 & Hp1 & Hp1').
      destruct (decide (r ∈ H)) as [Hrh|Hrh].
      - intros Hn. apply (P3 r b x p1 Hr Hb Hp1' Hrh). intros [H1 H2]. apply Hn. split; [done|]. intros H3. apply H2.
        unfold defs. rewrite take_app_ge by (rewrite fmap_length; lia). apply elem_of_app. by left.
      - assert (Hrq : param r = false). { eapply (g_param _ _ _ _ _ G b r Hrp). exists x. split; [done|]. by eapply elem_of_list_lookup_2. }
        assert (Hnh : ~ has H r) by (intros [?|?]; [congruence|done]).
        assert (Hnd : ~ has H d) by (intros Hh; by apply Hnh, (P2 Hh)).
        intros Hn. apply Hnd. apply P1; [done|]. intros [H1 H2]. apply Hn. split; [by eapply lk_step|].
        intros H3. apply elem_of_list_fmap in H3 as (p & Hpd & Hp). destruct (Hpar p Hp (eq_sym Hpd)) as [_ Hh]. by apply Hnh, Hh. }
    assert (Hapart : forall p, p ∈ phis x -> pdst p = d -> forall r, v = inr r -> r ∉ pdst <$> phis x).
    { intros p Hp Hpd r Hr Hin. apply (Hnew r Hr Hin). intros [_ H2]. apply H2. apply elem_of_list_fmap. by exists p. }
    split; [|split].
    - unfold enter. clear -Hsub. generalize s at 2 4. intros t. revert Hsub. induction (phis x) as [|p ps IH]; intros Hsub; [done|]. cbn [foldr fmap list_fmap].
      change (pdst (sub_phi p)) with (pdst p). cbn [sub_phi params]. rewrite list_lookup_fmap. rewrite Hsub by (by left). f_equal. apply IH. intros q Hq. apply Hsub. by right.
    - set (s' := enter M pinned (phis x) (index a b) s) in *. split.
      + intros u Hu Hn. destruct (decide (u ∈ pdst <$> phis x)) as [Hi|Hi]; [right; apply elem_of_union_l; by apply elem_of_list_to_set|].
        destruct (P1 u Hu) as [?|?]; [|by left|right; by apply elem_of_union_r].
        intros [H1 H2]. apply Hn. split; [by eapply lk_step|]. cbn. rewrite app_nil_r. done.
      + intros Hh r Hr. assert (Hhr : has H r).
        { destruct (decide (d ∈ pdst <$> phis x)) as [Hi|Hi].
          - apply elem_of_list_fmap in Hi as (p & Hpd & Hp). by apply (Hpar p Hp (eq_sym Hpd)).
          - apply P2; [|done]. destruct Hh as [?|Hh]; [by left|]. apply elem_of_union in Hh as [Hh|Hh]; [by apply elem_of_list_to_set in Hh|by right]. }
        destruct Hhr; [by left|right; by apply elem_of_union_r].
      + intros r b1 x1 p1 Hr Hb1 Hp1 Hin. destruct (decide (r ∈ pdst <$> phis x)) as [Hi|Hi].
        * assert (Hrp : pinned r = false) by (by rewrite Hr in Hv).
          assert (b1 = b) as ->. { apply (g_apart _ _ _ _ _ G b1 b r Hrp); [exists x1; split; [done|]; by eapply elem_of_list_lookup_2|]. exists x. split; [done|]. unfold defs. apply elem_of_app. by left. }
          assert (x1 = x) as -> by congruence.
          destruct (Hpos r Hi) as (p2 & Hp2 & Hp2'). pose proof (Ssa_proof.filter_pos pinned _ (g_nodup _ _ _ _ _ G _ _ Hb) p1 p2 r Hrp Hp1 Hp2') as ->.
          intros Hn. apply (Hnew r Hr Hi). intros [H1 H2]. apply Hn. split; [done|]. replace (Nat.max (S p2) (length (phis x))) with (length (phis x)) by lia.
          unfold defs. rewrite take_app_alt by (by rewrite fmap_length). done.
        * apply elem_of_union in Hin as [Hin|Hin]; [by apply elem_of_list_to_set in Hin|]. by eapply P3.
      + intros Hn. assert (Hval : s.1 d = rdv s \/ d ∈ pdst <$> phis x).
        { destruct (decide (d ∈ pdst <$> phis x)) as [Hi|Hi]; [by right|]. left. apply P4. intros [H1 H2]. apply Hn. split; [by eapply lk_step|]. cbn. by rewrite app_nil_r. }
        assert (Hvs : rdv s' = rdv s).
        { unfold rdv. destruct v as [z|r] eqn:Er; [done|]. apply N3. intros Hi. apply (Hnew r eq_refl Hi). intros [H1 H2]. apply Hn. split; [done|]. cbn. by rewrite app_nil_r. }
        rewrite Hvs. destruct (decide (d ∈ pdst <$> phis x)) as [Hi|Hi].
        * apply elem_of_list_fmap in Hi as (p & Hpd & Hp). rewrite Hpd at 1. rewrite (N2 p Hp). by apply Hpar.
        * rewrite N3 by done. destruct Hval; done.
    - intros p Hp Hpd. split; [by apply Hpar|]. intros r Hr. by eapply Hapart.
  Qed.

  Lemma execs_sub b x post : bs !! b = Some x -> forall pre s H, irs x = pre ++ post -> pt (Lat b x pre) s H ->
    execs M pinned (sub_ins <$> post) s = execs M pinned post s /\ exists H', pt (Lat b x (irs x)) (execs M pinned post s).2 H'.
  Proof using All.
    intros Hb. induction post as [|i post IH]; intros pre s H Hi P.
    - split; [done|]. rewrite app_nil_r in Hi. rewrite Hi. by exists H.
    - destruct (exec_sub b x pre i post s H Hb Hi P) as [H1 H2]. cbn [fmap list_fmap execs]. rewrite H1. destruct (exec M pinned i s) as [e t]. cbn [snd] in H2.
      destruct (IH (pre ++ [i]) t _ ltac:(by rewrite <- app_assoc) H2) as [H3 [H' H4]]. change (list_fmap _ _ sub_ins post) with (sub_ins <$> post). rewrite H3. destruct (execs M pinned post t) as [e2 t2]. split; [done|]. by exists H'.
  Qed.
  Definition sub_blk (x : blk K J) : blk K J :=
    Blk (sub_phi <$> phis x) (sub_ins <$> irs x) (match exit x with Some (j, l) => Some (j, sub d v <$> l) | None => None end).
  Lemma block_sub a b x s H : bs !! b = Some x -> entry a b s H ->
    let r := execs M pinned (irs x) (enter M pinned (phis x) (index a b) s) in
    execs M pinned (irs (sub_blk x)) (enter M pinned (phis (sub_blk x)) (index a b) s) = r /\ nxt M pinned b (sub_blk x) r.2 = nxt M pinned b x r.2 /\
    (exists H', forall c, E b c -> entry b c r.2 H').
  Proof using All.
    intros Hb He. destruct (enter_sub a b x s H Hb He) as (H1 & H2 & _). cbn [irs phis sub_blk]. rewrite H1.
    destruct (execs_sub b x (irs x) Hb [] _ _ eq_refl H2) as [H3 [H' H4]]. rewrite H3. cbn zeta. split; [done|]. split.
    - unfold nxt. cbn [exit sub_blk]. destruct (exit x) as [[j l]|] eqn:Ex; [|done].
      by rewrite (rds_sub _ _ _ _ H4 (fun Hr => Lat_exit b x j l d Hb Ex Hd Hr)).
    - exists H'. intros c Hc. right. split; [done|]. eapply pt_weak; [|exact H4]. intros u [Hu1 Hu2]. split; [done|]. intros (y & Hy & Hin). rewrite Hb in Hy. by injection Hy as <-.
  Qed.
  Hypothesis Hdyn : dyn M pinned E bs.
  Lemma trace_sub n : forall a b s, rr E b -> (exists H, entry a b s H) -> trace M pinned index n (sub_blk <$> bs) a b s = trace M pinned index n bs a b s.
  Proof using All.
    induction n as [|n IH]; intros a b s Hr [H He]; [done|]. rewrite !trace_S, list_lookup_fmap. destruct (bs !! b) as [x|] eqn:Hb; [|done]. cbn [fmap option_fmap option_map].
    destruct (block_sub a b x s H Hb He) as (H1 & H2 & H' & H3). cbn zeta. rewrite H1. rewrite H2. f_equal.
    set (r := execs M pinned (irs x) _) in *. destruct (bs !! nxt M pinned b x r.2) as [y|] eqn:Hy.
    - pose proof (Hdyn b x r.2 Hr Hb ltac:(by rewrite Hy)) as Hc. apply IH; [by eapply rr_step|]. exists H'. by apply H3.
    - destruct n as [|n]; [done|]. rewrite !trace_S, list_lookup_fmap, Hy. done.
  Qed.

  (** A phi of one value becomes a copy. *)
  Section Phi.
    Context (mov : K) (Hmov : is_copy mov = true).
    Context (b0 : nat) (x0 : blk K J) (ps1 ps2 : list phi) (p0 : phi).
    Hypothesis Hb0 : bs !! b0 = Some x0.
    Hypothesis Hps : phis x0 = ps1 ++ p0 :: ps2.
    Hypothesis Hp0 : pdst p0 = d.
    Definition x0' : blk K J := Blk (ps1 ++ ps2) (Ins mov false (Some d) [v] :: irs x0) (exit x0).
    Lemma enter_one a s s' H : steq s s' -> entry a b0 s H ->
      steq (enter M pinned (phis x0) (index a b0) s) (exec M pinned (Ins mov false (Some d) [v]) (enter M pinned (ps1 ++ ps2) (index a b0) s')).2.
    Proof using All.
      intros Hs He. pose proof (phis_nodup b0 x0 Hb0) as Hn. pose proof Hn as Hn'. rewrite Hps in Hn'. rewrite fmap_app, fmap_cons in Hn'.
      assert (Hperm : (pdst <$> ps1) ++ pdst p0 :: (pdst <$> ps2) ≡ₚ pdst p0 :: (pdst <$> ps1 ++ ps2)) by (rewrite fmap_app; by rewrite Permutation_middle).
      rewrite Hperm in Hn'. apply NoDup_cons in Hn' as [Hn1 Hn2].
      assert (Hf : forall p, p ∈ phis x0 -> pinned (pdst p) = false) by (intros p Hp; by eapply phis_free).
      destruct (Ssa_proof.enter_ok M pinned (phis x0) (index a b0) s Hn Hf) as (N1 & N2 & N3).
      destruct (Ssa_proof.enter_ok M pinned (ps1 ++ ps2) (index a b0) s' Hn2) as (M1 & M2 & M3).
      { intros p Hp. apply Hf. rewrite Hps. apply elem_of_app in Hp as [Hp|Hp]; apply elem_of_app; [by left|right; by right]. }
      assert (Hin0 : p0 ∈ phis x0) by (rewrite Hps; apply elem_of_app; right; by left).
      destruct (enter_sub a b0 x0 s H Hb0 He) as (_ & _ & Hone). destruct (Hone p0 Hin0 Hp0) as [Hval Hnr].
      set (t := enter M pinned (phis x0) (index a b0) s) in *. set (t' := enter M pinned (ps1 ++ ps2) (index a b0) s') in *.
      unfold exec. cbn [op oprs dst fmap list_fmap]. destruct (Hcopy mov Hmov) as [_ Hact]. rewrite Hact. cbn [snd].
      assert (Hvt : rd M pinned v t' = rdv s).
      { rewrite rdv_rd. unfold rdv. destruct v as [z|r] eqn:Er; [done|]. rewrite M3; [by destruct Hs as [-> _]|].
        intros Hi. apply (Hnr r eq_refl). rewrite Hps. rewrite fmap_app in *. apply elem_of_app in Hi as [Hi|Hi]; apply elem_of_app; [by left|right; by right]. }
      rewrite Hvt. unfold wr. rewrite Hd. split; cbn [fst snd]; [|rewrite N1, M1; by destruct Hs].
      intros u. destruct (decide (u = d)) as [->|Hu].
      - rewrite <- Hp0 at 1. by rewrite (N2 p0 Hin0).
      - destruct (decide (u ∈ pdst <$> ps1 ++ ps2)) as [Hi|Hi].
        + apply elem_of_list_fmap in Hi as (p & -> & Hp). rewrite (M2 p Hp).
          rewrite (N2 p). 2:{ rewrite Hps. apply elem_of_app in Hp as [Hp|Hp]; apply elem_of_app; [by left|right; by right]. } by apply rd_ext.
        + rewrite M3 by done. rewrite N3; [by destruct Hs|]. rewrite Hps, fmap_app, fmap_cons. rewrite Hperm. rewrite Hp0. by apply not_elem_of_cons.
    Qed.
    Lemma trace_one n : forall a b s s', rr E b -> steq s s' -> (exists H, entry a b s H) -> trace M pinned index n (<[b0 := x0']> bs) a b s' = trace M pinned index n bs a b s.
    Proof using All.
      induction n as [|n IH]; intros a b s s' Hr Hs [H He]; [done|]. rewrite !trace_S.
      assert (Hl : b0 < length bs) by (by eapply lookup_lt_Some).
      destruct (bs !! b) as [x|] eqn:Hb.
      2:{ destruct (decide (b = b0)) as [->|Hne]; [congruence|]. rewrite list_lookup_insert_ne by done. rewrite Hb. by destruct Hs as [_ ->]. }
      destruct (block_sub a b x s H Hb He) as (_ & _ & H' & H3). cbn zeta in H3 |- *.
      assert (Hex : exists x', <[b0 := x0']> bs !! b = Some x' /\ (forall t, nxt M pinned b x' t = nxt M pinned b x t) /\
        (execs M pinned (irs x') (enter M pinned (phis x') (index a b) s')).1 = (execs M pinned (irs x) (enter M pinned (phis x) (index a b) s)).1 /\
        steq (execs M pinned (irs x) (enter M pinned (phis x) (index a b) s)).2 (execs M pinned (irs x') (enter M pinned (phis x') (index a b) s')).2).
      { destruct (decide (b = b0)) as [->|Hne].
        - rewrite list_lookup_insert by done. exists x0'. assert (x = x0) as -> by congruence. split; [done|]. split; [done|].
          pose proof (enter_one a s s' H Hs He) as Ho. cbn [irs phis x0' execs].
          assert (Hnoev : (exec M pinned (Ins mov false (Some d) [v]) (enter M pinned (ps1 ++ ps2) (index a b0) s')).1 = []).
          { unfold exec. cbn [op]. destruct (Hcopy mov Hmov) as [Hsn _]. rewrite Hsn. by destruct (act _ _ _ _). }
          destruct (exec M pinned _ _) as [e t]. cbn [fst snd] in *. subst e.
          destruct (execs_ext M pinned (irs x0) _ _ Ho) as [E1 E2]. destruct (execs M pinned (irs x0) t) as [e2 t2]. cbn [fst snd app] in *. done.
        - rewrite list_lookup_insert_ne by done. exists x. split; [done|]. split; [done|].
          destruct (execs_ext M pinned (irs x) _ _ (enter_ext M pinned (phis x) (index a b) s s' Hs)) as [E1 E2]. done. }
      destruct Hex as (x' & -> & Hx1 & Hx2 & Hx3). rewrite Hx2. f_equal. rewrite Hx1. rewrite <- (nxt_ext M pinned b x _ _ Hx3).
      set (r := execs M pinned (irs x) _) in *. destruct (bs !! nxt M pinned b x r.2) as [y|] eqn:Hy.
      - pose proof (Hdyn b x r.2 Hr Hb ltac:(by rewrite Hy)) as Hc. apply IH; [by eapply rr_step|done|]. exists H'. by apply H3.
      - destruct n as [|n]; [done|]. rewrite !trace_S, Hy. rewrite list_lookup_insert_ne by congruence. rewrite Hy. by destruct Hx3 as [_ ->].
    Qed.
  End Phi.
End Copy.
