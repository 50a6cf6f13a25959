From stdpp Require Import base list numbers sorting.
From Verif Require Back.Blocks_model Back.Ir_spec.
From Verif Require Import Back.Flow_model Back.Flow_spec Back.Flow_proof Back.Flow_live_proof Back.Labels_model Back.Labels_spec.
Open Scope nat_scope.

Fixpoint cnt (x : nat) (l : list nat) : nat := match l with [] => 0 | y :: l => (if decide (y = x) then 1 else 0) + cnt x l end.
Lemma cnt_app x l1 l2 : cnt x (l1 ++ l2) = cnt x l1 + cnt x l2.
Proof. induction l1 as [|y l1 IH]; cbn; [done|]. rewrite IH. lia. Qed.
Lemma cnt_len x l : cnt x l <= length l.
Proof. induction l as [|y l IH]; cbn; [done|]. destruct (decide (y = x)); lia. Qed.
Lemma cnt_in x l : x ∈ l -> 0 < cnt x l.
Proof. induction 1 as [|x y l _ IH]; cbn; destruct (decide _); try done; lia. Qed.
Definition times (a : nat) (from : list (list nat)) (b : nat) : nat := match from !! b with Some f => cnt a f | None => 0 end.

Lemma push_times i ss a b : forall from, b < length from ->
  times a (foldl (fun (from : list (list nat)) s => alter (fun l => l ++ [i]) s from) from ss) b = times a from b + if decide (a = i) then cnt b ss else 0.
Proof.
  induction ss as [|s ss IH]; intros from Hb; cbn [foldl cnt]; [destruct (decide (a = i)); lia|].
  rewrite IH by (by rewrite alter_length). unfold times. destruct (decide (s = b)) as [->|Hs].
  - rewrite list_lookup_alter. destruct (lookup_lt_is_Some_2 from b Hb) as [f ->]. cbn. rewrite cnt_app. cbn. destruct (decide (i = a)), (decide (a = i)); subst; try done; lia.
  - rewrite list_lookup_alter_ne by done. destruct (decide (a = i)); lia.
Qed.
Lemma push_length i ss : forall from, length (foldl (fun (from : list (list nat)) s => alter (fun l => l ++ [i]) s from) from ss) = length from.
Proof. induction ss as [|s ss IH]; intros from; cbn [foldl]; [done|]. rewrite IH. by rewrite alter_length. Qed.

Definition counted (bbs : list bb) (checked : list nat) (from : list (list nat)) : Prop := length from = length bbs /\
  forall a b x, bbs !! a = Some x -> b < length bbs -> (a ∉ checked -> times a from b = 0) /\ (times a from b = 0 \/ times a from b = cnt b (succs bbs a x)).
Lemma detect_counted bbs fuel : forall un checked from from', counted bbs checked from -> detect fuel bbs un checked from = Some from' -> exists checked', counted bbs checked' from'.
Proof.
  induction fuel as [|fuel IH]; intros un checked from from' H E; destruct un as [|i un]; cbn [detect] in E; try done; try (injection E as <-; by exists checked).
  case_decide as Hi; [by eapply IH|]. destruct (bbs !! i) as [x|] eqn:Ei; [|done]. cbn [mbind option_bind] in E. eapply IH; [|exact E]. destruct H as [Hl H]. split; [by rewrite push_length|].
  intros a b y Ea Hb. destruct (H a b y Ea Hb) as [H1 H2]. rewrite push_times by lia. destruct (decide (a = i)) as [->|Hai].
  - rewrite Ei in Ea. injection Ea as <-. split; [intros Hn; exfalso; apply Hn; by left|]. right. rewrite H1 by done. done.
  - rewrite Nat.add_0_r. split; [|done]. intros Hn. apply H1. intros Hc. apply Hn. by right.
Qed.
Lemma detect_times bbs from a b x f : detect_from_bbs bbs = Some from -> bbs !! a = Some x -> from !! b = Some f -> a ∈ f -> b < length bbs -> cnt a f = cnt b (succs bbs a x).
Proof.
  unfold detect_from_bbs. intros E Ea Ef Hin Hb. destruct (Nat.eqb_spec (length bbs) 0); [lia|]. apply detect_counted in E as (checked & _ & H).
  - destruct (H a b x Ea Hb) as [_ H2]. unfold times in H2. rewrite Ef in H2. apply cnt_in in Hin. lia.
  - split; [by rewrite replicate_length|]. intros a' b' x' _ Hb'. unfold times. rewrite lookup_replicate_2 by done. cbn. split; [done|by left].
Qed.

Lemma named_edge bbs a x t : wf bbs -> bbs !! a = Some x -> t ∈ named x -> edge bbs a t.
Proof.
  intros Hw Ha Ht. exists x. split; [done|]. specialize (Hw a x Ha). unfold named in Ht. destruct (last x); [by apply elem_of_nil in Ht|apply elem_of_list_singleton in Ht as ->; by split|apply elem_of_list_singleton in Ht as ->|].
  - split; [done|]. by left.
  - split; [by apply Hw|done].
Qed.
Lemma named_emitted bbs from a x t : wf bbs -> detect_from_bbs bbs = Some from -> reach bbs a -> bbs !! a = Some x -> t ∈ named x -> t <> 0 -> last x <> Jump (S a) -> t ∈ emitted bbs from.
Proof.
  intros Hw Hf Hr Ha Ht H0 Hj. pose proof (named_edge bbs a x t Hw Ha Ht) as He. destruct (predecessors_ok bbs Hw) as (from' & E & Hl & Hp). rewrite Hf in E. injection E as <-.
  destruct (proj2 (Hp a t) (conj Hr He)) as (f & Ef & Hin). assert (t < length bbs) as Hlt by (destruct He as (? & _ & ? & _); done).
  unfold emitted. apply elem_of_list_filter. split; [|apply elem_of_list_In, in_seq; lia]. destruct t as [|p]; [done|]. cbn [is_fall_path_only]. rewrite Ef. destruct f as [|f0 [|f1 f]]; [done| |done].
  apply elem_of_list_singleton in Hin as <-. destruct (decide (a = p)) as [<-|Hne]; [|by rewrite bool_decide_false].
  rewrite bool_decide_true by done. rewrite Ha. cbn [andb]. destruct x as [irs la]. unfold named in Ht. cbn [last] in *. destruct la as [|t|t|ts]; [by apply elem_of_nil in Ht|apply elem_of_list_singleton in Ht as <-; done| |done].
  apply elem_of_list_singleton in Ht as <-. exfalso. assert (cnt a [a] = cnt (S a) (succs bbs a (BB irs (CJump (S a))))) as Hc by (eapply detect_times; [done|done|done|by left|done]).
  unfold succs, next in Hc. cbn [last] in Hc. rewrite (proj2 (Nat.ltb_lt (S a) (length bbs)) Hlt) in Hc. cbn in Hc. by rewrite !decide_True in Hc.
Qed.
Lemma labels_ok bbs : wf bbs -> first_free bbs -> no_jump_on bbs -> dead_silent bbs -> exists ls, labels bbs = Some ls /\ NoDup ls /\ forall a x t, bbs !! a = Some x -> t ∈ named x -> t ∈ ls.
Proof.
  intros Hw H0 Hj Hd. destruct (predecessors_ok bbs Hw) as (from & E & _). exists (emitted bbs from). unfold labels. rewrite E. split; [done|]. split.
  - apply NoDup_filter, NoDup_ListNoDup, seq_NoDup.
  - intros a x t Ha Ht. destruct (Hd a x Ha) as [Hr|Hn]; [|rewrite Hn in Ht; by apply elem_of_nil in Ht]. eapply named_emitted; try done.
    + intros ->. by apply (H0 a x Ha).
    + by apply Hj.
Qed.
Lemma dead_ok bs : bs = [Blocks_model.BB 0 [] (Blocks_model.EJmp 1 0 3);
   Blocks_model.BB 1 [10; 11] (Blocks_model.EJmp (Ir_spec.cond_code Ir_spec.CNe false false) 0 4);
   Blocks_model.BB 2 [12] (Blocks_model.EJmp (Ir_spec.cond_code Ir_spec.CNe false false) 0 1);
   Blocks_model.BB 3 [13] Blocks_model.EFall;
   Blocks_model.BB 4 [14] Blocks_model.EFall] -> exists (bs : list (Blocks_model.bb nat nat)) bbs ls, finish bs = Some (bbs, ls) /\ wf bbs /\ first_free bbs /\
  exists a x t, bbs !! a = Some x /\ t ∈ named x /\ t ∉ ls.
Proof.
  intros E. exists bs, [BB [] (Jump 3); BB [] (CJump 4); BB [] (CJump 1); BB [] Falls; BB [] Falls], [1; 2; 3]. split; [subst bs; vm_compute; reflexivity|]. clear E. split; [|split].
  - intros a x Hx. repeat (destruct a as [|a]; [injection Hx as <-; cbn; try done; lia|]). done.
  - intros a x Hx. repeat (destruct a as [|a]; [injection Hx as <-; match goal with |- ?P => refine (bool_decide_eq_true_1 P _) end; by vm_compute|]). done.
  - exists 1. eexists _, 4. split; [reflexivity|]. split; [by left|]. match goal with |- ?P => refine (bool_decide_eq_true_1 P _) end. by vm_compute.
Qed.
Lemma stale_ok bs : bs = [Blocks_model.BB 0 [10] (Blocks_model.EJmp 1 0 2);
   Blocks_model.BB 1 [11] (Blocks_model.EJmp 1 0 3);
   Blocks_model.BB 2 [] (Blocks_model.EJmp 1 0 1);
   Blocks_model.BB 3 [12] Blocks_model.EFall] -> exists (bs : list (Blocks_model.bb nat nat)) bbs ls, (forall a, a < length (flow bs) -> reach (flow bs) a) /\
  finish bs = Some (bbs, ls) /\ wf bbs /\ first_free bbs /\ exists a x t, bbs !! a = Some x /\ t ∈ named x /\ t ∉ ls.
Proof.
  intros E. exists bs, [BB [] (Jump 1); BB [] (Jump 3); BB [] (Jump 1); BB [] Falls], [2; 3]. split; [|split; [subst bs; vm_compute; reflexivity|split; [|split]]].
  - assert (flow bs = [BB [] (Jump 2); BB [] (Jump 3); BB [] (Jump 1); BB [] Falls]) as -> by (subst bs; by vm_compute).
    set (L := [_; _; _; _]). assert (reach L 0) as H0 by (apply reach_0; cbn; lia).
    assert (reach L 2) as H2. { apply (reach_step _ 0 2 H0). eexists. split; [reflexivity|]. cbn. split; [lia|done]. }
    assert (reach L 1) as H1. { apply (reach_step _ 2 1 H2). eexists. split; [reflexivity|]. cbn. split; [lia|done]. }
    assert (reach L 3) as H3. { apply (reach_step _ 1 3 H1). eexists. split; [reflexivity|]. cbn. split; [lia|done]. }
    intros a Ha. cbn in Ha. destruct a as [|[|[|[|a]]]]; try done. lia.
  - intros a x Hx. repeat (destruct a as [|a]; [injection Hx as <-; cbn; try done; lia|]). done.
  - intros a x Hx. repeat (destruct a as [|a]; [injection Hx as <-; match goal with |- ?P => refine (bool_decide_eq_true_1 P _) end; by vm_compute|]). done.
  - exists 0. eexists _, 1. split; [reflexivity|]. split; [by left|]. match goal with |- ?P => refine (bool_decide_eq_true_1 P _) end. by vm_compute.
Qed.
Lemma loop_ok L : L = [BB [] Falls; BB [] (Table [2; 3; 2]); BB [] (Jump 4); BB [] Falls; BB [] (CJump 1); BB [] Falls] ->
  wf L /\ first_free L /\ no_jump_on L /\ dead_silent L /\ labels L = Some [1; 2; 3; 4].
Proof.
  intros E. split; [|split; [|split; [|split; [|subst L; by vm_compute]]]].
  - subst L. intros a x Hx. repeat (destruct a as [|a]; [injection Hx as <-; cbn; try done; try lia|]); [|done]. intros t Ht. repeat (apply elem_of_cons in Ht as [->|Ht]; [lia|]). by apply elem_of_nil in Ht.
  - subst L. intros a x Hx. repeat (destruct a as [|a]; [injection Hx as <-; match goal with |- ?P => refine (bool_decide_eq_true_1 P _) end; by vm_compute|]). done.
  - subst L. intros a x Hx. repeat (destruct a as [|a]; [by injection Hx as <-|]). done.
  - intros a x Hx. left. assert (reach L 0) as H0 by (apply reach_0; subst L; cbn; lia).
    assert (reach L 1) as H1. { apply (reach_step _ 0 1 H0). subst L. eexists. split; [reflexivity|]. cbn. split; [lia|done]. }
    assert (reach L 2) as H2. { apply (reach_step _ 1 2 H1). subst L. eexists. split; [reflexivity|]. cbn. split; [lia|]. by left. }
    assert (reach L 3) as H3. { apply (reach_step _ 1 3 H1). subst L. eexists. split; [reflexivity|]. cbn. split; [lia|]. right. by left. }
    assert (reach L 4) as H4. { apply (reach_step _ 3 4 H3). subst L. eexists. split; [reflexivity|]. cbn. split; [lia|done]. }
    assert (reach L 5) as H5. { apply (reach_step _ 4 5 H4). subst L. eexists. split; [reflexivity|]. cbn. split; [lia|]. by right. }
    apply lookup_lt_Some in Hx. rewrite E in Hx. cbn in Hx. destruct a as [|[|[|[|[|[|a]]]]]]; try done. lia.
Qed.
