From stdpp Require Import base list numbers gmap.
From Coq Require Import Lia.
From Verif Require Import Ld.Sym_model Ld.Sym_spec Ld.Sym_proof.
Local Open Scope Z_scope.

Definition asc (_ : nat) (s : gset name) : list name := elements s.
Lemma asc_ok : order_ok asc.
Proof. intros k s. done. Qed.

Definition def (k : nat) (v : Z) : sym := Sym false (Sec k) v 8.
Definition wdef (k : nat) (v : Z) : sym := Sym true (Sec k) v 8.
Definition und : sym := Sym false Undef 0 0.
Definition wund : sym := Sym true Undef 0 0.
Definition com (v size : Z) : sym := Sym false Common v size.

Definition is_done (r : res) : bool := match r with Done _ => true | _ => false end.
Definition the (r : res) : lstate := match r with Done x => x | _ => L (State ∅ ∅ 0) [] 0 end.
Lemma the_done r : is_done r = true -> r = Done (the r).
Proof. destruct r; done. Qed.
Ltac bd := match goal with |- ?P => refine (bool_decide_eq_true_1 P _) end; vm_compute; reflexivity.

Ltac nodup := repeat (apply stdpp.list.NoDup_cons; split; [set_solver|]); apply NoDup_nil_2.
Ltac poolok := repeat (apply stdpp.list.Forall_cons; split; [cbn; nodup|]); apply stdpp.list.Forall_nil; done.

(** A weak reference to nothing. *)
Lemma weak_undefined : exists pool fs order x,
  pool_ok pool /\ files_ok pool fs /\ order_ok order /\ link pool ∅ order 1 1%positive fs = Done x /\ errors (tables x) = 0%nat /\ ~ accepted x /\
  forall n id o s, n ∈ unresolved (tables x) -> id ∈ loaded x -> pool !! id = Some o -> (n, s) ∈ o_syms o -> s_weak s = true.
Proof.
  exists [Obj [(1%positive, def 1 0); (2%positive, wund)] None], [FObj 0], asc, (the (link [Obj [(1%positive, def 1 0); (2%positive, wund)] None] ∅ asc 1 1%positive [FObj 0])).
  split; [poolok|]. split.
  { split; [|repeat constructor; eexists; done]. intros i j f g id Hi Hj _ _.
    apply lookup_lt_Some in Hi, Hj. cbn in *. lia. }
  split; [apply asc_ok|]. split; [apply the_done; vm_compute; reflexivity|]. split; [done|]. split.
  - intros [_ H]. apply (f_equal (fun s => bool_decide (2%positive ∈ s))) in H. vm_compute in H. done.
  - intros n id o s Hn Hid Ho Hs. change (id ∈ [0%nat]) in Hid. apply elem_of_list_singleton in Hid. subst id. injection Ho as <-.
    cbn [o_syms] in Hs. apply elem_of_cons in Hs as [[= -> ->]|Hs].
    + exfalso. apply (bool_decide_eq_true_2 _) in Hn. vm_compute in Hn. done.
    + apply elem_of_list_singleton in Hs as [= -> ->]. done.
Qed.

(** The first of two common symbols is taken, not the larger one. *)
Lemma common_size : exists pool fs order x id n s j t,
  pool_ok pool /\ files_ok pool fs /\ order_ok order /\ link pool ∅ order 1 1%positive fs = Done x /\ accepted x /\
  defined (tables x) !! n = Some id /\ obj_sym pool id n = Some s /\ s_shndx s = Common /\
  j ∈ loaded x /\ obj_sym pool j n = Some t /\ s_shndx t = Common /\ s_size s < s_size t.
Proof.
  exists [Obj [(1%positive, def 1 0); (2%positive, com 0 4)] (Some 2%nat); Obj [(2%positive, com 0 400)] (Some 1%nat)], [FObj 0; FObj 1], asc,
    (the (link [Obj [(1%positive, def 1 0); (2%positive, com 0 4)] (Some 2%nat); Obj [(2%positive, com 0 400)] (Some 1%nat)] ∅ asc 1 1%positive [FObj 0; FObj 1])).
  exists 0%nat, 2%positive, (com 0 4), 1%nat, (com 0 400).
  split; [poolok|]. split.
  { split; [|repeat constructor; eexists; done]. intros i j f g id Hi Hj Hf Hg.
    destruct i as [|[|i]]; [..|done]; destruct j as [|[|j]]; try done; injection Hi as <-; injection Hj as <-; cbn in *; congruence. }
  split; [apply asc_ok|]. split; [apply the_done; vm_compute; reflexivity|]. split; [split; [done|bd]|].
  do 3 (split; [vm_compute; reflexivity|]). split; [cbn; set_solver|].
  do 2 (split; [vm_compute; reflexivity|]). done.
Qed.

(** The value of a common symbol is its alignment (gABI), not an offset: two of them get one address. *)
Lemma common_address : exists pool fs order x addr gaddr m n s t a,
  pool_ok pool /\ files_ok pool fs /\ order_ok order /\ link pool ∅ order 1 1%positive fs = Done x /\ accepted x /\ m <> n /\
  obj_sym pool 0 m = Some s /\ s_shndx s = Common /\ 0 < s_size s /\
  obj_sym pool 0 n = Some t /\ s_shndx t = Common /\ 0 < s_size t /\
  symbol_address pool gaddr addr x m = Some (Some a) /\ symbol_address pool gaddr addr x n = Some (Some a).
Proof.
  exists [Obj [(1%positive, def 1 0); (2%positive, com 8 8); (3%positive, com 8 8)] (Some 2%nat)], [FObj 0], asc,
    (the (link [Obj [(1%positive, def 1 0); (2%positive, com 8 8); (3%positive, com 8 8)] (Some 2%nat)] ∅ asc 1 1%positive [FObj 0])).
  exists (fun _ k => 4096 * Z.of_nat k), ∅, 2%positive, 3%positive, (com 8 8), (com 8 8), 8200.
  split; [poolok|]. split.
  { split; [|repeat constructor; eexists; done]. intros i j f g id Hi Hj _ _.
    apply lookup_lt_Some in Hi, Hj. cbn in *. lia. }
  split; [apply asc_ok|]. split; [apply the_done; vm_compute; reflexivity|]. split; [split; [done|bd]|].
  split; [done|]. repeat split; vm_compute; reflexivity.
Qed.

(** A section symbol stands for the section whose number is the symbol's, not the one it names. *)
Lemma section_symbol : exists pool gaddr addr x id idx n s k,
  s_shndx s = Sec k /\ addr id k <> addr id idx /\
  rela_sym_address pool gaddr addr x id idx BLocal true n s 0 <> Some (addr id k).
Proof.
  exists [], ∅, (fun _ k => 4096 * Z.of_nat k), (L (State ∅ ∅ 0) [] 0), 0%nat, 3%nat, 1%positive, (def 1 0), 1%nat.
  split; [done|]. split; vm_compute; done.
Qed.

(** An archive whose index names a member that does not define the symbol. *)
Definition stale : list obj := [Obj [(1%positive, def 1 0); (2%positive, und)] None; Obj [(3%positive, def 1 0)] None].
Definition stale_ar : gmap name nat := {[2%positive := 1%nat]}.
Lemma stale_loop fuel x : unresolved (tables x) = {[2%positive]} ->
  (defined (tables x) !! 3%positive = None \/ defined (tables x) !! 3%positive = Some 1%nat) ->
  resolve_archive stale ∅ asc stale_ar fuel x = Fuel.
Proof.
  revert x. induction fuel as [|fuel IH]; intros x Hu Hd; [done|]. cbn [resolve_archive]. rewrite Hu. unfold asc at 1.
  rewrite elements_singleton. change (first_in stale_ar [2%positive]) with (Some 1%nat).
  unfold resolve_obj. change (stale !! 1%nat) with (Some (Obj [(3%positive, def 1 0)] None)). cbn [o_syms resolve_syms].
  unfold resolve_sym. destruct Hd as [Hd|Hd]; rewrite Hd.
  - rewrite (bool_decide_eq_false_2 (is_Some None)) by (intros [? ?]; done).
    rewrite (bool_decide_eq_false_2 (3%positive ∈ ∅)) by set_solver. cbn [orb is_undef def s_shndx].
    apply IH; cbn [tables unresolved defined]; [rewrite Hu; set_solver|]. right. apply lookup_insert.
  - rewrite (bool_decide_eq_true_2 (is_Some (Some 1%nat))) by done. cbn [orb is_undef def s_shndx gives_way s_weak].
    apply IH; cbn [tables unresolved defined]; [done|]. right. done.
Qed.
Lemma stale_index : exists pool fs order, pool_ok pool /\ order_ok order /\
  (forall f, f ∈ fs -> match f with FObj i => is_Some (pool !! i) | FAr ar => forall n m, ar !! n = Some m -> is_Some (pool !! m) end) /\
  forall fuel, link pool ∅ order fuel 1%positive fs = Fuel.
Proof.
  exists stale, [FObj 0; FAr stale_ar], asc. split; [poolok|]. split; [apply asc_ok|]. split.
  - intros f Hf. apply elem_of_cons in Hf as [->|Hf]; [eexists; done|]. apply elem_of_list_singleton in Hf as ->.
    intros n m H. unfold stale_ar in H. apply lookup_singleton_Some in H as [_ <-]. eexists. done.
  - intros fuel. unfold link. cbn [resolve_files].
    destruct (resolve_obj stale ∅ 0 (tables (L (State ∅ {[1%positive]} 0) [] 0))) as [st|] eqn:E; [|vm_compute in E; done].
    assert (unresolved st = {[2%positive]} /\ defined st !! 3%positive = None) as [H1 H2].
    { assert (bool_decide (unresolved <$> resolve_obj stale ∅ 0 (tables (L (State ∅ {[1%positive]} 0) [] 0)) = Some {[2%positive]}) = true) as H by (vm_compute; reflexivity).
      apply bool_decide_eq_true in H. rewrite E in H. injection H as H. split; [done|].
      assert ((fun st => defined st !! 3%positive) <$> resolve_obj stale ∅ 0 (tables (L (State ∅ {[1%positive]} 0) [] 0)) = Some None) as H' by (vm_compute; reflexivity).
      rewrite E in H'. injection H' as H'. done. }
    rewrite stale_loop; [done|done|left; done].
Qed.

(** An example: the program needs 2, the archive's member 1 defines it and needs 3, which member 2
    defines; member 3 is not needed.  5 is defined weakly first and then for good. *)
Definition ex_pool : list obj :=
  [Obj [(1%positive, def 1 0); (2%positive, und); (5%positive, wdef 1 16); (9%positive, und)] None;
   Obj [(2%positive, def 1 0); (3%positive, und); (5%positive, def 2 4)] None;
   Obj [(3%positive, def 1 8)] None;
   Obj [(4%positive, def 1 0)] None].
Definition ex_ar : gmap name nat := {[2%positive := 1%nat; 3%positive := 2%nat; 4%positive := 3%nat; 5%positive := 1%nat]}.
Definition ex_fs : list file := [FObj 0; FAr ex_ar].
Definition ex_gen : gset name := {[9%positive]}.
Definition ex_x : lstate := the (link ex_pool ex_gen asc 5 1%positive ex_fs).
Lemma ex_ok : pool_ok ex_pool /\ files_ok ex_pool ex_fs /\ enough ex_fs 5 /\ link ex_pool ex_gen asc 5 1%positive ex_fs = Done ex_x.
Proof.
  split; [poolok|]. assert (forall n m, ex_ar !! n = Some m -> (n, m) ∈ [(2%positive, 1%nat); (3%positive, 2%nat); (4%positive, 3%nat); (5%positive, 1%nat)]) as Har.
  { intros n m H. unfold ex_ar in H. apply elem_of_list_to_map_2. done. }
  split; [|split].
  - split.
    + intros i j f g id Hi Hj Hf Hg.
      destruct i as [|[|i]]; [..|done]; destruct j as [|[|j]]; try done; injection Hi as <-; injection Hj as <-; cbn [ids] in *.
      * subst id. destruct Hg as [n Hn]. apply Har in Hn. set_solver.
      * subst id. destruct Hf as [n Hn]. apply Har in Hn. set_solver.
    + apply stdpp.list.Forall_cons. split; [eexists; done|]. apply stdpp.list.Forall_cons. split; [|apply stdpp.list.Forall_nil; done].
      intros n m H. apply Har in H.
      repeat (apply elem_of_cons in H as [[= -> ->]|H]; [eexists _, (def _ _); split; [reflexivity|]; split; [cbn [o_syms]; repeat (left || right)|done]|]).
      inversion H.
  - apply stdpp.list.Forall_cons. split; [done|]. apply stdpp.list.Forall_cons. split; [|apply stdpp.list.Forall_nil; done]. vm_compute. lia.
  - apply the_done. vm_compute. reflexivity.
Qed.

Lemma ex_facts : pool_ok ex_pool /\ files_ok ex_pool ex_fs /\ enough ex_fs 5 /\ link ex_pool ex_gen asc 5 1%positive ex_fs = Done ex_x /\
  loaded ex_x = [0; 1; 2]%nat /\ accepted ex_x /\ defined (tables ex_x) !! 5%positive = Some 1%nat.
Proof.
  destruct ex_ok as (H1 & H2 & H3 & H4). split; [done|]. split; [done|]. split; [done|]. split; [done|].
  split; [vm_compute; reflexivity|]. split; [split; [vm_compute; reflexivity|bd]|]. vm_compute. reflexivity.
Qed.
Lemma ex_pulled : loaded ex_x = [0; 1; 2]%nat /\ pulled_for ex_pool ex_gen 1%positive [0; 1]%nat ex_ar 2.
Proof.
  split; [vm_compute; reflexivity|]. exists 3%positive. split; [vm_compute; reflexivity|]. split; [|split].
  - right. exists 1%nat. split; [set_solver|]. eexists _, _. split; [done|]. split; [cbn [o_syms]; right; left|done].
  - bd.
  - intros id Hid (o & s & Ho & Hs & Hu). apply elem_of_cons in Hid as [->|Hid]; [|apply elem_of_list_singleton in Hid as ->].
    + injection Ho as <-. cbn [o_syms] in Hs. set_solver.
    + injection Ho as <-. cbn [o_syms] in Hs. repeat (apply elem_of_cons in Hs as [[= E]|Hs]); subst; try done. inversion Hs.
Qed.

Lemma errors_iff pool gen order fuel entry fs x :
  pool_ok pool -> entry ∉ gen -> order_ok order -> files_ok pool fs -> enough fs fuel ->
  link pool gen order fuel entry fs = Done x ->
  errors (tables x) = 0%nat <-> no_clash pool gen (loaded x).
Proof.
  intros Hp He Ho Hf Hfu Hl. destruct (link_ok pool gen order fuel entry fs Hp He Ho Hf Hfu) as (x' & E & HI & HN & _).
  rewrite Hl in E. injection E as <-. apply (inv_no_clash pool gen Hp entry); done.
Qed.
Lemma unresolved_iff pool gen order fuel entry fs x n :
  pool_ok pool -> entry ∉ gen -> order_ok order -> files_ok pool fs -> enough fs fuel ->
  link pool gen order fuel entry fs = Done x ->
  n ∈ unresolved (tables x) <-> missing pool gen entry (loaded x) n.
Proof.
  intros Hp He Ho Hf Hfu Hl. destruct (link_ok pool gen order fuel entry fs Hp He Ho Hf Hfu) as (x' & E & HI & HN & _).
  rewrite Hl in E. injection E as <-. rewrite (inv_un _ _ _ _ _ HI). apply miss_missing. done.
Qed.
Lemma gathers_ok pool gen order fuel entry fs :
  pool_ok pool -> entry ∉ gen -> order_ok order -> files_ok pool fs -> enough fs fuel ->
  exists x, link pool gen order fuel entry fs = Done x /\ NoDup (loaded x) /\ gathers pool gen entry [] fs (loaded x).
Proof.
  intros Hp He Ho Hf Hfu. destruct (link_ok pool gen order fuel entry fs Hp He Ho Hf Hfu) as (x' & E & HI & HN & HG).
  exists x'. done.
Qed.
Lemma order_independent pool gen order order' fuel fuel' entry fs fs' x x' n s i j :
  pool_ok pool -> entry ∉ gen -> order_ok order -> order_ok order' ->
  files_ok pool fs -> files_ok pool fs' -> enough fs fuel -> enough fs' fuel' ->
  link pool gen order fuel entry fs = Done x -> link pool gen order' fuel' entry fs' = Done x' -> accepted x ->
  (forall k, k ∈ loaded x <-> k ∈ loaded x') ->
  s ∈ loaded x -> strong pool s n ->
  defined (tables x) !! n = Some i -> defined (tables x') !! n = Some j -> i = s /\ j = s.
Proof.
  intros Hp He Ho Ho' Hf Hf' Hfu Hfu' Hl Hl' [Ha _] Hll Hs Hss Hi Hj.
  destruct (link_ok pool gen order fuel entry fs Hp He Ho Hf Hfu) as (y & E & HI & HN & _). rewrite Hl in E. injection E as <-.
  destruct (link_ok pool gen order' fuel' entry fs' Hp He Ho' Hf' Hfu') as (y & E & HI' & HN' & _). rewrite Hl' in E. injection E as <-.
  rewrite (inv_def _ _ _ _ _ HI) in Hi. rewrite (inv_def _ _ _ _ _ HI') in Hj. case_bool_decide; [done|].
  apply (binds_unique pool gen (loaded x) (loaded x') n i j s); try done.
  - apply (inv_no_clash pool gen Hp entry _ _ HN HI). done.
  - apply pick_binds; done.
  - apply pick_binds; done.
Qed.
