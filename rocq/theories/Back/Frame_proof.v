(** Places of arguments and parameters. *)
From stdpp Require Import base numbers list sets.
From Coq Require Import Lia.
From Verif Require Import Back.Frame_model Back.Frame_spec.
Open Scope Z_scope.

Lemma land_neg x k : 0 <= k -> Z.land x (- 2 ^ k) = x - x mod 2 ^ k.
Proof.
  intros Hk. replace (- 2 ^ k) with (Z.lnot (Z.ones k)) by (rewrite Z.ones_equiv; unfold Z.lnot; lia).
  change (Z.land x (Z.lnot (Z.ones k))) with (Z.land x (Z.lnot (Z.ones k))).
  rewrite <- Z.ldiff_land. rewrite Z.ldiff_ones_r by lia.
  rewrite Z.shiftl_mul_pow2, Z.shiftr_div_pow2 by lia.
  pose proof (Z.div_mod x (2 ^ k) ltac:(lia)). lia.
Qed.
Lemma pow2_pos a : pow2 a -> 0 < a.
Proof. intros (k & Hk & ->). lia. Qed.
Lemma align_up_eq x a : pow2 a -> align_up x a = x + a - 1 - (x + a - 1) mod a.
Proof. intros (k & Hk & ->). unfold align_up. by rewrite land_neg. Qed.
Lemma align_up_ok x a : pow2 a -> x <= align_up x a < x + a /\ align_up x a mod a = 0.
Proof.
  intros Ha. rewrite align_up_eq by done. pose proof (pow2_pos a Ha).
  pose proof (Z.mod_pos_bound (x + a - 1) a ltac:(lia)).
  pose proof (Z.div_mod (x + a - 1) a ltac:(lia)) as E. split; [lia|].
  replace (x + a - 1 - (x + a - 1) mod a) with ((x + a - 1) / a * a) by lia. apply Z.mod_mul. lia.
Qed.
Lemma align_up_id x a : pow2 a -> x mod a = 0 -> align_up x a = x.
Proof.
  intros Ha Hx. pose proof (pow2_pos a Ha). destruct (align_up_ok x a Ha) as [H1 H2].
  apply Z.mod_divide in Hx as [u ->]; [|lia]. apply Z.mod_divide in H2 as [w Hw]; [|lia].
  rewrite Hw in *. assert (u = w) by nia. by subst.
Qed.
Lemma pow2_align a : a ∈ [1; 2; 4; 8] -> pow2 a /\ exists q, 8 = q * a.
Proof.
  intros H. repeat (apply elem_of_cons in H as [->|H]); [| | | |by apply elem_of_nil in H].
  - split; [by exists 0|by exists 8].
  - split; [by exists 1|by exists 4].
  - split; [by exists 2|by exists 2].
  - split; [by exists 3|by exists 1].
Qed.
Lemma align8 x a : a ∈ [1; 2; 4; 8] -> x mod 8 = 0 -> align_up x a = x.
Proof.
  intros Ha Hx. destruct (pow2_align a Ha) as [Hp (q & Hq)]. apply align_up_id; [done|].
  pose proof (pow2_pos a Hp). apply Z.mod_divide in Hx as [u ->]; [|lia]. rewrite Hq, Z.mul_assoc. apply Z.mod_mul. lia.
Qed.
Lemma round8_eq x : align_up x 8 = round8 x.
Proof.
  rewrite align_up_eq by (by exists 3). unfold round8. replace (x + 8 - 1) with (x + 7) by lia.
  pose proof (Z.div_mod (x + 7) 8 ltac:(lia)). lia.
Qed.
Lemma round8_mod x : round8 x mod 8 = 0.
Proof. apply Z.mod_mul. lia. Qed.
Lemma round8_ge x : x <= round8 x < x + 8.
Proof. unfold round8. pose proof (Z.div_mod (x + 7) 8 ltac:(lia)). pose proof (Z.mod_pos_bound (x + 7) 8 ltac:(lia)). lia. Qed.
Lemma round8_scalar t : type_ok t -> t_struct t = false -> round8 (t_size t) = 8.
Proof.
  intros (_ & _ & H) Hs. destruct (H Hs) as [Hz _].
  repeat (apply elem_of_cons in Hz as [->|Hz]); [done..|by apply elem_of_nil in Hz].
Qed.
Lemma mod8_add x y : x mod 8 = 0 -> y mod 8 = 0 -> (x + y) mod 8 = 0.
Proof. intros. rewrite Zplus_mod, H, H0. done. Qed.

(** The same places with counters that go on. *)
Fixpoint gp (ir fr : nat) (off : Z) (l : list aty) : list place :=
  match l with
  | [] => []
  | t :: r =>
    if t_struct t then OnStack off :: gp ir fr (off + round8 (t_size t)) r
    else if t_flo t then
      if (fr <? 8)%nat then InFreg fr :: gp ir (S fr) off r else OnStack off :: gp ir (S fr) (off + round8 (t_size t)) r
    else if (ir <? 6)%nat then InReg ir :: gp (S ir) fr off r else OnStack off :: gp (S ir) fr (off + round8 (t_size t)) r
  end.
Fixpoint gsize (ir fr : nat) (off : Z) (l : list aty) : Z :=
  match l with
  | [] => off
  | t :: r =>
    if t_struct t then gsize ir fr (off + round8 (t_size t)) r
    else if t_flo t then
      if (fr <? 8)%nat then gsize ir (S fr) off r else gsize ir (S fr) (off + round8 (t_size t)) r
    else if (ir <? 6)%nat then gsize (S ir) fr off r else gsize (S ir) fr (off + round8 (t_size t)) r
  end.

Lemma arg_places_gp l : forall ir fr off, Forall type_ok l -> off mod 8 = 0 ->
  arg_places (Nat.min ir 6) (Nat.min fr 8) off l = (gp ir fr off l, gsize ir fr off l).
Proof.
  induction l as [|t l IH]; intros ir fr off Hl Ho; [done|]. inversion Hl as [|? ? Ht Hl']; subst.
  cbn [arg_places gp gsize]. destruct Ht as (Hz & Ha & Hs).
  rewrite (align8 off _ Ha Ho), round8_eq.
  assert (Hn : (off + round8 (t_size t)) mod 8 = 0) by (apply mod8_add; [done|apply round8_mod]).
  unfold MAX_REG_ARGS, MAX_FREG_ARGS.
  destruct (t_struct t); cbn [orb].
  - by rewrite (IH ir fr _ Hl' Hn).
  - destruct (t_flo t).
    + destruct (8 <=? Nat.min fr 8)%nat eqn:E; [apply Nat.leb_le in E|apply Nat.leb_gt in E].
      * replace (fr <? 8)%nat with false by (symmetry; apply Nat.ltb_ge; lia).
        replace (Nat.min fr 8) with (Nat.min (S fr) 8) by lia. by rewrite (IH ir (S fr) _ Hl' Hn).
      * replace (fr <? 8)%nat with true by (symmetry; apply Nat.ltb_lt; lia).
        replace (S (Nat.min fr 8)) with (Nat.min (S fr) 8) by lia. rewrite (IH ir (S fr) _ Hl' Ho).
        cbn. do 3 f_equal. lia.
    + destruct (6 <=? Nat.min ir 6)%nat eqn:E; [apply Nat.leb_le in E|apply Nat.leb_gt in E].
      * replace (ir <? 6)%nat with false by (symmetry; apply Nat.ltb_ge; lia).
        replace (Nat.min ir 6) with (Nat.min (S ir) 6) by lia. by rewrite (IH (S ir) fr _ Hl' Hn).
      * replace (ir <? 6)%nat with true by (symmetry; apply Nat.ltb_lt; lia).
        replace (S (Nat.min ir 6)) with (Nat.min (S ir) 6) by lia. rewrite (IH (S ir) fr _ Hl' Ho).
        cbn. do 3 f_equal. lia.
Qed.

(** Sending from the last. *)
Fixpoint consec (ir fr : nat) (q : list place) : Prop :=
  match q with
  | [] => True
  | InReg k :: r => k = ir /\ consec (S ir) fr r
  | InFreg k :: r => k = fr /\ consec ir (S fr) r
  | OnStack _ :: r => consec ir fr r
  end.
Lemma send_app start n f q1 : forall a b q2,
  send start n f a b (q1 ++ q2) = send start n f a b q1 ++ send start n f (a + count is_ireg q1) (b + count is_freg q1) q2.
Proof.
  induction q1 as [|p q IH]; intros a b q2; cbn; [by rewrite !Nat.add_0_r|].
  destruct p; cbn; rewrite IH; do 3 f_equal; lia.
Qed.
Lemma count_app {A} (p : A -> bool) l k : count p (l ++ k) = (count p l + count p k)%nat.
Proof. induction l as [|x l IH]; cbn; [done|]. rewrite IH. by destruct (p x). Qed.
Lemma count_rev {A} (p : A -> bool) l : count p (rev l) = count p l.
Proof. induction l as [|x l IH]; cbn; [done|]. rewrite count_app, IH. cbn. destruct (p x); lia. Qed.
Lemma send_rev q : forall start n f ir fr,
  consec ir fr q -> (start <= ir)%nat -> n = (ir - start + count is_ireg q)%nat -> f = (fr + count is_freg q)%nat ->
  send start n f 0 0 (rev q) = rev q.
Proof.
  induction q as [|p q IH]; intros start n f ir fr Hc Hs Hn Hf; [done|].
  cbn [rev]. rewrite send_app, !count_rev, !Nat.add_0_l.
  destruct p as [k|k|o]; cbn in Hc, Hn, Hf |- *.
  - destruct Hc as [-> Hc]. rewrite (IH start n f (S ir) fr Hc) by lia. do 3 f_equal. lia.
  - destruct Hc as [-> Hc]. rewrite (IH start n f ir (S fr) Hc) by lia. do 3 f_equal. lia.
  - by rewrite (IH start n f ir fr Hc).
Qed.
Lemma gp_consec l : forall ir fr off, consec (Nat.min ir 6) (Nat.min fr 8) (gp ir fr off l).
Proof.
  induction l as [|t l IH]; intros ir fr off; cbn [gp]; [done|].
  destruct (t_struct t); [cbn; apply IH|]. destruct (t_flo t).
  - destruct (fr <? 8)%nat eqn:E; [apply Nat.ltb_lt in E|apply Nat.ltb_ge in E]; cbn.
    + split; [lia|]. specialize (IH ir (S fr) off). by replace (S (Nat.min fr 8)) with (Nat.min (S fr) 8) by lia.
    + specialize (IH ir (S fr) (off + round8 (t_size t))). by replace (Nat.min fr 8) with (Nat.min (S fr) 8) by lia.
  - destruct (ir <? 6)%nat eqn:E; [apply Nat.ltb_lt in E|apply Nat.ltb_ge in E]; cbn.
    + split; [lia|]. specialize (IH (S ir) fr off). by replace (S (Nat.min ir 6)) with (Nat.min (S ir) 6) by lia.
    + specialize (IH (S ir) fr (off + round8 (t_size t))). by replace (Nat.min ir 6) with (Nat.min (S ir) 6) by lia.
Qed.

Lemma call_places_gp sret l : Forall type_ok l -> call_places sret l = gp (arg_start sret) 0 0 l.
Proof.
  intros Hl. unfold call_places.
  pose proof (arg_places_gp l (arg_start sret) 0 0 Hl eq_refl) as E.
  replace (Nat.min (arg_start sret) 6) with (arg_start sret) in E by (by destruct sret). cbn [Nat.min] in E. rewrite E. cbn [fst].
  rewrite (send_rev _ _ _ _ (arg_start sret) 0); [apply rev_involutive| |lia|lia|lia].
  pose proof (gp_consec l (arg_start sret) 0 0) as C. replace (Nat.min (arg_start sret) 6) with (arg_start sret) in C by (by destruct sret). done.
Qed.
Lemma stack_args_gsize sret l : Forall type_ok l -> stack_args_size sret l = gsize (arg_start sret) 0 0 l.
Proof.
  intros Hl. unfold stack_args_size.
  pose proof (arg_places_gp l (arg_start sret) 0 0 Hl eq_refl) as E.
  replace (Nat.min (arg_start sret) 6) with (arg_start sret) in E by (by destruct sret). cbn [Nat.min] in E. by rewrite E.
Qed.

(** Against the counting specification. *)
Definition greg (ir fr : nat) (l : list aty) (i : nat) : option place :=
  match l !! i with
  | None => None
  | Some t =>
    if t_struct t then None
    else if t_flo t then if (fr + floats_before l i <? 8)%nat then Some (InFreg (fr + floats_before l i)) else None
    else if (ir + ints_before l i <? 6)%nat then Some (InReg (ir + ints_before l i)) else None
  end.
Definition gwords ir fr l j : Z := match l !! j, greg ir fr l j with Some t, None => round8 (t_size t) | _, _ => 0 end.
Definition goff ir fr l i : Z := foldr Z.add 0 (map (gwords ir fr l) (seq 0 i)).

Definition ni (t : aty) : nat := if negb (t_struct t || t_flo t) then 1 else 0.
Definition nf (t : aty) : nat := if negb (t_struct t) && t_flo t then 1 else 0.
Lemma greg_cons ir fr t l i : greg ir fr (t :: l) (S i) = greg (ir + ni t) (fr + nf t) l i.
Proof.
  unfold greg. cbn [lookup list_lookup]. destruct (l !! i) as [u|]; [|done]. destruct (t_struct u); [done|].
  unfold ni, nf, floats_before, ints_before. cbn [take List.filter].
  destruct (negb (t_struct t) && t_flo t), (negb (t_struct t || t_flo t)); cbn [length];
    rewrite ?Nat.add_0_r, <- ?Nat.add_assoc; done.
Qed.
Lemma goff_cons ir fr t l i : goff ir fr (t :: l) (S i) = gwords ir fr (t :: l) 0 + goff (ir + ni t) (fr + nf t) l i.
Proof.
  unfold goff. cbn [seq map foldr]. f_equal. rewrite <- seq_shift, List.map_map.
  f_equal. apply map_ext. intros j. unfold gwords. rewrite greg_cons. done.
Qed.
Lemma gp_lookup l : forall ir fr off i t, l !! i = Some t ->
  gp ir fr off l !! i = Some (match greg ir fr l i with Some p => p | None => OnStack (off + goff ir fr l i) end).
Proof.
  induction l as [|u l IH]; intros ir fr off i t Hi; [done|]. destruct i as [|i].
  - unfold greg, goff. cbn [gp lookup list_lookup seq map foldr]. unfold floats_before, ints_before. cbn [take List.filter length]. rewrite !Nat.add_0_r, Z.add_0_r.
    destruct (t_struct u); [done|]. destruct (t_flo u); [by destruct (fr <? 8)%nat|by destruct (ir <? 6)%nat].
  - cbn in Hi. rewrite greg_cons, goff_cons.
    assert (Hw : gwords ir fr (u :: l) 0 = match greg ir fr (u :: l) 0 with None => round8 (t_size u) | _ => 0 end)
      by done.
    rewrite Hw. unfold greg at 2. cbn [lookup list_lookup]. unfold floats_before, ints_before. cbn [take List.filter length].
    rewrite !Nat.add_0_r. cbn [gp]. unfold ni, nf.
    destruct (t_struct u); cbn [negb orb andb].
    + cbn [lookup list_lookup]. rewrite (IH _ _ _ _ _ Hi), !Nat.add_0_r, Z.add_assoc. reflexivity.
    + destruct (t_flo u); cbn [negb].
      * rewrite Nat.add_0_r, Nat.add_1_r. destruct (fr <? 8)%nat; cbn [lookup list_lookup];
          rewrite (IH _ _ _ _ _ Hi), ?Z.add_0_l, ?Z.add_assoc; reflexivity.
      * rewrite Nat.add_0_r, Nat.add_1_r. destruct (ir <? 6)%nat; cbn [lookup list_lookup];
          rewrite (IH _ _ _ _ _ Hi), ?Z.add_0_l, ?Z.add_assoc; reflexivity.
Qed.
Lemma gp_length l : forall ir fr off, length (gp ir fr off l) = length l.
Proof.
  induction l as [|u l IH]; intros ir fr off; cbn [gp length]; [done|].
  destruct (t_struct u); [cbn; by rewrite IH|]. destruct (t_flo u); [destruct (fr <? 8)%nat|destruct (ir <? 6)%nat]; cbn; by rewrite IH.
Qed.
Lemma greg_abi sret l i : greg (arg_start sret) 0 l i = abi_reg sret l i.
Proof. by destruct sret. Qed.
Lemma goff_abi sret l i : goff (arg_start sret) 0 l i = abi_offset sret l i.
Proof. by destruct sret. Qed.

Lemma places_abi sret l i : Forall type_ok l -> call_places sret l !! i = abi_place sret l i.
Proof.
  intros Hl. rewrite call_places_gp by done. unfold abi_place. destruct (l !! i) as [t|] eqn:E.
  - rewrite (gp_lookup _ _ _ _ _ _ E), greg_abi, goff_abi. by destruct (abi_reg _ _ _).
  - apply lookup_ge_None. rewrite gp_length. by apply lookup_ge_None.
Qed.

(** Arguments on the stack do not overlap. *)
Lemma gsize_ge l : forall ir fr off, Forall type_ok l -> off <= gsize ir fr off l.
Proof.
  induction l as [|t l IH]; intros ir fr off Hl; cbn [gsize]; [lia|]. inversion Hl as [|? ? Ht Hl']; subst.
  pose proof (round8_ge (t_size t)). destruct Ht as (Hz & _).
  destruct (t_struct t); [|destruct (t_flo t); [destruct (fr <? 8)%nat|destruct (ir <? 6)%nat]];
    first [etrans; [|by apply IH]; lia | by apply IH].
Qed.
Lemma gp_bounds l : forall ir fr off i t o, Forall type_ok l -> l !! i = Some t -> gp ir fr off l !! i = Some (OnStack o) ->
  off <= o /\ o + round8 (t_size t) <= gsize ir fr off l /\ (off mod 8 = 0 -> o mod 8 = 0).
Proof.
  induction l as [|u l IH]; intros ir fr off i t o Hl Hi Hg; [done|]. inversion Hl as [|? ? Hu Hl']; subst.
  pose proof (round8_ge (t_size u)). pose proof Hu as (Hz & _). pose proof (round8_mod (t_size u)) as Hm.
  cbn [gp gsize] in *. destruct i as [|i].
  - cbn in Hi. injection Hi as ->.
    destruct (t_struct t); [|destruct (t_flo t); [destruct (fr <? 8)%nat|destruct (ir <? 6)%nat]]; cbn in Hg; try congruence;
      injection Hg as <-; (split; [lia|]; split; [by apply gsize_ge|done]).
  - cbn in Hi. destruct (t_struct u); [|destruct (t_flo u); [destruct (fr <? 8)%nat|destruct (ir <? 6)%nat]]; cbn in Hg;
      destruct (IH _ _ _ _ _ _ Hl' Hi Hg) as (H1 & H2 & H3); (split; [lia|]; split; [lia|]; intros; apply H3; try done; by apply mod8_add).
Qed.
Lemma gp_apart l : forall ir fr off i j t u o p, Forall type_ok l -> (i < j)%nat -> l !! i = Some t -> l !! j = Some u ->
  gp ir fr off l !! i = Some (OnStack o) -> gp ir fr off l !! j = Some (OnStack p) -> o + round8 (t_size t) <= p.
Proof.
  induction l as [|x l IH]; intros ir fr off i j t u o p Hl Hij Hi Hj Hg Hk; [done|]. inversion Hl as [|? ? Hx Hl']; subst.
  destruct j as [|j]; [lia|]. cbn [gp] in *. destruct i as [|i].
  - cbn in Hi, Hj. injection Hi as ->.
    destruct (t_struct t); [|destruct (t_flo t); [destruct (fr <? 8)%nat|destruct (ir <? 6)%nat]]; cbn in Hg, Hk; try congruence;
      injection Hg as <-; by destruct (gp_bounds _ _ _ _ _ _ _ Hl' Hj Hk).
  - cbn in Hi, Hj. destruct (t_struct x); [|destruct (t_flo x); [destruct (fr <? 8)%nat|destruct (ir <? 6)%nat]]; cbn in Hg, Hk;
      eapply (IH _ _ _ i j); eauto; lia.
Qed.
Lemma args_apart sret l i j t u o p : Forall type_ok l -> (i < j)%nat -> l !! i = Some t -> l !! j = Some u ->
  call_places sret l !! i = Some (OnStack o) -> call_places sret l !! j = Some (OnStack p) ->
  0 <= o /\ o + t_size t <= p /\ p + t_size u <= stack_args_size sret l /\ o mod 8 = 0 /\ p mod 8 = 0.
Proof.
  intros Hl Hij Hi Hj Ho Hp. rewrite call_places_gp in Ho, Hp by done. rewrite stack_args_gsize by done.
  destruct (gp_bounds _ _ _ _ _ _ _ Hl Hi Ho) as (A & B & C). destruct (gp_bounds _ _ _ _ _ _ _ Hl Hj Hp) as (A' & B' & C').
  pose proof (gp_apart _ _ _ _ _ _ _ _ _ _ Hl Hij Hi Hj Ho Hp). pose proof (round8_ge (t_size t)). pose proof (round8_ge (t_size u)).
  split_and!; try lia; [by apply C|by apply C'].
Qed.

(** The places of parameters are the same, with offsets from the base pointer. *)
Lemma param_places_gp l : forall b ir fr off, Forall type_ok l -> off mod 8 = 0 -> b mod 8 = 0 ->
  param_places (b + off) (zip l (param_regs (Nat.min ir 6) (Nat.min fr 8) l)) = map (shift b) (gp ir fr off l).
Proof.
  induction l as [|t l IH]; intros b ir fr off Hl Ho Hb; [done|]. inversion Hl as [|? ? Ht Hl']; subst.
  cbn [param_regs gp]. unfold MAX_REG_ARGS, MAX_FREG_ARGS.
  assert (Hn : (off + round8 (t_size t)) mod 8 = 0) by (apply mod8_add; [done|apply round8_mod]).
  assert (Hbo : (b + off) mod 8 = 0) by (by apply mod8_add).
  destruct (t_struct t) eqn:Es.
  - cbn [zip_with param_places]. rewrite Es. destruct Ht as (_ & Ha & _). rewrite (align8 _ _ Ha Hbo), round8_eq. cbn [map shift].
    f_equal. rewrite <- Z.add_assoc. by apply IH.
  - pose proof (round8_scalar t Ht Es) as H8. destruct (t_flo t).
    + destruct (Nat.min fr 8 <? 8)%nat eqn:E; [apply Nat.ltb_lt in E|apply Nat.ltb_ge in E].
      * replace (fr <? 8)%nat with true by (symmetry; apply Nat.ltb_lt; lia). cbn [zip_with param_places map shift]. f_equal; [f_equal; lia|].
        replace (S (Nat.min fr 8)) with (Nat.min (S fr) 8) by lia. by apply IH.
      * replace (fr <? 8)%nat with false by (symmetry; apply Nat.ltb_ge; lia). cbn [zip_with param_places]. rewrite Es.
        rewrite (align8 (b + off) 8) by (done || set_solver). cbn [map shift]. f_equal. rewrite H8 in *. rewrite <- Z.add_assoc.
        replace (Nat.min fr 8) with (Nat.min (S fr) 8) by lia. by apply IH.
    + destruct (Nat.min ir 6 <? 6)%nat eqn:E; [apply Nat.ltb_lt in E|apply Nat.ltb_ge in E].
      * replace (ir <? 6)%nat with true by (symmetry; apply Nat.ltb_lt; lia). cbn [zip_with param_places map shift]. f_equal; [f_equal; lia|].
        replace (S (Nat.min ir 6)) with (Nat.min (S ir) 6) by lia. by apply IH.
      * replace (ir <? 6)%nat with false by (symmetry; apply Nat.ltb_ge; lia). cbn [zip_with param_places]. rewrite Es.
        rewrite (align8 (b + off) 8) by (done || set_solver). cbn [map shift]. f_equal. rewrite H8 in *. rewrite <- Z.add_assoc.
        replace (Nat.min ir 6) with (Nat.min (S ir) 6) by lia. by apply IH.
Qed.
Lemma fun_places_eq u sret l : Forall type_ok l -> fun_places u sret l = map (shift (param_bottom u)) (call_places sret l).
Proof.
  intros Hl. rewrite call_places_gp by done. unfold fun_places.
  pose proof (param_places_gp l (param_bottom u) (arg_start sret) 0 0 Hl eq_refl) as E.
  replace (Nat.min (arg_start sret) 6) with (arg_start sret) in E by (by destruct sret). rewrite Z.add_0_r in E.
  apply E. unfold param_bottom. replace (Z.of_nat _ * 8 + 8 * 2) with ((Z.of_nat (length (callee_saves u)) + 2) * 8) by lia. apply Z.mod_mul. lia.
Qed.
Lemma hidden_first l : Forall type_ok l -> call_places false (ptr_ty :: l) = InReg 0 :: call_places true l.
Proof.
  intros Hl. rewrite !call_places_gp; [done|done|]. constructor; [|done].
  unfold type_ok, ptr_ty. cbn. split; [lia|]. split; [set_solver|]. intros _. split; [set_solver|]. done.
Qed.
