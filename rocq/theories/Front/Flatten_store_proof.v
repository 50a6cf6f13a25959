(** Storing in the tree of initialisers. *)
From stdpp Require Import base list numbers.
From Verif Require Import Front.Static_model Front.Flatten_model Front.Flatten_spec Front.Flatten_proof.
Local Open Scope Z_scope.

Definition size_ok (t : fty) (n : nat) : Prop :=
  match t with FArr _ (Some k) => n = k | FArr _ None => True | FStruct _ ms => n = length ms | _ => False end.
Inductive shape : fty -> init -> Prop :=
| sh_single t e : shape t (ISingle e)
| sh_multi t l : size_ok t (length l) -> (forall k x t', l !! k = Some (Some x) -> child t (Z.of_nat k) = Some t' -> shape t' x) ->
  shape t (IMulti l).

Lemma size_part t n i : 0 <= i -> size_ok t n -> (Z.to_nat i < n)%nat -> exists t', child t i = Some t'.
Proof.
  intros Hi Hs Hk. unfold child. destruct (Z.ltb_spec i 0); [lia|]. destruct t as [w|f|t [k|]|u ms]; try done; cbn in Hs.
  - destruct (Z.ltb_spec i (Z.of_nat k)); [eauto|lia].
  - eauto.
  - subst n. apply lookup_lt_is_Some in Hk as [[m t] ->]. cbn. eauto.
Qed.
Lemma part_size t n i t' : child t i = Some t' -> size_ok t n -> (Z.to_nat i < n)%nat \/ exists t0, t = FArr t0 None.
Proof.
  intros H Hs. apply child_part in H as [Hi H]. destruct t as [w|f|t [k|]|u ms]; try done; cbn in Hs.
  - left. lia.
  - right. eauto.
  - destruct H as [m H]. apply lookup_lt_Some in H. left. lia.
Qed.
Lemma reserve_shape t l : reserve t = Some l -> shape t (IMulti l) /\ forall k x, l !! k = Some x -> x = None.
Proof.
  intros H. assert (exists n, l = replicate n None /\ size_ok t n) as (n & -> & Hn).
  { destruct t as [w|f|t [k|]|u ms]; try done; injection H as <-; [exists k|exists 0%nat|exists (length ms)]; done. }
  split.
  - constructor; [by rewrite replicate_length|]. intros k x t' E. apply lookup_replicate in E as [? _]. done.
  - intros k x E. by apply lookup_replicate in E as [-> _].
Qed.
Lemma reserve_multi t : is_multi t = true -> exists l, reserve t = Some l.
Proof. destruct t as [w|f|t [k|]|u ms]; try done; cbn; eauto. Qed.

Lemma suffix_app q p s : suffix q p = Some s <-> p = q ++ s.
Proof.
  revert p. induction q as [|i q IH]; intros p; cbn; [split; congruence|].
  destruct p as [|j p]; [done|]. destruct (Z.eqb_spec i j) as [<-|Hn].
  - rewrite IH. split; [by intros ->|by intros [= ->]].
  - split; [done|congruence].
Qed.

Lemma suffix_cons i q k p : suffix (i :: q) (k :: p) = if i =? k then suffix q p else None.
Proof. done. Qed.

(** The tree after a list was lengthened. *)
Lemma value_extend l n p : value_at (Some (IMulti (l ++ replicate n None))) p = value_at (Some (IMulti l)) p.
Proof.
  destruct p as [|k p]; [done|]. cbn. destruct (k <? 0); [done|].
  destruct (decide (Z.to_nat k < length l)%nat) as [H|H].
  - by rewrite lookup_app_l.
  - rewrite lookup_app_r by lia. rewrite (lookup_ge_None_2 l) by lia.
    destruct (replicate n None !! (Z.to_nat k - length l)%nat) as [x|] eqn:E; [|done].
    apply lookup_replicate in E as [-> _]. by destruct p.
Qed.
Lemma value_none p : value_at None p = None.
Proof. by destruct p. Qed.
Lemma value_single e p : value_at (Some (ISingle e)) p = Some (e, p).
Proof. by destruct p. Qed.
Lemma value_reserve t l p : reserve t = Some l -> value_at (Some (IMulti l)) p = None.
Proof.
  intros H. apply reserve_shape in H as [_ H]. destruct p as [|k p]; [done|]. cbn. destruct (k <? 0); [done|].
  destruct (l !! Z.to_nat k) as [x|] eqn:E; [|done]. rewrite (H _ _ E). apply value_none.
Qed.
Lemma value_insert (l : list (option init)) (i : Z) (x : option init) p : 0 <= i -> (Z.to_nat i < length l)%nat ->
  value_at (Some (IMulti (<[Z.to_nat i := x]> l))) p =
  match p with k :: p' => if k =? i then value_at x p' else value_at (Some (IMulti l)) p | [] => None end.
Proof.
  intros Hi Hlt. destruct p as [|k p]; [done|]. cbn. destruct (Z.ltb_spec k 0).
  - destruct (Z.eqb_spec k i); [lia|done].
  - destruct (Z.eqb_spec k i) as [->|Hn].
    + by rewrite list_lookup_insert.
    + by rewrite list_lookup_insert_ne by lia.
Qed.

Lemma shape_extend t t0 l n : t = FArr t0 None -> shape t (IMulti l) -> shape t (IMulti (l ++ replicate n None)).
Proof.
  intros -> H. inversion H as [|? ? H1 H2]; subst. constructor; [done|].
  intros k x t' E. destruct (decide (k < length l)%nat).
  - rewrite lookup_app_l in E by done. by apply (H2 _ _ _ E).
  - rewrite lookup_app_r in E by lia. by apply lookup_replicate in E as [? _].
Qed.
Lemma shape_insert t l k x t' : shape t (IMulti l) -> child t (Z.of_nat k) = Some t' -> shape t' x -> shape t (IMulti (<[k := Some x]> l)).
Proof.
  intros H Hc Hx. inversion H as [|? ? H1 H2]; subst. constructor; [by rewrite insert_length|].
  intros j y t2 E Hc2. destruct (decide (j = k)) as [->|Hn].
  - destruct (decide (k < length l)%nat).
    + rewrite list_lookup_insert in E by done. congruence.
    + rewrite list_insert_ge in E by lia. apply (H2 _ _ _ E Hc2).
  - rewrite list_lookup_insert_ne in E by done. apply (H2 _ _ _ E Hc2).
Qed.

(** What is found at [p] after storing [v] at [path]; an expression above [path] is lost. *)
Definition stored (l l' : list (option init)) (path : list Z) (v : init) : Prop :=
  forall p,
  match suffix path p with
  | Some s => value_at (Some (IMulti l')) p = value_at (Some v) s
  | None =>
    value_at (Some (IMulti l')) p = value_at (Some (IMulti l)) p \/
    (value_at (Some (IMulti l')) p = None /\
     exists e c s i s', value_at (Some (IMulti l)) p = Some (e, s) /\ suffix c p = Some s /\ suffix c path = Some (i :: s'))
  end.

Definition lengthen (t : fty) (tree : list (option init)) (k : nat) : option (list (option init)) :=
  if bool_decide (k < length tree)%nat then Some tree
  else match t with FArr _ None => Some (tree ++ replicate (S k - length tree) None) | _ => None end.
Lemma lengthen_spec t tree k tree' : lengthen t tree k = Some tree' -> shape t (IMulti tree) ->
  shape t (IMulti tree') /\ (k < length tree')%nat /\ length tree' = Nat.max (length tree) (S k) /\
  (forall p, value_at (Some (IMulti tree')) p = value_at (Some (IMulti tree)) p).
Proof.
  unfold lengthen. intros H Hs. case_bool_decide as Hk.
  - injection H as <-. repeat split; [done|done|lia].
  - destruct t as [w|f|t [n|]|u ms]; try done. injection H as <-. split; [by eapply shape_extend|].
    rewrite app_length, replicate_length. repeat split; [lia|lia|]. intros p. apply value_extend.
Qed.
Lemma lengthen_ok t tree i t' : 0 <= i -> child t i = Some t' -> shape t (IMulti tree) -> exists tree', lengthen t tree (Z.to_nat i) = Some tree'.
Proof.
  intros Hi Hc Hs. unfold lengthen. case_bool_decide as Hk; [eauto|]. inversion Hs as [|? ? H1 H2]; subst.
  destruct (part_size _ _ _ _ Hc H1) as [?|[t0 ->]]; [lia|eauto].
Qed.
Lemma store_eq t tree i path v : store t tree (i :: path) v =
  if i <? 0 then None
  else
    match lengthen t tree (Z.to_nat i) with
    | None => None
    | Some tree =>
      match path with
      | [] => Some (<[Z.to_nat i := Some v]> tree)
      | _ =>
        match child t i with
        | None => None
        | Some t' =>
          match (match mjoin (tree !! Z.to_nat i) with Some (IMulti l) => Some l | _ => reserve t' end) with
          | None => None
          | Some l => match store t' l path v with Some l => Some (<[Z.to_nat i := Some (IMulti l)]> tree) | None => None end
          end
        end
      end
    end.
Proof. done. Qed.

Lemma store_spec path : forall t tree v t', shape t (IMulti tree) -> sub t path t' -> path <> [] -> shape t' v ->
  exists tree', store t tree path v = Some tree' /\ shape t (IMulti tree') /\ stored tree tree' path v /\
    length tree' = Nat.max (length tree) (match path with i :: _ => S (Z.to_nat i) | [] => O end).
Proof.
  induction path as [|i path IH]; intros t tree v t' Hsh Hsub Hne Hv; [done|]. clear Hne.
  inversion Hsub as [|? ? t1 ? ? Hp Hsub']; subst. rewrite store_eq.
  assert (Hi : 0 <= i) by apply Hp. apply child_part in Hp. destruct (Z.ltb_spec i 0); [lia|].
  destruct (lengthen_ok t tree i t1 Hi Hp Hsh) as [tree1 E1]. rewrite E1.
  apply lengthen_spec in E1 as (Hsh1 & Hk1 & Hl1 & Hv1); [|done].
  assert (Hp' : child t (Z.of_nat (Z.to_nat i)) = Some t1) by (by rewrite Z2Nat.id).
  destruct path as [|j path].
  - inversion Hsub'; subst. eexists. split; [done|]. split; [by eapply shape_insert|]. split; [|by rewrite insert_length].
    intros p. destruct p as [|k p].
    + cbn [suffix]. left. done.
    + rewrite value_insert by done. cbn [suffix]. rewrite (Z.eqb_sym k i). destruct (Z.eqb_spec i k) as [->|Hn]; [done|]. left. apply Hv1.
  - rewrite Hp. set (cur := match mjoin (tree1 !! Z.to_nat i) with Some (IMulti l) => Some l | _ => reserve t1 end).
    assert (exists l, cur = Some l /\ shape t1 (IMulti l) /\
      (forall p, value_at (Some (IMulti l)) p = value_at (mjoin (tree1 !! Z.to_nat i)) p \/
         (value_at (Some (IMulti l)) p = None /\ exists e, mjoin (tree1 !! Z.to_nat i) = Some (ISingle e)))) as (l & -> & Hshl & Hvl).
    { inversion Hsub' as [|? ? t2 ? ? Hp2 _]; subst. assert (is_multi t1 = true) as Hm by (destruct Hp2 as [_ ?]; by destruct t1).
      destruct (reserve_multi _ Hm) as [lr Hr]. apply lookup_lt_is_Some in Hk1 as [x Ex]. unfold cur. rewrite Ex. cbn.
      destruct x as [[e|l]|]; cbn.
      - exists lr. split; [done|]. apply reserve_shape in Hr as Hr'. split; [apply Hr'|]. intros p. right. split; [|eauto]. by eapply value_reserve.
      - exists l. split; [done|]. inversion Hsh1 as [|? ? H1 H2]; subst. split; [by apply (H2 _ _ _ Ex)|]. auto.
      - exists lr. split; [done|]. apply reserve_shape in Hr as Hr'. split; [apply Hr'|]. intros p. left. rewrite value_none. by eapply value_reserve. }
    destruct (IH t1 l v t' Hshl Hsub' ltac:(done) Hv) as (l' & E & Hsh' & Hst & _). rewrite E.
    eexists. split; [done|]. split; [by eapply shape_insert|]. split; [|by rewrite insert_length].
    intros p. destruct p as [|k p]; [left; done|].
    rewrite value_insert by done. rewrite suffix_cons, (Z.eqb_sym k i). destruct (Z.eqb_spec i k) as [<-|Hn].
    + specialize (Hst p). rewrite <- Hv1. cbn [value_at]. destruct (Z.ltb_spec i 0); [lia|].
      assert (forall p, match tree1 !! Z.to_nat i with Some i0 => value_at i0 p | None => None end = value_at (mjoin (tree1 !! Z.to_nat i)) p) as Hmj.
      { intros p0. destruct (tree1 !! Z.to_nat i); [done|]. by rewrite value_none. }
      rewrite Hmj. destruct (suffix (j :: path) p) as [s|] eqn:Esuf; [exact Hst|].
      destruct (Hvl p) as [Hvp|[Hvp (e & He)]].
      * destruct Hst as [Hst|(Hst & e & c & s & i0 & s' & H1 & H2 & H3)].
        -- left. by rewrite Hst.
        -- right. split; [done|]. exists e, (i :: c), s, i0, s'. split; [by rewrite <- Hvp|]. rewrite !suffix_cons, Z.eqb_refl. done.
      * right. split.
        -- destruct Hst as [Hst|[Hst _]]; congruence.
        -- exists e, [i], p, j, path. rewrite He, value_single, !suffix_cons, Z.eqb_refl. done.
    + left. apply Hv1.
Qed.

Lemma store_sub path : forall t tree v tree', shape t (IMulti tree) -> store t tree path v = Some tree' -> exists t', sub t path t'.
Proof.
  induction path as [|i path IH]; intros t tree v tree' Hsh E; [done|]. rewrite store_eq in E.
  destruct (Z.ltb_spec i 0) as [|Hi]; [done|]. destruct (lengthen t tree (Z.to_nat i)) as [tree1|] eqn:El; [|done].
  apply lengthen_spec in El as (Hsh1 & Hk1 & Hl1 & Hv1); [|done]. inversion Hsh1 as [|? ? H1 H2]; subst.
  destruct (size_part t _ i Hi H1 Hk1) as [t1 Ht1].
  destruct path as [|j path].
  - exists t1. econstructor; [by apply child_part|constructor].
  - rewrite Ht1 in E. destruct (match mjoin (tree1 !! Z.to_nat i) with Some (IMulti l) => Some l | _ => reserve t1 end) as [l|] eqn:Ec; [|done].
    destruct (store t1 l (j :: path) v) as [l'|] eqn:Es; [|done].
    assert (shape t1 (IMulti l)) as Hshl.
    { apply lookup_lt_is_Some in Hk1 as [x Ex]. rewrite Ex in Ec. cbn in Ec. destruct x as [[e|l0]|]; cbn in Ec.
      - by apply reserve_shape in Ec as [? _].
      - injection Ec as ->. apply (H2 _ _ _ Ex). by rewrite Z2Nat.id.
      - by apply reserve_shape in Ec as [? _]. }
    destruct (IH _ _ _ _ Hshl Es) as [t' H']. exists t'. econstructor; [by apply child_part|done].
Qed.
