(** Declarators get the type that the standard gives them. *)
From stdpp Require Import base list numbers sets.
From Verif Require Import Front.Decl_model Front.Decl_spec Front.Decl_proof.
Local Open Scope Z_scope.

Scheme declares_i := Induction for declares Sort Prop with parameters_i := Induction for parameters Sort Prop with param_list_i := Induction for param_list Sort Prop.
Combined Scheme declares_mutind from declares_i, parameters_i, param_list_i.

Lemma bind_done {A B} (a : A) h ts (k : A -> heap -> list dtok -> res B) : bind (Done a h ts false) k = k a h ts.
Proof. cbn. by destruct (k a h ts). Qed.
Lemma report_false {A} (r : res A) : report false r = r. Proof. by destruct r. Qed.

(** * Parentheses are balanced. *)
Lemma depth_app a b : forall d d', depth a d = Some d' -> depth (a ++ b) d = depth b d'.
Proof. induction a as [|t a IH]; intros d d'; cbn [depth app]; [by intros [= ->]|]. destruct t; try apply IH. destruct d; [done|apply IH]. Qed.
Lemma depth_quals qs ts d : depth ((DQual <$> qs) ++ ts) d = depth ts d.
Proof. induction qs as [|q qs IH]; [done|]. cbn. apply IH. Qed.
Lemma balanced full : (forall l T ts x t, declares full l T ts x t -> forall d, depth ts d = Some d) /\ (forall ts ps va, parameters full ts ps va -> forall d, depth ts d = Some d) /\
  (forall xs ts l va, param_list full xs ts l va -> forall d, depth ts d = Some d).
Proof.
  apply (declares_mutind full (fun l T ts x t _ => forall d, depth ts d = Some d) (fun ts ps va _ => forall d, depth ts d = Some d) (fun xs ts l va _ => forall d, depth ts d = Some d)); try done.
  - intros T ts x t _ IH _ _ d. cbn [depth]. by rewrite (depth_app _ _ _ _ (IH _)).
  - intros T n ts x t _ _ _ IH d. by rewrite (depth_app _ _ _ _ (IH _)).
  - intros T ts x t _ _ IH d. by rewrite (depth_app _ _ _ _ (IH _)).
  - intros T ps va pts ts x t _ _ _ _ IHp _ IH d. rewrite (depth_app _ _ _ _ (IH _)). cbn [depth]. by rewrite (depth_app _ _ _ _ (IHp _)).
  - intros T qs ts x t _ _ IH d. cbn [depth]. rewrite depth_quals. apply IH.
  - intros T q ts x t _ _ _ IH d. by rewrite (depth_app _ _ _ _ (IH _)).
  - intros T y ts x t _ _ _ IH d. by rewrite (depth_app _ _ _ _ (IH _)).
  - intros T y k ts x t _ _ _ IH d. by rewrite (depth_app _ _ _ _ (IH _)).
  - intros xs b q ts x t _ IH _ _ d. cbn [depth]. by rewrite (depth_app _ _ _ _ (IH _)).
  - intros xs b q ts x t ts' l va _ IH _ _ _ IH' d. cbn [depth]. rewrite (depth_app _ _ _ _ (IH _)). apply IH'.
Qed.

(** * Heaps. *)
Definition tame (t : ty) : Prop := match t with Ref _ | Arr _ (Vla _) _ => False | _ => True end.
Definition is_ref (t : ty) : bool := match t with Ref _ => true | _ => false end.
Definition okref (h : heap) (t : ty) : Prop := match t with Ref k => is_Some (h !! k) | _ => tame t end.
Definition news (h h' h'' : heap) : Prop := forall i, (length h <= i < length h')%nat -> h'' !! i = h' !! i.
Definition const_ok (c T : ty) : Prop := Z.land (qual_of c) TQ_CONST = Z.land (qual_of T) TQ_CONST \/ is_fun T = true.
Lemma okref_load h t : Forall tame h -> okref h t -> tame (load h t) /\ (is_ref t = false -> load h t = t).
Proof.
  intros Hh Ho. destruct t as [| | | |k]; try done. cbn in *. destruct Ho as [c Hc]. rewrite Hc. cbn. split; [|done]. rewrite Forall_lookup in Hh. by eapply Hh.
Qed.
Lemma load_prefix h h' t : h `prefix_of` h' -> okref h t -> load h' t = load h t.
Proof.
  intros Hp Ho. destruct t as [| | | |k]; try done. destruct Ho as [c Hc]. destruct Hp as [l ->]. unfold load. rewrite Hc. by rewrite (lookup_app_l_Some _ _ _ _ Hc).
Qed.
Lemma okref_prefix h h' t : h `prefix_of` h' -> okref h t -> okref h' t.
Proof. intros Hp Ho. destruct t as [| | | |k]; try done. cbn in *. destruct Ho as [c Hc]. exists c. destruct Hp as [l ->]. by apply lookup_app_l_Some. Qed.
Lemma prefix_len (h h' : heap) : h `prefix_of` h' -> (length h <= length h')%nat.
Proof. apply prefix_length. Qed.

(** * What comes after a declarator. *)
Definition starts_suffix (ts : list dtok) : Prop := match ts with (DLbr | DLpar) :: _ => True | _ => False end.
Definition suf_ok (t0 T0 T : ty) (rest rest' : list dtok) : Prop :=
  forall fp h, okref h t0 -> Forall tame h -> const_ok (load h t0) T0 ->
  const_ok (load h t0) T /\
  exists f b h', suffix f fp h t0 rest = Done b h' rest' false /\ h `prefix_of` h' /\ Forall tame h' /\ (b = t0 /\ ~ starts_suffix rest \/ tame b) /\
    (forall h'', news h h' h'' -> resolves h'' t0 T0 -> resolves h'' b T).
Lemma suf_none t0 T0 rest : ~ starts_suffix rest -> suf_ok t0 T0 T0 rest rest.
Proof.
  intros Hs fp h Ho Hh Hc. split; [done|]. exists 1%nat, t0, h. split; [|split; [done|split; [done|split; [by left|done]]]].
  cbn [suffix]. destruct rest as [|[] rest]; cbn in *; tauto.
Qed.
Lemma tame_sub h b t0 rest (T : ty) : Forall tame h -> okref h t0 -> (b = t0 /\ ~ starts_suffix rest \/ tame b) -> tame (load h b).
Proof. intros Hh Ho [[-> _]|Hb]; [by apply okref_load|]. by destruct b. Qed.
Lemma make_tame t b n h : tame (load h b) -> (forall v, n <> Vla v) -> make_array t b n h = Arr b n (Z.land (qual_of (load h t)) TQ_CONST).
Proof.
  intros Ht Hn. unfold make_array. destruct (load h b) as [| |? [] ?| |]; try done; destruct n; try done; by edestruct Hn.
Qed.
Lemma suf_array t0 T0 T rest rest' n toks : is_fun T = false -> (toks = [] /\ n = Und \/ exists k, 0 <= k /\ toks = [DSize k] /\ n = Fix k) ->
  suf_ok t0 T0 T rest rest' -> suf_ok t0 T0 (array_of T n) (DLbr :: toks ++ DRbr :: rest) rest'.
Proof.
  intros HT Htk HS fp h Ho Hh Hc. destruct (HS fp h Ho Hh Hc) as (HcT & f & b & h' & Hf & Hp & Hh' & Hb & Hres).
  destruct HcT as [HcT|HcT]; [|congruence]. split.
  { left. cbn [array_of qual_of]. rewrite HcT, <- Z.land_assoc. done. }
  exists (S f), (Arr b n (Z.land (qual_of (load h t0)) TQ_CONST)), h'. split; [|split; [done|split; [done|split]]].
  - assert (Hnv : forall v, n <> Vla v) by (destruct Htk as [[_ ->]|(k & _ & _ & ->)]; done).
    assert (E : brackets fp h (toks ++ DRbr :: rest) = Done n h rest false /\ restricts (toks ++ DRbr :: rest) = None).
    { destruct Htk as [[-> ->]|(k & Hk & -> & ->)]; [done|]. split; [|done]. unfold brackets. cbn [as_rbr app skip_static as_name parse_array_size]. rewrite (proj2 (Z.ltb_ge k 0) Hk). done. }
    destruct E as [E1 E2]. cbn [suffix as_lbr]. rewrite E2, E1, bind_done, Hf, bind_done.
    rewrite make_tame; [|apply (tame_sub h' b t0 rest T); [done|by eapply okref_prefix|done]|done]. by rewrite (load_prefix h h' t0).
  - right. destruct Htk as [[_ ->]|(k & _ & _ & ->)]; done.
  - intros h'' Hn H0. unfold array_of. rewrite HcT. apply r_arr. by apply Hres.
Qed.

Definition params_ok (pts : list dtok) (ps : option (list ty)) (va : bool) : Prop :=
  forall h rest, Forall tame h -> exists f vs h', funparams f h (pts ++ DRpar :: rest) = Done (vs, va) h' rest false /\ h `prefix_of` h' /\ Forall tame h' /\
    (forall h'', news h h' h'' -> match vs, ps with None, None => True | Some l, Some L => Forall2 (resolves h'') (map snd l) L | _, _ => False end).
Lemma news_l h1 h2 h3 h : h1 `prefix_of` h2 -> h2 `prefix_of` h3 -> news h1 h3 h -> news h1 h2 h.
Proof.
  intros P1 P2 N i Hi. pose proof (prefix_len _ _ P2). rewrite N by lia. destruct P2 as [k ->]. rewrite lookup_app_l; [done|lia].
Qed.
Lemma news_r h1 h2 h3 h : h1 `prefix_of` h2 -> news h1 h3 h -> news h2 h3 h.
Proof. intros P1 N i Hi. apply prefix_len in P1. apply N. lia. Qed.
Lemma suf_func t0 T0 T rest rest' pts ps va : is_fun T = false -> is_arr T = false -> params_ok pts ps va -> suf_ok t0 T0 T rest rest' -> suf_ok t0 T0 (Fun T ps va 0) (DLpar :: pts ++ DRpar :: rest) rest'.
Proof.
  intros HT HT2 HP HS fp h Ho Hh Hc. split; [by right|].
  destruct (HP h rest Hh) as (f1 & vs & h1 & Hf1 & Hp1 & Hh1 & Hv).
  destruct (HS fp h1) as (_ & f & b & h' & Hf & Hp & Hh' & Hb & Hres); [by eapply okref_prefix|done|by rewrite (load_prefix h)|].
  exists (S (f1 + f)), (Fun b (option_map (map snd) vs) va 0), h'. split; [|split; [by etrans|split; [done|split; [by right|]]]].
  - cbn [suffix as_lbr as_lpar]. rewrite (funparams_mono f1 (f1 + f) _ _ _ Hf1), bind_done by (done || lia). rewrite (suffix_mono f (f1 + f) _ _ _ _ _ Hf), bind_done by (done || lia). done.
  - intros h'' Hn H0. specialize (Hv h'' ltac:(by eapply news_l)). specialize (Hres h'' ltac:(by eapply news_r) H0).
    destruct vs as [l|], ps as [L|]; try done; [by apply r_fun|by apply r_fun0].
Qed.

(** * Declarators. *)
Definition result_ok (h h' : heap) (t0 r T0 t : ty) : Prop :=
  h `prefix_of` h' /\ Forall tame h' /\ okref h' r /\ (r = t0 \/ match r with Ref k => (length h <= k)%nat | _ => True end) /\ (forall h'', news h h' h'' -> resolves h'' t0 T0 -> resolves h'' r t).
Definition direct_ok (T : ty) (ts : list dtok) (x : option nat) (t : ty) : Prop :=
  forall t0 T0 rest rest', suf_ok t0 T0 T rest rest' -> (ts = [] -> match rest with (DLpar | DName _) :: _ => False | _ => True end) -> (wrapped ts -> is_ref t0 = false \/ starts_suffix rest) ->
  forall fp h, okref h t0 -> Forall tame h -> const_ok (load h t0) T0 ->
  exists f r h', direct f fp h t0 (ts ++ rest) = Done (r, x) h' rest' false /\ result_ok h h' t0 r T0 t.
Definition decl_ok (T : ty) (ts : list dtok) (x : option nat) (t : ty) : Prop :=
  forall t0 rest, ended rest -> (wrapped ts -> is_ref t0 = false) ->
  forall fp h, okref h t0 -> Forall tame h -> const_ok (load h t0) T ->
  exists f r h', declarator f fp h t0 (ts ++ rest) = Done (r, x) h' rest false /\ result_ok h h' t0 r T t.

Lemma direct_start full T ts x t : declares full Direct T ts x t -> match ts with (DName _ | DLpar | DLbr) :: _ | [] => True | _ => False end.
Proof.
  intros H. remember Direct as l eqn:El. induction H; try done; try (specialize (IHdeclares El); destruct ts as [|[] ts]; done).
Qed.
Lemma pointer_quals qs : forall h t q0 ts, Forall (fun q => q ∈ [TQ_CONST; TQ_VOLATILE; TQ_RESTRICT]) qs -> NoDup qs -> (forall q, q ∈ qs -> Z.land q0 q = 0) ->
  parse_pointer h (Ptr t q0) ((DQual <$> qs) ++ ts) = parse_pointer h (Ptr t (Z.lor q0 (all_quals qs))) ts.
Proof.
  induction qs as [|q qs IH]; intros h t q0 ts Hq Hn H0; [cbn; by rewrite Z.lor_0_r|]. cbn [fmap list_fmap app parse_pointer load qual_of].
  rewrite (H0 q) by set_solver. cbn [Z.eqb]. inversion_clear Hn as [|?? Hnq Hnn]. inversion_clear Hq as [|?? Hq1 Hq2].
  unfold qualified_type. cbn [load qual_of set_qual].
  assert (E : (Z.lor q0 q =? q0) = false).
  { apply Z.eqb_neq. intros E. specialize (H0 q ltac:(set_solver)). rewrite <- E in H0. rewrite Z.land_lor_distr_l, Z.land_diag in H0.
    apply Z.lor_eq_0_iff in H0 as [_ ->]. set_solver. }
  rewrite E. rewrite (IH h t (Z.lor q0 q) ts Hq2 Hnn).
  - cbn [all_quals foldr]. by rewrite Z.lor_assoc.
  - intros q' Hq'. rewrite Z.land_lor_distr_l, (H0 q') by set_solver. cbn. rewrite Forall_forall in Hq2. specialize (Hq2 q' Hq').
    assert (q <> q') by congruence. set_unfold. destruct_or?; subst; done.
Qed.
Lemma same_head h r T : Forall tame h -> okref h r -> resolves h r T -> is_void (load h r) = is_void T.
Proof.
  intros Hh Ho Hr. destruct Hr; try done. cbn. rewrite H. cbn. destruct Hr; try done. rewrite Forall_lookup in Hh. by specialize (Hh _ _ H).
Qed.
Lemma adjust_ok h h' r T : Forall tame h' -> okref h' r -> match r with Ref k => (length h <= k)%nat | _ => True end -> (forall h'', news h h' h'' -> resolves h'' r T) ->
  forall h'', news h h' h'' -> resolves h'' (adjust h' r) (adjusted T).
Proof.
  intros Hh Ho Hk HR h'' Hn. specialize (HR h'' Hn). destruct (okref_load h' r Hh Ho) as [Ht Hl].
  assert (HR2 : resolves h'' (load h' r) T).
  { destruct r as [| | | |k]; [by rewrite Hl..|]. cbn in *. destruct Ho as [c Hc]. rewrite Hc. cbn. inversion HR; subst. rewrite Hn in H0; [congruence|]. apply lookup_lt_Some in Hc. lia. }
  unfold adjust. destruct (load h' r) as [| |e n q| |] eqn:El; try done; [by inversion HR2; subst|by inversion HR2; subst| |].
  - inversion HR2; subst. destruct n; [..|done]; by apply r_ptr.
  - inversion HR2; subst; by apply r_ptr.
Qed.

Definition list_ok (xs : list (option nat)) (pts : list dtok) (l : list ty) (va : bool) : Prop :=
  forall vars h rest, vars.*1 = xs -> Forall tame h -> exists f vs h', more_params f vars h (pts ++ DRpar :: rest) = Done (Some (vars ++ vs), va) h' rest false /\ h `prefix_of` h' /\ Forall tame h' /\
    (forall h'', news h h' h'' -> Forall2 (resolves h'') (map snd vs) l).
(** One parameter. *)
Lemma one_param b q ts x t xs : decl_ok (Base b q) ts x t -> is_void t = false -> (x <> None -> x ∉ xs) ->
  forall vars h rest, vars.*1 = xs -> Forall tame h -> ended rest -> exists f v h', h `prefix_of` h' /\ Forall tame h' /\ (forall h'', news h h' h'' -> resolves h'' v.2 (adjusted t)) /\ v.1 = x /\
  forall g, (f <= g)%nat -> more_params (S g) vars h (DBase b q :: ts ++ rest) =
    match as_rpar rest with
    | Some ts => Done (Some (vars ++ [v]), false) h' ts false
    | None => let* c, h, ts := consume_comma h' rest in if c : bool then more_params g (vars ++ [v]) h ts else Done (Some (vars ++ [v]), false) h ts false
    end.
Proof.
  intros HD Hv Hx vars h rest Hxs Hh He.
  destruct (HD (Base b q) rest He ltac:(done) (Some (fst <$> vars)) h I Hh ltac:(by left)) as (f & r & h' & Hf & Hp & Hh' & Ho & Hrr & Hres).
  assert (Hk : match r with Ref k => (length h <= k)%nat | _ => True end) by (destruct Hrr as [->|?]; done).
  assert (HR : forall h'', news h h' h'' -> resolves h'' r t) by (intros h'' Hn; apply Hres; [done|constructor]).
  exists f, (x, adjust h' r), h'. split; [done|]. split; [done|]. split; [by apply adjust_ok|]. split; [done|].
  intros g Hg. cbn [more_params as_dots as_base]. rewrite (declarator_mono f g _ _ _ _ _ Hf), bind_done by (done || lia). cbn [fst snd].
  assert (Ev : is_void (load h' r) = false). { rewrite (same_head h' r t); [done|done|done|]. apply HR. by intros i Hi. }
  rewrite Ev. cbn [andb]. rewrite report_false. cbv zeta.
  assert (Ed : bool_decide (x <> None /\ x ∈ vars.*1) = false). { apply bool_decide_eq_false_2. rewrite Hxs. intros [H1 H2]. by apply Hx. }
  rewrite Ed, report_false. done.
Qed.

Lemma all_ok : (forall l T ts x t, declares false l T ts x t -> match l with Decl => decl_ok T ts x t | Direct => direct_ok T ts x t end) /\
  (forall pts ps va, parameters false pts ps va -> params_ok pts ps va) /\ (forall xs pts l va, param_list false xs pts l va -> list_ok xs pts l va).
Proof.
  apply (declares_mutind false (fun l T ts x t _ => match l with Decl => decl_ok T ts x t | Direct => direct_ok T ts x t end) (fun pts ps va _ => params_ok pts ps va) (fun xs pts l va _ => list_ok xs pts l va)).
  - intros T x t0 T0 rest rest' HS _ _ fp h Ho Hh Hc. destruct (HS fp h Ho Hh Hc) as (_ & f & b & h' & Hf & Hp & Hh' & Hb & Hres).
    exists (S f), b, h'. split; [cbn [direct app as_lpar as_name]; by rewrite Hf, bind_done|]. split; [done|]. split; [done|]. split; [|split].
    + destruct Hb as [[-> _]|Hb]; [by eapply okref_prefix|by destruct b].
    + destruct Hb as [[-> _]|Hb]; [by left|right; by destruct b].
    + done.
  - intros T t0 T0 rest rest' HS Hr _ fp h Ho Hh Hc. destruct (HS fp h Ho Hh Hc) as (_ & f & b & h' & Hf & Hp & Hh' & Hb & Hres).
    exists (S f), b, h'. split. { specialize (Hr eq_refl). cbn [direct app]. destruct rest as [|[] rest]; try done; cbn [as_lpar as_name]; by rewrite Hf, bind_done. }
    split; [done|]. split; [done|]. split; [|split].
    + destruct Hb as [[-> _]|Hb]; [by eapply okref_prefix|by destruct b].
    + destruct Hb as [[-> _]|Hb]; [by left|right; by destruct b].
    + done.
  - intros T ts x t Hd IH Hts Hw t0 T0 rest rest' HS _ Hw2 fp h Ho Hh Hc.
    specialize (Hw2 ltac:(exists ts; split; [done|apply (proj1 (balanced false) _ _ _ _ _ Hd)])). set (k := length h).
    assert (Hk : (h ++ [load h t0]) !! k = Some (load h t0)) by (unfold k; rewrite lookup_app_r, Nat.sub_diag; done).
    destruct (HS fp h Ho Hh Hc) as (HcT & _).
    destruct (IH (Ref k) (DRpar :: rest) I ltac:(by intros ?%Hw) fp (h ++ [load h t0])) as (f1 & r & h2 & Hf1 & Hp2 & Hh2 & Ho2 & Hr2 & Hres2).
    { cbn. by eexists. } { apply Forall_app. split; [done|]. constructor; [by apply okref_load|done]. } { cbn [load]. rewrite Hk. done. }
    assert (Hp0 : h `prefix_of` h2) by (etrans; [by apply prefix_app_r|done]).
    destruct (HS fp h2) as (_ & f2 & b & h3 & Hf2 & Hp3 & Hh3 & Hb & Hres3); [by eapply okref_prefix|done|by rewrite (load_prefix h)|].
    assert (Htb : tame b). { destruct Hb as [[-> Hns]|Hb]; [|done]. destruct Hw2 as [Hw2|Hw2]; [|done]. destruct t0; done. }
    assert (Elb : load h3 b = b) by (by destruct b).
    assert (Hk3 : (k < length h3)%nat). { apply lookup_lt_Some in Hk. apply prefix_len in Hp2. apply prefix_len in Hp3. lia. }
    exists (S (f1 + f2)), r, (<[k := b]> h3). split; [|split; [|split; [|split; [|split]]]].
    + cbn [direct app as_lpar]. rewrite <- app_assoc. cbn [app]. fold k.
      rewrite (declarator_mono f1 (f1 + f2) _ _ _ _ _ Hf1), bind_done by (done || lia). cbn [consume_rpar]. rewrite bind_done.
      rewrite (suffix_mono f2 (f1 + f2) _ _ _ _ _ Hf2), bind_done by (done || lia). by rewrite Elb.
    + destruct (transitivity Hp0 Hp3) as [l ->]. rewrite insert_app_r_alt by (unfold k; lia). by apply prefix_app_r.
    + by apply Forall_insert.
    + destruct r as [| | | |j]; try done. cbn in *. rewrite lookup_lt_is_Some in *. rewrite insert_length. apply prefix_len in Hp3. lia.
    + right. destruct Hr2 as [->|Hr2]; [cbn; lia|]. destruct r; try done. rewrite app_length in Hr2. cbn in Hr2. lia.
    + intros h'' Hn H0.
      assert (Hn3 : news h2 h3 h''). { intros i Hi. assert (k < length h2)%nat by (apply lookup_lt_Some in Hk; apply prefix_len in Hp2; lia). assert (length h <= length h2)%nat by (by apply prefix_len).
        rewrite Hn by (rewrite insert_length; lia). rewrite list_lookup_insert_ne; [done|lia]. }
      specialize (Hres3 h'' Hn3 H0). apply Hres2.
      * intros i Hi. rewrite app_length in Hi. cbn in Hi. assert (length h2 <= length h3)%nat by (by apply prefix_len). rewrite Hn by (rewrite insert_length; lia). rewrite list_lookup_insert_ne by (unfold k; lia).
        destruct Hp3 as [l ->]. apply lookup_app_l. lia.
      * apply (r_ref _ _ b); [|done]. rewrite Hn by (rewrite insert_length; unfold k in *; lia). by apply list_lookup_insert.
  - intros T n ts x t HT Hn Hd IH t0 T0 rest rest' HS Hnil Hw fp h Ho Hh Hc. rewrite <- app_assoc. apply (IH t0 T0 _ rest'); [|done|by right|done..].
    apply (suf_array t0 T0 T rest rest' (Fix n) [DSize n]); [done| |done]. right. by exists n.
  - intros T ts x t HT Hd IH t0 T0 rest rest' HS Hnil Hw fp h Ho Hh Hc. rewrite <- app_assoc. apply (IH t0 T0 _ rest'); [|done|by right|done..].
    apply (suf_array t0 T0 T rest rest' Und []); [done| |done]. by left.
  - intros T ps va pts ts x t HT HT2 Hne Hps IHp Hd IH t0 T0 rest rest' HS Hnil Hw fp h Ho Hh Hc. rewrite <- app_assoc. apply (IH t0 T0 _ rest'); [|by intros ?%Hne|by right|done..].
    cbn. rewrite <- app_assoc. by apply suf_func.
  - intros T ts x t Hd IH t0 rest He Hw fp h Ho Hh Hc.
    assert (Hs : ~ starts_suffix rest) by (destruct rest as [|[] rest]; cbn in *; tauto).
    destruct (IH t0 T rest rest (suf_none t0 T rest Hs)) with (fp := fp) (h := h) as (f & r & h' & Hf & Hr); [by destruct rest as [|[] rest]|intros ?; left; by apply Hw|done..|].
    exists (S f), r, h'. split; [|done]. cbn [declarator].
    assert (E : parse_pointer h t0 (ts ++ rest) = Done t0 h (ts ++ rest) false). { apply direct_start in Hd. destruct ts as [|[] ts]; try done. by destruct rest as [|[] rest]. }
    by rewrite E, bind_done.
  - intros T qs ts x t [Hnd Hq] Hd IH t0 rest He Hw fp h Ho Hh Hc.
    destruct (IH (Ptr t0 (all_quals qs)) rest He ltac:(done) fp h I Hh ltac:(by left)) as (f & r & h' & Hf & Hp & Hh' & Ho' & Hr & Hres).
    destruct f as [|f]; [done|]. exists (S f), r, h'. split; [|split; [done|split; [done|split; [done|split]]]].
    + rewrite <- Hf. cbn [declarator app parse_pointer]. rewrite <- app_assoc, (pointer_quals qs h t0 0 (ts ++ rest) Hq Hnd) by (intros; by rewrite Z.land_0_l). done.
    + right. destruct Hr as [->|Hr]; done.
    + intros h'' Hn H0. apply Hres; [done|by apply r_ptr].
  - done.
  - done.
  - done.
  - intros h rest Hh. exists 1%nat, None, h. by repeat split.
  - intros h rest Hh. exists 5%nat, (Some []), h. split; [done|split; [done|split; [done|intros; constructor]]].
  - intros pts l va Hl IH h rest Hh. destruct (IH [] h rest eq_refl Hh) as (f & vs & h' & Hf & Hp & Hh' & Hv). exists (S f), (Some vs), h'. split; [|done].
    cbn [funparams]. inversion Hl; subst; done.
  - intros xs b q ts x t Hd IH Hv Hx vars h rest Hxs Hh. destruct (one_param b q ts x t xs IH Hv Hx vars h (DRpar :: rest) Hxs Hh I) as (f & v & h' & Hp & Hh' & Hr & Ex & Hf).
    exists (S f), [v], h'. split; [by apply Hf|]. split; [done|]. split; [done|]. intros h'' Hn. constructor; [by apply Hr|done].
  - intros xs b q ts x t Hd IH Hv Hx vars h rest Hxs Hh. destruct (one_param b q ts x t xs IH Hv Hx vars h (DComma :: DDots :: DRpar :: rest) Hxs Hh I) as (f & v & h' & Hp & Hh' & Hr & Ex & Hf).
    exists (S (S f)), [v], h'. split; [|split; [done|split; [done|intros h'' Hn; constructor; [by apply Hr|done]]]].
    cbn [app]. rewrite <- app_assoc. rewrite Hf by lia. done.
  - intros xs b q ts x t ts' l va Hd IH Hv Hx Hl IHl vars h rest Hxs Hh.
    destruct (one_param b q ts x t xs IH Hv Hx vars h (DComma :: ts' ++ DRpar :: rest) Hxs Hh I) as (f & v & h1 & Hp & Hh1 & Hr & Ex & Hf).
    destruct (IHl (vars ++ [v]) h1 rest ltac:(by rewrite fmap_app, Hxs, <- Ex) Hh1) as (f2 & vs & h2 & Hf2 & Hp2 & Hh2 & Hv2).
    exists (S (f + f2)), (v :: vs), h2. split; [|split; [by etrans|split; [done|]]].
    + cbn [app]. rewrite <- app_assoc. cbn [app]. rewrite Hf by lia. cbn [as_rpar consume_comma]. rewrite bind_done. rewrite (more_params_mono f2 (f + f2) _ _ _ _ Hf2) by (done || lia). by rewrite <- app_assoc.
    + intros h'' Hn. constructor; [apply Hr; by eapply news_l|apply Hv2; by eapply news_r].
Qed.
Lemma declarator_full b q ts x t rest : declares false Decl (Base b q) ts x t -> ended rest -> exists r h, parse_declarator (Base b q) (ts ++ rest) = Done (r, x) h rest false /\ resolves h r t.
Proof.
  intros Hd He. destruct (proj1 all_ok Decl (Base b q) ts x t Hd (Base b q) rest He ltac:(done) None [] I ltac:(constructor) ltac:(by left)) as (f & r & h & Hf & _ & _ & _ & _ & Hres).
  exists r, h. split; [|apply Hres; [by intros i Hi|constructor]]. unfold parse_declarator. pose proof (never_stuck (fuel_for (ts ++ rest)) (Base b q) (ts ++ rest) (Nat.le_refl _)) as Hn.
  destruct (declarator (fuel_for (ts ++ rest)) None [] (Base b q) (ts ++ rest)) as [a h2 ts2 e| | |] eqn:E; try done;
    (apply (declarator_mono _ (f + fuel_for (ts ++ rest))) in E; [|done|lia]; apply (declarator_mono _ (f + fuel_for (ts ++ rest))) in Hf; [|done|lia]; congruence).
Qed.
