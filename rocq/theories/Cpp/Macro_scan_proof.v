(** Object-like macros without mutual recursion expand as the standard says,
    whatever has been expanded before; with it they need not. *)
From stdpp Require Import base list numbers gmap sets relations.
From Verif Require Import Cpp.Macro_model Cpp.Macro_spec Cpp.Macro_proof.
Open Scope nat_scope.

(** ** The scan with one hide set per token *)
Section flat.
  Context (T : gmap str (list shape)).

  Inductive flat : list (shape * gset str) -> list shape -> Prop :=
  | flat_nil : flat [] []
  | flat_keep t H ts out : (t.1 = KIdent -> T !! t.2 = None \/ t.2 ∈ H) ->
      flat ts out -> flat ((t, H) :: ts) (t :: out)
  | flat_replace H name body b ts out : T !! name = Some body -> name ∉ H -> replacement body b ->
      flat (((fun t => (t, {[name]} ∪ H)) <$> b) ++ ts) out -> flat (((KIdent, name), H) :: ts) out.

  (** A derivation of a concatenation is not smaller than those of its parts, so
      scan follows by induction on the size. *)
  Inductive flatn : nat -> list (shape * gset str) -> list shape -> Prop :=
  | flatn_nil : flatn 0 [] []
  | flatn_keep n t H ts out : (t.1 = KIdent -> T !! t.2 = None \/ t.2 ∈ H) ->
      flatn n ts out -> flatn (S n) ((t, H) :: ts) (t :: out)
  | flatn_replace n H name body b ts out : T !! name = Some body -> name ∉ H -> replacement body b ->
      flatn n (((fun t => (t, {[name]} ∪ H)) <$> b) ++ ts) out -> flatn (S n) (((KIdent, name), H) :: ts) out.
  Lemma flat_flatn l out : flat l out -> exists n, flatn n l out.
  Proof.
    induction 1 as [|t H ts out Ht Hf [n IH]|H name body b ts out Hn Hh Hb Hf [n IH]].
    - eexists. constructor.
    - eexists. by constructor.
    - eexists. by eapply flatn_replace.
  Qed.
  Lemma flatn_split n l out : flatn n l out -> forall l1 l2, l = l1 ++ l2 ->
    exists n1 n2 o1 o2, n1 <= n /\ n2 <= n /\ out = o1 ++ o2 /\ flatn n1 l1 o1 /\ flatn n2 l2 o2.
  Proof.
    induction 1 as [|n t H ts out Ht Hf IH|n H name body b ts out Hn Hh Hb Hf IH]; intros l1 l2 E.
    - symmetry in E. apply app_eq_nil in E as [-> ->]. exists 0, 0, [], []. repeat constructor.
    - destruct l1 as [|x l1]; cbn in E.
      + subst l2. exists 0, (S n), [], (t :: out). split; [lia|]. split; [lia|]. split; [done|]. split; constructor; auto.
      + injection E as <- ->. destruct (IH l1 l2 eq_refl) as (n1 & n2 & o1 & o2 & Hn1 & Hn2 & -> & H1 & H2).
        exists (S n1), n2, (t :: o1), o2. split; [lia|]. split; [lia|]. split; [done|]. split; [by constructor|done].
    - destruct l1 as [|x l1]; cbn in E.
      + subst l2. exists 0, (S n), [], out. split; [lia|]. split; [lia|]. split; [done|]. split; [constructor|]. by eapply flatn_replace.
      + injection E as <- ->.
        destruct (IH (((fun t => (t, {[name]} ∪ H)) <$> b) ++ l1) l2) as (n1 & n2 & o1 & o2 & Hn1 & Hn2 & -> & H1 & H2);
          [by rewrite app_assoc|].
        exists (S n1), n2, o1, o2. split; [lia|]. split; [lia|]. split; [done|]. split; [by eapply flatn_replace|done].
  Qed.
  Lemma flatn_scan n : forall H ts out, flatn n ((fun t => (t, H)) <$> ts) out -> scan T H ts out.
  Proof.
    induction (lt_wf n) as [n _ IH]. intros H ts out Hf. destruct ts as [|t ts]; cbn in Hf.
    - inversion Hf; subst. constructor.
    - inversion Hf as [|n' t' H' ts' out' Ht Hf' E1 E2 E3|n' H' name body b ts' out' Hn Hh Hb Hf' E1 E2 E3]; subst.
      + constructor; [done|]. eapply IH; [|done]. lia.
      + apply flatn_split with (l1 := (fun t => (t, {[name]} ∪ H)) <$> b) (l2 := (fun t => (t, H)) <$> ts) in Hf'
          as (n1 & n2 & o1 & o2 & Hn1 & Hn2 & -> & H1 & H2); [|done].
        eapply scan_replace; try done; eapply IH; try done; lia.
  Qed.
  Lemma flat_scan H ts out : flat ((fun t => (t, H)) <$> ts) out -> scan T H ts out.
  Proof. intros Hf. apply flat_flatn in Hf as [n Hf]. by eapply flatn_scan. Qed.
End flat.

(** ** The invariant *)
Section refine.
  Context (table : gmap str macro).
  Notation T := (bodies table).
  Hypothesis Hobj : object_like table.
  Hypothesis Hpaste : well_pasted T.
  Hypothesis Hrec : no_mutual_recursion T.

  (** [own]: the macro a token object was made for. *)
  Record inv (own : gmap nat str) (s : st) : Prop := {
    inv_hid : forall p x, x ∈ default ∅ (hid s !! p) -> exists m, own !! p = Some m /\ rtc (mentions T) x m;
    inv_fresh : forall p m, own !! p = Some m -> p < fresh s;
    inv_body : forall x m t, table !! x = Some m -> t ∈ m_body m -> own !! ptr t = Some x }.

  (** A token waiting to be looked at, with the macros being replaced. *)
  Definition placed (own : gmap nat str) (s : st) (a : tok * gset str) : Prop :=
    match own !! ptr a.1 with
    | None => a.2 = ∅ /\ ptr a.1 < fresh s
    | Some m =>
      m ∈ a.2 /\ (forall x, x ∈ a.2 -> rtc (mentions T) x m) /\
      (knd a.1 = KIdent -> m ∈ default ∅ (hid s !! ptr a.1)) /\
      (knd a.1 = KIdent -> is_Some (T !! txt a.1) -> mentions T m (txt a.1))
    end.

  Lemma only_self m x : mentions T m x -> rtc (mentions T) x m -> x = m.
  Proof.
    intros H1 H2. apply rtc_tc in H2 as [->|H2]; [done|].
    symmetry. apply Hrec; [by constructor|done].
  Qed.

  Lemma hidden_iff own s t H : inv own s -> placed own s (t, H) -> knd t = KIdent -> is_Some (T !! txt t) ->
    txt t ∈ default ∅ (hid s !! ptr t) <-> txt t ∈ H.
  Proof.
    intros I P Hk Ht. unfold placed in P. cbn [fst snd] in P. split; intros Hx.
    - destruct (inv_hid _ _ I _ _ Hx) as (m & Em & Hr). rewrite Em in P. destruct P as (Hm & _ & _ & Hment).
      rewrite (only_self m (txt t)); auto.
    - destruct (own !! ptr t) as [m|]; [|destruct P as [-> _]; set_solver].
      destruct P as (Hm & Hpath & Hhid & Hment).
      rewrite (only_self m (txt t)); auto.
  Qed.

  Lemma lookup_bodies x m : table !! x = Some m -> T !! x = Some (shapes (m_body m)).
  Proof. intros H. unfold bodies. by rewrite lookup_fmap, H. Qed.
  Lemma lookup_bodies_none x : table !! x = None -> T !! x = None.
  Proof. intros H. unfold bodies. by rewrite lookup_fmap, H. Qed.

  (** Extending the ownership to the tokens of one replacement. *)
  Definition claim (x : str) (own : gmap nat str) (os : list tok) : gmap nat str :=
    foldr (fun t o => <[ptr t := x]> o) own os.
  Lemma claim_in x own os t : t ∈ os -> claim x own os !! ptr t = Some x.
  Proof.
    induction os as [|t' os IH]; intros Hin; [by apply elem_of_nil in Hin|]. cbn.
    destruct (decide (ptr t' = ptr t)) as [->|]; [apply lookup_insert|]. rewrite lookup_insert_ne by done.
    apply elem_of_cons in Hin as [->|Hin]; [done|auto].
  Qed.
  Lemma claim_out x own os p : (forall t, t ∈ os -> ptr t <> p) -> claim x own os !! p = own !! p.
  Proof.
    induction os as [|t' os IH]; intros Hn; [done|]. cbn. rewrite lookup_insert_ne by (apply Hn; by left).
    apply IH. intros t Ht. apply Hn. by right.
  Qed.
  Lemma claim_cases (os : list tok) (p : nat) : (exists t, t ∈ os /\ ptr t = p) \/ (forall t, t ∈ os -> ptr t <> p).
  Proof.
    induction os as [|t os IH]; [right; intros t Ht; by apply elem_of_nil in Ht|].
    destruct (decide (ptr t = p)) as [E|N].
    - left. exists t. split; [by left|done].
    - destruct IH as [(t' & Ht' & E)|Hn]; [left; exists t'; split; [by right|done]|right].
      intros t' Ht'. apply elem_of_cons in Ht' as [->|Ht']; auto.
  Qed.

  Theorem expand_flat fuel : forall own out (todo : list (tok * gset str)) s out' s',
    inv own s -> Forall (placed own s) todo ->
    macro_expand table fuel out (fst <$> todo) s = Ok (out', s') ->
    exists res own', out' = out ++ res /\ flat T ((fun a => (shape_of a.1, a.2)) <$> todo) (shapes res) /\
      inv own' s' /\ fresh s <= fresh s'.
  Proof.
    induction fuel as [|fuel IH]; intros own out todo s out' s' I P E; [done|].
    destruct todo as [|[t H] rest].
    { cbn in E. injection E as <- <-. exists [], own. rewrite app_nil_r. split_and!; try done. constructor. }
    apply Forall_cons_1 in P as [Pt Pr]. cbn [fmap list_fmap fst snd] in *. cbn [macro_expand] in E.
    assert (Hkeep: macro_expand table fuel (out ++ [t]) (fst <$> rest) s = Ok (out', s') ->
      (knd t = KIdent -> T !! txt t = None \/ txt t ∈ H) ->
      exists res own', out' = out ++ res /\
        flat T ((shape_of t, H) :: ((fun a => (shape_of a.1, a.2)) <$> rest)) (shapes res) /\
        inv own' s' /\ fresh s <= fresh s').
    { intros E' Hh. destruct (IH own (out ++ [t]) rest s out' s' I Pr E') as (res & own' & -> & Hf & I' & Hfr).
      exists (t :: res), own'. split; [by rewrite <-app_assoc|]. split; [|done].
      cbn. apply flat_keep; [exact Hh|done]. }
    destruct (knd t) eqn:Ek; try (apply Hkeep; [exact E|done]).
    destruct (table !! txt t) as [m|] eqn:Em.
    2:{ apply Hkeep; [exact E|]. intros _. left. by apply lookup_bodies_none. }
    pose proof (lookup_bodies _ _ Em) as ET.
    assert (Hiff := hidden_iff own s t H I Pt Ek ltac:(eauto)).
    unfold get_hideset in E. case_bool_decide as Hh.
    { apply Hkeep; [exact E|]. intros _. right. by apply Hiff. }
    destruct (Hobj _ _ Em) as [Hp Hv]. rewrite Hp in E.
    destruct (Hpaste _ _ ET) as [b Hb].
    destruct (subst_obj (macro_expand table fuel []) m Hp Hv (default ∅ (hid s !! ptr t) ∪ {[txt t]}) s)
      as (os & s1 & Es & _ & Hhid & _ & Hfr & Hin).
    destruct (subst_replacement (macro_expand table fuel []) m Hp Hv b (default ∅ (hid s !! ptr t) ∪ {[txt t]}) s Hb)
      as (os2 & s2 & Es2 & Hsh).
    rewrite Es in Es2. injection Es2 as <- <-.
    rewrite Es in E. cbn [bindr] in E.
    (* the path leading to the new macro *)
    assert (Hpath: forall x, x ∈ default ∅ (hid s !! ptr t) ∪ {[txt t]} -> rtc (mentions T) x (txt t)).
    { intros x Hx. apply elem_of_union in Hx as [Hx|Hx]; [|apply elem_of_singleton in Hx as ->; constructor].
      destruct (inv_hid _ _ I _ _ Hx) as (m' & Em' & Hr). unfold placed in Pt. cbn [fst snd] in Pt. rewrite Em' in Pt.
      destruct Pt as (_ & _ & _ & Hment). eapply rtc_r; [exact Hr|]. apply Hment; eauto. }
    assert (HpathH: forall x, x ∈ {[txt t]} ∪ H -> rtc (mentions T) x (txt t)).
    { intros x Hx. apply elem_of_union in Hx as [Hx|Hx]; [apply elem_of_singleton in Hx as ->; constructor|].
      unfold placed in Pt. cbn [fst snd] in Pt. destruct (own !! ptr t) as [m'|]; [|destruct Pt as [-> _]; set_solver].
      destruct Pt as (_ & Hr & _ & Hment). eapply rtc_r; [by apply Hr|]. apply Hment; eauto. }
    (* tokens of the replacement: owned by this macro, or by none *)
    assert (Hown: forall t0, t0 ∈ os -> own !! ptr t0 = Some (txt t) \/ (own !! ptr t0 = None /\ fresh s <= ptr t0 < fresh s1)).
    { intros t0 Ht0. apply Hin in Ht0 as [Ht0|Ht0]; [left; by eapply (inv_body _ _ I)|].
      right. split; [|done]. destruct (own !! ptr t0) as [m'|] eqn:Eo; [|done]. apply (inv_fresh _ _ I) in Eo. lia. }
    set (own1 := claim (txt t) own os).
    assert (Hext: forall p m', own !! p = Some m' -> own1 !! p = Some m').
    { intros p m' Ho. unfold own1. destruct (claim_cases os p) as [(t0 & Ht0 & <-)|Hn].
      - rewrite claim_in by done. destruct (Hown t0 Ht0) as [Ho'|[Ho' _]]; congruence.
      - by rewrite claim_out. }
    assert (I1: inv own1 s1).
    { constructor.
      - intros p x Hx. rewrite Hhid in Hx. apply hsadd_from in Hx as [Hx|(Hx & t0 & Ht0 & <-)].
        + destruct (inv_hid _ _ I _ _ Hx) as (m' & Em' & Hr). exists m'. split; [by apply Hext|done].
        + exists (txt t). split; [by apply claim_in|auto].
      - intros p m' Ho. unfold own1 in Ho. destruct (claim_cases os p) as [(t0 & Ht0 & <-)|Hn].
        + destruct (Hown t0 Ht0) as [Ho'|[_ ?]]; [apply (inv_fresh _ _ I) in Ho'; lia|lia].
        + rewrite claim_out in Ho by done. apply (inv_fresh _ _ I) in Ho. lia.
      - intros x m' t0 Hx Ht0. apply Hext. by eapply (inv_body _ _ I). }
    assert (P1: Forall (placed own1 s1) (((fun t0 => (t0, {[txt t]} ∪ H)) <$> os) ++ rest)).
    { apply Forall_app. split.
      - apply Forall_fmap. apply Forall_forall. intros t0 Ht0. unfold compose, placed. cbn [fst snd].
        unfold own1. rewrite claim_in by done. split; [set_solver|]. split; [done|]. split.
        + intros Hk0. rewrite Hhid. apply (hsadd_new _ _ os t0 Ht0 Hk0). set_solver.
        + intros Hk0 Hs0. exists (shapes (m_body m)), b. split; [done|]. split; [done|]. split; [|done].
          rewrite <-Hsh. apply elem_of_list_fmap. exists t0. split; [|done]. unfold shape_of. by rewrite Hk0.
      - eapply Forall_impl; [exact Pr|]. intros [t0 H0] P0. unfold placed in *. cbn [fst snd] in *.
        destruct (own !! ptr t0) as [m'|] eqn:Eo.
        + rewrite (Hext _ _ Eo). destruct P0 as (Q1 & Q2 & Q3 & Q4). split; [done|]. split; [done|]. split; [|done].
          intros Hk0. rewrite Hhid. apply (hsadd_mono _ _ os). auto.
        + destruct P0 as [-> Hlt]. unfold own1. rewrite claim_out.
          * rewrite Eo. split; [done|lia].
          * intros t1 Ht1 Ep. destruct (Hown t1 Ht1) as [Ho'|[_ ?]]; [congruence|lia]. }
    assert (Efst: fst <$> (((fun t0 => (t0, {[txt t]} ∪ H)) <$> os) ++ rest) = os ++ (fst <$> rest)).
    { rewrite fmap_app. f_equal. rewrite <-list_fmap_compose. apply list_fmap_id. }
    rewrite <-Efst in E.
    destruct (IH own1 out _ s1 out' s' I1 P1 E) as (res & own' & -> & Hf & I' & Hfr').
    exists res, own'. split; [done|]. split; [|split; [done|lia]].
    rewrite fmap_app, <-list_fmap_compose in Hf.
    assert (shape_of t = (KIdent, txt t)) as -> by (unfold shape_of; by rewrite Ek).
    eapply flat_replace; [exact ET| |exact Hb|].
    - intros Hc. apply Hh. by apply Hiff.
    - rewrite <-Hsh. unfold shapes. rewrite <-list_fmap_compose. exact Hf.
  Qed.

  Lemma lex_ptr n text t : t ∈ lex n text -> n <= ptr t < n + length text.
  Proof.
    revert n. induction text as [|[k x] text IH]; intros n Ht; [by apply elem_of_nil in Ht|].
    cbn in *. apply elem_of_cons in Ht as [->|Ht]; [cbn; lia|]. apply IH in Ht. lia.
  Qed.
  Lemma lex_shapes n text : shapes (lex n text) = text.
  Proof. revert n. induction text as [|[k x] text IH]; intros n; [done|]. cbn. by rewrite IH. Qed.

  Lemma texts_scan fuel texts : forall own s outs s', inv own s ->
    expand_texts table fuel s texts = Ok (outs, s') -> Forall2 (scan T ∅) texts outs.
  Proof.
    induction texts as [|text texts IH]; intros own s outs s' I E; cbn [expand_texts] in E.
    { injection E as <- <-. constructor. }
    destruct (macro_expand table fuel [] (lex (fresh s) text) _) as [[out s1]| | |] eqn:E1; cbn [bindr] in E; try done.
    destruct (expand_texts table fuel s1 texts) as [[outs' s2]| | |] eqn:E2; cbn [bindr] in E; try done.
    injection E as <- <-.
    set (s0 := St (hid s) (fresh s + length text) (src s)) in *.
    assert (I0: inv own s0).
    { destruct I as [Ia Ib Ic]. constructor; [exact Ia| |exact Ic]. intros p m Hp. apply Ib in Hp. cbn. lia. }
    set (todo := (fun t => (t, ∅ : gset str)) <$> lex (fresh s) text).
    assert (Ef: fst <$> todo = lex (fresh s) text).
    { unfold todo. rewrite <-list_fmap_compose. apply list_fmap_id. }
    rewrite <-Ef in E1.
    destruct (expand_flat fuel own [] todo s0 out s1 I0) as (res & own' & -> & Hf & I' & _); [|done|].
    { unfold todo. apply Forall_fmap. apply Forall_forall. intros t Ht. apply lex_ptr in Ht.
      unfold compose, placed. cbn [fst snd]. destruct (own !! ptr t) as [m|] eqn:Eo.
      - apply (inv_fresh _ _ I) in Eo. lia.
      - split; [done|]. cbn. lia. }
    constructor; [|by eapply IH].
    apply flat_scan. cbn [app]. unfold todo in Hf. rewrite <-list_fmap_compose in Hf.
    rewrite <-(lex_shapes (fresh s) text) at 1. unfold shapes at 1. rewrite <-list_fmap_compose. exact Hf.
  Qed.
End refine.

Lemma init_inv table n sr : allocated_below n table ->
  exists own, inv table own (St ∅ n sr).
Proof.
  intros Ha.
  assert (He: exists own : gmap nat str, (forall p m, own !! p = Some m -> exists x M t, table !! x = Some M /\ t ∈ m_body M /\ ptr t = p /\ x = m) /\
    (forall x m t, table !! x = Some m -> t ∈ m_body m -> own !! ptr t = Some x)).
  { clear -Ha. revert Ha. induction table as [|i m tb Hi IH] using map_ind; intros Ha.
    - exists ∅. split; [intros p m Hp; by rewrite lookup_empty in Hp|intros x m t Hx; by rewrite lookup_empty in Hx].
    - destruct IH as (own & Hf & Hb).
      { intros x1 m1 t1 x2 m2 t2 E1 H1 E2 H2. eapply Ha; try done; (rewrite lookup_insert_ne; [done|intros ->; congruence]). }
      exists (claim i own (m_body m)). split.
      + intros p x Hp. destruct (claim_cases (m_body m) p) as [(t & Ht & <-)|Hn].
        * rewrite claim_in in Hp by done. injection Hp as <-. exists i, m, t. by rewrite lookup_insert.
        * rewrite claim_out in Hp by done. destruct (Hf _ _ Hp) as (x' & M & t & E1 & Ht & <- & <-).
          exists x', M, t. split; [|done]. rewrite lookup_insert_ne; [done|]. intros ->. congruence.
      + intros x m' t Hx Ht. destruct (decide (i = x)) as [->|Hne].
        * rewrite lookup_insert in Hx. injection Hx as ->. by apply claim_in.
        * pose proof Hx as Hx'. rewrite lookup_insert_ne in Hx by done.
          rewrite claim_out; [by eapply Hb|]. intros t0 Ht0 Ep. apply Hne.
          eapply (Ha i m t0 x m' t); try done. by rewrite lookup_insert. }
  destruct He as (own & Hf & Hb). exists own. constructor; cbn.
  - intros p x Hx. rewrite lookup_empty in Hx. cbn in Hx. set_solver.
  - intros p m Hp. destruct (Hf _ _ Hp) as (x & M & t & E1 & Ht & <- & <-). by apply (Ha x M t x M t).
  - exact Hb.
Qed.

Theorem expands_as_standard table n sr fuel texts outs s' :
  object_like table -> allocated_below n table -> well_pasted (bodies table) ->
  no_mutual_recursion (bodies table) ->
  expand_texts table fuel (St ∅ n sr) texts = Ok (outs, s') ->
  Forall2 (scan (bodies table) ∅) texts outs.
Proof.
  intros Ho Ha Hp Hr E. destruct (init_inv table n sr Ha) as [own I]. by eapply texts_scan.
Qed.

Theorem texts_end table s texts : object_like table ->
  exists k r, forall fuel, k <= fuel -> expand_texts table fuel s texts = Ok r.
Proof.
  intros Ho. revert s. induction texts as [|text texts IH]; intros s; [by exists 0, ([], s)|].
  destruct (terminates table Ho [] (lex (fresh s) text) (St (hid s) (fresh s + length text) (src s))) as (k1 & [out s1] & H1).
  destruct (IH s1) as (k2 & [outs s2] & H2). exists (Nat.max k1 k2), (shapes out :: outs, s2).
  intros fuel Hf. cbn [expand_texts]. rewrite H1 by lia. cbn [bindr]. rewrite H2 by lia. done.
Qed.

(** #define C A / #define A B / #define B C *)
Definition cyclic : gmap str macro :=
  list_to_map [([67]%Z, Macro None None [Tok 1 KIdent [65]%Z]); ([65]%Z, Macro None None [Tok 2 KIdent [66]%Z]);
               ([66]%Z, Macro None None [Tok 3 KIdent [67]%Z])].
Lemma history_matters :
  exists table n text before o1 o2 fuel s1 s2, object_like table /\ allocated_below n table /\
    well_pasted (bodies table) /\
    expand_texts table fuel (St ∅ n []) [text] = Ok ([o1], s1) /\
    expand_texts table fuel (St ∅ n []) [before; text] = Ok (o2, s2) /\ last o2 <> Some o1.
Proof.
  exists cyclic, 4, [(KIdent, [65]%Z)], [(KIdent, [67]%Z)], [(KIdent, [65]%Z)], [[(KIdent, [67]%Z)]; [(KIdent, [67]%Z)]], 20.
  eexists. eexists. split; [|split; [|split; [|split; [vm_compute; reflexivity|split; [vm_compute; reflexivity|done]]]]].
  - intros x m Hx. apply elem_of_list_to_map_2 in Hx. cbn in Hx.
    rewrite !elem_of_cons, elem_of_nil in Hx. destruct Hx as [H|[H|[H|[]]]]; injection H as -> ->; done.
  - intros x1 m1 t1 x2 m2 t2 E1 H1 E2 H2.
    apply elem_of_list_to_map_2 in E1, E2. rewrite !elem_of_cons, elem_of_nil in E1, E2.
    destruct E1 as [H|[H|[H|[]]]]; injection H as -> ->; apply elem_of_list_singleton in H1 as ->; (split; [cbn; lia|]);
    destruct E2 as [H|[H|[H|[]]]]; injection H as -> ->; apply elem_of_list_singleton in H2 as ->; cbn; done.
  - intros x body Hx. unfold bodies in Hx. rewrite lookup_fmap in Hx. destruct (cyclic !! x) as [m|] eqn:E; [|done].
    cbn in Hx. injection Hx as <-. exists (shapes (m_body m)).
    apply elem_of_list_to_map_2 in E. rewrite !elem_of_cons, elem_of_nil in E.
    destruct E as [H|[H|[H|[]]]]; injection H as -> ->; cbn; (apply R_one; [done|done|constructor]).
Qed.

Lemma replacement_det b o1 : replacement b o1 -> forall o2, replacement b o2 -> o1 = o2.
Proof.
  induction 1 as [|t rest out H1 H2 H IH|t1 c t2 rest out H1 H2 H3 H IH]; intros o2 Ho; inversion Ho as [|t' rest' out' K1 K2 K|t1' c' t2' rest' out' K1 K2 K3 K]; subst; try done.
  - f_equal. by apply IH.
  - exfalso. by apply (H2 c').
  - exfalso. by apply (K2 c).
  - by apply IH.
Qed.
Lemma scan_det T H ts o1 : scan T H ts o1 -> forall o2, scan T H ts o2 -> o1 = o2.
Proof.
  induction 1 as [H|H t ts out Hk Hs IH|H name body b ts o1 o2 HT Hn Hr Hs1 IH1 Hs2 IH2]; intros o' Ho.
  - by inversion Ho.
  - inversion Ho as [|? ? ? ? Hk' Hs'|? name' body' b' ? o1' o2' HT' Hn' Hr' Hs1' Hs2']; subst.
    + f_equal. by apply IH.
    + destruct (Hk eq_refl) as [E|E]; cbn in E; congruence.
  - inversion Ho as [|? ? ? ? Hk' Hs'|? name' body' b' ? o1' o2' HT' Hn' Hr' Hs1' Hs2']; subst.
    + destruct (Hk' eq_refl) as [E|E]; cbn in E; congruence.
    + assert (body' = body) as -> by congruence. rewrite (replacement_det _ _ Hr' _ Hr) in Hs1'.
      f_equal; [by apply IH1|by apply IH2].
Qed.
Theorem no_history table n sr fuel text before o1 s1 os s2 :
  object_like table -> allocated_below n table -> well_pasted (bodies table) ->
  no_mutual_recursion (bodies table) ->
  expand_texts table fuel (St ∅ n sr) [text] = Ok ([o1], s1) ->
  expand_texts table fuel (St ∅ n sr) (before ++ [text]) = Ok (os, s2) -> last os = Some o1.
Proof.
  intros Ho Ha Hp Hr E1 E2.
  pose proof (expands_as_standard _ _ _ _ _ _ _ Ho Ha Hp Hr E1) as H1.
  pose proof (expands_as_standard _ _ _ _ _ _ _ Ho Ha Hp Hr E2) as H2.
  apply Forall2_cons_inv_l in H1 as (o & l & H1 & _ & Eo). injection Eo as <- <-.
  apply Forall2_app_inv_l in H2 as (l1 & l2 & _ & H2 & ->).
  apply Forall2_cons_inv_l in H2 as (o2 & l3 & H2 & Hn & ->). apply Forall2_nil_inv_l in Hn as ->.
  rewrite last_snoc. f_equal. by eapply scan_det.
Qed.
