(** Proofs about conditional inclusion, part 2: the stack machine selects the
    groups the standard selects. *)
From stdpp Require Import base list numbers option.
From Verif Require Import Cpp.Cond_model Cpp.Cond_spec Cpp.Cond_proof.

Lemma names_letter name : name ∈ conditional_names -> letter_first name.
Proof.
  unfold conditional_names. rewrite !elem_of_cons, elem_of_nil.
  intros [->|[->|[->|[->|[->|[->|[]]]]]]]; eexists _, _; (split; [reflexivity|lia]).
Qed.
Lemma names_ident name : name ∈ conditional_names -> Forall ident_char name.
Proof.
  unfold conditional_names. rewrite !elem_of_cons, elem_of_nil.
  intros [->|[->|[->|[->|[->|[->|[]]]]]]]; repeat (apply List.Forall_cons; [unfold ident_char; lia|]); apply List.Forall_nil.
Qed.

Ltac inlist := unfold conditional_names; rewrite ?elem_of_cons, ?elem_of_nil; tauto.

Lemma keyword_other d name name' t : name ∈ conditional_names -> name' ∈ conditional_names ->
  name <> name' -> keyword d name = Some t -> keyword d name' = None.
Proof.
  intros H1 H2 Hne Hk. destruct (keyword d name') as [t'|] eqn:E; [|done].
  destruct Hne. by eapply (keyword_unique d name name' t t'); eauto using names_ident.
Qed.

Lemma keyword_nodigit d name t : name ∈ conditional_names -> keyword d name = Some t ->
  match d with c :: _ => isdigit c | [] => false end = false.
Proof.
  intros (c & w & -> & Hc)%names_letter Hk. apply keyword_spec in Hk as (sp & _ & -> & _).
  cbn. unfold isdigit. lia.
Qed.

(** The kinds of line. *)
Inductive line_kind (line : str) : Prop :=
| lk_error : find_directive line = None -> line_kind line
| lk_text : is_text line -> line_kind line
| lk_dir name t : name ∈ conditional_names -> is_directive name line t -> line_kind line
| lk_marker : is_marker line -> line_kind line
| lk_other : is_other line -> ~ is_marker line -> line_kind line.

Lemma directive_text_hash line d : directive_text line d -> has_hash line.
Proof. intros (b1 & b2 & r & ? & ? & -> & _). by exists b1, (b2 ++ r). Qed.

Lemma marker_text line : is_marker line <->
  exists d, find_directive line = Some (Some d) /\
    match d with c :: _ => isdigit c | [] => false end = true.
Proof.
  split.
  - intros (b1 & b2 & c & t & Hb1 & Hb2 & Hc & ->). exists (c :: t). split; [|unfold isdigit; lia].
    apply find_directive_text. exists b1, b2, (c :: t). split_and!; [done..| | |].
    + intros ?? [= <- _]. unfold space. rewrite !elem_of_cons, elem_of_nil. lia.
    + intros x [= ->]. lia.
    + left. split; [done|]. intros x [= ->]. lia.
  - intros (d & Hd & Hc). apply find_directive_inv in Hd as (b1 & b2 & r & Hb1 & Hb2 & -> & _ & _ & Hd).
    destruct Hd as [[-> _]|[-> _]]; [|done]. destruct r as [|c r]; [done|].
    exists b1, b2, c, r. split_and!; try done; unfold isdigit in Hc; lia.
Qed.

Lemma line_kinds line : line_kind line.
Proof.
  destruct (find_directive line) as [[d|]|] eqn:E.
  - destruct (match d with c :: _ => isdigit c | [] => false end) eqn:Em.
    { apply lk_marker. apply marker_text. eauto. }
    assert (Hk: (exists name t, name ∈ conditional_names /\ keyword d name = Some t) \/
                (forall name, name ∈ conditional_names -> keyword d name = None)).
    { clear. induction conditional_names as [|n l IH].
      - right. intros ? ?%elem_of_nil. done.
      - destruct (keyword d n) as [t|] eqn:E; [left; exists n, t; split; [left|done]|].
        destruct IH as [(n' & t & ? & ?)|H]; [left; exists n', t; split; [by right|done]|].
        right. intros n' [->|?]%elem_of_cons; auto. }
    destruct Hk as [(name & t & Hn & Hk)|Hno].
    + eapply lk_dir; [done|]. apply is_directive_keyword; [by apply names_letter|]. eauto.
    + apply lk_other.
      * split; [apply find_directive_inv in E; by eapply directive_text_hash|].
        intros name t Hn Hd. apply is_directive_keyword in Hd as (d' & Hd' & Hk); [|by apply names_letter].
        rewrite E in Hd'. injection Hd' as <-. by rewrite Hno in Hk.
      * rewrite marker_text. intros (d' & Hd' & Hc). rewrite E in Hd'. injection Hd' as <-. by rewrite Em in Hc.
  - apply lk_text. by apply find_directive_inv in E.
  - by apply lk_error.
Qed.

Section machine.
  Context {S : Type} (Or : oracles S).
  Implicit Types st : state S.

  Lemma pd_text st line : is_text line -> process_directive Or st line = Some (st, Some line).
  Proof. intros H. unfold process_directive. by rewrite find_directive_no_hash. Qed.

  Lemma pd_marker st line : is_marker line ->
    process_directive Or st line =
      (s ← o_marker Or (other st) line; Some (St (condstack st) (enable st) (satisfy st) s, None)).
  Proof.
    intros (d & Hd & Hc)%marker_text. unfold process_directive. rewrite Hd. cbn [mbind option_bind].
    by rewrite Hc.
  Qed.

  Lemma pd_other st line d : is_other line -> ~ is_marker line -> find_directive line = Some (Some d) ->
    process_directive Or st line =
      if enable st
      then '(s, next) ← o_dir Or (other st) d;
           Some (St (condstack st) (enable st) (satisfy st) s, next)
      else Some (st, None).
  Proof.
    intros [_ Hno] Hm Hd. unfold process_directive. rewrite Hd. cbn [mbind option_bind].
    destruct (match d with c :: _ => isdigit c | [] => false end) eqn:E.
    { destruct Hm. apply marker_text. eauto. }
    assert (Hk: forall name, name ∈ conditional_names -> keyword d name = None).
    { intros name Hn. destruct (keyword d name) as [t|] eqn:Ek; [|done].
      destruct (Hno name t Hn). apply is_directive_keyword; [by apply names_letter|]. eauto. }
    rewrite !Hk by inlist. done.
  Qed.

  Ltac pd_start H :=
    let d := fresh "d" in let Hd := fresh "Hd" in let Hk := fresh "Hk" in
    apply is_directive_keyword in H as (d & Hd & Hk); [|by apply names_letter; inlist];
    unfold process_directive; rewrite Hd; cbn [mbind option_bind];
    lazymatch type of Hk with keyword _ ?n = Some ?t =>
      rewrite (keyword_nodigit d n t ltac:(inlist) Hk);
      repeat match goal with
      | |- context [keyword d ?w] =>
          first [rewrite Hk | rewrite (keyword_other d n w t ltac:(inlist) ltac:(inlist) ltac:(discriminate) Hk)]
      end
    end.

  Lemma pd_ifdef st line c : is_directive w_ifdef line c ->
    process_directive Or st line =
      ('(v, t) ← o_ifdef Or (other st) c; Some (open_section st v, Some t)).
  Proof. intros H. pd_start H. done. Qed.

  Lemma pd_ifndef st line c : is_directive w_ifndef line c ->
    process_directive Or st line =
      ('(v, t) ← o_ifdef Or (other st) c; Some (open_section st (negb v), Some t)).
  Proof. intros H. pd_start H. done. Qed.

  Lemma pd_if st line c : is_directive w_if line c ->
    process_directive Or st line =
      ('(v, t) ← o_if Or (other st) (enable st) c; Some (open_section st v, t)).
  Proof. intros H. pd_start H. done. Qed.

  Lemma pd_else st line t : is_directive w_else line t ->
    process_directive Or st line =
      match condstack st with
      | [] => None
      | flag :: _ =>
        if (satisfy st =? ElseAppeared)%Z then None
        else Some (St (condstack st)
                      (negb (enable st) && (satisfy st =? NotSatisfied)%Z && is_enabled_flag flag)
                      ElseAppeared (other st), Some t)
      end.
  Proof. intros H. pd_start H. done. Qed.

  Lemma pd_elif st line c : is_directive w_elif line c ->
    process_directive Or st line =
      match condstack st with
      | [] => None
      | flag :: _ =>
        if (satisfy st =? ElseAppeared)%Z then None
        else
          '(cond2, next) ← o_if Or (other st) (enable st) c;
          let cond := (satisfy st =? NotSatisfied)%Z && cond2 in
          let sat := if (satisfy st =? NotSatisfied)%Z && cond then Satisfied else satisfy st in
          Some (St (condstack st) (negb (enable st) && cond && is_enabled_flag flag)
                   sat (other st), next)
      end.
  Proof. intros H. pd_start H. done. Qed.

  Lemma pd_endif st line t : is_directive w_endif line t ->
    process_directive Or st line =
      match condstack st with
      | [] => None
      | flag :: stack =>
        Some (St stack (is_enabled_flag flag)
                 (Z.shiftr (Z.land flag CF_SATISFY_MASK) CF_SATISFY_SHIFT) (other st), Some t)
      end.
  Proof. intros H. pd_start H. done. Qed.

  (** ** Completeness: what the standard accepts, the machine does. *)
  Notation exec st lines := (run Or (Datatypes.S (length lines)) st lines).
  Notation good line := (self_contained Or line /\ evaluable Or line).

  Lemma flag_enabled live sat : is_enabled_flag (cond_value live sat) = live.
  Proof.
    unfold is_enabled_flag, cond_value, CF_ENABLE, CF_SATISFY_SHIFT.
    rewrite Z.land_lor_distr_l.
    replace (Z.land (Z.shiftl sat 1) 1) with 0%Z.
    - by destruct live.
    - symmetry. apply Z.bits_inj'. intros n Hn. rewrite Z.land_spec, Z.bits_0.
      destruct (Z.eq_dec n 0%Z) as [->|]; [by rewrite Z.shiftl_spec_low|].
      change 1%Z with (2 ^ 0)%Z at 2. rewrite Z.pow2_bits_false by lia. apply andb_false_r.
  Qed.

  Definition small (sat : Z) : Prop := (sat = 0 \/ sat = 1 \/ sat = 2)%Z.

  Lemma flag_satisfy live sat : small sat ->
    Z.shiftr (Z.land (cond_value live sat) CF_SATISFY_MASK) CF_SATISFY_SHIFT = sat.
  Proof. intros [->|[->| ->]]; by destruct live. Qed.

  (** One line that leaves text to be processed. *)
  Lemma exec_text_dead st line rest st1 t :
    process_directive Or st line = Some (st1, t) -> enable st1 = false ->
    (forall t', t = Some t' -> closed t') ->
    exec st (line :: rest) = exec st1 rest.
  Proof.
    intros Hp He Hc. cbn [run length]. rewrite Hp. cbn [mbind option_bind].
    destruct t as [t|]; [|done]. rewrite He, closed_line by auto. done.
  Qed.

  Lemma exec_text st line rest st1 t live s' :
    process_directive Or st line = Some (st1, t) -> enable st1 = live ->
    text_effect Or live (other st1) t s' -> (forall t', t = Some t' -> closed t') ->
    exec st (line :: rest) = exec (St (condstack st1) live (satisfy st1) s') rest.
  Proof.
    intros Hp <- Ht Hc. destruct st1 as [cs en sat s]. cbn [enable other] in *.
    inversion Ht; subst; cbn [condstack satisfy].
    - cbn [run length]. rewrite Hp. cbn [mbind option_bind enable other].
      match goal with H : o_text _ _ _ = _ |- _ => rewrite H end. done.
    - cbn [run length]. rewrite Hp. done.
    - by eapply exec_text_dead.
  Qed.

  Scheme group_mind := Minimality for group Sort Prop
    with sections_mind := Minimality for sections Sort Prop.
  Combined Scheme group_sections_ind from group_mind, sections_mind.

  Lemma condition_step st line v t :
    self_contained Or line -> enable st = true -> condition Or (other st) line v t ->
    process_directive Or st line = Some (open_section st v, t) /\ (forall t', t = Some t' -> closed t').
  Proof.
    intros Hs He Hc. inversion Hc; subst.
    - rewrite (pd_ifdef _ _ _ H), H0. split; [done|]. intros ? [= <-].
      eapply (sc_ifdef _ _ Hs w_ifdef); eauto; inlist.
    - rewrite (pd_ifndef _ _ _ H), H0. split; [done|]. intros ? [= <-].
      eapply (sc_ifdef _ _ Hs w_ifndef); eauto; inlist.
    - rewrite (pd_if _ _ _ H), He, H0. split; [done|]. intros ? ->.
      eapply (sc_if _ _ Hs w_if); eauto; inlist.
  Qed.

  Lemma opens_step st line : good line -> opens line ->
    exists v t, process_directive Or st line = Some (open_section st v, t) /\
      (forall t', t = Some t' -> closed t').
  Proof.
    intros [Hs He] (name & c & Hn & Hd).
    rewrite !elem_of_cons, elem_of_nil in Hn. destruct Hn as [->|[->|[->|[]]]].
    - rewrite (pd_ifdef _ _ _ Hd).
      destruct (o_ifdef Or (other st) c) as [[v t]|] eqn:E.
      + exists v, (Some t). split; [done|]. intros ? [= <-]. eapply (sc_ifdef _ _ Hs w_ifdef); eauto; inlist.
      + by destruct (ev_ifdef _ _ He w_ifdef c (other st)); [inlist|..].
    - rewrite (pd_ifndef _ _ _ Hd).
      destruct (o_ifdef Or (other st) c) as [[v t]|] eqn:E.
      + exists (negb v), (Some t). split; [done|]. intros ? [= <-]. eapply (sc_ifdef _ _ Hs w_ifndef); eauto; inlist.
      + by destruct (ev_ifdef _ _ He w_ifndef c (other st)); [inlist|..].
    - rewrite (pd_if _ _ _ Hd).
      destruct (o_if Or (other st) (enable st) c) as [[v t]|] eqn:E.
      + exists v, t. split; [done|]. intros ? ->. eapply (sc_if _ _ Hs w_if); eauto; inlist.
      + by destruct (ev_if _ _ He w_if c (other st) (enable st)); [inlist|..].
  Qed.

  Lemma endif_step en sat live so stack s line t rest s' :
    self_contained Or line -> small so -> is_directive w_endif line t ->
    text_effect Or live s (Some t) s' ->
    exec (St (cond_value live so :: stack) en sat s) (line :: rest) = exec (St stack live so s') rest.
  Proof.
    intros Hs Hso Hd Ht.
    rewrite (exec_text _ line rest (St stack live so s) (Some t) live s'); [done| | |done|].
    - rewrite (pd_endif _ _ _ Hd). cbn [condstack]. by rewrite flag_enabled, flag_satisfy.
    - done.
    - intros ? [= <-]. eapply (sc_trail _ _ Hs w_endif); eauto; inlist.
  Qed.

  Lemma complete_both :
    (forall live s lines s', group Or live s lines s' ->
       Forall (fun l => good l) lines ->
       forall stack sat rest, small sat ->
         exec (St stack live sat s) (lines ++ rest) = exec (St stack live sat s') rest) /\
    (forall live done s lines s', sections Or live done s lines s' ->
       Forall (fun l => good l) lines ->
       forall stack so en sat rest, small so ->
         (live = true -> sat = if done then Satisfied else NotSatisfied) ->
         (sat = NotSatisfied \/ sat = Satisfied) ->
         (sat = NotSatisfied -> en = false) -> (live = false -> en = false) ->
         exec (St (cond_value live so :: stack) en sat s) (lines ++ rest) =
         exec (St stack live so s') rest).
  Proof.
    apply group_sections_ind.
    - (* nil *) done.
    - (* text *) intros live s line lines s1 s2 Ht He _ IH [Hg Hl]%Forall_cons_1 stack sat rest Hsat.
      cbn [app].
      rewrite (exec_text _ line (lines ++ rest) (St stack live sat s) (Some line) live s1).
      + by apply IH.
      + by apply pd_text.
      + done.
      + done.
      + intros ? [= <-]. by apply Hg.
    - (* other *) intros live s line lines s1 s2 Ho Hm He _ IH [Hg Hl]%Forall_cons_1 stack sat rest Hsat.
      cbn [app]. destruct Hg as [Hg _].
      destruct (sc_hash _ _ Hg (proj1 Ho)) as [d Hd].
      apply find_directive_text in Hd.
      inversion He as [? d0 ? sx t ? Hd0 Ho0 Ht0|]; subst.
      + apply find_directive_text in Hd0. rewrite Hd in Hd0. injection Hd0 as <-.
        assert (Hp: process_directive Or (St stack true sat s) line = Some (St stack true sat sx, t)).
        { erewrite pd_other by done. cbn [enable other]. rewrite Ho0. done. }
        cbn [run length]. rewrite Hp. cbn [mbind option_bind].
        inversion Ht0; subst.
        * cbn [enable other]. match goal with H : o_text _ _ _ = _ |- _ => rewrite H end. by apply IH.
        * by apply IH.
      + assert (Hp: process_directive Or (St stack false sat s1) line = Some (St stack false sat s1, None)).
        { erewrite pd_other by done. done. }
        cbn [run length]. rewrite Hp. cbn [mbind option_bind]. by apply IH.
    - (* marker *) intros live s line lines s1 s2 Hm Ho _ IH [Hg Hl]%Forall_cons_1 stack sat rest Hsat.
      cbn [app]. cbn [run length]. rewrite pd_marker by done. cbn [other]. rewrite Ho. cbn [mbind option_bind].
      by apply IH.
    - (* section *)
      intros s line v t body s1 s2 tail s3 lines s4 Hc Ht _ IHb _ IHt _ IHl [Hg Hl]%Forall_cons_1 stack sat rest Hsat.
      apply Forall_app in Hl as [Hlb [Hlt Hll]%Forall_app].
      destruct (condition_step (St stack true sat s) line v t) as [Hp Hcl]; [apply Hg|done|done|].
      cbn [app]. rewrite <-!app_assoc.
      rewrite (exec_text _ line _ _ t v s1 Hp).
      2:{ cbn. by destruct v. } 2:{ done. } 2:{ done. }
      cbn [open_section condstack enable satisfy].
      rewrite IHb; [|done|unfold small; destruct v; cbn; tauto].
      rewrite IHt; [by apply IHl|done|done|done|destruct v; auto|by destruct v|done].
    - (* skipped section *)
      intros s line body s2 tail s3 lines s4 Ho _ IHb _ IHt _ IHl [Hg Hl]%Forall_cons_1 stack sat rest Hsat.
      apply Forall_app in Hl as [Hlb [Hlt Hll]%Forall_app].
      destruct (opens_step (St stack false sat s) line) as (v & t & Hp & Hcl); [done..|].
      cbn [app]. rewrite <-!app_assoc.
      rewrite (exec_text_dead _ line _ _ t Hp); [|done|done].
      unfold open_section. cbn [condstack enable satisfy other]. cbn [andb].
      rewrite IHb; [|done|unfold small; destruct v; cbn; tauto].
      rewrite IHt; [by apply IHl|done|done|done|destruct v; auto|done|done].
    - (* endif *)
      intros live done s line t s' Hd Ht [Hg Hl]%Forall_cons_1 stack so en sat rest Hso _ _ _ _.
      cbn [app]. by eapply endif_step; [apply Hg|..].
    - (* else *)
      intros live done s line t s1 body s2 line' t' s' Hd Ht _ IHb Hd' Ht' [Hg Hl]%Forall_cons_1
        stack so en sat rest Hso Hs1 Hs2 Hs3 Hs4.
      apply Forall_app in Hl as [Hlb [Hg' _]%Forall_cons_1].
      cbn [app]. rewrite <-!app_assoc.
      rewrite (exec_text _ line _ (St (cond_value live so :: stack) (live && negb done) ElseAppeared s)
                 (Some t) (live && negb done) s1).
      + cbn [condstack satisfy]. rewrite IHb; [|done|unfold small; tauto].
        cbn [app]. by eapply endif_step; [apply Hg'|..].
      + rewrite (pd_else _ _ _ Hd). cbn [condstack satisfy enable other]. rewrite flag_enabled.
        assert (Hne: (sat =? ElseAppeared)%Z = false) by (destruct Hs2 as [->| ->]; done).
        rewrite Hne. do 3 f_equal.
        destruct live; [|by rewrite andb_false_r]. rewrite andb_true_r. cbn [andb].
        rewrite Hs1 by done. destruct done; cbn; [by rewrite andb_false_r|].
        by rewrite Hs3 by auto.
      + done.
      + done.
      + intros ? [= <-]. eapply (sc_trail _ _ (proj1 Hg) w_else); eauto; inlist.
    - (* elif, evaluated *)
      intros s line c v t s1 body s2 tail s' Hd Hc Ht _ IHb _ IHt [Hg Hl]%Forall_cons_1
        stack so en sat rest Hso Hs1 Hs2 Hs3 Hs4.
      apply Forall_app in Hl as [Hlb Hlt].
      specialize (Hs1 eq_refl). cbn in Hs1. subst sat. rewrite Hs3 by done.
      cbn [app]. rewrite <-!app_assoc.
      rewrite (exec_text _ line _ (St (cond_value true so :: stack) v (if v then Satisfied else NotSatisfied) s)
                 t v s1).
      + cbn [condstack satisfy]. rewrite IHb; [|done|unfold small; destruct v; cbn; tauto].
        apply IHt; [done|done|done|destruct v; auto|by destruct v|done].
      + rewrite (pd_elif _ _ _ Hd). cbn [condstack satisfy enable other]. rewrite Hc.
        cbn -[is_enabled_flag cond_value]. rewrite flag_enabled. by destruct v.
      + done.
      + done.
      + intros ? ->. eapply (sc_if _ _ (proj1 Hg) w_elif); eauto; inlist.
    - (* elif, skipped *)
      intros live done s line c body s2 tail s' Hd Hld _ IHb _ IHt [Hg Hl]%Forall_cons_1
        stack so en sat rest Hso Hs1 Hs2 Hs3 Hs4.
      apply Forall_app in Hl as [Hlb Hlt]. destruct Hg as [Hsc Hev].
      cbn [app]. rewrite <-!app_assoc.
      destruct (o_if Or s en c) as [[v t]|] eqn:E.
      2:{ by destruct (ev_if _ _ Hev w_elif c s en); [inlist|..]. }
      set (sat' := if ((sat =? NotSatisfied)%Z && ((sat =? NotSatisfied)%Z && v))%bool then Satisfied else sat).
      assert (Hp: process_directive Or (St (cond_value live so :: stack) en sat s) line =
              Some (St (cond_value live so :: stack) false sat' s, t)).
      { rewrite (pd_elif _ _ _ Hd). cbn [condstack satisfy enable other]. rewrite E.
        assert (Hne: (sat =? ElseAppeared)%Z = false) by (destruct Hs2 as [->| ->]; done).
        rewrite Hne. cbn [mbind option_bind]. rewrite flag_enabled. do 3 f_equal.
        destruct live; [|by rewrite andb_false_r]. cbn in Hld. destruct done; [|done].
        rewrite Hs1 by done. cbn. by rewrite andb_false_r. }
      rewrite (exec_text_dead _ line _ _ t Hp); [|done|].
      2:{ intros ? ->. eapply (sc_if _ _ Hsc w_elif); eauto; inlist. }
      assert (Hsat': sat' = NotSatisfied \/ sat' = Satisfied).
      { subst sat'. destruct Hs2 as [->| ->]; cbn; [destruct v|]; auto. }
      rewrite IHb; [|done|destruct Hsat' as [->| ->]; unfold small; cbn; tauto].
      apply IHt; [done|done| |done|done|done].
      intros ->. cbn in Hld. destruct done; [|done]. subst sat'. by rewrite Hs1.
  Qed.

  Theorem complete s lines s' : Forall (fun l => good l) lines ->
    group Or true s lines s' -> preprocess Or s lines = Some s'.
  Proof.
    intros Hl Hg. unfold preprocess.
    pose proof (proj1 complete_both _ _ _ _ Hg Hl [] NotSatisfied []) as E.
    rewrite app_nil_r in E. rewrite E by (unfold small; tauto). done.
  Qed.

  (** ** Soundness: what the machine accepts, the standard accepts. *)
  Lemma exec_inv st line rest stf : exec st (line :: rest) = Some stf ->
    exists st1 t, process_directive Or st line = Some (st1, t) /\
      ((enable st1 = false -> forall t', t = Some t' -> closed t') ->
       exists s', text_effect Or (enable st1) (other st1) t s' /\
         exec (St (condstack st1) (enable st1) (satisfy st1) s') rest = Some stf).
  Proof.
    cbn [run length]. intros H.
    destruct (process_directive Or st line) as [[st1 t]|]; [|done]. cbn [mbind option_bind] in H.
    exists st1, t. split; [done|]. intros Hc. destruct st1 as [cs en sat s]. cbn [enable other condstack satisfy] in *.
    destruct t as [t|].
    - destruct en.
      + destruct (o_text Or s t) as [s'|] eqn:E; [|done]. exists s'. split; [by constructor|done].
      + rewrite closed_line in H by auto. exists s. split; [constructor|done].
    - exists s. split; [destruct en; constructor|done].
  Qed.

  Lemma sections_dead d1 d2 live s lines s' : sections Or live d1 s lines s' -> live = false ->
    sections Or false d2 s lines s'.
  Proof.
    induction 1; intros Hl; subst; try discriminate.
    - by econstructor.
    - by eapply s_else.
    - eapply s_elif_skipped; eauto.
  Qed.

  (** The open sections, innermost first. *)
  Record frame := Fr { f_live : bool; f_done : bool; f_else : bool }.
  Definition enc (f : frame) : Z :=
    if f_else f then ElseAppeared else if f_done f then Satisfied else NotSatisfied.

  Fixpoint rel (fs : list frame) (en : bool) (stk : list Z) (sat : Z) : Prop :=
    match fs with
    | [] => stk = [] /\ sat = NotSatisfied /\ en = true
    | f :: fs => exists so stk', stk = cond_value (f_live f) so :: stk' /\ sat = enc f /\
        (f_else f = false -> f_done f = false -> en = false) /\
        (f_live f = false -> en = false) /\
        rel fs (f_live f) stk' so
    end.

  Lemma rel_small fs en stk sat : rel fs en stk sat -> small sat.
  Proof.
    destruct fs as [|f fs]; cbn; [intros (_ & -> & _); by left|].
    intros (so & stk' & _ & -> & _). unfold enc, small. destruct (f_else f), (f_done f); cbn; tauto.
  Qed.

  Definition tail_ok (f : frame) (s : S) (tail : list str) (s' : S) : Prop :=
    if f_else f
    then exists l t, tail = [l] /\ is_directive w_endif l t /\ text_effect Or (f_live f) s (Some t) s'
    else sections Or (f_live f) (f_done f) s tail s'.

  Fixpoint after (fs : list frame) (en : bool) (s : S) (lines : list str) (s' : S) : Prop :=
    match fs with
    | [] => group Or en s lines s'
    | f :: fs => exists body tail lines' s1 s2, lines = body ++ tail ++ lines' /\
        group Or en s body s1 /\ tail_ok f s1 tail s2 /\ after fs (f_live f) s2 lines' s'
    end.

  Lemma after_prepend fs en s s1 pre lines s' :
    (forall lines s', group Or en s1 lines s' -> group Or en s (pre ++ lines) s') ->
    after fs en s1 lines s' -> after fs en s (pre ++ lines) s'.
  Proof.
    intros H. destruct fs as [|f fs]; cbn; [apply H|].
    intros (body & tail & lines' & sa & sb & -> & Hg & Ht & Ha).
    exists (pre ++ body), tail, lines', sa, sb. split_and!; [by rewrite <-!app_assoc|by apply H|done|done].
  Qed.

  Lemma after_open fs (en : bool) s line v t s1 rest s' :
    (if en then condition Or s line v t /\ text_effect Or v s t s1 else opens line /\ s1 = s) ->
    after (Fr en v false :: fs) (en && v) s1 rest s' -> after fs en s (line :: rest) s'.
  Proof.
    intros Hc (body & tail & lines' & sa & sb & -> & Hg & Ht & Ha).
    cbn in Ht, Ha. unfold tail_ok in Ht. cbn in Ht.
    assert (E: line :: body ++ tail ++ lines' = (line :: body ++ tail) ++ lines').
    { cbn. by rewrite <-app_assoc. }
    rewrite E. apply (after_prepend fs en s sb); [|done].
    intros l2 s2 H2. cbn. rewrite <-app_assoc. destruct en; cbn in *.
    - destruct Hc as [Hc Hte]. by eapply g_section.
    - destruct Hc as [Ho ->]. eapply g_skipped; [done|done|by eapply sections_dead|done].
  Qed.

  Lemma after_endif fs f en s line t s1 rest s' :
    is_directive w_endif line t -> text_effect Or (f_live f) s (Some t) s1 ->
    after fs (f_live f) s1 rest s' -> after (f :: fs) en s (line :: rest) s'.
  Proof.
    intros Hd Ht Ha. exists [], [line], rest, s, s1. split_and!; [done|constructor| |done].
    unfold tail_ok. destruct (f_else f); [by exists line, t|by econstructor].
  Qed.

  Lemma after_else fs f en s line t s1 rest s' :
    f_else f = false -> is_directive w_else line t ->
    text_effect Or (f_live f && negb (f_done f)) s (Some t) s1 ->
    after (Fr (f_live f) (f_done f) true :: fs) (f_live f && negb (f_done f)) s1 rest s' ->
    after (f :: fs) en s (line :: rest) s'.
  Proof.
    intros Hf Hd Ht (body & tail & lines' & sa & sb & -> & Hg & Hto & Ha).
    unfold tail_ok in Hto. cbn in Hto, Ha. destruct Hto as (l & t' & -> & Hd' & Ht').
    exists [], (line :: body ++ [l]), lines', s, sb. split_and!; [|constructor| |done].
    { cbn. by rewrite <-app_assoc. }
    unfold tail_ok. rewrite Hf. by eapply s_else.
  Qed.

  Lemma after_elif fs f en s line c v t s1 d' rest s' :
    f_else f = false -> is_directive w_elif line c ->
    (if f_live f && negb (f_done f) then o_if Or s false c = Some (v, t) /\ text_effect Or v s t s1 /\ d' = v
     else v = false /\ s1 = s /\ (f_live f = true -> d' = f_done f)) ->
    after (Fr (f_live f) d' false :: fs) (f_live f && negb (f_done f) && v) s1 rest s' ->
    after (f :: fs) en s (line :: rest) s'.
  Proof.
    intros Hf Hd Hc (body & tail & lines' & sa & sb & -> & Hg & Hto & Ha).
    unfold tail_ok in Hto. cbn in Hto, Ha.
    exists [], (line :: body ++ tail), lines', s, sb. split_and!; [|constructor| |done].
    { cbn. by rewrite <-app_assoc. }
    unfold tail_ok. rewrite Hf. destruct f as [live dn el]. cbn in *. subst el.
    destruct live; cbn in *.
    - destruct dn; cbn in *.
      + destruct Hc as (-> & -> & Hd'). rewrite Hd' in Hto by done. by eapply s_elif_skipped.
      + destruct Hc as (Ho & Ht & ->). by eapply s_elif.
    - destruct Hc as (-> & -> & _). eapply s_elif_skipped; [done|done|done|by eapply sections_dead].
  Qed.

  Lemma sound_gen lines : Forall (self_contained Or) lines ->
    forall fs en stk sat s stf, rel fs en stk sat ->
      exec (St stk en sat s) lines = Some stf -> condstack stf = [] ->
      after fs en s lines (other stf).
  Proof.
    induction 1 as [|line rest Hsc Hrest IH]; intros fs en stk sat s stf Hrel Hex Hstk.
    { injection Hex as <-. cbn in Hstk. subst stk. destruct fs as [|f fs]; [constructor|].
      destruct Hrel as (? & ? & ? & _). done. }
    apply exec_inv in Hex as (st1 & t & Hp & Hex).
    pose proof (rel_small _ _ _ _ Hrel) as Hsmall.
    destruct (line_kinds line) as [He|Ht|name c Hn Hd|Hm|Ho Hm].
    - exfalso. unfold process_directive in Hp. rewrite He in Hp. done.
    - (* text *) rewrite pd_text in Hp by done. injection Hp as <- <-. cbn [enable other condstack satisfy] in Hex.
      destruct Hex as (s1 & Hte & Hex); [intros _ ? [= <-]; by apply (sc_text _ _ Hsc)|].
      apply (after_prepend fs en s s1 [line]); [|by eapply IH].
      intros l2 s2 H2. by eapply g_text.
    - assert (Hopen: forall v, st1 = open_section (St stk en sat s) v ->
        (forall t', t = Some t' -> closed t') ->
        (if en then condition Or s line v t else opens line) ->
        after fs en s (line :: rest) (other stf)).
      { intros v -> Hcl Hcond. destruct (Hex (fun _ => Hcl)) as (s1 & Hte & Hex').
        cbn [open_section enable other condstack satisfy] in Hte, Hex'.
        assert (Hv: (en && ((if v then Satisfied else NotSatisfied) =? Satisfied)%Z) = en && v) by by destruct v.
        rewrite Hv in Hte, Hex'.
        eapply (after_open fs en s line v t s1).
        - destruct en; [done|]. split; [done|]. by inversion Hte.
        - eapply IH; [|exact Hex'|done].
          exists sat, stk. cbn. split_and!; [done|by destruct v| | |].
          + intros _ ->. by rewrite andb_false_r.
          + by intros ->.
          + done. }
      unfold conditional_names in Hn. rewrite !elem_of_cons, elem_of_nil in Hn.
      destruct Hn as [->|[->|[->|[->|[->|[->|[]]]]]]].
      + (* ifdef *) rewrite (pd_ifdef _ _ _ Hd) in Hp. cbn [other] in Hp.
        destruct (o_ifdef Or s c) as [[v t0]|] eqn:E; [|done]. injection Hp as <- <-.
        eapply Hopen; [done|intros ? [= <-]; eapply (sc_ifdef _ _ Hsc w_ifdef); eauto; inlist|].
        destruct en; [by eapply cond_ifdef|]. exists w_ifdef, c. split; [inlist|done].
      + (* ifndef *) rewrite (pd_ifndef _ _ _ Hd) in Hp. cbn [other] in Hp.
        destruct (o_ifdef Or s c) as [[v t0]|] eqn:E; [|done]. injection Hp as <- <-.
        eapply Hopen; [done|intros ? [= <-]; eapply (sc_ifdef _ _ Hsc w_ifndef); eauto; inlist|].
        destruct en; [by eapply cond_ifndef|]. exists w_ifndef, c. split; [inlist|done].
      + (* if *) rewrite (pd_if _ _ _ Hd) in Hp. cbn [other enable] in Hp.
        destruct (o_if Or s en c) as [[v t0]|] eqn:E; [|done]. injection Hp as <- <-.
        eapply Hopen; [done|intros ? ->; eapply (sc_if _ _ Hsc w_if); eauto; inlist|].
        destruct en; [by eapply cond_if|]. exists w_if, c. split; [inlist|done].
      + (* else *) rewrite (pd_else _ _ _ Hd) in Hp. cbn [other enable condstack satisfy] in Hp.
        destruct fs as [|f fs].
        { destruct Hrel as (-> & _). done. }
        destruct Hrel as (so & stk' & -> & -> & Hr1 & Hr2 & Hr3).
        destruct (f_else f) eqn:Ef; [unfold enc in Hp; rewrite Ef in Hp; done|].
        assert (Hne: (enc f =? ElseAppeared)%Z = false) by (unfold enc; rewrite Ef; by destruct (f_done f)).
        rewrite Hne, flag_enabled in Hp.
        assert (Hv: negb en && (enc f =? NotSatisfied)%Z && f_live f = f_live f && negb (f_done f)).
        { unfold enc. rewrite Ef. destruct (f_live f); [|by rewrite andb_false_r].
          destruct (f_done f); cbn; [by rewrite andb_false_r|]. by rewrite Hr1. }
        rewrite Hv in Hp. injection Hp as <- <-. cbn [enable other condstack satisfy] in Hex.
        destruct Hex as (s1 & Hte & Hex); [intros _ ? [= <-]; eapply (sc_trail _ _ Hsc w_else); eauto; inlist|].
        eapply after_else; [done|done|done|].
        eapply IH; [|exact Hex|done].
        exists so, stk'. cbn. split_and!; [done|done|done|by intros ->|done].
      + (* elif *) rewrite (pd_elif _ _ _ Hd) in Hp. cbn [other enable condstack satisfy] in Hp.
        destruct fs as [|f fs].
        { destruct Hrel as (-> & _). done. }
        destruct Hrel as (so & stk' & -> & -> & Hr1 & Hr2 & Hr3).
        destruct (f_else f) eqn:Ef; [unfold enc in Hp; rewrite Ef in Hp; done|].
        assert (Hne: (enc f =? ElseAppeared)%Z = false) by (unfold enc; rewrite Ef; by destruct (f_done f)).
        rewrite Hne, flag_enabled in Hp.
        destruct (o_if Or s en c) as [[v t0]|] eqn:E; [|done].
        cbn [mbind option_bind] in Hp. injection Hp as <- <-.
        destruct Hex as (s1 & Hte & Hex); [intros _ ? ->; eapply (sc_if _ _ Hsc w_elif); eauto; inlist|].
        cbn [enable other condstack satisfy] in Hte, Hex.
        assert (Henc: enc f = if f_done f then Satisfied else NotSatisfied) by (unfold enc; by rewrite Ef).
        rewrite Henc in Hte, Hex.
        destruct f as [live dn el]. cbn in Ef, Hr1, Hr2, Hr3. subst el. cbn [f_done f_live] in *.
        destruct live, dn.
        * (* already done *)
          cbn -[run] in Hte, Hex. rewrite andb_false_r in Hte, Hex. cbn -[run] in Hte, Hex.
          eapply (after_elif _ _ _ _ _ _ false t0 s1 true); [done|done|cbn; split_and!; [done|by inversion Hte|done]|].
          eapply IH; [|exact Hex|done].
          exists so, stk'. cbn. split_and!; done.
        * (* evaluated *)
          rewrite Hr1 in E, Hte, Hex by done. cbn -[run] in Hte, Hex. rewrite andb_true_r in Hte, Hex.
          eapply (after_elif _ _ _ _ _ _ v t0 s1 v); [done|done|cbn; split_and!; [done|done|done]|].
          eapply IH; [|exact Hex|done].
          exists so, stk'. cbn. split_and!; [done|by destruct v|by intros _ ->|done|done].
        * rewrite andb_false_r in Hte, Hex. cbn -[run] in Hte, Hex.
          eapply (after_elif _ _ _ _ _ _ false t0 s1 true); [done|done|cbn; split_and!; [done|by inversion Hte|done]|].
          eapply IH; [|exact Hex|done].
          exists so, stk'. cbn. split_and!; done.
        * rewrite andb_false_r in Hte, Hex. cbn -[run] in Hte, Hex.
          eapply (after_elif _ _ _ _ _ _ false t0 s1 v); [done|done|cbn; split_and!; [done|by inversion Hte|done]|].
          eapply IH; [|exact Hex|done].
          exists so, stk'. cbn. split_and!; [done|by destruct v|done|done|done].
      + (* endif *) rewrite (pd_endif _ _ _ Hd) in Hp. cbn [other enable condstack satisfy] in Hp.
        destruct fs as [|f fs].
        { destruct Hrel as (-> & _). done. }
        destruct Hrel as (so & stk' & -> & -> & Hr1 & Hr2 & Hr3).
        rewrite flag_enabled, flag_satisfy in Hp by by eapply rel_small.
        injection Hp as <- <-. cbn [enable other condstack satisfy] in Hex.
        destruct Hex as (s1 & Hte & Hex); [intros _ ? [= <-]; eapply (sc_trail _ _ Hsc w_endif); eauto; inlist|].
        eapply after_endif; [done|done|].
        eapply IH; [exact Hr3|exact Hex|done].
    - (* marker *) rewrite pd_marker in Hp by done. cbn [other condstack enable satisfy] in Hp.
      destruct (o_marker Or s line) as [s1|] eqn:E; [|done]. injection Hp as <- <-.
      destruct Hex as (s2 & Hte & Hex); [done|]. cbn [enable other condstack satisfy] in Hte, Hex.
      assert (s2 = s1) as -> by by inversion Hte.
      apply (after_prepend fs en s s1 [line]); [|by eapply IH].
      intros l2 s2 H2. by eapply g_marker.
    - (* other *) destruct (sc_hash _ _ Hsc (proj1 Ho)) as [d Hd].
      rewrite (pd_other _ _ d) in Hp; [|done|done|by apply find_directive_text].
      cbn [other condstack enable satisfy] in Hp. destruct en.
      + destruct (o_dir Or s d) as [[s1 t0]|] eqn:E; [|done]. injection Hp as <- <-.
        cbn [enable other condstack satisfy] in Hex. destruct Hex as (s2 & Hte & Hex); [done|].
        apply (after_prepend fs true s s2 [line]); [|by eapply IH].
        intros l2 s3 H2. eapply g_other; [done|done|by econstructor|done].
      + injection Hp as <- <-. destruct Hex as (s2 & Hte & Hex); [done|].
        cbn [enable other condstack satisfy] in Hte, Hex.
        assert (s2 = s) as -> by by inversion Hte.
        apply (after_prepend fs false s s [line]); [|by eapply IH].
        intros l2 s2 H2. eapply g_other; [done|done|constructor|done].
  Qed.

  Theorem sound s lines s' : Forall (self_contained Or) lines ->
    preprocess Or s lines = Some s' -> group Or true s lines s'.
  Proof.
    intros Hl H. unfold preprocess in H.
    destruct (exec (St [] true NotSatisfied s) lines) as [stf|] eqn:E; [|done].
    cbn [mbind option_bind] in H. destruct (condstack stf) eqn:Ec; [|done]. injection H as <-.
    by apply (sound_gen lines Hl [] true [] NotSatisfied s stf).
  Qed.

  Lemma group_nested :
    (forall live s lines s', group Or live s lines s' -> nested lines) /\
    (forall live done s lines s', sections Or live done s lines s' -> nested_tail lines).
  Proof.
    apply group_sections_ind; intros; try (by constructor; auto); try (by econstructor; eauto).
    - apply n_section; auto. destruct H; eexists _, _; (split; [|done]); inlist.
  Qed.

  Theorem rejects s lines : Forall (self_contained Or) lines -> ~ nested lines ->
    preprocess Or s lines = None.
  Proof.
    intros Hl Hn. destruct (preprocess Or s lines) as [s'|] eqn:E; [|done].
    destruct Hn. apply sound in E; [|done]. by eapply (proj1 group_nested).
  Qed.
End machine.

(** ** The fuel never runs out *)
Lemma bce_len p q : block_comment_end p = Some q -> (length q < length p)%nat.
Proof. intros (b & -> & _)%bce_spec. rewrite !app_length. cbn. lia. Qed.

Lemma skip_len p : (length (skip_whitespaces p) <= length p)%nat.
Proof. destruct (skip_split p) as (w & _ & E & _). rewrite E at 2. rewrite app_length. lia. Qed.

Lemma fd_fuel f1 : forall f2 hash p, (length p < f1)%nat -> (length p < f2)%nat ->
  find_directive_aux f1 hash p = find_directive_aux f2 hash p.
Proof.
  induction f1 as [|f1 IH]; [lia|]. intros [|f2] hash p H1 H2; [lia|].
  pose proof (skip_len p) as Hl. cbn [find_directive_aux].
  assert (Hid: skip_whitespaces (skip_whitespaces p) = skip_whitespaces p).
  { apply skip_id. by destruct (skip_split p) as (w & _ & _ & Hn). }
  destruct (block_comment_start (skip_whitespaces p)) as [cs|] eqn:Ec.
  2:{ destruct (skip_whitespaces p) as [|c q] eqn:E; [done|]. cbn in Hl.
      repeat case_match; try done; apply IH; lia. }
  assert (cs = skip_whitespaces p) as ->.
  { unfold block_comment_start in Ec. rewrite Hid in Ec. by repeat case_match; simplify_eq. }
  destruct (block_comment_end (drop 2 (skip_whitespaces p))) as [q|] eqn:Eq.
  - assert (Hq: (length q < length p)%nat).
    { apply bce_len in Eq. rewrite drop_length in Eq. lia. }
    destruct (skip_whitespaces p) as [|c q'] eqn:E; [done|]. cbn in Hl.
    repeat case_match; try done; apply IH; lia.
  - destruct (skip_whitespaces p) as [|c q'] eqn:E; [done|]. cbn in Hl.
    repeat case_match; try done; apply IH; lia.
Qed.

Lemma dqe_len n : forall p q, (length p <= n)%nat -> find_double_quote_end p = Some q -> (length q < length p)%nat.
Proof.
  induction n as [|n IH]; intros p q Hn H; [destruct p; [done|cbn in Hn; lia]|].
  destruct p as [|c p]; [done|]. cbn in Hn.
  cbn [find_double_quote_end] in H.
  repeat case_match; simplify_eq; cbn in *; try lia;
    (apply IH in H; cbn in *; lia).
Qed.
Lemma sqe_len n : forall p q, (length p <= n)%nat -> char_end p = Some q -> (length q < length p)%nat.
Proof.
  induction n as [|n IH]; intros p q Hn H; [destruct p; [done|cbn in Hn; lia]|].
  destruct p as [|c p]; [done|]. cbn in Hn.
  cbn [char_end] in H.
  repeat case_match; simplify_eq; cbn in *; try lia;
    (apply IH in H; cbn in *; lia).
Qed.

Lemma fbce_len rest : forall p q rest', find_block_comment_end p rest = Some (q, rest') ->
  (total_length q rest' <= total_length p rest)%nat /\ (length rest' <= length rest)%nat.
Proof.
  unfold total_length.
  induction rest as [|l rest IH]; intros p q rest'; cbn -[block_comment_end];
    destruct (block_comment_end p) as [e|] eqn:E; intros H; simplify_eq.
  - apply bce_len in E. cbn. lia.
  - apply bce_len in E. cbn. lia.
  - apply IH in H. cbn. lia.
Qed.

Lemma pda_fuel f1 : forall f2 p rest, (total_length p rest < f1)%nat -> (total_length p rest < f2)%nat ->
  process_disabled_aux f1 p rest = process_disabled_aux f2 p rest.
Proof.
  induction f1 as [|f1 IH]; [lia|]. intros [|f2] p rest H1 H2; [lia|].
  destruct p as [|c p]; [done|]. unfold total_length in H1, H2. cbn [length] in H1, H2.
  cbn [process_disabled_aux].
  repeat case_match; subst; try done;
    repeat match goal with
    | H : find_double_quote_end _ = Some _ |- _ => apply (dqe_len _ _ _ (le_n _)) in H
    | H : char_end _ = Some _ |- _ => apply (sqe_len _ _ _ (le_n _)) in H
    | H : find_block_comment_end _ _ = Some _ |- _ => apply fbce_len in H; unfold total_length in H; cbn in H
    end; apply IH; unfold total_length; cbn in *; lia.
Qed.

Lemma pda_len f : forall p rest rest', process_disabled_aux f p rest = Some rest' -> (length rest' <= length rest)%nat.
Proof.
  induction f as [|f IH]; [done|]. intros p rest rest'. cbn [process_disabled_aux].
  repeat case_match; subst; intros H'; simplify_eq; try done;
    repeat match goal with
    | H : find_block_comment_end _ _ = Some _ |- _ => apply fbce_len in H
    end; try (apply IH in H'; lia).
Qed.

Theorem run_fuel {S : Type} (Or : oracles S) n1 : forall n2 st lines,
  (length lines < n1)%nat -> (length lines < n2)%nat -> run Or n1 st lines = run Or n2 st lines.
Proof.
  induction n1 as [|n1 IH]; [lia|]. intros [|n2] st lines H1 H2; [lia|].
  destruct lines as [|l rest]; [done|]. cbn [run length] in *.
  destruct (process_directive Or st l) as [[st1 t]|]; [|done]. cbn [mbind option_bind].
  destruct t as [t|]; [|apply IH; lia].
  destruct (enable st1).
  - destruct (o_text Or (other st1) t); [|done]. apply IH; lia.
  - destruct (process_disabled_line t rest) as [rest'|] eqn:E; [|done]. cbn [mbind option_bind].
    apply pda_len in E. apply IH; lia.
Qed.

(** ** Deviations *)
(** A preprocessor whose only valid conditions are 0 and 1, without macros,
    which collects the text lines. *)
Definition toy : oracles (list str) := {|
  o_ifdef _ c := Some (false, []);
  o_if _ _ c := match c with
                | [48%Z] => Some (false, None)
                | [49%Z] => Some (true, None)
                | _ => None
                end;
  o_text s t := Some (s ++ [t]);
  o_dir s t := Some (s, None);
  o_marker s t := Some s;
|}.

Lemma dir_by_compute name line t : letter_first name ->
  match find_directive line with Some (Some d) => keyword d name | _ => None end = Some t ->
  is_directive name line t.
Proof.
  intros Hn H. apply is_directive_keyword; [done|].
  destruct (find_directive line) as [[d|]|]; [|done..]. eauto.
Qed.

(** #if 0 / #if ) / #endif / #endif *)
Definition bad_skipped : list str :=
  [[35; 105; 102; 32; 48]; [35; 105; 102; 32; 41]; [35; 101; 110; 100; 105; 102];
   [35; 101; 110; 100; 105; 102]]%Z.

Ltac bydir := apply dir_by_compute; [apply names_letter; inlist|reflexivity].

Lemma skipped_condition_evaluated : exists (S : Type) (Or : oracles S) s lines s',
  Forall (self_contained Or) lines /\ group Or true s lines s' /\ preprocess Or s lines = None.
Proof.
  exists (list str), toy, [], bad_skipped, [[]].
  assert (Hsc: forall line t, find_directive line = Some (Some t) ->
    (forall name u, name ∈ [w_else; w_endif] -> keyword t name = Some u -> u = []) ->
    self_contained toy line).
  { intros line d Hd Hk. split.
    - intros _. exists d. exact (find_directive_inv _ _ Hd).
    - intros Ht. apply find_directive_no_hash in Ht. congruence.
    - intros name u Hn Hu. apply is_directive_keyword in Hu as (d' & Hd' & Hk').
      + rewrite Hd in Hd'. injection Hd' as <-. rewrite (Hk name u Hn Hk'). constructor.
      + apply names_letter. revert Hn. inlist.
    - intros name c s v u Hn _ [= <- <-]. constructor.
    - intros name c s e v u Hn _. cbn. repeat case_match; intros; simplify_eq. }
  split; [|split].
  - repeat apply List.Forall_cons; [..|constructor];
      (eapply Hsc; [vm_compute; reflexivity|]);
      intros name u Hn; rewrite !elem_of_cons, elem_of_nil in Hn;
      destruct Hn as [->|[->|[]]]; vm_compute; congruence.
  - change bad_skipped with ([35; 105; 102; 32; 48]%Z ::
      [[35; 105; 102; 32; 41]; [35; 101; 110; 100; 105; 102]]%Z ++ [[35; 101; 110; 100; 105; 102]]%Z ++ []).
    eapply (g_section _ _ _ false None _ []).
    + eapply cond_if; [bydir|reflexivity].
    + constructor.
    + change ([[35; 105; 102; 32; 41]; [35; 101; 110; 100; 105; 102]]%Z) with
        ([35; 105; 102; 32; 41]%Z :: [] ++ [[35; 101; 110; 100; 105; 102]]%Z ++ []).
      eapply (g_skipped _ _ _ _ []).
      * exists w_if, [41]%Z. split; [inlist|bydir].
      * constructor.
      * eapply (s_endif _ _ _ _ _ []); [bydir|constructor].
      * constructor.
    + eapply (s_endif _ _ _ _ _ [] [[]]); [bydir|by constructor].
    + constructor.
  - reflexivity.
Qed.

Lemma comment_by_compute c b : c = [47; 42]%Z ++ b ++ [42; 47]%Z ->
  block_comment_end (b ++ [42; 47]%Z) = Some [] -> comment c.
Proof.
  intros -> H. exists b. split; [done|]. apply bce_spec in H as (b' & E & Hb').
  rewrite app_nil_r in E. apply app_inj_2 in E as [-> _]; done.
Qed.

(** #if 0 / #define X slash-star / #endif / star-slash / #endif:
    the comment covers the first #endif. *)
Definition comment_in_skipped_directive : list str :=
  [[35; 105; 102; 32; 48]; [35; 100; 101; 102; 105; 110; 101; 32; 88; 32; 47; 42];
   [35; 101; 110; 100; 105; 102]; [42; 47]; [35; 101; 110; 100; 105; 102]]%Z.
Definition its_comment : str := [47; 42; 10; 35; 101; 110; 100; 105; 102; 10; 42; 47]%Z.
Definition without_comment : list str :=
  [[35; 105; 102; 32; 48]; [35; 100; 101; 102; 105; 110; 101; 32; 88; 32; 32];
   [35; 101; 110; 100; 105; 102]]%Z.

Lemma skipped_directive_comment : exists (S : Type) (Or : oracles S) s lines1 lines2 s',
  same_but_for_a_comment lines1 lines2 /\
  preprocess Or s lines1 = None /\ preprocess Or s lines2 = Some s'.
Proof.
  exists (list str), toy, [], comment_in_skipped_directive, without_comment, [[]].
  split; [|split; reflexivity].
  exists (take 16 (file_text comment_in_skipped_directive)), its_comment,
    (drop 28 (file_text comment_in_skipped_directive)).
  split; [|split; [|split; reflexivity]].
  - apply (comment_by_compute _ (take 8 (drop 2 its_comment))); reflexivity.
  - repeat apply List.Forall_cons; [..|constructor]; rewrite !not_elem_of_cons, elem_of_nil; lia.
Qed.

(** #if 0 / slash-star / star-slash #endif: the #endif after the comment is
    first on its line, as comments count as white space. *)
Definition directive_after_comment : list str :=
  [[35; 105; 102; 32; 48]; [47; 42]; [42; 47; 32; 35; 101; 110; 100; 105; 102]]%Z.
Definition directive_alone : list str :=
  [[35; 105; 102; 32; 48]; [32; 32; 35; 101; 110; 100; 105; 102]]%Z.

Lemma comment_then_directive : exists (S : Type) (Or : oracles S) s lines1 lines2 s',
  same_but_for_a_comment lines1 lines2 /\
  (forall l, l ∈ lines1 -> has_hash l -> closed l) /\
  preprocess Or s lines1 = None /\ preprocess Or s lines2 = Some s'.
Proof.
  exists (list str), toy, [], directive_after_comment, directive_alone, [[]].
  split; [|split; [|split; reflexivity]].
  2:{ intros l Hl Hh. unfold directive_after_comment in Hl. rewrite !elem_of_cons, elem_of_nil in Hl.
      destruct Hl as [->|[->|[->|[]]]].
      - repeat first [apply c_nil|apply c_other; [rewrite !not_elem_of_cons, elem_of_nil; lia|]].
      - exfalso. eapply (find_directive_inv [47; 42]%Z None); [reflexivity|exact Hh].
      - exfalso. eapply (find_directive_inv [42; 47; 32; 35; 101; 110; 100; 105; 102]%Z None); [reflexivity|exact Hh]. }
  exists (take 6 (file_text directive_after_comment)), [47; 42; 10; 42; 47]%Z,
    (drop 11 (file_text directive_after_comment)).
  split; [|split; [|split; reflexivity]].
  - apply (comment_by_compute _ [10]%Z); reflexivity.
  - repeat apply List.Forall_cons; [..|constructor]; rewrite !not_elem_of_cons, elem_of_nil; lia.
Qed.
