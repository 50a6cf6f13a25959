(** Proofs about conditional inclusion, part 1: recognising directive lines. *)
From stdpp Require Import base list numbers option.
From Verif Require Import Cpp.Cond_model Cpp.Cond_spec.

Lemma isspace_space c : isspace c = true <-> space c.
Proof. unfold isspace, space. rewrite !elem_of_cons, elem_of_nil. lia. Qed.

Lemma skip_split s : exists w, Forall space w /\ s = w ++ skip_whitespaces s /\
  no_space_first (skip_whitespaces s).
Proof.
  induction s as [|c s (w & Hw & Hs & Hn)]; cbn.
  - exists []. split_and!; [constructor|done|intros ???; done].
  - destruct (isspace c) eqn:E.
    + exists (c :: w). split_and!; [constructor; [by apply isspace_space|done]|cbn; congruence|done].
    + exists []. split_and!; [constructor|done|]. intros d t' [= -> ->]. rewrite <-isspace_space. congruence.
Qed.

Lemma skip_app w s : Forall space w -> skip_whitespaces (w ++ s) = skip_whitespaces s.
Proof. induction 1 as [|c w Hc _ IH]; cbn; [done|]. apply isspace_space in Hc. by rewrite Hc. Qed.

Lemma skip_id s : no_space_first s -> skip_whitespaces s = s.
Proof.
  destruct s as [|c s]; cbn; [done|]. intros H. destruct (isspace c) eqn:E; [|done].
  apply isspace_space in E. by destruct (H c s).
Qed.

Lemma bce_spec p q : block_comment_end p = Some q ->
  exists b, p = b ++ [42; 47]%Z ++ q /\ no_comment_end (b ++ [42]%Z).
Proof.
  induction p as [|c p IH]; cbn; [done|].
  destruct (Z.eqb_spec c 42) as [->|Hc].
  - destruct p as [|d p]; [done|]. destruct (Z.eqb_spec d 47) as [->|Hd].
    + intros [= ->]. exists []. split; [done|]. intros x y. cbn. destruct x as [|? [|??]]; cbn; intros [=].
    + intros H. apply IH in H as (b & E & Hb). exists (42%Z :: b).
      split; [by rewrite E|].
      intros x y. destruct x as [|e x]; cbn; [intros [= H]|intros [= <- H]; exact (Hb _ _ H)].
      destruct b as [|e b]; cbn in *; [congruence|].
      injection H as -> H. by injection E.
  - intros H. apply IH in H as (b & -> & Hb). exists (c :: b). split; [done|].
    intros x y. destruct x as [|e x]; cbn; [by intros [=]|intros [= <- H]; exact (Hb _ _ H)].
Qed.

Lemma bce_app b q : no_comment_end (b ++ [42]%Z) -> block_comment_end (b ++ [42; 47]%Z ++ q) = Some q.
Proof.
  induction b as [|c b IH]; intros H; cbn -[Z.eqb]; [done|].
  assert (H': no_comment_end (b ++ [42]%Z)).
  { intros x y E. apply (H (c :: x) y). cbn. by rewrite E. }
  destruct (Z.eqb_spec c 42) as [->|Hc]; [|by apply IH].
  destruct b as [|d b]; cbn -[Z.eqb] in *.
  - by rewrite <-(IH H').
  - destruct (Z.eqb_spec d 47) as [->|Hd]; [|by apply IH].
    exfalso. by apply (H [] (b ++ [42]%Z)).
Qed.

Lemma blank_app a b : blank a -> blank b -> blank (a ++ b).
Proof.
  induction 1; intros; cbn; [done|constructor; auto|].
  rewrite <-app_assoc. constructor; auto.
Qed.
Lemma blank_spaces w : Forall space w -> blank w.
Proof. induction 1; constructor; auto. Qed.

(** The text find_directive stops at. *)
Definition stopper (hash : bool) (r : str) : Prop :=
  no_space_first r /\ (hash = false -> forall x, r <> 35%Z :: x).

Lemma comment_not_space c s : comment (c :: s) -> ~ space c.
Proof.
  intros (b & [= -> _] & _). unfold space. rewrite !elem_of_cons, elem_of_nil. lia.
Qed.

(** Skipping a blank prefix; each step uses fuel. *)
Lemma fd_blank b : blank b -> forall fuel hash rest, (length (b ++ rest) < fuel)%nat ->
  exists fuel', (length rest < fuel')%nat /\
  find_directive_aux fuel hash (b ++ rest) = find_directive_aux fuel' hash rest.
Proof.
  intros Hb. remember (length b) as n eqn:En. revert b Hb En.
  induction (lt_wf n) as [n _ IH]. intros b Hb -> fuel hash rest Hf.
  destruct fuel as [|fuel]; [lia|].
  (* strip the leading white space *)
  destruct (skip_split b) as (w & Hw & Hs & Hn).
  set (b' := skip_whitespaces b) in *.
  assert (Hb': blank b').
  { clear -Hb Hn. subst b'. induction Hb; cbn in *; [constructor| |].
    - rewrite (proj2 (isspace_space c) H) in *. auto.
    - rewrite skip_id; [by constructor|].
      destruct H as (b & -> & Hc). cbn. intros c t' [= <- _]. unfold space.
      rewrite !elem_of_cons, elem_of_nil. lia. }
  destruct Hb' as [|c s Hc Hb''|s1 s2 Hc Hb''].
  - rewrite app_nil_r in Hs. subst w. exists (S fuel). split.
    { rewrite app_length in Hf. lia. }
    cbn [find_directive_aux]. by rewrite skip_app.
  - by destruct (Hn c s).
  - destruct Hc as (x & -> & Hx).
    assert (E: find_directive_aux (S fuel) hash (b ++ rest) = find_directive_aux fuel hash (s2 ++ rest)).
    { cbn [find_directive_aux]. rewrite Hs, <-!app_assoc, skip_app by done. cbn -[block_comment_end drop].
      unfold block_comment_start. cbn -[block_comment_end drop].
      change (drop 2 (47 :: 42 :: ?l)%Z) with l. cbn [drop].
      pose proof (bce_app x (s2 ++ rest) Hx) as E. cbn [app] in E. by rewrite E. }
    rewrite E. apply (IH (length s2)); [|done|done|].
    + rewrite Hs. rewrite !app_length. cbn. lia.
    + rewrite Hs in Hf. rewrite !app_length in Hf. cbn in Hf. rewrite app_length in *. lia.
Qed.

(** Every text is blanks followed by something else. *)
Definition stops (q : str) : Prop :=
  no_space_first q /\ forall s x, comment s -> q <> s ++ x.

Lemma blank_split p : exists b q, blank b /\ p = b ++ q /\ stops q.
Proof.
  remember (length p) as n eqn:En. revert p En.
  induction (lt_wf n) as [n _ IH]. intros p ->.
  destruct (skip_split p) as (w & Hw & Hp & Hn).
  revert Hp Hn. generalize (skip_whitespaces p). intros q Hp Hn. rewrite Hp.
  destruct (match q with 47%Z :: 42%Z :: q' => block_comment_end q' | _ => None end) as [q2|] eqn:E.
  - destruct q as [|c1 [|c2 q']]; [done|by repeat case_match|].
    assert (Hc: c1 = 47%Z /\ c2 = 42%Z /\ block_comment_end q' = Some q2) by (repeat case_match; done).
    destruct Hc as (-> & -> & Hc). apply bce_spec in Hc as (x & -> & Hx).
    destruct (IH (length q2)) with (p := q2) as (b & q3 & Hb & -> & Hq3); [|done|].
    { rewrite Hp. rewrite !app_length. cbn. rewrite !app_length. cbn. lia. }
    exists (w ++ ([47; 42]%Z ++ x ++ [42; 47]%Z) ++ b), q3. split_and!; [| |done].
    + apply blank_app; [by apply blank_spaces|]. constructor; [|done]. by exists x.
    + by rewrite <-!app_assoc.
  - exists w, q. split; [by apply blank_spaces|]. split; [done|]. split; [done|].
    intros s x (b & -> & Hb) Eq. rewrite Eq in E. cbn -[block_comment_end] in E.
    rewrite <-app_assoc in E. pose proof (bce_app b x Hb) as E2. cbn [app] in E2, E. congruence.
Qed.

(** The scan at such a place. *)
Lemma bcs_stop (q : str) x : q = 47%Z :: 42%Z :: x -> block_comment_start q = Some q.
Proof. by intros ->. Qed.

Lemma fd_hash fuel t : find_directive_aux (S fuel) false (35%Z :: t) = find_directive_aux fuel true t.
Proof. done. Qed.

Lemma fd_line_comment fuel hash t :
  find_directive_aux (S fuel) hash (47 :: 47 :: t)%Z = Some (if hash then Some [] else None).
Proof. done. Qed.

Lemma no_end_open x : (forall s y, comment s -> (47 :: 42 :: x)%Z <> s ++ y) -> block_comment_end x = None.
Proof.
  intros H. destruct (block_comment_end x) as [q|] eqn:E; [|done].
  apply bce_spec in E as (b & -> & Hb).
  destruct (H ([47; 42]%Z ++ b ++ [42; 47]%Z) q); [by exists b|]. cbn. by rewrite <-app_assoc.
Qed.

Lemma fd_open_comment fuel hash x : stops (47 :: 42 :: x)%Z ->
  find_directive_aux (S fuel) hash (47 :: 42 :: x)%Z = if hash then None else Some None.
Proof.
  intros [_ H]. apply no_end_open in H.
  cbn -[block_comment_end]. unfold block_comment_start. cbn -[block_comment_end]. by rewrite drop_0, H.
Qed.

Lemma fd_stop fuel hash q : stops q ->
  (hash = false -> forall x, q <> 35%Z :: x) ->
  (forall x, q <> 47%Z :: 47%Z :: x) -> (forall x, q <> 47%Z :: 42%Z :: x) ->
  find_directive_aux (S fuel) hash q = Some (if hash then Some q else None).
Proof.
  intros [Hn _] H35 H1 H2. cbn [find_directive_aux]. rewrite skip_id by done.
  assert (Hb: block_comment_start q = None).
  { unfold block_comment_start. rewrite skip_id by done.
    destruct q as [|? [|??]]; [done|by repeat case_match|].
    repeat case_match; subst; try done; naive_solver. }
  rewrite Hb.
  destruct q as [|c q]; [done|].
  assert (Hc: c = 35%Z \/ c = 47%Z \/ (c <> 35%Z /\ c <> 47%Z)) by lia.
  destruct Hc as [->|[->|Hc]].
  - destruct hash; [done|]. by destruct (H35 eq_refl q).
  - destruct q as [|c2 q]; [done|].
    destruct (Z.eq_dec c2 47%Z) as [->|]; [by destruct (H1 q)|]. by repeat case_match.
  - destruct Hc. by repeat case_match.
Qed.

Lemma stops_35 x : stops (35%Z :: x).
Proof.
  split.
  - intros c t [= <- <-]. unfold space. rewrite !elem_of_cons, elem_of_nil. lia.
  - intros s y (b & -> & _). by cbn.
Qed.

Lemma stops_of r : no_space_first r -> (forall x, r <> [47; 42]%Z ++ x) -> stops r.
Proof.
  intros H1 H2. split; [done|]. intros s x (b & -> & _) ->. cbn in H2. by eapply H2.
Qed.

(** find_directive, completely. *)
Lemma find_directive_text line d : directive_text line d -> find_directive line = Some (Some d).
Proof.
  intros (b1 & b2 & r & Hb1 & Hb2 & -> & Hn & Hc & Hd). unfold find_directive.
  destruct (fd_blank b1 Hb1 (S (length (b1 ++ [35]%Z ++ b2 ++ r))) false ([35]%Z ++ b2 ++ r)) as (f & Hf & ->); [lia|].
  destruct f as [|f]; [lia|]. cbn [app]. rewrite fd_hash.
  destruct (fd_blank b2 Hb2 f true r) as (f' & Hf' & ->).
  { cbn in Hf. lia. }
  destruct f' as [|f']; [lia|].
  destruct Hd as [[-> Hd]|[-> (x & ->)]]; [|done].
  rewrite fd_stop; [done|by apply stops_of|done|exact Hd|exact Hc].
Qed.

Lemma fd_not_hash fuel q : stops q -> (forall x, q <> 35%Z :: x) ->
  find_directive_aux (S fuel) false q = Some None.
Proof.
  intros Hq H35.
  destruct q as [|c q]; [by rewrite fd_stop|].
  destruct (Z.eq_dec c 47%Z) as [->|Hc']; [|rewrite fd_stop; [done|done|done|congruence..]].
  destruct q as [|c2 q]; [by rewrite fd_stop|].
  destruct (Z.eq_dec c2 47%Z) as [->|]; [done|].
  destruct (Z.eq_dec c2 42%Z) as [->|]; [by rewrite fd_open_comment|].
  rewrite fd_stop; [done|done|done|congruence..].
Qed.

Lemma fd_true_not_none fuel : forall p, find_directive_aux fuel true p <> Some None.
Proof.
  induction fuel as [|fuel IH]; [done|]. intros p. cbn [find_directive_aux].
  repeat case_match; congruence || auto.
Qed.

Lemma is35 (q : str) : (exists t, q = 35%Z :: t) \/ (forall t, q <> 35%Z :: t).
Proof.
  destruct q as [|c q]; [by right|].
  destruct (Z.eq_dec c 35%Z) as [->|]; [left; eauto|right; congruence].
Qed.

Lemma find_directive_no_hash line : is_text line -> find_directive line = Some None.
Proof.
  intros H. destruct (blank_split line) as (b & q & Hb & -> & Hq). unfold find_directive.
  destruct (fd_blank b Hb (S (length (b ++ q))) false q) as (f & Hf & ->); [lia|].
  destruct f as [|f]; [lia|].
  destruct (is35 q) as [(t & ->)|H35]; [destruct H; by exists b, t|].
  by apply fd_not_hash.
Qed.

Lemma find_directive_inv line r : find_directive line = Some r ->
  match r with Some d => directive_text line d | None => is_text line end.
Proof.
  intros E. destruct (blank_split line) as (b & q & Hb & Hl & Hq).
  destruct r as [d|].
  - subst line. unfold find_directive in E.
    destruct (fd_blank b Hb (S (length (b ++ q))) false q) as (f & Hf & E2); [lia|].
    rewrite E2 in E. clear E2. destruct f as [|f]; [lia|].
    destruct (is35 q) as [(t & ->)|H35]; [|by rewrite fd_not_hash in E].
    rewrite fd_hash in E. destruct (blank_split t) as (b2 & q2 & Hb2 & -> & Hq2).
    destruct (fd_blank b2 Hb2 f true q2) as (f' & Hf' & E2); [cbn in Hf; lia|].
    rewrite E2 in E. clear E2. destruct f' as [|f']; [lia|].
    exists b, b2, q2. split_and!; [done..| | |].
    + apply Hq2.
    + intros x ->. cbn [app] in *. by rewrite fd_open_comment in E.
    + assert (Hcc: (exists x, q2 = 47%Z :: 47%Z :: x) \/ forall x, q2 <> 47%Z :: 47%Z :: x).
      { destruct q2 as [|c [|c2 q2]]; [by right..|].
        destruct (Z.eq_dec c 47%Z) as [->|]; [|right; congruence].
        destruct (Z.eq_dec c2 47%Z) as [->|]; [left; eauto|right; congruence]. }
      destruct Hcc as [(x & ->)|Hcc].
      * right. rewrite fd_line_comment in E. split; [congruence|by exists x].
      * left. split; [|done].
        rewrite fd_stop in E; [congruence|done|done|done|].
        intros x ->. by rewrite fd_open_comment in E.
  - intros (b' & t & Hb' & ->). unfold find_directive in E.
    destruct (fd_blank b' Hb' (S (length (b' ++ [35]%Z ++ t))) false ([35]%Z ++ t)) as (f & Hf & E2); [lia|].
    rewrite E2 in E. destruct f as [|f]; [lia|]. cbn [app] in E. rewrite fd_hash in E.
    by eapply fd_true_not_none.
Qed.

(** ** keyword *)
Lemma strip_spec w s r : strip w s = Some r <-> s = w ++ r.
Proof.
  revert s; induction w as [|c w IH]; intros s; cbn; [split; congruence|].
  destruct s as [|d s]; [split; [done|by intros [=]]|].
  destruct (Z.eqb_spec c d) as [->|Hne].
  - rewrite IH. split; [by intros ->|by intros [= ->]].
  - split; [done|]. intros [= -> _]. done.
Qed.

Lemma isalnum_spec c : isalnum_ c = true <-> ident_char c.
Proof. unfold isalnum_, isdigit, ident_char. lia. Qed.

Lemma keyword_spec d w t : keyword d w = Some t <->
  exists sp, Forall space sp /\ d = w ++ sp ++ t /\ word_ends (sp ++ t) /\ no_space_first t.
Proof.
  unfold keyword. split.
  - destruct (strip w d) as [rest|] eqn:E; [|done]. apply strip_spec in E. subst d.
    destruct (skip_split rest) as (sp & Hsp & Hr & Hn).
    intros H. assert (Hw: word_ends rest /\ t = skip_whitespaces rest).
    { destruct rest as [|c rest]; [by injection H as <-|].
      destruct (isalnum_ c) eqn:Ec; [done|]. injection H as <-. split; [|done].
      intros c' t' [= <- <-]. rewrite <-isalnum_spec. congruence. }
    destruct Hw as [Hw ->]. exists sp. rewrite <-Hr. done.
  - intros (sp & Hsp & -> & Hw & Hn).
    rewrite (proj2 (strip_spec w (w ++ sp ++ t) (sp ++ t)) eq_refl).
    rewrite skip_app, skip_id by done.
    destruct (sp ++ t) as [|c r] eqn:E; [done|].
    destruct (isalnum_ c) eqn:Ec; [|done]. apply isalnum_spec in Ec. by destruct (Hw c r).
Qed.

Definition letter_first (w : str) : Prop := exists c w', w = c :: w' /\ (97 <= c <= 122)%Z.

Lemma is_directive_keyword name line t : letter_first name ->
  is_directive name line t <->
  exists d, find_directive line = Some (Some d) /\ keyword d name = Some t.
Proof.
  intros (c & w' & -> & Hc). split.
  - intros (b1 & b2 & w & Hb1 & Hb2 & Hw & -> & He & Hn).
    exists ((c :: w') ++ w ++ t). split; [|apply keyword_spec; eauto].
    apply find_directive_text. exists b1, b2, ((c :: w') ++ w ++ t). split_and!; [done..| | |].
    + intros x y [= <- _]. unfold space. rewrite !elem_of_cons, elem_of_nil. lia.
    + intros x [= ->]. lia.
    + left. split; [done|]. intros x [= ->]. lia.
  - intros (d & Hd & Hk). apply find_directive_inv in Hd as (b1 & b2 & r & Hb1 & Hb2 & -> & Hn & Hc1 & Hd).
    apply keyword_spec in Hk as (sp & Hsp & -> & He & Hn2).
    destruct Hd as [[<- _]|[[=] _]].
    exists b1, b2, sp. done.
Qed.

(** Only one keyword can match. *)
Lemma keyword_unique d w1 w2 t1 t2 : Forall ident_char w1 -> Forall ident_char w2 ->
  keyword d w1 = Some t1 -> keyword d w2 = Some t2 -> w1 = w2 /\ t1 = t2.
Proof.
  rewrite !keyword_spec. intros H1 H2 (s1 & Hs1 & -> & He1 & Hn1) (s2 & Hs2 & E & He2 & Hn2).
  assert (Hw: w1 = w2 /\ s1 ++ t1 = s2 ++ t2).
  { clear -H1 H2 E He1 He2. revert w2 H2 E. induction H1 as [|c w1 Hc H1 IH]; intros w2 H2 E.
    - destruct H2 as [|c w2 Hc H2]; [done|]. cbn in E. exfalso. by eapply He1.
    - destruct H2 as [|c2 w2 Hc2 H2]; cbn in E.
      + exfalso. symmetry in E. by eapply He2.
      + injection E as -> E. destruct (IH _ H2 E) as [-> ?]. done. }
  destruct Hw as [-> Hw]. split; [done|].
  rewrite <-(skip_id t1), <-(skip_id t2), <-(skip_app s1 t1), <-(skip_app s2 t2) by done.
  by rewrite Hw.
Qed.

(** ** Skipped text *)
Lemma quoted_dq s t : quoted 34 s -> find_double_quote_end (s ++ t) = Some t.
Proof.
  induction 1 as [|c s Hs IH|c s H1 H2 Hs IH]; cbn; [done..|].
  by repeat case_match.
Qed.

Lemma quoted_sq s t : quoted 39 s -> char_end (s ++ t) = Some t.
Proof.
  induction 1 as [|c s Hs IH|c s H1 H2 Hs IH]; cbn; [done..|].
  by repeat case_match.
Qed.

Lemma quoted_len q s : quoted q s -> (0 < length s)%nat.
Proof. induction 1; cbn; lia. Qed.

Lemma closed_skip p : closed p -> forall fuel rest, (length p < fuel)%nat ->
  process_disabled_aux fuel p rest = Some rest.
Proof.
  induction 1 as [|t|s t Hc Ht IH|s t Hs Ht IH|s t Hs Ht IH|t H1 H2 Ht IH|c t Hc Ht IH];
    intros fuel rest Hf; (destruct fuel as [|fuel]; [lia|]).
  - done.
  - done.
  - destruct Hc as (b & -> & Hb). cbn -[block_comment_end find_block_comment_end].
    rewrite <-app_assoc.
    assert (E: find_block_comment_end (b ++ [42; 47]%Z ++ t) rest = Some (t, rest)).
    { destruct rest; cbn -[block_comment_end]; pose proof (bce_app b t Hb) as E; cbn [app] in E; by rewrite E. }
    rewrite E. apply IH. rewrite !app_length in Hf. cbn in Hf. lia.
  - cbn. rewrite quoted_dq by done. apply IH. cbn in Hf. rewrite app_length in Hf. lia.
  - cbn. rewrite quoted_sq by done. apply IH. cbn in Hf. rewrite app_length in Hf. lia.
  - cbn [process_disabled_aux]. destruct t as [|c t]; [apply IH; cbn in *; lia|].
    assert (E: process_disabled_aux fuel (c :: t) rest = Some rest) by (apply IH; cbn in *; lia).
    repeat case_match; subst; try done; exfalso; naive_solver.
  - assert (E: process_disabled_aux fuel t rest = Some rest) by (apply IH; cbn in *; lia).
    rewrite !not_elem_of_cons in Hc. cbn [process_disabled_aux].
    repeat case_match; subst; try done; lia.
Qed.

Lemma closed_line p rest : closed p -> process_disabled_line p rest = Some rest.
Proof. intros H. apply closed_skip; [done|]. unfold total_length. lia. Qed.
