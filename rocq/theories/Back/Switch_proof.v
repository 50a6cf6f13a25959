(** The compare and jump code of a switch finds the matching case. *)
From stdpp Require Import base list numbers sorting sets.
From Verif Require Import Util.Wrap_model Front.Layout_model Front.Fold_model Back.Ir_model Back.Ir_spec Back.Switch_model Back.Switch_spec.
From Coq Require Import ZArith Lia.
Open Scope Z_scope.

Lemma W_pos n : 0 < n -> 0 < 2 ^ (8 * n) /\ 2 ^ (8 * n) = 2 * 2 ^ (8 * n - 1).
Proof. intros H. split; [apply Z.pow_pos_nonneg; lia|]. rewrite <- Z.pow_succ_r by lia. f_equal. lia. Qed.

Lemma mod_eq_ex W a b : 0 < W -> a mod W = b mod W <-> exists k, a - b = k * W.
Proof.
  intros HW. split.
  - intros E. exists (a / W - b / W). pose proof (Z.div_mod a W). pose proof (Z.div_mod b W). lia.
  - intros [k E]. replace a with (b + k * W) by lia. apply Z.mod_add. lia.
Qed.

Lemma view_mod n u z : 0 < n -> exists k, z - view n u z = k * 2 ^ (8 * n).
Proof.
  intros H. destruct (W_pos n H) as [H0 H1]. unfold view. set (W := 2 ^ (8 * n)) in *. set (h := 2 ^ (8 * n - 1)) in *.
  destruct u.
  - exists (z / W). pose proof (Z.div_mod z W). lia.
  - exists ((z + h) / W). pose proof (Z.div_mod (z + h) W). lia.
Qed.
Lemma view_eq n u a b : 0 < n -> view n u a = view n u b <-> a mod 2 ^ (8 * n) = b mod 2 ^ (8 * n).
Proof.
  intros H. destruct (W_pos n H) as [H0 H1]. rewrite mod_eq_ex by lia. split.
  - intros E. destruct (view_mod n u a H) as [k Ek], (view_mod n u b H) as [j Ej]. exists (k - j). rewrite E in Ek. lia.
  - intros [k E]. unfold view. destruct u.
    + apply mod_eq_ex; [lia|]. by exists k.
    + f_equal. apply mod_eq_ex; [lia|]. exists k. lia.
Qed.
Lemma view_small n z : 0 < n -> 0 <= z < 2 ^ (8 * n) -> view n true z = z.
Proof. intros H Hz. unfold view. by apply Z.mod_small. Qed.

Definition labels_of (code : list ir) : list nat := omap (fun i => match i with LABEL b => Some b | _ => None end) code.
Lemma labels_app a b : labels_of (a ++ b) = labels_of a ++ labels_of b.
Proof. apply omap_app. Qed.

Lemma find_block_app l1 l2 b : b ∉ labels_of l1 -> find_block (l1 ++ l2) b = find_block l2 b.
Proof.
  induction l1 as [|i l1 IH]; [done|]. intros H. cbn [app find_block].
  destruct i as [b'| | | |]; cbn in H; try (by apply IH).
  case_decide as E; [|apply IH; set_solver]. set_solver.
Qed.
Lemma find_block_none l b : b ∉ labels_of l -> find_block l b = None.
Proof. intros H. rewrite <- (app_nil_r l). by rewrite find_block_app. Qed.

Section switch.
  Context (size : Z) (Hsize : 0 < size) (u : bool) (vreg skip : nat) (B : nat).
  Notation W := (2 ^ (8 * size)).
  Definition cf : Z := if u then COND_UNSIGNED else 0.
  Notation vw := (view size u).

  Lemma eq_holds a b : cond_holds size (Z.lor COND_EQ cf) a b = bool_decide (vw a = vw b).
  Proof. unfold cond_holds, cf. by destruct u. Qed.
  Lemma gt_holds a b : cond_holds size (Z.lor COND_GT cf) a b = bool_decide (vw b < vw a).
  Proof. unfold cond_holds, cf. by destruct u. Qed.
  Lemma ugt_holds a b : cond_holds size (Z.lor COND_GT COND_UNSIGNED) a b = bool_decide (view size true b < view size true a).
  Proof. done. Qed.

  (** Runs. *)
  Definition exits (whole code : list ir) (regs : nat -> Z) (b : nat) : Prop := exists fuel, run fuel size whole code regs = Some b.
  Lemma exits_label whole b code regs r : exits whole code regs r -> exits whole (LABEL b :: code) regs r.
  Proof. intros [f H]. by exists (S f). Qed.
  Lemma exits_sub whole d s c code regs r :
    exits whole code (fun q => if decide (q = d) then (regs s - c) mod W else regs q) r -> exits whole (SUB d s c :: code) regs r.
  Proof. intros [f H]. by exists (S f). Qed.
  Lemma exits_jmp whole b code regs : b ∉ labels_of whole -> exits whole (JMP b :: code) regs b.
  Proof. intros H. exists 1%nat. cbn. by rewrite find_block_none. Qed.
  Lemma exits_cjmp_out whole q c cond b code regs : cond_holds size cond (regs q) c = true -> b ∉ labels_of whole ->
    exits whole (CJMP q c cond b :: code) regs b.
  Proof. intros E H. exists 1%nat. cbn [run]. rewrite E. by rewrite find_block_none. Qed.
  Lemma exits_cjmp_in whole q c cond b code code' regs r : cond_holds size cond (regs q) c = true -> find_block whole b = Some code' ->
    exits whole code' regs r -> exits whole (CJMP q c cond b :: code) regs r.
  Proof. intros E H [f Hf]. exists (S f). cbn [run]. by rewrite E, H. Qed.
  Lemma exits_cjmp_no whole q c cond b code regs r : cond_holds size cond (regs q) c = false ->
    exits whole code regs r -> exits whole (CJMP q c cond b :: code) regs r.
  Proof. intros E [f Hf]. exists (S f). cbn [run]. by rewrite E. Qed.
  Lemma exits_tjmp whole q table code regs b : table !! Z.to_nat (view size true (regs q)) = Some b -> b ∉ labels_of whole ->
    exits whole (TJMP q table :: code) regs b.
  Proof. intros E H. exists 1%nat. cbn [run]. rewrite E. by rewrite find_block_none. Qed.

  (** The case searched for. *)
  Fixpoint look (cases : list case) (w : Z) : nat :=
    match cases with
    | [] => skip
    | c :: cs => if decide (vw w = vw (val c)) then bb c else look cs w
    end.
  Definition no_match (cases : list case) (w : Z) : Prop := forall c, c ∈ cases -> vw w <> vw (val c).
  Lemma look_none cases w : no_match cases w -> look cases w = skip.
  Proof.
    induction cases as [|c cs IH]; [done|]. intros H. cbn. rewrite decide_False by (apply H; left).
    apply IH. intros d Hd. apply H. by right.
  Qed.
  Lemma look_app_l l1 l2 w : no_match l2 w -> look (l1 ++ l2) w = look l1 w.
  Proof. intros H. induction l1 as [|c l1 IH]; [by apply look_none|]. cbn. by rewrite IH. Qed.
  Lemma look_app_r l1 l2 w : no_match l1 w -> look (l1 ++ l2) w = look l2 w.
  Proof.
    induction l1 as [|c l1 IH]; [done|]. intros H. cbn. rewrite decide_False by (apply H; left).
    apply IH. intros d Hd. apply H. by right.
  Qed.
  Lemma look_in cases w c : c ∈ cases -> vw w = vw (val c) ->
    (forall d, d ∈ cases -> vw w = vw (val d) -> d = c) -> look cases w = bb c.
  Proof.
    induction cases as [|d cs IH]; intros Hc Hv Hu; [set_solver|]. cbn. case_decide as E.
    - by rewrite (Hu d) by (try left; done).
    - apply IH; [|done|].
      + apply elem_of_cons in Hc as [->|Hc]; [done|done].
      + intros e He. apply Hu. by right.
  Qed.

  (** Cases in order: of their constants and of the values these stand for. *)
  Definition lt_case (a b : case) : Prop := val a < val b /\ vw (val a) < vw (val b) /\ val b - val a < W.

  (** A block of code that finds the cases. *)
  Definition ok_code (cases : list case) (s : st) (code : list ir) (s' : st) : Prop :=
    (s.1 <= s'.1)%nat /\ (s.2 <= s'.2)%nat /\ (forall b, b ∈ labels_of code -> (s.1 <= b < s'.1)%nat) /\
    forall pre post regs,
      (forall b, b ∈ labels_of pre -> ~ (s.1 <= b < s'.1)%nat) ->
      (forall b, b ∈ labels_of (pre ++ code ++ post) -> (B <= b)%nat) ->
      exits (pre ++ code ++ post) (code ++ post) regs (look cases (regs vreg)).

  Context (Hskip : (skip < B)%nat).

  Lemma linear_ok cases : (forall c, c ∈ cases -> (bb c < B)%nat) -> forall s code s',
    linear vreg skip cf cases s = (code, s') -> ok_code cases s code s'.
  Proof.
    induction cases as [|c cs IH]; intros Hb s code s' E; cbn in E.
    - injection E as <- <-. split; [done|]. split; [done|]. split; [cbn; set_solver|].
      intros pre post regs Hp Hl. apply exits_jmp. intros H. specialize (Hl _ H). cbn in Hl. lia.
    - destruct (linear vreg skip cf cs (S s.1, s.2)) as [code1 s1] eqn:E1. injection E as <- <-.
      assert (Hb' : forall d, d ∈ cs -> (bb d < B)%nat) by (intros d Hd; apply Hb; by right).
      specialize (IH Hb' _ _ _ E1). destruct IH as (I1 & I2 & I3 & I4). cbn [fst snd] in *.
      split; [lia|]. split; [lia|]. split.
      { intros b. cbn. rewrite elem_of_cons. intros [->|H]; [lia|]. specialize (I3 _ H). lia. }
      intros pre post regs Hp Hl. cbn [app look].
      set (a := CJMP vreg (val c) (Z.lor COND_EQ cf) (bb c)) in *.
      assert (HE : forall l, pre ++ (a :: LABEL s.1 :: code1) ++ l = (pre ++ [a; LABEL s.1]) ++ code1 ++ l) by (intros l; by rewrite <- app_assoc).
      case_decide as Hv.
      + apply exits_cjmp_out; [rewrite eq_holds; by apply bool_decide_eq_true|].
        intros H. specialize (Hl _ H). specialize (Hb c (elem_of_list_here _ _)). lia.
      + apply exits_cjmp_no; [rewrite eq_holds; by apply bool_decide_eq_false|]. apply exits_label.
        change (pre ++ a :: LABEL s.1 :: code1 ++ post) with (pre ++ (a :: LABEL s.1 :: code1) ++ post).
        rewrite HE in *. apply I4; [|exact Hl].
        intros b. rewrite labels_app, elem_of_app. intros [H|H]; [specialize (Hp _ H); lia|]. cbn in H.
        apply elem_of_list_singleton in H. lia.
  Qed.

  Notation idx min := (fun c : case => Z.to_nat (val c - min)).
  Lemma fill_other (min : Z) cases (t : list nat) (i : nat) : (forall c, c ∈ cases -> Z.to_nat (val c - min) <> i) ->
    foldl (fun (t : list nat) c => <[Z.to_nat (val c - min) := bb c]> t) t cases !! i = t !! i.
  Proof.
    revert t. induction cases as [|c cs IH]; intros t H; [done|]. cbn [foldl]. rewrite IH; [|intros d Hd; apply H; by right].
    rewrite list_lookup_insert_ne; [done|]. apply H. left.
  Qed.
  Lemma fill_length (min : Z) cases (t : list nat) : length (foldl (fun (t : list nat) c => <[Z.to_nat (val c - min) := bb c]> t) t cases) = length t.
  Proof. revert t. induction cases as [|c cs IH]; intros t; [done|]. cbn [foldl]. by rewrite IH, insert_length. Qed.

  Lemma sorted_lt cases i j a b : StronglySorted lt_case cases -> (i < j)%nat -> cases !! i = Some a -> cases !! j = Some b -> lt_case a b.
  Proof.
    intros H. revert i j. induction H as [|c cs Hs IH Hc]; intros i j Hij Ha Hb; [done|].
    destruct i as [|i], j as [|j]; try lia; cbn in Ha, Hb.
    - injection Ha as ->. eapply (proj1 (stdpp.list.Forall_forall _ _)); [exact Hc|]. by eapply elem_of_list_lookup_2.
    - eapply (IH i j); [lia|done|done].
  Qed.
  Lemma sorted_inj cases a b : StronglySorted lt_case cases -> a ∈ cases -> b ∈ cases -> vw (val a) = vw (val b) -> a = b.
  Proof.
    intros H Ha Hb E. apply elem_of_list_lookup in Ha as [i Ha], Hb as [j Hb].
    destruct (decide (i < j)%nat); [pose proof (sorted_lt cases i j a b H) as X; unfold lt_case in X; specialize (X ltac:(done) Ha Hb); lia|].
    destruct (decide (j < i)%nat); [pose proof (sorted_lt cases j i b a H) as X; unfold lt_case in X; specialize (X ltac:(done) Hb Ha); lia|].
    assert (i = j) as -> by lia. congruence.
  Qed.

  Lemma fix_sub_ok a b d : fix_sub a b = Ok d -> d = a - b.
  Proof. unfold fix_sub, fix_check. destruct (_ && _); [congruence|done]. Qed.

  Lemma table_ok cases s code s' cmin cmax : (forall c, c ∈ cases -> (bb c < B)%nat) -> StronglySorted lt_case cases ->
    head cases = Some cmin -> list.last cases = Some cmax -> (vreg < s.2)%nat ->
    table_jump vreg skip cases (val cmin) (val cmax) s = Ok (code, s') -> ok_code cases s code s'.
  Proof.
    intros Hb Hs Hmin Hmax Hr E. destruct (W_pos size Hsize) as [HW _]. set (min := val cmin) in *. set (max := val cmax) in *.
    assert (Hrange : forall c, c ∈ cases -> min <= val c <= max /\ max - min < W).
    { intros c Hc. apply elem_of_list_lookup in Hc as [i Hc]. rewrite last_lookup in Hmax.
      rewrite head_lookup in Hmin. pose proof (lookup_lt_Some _ _ _ Hc) as Hi.
      assert (min <= val c).
      { destruct (decide (0 < i)%nat); [pose proof (sorted_lt cases 0 i _ _ Hs ltac:(done) Hmin Hc) as X; unfold lt_case in X; lia|].
        assert (i = 0)%nat as -> by lia. assert (c = cmin) as -> by congruence. unfold min. lia. }
      assert (val c <= max).
      { destruct (decide (i < Nat.pred (length cases))%nat); [pose proof (sorted_lt cases _ _ _ _ Hs l Hc Hmax) as X; unfold lt_case in X; lia|].
        assert (i = Nat.pred (length cases)) as -> by lia. assert (c = cmax) as -> by congruence. unfold max. lia. }
      split; [lia|]. destruct (decide (0 < Nat.pred (length cases))%nat).
      - pose proof (sorted_lt cases _ _ _ _ Hs l Hmin Hmax) as X. unfold lt_case in X. unfold max, min. lia.
      - assert (Nat.pred (length cases) = 0)%nat as Hz by lia. rewrite Hz in Hmax. assert (cmin = cmax) as -> by congruence. unfold max, min. lia. }
    assert (Hin : cmin ∈ cases) by (rewrite head_lookup in Hmin; by eapply elem_of_list_lookup_2).
    pose proof (Hrange _ Hin) as [Hmm HmW]. fold min in Hmm.
    unfold table_jump in E. destruct s as [nb nr]. cbn [fst snd] in *.
    destruct (fix_sub max min) as [d| | |] eqn:Ed; cbn in E; try done. apply fix_sub_ok in Ed as ->.
    destruct (fix_sub (max - min) (-1)) as [range| | |] eqn:Er; cbn in E; try done. apply fix_sub_ok in Er as ->.
    set (table := fill skip min cases (max - min - -1)) in *.
    (* the search in the table *)
    assert (Ht : forall w, view size true (max - min) < (w - min) mod W -> look cases w = skip).
    { intros w H. apply look_none. intros c Hc Hv. rewrite view_small in H by lia. pose proof (Hrange c Hc).
      apply view_eq in Hv; [|done]. apply mod_eq_ex in Hv as [k Hk]; [|lia].
      replace (w - min) with (val c - min + k * W) in H by lia. rewrite Z.mod_add, Z.mod_small in H by lia. lia. }
    assert (Hf : forall w, ~ view size true (max - min) < (w - min) mod W -> table !! Z.to_nat ((w - min) mod W) = Some (look cases w)).
    { intros w H. rewrite view_small in H by lia. pose proof (Z.mod_pos_bound (w - min) W HW) as Hp.
      set (i := (w - min) mod W) in *. unfold table, fill.
      destruct (decide (Exists (fun c => val c - min = i) cases)) as [He|He].
      - apply Exists_exists in He as (c & Hc & Hi).
        assert (Hwc : vw w = vw (val c)).
        { apply view_eq; [done|]. apply mod_eq_ex; [done|]. exists ((w - min) / W). pose proof (Z.div_mod (w - min) W). lia. }
        rewrite (look_in cases w c Hc Hwc) by (intros d Hd Hv; apply (sorted_inj cases); [done..|congruence]).
        apply elem_of_list_split in Hc as (l1 & l2 & ->). rewrite foldl_app. cbn [foldl]. rewrite fill_other.
        + rewrite <- Hi. apply list_lookup_insert. rewrite fill_length, replicate_length. pose proof (Hrange c ltac:(set_solver)). lia.
        + intros d Hd Heq. assert (d <> c /\ val d = val c).
          { split.
            - intros ->. apply elem_of_list_lookup in Hd as [k Hk].
              pose proof (sorted_lt (l1 ++ c :: l2) (length l1) (length l1 + S k) c c Hs ltac:(lia)) as X.
              assert (lt_case c c) by (apply X; [by apply list_lookup_middle|rewrite lookup_app_r by lia; by replace (length l1 + S k - length l1)%nat with (S k) by lia]).
              unfold lt_case in *. lia.
            - pose proof (Hrange d ltac:(set_solver)). lia. }
          destruct H0 as [Hne Hv]. apply Hne. apply (sorted_inj (l1 ++ c :: l2)); [done|set_solver|set_solver|by rewrite Hv].
      - rewrite fill_other.
        + rewrite lookup_replicate_2 by lia. f_equal. symmetry. apply look_none. intros c Hc Hv. apply He. apply Exists_exists. exists c. split; [done|].
          apply view_eq in Hv; [|done]. apply mod_eq_ex in Hv as [k Hk]; [|lia]. pose proof (Hrange c Hc). unfold i.
          replace (w - min) with (val c - min + k * W) by lia. rewrite Z.mod_add, Z.mod_small by lia. done.
        + intros c Hc Heq. apply He. apply Exists_exists. exists c. split; [done|]. pose proof (Hrange c Hc). lia. }
    assert (Hbb : forall w, (look cases w < B)%nat).
    { intros w. clear -Hb Hskip. induction cases as [|c cs IH]; [done|]. cbn. case_decide; [apply Hb; left|]. apply IH. intros d Hd. apply Hb. by right. }
    (* the common part *)
    assert (Hg : forall val whole post regs, (forall b, b ∈ labels_of whole -> (B <= b)%nat) ->
       view size true (regs val) = (regs vreg - min) mod W ->
       exits whole (CJMP val (max - min) (Z.lor COND_GT COND_UNSIGNED) skip :: LABEL nb :: TJMP val table :: post) regs (look cases (regs vreg))).
    { intros q whole post regs Hl Hq. destruct (decide (view size true (max - min) < (regs vreg - min) mod W)) as [H|H].
      - rewrite (Ht _ H). apply exits_cjmp_out; [|intros X; specialize (Hl _ X); lia].
        rewrite ugt_holds. apply bool_decide_eq_true. by rewrite Hq.
      - apply exits_cjmp_no; [rewrite ugt_holds; apply bool_decide_eq_false; by rewrite Hq|]. apply exits_label.
        apply exits_tjmp; [rewrite Hq; by apply Hf|]. intros X. specialize (Hl _ X). specialize (Hbb (regs vreg)). lia. }
    destruct (min =? 0) eqn:E0; injection E as <- <-; (split; [cbn; lia|]; split; [cbn; lia|]; split; [intros b; cbn; rewrite elem_of_list_singleton; lia|]);
      intros pre post regs Hp Hl; cbn [app].
    - apply Z.eqb_eq in E0. apply Hg; [exact Hl|]. rewrite E0, Z.sub_0_r. done.
    - apply exits_sub.
      set (regs' := fun q => if decide (q = nr) then (regs vreg - min) mod W else regs q).
      assert (Hv : regs vreg = regs' vreg) by (unfold regs'; by rewrite decide_False by lia).
      rewrite Hv. apply Hg; [exact Hl|]. rewrite <- Hv. unfold regs' at 1. rewrite decide_True by done. unfold view. by rewrite Zmod_mod.
  Qed.

  Lemma recur_ok fuel : forall cases s code s', (forall c, c ∈ cases -> (bb c < B)%nat) -> StronglySorted lt_case cases -> (vreg < s.2)%nat ->
    recur vreg skip cf fuel cases s = Ok (code, s') -> ok_code cases s code s'.
  Proof.
    induction fuel as [|fuel IH]; intros cases s code s' Hb Hs Hr E; [done|]. cbn [recur] in E.
    destruct (Z.of_nat (length cases) <=? 2) eqn:El.
    { injection E as E. by apply linear_ok in E. }
    destruct (list.head cases) as [cmin|] eqn:Hmin; [|done]. destruct (list.last cases) as [cmax|] eqn:Hmax; [|done].
    destruct (fix_sub (val cmax) (val cmin)) as [d| | |] eqn:Ed; cbn [mbind res_bind] in E; try done.
    destruct (fix_sub d (-1)) as [range| | |] eqn:Er; cbn [mbind res_bind] in E; try done.
    destruct (_ && _); [by eapply table_ok in E|].
    set (m := Z.to_nat (Z.shiftr (Z.of_nat (length cases)) 1)) in *.
    destruct (cases !! m) as [c|] eqn:Hm; [|done]. destruct s as [nb nr]. cbn [fst snd] in *.
    destruct (recur vreg skip cf fuel (take m cases) (S (S (S nb)), nr)) as [[lower s1]| | |] eqn:E1; cbn [mbind res_bind] in E; try done.
    destruct (recur vreg skip cf fuel (drop (S m) cases) s1) as [[upper s2]| | |] eqn:E2; cbn [mbind res_bind] in E; try done.
    injection E as <- <-. pose proof (take_drop_middle _ _ _ Hm) as Hsplit.
    set (lo := take m cases) in *. set (hi := drop (S m) cases) in *.
    assert (Hs' : StronglySorted lt_case (lo ++ c :: hi)) by (by rewrite Hsplit).
    assert (Hlo : forall x, x ∈ lo -> lt_case x c).
    { intros x Hx. apply elem_of_list_lookup in Hx as [i Hi]. eapply (sorted_lt (lo ++ c :: hi) i (length lo)); [done|by eapply lookup_lt_Some| |by apply list_lookup_middle].
      by apply lookup_app_l_Some. }
    assert (Hhi : forall x, x ∈ hi -> lt_case c x).
    { intros x Hx. apply elem_of_list_lookup in Hx as [i Hi]. eapply (sorted_lt (lo ++ c :: hi) (length lo) (length lo + S i)); [done|lia|by apply list_lookup_middle|].
      rewrite lookup_app_r by lia. by replace (length lo + S i - length lo)%nat with (S i) by lia. }
    apply IH in E1; [| |by eapply StronglySorted_app_inv_l in Hs'|done].
    2:{ intros x Hx. apply Hb. rewrite <- Hsplit. set_solver. }
    destruct E1 as (L1 & L2 & L3 & L4). cbn [fst snd] in *.
    apply IH in E2; [| |eapply StronglySorted_app_inv_r, StronglySorted_inv in Hs'; tauto|lia].
    2:{ intros x Hx. apply Hb. rewrite <- Hsplit. set_solver. }
    destruct E2 as (U1 & U2 & U3 & U4).
    split; [cbn; lia|]. split; [cbn; lia|]. split.
    { intros b Hin.
      assert (H : b ∈ [nb; S nb] ++ labels_of lower ++ [S (S nb)] ++ labels_of upper).
      { match type of Hin with _ ∈ labels_of ?l => change l with ([CJMP vreg (val c) (Z.lor COND_EQ cf) (bb c); LABEL nb;
                   CJMP vreg (val c) (Z.lor COND_GT cf) (S (S nb)); LABEL (S nb)] ++ lower ++ [LABEL (S (S nb))] ++ upper) in Hin end.
        by rewrite !labels_app in Hin. }
      rewrite !elem_of_app in H. cbn [fst snd]. destruct H as [H|[H|[H|H]]].
      - set_unfold. destruct H as [->|[->|[]]]; lia.
      - specialize (L3 _ H). lia.
      - set_unfold. destruct H as [->|[]]; lia.
      - specialize (U3 _ H). lia. }
    intros pre post regs Hp Hl. cbn [fst snd] in *.
    set (a1 := CJMP vreg (val c) (Z.lor COND_EQ cf) (bb c)) in *.
    set (a2 := CJMP vreg (val c) (Z.lor COND_GT cf) (S (S nb))) in *.
    set (whole := pre ++ ([a1; LABEL nb; a2; LABEL (S nb)] ++ lower ++ LABEL (S (S nb)) :: upper) ++ post) in *.
    assert (W1 : whole = (pre ++ [a1; LABEL nb; a2; LABEL (S nb)]) ++ lower ++ (LABEL (S (S nb)) :: upper ++ post)).
    { unfold whole. by rewrite <- !app_assoc. }
    assert (W2 : whole = (pre ++ [a1; LABEL nb; a2; LABEL (S nb)] ++ lower ++ [LABEL (S (S nb))]) ++ upper ++ post).
    { unfold whole. by rewrite <- !app_assoc. }
    assert (Hcode : ([a1; LABEL nb; a2; LABEL (S nb)] ++ lower ++ LABEL (S (S nb)) :: upper) ++ post =
      a1 :: LABEL nb :: a2 :: LABEL (S nb) :: lower ++ LABEL (S (S nb)) :: upper ++ post) by (by rewrite <- !app_assoc).
    match goal with |- exits _ _ _ ?r => change (exits whole (([a1; LABEL nb; a2; LABEL (S nb)] ++ lower ++ LABEL (S (S nb)) :: upper) ++ post) regs r) end.
    change (forall b, b ∈ labels_of whole -> (B <= b)%nat) in Hl.
    rewrite Hcode. set (w := regs vreg) in *.
    destruct (decide (vw w = vw (val c))) as [Hv|Hv].
    { replace (look cases w) with (bb c).
      - apply exits_cjmp_out; [rewrite eq_holds; by apply bool_decide_eq_true|]. intros X. specialize (Hl _ X).
        specialize (Hb c). assert (c ∈ cases) by (by eapply elem_of_list_lookup_2). specialize (Hb ltac:(done)). lia.
      - symmetry. apply look_in; [by eapply elem_of_list_lookup_2|done|]. intros x Hx Hxv. apply (sorted_inj cases); [done|done|by eapply elem_of_list_lookup_2|congruence]. }
    apply exits_cjmp_no; [rewrite eq_holds; by apply bool_decide_eq_false|]. apply exits_label.
    assert (P1 : forall b, b ∈ labels_of [a1; LABEL nb; a2; LABEL (S nb)] -> b = nb \/ b = S nb) by (intros b H; cbn in H; set_solver).
    destruct (decide (vw (val c) < vw w)) as [Hg|Hg].
    - eapply exits_cjmp_in; [rewrite gt_holds; by apply bool_decide_eq_true|..].
      + rewrite W1. rewrite app_assoc, find_block_app.
        * cbn [find_block]. by rewrite decide_True.
        * rewrite !labels_app, !elem_of_app. intros [[H|H]|H]; [specialize (Hp _ H); lia|apply P1 in H; lia|specialize (L3 _ H); lia].
      + rewrite <- Hsplit, look_app_r; [cbn [look]; rewrite decide_False by done|].
        2:{ intros x Hx. specialize (Hlo x Hx). unfold lt_case in Hlo. lia. }
        rewrite W2. apply U4; [|by rewrite <- W2].
        intros b. rewrite !labels_app, !elem_of_app. intros [H|[H|[H|H]]]; [specialize (Hp _ H); lia|apply P1 in H; lia|specialize (L3 _ H); lia|].
        cbn in H. apply elem_of_list_singleton in H. lia.
    - apply exits_cjmp_no; [rewrite gt_holds; by apply bool_decide_eq_false|]. apply exits_label.
      rewrite <- Hsplit, look_app_l.
      2:{ intros x Hx. apply elem_of_cons in Hx as [->|Hx]; [done|]. specialize (Hhi x Hx). unfold lt_case in Hhi. lia. }
      rewrite W1. apply L4; [|by rewrite <- W1].
      intros b. rewrite !labels_app, !elem_of_app. intros [H|H]; [specialize (Hp _ H); lia|apply P1 in H; lia].
  Qed.
End switch.
