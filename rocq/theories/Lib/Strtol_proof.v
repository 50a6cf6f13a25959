From stdpp Require Import base list numbers.
From Coq Require Import Lia ZArith Bool.
From Verif Require Import Lib.Cmem Lib.Strtol_model Lib.Strtol_spec.
Local Open Scope Z_scope.

Lemma digit_ok base b : 2 <= base <= 36 -> 0 <= b < 256 ->
  digit base (schar b) = match digit_value b with Some v => if v <? base then Some v else None | None => None end.
Proof.
  intros Hb Hc. unfold digit, digit_value, schar, tolower.
  destruct (Z.ltb_spec b 128) as [H1|H1].
  - destruct (Z.leb_spec base 10) as [Hd|Hd].
    + destruct (Z.leb_spec 48 b), (Z.ltb_spec b (48 + base)); simpl.
      * rewrite (proj2 (Z.leb_le b 57)) by lia. simpl. rewrite (proj2 (Z.ltb_lt (b - 48) base)) by lia. done.
      * destruct (Z.leb_spec b 57); simpl.
        { rewrite (proj2 (Z.ltb_ge (b - 48) base)) by lia.
          rewrite (proj2 (Z.leb_gt 65 b)) by lia. simpl. rewrite (proj2 (Z.leb_gt 97 b)) by lia. done. }
        destruct (Z.leb_spec 65 b), (Z.leb_spec b 90); simpl;
          try (rewrite (proj2 (Z.leb_le 97 (b + 32))) by lia); simpl;
          try (rewrite (proj2 (Z.ltb_ge (b + 32) _)) by lia); simpl;
          try (rewrite (proj2 (Z.ltb_ge (b - 65 + 10) _)) by lia); try done; try lia.
        all: destruct (Z.leb_spec 97 b); simpl; try done; try lia.
        all: rewrite (proj2 (Z.ltb_ge b (97 - 10 + base))) by lia.
        all: destruct (Z.leb_spec b 122); try done; rewrite (proj2 (Z.ltb_ge (b - 97 + 10) base)) by lia; done.
      * rewrite (proj2 (Z.leb_gt 65 b)) by lia. simpl. rewrite (proj2 (Z.leb_gt 97 b)) by lia. done.
      * lia.
    + destruct (Z.leb_spec 48 b), (Z.ltb_spec b (48 + 10)); simpl.
      * rewrite (proj2 (Z.leb_le b 57)) by lia. simpl. rewrite (proj2 (Z.ltb_lt (b - 48) base)) by lia. done.
      * rewrite (proj2 (Z.leb_gt b 57)) by lia. simpl.
        destruct (Z.leb_spec 65 b), (Z.leb_spec b 90); simpl.
        -- rewrite (proj2 (Z.leb_le 97 (b + 32))) by lia. simpl.
           destruct (Z.ltb_spec (b + 32) (97 - 10 + base)).
           ++ rewrite (proj2 (Z.ltb_lt (b - 65 + 10) base)) by lia. f_equal. lia.
           ++ rewrite (proj2 (Z.ltb_ge (b - 65 + 10) base)) by lia. done.
        -- destruct (Z.leb_spec 97 b); simpl; [|done].
           destruct (Z.ltb_spec b (97 - 10 + base)).
           ++ rewrite (proj2 (Z.leb_le b 122)) by lia. simpl.
              rewrite (proj2 (Z.ltb_lt (b - 97 + 10) base)) by lia. f_equal.
           ++ destruct (Z.leb_spec b 122); simpl; [|done].
              rewrite (proj2 (Z.ltb_ge (b - 97 + 10) base)) by lia. done.
        -- rewrite (proj2 (Z.leb_gt 97 b)) by lia. done.
        -- lia.
      * rewrite (proj2 (Z.leb_gt 65 b)) by lia. simpl. rewrite (proj2 (Z.leb_gt 97 b)) by lia. done.
      * lia.
  - rewrite (proj2 (Z.leb_gt 48 (b - 256))) by lia. simpl.
    rewrite (proj2 (Z.leb_gt 65 (b - 256))) by lia. simpl.
    rewrite (proj2 (Z.leb_gt 97 (b - 256))) by lia. simpl.
    rewrite (proj2 (Z.leb_gt b 57)) by lia. rewrite (proj2 (Z.leb_gt b 90)) by lia.
    rewrite (proj2 (Z.leb_gt b 122)) by lia. rewrite !andb_false_r. done.
Qed.

Lemma digit_is base b v : 2 <= base <= 36 -> 0 <= b < 256 ->
  digit_value b = Some v -> v < base -> digit base (schar b) = Some v.
Proof. intros Hb Hc Hv Hlt. rewrite digit_ok, Hv by done. rewrite (proj2 (Z.ltb_lt v base)) by done. done. Qed.
Lemma digit_isnt base b : 2 <= base <= 36 -> 0 <= b < 256 -> ~ is_digit base b -> digit base (schar b) = None.
Proof.
  intros Hb Hc Hn. rewrite digit_ok by done. destruct (digit_value b) as [v|] eqn:E; [|done].
  destruct (Z.ltb_spec v base); [|done]. exfalso. apply Hn. exists v. done.
Qed.
Lemma digit_value_nonneg c v : digit_value c = Some v -> 0 <= v.
Proof.
  unfold digit_value. repeat (match goal with |- context [if ?b then _ else _] => destruct b eqn:? end);
    intros [= <-]; repeat (match goal with H : _ && _ = true |- _ => apply andb_true_iff in H as [? ?] end); lia.
Qed.

(* one step keeps [result = min max value] *)
Lemma accumulate_ok base max acc v : 2 <= base <= 36 -> base <= max < 2^64 -> 0 <= acc -> 0 <= v < base ->
  accumulate base max (max / base) (Z.min max acc) v = Z.min max (acc * base + v).
Proof.
  intros Hb Hm Ha Hv. unfold accumulate.
  pose proof (Z.div_mod max base ltac:(lia)) as Hdm. pose proof (Z.mod_pos_bound max base ltac:(lia)) as Hmb.
  destruct (Z.ltb_spec (max / base) (Z.min max acc)) as [Hlt|Hle].
  - assert (max < acc * base) by nia. lia.
  - assert (Hacc : acc <= max / base).
    { destruct (Z.le_gt_cases acc max); [lia|]. assert (max / base < max) by (apply Z.div_lt; lia). lia. }
    assert (max / base <= max) by nia.
    assert (Hr : acc * base <= max) by nia.
    replace (Z.min max acc) with acc by lia.
    rewrite (Z.mod_small (acc * base)) by lia. rewrite (Z.mod_small (max - acc * base)) by lia.
    destruct (Z.ltb_spec v (max - acc * base)).
    + rewrite Z.mod_small by lia. lia.
    + lia.
Qed.

Lemma num_acc base ds : forall acc,
  fold_left (fun acc c => acc * base + default 0 (digit_value c)) ds acc =
  acc * base ^ Z.of_nat (length ds) + num base ds.
Proof.
  unfold num. induction ds as [|c ds IH]; intros acc.
  - simpl. lia.
  - cbn [fold_left length]. rewrite IH, (IH (0 * base + _)).
    rewrite Nat2Z.inj_succ, Z.pow_succ_r by lia. lia.
Qed.

Lemma sub_loop_ok base max rest : 2 <= base <= 36 -> base <= max < 2^64 -> no_digit base rest ->
  Forall (fun b => 0 <= b < 256) rest ->
  forall ds acc, Forall (fun b => 0 <= b < 256) ds -> Forall (is_digit base) ds -> 0 <= acc ->
  sub_loop base max (max / base) (ds ++ rest) (Z.min max acc) =
  (Z.min max (fold_left (fun acc c => acc * base + default 0 (digit_value c)) ds acc), rest).
Proof.
  intros Hb Hm Hrest Hrb. induction ds as [|c ds IH]; intros acc Hby Hds Ha.
  - cbn [app fold_left]. destruct rest as [|c rest]; [done|]. cbn [sub_loop].
    apply Forall_cons_1 in Hrb as [Hc _]. rewrite digit_isnt by done. done.
  - apply Forall_cons_1 in Hby as [Hc Hby], Hds as [(v & Hv & Hvb) Hds].
    cbn [app sub_loop fold_left]. rewrite (digit_is base c v) by done.
    pose proof (digit_value_nonneg c v Hv) as Hv0. rewrite Hv. cbn [default].
    rewrite accumulate_ok by lia. rewrite IH; [done|done|done|]. unfold default, id. nia.
Qed.

Lemma sub_ok base max ds rest : 2 <= base <= 36 -> base <= max < 2^64 -> no_digit base rest ->
  Forall (fun b => 0 <= b < 256) rest -> Forall (fun b => 0 <= b < 256) ds -> Forall (is_digit base) ds ->
  strtoull_sub (ds ++ rest) base max = Some (Z.min max (num base ds), rest).
Proof.
  intros Hb Hm Hr Hrb Hdb Hd. unfold strtoull_sub. rewrite decide_False by lia. f_equal.
  pose proof (sub_loop_ok base max rest Hb Hm Hr Hrb ds 0 Hdb Hd ltac:(lia)) as H.
  replace (Z.min max 0) with 0 in H by lia. exact H.
Qed.

Lemma num_nonneg base ds : 2 <= base -> 0 <= num base ds.
Proof.
  intros Hb. unfold num. assert (H : forall ds acc, 0 <= acc ->
    0 <= fold_left (fun acc c => acc * base + default 0 (digit_value c)) ds acc).
  { clear ds. induction ds as [|c ds IH]; intros acc Ha; [done|]. cbn [fold_left]. apply IH.
    destruct (digit_value c) as [v|] eqn:E; simpl; [|nia].
    pose proof (digit_value_nonneg c v E). nia. }
  apply H. lia.
Qed.

(* white space and signs *)
Lemma isspace_ok b : 0 <= b < 256 -> (isspace (schar b) = true <-> is_space b).
Proof.
  intros Hb. unfold isspace, schar, is_space. destruct (Z.ltb_spec b 128);
    rewrite !orb_true_iff, !Z.eqb_eq; lia.
Qed.
Lemma skip_space_ok ws rest : Forall (fun b => 0 <= b < 256) (ws ++ rest) -> Forall is_space ws ->
  (match rest with [] => True | c :: _ => ~ is_space c end) ->
  skip_space (ws ++ rest) = rest.
Proof.
  induction ws as [|c ws IH]; intros Hby Hws Hr; cbn [app skip_space].
  - destruct rest as [|c rest]; [done|]. cbn [skip_space]. cbn [app] in Hby. apply Forall_cons_1 in Hby as [Hc _].
    destruct (isspace (schar c)) eqn:E; [|done]. exfalso. apply Hr, isspace_ok; done.
  - cbn [app] in Hby. apply Forall_cons_1 in Hby as [Hc Hby], Hws as [Hs Hws].
    rewrite (proj2 (isspace_ok c Hc) Hs). apply IH; done.
Qed.

Lemma digit_not_special base c : is_digit base c -> ~ is_space c /\ c <> 43 /\ c <> 45.
Proof.
  intros (v & Hv & _). unfold digit_value in Hv. unfold is_space.
  destruct (Z.leb_spec 48 c), (Z.leb_spec c 57), (Z.leb_spec 65 c), (Z.leb_spec c 90), (Z.leb_spec 97 c),
    (Z.leb_spec c 122); simpl in Hv; try done; lia.
Qed.

(** The sign: none, '+' or '-'. *)
Inductive sign := SNone | SPlus | SMinus.
Definition sign_text (s : sign) : list Z := match s with SNone => [] | SPlus => [43] | SMinus => [45] end.
Definition signed (s : sign) (v : Z) : Z := match s with SMinus => - v | _ => v end.

Lemma to_s64_small v : -2^63 <= v < 2^63 -> to_s64 v = v.
Proof. intros H. unfold to_s64. rewrite Z.mod_small by lia. lia. Qed.

Lemma strtol_ok base ws s ds rest : 2 <= base <= 36 -> Forall is_space ws -> Forall (is_digit base) ds ->
  ds <> [] -> no_digit base rest -> Forall (fun b => 0 <= b < 256) (ws ++ sign_text s ++ ds ++ rest) ->
  strtol (ws ++ sign_text s ++ ds ++ rest) base =
  Some (clamp (-2^63) (2^63 - 1) (signed s (num base ds)), rest).
Proof.
  intros Hb Hws Hds Hne Hr Hby. unfold strtol.
  destruct ds as [|c ds]; [done|]. pose proof Hds as Hds0. apply Forall_cons_1 in Hds0 as [Hc _].
  apply digit_not_special in Hc as (Hc1 & Hc2 & Hc3).
  pose proof (proj2 (proj1 (Forall_app _ _ _) Hby)) as Hby2.
  pose proof (proj2 (proj1 (Forall_app _ _ _) Hby2)) as Hby3.
  pose proof (proj1 (Forall_app _ _ _) Hby3) as [Hby4 Hby5].
  assert (0 <= c < 256) by (apply Forall_cons_1 in Hby4; tauto).
  rewrite skip_space_ok; [|done|done|destruct s; simpl; [done|unfold is_space; lia|unfold is_space; lia]].
  pose proof (num_nonneg base (c :: ds) ltac:(lia)) as Hnn.
  assert (Hps : parse_sign (sign_text s ++ (c :: ds) ++ rest) =
     (match s with SMinus => true | _ => false end, (c :: ds) ++ rest)).
  { unfold parse_sign. destruct s; cbn [sign_text app cur]; [|done|done].
    assert (schar c <> 43 /\ schar c <> 45) as [E1 E2] by (unfold schar; destruct (Z.ltb_spec c 128); lia).
    rewrite (proj2 (Z.eqb_neq (schar c) 43)) by done. rewrite (proj2 (Z.eqb_neq (schar c) 45)) by done. done. }
  rewrite Hps.
  assert (Hlen : length rest <> length ((c :: ds) ++ rest)) by (rewrite app_length; simpl; lia).
  destruct s; cbn [signed].
  1,2: rewrite sub_ok by (done || lia); cbn [mbind option_bind]; rewrite decide_False by done;
    f_equal; f_equal; rewrite to_s64_small by lia; unfold clamp; lia.
  rewrite sub_ok by (done || lia). cbn [mbind option_bind]. rewrite decide_False by done.
  f_equal. f_equal. unfold clamp. destruct (Z.le_gt_cases (2^63) (num base (c :: ds))).
  + replace (Z.min (2 ^ 63) (num base (c :: ds))) with (2^63) by lia.
    change (to_s64 (- to_s64 (2^63))) with (- 2^63). lia.
  + replace (Z.min (2 ^ 63) (num base (c :: ds))) with (num base (c :: ds)) by lia.
    rewrite (to_s64_small (num base (c :: ds))) by lia. rewrite to_s64_small by lia. lia.
Qed.

Lemma strtoull_ok base ws s ds rest : 2 <= base <= 36 -> Forall is_space ws -> Forall (is_digit base) ds ->
  ds <> [] -> no_digit base rest -> s <> SMinus -> Forall (fun b => 0 <= b < 256) (ws ++ sign_text s ++ ds ++ rest) ->
  strtoull (ws ++ sign_text s ++ ds ++ rest) base = Some (clamp 0 (2^64 - 1) (num base ds), rest).
Proof.
  intros Hb Hws Hds Hne Hr Hs Hby. unfold strtoull.
  destruct ds as [|c ds]; [done|]. pose proof Hds as Hds0. apply Forall_cons_1 in Hds0 as [Hc _].
  apply digit_not_special in Hc as (Hc1 & Hc2 & Hc3).
  pose proof (proj2 (proj1 (Forall_app _ _ _) Hby)) as Hby2.
  pose proof (proj2 (proj1 (Forall_app _ _ _) Hby2)) as Hby3.
  pose proof (proj1 (Forall_app _ _ _) Hby3) as [Hby4 Hby5].
  assert (0 <= c < 256) by (apply Forall_cons_1 in Hby4; tauto).
  rewrite skip_space_ok; [|done|done|destruct s; simpl; [done|unfold is_space; lia|done]].
  pose proof (num_nonneg base (c :: ds) ltac:(lia)) as Hnn.
  assert (Hps : (if cur (sign_text s ++ (c :: ds) ++ rest) =? 43 then tail (sign_text s ++ (c :: ds) ++ rest)
                 else sign_text s ++ (c :: ds) ++ rest) = (c :: ds) ++ rest).
  { destruct s; cbn [sign_text app cur]; [|done|done].
    rewrite (proj2 (Z.eqb_neq (schar c) 43)); [done|]. unfold schar; destruct (Z.ltb_spec c 128); lia. }
  rewrite Hps, sub_ok by (done || lia). cbn [mbind option_bind].
  rewrite decide_False by (rewrite app_length; simpl; lia).
  f_equal. f_equal. unfold clamp. lia.
Qed.

Lemma strtoul_ok base s ds rest : 2 <= base <= 36 -> Forall (is_digit base) ds ->
  ds <> [] -> no_digit base rest -> s <> SMinus -> Forall (fun b => 0 <= b < 256) (sign_text s ++ ds ++ rest) ->
  strtoul (sign_text s ++ ds ++ rest) base = Some (clamp 0 (2^64 - 1) (num base ds), rest).
Proof.
  intros Hb Hds Hne Hr Hs Hby2. unfold strtoul.
  destruct ds as [|c ds]; [done|]. pose proof Hds as Hds0. apply Forall_cons_1 in Hds0 as [Hc _].
  apply digit_not_special in Hc as (Hc1 & Hc2 & Hc3).
  pose proof (proj2 (proj1 (Forall_app _ _ _) Hby2)) as Hby3.
  pose proof (proj1 (Forall_app _ _ _) Hby3) as [Hby4 Hby5].
  assert (0 <= c < 256) by (apply Forall_cons_1 in Hby4; tauto).
  pose proof (num_nonneg base (c :: ds) ltac:(lia)) as Hnn.
  assert (Hps : (if cur (sign_text s ++ (c :: ds) ++ rest) =? 43 then tail (sign_text s ++ (c :: ds) ++ rest)
                 else sign_text s ++ (c :: ds) ++ rest) = (c :: ds) ++ rest).
  { destruct s; cbn [sign_text app cur]; [|done|done].
    rewrite (proj2 (Z.eqb_neq (schar c) 43)); [done|]. unfold schar; destruct (Z.ltb_spec c 128); lia. }
  rewrite Hps, sub_ok by (done || lia). cbn [mbind option_bind].
  rewrite decide_False by (rewrite app_length; simpl; lia).
  f_equal. f_equal. unfold clamp. lia.
Qed.

(* no digits: 0 and the original pointer *)
Lemma strtol_none base ws s rest : 2 <= base <= 36 -> Forall is_space ws -> no_digit base rest ->
  Forall (fun b => 0 <= b < 256) (ws ++ sign_text s ++ rest) ->
  (match rest with [] => True | c :: _ => ~ is_space c /\ (s = SNone -> c <> 43 /\ c <> 45) end) ->
  strtol (ws ++ sign_text s ++ rest) base = Some (0, ws ++ sign_text s ++ rest).
Proof.
  intros Hb Hws Hr Hby Hsp. unfold strtol.
  pose proof (proj2 (proj1 (Forall_app _ _ _) Hby)) as Hby2.
  pose proof (proj2 (proj1 (Forall_app _ _ _) Hby2)) as Hby3.
  rewrite skip_space_ok; [|done|done|destruct s; simpl; [destruct rest; tauto|unfold is_space; lia|unfold is_space; lia]].
  assert (Hps : parse_sign (sign_text s ++ rest) = (match s with SMinus => true | _ => false end, rest)).
  { unfold parse_sign. destruct s; cbn [sign_text app cur]; [|done|done].
    destruct rest as [|c rest]; [done|]. destruct Hsp as [_ [E1 E2]]; [done|]. cbn [cur tail].
    apply Forall_cons_1 in Hby3 as [Hc _].
    assert (schar c <> 43 /\ schar c <> 45) as [E3 E4] by (unfold schar; destruct (Z.ltb_spec c 128); lia).
    rewrite (proj2 (Z.eqb_neq (schar c) 43)) by done. rewrite (proj2 (Z.eqb_neq (schar c) 45)) by done. done. }
  rewrite Hps.
  assert (Hsub : forall max, base <= max < 2^64 -> strtoull_sub rest base max = Some (0, rest)).
  { intros max Hm. pose proof (sub_ok base max [] rest Hb Hm Hr Hby3 ltac:(constructor) ltac:(constructor)) as H.
    simpl app in H. rewrite H. unfold num. simpl. f_equal. f_equal. lia. }
  destruct s; rewrite Hsub by lia; cbn [mbind option_bind]; rewrite decide_True by done; reflexivity.
Qed.

(* atoi on values that fit *)
Lemma atoi_loop_ok rest : no_digit 10 rest -> Forall (fun b => 0 <= b < 256) rest ->
  forall ds acc, Forall (is_digit 10) ds -> 0 <= acc ->
  fold_left (fun acc c => acc * 10 + default 0 (digit_value c)) ds acc < 2^31 ->
  atoi_loop (ds ++ rest) acc = Some (fold_left (fun acc c => acc * 10 + default 0 (digit_value c)) ds acc).
Proof.
  intros Hr Hrb. induction ds as [|c ds IH]; intros acc Hds Ha Hlt.
  - cbn [app fold_left]. destruct rest as [|c rest]; [done|]. cbn [atoi_loop].
    apply Forall_cons_1 in Hrb as [Hc _].
    destruct ((48 <=? schar c) && (schar c <=? 57)) eqn:E; [|done]. exfalso. apply Hr.
    apply andb_true_iff in E as [E1 E2]. unfold schar in E1, E2. destruct (Z.ltb_spec c 128); [|lia].
    exists (c - 48). unfold digit_value. rewrite E1, E2. split; [done|lia].
  - apply Forall_cons_1 in Hds as [(v & Hv & Hvb) Hds]. cbn [app atoi_loop fold_left] in *.
    rewrite Hv in *. change (default 0 (Some v)) with v in *.
    assert (E : 48 <= c <= 57 /\ v = c - 48).
    { unfold digit_value in Hv. destruct (Z.leb_spec 48 c), (Z.leb_spec c 57); simpl in Hv; [injection Hv as <-; lia| | |lia].
      all: destruct (Z.leb_spec 65 c), (Z.leb_spec c 90); simpl in Hv; try (injection Hv as <-; lia).
      all: destruct (Z.leb_spec 97 c), (Z.leb_spec c 122); simpl in Hv; try (injection Hv as <-; lia); done. }
    destruct E as [E ->].
    assert (Hsc : schar c = c) by (unfold schar; rewrite (proj2 (Z.ltb_lt c 128)) by lia; done).
    rewrite Hsc. rewrite (proj2 (Z.leb_le 48 c)) by lia. rewrite (proj2 (Z.leb_le c 57)) by lia. cbn [andb].
    assert (Hmono : forall ds a, 0 <= a -> a <= fold_left (fun acc c => acc * 10 + default 0 (digit_value c)) ds a).
    { clear. induction ds as [|x ds IH]; intros a Ha; [cbn; lia|]. cbn [fold_left].
      assert (0 <= default 0 (digit_value x)).
      { destruct (digit_value x) eqn:E; simpl; [eapply digit_value_nonneg; done|lia]. }
      specialize (IH (a * 10 + default 0 (digit_value x)) ltac:(lia)). lia. }
    pose proof (Hmono ds (acc * 10 + (c - 48)) ltac:(lia)).
    unfold int_ok. rewrite decide_True by lia. cbn [mbind option_bind]. rewrite decide_True by lia. cbn [mbind option_bind].
    apply IH; [done|lia|done].
Qed.

Lemma atoi_ok ws s ds rest : Forall is_space ws -> Forall (is_digit 10) ds -> ds <> [] -> no_digit 10 rest ->
  Forall (fun b => 0 <= b < 256) (ws ++ sign_text s ++ ds ++ rest) -> num 10 ds < 2^31 ->
  atoi (ws ++ sign_text s ++ ds ++ rest) = Some (signed s (num 10 ds)).
Proof.
  intros Hws Hds Hne Hr Hby Hlt. unfold atoi.
  destruct ds as [|c ds]; [done|]. pose proof Hds as Hds0. apply Forall_cons_1 in Hds0 as [Hc _].
  apply digit_not_special in Hc as (Hc1 & Hc2 & Hc3).
  pose proof (proj2 (proj1 (Forall_app _ _ _) Hby)) as Hby2.
  pose proof (proj2 (proj1 (Forall_app _ _ _) Hby2)) as Hby3.
  pose proof (proj1 (Forall_app _ _ _) Hby3) as [Hby4 Hby5].
  assert (0 <= c < 256) by (apply Forall_cons_1 in Hby4; tauto).
  rewrite skip_space_ok; [|done|done|destruct s; simpl; [done|unfold is_space; lia|unfold is_space; lia]].
  assert (schar c <> 43 /\ schar c <> 45) as [E1 E2] by (unfold schar; destruct (Z.ltb_spec c 128); lia).
  pose proof (num_nonneg 10 (c :: ds) ltac:(lia)).
  destruct s; cbn [sign_text app cur tail signed].
  - rewrite (proj2 (Z.eqb_neq (schar c) 43)) by done. rewrite (proj2 (Z.eqb_neq (schar c) 45)) by done. cbn [orb].
    change (c :: ds ++ rest) with ((c :: ds) ++ rest).
    rewrite (atoi_loop_ok rest Hr Hby5 (c :: ds) 0 Hds ltac:(lia) Hlt). done.
  - change (schar 43) with 43. cbn [Z.eqb Pos.eqb orb]. change (c :: ds ++ rest) with ((c :: ds) ++ rest).
    rewrite (atoi_loop_ok rest Hr Hby5 (c :: ds) 0 Hds ltac:(lia) Hlt). done.
  - change (schar 45) with 45. cbn [Z.eqb Pos.eqb orb]. change (c :: ds ++ rest) with ((c :: ds) ++ rest).
    rewrite (atoi_loop_ok rest Hr Hby5 (c :: ds) 0 Hds ltac:(lia) Hlt). cbn [mbind option_bind].
    unfold int_ok. change (fold_left _ (c :: ds) 0) with (num 10 (c :: ds)). rewrite decide_True by lia. done.
Qed.

(* departures from C *)
Lemma hex_prefix_wrong : strtol [48;120;49;48] 16 = Some (0, [120;49;48]).
Proof. vm_compute. done. Qed.
Lemma base0_undefined : strtol [49;48] 0 = None.
Proof. vm_compute. done. Qed.
Lemma strtoul_space_wrong : strtoul [32;49] 10 = Some (0, [32;49]).
Proof. vm_compute. done. Qed.
Lemma strtoull_minus_wrong : strtoull [45;49] 10 = Some (0, [45;49]).
Proof. vm_compute. done. Qed.
