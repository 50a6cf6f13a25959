(** Proofs about vfprintf. *)
From stdpp Require Import base list numbers.
From Verif Require Import Lib.Printf_model Lib.Printf_spec.
Local Open Scope Z_scope.

Ltac boom H :=
  repeat match type of H with
  | mbind _ ?e = Some _ => let E := fresh "E" in destruct e as [[]|] eqn:E; simpl in H; [|discriminate]
  | mbind _ ?e = Some _ => let E := fresh "E" in destruct e eqn:E; simpl in H; [|discriminate]
  end.

(** * Counting *)

Definition counted (o : out) : Prop := o.2 = Z.of_nat (length o.1).

Lemma counted_cat a b : counted a -> counted b -> counted (cat a b).
Proof. unfold counted, cat. simpl. rewrite app_length. lia. Qed.

Lemma padding_length m c : 0 <= m -> Z.of_nat (length (padding_bytes m c)) = m.
Proof.
  intros H. unfold padding_bytes. destruct (decide (m <= 0)); simpl; [lia|].
  rewrite replicate_length. lia.
Qed.

Lemma to_s32_range v : -2^31 <= to_s32 v < 2^31.
Proof. unfold to_s32. pose proof (Z.mod_pos_bound (v + 2^31) (2^32) ltac:(lia)). lia. Qed.
Lemma to_s32_small v : -2^31 <= v < 2^31 -> to_s32 v = v.
Proof. intros H. unfold to_s32. rewrite Z.mod_small; lia. Qed.
Lemma to_u32_small v : 0 <= v < 2^32 -> to_u32 v = v.
Proof. intros H. unfold to_u32. rewrite Z.mod_small; lia. Qed.

Lemma snprintullong_counted x base ds order padding r :
  0 <= order < 2^31 -> snprintullong x base ds order padding = Some r -> counted r.
Proof.
  intros Ho H. unfold snprintullong in H.
  destruct (digits_loop 32 x base ds []) as [l|]; simpl in H; [|discriminate].
  rewrite (to_u32_small order) in H by lia.
  destruct (decide (Z.of_nat (length l) < order)); injection H as <-; unfold counted; simpl; [|lia].
  rewrite to_u32_small by lia. rewrite (to_s32_small (order - _)) by lia.
  rewrite app_length, Nat2Z.inj_add, padding_length by lia.
  rewrite to_s32_small; lia.
Qed.

Lemma snprintstr_counted s order suborder left padding : counted (snprintstr s order suborder left padding).
Proof.
  unfold snprintstr, counted.
  set (len := if decide (0 < suborder) then _ else _).
  assert (Hl : 0 <= len <= Z.of_nat (length s)) by (unfold len; destruct (decide _); lia).
  clearbody len.
  destruct (decide (order <= 0 \/ order <= len)) as [H|H]; cbn [fst snd]; [rewrite take_length; lia|].
  destruct left; cbn [fst snd]; rewrite app_length, take_length, Nat2Z.inj_add, padding_length; lia.
Qed.

Lemma sprintsign_counted neg force order : counted (sprintsign neg force order).1.
Proof. unfold sprintsign, counted. simpl. destruct neg, force; reflexivity. Qed.
Lemma sprintsign_order neg force order :
  0 <= order < 2^31 -> 0 <= (sprintsign neg force order).2 < 2^31.
Proof.
  intros H. unfold sprintsign. simpl.
  destruct (decide _) as [[]|]; [|lia]. destruct neg, force; simpl in *; lia.
Qed.

Lemma printnonfinite_counted f order suborder sign left :
  counted (printnonfinite f order suborder sign left).
Proof.
  unfold printnonfinite.
  pose proof (sprintsign_counted (f_signbit f) sign order) as Hc.
  destruct (sprintsign (f_signbit f) sign order) as [o order']. simpl in Hc.
  apply counted_cat; [done|apply snprintstr_counted].
Qed.

Lemma printfloat_counted f order suborder sign left padding r :
  0 <= order < 2^31 -> suborder < 2^31 ->
  printfloat f order suborder sign left padding = Some r -> counted r.
Proof.
  intros Ho Hs. unfold printfloat. destruct (f_finite f); [|intros [= <-]; apply printnonfinite_counted].
  pose proof (sprintsign_counted (f_signbit f) sign order) as Hc.
  pose proof (sprintsign_order (f_signbit f) sign order Ho) as Ho'.
  destruct (sprintsign (f_signbit f) sign order) as [o order']. simpl in Hc, Ho'.
  set (sub := if decide (0 < suborder) then suborder else 6).
  assert (0 <= sub < 2^31) by (unfold sub; destruct (decide _); lia).
  destruct (f_parts f sub) as [ip fr]. intros H0.
  destruct (snprintullong ip _ _ _ _) as [a|] eqn:Ea; simpl in H0; [|discriminate].
  destruct (snprintullong fr _ _ _ _) as [b|] eqn:Eb; simpl in H0; [|discriminate].
  injection H0 as <-.
  apply snprintullong_counted in Ea; [|done]. apply snprintullong_counted in Eb; [|done].
  repeat apply counted_cat; done.
Qed.

Lemma strip_zeros_range fuel fr sub fr' sub' :
  0 <= sub < 2^31 -> strip_zeros fuel fr sub = Some (fr', sub') -> 0 <= sub' < 2^31.
Proof.
  revert fr sub. induction fuel as [|fuel IH]; intros fr sub Hs H; simpl in H; [discriminate|].
  destruct (decide _); [apply IH in H; lia|]. injection H as <- <-. lia.
Qed.

Lemma printscientific_counted f order suborder sign left padding r :
  0 <= order < 2^31 -> suborder < 2^31 ->
  printscientific f order suborder sign left padding = Some r -> counted r.
Proof.
  intros Ho Hs. unfold printscientific. destruct (f_finite f); [|intros [= <-]; apply printnonfinite_counted].
  pose proof (sprintsign_counted (f_signbit f) sign order) as Hc.
  pose proof (sprintsign_order (f_signbit f) sign order Ho) as Ho'.
  destruct (sprintsign (f_signbit f) sign order) as [o order']. simpl in Hc, Ho'.
  set (sub := if decide (0 < suborder) then suborder else 6).
  assert (Hsub : 0 <= sub < 2^31) by (unfold sub; destruct (decide _); lia).
  destruct (f_sparts f sub) as [ip fr]. intros H0.
  destruct (strip_zeros (S (Z.to_nat sub)) fr sub) as [[fr' sub']|] eqn:Est; simpl in H0; [|discriminate].
  pose proof (strip_zeros_range _ _ _ _ _ Hsub Est) as Hsub'.
  destruct (snprintullong ip _ _ _ _) as [a|] eqn:Ea; simpl in H0; [|discriminate].
  apply snprintullong_counted in Ea; [|done].
  destruct (if decide (fr' <> 0) then _ else _) as [b|] eqn:Eb; simpl in H0; [|discriminate].
  assert (Hb : counted b).
  { destruct (decide (fr' <> 0)); [|injection Eb as <-; done].
    destruct (snprintullong fr' _ _ _ _) as [b'|] eqn:Eb'; simpl in Eb; [|discriminate].
    injection Eb as <-. apply snprintullong_counted in Eb'; [|done]. apply counted_cat; done. }
  destruct (if decide (f_exp f <> 0) then _ else _) as [c|] eqn:Ec; simpl in H0; [|discriminate].
  assert (Hcc : counted c).
  { destruct (decide (f_exp f <> 0)); [|injection Ec as <-; done].
    pose proof (sprintsign_counted (bool_decide (f_exp f < 0)) true order') as Hsc.
    destruct (sprintsign (bool_decide (f_exp f < 0)) true order') as [sg ?]. simpl in Hsc.
    destruct (snprintullong (Z.abs _) _ _ _ _) as [e|] eqn:Ee; simpl in Ec; [|discriminate].
    injection Ec as <-. apply snprintullong_counted in Ee; [|lia]. repeat apply counted_cat; done. }
  injection H0 as <-. repeat apply counted_cat; done.
Qed.

Lemma convert_counted s c args o args' :
  0 <= order s < 2^31 -> suborder s < 2^31 -> convert s c args = Some (o, args') ->
  counted o /\ exists used, args = used ++ args'.
Proof.
  intros Ho Hs H. unfold convert in H.
  assert (Hni : forall v r, next_int args = Some (v, r) -> exists used, args = used ++ r).
  { intros v r E. destruct args as [|[w| |] args0]; simpl in E; try discriminate.
    injection E as <- <-. by exists [AInt w]. }
  destruct (decide (c = 100)).
  { destruct (next_int args) as [[raw args1]|] eqn:E; simpl in H; [|discriminate].
    set (x := signed_arg s raw) in *.
    match type of H with context [if ?b then ?A else ?B] => destruct (if b then A else B) as [o1 order1] eqn:E2 end.
    assert (counted o1).
    { destruct (_ || _ || _); [|injection E2 as <- _; done].
      pose proof (sprintsign_counted (bool_decide (x < 0)) (sign s) (order s)) as Hc. rewrite E2 in Hc. done. }
    destruct (snprintullong2 _ _ _) as [ds|]; simpl in H; [|discriminate]. injection H as <- <-.
    split; [|by eapply Hni]. apply counted_cat; [done|apply snprintstr_counted]. }
  destruct (decide (c = 117)).
  { destruct (next_int args) as [[raw args1]|] eqn:E; simpl in H; [|discriminate].
    destruct (snprintullong2 _ _ _) as [ds|]; simpl in H; [|discriminate]. injection H as <- <-.
    split; [apply snprintstr_counted|by eapply Hni]. }
  destruct (decide (c = 120 \/ c = 88)).
  { destruct (next_int args) as [[raw args1]|] eqn:E; simpl in H; [|discriminate].
    destruct (snprintullong _ _ _ _ _) as [ds|] eqn:E2; simpl in H; [|discriminate]. injection H as <- <-.
    split; [by eapply snprintullong_counted|by eapply Hni]. }
  destruct (decide (c = 112)).
  { destruct (next_int args) as [[raw args1]|] eqn:E; simpl in H; [|discriminate].
    destruct (snprintullong2 _ _ _) as [ds|]; simpl in H; [|discriminate]. injection H as <- <-.
    split; [apply snprintstr_counted|by eapply Hni]. }
  destruct (decide (c = 115)).
  { destruct args as [|[|str|] args1]; try discriminate. injection H as <- <-.
    split; [apply snprintstr_counted|by exists [AStr str]]. }
  destruct (decide (c = 99)).
  { destruct (next_int args) as [[raw args1]|] eqn:E; simpl in H; [|discriminate]. injection H as <- <-.
    split; [done|by eapply Hni]. }
  destruct (decide (c = 37)).
  { injection H as <- <-. split; [done|by exists []]. }
  destruct (decide (c = 102)).
  { destruct args as [|[| |f] args1]; try discriminate.
    destruct (printfloat _ _ _ _ _ _) as [r|] eqn:E; simpl in H; [|discriminate]. injection H as <- <-.
    split; [by eapply printfloat_counted|by exists [AFlo f]]. }
  destruct (decide (c = 103)).
  { destruct args as [|[| |f] args1]; try discriminate.
    destruct (printscientific _ _ _ _ _ _) as [r|] eqn:E; simpl in H; [|discriminate]. injection H as <- <-.
    split; [by eapply printscientific_counted|by exists [AFlo f]]. }
  injection H as <- <-. split; [done|by exists []].
Qed.

Lemma number_spec p n n' p' :
  0 <= n < 2^31 -> number p n = Some (n', p') -> 0 <= n' < 2^31 /\ exists u, p = u ++ p'.
Proof.
  revert n. induction p as [|c p IH]; intros n Hn H; simpl in H.
  - injection H as <- <-. split; [lia|by exists []].
  - destruct (isdigit c) eqn:E; [|injection H as <- <-; split; [lia|by exists []]].
    destruct (decide _); [|discriminate]. unfold isdigit in E.
    apply andb_prop in E as [E1 E2]. apply Z.leb_le in E1, E2.
    apply IH in H as (? & u & ->); [|lia]. split; [done|by exists (c :: u)].
Qed.

Lemma adv_spec p p' : adv p = Some p' -> exists u, p = u ++ p'.
Proof. destruct p as [|c p]; [discriminate|]. intros [= <-]. by exists [c]. Qed.

Definition safe (p : list Z) (args : list arg) : Prop := no_star p \/ Forall arg_nonneg args.

Lemma safe_suffix p args u p' v args' :
  safe p args -> p = u ++ p' -> args = v ++ args' -> safe p' args'.
Proof.
  intros [H|H] -> ->; [left; apply Forall_app in H; tauto|right; apply Forall_app in H; tauto].
Qed.

Lemma next_int_spec args v r :
  next_int args = Some (v, r) -> args = AInt v :: r.
Proof. destruct args as [|[w| |] args0]; simpl; try discriminate. by intros [= <- <-]. Qed.

Ltac suf := repeat match goal with
  | H : adv _ = Some _ |- _ => apply adv_spec in H; let u := fresh "u" in destruct H as [u ->]
  end.

Definition after (p p' : list Z) : Prop := exists u, p = u ++ p'.
Lemma after_refl p : after p p. Proof. by exists []. Qed.
Lemma after_trans p q r : after p q -> after q r -> after p r.
Proof. intros [u ->] [v ->]. exists (u ++ v). by rewrite app_assoc. Qed.
Lemma after_adv p p' : adv p = Some p' -> after p p'.
Proof. apply adv_spec. Qed.
Lemma safe_after p p' args : after p p' -> safe p args -> safe p' args.
Proof. intros [u ->] H. eapply safe_suffix; [done..|]. by instantiate (1 := []). Qed.

(** A number given in the format or by [*]. *)
Lemma star_value p args v args' :
  safe p args -> cur p = 42 -> next_int args = Some (v, args') ->
  0 <= to_s32 v < 2^31 /\ Forall arg_nonneg args' /\ args = [AInt v] ++ args'.
Proof.
  intros Hs Hc Hn. apply next_int_spec in Hn as ->.
  destruct Hs as [Hs|Hs].
  - destruct p as [|c p]; [done|]. simpl in Hc. apply Forall_cons_1 in Hs as [? _]. done.
  - apply Forall_cons_1 in Hs as [Hv Hs]. simpl in Hv. rewrite to_s32_small by lia. done.
Qed.

Lemma parse_spec_ok p args s p' args' :
  safe p args -> parse_spec p args = Some (s, p', args') ->
  0 <= order s < 2^31 /\ suborder s < 2^31 /\ after p p' /\ (exists v, args = v ++ args').
Proof.
  intros Hsafe H. unfold parse_spec in H.
  match type of H with mbind _ ?e = _ => destruct e as [[[sg la] p1]|] eqn:E1; simpl in H; [|discriminate] end.
  assert (A1 : after p p1).
  { destruct (decide (cur p = 43)); [|destruct (decide (cur p = 45))];
    [destruct (adv p) eqn:Ea; [|discriminate]; simpl in E1; injection E1 as _ _ <-; by apply after_adv..|].
    injection E1 as _ _ <-. apply after_refl. }
  match type of H with mbind _ ?e = _ => destruct e as [[pad p2]|] eqn:E2; simpl in H; [|discriminate] end.
  assert (A2 : after p1 p2).
  { destruct (decide (cur p1 = 48)).
    - destruct (adv p1) eqn:Ea; [|discriminate]; simpl in E2; injection E2 as _ <-. by apply after_adv.
    - injection E2 as _ <-. apply after_refl. }
  pose proof (after_trans _ _ _ A1 A2) as A12.
  pose proof (safe_after _ _ _ A12 Hsafe) as S2.
  match type of H with mbind _ ?e = _ => destruct e as [[[ord p3] args3]|] eqn:E3; simpl in H; [|discriminate] end.
  assert (B3 : 0 <= ord < 2^31 /\ after p2 p3 /\ (exists v, args = v ++ args3)).
  { destruct (_ && _).
    - destruct (number p2 0) as [[n q]|] eqn:En; simpl in E3; [|discriminate].
      injection E3 as <- <- <-. apply number_spec in En as [? ?]; [|lia].
      split_and!; [lia|lia|done|by exists []].
    - destruct (decide (cur p2 = 42)).
      + destruct (next_int args) as [[v args0]|] eqn:En; simpl in E3; [|discriminate].
        destruct (adv p2) eqn:Ea; [|discriminate]; simpl in E3; injection E3 as <- <- <-.
        destruct (star_value _ _ _ _ S2 e En) as (? & ? & ->).
        split_and!; [lia|lia|by apply after_adv|by eexists].
      + injection E3 as <- <- <-. split_and!; [lia|lia|apply after_refl|by exists []]. }
  destruct B3 as (O3 & A3 & [v3 Hv3]).
  match type of H with mbind _ ?e = _ => destruct e as [[[sub p4] args4]|] eqn:E4; simpl in H; [|discriminate] end.
  assert (B4 : sub < 2^31 /\ after p3 p4 /\ (exists v, args3 = v ++ args4)).
  { destruct (decide (cur p3 = 46)).
    - destruct (adv p3) as [q|] eqn:Ea; [|discriminate]; simpl in E4. apply after_adv in Ea.
      destruct (isdigit (cur q)).
      + destruct (number q 0) as [[n q']|] eqn:En; simpl in E4; [|discriminate].
        injection E4 as <- <- <-. apply number_spec in En as [? ?]; [|lia].
        split_and!; [lia|by eapply after_trans|by exists []].
      + destruct (decide (cur q = 42)).
        * destruct (next_int args3) as [[v args0]|] eqn:En; simpl in E4; [|discriminate].
          destruct (adv q) eqn:Eb; [|discriminate]; simpl in E4; injection E4 as <- <- <-.
          apply next_int_spec in En as ->.
          pose proof (to_s32_range v).
          split_and!; [lia|eapply after_trans; [done|by apply after_adv]|by exists [AInt v]].
        * injection E4 as <- <- <-. split_and!; [lia|done|by exists []].
    - injection E4 as <- <- <-. split_and!; [lia|apply after_refl|by exists []]. }
  destruct B4 as (O4 & A4 & [v4 ->]).
  match type of H with mbind _ ?e = _ => destruct e as [[[nl sz] p5]|] eqn:E5; simpl in H; [|discriminate] end.
  assert (A5 : after p4 p5).
  { destruct (decide (tolower (cur p4) = 108)).
    - destruct (adv p4) as [q|] eqn:Ea; [|discriminate]; simpl in E5. apply after_adv in Ea.
      destruct (decide (tolower (cur q) = 108)).
      + destruct (adv q) eqn:Eb; [|discriminate]; simpl in E5. injection E5 as _ _ <-.
        eapply after_trans; [done|by apply after_adv].
      + by injection E5 as _ _ <-.
    - destruct (decide (cur p4 = 122)); [|injection E5 as _ _ <-; apply after_refl].
      destruct (adv p4) as [q|] eqn:Ea; [|discriminate]; simpl in E5. injection E5 as _ _ <-. by apply after_adv. }
  injection H as <- <- <-. simpl. split_and!; [lia|lia|lia| |].
  - do 3 (eapply after_trans; [eassumption|]). done.
  - rewrite Hv3. eexists (_ ++ _). by rewrite <- app_assoc.
Qed.

Lemma vf_counted fuel p args r : safe p args -> vf_loop fuel p args = Some r -> counted r.
Proof.
  revert p args r. induction fuel as [|fuel IH]; intros p args r Hs H; simpl in H; [discriminate|].
  destruct p as [|c p]; [injection H as <-; done|].
  assert (Hsp : safe p args) by (eapply safe_after; [|done]; by exists [c]).
  destruct (decide (c <> 37)).
  - destruct (vf_loop fuel p args) as [r1|] eqn:E; simpl in H; [|discriminate]. injection H as <-.
    apply counted_cat; [done|by eapply IH].
  - destruct (parse_spec p args) as [[[s q] args1]|] eqn:E; simpl in H; [|discriminate].
    apply parse_spec_ok in E as (Ho & Hso & A & v & ->); [|done].
    destruct q as [|c1 q]; [discriminate|].
    destruct (convert s c1 args1) as [[o args2]|] eqn:E2; simpl in H; [|discriminate].
    apply convert_counted in E2 as (Hc & used & ->); [|lia|lia].
    destruct (vf_loop fuel q args2) as [r1|] eqn:E3; simpl in H; [|discriminate]. injection H as <-.
    apply counted_cat; [done|]. eapply IH; [|done].
    destruct A as [u ->]. eapply (safe_suffix _ _ (u ++ [c1]) q (v ++ used) args2 Hsp).
    + by rewrite <- app_assoc.
    + by rewrite <- app_assoc.
Qed.

Lemma returns_count fmt args o n :
  no_star fmt \/ Forall arg_nonneg args -> vfprintf fmt args = Some (o, n) -> n = Z.of_nat (length o).
Proof. intros Hs H. by apply vf_counted in H. Qed.

Lemma negative_width_witness : vfprintf [37;42;120] [AInt (-5); AInt 1] = Some ([49], -5).
Proof. vm_compute. reflexivity. Qed.
Lemma negative_width : exists fmt args o n,
  vfprintf fmt args = Some (o, n) /\ n <> Z.of_nat (length o).
Proof.
  exists [37;42;120], [AInt (-5); AInt 1], [49], (-5).
  split; [exact negative_width_witness|discriminate].
Qed.
