(** vfprintf produces the text C asks for. *)
From stdpp Require Import base list numbers.
From Verif Require Import Lib.Printf_model Lib.Printf_spec Lib.Printf_proof.
Local Open Scope Z_scope.

(** * Numerals *)

Lemma table_lookup (up : bool) d : 0 <= d < 16 ->
  (if up then upper_digits else lower_digits) !! Z.to_nat d = Some (digit_char up d).
Proof.
  intros H.
  assert (d = 0 \/ d = 1 \/ d = 2 \/ d = 3 \/ d = 4 \/ d = 5 \/ d = 6 \/ d = 7 \/ d = 8 \/ d = 9 \/ d = 10 \/
          d = 11 \/ d = 12 \/ d = 13 \/ d = 14 \/ d = 15) as Hd by lia.
  destruct up; repeat destruct Hd as [->|Hd]; try reflexivity; subst d; reflexivity.
Qed.

Lemma digits_loop_ok (up : bool) base room x acc :
  2 <= base <= 16 -> 0 <= x < base ^ Z.of_nat room -> (0 < room)%nat ->
  exists ds, digits_of base x ds /\
    digits_loop room x base (if up then upper_digits else lower_digits) acc =
    Some (map (digit_char up) ds ++ acc).
Proof.
  intros Hb. revert x acc. induction room as [|room IH]; intros x acc Hx Hr; [lia|].
  cbn [digits_loop].
  pose proof (Z.mod_pos_bound x base ltac:(lia)) as Hm.
  pose proof (Z.div_mod x base ltac:(lia)) as Hdm.
  rewrite table_lookup by lia. cbn [mbind option_bind].
  destruct (decide (x / base <> 0)) as [Hq|Hq].
  - assert (Hx' : 0 <= x / base < base ^ Z.of_nat room).
    { rewrite Nat2Z.inj_succ, Z.pow_succ_r in Hx by lia. split; [apply Z.div_pos; lia|].
      apply Z.div_lt_upper_bound; lia. }
    destruct room as [|room]; [simpl in Hx'; lia|].
    destruct (IH (x / base) (digit_char up (x mod base) :: acc) Hx' ltac:(lia)) as (ds & (Hf & Hv & Hh) & ->).
    exists (ds ++ [x mod base]). split.
    + split_and!.
      * apply Forall_app. split; [done|by constructor].
      * rewrite foldl_app, Hv. simpl. lia.
      * destruct ds as [|d ds]; [done|]. simpl. destruct ds as [|d' ds]; simpl; [|done].
        simpl in Hv. lia.
    + rewrite map_app. by rewrite <- app_assoc.
  - exists [x mod base]. split; [|done]. split_and!; [by constructor| |done].
    simpl. assert (x / base = 0) by lia. lia.
Qed.

Lemma digits_nonempty base x ds : digits_of base x ds -> (0 < length ds)%nat.
Proof. intros (_ & _ & H). destruct ds; [done|simpl; lia]. Qed.

(** * Parsing a conversion *)

Lemma number_digits ds T n :
  Forall (fun d => 0 <= d < 10) ds -> isdigit (cur T) = false -> 0 <= n ->
  foldl (fun v d => v * 10 + d) n ds < 2^31 ->
  number (digit_text ds ++ T) n = Some (foldl (fun v d => v * 10 + d) n ds, T).
Proof.
  revert n. induction ds as [|d ds IH]; intros n Hf HT Hn Hlt.
  - simpl. destruct T as [|c T]; [done|]. simpl in HT. simpl. by rewrite HT.
  - apply Forall_cons_1 in Hf as [Hd Hf]. cbn [digit_text map app number foldl] in *.
    assert (isdigit (48 + d) = true) as ->.
    { unfold isdigit. apply andb_true_intro. split; apply Z.leb_le; lia. }
    replace (n * 10 + (48 + d - 48)) with (n * 10 + d) by lia.
    assert (Hmono : forall l m, Forall (fun d => 0 <= d < 10) l -> 0 <= m ->
              m <= foldl (fun v d => v * 10 + d) m l).
    { clear. induction l as [|e l IH]; intros m H Hm; simpl; [lia|].
      apply Forall_cons_1 in H as [He H]. specialize (IH (m * 10 + e) H ltac:(lia)). lia. }
    specialize (Hmono ds (n * 10 + d) Hf ltac:(lia)).
    destruct (decide _) as [_|Hn2]; [|lia]. apply IH; [done|done|lia|done].
Qed.

Definition conv_char (c : conversion) : Z :=
  match c with Cd => 100 | Cu => 117 | Cx false => 120 | Cx true => 88 | Cs => 115 | Cc => 99 end.
Definition spec_of (i : item) : spec :=
  Spec (if i_zero i then 48 else 32) (dec (i_width i))
       (match i_prec i with None => 0 | Some ds => dec ds end)
       (match i_flag i with FPlus => true | _ => false end) (is_left i)
       (match i_len i with Lz => true | _ => false end)
       (match i_len i with Ll => 1 | Lll => 2 | _ => 0 end).

Lemma cur_digits d ds T : cur (digit_text (d :: ds) ++ T) = 48 + d.
Proof. done. Qed.

Lemma parse_item i rest args : item_wf i ->
  parse_spec (item_text i ++ rest) args = Some (spec_of i, conv_char (i_conv i) :: rest, args).
Proof.
  intros ((Hwf & Hwl) & Hw0 & Hp). destruct i as [fl z w pr ln cv]. unfold item_text, spec_of, is_left in *.
  simpl in Hwf, Hwl, Hw0, Hp.
  cbn [i_flag i_zero i_width i_prec i_len i_conv].
  repeat rewrite <- app_assoc. cbn [app].
  change (match cv with Cd => 100 | Cu => 117 | Cx false => 120 | Cx true => 88 | Cs => 115 | Cc => 99 end)
    with (conv_char cv).
  set (T3 := _ ++ conv_char cv :: rest).
  (* length modifier *)
  assert (H5 : (if decide (tolower (cur T3) = 108) then
                  p ← adv T3;
                  (if decide (tolower (cur p) = 108) then p ← adv p; Some (2, false, p)
                  else Some (1, false, p))
                else if decide (cur T3 = 122) then p ← adv T3; Some (0, true, p)
                else Some (0, false, T3)) =
               Some (match ln with Ll => 1 | Lll => 2 | _ => 0 end,
                     match ln with Lz => true | _ => false end, conv_char cv :: rest)).
  { unfold T3. destruct ln; simpl; destruct cv as [| |[]| |]; reflexivity. }
  assert (C3 : In (cur T3) [108; 122; 100; 117; 120; 88; 115; 99]).
  { unfold T3. destruct ln; simpl; [destruct cv as [| |[]| |]; simpl; tauto|tauto..]. }
  set (T2 := match pr with None => [] | Some ds => 46 :: digit_text ds end ++ T3).
  assert (H4 : (if decide (cur T2 = 46) then
                  p ← adv T2;
                  (if isdigit (cur p) then '(n, p) ← number p 0; Some (n, p, args)
                  else if decide (cur p = 42) then
                    '(v, args) ← next_int args; p ← adv p; Some (to_s32 v, p, args)
                  else Some (0, p, args))
                else Some (0, T2, args)) =
               Some (match pr with None => 0 | Some ds => dec ds end, T3, args)).
  { unfold T2. destruct pr as [ds|]; simpl app.
    - cbn [cur adv]. rewrite decide_True by done. cbn [mbind option_bind].
      destruct Hp as [Hp1 Hp2]. destruct ds as [|d ds].
      + simpl app.
        assert (isdigit (cur T3) = false /\ cur T3 <> 42) as [-> ?].
        { simpl in C3. repeat destruct C3 as [<-|C3]; try done; split; try done; lia. }
        rewrite decide_False by done. done.
      + rewrite cur_digits. apply Forall_cons_1 in Hp1 as Hp1'.
        assert (isdigit (48 + d) = true) as ->.
        { unfold isdigit. apply andb_true_intro. split; apply Z.leb_le; lia. }
        rewrite number_digits; [done|done| |lia|done].
        simpl in C3. repeat destruct C3 as [<-|C3]; done.
    - rewrite decide_False; [done|]. simpl in C3. repeat destruct C3 as [<-|C3]; try done; lia. }
  assert (C2 : In (cur T2) [46; 108; 122; 100; 117; 120; 88; 115; 99]).
  { unfold T2. destruct pr as [ds|]; simpl app; simpl; [tauto|simpl in C3; tauto]. }
  clearbody T3. clearbody T2. 
  set (T1 := digit_text w ++ T2).
  assert (H3 : (if (49 <=? cur T1) && (cur T1 <=? 57) then
                 '(n, p) ← number T1 0; Some (n, p, args)
               else if decide (cur T1 = 42) then
                 '(v, args) ← next_int args; p ← adv T1; Some (to_s32 v, p, args)
               else Some (0, T1, args)) = Some (dec w, T2, args)).
  { unfold T1. destruct w as [|d w].
    - simpl app. simpl in C2. 
      assert ((49 <=? cur T2) && (cur T2 <=? 57) = false /\ cur T2 <> 42) as [-> ?].
      { repeat destruct C2 as [<-|C2]; try done; split; try done; lia. }
      by rewrite decide_False.
    - rewrite cur_digits. apply Forall_cons_1 in Hwf as Hwf'.
      assert (d <> 0) by (intros ->; done).
      assert ((49 <=? 48 + d) && (48 + d <=? 57) = true) as ->.
      { apply andb_true_intro. split; apply Z.leb_le; lia. }
      rewrite number_digits; [done|done| |lia|done].
      simpl in C2. repeat destruct C2 as [<-|C2]; done. }
  assert (C1 : cur T1 <> 43 /\ cur T1 <> 45 /\ cur T1 <> 48).
  { unfold T1. destruct w as [|d w].
    - simpl app. simpl in C2. repeat destruct C2 as [<-|C2]; try done; lia.
    - rewrite cur_digits. apply Forall_cons_1 in Hwf as [? _]. assert (d <> 0) by (intros ->; done). lia. }
  clearbody T1.
  unfold parse_spec.
  destruct fl, z; cbn [app cur adv];
    repeat first [rewrite decide_True by done | rewrite decide_False by (done || lia)
                 | progress cbn [mbind option_bind cur adv]];
    rewrite H3; cbn [mbind option_bind]; rewrite H4; cbn [mbind option_bind]; rewrite H5; reflexivity.
Qed.

(** * Fields *)

Lemma padding_bytes_nat m c : padding_bytes m c = replicate (Z.to_nat m) c.
Proof.
  unfold padding_bytes. destruct (decide (m <= 0)); [|done].
  by replace (Z.to_nat m) with 0%nat by lia.
Qed.

Lemma snprintstr_text s order left pad :
  snprintstr s order 0 left pad =
  (if left then s ++ replicate (Z.to_nat (order - Z.of_nat (length s))) pad
   else replicate (Z.to_nat (order - Z.of_nat (length s))) pad ++ s,
   Z.max order (Z.of_nat (length s))).
Proof.
  unfold snprintstr. rewrite !(decide_False (P := 0 < 0)) by lia. rewrite Nat2Z.id, take_ge by lia.
  destruct (decide _) as [H|H].
  - replace (Z.to_nat (order - Z.of_nat (length s))) with 0%nat by lia. simpl.
    destruct left; [rewrite app_nil_r|]; f_equal; lia.
  - rewrite padding_bytes_nat. destruct left; f_equal; lia.
Qed.

Lemma snprintstr_prec s order sub left pad : 0 < sub ->
  snprintstr s order sub left pad = snprintstr (take (Z.to_nat sub) s) order 0 left pad.
Proof.
  intros H. unfold snprintstr. rewrite !(decide_False (P := 0 < 0)) by lia.
  rewrite !(decide_True (P := 0 < sub)) by lia. rewrite !take_length.
  replace (Z.of_nat (Z.to_nat sub `min` length s)) with (Z.min (Z.of_nat (length s)) sub) by lia.
  set (m := Z.min (Z.of_nat (length s)) sub).
  replace (take (Z.to_nat m) (take (Z.to_nat sub) s)) with (take (Z.to_nat m) s); [done|].
  rewrite take_take. f_equal. lia.
Qed.

Lemma as_signed_eq i raw : as_signed (i_len i) raw = signed_arg (spec_of i) raw.
Proof.
  unfold as_signed, signed_arg, spec_of, bits, to_s32, to_s64. cbn [sizez nlong].
  assert (G : forall n, n = 32 \/ n = 64 ->
     (if raw mod 2 ^ n <? 2 ^ (n - 1) then raw mod 2 ^ n else raw mod 2 ^ n - 2 ^ n) =
     (raw + 2 ^ (n - 1)) mod 2 ^ n - 2 ^ (n - 1)).
  { intros n Hn. assert (2 ^ n = 2 * 2 ^ (n - 1)) as E.
    { rewrite <- Z.pow_succ_r by lia. f_equal. lia. }
    assert (0 < 2 ^ (n - 1)) as Hpos by (apply Z.pow_pos_nonneg; lia).
    set (M := 2 ^ n) in *. set (h := 2 ^ (n - 1)) in *.
    pose proof (Z.mod_pos_bound raw M ltac:(lia)) as Hm.
    rewrite <- Z.add_mod_idemp_l by lia.
    destruct (raw mod M <? h) eqn:El.
    - apply Z.ltb_lt in El. rewrite (Z.mod_small (raw mod M + h)) by lia. lia.
    - apply Z.ltb_ge in El.
      replace (raw mod M + h) with ((raw mod M - h) + 1 * M) by lia.
      rewrite Z.mod_add, (Z.mod_small (raw mod M - h)) by lia. lia. }
  destruct (i_len i); (rewrite (G 32 (or_introl eq_refl)) || rewrite (G 64 (or_intror eq_refl)));
    try rewrite decide_True by done; try rewrite decide_False by done; reflexivity.
Qed.
Lemma as_unsigned_eq i raw : as_unsigned (i_len i) raw = unsigned_arg (spec_of i) raw.
Proof. unfold as_unsigned, unsigned_arg, spec_of, bits. cbn [sizez nlong]. destruct (i_len i); reflexivity. Qed.

Lemma signed_range i raw : - 2^63 <= signed_arg (spec_of i) raw < 2^63.
Proof.
  unfold signed_arg, spec_of. cbn [sizez nlong].
  assert (-2^63 <= to_s64 raw < 2^63).
  { unfold to_s64. pose proof (Z.mod_pos_bound (raw + 2^63) (2^64) ltac:(lia)). lia. }
  pose proof (to_s32_range raw). destruct (i_len i); simpl; try lia.
Qed.
Lemma unsigned_range i raw : 0 <= unsigned_arg (spec_of i) raw < 2^64.
Proof.
  unfold unsigned_arg, spec_of. cbn [sizez nlong].
  pose proof (Z.mod_pos_bound raw (2^64) ltac:(lia)). pose proof (Z.mod_pos_bound raw (2^32) ltac:(lia)).
  destruct (i_len i); simpl; lia.
Qed.

Lemma dec_nonneg ds : Forall (fun d => 0 <= d < 10) ds -> 0 <= dec ds.
Proof.
  unfold dec. assert (G : forall m, 0 <= m -> Forall (fun d => 0 <= d < 10) ds -> 0 <= foldl (fun v d => v * 10 + d) m ds).
  { induction ds as [|d ds IH]; intros m Hm H; simpl; [done|].
    apply Forall_cons_1 in H as [? H]. apply IH; [lia|done]. }
  apply G. lia.
Qed.

Lemma sprintsign_text neg force order :
  sprintsign neg force order =
  ((if neg then [45] else if force then [43] else [], if neg then 1 else if force then 1 else 0),
   if decide (1 < order /\ (neg || force) = true) then order - 1 else order).
Proof.
  unfold sprintsign. destruct neg, force; cbn [length orb Z.of_nat Pos.of_succ_nat];
    repeat destruct (decide _) as [?|?]; try reflexivity; try lia; destruct_and?; try done; exfalso; tauto.
Qed.

Lemma convert_item i a args : item_wf i -> supported i a ->
  exists o, item_out i a o /\ convert (spec_of i) (conv_char (i_conv i)) (a :: args) =
    Some ((o, Z.of_nat (length o)), args).
Proof.
  intros Hwf Hsup.
  assert (Key : forall o n, convert (spec_of i) (conv_char (i_conv i)) (a :: args) = Some ((o, n), args) ->
    convert (spec_of i) (conv_char (i_conv i)) (a :: args) = Some ((o, Z.of_nat (length o)), args)).
  { intros o n H. rewrite H. do 3 f_equal.
    apply convert_counted in H as [H _]; [done| |].
    - destruct Hwf as ((Hf & Hl) & _). simpl. split; [by apply dec_nonneg|done].
    - destruct Hwf as (_ & _ & Hp). simpl. destruct (i_prec i); [apply Hp|lia]. }
  assert (Key2 : forall o o' n, item_out i a o ->
      convert (spec_of i) (conv_char (i_conv i)) (a :: args) = Some ((o', n), args) -> o' = o ->
      exists o, item_out i a o /\ convert (spec_of i) (conv_char (i_conv i)) (a :: args) =
        Some ((o, Z.of_nat (length o)), args)).
  { intros o o' n Hi Hc ->. exists o. split; [done|]. by eapply Key. }
  clear Key. destruct Hwf as ((Hf & Hl) & _ & Hp).
  pose proof (dec_nonneg _ Hf) as Hd0.
  unfold supported in Hsup.
  destruct (i_conv i) as [| |up| |] eqn:Ec; destruct a as [raw|[str|]|fv]; try done; cbn [conv_char] in *.
  - (* d *)
    destruct Hsup as (Hpr & Hlz & Hpad).
    pose proof (signed_range i raw) as Hr.
    set (x := signed_arg (spec_of i) raw) in *.
    assert (Hux : (if bool_decide (x < 0) then - x else x) mod 2^64 = Z.abs x).
    { case_bool_decide; rewrite Z.mod_small; lia. }
    destruct (digits_loop_ok false 10 31 (Z.abs x) [] ltac:(lia) ltac:(lia) ltac:(lia)) as (ds & Hds & Hdl).
    pose proof (digits_nonempty _ _ _ Hds) as Hlen.
    set (t := map (digit_char false) ds) in *.
    assert (Ht : length t = length ds) by (unfold t; apply map_length).
    eapply Key2.
    + eapply (out_d i raw t); [done|]. rewrite as_signed_eq. exists ds. split; done.
    + unfold convert. rewrite decide_True by done. cbn [next_int mbind option_bind].
      fold x. rewrite Hux. unfold snprintullong2. rewrite Hdl.
      rewrite sprintsign_text.
      replace (suborder (spec_of i)) with 0 by (unfold spec_of; simpl; by rewrite Hpr).
      cbn [mbind option_bind].
      match goal with |- context [match ?b with (_, _) => _ end] => rewrite (surjective_pairing b) end.
      cbn [mbind option_bind]. unfold cat. rewrite snprintstr_text. cbn [fst snd]. reflexivity.
    + rewrite app_nil_r. cbn [order padding leftalign sign spec_of].
      rewrite as_signed_eq in Hpad |- *. fold x in Hpad |- *. unfold field, zero_pad.
      rewrite Hpr. cbn [with_prec]. rewrite andb_true_r.
      set (w := dec (i_width i)) in *.
      destruct (Z.ltb_spec x 0) as [Hneg|Hneg].
      * rewrite bool_decide_true by done. cbn [orb fst snd app length].
        destruct (is_left i) eqn:El.
        -- assert (i_zero i = false) as ->.
           { unfold is_left in El. destruct (i_flag i), (i_zero i); try done; tauto. }
           cbn [app]. do 3 f_equal. repeat destruct (decide _); destruct_and?; try lia; simpl; lia.
        -- destruct (i_zero i) eqn:Ez.
           ++ cbn [app]. do 3 f_equal. repeat destruct (decide _) as [?|?]; destruct_and?; lia.
           ++ assert (w <= 1).
              { destruct Hpad as [Hp1|[Hp1|[Hp1|Hp1]]]; [|done|done|lia].
                unfold is_left in El. by rewrite Hp1 in El. }
              replace (Z.to_nat (w - Z.of_nat (1 + length t))) with 0%nat by lia.
              rewrite decide_False by lia.
              replace (Z.to_nat (w - Z.of_nat (length t))) with 0%nat by lia. reflexivity.
      * rewrite bool_decide_false by lia. cbn [orb fst snd app length].
        destruct (i_flag i) eqn:Efl; unfold is_left in *; rewrite Efl in *; cbn [orb fst snd app length] in *.
        -- (* no flag *)
           rewrite !orb_false_r. rewrite decide_False by (intros [? ?]; discriminate).
           destruct (bool_decide (0 < w)); cbn [fst snd app]; destruct (i_zero i); cbn [app];
             rewrite ?app_nil_r; reflexivity.
        -- (* plus *)
           rewrite !orb_true_r. cbn [fst snd app]. destruct (i_zero i) eqn:Ez.
           ++ cbn [app]. do 3 f_equal. repeat destruct (decide _); destruct_and?; lia.
           ++ assert (w <= 1).
              { destruct Hpad as [Hp1|[Hp1|[Hp1|[Hp1 _]]]]; done. }
              replace (Z.to_nat (w - Z.of_nat (1 + length t))) with 0%nat by lia.
              rewrite decide_False by lia.
              replace (Z.to_nat (w - Z.of_nat (length t))) with 0%nat by lia. reflexivity.
        -- rewrite !orb_false_r. assert (i_zero i = false) as -> by (destruct (i_zero i); [tauto|done]).
           rewrite decide_False by (intros [? ?]; discriminate).
           destruct (bool_decide (0 < w)); cbn [fst snd app]; reflexivity.
  - (* u *)
    destruct Hsup as (Hpr & Hpl & Hlz).
    pose proof (unsigned_range i raw) as Hr.
    destruct (digits_loop_ok false 10 31 (unsigned_arg (spec_of i) raw) [] ltac:(lia) ltac:(lia) ltac:(lia))
      as (ds & Hds & Hdl).
    eapply Key2.
    + eapply (out_u i raw (map (digit_char false) ds)); [done|]. rewrite as_unsigned_eq. exists ds. split; done.
    + unfold convert. rewrite decide_False, decide_True by done. cbn [next_int mbind option_bind].
      unfold snprintullong2. rewrite Hdl. cbn [mbind option_bind].
      replace (suborder (spec_of i)) with 0 by (unfold spec_of; simpl; by rewrite Hpr).
      replace (sign (spec_of i)) with false by (unfold spec_of; simpl; by destruct (i_flag i)).
      rewrite snprintstr_text. reflexivity.
    + rewrite app_nil_r. cbn [order padding leftalign spec_of]. unfold field. cbn [length plus app].
      unfold zero_pad. rewrite Hpr. cbn [with_prec]. rewrite andb_true_r.
      unfold is_left in *. destruct (i_flag i), (i_zero i); try done; exfalso; tauto.
  - (* x *)
    destruct Hsup as (Hpr & Hlw).
    pose proof (unsigned_range i raw) as Hr.
    destruct (digits_loop_ok up 16 32 (unsigned_arg (spec_of i) raw) [] ltac:(lia) ltac:(lia) ltac:(lia))
      as (ds & Hds & Hdl). rewrite app_nil_r in Hdl.
    pose proof (digits_nonempty _ _ _ Hds) as Hlen.
    set (t := map (digit_char up) ds) in *.
    assert (Ht : length t = length ds) by (unfold t; apply map_length).
    assert (Hsn : forall n, (exists m, snprintullong (unsigned_arg (spec_of i) raw) 16
        (if up then upper_digits else lower_digits) (order (spec_of i)) (padding (spec_of i)) = Some (n, m)) ->
        exists m, convert (spec_of i) (if up then 88 else 120) (AInt raw :: args) = Some ((n, m), args)).
    { intros n [m Hm]. exists m. unfold convert.
      rewrite (decide_False (P := _ = 100)), (decide_False (P := _ = 117)) by (by destruct up).
      rewrite decide_True by (destruct up; lia). cbn [next_int mbind option_bind].
      replace (if decide ((if up then 88 else 120) = 120) then lower_digits else upper_digits)
        with (if up then upper_digits else lower_digits) by (by destruct up).
      rewrite Hm. reflexivity. }
    destruct (Hsn (replicate (Z.to_nat (order (spec_of i) - Z.of_nat (length t))) (padding (spec_of i)) ++ t))
      as [m Hm].
    { unfold snprintullong. rewrite Hdl. cbn [mbind option_bind].
      cbn [order spec_of]. rewrite (to_u32_small (dec _)) by lia.
      destruct (decide _) as [Hlt|Hlt].
      - rewrite to_u32_small by lia. rewrite (to_s32_small (_ - _)) by lia. rewrite padding_bytes_nat. by eexists.
      - replace (Z.to_nat (dec (i_width i) - Z.of_nat (length t))) with 0%nat by lia. by eexists. }
    eapply Key2; [|rewrite <- Hm; by destruct up|].
    + eapply (out_x i raw t up); [done|]. rewrite as_unsigned_eq. exists ds. split; done.
    + cbn [order padding spec_of]. unfold field. cbn [length plus app].
      unfold zero_pad. rewrite Hpr. cbn [with_prec]. rewrite andb_true_r.
      unfold is_left in *. destruct (i_flag i) eqn:Efl; [by destruct (i_zero i)..|].
      rewrite (Hlw eq_refl). cbn [dec foldl].
      replace (Z.to_nat (0 - Z.of_nat (length t))) with 0%nat by lia. simpl. by rewrite app_nil_r.
  - (* s *)
    set (body := match i_prec i with None => str | Some ds => take (Z.to_nat (dec ds)) str end).
    eapply Key2; [by apply out_s| |].
    + unfold convert. repeat (rewrite decide_False by lia). rewrite decide_True by done.
      change (default [40; 110; 117; 108; 108; 41] (Some str)) with str.
      replace (snprintstr str (order (spec_of i)) (suborder (spec_of i)) (leftalign (spec_of i)) 32)
        with (snprintstr body (order (spec_of i)) 0 (leftalign (spec_of i)) 32).
      * rewrite snprintstr_text. reflexivity.
      * unfold body. cbn [suborder spec_of]. destruct (i_prec i) as [ds|]; [|done].
        symmetry. by apply snprintstr_prec.
    + unfold field. cbn [length plus app order leftalign spec_of]. fold body. by destruct (is_left i).
  - (* c *)
    eapply Key2; [by apply out_c| |].
    + unfold convert. repeat (rewrite decide_False by lia). rewrite decide_True by done. reflexivity.
    + unfold field. cbn [length plus app].
      replace (Z.to_nat (dec (i_width i) - Z.of_nat 1)) with 0%nat by lia. by destruct (is_left i).
Qed.

Lemma item_text_length i : (0 < length (item_text i))%nat.
Proof. unfold item_text. rewrite !app_length. simpl. lia. Qed.

Lemma output_ok ps : forall args fuel, Forall piece_wf ps -> all_supported ps args ->
  (length (format_text ps) < fuel)%nat ->
  exists o, output ps args o /\ vf_loop fuel (format_text ps) args = Some (o, Z.of_nat (length o)).
Proof.
  induction ps as [|p ps IH]; intros args fuel Hwf Hs Hf.
  - exists []. split; [constructor|]. destruct fuel; [simpl in Hf; lia|done].
  - apply Forall_cons_1 in Hwf as [Hp Hwf]. unfold format_text in *. cbn [map concat] in *.
    rewrite app_length in Hf.
    destruct fuel as [|fuel]; [lia|]. destruct p as [c| |i].
    + destruct (IH args fuel Hwf Hs ltac:(simpl in Hf; lia)) as (o & Ho & Hv).
      exists (c :: o). split; [by constructor|]. cbn [piece_text app vf_loop].
      rewrite decide_True by (by destruct Hp). rewrite Hv. cbn [mbind option_bind]. unfold cat. simpl. do 2 f_equal. lia.
    + destruct (IH args fuel Hwf Hs ltac:(simpl in Hf; lia)) as (o & Ho & Hv).
      exists (37 :: o). split; [by constructor|]. cbn [piece_text app vf_loop].
      rewrite decide_False by (intros Hx; by apply Hx). 
      change (parse_spec (37 :: concat (map piece_text ps)) args)
        with (Some (Spec 32 0 0 false false false 0, 37 :: concat (map piece_text ps), args)).
      cbn [mbind option_bind]. 
      change (convert (Spec 32 0 0 false false false 0) 37 args) with (Some (([37], 1), args)).
      cbn [mbind option_bind]. rewrite Hv. cbn [mbind option_bind]. unfold cat. simpl. do 2 f_equal. lia.
    + cbn [all_supported] in Hs. destruct args as [|a args]; [done|]. destruct Hs as [Hi Hs].
      destruct (convert_item i a args Hp Hi) as (oi & Hoi & Hci).
      destruct (IH args fuel Hwf Hs ltac:(simpl in Hf; lia)) as (o & Ho & Hv).
      exists (oi ++ o). split; [by constructor|].
      cbn [piece_text app vf_loop]. rewrite decide_False by (intros Hx; by apply Hx).
      rewrite parse_item by done. cbn [mbind option_bind]. rewrite Hci. cbn [mbind option_bind].
      rewrite Hv. cbn [mbind option_bind]. unfold cat. cbn [fst snd]. rewrite app_length. do 2 f_equal. lia.
Qed.

Lemma printf_text ps args : Forall piece_wf ps -> all_supported ps args ->
  exists o, output ps args o /\ vfprintf (format_text ps) args = Some (o, Z.of_nat (length o)).
Proof. intros. apply output_ok; [done|done|lia]. Qed.

(** * The text is determined *)

Lemma foldl_digits_nonneg base ds : 0 < base -> Forall (fun d => 0 <= d < base) ds ->
  0 <= foldl (fun v d => v * base + d) 0 ds.
Proof.
  intros Hb. induction ds as [|d ds IH] using rev_ind; intros Hf; [done|].
  apply Forall_app in Hf as [Hf Hd]. apply Forall_cons_1 in Hd as [Hd _].
  rewrite foldl_app. simpl. specialize (IH Hf). nia.
Qed.
Lemma foldl_digits_pos base d ds : 0 < base -> Forall (fun d => 0 <= d < base) (d :: ds) -> d <> 0 ->
  0 < foldl (fun v d => v * base + d) 0 (d :: ds).
Proof.
  intros Hb Hf Hd. simpl. apply Forall_cons_1 in Hf as [Hd' Hf].
  assert (G : forall l m, Forall (fun d => 0 <= d < base) l -> 0 < m -> 0 < foldl (fun v d => v * base + d) m l).
  { induction l as [|e l IH]; intros m H Hm; simpl; [done|].
    apply Forall_cons_1 in H as [He H]. apply IH; [done|nia]. }
  apply G; [done|lia].
Qed.
Lemma digits_unique base x ds ds' : 2 <= base -> digits_of base x ds -> digits_of base x ds' -> ds = ds'.
Proof.
  intros Hb. revert x ds'. induction ds as [|d ds IH] using rev_ind; intros x ds' (Hf & Hv & Hh) (Hf' & Hv' & Hh').
  { done. }
  destruct ds' as [|d' ds' _] using rev_ind; [done|].
  apply Forall_app in Hf as [Hf Hd]. apply Forall_cons_1 in Hd as [Hd _].
  apply Forall_app in Hf' as [Hf' Hd']. apply Forall_cons_1 in Hd' as [Hd' _].
  rewrite foldl_app in Hv, Hv'. simpl in Hv, Hv'.
  set (v := foldl _ 0 ds) in *. set (v' := foldl _ 0 ds') in *.
  assert (v = v' /\ d = d') as [Hvv ->].
  { apply (Z.div_mod_unique base v v' d d'); lia. }
  f_equal. destruct ds as [|e ds], ds' as [|e' ds'].
  - done.
  - exfalso. simpl in v. subst v. assert (e' <> 0) by (destruct ds'; simpl in Hh'; done).
    pose proof (foldl_digits_pos base e' ds' ltac:(lia) Hf' ltac:(done)). fold v' in H0. lia.
  - exfalso. simpl in v'. subst v'. assert (e <> 0) by (destruct ds; simpl in Hh; done).
    pose proof (foldl_digits_pos base e ds ltac:(lia) Hf ltac:(done)). fold v in H0. lia.
  - apply (IH v); split_and!; try done.
    + destruct ds; simpl in Hh; done.
    + destruct ds'; simpl in Hh'; done.
Qed.
Lemma numeral_unique up base x t t' : 2 <= base -> numeral up base x t -> numeral up base x t' -> t = t'.
Proof. intros Hb (ds & H & ->) (ds' & H' & ->). by rewrite (digits_unique base x ds ds'). Qed.

Lemma item_out_unique i a o o' : item_out i a o -> item_out i a o' -> o = o'.
Proof.
  intros H1 H2. destruct H1; inversion H2; subst; try congruence.
  all: repeat match goal with H : i_conv _ = Cx ?a, H' : i_conv _ = Cx ?b |- _ =>
         lazymatch a with b => fail | _ => assert (a = b) by congruence; subst end end.
  all: match goal with H : numeral ?u ?b ?x ?t, H' : numeral ?u ?b ?x ?t' |- _ =>
         by rewrite (numeral_unique u b x t t' ltac:(lia) H H') end.
Qed.
Lemma output_unique ps args o o' : output ps args o -> output ps args o' -> o = o'.
Proof.
  intros H. revert o'. induction H; intros o' H'; inversion H'; subst; try done.
  - f_equal. by apply IHoutput.
  - f_equal. by apply IHoutput.
  - f_equal; [by eapply item_out_unique|by apply IHoutput].
Qed.

(** * Numbers without width *)

Definition plain (l : length_mod) (c : conversion) : item := Item FNone false [] None l c.
Lemma plain_wf l c : item_wf (plain l c).
Proof. repeat split; try done; constructor. Qed.

Lemma print_int l raw : exists t,
  numeral false 10 (Z.abs (as_signed l raw)) t /\
  let o := (if as_signed l raw <? 0 then [45] else []) ++ t in
  vfprintf (format_text [Conv (plain l Cd)]) [AInt raw] = Some (o, Z.of_nat (length o)).
Proof.
  destruct (printf_text [Conv (plain l Cd)] [AInt raw]) as (o & Ho & Hv).
  { apply List.Forall_cons; [apply plain_wf|done]. }
  { simpl. split; [|done]. unfold supported. simpl. split_and!; [done|by intros [? ?]|].
    right. right. left. done. }
  inversion Ho; subst. match goal with H : output [] _ _ |- _ => inversion H; subst; clear H end.
  match goal with H : item_out _ _ _ |- _ => inversion H; subst; try discriminate end.
  match goal with H : numeral _ _ _ ?tt |- _ => exists tt; split; [done|] end. rewrite Hv. rewrite app_nil_r. unfold field. simpl.
  replace (Z.to_nat (0 - _)) with 0%nat by lia. simpl. done.
Qed.
Lemma print_unsigned l raw : exists t,
  numeral false 10 (as_unsigned l raw) t /\
  vfprintf (format_text [Conv (plain l Cu)]) [AInt raw] = Some (t, Z.of_nat (length t)).
Proof.
  destruct (printf_text [Conv (plain l Cu)] [AInt raw]) as (o & Ho & Hv).
  { apply List.Forall_cons; [apply plain_wf|done]. }
  { simpl. split; [|done]. unfold supported. simpl. split_and!; [done|done|by intros [? ?]]. }
  inversion Ho; subst. match goal with H : output [] _ _ |- _ => inversion H; subst; clear H end.
  match goal with H : item_out _ _ _ |- _ => inversion H; subst; try discriminate end.
  match goal with H : numeral _ _ _ ?tt |- _ => exists tt; split; [done|] end. rewrite Hv. rewrite app_nil_r. unfold field. simpl.
  replace (Z.to_nat (0 - _)) with 0%nat by lia. simpl. done.
Qed.
Lemma print_hex up l raw : exists t,
  numeral up 16 (as_unsigned l raw) t /\
  vfprintf (format_text [Conv (plain l (Cx up))]) [AInt raw] = Some (t, Z.of_nat (length t)).
Proof.
  destruct (printf_text [Conv (plain l (Cx up))] [AInt raw]) as (o & Ho & Hv).
  { apply List.Forall_cons; [apply plain_wf|done]. }
  { simpl. split; [|done]. unfold supported. simpl. by split. }
  inversion Ho; subst. match goal with H : output [] _ _ |- _ => inversion H; subst; clear H end.
  match goal with H : item_out _ _ _ |- _ => inversion H; subst; try discriminate end.
  match goal with H : i_conv _ = Cx _ |- _ => simpl in H; injection H as <- end.
  match goal with H : numeral _ _ _ ?tt |- _ => exists tt; split; [done|] end. rewrite Hv. rewrite app_nil_r. unfold field. simpl.
  replace (Z.to_nat (0 - _)) with 0%nat by lia. simpl. done.
Qed.

(** * Formats it gets wrong *)

Definition wrong (ps : list piece) (args : list arg) : Prop :=
  Forall piece_wf ps /\
  exists o, output ps args o /\ forall o' n, vfprintf (format_text ps) args = Some (o', n) -> o' <> o.

Lemma wrong_intro ps args o o' n : Forall piece_wf ps -> output ps args o ->
  vfprintf (format_text ps) args = Some (o', n) -> o' <> o -> wrong ps args.
Proof. intros H1 H2 H3 H4. split; [done|]. exists o. split; [done|]. intros o2 n2. rewrite H3. by intros [= <- <-]. Qed.

Ltac wf1 := apply List.Forall_cons; [|done]; repeat split; repeat constructor; lia.
Ltac digits l := exists l; split; [split_and!; [repeat constructor; lia|reflexivity|done]|reflexivity].

Lemma space_before_sign : wrong [Conv (Item FNone false [5] None LNone Cd)] [AInt (-42)].
Proof.
  eapply wrong_intro; [wf1| |vm_compute; reflexivity|].
  - apply out_conv; [|constructor]. apply out_d with (t := [52;50]); [done|]. digits [4;2].
  - vm_compute. discriminate.
Qed.
Lemma number_precision : wrong [Conv (Item FNone false [] (Some [3]) LNone Cd)] [AInt 5].
Proof.
  eapply wrong_intro; [wf1| |vm_compute; reflexivity|].
  - apply out_conv; [|constructor]. apply out_d with (t := [53]); [done|]. digits [5].
  - vm_compute. discriminate.
Qed.
Lemma number_truncated : wrong [Conv (Item FNone false [] (Some [1]) LNone Cu)] [AInt 42].
Proof.
  eapply wrong_intro; [wf1| |vm_compute; reflexivity|].
  - apply out_conv; [|constructor]. apply out_u with (t := [52;50]); [done|]. digits [4;2].
  - vm_compute. discriminate.
Qed.
Lemma left_hex : wrong [Conv (Item FMinus false [4] None LNone (Cx false))] [AInt 255].
Proof.
  eapply wrong_intro; [wf1| |vm_compute; reflexivity|].
  - apply out_conv; [|constructor]. apply out_x with (up := false) (t := [102;102]); [done|]. digits [15;15].
  - vm_compute. discriminate.
Qed.
Lemma left_zero : wrong [Conv (Item FMinus true [4] None LNone Cd)] [AInt 42].
Proof.
  eapply wrong_intro; [wf1| |vm_compute; reflexivity|].
  - apply out_conv; [|constructor]. apply out_d with (t := [52;50]); [done|]. digits [4;2].
  - vm_compute. discriminate.
Qed.
Lemma plus_unsigned : wrong [Conv (Item FPlus false [] None LNone Cu)] [AInt 7].
Proof.
  eapply wrong_intro; [wf1| |vm_compute; reflexivity|].
  - apply out_conv; [|constructor]. apply out_u with (t := [55]); [done|]. digits [7].
  - vm_compute. discriminate.
Qed.
Lemma empty_precision : wrong [Conv (Item FNone false [] (Some [0]) LNone Cs)] [AStr (Some [104;105])].
Proof.
  eapply wrong_intro; [wf1| |vm_compute; reflexivity|].
  - apply out_conv; [|constructor]. by apply out_s.
  - vm_compute. discriminate.
Qed.
Lemma char_width : wrong [Conv (Item FNone false [3] None LNone Cc)] [AInt 65].
Proof.
  eapply wrong_intro; [wf1| |vm_compute; reflexivity|].
  - apply out_conv; [|constructor]. by apply out_c.
  - vm_compute. discriminate.
Qed.
Lemma lone_percent args : vfprintf [49;48;48;37] args = None.
Proof. vm_compute. reflexivity. Qed.
