(** White space and comments, string literals, character constants. *)
From Coq Require Import Ascii String.
From stdpp Require Import base list numbers.
From Verif Require Import Cpp.Cond_model Cpp.Cond_spec Cpp.Cond_proof Front.Lexer_model Front.Lexer_spec Front.Lexer_op_proof Front.Lexer_word_proof.
Open Scope Z_scope.

(** ** White space and comments *)
Lemma next_line ls : match text_lines ls with
  | [] => read_next_line ls = None
  | l :: rest => exists ls', read_next_line ls = Some (l, ls') /\ text_lines ls' = rest /\ (length ls' < length ls)%nat /\
      (total_length l ls' <= total_length [] ls)%nat
  end.
Proof.
  induction ls as [|l ls IH]; cbn [text_lines]; [done|]. cbn [read_next_line].
  assert (Hne: hd0 l =? 35 = false -> exists ls', Some (l, ls) = Some (l, ls') /\ text_lines ls' = text_lines ls /\ (length ls' < length (l :: ls))%nat /\ (total_length l ls' <= total_length [] (l :: ls))%nat).
  { intros _. exists ls. unfold total_length. cbn. split_and!; [done|done|lia|lia]. }
  destruct (hd0 l =? 35) eqn:E.
  - apply Z.eqb_eq in E. destruct l as [|c l]; [done|]. cbn in E. subst c.
    destruct (text_lines ls) as [|l' rest]; [done|]. destruct IH as (ls' & ? & ? & ? & ?). exists ls'.
    unfold total_length in *. cbn in *. split_and!; [done|done|lia|lia].
  - destruct l as [|c l]; [by apply Hne|]. rewrite hd0_cons in E. apply Z.eqb_neq in E.
    destruct c as [|c|c]; try (by apply Hne). repeat (destruct c as [c|c|]; try (by apply Hne); try done).
Qed.

Lemma bce_none p : no_end p -> block_comment_end p = None.
Proof.
  intros H. destruct (block_comment_end p) as [q|] eqn:E; [|done]. apply bce_spec in E as (b & -> & _).
  by destruct (H b q).
Qed.

Lemma skip_block_ok p ls0 q ls' : closes p ls0 q ls' -> forall ls fuel, text_lines ls = ls0 -> (length ls < fuel)%nat ->
  exists ls2, skip_block_comment fuel p ls = Ok (q, ls2) /\ text_lines ls2 = ls' /\
    (length ls2 <= length ls)%nat /\ (total_length q ls2 < total_length p ls)%nat.
Proof.
  induction 1 as [b q ls0 Hb|p l ls0 q ls' Hp Hcl IH]; intros ls fuel Hls Hf; (destruct fuel as [|fuel]; [lia|]); cbn [skip_block_comment].
  - rewrite bce_app by done. exists ls. split; [done|]. split; [done|]. unfold total_length. rewrite !app_length. cbn. lia.
  - rewrite bce_none by done. pose proof (next_line ls) as Hn. rewrite Hls in Hn. destruct Hn as (ls1 & -> & H1 & H2 & H3).
    destruct (IH ls1 fuel H1 ltac:(lia)) as (ls2 & E & E2 & E3 & E4). exists ls2. split; [done|]. split; [done|].
    unfold total_length in *. cbn in *. lia.
Qed.

Lemma space_isspace c : isspace c = true <-> space c.
Proof. unfold isspace, space. lia. Qed.

Lemma skip_ws_spaces fuel p ls c : space c -> skip_ws fuel (c :: p) ls = skip_ws fuel p ls.
Proof.
  intros H. apply space_isspace in H. destruct fuel as [|fuel]; [done|]. cbn [skip_ws skip_whitespaces]. by rewrite H.
Qed.

Definition same (r r' : option (str * list str)) : Prop :=
  match r, r' with
  | None, None => True
  | Some (q, l), Some (q', l') => q = q' /\ text_lines l' = l /\ True
  | _, _ => False
  end.

Lemma skip_ws_ok p ls0 r : blanks p ls0 r -> forall ls fuel, text_lines ls = ls0 -> (total_length p ls + length ls < fuel)%nat ->
  exists r', skip_ws fuel p ls = Ok r' /\ same r r' /\
    match r' with Some (q, ls') => (total_length q ls' <= total_length p ls)%nat /\ (length ls' <= length ls)%nat | None => True end.
Proof.
  induction 1 as [c p ls0 Hs Hc|c p ls0 r Hs H IH|p ls0 q ls' r Hcl H IH|p l ls0 r H IH|p|l ls0 r H IH|]; intros ls fuel Hls Hf.
  - destruct fuel as [|fuel]; [lia|]. exists (Some (c :: p, ls)). split; [|split; [done|split; lia]].
    cbn [skip_ws skip_whitespaces]. assert (isspace c = false) as ->.
    { apply not_true_is_false. by rewrite space_isspace. }
    destruct (decide (c = 47)) as [->|Hn].
    + destruct p as [|d q]; [done|]. assert (d <> 42 /\ d <> 47) as [H1 H2].
      { split; intros ->; apply Hc; (split; [done|]); eexists; eexists; eauto. }
      clear Hs Hc. destruct d as [|d|d]; try done. repeat (destruct d as [d|d|]; try done).
    + clear Hs Hc. destruct c as [|c|c]; try done. repeat (destruct c as [c|c|]; try done).
  - rewrite skip_ws_spaces by done.
    destruct (IH ls fuel Hls) as (r' & E & E2 & E3); [unfold total_length in *; cbn in *; lia|]. exists r'.
    split; [done|]. split; [done|]. destruct r' as [[q ls']|]; [|done]. unfold total_length in *. cbn in *. lia.
  - destruct fuel as [|fuel]; [lia|]. cbn [skip_ws skip_whitespaces]. change (isspace 47) with false. cbn match.
    destruct (skip_block_ok p ls0 q ls' Hcl ls (S (length ls)) Hls ltac:(lia)) as (ls2 & E & E2 & E3 & E4). rewrite E. cbn [bindr].
    destruct (IH ls2 fuel E2) as (r' & F & F2 & F3); [unfold total_length in *; cbn in *; lia|]. exists r'.
    split; [done|]. split; [done|]. destruct r' as [[q' ls'']|]; [|done]. unfold total_length in *. cbn in *. lia.
  - destruct fuel as [|fuel]; [lia|]. cbn [skip_ws skip_whitespaces]. change (isspace 47) with false. cbn match.
    pose proof (next_line ls) as Hn. rewrite Hls in Hn. destruct Hn as (ls1 & -> & H1 & H2 & H3).
    destruct (IH ls1 fuel H1) as (r' & F & F2 & F3); [unfold total_length in *; cbn in *; lia|]. exists r'.
    split; [done|]. split; [done|]. destruct r' as [[q' ls'']|]; [|done]. unfold total_length in *. cbn in *. lia.
  - destruct fuel as [|fuel]; [lia|]. cbn [skip_ws skip_whitespaces]. change (isspace 47) with false. cbn match.
    pose proof (next_line ls) as Hn. rewrite Hls in Hn. rewrite Hn. by exists None.
  - destruct fuel as [|fuel]; [lia|]. cbn [skip_ws skip_whitespaces].
    pose proof (next_line ls) as Hn. rewrite Hls in Hn. destruct Hn as (ls1 & -> & H1 & H2 & H3).
    destruct (IH ls1 fuel H1) as (r' & F & F2 & F3); [unfold total_length in *; cbn in *; lia|]. exists r'.
    split; [done|]. split; [done|]. destruct r' as [[q' ls'']|]; [|done]. unfold total_length in *. cbn in *. lia.
  - destruct fuel as [|fuel]; [lia|]. cbn [skip_ws skip_whitespaces].
    pose proof (next_line ls) as Hn. rewrite Hls in Hn. rewrite Hn. by exists None.
Qed.

Theorem blanks_skipped p ls r : blanks p (text_lines ls) r ->
  exists r', skip_whitespace_or_comment p ls = Ok r' /\
    match r, r' with
    | None, None => True
    | Some (q, l), Some (q', l') => q = q' /\ text_lines l' = l
    | _, _ => False
    end.
Proof.
  intros H. destruct (skip_ws_ok p _ r H ls (S (total_length p ls + length ls)) eq_refl ltac:(lia)) as (r' & E & E2 & _).
  exists r'. split; [done|]. destruct r as [[q l]|], r' as [[q' l']|]; try done. by destruct E2 as (? & ? & _).
Qed.

(** ** Escapes *)
Lemma number_pos base ds n : number base ds n -> ds <> [].
Proof. intros H. destruct (number_head _ _ _ H) as (? & ? & ? & -> & _). done. Qed.

Lemma schar_mod z : schar z mod 256 = z mod 256.
Proof. unfold schar. rewrite Zminus_mod, Zmod_mod, <-Zminus_mod. f_equal. lia. Qed.
Lemma schar_range z : -128 <= schar z < 128.
Proof. unfold schar. pose proof (Z.mod_pos_bound (z + 128) 256 ltac:(lia)). lia. Qed.
Lemma schar_of_mod w v : -128 <= w < 128 -> w mod 256 = v -> w = schar v.
Proof. intros Hw <-. unfold schar. rewrite Zplus_mod_idemp_l. rewrite Z.mod_small by lia. lia. Qed.
Lemma schar_small z : 0 <= z < 128 -> schar z = z.
Proof. intros H. unfold schar. rewrite Z.mod_small by lia. lia. Qed.

Lemma lor_shift v k d : 0 <= d < 2 ^ k -> 0 <= k -> Z.lor (Z.shiftl v k) d = v * 2 ^ k + d.
Proof.
  intros Hd Hk. rewrite Z.shiftl_mul_pow2 by done.
  assert (Hl: Z.land (v * 2 ^ k) d = 0).
  { apply Z.bits_inj'. intros i Hi. rewrite Z.land_spec, Z.bits_0.
    destruct (Z.lt_ge_cases i k).
    - rewrite Z.mul_pow2_bits_low by lia. done.
    - destruct (decide (d = 0)) as [->|]; [by rewrite Z.bits_0, andb_false_r|].
      rewrite (Z.bits_above_log2 d i); [by rewrite andb_false_r|lia|]. apply Z.log2_lt_pow2; [lia|]. apply Z.lt_le_trans with (2 ^ k); [lia|]. apply Z.pow_le_mono_r; lia. }
  rewrite Z.add_nocarry_lxor by done. by rewrite Z.lxor_lor.
Qed.

Definition is_oct (c : Z) : Prop := 48 <= c <= 55.
Lemma oct_digit c v : digit_value c v -> v < 8 -> is_oct c /\ v = c - 48.
Proof. unfold digit_value, is_oct. lia. Qed.

Lemma octals_ok : forall ds n tail v0, Forall is_oct ds -> (length ds <= n)%nat ->
  (length ds = n \/ match tail with d :: _ => ~ is_oct d | [] => True end) -> -128 <= v0 < 128 ->
  exists v, octals n v0 (ds ++ tail) = (v, tail) /\ -128 <= v < 128 /\ v mod 256 = (v0 * 8 ^ Z.of_nat (length ds) + foldl (fun a c => a * 8 + (c - 48)) 0 ds) mod 256.
Proof.
  induction ds as [|c ds IH]; intros n tail v0 Hds Hn Hl Hv0.
  - exists v0. split; [|split; [done|cbn; f_equal; lia]]. cbn [app]. destruct n as [|n]; [by destruct tail|]. cbn [octals].
    destruct tail as [|d tail]; [done|]. destruct Hl as [Hl|Hl]; [done|]. assert (isoctal d = false) as ->; [|done].
    unfold isoctal. unfold is_oct in Hl. lia.
  - apply Forall_cons_1 in Hds as [Hc Hds]. cbn in Hn. destruct n as [|n]; [lia|]. cbn [app octals].
    assert (isoctal c = true) as -> by (unfold isoctal; unfold is_oct in Hc; lia).
    destruct (IH n tail (schar (Z.lor (Z.shiftl v0 3) (c - 48))) Hds ltac:(lia)) as (v & E & Evr & Ev).
    { destruct Hl as [Hl|Hl]; [left; cbn in Hl; lia|by right]. }
    { apply schar_range. }
    exists v. split; [done|]. split; [done|]. rewrite Ev. rewrite lor_shift by (unfold is_oct in Hc; lia).
    assert (Hf: forall a, foldl (fun a c => a * 8 + (c - 48)) a ds = a * 8 ^ Z.of_nat (length ds) + foldl (fun a c => a * 8 + (c - 48)) 0 ds).
    { clear. induction ds as [|c ds IH]; intros a; cbn [foldl length]; [cbn; lia|]. rewrite IH, (IH (0 * 8 + _)).
      rewrite Nat2Z.inj_succ, Z.pow_succ_r by lia. lia. }
    cbn [foldl length]. rewrite (Hf (0 * 8 + (c - 48))).
    rewrite Nat2Z.inj_succ, Z.pow_succ_r by lia.
    rewrite Zplus_mod, Zmult_mod, schar_mod, <-Zmult_mod, <-Zplus_mod. f_equal. change (2 ^ 3) with 8. ring.
Qed.

Lemma number8_fold ds n : number 8 ds n -> Forall is_oct ds /\ n = foldl (fun a c => a * 8 + (c - 48)) 0 ds.
Proof.
  induction 1 as [c v Hd Hv|ds n c v H [IH1 IH2] Hd Hv]; destruct (oct_digit c v Hd Hv) as [Hc ->].
  - split; [by constructor|]. cbn. lia.
  - split; [apply Forall_app; split; [done|by constructor]|]. rewrite foldl_app. cbn. lia.
Qed.

Lemma escape_ok e v c e' wide tail : escape e v -> e = c :: e' -> longest_escape e tail -> c <> 63 ->
  (c = 120 -> (length e' <= 2)%nat) -> wide = false ->
  exists w, backslash c wide (e' ++ tail) = Ok (w, tail) /\ -128 <= w < 128 /\ w mod 256 = v.
Proof.
  intros He -> Hl H63 Hx ->. inversion He as [c0 v0 Hin E1 E2|ds v0 Hlen Hn Hv E1 E2|ds v0 Hn Hv E1 E2]; subst.
  - rewrite !elem_of_cons, elem_of_nil in Hin.
    repeat (destruct Hin as [Hin|Hin]; [injection Hin as -> ->; first [exfalso; by apply H63|eexists; split; [reflexivity|split; [lia|reflexivity]]]|]). done.
  - destruct (number8_fold _ _ Hn) as [Ho ->]. apply Forall_cons_1 in Ho as Ho'. destruct Ho' as [Hc Ho'].
    unfold backslash. assert (isoctal c = true) as Hoc by (unfold isoctal; unfold is_oct in Hc; lia).
    assert (Hle: forall t, (length e' = 2%nat \/ match t with d :: _ => ~ is_oct d | [] => True end) -> t = tail ->
      exists w, Ok (octals 2 (c - 48) (e' ++ t)) = Ok (w, t) /\ -128 <= w < 128 /\ w mod 256 = foldl (fun a c0 => a * 8 + (c0 - 48)) 0 (c :: e')).
    { intros t Ht ->. destruct (octals_ok e' 2 tail (c - 48) Ho' ltac:(cbn in Hlen; lia) Ht ltac:(unfold is_oct in Hc; lia)) as (w & E & Ewr & Ew).
      exists w. split; [by rewrite E|]. split; [done|]. rewrite Ew.
      assert (Hf: forall ds a, foldl (fun a c => a * 8 + (c - 48)) a ds = a * 8 ^ Z.of_nat (length ds) + foldl (fun a c => a * 8 + (c - 48)) 0 ds).
      { clear. induction ds as [|c ds IH]; intros a; cbn [foldl length]; [cbn; lia|]. rewrite IH, (IH (0 * 8 + _)).
        rewrite Nat2Z.inj_succ, Z.pow_succ_r by lia. lia. }
      assert (Hfc: foldl (fun a c => a * 8 + (c - 48)) 0 (c :: e') = (c - 48) * 8 ^ Z.of_nat (length e') + foldl (fun a c => a * 8 + (c - 48)) 0 e').
      { cbn [foldl]. rewrite Hf. f_equal. }
      pose proof (number_nonneg 8 _ _ ltac:(lia) Hn) as H0. rewrite Hfc in H0, Hv |- *. apply Z.mod_small. lia. }
    assert (Hl': (length e' = 2%nat \/ match tail with d :: _ => ~ is_oct d | [] => True end)).
    { assert (Hg: c <> 120) by (unfold is_oct in Hc; lia).
      assert (48 <= c <= 55 -> length (c :: e') = 3%nat \/ match tail with d :: _ => ~ 48 <= d <= 55 | [] => True end) as Hl2.
      { clear -Hl Hg. unfold longest_escape in Hl. destruct c as [|c|c]; try done. repeat (destruct c as [c|c|]; try done). }
      destruct (Hl2 Hc) as [H|H]; [left; cbn in H; lia|by right]. }
    destruct ((c =? 48) && negb (isoctal (hd0 (e' ++ tail)))) eqn:E0.
    + apply andb_true_iff in E0 as [Ec E0]. apply Z.eqb_eq in Ec as ->. apply negb_true_iff in E0.
      destruct e' as [|d e'].
      * exists 0. split; [done|]. split; [lia|]. done.
      * exfalso. cbn in E0. apply Forall_cons_1 in Ho' as [Hd _]. unfold isoctal in E0. unfold is_oct in Hd. lia.
    + rewrite Hoc. by apply Hle.
  - unfold backslash. cbn [andb Z.eqb isoctal Z.leb Z.compare Pos.compare Pos.compare_cont].
    specialize (Hx eq_refl). cbn in Hl.
    pose proof (number_chars _ _ _ Hn) as Hch.
    assert (Hstop: forall n vv, hexes n vv tail = (vv, tail)).
    { intros n vv. destruct n, tail as [|d tail]; try done. cbn. assert (xvalue d = None) as ->; [|done].
      unfold xvalue. destruct ((48 <=? d) && (d <=? 57)) eqn:Ea; [exfalso; apply Hl; eexists; left; split; [|reflexivity]; lia|].
      destruct ((65 <=? d) && (d <=? 70)) eqn:Eb; [exfalso; apply Hl; eexists; right; left; split; [|reflexivity]; lia|].
      destruct ((97 <=? d) && (d <=? 102)) eqn:Ec; [exfalso; apply Hl; eexists; right; right; split; [|reflexivity]; lia|]. done. }
    assert (Hxv: forall d w, digit_value d w -> xvalue d = Some w).
    { intros d w Hd. unfold xvalue. unfold digit_value in Hd. 
      destruct ((48 <=? d) && (d <=? 57)) eqn:Ea; [f_equal; lia|]. destruct ((65 <=? d) && (d <=? 70)) eqn:Eb; [f_equal; lia|].
      destruct ((97 <=? d) && (d <=? 102)) eqn:Ec; [f_equal; lia|lia]. }
    destruct e' as [|d1 [|d2 [|d3 e']]]; [by apply number_pos in Hn| | |cbn in Hx; lia].
    + inversion Hn as [c1 v1 Hd1 Hv1 E1|ds n c1 v1 H1 Hd1 Hv1 E1]; subst; [|by destruct ds as [|? [|]]; apply number_pos in H1].
      exists (schar (Z.lor (Z.shiftl 0 4) v)). split.
      * cbn [app]. change (Ok (match xvalue d1 with Some v => hexes 1 (schar (Z.lor (Z.shiftl 0 4) v)) tail | None => (0, d1 :: tail) end) = Ok (schar (Z.lor (Z.shiftl 0 4) v), tail)). rewrite (Hxv d1 v Hd1). by rewrite Hstop.
      * split; [apply schar_range|]. rewrite schar_mod, lor_shift by (unfold digit_value in Hd1; lia). apply Z.mod_small. unfold digit_value in Hd1. lia.
    + inversion Hn as [c1 v1 Hd1 Hv1 E1|ds n c1 v1 H1 Hd1 Hv1 E1]; subst.
      destruct ds as [|a [|b ds]]; [by apply number_pos in H1| |by destruct ds]. injection E1 as <- <-.
      inversion H1 as [c2 v2 Hd2 Hv2 E2|ds n2 c2 v2 H2 Hd2 Hv2 E2]; subst; [|by destruct ds as [|? [|]]; apply number_pos in H2].
      eexists. split.
      * cbn [app hexes]. rewrite (Hxv a n Hd2), (Hxv c1 v1 Hd1). reflexivity.
      * split; [apply schar_range|]. rewrite schar_mod, lor_shift by (unfold digit_value in Hd1; lia).
        rewrite Zplus_mod, Zmult_mod, schar_mod, lor_shift by (unfold digit_value in Hd2; lia).
        rewrite <-Zmult_mod, <-Zplus_mod. rewrite Z.mod_small; unfold digit_value in Hd1, Hd2; lia.
Qed.

(** ** String literals *)
Lemma longest_app e s q : longest_escape e s -> longest_escape e (s ++ 34 :: q).
Proof.
  unfold longest_escape. destruct e as [|c e]; [done|].
  assert (Hq: ~ exists v, digit_value 34 v) by (intros [v Hv]; unfold digit_value in Hv; lia).
  assert (Ho: ~ 48 <= 34 <= 55) by lia.
  assert (Hx: match s with d :: _ => ~ exists v, digit_value d v | [] => True end -> match s ++ 34 :: q with d :: _ => ~ exists v, digit_value d v | [] => True end)
    by (destruct s; done).
  assert (Hy: (48 <= c <= 55 -> length (c :: e) = 3%nat \/ match s with d :: _ => ~ 48 <= d <= 55 | [] => True end) ->
              (48 <= c <= 55 -> length (c :: e) = 3%nat \/ match s ++ 34 :: q with d :: _ => ~ 48 <= d <= 55 | [] => True end)).
  { intros H Hc. destruct (H Hc); [by left|right]. by destruct s. }
  destruct c as [|c|c]; try exact Hy. repeat (destruct c as [c|c|]; try exact Hy). exact Hx.
Qed.

Lemma string_body_ok s b : common_schars s b -> forall fuel q acc, (length s < fuel)%nat ->
  string_body fuel false (s ++ 34 :: q) acc = Ok (acc ++ b, q).
Proof.
  induction 1 as [|c s b Hc H1 H2 H IH|e v s b He Hl Hh1 Hh2 H IH]; intros fuel q acc Hf; (destruct fuel as [|fuel]; [cbn in Hf; lia|]).
  - cbn. by rewrite app_nil_r.
  - cbn [app]. assert (string_body (S fuel) false (c :: s ++ 34 :: q) acc = string_body fuel false (s ++ 34 :: q) (acc ++ [c])) as ->.
    { clear Hc. cbn [string_body]. destruct c as [|c|c]; try done. repeat (destruct c as [c|c|]; try done). }
    rewrite IH by (cbn in Hf; lia). by rewrite <-app_assoc.
  - assert (exists c e', e = c :: e') as (c & e' & ->).
    { inversion He as [c0 v0 Hin|ds v0 Hlen Hn|ds v0 Hn]; subst; eauto. destruct e; [by apply number_pos in Hn|eauto]. }
    destruct (escape_ok (c :: e') v c e' false (s ++ 34 :: q) He eq_refl) as (w & Ew & Ewr & Ewv).
    { by apply longest_app. } { by intros ->. } { intros ->. specialize (Hh2 eq_refl). cbn in Hh2. lia. } { done. }
    cbn [app]. rewrite <-app_assoc.
    assert (string_body (S fuel) false (92 :: c :: e' ++ s ++ 34 :: q) acc = (let! (v, r) := backslash c false (e' ++ s ++ 34 :: q) in string_body fuel false r (acc ++ [v mod 256]))) as -> by done.
    rewrite Ew. cbn [bindr]. rewrite Ewv. rewrite IH by (cbn in Hf; rewrite app_length in Hf; lia).
    by rewrite <-app_assoc.
Qed.

Lemma literals_head p ls b r : literals p ls b r -> exists s, p = 34 :: s.
Proof. destruct 1; eauto. Qed.

Lemma read_string_S pp fuel q ls acc : read_string pp (S fuel) false (34 :: q) ls acc =
  (let! (acc', r) := string_body (S (length q)) false q acc in
   let finish (q : str) (ls' : list str) := Ok (TStr (acc' ++ [0]), q, ls') in
   if pp : bool then finish r ls
   else
     let! o := skip_whitespace_or_comment r ls in
     match o with
     | None => finish r []
     | Some (q, ls') =>
       match q with
       | 34 :: _ | 76 :: 34 :: _ => read_string pp fuel false q ls' acc'
       | _ => finish q ls'
       end
     end).
Proof. done. Qed.

Lemma read_string_ok p ls0 b r : literals p ls0 b r -> forall ls fuel acc, text_lines ls = ls0 -> (total_length p ls < fuel)%nat ->
  exists q ls', read_string false fuel false p ls acc = Ok (TStr (acc ++ b ++ [0]), q, ls') /\
    match r with Some (q', l') => q = q' /\ text_lines ls' = l' | None => ls' = [] end.
Proof.
  induction 1 as [s b q ls0 r Hs Hb Hr|s b q ls0 q' ls' b' r Hs Hb Hl IH]; intros ls fuel acc Hls Hf; (destruct fuel as [|fuel]; [lia|]).
  - rewrite read_string_S. rewrite (string_body_ok s b Hs) by (rewrite app_length; cbn; lia). cbn [bindr].
    destruct (skip_ws_ok _ _ _ Hb ls (S (total_length q ls + length ls)) Hls ltac:(lia)) as (r' & E & E2 & _).
    unfold skip_whitespace_or_comment. rewrite E. cbn [bindr].
    destruct r as [[q1 l1]|], r' as [[q2 l2]|]; try done.
    + destruct E2 as (-> & E2 & _). destruct q2 as [|c p].
      * exists [], l2. split; [by rewrite app_assoc|done].
      * destruct (Hr c p l1 eq_refl) as [H1 H2].
        exists (c :: p), l2. split; [|done]. rewrite app_assoc.
        destruct (decide (c = 76)) as [->|Hn].
        -- destruct p as [|d p]; [done|]. assert (d <> 34) by (intros ->; by apply H2).
           destruct d as [|d|d]; try done. repeat (destruct d as [d|d|]; try done).
        -- clear H2. destruct c as [|c|c]; try done. repeat (destruct c as [c|c|]; try done).
    + exists q, []. split; [by rewrite app_assoc|done].
  - rewrite read_string_S. rewrite (string_body_ok s b Hs) by (rewrite app_length; cbn; lia). cbn [bindr].
    destruct (skip_ws_ok _ _ _ Hb ls (S (total_length q ls + length ls)) Hls ltac:(lia)) as (r' & E & E2 & E3).
    unfold skip_whitespace_or_comment. rewrite E. cbn [bindr].
    destruct r' as [[q2 l2]|]; [|done]. destruct E2 as (<- & E2 & _). destruct (literals_head _ _ _ _ Hl) as [s' Es]. subst q'.
    destruct (IH l2 fuel (acc ++ b) E2) as (q3 & l3 & F & F2).
    { unfold total_length in *. cbn in *. rewrite app_length in Hf. cbn in *. lia. }
    exists q3, l3. split; [|done]. rewrite F. by rewrite !app_assoc.
Qed.

Theorem string_token strtold p ls b r : literals p (text_lines ls) b r ->
  exists q ls', token_at false strtold p ls = Ok (TStr (b ++ [0]), q, ls') /\
    match r with Some (q', l') => q = q' /\ text_lines ls' = l' | None => ls' = [] end.
Proof.
  intros H. destruct (read_string_ok _ _ _ _ H ls (S (total_length p ls)) [] eq_refl ltac:(lia)) as (q & ls' & E & E2).
  exists q, ls'. split; [|done]. destruct (literals_head _ _ _ _ H) as [s ->]. exact E.
Qed.

(** ** Character constants *)
Theorem char_token pp strtold s b tail ls : cchar s b ->
  token_at pp strtold (39 :: s ++ 39 :: tail) ls = Ok (TInt (schar b) (IntFlag 0 false true 10), tail, ls).
Proof.
  intros H.
  assert (Hrd: read_char false (s ++ 39 :: tail) = Ok (TInt (schar b) (IntFlag 0 false true 10), tail)).
  2: { unfold token_at. rewrite Hrd. done. }
  destruct H as [c Hr Hc1 Hc2|e v He H63 Hx].
  - cbn [app]. unfold read_char.
    assert (Hu: read_utf8_char (c :: 39 :: tail) false = Ok (schar c, Some (39 :: tail))).
    { unfold read_utf8_char. assert (isutf8first c = 0%nat) as Hu by (apply isutf8first_small; lia).
      revert Hu. generalize (isutf8first c). intros n ->. clear Hr Hc1. destruct c as [|c|c]; try done. repeat (destruct c as [c|c|]; try done). }
    assert (Hm: match c :: 39 :: tail with 39 :: _ => Err | _ => let! (c, q) := read_utf8_char (c :: 39 :: tail) false in
        match q with Some (39 :: r) => Ok (TInt c (IntFlag 0 false true 10), r) | Some _ => Err | None => Undef end end =
        (let! (c, q) := read_utf8_char (c :: 39 :: tail) false in
        match q with Some (39 :: r) => Ok (TInt c (IntFlag 0 false true 10), r) | Some _ => Err | None => Undef end)).
    { clear -Hc1. destruct c as [|c|c]; try done. repeat (destruct c as [c|c|]; try done). }
    etransitivity; [exact Hm|]. rewrite Hu. done.
  - assert (exists c e', e = c :: e') as (c & e' & ->).
    { inversion He as [c0 v0 Hin|ds v0 Hlen Hn|ds v0 Hn]; subst; eauto. destruct e; [by apply number_pos in Hn|eauto]. }
    assert (Hsc: 0 <= c < 128).
    { inversion He as [c0 v0 Hin|ds v0 Hlen Hn|ds v0 Hn]; subst.
      - rewrite !elem_of_cons, elem_of_nil in Hin. repeat (destruct Hin as [Hin|Hin]; [injection Hin as -> ->; lia|]). done.
      - apply number_chars, Forall_cons_1 in Hn as [(v' & Hv & _) _]. unfold digit_value in Hv. lia.
      - lia. }
    assert (Hle: longest_escape (c :: e') (39 :: tail)).
    { unfold longest_escape in *. assert (Hq: ~ exists v, digit_value 39 v) by (intros [v' Hv]; unfold digit_value in Hv; lia).
      assert (Hy: 48 <= c <= 55 -> length (c :: e') = 3%nat \/ ~ 48 <= 39 <= 55) by lia.
      clear -Hq Hy. destruct c as [|c|c]; try exact Hy. repeat (destruct c as [c|c|]; try exact Hy). exact Hq. }
    destruct (escape_ok (c :: e') v c e' false (39 :: tail) He eq_refl Hle) as (w & Ew & Ewr & Ewv).
    { by intros ->. } { intros ->. specialize (Hx eq_refl). cbn in Hx. lia. } { done. }
    cbn [app]. unfold read_char, read_utf8_char. rewrite schar_small by done. rewrite Ew. cbn [bindr].
    by rewrite (schar_of_mod w v).
Qed.

(** ** Tokens handed back *)
Definition real (l : list token) : Prop := Forall (fun t => t <> TEof) l.
(** The tokens still to be handed out. *)
Definition holds (s : stream) (l : list token) : Prop :=
  real l /\ (fetched s ++ ahead s = l \/ fetched s = l ++ [TEof] /\ ahead s = []).

Lemma not_eof t : t <> TEof -> is_eof t = false.
Proof. by destruct t. Qed.

Lemma fetch_ok s l : holds s l -> let '(t, s') := fetch_token s in
  t = peek l /\ holds s' l /\ head (fetched s') = Some t /\ (length (fetched s') <= max 1 (length (fetched s)))%nat.
Proof.
  intros [Hr Hs]. destruct s as [fe ah]. unfold fetch_token, produce. cbn [fetched ahead] in *.
  assert (Hmax: forall n, (S n <= max 1 (S n))%nat) by lia.
  destruct fe as [|t fe].
  - destruct Hs as [<-|[Hs _]]; [|by destruct l]. cbn [app] in *. destruct ah as [|t ah]; cbn [peek fetched ahead].
    + split; [done|]. split; [split; [done|by right]|]. split; [done|cbn; lia].
    + split; [done|]. split; [split; [done|by left]|]. split; [done|cbn; lia].
  - destruct Hs as [<-|[Hs ->]].
    + split; [done|]. split; [split; [done|by left]|]. split; [done|apply Hmax].
    + destruct l as [|t' l]; cbn in Hs; injection Hs as -> ->; (split; [done|]); (split; [split; [done|by right]|]); (split; [done|apply Hmax]).
Qed.

Lemma match_ok accept s l : holds s l -> let '(r, s') := match_token accept s in
  r = (if accept (peek l) then Some (peek l) else None) /\
  holds s' (if accept (peek l) then tail l else l) /\
  (length (fetched s') <= (if accept (peek l) then length (fetched s) - 1 + (if is_eof (peek l) then 1 else 0) else max 1 (length (fetched s))))%nat.
Proof.
  intros Hs. pose proof (fetch_ok s l Hs) as Hf. unfold match_token. destruct (fetch_token s) as [t s'] eqn:Es.
  destruct Hf as (-> & Hs' & Hh & Hlen). destruct (accept (peek l)) eqn:Ea; [|done].
  split; [done|]. destruct (is_eof (peek l)) eqn:E.
  - assert (l = []) as ->. { destruct Hs as [Hr _]. destruct l as [|t l]; [done|]. apply Forall_cons_1 in Hr as [Hn _]. by destruct t. }
    split; [done|]. lia.
  - destruct s' as [fe ah]. cbn [fetched ahead] in *. destruct fe as [|t' fe]; [done|]. injection Hh as ->.
    destruct Hs' as [Hr Hs']. cbn [fetched ahead tail app length] in *. split; [|lia].
    destruct l as [|t l]; [done|]. apply Forall_cons_1 in Hr as [Hn Hr]. split; [done|]. cbn in Hs'.
    destruct Hs' as [Hs'|[Hs' ->]]; injection Hs' as Hs''; [by left|by right].
Qed.

Lemma unget_ok t s l : holds s l -> t <> TEof -> (length (fetched s) < 3)%nat ->
  unget_token t s = Some (Stream (t :: fetched s) (ahead s)) /\ holds (Stream (t :: fetched s) (ahead s)) (t :: l).
Proof.
  intros [Hr Hs] Ht Hlen. unfold unget_token. rewrite not_eof by done. rewrite bool_decide_true by done. split; [done|].
  split; [by constructor|]. cbn. destruct Hs as [<-|[-> ->]]; [by left|by right].
Qed.

Fixpoint run (ops : list request) (s : stream) : option (list (option token)) :=
  match ops with
  | [] => Some []
  | Ask accept :: ops => let '(r, s') := match_token accept s in outs ← run ops s'; Some (r :: outs)
  | Back t :: ops => s' ← unget_token t s; run ops s'
  end.

Theorem stream_answers ops : forall s l outs, holds s l -> run ops s = Some outs -> outs = answers ops l.
Proof.
  induction ops as [|[accept|t] ops IH]; intros s l outs Hs H; cbn [run answers] in *.
  - by injection H.
  - pose proof (match_ok accept s l Hs) as Hm. destruct (match_token accept s) as [r s'].
    destruct Hm as (-> & Hs' & _). destruct (run ops s') as [o|] eqn:E; [|done]. cbn in H. injection H as <-. destruct (accept (peek l)); f_equal; by eapply IH.
  - destruct (is_eof t) eqn:Et; [destruct t; try done|assert (t <> TEof) as Hn by (by intros ->)].
    + cbn in H. by eapply IH.
    + assert (length (fetched s) < 3)%nat as Hl.
      { unfold unget_token in H. rewrite not_eof in H by done. by destruct (bool_decide_reflect (length (fetched s) < 3)%nat). }
      destruct (unget_ok t s l Hs Hn Hl) as [E Hh]. rewrite E in H. cbn in H.
      rewrite (IH _ _ _ Hh H). by destruct t.
Qed.

Theorem stream_two ops : forall s l k, holds s l -> at_most 2 ops k l -> (length (fetched s) <= S k)%nat -> (k <= length l)%nat -> run ops s <> None.
Proof.
  induction ops as [|[accept|t] ops IH]; intros s l k Hs H Hk Hkl; cbn [run at_most] in *; [done| |].
  - destruct H as [Hk2 H].
    pose proof (match_ok accept s l Hs) as Hm. destruct (match_token accept s) as [r s'].
    destruct Hm as (-> & Hs' & Hlen). assert (run ops s' <> None) as Hne; [|by destruct (run ops s')].
    destruct (accept (peek l)).
    + apply (IH s' (tail l) (k - 1)%nat Hs' H); [|destruct l; cbn in *; lia].
      destruct (is_eof (peek l)) eqn:E; [|lia]. assert (l = []) as ->; [|cbn in Hkl; lia].
      destruct Hs as [Hr _]. destruct l as [|t l]; [done|]. apply Forall_cons_1 in Hr as [Hn _]. by destruct t.
    + apply (IH s' l k Hs' H); lia.
  - destruct H as (Hk2 & Hn & H). assert (S k <= 2)%nat by (destruct ops as [|[] ?]; cbn in H; destruct H; lia).
    destruct (unget_ok t s l Hs Hn ltac:(lia)) as [E Hh]. rewrite E. cbn.
    apply (IH _ (t :: l) (S k) Hh H); cbn; lia.
Qed.

Theorem stream_ok ops ts : real ts -> at_most 2 ops 0 ts -> run ops (Stream [] ts) = Some (answers ops ts).
Proof.
  intros Hr H. assert (holds (Stream [] ts) ts) as Hh by (split; [done|left; done]).
  destruct (run ops (Stream [] ts)) as [o|] eqn:E.
  - f_equal. by apply (stream_answers ops _ ts o Hh).
  - exfalso. by apply (stream_two ops _ ts 0 Hh H ltac:(cbn; lia) ltac:(lia)).
Qed.

(** ** The type of an integer constant *)
Theorem literal_type_ok l u b v k un : (b = 10 \/ b = 8 \/ b = 16 \/ b = 2) -> 0 <= v < 2 ^ 64 ->
  constant_type l u (negb (b =? 10)) v k un ->
  literal_type (to_int64 v) (IntFlag l u false b) =
    if (bool_decide (l < 2) && (bool_decide (2 ^ 63 <= v) || u && (bool_decide (l = 1) || bool_decide (2 ^ 32 <= v)))) then Undef else Ok (k, un).
Proof.
  intros Hb Hv Ht. assert (Hu: to_int64 v mod 2 ^ 64 = v).
  { unfold to_int64. rewrite Zminus_mod, Zmod_mod, <-Zminus_mod. rewrite Z.add_simpl_r. by apply Z.mod_small. }
  unfold literal_type. cbn [f_long f_unsigned f_char f_base]. rewrite Hu. clear Hu.
  destruct Ht as [pre suf Hl Hf Hpre].
  assert (l = 0 \/ l = 1 \/ l = 2) as Hl3.
  { destruct (decide (l = 0)) as [|H0]; [by left|]. destruct (decide (l = 1)) as [|H1]; [by right; left|]. destruct (decide (l = 2)) as [|H2]; [by right; right|].
    exfalso. assert (candidates l u (negb (b =? 10)) = []) as Hn; [|rewrite Hn in Hl; by destruct pre].
    unfold candidates. assert (match l with 0 => [0; 1; 2] | 1 => [1; 2] | 2 => [2] | _ => [] end = []) as ->.
    { destruct l as [|l|l]; try done. repeat (destruct l as [l|l|]; try done). }
    by destruct u, (b =? 10). }
  assert (Hneg: forall x, 0 <= x <= 62 -> v < 2 ^ 63 -> (- 2 ^ x <=? to_int64 v) = true).
  { intros x Hx Hv'. unfold to_int64. rewrite Z.mod_small by lia. assert (0 < 2 ^ x) by (apply Z.pow_pos_nonneg; lia). lia. }
  assert (Hbb: (b =? 10) = true \/ (b =? 10) = false) by (by destruct (b =? 10); [left|right]). clear Hb.
  unfold fits in Hf, Hpre.
  destruct Hl3 as [-> |[-> | ->]], u, Hbb as [Eb|Eb]; rewrite Eb in *; clear Eb; cbn [candidates negb map mbind list_bind app] in Hl;
    repeat (destruct pre as [|? pre]; [injection Hl as Hk <- Hs; destruct k; try done|cbn [app] in Hl; injection Hl as <- Hl]);
    try (by destruct pre); 
    repeat match goal with H : Forall _ (_ :: _) |- _ => apply Forall_cons_1 in H as [? H] end;
    cbn [fst snd Z.eqb rank] in *.
  all: cbn -[Z.pow Z.leb Z.ltb Z.sub] in Hf.
  all: repeat match goal with H : ~ (_ <= _ < 2 ^ _) |- _ => cbn -[Z.pow] in H end.
  all: unfold auto_upgrade, shl1, bindr; cbn [fx_size].
  all: repeat match goal with |- context [bool_decide ?P] => first [rewrite (bool_decide_true P) by (done || lia)|rewrite (bool_decide_false P) by (done || lia)] end.
  all: cbn [andb orb negb].
  all: repeat match goal with |- context [if ?x <? ?y then _ else _] => destruct (Z.ltb_spec x y); [|try lia] end; try done.
  all: try lia.
  all: repeat match goal with
    | |- context [2 ^ ?x - 1] => let c := eval vm_compute in (2 ^ x - 1) in progress change (2 ^ x - 1) with c
    | |- context [?a - ?b] => let c := eval vm_compute in (a - b) in progress change (a - b) with c
    end.
  all: repeat match goal with |- context [?a <=? to_int64 ?w] => destruct (a <=? to_int64 w) eqn:? end.
  all: repeat match goal with H : (- 2 ^ ?x <=? to_int64 _) = false, Hn : forall x, _ -> _ -> _ |- _ => rewrite Hn in H by lia; done end.
  all: repeat match goal with |- context [?x <=? ?y] => destruct (Z.leb_spec x y); try lia end.
  all: repeat match goal with |- context [?x <? ?y] => destruct (Z.ltb_spec x y); try lia end.
  all: repeat match goal with |- context [bool_decide (?a <= ?b)] => destruct (bool_decide_reflect (a <= b)); try lia end.
  all: cbn [andb orb negb]; try done; try lia.
Qed.
