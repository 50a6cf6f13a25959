(** Identifiers, keywords and integer constants. *)
From Coq Require Import Ascii String.
From stdpp Require Import base list numbers.
From Verif Require Import Cpp.Cond_model Front.Lexer_model Front.Lexer_spec Front.Lexer_op_proof.
Open Scope Z_scope.

Section fix_params.
Context (pp : bool) (strtold : str -> nat).

Definition other_token (p : str) (ls : list str) : res (token * str * list str) :=
  let keep (m : res (token * str)) := let! (t, r) := m in Ok (t, r, ls) in
  if isdigit (hd0 p) then keep (read_num strtold p)
  else if (hd0 p =? 46) && isdigit (hd0 (drop 1 p)) then keep (read_flonum strtold p 10)
  else match get_op_token pp p with
       | Some (k, n) => Ok (TOp k, drop n p, ls)
       | None =>
         let! o := read_ident p in
         match o with
         | Some (name, r) =>
           Ok (match reserved_key pp name with Some k => TKey k | None => TIdent name end, r, ls)
         | None =>
           if negb pp then Err
           else match p with
                | [] => Undef
                | c :: p' => Ok (TOtherChar [c], p', ls)
                end
         end
       end.

Lemma token_other c p ls : c <> 39 -> c <> 34 -> (c = 76 -> hd0 p <> 39 /\ hd0 p <> 34) ->
  token_at pp strtold (c :: p) ls = other_token (c :: p) ls.
Proof.
  intros H1 H2 H3. unfold token_at, other_token.
  destruct (decide (c = 76)) as [->|Hn].
  - destruct (H3 eq_refl) as [H4 H5]. destruct p as [|d p]; [done|]. cbn in H4, H5.
    clear H3 H1 H2. destruct d as [|d|d]; try done. repeat (destruct d as [d|d|]; try done).
  - clear H3. destruct c as [|c|c]; try done. repeat (destruct c as [c|c|]; try done).
Qed.

(** ** Identifiers *)
Lemma isalnum_spec c : isalnum_ c = true <-> letter c \/ decimal c.
Proof. unfold isalnum_, isdigit, letter, decimal. lia. Qed.
Lemma isutf8first_small c : c < 0xc0 -> isutf8first c = 0%nat.
Proof. intros H. unfold isutf8first. destruct (Z.ltb_spec c 0xc0); [done|lia]. Qed.
Lemma isutf8first_lead c n : lead_count c n -> isutf8first c = S n.
Proof.
  unfold lead_count, isutf8first. intros H.
  repeat match goal with |- context [?a <=? ?b] => destruct (Z.leb_spec a b) | |- context [?a <? ?b] => destruct (Z.ltb_spec a b) end; lia.
Qed.

Lemma ident_follows n cs p : length cs = n -> Forall (fun d => 0x80 <= d < 0xc0) cs ->
  ident_rest n (cs ++ p) = (let! (a, b) := ident_rest 0 p in Ok (cs ++ a, b)).
Proof.
  intros <- H. induction H as [|d cs Hd H IH].
  { cbn [length app]. destruct (ident_rest 0 p) as [[a b]| | |]; done. }
  cbn [length app ident_rest]. unfold isutf8follow. rewrite (proj2 (andb_true_iff _ _)) by lia. rewrite IH.
  by destruct (ident_rest 0 p) as [[]| | |].
Qed.

Lemma ident_units xs tail : Forall ident_char xs -> ends_ident tail ->
  ident_rest 0 (concat xs ++ tail) = Ok (concat xs, tail).
Proof.
  intros H Ht. induction H as [|x xs Hx H IH].
  - cbn [concat app]. destruct tail as [|c tail]; [done|]. destruct Ht as (H1 & H2 & H3). cbn [ident_rest].
    rewrite isutf8first_small by done. destruct (isalnum_ c) eqn:E; [|done]. apply isalnum_spec in E. tauto.
  - cbn [concat]. rewrite <-app_assoc. destruct Hx as [c Hc|c n cs Hc Hl Hcs].
    + cbn [app ident_rest]. rewrite isutf8first_small by (unfold letter, decimal in Hc; lia).
      rewrite (proj2 (isalnum_spec c)) by done. cbn [app] in IH. rewrite IH. done.
    + cbn [app ident_rest]. rewrite (isutf8first_lead c n Hc). destruct n as [|n]; [unfold lead_count in Hc; lia|].
      rewrite (ident_follows (S n) cs); [|done|done]. rewrite IH. done.
Qed.

Lemma ident_token name tail ls : identifier name -> ends_ident tail -> not_prefix name tail ->
  token_at pp strtold (name ++ tail) ls = Ok (match reserved_key pp name with Some k => TKey k | None => TIdent name end, tail, ls).
Proof.
  intros (x & xs & -> & Hx & Hd) Ht Hp. apply Forall_cons_1 in Hx as Hx'. destruct Hx' as [Hx1 Hxs].
  assert (Hr: exists c cs, concat (x :: xs) = c :: cs /\ read_ident (concat (x :: xs) ++ tail) = Ok (Some (concat (x :: xs), tail)) /\
    (letter c \/ 0xc0 <= c)).
  { destruct Hx1 as [c Hc|c n cs Hc Hl Hcs].
    - exists c, (concat xs). split; [done|]. assert (letter c) as Hlc by (destruct Hc as [Hc|Hc]; [done|by destruct (Hd c)]).
      split; [|by left]. cbn [concat app]. unfold read_ident. rewrite isutf8first_small by (unfold letter in Hlc; lia).
      cbn [Nat.sub]. rewrite bool_decide_false by lia.
      assert (isalpha c || (c =? 95) = true) as Hb by (unfold isalpha; unfold letter in Hlc; lia).
      rewrite orb_false_l, Hb. rewrite ident_units by done. done.
    - exists c, (cs ++ concat xs). split; [done|]. split; [|right; unfold lead_count in Hc; lia].
      cbn [concat app]. unfold read_ident. rewrite (isutf8first_lead c n Hc). cbn [Nat.sub]. rewrite Nat.sub_0_r.
      rewrite bool_decide_true by (unfold lead_count in Hc; lia). cbn [orb]. rewrite <-app_assoc.
      rewrite (ident_follows n cs) by done. rewrite ident_units by done. done. }
  destruct Hr as (c & cs & E & Hr & Hc). rewrite E in Hr, Hp |- *. cbn [app] in *.
  rewrite token_other.
  2,3: unfold letter in Hc; lia.
  2:{ intros ->. destruct cs as [|d cs].
      - cbn [app]. specialize (Hp eq_refl). destruct tail as [|e tail]; [done|]. cbn. tauto.
      - cbn [app]. cbn. destruct Hx1 as [c' Hc'|c' n cs' Hc' Hl Hcs].
        + cbn in E. injection E as -> E. destruct xs as [|y ys]; [done|]. apply Forall_cons_1 in Hxs as [Hy _].
          destruct Hy as [e He|e m es He _ _]; cbn in E; injection E as -> _; unfold letter, decimal, lead_count in *; lia.
        + cbn in E. injection E as -> E. unfold lead_count in Hc'. lia. }
  unfold other_token. rewrite hd0_cons.
  assert (isdigit c = false) as -> by (unfold isdigit; unfold letter in Hc; lia).
  assert (c =? 46 = false) as -> by (unfold letter in Hc; lia). cbn [andb].
  assert (get_op_token pp (c :: cs ++ tail) = None) as ->.
  { unfold get_op_token. assert (c =? 35 = false) as -> by (unfold letter in Hc; lia). rewrite andb_false_r.
    assert (kPunctMap c = None) as -> by (unfold kPunctMap; unfold letter in Hc; repeat (case_match; try done); lia).
    assert (kOperatorMap c = None) as -> by (unfold kOperatorMap; unfold letter in Hc; repeat (case_match; try done); lia). done. }
  rewrite Hr. done.
Qed.

(** Keywords, and nothing else, are reserved. *)
Lemma keyword_iff name k : assoc name kReservedWords = Some k <-> keyword_kind name k.
Proof.
  assert (H1: forallb (fun x => existsb (fun y => bool_decide (bytes y.1 = x.1) && bool_decide (y.2 = x.2)) keywords) kReservedWords = true) by (vm_compute; reflexivity).
  assert (H2: forallb (fun y => bool_decide (assoc (bytes y.1) kReservedWords = Some y.2)) keywords = true) by (vm_compute; reflexivity).
  split.
  - intros H. apply assoc_in in H. rewrite forallb_forall in H1. specialize (H1 (name, k)). rewrite <-elem_of_list_In in H1. apply H1 in H.
    apply existsb_exists in H as ([s k'] & Hin & H). cbn in H. apply andb_true_iff in H as [Ha Hb].
    apply bool_decide_eq_true in Ha. apply bool_decide_eq_true in Hb as ->. exists s. split; [by apply elem_of_list_In|done].
  - intros (s & Hin & <-). rewrite forallb_forall in H2. specialize (H2 (s, k)). rewrite <-elem_of_list_In in H2. apply H2 in Hin.
    by apply bool_decide_eq_true in Hin.
Qed.

(** ** Integer constants *)
Lemma number_digit base c v : 1 < base <= 16 -> digit_value c v -> v < base -> digit_in base c = Some v.
Proof.
  intros Hb Hd Hv. unfold digit_in, isdigit, tolower.
  destruct Hd as [[H1 ->]|[[H1 ->]|[H1 ->]]].
  - rewrite (proj2 (andb_true_iff _ _)) by lia. destruct (Z.ltb_spec (c - 48) base); [done|lia].
  - destruct ((48 <=? c) && (c <=? 57)) eqn:E; [lia|]. destruct ((65 <=? c) && (c <=? 90)) eqn:E2; [|lia].
    destruct ((97 <=? c + 32) && (c + 32 <=? 122)) eqn:E3; [|lia].
    replace (c + 32 - 87) with (c - 55) by lia. destruct (Z.ltb_spec (c - 55) base); [done|lia].
  - destruct ((48 <=? c) && (c <=? 57)) eqn:E; [lia|]. destruct ((65 <=? c) && (c <=? 90)) eqn:E2; [lia|].
    destruct ((97 <=? c) && (c <=? 122)) eqn:E3; [|lia]. destruct (Z.ltb_spec (c - 87) base); [done|lia].
Qed.
Lemma digits_app base : 1 < base <= 16 -> forall ds n, number base ds n -> forall v p,
  digits base v (ds ++ p) = digits base (v * base ^ Z.of_nat (length ds) + n) p.
Proof.
  intros Hb ds n H. induction H as [c d Hd Hv|ds n c d H IH Hd Hv]; intros v p.
  - cbn [app digits length]. rewrite (number_digit base c d) by done. change (Z.of_nat 1) with 1. by rewrite Z.pow_1_r.
  - rewrite <-app_assoc, IH. cbn [app digits]. rewrite (number_digit base c d) by done. f_equal.
    rewrite app_length. cbn [length]. rewrite Nat.add_1_r, Nat2Z.inj_succ, Z.pow_succ_r by lia. ring.
Qed.
Lemma number_head base ds n : number base ds n -> exists c cs v, ds = c :: cs /\ digit_value c v /\ v < base.
Proof.
  induction 1 as [c d Hd Hv|ds n c d H (c' & cs & v & -> & ? & ?) Hd Hv]; [by exists c, [], d|]. by exists c', (cs ++ [c]), v.
Qed.
Lemma number_nonneg base ds n : 1 < base -> number base ds n -> 0 <= n.
Proof. intros Hb. induction 1 as [c d Hd Hv|ds n c d H IH Hd Hv]; unfold digit_value in Hd; nia. Qed.
Lemma number_chars base ds n : number base ds n -> Forall (fun c => exists v, digit_value c v /\ v < base) ds.
Proof.
  induction 1 as [c d Hd Hv|ds n c d H IH Hd Hv]; [constructor; eauto; constructor|].
  apply Forall_app. split; [done|]. constructor; eauto; constructor.
Qed.

Definition stops (base : Z) (p : str) : Prop := digit_in base (hd0 p) = None.
Lemma digits_stop base v p : stops base p -> digits base v p = (v, p).
Proof. unfold stops. destruct p as [|c p]; [done|]. cbn. intros ->. done. Qed.

(** strtoull on digits. *)
Lemma strtoull_number base ds n p : 1 < base <= 16 -> number base ds n -> n < 2 ^ 64 -> stops base p ->
  (base = 16 -> match ds ++ p with 48 :: x :: _ => tolower x <> 120 | _ => True end) ->
  strtoull (ds ++ p) base = (n, p).
Proof.
  intros Hb Hn Hlt Hs Hx. destruct (number_head _ _ _ Hn) as (c & cs & v & E & Hd & Hv).
  assert (Hdv: digit_in base c = Some v) by by apply number_digit.
  unfold strtoull.
  assert (Hsk: skip_whitespaces (ds ++ p) = ds ++ p).
  { rewrite E. cbn [app skip_whitespaces]. assert (isspace c = false) as -> by (unfold isspace; unfold digit_value in Hd; lia). done. }
  rewrite Hsk. assert (Hneg: match ds ++ p with 45 :: q => (true, q) | 43 :: q => (false, q) | _ => (false, ds ++ p) end = (false, ds ++ p)).
  { rewrite E. cbn [app]. assert (c <> 45 /\ c <> 43) as [? ?] by (unfold digit_value in Hd; lia).
    destruct c as [|c|c]; try done. repeat (destruct c as [c|c|]; try done). }
  rewrite Hneg.
  assert (Hpre: match ds ++ p with 48 :: x :: c0 :: r => if (base =? 16) && (tolower x =? 120) && is_some (digit_in 16 c0) then c0 :: r else ds ++ p | _ => ds ++ p end = ds ++ p).
  { destruct (decide (base = 16)) as [->|Hne].
    - specialize (Hx eq_refl). destruct (ds ++ p) as [|a [|b [|e l]]] eqn:El; try done.
      + destruct (decide (a = 48)) as [->|]; [done|]. destruct a as [|a|a]; try done. repeat (destruct a as [a|a|]; try done).
      + destruct (decide (a = 48)) as [->|]; [done|]. destruct a as [|a|a]; try done. repeat (destruct a as [a|a|]; try done).
      + destruct (decide (a = 48)) as [->|].
        * apply Z.eqb_neq in Hx. rewrite Hx. done.
        * destruct a as [|a|a]; try done. repeat (destruct a as [a|a|]; try done).
    - apply Z.eqb_neq in Hne. rewrite Hne. cbn [andb].
      destruct (ds ++ p) as [|a [|b [|e l]]]; try done; destruct a as [|a|a]; try done; repeat (destruct a as [a|a|]; try done). }
  rewrite Hpre. rewrite E at 1. cbn [app]. rewrite hd0_cons, Hdv. cbn [is_some].
  rewrite (digits_app base Hb ds n Hn). rewrite digits_stop by done. rewrite Z.mul_0_l, Z.add_0_l.
  destruct (Z.ltb_spec n (2 ^ 64)); [done|lia].
Qed.

Lemma suffix_ok (s : string) (u : bool) (l : Z) tail : (s, u, l) ∈ suffixes -> ends_number tail ->
  suffix (bytes s ++ tail) 0 0 = Ok ((if u then 1 else 0), l, tail).
Proof.
  intros H Ht.
  assert (He: forall u l, suffix tail u l = Ok (u, l, tail)).
  { intros u0 l0. destruct tail as [|c tail]; [done|]. destruct Ht as (H1 & _). cbn.
    assert (tolower c <> 117 /\ tolower c <> 108) as [Ha Hb].
    { unfold tolower. destruct ((65 <=? c) && (c <=? 90)) eqn:E; unfold letter in H1; lia. }
    apply Z.eqb_neq in Ha, Hb. rewrite Ha, Hb. done. }
  unfold suffixes in H. rewrite !elem_of_cons, elem_of_nil in H.
  repeat (destruct H as [H|H]; [injection H as -> -> ->; cbn -[suffix] || idtac; cbn; by rewrite ?He|]). done.
Qed.

(** What may follow the digits: a suffix and then something that does not go on. *)
Lemma suffix_stop base (s : string) (u : bool) (l : Z) tail : (s, u, l) ∈ suffixes -> ends_number tail -> 1 < base <= 16 ->
  stops base (bytes s ++ tail) /\ hd0 (bytes s ++ tail) <> 46 /\ tolower (hd0 (bytes s ++ tail)) <> 101 /\
  tolower (hd0 (bytes s ++ tail)) <> 112 /\ tolower (hd0 (bytes s ++ tail)) <> 120 /\ isdigit (hd0 (bytes s ++ tail)) = false /\
  tolower (hd0 (bytes s ++ tail)) <> 98.
Proof.
  intros H Ht Hb.
  assert (Hc: forall c, (c = 117 \/ c = 85 \/ c = 108 \/ c = 76 \/ (~ letter c /\ ~ decimal c /\ c <> 46)) ->
     digit_in base c = None /\ c <> 46 /\ tolower c <> 101 /\ tolower c <> 112 /\ tolower c <> 120 /\ isdigit c = false /\ tolower c <> 98).
  { intros c Hc. unfold digit_in, isdigit, tolower, letter, decimal in *.
    destruct ((48 <=? c) && (c <=? 57)) eqn:E1; [lia|]. destruct ((65 <=? c) && (c <=? 90)) eqn:E2.
    - destruct ((97 <=? c + 32) && (c + 32 <=? 122)) eqn:E3; [|lia].
      destruct (Z.ltb_spec (c + 32 - 87) base); [lia|]. split; [done|]. lia.
    - destruct ((97 <=? c) && (c <=? 122)) eqn:E3.
      + destruct (Z.ltb_spec (c - 87) base); [lia|]. split; [done|]. lia.
      + split; [done|]. lia. }
  unfold stops. apply Hc. unfold suffixes in H. rewrite !elem_of_cons, elem_of_nil in H.
  repeat (destruct H as [H|H]; [injection H as -> -> ->; cbn; try tauto; try (destruct tail as [|c tail]; [right; right; right; right; unfold letter, decimal; cbn; lia|cbn in Ht |- *; tauto])|]). done.
Qed.

(** A binary literal whose digits would make strtoull see a prefix does not exist. *)
Theorem integer_constant text base v (s : string) (u : bool) (l : Z) tail ls :
  constant text base v -> v < 2 ^ 64 -> (s, u, l) ∈ suffixes -> ends_number tail ->
  token_at pp strtold (text ++ bytes s ++ tail) ls = Ok (TInt (to_int64 v) (IntFlag l u false base), tail, ls).
Proof.
  intros Hc Hlt Hs Ht. 
  assert (Hhead: exists c cs, text = c :: cs /\ 48 <= c <= 57).
  { destruct Hc as [|ds v Hn H0|ds v Hn|x ds v Hx Hn|x ds v Hx Hn]; [by exists 48, []| |eexists; eexists; split; [done|]; lia..].
    destruct (number_head _ _ _ Hn) as (c & cs & d & -> & Hd & Hv). exists c, cs. split; [done|]. unfold digit_value in Hd. lia. }
  destruct Hhead as (c0 & cs0 & E0 & Hc0). rewrite E0. cbn [app]. rewrite token_other by lia.
  unfold other_token. rewrite hd0_cons. assert (isdigit c0 = true) as -> by (unfold isdigit; lia).
  assert (Hgoal: read_num strtold (text ++ bytes s ++ tail) = Ok (TInt (to_int64 v) (IntFlag l u false base), tail)).
  2:{ rewrite E0 in Hgoal. cbn [app] in Hgoal. rewrite Hgoal. done. }
  set (r := bytes s ++ tail).
  assert (Hfin: forall p b ds n, 1 < b <= 16 -> b = base -> v = n -> number b ds n -> p = ds ++ r ->
     (b = 16 -> match ds ++ r with 48 :: x :: _ => tolower x <> 120 | _ => True end) ->
     (let '(val, r0) := strtoull p b in
      if decide (length r0 = length p) then Err
      else if (b =? 16) && ((hd0 r0 =? 46) || (tolower (hd0 r0) =? 112)) then read_flonum strtold (text ++ r) 16
      else if (hd0 r0 =? 46) || (tolower (hd0 r0) =? 101) then
        if negb (b =? 10) then Err else read_flonum strtold (text ++ r) 10
      else let! (u0, l0, r') := suffix r0 0 0 in
           Ok (TInt (to_int64 val) (IntFlag l0 (0 <? u0) false b), r')) =
     Ok (TInt (to_int64 v) (IntFlag l u false base), tail)).
  { intros p b ds n Hb <- -> Hn -> H16.
    destruct (suffix_stop b s u l tail Hs Ht Hb) as (S1 & S2 & S3 & S4 & S5 & S6 & S7).
    rewrite (strtoull_number b ds n r) by done.
    rewrite decide_False by (rewrite app_length; destruct (number_head _ _ _ Hn) as (? & ? & ? & -> & _); cbn; lia).
    apply Z.eqb_neq in S2, S3, S4. fold r in S2, S3, S4. rewrite S2, S3, S4. cbn [orb]. rewrite andb_false_r.
    unfold r. rewrite (suffix_ok s u l tail) by done. cbn [bindr]. by destruct u. }
  destruct (suffix_stop 16 s u l tail Hs Ht ltac:(lia)) as (S1 & S2 & S3 & S4 & S5 & S6 & S7). fold r in S1, S2, S3, S4, S5, S6, S7.
  assert (H16: forall ds n, number 16 ds n -> match ds ++ r with 48 :: x :: _ => tolower x <> 120 | _ => True end).
  { intros ds n Hn. pose proof (number_chars _ _ _ Hn) as Hch.
    assert (Hgen: forall a q, ds ++ r = a :: q -> match q with x :: _ => tolower x <> 120 | [] => True end).
    { intros a q E. destruct ds as [|d1 [|d2 ds]].
      - inversion Hn; subst; try done. by destruct ds.
      - injection E as <- <-. destruct r; [done|]. cbn in S5. done.
      - injection E as <- <-. apply Forall_cons_1 in Hch as [_ Hch]. apply Forall_cons_1 in Hch as [(v2 & Hd2 & _) _].
        unfold digit_value in Hd2. unfold tolower. destruct ((65 <=? d2) && (d2 <=? 90)) eqn:Eb; lia. }
    destruct (ds ++ r) as [|a q] eqn:E; [done|]. specialize (Hgen a q eq_refl).
    destruct q as [|x q]; destruct a as [|a|a]; try done; repeat (destruct a as [a|a|]; try done). }
  unfold read_num. fold r.
  destruct Hc as [|ds v Hn H0|ds v Hn|x ds v Hx Hn|x ds v Hx Hn].
  - change (bytes "0" ++ r) with (48 :: r).
    assert (num_base (48 :: r) = (10, 48 :: r)) as Hm.
    { destruct r as [|c r']; [done|]. unfold num_base. cbn in S5, S7, S6. apply Z.eqb_neq in S5, S7. rewrite S5, S7.
      assert (isdigit (tolower c) = false) as ->; [|done].
      unfold tolower, isdigit in *. destruct ((65 <=? c) && (c <=? 90)) eqn:E; lia. }
    rewrite Hm. cbn [andb]. change (10 =? 16) with false. cbn [andb].
    apply (Hfin (48 :: r) 10 [48] 0); try done; try lia. constructor; unfold digit_value; lia.
  - destruct (number_head _ _ _ Hn) as (c & cs & d & E & Hd & Hv). rewrite E. rewrite E in H0. cbn in H0.
    assert (c <> 48) by congruence.
    assert (Hm: num_base ((c :: cs) ++ r) = (10, (c :: cs) ++ r)).
    { unfold num_base. cbn [app]. destruct c as [|c|c]; try done. repeat (destruct c as [c|c|]; try done). }
    rewrite Hm. change (10 =? 16) with false. cbn [andb].
    rewrite <-E. apply (Hfin (ds ++ r) 10 ds v); try done; lia.
  - destruct (number_head _ _ _ Hn) as (c & cs & d & E & Hd & Hv).
    assert (Hm: num_base ((48 :: ds) ++ r) = (8, (48 :: ds) ++ r)).
    { unfold num_base. rewrite E. cbn [app]. assert (48 <= c <= 55) as Hr by (unfold digit_value in Hd; lia).
      assert (tolower c = c) as -> by (unfold tolower; destruct ((65 <=? c) && (c <=? 90)) eqn:Eb; lia).
      destruct (Z.eqb_spec c 120); [lia|]. destruct (Z.eqb_spec c 98); [lia|].
      assert (isdigit c = true) as -> by (unfold isdigit; lia). done. }
    rewrite Hm. change (8 =? 16) with false. cbn [andb].
    apply (Hfin ((48 :: ds) ++ r) 8 (48 :: ds) v); try done; try lia.
    clear -Hn. revert Hn. generalize dependent v. 
    assert (forall ds v, number 8 ds v -> number 8 (48 :: ds) v) as Hz; [|by intros; apply Hz].
    intros ds0 v0 H. induction H as [c d Hd Hv|ds1 n c d H IH Hd Hv].
    + change [48; c] with ([48] ++ [c]). replace d with (0 * 8 + d) by lia. apply num_more; [|done|done].
      constructor; unfold digit_value; lia.
    + change (48 :: ds1 ++ [c]) with ((48 :: ds1) ++ [c]). by apply num_more.
  - assert (tolower x =? 120 = true) as Et by (destruct Hx as [->| ->]; done).
    cbn [app]. unfold num_base. rewrite Et. change (16 =? 16) with true.
    destruct (number_head _ _ _ Hn) as (c & cs & d & E & Hd & Hv).
    assert (hd0 (ds ++ r) =? 46 = false) as -> by (rewrite E; cbn; unfold digit_value in Hd; lia). cbn [andb].
    change (48 :: x :: ds ++ r) with ((48 :: x :: ds) ++ r). apply (Hfin (ds ++ r) 16 ds v); try done; try lia. intros _. by eapply H16.
  - assert (tolower x =? 120 = false) as Et by (destruct Hx as [->| ->]; done).
    assert (tolower x =? 98 = true) as Et2 by (destruct Hx as [->| ->]; done).
    cbn [app]. unfold num_base. rewrite Et, Et2. change (2 =? 16) with false. cbn [andb].
    change (48 :: x :: ds ++ r) with ((48 :: x :: ds) ++ r). apply (Hfin (ds ++ r) 2 ds v); try done; lia.
Qed.
End fix_params.
