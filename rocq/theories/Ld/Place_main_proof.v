From stdpp Require Import base list numbers sets.
From Coq Require Import Lia ZArith.
From Verif Require Import Ld.Place_model Ld.Place_spec Ld.Place_proof.
Local Open Scope Z_scope.

(** ** The lists *)
Lemma collect_cons s secs n : collect (s :: secs) n =
  (if decide (i_name s = n /\ 0 < i_size s) then [ISec s] else []) ++ collect secs n.
Proof. unfold collect. rewrite filter_cons. destruct (decide _); done. Qed.
Lemma collect_in secs n it : it ∈ collect secs n <-> exists s, it = ISec s /\ s ∈ secs /\ i_name s = n /\ 0 < i_size s.
Proof.
  unfold collect. rewrite elem_of_list_fmap. setoid_rewrite elem_of_list_filter. split.
  - intros (s & -> & H1 & H2). exists s. tauto.
  - intros (s & -> & H). exists s. tauto.
Qed.

Definition names : list secname := [Ntext; Nrodata; Ndata; Ninit; Nfini; Nbss].
Lemma costs_collect secs : Forall sec_ok secs ->
  costs (collect secs Ntext) + costs (collect secs Nrodata) + costs (collect secs Ndata) + costs (collect secs Ninit)
  + costs (collect secs Nfini) + costs (collect secs Nbss) <= total secs.
Proof.
  induction 1 as [|s secs Hs _ IH]; [cbn; lia|]. rewrite !collect_cons, !costs_app. cbn [total foldr]. fold (total secs).
  assert (0 <= i_size s + i_align s) as Hp. { destruct Hs as (Ha & Hz & _). apply pow2_pos in Ha. lia. }
  assert (costs [ISec s] = i_size s + i_align s) as E by (cbn; lia).
  assert (costs [] = 0) as E0 by done.
  destruct (i_name s);
    repeat (match goal with |- context [decide ?P] => destruct (decide P) as [[? ?]|?]; [try done|] end);
    rewrite ?E, ?E0; lia.
Qed.

Lemma sections_app l1 l2 : sections (l1 ++ l2) = sections l1 ++ sections l2.
Proof. unfold sections. apply omap_app. Qed.
Lemma sections_collect secs n : sections (collect secs n) = filter (fun s => i_name s = n /\ 0 < i_size s) secs.
Proof. unfold sections, collect. induction (filter _ secs) as [|s l IH]; [done|]. cbn. f_equal. exact IH. Qed.
Lemma sections_all secs : sections (text_items secs ++ data_items secs) ≡ₚ filter (fun s => known (i_name s) = true /\ 0 < i_size s) secs.
Proof.
  unfold text_items, data_items. rewrite !sections_app, !sections_collect. cbn [sections omap list_omap app].
  induction secs as [|s secs IH]; [done|]. rewrite !filter_cons.
  destruct (decide (0 < i_size s)) as [Hs|Hs].
  - destruct (i_name s) eqn:En; cbn [known];
    repeat (match goal with |- context [decide ?P] => first [rewrite (decide_True (P := P)) by done|rewrite (decide_False (P := P)) by (intros [? ?]; done)] end);
    rewrite <- ?IH; solve_Permutation.
  - repeat (match goal with |- context [decide ?P] => rewrite (decide_False (P := P)) by tauto end). exact IH.
Qed.

(** ** The file *)
Lemma out_group_ok f addr align b : pow2 align -> Z.of_nat (length f) <= addr -> addr < 2 ^ 63 ->
  let r := out_group (f, addr) (align, b) in
  exists z, r.1 = f ++ z /\ r.2 = rounded addr align + Z.of_nat (length b) /\ Z.of_nat (length r.1) <= r.2 /\
  forall k v, b !! k = Some v -> r.1 !! (Z.to_nat (rounded addr align) + k)%nat = Some v.
Proof.
  intros Ha Hf Hb. cbv zeta. unfold out_group. rewrite align_rounded by (try done; lia).
  pose proof (pow2_pos _ Ha). pose proof (rounded_bounds addr align ltac:(lia)).
  case_bool_decide as Hl; cbn [fst snd].
  - exists []. rewrite app_nil_r. split; [done|]. split; [lia|]. split; [lia|]. intros k v Hk. apply lookup_lt_Some in Hk. lia.
  - unfold put_padding. eexists. rewrite <- app_assoc. split; [done|]. split; [done|].
    split; [rewrite !app_length, replicate_length; lia|]. intros k v Hk.
    rewrite app_assoc, lookup_app_r by (rewrite app_length, replicate_length; lia).
    rewrite app_length, replicate_length. rewrite <- Hk. f_equal. lia.
Qed.

Lemma nobits_bytes l b : Forall (fun it => exists s, it = ISec s /\ i_nobits s = true) l -> fold_left add_item l b = b.
Proof.
  revert b. induction l as [|it l IH]; intros b H; [done|]. apply stdpp.list.Forall_cons in H as [(s & -> & Hs) H].
  cbn. rewrite Hs. apply IH. done.
Qed.

Section main.
Context (header : list phdr -> list Z) (secs : list insec).
Hypothesis Hsecs : secs_ok secs.
Hypothesis Hal : aligns_ok secs.
Hypothesis Hnb : nobits_ok secs.
Hypothesis Hhd : forall ph, (length ph <= 2)%nat -> Z.of_nat (length (header ph)) <= PROG_START.

Definition T := text_items secs.
Definition P := collect secs Ndata ++ [IAlign 8; ISym InitStart] ++ collect secs Ninit ++ [ISym InitEnd; ISym FiniStart] ++
  collect secs Nfini ++ [ISym FiniEnd].
Definition B := collect secs Nbss.
Lemma data_split : data_items secs = P ++ B.
Proof. unfold data_items, P, B. rewrite <- !app_assoc. done. Qed.

Lemma in_T it : it ∈ T -> exists s, it = ISec s /\ s ∈ secs /\ (i_name s = Ntext \/ i_name s = Nrodata) /\ 0 < i_size s.
Proof.
  unfold T, text_items. rewrite elem_of_app, !collect_in. intros [(s & -> & H)|(s & -> & H)]; exists s; tauto.
Qed.
Lemma in_P it : it ∈ P -> it = IAlign 8 \/ (exists g, it = ISym g) \/
  exists s, it = ISec s /\ s ∈ secs /\ (i_name s = Ndata \/ i_name s = Ninit \/ i_name s = Nfini) /\ 0 < i_size s.
Proof.
  unfold P. rewrite !elem_of_app, !collect_in, !elem_of_cons, !elem_of_nil. intros H.
  destruct H as [(s & -> & H)|[[->|[->|[]]]|[(s & -> & H)|[[->|[->|[]]]|[(s & -> & H)|[->|[]]]]]]].
  all: first [left; reflexivity|right; left; eexists; reflexivity|right; right; exists s; tauto].
Qed.
Lemma in_B it : it ∈ B -> exists s, it = ISec s /\ s ∈ secs /\ i_name s = Nbss /\ 0 < i_size s.
Proof. unfold B. rewrite collect_in. done. Qed.

Lemma sec_in s : s ∈ secs -> sec_ok s.
Proof using Hsecs. destruct Hsecs as [H _]. rewrite stdpp.list.Forall_forall in H. apply H. Qed.
Lemma al_in s : s ∈ secs -> match i_name s with Ntext | Nrodata => i_align s <= 0x100 | _ => i_align s <= 0x1000 end.
Proof using Hal. unfold aligns_ok in Hal. rewrite stdpp.list.Forall_forall in Hal. apply Hal. Qed.
Lemma nb_in s : s ∈ secs -> i_nobits s = true <-> i_name s = Nbss.
Proof using Hnb. unfold nobits_ok in Hnb. rewrite stdpp.list.Forall_forall in Hnb. apply Hnb. Qed.

Lemma T_ok : Forall item_ok T.
Proof using Hsecs. apply stdpp.list.Forall_forall. intros it H. apply in_T in H as (s & -> & Hs & _). apply sec_in. done. Qed.
Lemma P_ok : Forall item_ok P.
Proof using Hsecs.
  apply stdpp.list.Forall_forall. intros it H. apply in_P in H as [->|[[g ->]|(s & -> & Hs & _)]]; [exists 3; split; [lia|done]|done|apply sec_in; done].
Qed.
Lemma B_ok : Forall item_ok B.
Proof using Hsecs. apply stdpp.list.Forall_forall. intros it H. apply in_B in H as (s & -> & Hs & _). apply sec_in. done. Qed.
Lemma D_ok : Forall item_ok (data_items secs).
Proof using Hsecs. rewrite data_split. apply stdpp.list.Forall_app. split; [apply P_ok|apply B_ok]. Qed.
Lemma T_bits : Forall has_bits T.
Proof using Hnb.
  apply stdpp.list.Forall_forall. intros it H. apply in_T in H as (s & -> & Hs & Hn & _). cbn. apply nb_in in Hs.
  destruct (i_nobits s); [|done]. pose proof (proj1 Hs eq_refl) as E. rewrite E in Hn. intuition done.
Qed.
Lemma P_bits : Forall has_bits P.
Proof using Hnb.
  apply stdpp.list.Forall_forall. intros it H. apply in_P in H as [->|[[g ->]|(s & -> & Hs & Hn & _)]]; [done|done|]. cbn. apply nb_in in Hs.
  destruct (i_nobits s); [|done]. pose proof (proj1 Hs eq_refl) as E. rewrite E in Hn. intuition done.
Qed.
Lemma B_nobits : Forall (fun it => exists s, it = ISec s /\ i_nobits s = true) B.
Proof using Hnb.
  apply stdpp.list.Forall_forall. intros it H. apply in_B in H as (s & -> & Hs & Hn & _). exists s. split; [done|]. apply nb_in; done.
Qed.
Lemma all_costs : costs T + costs P + costs B < 2 ^ 62 + 8.
Proof using Hsecs.
  unfold T, text_items, P, B. rewrite !costs_app. destruct Hsecs as [H1 H2]. pose proof (costs_collect secs H1).
  cbn [costs foldr cost]. lia.
Qed.

Definition ta := group_align 1 T.
Definition da := group_align DATA_ALIGN (data_items secs).
Lemma ta_ok : pow2 ta /\ ta <= 0x100 /\ forall it, it ∈ T -> (item_align it | ta).
Proof using Hsecs Hal.
  assert (pow2 1) as H1 by (exists 0; split; [lia|done]).
  destruct (group_align_fold T 1 H1 T_ok) as (G1 & G2 & G3 & G4). fold ta in *. split; [done|]. split.
  - apply G4; [lia|]. intros it H. apply in_T in H as (s & -> & Hs & Hn & _). cbn. apply al_in in Hs. destruct Hn as [Hn|Hn]; rewrite Hn in Hs; done.
  - intros it H. apply pow2_divides; [|done|apply G3; done]. apply item_pow2. pose proof T_ok as Ho. rewrite stdpp.list.Forall_forall in Ho. apply Ho. done.
Qed.
Lemma da_ok : da = 0x1000 /\ forall it, it ∈ data_items secs -> (item_align it | 0x1000).
Proof using Hsecs Hal.
  assert (pow2 DATA_ALIGN) as H1 by (exists 12; split; [lia|done]).
  destruct (group_align_fold (data_items secs) DATA_ALIGN H1 D_ok) as (G1 & G2 & G3 & G4). fold da in *.
  assert (da = 0x1000) as E.
  { apply Z.le_antisymm; [|exact G2]. apply G4; [done|]. intros it H. rewrite data_split, elem_of_app in H. destruct H as [H|H].
    - apply in_P in H as [->|[[g ->]|(s & -> & Hs & Hn & _)]]; [done|done|]. cbn. apply al_in in Hs. destruct Hn as [Hn|[Hn|Hn]]; rewrite Hn in Hs; done.
    - apply in_B in H as (s & -> & Hs & Hn & _). cbn. apply al_in in Hs. rewrite Hn in Hs. done. }
  split; [done|]. intros it H. rewrite <- E. apply pow2_divides; [|done|apply G3; done].
  apply item_pow2. pose proof D_ok as Ho. rewrite stdpp.list.Forall_forall in Ho. apply Ho. done.
Qed.

Definition tb := group_bytes T.
Definition db := group_bytes P.
Lemma data_bytes : group_bytes (data_items secs) = db.
Proof using Hnb. rewrite data_split. unfold group_bytes. rewrite fold_left_app. apply nobits_bytes, B_nobits. Qed.

Definition tC := calc LOAD_ADDRESS T.
Definition dstart := rounded tC.2 0x1000.
Definition pC := calc dstart P.
Definition bC := calc pC.2 B.
Definition tlen := Z.of_nat (length tb).
Definition dlen := Z.of_nat (length db).
Definition bsz := bss_size (data_items secs).
Definition offset := if 0 <? dlen then rounded (PROG_START + tlen) 0x1000 else PROG_START + tlen.
Definition ph := Phdr PROG_START LOAD_ADDRESS tlen tlen :: (if (0 <? dlen) || (0 <? bsz) then [Phdr offset dstart dlen (dlen + bsz)] else []).
Definition file := (out_group (out_group (header ph, PROG_START) (ta, tb)) (0x1000, db)).1.

Lemma tC_facts : laid LOAD_ADDRESS T tC.1 tC.2 /\ tC.2 = LOAD_ADDRESS + tlen /\
  forall i s a, tC.1 !! i = Some (ISec s, a) -> LOAD_ADDRESS <= a /\
    forall k v, i_content s !! k = Some v -> tb !! (Z.to_nat (a - LOAD_ADDRESS) + k)%nat = Some v.
Proof using Hsecs Hal Hnb.
  pose proof all_costs as Hc. pose proof (costs_nonneg _ P_ok). pose proof (costs_nonneg _ B_ok).
  assert (LOAD_ADDRESS = 0x1000100) as EL by done.
  split; [apply calc_laid; [apply T_ok|lia|lia]|].
  destruct (bytes_laid T [] LOAD_ADDRESS T_ok T_bits ltac:(lia)) as [H1 H2].
  { apply stdpp.list.Forall_forall. intros it Hit. destruct ta_ok as (Hp & Hle & Hd). etransitivity; [apply Hd; done|].
    apply (pow2_divides _ 0x100) in Hle; [|done|exists 8; split; [lia|done]]. etransitivity; [exact Hle|]. exists 0x10001. done. }
  { cbn [length]. lia. }
  cbn [length] in H1, H2. rewrite Z.add_0_r in H1, H2. fold tC (group_bytes T) in H1, H2. fold tb in H1, H2. split; done.
Qed.
Lemma tlen_bound : tlen <= costs T.
Proof using Hsecs Hal Hnb. destruct tC_facts as ([_ H _ _ _] & E & _). lia. Qed.
Lemma dstart_facts : tC.2 <= dstart < tC.2 + 0x1000 /\ (0x1000 | dstart).
Proof. unfold dstart. split; [apply rounded_bounds; lia|apply rounded_divide; lia]. Qed.
Lemma bounds : 0 <= dstart /\ dstart + costs P + costs B < 2 ^ 63 /\ PROG_START + tlen < 2 ^ 62 + 0x1000.
Proof using Hsecs Hal Hnb.
  pose proof all_costs as Hc. pose proof (costs_nonneg _ P_ok). pose proof (costs_nonneg _ B_ok). pose proof (costs_nonneg _ T_ok).
  destruct tC_facts as ([_ H2 _ _ _] & E & _). destruct dstart_facts as [Hd _]. pose proof tlen_bound.
  assert (LOAD_ADDRESS = 0x1000100) as EL by done. assert (PROG_START = 0x100) as EP by done.
  assert (0 <= tlen) by (unfold tlen; lia). lia.
Qed.
Lemma pC_facts : laid dstart P pC.1 pC.2 /\ pC.2 = dstart + dlen /\
  forall i s a, pC.1 !! i = Some (ISec s, a) -> dstart <= a /\
    forall k v, i_content s !! k = Some v -> db !! (Z.to_nat (a - dstart) + k)%nat = Some v.
Proof using Hsecs Hal Hnb.
  pose proof bounds as (H0 & Hb & _). pose proof (costs_nonneg _ P_ok). pose proof (costs_nonneg _ B_ok).
  split; [apply calc_laid; [apply P_ok|lia|lia]|].
  destruct (bytes_laid P [] dstart P_ok P_bits ltac:(lia)) as [HE HF].
  { apply stdpp.list.Forall_forall. intros it Hit. destruct da_ok as (_ & Hd). etransitivity; [apply Hd; rewrite data_split; apply elem_of_app; left; done|].
    apply dstart_facts. }
  { cbn [length]. lia. }
  cbn [length] in HE, HF. rewrite Z.add_0_r in HE, HF. fold pC (group_bytes P) in HE, HF. fold db in HE, HF. split; done.
Qed.
Lemma bC_facts : laid pC.2 B bC.1 bC.2.
Proof using Hsecs Hal Hnb.
  pose proof bounds as (H0 & Hb & _). pose proof (costs_nonneg _ P_ok). pose proof (costs_nonneg _ B_ok).
  destruct pC_facts as ([_ H2 _ _ _] & _). apply calc_laid; [apply B_ok|lia|lia].
Qed.

Lemma image_eq : link_image header secs = Image (tC.1 ++ pC.1 ++ bC.1) ph file.
Proof using Hsecs Hal Hnb.
  unfold link_image. fold T. fold ta. fold da. destruct ta_ok as (Ht1 & Ht2 & _). destruct da_ok as (Ed & _).
  assert (ALIGN LOAD_ADDRESS ta = LOAD_ADDRESS) as ->.
  { rewrite align_rounded by (try done; unfold LOAD_ADDRESS, PROG_START; lia). apply rounded_id; [apply pow2_pos; done|].
    apply (pow2_divides _ 0x100) in Ht2; [|done|exists 8; split; [lia|done]]. etransitivity; [exact Ht2|]. exists 0x10001. done. }
  fold tC. destruct tC as [tp te] eqn:ET. assert (tC.2 = te) as E2 by (rewrite ET; done).
  rewrite Ed. assert (pow2 0x1000) as Hp by (exists 12; split; [lia|done]).
  destruct tC_facts as ([_ Htl _ _ _] & Hte & _). pose proof bounds as (_ & _ & Hb3). pose proof tlen_bound as Htb.
  pose proof (costs_nonneg _ P_ok). pose proof (costs_nonneg _ B_ok). pose proof all_costs.
  assert (LOAD_ADDRESS = 0x1000100) as EL by done. assert (PROG_START = 0x100) as EP by done. assert (0 <= tlen) by (unfold tlen; lia).
  rewrite align_rounded by (try done; lia). assert (rounded te 0x1000 = dstart) as -> by (unfold dstart; rewrite E2; done).
  rewrite data_split at 1. rewrite calc_app. fold pC. destruct pC as [pp pe] eqn:EPc. assert (pC.2 = pe) as E3 by (rewrite EPc; done).
  assert (calc pe B = bC) as -> by (unfold bC; rewrite E3; done). destruct bC as [bp be] eqn:EBc. cbn [fst snd].
  fold tb. rewrite data_bytes. fold bsz. fold tlen dlen.
  rewrite align_rounded by (try done; unfold DATA_ALIGN; lia). fold offset. fold ph. unfold file. done.
Qed.

Lemma ph_two : (length ph <= 2)%nat.
Proof. unfold ph. destruct (_ || _); cbn; lia. Qed.
Lemma file_facts : (forall k v, tb !! k = Some v -> file !! (Z.to_nat PROG_START + k)%nat = Some v) /\
  (forall k v, db !! k = Some v -> file !! (Z.to_nat (rounded (PROG_START + tlen) 0x1000) + k)%nat = Some v).
Proof using Hsecs Hal Hnb Hhd.
  unfold file. destruct ta_ok as (Ht1 & Ht2 & _). pose proof bounds as (_ & _ & Hb3).
  assert (PROG_START = 0x100) as EP by done.
  destruct (out_group_ok (header ph) PROG_START ta tb Ht1 (Hhd ph ph_two) ltac:(lia)) as (z & Ez & Ea & El & Eb).
  assert (rounded PROG_START ta = PROG_START) as Er.
  { apply rounded_id; [apply pow2_pos; done|]. apply (pow2_divides _ 0x100) in Ht2; [|done|exists 8; split; [lia|done]]. done. }
  rewrite Er in Ea, Eb. fold tlen in Ea.
  destruct (out_group (header ph, PROG_START) (ta, tb)) as [f1 a1]. cbn [fst snd] in *.
  assert (pow2 0x1000) as Hp by (exists 12; split; [lia|done]).
  destruct (out_group_ok f1 a1 0x1000 db Hp El ltac:(lia)) as (z2 & Ez2 & Ea2 & El2 & Eb2). rewrite Ea in Ez2, Eb2. rewrite Ea. split; [|exact Eb2].
  intros k v Hk. rewrite Ez2. apply lookup_app_l_Some. apply Eb. done.
Qed.

Lemma db_mem k v : db !! k = Some v -> mem (link_image header secs) (dstart + Z.of_nat k) v.
Proof using Hsecs Hal Hnb Hhd.
  intros Hk. rewrite image_eq. pose proof (lookup_lt_Some _ _ _ Hk) as Hl.
  assert (0 < dlen) as Hd by (unfold dlen; lia).
  exists (Phdr offset dstart dlen (dlen + bsz)). unfold ph. cbn [phdrs p_vaddr p_memsz p_filesz p_offset bytes].
  rewrite (proj2 (Z.ltb_lt 0 dlen) Hd). cbn [orb]. split; [right; left|].
  assert (0 <= bsz) as Hz.
  { unfold bsz. pose proof D_ok as Ho. induction Ho as [|it l Hit Hl' IH]; cbn; [lia|]. fold (bss_size l) in *. destruct it as [s| |]; [|lia|lia].
    destruct Hit as (_ & ? & _). destruct (i_nobits s); lia. }
  split; [unfold dlen in *; lia|].
  rewrite (proj2 (Z.ltb_lt _ _)) by (unfold dlen; lia). unfold offset. rewrite (proj2 (Z.ltb_lt 0 dlen) Hd).
  replace (Z.to_nat _) with (Z.to_nat (rounded (PROG_START + tlen) 0x1000) + k)%nat.
  - apply file_facts. done.
  - pose proof (rounded_bounds (PROG_START + tlen) 0x1000 ltac:(lia)). assert (PROG_START = 0x100) as EP by done.
    assert (0 <= tlen) by (unfold tlen; lia). lia.
Qed.
Lemma tb_mem k v : tb !! k = Some v -> mem (link_image header secs) (LOAD_ADDRESS + Z.of_nat k) v.
Proof using Hsecs Hal Hnb Hhd.
  intros Hk. rewrite image_eq. pose proof (lookup_lt_Some _ _ _ Hk) as Hl.
  exists (Phdr PROG_START LOAD_ADDRESS tlen tlen). unfold ph. cbn [phdrs p_vaddr p_memsz p_filesz p_offset bytes].
  split; [left|]. split; [unfold tlen; lia|]. rewrite (proj2 (Z.ltb_lt _ _)) by (unfold tlen; lia).
  replace (Z.to_nat _) with (Z.to_nat PROG_START + k)%nat by (assert (PROG_START = 0x100) as EP by done; lia).
  apply file_facts. done.
Qed.

Lemma loaded_bytes s a k v : (ISec s, a) ∈ placed (link_image header secs) -> i_nobits s = false -> i_content s !! k = Some v ->
  mem (link_image header secs) (a + Z.of_nat k) v.
Proof using Hsecs Hal Hnb Hhd.
  intros Hin Hn Hk. assert (Hin' := Hin). rewrite image_eq in Hin'. cbn [placed] in Hin'. rewrite !elem_of_app in Hin'.
  destruct Hin' as [H|[H|H]].
  - apply elem_of_list_lookup in H as [i H]. destruct tC_facts as (_ & _ & HT). destruct (HT i s a H) as [Ha Hb].
    specialize (Hb k v Hk). apply tb_mem in Hb. replace (a + Z.of_nat k) with (LOAD_ADDRESS + Z.of_nat (Z.to_nat (a - LOAD_ADDRESS) + k)) by lia. done.
  - apply elem_of_list_lookup in H as [i H]. destruct pC_facts as (_ & _ & HT). destruct (HT i s a H) as [Ha Hb].
    specialize (Hb k v Hk). apply db_mem in Hb. replace (a + Z.of_nat k) with (dstart + Z.of_nat (Z.to_nat (a - dstart) + k)) by lia. done.
  - exfalso. assert (ISec s ∈ B) as HB.
    { rewrite <- (laid_items _ _ _ _ bC_facts). apply elem_of_list_fmap. exists (ISec s, a). done. }
    pose proof B_nobits as HN. rewrite stdpp.list.Forall_forall in HN. destruct (HN _ HB) as (s' & [= <-] & Hs). congruence.
Qed.

Lemma placed_order i j it a it' a' : (i < j)%nat -> placed (link_image header secs) !! i = Some (it, a) ->
  placed (link_image header secs) !! j = Some (it', a') -> a + item_size it <= a'.
Proof using Hsecs Hal Hnb.
  rewrite image_eq. cbn [placed]. intros Hij Hi Hj.
  destruct tC_facts as (LT & ET & _). destruct pC_facts as (LP & EP & _). pose proof bC_facts as LB. destruct dstart_facts as [Hd _].
  destruct LT as [T1 T2 T3 T4 T5]. destruct LP as [P1 P2 P3 P4 P5]. destruct LB as [B1 B2 B3 B4 B5].
  apply lookup_app_Some in Hi as [Hi|[Hli Hi]]; apply lookup_app_Some in Hj as [Hj|[Hlj Hj]].
  - apply (T4 i j it a it' a'); done.
  - apply T3 in Hi. apply lookup_app_Some in Hj as [Hj|[_ Hj]]; [apply P3 in Hj|apply B3 in Hj]; lia.
  - apply lookup_lt_Some in Hj. lia.
  - apply lookup_app_Some in Hi as [Hi|[Hli' Hi]]; apply lookup_app_Some in Hj as [Hj|[Hlj' Hj]].
    + apply (P4 (i - length tC.1)%nat (j - length tC.1)%nat it a it' a'); [lia|done|done].
    + apply P3 in Hi. apply B3 in Hj. lia.
    + apply lookup_lt_Some in Hj. lia.
    + refine (B4 _ _ it a it' a' _ Hi Hj). lia.
Qed.
Lemma placed_aligned s a : (ISec s, a) ∈ placed (link_image header secs) -> (i_align s | a).
Proof using Hsecs Hal Hnb.
  rewrite image_eq. cbn [placed]. rewrite !elem_of_app.
  intros [H|[H|H]]; apply elem_of_list_lookup in H as [i H].
  - apply (laid_aligned _ _ _ _ (proj1 tC_facts) i). done.
  - apply (laid_aligned _ _ _ _ (proj1 pC_facts) i). done.
  - apply (laid_aligned _ _ _ _ bC_facts i). done.
Qed.
Lemma placed_items : (placed (link_image header secs)).*1 = text_items secs ++ data_items secs.
Proof using Hsecs Hal Hnb.
  rewrite image_eq. cbn [placed]. rewrite !fmap_app, (laid_items _ _ _ _ (proj1 tC_facts)), (laid_items _ _ _ _ (proj1 pC_facts)), (laid_items _ _ _ _ bC_facts).
  rewrite data_split. done.
Qed.
Lemma bss_zero s a k : (ISec s, a) ∈ placed (link_image header secs) -> i_nobits s = true -> 0 <= k < i_size s ->
  in_segment (link_image header secs) (a + k) -> mem (link_image header secs) (a + k) 0.
Proof using Hsecs Hal Hnb.
  intros Hin Hn Hk (p & Hp & Ha). exists p. split; [done|]. split; [done|].
  assert (Hin' := Hin). rewrite image_eq in Hin'. cbn [placed] in Hin'. rewrite !elem_of_app in Hin'.
  destruct Hin' as [H|[H|H]].
  - exfalso. assert (ISec s ∈ T) as HB.
    { rewrite <- (laid_items _ _ _ _ (proj1 tC_facts)). apply elem_of_list_fmap. exists (ISec s, a). done. }
    pose proof T_bits as HN. rewrite stdpp.list.Forall_forall in HN. specialize (HN _ HB). cbn in HN. congruence.
  - exfalso. assert (ISec s ∈ P) as HB.
    { rewrite <- (laid_items _ _ _ _ (proj1 pC_facts)). apply elem_of_list_fmap. exists (ISec s, a). done. }
    pose proof P_bits as HN. rewrite stdpp.list.Forall_forall in HN. specialize (HN _ HB). cbn in HN. congruence.
  - apply elem_of_list_lookup in H as [i H]. apply (laid_in _ _ _ _ bC_facts) in H as [H _].
    destruct pC_facts as (_ & EP & _). destruct dstart_facts as [Hd _]. destruct tC_facts as ([_ T2 _ _ _] & ET & _).
    rewrite image_eq in Hp. cbn [phdrs] in Hp. unfold ph in Hp. apply elem_of_cons in Hp as [->|Hp].
    + cbn [p_vaddr p_filesz p_memsz] in *. assert (0 <= dlen) by (unfold dlen; lia). lia.
    + destruct (_ || _); [|inversion Hp]. apply elem_of_list_singleton in Hp as ->. cbn [p_vaddr p_filesz p_memsz] in *.
      rewrite (proj2 (Z.ltb_ge _ _)) by lia. done.
Qed.
Lemma segments i j p q : (i < j)%nat -> phdrs (link_image header secs) !! i = Some p -> phdrs (link_image header secs) !! j = Some q -> apart p q.
Proof using Hsecs Hal Hnb.
  rewrite image_eq. cbn [phdrs]. unfold ph. intros Hij Hi Hj.
  destruct i as [|i]; [|destruct j as [|j]; [lia|]; destruct (_ || _); [|done]; apply lookup_lt_Some in Hi, Hj; cbn in *; lia].
  injection Hi as <-. destruct j as [|j]; [lia|]. cbn in Hj. destruct (_ || _); [|done].
  destruct j as [|j]; [|done]. injection Hj as <-. unfold apart. cbn [p_vaddr p_memsz].
  destruct tC_facts as (_ & ET & _). destruct dstart_facts as [[Hd _] [q Eq]]. rewrite Eq in *. rewrite Z_div_mult by lia.
  apply Z.div_lt_upper_bound; lia.
Qed.
Lemma congruence_ok p : p ∈ phdrs (link_image header secs) -> 0 < p_filesz p -> congruent p.
Proof using Hsecs Hal Hnb.
  rewrite image_eq. cbn [phdrs]. unfold ph. intros Hp Hf. unfold congruent. apply elem_of_cons in Hp as [->|Hp]; [done|].
  destruct (_ || _); [|inversion Hp]. apply elem_of_list_singleton in Hp as ->. cbn [p_vaddr p_offset p_filesz] in *.
  unfold offset. rewrite (proj2 (Z.ltb_lt 0 dlen) Hf). destruct dstart_facts as [_ [a ->]].
  destruct (rounded_divide (PROG_START + tlen) 0x1000 ltac:(lia)) as [b ->]. rewrite <- Z.mul_sub_distr_r. apply Z_mod_mult.
Qed.

(** ** The tables of pointers *)
Hypothesis Htab : tables_ok secs.

Lemma tables_bytes n b : n = Ninit \/ n = Nfini -> Z.of_nat (length b) + costs (collect secs n) < 2 ^ 63 -> (8 | Z.of_nat (length b)) ->
  fold_left add_item (collect secs n) b = b ++ joined secs n /\ (8 | Z.of_nat (length (joined secs n))).
Proof using Hsecs Hnb Htab.
  intros Hn. assert (forall s, s ∈ secs -> i_name s = n -> i_align s <= 8 /\ i_size s mod 8 = 0 /\ i_nobits s = false /\ sec_ok s) as Hs.
  { intros s Hin En. unfold tables_ok in Htab. rewrite stdpp.list.Forall_forall in Htab. destruct (Htab s Hin) as [H1 H2]; [subst n; done|].
    split; [done|]. split; [done|]. split; [|apply sec_in; done]. apply nb_in in Hin. destruct (i_nobits s); [|done].
    pose proof (proj1 Hin eq_refl) as E. destruct Hn; congruence. }
  clear Hsecs Hal Hnb Hhd Htab. revert b. induction secs as [|s l IH]; intros b Hb H8.
  { cbn. rewrite app_nil_r. split; [done|exists 0; done]. }
  rewrite collect_cons in *. unfold joined. rewrite filter_cons.
  assert (Hs' : forall s, s ∈ l -> i_name s = n -> i_align s <= 8 /\ i_size s mod 8 = 0 /\ i_nobits s = false /\ sec_ok s) by (intros; apply Hs; [right; done|done]).
  assert (0 <= costs (collect l n)) as Hcn.
  { apply costs_nonneg. apply stdpp.list.Forall_forall. intros it Hit. apply collect_in in Hit as (t & -> & Ht & Hnt & _). apply Hs'; done. }
  destruct (decide (i_name s = n)) as [En|En].
  - destruct (Hs s ltac:(left) En) as (Ha & Hz & Hnb & Hok). destruct Hok as (Hp & Hsz & Hlen). specialize (Hlen Hnb).
    rewrite fmap_cons. cbn [concat]. fold (joined l n).
    destruct (decide (i_name s = n /\ 0 < i_size s)) as [[_ Hpos]|Hnp].
    + cbn [app fold_left add_item]. rewrite Hnb. cbn [app costs foldr cost] in Hb. fold (costs (collect l n)) in Hb.
      assert (pad b (i_align s) = b) as ->.
      { unfold pad. pose proof (pow2_pos _ Hp). rewrite align_rounded by (try done; lia).
        rewrite rounded_id; [rewrite Z.sub_diag; apply app_nil_r|lia|].
        etransitivity; [|exact H8]. apply (pow2_divides _ 8) in Ha; [done|done|exists 3; split; [lia|done]]. }
      assert (8 | i_size s) as Hd8 by (apply Z.mod_divide; [lia|done]).
      pose proof (pow2_pos _ Hp).
      destruct (IH Hs' (b ++ i_content s)) as [I1 I2].
      { rewrite app_length. lia. }
      { rewrite app_length, Nat2Z.inj_add, <- Hlen. apply Z.divide_add_r; done. }
      rewrite I1, <- app_assoc. split; [done|]. rewrite app_length, Nat2Z.inj_add, <- Hlen. apply Z.divide_add_r; done.
    + assert (i_content s = []) as Ec. { destruct (i_content s); [done|]. cbn [length] in Hlen. exfalso. apply Hnp. split; [done|lia]. }
      cbn [app] in *. rewrite Ec. cbn [app]. apply IH; done.
  - rewrite decide_False in * by tauto. cbn [app] in *. apply IH; done.
Qed.

Lemma tables_laid : exists a0 a1 a2, 
  (ISym InitStart, a0) ∈ placed (link_image header secs) /\ (ISym InitEnd, a1) ∈ placed (link_image header secs) /\
  (ISym FiniStart, a1) ∈ placed (link_image header secs) /\ (ISym FiniEnd, a2) ∈ placed (link_image header secs) /\
  (8 | a0) /\ a1 = a0 + Z.of_nat (length (joined secs Ninit)) /\ a2 = a1 + Z.of_nat (length (joined secs Nfini)) /\
  (forall k v, joined secs Ninit !! k = Some v -> mem (link_image header secs) (a0 + Z.of_nat k) v) /\
  (forall k v, joined secs Nfini !! k = Some v -> mem (link_image header secs) (a1 + Z.of_nat k) v).
Proof using Hsecs Hal Hnb Hhd Htab.
  set (P1 := collect secs Ndata ++ [IAlign 8]). set (b1 := group_bytes P1).
  assert (P = P1 ++ [ISym InitStart] ++ collect secs Ninit ++ [ISym InitEnd; ISym FiniStart] ++ collect secs Nfini ++ [ISym FiniEnd]) as EP.
  { unfold P, P1. rewrite <- app_assoc. done. }
  pose proof bounds as (H0 & Hb & _). pose proof all_costs as Hc. pose proof (costs_nonneg _ T_ok). pose proof (costs_nonneg _ B_ok).
  assert (costs P = costs P1 + costs (collect secs Ninit) + costs (collect secs Nfini)) as EC.
  { rewrite EP, !costs_app. cbn [costs foldr cost]. lia. }
  assert (Forall item_ok P1 /\ Forall item_ok (collect secs Ninit) /\ Forall item_ok (collect secs Nfini)) as (OK1 & OK2 & OK3).
  { pose proof P_ok as Ho. rewrite EP, !stdpp.list.Forall_app in Ho. tauto. }
  pose proof (costs_nonneg _ OK1). pose proof (costs_nonneg _ OK2). pose proof (costs_nonneg _ OK3).
  assert (Forall has_bits P1) as HB1. { pose proof P_bits as Ho. rewrite EP, !stdpp.list.Forall_app in Ho. tauto. }
  assert (Forall (fun it => (item_align it | dstart)) P) as HD.
  { apply stdpp.list.Forall_forall. intros it Hit. destruct da_ok as (_ & Hd). etransitivity; [apply Hd; rewrite data_split; apply elem_of_app; left; done|]. apply dstart_facts. }
  assert (HD1 := HD). rewrite EP, !stdpp.list.Forall_app in HD1. destruct HD1 as (HD1 & _ & HD2 & _ & HD3 & _).
  destruct (bytes_laid P1 [] dstart OK1 HB1 ltac:(lia) HD1) as [HE1 _]; [cbn [length]; lia|].
  cbn [length] in HE1. rewrite Z.add_0_r in HE1. fold (group_bytes P1) in HE1. fold b1 in HE1.
  assert (laid dstart P1 (calc dstart P1).1 (calc dstart P1).2) as L1 by (apply calc_laid; [done|lia|lia]).
  pose proof (laid_end _ _ _ _ L1) as LE1. rewrite HE1 in LE1.
  assert (8 | Z.of_nat (length b1)) as H8.
  { unfold b1, group_bytes, P1. rewrite fold_left_app. cbn [fold_left add_item]. set (b0 := fold_left add_item _ []).
    assert (costs P1 = costs (collect secs Ndata) + 8) as E1 by (unfold P1; rewrite costs_app; cbn [costs foldr cost]; lia).
    assert (Z.of_nat (length b0) <= costs (collect secs Ndata)) as Hb0.
    { assert (Forall item_ok (collect secs Ndata)) as Ho by (unfold P1 in OK1; apply stdpp.list.Forall_app in OK1; tauto).
      assert (Forall has_bits (collect secs Ndata)) as Hbb by (unfold P1 in HB1; apply stdpp.list.Forall_app in HB1; tauto).
      assert (Forall (fun it => (item_align it | dstart)) (collect secs Ndata)) as Hdd by (unfold P1 in HD1; apply stdpp.list.Forall_app in HD1; tauto).
      destruct (bytes_laid _ [] dstart Ho Hbb ltac:(lia) Hdd) as [Hx _]; [cbn [length]; lia|].
      cbn [length] in Hx. rewrite Z.add_0_r in Hx. assert (laid dstart (collect secs Ndata) (calc dstart (collect secs Ndata)).1 (calc dstart (collect secs Ndata)).2) as L0 by (apply calc_laid; [done|lia|lia]).
      pose proof (laid_end _ _ _ _ L0). fold b0 in Hx. lia. }
    rewrite pad_length; [apply rounded_divide; lia|exists 3; split; [lia|done]|lia]. }
  destruct (tables_bytes Ninit b1 ltac:(left; done) ltac:(lia) H8) as [T1 T1'].
  set (b2 := b1 ++ joined secs Ninit) in *.
  assert (8 | Z.of_nat (length b2)) as H82 by (unfold b2; rewrite app_length, Nat2Z.inj_add; apply Z.divide_add_r; done).
  (* addresses after the first table *)
  assert (HB2 : Forall has_bits (collect secs Ninit) /\ Forall has_bits (collect secs Nfini)).
  { pose proof P_bits as Ho. rewrite EP, !stdpp.list.Forall_app in Ho. tauto. } destruct HB2 as [HB2 HB3].
  destruct (bytes_laid (collect secs Ninit) b1 dstart OK2 HB2 ltac:(lia) HD2 ltac:(lia)) as [HE2 _]. rewrite T1 in HE2.
  assert (laid (dstart + Z.of_nat (length b1)) (collect secs Ninit) (calc (dstart + Z.of_nat (length b1)) (collect secs Ninit)).1 (calc (dstart + Z.of_nat (length b1)) (collect secs Ninit)).2) as L2 by (apply calc_laid; [done|lia|lia]).
  pose proof (laid_end _ _ _ _ L2) as LE2. rewrite HE2 in LE2.
  destruct (tables_bytes Nfini b2 ltac:(right; done) ltac:(lia) H82) as [T2 T2'].
  set (b3 := b2 ++ joined secs Nfini) in *.
  destruct (bytes_laid (collect secs Nfini) b2 dstart OK3 HB3 ltac:(lia) HD3 ltac:(lia)) as [HE3 _]. rewrite T2 in HE3.
  assert (db = b3) as Edb.
  { unfold db, group_bytes. rewrite EP, fold_left_app. fold (group_bytes P1). fold b1. cbn [app fold_left add_item].
    rewrite fold_left_app, T1. cbn [app fold_left add_item]. rewrite fold_left_app, T2. done. }
  exists (dstart + Z.of_nat (length b1)), (dstart + Z.of_nat (length b2)), (dstart + Z.of_nat (length b3)).
  assert (Epl : pC.1 = (calc dstart P1).1 ++ (ISym InitStart, dstart + Z.of_nat (length b1)) ::
     (calc (dstart + Z.of_nat (length b1)) (collect secs Ninit)).1 ++ (ISym InitEnd, dstart + Z.of_nat (length b2)) :: (ISym FiniStart, dstart + Z.of_nat (length b2)) ::
     (calc (dstart + Z.of_nat (length b2)) (collect secs Nfini)).1 ++ [(ISym FiniEnd, dstart + Z.of_nat (length b3))]).
  { unfold pC. rewrite EP, calc_app. destruct (calc dstart P1) as [r1 e1]. cbn [fst snd] in *. subst e1.
    cbn [app calc]. rewrite calc_app. destruct (calc (dstart + Z.of_nat (length b1)) (collect secs Ninit)) as [r2 e2]. cbn [fst snd] in *. subst e2.
    cbn [app calc]. rewrite calc_app. destruct (calc (dstart + Z.of_nat (length b2)) (collect secs Nfini)) as [r3 e3]. cbn [fst snd] in *. subst e3. done. }
  assert (forall p, p ∈ pC.1 -> p ∈ placed (link_image header secs)) as Hpl.
  { intros p Hp. rewrite image_eq. cbn [placed]. rewrite !elem_of_app. tauto. }
  split; [apply Hpl; rewrite Epl; set_solver|]. split; [apply Hpl; rewrite Epl; set_solver|].
  split; [apply Hpl; rewrite Epl; set_solver|]. split; [apply Hpl; rewrite Epl; set_solver|].
  split. { apply Z.divide_add_r; [|done]. etransitivity; [|apply dstart_facts]. exists 512. done. }
  split; [unfold b2; rewrite app_length; lia|]. split; [unfold b3; rewrite app_length; lia|].
  split.
  - intros k v Hk. replace (dstart + Z.of_nat (length b1) + Z.of_nat k) with (dstart + Z.of_nat (length b1 + k)) by lia.
    apply db_mem. rewrite Edb. unfold b3, b2. rewrite <- app_assoc, lookup_app_r by lia. replace (_ + k - _)%nat with k by lia.
    apply lookup_app_l_Some. done.
  - intros k v Hk. replace (dstart + Z.of_nat (length b2) + Z.of_nat k) with (dstart + Z.of_nat (length b2 + k)) by lia.
    apply db_mem. rewrite Edb. unfold b3. rewrite lookup_app_r by lia. replace (_ + k - _)%nat with k by lia. done.
Qed.
End main.
