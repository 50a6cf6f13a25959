From stdpp Require Import base list numbers.
From Coq Require Import Lia ZArith.
From Verif Require Import Front.Layout_model Front.Layout_spec Front.Layout_proof Front.Static_model Front.Static_spec Front.Static_proof.
Local Open Scope Z_scope.

Lemma ty_rect' (P : ty -> Prop) :
  P TyVoid -> P TyFunc -> P TyPtr -> (forall k, P (TyFix k)) -> (forall k, P (TyFlo k)) ->
  (forall t n, P t -> P (TyArr t n)) -> (forall t, P t -> P (TyFam t)) ->
  (forall u ms, Forall (fun m => P (fst m)) ms -> P (TyStruct u ms)) -> forall t, P t.
Proof.
  intros H1 H2 H3 H4 H5 H6 H7 H8. fix IH 1. intros [| | |k|k|t n|t|u ms]; [exact H1|exact H2|exact H3|exact (H4 k)|exact (H5 k)|..].
  - apply H6, IH.
  - apply H7, IH.
  - apply H8. induction ms as [|[t w] ms IHms]; constructor; [apply IH|exact IHms].
Qed.

Lemma patch_all bs m : length bs = length m -> patch 0 bs m = bs.
Proof. intros H. unfold patch. cbn. rewrite H, drop_all, app_nil_r. done. Qed.

(** ** Bits *)
Lemma ones_mask w : 0 <= w -> 2 ^ w - 1 = Z.ones w.
Proof. intros H. rewrite Z.ones_equiv. lia. Qed.
Lemma lor_bound x y n : 0 <= n -> 0 <= x < 2 ^ n -> 0 <= y < 2 ^ n -> 0 <= Z.lor x y < 2 ^ n.
Proof.
  intros Hn Hx Hy. split; [apply Z.lor_nonneg; lia|].
  assert (Z.lor x y = Z.lor x y mod 2 ^ n) as ->; [|apply Z.mod_pos_bound, Z.pow_pos_nonneg; lia].
  apply Z.bits_inj'. intros k Hk. destruct (Z.lt_ge_cases k n).
  - rewrite Z.mod_pow2_bits_low by lia. done.
  - rewrite Z.mod_pow2_bits_high by lia. rewrite Z.lor_spec.
    rewrite <- (Z.mod_small x (2 ^ n)), <- (Z.mod_small y (2 ^ n)) by lia. rewrite !Z.mod_pow2_bits_high by lia. done.
Qed.
Lemma field_bound v w p n : 0 <= w -> 0 <= p -> p + w <= n -> 0 <= Z.shiftl (Z.land v (Z.ones w)) p < 2 ^ n.
Proof.
  intros Hw Hp Hn. rewrite Z.shiftl_mul_pow2, Z.land_ones by lia. pose proof (Z.mod_pos_bound v (2 ^ w) ltac:(apply Z.pow_pos_nonneg; lia)) as Hb.
  pose proof (Z.pow_pos_nonneg 2 p ltac:(lia) ltac:(lia)).
  split; [nia|]. assert (v mod 2 ^ w * 2 ^ p < 2 ^ w * 2 ^ p) as H1 by nia. rewrite <- Z.pow_add_r in H1 by lia.
  eapply Z.lt_le_trans; [exact H1|]. apply Z.pow_le_mono_r; lia.
Qed.
Lemma put_fresh x p w v : 0 <= p -> 0 <= w -> 0 <= x < 2 ^ p -> put_bits x p w v = Z.lor x (Z.shiftl (Z.land v (Z.ones w)) p).
Proof.
  intros Hp Hw Hx. unfold put_bits. f_equal. apply Z.bits_inj'. intros k Hk. rewrite Z.ldiff_spec, Z.shiftl_spec by lia.
  destruct (Z.lt_ge_cases k p).
  - rewrite (Z.testbit_neg_r _ (k - p)) by lia. apply andb_true_r.
  - rewrite <- (Z.mod_small x (2 ^ p)) by lia. rewrite Z.mod_pow2_bits_high by lia. done.
Qed.

Section proof.
  Context (lp64 : bool) (env : nat -> Z).
  Notation fsize := (fixnum_size lp64).
  Notation size_of := (size_of lp64).
  Notation stores := (stores lp64 env).
  Notation object := (object lp64 env).
  Notation construct := (construct lp64).
  Notation member_stores := (member_stores lp64).
  Notation member_loop := (member_loop lp64).

  (** ** A unit of bit-fields *)
  Fixpoint run (u pos : Z) (ms : list (ty * option Z)) (ps : list Z) : Prop :=
    match ms, ps with
    | [], [] => True
    | (_, Some w) :: ms, p :: ps => pos <= p /\ 0 < w /\ p + w <= 8 * u /\ run u (p + w) ms ps
    | _, _ => False
    end.
  Definition stops (ms : list (ty * option Z)) (pls : list placed) : Prop :=
    match ms, pls with (_, w) :: _, p :: _ => default 0 w <= 0 \/ position p = 0 | _, _ => True end.
  Definition bits_fit (ms : list (ty * option Z)) (is : list (option init)) : Prop :=
    Forall2 (fun m i => match i with None => True | Some (ISingle (XFix _)) => default 0 (snd m) < 64 | _ => False end) ms is.

  Lemma stop_value ms pls is : stops ms pls -> bitfield_value false ms pls is = Some (0%nat, 0).
  Proof.
    destruct ms as [|[t w] ms]; [done|]. destruct pls as [|p pls]; [done|]. destruct is as [|i is]; [done|]. cbn. intros [H|H].
    - rewrite (proj2 (Z.leb_le _ _)) by lia. done.
    - rewrite H. rewrite orb_true_r. done.
  Qed.

  Lemma group_ok u o k ms1 : u = fsize k -> forall ps is1 ms2 pls2 is2 pos (top : bool),
    run u pos ms1 ps -> 0 <= pos -> bits_fit ms1 is1 -> stops ms2 pls2 ->
    (if top then ms1 <> [] else 0 < pos) ->
    exists X, bitfield_value top (ms1 ++ ms2) (((fun p => Placed o p k) <$> ps) ++ pls2) (is1 ++ is2) = Some (length ms1, X) /\
      0 <= X < 2 ^ (8 * u) /\
      forall (x0 : Z) (pre post : list Z), 0 <= x0 < 2 ^ pos -> Z.of_nat (length pre) = o -> 0 <= x0 < 2 ^ (8 * u) ->
        foldl apply_store (pre ++ le (Z.to_nat u) x0 ++ post) (member_stores stores ms1 ((fun p => Placed o p k) <$> ps) is1) =
        pre ++ le (Z.to_nat u) (Z.lor x0 X) ++ post.
  Proof.
    intros Hu. pose proof (fsize_pos lp64 k) as Hk. rewrite <- Hu in Hk.
    induction ms1 as [|[t w] ms1 IH]; intros ps is1 ms2 pls2 is2 pos top Hrun Hpos Hfit Hstop Htop.
    { destruct ps; [|done]. apply Forall2_nil_inv_l in Hfit as ->. destruct top; [done|]. exists 0. cbn [app fmap list_fmap length].
      rewrite stop_value by done. split; [done|]. split; [split; [lia|apply Z.pow_pos_nonneg; lia]|]. intros x0 pre post _ _ _. cbn. rewrite Z.lor_0_r. done. }
    destruct w as [w|]; [|done]. destruct ps as [|p ps]; [done|]. cbn [run] in Hrun. destruct Hrun as (Hp & Hw & Hpw & Hrun).
    apply Forall2_cons_inv_l in Hfit as (i & is1' & Hi & Hfit & ->).
    destruct (IH ps is1' ms2 pls2 is2 (p + w) false Hrun ltac:(lia) Hfit Hstop ltac:(cbn; lia)) as (X & EX & HX & Hst).
    cbn [app fmap list_fmap bitfield_value]. cbn [default id].
    rewrite (proj2 (Z.leb_gt w 0)) by lia.
    assert (negb top && (position (Placed o p k) =? 0) = false) as ->.
    { destruct top; [done|]. cbn. apply Z.eqb_neq. lia. }
    cbn [orb]. rewrite EX. destruct i as [[e|l]|]; [|done|].
    - destruct e as [v| | | | | | | | | | |]; try done. cbn in Hi. rewrite (proj2 (Z.ltb_lt w 64)) by lia.
      cbn [position]. rewrite ones_mask by lia. set (f := Z.shiftl (Z.land v (Z.ones w)) p).
      assert (0 <= f < 2 ^ (8 * u)) as Hf by (apply field_bound; lia).
      exists (Z.lor f X). split; [done|]. split; [apply lor_bound; lia|].
      intros x0 pre post Hx Hpre Hx8. cbn [member_stores]. cbn [member_stores app foldl]. cbn [offset base_kind position].
      assert (0 <= x0 < 2 ^ p) as Hxp.
      { split; [lia|]. eapply Z.lt_le_trans; [apply Hx|]. apply Z.pow_le_mono_r; lia. }
      assert (apply_store (pre ++ le (Z.to_nat u) x0 ++ post) (Bits o (fsize k) p w v) = pre ++ le (Z.to_nat u) (Z.lor x0 f) ++ post) as ->.
      { replace (Bits o (fsize k) p w v) with (shift (Z.of_nat (length pre)) (Bits 0 u p w v)) by (cbn; f_equal; lia).
        rewrite apply_frame; [|cbn; rewrite le_length; lia]. f_equal. f_equal. cbn [apply_store]. rewrite drop_0.
        rewrite take_ge by (rewrite le_length; lia). rewrite patch_all by (rewrite !le_length; done). f_equal. rewrite unle_le.
        rewrite Z.mod_small. 2:{ change 256 with (2 ^ 8). rewrite <- Z.pow_mul_r by lia. rewrite Z2Nat.id by lia. done. }
        apply put_fresh; lia. }
      rewrite Hst.
      + rewrite Z.lor_assoc. done.
      + apply lor_bound; [lia| |unfold f; apply field_bound; lia]. split; [lia|]. eapply Z.lt_le_trans; [apply Hxp|]. apply Z.pow_le_mono_r; lia.
      + done.
      + apply lor_bound; lia.
    - exists X. split; [done|]. split; [done|]. intros x0 pre post Hx Hpre Hx8. cbn [member_stores app].
      apply Hst; [|done|done]. split; [lia|]. eapply Z.lt_le_trans; [apply Hx|]. apply Z.pow_le_mono_r; lia.
  Qed.

  (** ** Parts of the loops *)
  Lemma loop_skip u n : forall ms pls is off cnt, length pls = length ms -> length is = length ms -> (n <= length ms)%nat ->
    member_loop construct u ms pls is n off cnt = member_loop construct u (drop n ms) (drop n pls) (drop n is) 0 off cnt.
  Proof.
    induction n as [|n IH]; intros ms pls is off cnt H1 H2 H3; [rewrite !drop_0; done|].
    destruct ms as [|[t w] ms]; [cbn in H3; lia|]. destruct pls as [|p pls]; [done|]. destruct is as [|i is]; [done|].
    cbn [drop Static_model.member_loop]. apply IH; cbn in *; lia.
  Qed.
  Lemma member_stores_app f ms1 : forall pls1 is1 ms2 pls2 is2, length pls1 = length ms1 -> length is1 = length ms1 ->
    member_stores f (ms1 ++ ms2) (pls1 ++ pls2) (is1 ++ is2) = member_stores f ms1 pls1 is1 ++ member_stores f ms2 pls2 is2.
  Proof.
    induction ms1 as [|[t w] ms1 IH]; intros [|p pls1] [|i is1] ms2 pls2 is2 H1 H2; cbn in *; try done.
    rewrite IH by lia. rewrite app_assoc. done.
  Qed.

  Definition good (t : ty) : Prop := legal lp64 t -> data t -> forall i, fits t i ->
    exists evs, construct t i = Some evs /\ Forall (in_range (size_of t)) (stores t i) /\
      forall pos, match size_align lp64 t with Some (_, a) => (a | pos) | None => True end -> assemble env pos evs = object t i.

  Lemma legal_size t : legal lp64 t -> exists s a, size_align lp64 t = Some (s, a) /\ size_of t = s /\ 0 <= s /\ pow2 a /\ (a | s).
  Proof.
    intros H. destruct (proj1 (legal_sound lp64) t H) as (s & a & E & Hs & Ha & Hd). exists s, a. unfold Static_spec.size_of. rewrite E. done.
  Qed.
  Lemma object_length t i : legal lp64 t -> Forall (in_range (size_of t)) (stores t i) -> Z.of_nat (length (object t i)) = size_of t.
  Proof.
    intros Hl H. destruct (legal_size t Hl) as (s & a & _ & E & Hs & _). unfold Static_spec.object.
    rewrite stores_length; rewrite replicate_length; rewrite Z2Nat.id by lia; done.
  Qed.
  Lemma object_none t : object t None = zeros (size_of t).
  Proof. destruct t; done. Qed.
  Lemma stores_none t : stores t None = [].
  Proof. destruct t; done. Qed.

  (** ** Arrays *)
  Lemma elems_ok t s a l : good t -> legal lp64 t -> data t -> size_align lp64 t = Some (s, a) -> Forall (fits t) l ->
    exists evs, cats (map (construct t) l) = Some evs /\ Forall (fun x => Forall (in_range s) (stores t x)) l /\
      forall pos, (a | pos) -> assemble env pos evs = concat (object t <$> l).
  Proof.
    intros Hg Hl Hd Es Hfit. destruct (legal_size t Hl) as (s' & a' & E & Ez & Hs & Ha & Hda). rewrite Es in E. injection E as <- <-.
    induction Hfit as [|x l Hx _ (evs & E1 & H1 & H2)].
    - exists []. done.
    - destruct (Hg Hl Hd x Hx) as (out & Eo & Hr & Hpos). rewrite Es in Hpos. exists (out ++ evs). cbn [map cats foldr cat].
      change (foldr cat (Some []) (map (construct t) l)) with (cats (map (construct t) l)). rewrite Eo, E1. split; [done|].
      split; [constructor; [rewrite <- Ez; done|done]|]. intros pos Hp. rewrite assemble_app, Hpos by done. cbn [fmap list_fmap concat]. f_equal.
      apply H2. rewrite object_length by done. rewrite Ez. apply Z.divide_add_r; done.
  Qed.
  Lemma copies_ok t s a n : good t -> legal lp64 t -> data t -> size_align lp64 t = Some (s, a) ->
    exists evs, cats (replicate n (construct t None)) = Some evs /\ forall pos, (a | pos) -> assemble env pos evs = zeros (s * Z.of_nat n).
  Proof.
    intros Hg Hl Hd Es. destruct (legal_size t Hl) as (s' & a' & E & Ez & Hs & Ha & Hda). rewrite Es in E. injection E as <- <-.
    destruct (elems_ok t s a (replicate n None) Hg Hl Hd Es) as (evs & E1 & _ & H2).
    { apply Forall_replicate. destruct t; done. }
    exists evs. split; [rewrite <- E1; f_equal; clear; induction n; cbn; [done|]; f_equal; done|].
    intros pos Hp. rewrite H2 by done. clear -Hs Ez. induction n as [|n IH]; [rewrite Z.mul_0_r; done|].
    cbn [replicate fmap list_fmap concat]. rewrite object_none, Ez, IH. rewrite <- zeros_add by nia. f_equal. lia.
  Qed.
  Lemma stores_elems t s a l : legal lp64 t -> size_align lp64 t = Some (s, a) -> Forall (fun x => Forall (in_range s) (stores t x)) l ->
    forall k0 C post, Z.of_nat (length C) = Z.of_nat k0 * s ->
    foldl apply_store (C ++ zeros (s * Z.of_nat (length l)) ++ post)
      (concat (imap (fun k ss => shift (Z.of_nat (k0 + k) * s) <$> ss) (map (stores t) l))) = C ++ concat (object t <$> l) ++ post.
  Proof.
    intros Hl Es. destruct (legal_size t Hl) as (s' & a' & E & Ez & Hs & Ha & Hda). rewrite Es in E. injection E as <- <-.
    induction 1 as [|x l Hx Hfl IH]; intros k0 C post HC.
    - cbn. rewrite Z.mul_0_r. done.
    - cbn [map imap concat fmap list_fmap length]. rewrite foldl_app. rewrite Nat.add_0_r, <- HC.
      replace (s * Z.of_nat (S (length l))) with (s + s * Z.of_nat (length l)) by lia. rewrite zeros_add by nia. rewrite <- app_assoc.
      rewrite stores_frame by (rewrite zeros_length by lia; done).
      change (foldl apply_store (zeros s) (stores t x)) with (foldl apply_store (replicate (Z.to_nat s) 0) (stores t x)).
      rewrite <- Ez at 1. fold (object t x).
      transitivity (foldl apply_store ((C ++ object t x) ++ zeros (s * Z.of_nat (length l)) ++ post)
        (concat (imap (fun k ss => shift (Z.of_nat (S k0 + k) * s) <$> ss) (map (stores t) l)))).
      + f_equal; [rewrite <- !app_assoc; done|]. f_equal. apply imap_ext. intros k ss Hk. unfold compose. replace (S k0 + k)%nat with (k0 + S k)%nat by lia. done.
      + rewrite IH; [rewrite <- !app_assoc; done|].
        rewrite app_length. pose proof (object_length t x Hl ltac:(rewrite Ez; done)). lia.
  Qed.

  (** ** Structs *)
  Definition rel (m : ty * option Z) (x : mem) : Prop := m_width x = snd m /\ size_align lp64 (fst m) = Some (m_size x, m_align x).

  Lemma run_of kf used : forall ms1 ps pos hi, Forall2 rel ms1 used ->
    Forall2 (fun m p => exists w, m_width m = Some w /\ 0 < w /\ 0 <= p /\ p + w <= 8 * fsize kf) used ps ->
    ordered pos (zip_with bits used ((fun p => Placed 0 p kf) <$> ps)) hi -> run (fsize kf) pos ms1 ps.
  Proof.
    induction used as [|m used IH]; intros ms1 ps pos hi Hr Hf Ho.
    - apply Forall2_nil_inv_r in Hr as ->. apply Forall2_nil_inv_l in Hf as ->. done.
    - apply Forall2_cons_inv_r in Hr as ([t w'] & ms1' & [Hw _] & Hr & ->). apply Forall2_cons_inv_l in Hf as (p & ps' & (w & Ew & H1 & H2 & H3) & Hf & ->).
      cbn [snd] in Hw. rewrite Ew in Hw. subst w'. cbn [fmap list_fmap zip_with ordered] in Ho. unfold bits in Ho at 1. rewrite Ew in Ho.
      rewrite (proj2 (Z.eqb_neq w 0)) in Ho by lia. cbn [offset position] in Ho. destruct Ho as (O1 & O2 & O3). cbn [run].
      split; [lia|]. split; [lia|]. split; [lia|]. apply (IH ms1' ps' (p + w) hi); try done.
  Qed.
  Lemma pack_first k pos m ms p ps kf rest : pack lp64 k pos (m :: ms) = (p :: ps, kf, rest) -> p = pos.
  Proof.
    cbn [pack]. destruct (pos =? _); [done|]. destruct (_ <=? 0); [done|]. destruct (if _ <? _ then _ else _) as [k'|]; [|done].
    destruct (pack lp64 k' _ ms) as [[ps' kf'] rest']. intros [= <- _ _ _]. done.
  Qed.
  Lemma layout_stops fuel l ms size maxa pls s a : Forall2 rel ms l -> Forall (mem_ok lp64) l -> 0 <= size -> pow2 maxa ->
    layout lp64 fuel l size maxa = Some (pls, s, a) -> stops ms pls.
  Proof.
    intros Hr Hok Hs Hm H. destruct Hr as [|[t w] m ms l [Hw Hsz] Hr]; [done|]. destruct pls as [|p pls]; [done|]. cbn.
    destruct fuel as [|fuel]; [done|]. cbn [layout] in H. destruct (place lp64 m l size) as [[[[pl rest] size'] align]|] eqn:Ep; [|done].
    destruct (layout lp64 fuel rest size' _) as [[[pls' s'] a']|]; [|done]. injection H as H _ _.
    unfold place in Ep. cbn [snd] in Hw. rewrite Hw in Ep. destruct w as [w|]; [|left; done].
    destruct (Z.eqb_spec w 0) as [->|Hw0]; [left; done|]. right. destruct (m_kind m) as [kind|]; [|done].
    destruct (initial_kind lp64 kind size (m_align m)) as [k0|] eqn:Ei; [|done]. destruct (pack lp64 k0 0 (m :: l)) as [[ps k] r] eqn:Epk.
    injection Ep as <- <- <- <-. destruct ps as [|p0 ps].
    - exfalso. apply stdpp.list.Forall_cons in Hok as [Hm0 Hok'].
      assert (plain k0 = true) as Hp.
      { destruct Hm0 as (Hma & _ & Hmw). rewrite Hw in Hmw. destruct Hmw as (kk & Ek & Hb & _).
        assert (m_kind m = Some kind \/ True) as _ by (right; done). 
        unfold initial_kind in Ei. destruct (size mod m_align m =? 0).
        - destruct (match kind with FX_ENUM => FX_INT | _ => kind end) eqn:E2; cbn in Ei; try done; injection Ei as <-; done.
        - destruct (_ <? 0); injection Ei as <-; repeat case_match; done. }
      destruct (pack_ok lp64 (m :: l) k0 0 [] k r) as (used & E & _ & _ & _ & Hf & _ & Hne); [constructor; done|done|pose proof (fsize_pos lp64 k0); lia|done|].
      apply Forall2_nil_inv_r in Hf as ->. apply Hne; [|done|done]. rewrite Hw. cbn. destruct Hm0 as (_ & _ & Hmw). rewrite Hw in Hmw. destruct Hmw as (kk & _ & _ & Hr0 & _). lia.
    - apply pack_first in Epk. cbn in H. injection H as <- _. cbn. done.
  Qed.

  Lemma members_fit_app ms1 : forall ms2 is, members_fit fits (ms1 ++ ms2) is -> exists is1 is2, is = is1 ++ is2 /\ members_fit fits ms1 is1 /\ members_fit fits ms2 is2.
  Proof.
    induction ms1 as [|[t w] ms1 IH]; intros ms2 is H; [exists [], is; done|]. destruct is as [|i is]; [done|]. cbn [app members_fit] in H.
    destruct H as [H1 H2]. apply IH in H2 as (is1 & is2 & -> & H3 & H4). exists (i :: is1), is2. done.
  Qed.
  Lemma members_fit_length ms : forall is, members_fit fits ms is -> length is = length ms.
  Proof. induction ms as [|[t w] ms IH]; intros [|i is]; cbn; [done|done|done|]. intros [_ H]. f_equal. apply IH. done. Qed.
  Lemma fit_bits u ms1 : forall ps pos is1, run u pos ms1 ps -> members_fit fits ms1 is1 -> bits_fit ms1 is1.
  Proof.
    induction ms1 as [|[t w] ms1 IH]; intros ps pos is1 Hr Hf.
    - destruct is1; [constructor|done].
    - destruct is1 as [|i is1]; [done|]. destruct ps as [|p ps]; [destruct w; done|]. destruct w as [w|]; [|done]. cbn in Hr. destruct Hr as (_ & _ & _ & Hr).
      cbn [members_fit] in Hf. destruct Hf as [Hi Hf]. constructor; [|apply (IH ps (p + w)); done].
      destruct i as [[e|]|]; [|done|done]. destruct e; try done. cbn. lia.
  Qed.

  Lemma loop_ok fuel : forall ms l is size maxa pls s a cnt,
    Forall2 rel ms l -> Forall (fun m => good (fst m) /\ legal lp64 (fst m) /\ data (fst m)) ms -> members_fit fits ms is ->
    Forall (mem_ok lp64) l -> 0 <= size -> pow2 maxa -> (length l <= fuel)%nat -> layout lp64 fuel l size maxa = Some (pls, s, a) ->
    exists evs e cnt' R, member_loop construct false ms pls is 0 size cnt = Some (evs, e, cnt') /\ size <= e <= s /\
      Forall (in_range s) (member_stores stores ms pls is) /\ Z.of_nat (length R) = e - size /\
      (forall pos, (a | pos) -> assemble env (pos + size) evs = R) /\
      forall C, Z.of_nat (length C) = size ->
        foldl apply_store (C ++ zeros (s - size)) (member_stores stores ms pls is) = C ++ R ++ zeros (s - e).
  Proof.
    induction fuel as [|fuel IH]; intros ms l is size maxa pls s a cnt Hr Hg Hfit Hok Hs Hm Hfu Hl.
    { destruct l; [|cbn in Hfu; lia]. apply Forall2_nil_inv_r in Hr as ->. cbn in Hl. injection Hl as <- <- <-.
      pose proof (ALIGN_le size maxa Hm). exists [], size, cnt, []. split; [done|]. split; [lia|]. split; [constructor|]. split; [cbn; lia|].
      split; [done|]. intros C HC. done. }
    destruct (layout_ok lp64 (S fuel) l size maxa Hok Hs Hm Hfu) as (pls0 & s0 & a0 & E0 & Ha0 & Hma & Hss & Hds & Hord & Hfine).
    rewrite Hl in E0. injection E0 as <- <- <-.
    destruct Hr as [|[t w] m ms l [Hw Hsz] Hr].
    { cbn in Hl. injection Hl as <- <- <-. exists [], size, cnt, []. split; [done|]. split; [lia|]. split; [constructor|]. split; [cbn; lia|].
      split; [done|]. intros C HC. done. }
    cbn [snd fst] in Hw, Hsz. apply stdpp.list.Forall_cons in Hg as [(Hgt & Hlt & Hdt) Hg]. cbn [fst] in *.
    destruct is as [|i is]; [done|]. assert (Hfit0 := Hfit). cbn [members_fit] in Hfit. destruct Hfit as [Hfi Hfit].
    assert (Hok0 := Hok). apply stdpp.list.Forall_cons in Hok as [Hmok Hok].
    assert (Hl0 := Hl). cbn [layout] in Hl. destruct (place lp64 m l size) as [[[[pl rest] size'] align]|] eqn:Ep; [|done].
    destruct (layout lp64 fuel rest size' (Z.max maxa align)) as [[[pls' s'] a']|] eqn:El; [|done]. injection Hl as <- -> ->.
    assert (Hplace := place_ok lp64 m l size Hmok Hok Hs). destruct Hplace as (pl0 & used0 & rest0 & size0 & align0 & Ep0 & El0 & Hal0 & Hsz0 & _ & _).
    rewrite Ep in Ep0. injection Ep0 as <- <- <- <-.
    assert (Forall (mem_ok lp64) rest) as Hokr. { rewrite El0 in Hok. apply Forall_app in Hok. tauto. }
    assert (length rest <= fuel)%nat as Hfur. { rewrite El0 in Hfu. cbn in Hfu. rewrite app_length in Hfu. lia. }
    assert (0 <= size') as Hs' by lia.
    destruct (layout_ok lp64 fuel rest size' _ Hokr Hs' (pow2_max _ _ Hm Hal0) Hfur) as (plsr & sr & ar & Er & _ & _ & Hsr & _ & _ & _).
    rewrite El in Er. injection Er as <- <- <-.
    unfold place in Ep. rewrite Hw in Ep. destruct w as [w|].
    - destruct (Z.eqb_spec w 0) as [->|Hw0].
      + (* nothing to place *)
        injection Ep as <- <- <- <-. cbn [app] in *.
        destruct (IH ms l is size _ pls' s a (cnt + 1) Hr Hg Hfit Hok Hs (pow2_max _ _ Hm Hal0) ltac:(cbn in Hfu; lia) El) as (evs & e & cnt' & R & L1 & L2 & L3 & L4 & L5 & L6).
        exists evs, e, cnt', R. split; [exact L1|]. split; [done|].
        assert (member_stores stores ((t, Some 0) :: ms) (Placed 0 0 FX_CHAR :: pls') (i :: is) = member_stores stores ms pls' is) as ->.
        { cbn [Static_spec.member_stores]. destruct i as [[e0|]|]; [|done|done]. destruct e0; try done. lia. }
        done.
      + (* a unit of bit-fields *)
        destruct (m_kind m) as [kind|] eqn:Ek; [|done]. destruct (initial_kind lp64 kind size (m_align m)) as [k0|] eqn:Ei; [|done].
        destruct (pack lp64 k0 0 (m :: l)) as [[ps k] r] eqn:Epk. injection Ep as <- <- <- <-.
        assert (plain k0 = true) as Hp0.
        { destruct Hmok as (Hma0 & _ & Hmw). rewrite Hw in Hmw. destruct Hmw as (kk & Ekk & Hb & _). rewrite Ek in Ekk. injection Ekk as ->.
          destruct (initial_ok lp64 kk size (m_align m) Hma0 Hb) as (k1 & E1 & Hk1). congruence. }
        destruct (pack_ok lp64 (m :: l) k0 0 ps k r Hok0 Hp0 ltac:(pose proof (fsize_pos lp64 k0); lia) Epk) as (used & E & _ & Hpk & _ & Hf2 & Hord2 & Hne).
        assert (0 < w) as Hwp. { destruct Hmok as (_ & _ & Hmw). rewrite Hw in Hmw. destruct Hmw as (kk & _ & _ & Hr0 & _). lia. }
        specialize (Hne ltac:(rewrite Hw; cbn; lia) eq_refl). specialize (Hord2 0). rewrite Z.mul_0_r, Z.add_0_l in Hord2.
        assert (Forall2 rel ((t, Some w) :: ms) (m :: l)) as Hr' by (constructor; done). rewrite E in Hr'.
        apply Forall2_app_inv_r in Hr' as (ms1 & ms2 & Hr1 & Hr2 & Ems).
        pose proof (run_of k used ms1 ps 0 _ Hr1 Hf2 Hord2) as Hrun.
        assert (length ps = length ms1) as Hlps by (rewrite <- (Forall2_length _ _ _ Hf2), (Forall2_length _ _ _ Hr1); done).
        assert (members_fit fits (ms1 ++ ms2) (i :: is)) as Hfit1 by (rewrite <- Ems; done).
        apply members_fit_app in Hfit1 as (is1 & is2 & Eis & Hfit1 & Hfit2).
        pose proof (members_fit_length _ _ Hfit1) as Hlis.
        assert (ms1 <> []) as Hms1. { intros ->. apply Forall2_nil_inv_l in Hr1. done. }
        pose proof (layout_stops fuel r ms2 _ _ pls' s a Hr2 Hokr Hs' (pow2_max _ _ Hm Hal0) El) as Hstop.
        set (u := fsize k) in *. set (o := ALIGN size (fixnum_align lp64 k)) in *. assert (fixnum_align lp64 k = u) as Eal by done.
        pose proof (fsize_pos lp64 k) as Hu. fold u in Hu. pose proof (fsize_pow2 lp64 k) as Hup. fold u in Hup.
        pose proof (ALIGN_le size u Hup) as Hou. change (size <= o) in Hou.
        destruct (group_ok u o k ms1 eq_refl ps is1 ms2 pls' is2 0 true Hrun ltac:(lia) (fit_bits _ _ _ _ _ Hrun Hfit1) Hstop Hms1) as (X & EX & HX & Hst).
        assert (Forall (fun m => good (fst m) /\ legal lp64 (fst m) /\ data (fst m)) ms2) as Hg2.
        { assert (Forall (fun m => good (fst m) /\ legal lp64 (fst m) /\ data (fst m)) ((t, Some w) :: ms)) as Hgg by (constructor; done).
          rewrite Ems in Hgg. apply Forall_app in Hgg. tauto. }
        destruct (IH ms2 r is2 (o + u) _ pls' s a (cnt + 1) Hr2 Hg2 Hfit2 Hokr Hs' (pow2_max _ _ Hm Hal0) Hfur El) as (evs & e & cnt' & R & L1 & L2 & L3 & L4 & L5 & L6).
        assert (u | a) as Hua.
        { destruct ps as [|p ps]; [destruct ms1; done|]. cbn [fmap list_fmap app] in Hfine. apply Forall2_cons_inv_l in Hfine as (x & pls0 & Hx & _ & [= <- <-]).
          unfold fine in Hx. rewrite Hw in Hx. rewrite (proj2 (Z.eqb_neq w 0)) in Hx by done. cbn [base_kind] in Hx. tauto. }
        destruct (pad_ok env 0 size u Hup ltac:(apply Z.divide_0_r)) as (pad & Epad & _). change (pad_to size u = (pad, o)) in Epad.
        exists (pad ++ ENum u None X :: evs), e, cnt', (zeros (o - size) ++ le (Z.to_nat u) X ++ R).
        split.
        { destruct ms1 as [|[t1 w1] ms1]; [done|]. destruct ps as [|p ps]; [done|]. destruct is1 as [|i1 is1]; [done|].
          cbn [app] in Ems, Eis. injection Ems as <- <- ->. injection Eis as -> ->.
          cbn [fmap list_fmap app]. cbn [Static_model.member_loop]. rewrite (proj2 (Z.eqb_neq w 0)) by done. cbn [base_kind]. rewrite Hpk. cbn [negb]. fold u.
          rewrite Epad. cbn [fmap list_fmap app] in EX. rewrite EX. 
          rewrite loop_skip.
          - cbn [length]. rewrite Nat.sub_succ, Nat.sub_0_r. cbn in Hlps, Hlis. injection Hlps as Hlps. injection Hlis as Hlis.
            rewrite drop_app_alt by done. rewrite (drop_app_alt (_ <$> ps)) by (rewrite fmap_length; done). rewrite (drop_app_alt is1) by done.
            rewrite L1. done.
          - pose proof (members_fit_length _ _ Hfit2). pose proof (Forall2_length _ _ _ Hfine) as HL. cbn [length] in HL. rewrite app_length, fmap_length in HL. cbn [length] in HL.
            pose proof (Forall2_length _ _ _ Hr) as HL2. rewrite !app_length in *. rewrite fmap_length. lia.
          - pose proof (members_fit_length _ _ Hfit2). cbn in Hlis. rewrite !app_length. lia.
          - cbn [length]. rewrite app_length. lia. }
        split; [lia|].
        rewrite Ems, Eis. rewrite member_stores_app by (rewrite ?fmap_length; done).
        split; [|split; [|split]].
        * apply Forall_app. split; [|done]. clear -Hrun Hlps Hlis Hfit1 L2 Hu Hou Hs. fold u.
          revert Hrun Hlps Hlis Hfit1. generalize 0 at 1. intros pos. revert ps is1 pos. induction ms1 as [|[t1 w1] ms1 IH]; intros ps is1 pos Hrun H1 H2 Hf.
          { destruct ps; [|done]. destruct is1; constructor. }
          destruct ps as [|p ps]; [done|]. destruct is1 as [|i1 is1]; [done|]. cbn [run] in Hrun. destruct w1 as [w1|]; [|done]. destruct Hrun as (_ & _ & _ & Hrun).
          cbn [members_fit] in Hf. destruct Hf as [_ Hf].
          cbn [fmap list_fmap Static_spec.member_stores]. apply Forall_app. split; [|apply (IH ps is1 (p + w1)); [done|cbn in H1; lia|cbn in H2; lia|done]].
          destruct i1 as [[e1|]|]; try constructor. destruct e1; try constructor; [|constructor]. cbn. fold u. lia.
        * rewrite !app_length, le_length. unfold zeros. rewrite replicate_length. lia.
        * intros pos Hpos. destruct (pad_ok env pos size u Hup) as (pad' & Epad' & Hpad'); [etransitivity; [exact Hua|done]|].
          change (pad_to size u = (pad', o)) in Epad'. rewrite Epad in Epad'. injection Epad' as <-. change (ALIGN size u) with o in Hpad'.
          rewrite assemble_app, Hpad'. f_equal. cbn [assemble]. f_equal. rewrite le_length.
          rewrite zeros_length by lia. rewrite <- (L5 pos Hpos). f_equal. lia.
        * intros C HC. rewrite foldl_app.
          replace (C ++ zeros (s - size)) with ((C ++ zeros (o - size)) ++ le (Z.to_nat u) 0 ++ zeros (s - (o + u))).
          2:{ rewrite le_zero. change (replicate (Z.to_nat u) 0) with (zeros u). rewrite <- app_assoc. f_equal. rewrite <- !zeros_add by lia. f_equal. lia. }
          rewrite Hst.
          -- rewrite Z.lor_0_l. rewrite <- !app_assoc. rewrite (app_assoc C), (app_assoc (C ++ _)).
             rewrite L6.
             ++ rewrite <- !app_assoc. done.
             ++ rewrite !app_length, le_length. unfold zeros. rewrite replicate_length. lia.
          -- cbn. lia.
          -- rewrite app_length. unfold zeros. rewrite replicate_length. lia.
          -- split; [lia|]. apply Z.pow_pos_nonneg; lia.
    - (* an ordinary member *)
      injection Ep as <- <- <- <-. cbn [app] in *. set (o := ALIGN size (m_align m)) in *.
      destruct Hmok as (Hma0 & Hms0 & _). pose proof (ALIGN_le size (m_align m) Hma0) as Hou. fold o in Hou.
      destruct (Hgt Hlt Hdt i Hfi) as (out & Eo & Hrng & Hasm). rewrite Hsz in Hasm.
      assert (size_of t = m_size m) as Esz by (unfold Static_spec.size_of; rewrite Hsz; done). rewrite Esz in Hrng.
      pose proof (object_length t i Hlt ltac:(rewrite Esz; done)) as Hol. rewrite Esz in Hol.
      destruct (IH ms l is (o + m_size m) _ pls' s a (cnt + 1) Hr Hg Hfit Hok Hs' (pow2_max _ _ Hm Hal0) ltac:(cbn in Hfu; lia) El) as (evs & e & cnt' & R & L1 & L2 & L3 & L4 & L5 & L6).
      assert (m_align m | a) as Hda.
      { apply Forall2_cons_inv_l in Hfine as (x & pls0 & Hx & _ & [= <- <-]). unfold fine in Hx. rewrite Hw in Hx. tauto. }
      destruct (pad_ok env 0 size (m_align m) Hma0 ltac:(apply Z.divide_0_r)) as (pad & Epad & _). fold o in Epad.
      exists (pad ++ out ++ evs), e, cnt', (zeros (o - size) ++ object t i ++ R).
      split. { cbn [Static_model.member_loop]. cbn [andb]. rewrite Hsz, Eo, Epad, L1. done. }
      split; [lia|]. cbn [Static_spec.member_stores offset].
      split; [|split; [|split]].
      + apply Forall_app. split; [|done]. apply Forall_fmap. eapply stdpp.list.Forall_impl; [exact Hrng|]. intros st Hst. unfold compose. apply (in_range_shift (m_size m)); [lia|lia|done].
      + rewrite !app_length. unfold zeros. rewrite replicate_length. lia.
      + intros pos Hpos. destruct (pad_ok env pos size (m_align m) Hma0) as (pad' & Epad' & Hpad'); [etransitivity; [exact Hda|done]|].
        fold o in Epad', Hpad'. rewrite Epad in Epad'. injection Epad' as <-.
        rewrite assemble_app, Hpad'. f_equal. rewrite zeros_length by lia. rewrite assemble_app.
        assert (assemble env (pos + size + (o - size)) out = object t i) as Ea.
        { apply Hasm. replace (pos + size + (o - size)) with (pos + o) by lia. apply Z.divide_add_r; [etransitivity; [exact Hda|done]|]. apply ALIGN_div. done. }
        rewrite Ea. f_equal. rewrite <- (L5 pos Hpos). f_equal. lia.
      + intros C HC. rewrite foldl_app.
        replace (C ++ zeros (s - size)) with ((C ++ zeros (o - size)) ++ zeros (m_size m) ++ zeros (s - (o + m_size m))).
        2:{ rewrite <- app_assoc. f_equal. rewrite <- !zeros_add by lia. f_equal. lia. }
        assert (Z.of_nat (length (C ++ zeros (o - size))) = o) as Hlc. { rewrite app_length. unfold zeros. rewrite replicate_length. lia. }
        rewrite <- Hlc at 3. rewrite stores_frame by (rewrite zeros_length by lia; done).
        change (foldl apply_store (zeros (m_size m)) (stores t i)) with (foldl apply_store (replicate (Z.to_nat (m_size m)) 0) (stores t i)).
        rewrite <- Esz at 1. fold (object t i). rewrite (app_assoc (C ++ _)). rewrite L6.
        * rewrite <- !app_assoc. done.
        * rewrite app_length. lia.
  Qed.

  (** ** Unions *)
  Definition plain_members (ms : list (ty * option Z)) : Prop := Forall (fun m => snd m = None) ms.
  Lemma union_none ms : forall pls is off cnt, plain_members ms -> Forall (fun i => i = None) is ->
    member_loop construct true ms pls is 0 off cnt = Some ([], off, cnt) /\ member_stores stores ms pls is = [].
  Proof.
    induction ms as [|[t w] ms IH]; intros pls is off cnt Hp Hi; [done|]. destruct pls as [|p pls]; [done|]. destruct is as [|i is]; [done|].
    apply stdpp.list.Forall_cons in Hp as [Hw Hp]. cbn in Hw. subst w. apply stdpp.list.Forall_cons in Hi as [-> Hi].
    cbn [Static_model.member_loop Static_spec.member_stores andb]. rewrite stores_none. cbn [fmap list_fmap app]. apply IH; done.
  Qed.
  Lemma union_one ms1 t ms2 x out s a : size_align lp64 t = Some (s, a) -> construct t (Some x) = Some out ->
    forall pls is1 is2 cnt, plain_members (ms1 ++ (t, None) :: ms2) -> length is1 = length ms1 ->
    length pls = length (ms1 ++ (t, None) :: ms2) -> Forall (fun p => offset p = 0) pls ->
    Forall (fun i => i = None) is1 -> Forall (fun i => i = None) is2 ->
    member_loop construct true (ms1 ++ (t, None) :: ms2) pls (is1 ++ Some x :: is2) 0 0 cnt = Some (out, s, cnt + 1) /\
    member_stores stores (ms1 ++ (t, None) :: ms2) pls (is1 ++ Some x :: is2) = stores t (Some x).
  Proof.
    intros Es Eo. induction ms1 as [|[t1 w1] ms1 IH]; intros pls is1 is2 cnt Hp H1 H2 Hoff Hi1 Hi2.
    - destruct is1; [|done]. destruct pls as [|p pls]; [done|]. cbn [app] in *. apply stdpp.list.Forall_cons in Hp as [_ Hp].
      apply stdpp.list.Forall_cons in Hoff as [Hp0 Hoff].
      destruct (union_none ms2 pls is2 s (cnt + 1) Hp Hi2) as [U1 U2].
      cbn [Static_model.member_loop Static_spec.member_stores andb]. rewrite Es, Eo. unfold pad_to. rewrite Zmod_0_l. cbn [Z.eqb]. rewrite Z.add_0_l, U1, U2, Hp0.
      rewrite !app_nil_r. split; [done|]. clear. induction (stores t (Some x)) as [|y l IH]; [done|]. cbn. rewrite shift_zero. f_equal. exact IH.
    - destruct is1 as [|i1 is1]; [done|]. destruct pls as [|p pls]; [done|]. cbn [app] in *. apply stdpp.list.Forall_cons in Hp as [Hw Hp]. cbn in Hw. subst w1.
      apply stdpp.list.Forall_cons in Hi1 as [-> Hi1]. apply stdpp.list.Forall_cons in Hoff as [_ Hoff].
      cbn [Static_model.member_loop Static_spec.member_stores andb]. rewrite stores_none. cbn [fmap list_fmap app]. apply IH; try done; cbn in *; lia.
  Qed.
  Lemma one_cases (l : list (option init)) : one_given l ->
    Forall (fun i => i = None) l \/ exists l1 x l2, l = l1 ++ Some x :: l2 /\ Forall (fun i => i = None) l1 /\ Forall (fun i => i = None) l2.
  Proof.
    induction l as [|i l IH]; intros H; [left; constructor|].
    assert (one_given l) as Hl. { intros a b x y Ha Hb. specialize (H (S a) (S b) x y Ha Hb). lia. }
    destruct i as [x|].
    - right. exists [], x, l. split; [done|]. split; [constructor|]. apply stdpp.list.Forall_forall. intros [y|] Hy; [|done].
      apply elem_of_list_lookup in Hy as [j Hj]. specialize (H 0%nat (S j) x y eq_refl Hj). lia.
    - destruct (IH Hl) as [Hn|(l1 & x & l2 & -> & H1 & H2)]; [left; constructor; done|].
      right. exists (None :: l1), x, l2. split; [done|]. split; [constructor; done|done].
  Qed.

  Lemma fit_member ms : forall is k t x, members_fit fits ms is -> ms !! k = Some (t, None) -> is !! k = Some x -> fits t x.
  Proof.
    induction ms as [|[t0 w0] ms IH]; intros is k t x H Hk Hx; [done|]. destruct is as [|i is]; [done|]. cbn [members_fit] in H. destruct H as [H1 H2].
    destruct k as [|k]; [|apply (IH is k); done]. injection Hk as <- ->. injection Hx as ->. done.
  Qed.
  Lemma fits_none t : fits t None.
  Proof. destruct t; done. Qed.
  Lemma nones_fit ms : members_fit fits ms (replicate (length ms) None).
  Proof. induction ms as [|[t [w|]] ms IH]; cbn; [done|done|]. split; [apply fits_none|done]. Qed.
  Lemma nones_stores ms : forall pls, member_stores stores ms pls (replicate (length ms) None) = [].
  Proof.
    induction ms as [|[t w] ms IH]; intros [|p pls]; try done. cbn [length replicate Static_spec.member_stores]. rewrite IH, stores_none. destruct w; done.
  Qed.
  Lemma legal_all ms : legal_members lp64 ms -> Forall (fun m => legal lp64 (fst m)) ms.
  Proof. induction 1; constructor; try done. cbn. constructor. Qed.
  Lemma data_all ms : data_members data ms -> Forall (fun m => data (fst m)) ms.
  Proof. induction ms as [|[t w] ms IH]; cbn; [constructor|]. intros [H1 H2]. constructor; [done|apply IH; done]. Qed.

  (** A list of initialisers, one for each member. *)
  Lemma struct_ok u ms is pls s a : struct_layout lp64 u ms = Some (pls, s, a) -> legal_members lp64 ms -> data (TyStruct u ms) ->
    Forall (fun m => good (fst m)) ms -> members_fit fits ms is -> (u = true -> one_given is) ->
    exists evs off cnt evs', member_loop construct u ms pls is 0 0 0 = Some (evs, off, cnt) /\
      (if u && (cnt <=? 0) then
         match ms with
         | (t0, _) :: _ =>
           match construct t0 None, size_align lp64 t0 with
           | Some out, Some (s0, _) => Some (evs ++ out ++ tail lp64 (s - (off + s0)))
           | _, _ => None
           end
         | [] => None
         end
       else Some (evs ++ tail lp64 (s - off))) = Some evs' /\
      Forall (in_range s) (member_stores stores ms pls is) /\
      forall pos, (a | pos) -> assemble env pos evs' = foldl apply_store (zeros s) (member_stores stores ms pls is).
  Proof.
    intros El Hlm [Hd Hdu] Hg Hfit Hone. pose proof (legal_all ms Hlm) as Hla. pose proof (data_all ms Hd) as Hda.
    destruct (proj2 (legal_sound lp64) ms Hlm) as (l & Em & Hml). pose proof (members_rel lp64 ms l Em) as Hrel.
    unfold struct_layout in El. rewrite Em in El. unfold calc_struct_size in El. destruct u.
    - specialize (Hone eq_refl). destruct (Hdu eq_refl) as [Hne Hpl].
      destruct (union_ok lp64 l 0 1 Hml ltac:(lia) (or_introl eq_refl)) as (pls0 & s0 & a0 & E0 & Ha & _ & Hs & Hds & Hf).
      rewrite E0 in El. injection El as -> -> ->.
      assert (Forall (fun p => offset p = 0) pls) as Hoff. { clear -Hf. induction Hf; constructor; tauto. }
      assert (length pls = length ms) as Hlen by (rewrite <- (Forall2_length _ _ _ Hf), (Forall2_length _ _ _ Hrel); done).
      assert (forall k t w, ms !! k = Some (t, w) -> exists st at', size_align lp64 t = Some (st, at') /\ 0 <= st <= s /\ (at' | a)) as Hmem.
      { intros k t w Hk. destruct (Forall2_lookup_l _ _ _ _ _ Hrel Hk) as (x & Hx & Hw & Hsz). destruct (Forall2_lookup_l _ _ _ _ _ Hf Hx) as (p & Hp & _ & _ & H1 & H2).
        exists (m_size x), (m_align x). split; [done|]. apply (Forall_lookup_1 _ _ _ _ Hml) in Hx as (_ & Hx & _).
        split; [lia|]. apply H2. rewrite Hw. apply (Forall_lookup_1 _ _ _ _ Hpl Hk). }
      destruct (one_cases is Hone) as [Hn|(is1 & x & is2 & -> & Hn1 & Hn2)].
      + destruct (union_none ms pls is 0 0 Hpl Hn) as [U1 U2]. destruct ms as [|[t0 w0] ms]; [done|].
        destruct (Hmem 0%nat t0 w0 eq_refl) as (s0 & a0 & Es0 & Hs0 & Ha0).
        apply stdpp.list.Forall_cons in Hg as [Hg0 _]. apply stdpp.list.Forall_cons in Hla as [Hl0 _]. apply stdpp.list.Forall_cons in Hda as [Hd0 _]. cbn [fst] in *.
        destruct (Hg0 Hl0 Hd0 None (fits_none _)) as (out & Eo & _ & Hasm). rewrite Es0 in Hasm.
        exists [], 0, 0, (out ++ tail lp64 (s - s0)). split; [exact U1|]. cbn [andb Z.leb Z.compare]. rewrite Eo, Es0, Z.add_0_l. split; [done|].
        rewrite U2. split; [constructor|]. intros pos Hpos. rewrite assemble_app, Hasm by (etransitivity; done).
        rewrite tail_ok by lia. rewrite object_none. unfold Static_spec.size_of. rewrite Es0. rewrite <- zeros_add by lia. cbn [foldl]. f_equal. lia.
      + pose proof (members_fit_length _ _ Hfit) as Hli. rewrite app_length in Hli. cbn in Hli.
        destruct (lookup_lt_is_Some_2 ms (length is1) ltac:(lia)) as [[t w] Hk]. assert (w = None) as -> by apply (Forall_lookup_1 _ _ _ _ Hpl Hk).
        destruct (Hmem _ t None Hk) as (s0 & a0 & Es0 & Hs0 & Ha0).
        pose proof (Forall_lookup_1 _ _ _ _ Hg Hk) as Hgt. pose proof (Forall_lookup_1 _ _ _ _ Hla Hk) as Hlt. pose proof (Forall_lookup_1 _ _ _ _ Hda Hk) as Hdt. cbn [fst] in *.
        assert (fits t (Some x)) as Hft. { apply (fit_member ms (is1 ++ Some x :: is2) (length is1)); try done. rewrite list_lookup_middle by done. done. }
        destruct (Hgt Hlt Hdt (Some x) Hft) as (out & Eo & Hrng & Hasm). rewrite Es0 in Hasm.
        apply elem_of_list_split_length in Hk as (ms1 & ms2 & Ems & Hl1). rewrite Ems in Hpl, Hlen |- *.
        destruct (union_one ms1 t ms2 x out s0 a0 Es0 Eo pls is1 is2 0 Hpl Hl1 Hlen Hoff Hn1 Hn2) as [U1 U2].
        eexists _, _, _, (out ++ tail lp64 (s - s0)). split; [exact U1|]. cbn [andb Z.add Z.leb Z.compare]. split; [done|]. rewrite U2.
        assert (size_of t = s0) as Ez by (unfold Static_spec.size_of; rewrite Es0; done). rewrite Ez in Hrng.
        split; [eapply stdpp.list.Forall_impl; [exact Hrng|]; intros st Hst; rewrite <- (shift_zero st); apply (in_range_shift s0); [lia|lia|done]|].
        intros pos Hpos. rewrite assemble_app, Hasm by (etransitivity; done). rewrite tail_ok by lia.
        replace (zeros s) with ([] ++ zeros s0 ++ zeros (s - s0)) by (cbn [app]; rewrite <- zeros_add by lia; f_equal; lia).
        assert (stores t (Some x) = (shift (Z.of_nat (length (@nil Z))) <$> stores t (Some x))) as E2.
        { cbn [length Z.of_nat]. clear. induction (stores t (Some x)) as [|y l IH]; [done|]. cbn. rewrite shift_zero. f_equal. exact IH. }
        rewrite E2. rewrite stores_frame by (rewrite zeros_length by lia; done). cbn [app]. unfold Static_spec.object. rewrite Ez. done.
    - assert (Forall (fun m => good (fst m) /\ legal lp64 (fst m) /\ data (fst m)) ms) as Hall.
      { apply stdpp.list.Forall_forall. intros m Hm. split; [|split]; [apply (proj1 (stdpp.list.Forall_forall _ _) Hg)|apply (proj1 (stdpp.list.Forall_forall _ _) Hla)|apply (proj1 (stdpp.list.Forall_forall _ _) Hda)]; done. }
      destruct (loop_ok (length l) ms l is 0 1 pls s a 0 Hrel Hall Hfit Hml ltac:(lia) (or_introl eq_refl) ltac:(lia) El) as (evs & e & cnt & R & L1 & L2 & L3 & L4 & L5 & L6).
      exists evs, e, cnt, (evs ++ tail lp64 (s - e)). split; [exact L1|]. cbn [andb]. split; [done|]. split; [done|]. intros pos Hpos.
      specialize (L6 [] eq_refl). rewrite Z.sub_0_r in L6. cbn [app] in L6. rewrite L6. specialize (L5 pos Hpos). rewrite Z.add_0_r in L5.
      rewrite assemble_app, L5. f_equal. apply tail_ok. lia.
  Qed.

  Theorem all_good t : good t.
  Proof.
    induction t as [| | |k|k|t n IH|t IH|u ms IH] using ty_rect'; intros Hl Hd i Hfit.
    - done.
    - done.
    - destruct i as [[e|]|]; [|done|].
      + cbn [fits] in Hfit. assert (exists v o, eval_initial_value e = Some (v, o) /\ den env e = Some (match v with Some n => env n + o | None => o end)) as (v & o & E1 & E2).
        { destruct Hfit as [H|H]; [apply number_eval in H as (z & H1 & H2); exists None, z|apply address_eval in H as (n & z & H1 & H2); exists (Some n), z]; split; [done|apply H2|done|apply H2]. }
        eexists. cbn [construct]. rewrite E1. split; [reflexivity|]. pose proof (fsize_pos lp64 FX_LONG) as Hp. unfold Static_spec.object. cbn [Static_spec.stores]. rewrite E2.
        change (size_of TyPtr) with (fsize FX_LONG). split; [apply stdpp.list.Forall_singleton; cbn [in_range]; rewrite le_length; lia|].
        intros pos _. cbn [assemble foldl]. rewrite app_nil_r. symmetry. cbn [apply_store Z.to_nat]. apply patch_all. rewrite le_length, replicate_length. done.
      + eexists. split; [reflexivity|]. split; [constructor|]. intros pos _. cbn [assemble]. rewrite app_nil_r, le_zero. done.
    - destruct i as [[e|]|]; [|done|].
      + cbn [fits] in Hfit. assert (exists v o, eval_initial_value e = Some (v, o) /\ den env e = Some (match v with Some n => env n + o | None => o end)) as (v & o & E1 & E2).
        { destruct Hfit as [H|H]; [apply number_eval in H as (z & H1 & H2); exists None, z|apply address_eval in H as (n & z & H1 & H2); exists (Some n), z]; split; [done|apply H2|done|apply H2]. }
        eexists. cbn [construct]. rewrite E1. split; [reflexivity|]. pose proof (fsize_pos lp64 k) as Hp. unfold Static_spec.object. cbn [Static_spec.stores]. rewrite E2.
        change (size_of (TyFix k)) with (fsize k). split; [apply stdpp.list.Forall_singleton; cbn [in_range]; rewrite le_length; lia|].
        intros pos _. cbn [assemble foldl]. rewrite app_nil_r. symmetry. cbn [apply_store Z.to_nat]. apply patch_all. rewrite le_length, replicate_length. done.
      + eexists. split; [reflexivity|]. split; [constructor|]. intros pos _. cbn [assemble]. rewrite app_nil_r, le_zero. done.
    - destruct i as [[e|]|]; [|done|].
      + destruct e; try done. eexists. split; [reflexivity|]. unfold Static_spec.object. 
        destruct k; (split; [constructor; [|constructor]; cbn; lia|]); intros pos _; cbn [assemble foldl Static_spec.stores]; rewrite app_nil_r; symmetry; cbn [apply_store Z.to_nat]; apply patch_all; done.
      + eexists. split; [reflexivity|]. split; [constructor|]. intros pos _. cbn [assemble]. rewrite app_nil_r, le_zero. done.
    - assert (legal lp64 t /\ 0 <= n) as [Hlt Hn] by (inversion Hl; done). cbn [data] in Hd.
      destruct (legal_size t Hlt) as (s & a & Es & Ez & Hs & Ha & Hda). 
      assert (size_align lp64 (TyArr t n) = Some (s * n, a)) as Esa by (cbn; rewrite Es; done).
      assert (size_of (TyArr t n) = s * n) as Eza by (unfold Static_spec.size_of; rewrite Esa; done). rewrite Esa.
      destruct i as [[e|l]|].
      + assert (exists wide units, e = XStr wide units /\ is_char_type t wide = true) as (wide & units & -> & Hc).
        { cbn [fits] in Hfit. destruct t; try done. destruct k; try done; destruct e; try done; destruct wide; try done; eauto. }
        eexists. cbn [construct strip_cast]. rewrite Esa, Hc. split; [reflexivity|]. cbn [Static_spec.stores]. rewrite Eza.
        split; [apply stdpp.list.Forall_singleton; cbn [in_range]; rewrite take_length; lia|].
        intros pos _. cbn [assemble]. rewrite app_nil_r. unfold Static_spec.object. cbn [Static_spec.stores foldl apply_store Z.to_nat]. rewrite Eza.
        unfold patch. change (Z.to_nat 0) with 0%nat. rewrite take_0, app_nil_l, Nat.add_0_l. rewrite take_length, drop_replicate. set (b := str_bytes wide units).
        f_equal.
        * destruct (decide (Z.of_nat (length b) <= s * n)); [rewrite Z.min_l by done|rewrite Z.min_r by lia; done].
          rewrite Nat2Z.id, firstn_all, take_ge by lia. done.
        * f_equal. lia.
      + cbn [fits] in Hfit. assert (Z.of_nat (length l) <= n /\ Forall (fits t) l) as [Hln Hfl].
        { assert (Z.of_nat (length l) <= n /\ foldr (fun x P => fits t x /\ P) True l) as [H1 H2] by (destruct t; [..|destruct t|destruct t|]; try exact Hfit; destruct k; exact Hfit).
          split; [done|]. clear -H2. induction l as [|x l IHl]; [constructor|]. cbn in H2. constructor; [tauto|apply IHl; tauto]. }
        destruct (elems_ok t s a l IH Hlt Hd Es Hfl) as (ev1 & E1 & R1 & A1).
        destruct (copies_ok t s a (Z.to_nat (n - Z.of_nat (length l))) IH Hlt Hd Es) as (ev2 & E2 & A2).
        exists (ev1 ++ ev2). cbn [construct]. rewrite E1, E2. split; [done|]. cbn [Static_spec.stores]. rewrite Eza, Ez.
        split.
        * clear -R1 Hln Hs Hn. assert (forall k0, Z.of_nat k0 + Z.of_nat (length l) <= n -> Forall (in_range (s * n)) (concat (imap (fun k ss => shift (Z.of_nat (k0 + k) * s) <$> ss) (map (stores t) l)))) as H; [|apply (H 0%nat); lia].
          clear Hln. induction R1 as [|x l Hx _ IHl]; intros k0 Hk; [constructor|]. cbn [map imap concat length] in *. apply Forall_app. split.
          -- apply Forall_fmap. eapply stdpp.list.Forall_impl; [exact Hx|]. intros st Hst. unfold compose. apply (in_range_shift s); [nia|nia|done].
          -- specialize (IHl (S k0) ltac:(lia)). erewrite imap_ext; [exact IHl|]. intros k ss _. unfold compose. do 3 f_equal. lia.
        * intros pos Hpos. rewrite assemble_app, A1 by done. unfold Static_spec.object at 3. cbn [Static_spec.stores]. rewrite Eza, Ez. 
          pose proof (stores_elems t s a l Hlt Es R1 0%nat [] (zeros (s * (n - Z.of_nat (length l)))) eq_refl) as HS. cbn [app Nat.add] in HS.
          change (replicate (Z.to_nat (s * n)) 0) with (zeros (s * n)).
          replace (s * n) with (s * Z.of_nat (length l) + s * (n - Z.of_nat (length l))) by lia. rewrite zeros_add by nia.
          rewrite HS. f_equal. rewrite A2.
          -- f_equal. rewrite Z2Nat.id by lia. done.
          -- apply Z.divide_add_r; [done|]. clear -R1 Hlt Ez Hda. induction R1 as [|x l Hx _ IHl]; [apply Z.divide_0_r|]. cbn [fmap list_fmap concat]. rewrite app_length, Nat2Z.inj_add.
             apply Z.divide_add_r; [|done]. rewrite object_length by (rewrite ?Ez; done). rewrite Ez. done.
      + destruct (copies_ok t s a (Z.to_nat n) IH Hlt Hd Es) as (ev2 & E2 & A2). exists ev2. cbn [construct]. split; [done|]. split; [constructor|].
        intros pos Hpos. rewrite A2 by done. rewrite object_none, Eza. rewrite Z2Nat.id by lia. done.
    - assert (legal lp64 t) as Hlt by (inversion Hl; done). destruct (legal_size t Hlt) as (s & a & Es & Ez & Hs & Ha & Hda).
      assert (size_of (TyFam t) = 0) as E0 by (unfold Static_spec.size_of; cbn; rewrite Es; done).
      destruct i as [[e|l]|]; [done| |].
      + destruct l; [|done]. exists []. split; [done|]. split; [constructor|]. intros pos _. unfold Static_spec.object. rewrite E0. done.
      + exists []. split; [done|]. split; [constructor|]. intros pos _. rewrite object_none, E0. done.
    - assert (legal_members lp64 ms) as Hlm by (inversion Hl; done). destruct (legal_size _ Hl) as (s & a & Es & Ez & Hs & Ha & Hda).
      rewrite Ez. rewrite Es. assert (Es0 := Es). rewrite size_align_struct in Es0. destruct (struct_layout lp64 u ms) as [[[pls s'] a']|] eqn:El; [|done]. injection Es0 as -> ->.
      destruct i as [[e|l]|].
      + done.
      + cbn [fits] in Hfit. destruct Hfit as [Hf Hone]. pose proof (members_fit_length _ _ Hf) as Hlen.
        destruct (struct_ok u ms l pls s a El Hlm Hd IH Hf Hone) as (evs & off & cnt & evs' & L1 & L2 & L3 & L4). exists evs'.
        cbn [construct]. rewrite El, bool_decide_eq_true_2 by done. rewrite L1. split; [exact L2|]. cbn [Static_spec.stores]. rewrite El. split; [done|].
        intros pos Hpos. rewrite L4 by done. unfold Static_spec.object. rewrite Ez. cbn [Static_spec.stores]. rewrite El. done.
      + destruct (struct_ok u ms (replicate (length ms) None) pls s a El Hlm Hd IH (nones_fit ms)) as (evs & off & cnt & evs' & L1 & L2 & L3 & L4).
        { intros _ j k x y Hj. apply lookup_replicate in Hj as [Hj _]. done. }
        exists evs'. cbn [construct]. rewrite El, L1. split; [exact L2|]. split; [constructor|]. intros pos Hpos. rewrite L4 by done. rewrite nones_stores, object_none, Ez. done.
  Qed.
End proof.
