From stdpp Require Import base list numbers sets.
From Verif Require Import Back.Phi_model Back.Phi_spec Back.Phi_proof Back.Phi_frame_proof.

(** No earlier destination is the source at [i]. *)
Definition free_at (ps : list phi) (i : nat) : Prop := forall j p q, ps !! i = Some p -> ps !! j = Some q -> j < i -> dst q <> src p.
Lemma find_none ps i r : i <= length ps -> (forall j q, j < i -> ps !! j = Some q -> dst q <> r) -> find_dst (Some <$> ps) i r = Some i.
Proof.
  revert ps. induction i as [|i IH]; intros ps Hi H; cbn [find_dst]; [done|]. destruct ps as [|p ps]; cbn in Hi; [lia|]. rewrite fmap_cons.
  destruct (Nat.eqb_spec (dst p) r) as [E|_]; [by destruct (H 0 p ltac:(lia) eq_refl)|]. rewrite IH; [done|lia|]. intros j q Hj Hq. apply (H (S j)); [lia|done].
Qed.
Lemma find_some ps i j p : j < i -> i <= length ps -> ps !! j = Some p -> (forall k q, k < j -> ps !! k = Some q -> dst q <> dst p) -> find_dst (Some <$> ps) i (dst p) = Some j.
Proof.
  revert ps j. induction i as [|i IH]; intros ps j Hj Hi Hp H; cbn [find_dst]; [lia|]. destruct ps as [|q ps]; cbn in Hi; [lia|]. rewrite fmap_cons. destruct j as [|j].
  - cbn in Hp. injection Hp as ->. by rewrite Nat.eqb_refl.
  - destruct (Nat.eqb_spec (dst q) (dst p)) as [E|_]; [by destruct (H 0 q ltac:(lia) eq_refl)|]. rewrite (IH ps j); [done|lia|lia|done|]. intros k x Hk Hx. apply (H (S k)); [lia|done].
Qed.
Lemma find_free ps i p : ps !! i = Some p -> free_at ps i -> find_dst (Some <$> ps) i (src p) = Some i.
Proof. intros Hp H. apply find_none; [apply lookup_lt_Some in Hp; lia|]. intros j q Hj Hq. by apply (H j). Qed.
Lemma reorder_skip k : forall i fuel ps, (forall x, i <= x < i + k -> free_at ps x) -> i + k <= length ps ->
  reorder (k + fuel) i (length ps) (Some <$> ps) = reorder fuel (i + k) (length ps) (Some <$> ps).
Proof.
  induction k as [|k IH]; intros i fuel ps H Hl; cbn [Nat.add]; [by rewrite Nat.add_0_r|]. cbn [reorder]. destruct (Nat.leb_spec (length ps) i); [lia|].
  destruct (lookup_lt_is_Some_2 ps i ltac:(lia)) as [p E]. rewrite list_lookup_fmap, E. cbn [fmap option_fmap option_map]. rewrite (find_free ps i p E) by (apply H; lia).
  rewrite Nat.ltb_irrefl. rewrite IH; [f_equal; lia| |lia]. intros x Hx. apply H. lia.
Qed.
Lemma detect_skip k : forall i fuel ps cs, (forall x, i <= x < i + k -> free_at ps x) -> i + k <= length ps ->
  detect (k + fuel) i (length ps) (Some <$> ps) cs = detect fuel (i + k) (length ps) (Some <$> ps) cs.
Proof.
  induction k as [|k IH]; intros i fuel ps cs H Hl; cbn [Nat.add]; [by rewrite Nat.add_0_r|]. cbn [detect]. destruct (Nat.leb_spec (length ps) i); [lia|].
  destruct (lookup_lt_is_Some_2 ps i ltac:(lia)) as [p E]. rewrite list_lookup_fmap, E. cbn [fmap option_fmap option_map]. rewrite (find_free ps i p E) by (apply H; lia).
  rewrite Nat.ltb_irrefl. rewrite IH; [f_equal; lia| |lia]. intros x Hx. apply H. lia.
Qed.
Lemma reorder_end fuel i n l : n <= i -> reorder fuel i n l = Some l.
Proof. intros H. destruct fuel; cbn [reorder]; destruct (Nat.leb_spec n i); done || lia. Qed.
Lemma detect_end fuel i n l cs : n <= i -> detect fuel i n l cs = Some (take n l, cs).
Proof. intros H. destruct fuel; cbn [detect]; destruct (Nat.leb_spec n i); done || lia. Qed.
Lemma free_order ps k : in_order ps -> free_at ps k.
Proof. intros H j p q. apply H. Qed.
Lemma reorder_in_order fuel i ps : in_order ps -> length ps <= i + fuel -> reorder fuel i (length ps) (Some <$> ps) = Some (Some <$> ps).
Proof.
  intros H Hf. destruct (decide (length ps <= i)) as [Hl|Hl]; [by apply reorder_end|]. replace fuel with ((length ps - i) + (fuel - (length ps - i))) by lia.
  rewrite reorder_skip; [|intros; by apply free_order|lia]. apply reorder_end. lia.
Qed.
Lemma mapM_some (ps : list phi) : mapM (M := option) id (Some <$> ps) = Some ps.
Proof. induction ps as [|p ps IH]; [done|]. cbn. change (mapM id (list_fmap phi (option phi) Some ps)) with (mapM (M := option) id (Some <$> ps)). by rewrite IH. Qed.
Lemma ordered_parallel tmp ps ps' : NoDup (dst <$> ps) -> reorder (length ps) 0 (length ps) (Some <$> ps) = Some (Some <$> ps') -> in_order ps' ->
  exists moves, replace_phis tmp ps = Some moves /\ parallel ps moves.
Proof.
  intros Hn Hr Ho. assert (length ps' = length ps) as Hl by (apply reorder_perm in Hr; [apply Permutation_length in Hr; by rewrite !fmap_length in Hr|by rewrite fmap_length]).
  assert (extract_cyclic_dependency ps = Some (Some <$> ps', [])) as He.
  { unfold extract_cyclic_dependency. rewrite Hr, <-Hl. rewrite <-(Nat.add_0_r (length ps')) at 1. rewrite detect_skip; [|intros; by apply free_order|lia].
    rewrite detect_end by lia. by rewrite take_ge by (by rewrite fmap_length). }
  eexists. split; [unfold replace_phis; rewrite He, mapM_some; done|]. eapply no_cycle; [done|exact He|]. unfold replace_phis. by rewrite He, mapM_some.
Qed.
Lemma ordered_ok tmp ps : NoDup (dst <$> ps) -> in_order ps -> exists moves, replace_phis tmp ps = Some moves /\ parallel ps moves.
Proof. intros Hn Ho. eapply ordered_parallel; [done|by apply reorder_in_order; [|lia]|done]. Qed.
Lemma one_late tmp (A B C : list phi) p m : NoDup (dst <$> A ++ p :: B ++ m :: C) -> src m = dst p -> in_order (A ++ m :: p :: B ++ C) ->
  exists moves, replace_phis tmp (A ++ p :: B ++ m :: C) = Some moves /\ parallel (A ++ p :: B ++ m :: C) moves.
Proof.
  intros Hn Hm Ho. set (l := A ++ p :: B ++ m :: C) in *. set (l' := A ++ m :: p :: B ++ C) in *. set (i := length A + S (length B)).
  assert (length l = i + S (length C)) as Hlen by (unfold l, i; rewrite !app_length; cbn; rewrite app_length; cbn; lia).
  assert (l' ≡ₚ l) as Hperm. { unfold l, l'. apply Permutation_app_head. apply (Permutation_middle (p :: B) C m). }
  assert (l = (A ++ p :: B) ++ m :: C) as El by (unfold l; by rewrite <-app_assoc).
  assert (forall k, k < i -> l !! k = (A ++ p :: B) !! k) as Hpre.
  { intros k Hk. rewrite El, lookup_app_l; [done|]. rewrite app_length. cbn. unfold i in Hk. lia. }
  assert (in_order (A ++ p :: B)) as Hpo.
  { set (f := fun k => if k <? length A then k else S k). assert (forall k x, (A ++ p :: B) !! k = Some x -> l' !! f k = Some x) as Hf.
    { intros k x Hk. unfold f. destruct (Nat.ltb_spec k (length A)) as [H|H].
      - unfold l'. rewrite lookup_app_l in Hk |- * by done. done.
      - unfold l'. rewrite lookup_app_r in Hk |- * by lia. replace (S k - length A) with (S (k - length A)) by lia. cbn [lookup list_lookup]. destruct (k - length A) as [|q]; [done|]. cbn in Hk |- *. by apply lookup_app_l_Some. }
    intros a b x y Ha Hb Hlt. apply (Ho (f a) (f b)); [by apply Hf|by apply Hf|]. unfold f. destruct (Nat.ltb_spec a (length A)), (Nat.ltb_spec b (length A)); lia. }
  apply (ordered_parallel tmp l l'); [done| |done].
  assert (length l = length l') as Hl' by (by rewrite Hperm).
  replace (length l) with (i + S (length C)) at 1 by lia. rewrite reorder_skip; [| |lia].
  2: { intros k Hk a x y Hx Hy Hlt. rewrite Hpre in Hx, Hy by lia. by apply (Hpo k a). }
  cbn [Nat.add reorder]. destruct (Nat.leb_spec (length l) i); [lia|].
  assert (l !! i = Some m) as Ei by (rewrite El; apply list_lookup_middle; unfold i; by rewrite app_length).
  assert (forall k q, k < length A -> l !! k = Some q -> dst q <> src m) as Hbefore.
  { intros k q Hk Hq. apply (Ho (length A) k m q); [by apply list_lookup_middle| |done]. unfold l'. unfold l in Hq. rewrite lookup_app_l in Hq |- * by done. done. }
  rewrite list_lookup_fmap, Ei. cbn [fmap option_fmap option_map]. assert (find_dst (Some <$> l) i (src m) = Some (length A)) as ->.
  { rewrite Hm. apply find_some; [unfold i; lia|lia|by apply list_lookup_middle|]. rewrite <-Hm. done. }
  destruct (Nat.ltb_spec (length A) i) as [_|H']; [|unfold i in H'; lia].
  assert (move_before (Some <$> l) (length A) i = Some <$> l') as ->.
  { unfold move_before. rewrite <-!fmap_take, <-!fmap_drop, <-fmap_take, <-!fmap_app. f_equal.
    assert (take (length A) l = A) as -> by (unfold l; by rewrite take_app).
    rewrite (drop_S l m i Ei). assert (drop (S i) l = C) as ->.
    { unfold l. assert (A ++ p :: B ++ m :: C = (A ++ p :: B ++ [m]) ++ C) as -> by (rewrite <-!app_assoc; cbn; by rewrite <-app_assoc). apply drop_app_alt. unfold i. rewrite app_length. cbn. rewrite app_length. cbn. lia. }
    assert (take i l = A ++ p :: B) as -> by (rewrite El, take_app_alt; [done|unfold i; by rewrite app_length]). rewrite drop_app. cbn. by rewrite take_0. }
  rewrite Hl'. apply reorder_in_order; [done|lia].
Qed.

(** The phis of a rotation but the last. *)
Definition shifts (d : nat) (r : list nat) (e : nat) : list phi := zip_with Phi (d :: r) (r ++ [e]).
Lemma rotation_snoc d r e : rotation (d :: r ++ [e]) = shifts d r e ++ [Phi e d].
Proof. unfold rotation, shifts. rewrite app_comm_cons, zip_with_app; [done|]. rewrite app_length. cbn. lia. Qed.
Lemma shifts_len d r e : length (shifts d r e) = S (length r).
Proof. unfold shifts. rewrite zip_with_length, app_length. cbn [length]. lia. Qed.
Lemma shifts_at d r e i m : shifts d r e !! i = Some m -> exists a b, m = Phi a b /\ (d :: r ++ [e]) !! i = Some a /\ (d :: r ++ [e]) !! S i = Some b.
Proof.
  unfold shifts. intros H. apply lookup_zip_with_Some in H as (a & b & -> & Ha & Hb).
  exists a, b. split; [done|]. split; [|done]. rewrite app_comm_cons. by apply lookup_app_l_Some.
Qed.
Section rot.
  Context (d : nat) (r : list nat) (e : nat) (Hnd : NoDup (d :: r ++ [e])).
  Definition seq_phis : list phi := Phi e d :: shifts d r e.
  Lemma shifts_order : in_order (shifts d r e).
  Proof using Hnd.
    intros i j m m' Hi Hj Hlt. apply shifts_at in Hi as (a & b & -> & _ & Hb). apply shifts_at in Hj as (a' & b' & -> & Ha & _). cbn. intros ->.
    pose proof (NoDup_lookup _ _ _ _ Hnd Hb Ha). lia.
  Qed.
  Lemma reorder_rotation : reorder (length (rotation (d :: r ++ [e]))) 0 (length (rotation (d :: r ++ [e]))) (Some <$> rotation (d :: r ++ [e])) = Some (Some <$> seq_phis).
  Proof using Hnd.
    rewrite rotation_snoc. set (P := shifts d r e). assert (length (P ++ [Phi e d]) = length P + 1) as El by (by rewrite app_length). rewrite El at 1. rewrite reorder_skip; [| |lia].
    - cbn [Nat.add reorder]. destruct (Nat.leb_spec (length (P ++ [Phi e d])) (length P)); [lia|]. rewrite list_lookup_fmap, list_lookup_middle by done. cbn [fmap option_fmap option_map src].
      assert (exists b, P !! 0 = Some (Phi d b)) as [b Eb] by (unfold P, shifts; destruct r; by eexists).
      assert (find_dst (Some <$> P ++ [Phi e d]) (length P) d = Some 0) as ->.
      { apply (find_some (P ++ [Phi e d]) (length P) 0 (Phi d b)); [unfold P; rewrite shifts_len; lia|lia|by apply lookup_app_l_Some|intros; lia]. }
      destruct (Nat.ltb_spec 0 (length P)) as [_|H']; [|unfold P in H'; rewrite shifts_len in H'; lia]. destruct (Nat.leb_spec (length (P ++ [Phi e d])) (S (S (length P)))); [|lia]. f_equal.
      unfold move_before. rewrite take_0, drop_0. rewrite fmap_app, drop_app_alt, take_app_alt by (by rewrite fmap_length).
      rewrite drop_ge by (rewrite app_length, fmap_length; cbn; lia). cbn. by rewrite app_nil_r.
    - intros k Hk j m m' Hm Hm' Hlt. rewrite lookup_app_l in Hm, Hm' by lia. by apply (shifts_order k j).
  Qed.
  Lemma seq_len : length seq_phis = S (S (length r)). Proof. unfold seq_phis. cbn [length]. by rewrite shifts_len. Qed.
  Lemma seq_at j m : seq_phis !! j = Some m -> (d :: r ++ [e]) !! j = Some (src m).
  Proof. destruct j as [|j]; cbn; [intros [= <-]; done|]. intros H. by apply shifts_at in H as (a & b & -> & _ & Hb). Qed.
  Lemma seq_next j m : seq_phis !! S j = Some m -> (d :: r ++ [e]) !! j = Some (dst m).
  Proof. cbn. intros H. by apply shifts_at in H as (a & b & -> & Ha & _). Qed.
  Lemma pick_seq n : forall j fuel, j + n = S (length r) -> n < fuel ->
    pick fuel (replicate j None ++ (Some <$> drop j seq_phis)) j (S (length r)) = Some (drop j seq_phis, replicate (S (S (length r))) None).
  Proof.
    induction n as [|n IH]; intros j fuel Hj Hf; (destruct fuel as [|fuel]; [lia|]); cbn [pick].
    all: destruct (lookup_lt_is_Some_2 seq_phis j ltac:(rewrite seq_len; lia)) as [m Em]; rewrite (drop_S _ _ _ Em), fmap_cons, list_lookup_middle by (by rewrite replicate_length).
    all: assert (<[j := None]> (replicate j None ++ Some m :: (Some <$> drop (S j) seq_phis)) = replicate (S j) None ++ (Some <$> drop (S j) seq_phis)) as Ei by
      (rewrite insert_app_r_alt, replicate_length, Nat.sub_diag by (by rewrite replicate_length); cbn [insert list_insert]; rewrite replicate_S_end, <-app_assoc; done); rewrite Ei; clear Ei.
    - destruct (Nat.leb_spec (S (length r)) j); [|lia]. rewrite (drop_ge seq_phis (S j)) by (rewrite seq_len; lia). cbn [fmap list_fmap]. rewrite app_nil_r. by replace (S j) with (S (S (length r))) by lia.
    - destruct (Nat.leb_spec (S (length r)) j); [lia|]. rewrite drop_app_alt by (by rewrite replicate_length).
      assert (find_dst (Some <$> drop (S j) seq_phis) (S (length r) - S j) (src m) = Some 0) as ->.
      { replace (S (length r) - S j) with n by lia. destruct n as [|n]; [done|]. destruct (lookup_lt_is_Some_2 seq_phis (S j) ltac:(rewrite seq_len; lia)) as [m' Em'].
        apply seq_at in Em. pose proof (seq_next _ _ Em') as En. assert (src m = dst m') as -> by congruence.
        apply find_some; [lia|rewrite drop_length, seq_len; lia|rewrite lookup_drop, Nat.add_0_r; done|intros; lia]. }
      rewrite Nat.add_0_r, IH by lia. done.
  Qed.
  Lemma fill_none fuel : forall k n N, n <= N -> exists n', n' <= n /\ fill fuel k n (replicate N (None : option phi)) = (replicate N None, n').
  Proof.
    induction fuel as [|fuel IH]; intros k n N Hn; cbn [fill]; destruct (Nat.leb_spec n k); try by exists n.
    rewrite lookup_replicate_2 by lia. rewrite lookup_replicate_2 by lia. cbn [default]. rewrite !insert_replicate. destruct (IH (S k) (Nat.pred n) N ltac:(lia)) as (n' & H1 & H2). exists n'. split; [lia|]. exact H2.
  Qed.
  Lemma trim_none n N : n <= N -> trim n (replicate N None) = 0.
  Proof. intros H. induction n as [|n IH]; [done|]. cbn [trim]. rewrite lookup_replicate_2 by lia. apply IH. lia. Qed.
  Lemma detect_seq : detect (length seq_phis) 0 (length seq_phis) (Some <$> seq_phis) [] = Some ([], [seq_phis]).
  Proof using Hnd.
    assert ((d :: r ++ [e]) !! S (length r) = Some e) as He by (cbn; by apply list_lookup_middle).
    assert (forall k, 0 <= k < 0 + S (length r) -> free_at seq_phis k) as Hfree.
    { intros k Hk j m m' Hm Hm' Hlt. apply seq_at in Hm. destruct j as [|j].
      - cbn in Hm'. injection Hm' as <-. cbn. intros ->. pose proof (NoDup_lookup _ _ _ _ Hnd Hm He). lia.
      - apply seq_next in Hm'. intros E. rewrite E in Hm'. pose proof (NoDup_lookup _ _ _ _ Hnd Hm Hm'). lia. }
    rewrite seq_len at 1. replace (S (S (length r))) with (S (length r) + 1) by lia. rewrite detect_skip; [|done|rewrite seq_len; lia]. cbn [Nat.add detect].
    rewrite seq_len. destruct (Nat.leb_spec (S (S (length r))) (S (length r))); [lia|].
    destruct (lookup_lt_is_Some_2 seq_phis (S (length r)) ltac:(rewrite seq_len; lia)) as [m Em]. rewrite list_lookup_fmap, Em. cbn [fmap option_fmap option_map].
    assert (find_dst (Some <$> seq_phis) (S (length r)) (src m) = Some 0) as ->.
    { apply seq_at in Em. assert (src m = dst (Phi e d)) as -> by (cbn; congruence). apply find_some; [lia|rewrite seq_len; lia|done|intros; lia]. }
    cbn [Nat.ltb Nat.leb].
    pose proof (pick_seq (S (length r)) 0 (S (S (length r))) ltac:(lia) ltac:(lia)) as Hc. rewrite drop_0 in Hc. change (replicate 0 None ++ (Some <$> seq_phis)) with (Some <$> seq_phis) in Hc. rewrite Hc.
    destruct (fill_none (S (S (length r))) 0 (S (S (length r))) (S (S (length r))) ltac:(lia)) as (n' & Hn' & Hfill). rewrite Hfill. rewrite trim_none by lia. cbn. done.
  Qed.
  Lemma replace_rotation tmp : replace_phis tmp (rotation (d :: r ++ [e])) = Some ((tmp, d) :: ((fun q => (dst q, src q)) <$> shifts d r e) ++ [(e, tmp)]).
  Proof using Hnd.
    unfold replace_phis, extract_cyclic_dependency. rewrite reorder_rotation.
    assert (length (rotation (d :: r ++ [e])) = length seq_phis) as -> by (rewrite rotation_snoc, app_length, shifts_len, seq_len; cbn; lia).
    rewrite detect_seq. cbn [mapM]. unfold seq_phis. cbn. by rewrite app_nil_r.
  Qed.
End rot.

Lemma rotation_parallel tmp d r e : NoDup (d :: r ++ [e]) -> wf (rotation (d :: r ++ [e])) tmp ->
  parallel (rotation (d :: r ++ [e])) ((tmp, d) :: (mv <$> shifts d r e) ++ [(e, tmp)]).
Proof.
  intros Hnd [Hn Hlt] regs p Hp. rewrite rotation_snoc in *. rewrite fmap_app in Hn. apply stdpp.list.NoDup_app in Hn as (Hn1 & Hn2 & _).
  assert (forall q, q ∈ shifts d r e -> dst q < tmp /\ src q < tmp) as Hb by (intros q Hq; apply Hlt; set_solver).
  assert ((mv <$> shifts d r e).*1 = dst <$> shifts d r e) as Hf by (rewrite <-list_fmap_compose; done).
  cbn [run]. rewrite run_app. cbn [run]. set (R := upd regs tmp (regs d)). unfold upd at 1. apply elem_of_app in Hp as [Hp|Hp].
  - destruct (Nat.eqb_spec (dst p) e) as [E|_].
    + exfalso. apply (Hn2 (dst p)); [by apply elem_of_list_fmap_1|rewrite E; cbn; by left].
    + rewrite (run_seq (shifts d r e) Hn1) by (try done; intros k a m q Ha Hm Hq; by apply (shifts_order d r e Hnd k m)).
      unfold R, upd. destruct (Nat.eqb_spec (src p) tmp) as [E|_]; [|done]. apply Hb in Hp. lia.
  - apply elem_of_list_singleton in Hp as ->. cbn [dst src]. rewrite Nat.eqb_refl. rewrite run_other; [unfold R, upd; by rewrite Nat.eqb_refl|].
    rewrite Hf. intros Hin. apply elem_of_list_fmap in Hin as (q & E & Hq). apply Hb in Hq. lia.
Qed.
Lemma rotation_ok tmp ds : NoDup ds -> 2 <= length ds -> wf (rotation ds) tmp ->
  exists moves, replace_phis tmp (rotation ds) = Some moves /\ parallel (rotation ds) moves.
Proof.
  destruct ds as [|d ds]; [cbn; lia|]. destruct ds as [|e r _] using rev_ind; [cbn; lia|]. intros Hn _ Hok. eexists. split; [by apply replace_rotation|by apply rotation_parallel].
Qed.
