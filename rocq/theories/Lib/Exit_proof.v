(** Proofs about [Exit_model]. *)
From stdpp Require Import base numbers list.
From Verif Require Import Lib.Exit_model Lib.Exit_spec.

(** The arrays hold [A] and [C]. *)
Record inv (s : state) (A : list nat) (C : list (nat * nat)) : Prop := {
  ia : acount s = length A; ia8 : length A <= 8; ial : length (abuf s) = 8; iat : firstn (length A) (abuf s) = A;
  ic : ccount s = length C; ic8 : length C <= 8; icl : length (cbuf s) = 8; ict : firstn (length C) (cbuf s) = C }.
Lemma inv_init : inv init [] [].
Proof. by split; cbn; try lia. Qed.

Lemma firstn_insert {X} (l : list X) : forall n x, n < length l -> firstn (S n) (<[n:=x]> l) = firstn n l ++ [x].
Proof.
  induction l as [|y l IH]; intros n x H; [cbn in H; lia|]. destruct n as [|n]; [done|].
  cbn in H. change (<[S n:=x]> (y :: l)) with (y :: <[n:=x]> l).
  change (firstn (S (S n)) (y :: <[n:=x]> l)) with (y :: firstn (S n) (<[n:=x]> l)).
  rewrite IH by lia. done.
Qed.

Lemma register_inv c s A C : inv s A C ->
  inv (snd (register c s)) (firstn 8 (A ++ ats [c])) (firstn 8 (C ++ cxas [c])).
Proof.
  intros [H1 H2 H3 H4 H5 H6 H7 H8]. destruct c as [f|f a|f]; cbn [register].
  - unfold atexit, MAX, ats, cxas. cbn [omap list_omap]. rewrite app_nil_r, (firstn_all2 C) by lia.
    destruct (8 <=? acount s) eqn:E.
    + apply Nat.leb_le in E. rewrite firstn_app, (firstn_all2 A) by lia. replace (8 - length A) with 0 by lia.
      cbn [firstn snd]. rewrite app_nil_r. by split.
    + apply Nat.leb_gt in E. rewrite firstn_all2 by (rewrite app_length; cbn; lia).
      split; cbn [snd acount abuf ccount cbuf]; rewrite ?app_length, ?insert_length; cbn [length]; try lia; try done.
      rewrite H1, Nat.add_1_r, firstn_insert by lia. by rewrite H4.
  - unfold cxa_atexit, MAX, ats, cxas. cbn [omap list_omap]. rewrite app_nil_r, (firstn_all2 A) by lia.
    destruct (8 <=? ccount s) eqn:E.
    + apply Nat.leb_le in E. rewrite firstn_app, (firstn_all2 C) by lia. replace (8 - length C) with 0 by lia.
      cbn [firstn snd]. rewrite app_nil_r. by split.
    + apply Nat.leb_gt in E. rewrite firstn_all2 by (rewrite app_length; cbn; lia).
      split; cbn [snd acount abuf ccount cbuf]; rewrite ?app_length, ?insert_length; cbn [length]; try lia; try done.
      rewrite H5, Nat.add_1_r, firstn_insert by lia. by rewrite H8.
  - cbn. rewrite !app_nil_r, (firstn_all2 A), (firstn_all2 C) by lia. by split.
Qed.
Lemma ats_app a b : ats (a ++ b) = ats a ++ ats b.
Proof. unfold ats. apply omap_app. Qed.
Lemma cxas_app a b : cxas (a ++ b) = cxas a ++ cxas b.
Proof. unfold cxas. apply omap_app. Qed.
Lemma finis_app a b : finis (a ++ b) = finis a ++ finis b.
Proof. unfold finis. apply omap_app. Qed.
Lemma firstn_twice {X} (a b : list X) n : firstn n (firstn n a ++ b) = firstn n (a ++ b).
Proof.
  destruct (le_lt_dec (length a) n) as [H|H]; [by rewrite (firstn_all2 a) by lia|].
  rewrite !firstn_app, firstn_firstn, Nat.min_id, firstn_length. replace (n - n `min` length a) with 0 by lia.
  by replace (n - length a) with 0 by lia.
Qed.
Lemma registers_inv l : forall s A C, inv s A C ->
  inv (snd (registers l s)) (firstn 8 (A ++ ats l)) (firstn 8 (C ++ cxas l)).
Proof.
  induction l as [|c l IH]; intros s A C I.
  - cbn. rewrite !app_nil_r. destruct I. rewrite (firstn_all2 A), (firstn_all2 C) by lia. by split.
  - pose proof (register_inv c s A C I) as J. cbn [registers]. destruct (register c s) as [r s1]. cbn [snd] in J.
    apply (IH s1) in J. destruct (registers l s1) as [rs s2]. cbn [snd] in *.
    change (c :: l) with ([c] ++ l). rewrite ats_app, cxas_app, !app_assoc.
    by rewrite !firstn_twice in J.
Qed.
Lemma registers_more l s A C : inv s A C -> exists A' C', inv (snd (registers l s)) (A ++ A') (C ++ C') /\
  (ats l = [] -> A' = []) /\ (cxas l = [] -> C' = []).
Proof.
  intros I. pose proof (registers_inv l s A C I) as J. destruct I. rewrite !firstn_app, (firstn_all2 A), (firstn_all2 C) in J by lia.
  eexists _, _. split; [exact J|]. split; intros ->; by rewrite firstn_nil.
Qed.

Section Body.
Context (body : call -> list call).
Lemma call_at k : forall s A C, inv s A C -> k <= length A ->
  fst (call_atexit_funcs body k s) = map At (rev (firstn k A)) /\
  exists A' C', inv (snd (call_atexit_funcs body k s)) (A ++ A') (C ++ C') /\ ((forall f, cxas (body (At f)) = []) -> C' = []).
Proof.
  induction k as [|k IH]; intros s A C I Hk.
  { split; [done|]. exists [], []. rewrite !app_nil_r. done. }
  cbn [call_atexit_funcs]. set (f := nth k (abuf s) 0).
  destruct (registers_more (body (At f)) s A C I) as (A1 & C1 & I1 & _ & N1).
  destruct (IH _ _ _ I1) as (T & A2 & C2 & I2 & N2); [rewrite app_length; lia|].
  destruct (call_atexit_funcs body k _) as [t s2]. cbn [fst snd] in *. split.
  - rewrite T. assert (nth k A 0 = f) as Ef.
    { unfold f. destruct I. rewrite <- iat0. rewrite <- (firstn_skipn (length A) (abuf s)) at 2.
      rewrite app_nth1; [done|]. rewrite iat0. lia. }
    assert (firstn (S k) A = firstn k A ++ [f]) as ->.
    { rewrite <- Ef. clear -Hk. revert k Hk. induction A as [|x A IH]; intros k Hk; [cbn in Hk; lia|].
      destruct k as [|k]; [done|]. cbn in Hk. change (firstn (S (S k)) (x :: A)) with (x :: firstn (S k) A).
      rewrite IH by lia. done. }
    rewrite rev_app_distr, firstn_app. replace (k - length A) with 0 by lia. cbn [firstn rev app map]. by rewrite app_nil_r.
  - exists (A1 ++ A2), (C1 ++ C2). rewrite !app_assoc. split; [done|]. intros N. rewrite N1 by apply N. by rewrite N2.
Qed.
Lemma call_cxa k : forall s A C, inv s A C -> k <= length C ->
  fst (call_cxa_atexit_funcs body k s) = map (fun p => Cxa (fst p) (snd p)) (rev (firstn k C)) /\
  exists A' C', inv (snd (call_cxa_atexit_funcs body k s)) (A ++ A') (C ++ C') /\ ((forall f a, ats (body (Cxa f a)) = []) -> A' = []).
Proof.
  induction k as [|k IH]; intros s A C I Hk.
  { split; [done|]. exists [], []. rewrite !app_nil_r. done. }
  cbn [call_cxa_atexit_funcs]. set (f := nth k (cbuf s) (0, 0)).
  destruct (registers_more (body (Cxa (fst f) (snd f))) s A C I) as (A1 & C1 & I1 & N1 & _).
  destruct (IH _ _ _ I1) as (T & A2 & C2 & I2 & N2); [rewrite app_length; lia|].
  destruct (call_cxa_atexit_funcs body k _) as [t s2]. cbn [fst snd] in *. split.
  - rewrite T. assert (nth k C (0, 0) = f) as Ef.
    { unfold f. destruct I. rewrite <- ict0. rewrite <- (firstn_skipn (length C) (cbuf s)) at 2.
      rewrite app_nth1; [done|]. rewrite ict0. lia. }
    assert (firstn (S k) C = firstn k C ++ [f]) as ->.
    { rewrite <- Ef. clear -Hk. revert k Hk. induction C as [|x C IH]; intros k Hk; [cbn in Hk; lia|].
      destruct k as [|k]; [done|]. cbn in Hk. change (firstn (S (S k)) (x :: C)) with (x :: firstn (S k) C).
      rewrite IH by lia. done. }
    rewrite rev_app_distr, firstn_app. replace (k - length C) with 0 by lia. cbn [firstn rev app map]. by rewrite app_nil_r.
  - exists (A1 ++ A2), (C1 ++ C2). rewrite !app_assoc. split; [done|]. intros N. rewrite N1 by apply N. by rewrite N2.
Qed.
Lemma call_fini l : forall s, fst (call_fini_funcs body l s) = map Fini l.
Proof.
  induction l as [|f l IH]; intros s; [done|]. cbn [call_fini_funcs]. specialize (IH (snd (registers (body (Fini f)) s))).
  destruct (call_fini_funcs body l _). cbn in *. by rewrite IH.
Qed.
End Body.

Lemma ats_map l : ats (map At l) = l.
Proof. induction l as [|x l IH]; [done|]. cbn. f_equal. exact IH. Qed.
Lemma ats_cxa l : ats (map (fun p => Cxa (fst p) (snd p)) l) = [].
Proof. by induction l. Qed.
Lemma ats_fini l : ats (map Fini l) = [].
Proof. by induction l. Qed.
Lemma cxas_at l : cxas (map At l) = [].
Proof. by induction l. Qed.
Lemma cxas_map l : cxas (map (fun p => Cxa (fst p) (snd p)) l) = l.
Proof. induction l as [|[x y] l IH]; [done|]. cbn. f_equal. exact IH. Qed.
Lemma cxas_fini l : cxas (map Fini l) = [].
Proof. by induction l. Qed.
Lemma finis_at l : finis (map At l) = [].
Proof. by induction l. Qed.
Lemma finis_cxa l : finis (map (fun p => Cxa (fst p) (snd p)) l) = [].
Proof. by induction l. Qed.
Lemma finis_map l : finis (map Fini l) = l.
Proof. induction l as [|x l IH]; [done|]. cbn. f_equal. exact IH. Qed.

Lemma init_run l : forall chain s A C, inv s A C ->
  fst (call_init_funcs l chain s) =
    rev (omap (fun c => match c with RegAtexit => Some LAtexit | RegCxa => Some LCxa | User _ => None end) l) ++ chain /\
  inv (snd (call_init_funcs l chain s)) (firstn 8 (A ++ ats (by_ctors l))) (firstn 8 (C ++ cxas (by_ctors l))).
Proof.
  induction l as [|c l IH]; intros chain s A C I.
  { cbn. rewrite !app_nil_r. destruct I. rewrite (firstn_all2 A), (firstn_all2 C) by lia. split; [done|by split]. }
  destruct c as [| |u]; cbn [call_init_funcs by_ctors omap list_omap rev].
  - destruct (IH (LAtexit :: chain) s A C I) as [E J]. split; [|done]. rewrite E. by rewrite <- app_assoc.
  - destruct (IH (LCxa :: chain) s A C I) as [E J]. split; [|done]. rewrite E. by rewrite <- app_assoc.
  - destruct (IH chain _ _ _ (registers_inv u s A C I)) as [E J]. split; [done|].
    rewrite !firstn_twice in J. by rewrite ats_app, cxas_app, !app_assoc.
Qed.
Definition links (l : list ctor) : list link :=
  omap (fun c => match c with RegAtexit => Some LAtexit | RegCxa => Some LCxa | User _ => None end) l.
Lemma links_none l : length (List.filter is_RegAtexit l) = 0 -> length (List.filter is_RegCxa l) = 0 -> links l = [].
Proof. induction l as [|[]]; cbn; intros; try lia; auto. Qed.
Lemma links_a l : length (List.filter is_RegAtexit l) = 1 -> length (List.filter is_RegCxa l) = 0 -> links l = [LAtexit].
Proof. induction l as [|[]]; cbn; intros; try lia; [|auto]. f_equal. apply links_none; lia. Qed.
Lemma links_c l : length (List.filter is_RegAtexit l) = 0 -> length (List.filter is_RegCxa l) = 1 -> links l = [LCxa].
Proof. induction l as [|[]]; cbn; intros; try lia; [|auto]. f_equal. apply links_none; lia. Qed.
Lemma links_two l : length (List.filter is_RegAtexit l) = 1 -> length (List.filter is_RegCxa l) = 1 ->
  links l = [LAtexit; LCxa] \/ links l = [LCxa; LAtexit].
Proof.
  induction l as [|[] l IH]; cbn; intros; try lia.
  - left. f_equal. apply links_c; lia.
  - right. f_equal. apply links_a; lia.
  - auto.
Qed.


(** The calls, as three lists in one of two orders. *)
Lemma start2_run p : linked p -> exists A C A' C',
  A = firstn 8 (ats (before_exit p)) /\ C = firstn 8 (cxas (before_exit p)) /\
  ((forall f a, ats (bodies p (Cxa f a)) = []) -> A' = []) /\ ((forall f, cxas (bodies p (At f)) = []) -> C' = []) /\
  let t := snd (start2 p) in
  (t = map At (rev (A ++ A')) ++ map (fun q => Cxa (fst q) (snd q)) (rev (C ++ C')) ++ map Fini (fini_array p) \/
   t = map (fun q => Cxa (fst q) (snd q)) (rev (C ++ C')) ++ map At (rev (A ++ A')) ++ map Fini (fini_array p)).
Proof.
  intros [H1 H2]. unfold start2, before_exit.
  destruct (init_run (init_array p) [LFini] init [] [] inv_init) as [E I].
  destruct (call_init_funcs (init_array p) [LFini] init) as [chain s]. cbn [fst snd] in E, I. subst chain.
  pose proof (registers_inv (main p) s _ _ I) as J. destruct (registers (main p) s) as [rs s1]. cbn [snd] in *.
  rewrite !firstn_twice in J. cbn [app] in J. rewrite <- ats_app, <- cxas_app in J.
  set (A := firstn 8 (ats _)) in *. set (C := firstn 8 (cxas _)) in *. fold (links (init_array p)).
  destruct (links_two _ H1 H2) as [->| ->]; cbn [rev app exit].
  - destruct (call_cxa (bodies p) (ccount s1) s1 A C J) as (T & A1 & C1 & J1 & N1); [destruct J; lia|].
    destruct (call_cxa_atexit_funcs (bodies p) (ccount s1) s1) as [t s2]. cbn [fst snd] in *.
    destruct (call_at (bodies p) (acount s2) s2 _ _ J1) as (T2 & _); [destruct J1; lia|].
    destruct (call_atexit_funcs (bodies p) (acount s2) s2) as [t2 s3]. cbn [fst snd] in *.
    pose proof (call_fini (bodies p) (fini_array p) s3) as T3. destruct (call_fini_funcs (bodies p) (fini_array p) s3) as [t3 s4].
    cbn [fst snd] in *. rewrite app_nil_r. subst t t2 t3. exists A, C, A1, []. split_and!; try done. right.
    destruct J, J1. rewrite ic0, ia1, !firstn_all, app_nil_r. done.
  - destruct (call_at (bodies p) (acount s1) s1 A C J) as (T & A1 & C1 & J1 & N1); [destruct J; lia|].
    destruct (call_atexit_funcs (bodies p) (acount s1) s1) as [t s2]. cbn [fst snd] in *.
    destruct (call_cxa (bodies p) (ccount s2) s2 _ _ J1) as (T2 & _); [destruct J1; lia|].
    destruct (call_cxa_atexit_funcs (bodies p) (ccount s2) s2) as [t2 s3]. cbn [fst snd] in *.
    pose proof (call_fini (bodies p) (fini_array p) s3) as T3. destruct (call_fini_funcs (bodies p) (fini_array p) s3) as [t3 s4].
    cbn [fst snd] in *. rewrite app_nil_r. subst t t2 t3. exists A, C, [], C1. split_and!; try done. left.
    destruct J, J1. rewrite ia0, ic1, !firstn_all, app_nil_r. done.
Qed.

Lemma atexit_order p : linked p -> (forall f a, ats (bodies p (Cxa f a)) = []) ->
  ats (snd (start2 p)) = rev (firstn 8 (ats (before_exit p))).
Proof.
  intros L N. destruct (start2_run p L) as (A & C & A' & C' & -> & -> & N1 & _ & [-> | ->]); rewrite (N1 N), app_nil_r;
    rewrite !ats_app, ats_map, ats_cxa, ats_fini, ?app_nil_r; done.
Qed.
Lemma cxa_order p : linked p -> (forall f, cxas (bodies p (At f)) = []) ->
  cxas (snd (start2 p)) = rev (firstn 8 (cxas (before_exit p))).
Proof.
  intros L N. destruct (start2_run p L) as (A & C & A' & C' & -> & -> & _ & N1 & [-> | ->]); rewrite (N1 N), (app_nil_r (firstn 8 (cxas _)));
    rewrite !cxas_app, cxas_map, cxas_at, cxas_fini, ?app_nil_r; done.
Qed.

Lemma fini_last_app a l : finis a = [] -> fini_last (a ++ map Fini l).
Proof.
  intros H x f y E.
  assert (exists l', y = map Fini l') as (l' & ->).
  { revert x E. induction a as [|c a IH]; intros x E.
    - revert x E. cbn. induction l as [|g l IH]; intros [|c x] E; cbn in E; try done.
      + injection E as _ <-. by exists l.
      + injection E as _ E. by apply IH in E.
    - destruct c as [g|g b|g]; cbn in H; try done; destruct x as [|c' x]; cbn in E; try done;
        injection E as _ E; by apply (IH H) in E. }
  by rewrite ats_fini, cxas_fini.
Qed.
Lemma fini_after p : linked p -> finis (snd (start2 p)) = fini_array p /\ fini_last (snd (start2 p)).
Proof.
  intros L. destruct (start2_run p L) as (A & C & A' & C' & _ & _ & _ & _ & [-> | ->]); rewrite app_assoc; split.
  - by rewrite !finis_app, finis_at, finis_cxa, finis_map.
  - apply fini_last_app. by rewrite finis_app, finis_at, finis_cxa.
  - by rewrite !finis_app, finis_at, finis_cxa, finis_map.
  - apply fini_last_app. by rewrite finis_app, finis_at, finis_cxa.
Qed.

(** Results of registrations. *)
Lemma results l : forall s A C, inv s A C -> forall i c, l !! i = Some c ->
  match c with
  | At _ => (fst (registers l s) !! i = Some 0 <-> length A + length (ats (firstn i l)) < 8)
  | Cxa _ _ => (fst (registers l s) !! i = Some 0 <-> length C + length (cxas (firstn i l)) < 8)
  | Fini _ => True
  end.
Proof.
  induction l as [|d l IH]; intros s A C I i c E; [done|].
  pose proof (register_inv d s A C I) as J. cbn [registers].
  destruct i as [|i].
  - injection E as ->. destruct I. destruct c as [f|f a|f]; [| |done]; cbn [register firstn ats cxas omap list_omap length].
    + unfold atexit, MAX. destruct (8 <=? acount s) eqn:G; destruct (registers l _); cbn; [apply Nat.leb_le in G|apply Nat.leb_gt in G];
        (split; [intros X; first [discriminate X|lia]|intros X; first [reflexivity|lia]]).
    + unfold cxa_atexit, MAX. destruct (8 <=? ccount s) eqn:G; destruct (registers l _); cbn; [apply Nat.leb_le in G|apply Nat.leb_gt in G];
        (split; [intros X; first [discriminate X|lia]|intros X; first [reflexivity|lia]]).
  - cbn in E. destruct (register d s) as [r s1]. cbn [snd] in J. specialize (IH s1 _ _ J i c E).
    destruct (registers l s1) as [rs s2]. cbn [fst] in *. change ((r :: rs) !! S i) with (rs !! i).
    change (firstn (S i) (d :: l)) with ([d] ++ firstn i l). rewrite ats_app, cxas_app, !app_length.
    rewrite !firstn_length, !app_length in IH.
    destruct c; [| |done]; rewrite IH; lia.
Qed.
Lemma registers_results l i c : l !! i = Some c ->
  match c with
  | At _ => (fst (registers l init) !! i = Some 0 <-> length (ats (firstn i l)) < 8)
  | Cxa _ _ => (fst (registers l init) !! i = Some 0 <-> length (cxas (firstn i l)) < 8)
  | Fini _ => True
  end.
Proof. intros E. pose proof (results l init [] [] inv_init i c E) as R. destruct c; exact R. Qed.
