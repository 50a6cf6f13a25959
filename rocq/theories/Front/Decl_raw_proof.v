(** Specifiers mean the same in any order. *)
From stdpp Require Import base list numbers sets.
From Coq Require Import ZifyBool.
From Verif Require Import Front.Decl_model Front.Decl_spec.
Local Open Scope Z_scope.

Lemma check_sub c c' : (forall k, (num c k <= num c' k)%nat) -> check_type_combination c' = true -> check_type_combination c = true.
Proof.
  intros Hle. pose proof (Hle KUnsigned). pose proof (Hle KSigned). pose proof (Hle KChar). pose proof (Hle KShort). pose proof (Hle KInt). pose proof (Hle KLong). pose proof (Hle KFloat). pose proof (Hle KDouble).
  unfold check_type_combination, some. lia.
Qed.
Definition count (k : arith) (ks : list arith) : nat := length (filter (k =.) ks).
Definition of_list (ks : list arith) (s q : Z) : tc := Tc (fun k => count k ks) s q.
Lemma table_ok ks b : (ks, b) ∈ arith_types -> check_type_combination (of_list ks 0 0) = true.
Proof.
  intros H. assert (F : Forall (fun e : list arith * base => check_type_combination (of_list e.1 0 0) = true) arith_types) by (repeat constructor).
  rewrite Forall_forall in F. by apply (F (ks, b)).
Qed.
Lemma check_num c c' : (forall k, num c k = num c' k) -> check_type_combination c = check_type_combination c'.
Proof. intros H. unfold check_type_combination, some. by rewrite !H. Qed.
(** What the counters give. *)
Definition made_base (ks : list arith) : option base := match make (of_list ks 1 0) None with Made (Some (b, _)) => Some b | _ => None end.
Lemma table_made ks b : (ks, b) ∈ arith_types -> made_base ks = Some b.
Proof.
  intros H. assert (F : Forall (fun e : list arith * base => made_base e.1 = Some e.2) arith_types) by (repeat constructor).
  rewrite Forall_forall in F. by apply (F (ks, b)).
Qed.
Definition kept (b : base) (q : Z) : Z := match b with Float | Double | Ldouble => 0 | _ => Z.land q 3 end.
Lemma table_make ks b c : (ks, b) ∈ arith_types -> (forall k, num c k = count k ks) -> make c None = Made (Some (b, kept b (qual c))).
Proof.
  intros H Hn.
  assert (F : Forall (fun e : list arith * base => forall c, (forall k, num c k = count k e.1) -> make c None = Made (Some (e.2, kept e.2 (qual c)))) arith_types).
  { clear. repeat (constructor; [intros c Hc; unfold make, no_nums, some; rewrite !Hc; reflexivity|]). constructor. }
  rewrite Forall_forall in F. by apply (F (ks, b) H c).
Qed.
Lemma count_perm k l l' : l ≡ₚ l' -> count k l = count k l'.
Proof. intros H. unfold count. by rewrite H. Qed.

Definition order_of (ss : list storage) : Z := foldl (fun a s => Z.lor a (bit s)) 0 ss.
Fixpoint run_storage (c : Z) (ss : list storage) : option Z :=
  match ss with
  | [] => Some c
  | s :: ss => if Z.land c (Z.lnot (before s)) =? 0 then run_storage (Z.lor c (bit s)) ss else None
  end.
Lemma storage_ok ss ss' st : ss ≡ₚ ss' -> (ss', st) ∈ storage_classes -> run_storage 0 ss = Some st.
Proof.
  intros Hp H. unfold storage_classes in H.
  repeat (apply elem_of_cons in H as [[= -> ->]|H]; [first [apply Permutation_nil_r in Hp as -> | apply Permutation_singleton_r in Hp as -> |
    apply Permutation_length_2_inv in Hp || (symmetry in Hp; apply Permutation_length_2_inv in Hp as [->| ->])]; reflexivity|]).
  by apply elem_of_nil in H.
Qed.
Fixpoint run_quals (c : Z) (qs : list Z) : option Z :=
  match qs with
  | [] => Some c
  | q :: qs => if Z.land c q =? 0 then run_quals (Z.lor c q) qs else None
  end.
Lemma run_quals_ok qs : forall c, NoDup qs -> Forall (fun q => q ∈ [TQ_CONST; TQ_VOLATILE; TQ_RESTRICT]) qs -> (forall q, q ∈ qs -> Z.land c q = 0) -> run_quals c qs = Some (Z.lor c (all_quals qs)).
Proof.
  induction qs as [|q qs IH]; intros c Hn Hq H0; [cbn; by rewrite Z.lor_0_r|]. cbn [run_quals]. rewrite (H0 q) by set_solver. cbn [Z.eqb].
  inversion_clear Hn as [|?? Hnq Hnn]. inversion_clear Hq as [|?? Hq1 Hq2]. rewrite IH; [cbn [all_quals foldr]; by rewrite Z.lor_assoc|done|done|].
  intros q' Hq'. rewrite Z.land_lor_distr_l, (H0 q') by set_solver. cbn. rewrite Forall_forall in Hq2. specialize (Hq2 q' Hq'). assert (q <> q') by congruence. set_unfold. destruct_or?; subst; done.
Qed.
Lemma quals_ok qs : some_quals qs -> run_quals 0 qs = Some (all_quals qs).
Proof. intros [H1 H2]. rewrite run_quals_ok; [done|done|done|]. intros. apply Z.land_0_l. Qed.

Lemma set_err_false r : set_err false r = r. Proof. by destruct r. Qed.
Definition simple (t : ptok) : Prop := match t with PArith _ | PStorage _ | PQual _ => True | _ => False end.
Lemma run_simple ts : forall c t first rest st q, Forall simple ts -> (first = true \/ check_type_combination c = true) ->
  (forall c', (forall k, num c' k = num c k + count k (ariths ts))%nat -> check_type_combination c' = true) ->
  run_storage (stor c) (storages ts) = Some st -> run_quals (qual c) (quals ts) = Some q ->
  exists c', (forall k, num c' k = num c k + count k (ariths ts))%nat /\ stor c' = st /\ qual c' = q /\
    specifiers c t first (ts ++ rest) = specifiers c' t (if ts then first else false) rest.
Proof.
  induction ts as [|tk ts IH]; intros c t first rest st q Hs Hf Hch Hst Hq.
  - injection Hst as <-. injection Hq as <-. exists c. split; [intros; cbn; lia|]. by repeat split.
  - inversion_clear Hs as [|?? Hs1 Hs2].
    assert (He : negb first && negb (check_type_combination c) = false) by (destruct Hf as [-> | ->]; [done|by rewrite andb_false_r]).
    destruct tk as [k|s|q1| |]; try done.
    + cbn [app specifiers]. rewrite He, set_err_false.
      assert (Hadd : forall k', (num (add_num c k) k' + count k' (ariths ts) = num c k' + count k' (ariths (PArith k :: ts)))%nat).
      { intros k'. change (ariths (PArith k :: ts)) with (k :: ariths ts). unfold count. rewrite filter_cons. unfold add_num. cbn [num]. destruct (decide (k' = k)); cbn [length]; lia. }
      destruct (IH (add_num c k) t false rest st q Hs2) as (c' & H1 & H2 & H3 & H4); [|intros c' Hc'; apply Hch; intros k'; by rewrite Hc'|done|done|].
      * right. eapply (check_sub _ (Tc (fun k' => num c k' + count k' (ariths (PArith k :: ts)))%nat 0 0)); [|by apply Hch]. intros k'. cbn [num]. rewrite <- Hadd. lia.
      * exists c'. split; [intros k'; by rewrite H1|]. split; [done|]. split; [done|]. rewrite H4. by destruct ts.
    + cbn [app specifiers]. rewrite He, set_err_false. cbn in Hst. destruct (Z.land (stor c) (Z.lnot (before s)) =? 0) eqn:Es; [|done].
      destruct (IH (Tc (num c) (Z.lor (stor c) (bit s)) (qual c)) t false rest st q Hs2) as (c' & H1 & H2 & H3 & H4); [|done|done|done|].
      * right. eapply (check_sub _ (Tc (fun k' => num c k' + count k' (ariths (PStorage s :: ts)))%nat 0 0)); [|by apply Hch]. intros k'. cbn [num]. lia.
      * exists c'. split; [done|]. split; [done|]. split; [done|]. rewrite H4. by destruct ts.
    + cbn [app specifiers]. rewrite He, set_err_false. cbn in Hq. destruct (Z.land (qual c) q1 =? 0) eqn:Es; [|done].
      destruct (IH (Tc (num c) (stor c) (Z.lor (qual c) q1)) t false rest st q Hs2) as (c' & H1 & H2 & H3 & H4); [|done|done|done|].
      * right. eapply (check_sub _ (Tc (fun k' => num c k' + count k' (ariths (PQual q1 :: ts)))%nat 0 0)); [|by apply Hch]. intros k'. cbn [num]. lia.
      * exists c'. split; [done|]. split; [done|]. split; [done|]. rewrite H4. by destruct ts.
Qed.
Lemma simple_of ts : Forall (fun t => match t with POther _ => False | _ => True end) ts -> named ts = [] -> Forall simple ts.
Proof.
  induction ts as [|tk ts IH]; intros H Hn; [constructor|]. inversion_clear H. destruct tk; cbn in Hn; try done; constructor; try done; by apply IH.
Qed.
Lemma stop_here c t first rest : (first = true \/ check_type_combination c = true) -> no_specifier rest -> (t <> None \/ no_nums c = false) -> specifiers c t first rest = finish c t rest.
Proof.
  intros Hf Hr Ht. assert (He : negb first && negb (check_type_combination c) = false) by (destruct Hf as [-> | ->]; [done|by rewrite andb_false_r]).
  destruct rest as [|tk rest]; cbn [specifiers]; rewrite He, set_err_false; [done|]. destruct tk as [| | |n q []|]; try done. destruct t; [done|]. destruct Ht as [?|Ht]; [done|]. by rewrite Ht.
Qed.
Lemma raw_arith ts ks b ss st rest : Forall (fun t => match t with POther _ => False | _ => True end) ts -> ariths ts ≡ₚ ks -> (ks, b) ∈ arith_types -> named ts = [] ->
  storages ts ≡ₚ ss -> (ss, st) ∈ storage_classes -> some_quals (quals ts) -> no_specifier rest ->
  parse_raw_type (ts ++ rest) = Raw (Some (b, kept b (all_quals (quals ts)))) st rest false.
Proof.
  intros Hall Hk Hb Hn Hs Hst Hq Hr.
  assert (Hcnt : forall c' : tc, (forall k, num c' k = num tc0 k + count k (ariths ts))%nat -> forall k, num c' k = count k ks) by (intros c' Hc' k; rewrite Hc'; cbn; by apply count_perm).
  assert (Hok : forall c' : tc, (forall k, num c' k = num tc0 k + count k (ariths ts))%nat -> check_type_combination c' = true).
  { intros c' Hc'. rewrite (check_num c' (of_list ks 0 0)); [by eapply table_ok|]. by apply Hcnt. }
  destruct (run_simple ts tc0 None true rest st (all_quals (quals ts)) (simple_of ts Hall Hn) ltac:(by left) Hok) as (c' & H1 & H2 & H3 & H4);
    [by eapply storage_ok|by apply quals_ok|].
  unfold parse_raw_type. rewrite H4. pose proof (table_make ks b c' Hb (Hcnt c' H1)) as Hm. rewrite stop_here; [|right; by apply Hok|done|right].
  - unfold finish. rewrite Hm. by rewrite H2, H3.
  - assert (F : Forall (fun e : list arith * base => forall c, (forall k, num c k = count k e.1) -> no_nums c = false) arith_types).
    { clear. repeat (constructor; [intros c Hc; unfold no_nums, some; rewrite !Hc; reflexivity|]). constructor. }
    rewrite Forall_forall in F. apply (F (ks, b) Hb c'). by apply Hcnt.
Qed.
Lemma ariths_app l1 l2 : ariths (l1 ++ l2) = ariths l1 ++ ariths l2. Proof. induction l1 as [|[] l1 IH]; [done|..]; first [exact IH | exact (f_equal (cons _) IH)]. Qed.
Lemma storages_app l1 l2 : storages (l1 ++ l2) = storages l1 ++ storages l2. Proof. induction l1 as [|[] l1 IH]; [done|..]; first [exact IH | exact (f_equal (cons _) IH)]. Qed.
Lemma quals_app l1 l2 : quals (l1 ++ l2) = quals l1 ++ quals l2. Proof. induction l1 as [|[] l1 IH]; [done|..]; first [exact IH | exact (f_equal (cons _) IH)]. Qed.
Lemma run_storage_app l1 : forall c l2 st, run_storage c (l1 ++ l2) = Some st -> exists c', run_storage c l1 = Some c' /\ run_storage c' l2 = Some st.
Proof. induction l1 as [|s l1 IH]; intros c l2 st; cbn; [by eexists|]. destruct (_ =? 0); [apply IH|done]. Qed.
Lemma run_quals_app l1 : forall c l2 st, run_quals c (l1 ++ l2) = Some st -> exists c', run_quals c l1 = Some c' /\ run_quals c' l2 = Some st.
Proof. induction l1 as [|s l1 IH]; intros c l2 st; cbn; [by eexists|]. destruct (_ =? 0); [apply IH|done]. Qed.
Lemma raw_named ts n q ss st rest : Forall (fun t => match t with POther _ => False | _ => True end) ts -> ariths ts = [] -> named ts = [(n, q)] ->
  storages ts ≡ₚ ss -> (ss, st) ∈ storage_classes -> some_quals (quals ts) -> no_specifier rest ->
  parse_raw_type (ts ++ rest) = Raw (Some (Named n, Z.lor q (all_quals (quals ts)))) st rest false.
Proof.
  intros Hall Hk Hn Hs Hst Hq Hr.
  assert (Hsp : exists l1 l2 w, ts = l1 ++ PNamed n q w :: l2 /\ named l1 = [] /\ named l2 = []).
  { clear -Hn. induction ts as [|tk ts IH]; [done|]. destruct tk as [k|s|q1|n' q' w|j]; cbn in Hn.
    1,2,3,5: destruct (IH Hn) as (l1 & l2 & w & -> & H1 & H2); eexists (_ :: l1), l2, w; by split.
    injection Hn as -> -> Hn. by exists [], ts, w. }
  destruct Hsp as (l1 & l2 & w & -> & Hn1 & Hn2). apply Forall_app in Hall as [Ha1 Ha2]. inversion_clear Ha2 as [|?? _ Ha3].
  rewrite ariths_app in Hk. rewrite storages_app in Hs. rewrite quals_app in Hq |- *.
  change (ariths (PNamed n q w :: l2)) with (ariths l2) in Hk. change (storages (PNamed n q w :: l2)) with (storages l2) in Hs. change (quals (PNamed n q w :: l2)) with (quals l2) in Hq |- *.
  apply app_nil in Hk as [Hk1 Hk2].
  apply storage_ok with (st := st) in Hs; [|done]. apply run_storage_app in Hs as (s1 & Hs1 & Hs2). apply quals_ok in Hq. set (qq := all_quals _) in *. apply run_quals_app in Hq as (q1 & Hq1 & Hq2).
  assert (Hz : forall c' : tc, (forall k, num c' k = 0)%nat -> check_type_combination c' = true /\ no_nums c' = true).
  { intros c' Hc'. unfold check_type_combination, no_nums, some. by rewrite !Hc'. }
  destruct (run_simple l1 tc0 None true (PNamed n q w :: l2 ++ rest) s1 q1 (simple_of l1 Ha1 Hn1) ltac:(by left)) as (c1 & A1 & A2 & A3 & A4); [|done|done|].
  { intros c' Hc'. apply Hz. intros k. rewrite Hc'. rewrite Hk1. done. }
  assert (Hc1 : forall k, num c1 k = 0%nat). { intros k. rewrite A1. rewrite Hk1. done. }
  destruct (Hz c1 Hc1) as [Z1 Z2].
  destruct (run_simple l2 c1 (Some (Named n, q)) false rest st qq (simple_of l2 Ha3 Hn2) ltac:(by right)) as (c2 & B1 & B2 & B3 & B4); [|by rewrite A2|by rewrite A3|].
  { intros c' Hc'. apply Hz. intros k. rewrite Hc', Hc1. rewrite Hk2. done. }
  assert (Hc2 : forall k, num c2 k = 0%nat). { intros k. rewrite B1, Hc1. rewrite Hk2. done. }
  unfold parse_raw_type. rewrite <- app_assoc. cbn [app]. rewrite A4.
  assert (E : specifiers c1 None (match l1 with [] => true | _ :: _ => false end) (PNamed n q w :: l2 ++ rest) = specifiers c1 (Some (Named n, q)) false (l2 ++ rest)).
  { cbn [specifiers]. rewrite Z1, Z2. cbn [negb]. rewrite andb_false_r, set_err_false. destruct w; [done| |done]. apply set_err_false. }
  rewrite E, B4. rewrite stop_here; [|right; by apply Hz|done|by left]. unfold finish. cbn [make]. by rewrite B2, B3.
Qed.
Lemma raw_type ts b st q rest : specify ts b st q -> no_specifier rest -> exists q', parse_raw_type (ts ++ rest) = Raw (Some (b, q')) st rest false.
Proof.
  intros [ks b' ss st' H1 H2 H3 H4 H5 H6 H7|n q' ss st' H1 H2 H3 H4 H5 H6] Hr; eexists; [by eapply raw_arith|by eapply raw_named].
Qed.
Lemma small_quals qs : TQ_RESTRICT ∉ qs -> Forall (fun q => q ∈ [TQ_CONST; TQ_VOLATILE; TQ_RESTRICT]) qs -> Z.land (all_quals qs) 3 = all_quals qs.
Proof.
  induction qs as [|q qs IH]; intros Hn Hq; [done|]. inversion_clear Hq as [|?? H1 H2]. cbn [all_quals foldr]. fold (all_quals qs). rewrite Z.land_lor_distr_l, IH by (done || set_solver).
  f_equal. set_unfold. destruct H1 as [->|[->|[->|[]]]]; try done. destruct Hn. by left.
Qed.
Lemma raw_quals ts b st q rest : specify ts b st q -> no_specifier rest -> floating b = false -> TQ_RESTRICT ∉ quals ts -> parse_raw_type (ts ++ rest) = Raw (Some (b, q)) st rest false.
Proof.
  intros [ks b' ss st' H1 H2 H3 H4 H5 H6 H7|n q' ss st' H1 H2 H3 H4 H5 H6] Hr Hb Hq.
  - rewrite (raw_arith ts ks b' ss st'); [|done..]. destruct b'; try done; cbn [kept]; rewrite small_quals; [done|done|by apply H7|done|done|by apply H7].
  - by apply (raw_named ts n q' ss).
Qed.
Lemma specify_one ts b st q b' st' q' : specify ts b st q -> specify ts b' st' q' -> b = b' /\ st = st'.
Proof. intros H H'. destruct (raw_type ts b st q [] H I) as [x E]. destruct (raw_type ts b' st' q' [] H' I) as [x' E']. rewrite E in E'. by injection E' as -> _ ->. Qed.
