(** Functions some of whose phis are replaced; blocks inserted on edges. *)
From stdpp Require Import base list numbers.
From Verif Require Import Back.Unused_model Back.Unused_spec Back.Unphi_model Back.Unphi_spec Back.Unphi_look_proof.
Local Open Scope nat_scope.

Definition is1 (o : option nat) (c : nat) : nat := if decide (o = Some c) then 1 else 0.
Section Static.
  Context {K C : Type}.
  Implicit Types e : option (jmp C * list (Z + nat)).
  Definition multi e : bool := match e with Some (Multi _, _) => true | _ => false end.
  Definition leads e (nx : option nat) (c : nat) : Prop :=
    match e with None => nx = Some c | Some (Goto t, _) => c = t | Some (Cond _ t, _) => c = t \/ nx = Some c | Some (Multi ts, _) => c ∈ ts end.
  (** How often a block names [c]. *)
  Definition times e (nx : option nat) (c : nat) : nat :=
    match e with None => is1 nx c | Some (Goto t, _) => is1 (Some t) c | Some (Cond _ t, _) => is1 (Some t) c + is1 nx c | Some (Multi ts, _) => 0 end.
  Definition occ (a : nat) (l : list nat) : nat := length (filter (fun b => b = a) l).
  Lemma leads_times e nx c : multi e = false -> leads e nx c <-> 0 < times e nx c.
  Proof.
    unfold multi, leads, times, is1. destruct e as [[[t|d t|ts] l]|]; [| |done|]; intros _; repeat case_decide; (split; [intros Hz; naive_solver lia|intros Hz; naive_solver lia]).
  Qed.
  Lemma occ_elem a l : 0 < occ a l <-> a ∈ l.
  Proof.
    unfold occ. induction l as [|b l IH]; [cbn; split; [lia|by intros ?%elem_of_nil]|]. rewrite filter_cons, elem_of_cons. case_decide as E.
    - subst b. cbn. split; [by left|lia].
    - rewrite IH. split; [by right|]. intros [->|H]; done.
  Qed.
  Lemma occ_insert a l j x y : l !! j = Some x -> occ a (<[j := y]> l) + is1 (Some x) a = occ a l + is1 (Some y) a.
  Proof.
    revert j. induction l as [|b l IH]; intros j H; [done|]. destruct j as [|j].
    - injection H as ->. change (<[0 := y]> (x :: l)) with (y :: l). unfold occ, is1. rewrite !filter_cons. repeat case_decide; cbn [length]; simplify_eq; lia.
    - change (l !! j = Some x) in H. change (<[S j := y]> (b :: l)) with (b :: <[j := y]> l). specialize (IH j H). unfold occ in *. rewrite !filter_cons. case_decide; cbn [length]; lia.
  Qed.
  Lemma occ_uniq a l i k : occ a l <= 1 -> l !! i = Some a -> l !! k = Some a -> i = k.
  Proof.
    revert i k. induction l as [|b l IH]; intros i k H Hi Hk; [done|]. unfold occ in *. rewrite filter_cons in H.
    assert (Hin : forall j, l !! j = Some a -> 0 < length (filter (fun b => b = a) l)) by (intros j Hj; apply (occ_elem a l); by eapply elem_of_list_lookup_2).
    destruct i as [|i], k as [|k]; [done| | |].
    - injection Hi as ->. rewrite decide_True in H by done. specialize (Hin k Hk). cbn [length] in H. lia.
    - injection Hk as ->. rewrite decide_True in H by done. specialize (Hin i Hi). cbn [length] in H. lia.
    - f_equal. apply IH; [|done|done]. case_decide; cbn [length] in H; lia.
  Qed.
  Definition place (a : nat) (l : list nat) : nat := default 0 (fst <$> list_find (fun b => b = a) l).
  Lemma place_ok a l : a ∈ l -> l !! place a l = Some a.
  Proof.
    intros H. unfold place. destruct (list_find (fun b => b = a) l) as [[i b]|] eqn:E; cbn.
    - apply list_find_Some in E as (E1 & -> & _). done.
    - apply list_find_None in E. rewrite stdpp.list.Forall_forall in E. by destruct (E a H).
  Qed.
End Static.

Section Sim.
  Context {K C W : Type} (M : machine K (jmp C) W) (pinned : nat -> bool) (inv : C -> C).
  Hypothesis HL : labels_free M inv.
  Implicit Types f : list (nat * blk K (jmp C)).
  Implicit Types x y : blk K (jmp C).
  Implicit Types fr : nat -> list nat.
  Implicit Types dn : nat -> nat.

  (** The parameters to take when [c] is entered from [a]: none if that is done by moves. *)
  Definition ent fr dn (a c : nat) : option nat := if decide (a ∈ take (dn c) (fr c)) then None else Some (place a (fr c)).
  Definition pass f fr dn (a : nat) (oc : option nat) (s : state W) : state W :=
    match oc ≫= look f, oc with
    | Some (y, _), Some c => match ent fr dn a c with Some k => enter M pinned (phis y) k s | None => s end
    | _, _ => s
    end.
  Fixpoint gtrace (n : nat) f fr dn (b : option nat) (s : state W) : list (event K W) :=
    match n with
    | O => []
    | S n =>
      match b with
      | None => [Ended s.2]
      | Some l =>
        match look f l with
        | None => [Ended s.2]
        | Some (x, next) => let '(es, s) := execs M pinned (irs x) s in es ++ gtrace n f fr dn (goes M pinned x next s) (pass f fr dn l (goes M pinned x next s) s)
        end
      end
    end.

  Record tidy (nv : nat) x : Prop := {
    t_nodup : NoDup (pdst <$> phis x);
    t_phi : forall p, p ∈ phis x -> pdst p < nv /\ pinned (pdst p) = false /\ forall v, inr v ∈ params p -> v < nv /\ pinned v = false;
    t_ins : forall i v, i ∈ irs x -> dst i = Some v \/ inr v ∈ oprs i -> v < nv;
    t_exit : forall j l v, exit x = Some (j, l) -> inr v ∈ l -> v < nv
  }.
  Record ok (R : nat -> Prop) f fr dn (nl nv : nat) : Prop := {
    o_nd : NoDup (fst <$> f);
    o_lab : forall i l x, f !! i = Some (l, x) -> l < nl;
    o_exist : forall a, R a -> is_Some (look f a);
    o_step : forall a x nx c, R a -> look f a = Some (x, nx) -> leads (exit x) nx c -> R c;
    o_count : forall a x nx c, R a -> look f a = Some (x, nx) -> multi (exit x) = false -> occ a (fr c) = times (exit x) nx c;
    o_multi : forall a x nx c, R a -> look f a = Some (x, nx) -> multi (exit x) = true -> leads (exit x) nx c -> a ∈ fr c;
    o_fr : forall a c, a ∈ fr c -> R a;
    o_done : forall c i k a, fr c !! i = Some a -> fr c !! k = Some a -> i < dn c -> i = k;
    o_alike : forall c x nx p i k a, look f c = Some (x, nx) -> p ∈ phis x -> fr c !! i = Some a -> fr c !! k = Some a -> params p !! i = params p !! k;
    o_len : forall c x nx p, R c -> look f c = Some (x, nx) -> p ∈ phis x -> length (params p) = length (fr c);
    o_last : forall i l x j q, f !! i = Some (l, x) -> S i = length f -> exit x = Some (j, q) -> exists t, j = Goto t;
    o_table : forall i l x ts q, f !! i = Some (l, x) -> exit x = Some (Multi ts, q) -> ts <> [];
    o_tidy : forall i l x, f !! i = Some (l, x) -> tidy nv x
  }.
  Lemma goes_leads x nx s c : (forall ts q, exit x = Some (Multi ts, q) -> ts <> []) -> goes M pinned x nx s = Some c -> leads (exit x) nx c.
  Proof using HL.
    intros Ht. unfold goes, leads. destruct (exit x) as [[[t|d t|ts] l]|]; [..|done].
    - rewrite (proj1 HL). congruence.
    - destruct HL as (_ & (h & H1 & _) & _). rewrite H1. destruct (h _ _ _); [left; congruence|by right].
    - destruct HL as (_ & _ & (k & H1) & _). destruct (H1 ts ((fun o => rd M pinned o s) <$> l) s.2 (Ht _ _ eq_refl)) as [H2 H3]. rewrite H3.
      destruct (ts !! k _ _ _) as [t|] eqn:E; [|apply lookup_ge_None in E; lia]. intros [= <-]. by eapply elem_of_list_lookup_2.
  Qed.
  Lemma in_fr R f fr dn nl nv a x nx c : ok R f fr dn nl nv -> R a -> look f a = Some (x, nx) -> leads (exit x) nx c -> a ∈ fr c.
  Proof.
    intros O Ha Hl Hc. destruct (multi (exit x)) eqn:E; [by eapply (o_multi _ _ _ _ _ _ O)|]. apply occ_elem. rewrite (o_count _ _ _ _ _ _ O a x nx c) by done. by apply leads_times.
  Qed.
  Lemma enter_same (ps : list phi) i k s : (forall p, p ∈ ps -> params p !! i = params p !! k) -> enter M pinned ps i s = enter M pinned ps k s.
  Proof.
    intros H. unfold enter. assert (G : forall s0, foldr (fun p s' => wr M pinned (pdst p) (rd M pinned (default (inl 0%Z) (params p !! i)) s) s') s0 ps = foldr (fun p s' => wr M pinned (pdst p) (rd M pinned (default (inl 0%Z) (params p !! k)) s) s') s0 ps); [|apply G].
    intros s0. induction ps as [|p ps IH]; [done|]. cbn. rewrite IH by (intros q Hq; apply H; by right). by rewrite (H p) by (by left).
  Qed.

  (** A block [N] is inserted on an edge from [a] to [to]. *)
  Definition turn (to N : nat) (e : option (jmp C * list (Z + nat))) (nx : option nat) (e' : option (jmp C * list (Z + nat))) (nx' : option nat) : Prop :=
    match e with
    | Some (Cond c t, l) =>
      (t = to /\ exists nl, nx = Some nl /\ e' = Some (Cond (inv c) nl, l) /\ nx' = Some N) \/
      (t = to /\ e' = Some (Cond c N, l) /\ nx' = nx) \/
      (t <> to /\ nx = Some to /\ e' = e /\ nx' = Some N)
    | Some (Multi ts, l) => e' = Some (Multi ((fun t => if t =? to then N else t) <$> ts), l)
    | _ => False
    end.
  Record split f f2 (a to N : nat) : Prop := {
    s_new : exists eN nxN, look f2 N = Some (Blk [] [] eN, nxN) /\ (eN = None /\ nxN = Some to \/ eN = Some (Goto to, []));
    s_old : forall b x nx, b <> a -> look f b = Some (x, nx) -> exists nx', look f2 b = Some (x, nx') /\ (nx' = nx \/ falls (exit x) = false);
    s_from : exists x nx e' nx', look f a = Some (x, nx) /\ look f2 a = Some (set_exit e' x, nx') /\ turn to N (exit x) nx e' nx'
  }.
  Lemma leads_falls (e : option (jmp C * list (Z + nat))) nx nx' c : nx' = nx \/ falls e = false -> leads e nx' c <-> leads e nx c.
  Proof. intros [->|H]; [done|]. by destruct e as [[[t|d t|ts] l]|]. Qed.
  Lemma times_falls (e : option (jmp C * list (Z + nat))) nx nx' c : nx' = nx \/ falls e = false -> times e nx' c = times e nx c.
  Proof. intros [->|H]; [done|]. by destruct e as [[[t|d t|ts] l]|]. Qed.
  Lemma goes_falls x nx nx' s : (forall ts q, exit x = Some (Multi ts, q) -> ts <> []) -> nx' = nx \/ falls (exit x) = false -> goes M pinned x nx' s = goes M pinned x nx s.
  Proof using HL.
    intros Ht [->|H]; [done|]. unfold goes. destruct (exit x) as [[[t|d t|ts] l]|]; [|done| |done].
    - by rewrite !(proj1 HL).
    - destruct HL as (_ & _ & (k & H1) & _). destruct (H1 ts ((fun o => rd M pinned o s) <$> l) s.2 (Ht _ _ eq_refl)) as [H2 H3]. rewrite H3.
      destruct (ts !! k _ _ _) as [t|] eqn:E; [done|apply lookup_ge_None in E; lia].
  Qed.
  Lemma goes_turn x nx e' nx' to N s : (forall ts q, exit x = Some (Multi ts, q) -> ts <> []) -> turn to N (exit x) nx e' nx' ->
    goes M pinned (set_exit e' x) nx' s = goes M pinned x nx s \/ (goes M pinned x nx s = Some to /\ goes M pinned (set_exit e' x) nx' s = Some N).
  Proof using HL.
    intros Ht. unfold goes, turn. cbn [exit set_exit]. destruct (exit x) as [[[t|d t|ts] l]|]; [done| | |done].
    - destruct HL as (_ & (h & H1 & H2) & _). intros [(-> & m & -> & -> & ->)|[(-> & -> & ->)|(Hn & -> & -> & ->)]]; rewrite ?H1, ?H2.
      + destruct (h d _ _); cbn; [by right|by left].
      + destruct (h d _ _); [by right|by left].
      + destruct (h d _ _); [by left|by right].
    - intros ->. destruct HL as (_ & _ & (k & H1) & _). set (vs := (fun o => rd M pinned o s) <$> l).
      destruct (H1 ts vs s.2 (Ht _ _ eq_refl)) as [H2 H3].
      destruct (H1 ((fun t => if t =? to then N else t) <$> ts) vs s.2) as [H4 H5]; [intros E; apply fmap_nil_inv in E; by apply (Ht _ _ eq_refl)|].
      rewrite H3, H5, fmap_length, list_lookup_fmap. destruct (ts !! k vs s.2 (length ts)) as [t|] eqn:E; [|apply lookup_ge_None in E; lia].
      cbn. destruct (t =? to) eqn:Et; [apply Nat.eqb_eq in Et as ->; by right|by left].
  Qed.

  Section Insert.
    Context (R : nat -> Prop) f f2 fr dn (nl nv a to j : nat).
    Hypothesis O : ok R f fr dn nl nv.
    Hypothesis Hj : fr to !! j = Some a.
    Hypothesis Hdn : dn to = j.
    Notation N := nl.
    Hypothesis Hs : split f f2 a to N.
    Hypothesis Hnd : NoDup (fst <$> f2).
    Hypothesis Hin : forall i l x, f2 !! i = Some (l, x) -> l = N \/ exists i' y, f !! i' = Some (l, y).
    Hypothesis Hlast : forall i l x q1 q2, f2 !! i = Some (l, x) -> S i = length f2 -> exit x = Some (q1, q2) -> exists t, q1 = Goto t.
    Hypothesis Htab : forall i l x ts q, f2 !! i = Some (l, x) -> exit x = Some (Multi ts, q) -> ts <> [].
    Hypothesis Htidy : forall i l x, f2 !! i = Some (l, x) -> tidy nv x.
    Definition fr2 (c : nat) : list nat := if decide (c = to) then <[j := N]> (fr to) else if decide (c = N) then [a] else fr c.
    Lemma fr2_to : fr2 to = <[j := N]> (fr to). Proof using All. unfold fr2. by rewrite decide_True. Qed.
    Definition R2 (b : nat) : Prop := R b \/ b = N.
    Lemma old_N b : R b -> b <> N.
    Proof using All. intros Hb ->. destruct (o_exist _ _ _ _ _ _ O _ Hb) as [[x nx] Hx]. apply look_inv in Hx as (i & Hi & _). pose proof (o_lab _ _ _ _ _ _ O _ _ _ Hi). lia. Qed.
    Lemma N_fr c : N ∉ fr c.
    Proof using All. intros H. by apply (old_N N); [eapply (o_fr _ _ _ _ _ _ O)|]. Qed.
    Lemma Ra : R a. Proof using All. eapply (o_fr _ _ _ _ _ _ O). by eapply elem_of_list_lookup_2. Qed.
    Lemma tables b x nx : look f b = Some (x, nx) -> forall ts q, exit x = Some (Multi ts, q) -> ts <> [].
    Proof using All. intros H. apply look_inv in H as (i & Hi & _). intros ts q. by eapply (o_table _ _ _ _ _ _ O). Qed.
    Hypothesis Rto' : R to.
    Lemma toN : to <> N. Proof using All. by apply old_N. Qed.
    Lemma occ_fr2 b c : R b -> c <> N -> occ b (fr2 c) + (if decide (c = to) then is1 (Some a) b else 0) = occ b (fr c).
    Proof using All.
      intros Hb Hc. unfold fr2. case_decide as E; [subst c|rewrite decide_False by done; lia]. pose proof (occ_insert b (fr to) j a N Hj) as H.
      assert (Hz : is1 (Some N) b = 0) by (unfold is1; rewrite decide_False; [done|intros [= <-]; by apply (old_N N)]). lia.
    Qed.
    Lemma is1_ne c d : c <> d -> is1 (Some c) d = 0. Proof using. clear. intros H. unfold is1. rewrite decide_False; [done|congruence]. Qed.
    Lemma is1_eq c : is1 (Some c) c = 1. Proof using. clear. unfold is1. by rewrite decide_True. Qed.
    Lemma look2 b x2 nx2 : R b -> look f2 b = Some (x2, nx2) -> exists x nx, look f b = Some (x, nx) /\ phis x2 = phis x /\ irs x2 = irs x /\
      ((b <> a /\ exit x2 = exit x /\ (nx2 = nx \/ falls (exit x) = false)) \/ (b = a /\ turn to N (exit x) nx (exit x2) nx2)).
    Proof using All.
      intros Hb H2. destruct (o_exist _ _ _ _ _ _ O _ Hb) as [[x nx] Hx]. exists x, nx. split; [done|]. destruct (decide (b = a)) as [->|Hn].
      - destruct (s_from _ _ _ _ _ Hs) as (x' & nx0 & e' & nx' & H3 & H4 & H5). rewrite Hx in H3. injection H3 as <- <-. rewrite H2 in H4. injection H4 as -> ->.
        split; [done|]. split; [done|]. right. done.
      - destruct (s_old _ _ _ _ _ Hs b x nx Hn Hx) as (nx' & H3 & H4). rewrite H2 in H3. injection H3 as -> ->. split; [done|]. split; [done|]. by left.
    Qed.
    Lemma lookN x2 nx2 : look f2 N = Some (x2, nx2) -> phis x2 = [] /\ irs x2 = [] /\ multi (exit x2) = false /\ (forall c, times (exit x2) nx2 c = is1 (Some to) c) /\ forall s, goes M pinned x2 nx2 s = Some to.
    Proof using All.
      intros H. destruct (s_new _ _ _ _ _ Hs) as (eN & nxN & H1 & H2). rewrite H in H1. injection H1 as -> ->. cbn. destruct H2 as [[-> ->]| ->]; repeat split; try done.
      intros s. unfold goes. cbn. by rewrite (proj1 HL).
    Qed.
    Lemma turn_multi e nx e' nx' : turn to N e nx e' nx' -> multi e' = multi e.
    Proof using. clear. unfold turn. destruct e as [[[t|d t|ts] l]|]; [done| | |done]; [intros [(_ & m & _ & -> & _)|[(_ & -> & _)|(_ & _ & -> & _)]]; done|by intros ->]. Qed.
    Lemma turn_times e nx e' nx' c : turn to N e nx e' nx' -> multi e = false -> c <> N -> times e nx c = times e' nx' c + is1 (Some to) c.
    Proof using.
      clear. intros Ht Hm Hc. unfold turn in Ht. assert (Hz : is1 (Some N) c = 0) by (by apply is1_ne). destruct e as [[[t|d t|ts] l]|]; [done| |done|done].
      destruct Ht as [(-> & m & -> & -> & ->)|[(-> & -> & ->)|(Hn & -> & -> & ->)]]; cbn [times]; lia.
    Qed.
    Lemma turn_N e nx e' nx' : turn to N e nx e' nx' -> multi e = false -> times e nx N = 0 -> times e' nx' N = 1.
    Proof using.
      clear. intros Ht Hm Hz. unfold turn in Ht. pose proof (is1_eq N). destruct e as [[[t|d t|ts] l]|]; [done| |done|done].
      destruct Ht as [(-> & m & -> & -> & ->)|[(-> & -> & ->)|(Hn & -> & -> & ->)]]; cbn [times] in *; lia.
    Qed.
    Lemma no_N b x nx : R b -> look f b = Some (x, nx) -> ~ leads (exit x) nx N.
    Proof using All. intros Hb Hx H. apply (old_N N); [|done]. by eapply (o_step _ _ _ _ _ _ O). Qed.
    Lemma insert_count b x nx c : R2 b -> look f2 b = Some (x, nx) -> multi (exit x) = false -> occ b (fr2 c) = times (exit x) nx c.
    Proof using All.
      intros [Hb| ->] Hx Hm.
      - destruct (look2 b x nx Hb Hx) as (y & ny & Hy & _ & _ & Hc). assert (Hmy : multi (exit y) = false) by (destruct Hc as [(_ & <- & _)|[_ Hc]]; [done|by rewrite <- (turn_multi _ _ _ _ Hc)]).
        pose proof (o_count _ _ _ _ _ _ O b y ny c Hb Hy Hmy) as Ho.
        assert (HN0 : times (exit y) ny N = 0) by (destruct (times (exit y) ny N) eqn:E; [done|]; exfalso; apply (no_N b y ny Hb Hy); apply leads_times; [done|lia]).
        destruct (decide (c = N)) as [->|HcN].
        + unfold fr2. rewrite decide_False by (intros E; by apply toN). rewrite decide_True by done. destruct Hc as [(Hba & -> & Hf)|(-> & Hc)].
          * rewrite (times_falls _ _ _ _ Hf), HN0. unfold occ. rewrite filter_cons, decide_False by done. done.
          * rewrite (turn_N _ _ _ _ Hc Hmy HN0). unfold occ. by rewrite filter_cons, decide_True.
        + pose proof (occ_fr2 b c Hb HcN) as H2. destruct Hc as [(Hba & -> & Hf)|(-> & Hc)].
          * rewrite (times_falls _ _ _ _ Hf). case_decide; [rewrite (is1_ne a b) in H2 by done|]; lia.
          * rewrite (turn_times _ _ _ _ c Hc Hmy HcN) in Ho. case_decide; [subst c; rewrite (is1_eq a) in H2; rewrite (is1_eq to) in Ho; lia|]. rewrite (is1_ne to c) in Ho by done. lia.
      - destruct (lookN x nx Hx) as (_ & _ & _ & Ht & _). rewrite Ht. unfold fr2. case_decide as E; [subst c|].
        + rewrite is1_eq. pose proof (occ_insert N (fr to) j a N Hj) as H. rewrite is1_eq in H. rewrite is1_ne in H by (by apply old_N, Ra).
          assert (occ N (fr to) = 0); [|lia]. destruct (occ N (fr to)) eqn:E; [done|]. exfalso. apply (N_fr to). apply occ_elem. lia.
        + rewrite is1_ne by done. case_decide.
          * unfold occ. rewrite filter_cons, decide_False by (by apply old_N, Ra). done.
          * destruct (occ N (fr c)) eqn:E2; [done|]. exfalso. apply (N_fr c). apply occ_elem. lia.
    Qed.
    Lemma leads2 b x nx c : R b -> look f2 b = Some (x, nx) -> leads (exit x) nx c -> c = N \/ R c.
    Proof using All.
      intros Hb Hx Hc. destruct (decide (c = N)) as [->|Hn]; [by left|right]. destruct (look2 b x nx Hb Hx) as (y & ny & Hy & _ & _ & [(Hba & E & Hf)|(-> & Ht)]).
      - rewrite E in Hc. apply (leads_falls _ _ _ _ Hf) in Hc. by eapply (o_step _ _ _ _ _ _ O).
      - apply (o_step _ _ _ _ _ _ O a y ny c Hb Hy). unfold turn in Ht. destruct (exit y) as [[[t|d t|ts] l]|]; [done| | |done].
        + destruct Ht as [(-> & m & -> & E & ->)|[(-> & E & ->)|(Hne & -> & E & ->)]]; rewrite E in Hc; cbn [leads] in *; naive_solver.
        + rewrite Ht in Hc. cbn [leads] in *. apply elem_of_list_fmap in Hc as (t & -> & Ht'). by destruct (t =? to).
    Qed.
    Lemma insert_ok : ok R2 f2 fr2 dn (S nl) nv.
    Proof using All.
      split; [done| | | |exact insert_count| | | | | |done|done|done].
      - intros i l x Hi. destruct (Hin _ _ _ Hi) as [->|(i' & y & Hy)]; [lia|]. pose proof (o_lab _ _ _ _ _ _ O _ _ _ Hy). lia.
      - intros b [Hb| ->]; [|destruct (s_new _ _ _ _ _ Hs) as (? & ? & -> & _); done]. destruct (o_exist _ _ _ _ _ _ O _ Hb) as [[x nx] Hx].
        destruct (decide (b = a)) as [->|Hn]; [destruct (s_from _ _ _ _ _ Hs) as (? & ? & ? & ? & _ & -> & _); done|]. destruct (s_old _ _ _ _ _ Hs b x nx Hn Hx) as (? & -> & _). done.
      - intros b x nx c [Hb| ->] Hx Hc.
        + destruct (leads2 b x nx c Hb Hx Hc) as [->|H]; [by right|by left].
        + left. destruct (lookN x nx Hx) as (_ & _ & Hm & Ht & _). apply (leads_times _ _ _ Hm) in Hc. rewrite Ht in Hc. unfold is1 in Hc. case_decide as E; [by injection E as <-|lia].
      - intros b x nx c [Hb| ->] Hx Hm Hc; [|destruct (lookN x nx Hx) as (_ & _ & Hm' & _); congruence].
        destruct (look2 b x nx Hb Hx) as (y & ny & Hy & _ & _ & [(Hba & E & Hf)|(-> & Ht)]).
        + rewrite E in Hm, Hc. apply (leads_falls _ _ _ _ Hf) in Hc. pose proof (o_multi _ _ _ _ _ _ O b y ny c Hb Hy Hm Hc) as H. unfold fr2. case_decide as E1.
          * subst c. apply elem_of_list_lookup in H as [k Hk]. apply elem_of_list_lookup. exists k. rewrite list_lookup_insert_ne; [done|]. intros ->. congruence.
          * rewrite decide_False; [done|]. intros ->. by apply (no_N b y ny Hb Hy).
        + unfold turn in Ht. destruct (exit y) as [[[t|d t|ts] l]|] eqn:Ey; [done| | |done].
          * destruct Ht as [(-> & m & -> & E & ->)|[(-> & E & ->)|(Hne & -> & E & ->)]]; by rewrite E in Hm.
          * rewrite Ht in Hc. cbn [leads] in Hc. apply elem_of_list_fmap in Hc as (t & -> & Ht'). destruct (t =? to) eqn:Et.
            -- unfold fr2. rewrite decide_False by (intros E; by apply toN). rewrite decide_True by done. by left.
            -- apply Nat.eqb_neq in Et. assert (H : a ∈ fr t) by (eapply (o_multi _ _ _ _ _ _ O a y ny t Hb Hy); by rewrite Ey). unfold fr2. rewrite decide_False by done.
               rewrite decide_False; [done|]. intros ->. apply (no_N a y ny Hb Hy). by rewrite Ey.
      - intros b c H. unfold fr2 in H. case_decide; [|case_decide].
        + apply elem_of_list_lookup in H as [k Hk]. destruct (decide (k = j)) as [->|Hne].
          * rewrite list_lookup_insert in Hk by (by eapply lookup_lt_Some). injection Hk as <-. by right.
          * rewrite list_lookup_insert_ne in Hk by done. left. eapply (o_fr _ _ _ _ _ _ O). by eapply elem_of_list_lookup_2.
        + apply elem_of_list_singleton in H as ->. left. exact Ra.
        + left. by eapply (o_fr _ _ _ _ _ _ O).
      - intros c i k b Hi Hk Hlt. unfold fr2 in Hi, Hk. case_decide as E; [subst c; rewrite Hdn in Hlt|case_decide].
        + rewrite list_lookup_insert_ne in Hi by lia. destruct (decide (k = j)) as [->|Hne].
          * rewrite list_lookup_insert in Hk by (by eapply lookup_lt_Some). injection Hk as <-. exfalso. apply (N_fr to). by eapply elem_of_list_lookup_2.
          * rewrite list_lookup_insert_ne in Hk by done. eapply (o_done _ _ _ _ _ _ O); [done|done|]. by rewrite Hdn.
        + destruct i, k; try done.
        + by eapply (o_done _ _ _ _ _ _ O).
      - intros c x nx p i k b Hx Hp Hi Hk. unfold fr2 in Hi, Hk. case_decide as E; [subst c|case_decide as E2; [subst c|]].
        + destruct (look2 to x nx Rto' Hx) as (y & ny & Hy & Eph & _). rewrite Eph in Hp.
          destruct (decide (i = j)) as [->|Hi1], (decide (k = j)) as [->|Hk1]; [done| | |].
          * rewrite list_lookup_insert in Hi by (by eapply lookup_lt_Some). injection Hi as <-. rewrite list_lookup_insert_ne in Hk by done. exfalso. apply (N_fr to). by eapply elem_of_list_lookup_2.
          * rewrite list_lookup_insert in Hk by (by eapply lookup_lt_Some). injection Hk as <-. rewrite list_lookup_insert_ne in Hi by done. exfalso. apply (N_fr to). by eapply elem_of_list_lookup_2.
          * rewrite list_lookup_insert_ne in Hi, Hk by done. by eapply (o_alike _ _ _ _ _ _ O).
        + destruct (lookN x nx Hx) as (E1 & _). rewrite E1 in Hp. by apply elem_of_nil in Hp.
        + assert (Hex : exists y ny, look f c = Some (y, ny) /\ phis y = phis x).
          { destruct (decide (c = a)) as [->|Hca]; [destruct (s_from _ _ _ _ _ Hs) as (y & ny & e' & nx' & H1 & H2 & _); rewrite Hx in H2; injection H2 as -> ->; by exists y, ny|].
            pose proof Hx as Hx'. apply look_inv in Hx' as (q & Hq & _). destruct (Hin _ _ _ Hq) as [->|(i' & y & Hy)]; [done|].
            pose proof (look_at f i' c y (o_nd _ _ _ _ _ _ O) Hy) as Hly. destruct (s_old _ _ _ _ _ Hs c y _ Hca Hly) as (ny & H3 & _). rewrite Hx in H3. injection H3 as -> ->. by eexists _, _. }
          destruct Hex as (y & ny & Hy & E1). rewrite <- E1 in Hp. by eapply (o_alike _ _ _ _ _ _ O).
      - intros c x nx p [Hc| ->] Hx Hp; [|destruct (lookN x nx Hx) as (E1 & _); rewrite E1 in Hp; by apply elem_of_nil in Hp].
        destruct (look2 c x nx Hc Hx) as (y & ny & Hy & Eph & _). rewrite Eph in Hp. rewrite (o_len _ _ _ _ _ _ O c y ny p Hc Hy Hp). unfold fr2. case_decide; [subst c; by rewrite insert_length|].
        rewrite decide_False; [done|]. by apply old_N.
    Qed.
    Lemma pass_same b c s : b ∈ fr c -> R c -> b ∈ fr2 c -> pass f2 fr2 dn b (Some c) s = pass f fr dn b (Some c) s.
    Proof using All.
      intros Hb Hc Hb2. unfold pass. cbn [mbind option_bind]. destruct (o_exist _ _ _ _ _ _ insert_ok c (or_introl Hc)) as [[x nx] Hx]. rewrite Hx.
      destruct (look2 c x nx Hc Hx) as (y & ny & Hy & Eph & _). rewrite Hy, Eph. unfold ent. destruct (decide (c = to)) as [->|Hne].
      - assert (Ht : take (dn to) (fr2 to) = take (dn to) (fr to)) by (unfold fr2; rewrite decide_True by done; rewrite Hdn; by rewrite take_insert). rewrite Ht. case_decide; [done|].
        apply enter_same. intros p Hp. pose proof (place_ok _ _ Hb) as H1. pose proof (place_ok _ _ Hb2) as H2. revert H2. generalize (place b (fr2 to)). intros k H2. rewrite fr2_to in H2.
        destruct (decide (k = j)) as [->|Hnj].
        + rewrite list_lookup_insert in H2 by (by eapply lookup_lt_Some). injection H2 as <-. exfalso. by apply (N_fr to).
        + rewrite list_lookup_insert_ne in H2 by done. by eapply (o_alike _ _ _ _ _ _ O).
      - assert (fr2 c = fr c) as ->; [|done]. unfold fr2. rewrite decide_False by done. rewrite decide_False; [done|]. by apply old_N.
    Qed.
    Lemma insert_sim n : forall b s, R b -> exists m, n <= m /\ gtrace m f2 fr2 dn (Some b) s = gtrace n f fr dn (Some b) s.
    Proof using All.
      induction n as [|n IH]; intros b s Hb; [by exists 0|].
      destruct (o_exist _ _ _ _ _ _ insert_ok b (or_introl Hb)) as [[x2 nx2] Hx2]. destruct (look2 b x2 nx2 Hb Hx2) as (x & nx & Hx & Eph & Eir & Hc).
      pose proof (tables b x nx Hx) as Htb.
      destruct (execs M pinned (irs x) s) as [es s1] eqn:Ee.
      assert (Hg : goes M pinned x2 nx2 s1 = goes M pinned x nx s1 \/ (b = a /\ goes M pinned x nx s1 = Some to /\ goes M pinned x2 nx2 s1 = Some N)).
      { destruct Hc as [(Hba & E & Hf)|(-> & Ht)].
        - left. rewrite <- (goes_falls x nx nx2 s1 Htb Hf). unfold goes. by rewrite E.
        - destruct (goes_turn x nx (exit x2) nx2 to N s1 Htb Ht) as [H|[H1 H2]]; [left|right]; [|split; [done|split; [done|]]]; by destruct x2. }
      destruct Hg as [Hg|(-> & Hg1 & Hg2)].
      - destruct (goes M pinned x nx s1) as [c|] eqn:Eg.
        + pose proof (goes_leads x nx s1 c Htb Eg) as Hle. pose proof (o_step _ _ _ _ _ _ O b x nx c Hb Hx Hle) as HRc.
          assert (Htb2 : forall ts q, exit x2 = Some (Multi ts, q) -> ts <> []) by (intros ts q; apply look_inv in Hx2 as (i & Hi & _); by eapply Htab).
          pose proof (goes_leads x2 nx2 s1 c Htb2 Hg) as Hle2.
          destruct (IH c (pass f fr dn b (Some c) s1) HRc) as (m & Hm & Em). exists (S m). split; [lia|]. cbn [gtrace]. rewrite Hx2, Hx, Eir, Ee, Hg, Eg. f_equal. rewrite <- Em. f_equal.
          apply pass_same; [by eapply (in_fr _ _ _ _ _ _ b x nx c O)|done|]. eapply (in_fr _ _ _ _ _ _ b x2 nx2 c insert_ok); [by left|done|done].
        + exists (S n). split; [done|]. cbn [gtrace]. rewrite Hx2, Hx, Eir, Ee, Hg, Eg. f_equal. destruct n; done.
      - destruct (IH to (pass f fr dn a (Some to) s1) Rto') as (m & Hm & Em). exists (S (S m)). split; [lia|]. cbn [gtrace]. rewrite Hx2, Hx, Eir, Ee, Hg1, Hg2. f_equal.
        destruct (s_new _ _ _ _ _ Hs) as (eN & nxN & HN & _). rewrite HN. destruct (lookN _ _ HN) as (_ & _ & _ & _ & Hgo). cbn [irs].
        assert (Hp1 : pass f2 fr2 dn a (Some N) s1 = s1) by (unfold pass; cbn [mbind option_bind]; rewrite HN; cbn [phis]; by destruct (ent fr2 dn a N)).
        rewrite Hp1. cbn [execs app]. rewrite Hgo. rewrite <- Em. f_equal.
        unfold pass. cbn [mbind option_bind]. destruct (o_exist _ _ _ _ _ _ insert_ok to (or_introl Rto')) as [[z nz] Hz]. rewrite Hz.
        destruct (look2 to z nz Rto' Hz) as (y & ny & Hy & Ep & _). rewrite Hy, Ep. unfold ent.
        assert (HaT : a ∈ fr to) by (by eapply elem_of_list_lookup_2).
        rewrite decide_False; [|intros H; unfold fr2 in H; rewrite decide_True in H by done; rewrite Hdn, take_insert in H by lia; apply elem_of_take in H as (i & Hi & _); apply (N_fr to); by eapply elem_of_list_lookup_2].
        rewrite decide_False; [|intros H; apply elem_of_take in H as (i & Hi & Hlt); pose proof (o_done _ _ _ _ _ _ O to i j a Hi Hj Hlt); lia].
        apply enter_same. intros p Hp.
        assert (HN2 : N ∈ fr2 to) by (unfold fr2; rewrite decide_True by done; apply elem_of_list_lookup; exists j; apply list_lookup_insert; by eapply lookup_lt_Some).
        assert (place N (fr2 to) = j) as ->.
        { pose proof (place_ok _ _ HN2) as H. revert H. generalize (place N (fr2 to)). intros k H. rewrite fr2_to in H. destruct (decide (k = j)) as [E|Hne]; [done|].
          rewrite list_lookup_insert_ne in H by done. exfalso. apply (N_fr to). by eapply elem_of_list_lookup_2. }
        eapply (o_alike _ _ _ _ _ _ O to y ny p); [done|done|exact Hj|by apply place_ok].
    Qed.
  End Insert.
End Sim.
