From stdpp Require Import base list numbers.
From Verif Require Import Lib.Stdin_model Lib.Stdin_spec.
Local Open Scope Z_scope.

Definition rest (f : ifile) : list Z := drop (rp f) (rbuf f) ++ drop (off f) (content f).
Definition pos (f : ifile) : nat := (off f - (length (rbuf f) - rp f))%nat.
(** [c] is the file. *)
Definition wf (c : list Z) (f : ifile) : Prop :=
  content f = c /\ (rp f <= length (rbuf f))%nat /\ (length (rbuf f) - rp f <= off f)%nat /\
  rest f = drop (pos f) c /\ no_fail (answers f).

Lemma full_no_fail es : all_full es -> no_fail es.
Proof. intros H. eapply List.Forall_impl; [|exact H]. by intros ? ->. Qed.

(** read(2). *)
Lemma os_read_ok f n : no_fail (answers f) -> exists es b,
  os_read f n = (IFile (content f) (off f + length b) es (rbuf f) (rp f) (rcapa f) (unget f) (eof f) (fifo f), Some b) /\
  b = take (length b) (drop (off f) (content f)) /\ (length b <= n)%nat /\
  (b = [] -> n = 0%nat \/ drop (off f) (content f) = []) /\
  no_fail es /\ (all_full (answers f) -> all_full es /\ b = take n (drop (off f) (content f))).
Proof.
  intros H. unfold os_read. set (d := drop (off f) (content f)).
  assert (T : forall k, take k d = take (length (take k d)) d).
  { intros k. rewrite take_length. destruct (decide (k <= length d)%nat).
    - by rewrite Nat.min_l by lia.
    - rewrite Nat.min_r by lia. rewrite !take_ge by lia. done. }
  assert (E : forall k, take k d = [] -> k = 0%nat \/ d = []) by (intros [|k]; destruct d; naive_solver).
  destruct (answers f) as [|[|k|] es] eqn:Ea.
  - exists [], (take n d). split_and!; first [done|apply T|rewrite take_length; lia|apply E].
  - apply Forall_cons_1 in H as [_ H]. exists es, (take n d).
    split_and!; first [done|apply T|rewrite take_length; lia|apply E|idtac].
    intros A. by apply Forall_cons_1 in A as [_ A].
  - apply Forall_cons_1 in H as [_ H]. exists es, (take (S k) (take n d)).
    split_and!; try done.
    + rewrite take_take. apply T.
    + rewrite !take_length. lia.
    + rewrite take_take. intros X. apply E in X. destruct X as [X|X]; [|by right].
      left. lia.
    + intros A. by apply Forall_cons_1 in A as [A _].
  - by apply Forall_cons_1 in H as [H _].
Qed.

Lemma fread1_ok c f n : wf c f -> exists f' l,
  fread1 f n = Some (f', l) /\ wf c f' /\ unget f' = unget f /\ fifo f' = fifo f /\
  rest f = l ++ rest f' /\ (length l <= n)%nat /\ pos f' = (pos f + length l)%nat /\
  (l = [] -> n = 0%nat \/ rest f' = []) /\
  (l = [] -> n <> 0%nat -> eof f' = true) /\
  (all_full (answers f) -> all_full (answers f') /\ l = take n (rest f)) /\
  (all_full (answers f) \/ fifo f = true -> (eof f = true -> rest f = []) -> eof f' = true -> rest f' = []).
Proof.
  intros (Hc & Hp & Ho & Hr & Hn). unfold fread1.
  destruct (decide (rbuf f <> [] /\ (n <= length (rbuf f) - rp f)%nat)) as [[Hb Hd]|Hs].
  { set (got := take n (drop (rp f) (rbuf f))).
    assert (Hg : length got = n) by (unfold got; rewrite take_length, drop_length; lia).
    assert (Hsplit : rest f = got ++ (drop (rp f + n) (rbuf f) ++ drop (off f) (content f))).
    { unfold rest, got. rewrite <- drop_drop. rewrite app_assoc. by rewrite take_drop. }
    assert (Hfull : got = take n (rest f)).
    { rewrite Hsplit. rewrite take_app_alt; [done|lia]. }
    destruct (decide (length (rbuf f) <= rp f + n)%nat) as [Hx|Hx].
    - eexists _, got. split; [reflexivity|].
      assert (Hz : drop (rp f + n) (rbuf f) = []) by (apply drop_ge; lia).
      rewrite Hz in Hsplit. simpl in Hsplit.
      assert (P : pos (set_buf f [] 0) = (pos f + length got)%nat) by (unfold pos; simpl; lia).
      assert (R : rest (set_buf f [] 0) = drop (off f) (content f)) by done.
      split; [|split_and!; try done; try lia].
      + split_and!; simpl; try done; try lia. rewrite R, P. unfold pos.
        rewrite <- Hc. f_equal. lia.
      + intros E. rewrite E in Hg. simpl in Hg. left; lia.
      + intros E ?. rewrite E in Hg. simpl in Hg. lia.
      + intros _ He E. rewrite R. cbn in E. specialize (He E). rewrite Hsplit in He. by apply app_eq_nil in He as [_ He].
    - eexists _, got. split; [reflexivity|].
      assert (P : pos (set_buf f (rbuf f) (rp f + n)) = (pos f + length got)%nat) by (unfold pos; simpl; lia).
      assert (R : rest (set_buf f (rbuf f) (rp f + n)) = drop (rp f + n) (rbuf f) ++ drop (off f) (content f)) by done.
      split; [|split_and!; try done; try lia].
      + split_and!; simpl; try done; try lia. rewrite P, Hg. rewrite <- drop_drop, <- Hr, Hsplit, R.
        rewrite drop_app_alt; [done|lia].
      + intros E. rewrite E in Hg. simpl in Hg. left; lia.
      + intros E ?. rewrite E in Hg. simpl in Hg. lia.
      + intros _ He E. rewrite R. cbn in E. specialize (He E). rewrite Hsplit in He. by apply app_eq_nil in He as [_ He]. }
  set (d := (length (rbuf f) - rp f)%nat).
  set (first := if decide (rbuf f <> []) then drop (rp f) (rbuf f) else []).
  set (total := if decide (rbuf f <> []) then (n - d)%nat else n).
  assert (Hfirst : first = drop (rp f) (rbuf f)).
  { unfold first. destruct (decide (rbuf f <> [])); [done|]. destruct (rbuf f); [by rewrite drop_nil|]. by destruct n0. }
  assert (Hlen : length first = d) by (rewrite Hfirst, drop_length; done).
  assert (Hd : d = 0%nat /\ total = n \/ (0 < d < n)%nat /\ total = (n - d)%nat \/ (d = 0%nat /\ total = n)).
  { unfold total. destruct (decide (rbuf f <> [])) as [E|E].
    - assert (~ (n <= d)%nat) by (intros X; apply Hs; done).
      destruct (decide (d = 0%nat)); [left; lia|right; left; lia].
    - left. split; [|done]. unfold d. destruct (rbuf f); [simpl; lia|]. by destruct E. }
  assert (Hrest : rest f = first ++ drop (off f) (content f)) by (by unfold rest; rewrite Hfirst).
  assert (Hpos : (off f = pos f + d)%nat) by (unfold pos; fold d; lia).
  destruct (decide (total < rcapa f * 3 / 4)%nat) as [Hsmall|Hbig].
  - destruct (os_read_ok f (rcapa f) Hn) as (es & b & -> & Hb & Hbn & Hb0 & Hes & Hall).
    cbn [option_bind]. set (m := Nat.min (length b) total).
    set (g := set_buf (IFile (content f) (off f + length b) es (rbuf f) (rp f) (rcapa f) (unget f) (eof f) (fifo f)) b m).
    set (cond := bool_decide (length b < rcapa g)%nat && bool_decide (m = length b) && is_end g (length b)).
    eexists _, (first ++ take m b). split; [reflexivity|].
    set (g' := if cond then set_eof g true else g).
    assert (Gr : rest g' = drop m b ++ drop (off f + length b) (content f)) by (unfold g'; by destruct cond).
    assert (Gp : pos g' = (off f + length b - (length b - m))%nat) by (unfold g'; by destruct cond).
    assert (Gl : length (take m b) = m) by (rewrite take_length; unfold m; lia).
    assert (Hdrop : drop (off f) (content f) = b ++ drop (off f + length b) (content f)).
    { rewrite Hb at 1. rewrite <- drop_drop. by rewrite take_drop. }
    assert (Hsp : rest f = (first ++ take m b) ++ rest g').
    { rewrite Hrest, Hdrop, Gr, <- app_assoc. f_equal. rewrite app_assoc. by rewrite take_drop. }
    assert (Hm0 : b <> [] -> m = 0%nat -> total = 0%nat).
    { intros Z M. assert (length b <> 0%nat) by (by destruct b). unfold m in M. lia. }
    assert (Hcapa : rcapa f <> 0%nat) by (intros X; rewrite X in Hsmall; simpl in Hsmall; lia).
    split; [|split_and!].
    + unfold wf. split_and!.
      * unfold g'. by destruct cond.
      * replace (rp g') with m by (unfold g'; by destruct cond).
        replace (rbuf g') with b by (unfold g'; by destruct cond). unfold m; lia.
      * replace (rp g') with m by (unfold g'; by destruct cond).
        replace (rbuf g') with b by (unfold g'; by destruct cond).
        replace (off g') with (off f + length b)%nat by (unfold g'; by destruct cond). lia.
      * replace (drop (pos g') c) with (drop (length (first ++ take m b)) (drop (pos f) c)).
        { rewrite <- Hr, Hsp. by rewrite drop_app. }
        rewrite drop_drop. f_equal. rewrite app_length, Hlen, Gl, Gp. unfold m. lia.
      * unfold g'. by destruct cond.
    + unfold g'. by destruct cond.
    + unfold g'. by destruct cond.
    + exact Hsp.
    + rewrite app_length, Hlen, Gl. unfold m. lia.
    + rewrite app_length, Hlen, Gl, Gp. unfold m. lia.
    + intros E. apply app_eq_nil in E as [E1 E2].
      assert (d = 0%nat) by (rewrite <- Hlen, E1; done). rewrite E2 in Gl. simpl in Gl.
      destruct (decide (b = [])) as [->|Nb].
      * right. destruct (Hb0 eq_refl) as [?|X]; [lia|].
        rewrite Gr. rewrite drop_nil. simpl length. rewrite Nat.add_0_r. exact X.
      * left. specialize (Hm0 Nb (eq_sym Gl)). lia.
    + intros E Hnz. apply app_eq_nil in E as [E1 E2].
      assert (d = 0%nat) by (rewrite <- Hlen, E1; done). rewrite E2 in Gl. simpl in Gl.
      destruct (decide (b = [])) as [Nb|Nb]; [|specialize (Hm0 Nb (eq_sym Gl)); lia].
      unfold g'. assert (cond = true) as ->; [|done]. unfold cond. rewrite Nb. cbn [length].
      rewrite bool_decide_true by (simpl; lia). rewrite bool_decide_true by (rewrite <- Gl; done).
      unfold is_end. by destruct (negb _).
    + intros A. destruct (Hall A) as [A1 A2]. split; [unfold g'; by destruct cond|].
      rewrite Hrest. rewrite take_app_ge by lia. f_equal. rewrite Hlen.
      assert (Hlb : length b = Nat.min (rcapa f) (length (drop (off f) (content f)))) by (rewrite A2 at 1; apply take_length).
      assert (Ht : (n - d)%nat = total) by lia. rewrite Ht.
      assert (Htc : (total <= rcapa f)%nat).
      { etrans; [apply Nat.lt_le_incl; exact Hsmall|]. apply Nat.div_le_upper_bound; lia. }
      rewrite A2. rewrite take_take. rewrite take_length in *.
      destruct (decide (total <= length (drop (off f) (content f)))%nat).
      * f_equal. unfold m. lia.
      * rewrite (take_ge _ total) by lia. apply take_ge. unfold m. lia.
    + intros Hor He E.
      destruct cond eqn:Ec.
      * unfold cond in Ec. apply andb_true_iff in Ec as [Ec1 Ec3]. apply andb_true_iff in Ec1 as [Ec1 Ec2].
        apply bool_decide_eq_true in Ec1, Ec2. cbn in Ec1.
        rewrite Gr. rewrite (drop_ge b) by lia. simpl.
        destruct Hor as [A|F].
        -- destruct (Hall A) as [_ A2]. apply drop_ge.
           assert (length b = Nat.min (rcapa f) (length (drop (off f) (content f)))) as X by (rewrite A2 at 1; apply take_length).
           rewrite drop_length in X. lia.
        -- unfold is_end in Ec3. cbn in Ec3. rewrite F in Ec3. simpl in Ec3. apply bool_decide_eq_true in Ec3.
           destruct b; [|done]. destruct (Hb0 eq_refl) as [?|X]; [lia|]. simpl. by rewrite Nat.add_0_r.
      * unfold g' in E. cbn in E. specialize (He E). rewrite Hsp in He. by apply app_eq_nil in He as [_ He].
  - destruct (os_read_ok f total Hn) as (es & b & -> & Hb & Hbn & Hb0 & Hes & Hall).
    set (g := set_buf (IFile (content f) (off f + length b) es (rbuf f) (rp f) (rcapa f) (unget f) (eof f) (fifo f)) [] 0).
    set (cond := bool_decide (length b < total)%nat && is_end g (length b)).
    eexists _, (first ++ b). split; [reflexivity|].
    set (g' := if cond then set_eof g true else g).
    assert (Gr : rest g' = drop (off f + length b) (content f)) by (unfold g'; by destruct cond).
    assert (Gp : pos g' = (off f + length b)%nat) by (unfold g'; destruct cond; unfold pos; simpl; lia).
    assert (Hdrop : drop (off f) (content f) = b ++ drop (off f + length b) (content f)).
    { rewrite Hb at 1. rewrite <- drop_drop. by rewrite take_drop. }
    assert (Hsp : rest f = (first ++ b) ++ rest g').
    { rewrite Hrest, Hdrop, Gr, <- app_assoc. done. }
    split; [|split_and!].
    + unfold wf. split_and!.
      * unfold g'. by destruct cond.
      * unfold g'. destruct cond; simpl; lia.
      * unfold g'. destruct cond; simpl; lia.
      * rewrite Gr, Gp, Hc. done.
      * unfold g'. by destruct cond.
    + unfold g'. by destruct cond.
    + unfold g'. by destruct cond.
    + exact Hsp.
    + rewrite app_length. lia.
    + rewrite app_length, Gp. lia.
    + intros E. apply app_eq_nil in E as [E1 E2].
      assert (d = 0%nat) by (rewrite <- Hlen, E1; done).
      destruct (Hb0 E2) as [?|X]; [left; lia|]. right. rewrite Gr, E2. simpl. by rewrite Nat.add_0_r.
    + intros E Hnz. apply app_eq_nil in E as [E1 E2].
      assert (d = 0%nat) by (rewrite <- Hlen, E1; done).
      unfold g'. assert (cond = true) as ->; [|done]. unfold cond. rewrite E2. cbn [length].
      rewrite bool_decide_true by lia. unfold is_end. by destruct (negb _).
    + intros A. destruct (Hall A) as [A1 A2]. split; [unfold g'; by destruct cond|].
      rewrite Hrest. rewrite take_app_ge by lia. f_equal. rewrite Hlen.
      assert (Ht : (n - d)%nat = total) by lia. by rewrite Ht.
    + intros Hor He E. destruct cond eqn:Ec.
      * unfold cond in Ec. apply andb_true_iff in Ec as [Ec1 Ec3]. apply bool_decide_eq_true in Ec1.
        rewrite Gr. destruct Hor as [A|F].
        -- destruct (Hall A) as [_ A2]. apply drop_ge.
           assert (length b = Nat.min total (length (drop (off f) (content f)))) as X by (rewrite A2 at 1; apply take_length).
           rewrite drop_length in X. lia.
        -- unfold is_end in Ec3. cbn in Ec3. rewrite F in Ec3. simpl in Ec3. apply bool_decide_eq_true in Ec3.
           destruct b; [|done]. destruct (Hb0 eq_refl) as [?|X]; [simpl in *; lia|]. simpl. by rewrite Nat.add_0_r.
      * unfold g' in E. cbn in E. specialize (He E). rewrite Hsp in He. by apply app_eq_nil in He as [_ He].
Qed.

Definition reliable (f : ifile) : Prop := all_full (answers f) \/ fifo f = true.
Definition eof_inv (f : ifile) : Prop := reliable f /\ (eof f = true -> pending f = []).

Lemma pending_rest f : unget f = None -> pending f = rest f.
Proof. intros H. unfold pending. by rewrite H. Qed.

Lemma fread1_eof c f n f' l : wf c f -> unget f = None -> eof_inv f -> fread1 f n = Some (f', l) -> eof_inv f'.
Proof.
  intros W U (R & He) H. destruct (fread1_ok c f n W) as (f2 & l2 & E & W2 & U2 & F2 & _ & _ & _ & _ & _ & A & X).
  rewrite H in E. injection E as <- <-. split.
  - destruct R as [R|R]; [left; by apply A|right; by rewrite F2].
  - intros E. rewrite pending_rest by (by rewrite U2). apply X; [done| |done].
    intros E'. rewrite <- pending_rest by done. by apply He.
Qed.

Lemma fgetc_ok c f : wf c f -> exists f' r, fgetc f = Some (f', r) /\ wf c f' /\ unget f' = None /\
  match r with
  | Some x => pending f = x :: pending f'
  | None => pending f = [] /\ pending f' = [] /\ eof f' = true
  end /\
  (unget f = None -> pos f' = (pos f + match r with Some _ => 1 | None => 0 end)%nat) /\
  (all_full (answers f) -> all_full (answers f')) /\ (eof_inv f -> eof_inv f').
Proof.
  intros W. unfold fgetc. destruct (unget f) as [x|] eqn:U.
  - eexists _, _. split; [reflexivity|]. split; [exact W|]. split; [done|]. split.
    { unfold pending. rewrite U. done. }
    split; [done|]. split; [done|]. intros (R & He). split; [exact R|]. cbn. intros E. specialize (He E).
    unfold pending in He. by rewrite U in He.
  - destruct (fread1_ok c f 1 W) as (f2 & l & E & W2 & U2 & F2 & Hr & Hl & Hp & H0 & H1 & A & X).
    rewrite E. cbn [mbind option_bind]. eexists _, _. split; [reflexivity|]. split; [done|].
    split; [by rewrite U2|]. split.
    { rewrite !pending_rest by congruence. destruct l as [|y [|]]; [| |simpl in Hl; lia].
      - destruct (H0 eq_refl) as [?|Z]; [done|]. rewrite Hr, Z. split; [done|]. split; [done|]. by apply H1.
      - exact Hr. }
    split.
    { intros _. rewrite Hp. destruct l as [|y [|]]; simpl; [lia|lia|simpl in Hl; lia]. }
    split; [intros Y; by apply A|]. intros V. exact (fread1_eof c f 1 f2 l W U V E).
Qed.

Lemma ungetc_pending f x : 0 <= x < 256 -> unget f = None -> pending (ungetc f x) = x :: pending f /\ unget (ungetc f x) <> None.
Proof.
  intros Hx U. unfold ungetc. destruct (decide (x = -1)); [lia|]. unfold pending. cbn. by rewrite U.
Qed.

Lemma run_ok c ops : forall f full, wf c f -> (full = true -> all_full (answers f)) ->
  polite (bool_decide (unget f <> None)) ops ->
  exists f' rs, run f ops = Some (f', rs) /\ stream full (pending f) ops rs (pending f') /\ wf c f' /\
    (eof_inv f -> eof_inv f').
Proof.
  induction ops as [|[n| |x] ops IH]; intros f full W A P.
  - eexists _, _. split; [reflexivity|]. split; [constructor|]. done.
  - destruct P as [P0 P]. apply bool_decide_eq_false in P0.
    assert (U : unget f = None) by (destruct (unget f); [by destruct P0|done]).
    cbn [run]. destruct (fread1_ok c f n W) as (f2 & l & E & W2 & U2 & F2 & Hr & Hl & Hp & H0 & H1 & Al & X).
    assert (V2 : eof_inv f -> eof_inv f2) by (intros V; exact (fread1_eof c f n f2 l W U V E)).
    rewrite E. cbn [mbind option_bind].
    destruct (IH f2 full) as (f3 & rs & E3 & S3 & W3 & V3); [done| | |].
    { intros F. by apply Al, A. }
    { rewrite U2, U. rewrite bool_decide_false; [done|]. intros Q. by apply Q. }
    rewrite E3. cbn [mbind option_bind]. eexists _, _. split; [reflexivity|]. split; [|by auto].
    rewrite (pending_rest f) by done. rewrite Hr. rewrite (pending_rest f2) in S3 by (by rewrite U2).
    constructor; [done|done| |done]. intros F. rewrite <- Hr. by apply Al, A.
  - cbn [run]. destruct (fgetc_ok c f W) as (f2 & r & E & W2 & U2 & Hr & Hp & Al & V2).
    rewrite E. cbn [mbind option_bind].
    destruct (IH f2 full) as (f3 & rs & E3 & S3 & W3 & V3); [done| | |].
    { intros F. by apply Al, A. }
    { rewrite U2. rewrite bool_decide_false; [exact P|]. intros Q. by apply Q. }
    rewrite E3. cbn [mbind option_bind]. eexists _, _. split; [reflexivity|]. split; [|by auto].
    destruct r as [x|].
    + rewrite Hr. by constructor.
    + destruct Hr as (R1 & R2 & _). rewrite R1. rewrite R2 in S3. by constructor.
  - destruct P as (P0 & Px & P). apply bool_decide_eq_false in P0.
    assert (U : unget f = None) by (destruct (unget f); [by destruct P0|done]).
    cbn [run]. destruct (ungetc_pending f x Px U) as [Q1 Q2].
    destruct (IH (ungetc f x) full) as (f3 & rs & E3 & S3 & W3 & V3); [done|done| |].
    { rewrite bool_decide_true by done. exact P. }
    rewrite E3. cbn [mbind option_bind]. eexists _, _. split; [reflexivity|]. rewrite Q1 in S3. split; [by constructor|].
    split; [done|]. intros [R _]. apply V3. split; [exact R|]. by cbn.
Qed.

Lemma opened_wf data es capa pipe : no_fail es -> wf data (opened data es capa pipe).
Proof. intros H. unfold wf. split; [done|]. split; [simpl; lia|]. split; [simpl; lia|]. split; [done|exact H]. Qed.

(** C53. *)
Lemma stream_ok data es capa pipe ops : no_fail es -> polite false ops ->
  exists f rs, run (opened data es capa pipe) ops = Some (f, rs) /\ stream false data ops rs (pending f).
Proof.
  intros H P. destruct (run_ok data ops (opened data es capa pipe) false) as (f & rs & E & S & _); [by apply opened_wf|done|done|].
  by exists f, rs.
Qed.
Lemma stream_full_ok data es capa pipe ops : all_full es -> polite false ops ->
  exists f rs, run (opened data es capa pipe) ops = Some (f, rs) /\ stream true data ops rs (pending f).
Proof.
  intros H P. destruct (run_ok data ops (opened data es capa pipe) true) as (f & rs & E & S & _);
    [by apply opened_wf, full_no_fail|done|done|].
  by exists f, rs.
Qed.
Lemma unget_order : exists f, run (opened [65; 66] [] 256 false) [Getc; Ungetc 65; Read 1; Getc] =
  Some (f, [Char (Some 65); Done; Bytes [66]; Char (Some 65)]).
Proof. vm_compute. eexists. reflexivity. Qed.
Lemma unget_lost : exists f, run (opened [65] [] 256 false) [Ungetc 66; Ungetc 67; Getc; Getc] =
  Some (f, [Done; Done; Char (Some 67); Char (Some 65)]).
Proof. vm_compute. eexists. reflexivity. Qed.
Lemma unget_char : exists f, run (opened [200] [] 256 false) [Getc; Ungetc (200 - 256); Getc] =
  Some (f, [Char (Some 200); Done; Char (Some (-56))]).
Proof. vm_compute. eexists. reflexivity. Qed.
Lemma fail_crash data es capa pipe : (3 <= capa)%nat -> fgetc (opened data (RFail :: es) capa pipe) = None.
Proof.
  intros H. unfold fgetc, opened. cbn [unget]. unfold fread1. cbn [rbuf rp rcapa length].
  rewrite decide_False by tauto. rewrite (decide_False (P := ([] : list Z) <> [])) by tauto.
  rewrite decide_True; [done|].
  apply Nat.div_le_lower_bound; lia.
Qed.
Lemma fail_twice : exists f, run (opened [1;2;3;4;5;6;7;8;9] [RFull; RFail] 8 false) [Read 1; Read 13; Read 7] =
  Some (f, [Bytes [1]; Bytes [2;3;4;5;6;7;8]; Bytes [2;3;4;5;6;7;8]]).
Proof. vm_compute. eexists. reflexivity. Qed.
Lemma size_zero c f n : wf c f -> fread f 0 n = None.
Proof.
  intros W. unfold fread. simpl. destruct (fread1_ok c f 0 W) as (f2 & l & -> & _). done.
Qed.
Lemma size_zero_opened data es capa pipe n : no_fail es -> fread (opened data es capa pipe) 0 n = None.
Proof. intros H. eapply size_zero. by apply opened_wf. Qed.

(** C61. *)
Lemma tell_ok data es capa pipe ops f rs : no_fail es -> polite false ops ->
  run (opened data es capa pipe) ops = Some (f, rs) -> unget f = None ->
  0 <= ftell f /\ pending f = drop (Z.to_nat (ftell f)) data.
Proof.
  intros H P E U. destruct (run_ok data ops (opened data es capa pipe) false) as (f' & rs' & E' & _ & (Hc & Hp & Ho & Hr & _) & _);
    [by apply opened_wf|done|done|].
  rewrite E in E'. injection E' as <- <-. rewrite pending_rest by done. rewrite Hr. unfold ftell, pos.
  split; [lia|]. f_equal. lia.
Qed.
Lemma run_fifo c ops : forall g f rs, wf c g -> run g ops = Some (f, rs) -> fifo f = fifo g.
Proof.
  induction ops as [|[n| |x] ops IH]; intros g f rs W E; cbn [run] in E.
  - by injection E as <- <-.
  - destruct (fread1_ok c g n W) as (f2 & l & E2 & W2 & U2 & F2 & _). rewrite E2 in E. cbn [mbind option_bind] in E.
    destruct (run f2 ops) as [[f3 rs3]|] eqn:E3; [|done]. cbn in E. injection E as <- <-.
    rewrite <- F2. by eapply IH.
  - unfold fgetc in E. destruct (unget g) eqn:U.
    + cbn [mbind option_bind] in E. destruct (run (set_unget g None) ops) as [[f3 rs3]|] eqn:E3; [|done].
      cbn in E. injection E as <- <-. by apply IH in E3.
    + destruct (fread1_ok c g 1 W) as (f2 & l & E2 & W2 & U2 & F2 & _). rewrite E2 in E. cbn [mbind option_bind] in E.
      destruct (run f2 ops) as [[f3 rs3]|] eqn:E3; [|done]. cbn in E. injection E as <- <-.
      rewrite <- F2. by eapply IH.
  - destruct (run (ungetc g x) ops) as [[f3 rs3]|] eqn:E3; [|done]. cbn in E. injection E as <- <-.
    by apply IH in E3.
Qed.
Lemma seek_ok data es capa ops f rs o w : no_fail es -> polite false ops ->
  run (opened data es capa false) ops = Some (f, rs) -> (w = SeekSet /\ 0 <= o \/ w = SeekEnd /\ 0 <= Z.of_nat (length data) + o) ->
  exists f', fseek f o w = (f', true) /\ ftell f' = (match w with SeekSet => 0 | _ => Z.of_nat (length data) end) + o /\
    eof f' = false /\ forall ops, polite false ops -> exists f'' rs, run f' ops = Some (f'', rs) /\
      stream false (drop (Z.to_nat (ftell f')) data) ops rs (pending f'').
Proof.
  intros H P E Hw. destruct (run_ok data ops (opened data es capa false) false) as (f' & rs' & E' & _ & (Hc & Hp & Ho & Hr & Hn) & _);
    [by apply opened_wf|done|done|].
  rewrite E in E'. injection E' as <- <-.
  assert (Hf : fifo f = false).
  { exact (run_fifo data ops (opened data es capa false) f rs (opened_wf data es capa false H) E). }
  unfold fseek. rewrite Hf.
  set (base := match w with SeekSet => 0 | SeekCur => Z.of_nat (off f) | SeekEnd => Z.of_nat (length (content f)) end).
  assert (Hb : 0 <= base + o) by (unfold base; destruct Hw as [[-> ?]|[-> ?]]; rewrite ?Hc; lia).
  rewrite bool_decide_true by done. cbn [negb andb].
  eexists. split; [reflexivity|].
  assert (Ht : forall es', ftell (IFile (content f) (Z.to_nat (base + o)) es' [] 0 (rcapa f) None false false) = base + o).
  { intros. unfold ftell. cbn. lia. }
  rewrite Ht. split; [unfold base; destruct Hw as [[-> ?]|[-> ?]]; rewrite ?Hc; done|]. split; [done|].
  intros ops2 P2.
  destruct (run_ok data ops2 (IFile (content f) (Z.to_nat (base + o)) (answers f) [] 0 (rcapa f) None false false) false)
    as (f2 & rs2 & E2 & S2 & _); [|done|done|].
  { unfold wf, rest, pos. cbn. split_and!; first [done|lia|idtac]. rewrite Hc. f_equal. lia. }
  exists f2, rs2. split; [exact E2|]. cbn [pending unget rbuf rp off content] in S2. unfold pending in S2 at 1. cbn in S2.
  rewrite Hc in S2. exact S2.
Qed.
Lemma seek_cur : exists f rs f', run (opened [1;2;3] [] 256 false) [Getc] = Some (f, rs) /\
  ftell f = 1 /\ fseek f 0 SeekCur = (f', true) /\ ftell f' = 3.
Proof. vm_compute. eexists _, _, _. repeat split; reflexivity. Qed.
Lemma tell_unget : exists f rs, run (opened [1;2;3] [] 256 false) [Getc; Ungetc 1] = Some (f, rs) /\
  pending f = [1;2;3] /\ ftell f = 1.
Proof. vm_compute. eexists _, _. repeat split; reflexivity. Qed.

(** C64. *)
Lemma eof_after_getc data es capa pipe ops f rs f' : no_fail es -> polite false ops ->
  run (opened data es capa pipe) ops = Some (f, rs) -> fgetc f = Some (f', None) -> eof f' = true.
Proof.
  intros H P E G. destruct (run_ok data ops (opened data es capa pipe) false) as (f2 & rs2 & E2 & _ & W & _);
    [by apply opened_wf|done|done|].
  rewrite E in E2. injection E2 as <- <-. destruct (fgetc_ok data f W) as (f3 & r & E3 & _ & _ & R & _).
  rewrite G in E3. injection E3 as <- <-. apply R.
Qed.
Lemma eof_ok data es capa pipe ops f rs : no_fail es -> all_full es \/ pipe = true -> polite false ops ->
  run (opened data es capa pipe) ops = Some (f, rs) -> eof f = true -> pending f = [].
Proof.
  intros H R P E. destruct (run_ok data ops (opened data es capa pipe) false) as (f2 & rs2 & E2 & _ & W & V);
    [by apply opened_wf|done|done|].
  rewrite E in E2. injection E2 as <- <-. apply V. split; [exact R|done].
Qed.
Lemma eof_terminal : exists f rs, run (opened [65; 10; 66; 10] [RShort 1] 256 false) [Read 2] = Some (f, rs) /\
  eof f = true /\ pending f = [66; 10].
Proof. vm_compute. eexists _, _. repeat split; reflexivity. Qed.
Lemma eof_early : exists f, run (opened [65] [] 256 false) [Getc] = Some (f, [Char (Some 65)]) /\ eof f = true.
Proof. vm_compute. eexists. repeat split; reflexivity. Qed.

(** C63. *)
Lemma fgets_loop_ok c n : forall f acc, wf c f -> exists f' l,
  fgets_loop f n acc = Some (f', acc ++ l) /\ wf c f' /\ pending f = l ++ pending f' /\ is_line n (pending f) l.
Proof.
  induction n as [|n IH]; intros f acc W; cbn [fgets_loop].
  - exists f, []. rewrite app_nil_r. split_and!; try done. unfold is_line. split_and!; try done.
    + by exists (pending f).
    + by intros [|? ?] b.
    + by right; left.
  - destruct (fgetc_ok c f W) as (f2 & r & E & W2 & U2 & Hr & _). rewrite E. cbn [mbind option_bind].
    destruct r as [x|].
    + destruct (decide (x = 10)) as [->|Hx].
      * exists f2, [10]. split_and!; try done. rewrite Hr. unfold is_line. split_and!.
        -- by exists (pending f2).
        -- simpl; lia.
        -- intros [|? [|]] b; simpl; congruence.
        -- right; right. by exists [].
      * destruct (IH f2 (acc ++ [x]) W2) as (f3 & l & E3 & W3 & P3 & (T3 & L3 & N3 & M3)).
        exists f3, (x :: l). split; [rewrite E3; f_equal; f_equal; by rewrite <- app_assoc|]. split; [done|].
        split; [by rewrite Hr, P3|]. rewrite Hr. unfold is_line. split_and!.
        -- destruct T3 as [t ->]. by exists t.
        -- simpl; lia.
        -- intros [|? a] b; simpl; intros Q; [congruence|]. injection Q as -> Q. by eapply N3.
        -- destruct M3 as [M|[M|[a M]]]; [left; by f_equal|right; left; simpl; lia|right; right].
           exists (x :: a). by rewrite M.
    + destruct Hr as (R1 & R2 & _). exists f2, []. rewrite app_nil_r. rewrite R1, R2. split_and!; try done.
      unfold is_line. split_and!; try done.
      * by exists [].
      * simpl; lia.
      * by intros [|? ?] b.
      * by left.
Qed.

Lemma after c f ops : forall full, wf c f -> (full = true -> all_full (answers f)) -> polite (bool_decide (unget f <> None)) ops ->
  exists f' rs, run f ops = Some (f', rs) /\ wf c f'.
Proof. intros full W A P. destruct (run_ok c ops f full W A P) as (f' & rs & E & _ & W' & _). by exists f', rs. Qed.

Lemma fgets_ok data es capa pipe ops f rs n : no_fail es -> polite false ops ->
  run (opened data es capa pipe) ops = Some (f, rs) -> (2 <= n)%nat ->
  exists f' r, fgets f n = Some (f', r) /\
  match r with
  | None => pending f = []
  | Some l => l <> [] /\ is_line (n - 1) (pending f) l /\ pending f = l ++ pending f'
  end.
Proof.
  intros H P E Hn. destruct (run_ok data ops (opened data es capa pipe) false) as (f2 & rs2 & E2 & _ & W & _);
    [by apply opened_wf|done|done|].
  rewrite E in E2. injection E2 as <- <-. unfold fgets.
  destruct (fgets_loop_ok data (n - 1) f [] W) as (f3 & l & -> & W3 & P3 & L3). cbn [mbind option_bind].
  eexists _, _. split; [reflexivity|]. simpl. destruct l as [|x l]; [|by split_and!].
  destruct L3 as (_ & _ & _ & [M|[M|[a M]]]); [done|simpl in M; lia|by destruct a].
Qed.
Lemma fgets_one data es capa pipe : fgets (opened data es capa pipe) 1 = Some (opened data es capa pipe, None).
Proof. done. Qed.

Lemma take_insert_snoc (l : list Z) n x acc : take n l = acc -> length acc = n -> (n < length l)%nat ->
  take (S n) (<[n := x]> l) = acc ++ [x].
Proof.
  intros H Hl Hn. rewrite (take_S_r _ n x); [|by apply list_lookup_insert].
  rewrite take_insert by lia. by rewrite H.
Qed.

Lemma getline_loop_ok c fuel junk : forall f top capa size acc, wf c f ->
  take size top = acc -> length acc = size -> (size = 0%nat \/ (size < capa)%nat) -> (capa <= length top)%nat ->
  (length (pending f) < fuel)%nat ->
  exists f' r size', getline_loop fuel junk f top capa size = Some (f', r, size') /\
  match r with
  | None => size = 0%nat /\ pending f = []
  | Some (buf, capa') => exists l, pending f = l ++ pending f' /\ is_line (length (pending f)) (pending f) l /\
      acc ++ l <> [] /\
      size' = length (acc ++ l) /\ take (S size') buf = (acc ++ l) ++ [0] /\ (size' < capa' <= length buf)%nat
  end.
Proof.
  induction fuel as [|fuel IH]; intros f top capa size acc W Ht Hl Hs Hc Hf; [lia|].
  cbn [getline_loop]. destruct (fgetc_ok c f W) as (f2 & r & E & W2 & U2 & Hr & _). rewrite E. cbn [mbind option_bind].
  destruct r as [x|].
  2:{ destruct Hr as (R1 & R2 & _). destruct (decide (size = 0%nat)) as [->|Hz].
      { eexists _, _, _. split; [reflexivity|]. done. }
      destruct (decide (size < length top)%nat) as [Hlt|Hlt]; [|lia].
      eexists _, _, _. split; [reflexivity|]. cbn beta iota. exists []. rewrite R1, R2, (app_nil_r acc).
      split; [done|]. split.
      { unfold is_line. split_and!; [by exists []|done|by intros [|? ?] b|by left]. }
      split; [intros Q; rewrite Q in Hl; simpl in Hl; lia|]. split; [done|].
      split; [by apply take_insert_snoc|]. rewrite insert_length. lia. }
  set (grown := if decide (capa <= size + 1)%nat then _ else _).
  assert (G : exists top' capa', grown = (top', capa') /\ take size top' = acc /\ (size + 1 < capa')%nat /\ (capa' <= length top')%nat).
  { unfold grown. destruct (decide (capa <= size + 1)%nat).
    - eexists _, _. split; [reflexivity|].
      assert (size <= length top)%nat by (rewrite <- Hl, <- Ht, take_length; lia).
      split_and!.
      + rewrite take_app_le by (rewrite take_length; lia). rewrite take_take. by rewrite Nat.min_l by lia.
      + lia.
      + rewrite app_length, take_length, replicate_length. lia.
    - eexists _, _. split; [reflexivity|]. split_and!; [done|lia|done]. }
  destruct G as (top' & capa' & -> & Ht' & Hs' & Hc'). cbn beta iota zeta.
  destruct (decide (size < length top')%nat) as [_|Hlt]; [|lia].
  assert (Hts : take (S size) (<[size := x]> top') = acc ++ [x]) by (apply take_insert_snoc; [done|done|lia]).
  destruct (decide (x = 10)) as [->|Hx].
  - destruct (decide _) as [_|Hlt]; [|rewrite insert_length in Hlt; lia].
    eexists _, _, _. split; [reflexivity|]. cbn beta iota. exists [10]. rewrite Hr. split; [done|]. split.
    { unfold is_line. split_and!.
      - by exists (pending f2).
      - simpl; lia.
      - intros [|? [|]] b; simpl; congruence.
      - right; right. by exists []. }
    split; [intros Q; apply app_eq_nil in Q as [_ Q]; done|]. split; [rewrite app_length; simpl; lia|].
    split; [apply take_insert_snoc; [done|rewrite app_length; simpl; lia|rewrite insert_length; lia]|].
    rewrite !insert_length. lia.
  - rewrite Hr in Hf. simpl in Hf.
    destruct (IH f2 (<[size := x]> top') capa' (S size) (acc ++ [x]) W2) as (f3 & r3 & size3 & E3 & R3).
    { done. }
    { rewrite app_length; simpl; lia. }
    { right; lia. }
    { rewrite insert_length. lia. }
    { lia. }
    rewrite E3. eexists _, _, _. split; [reflexivity|]. destruct r3 as [[buf capa3]|]; [|lia].
    destruct R3 as (l & P3 & L3 & _ & S3 & B3 & C3).
    exists (x :: l). rewrite Hr.
    replace (acc ++ x :: l) with ((acc ++ [x]) ++ l) by (by rewrite <- app_assoc).
    split; [by rewrite P3|]. split.
    { destruct L3 as (T3 & L3 & N3 & M3). unfold is_line. split_and!.
      - destruct T3 as [t ->]. by exists t.
      - simpl; lia.
      - intros [|? a] b; simpl; intros Q; [congruence|]. injection Q as -> Q. by eapply N3.
      - destruct M3 as [M|[M|[a M]]]; [left; by f_equal|right; left; simpl; lia|right; right].
        exists (x :: a). by rewrite M. }
    split; [rewrite <- app_assoc; intros Q; apply app_eq_nil in Q as [_ Q]; done|]. done.
Qed.

Lemma getline_ok data es capa pipe ops f rs junk lineptr n : no_fail es -> polite false ops ->
  run (opened data es capa pipe) ops = Some (f, rs) ->
  (forall b, lineptr = Some b -> (n <= length b)%nat) ->
  exists f' r size, getline (S (length (pending f))) junk f lineptr n = Some (f', r, size) /\
  match r with
  | None => pending f = []
  | Some (buf, capa') => exists l, l <> [] /\ pending f = l ++ pending f' /\
      is_line (length (pending f)) (pending f) l /\
      size = length l /\ take (S size) buf = l ++ [0] /\ (size < capa' <= length buf)%nat
  end.
Proof.
  intros H P E Hn. destruct (run_ok data ops (opened data es capa pipe) false) as (f2 & rs2 & E2 & _ & W & _);
    [by apply opened_wf|done|done|].
  rewrite E in E2. injection E2 as <- <-.
  assert (G : forall top n, (n <= length top)%nat -> exists f' r size,
    getline_loop (S (length (pending f))) junk f top n 0 = Some (f', r, size) /\
    match r with
    | None => pending f = []
    | Some (buf, capa') => exists l, l <> [] /\ pending f = l ++ pending f' /\
      is_line (length (pending f)) (pending f) l /\
      size = length l /\ take (S size) buf = l ++ [0] /\ (size < capa' <= length buf)%nat
    end).
  { intros top m Hm. destruct (getline_loop_ok data (S (length (pending f))) junk f top m 0 [] W) as (f' & r & size & E' & R);
      [done|done|by left|done|lia|].
    exists f', r, size. split; [exact E'|]. destruct r as [[buf capa']|]; [|apply R].
    destruct R as (l & R1 & R2 & R3 & R4 & R5 & R6). exists l. repeat (split; [assumption|]); assumption. }
  unfold getline. destruct lineptr as [top|]; [destruct n as [|n]|].
  - apply G. simpl; lia.
  - apply G. by apply Hn.
  - apply G. simpl; lia.
Qed.
