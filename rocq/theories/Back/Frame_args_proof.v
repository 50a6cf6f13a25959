(** Parameters are where the function looks for them. *)
From stdpp Require Import base numbers list sets.
From Coq Require Import Lia.
From Verif Require Import Back.Frame_model Back.Frame_spec Back.Frame_proof Back.Frame_run_proof.
Open Scope Z_scope.

Definition ent : Type := aty * place * loc.
Definition mv (e : ent) : list ins :=
  let '(t, p, a) := e in
  match p, a with
  | InReg k, Spilled off => [Store (Z.to_nat (t_size t)) (k + 1) FromRbp off]
  | InReg k, Phys d => if Nat.eqb (k + 1) d then [] else [Mov (Z.to_nat (t_size t)) (k + 1) d]
  | InFreg k, Spilled off => [FStore (Z.to_nat (t_size t)) k FromRbp off]
  | InFreg k, Phys d => if Nat.eqb k d then [] else [FMov (Z.to_nat (t_size t)) k d]
  | OnStack _, _ => []
  end.
Definition mvs (L : list ent) : list ins := concat (map mv L).
Definition is_i (e : ent) : bool := let '(t, p, a) := e in is_ireg p.
Definition is_f (e : ent) : bool := let '(t, p, a) := e in is_freg p.

Lemma imoves_mvs l : forall as_ ir fr off, length as_ = length l ->
  imoves (Nat.min ir 6) (zip l as_) = mvs (List.filter is_i (zip (zip l (gp ir fr off l)) as_)).
Proof.
  induction l as [|t l IH]; intros [|a as_] ir fr off Hl; try done. injection Hl as Hl. cbn [zip_with imoves gp].
  unfold MAX_REG_ARGS. destruct (t_struct t); cbn [orb].
  { cbn [zip_with List.filter is_i is_ireg]. by apply IH. }
  destruct (t_flo t).
  { destruct (fr <? 8)%nat; cbn [zip_with List.filter is_i is_ireg]; by apply IH. }
  destruct (Nat.min ir 6 <? 6)%nat eqn:E; [apply Nat.ltb_lt in E|apply Nat.ltb_ge in E].
  - replace (ir <? 6)%nat with true by (symmetry; apply Nat.ltb_lt; lia). cbn [zip_with List.filter is_i is_ireg].
    unfold mvs. cbn [map concat]. replace (S (Nat.min ir 6)) with (Nat.min (S ir) 6) by lia.
    rewrite (IH as_ (S ir) fr off Hl). unfold mvs. f_equal. replace (Nat.min ir 6) with ir by lia. by destruct a.
  - replace (ir <? 6)%nat with false by (symmetry; apply Nat.ltb_ge; lia). cbn [zip_with List.filter is_i is_ireg].
    replace (Nat.min ir 6) with (Nat.min (S ir) 6) by lia. by apply IH.
Qed.
Lemma fmoves_mvs l : forall as_ ir fr off, length as_ = length l ->
  fmoves (Nat.min fr 8) (zip l as_) = mvs (List.filter is_f (zip (zip l (gp ir fr off l)) as_)).
Proof.
  induction l as [|t l IH]; intros [|a as_] ir fr off Hl; try done. injection Hl as Hl. cbn [zip_with fmoves gp].
  unfold MAX_FREG_ARGS. destruct (t_struct t); cbn [orb].
  { cbn [zip_with List.filter is_f is_freg]. by apply IH. }
  destruct (t_flo t); cbn [negb].
  2:{ destruct (ir <? 6)%nat; cbn [zip_with List.filter is_f is_freg]; by apply IH. }
  destruct (Nat.min fr 8 <? 8)%nat eqn:E; [apply Nat.ltb_lt in E|apply Nat.ltb_ge in E].
  - replace (fr <? 8)%nat with true by (symmetry; apply Nat.ltb_lt; lia). cbn [zip_with List.filter is_f is_freg].
    unfold mvs. cbn [map concat]. replace (S (Nat.min fr 8)) with (Nat.min (S fr) 8) by lia.
    rewrite (IH as_ ir (S fr) off Hl). unfold mvs. f_equal. replace (Nat.min fr 8) with fr by lia. by destruct a.
  - replace (fr <? 8)%nat with false by (symmetry; apply Nat.ltb_ge; lia). cbn [zip_with List.filter is_f is_freg].
    replace (Nat.min fr 8) with (Nat.min (S fr) 8) by lia. by apply IH.
Qed.

(** ** Running the moves *)

Definition ent_ok (f : fn) (va : bool) (e : ent) : Prop := let '(t, p, a) := e in
  type_ok t /\ good_home f va t p a /\ match p with OnStack _ => False | InReg k => (k < 6)%nat /\ t_struct t = false | InFreg k => (k < 8)%nat /\ t_struct t = false /\ t_flo t = true end.
Definition diff (e e' : ent) : Prop := let '(t, p, a) := e in let '(t', p', a') := e' in different t t' p p' a a'.
Fixpoint pw (L : list ent) : Prop := match L with [] => True | e :: r => (forall e', e' ∈ r -> diff e e') /\ pw r end.

Lemma size_nat t : type_ok t -> Z.of_nat (Z.to_nat (t_size t)) = t_size t.
Proof. intros (H & _). lia. Qed.
Lemma mov_low n new old : (n <= 8)%nat -> mov_reg n new old mod 256 ^ Z.of_nat n = new mod 256 ^ Z.of_nat n.
Proof.
  intros _. unfold mov_reg. assert (0 < 256 ^ Z.of_nat n) by lia. destruct (n <? 4)%nat.
  - rewrite Z.add_comm, Z.mod_add by lia. by rewrite Z.mod_mod by lia.
  - by rewrite Z.mod_mod by lia.
Qed.
Lemma fmov_low n new old : (n <= 8)%nat -> mov_freg n new old mod 256 ^ Z.of_nat n = new mod 256 ^ Z.of_nat n.
Proof.
  intros _. unfold mov_freg. assert (0 < 256 ^ Z.of_nat n) by lia. destruct (n <? 8)%nat.
  - rewrite Z.add_comm, Z.mod_add by lia. by rewrite Z.mod_mod by lia.
  - by rewrite Z.mod_mod by lia.
Qed.
Lemma size_le8 t : type_ok t -> t_struct t = false -> (Z.to_nat (t_size t) <= 8)%nat.
Proof.
  intros (_ & _ & H) Hs. destruct (H Hs) as [Hz _].
  repeat (apply elem_of_cons in Hz as [->|Hz]); [lia..|by apply elem_of_nil in Hz].
Qed.

Definition source (s : state) (e : ent) : Z := let '(t, p, a) := e in
  match p with InReg k => regs s (k + 1) mod 256 ^ t_size t | InFreg k => fregs s k mod 256 ^ t_size t | OnStack _ => 0 end.
Definition ent_home (e : ent) : home := let '(t, p, a) := e in home_of p a.
Definition ent_ty (e : ent) : aty := let '(t, p, a) := e in t.

(** One move. *)
Definition touched (e : ent) (r : nat) : Prop := let '(t, p, a) := e in match p, a with InReg k, Phys d => d = r | _, _ => False end.
Definition ftouched (e : ent) (r : nat) : Prop := let '(t, p, a) := e in match p, a with InFreg k, Phys d => d = r | _, _ => False end.
Definition mtouched (e : ent) (bp x : Z) : Prop := let '(t, p, a) := e in match p, a with (InReg _ | InFreg _), Spilled o => bp + o <= x < bp + o + t_size t | _, _ => False end.
Lemma one_move f va e s : ent_ok f va e -> let s' := run (mv e) s in
  rsp s' = rsp s /\
  (forall r, (r < 7)%nat \/ ~ touched e r -> regs s' r = regs s r) /\
  (forall r, (r < 8)%nat \/ ~ ftouched e r -> fregs s' r = fregs s r) /\
  (forall x, ~ mtouched e (regs s RBP) x -> mem s' x = mem s x) /\
  (rbp_saved f = true -> regs s' RBP = regs s RBP) /\
  at_home s' (ent_ty e) (ent_home e) (source s e).
Proof.
  destruct e as [[t p] a]. intros (Ht & Hg & Hp). pose proof (size_nat t Ht) as Hn. destruct p as [k|k|o]; [| |done].
  - destruct Hp as [Hk Hs]. pose proof (size_le8 t Ht Hs) as H8. destruct a as [d|o]; cbn [mv ent_ty ent_home home_of source].
    + destruct (Nat.eqb (k + 1) d) eqn:E.
      * apply Nat.eqb_eq in E as <-. cbn. split_and!; done.
      * apply Nat.eqb_neq in E. cbn [good_home] in Hg. destruct Hg as [Hg|[Hg Hb]]; [congruence|]. cbn [run fold_left exec regs fregs rsp mem touched ftouched mtouched at_home].
        split_and!; try done.
        -- intros r Hr. apply upd_ne. lia.
        -- intros Hf. apply upd_ne. intros E'. by apply (Hb Hf).
        -- rewrite upd_eq. pose proof (mov_low _ (regs s (k + 1)) (regs s d) H8) as M. by rewrite Hn in M.
    + cbn [run fold_left exec regs fregs rsp mem touched ftouched mtouched at_home addr].
      split_and!; try done.
      * intros x Hx. apply storen_out. unfold addr. lia.
      * rewrite loadn_store by lia. by rewrite Hn.
  - destruct Hp as (Hk & Hs & _). pose proof (size_le8 t Ht Hs) as H8. destruct a as [d|o]; cbn [mv ent_ty ent_home home_of source].
    + destruct (Nat.eqb k d) eqn:E.
      * apply Nat.eqb_eq in E as <-. cbn. split_and!; done.
      * apply Nat.eqb_neq in E. cbn [good_home] in Hg. destruct Hg as [Hg|Hg]; [congruence|]. cbn [run fold_left exec regs fregs rsp mem touched ftouched mtouched at_home].
        split_and!; try done.
        -- intros r Hr. apply upd_ne. lia.
        -- rewrite upd_eq. pose proof (fmov_low _ (fregs s k) (fregs s d) H8) as M. by rewrite Hn in M.
    + cbn [run fold_left exec regs fregs rsp mem touched ftouched mtouched at_home addr].
      split_and!; try done.
      * intros x Hx. apply storen_out. unfold addr. lia.
      * rewrite loadn_store by lia. by rewrite Hn.
Qed.

Lemma moves_run f va L : forall s, Forall (ent_ok f va) L -> pw L -> let s' := run (mvs L) s in
  rsp s' = rsp s /\
  (forall r, (r < 7)%nat \/ (forall e, e ∈ L -> ~ touched e r) -> regs s' r = regs s r) /\
  (forall r, (r < 8)%nat \/ (forall e, e ∈ L -> ~ ftouched e r) -> fregs s' r = fregs s r) /\
  (forall x, (forall e, e ∈ L -> ~ mtouched e (regs s RBP) x) -> rbp_saved f = true -> mem s' x = mem s x) /\
  (rbp_saved f = true -> regs s' RBP = regs s RBP) /\
  (forall e, e ∈ L -> at_home s' (ent_ty e) (ent_home e) (source s e)).
Proof.
  induction L as [|e L IH]; intros s HL Hpw.
  - cbn. split_and!; try done. intros e He. by apply elem_of_nil in He.
  - inversion HL as [|? ? He HL']; subst. destruct Hpw as [Hd Hpw]. unfold mvs. cbn [map concat]. rewrite run_app.
    destruct (one_move f va e s He) as (O1 & O2 & O3 & O4 & O5 & O6). cbn zeta in *. set (s1 := run (mv e) s) in *.
    destruct (IH s1 HL' Hpw) as (I1 & I2 & I3 & I4 & I5 & I6). cbn zeta in *. fold (mvs L). set (s2 := run (mvs L) s1) in *.
    split_and!.
    + congruence.
    + intros r Hr. rewrite I2, O2; [done| |].
      * destruct Hr as [?|Hr]; [by left|right; apply Hr; left].
      * destruct Hr as [?|Hr]; [by left|right; intros; apply Hr; by right].
    + intros r Hr. rewrite I3, O3; [done| |].
      * destruct Hr as [?|Hr]; [by left|right; apply Hr; left].
      * destruct Hr as [?|Hr]; [by left|right; intros; apply Hr; by right].
    + intros x Hx Hb. rewrite I4, O4; [done|apply Hx; left| |done]. intros e' He'. rewrite O5 by done. apply Hx. by right.
    + intros Hb. rewrite I5, O5 by done. done.
    + intros e' He'. apply elem_of_cons in He' as [->|He'].
      * (* the home of the first is not touched later *)
        destruct e as [[t p] a]. destruct He as (Ht & Hg & Hp). cbn [ent_ty ent_home source] in *.
        destruct p as [k|k|o]; [| |done].
        -- destruct a as [d|o]; cbn [home_of at_home] in *.
           ++ rewrite I2; [done|]. destruct Hg as [->|Hg]; [left; lia|right]. intros [[t' p'] a'] He' Ht'.
              specialize (Hd _ He'). cbn in Hd, Ht'. destruct p', a'; try done.
           ++ destruct Hg as (Hb & Hg1 & Hg2). rewrite I5 by done. rewrite <- O6. apply loadn_ext. intros x Hx. apply I4; [|done].
              intros [[t' p'] a'] He' Ht'. specialize (Hd _ He'). cbn in Hd, Ht'. rewrite (size_nat t Ht) in Hx.
              rewrite O5 in * by done. destruct p', a'; try done; unfold apart in Hd; lia.
        -- destruct a as [d|o]; cbn [home_of at_home] in *.
           ++ rewrite I3; [done|]. destruct Hg as [->|Hg]; [left; lia|right]. intros [[t' p'] a'] He' Ht'.
              specialize (Hd _ He'). cbn in Hd, Ht'. destruct p', a'; try done.
           ++ destruct Hg as (Hb & Hg1 & Hg2). rewrite I5 by done. rewrite <- O6. apply loadn_ext. intros x Hx. apply I4; [|done].
              intros [[t' p'] a'] He' Ht'. specialize (Hd _ He'). cbn in Hd, Ht'. rewrite (size_nat t Ht) in Hx.
              rewrite O5 in * by done. destruct p', a'; try done; unfold apart in Hd; lia.
      * specialize (I6 e' He'). destruct e' as [[t p] a]. cbn [source] in *.
        pose proof (proj1 (List.Forall_forall _ _) HL' _ (proj1 (elem_of_list_In _ _) He')) as (_ & _ & Hp).
        destruct p as [k|k|o]; [| |done].
        -- by rewrite O2 in I6 by lia.
        -- by rewrite O3 in I6 by lia.
Qed.
