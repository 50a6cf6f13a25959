(** A flat byte memory for the C library routines.

    Addresses are [Z] (objects do not wrap around the address space); a byte is
    0..255.  An address absent from the map may not be accessed: reading or
    writing it is undefined behaviour ([None]).  Theorems quantify over every
    memory, in particular over those containing nothing but the arguments, so a
    successful result means that no other byte was accessed. *)
From stdpp Require Import base list numbers gmap.
From Coq Require Import Lia ZArith.
Local Open Scope Z_scope.

Notation mem := (gmap Z Z).

Definition read (m : mem) (a : Z) : option Z := m !! a.
Definition write (m : mem) (a v : Z) : option mem :=
  match m !! a with Some _ => Some (<[a := v]> m) | None => None end.

(** The value of a (signed) [char] holding the byte. *)
Definition schar (b : Z) : Z := if b <? 128 then b else b - 256.

(** The bytes [l] are in memory from [p] on. *)
Definition bytes_at (m : mem) (p : Z) (l : list Z) : Prop :=
  forall i c, l !! i = Some c -> m !! (p + Z.of_nat i) = Some c.

(** A NUL-terminated string. *)
Definition nonzero (s : list Z) : Prop := Forall (fun c => 0 < c < 256) s.
Definition cstr (m : mem) (p : Z) (s : list Z) : Prop := bytes_at m p (s ++ [0]) /\ nonzero s.

(** [p, p+n) may be accessed. *)
Definition accessible (m : mem) (p : Z) (n : nat) : Prop :=
  forall i, (i < n)%nat -> is_Some (m !! (p + Z.of_nat i)).

(** [m'] is [m] with exactly the bytes [l] stored from [d] on. *)
Definition stored (m : mem) (d : Z) (l : list Z) (m' : mem) : Prop :=
  forall a, m' !! a = if decide (d <= a < d + Z.of_nat (length l))
                      then l !! Z.to_nat (a - d) else m !! a.

(** A memory holding the bytes [l] from [p] on and nothing else. *)
Fixpoint mem_of (p : Z) (l : list Z) : mem :=
  match l with [] => ∅ | c :: l => <[p := c]> (mem_of (p + 1) l) end.

Lemma read_0 m p c l : bytes_at m p (c :: l) -> m !! p = Some c.
Proof. intros H. specialize (H 0%nat c eq_refl). rewrite Z.add_0_r in H. done. Qed.
Lemma bytes_cons m p c l : bytes_at m p (c :: l) <-> m !! p = Some c /\ bytes_at m (p + 1) l.
Proof.
  split.
  - intros H. split; [eapply read_0; done|]. intros i x Hi.
    specialize (H (S i) x Hi). rewrite <- H. f_equal. lia.
  - intros [H0 H] i x Hi. destruct i as [|i].
    + rewrite Z.add_0_r. simpl in Hi. congruence.
    + specialize (H i x Hi). rewrite <- H. f_equal. lia.
Qed.
Lemma bytes_nil m p : bytes_at m p [].
Proof. intros i c H. done. Qed.
Lemma bytes_app m p l1 l2 : bytes_at m p (l1 ++ l2) <->
  bytes_at m p l1 /\ bytes_at m (p + Z.of_nat (length l1)) l2.
Proof.
  revert p. induction l1 as [|c l1 IH]; intros p.
  - simpl. rewrite Z.add_0_r. split; [intros H; split; [apply bytes_nil|done]|intros [_ H]; done].
  - simpl app. rewrite !bytes_cons, IH. simpl length.
    replace (p + 1 + Z.of_nat (length l1)) with (p + Z.of_nat (S (length l1))) by lia. tauto.
Qed.

Lemma cstr_nil m p : cstr m p [] -> m !! p = Some 0.
Proof. intros [H _]. eapply read_0. done. Qed.
Lemma cstr_cons m p c s : cstr m p (c :: s) -> m !! p = Some c /\ 0 < c < 256 /\ cstr m (p + 1) s.
Proof.
  intros [H Hn]. apply bytes_cons in H as [H1 H2]. apply Forall_cons_1 in Hn as [Hc Hn].
  split; [done|]. split; [done|]. split; done.
Qed.
Lemma cstr_cons_2 m p c s : m !! p = Some c -> 0 < c < 256 -> cstr m (p + 1) s -> cstr m p (c :: s).
Proof.
  intros H Hc [H1 H2]. split; [apply bytes_cons; done|]. apply Forall_cons; done.
Qed.

Lemma mem_of_bytes l : forall p, bytes_at (mem_of p l) p l.
Proof.
  induction l as [|c l IH]; intros p; [apply bytes_nil|]. cbn [mem_of]. apply bytes_cons.
  split; [apply lookup_insert|]. intros i x Hi. rewrite lookup_insert_ne by lia. apply IH. done.
Qed.

Lemma accessible_bytes m p l : bytes_at m p l -> accessible m p (length l).
Proof.
  intros H i Hi. apply lookup_lt_is_Some in Hi as [x Hx]. rewrite (H _ _ Hx). eauto.
Qed.
Lemma accessible_S m p n : accessible m p (S n) -> is_Some (m !! p) /\ accessible m (p + 1) n.
Proof.
  intros H. split.
  - specialize (H 0%nat). rewrite Z.add_0_r in H. apply H. lia.
  - intros i Hi. specialize (H (S i)). replace (p + 1 + Z.of_nat i) with (p + Z.of_nat (S i)) by lia.
    apply H. lia.
Qed.
Lemma write_ok m a v : is_Some (m !! a) -> write m a v = Some (<[a := v]> m).
Proof. intros [x Hx]. unfold write. rewrite Hx. done. Qed.

Lemma stored_nil m d : stored m d [] m.
Proof. intros a. rewrite decide_False by (simpl; lia). done. Qed.
Lemma stored_cons m d c l m' : stored (<[d := c]> m) (d + 1) l m' -> stored m d (c :: l) m'.
Proof.
  intros H a. rewrite (H a). simpl length. destruct (decide (a = d)) as [->|Hne].
  - rewrite decide_False by lia. rewrite decide_True by lia. rewrite Z.sub_diag.
    rewrite lookup_insert. done.
  - rewrite lookup_insert_ne by done.
    destruct (decide (d + 1 <= a < d + 1 + Z.of_nat (length l))) as [Hin|Hout].
    + rewrite decide_True by lia. replace (Z.to_nat (a - d)) with (S (Z.to_nat (a - (d + 1)))) by lia.
      done.
    + rewrite decide_False by lia. done.
Qed.
(* appending one byte at the end *)
Lemma stored_snoc m d l c m' : stored m d l m' ->
  stored m d (l ++ [c]) (<[d + Z.of_nat (length l) := c]> m').
Proof.
  intros H a. rewrite app_length. simpl length.
  destruct (decide (a = d + Z.of_nat (length l))) as [->|Hne].
  - rewrite lookup_insert, decide_True by lia.
    replace (Z.to_nat (d + Z.of_nat (length l) - d)) with (length l) by lia.
    rewrite lookup_app_r by lia. rewrite Nat.sub_diag. done.
  - rewrite lookup_insert_ne by done. rewrite (H a).
    destruct (decide (d <= a < d + Z.of_nat (length l))) as [Hin|Hout].
    + rewrite decide_True by lia. rewrite lookup_app_l by lia. done.
    + rewrite decide_False by lia. done.
Qed.
Lemma stored_bytes m d l m' : stored m d l m' -> bytes_at m' d l.
Proof.
  intros H i c Hi. rewrite (H _). pose proof (lookup_lt_Some _ _ _ Hi).
  rewrite decide_True by lia. replace (Z.to_nat (d + Z.of_nat i - d)) with i by lia. done.
Qed.
Lemma stored_other m d l m' a : stored m d l m' -> ~ (d <= a < d + Z.of_nat (length l)) -> m' !! a = m !! a.
Proof. intros H Ha. rewrite (H a), decide_False by done. done. Qed.

Lemma accessible_insert m p n a v : accessible m p n -> accessible (<[a := v]> m) p n.
Proof.
  intros H i Hi. destruct (decide (a = p + Z.of_nat i)) as [->|].
  - rewrite lookup_insert. eauto.
  - rewrite lookup_insert_ne by done. auto.
Qed.
Lemma bytes_insert m p l a v : bytes_at m p l -> ~ (p <= a < p + Z.of_nat (length l)) ->
  bytes_at (<[a := v]> m) p l.
Proof.
  intros H Ha i c Hi. pose proof (lookup_lt_Some _ _ _ Hi). rewrite lookup_insert_ne by lia. auto.
Qed.
