(** Where the emitted data is not what the initialiser says. *)
From stdpp Require Import base list numbers.
From Verif Require Import Front.Layout_model Front.Layout_spec Front.Layout_proof Front.Static_model Front.Static_spec Front.Static_proof Front.Static_main_proof.
Local Open Scope Z_scope.

Lemma image lp64 env t i : legal lp64 t -> data t -> fits t i ->
  exists evs s a, construct lp64 t i = Some evs /\ size_align lp64 t = Some (s, a) /\
    forall pos, (a | pos) -> assemble env pos evs = object lp64 env t i /\ Z.of_nat (length (assemble env pos evs)) = s.
Proof.
  intros Hl Hd Hf. destruct (all_good lp64 env t Hl Hd i Hf) as (evs & E & Hr & Hasm).
  destruct (legal_size lp64 t Hl) as (s & a & Es & Ez & _). rewrite Es in Hasm. exists evs, s, a. split; [done|]. split; [done|].
  intros pos Hp. rewrite Hasm by done. split; [done|]. rewrite object_length by done. done.
Qed.

Lemma two_members_refuted lp64 env : exists i evs s a, legal lp64 two_members /\ data two_members /\
  i = Some (IMulti [Some (ISingle (XFix 1)); Some (ISingle (XFix 2))]) /\
  construct lp64 two_members i = Some evs /\ size_align lp64 two_members = Some (s, a) /\ length (assemble env 0 evs) = (2 * Z.to_nat s)%nat /\ s = 4.
Proof.
  destruct lp64; (eexists _, _, _, _; split; [repeat constructor|]; split; [|split; [reflexivity|]; split; [reflexivity|]; split; [reflexivity|]; done]);
  (cbn; split; [done|]; intros _; split; [done|]; repeat constructor).
Qed.

Lemma union_bits_refuted lp64 i : legal lp64 union_bits /\ construct lp64 union_bits i = None.
Proof.
  split; [constructor; constructor; [done|cbn; lia|constructor]|]. destruct i as [[e|[|x [|y l]]]|]; destruct lp64; done.
Qed.

Lemma wide_bits_refuted lp64 v : legal lp64 wide_bits /\ construct lp64 wide_bits (Some (IMulti [Some (ISingle (XFix v))])) = None.
Proof. split; [constructor; constructor; [done|destruct lp64; cbn; lia|constructor]|]. destruct lp64; done. Qed.

(** union { } u; *)
Lemma empty_union_refuted lp64 : legal lp64 (TyStruct true []) /\ construct lp64 (TyStruct true []) None = None.
Proof. split; [repeat constructor|]. destruct lp64; done. Qed.

Lemma sample_ok : legal true sample /\ data sample /\ fits sample sample_init /\
  exists evs, construct true sample sample_init = Some evs /\
    assemble (fun _ => 4096) 0 evs = [65; 192; 0; 0; 2; 1; 0; 0; 7; 0; 0; 0; 0; 0; 0; 0; 2; 16; 0; 0; 0; 0; 0; 0].
Proof.
  split. { repeat (constructor; try done; try (cbn; lia)). }
  split. { cbn. repeat split; try done. repeat constructor. }
  split.
  { cbn. repeat match goal with |- _ /\ _ => split end; try done; try lia; try (left; constructor; fail).
    - intros _ [|[|i]] [|[|j]] x y Hx Hy; try done.
    - right. repeat constructor. }
  eexists. split; vm_compute; reflexivity.
Qed.
