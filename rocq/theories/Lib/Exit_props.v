(** C144: functions that are called at exit. *)
From stdpp Require Import base numbers list.
From Verif Require Import Lib.Exit_model Lib.Exit_spec Lib.Exit_proof.

(** The first 8 functions registered by atexit are called once each, in reverse
    order, whatever they do; [C144_nested_refuted] and [C144_32_refuted] show
    what is missing. *)
Theorem C144_order_partial : forall p, linked p -> (forall f a, ats (bodies p (Cxa f a)) = []) ->
  ats (snd (start2 p)) = rev (firstn 8 (ats (before_exit p))).
Proof. exact atexit_order. Qed.
Print Assumptions C144_order_partial.
Theorem C144_cxa_order_partial : forall p, linked p -> (forall f, cxas (bodies p (At f)) = []) ->
  cxas (snd (start2 p)) = rev (firstn 8 (cxas (before_exit p))).
Proof. exact cxa_order. Qed.
Print Assumptions C144_cxa_order_partial.

(** A registration gives 0 exactly if the function is among them. *)
Theorem C144_results : forall l i c, l !! i = Some c ->
  match c with
  | At _ => (fst (registers l init) !! i = Some 0 <-> length (ats (firstn i l)) < 8)
  | Cxa _ _ => (fst (registers l init) !! i = Some 0 <-> length (cxas (firstn i l)) < 8)
  | Fini _ => True
  end.
Proof. exact registers_results. Qed.
Print Assumptions C144_results.

(** Destructors are called once each, after all of them; one flushes the streams. *)
Theorem C144_fini : forall p, linked p -> finis (snd (start2 p)) = fini_array p /\ fini_last (snd (start2 p)).
Proof. exact fini_after. Qed.
Print Assumptions C144_fini.

(** A function registered by a function that is called at exit is not called,
    though the registration gives 0. *)
Theorem C144_nested_refuted : exists p, linked p /\ main p = [At 1] /\ bodies p (At 1) = [At 2] /\
  fst (registers (main p ++ [At 2]) init) = [0; 0] /\ At 1 ∈ snd (start2 p) /\ At 2 ∉ snd (start2 p).
Proof.
  exists (Program [RegAtexit; RegCxa] [At 1] [7] (fun c => match c with At 1 => [At 2] | _ => [] end)).
  split; [split; reflexivity|]. repeat (split; [reflexivity|]). vm_compute. split; [left|].
  intros H. inversion H as [|? ? ? H1]; subst. inversion H1 as [|? ? ? H2]; subst. inversion H2.
Qed.
Print Assumptions C144_nested_refuted.

(** C11 7.22.4.2p3 asks for 32 functions; the ninth is refused. *)
Theorem C144_32_refuted : exists l, length l <= 32 /\ ~ Forall (fun r => r = 0) (fst (registers (map At l) init)).
Proof.
  exists [1; 2; 3; 4; 5; 6; 7; 8; 9]. split; [cbn; lia|]. vm_compute. intros H.
  rewrite Forall_forall in H. specialize (H 1). discriminate H. do 8 right. left.
Qed.
Print Assumptions C144_32_refuted.

(** Functions of atexit and of __cxa_atexit, which the C++ ABI has in one list,
    are not called in reverse order of registration. *)
Theorem C144_mixed_refuted : exists p, linked p /\ Forall (fun r => r = 0) (fst (start2 p)) /\ fini_array p = [] /\
  snd (start2 p) <> rev (before_exit p).
Proof.
  exists (Program [RegAtexit; RegCxa] [Cxa 1 5; At 2] [] (fun _ => [])).
  split; [split; reflexivity|]. split; [repeat constructor|]. split; [reflexivity|]. vm_compute. discriminate.
Qed.
Print Assumptions C144_mixed_refuted.

Example C144_example :
  start2 (Program [User [At 1]; RegCxa; RegAtexit; User [At 2]] [At 3; Cxa 9 4; At 4] [100; 101] (fun c => match c with At 3 => [At 8] | _ => [] end))
  = ([0; 0; 0], [At 4; At 3; At 2; At 1; Cxa 9 4; Fini 100; Fini 101]).
Proof. vm_compute. reflexivity. Qed.
