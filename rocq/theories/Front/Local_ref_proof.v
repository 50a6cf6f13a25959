From stdpp Require Import base list numbers.
From Verif Require Import Front.Layout_model Front.Layout_spec Front.Layout_proof Front.Static_model Front.Static_spec Front.Static_proof Front.Static_main_proof Front.Local_model Front.Local_spec Front.Local_proof.
From Verif Require Front.Bitfield_model.
Local Open Scope Z_scope.

Lemma tight_refuted lp64 uns after minregsize vtype pre X b post : length X = 3%nat ->
  legal lp64 tight /\ data tight /\ fits tight (Some tight_init) /\
  declare lp64 uns after minregsize vtype tight tight_init (Z.of_nat (length pre)) (pre ++ X ++ b :: post) =
    Some (pre ++ [97; 98; 99] ++ after 0%nat :: post).
Proof.
  intros HX. split; [repeat constructor; lia|]. split; [done|]. split; [done|]. destruct X as [|x0 [|x1 [|x2 [|]]]]; try done.
  unfold declare. assert (size_align lp64 tight = Some (3, 1)) as E by (destruct lp64; done). rewrite E.
  assert (clear 3 1 (Z.of_nat (length pre)) (pre ++ [x0; x1; x2] ++ b :: post) = Some (pre ++ zeros 3 ++ b :: post)) as Ec.
  { apply (clear_object 3 1 pre [x0; x1; x2] (b :: post)); [left; done|exists 3; done|lia|done]. }
  assert (assign lp64 uns after tight (Some tight_init) LVar 0 = Some ([SCopy LVar [97; 98; 99; after 0%nat]], 0%nat)) as -> by (destruct lp64; reflexivity).
  change (match tight with TyFix _ | TyFlo _ | TyPtr => true | _ => false end) with false. cbv iota. rewrite Ec. cbn [run_stmts run_stmt fmap option_fmap option_map snd].
  rewrite copy_ok.
  - f_equal. cbn [address_of]. replace (Z.to_nat (Z.of_nat (length pre))) with (length pre + 0)%nat by lia.
    change (zeros 3 ++ b :: post) with ([0; 0; 0; b] ++ post). rewrite patch_frame by (cbn; lia). done.
  - cbn. lia.
  - cbn [address_of length]. rewrite !app_length. cbn [length]. change (length (zeros 3)) with 3%nat. lia.
Qed.

Lemma neighbour_refuted minregsize X : minregsize = 1 \/ minregsize = 4 -> length X = 4%nat ->
  legal true two_fields /\ data two_fields /\ fits two_fields (Some first_given) /\
  object true (fun _ => 0) two_fields (Some first_given) = [255; 0; 0; 0] /\
  declare true false (fun _ => 0) minregsize (Bitfield_model.Ity 8 false) two_fields first_given 0 X = Some [255; 255; 255; 255].
Proof.
  intros Hm HX. split; [repeat (constructor; try done; try (cbn; lia))|]. split; [cbn; done|]. split; [cbn; repeat split; (done || lia)|]. split; [vm_compute; reflexivity|].
  destruct X as [|x0 [|x1 [|x2 [|x3 [|]]]]]; try done. destruct Hm as [->| ->]; vm_compute; reflexivity.
Qed.

Lemma local_sample_ok : legal true local_sample /\ data local_sample /\ local_fits (Bitfield_model.Ity 32 false) local_sample (Some local_sample_init) /\
  declare true false (fun _ => 0) 4 (Bitfield_model.Ity 32 false) local_sample local_sample_init 2 (replicate 36 170) =
  Some ([170; 170] ++ [65; 192; 0; 0; 2; 1; 0; 0; 7; 0; 0; 0; 104; 105; 0; 0; 2; 16; 0; 0; 0; 0; 0; 0] ++ replicate 10 170).
Proof.
  split. { repeat (constructor; try done; try (cbn; lia)). }
  split. { cbn. repeat split; try done. repeat constructor. }
  split.
  { cbn. unfold wide_enough. cbn. repeat match goal with |- _ /\ _ => split end; try done; try lia.
    intros _ [|[|i]] [|[|j]] x y Hx Hy; try done. }
  vm_compute. reflexivity.
Qed.
