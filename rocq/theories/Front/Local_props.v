(** C102: local objects with initialisers. *)
From stdpp Require Import base list numbers.
From Verif Require Import Front.Layout_model Front.Layout_spec Front.Static_model Front.Static_spec Front.Local_model Front.Local_spec Front.Local_proof Front.Local_ref_proof.
From Verif Require Front.Bitfield_model.
Local Open Scope Z_scope.

(** After the declaration of an object at the end of [pre], whatever was there before, the object
    holds what the initialiser says and the rest of the frame is as before. *)
Theorem C102_declare lp64 uns after minregsize vtype env t i pre X post s a : legal lp64 t -> data t -> local_fits vtype t (Some i) ->
  size_align lp64 t = Some (s, a) -> Z.of_nat (length X) = s ->
  declare lp64 uns after minregsize vtype t i (Z.of_nat (length pre)) (pre ++ X ++ post) = Some (pre ++ object lp64 env t (Some i) ++ post).
Proof. exact (declared lp64 uns after minregsize vtype env t i pre X post s a). Qed.

(** A literal that fills an array without its terminator: the byte after the array is overwritten
    with the one that follows the literal. *)
Theorem C102_tight_literal_refuted lp64 uns after minregsize vtype pre X b post : length X = 3%nat ->
  legal lp64 tight /\ data tight /\ fits tight (Some tight_init) /\
  declare lp64 uns after minregsize vtype tight tight_init (Z.of_nat (length pre)) (pre ++ X ++ b :: post) =
    Some (pre ++ [97; 98; 99] ++ after 0%nat :: post).
Proof. exact (tight_refuted lp64 uns after minregsize vtype pre X b post). Qed.

(** A bit-field initialised with a negative char as wide as itself: its sign spreads over the
    fields after it. *)
Theorem C102_narrow_value_refuted minregsize X : minregsize = 1 \/ minregsize = 4 -> length X = 4%nat ->
  legal true two_fields /\ data two_fields /\ fits two_fields (Some first_given) /\
  object true (fun _ => 0) two_fields (Some first_given) = [255; 0; 0; 0] /\
  declare true false (fun _ => 0) minregsize (Bitfield_model.Ity 8 false) two_fields first_given 0 X = Some [255; 255; 255; 255].
Proof. exact (neighbour_refuted minregsize X). Qed.

Example C102_example : legal true local_sample /\ data local_sample /\ local_fits (Bitfield_model.Ity 32 false) local_sample (Some local_sample_init) /\
  declare true false (fun _ => 0) 4 (Bitfield_model.Ity 32 false) local_sample local_sample_init 2 (replicate 36 170) =
  Some ([170; 170] ++ [65; 192; 0; 0; 2; 1; 0; 0; 7; 0; 0; 0; 104; 105; 0; 0; 2; 16; 0; 0; 0; 0; 0; 0] ++ replicate 10 170).
Proof. exact local_sample_ok. Qed.

Print Assumptions C102_declare.
Print Assumptions C102_tight_literal_refuted.
Print Assumptions C102_narrow_value_refuted.
