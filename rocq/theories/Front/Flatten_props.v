(** C103, C104: which subobject each initialiser is for. *)
From stdpp Require Import base list numbers.
From Verif Require Import Front.Static_model Front.Flatten_model Front.Flatten_spec Front.Flatten_sound_proof Front.Flatten_full_proof Front.Flatten_ref_proof Front.Flatten_string_proof.
Local Open Scope Z_scope.

Theorem C103_given obj same fuel t r v : ok t -> flatten obj same fuel r t = Done v ->
  exists out, means obj same true t r out /\ forall p, intact out p -> value_at (Some v) p = last_given out p.
Proof. intros Hok E. destruct (flatten_sound obj same fuel r t v Hok E) as (out & H1 & _ & H2 & _). exists out. auto. Qed.
Theorem C103_accepted obj same t r out : ok t -> means obj same true t r out ->
  exists N v, forall fuel, (N <= fuel)%nat -> flatten obj same fuel r t = Done v.
Proof. intros Hok Hm. exact (proj1 (accepted obj same) t r out Hm Hok). Qed.
Theorem C103_unique obj same strict t r o1 o2 : means obj same strict t r o1 -> means obj same strict t r o2 -> o1 = o2.
Proof. intros H1 H2. exact (proj1 (means_unique obj same strict) t r o1 H1 o2 H2). Qed.
Theorem C103_standard obj same t r out : means obj same true t r out -> means obj same false t r out.
Proof. exact (proj1 (means_weaken obj same) t r out). Qed.
Theorem C103_ends obj same t r : ok t -> exists N res, res <> NoFuel /\ forall fuel, (N <= fuel)%nat -> flatten obj same fuel r t = res.
Proof. exact (flatten_ends obj same r t). Qed.
Theorem C103_array_length obj same fuel t l t' v : ok (FArr t None) -> (forall e, ~ string_of (FArr t None) l e) ->
  declared obj same fuel (FArr t None) (RMulti l) = Done (t', v) ->
  exists out, means obj same true (FArr t None) (RMulti l) (([], None) :: out) /\ t' = FArr t (Some (array_end out)).
Proof. exact (declared_length obj same fuel t l t' v). Qed.
Theorem C103_literal_length obj same fuel t l t' v : is_multi t = false -> (forall n e, ~ string_of (FArr t n) l e) ->
  literal obj same fuel (FArr t None) l = Done (t', v) ->
  exists out, means obj same true t' (RMulti l) (([], None) :: out) /\ t' = FArr t (Some (array_end out)).
Proof. exact (literal_length obj same fuel t l t' v). Qed.
(** An array of characters from a string: as long as the string with its terminator, if no length is
    given; else the string must fit without its terminator. *)
Theorem C103_string obj same fuel w us n : n <> Some 0%nat ->
  declared obj same fuel (FArr (FChar w) n) (RSingle (XStr w us)) =
  match n with
  | None => Done (FArr (FChar w) (Some (length us)), ISingle (XStr w us))
  | Some k => if (length us <=? k + 1)%nat then Done (FArr (FChar w) (Some k), ISingle (XStr w us)) else Rejected
  end.
Proof. exact (string_declared obj same fuel w us n). Qed.
Example C103_example : exists v, flatten no_obj no_same 20 sample_raw sample_type = Done v /\
  value_at (Some v) [1; 0; 1] = Some (XFix 6, []) /\ value_at (Some v) [1; 1; 0] = Some (XFix 7, []) /\
  value_at (Some v) [2; 1] = Some (XStr false abc, [1]) /\ value_at (Some v) [3] = None.
Proof. eexists. repeat split. Qed.

Theorem C104_string_part_refuted : exists t r v out p, ok t /\
  (forall fuel, (5 <= fuel)%nat -> flatten no_obj no_same fuel r t = Done v) /\ means no_obj no_same false t r out /\
  last_given out p = Some (XStr false abc, [2]) /\ value_at (Some v) p = None.
Proof. exact string_part. Qed.
Theorem C104_braced_scalar_refuted : exists t r out, ok t /\ means no_obj no_same false t r out /\ forall fuel, flatten no_obj no_same fuel r t = Crash.
Proof. exact braced_scalar. Qed.
Theorem C104_string_inside_refuted : exists t r out, ok t /\ means no_obj no_same false t r out /\ forall fuel, flatten no_obj no_same fuel r t = Misfit.
Proof. exact string_inside. Qed.
Theorem C104_unnamed_refuted : exists t r v out, (forall fuel, (1 <= fuel)%nat -> flatten no_obj no_same fuel r t = Done v) /\ means no_obj no_same false t r out /\
  last_given out [2] = Some (XFix 2, []) /\ value_at (Some v) [2] = None /\ value_at (Some v) [1] = Some (XFix 2, []).
Proof. exact unnamed. Qed.
Theorem C104_endless_refuted : exists t r, forall fuel, flatten no_obj no_same fuel r t = NoFuel.
Proof. exists empties, (RMulti [([], num 1)]). exact endless. Qed.
Theorem C104_out_of_range_refuted : exists t r, ok t /\ forall fuel, flatten no_obj no_same fuel r t = Crash.
Proof. exists (FArr (FScalar false) (Some 3%nat)), (RMulti [([DBrkt 5], num 1)]). split; [exact I|exact out_of_range]. Qed.
Theorem C104_literal_length_refuted : exists l out v, means no_obj no_same false (FArr point None) (RMulti l) (([], None) :: out) /\ array_end out = 2%nat /\
  forall fuel, (4 <= fuel)%nat -> literal no_obj no_same fuel (FArr point None) l = Done (FArr point (Some 4%nat), v).
Proof. exact literal_elided. Qed.
Theorem C104_literal_rejected_refuted : exists l out, means no_obj no_same false (FArr point (Some 2%nat)) (RMulti l) out /\
  forall fuel, literal no_obj no_same fuel (FArr point (Some 2%nat)) l = Rejected.
Proof. exists four. exact literal_rejected. Qed.
Theorem C104_literal_string_refuted : exists l, string_of (FArr (FChar false) (Some 4%nat)) l (XStr false abc) /\
  forall fuel, literal no_obj no_same fuel (FArr (FChar false) None) l = Done (FArr (FChar false) (Some 1%nat), ISingle (XStr false abc)).
Proof. exists [([], str abc)]. split; [exists false, abc, (Some 4%nat); repeat split|exact literal_string]. Qed.

Print Assumptions C103_string.
Print Assumptions C103_given.
Print Assumptions C103_accepted.
Print Assumptions C103_unique.
Print Assumptions C103_standard.
Print Assumptions C103_ends.
Print Assumptions C103_array_length.
Print Assumptions C103_literal_length.
Print Assumptions C104_string_part_refuted.
Print Assumptions C104_braced_scalar_refuted.
Print Assumptions C104_string_inside_refuted.
Print Assumptions C104_unnamed_refuted.
Print Assumptions C104_endless_refuted.
Print Assumptions C104_out_of_range_refuted.
Print Assumptions C104_literal_length_refuted.
Print Assumptions C104_literal_rejected_refuted.
Print Assumptions C104_literal_string_refuted.
