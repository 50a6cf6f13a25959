(** Arrays initialised with strings. *)
From stdpp Require Import base list numbers.
From Verif Require Import Front.Static_model Front.Flatten_model.
Local Open Scope Z_scope.

Lemma string_declared obj same fuel w us n : n <> Some 0%nat ->
  declared obj same fuel (FArr (FChar w) n) (RSingle (XStr w us)) =
  match n with
  | None => Done (FArr (FChar w) (Some (length us)), ISingle (XStr w us))
  | Some k => if (length us <=? k + 1)%nat then Done (FArr (FChar w) (Some k), ISingle (XStr w us)) else Rejected
  end.
Proof.
  intros Hn. unfold declared. assert (flatten obj same fuel (RSingle (XStr w us)) (FArr (FChar w) n) = Done (ISingle (XStr w us))) as ->.
  { cbn. by rewrite eqb_reflx. }
  cbn [bind]. unfold string_for. rewrite eqb_reflx. destruct n as [[|k]|]; [done| |cbn; by rewrite Nat2Z.id].
  unfold fix_array_size. destruct (Nat.leb_spec (length us) (S k + 1)); destruct (Z.ltb_spec (Z.of_nat (S k)) (Z.of_nat (length us) - 1)); try done; lia.
Qed.
