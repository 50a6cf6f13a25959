(** A bit-field as the bits [pos, pos + width) of its storage unit. *)
From stdpp Require Import base list numbers.
From Verif Require Import Front.Bitfield_model.
Open Scope Z_scope.

(** The field lies in its unit, is not wider than its type, and narrower than 64 bits. *)
Definition good (f : field) : Prop :=
  0 <= f_pos f /\ 1 <= f_width f /\ f_width f < 64 /\ f_pos f + f_width f <= bits (f_unit f) /\ f_width f <= bits (f_type f) /\
  unsigned (f_unit f) = unsigned (f_type f).
(** What the unit holds in the field: the number its bits spell, in two's complement when
    the field is signed. *)
Definition contents (f : field) (u : Z) : Z := value (f_width f) (unsigned (f_type f)) (Z.shiftr u (f_pos f)).
(** A number converted to the field. *)
Definition wrapped (f : field) (v : Z) : Z := value (f_width f) (unsigned (f_type f)) v.
(** [u'] is [u] with the low bits of [v] in the field. *)
Definition written (f : field) (u v u' : Z) : Prop :=
  0 <= u' < 2 ^ bits (f_unit f) /\
  forall i, 0 <= i < bits (f_unit f) ->
    Z.testbit u' i = if decide (f_pos f <= i < f_pos f + f_width f) then Z.testbit v (i - f_pos f) else Z.testbit u i.
Definition apart (f g : field) : Prop := f_pos f + f_width f <= f_pos g \/ f_pos g + f_width g <= f_pos f.
(** Another field in the same unit. *)
Definition neighbour (f g : field) : Prop := good g /\ bits (f_unit g) = bits (f_unit f) /\ apart f g.
(** The width of the field leaves a bit of the type [t] unused, or [t] is unsigned, or as
    wide as the unit. *)
Definition roomy (f : field) (t : ity) : Prop :=
  unsigned t = true \/ f_width f < bits t \/ bits (f_unit f) <= bits t.
