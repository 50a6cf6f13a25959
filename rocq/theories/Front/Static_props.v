(** C55: what the compiler emits for an object with an initialiser. *)
From stdpp Require Import base list numbers.
From Verif Require Import Front.Layout_model Front.Layout_spec Front.Static_model Front.Static_spec Front.Static_ref_proof.
Local Open Scope Z_scope.

(** The bytes emitted at an aligned address are those of the object, and as many as its size. *)
Theorem C55_image lp64 env t i : legal lp64 t -> data t -> fits t i ->
  exists evs s a, construct lp64 t i = Some evs /\ size_align lp64 t = Some (s, a) /\
    forall pos, (a | pos) -> assemble env pos evs = object lp64 env t i /\ Z.of_nat (length (assemble env pos evs)) = s.
Proof. exact (image lp64 env t i). Qed.

(** Two designated members of a union are both emitted, one after the other. *)
Theorem C55_two_members_refuted lp64 env : exists i evs s a, legal lp64 two_members /\ data two_members /\
  i = Some (IMulti [Some (ISingle (XFix 1)); Some (ISingle (XFix 2))]) /\
  construct lp64 two_members i = Some evs /\ size_align lp64 two_members = Some (s, a) /\ length (assemble env 0 evs) = (2 * Z.to_nat s)%nat /\ s = 4.
Proof. exact (two_members_refuted lp64 env). Qed.

(** A union with a bit-field stops the compiler, whatever the initialiser. *)
Theorem C55_union_bit_field_refuted lp64 i : legal lp64 union_bits /\ construct lp64 union_bits i = None.
Proof. exact (union_bits_refuted lp64 i). Qed.

(** The value of a bit-field of 64 bits is masked with a shift by 64. *)
Theorem C55_wide_bit_field_refuted lp64 v : legal lp64 wide_bits /\ construct lp64 wide_bits (Some (IMulti [Some (ISingle (XFix v))])) = None.
Proof. exact (wide_bits_refuted lp64 v). Qed.

(** For a union without members the first member is read. *)
Theorem C55_empty_union_refuted lp64 : legal lp64 (TyStruct true []) /\ construct lp64 (TyStruct true []) None = None.
Proof. exact (empty_union_refuted lp64). Qed.

Example C55_example : legal true sample /\ data sample /\ fits sample sample_init /\
  exists evs, construct true sample sample_init = Some evs /\
    assemble (fun _ => 4096) 0 evs = [65; 192; 0; 0; 2; 1; 0; 0; 7; 0; 0; 0; 0; 0; 0; 0; 2; 16; 0; 0; 0; 0; 0; 0].
Proof. exact sample_ok. Qed.

Print Assumptions C55_image.
Print Assumptions C55_two_members_refuted.
Print Assumptions C55_union_bit_field_refuted.
Print Assumptions C55_wide_bit_field_refuted.
Print Assumptions C55_empty_union_refuted.
