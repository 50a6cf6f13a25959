(** C18, C19, C86: sizes, alignments and layouts. *)
From stdpp Require Import base list numbers.
From Verif Require Import Front.Layout_model Front.Layout_spec Front.Layout_proof Front.Layout_pack_proof.
Open Scope Z_scope.

Theorem C18_sizes lp64 t : legal lp64 t ->
  exists s a, size_align lp64 t = Some (s, a) /\ 0 <= s /\ 0 < a /\ (a | s).
Proof. exact (type_sizes lp64 t). Qed.
Print Assumptions C18_sizes.

Theorem C18_struct lp64 ts : Forall (legal lp64) ts ->
  exists pls s a l e, struct_layout lp64 false ((fun t => (t, None)) <$> ts) = Some (pls, s, a) /\
    Forall2 (fun t sa => size_align lp64 t = Some sa) ts l /\
    in_order 0 l (offset <$> pls) e /\ largest (1 :: l.*2) a /\ least_multiple a e s.
Proof. exact (struct_plain lp64 ts). Qed.
Print Assumptions C18_struct.

Theorem C18_union lp64 ts : Forall (legal lp64) ts ->
  exists pls s a l e, struct_layout lp64 true ((fun t => (t, None)) <$> ts) = Some (pls, s, a) /\
    Forall2 (fun t sa => size_align lp64 t = Some sa) ts l /\
    Forall (fun p => offset p = 0) pls /\ length pls = length ts /\
    largest (0 :: l.*1) e /\ largest (1 :: l.*2) a /\ least_multiple a e s.
Proof. exact (union_plain lp64 ts). Qed.
Print Assumptions C18_union.

(** struct { char c; union { double d; char s[11]; } u; short h; }: offsets 0, 8, 24. *)
Example C18_example :
  exists pls, struct_layout true false ((fun t => (t, None)) <$>
    [TyFix FX_CHAR; TyStruct true [(TyFlo FL_DOUBLE, None); (TyArr (TyFix FX_CHAR) 11, None)]; TyFix FX_SHORT]) = Some (pls, 32, 8) /\
  offset <$> pls = [0; 8; 24].
Proof. by eexists. Qed.

Theorem C19_bit_fields lp64 ms : legal_members lp64 ms ->
  exists pls s a, struct_layout lp64 false ms = Some (pls, s, a) /\ (a | s) /\
    Forall2 (member_ok lp64 s a) ms pls /\
    (forall i j m m' p p' r r', i <> j -> ms !! i = Some m -> ms !! j = Some m' -> pls !! i = Some p -> pls !! j = Some p' ->
      bits_of lp64 m p = Some r -> bits_of lp64 m' p' = Some r' -> disjoint r r').
Proof. exact (members_placed lp64 ms). Qed.
Print Assumptions C19_bit_fields.

(** A bit-field right after another one shares its unit, in the next bits, if there is room. *)
Theorem C19_packed lp64 ms pls s a : legal_members lp64 ms -> struct_layout lp64 false ms = Some (pls, s, a) ->
  forall (i : nat) t t' w w' p p', ms !! i = Some (t, Some w) -> ms !! S i = Some (t', Some w') -> 0 < w -> 0 < w' ->
    pls !! i = Some p -> pls !! S i = Some p' -> position p + w + w' <= 8 * fixnum_size lp64 (base_kind p) ->
    offset p' = offset p /\ base_kind p' = base_kind p /\ position p' = position p + w.
Proof. exact (fields_packed lp64 ms pls s a). Qed.
Print Assumptions C19_packed.

(** struct { char c; int x : 3; int : 0; short y : 9; long z : 30; char d; }. *)
Example C19_example :
  exists pls, struct_layout true false [(TyFix FX_CHAR, None); (TyFix FX_INT, Some 3); (TyFix FX_INT, Some 0);
    (TyFix FX_SHORT, Some 9); (TyFix FX_LONG, Some 30); (TyFix FX_CHAR, None)] = Some (pls, 24, 8) /\
  offset <$> pls = [0; 1; 0; 8; 8; 16] /\ position <$> pls = [0; 0; 0; 0; 9; 0].
Proof. by eexists. Qed.

(** A _Bool bit-field stops the compiler; the alignment of a union ignores its bit-fields, so
    that an int is accessed at an odd address. *)
Theorem C86_bool_refuted lp64 : size_align lp64 (TyStruct false [(TyFix FX_BOOL, Some 1)]) = None.
Proof. exact (bool_field lp64). Qed.
Print Assumptions C86_bool_refuted.
Theorem C86_union_refuted lp64 : exists pls a,
  struct_layout lp64 false [(TyFix FX_CHAR, None); (TyStruct true [(TyFix FX_INT, Some 4)], None)] = Some (pls, 5, a) /\
  offset <$> pls = [0; 1].
Proof. exact (union_field lp64). Qed.
Print Assumptions C86_union_refuted.
