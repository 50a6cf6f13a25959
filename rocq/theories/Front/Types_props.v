(** C25, C93-C96, C106: types compared, generic selection and conversions. *)
From stdpp Require Import base list numbers.
From Verif Require Import Front.Layout_model Front.Types_model Front.Types_spec Front.Types_proof.
Open Scope Z_scope.

Theorem C25_reflexive t ignore_qualifier : everywhere named t -> same_type_wq t t ignore_qualifier = true.
Proof. exact (fun H => same_refl t H ignore_qualifier). Qed.
Print Assumptions C25_reflexive.

Theorem C25_symmetric t1 t2 ignore_qualifier : same_type_wq t1 t2 ignore_qualifier = same_type_wq t2 t1 ignore_qualifier.
Proof. exact (same_sym t1 t2 ignore_qualifier). Qed.
Print Assumptions C25_symmetric.

(** Only the type in the middle needs known lengths. *)
Theorem C25_transitive tag t1 t2 t3 ignore_qualifier : (forall n n', tag n = tag n' -> n = n') ->
  everywhere (one_declaration tag) t1 -> everywhere (one_declaration tag) t2 -> everywhere (one_declaration tag) t3 ->
  everywhere known_length t2 ->
  same_type_wq t1 t2 ignore_qualifier = true -> same_type_wq t2 t3 ignore_qualifier = true ->
  same_type_wq t1 t3 ignore_qualifier = true.
Proof. exact (fun Ht O1 O2 O3 L => same_trans tag Ht t1 O1 t2 t3 ignore_qualifier O2 L O3). Qed.
Print Assumptions C25_transitive.

Theorem C25_compatible_types_accepted tag t1 t2 : (forall n n', tag n = tag n' -> n = n') ->
  everywhere prototyped t1 -> everywhere prototyped t2 ->
  everywhere (one_declaration tag) t1 -> everywhere (one_declaration tag) t2 ->
  compatible tag t1 t2 -> same_type t1 t2 = true.
Proof. exact (compatible_accepted tag t1 t2). Qed.
Print Assumptions C25_compatible_types_accepted.

Theorem C25_accepted_types_compatible tag t1 t2 : (forall n n', tag n = tag n' -> n = n') ->
  plain tag t1 -> plain tag t2 -> same_type t1 t2 = true -> compatible tag t1 t2.
Proof. exact (accepted_compatible tag t1 t2). Qed.
Print Assumptions C25_accepted_types_compatible.

Definition int_t : ty := TFixnum noq FX_INT false None.
Definition char_t (q : quals) : ty := TFixnum q FX_CHAR false None.

(** int ( * )(struct S [], const int), the struct incomplete in one of them. *)
Example C25_example :
  let f a s c := TPtr noq (TFunc noq int_t (Some [TPtr noq (TArray noq s a); TFixnum c FX_INT false None]) false) in
  let t1 := f 3 (TStruct noq (Some 1%nat) None) constq in
  let t2 := f (-1) (TStruct noq (Some 1%nat) (Some 11%nat)) noq in
  let tag n := (n + 10)%nat in
  same_type t1 t2 = true /\ plain tag t1 /\ plain tag t2 /\
  same_type t1 (f 4 (TStruct noq (Some 1%nat) None) constq) = false /\
  same_type t1 (f 3 (TStruct noq (Some 2%nat) (Some 12%nat)) noq) = false.
Proof.
  split; [done|]. split; [|split; [|done]].
  - split; [by cbn|]. split; [by cbn|]. split; [|by cbn]. cbn. split_and!; try done; repeat constructor; by cbn.
  - split; [by cbn|]. split; [by cbn|]. split; [|by cbn]. cbn. split_and!; try done; repeat constructor; by cbn.
Qed.

(** Distinct types taken for the same: int * and volatile int *; functions of const char *
    and of char *; two enumerations. *)
Theorem C93_volatile_refuted : exists t1 t2, same_type t1 t2 = true /\ forall tag, ~ compatible tag t1 t2.
Proof.
  exists (TPtr noq int_t), (TPtr noq (TFixnum (Quals false true false) FX_INT false None)).
  split; [done|]. intros tag H. inversion H as [| | |? ? ? H'| | | | | |]; subst. inversion H'.
Qed.
Print Assumptions C93_volatile_refuted.
Theorem C93_parameter_const_refuted : exists t1 t2, same_type t1 t2 = true /\ (forall tag, ~ compatible tag t1 t2) /\
  everywhere only_const t1 /\ everywhere only_const t2 /\ everywhere prototyped t1 /\ everywhere prototyped t2.
Proof.
  exists (TFunc noq int_t (Some [TPtr noq (char_t constq)]) false), (TFunc noq int_t (Some [TPtr noq (char_t noq)]) false).
  split; [done|]. split; [|by cbn]. intros tag H. inversion H as [| | | | |? ? ? ? ? ? _ Hps| | | |]; subst.
  inversion Hps as [|? ? ? ? Hp]; subst. inversion Hp as [| | |? ? ? H'| | | | | |]; subst. inversion H'.
Qed.
Print Assumptions C93_parameter_const_refuted.
Theorem C93_enum_refuted : exists t1 t2, same_type t1 t2 = true /\ forall tag, ~ compatible tag t1 t2.
Proof.
  exists (TFixnum noq FX_ENUM false (Some 1%nat)), (TFixnum noq FX_ENUM false (Some 2%nat)).
  split; [done|]. intros tag H. inversion H.
Qed.
Print Assumptions C93_enum_refuted.
(** Compatible types taken for different ones: int () and int (int). *)
Theorem C93_no_prototype_refuted : exists t1 t2, (forall tag, compatible tag t1 t2) /\ same_type t1 t2 = false.
Proof.
  exists (TFunc noq int_t None true), (TFunc noq int_t (Some [int_t]) false). split; [|done].
  intros tag. apply c_func_old_new; repeat constructor; done.
Qed.
Print Assumptions C93_no_prototype_refuted.
(** An incomplete struct S is the same as two different structs S of two scopes. *)
Theorem C93_incomplete_struct_refuted : exists t1 t2 t3,
  everywhere named t1 /\ everywhere named t2 /\ everywhere named t3 /\ everywhere known_length t2 /\
  same_type t1 t2 = true /\ same_type t2 t3 = true /\ same_type t1 t3 = false.
Proof.
  exists (TStruct noq (Some 1%nat) (Some 10%nat)), (TStruct noq (Some 1%nat) None), (TStruct noq (Some 1%nat) (Some 20%nat)).
  by cbn.
Qed.
Print Assumptions C93_incomplete_struct_refuted.

Theorem C94_generic_partial tag ts t : (forall n n', tag n = tag n' -> n = n') ->
  (forall q r ps v, t <> TFunc q r ps v) -> Forall (plain tag) ts -> plain tag (decayed t) ->
  selects tag ts (decayed t) (generic ts t).
Proof. exact (generic_decayed tag ts t). Qed.
Print Assumptions C94_generic_partial.
Example C94_example : generic [int_t; TPtr noq (char_t noq); TPtr noq (char_t constq)] (TPtr noq (char_t constq)) = Some 2%nat /\
  generic [int_t; TPtr noq (char_t noq); TPtr noq (char_t constq)] (TArray noq (char_t noq) 4) = Some 1%nat /\
  generic [int_t; TPtr noq (char_t noq)] (TPtr noq int_t) = None.
Proof. done. Qed.
(** The controlling expression keeps the qualifiers of a variable: for const int x,
    _Generic(x, int: ...) does not choose int. *)
Theorem C94_qualifier_refuted : exists ts t, (forall tag, ~ selects tag ts (unqualified t) (generic ts t)).
Proof.
  exists [int_t], (TFixnum constq FX_INT false None). intros tag H. apply Forall_inv in H. apply H. constructor.
Qed.
Print Assumptions C94_qualifier_refuted.
(** A function is not converted to a pointer. *)
Theorem C94_function_refuted : exists ts t, (forall tag, ~ selects tag ts (decayed t) (generic ts t)).
Proof.
  exists [TPtr noq (TFunc noq int_t (Some []) false)], (TFunc noq int_t (Some []) false).
  intros tag H. apply Forall_inv in H. apply H. constructor. constructor; constructor.
Qed.
Print Assumptions C94_function_refuted.
Theorem C94_volatile_refuted : exists ts t, (forall tag, ~ selects tag ts t (generic ts t)) /\
  Exists (fun t' => forall tag, compatible tag t' t) ts.
Proof.
  exists [TPtr noq int_t; TPtr noq (TFixnum (Quals false true false) FX_INT false None)], (TPtr noq (TFixnum (Quals false true false) FX_INT false None)).
  split.
  - intros tag (t'&[= <-]&H). inversion H as [| | |? ? ? H'| | | | | |]; subst. inversion H'.
  - apply Exists_cons_tl, Exists_cons_hd. intros tag. repeat constructor.
Qed.
Print Assumptions C94_volatile_refuted.

Theorem C95_pointer q t q' t' zero : can_cast (TPtr q t) (TPtr q' t') zero false = true ->
  is_const t' = true -> is_const t = true.
Proof. exact (implicit_keeps_const q t q' t' zero). Qed.
Print Assumptions C95_pointer.
Theorem C95_array q t q' t' l zero : can_cast (TPtr q t) (TArray q' t' l) zero false = true ->
  is_const t' = true -> is_const t = true.
Proof. exact (implicit_keeps_const_array q t q' t' l zero). Qed.
Print Assumptions C95_array.
Example C95_example :
  can_cast (TPtr noq (char_t noq)) (TPtr noq (char_t constq)) false false = false /\
  can_cast (TPtr noq (char_t constq)) (TPtr noq (char_t noq)) false false = true /\
  can_cast (TPtr noq (TVoid noq)) (TArray noq (char_t constq) 3) false false = false.
Proof. done. Qed.
(** Deeper down const is lost: char ** from const char **. *)
Theorem C95_nested_refuted : exists t t', can_cast (TPtr noq (TPtr noq t)) (TPtr noq (TPtr noq t')) false false = true /\
  is_const t' = true /\ is_const t = false.
Proof. by exists (char_t noq), (char_t constq). Qed.
Print Assumptions C95_nested_refuted.
(** An array declared const through a typedef has the qualifier itself. *)
Theorem C95_array_refuted : exists t l, can_cast (TPtr noq t) (TArray constq t l) false false = true /\ is_const t = false.
Proof. by exists int_t, 3. Qed.
Print Assumptions C95_array_refuted.

Theorem C96_explicit_casts dst src zero :
  scalar dst \/ (exists q, dst = TVoid q) -> (forall q n i, src <> TStruct q n i) ->
  (can_cast dst src zero true = true <-> cast_allowed dst (decayed src)).
Proof. exact (explicit_exact dst src zero). Qed.
Print Assumptions C96_explicit_casts.
Example C96_example :
  can_cast (TPtr noq int_t) (TFlonum noq FL_DOUBLE) false true = false /\
  can_cast (TPtr noq int_t) (TFixnum noq FX_LONG true None) false true = true /\
  can_cast int_t (TFunc noq int_t None true) false true = true.
Proof. done. Qed.

Theorem C106_implicit dst src zero : scalar dst -> (forall q n i, src <> TStruct q n i) -> ~ (pointer dst /\ pointer (decayed src)) ->
  (forall q u e, dst = TFixnum q FX_BOOL u e -> ~ pointer (decayed src)) ->
  (can_cast dst src zero false = true <-> implicit_allowed dst (decayed src) zero).
Proof. exact (implicit_exact dst src zero). Qed.
Print Assumptions C106_implicit.
Example C106_example :
  can_cast (TFlonum noq FL_FLOAT) (TFixnum noq FX_LONG true None) false false = true /\
  can_cast (char_t noq) (TFlonum noq FL_DOUBLE) false false = true /\
  can_cast (TPtr noq int_t) int_t true false = true /\
  can_cast (TPtr noq int_t) int_t false false = false /\
  can_cast int_t (TArray noq int_t 3) true false = false.
Proof. done. Qed.
(** A pointer assigned to a _Bool is not accepted. *)
Theorem C106_bool_refuted : exists dst src, implicit_allowed dst src false /\ can_cast dst src false false = false.
Proof. by exists (TFixnum noq FX_BOOL false None), (TPtr noq int_t). Qed.
Print Assumptions C106_bool_refuted.
