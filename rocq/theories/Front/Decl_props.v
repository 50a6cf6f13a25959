(** C121-C125: declarations. *)
From stdpp Require Import base list numbers sets.
From Verif Require Import Front.Decl_model Front.Decl_spec Front.Decl_proof Front.Decl_full_proof Front.Decl_raw_proof Front.Decl_sound_proof.
Local Open Scope Z_scope.

(** * C121: specifiers mean the same in any order. *)
Theorem C121_any_order ts b st q rest : specify ts b st q -> no_specifier rest -> exists q', parse_raw_type (ts ++ rest) = Raw (Some (b, q')) st rest false.
Proof. exact (raw_type ts b st q rest). Qed.
Theorem C121_one_type ts b st q b' st' q' : specify ts b st q -> specify ts b' st' q' -> b = b' /\ st = st'.
Proof. exact (specify_one ts b st q b' st' q'). Qed.
(** long const unsigned static int long x *)
Example odd_order : specify [PArith KLong; PQual TQ_CONST; PArith KUnsigned; PStorage SStatic; PArith KInt; PArith KLong] (Fixnum RLlong true) VS_STATIC TQ_CONST.
Proof.
  apply (s_arith [PArith KLong; PQual TQ_CONST; PArith KUnsigned; PStorage SStatic; PArith KInt; PArith KLong] [KUnsigned; KLong; KLong; KInt] (Fixnum RLlong true) [SStatic] VS_STATIC).
  - repeat constructor.
  - cbn. etransitivity; [apply perm_swap|]. do 2 f_equiv. apply perm_swap.
  - match goal with |- ?x ∈ _ => apply elem_of_list_In; do 25 right; by left end.
  - done.
  - done.
  - apply elem_of_list_In. right. by left.
  - split; [apply NoDup_singleton|]. by repeat constructor.
Qed.
Example odd_order_type : parse_raw_type [PArith KLong; PQual TQ_CONST; PArith KUnsigned; PStorage SStatic; PArith KInt; PArith KLong; POther 7] =
  Raw (Some (Fixnum RLlong true, TQ_CONST)) VS_STATIC [POther 7] false.
Proof. reflexivity. Qed.

(** * C122: qualifiers hold for what is declared. *)
(** Missing: floating types, and qualifiers that are given twice. *)
Theorem C122_qualified_partial ts b st q rest : specify ts b st q -> no_specifier rest -> floating b = false -> TQ_RESTRICT ∉ quals ts ->
  parse_raw_type (ts ++ rest) = Raw (Some (b, q)) st rest false.
Proof. exact (raw_quals ts b st q rest). Qed.
(** const double x *)
Lemma const_double : specify [PQual TQ_CONST; PArith KDouble] Double 0 TQ_CONST.
Proof.
  apply (s_arith [PQual TQ_CONST; PArith KDouble] [KDouble] Double [] 0); [repeat constructor|done| |done|done|apply elem_of_list_In; by left|].
  - apply elem_of_list_In. do 27 right. by left.
  - split; [apply NoDup_singleton|]. by repeat constructor.
Qed.
Theorem C122_floating_refuted : exists ts b st q rest, specify ts b st q /\ no_specifier rest /\ Z.land q TQ_CONST = TQ_CONST /\ parse_raw_type (ts ++ rest) = Raw (Some (b, 0)) st rest false.
Proof. exists [PQual TQ_CONST; PArith KDouble], Double, 0, TQ_CONST, [POther 7]. split; [exact const_double|]. done. Qed.
(** const const int x; 6.7.3p5: the same as const int x. *)
Lemma const_int : specify [PQual TQ_CONST; PArith KInt] (Fixnum RInt false) 0 TQ_CONST.
Proof.
  apply (s_arith [PQual TQ_CONST; PArith KInt] [KInt] (Fixnum RInt false) [] 0); [repeat constructor|done| |done|done|apply elem_of_list_In; by left|].
  - apply elem_of_list_In. do 9 right. by left.
  - split; [apply NoDup_singleton|]. by repeat constructor.
Qed.
Theorem C122_twice_refuted : exists q ts b st q' rest, specify (PQual q :: ts) b st q' /\ no_specifier rest /\ parse_raw_type (PQual q :: PQual q :: ts ++ rest) = Fatal.
Proof. exists TQ_CONST, [PArith KInt], (Fixnum RInt false), 0, TQ_CONST, [POther 7]. split; [exact const_int|]. done. Qed.

(** * C123: declarators. *)
Theorem C123_declared b q ts x t rest : declares false Decl (Base b q) ts x t -> ended rest ->
  exists r h, parse_declarator (Base b q) (ts ++ rest) = Done (r, x) h rest false /\ resolves h r t.
Proof. exact (declarator_full b q ts x t rest). Qed.
Theorem C123_one_type b q ts x t x' t' : declares false Decl (Base b q) ts x t -> declares false Decl (Base b q) ts x' t' -> x = x' /\ t = t'.
Proof. exact (declares_one b q ts x t x' t'). Qed.
Theorem C123_graph h t T T' : resolves h t T -> resolves h t T' -> T = T'.
Proof. exact (resolves_one h t T T'). Qed.
Theorem C123_ends t ts : parse_declarator t ts <> NoFuel.
Proof. exact (never_stuck (fuel_for ts) t ts (le_n _)). Qed.
(** int *( *f[3])(int, char * ), with 2 for int and 3 for char. *)
Definition pointer_array : list dtok := [DStar; DLpar; DStar; DName 1; DLbr; DSize 3; DRbr; DRpar; DLpar; DBase 2 0; DComma; DBase 3 0; DStar; DRpar].
Definition pointer_array_type : ty := Arr (Ptr (Fun (Ptr (Base 2 0) 0) (Some [Base 2 0; Ptr (Base 3 0) 0]) false 0) 0) (Fix 3) 0.
Example pointer_array_declared : declares false Decl (Base 2 0) pointer_array (Some 1%nat) pointer_array_type.
Proof.
  assert (H0 : some_quals []) by (split; constructor).
  apply (s_pointer false (Base 2 0) [] [DLpar; DStar; DName 1; DLbr; DSize 3; DRbr; DRpar; DLpar; DBase 2 0; DComma; DBase 3 0; DStar; DRpar]); [done|].
  apply s_direct. apply (s_func false (Ptr (Base 2 0) 0) (Some [Base 2 0; Ptr (Base 3 0) 0]) false [DBase 2 0; DComma; DBase 3 0; DStar] [DLpar; DStar; DName 1; DLbr; DSize 3; DRbr; DRpar]); [done|done|done| |].
  - apply ps_list. apply (pl_more false [] 2 0 [] None (Base 2 0) [DBase 3 0; DStar] [Ptr (Base 3 0) 0] false); [apply s_direct, s_abstract|done|done|].
    apply (pl_last false [None] 3 0 [DStar] None (Ptr (Base 3 0) 0)); [|done|done]. apply (s_pointer false (Base 3 0) [] []); [done|]. apply s_direct, s_abstract.
  - apply (s_paren false _ [DStar; DName 1; DLbr; DSize 3; DRbr]); [|done|intros _ (mid & [=] & _)].
    apply (s_pointer false _ [] [DName 1; DLbr; DSize 3; DRbr]); [done|]. apply s_direct. apply (s_array false _ 3 [DName 1]); [done|lia|]. apply s_name.
Qed.
Example pointer_array_parsed : parse_declarator (Base 2 0) (pointer_array ++ [DOther 0]) =
  Done (Arr (Ptr (Ref 0) 0) (Fix 3) 0, Some 1%nat) [Fun (Ptr (Base 2 0) 0) (Some [Base 2 0; Ptr (Base 3 0) 0]) false 0] [DOther 0] false.
Proof. reflexivity. Qed.

(** * C124: everything that the grammar calls a declarator is one. *)
(** The full statement is [C123_declared] with [declares true]; proved is that for [declares false], below. *)
Theorem C124_accepted_partial b q ts x t rest : declares false Decl (Base b q) ts x t -> ended rest ->
  exists r h, parse_declarator (Base b q) (ts ++ rest) = Done (r, x) h rest false /\ resolves h r t.
Proof. exact (declarator_full b q ts x t rest). Qed.
(** int ((a))[3]: the array is lost. *)
Theorem C124_parentheses_refuted : exists b q ts x t t' r h, declares true Decl (Base b q) ts x t /\ parse_declarator (Base b q) ts = Done (r, x) h [] false /\ resolves h r t' /\
  is_arr t = true /\ is_arr t' = false.
Proof.
  exists 2%nat, 0, [DLpar; DLpar; DName 1; DRpar; DRpar; DLbr; DSize 3; DRbr], (Some 1%nat), (Arr (Base 2 0) (Fix 3) 0), (Base 2 0), (Ref 1), [Arr (Base 2 0) (Fix 3) 0; Base 2 0].
  split; [|split; [reflexivity|split; [by eapply r_ref, r_base|done]]].
  apply s_direct. apply (s_array true _ 3 [DLpar; DLpar; DName 1; DRpar; DRpar]); [done|lia|].
  apply (s_paren true _ [DLpar; DName 1; DRpar]); [|done|done]. apply s_direct. apply (s_paren true _ [DName 1]); [|done|done]. apply s_direct, s_name.
Qed.
(** int f(char (int)): a function as a parameter without a name. *)
Theorem C124_function_parameter_refuted : exists b q ts x t r h rest, declares true Decl (Base b q) ts x t /\ parse_declarator (Base b q) ts = Done (r, x) h rest true.
Proof.
  exists 2%nat, 0, [DName 1; DLpar; DBase 3 0; DLpar; DBase 2 0; DRpar; DRpar], (Some 1%nat), (Fun (Base 2 0) (Some [Ptr (Fun (Base 3 0) (Some [Base 2 0]) false 0) 0]) false 0).
  do 3 eexists. split; [|reflexivity].
  apply s_direct. apply (s_func true _ (Some [Ptr (Fun (Base 3 0) (Some [Base 2 0]) false 0) 0]) false [DBase 3 0; DLpar; DBase 2 0; DRpar] [DName 1]); [done|done|done| |apply s_name].
  apply ps_list. apply (pl_last true [] 3 0 [DLpar; DBase 2 0; DRpar] None (Fun (Base 3 0) (Some [Base 2 0]) false 0)); [|done|done].
  apply s_direct. apply (s_func true _ (Some [Base 2 0]) false [DBase 2 0] []); [done|done|done| |apply s_abstract].
  apply ps_list. apply (pl_last true [] 2 0 [] None (Base 2 0)); [|done|done]. apply s_direct, s_abstract.
Qed.
(** int f(int n, int a[n + 1]) *)
Theorem C124_length_refuted : exists b q ts x t r h rest, declares true Decl (Base b q) ts x t /\ parse_declarator (Base b q) ts = Done (r, x) h rest true.
Proof.
  exists 2%nat, 0, [DName 1; DLpar; DBase 2 0; DName 2; DComma; DBase 2 0; DName 3; DLbr; DName 2; DMore 0; DRbr; DRpar], (Some 1%nat), (Fun (Base 2 0) (Some [Base 2 0; Ptr (Base 2 0) 0]) false 0).
  do 3 eexists. split; [|reflexivity].
  apply s_direct. apply (s_func true _ (Some [Base 2 0; Ptr (Base 2 0) 0]) false [DBase 2 0; DName 2; DComma; DBase 2 0; DName 3; DLbr; DName 2; DMore 0; DRbr] [DName 1]); [done|done|done| |apply s_name].
  apply ps_list. apply (pl_more true [] 2 0 [DName 2] (Some 2%nat) (Base 2 0) [DBase 2 0; DName 3; DLbr; DName 2; DMore 0; DRbr] [Ptr (Base 2 0) 0] false);
    [apply s_direct, s_name|done|intros _; apply not_elem_of_nil|].
  apply (pl_last true [Some 2%nat] 2 0 [DName 3; DLbr; DName 2; DMore 0; DRbr] (Some 3%nat) (array_of (Base 2 0) (Vla (VMore 2 0)))); [|done|intros _; set_solver].
  apply s_direct. apply (s_array_var true _ 2 0 [DName 3]); [done|done|]. apply s_name.
Qed.
(** int f(int n, int a[n]): where the function is defined, the parameter may not be assigned to. *)
Theorem C124_variable_length_refuted : exists b q ts x r l h p, declares true Decl (Base b q) ts x (Fun r (Some l) false 0) /\
  parse_declarator (Base b q) ts = Done (Fun r (Some (<[1%nat := p]> l)) false 0, x) h [] false /\ l !! 1%nat = Some (Ptr (Base 2 0) 0) /\ defun_param p = Some (Ptr (Base 2 0) TQ_CONST).
Proof.
  exists 2%nat, 0, [DName 1; DLpar; DBase 2 0; DName 2; DComma; DBase 2 0; DName 3; DLbr; DName 2; DRbr; DRpar], (Some 1%nat), (Base 2 0), [Base 2 0; Ptr (Base 2 0) 0], [], (Arr (Base 2 0) (Vla (VVar 2)) TQ_CONST).
  split; [|done].
  apply s_direct. apply (s_func true _ (Some [Base 2 0; Ptr (Base 2 0) 0]) false [DBase 2 0; DName 2; DComma; DBase 2 0; DName 3; DLbr; DName 2; DRbr] [DName 1]); [done|done|done| |apply s_name].
  apply ps_list. apply (pl_more true [] 2 0 [DName 2] (Some 2%nat) (Base 2 0) [DBase 2 0; DName 3; DLbr; DName 2; DRbr] [Ptr (Base 2 0) 0] false);
    [apply s_direct, s_name|done|intros _; apply not_elem_of_nil|].
  apply (pl_last true [Some 2%nat] 2 0 [DName 3; DLbr; DName 2; DRbr] (Some 3%nat) (array_of (Base 2 0) (Vla (VVar 2)))); [|done|intros _; set_solver].
  apply s_direct. apply (s_array_name true _ 2 [DName 3]); [done|done|]. apply s_name.
Qed.
(** int f(int n, int a[][n]): where the function is defined, an assertion fails. *)
Theorem C124_open_rows_refuted : exists b q ts x r l h p, declares true Decl (Base b q) ts x (Fun r (Some l) false 0) /\
  parse_declarator (Base b q) ts = Done (Fun r (Some (<[1%nat := p]> l)) false 0, x) h [] false /\ l !! 1%nat = Some (Ptr (Arr (Base 2 0) (Vla (VVar 2)) 0) 0) /\ defun_param p = None.
Proof.
  exists 2%nat, 0, [DName 1; DLpar; DBase 2 0; DName 2; DComma; DBase 2 0; DName 3; DLbr; DRbr; DLbr; DName 2; DRbr; DRpar], (Some 1%nat), (Base 2 0),
    [Base 2 0; Ptr (Arr (Base 2 0) (Vla (VVar 2)) 0) 0], [], (Arr (Arr (Base 2 0) (Vla (VVar 2)) TQ_CONST) (Vla (VNum (-1))) TQ_CONST).
  split; [|done].
  apply s_direct. apply (s_func true _ (Some [Base 2 0; Ptr (Arr (Base 2 0) (Vla (VVar 2)) 0) 0]) false [DBase 2 0; DName 2; DComma; DBase 2 0; DName 3; DLbr; DRbr; DLbr; DName 2; DRbr] [DName 1]); [done|done|done| |apply s_name].
  apply ps_list. apply (pl_more true [] 2 0 [DName 2] (Some 2%nat) (Base 2 0) [DBase 2 0; DName 3; DLbr; DRbr; DLbr; DName 2; DRbr] [Ptr (Arr (Base 2 0) (Vla (VVar 2)) 0) 0] false);
    [apply s_direct, s_name|done|intros _; apply not_elem_of_nil|].
  apply (pl_last true [Some 2%nat] 2 0 [DName 3; DLbr; DRbr; DLbr; DName 2; DRbr] (Some 3%nat) (array_of (array_of (Base 2 0) (Vla (VVar 2))) Und)); [|done|intros _; set_solver].
  apply s_direct. apply (s_array_name true _ 2 [DName 3; DLbr; DRbr]); [done|done|]. apply (s_array_open true _ [DName 3]); [done|]. apply s_name.
Qed.
(** int f(int a[const]) *)
Theorem C124_qualifier_refuted : exists b q ts x t, declares true Decl (Base b q) ts x t /\ parse_declarator (Base b q) ts = Crash.
Proof.
  exists 2%nat, 0, [DName 1; DLpar; DBase 2 0; DName 3; DLbr; DQual TQ_CONST; DRbr; DRpar], (Some 1%nat), (Fun (Base 2 0) (Some [Ptr (Base 2 0) 0]) false 0).
  split; [|reflexivity].
  apply s_direct. apply (s_func true _ (Some [Ptr (Base 2 0) 0]) false [DBase 2 0; DName 3; DLbr; DQual TQ_CONST; DRbr] [DName 1]); [done|done|done| |apply s_name].
  apply ps_list. apply (pl_last true [] 2 0 [DName 3; DLbr; DQual TQ_CONST; DRbr] (Some 3%nat) (array_of (Base 2 0) Und)); [|done|intros _; apply not_elem_of_nil].
  apply s_direct. apply (s_array_quals true _ TQ_CONST [DName 3]); [done|done|]. apply s_name.
Qed.

(** * C125: specifiers that do not go together get a message. *)
(** Missing: sets that contain two specifiers which exclude one another but are not compared. *)
Theorem C125_message_partial ts rest t st rest' : Forall (fun t => match t with POther _ => False | _ => True end) ts -> named ts = [] -> ariths ts <> [] -> ~ unchecked (ariths ts) ->
  no_specifier rest -> parse_raw_type (ts ++ rest) = Raw t st rest' false -> is_arith_type (ariths ts).
Proof. exact (wrong_set ts rest t st rest'). Qed.
(** signed unsigned x; char int x; float double x *)
Theorem C125_signs_refuted : exists ks b rest, ~ is_arith_type ks /\ no_specifier rest /\ parse_raw_type ((PArith <$> ks) ++ rest) = Raw (Some (b, 0)) 0 rest false.
Proof. exact (ex_intro _ [KSigned; KUnsigned] (ex_intro _ (Fixnum RInt true) (ex_intro _ [POther 7] (conj not_signs (conj I eq_refl))))). Qed.
Theorem C125_char_int_refuted : exists ks b rest, ~ is_arith_type ks /\ no_specifier rest /\ parse_raw_type ((PArith <$> ks) ++ rest) = Raw (Some (b, 0)) 0 rest false.
Proof. exact (ex_intro _ [KChar; KInt] (ex_intro _ (Fixnum RChar false) (ex_intro _ [POther 7] (conj not_char_int (conj I eq_refl))))). Qed.
Theorem C125_float_double_refuted : exists ks b rest, ~ is_arith_type ks /\ no_specifier rest /\ parse_raw_type ((PArith <$> ks) ++ rest) = Raw (Some (b, 0)) 0 rest false.
Proof. exact (ex_intro _ [KFloat; KDouble] (ex_intro _ (Float) (ex_intro _ [POther 7] (conj not_float_double (conj I eq_refl))))). Qed.
Example long_short : parse_raw_type [PArith KLong; PArith KShort; POther 7] = Raw (Some (Fixnum RShort false, 0)) 0 [POther 7] true.
Proof. reflexivity. Qed.

Print Assumptions C121_any_order. Print Assumptions C121_one_type.
Print Assumptions C122_qualified_partial. Print Assumptions C122_floating_refuted. Print Assumptions C122_twice_refuted.
Print Assumptions C123_declared. Print Assumptions C123_one_type. Print Assumptions C123_graph. Print Assumptions C123_ends.
Print Assumptions C124_accepted_partial. Print Assumptions C124_parentheses_refuted. Print Assumptions C124_function_parameter_refuted. Print Assumptions C124_length_refuted.
Print Assumptions C124_variable_length_refuted. Print Assumptions C124_open_rows_refuted. Print Assumptions C124_qualifier_refuted.
Print Assumptions C125_message_partial. Print Assumptions C125_signs_refuted. Print Assumptions C125_char_int_refuted. Print Assumptions C125_float_double_refuted.
