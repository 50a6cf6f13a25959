(** Declarations by the standard (C11 6.7).  Shares only tokens and types with the model. *)
From stdpp Require Import base list numbers.
From Verif Require Import Front.Decl_model.
Local Open Scope Z_scope.

(** * Specifiers *)
(** 6.7.2p2: the sets of specifiers and the types. *)
Definition arith_types : list (list arith * base) :=
  [([KChar], Fixnum RChar false); ([KSigned; KChar], Fixnum RChar false); ([KUnsigned; KChar], Fixnum RChar true);
   ([KShort], Fixnum RShort false); ([KSigned; KShort], Fixnum RShort false); ([KShort; KInt], Fixnum RShort false); ([KSigned; KShort; KInt], Fixnum RShort false);
   ([KUnsigned; KShort], Fixnum RShort true); ([KUnsigned; KShort; KInt], Fixnum RShort true);
   ([KInt], Fixnum RInt false); ([KSigned], Fixnum RInt false); ([KSigned; KInt], Fixnum RInt false);
   ([KUnsigned], Fixnum RInt true); ([KUnsigned; KInt], Fixnum RInt true);
   ([KLong], Fixnum RLong false); ([KSigned; KLong], Fixnum RLong false); ([KLong; KInt], Fixnum RLong false); ([KSigned; KLong; KInt], Fixnum RLong false);
   ([KUnsigned; KLong], Fixnum RLong true); ([KUnsigned; KLong; KInt], Fixnum RLong true);
   ([KLong; KLong], Fixnum RLlong false); ([KSigned; KLong; KLong], Fixnum RLlong false); ([KLong; KLong; KInt], Fixnum RLlong false); ([KSigned; KLong; KLong; KInt], Fixnum RLlong false);
   ([KUnsigned; KLong; KLong], Fixnum RLlong true); ([KUnsigned; KLong; KLong; KInt], Fixnum RLlong true);
   ([KFloat], Float); ([KDouble], Double); ([KLong; KDouble], Ldouble)].
Definition is_arith_type (ks : list arith) : Prop := exists ks' b, ks ≡ₚ ks' /\ (ks', b) ∈ arith_types.
(** 6.7.1p2, 6.7.4: at most one storage class, and inline. *)
Definition storage_classes : list (list storage * Z) :=
  [([], 0); ([SStatic], VS_STATIC); ([SExtern], VS_EXTERN); ([STypedef], VS_TYPEDEF); ([SAuto], VS_AUTO); ([SRegister], VS_REGISTER);
   ([SInline], VS_INLINE); ([SStatic; SInline], Z.lor VS_STATIC VS_INLINE); ([SExtern; SInline], Z.lor VS_EXTERN VS_INLINE)].
Definition ariths (ts : list ptok) : list arith := omap (fun t => match t with PArith k => Some k | _ => None end) ts.
Definition storages (ts : list ptok) : list storage := omap (fun t => match t with PStorage s => Some s | _ => None end) ts.
Definition quals (ts : list ptok) : list Z := omap (fun t => match t with PQual q => Some q | _ => None end) ts.
Definition named (ts : list ptok) : list (nat * Z) := omap (fun t => match t with PNamed n q _ => Some (n, q) | _ => None end) ts.
Definition all_quals (l : list Z) : Z := foldr Z.lor 0 l.
Definition some_quals (l : list Z) : Prop := NoDup l /\ Forall (fun q => q ∈ [TQ_CONST; TQ_VOLATILE; TQ_RESTRICT]) l.
(** The tokens are specifiers, in whatever order: the type, the storage class, the qualifiers. *)
Inductive specify (ts : list ptok) : base -> Z -> Z -> Prop :=
| s_arith ks b ss st : Forall (fun t => match t with POther _ => False | _ => True end) ts -> ariths ts ≡ₚ ks -> (ks, b) ∈ arith_types -> named ts = [] ->
    storages ts ≡ₚ ss -> (ss, st) ∈ storage_classes -> some_quals (quals ts) -> specify ts b st (all_quals (quals ts))
| s_named n q ss st : Forall (fun t => match t with POther _ => False | _ => True end) ts -> ariths ts = [] -> named ts = [(n, q)] ->
    storages ts ≡ₚ ss -> (ss, st) ∈ storage_classes -> some_quals (quals ts) -> specify ts (Named n) st (Z.lor q (all_quals (quals ts))).
Definition floating (b : base) : bool := match b with Float | Double | Ldouble => true | _ => false end.
(** Two specifiers that exclude one another but are not checked against one another. *)
Definition unchecked (ks : list arith) : Prop := (KSigned ∈ ks /\ KUnsigned ∈ ks) \/ (KChar ∈ ks /\ KInt ∈ ks) \/ (KFloat ∈ ks /\ KDouble ∈ ks).
(** What follows is the declared name or a punctuator; after a complete type an identifier is not a type any more. *)
Definition no_specifier (ts : list ptok) : Prop := match ts with POther _ :: _ | PNamed _ _ ByTypedef :: _ | [] => True | _ => False end.

(** * Declarators *)
Definition is_fun (t : ty) : bool := match t with Fun _ _ _ _ => true | _ => false end.
Definition is_arr (t : ty) : bool := match t with Arr _ _ _ => true | _ => false end.
(** 6.7.3p9: an array of const elements is const. *)
Definition array_of (t : ty) (n : len) : ty := Arr t n (Z.land (qual_of t) TQ_CONST).
(** 6.7.6.3p7, p8 *)
Definition adjusted (t : ty) : ty := match t with Arr e _ _ => Ptr e 0 | Fun _ _ _ _ => Ptr t 0 | _ => t end.
Fixpoint depth (ts : list dtok) (d : nat) : option nat :=
  match ts with
  | [] => Some d
  | DLpar :: ts => depth ts (S d)
  | DRpar :: ts => match d with O => None | S d => depth ts d end
  | _ :: ts => depth ts d
  end.
(** The tokens are something in parentheses. *)
Definition wrapped (ts : list dtok) : Prop := exists mid, ts = DLpar :: mid ++ [DRpar] /\ depth mid 0 = Some 0%nat.

Inductive level := Decl | Direct.
(** [declares full l T ts x t]: in a declaration [T ts], the tokens [ts] declare [x], or no name, with type [t].
    The rules are those of 6.7.6.1-3 and, for missing names, 6.7.7.  Without [full], these are left out: a declarator in two pairs of parentheses, a list of parameters
    that no declarator precedes, qualifiers and variable expressions in brackets. *)
Inductive declares (full : bool) : level -> ty -> list dtok -> option nat -> ty -> Prop :=
| s_name T x : declares full Direct T [DName x] (Some x) T
| s_abstract T : declares full Direct T [] None T
| s_paren T ts x t : declares full Decl T ts x t -> ts <> [] -> (full = false -> ~ wrapped ts) -> declares full Direct T (DLpar :: ts ++ [DRpar]) x t
| s_array T n ts x t : is_fun T = false -> 0 <= n -> declares full Direct (array_of T (Fix n)) ts x t -> declares full Direct T (ts ++ [DLbr; DSize n; DRbr]) x t
| s_array_open T ts x t : is_fun T = false -> declares full Direct (array_of T Und) ts x t -> declares full Direct T (ts ++ [DLbr; DRbr]) x t
| s_func T ps va pts ts x t : is_fun T = false -> is_arr T = false -> (full = false -> ts <> []) -> parameters full pts ps va -> declares full Direct (Fun T ps va 0) ts x t ->
    declares full Direct T (ts ++ DLpar :: pts ++ [DRpar]) x t
| s_direct T ts x t : declares full Direct T ts x t -> declares full Decl T ts x t
| s_pointer T qs ts x t : some_quals qs -> declares full Decl (Ptr T (all_quals qs)) ts x t -> declares full Decl T (DStar :: (DQual <$> qs) ++ ts) x t
| s_array_quals T q ts x t : full = true -> is_fun T = false -> declares full Direct (array_of T Und) ts x t -> declares full Direct T (ts ++ [DLbr; DQual q; DRbr]) x t
| s_array_name T y ts x t : full = true -> is_fun T = false -> declares full Direct (array_of T (Vla (VVar y))) ts x t -> declares full Direct T (ts ++ [DLbr; DName y; DRbr]) x t
| s_array_var T y k ts x t : full = true -> is_fun T = false -> declares full Direct (array_of T (Vla (VMore y k))) ts x t -> declares full Direct T (ts ++ [DLbr; DName y; DMore k; DRbr]) x t
with parameters (full : bool) : list dtok -> option (list ty) -> bool -> Prop :=
| ps_empty : parameters full [] None true
| ps_void : parameters full [DBase VOID 0] (Some []) false
| ps_list pts l va : param_list full [] pts l va -> parameters full pts (Some l) va
with param_list (full : bool) : list (option nat) -> list dtok -> list ty -> bool -> Prop :=
| pl_last xs b q ts x t : declares full Decl (Base b q) ts x t -> is_void t = false -> (x <> None -> x ∉ xs) -> param_list full xs (DBase b q :: ts) [adjusted t] false
| pl_dots xs b q ts x t : declares full Decl (Base b q) ts x t -> is_void t = false -> (x <> None -> x ∉ xs) -> param_list full xs (DBase b q :: ts ++ [DComma; DDots]) [adjusted t] true
| pl_more xs b q ts x t ts' l va : declares full Decl (Base b q) ts x t -> is_void t = false -> (x <> None -> x ∉ xs) -> param_list full (xs ++ [x]) ts' l va ->
    param_list full xs (DBase b q :: ts ++ DComma :: ts') (adjusted t :: l) va.
(** The declarator ends here. *)
Definition ended (ts : list dtok) : Prop := match ts with (DName _ | DStar | DQual _ | DLpar | DLbr) :: _ => False | _ => True end.
