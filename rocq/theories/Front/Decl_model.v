(** Declarations: src/cc/frontend/parser_type.c, the specifiers (parse_raw_type) and the declarators.
    Left out: what is inside the braces of a structure or enumeration (a structure, enumeration, typedef name, _Bool, void or typeof is one token,
    which stands for the type it names), and __auto_type. *)
From stdpp Require Import base list numbers.
Local Open Scope Z_scope.

(** type.h:49-53 enum TypeQualifier, a set of bits. *)
Definition TQ_CONST := 1. Definition TQ_VOLATILE := 2. Definition TQ_RESTRICT := 4.

(** * Specifiers *)
(** type.h: the types that specifiers can name.  [Named]: a structure, enumeration, typedef, _Bool or void, by number. *)
Inductive rank := RChar | RShort | RInt | RLong | RLlong.
Inductive base := Fixnum (k : rank) (unsigned : bool) | Float | Double | Ldouble | Named (n : nat).
(** var.h:20-31 *)
Definition VS_STATIC := 1. Definition VS_INLINE := 2. Definition VS_EXTERN := 4. Definition VS_TYPEDEF := 16. Definition VS_AUTO := 32. Definition VS_REGISTER := 64.
Inductive arith := KUnsigned | KSigned | KChar | KShort | KInt | KLong | KFloat | KDouble.
#[global] Instance arith_eq : EqDecision arith. Proof. solve_decision. Defined.
Inductive storage := SStatic | SInline | SExtern | STypedef | SAuto | SRegister.
(** [PNamed n q k]: a type by name, with the qualifiers it has: an identifier that a typedef gave a meaning, a structure, enumeration or _Bool, or void or typeof.
    [POther]: anything else. *)
Inductive how := ByTypedef | ByTag | ByVoid.
Inductive ptok := PArith (k : arith) | PStorage (s : storage) | PQual (q : Z) | PNamed (n : nat) (q : Z) (k : how) | POther (n : nat).

(** fe_misc.h TypeCombination *)
Record tc := Tc { num : arith -> nat; stor : Z; qual : Z }.
Definition tc0 : tc := Tc (fun _ => 0%nat) 0 0.
Definition add_num (c : tc) (k : arith) : tc := Tc (fun k' => if decide (k' = k) then S (num c k') else num c k') (stor c) (qual c).
(** fe_misc.c:113-129 check_type_combination: the combination is legal.  (Of three flags the sum exceeds 1: two of them are set.) *)
Definition some (c : tc) (k : arith) : bool := (0 <? num c k)%nat.
Definition check_type_combination (c : tc) : bool :=
  negb ((1 <? num c KUnsigned)%nat || (1 <? num c KSigned)%nat || (1 <? num c KChar)%nat || (1 <? num c KShort)%nat || (1 <? num c KInt)%nat || (3 <=? num c KLong)%nat ||
        ((some c KChar && some c KShort) || (some c KChar && some c KLong) || (some c KShort && some c KLong)) ||
        (1 <? num c KFloat)%nat || (1 <? num c KDouble)%nat ||
        ((some c KFloat || some c KDouble) &&
         (some c KChar || some c KShort || some c KInt || some c KLong || some c KUnsigned || some c KSigned) &&
         negb ((num c KDouble =? 1)%nat && negb (some c KFloat) && (num c KLong <=? 1)%nat &&
               negb (some c KChar) && negb (some c KShort) && negb (some c KInt) && negb (some c KUnsigned) && negb (some c KSigned)))).
(** fe_misc.c:131-137 no_type_combination, for the masks 0. *)
Definition no_nums (c : tc) : bool :=
  negb (some c KUnsigned || some c KSigned || some c KChar || some c KShort || some c KInt || some c KLong || some c KFloat || some c KDouble).
(** parser_type.c:212-235: the storage classes that may come before, and the bit. *)
Definition before (s : storage) : Z :=
  match s with SStatic => VS_INLINE | SInline => Z.lor VS_STATIC VS_EXTERN | SExtern => VS_INLINE | STypedef => 0 | SAuto => VS_REGISTER | SRegister => VS_AUTO end.
Definition bit (s : storage) : Z :=
  match s with SStatic => VS_STATIC | SInline => VS_INLINE | SExtern => VS_EXTERN | STypedef => VS_TYPEDEF | SAuto => VS_AUTO | SRegister => VS_REGISTER end.

(** A type with its qualifiers.  [Fatal]: an error that ends the compiler; the boolean of [Raw]: an error was reported. *)
Inductive raw := Raw (t : option (base * Z)) (st : Z) (rest : list ptok) (err : bool) | Fatal.
Definition set_err (e : bool) (r : raw) : raw := match r with Raw t s rest err => Raw t s rest (e || err) | Fatal => Fatal end.
(** parser_type.c:353-371: the type of the counters; float and double are taken without the qualifiers, the others with const and volatile
    (type.c:261-264 get_fixnum_type).  The index into kLongKinds, fe_misc.c:109-111, is checked after every specifier, but the check only reports: [None] beyond the array. *)
Definition long_kind (n : nat) : option rank := match n with 0 => Some RInt | 1 => Some RLong | 2 => Some RLlong | _ => None end%nat.
Inductive made := Made (t : option (base * Z)) | Out_of_bounds.
Definition make (c : tc) (t : option (base * Z)) : made :=
  match t with
  | Some (b, q) => Made (Some (b, Z.lor q (qual c)))
  | None =>
    if no_nums c && (stor c =? 0) && (qual c =? 0) then Made None
    else if some c KFloat then Made (Some (Float, 0))
    else if some c KDouble then Made (Some (if some c KLong then Ldouble else Double, 0))
    else
      let k := if some c KChar then Some RChar else if some c KShort then Some RShort else long_kind (num c KLong) in
      match k with
      | Some k => Made (Some (Fixnum k (some c KUnsigned), Z.land (qual c) 3))
      | None => Out_of_bounds
      end
  end.
Definition finish (c : tc) (t : option (base * Z)) (ts : list ptok) : raw := match make c t with Made r => Raw r (stor c) ts false | Out_of_bounds => Fatal end.
(** parser_type.c:192-372 parse_raw_type.  [first]: the first token is not preceded by a check. *)
Fixpoint specifiers (c : tc) (t : option (base * Z)) (first : bool) (ts : list ptok) : raw :=
  set_err (negb first && negb (check_type_combination c))
    match ts with
    | PArith k :: ts => specifiers (add_num c k) t false ts
    | PStorage s :: ts => if Z.land (stor c) (Z.lnot (before s)) =? 0 then specifiers (Tc (num c) (Z.lor (stor c) (bit s)) (qual c)) t false ts else Fatal
    | PQual q :: ts => if Z.land (qual c) q =? 0 then specifiers (Tc (num c) (stor c) (Z.lor (qual c) q)) t false ts else Fatal
    | PNamed n q k :: ts' =>
      match t, k with
      | Some _, _ => finish c t ts
      | None, ByTypedef => if no_nums c then specifiers c (Some (Named n, q)) false ts' else finish c t ts
      | None, ByTag => set_err (negb (no_nums c)) (specifiers c (Some (Named n, q)) false ts')
      | None, ByVoid => specifiers c (Some (Named n, q)) false ts'
      end
    | _ => finish c t ts
    end.
Definition parse_raw_type (ts : list ptok) : raw := specifiers tc0 None true ts.

(** * Declarators *)
Inductive vla := VNum (n : Z) | VVar (x : nat) | VMore (x : nat) (k : nat).
Inductive len := Und | Fix (n : Z) | Vla (v : vla).
(** type.h:55-90 struct Type.  [Ref k]: a pointer to the k-th placeholder, parser_type.c:576-585, whose contents the heap has. *)
Inductive ty := Base (b : nat) (q : Z) | Ptr (t : ty) (q : Z) | Arr (t : ty) (n : len) (q : Z) | Fun (t : ty) (ps : option (list ty)) (va : bool) (q : Z) | Ref (k : nat).
Definition VOID : nat := 0.
(** [DBase b q]: all specifiers of a parameter's declaration.  [DSize n]: an integer constant expression.  [DMore k]: the tokens after an identifier that make it a longer expression. *)
Inductive dtok :=
| DName (x : nat) | DStar | DQual (q : Z) | DLpar | DRpar | DLbr | DRbr | DComma | DDots | DStatic | DBase (b : nat) (q : Z) | DSize (n : Z) | DMore (k : nat) | DOther (n : nat).

Notation heap := (list ty).
Definition load (h : heap) (t : ty) : ty := match t with Ref k => default t (h !! k) | _ => t end.
Definition qual_of (t : ty) : Z := match t with Base _ q | Ptr _ q | Arr _ _ q | Fun _ _ _ q => q | Ref _ => 0 end.
Definition set_qual (t : ty) (q : Z) : ty := match t with Base b _ => Base b q | Ptr t _ => Ptr t q | Arr t n _ => Arr t n q | Fun t ps va _ => Fun t ps va q | Ref k => Ref k end.
(** type.c:321-328 qualified_type *)
Definition qualified_type (h : heap) (t : ty) (q : Z) : ty := let m := Z.lor (qual_of (load h t)) q in if m =? qual_of (load h t) then t else set_qual (load h t) m.

Inductive res (A : Type) := Done (a : A) (h : heap) (rest : list dtok) (err : bool) | Stop | Crash | NoFuel.
Arguments Done {A}. Arguments Stop {A}. Arguments Crash {A}. Arguments NoFuel {A}.
Definition report {A} (e : bool) (r : res A) : res A := match r with Done b h rest err => Done b h rest (e || err) | r => r end.
Definition bind {A B} (r : res A) (k : A -> heap -> list dtok -> res B) : res B :=
  match r with
  | Done a h rest err => report err (k a h rest)
  | Stop => Stop
  | Crash => Crash
  | NoFuel => NoFuel
  end.
Notation "'let*' a , h , ts := r 'in' k" := (bind r (fun a h ts => k)) (at level 200, a name, h name, ts name, r at level 100, k at level 200).
(** parser.c:22-27 consume *)
Definition consume_rpar (h : heap) (ts : list dtok) : res bool := match ts with DRpar :: ts => Done true h ts false | _ => Done false h ts true end.
Definition consume_rbr (h : heap) (ts : list dtok) : res bool := match ts with DRbr :: ts => Done true h ts false | _ => Done false h ts true end.
Definition consume_comma (h : heap) (ts : list dtok) : res bool := match ts with DComma :: ts => Done true h ts false | _ => Done false h ts true end.

(** parser_type.c:394-429 parse_pointer *)
Fixpoint parse_pointer (h : heap) (t : ty) (ts : list dtok) : res ty :=
  match ts with
  | DQual q :: ts => if Z.land (qual_of (load h t)) q =? 0 then parse_pointer h (qualified_type h t q) ts else report true (parse_pointer h t ts)
  | DStar :: ts => parse_pointer h (Ptr t 0) ts
  | _ => Done t h ts false
  end.
(** parser_type.c:433-496 parse_array_size, for a constant and for an identifier, taken to be a variable that is not const.
    parse_expr returns NULL for a bracket and crashes for an operator without operand (C120). *)
Definition parse_array_size (h : heap) (ts : list dtok) : res len :=
  match ts with
  | DSize n :: ts => if n <? 0 then Done (Fix 1) h ts true else Done (Fix n) h ts false
  | DName x :: DMore k :: ts => Done (Vla (VMore x k)) h ts false
  | DName x :: ts => Done (Vla (VVar x)) h ts false
  | _ => Crash
  end.
(** parser_type.c:516-523 *)
Fixpoint skip_static (ts : list dtok) : list dtok := match ts with DStatic :: ts | DQual _ :: ts => skip_static ts | _ => ts end.
(** parser_type.c:508-538: what is between the brackets, and the type of the elements.  [fp]: the names of parsing_funparams. *)
Definition restricts (ts : list dtok) : option (list dtok) := match ts with DQual q :: ts => if q =? TQ_RESTRICT then Some ts else None | _ => None end.
Definition as_rbr (ts : list dtok) : option (list dtok) := match ts with DRbr :: ts => Some ts | _ => None end.
Definition as_name (ts : list dtok) : option (nat * list dtok) := match ts with DName x :: ts => Some (x, ts) | _ => None end.
Definition brackets (fp : option (list (option nat))) (h : heap) (ts : list dtok) : res len :=
  match as_rbr ts with
  | Some ts => Done Und h ts false
  | None =>
    let ts := skip_static ts in
    let* l, h, ts :=
      match as_name ts with
      | Some (x, ts') => if match fp with Some l => bool_decide (Some x ∈ l) | None => false end then Done (Vla (VVar x)) h ts' false else parse_array_size h ts
      | None => parse_array_size h ts
      end in
    let* _, h, ts := consume_rbr h ts in Done l h ts false
  end.
(** parser_type.c:539-557: the type of the array. *)
Definition make_array (basetype subtype : ty) (n : len) (h : heap) : ty :=
  let n := match n, load h subtype with Fix n, Arr _ (Vla _) _ => Vla (VNum n) | Und, Arr _ (Vla _) _ => Vla (VNum (-1)) | n, _ => n end in
  match n with
  | Vla v => Arr subtype (Vla v) TQ_CONST
  | n => Arr subtype n (Z.land (qual_of (load h basetype)) TQ_CONST)
  end.
(** parser_type.c:645-662: what a parameter's type becomes. *)
Definition adjust (h : heap) (t : ty) : ty :=
  match load h t with Arr _ (Vla _) _ => t | Arr e _ _ => Ptr e 0 | Fun _ _ _ _ => Ptr t 0 | _ => t end.
Definition is_void (t : ty) : bool := match t with Base b _ => (b =? VOID)%nat | _ => false end.
Definition as_rpar (ts : list dtok) : option (list dtok) := match ts with DRpar :: ts => Some ts | _ => None end.
Definition as_lpar (ts : list dtok) : option (list dtok) := match ts with DLpar :: ts => Some ts | _ => None end.
Definition as_lbr (ts : list dtok) : option (list dtok) := match ts with DLbr :: ts => Some ts | _ => None end.
Definition as_dots (ts : list dtok) : option (list dtok) := match ts with DDots :: ts => Some ts | _ => None end.
Definition as_base (ts : list dtok) : option (nat * Z * list dtok) := match ts with DBase b q :: ts => Some (b, q, ts) | _ => None end.

(** parser_type.c:500-572 parse_direct_declarator_suffix *)
Fixpoint suffix (fuel : nat) (fp : option (list (option nat))) (h : heap) (t : ty) (ts : list dtok) {struct fuel} : res ty :=
  match fuel with
  | O => NoFuel
  | S fuel =>
    match as_lbr ts, as_lpar ts with
    | Some ts, _ =>
      let '(t, ts) := match restricts ts with Some ts => (qualified_type h t TQ_RESTRICT, ts) | None => (t, ts) end in
      let* n, h, ts := brackets fp h ts in let* sub, h, ts := suffix fuel fp h t ts in Done (make_array t sub n h) h ts false
    | None, Some ts => let* ps, h, ts := funparams fuel h ts in let* ret, h, ts := suffix fuel fp h t ts in Done (Fun ret (option_map (map snd) ps.1) ps.2 0) h ts false
    | None, None => Done t h ts false
    end
  end
(** parser_type.c:573-595 parse_direct_declarator *)
with direct (fuel : nat) (fp : option (list (option nat))) (h : heap) (t : ty) (ts : list dtok) {struct fuel} : res (ty * option nat) :=
  match fuel with
  | O => NoFuel
  | S fuel =>
    match as_lpar ts with
    | Some ts =>
      let k := length h in
      let* r, h, ts := declarator fuel fp (h ++ [load h t]) (Ref k) ts in
      let* _, h, ts := consume_rpar h ts in
      let* inner, h, ts := suffix fuel fp h t ts in
      Done r (<[k := load h inner]> h) ts false
    | None =>
      match as_name ts with
      | Some (x, ts) => let* t, h, ts := suffix fuel fp h t ts in Done (t, Some x) h ts false
      | None => let* t, h, ts := suffix fuel fp h t ts in Done (t, None) h ts false
      end
    end
  end
(** parser_type.c:597-601 parse_declarator *)
with declarator (fuel : nat) (fp : option (list (option nat))) (h : heap) (t : ty) (ts : list dtok) {struct fuel} : res (ty * option nat) :=
  match fuel with
  | O => NoFuel
  | S fuel => let* t, h, ts := parse_pointer h t ts in direct fuel fp h t ts
  end
(** parser_type.c:603-683 parse_funparams: names and types of the parameters, None for an empty list, and whether there may be more arguments. *)
with funparams (fuel : nat) (h : heap) (ts : list dtok) {struct fuel} : res (option (list (option nat * ty)) * bool) :=
  match fuel with
  | O => NoFuel
  | S fuel => match as_rpar ts with Some ts => Done (None, true) h ts false | None => more_params fuel [] h ts end
  end
with more_params (fuel : nat) (vars : list (option nat * ty)) (h : heap) (ts : list dtok) {struct fuel} : res (option (list (option nat * ty)) * bool) :=
  match fuel with
  | O => NoFuel
  | S fuel =>
    match as_dots ts, as_base ts with
    | Some ts, _ => let* _, h, ts := consume_rpar h ts in Done (Some vars, true) h ts false
    | None, Some (b, q, ts) =>
      let* p, h, ts := declarator fuel (Some (fst <$> vars)) h (Base b q) ts in
      let void := is_void (load h p.1) in
      if void && bool_decide (vars = []) then
        match p.2, as_rpar ts with None, Some ts => Done (Some [], false) h ts false | _, _ => Stop end
      else
        report void
          (let t := if void then Base 1 0 else adjust h p.1 in
           let dup := bool_decide (p.2 <> None /\ p.2 ∈ vars.*1) in
           let vars := if dup then vars else vars ++ [(p.2, t)] in
           report dup
             match as_rpar ts with
             | Some ts => Done (Some vars, false) h ts false
             | None => let* c, h, ts := consume_comma h ts in if c : bool then more_params fuel vars h ts else Done (Some vars, false) h ts false
             end)
    | None, None => Stop
    end
  end.
Definition fuel_for (ts : list dtok) : nat := (4 * length ts + 4)%nat.
(** parser_expr.c:112-126 parse_var_def, after the specifiers. *)
Definition parse_declarator (t : ty) (ts : list dtok) : res (ty * option nat) := declarator (fuel_for ts) None [] t ts.
(** parser.c:801-818 modify_funparam_vla_type: a parameter's type when the function is defined.  The lengths in it have to be single variables: [None], an assertion fails. *)
Fixpoint lengths_are_variables (t : ty) : bool :=
  match t with
  | Arr t (Vla v) _ => match v with VVar _ => lengths_are_variables t | _ => false end
  | Arr t _ _ | Ptr t _ => lengths_are_variables t
  | _ => true
  end.
Definition defun_param (t : ty) : option ty := if lengths_are_variables t then Some (match t with Arr e (Vla _) q => Ptr e q | t => t end) else None.
(** The type that a graph of types stands for: placeholders are what was copied into them. *)
Inductive resolves (h : heap) : ty -> ty -> Prop :=
| r_base b q : resolves h (Base b q) (Base b q)
| r_ptr t T q : resolves h t T -> resolves h (Ptr t q) (Ptr T q)
| r_arr t T n q : resolves h t T -> resolves h (Arr t n q) (Arr T n q)
| r_fun0 t T va q : resolves h t T -> resolves h (Fun t None va q) (Fun T None va q)
| r_fun t T l L va q : resolves h t T -> Forall2 (resolves h) l L -> resolves h (Fun t (Some l) va q) (Fun T (Some L) va q)
| r_ref k t T : h !! k = Some t -> resolves h t T -> resolves h (Ref k) T.
