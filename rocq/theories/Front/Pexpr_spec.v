(** Expressions by the standard (C11 6.5): the grammar.  Shares only tokens and trees with the model. *)
From stdpp Require Import base list numbers.
From Verif Require Import Front.Pexpr_model.

(** The non-terminals of 6.5, loosest first. *)
Inductive nt :=
| expression | assignment | conditional | logical_or | logical_and | inclusive_or | exclusive_or | and_nt | equality | relational | shift
| additive | multiplicative | cast | unary | postfix | primary.

(** The left-recursive rules [n: m | n o m]: the operators and the operand. *)
Definition rule (n : nt) : list op * nt :=
  match n with
  | expression => ([Comma], assignment)
  | assignment => ([], conditional)
  | conditional => ([], logical_or)
  | logical_or => ([R Lor], logical_and)
  | logical_and => ([R Land], inclusive_or)
  | inclusive_or => ([B Or], exclusive_or)
  | exclusive_or => ([B Hat], and_nt)
  | and_nt => ([B And], equality)
  | equality => ([R Eq; R Ne], relational)
  | relational => ([R Lt; R Gt; R Le; R Ge], shift)
  | shift => ([B Shl; B Shr], additive)
  | additive => ([B Add; B Sub], multiplicative)
  | multiplicative => ([B Mul; B Div; B Mod], cast)
  | cast => ([], unary)
  | unary => ([], postfix)
  | postfix => ([], primary)
  | primary => ([], primary)
  end.
(** With [ext], also a few forms that the compiler takes in addition. *)
Inductive derives (ext : bool) : nt -> list tok -> ex -> Prop :=
| d_id n : derives ext primary [TId n] (Var n)
| d_lit n : derives ext primary [TLit n] (Lit n)
| d_paren ts e : derives ext expression ts e -> derives ext primary ([TLpar] ++ ts ++ [TRpar]) e
| d_index ts1 a ts2 b : derives ext postfix ts1 a -> derives ext expression ts2 b -> derives ext postfix (ts1 ++ [TLbr] ++ ts2 ++ [TRbr]) (Index a b)
| d_call0 ts f : derives ext postfix ts f -> derives ext postfix (ts ++ [TLpar; TRpar]) (Call f [])
| d_call ts f ts' l : derives ext postfix ts f -> arguments ext ts' l -> derives ext postfix (ts ++ [TLpar] ++ ts' ++ [TRpar]) (Call f l)
| d_dot ts e n : derives ext postfix ts e -> derives ext postfix (ts ++ [TDot; TId n]) (Mem false e n)
| d_arrow ts e n : derives ext postfix ts e -> derives ext postfix (ts ++ [TArrow; TId n]) (Mem true e n)
| d_post o ts e : o ∈ [Inc; Dec] -> derives ext postfix ts e -> derives ext postfix (ts ++ [TOp o]) (Post o e)
| d_complit t i : derives ext postfix [TLpar; TType t; TRpar; TBrace i] (Complit t i)
| d_pre o ts e : o ∈ [Inc; Dec] -> derives ext unary ts e -> derives ext unary ([TOp o] ++ ts) (Un o e)
| d_unary o ts e : o ∈ [B And; B Mul; B Add; B Sub; Tilda; Not] -> derives ext cast ts e -> derives ext unary ([TOp o] ++ ts) (Un o e)
| d_sizeof ts e : derives ext unary ts e -> derives ext unary ([TSizeof false] ++ ts) (SizeE false e)
| d_sizeof_type k t : derives ext unary [TSizeof k; TLpar; TType t; TRpar] (SizeT k t)
| d_cast t ts e : derives ext cast ts e -> derives ext cast ([TLpar; TType t; TRpar] ++ ts) (Cast t e)
| d_binary n o ts1 a ts2 b : o ∈ (rule n).1 -> derives ext n ts1 a -> derives ext (rule n).2 ts2 b -> derives ext n (ts1 ++ [TOp o] ++ ts2) (Bin o a b)
| d_conditional ts1 a ts2 b ts3 c : derives ext logical_or ts1 a -> derives ext expression ts2 b -> derives ext conditional ts3 c ->
    derives ext conditional (ts1 ++ [TQuestion] ++ ts2 ++ [TColon] ++ ts3) (Cond a b c)
| d_assign o ts1 a ts2 b : derives ext unary ts1 a -> derives ext assignment ts2 b -> derives ext assignment (ts1 ++ [TOp (Assign o)] ++ ts2) (Bin (Assign o) a b)
| d_up n ts e : derives ext (rule n).2 ts e -> derives ext n ts e
(** Extensions: the alignment of an expression; a postfix operator after sizeof with a type; a statement as expression. *)
| d_alignof ts e : ext = true -> derives ext unary ts e -> derives ext unary ([TSizeof true] ++ ts) (SizeE true e)
| d_size_postfix k t : ext = true -> derives ext postfix [TSizeof k; TLpar; TType t; TRpar] (SizeT k t)
| d_block i : ext = true -> derives ext primary [TLpar; TBrace i; TRpar] (Block i)
with arguments (ext : bool) : list tok -> list ex -> Prop :=
| a_one ts e : derives ext assignment ts e -> arguments ext ts [e]
| a_more ts e ts' l : derives ext assignment ts e -> arguments ext ts' l -> arguments ext (ts ++ [TOp Comma] ++ ts') (e :: l).

(** No compound literal is the operand of sizeof without being in parentheses. *)
Definition no_sizeof_literal (ts : list tok) : Prop :=
  forall pre k t i post, ts <> pre ++ [TSizeof k; TLpar; TType t; TRpar; TBrace i] ++ post.

(** What is assigned to, incremented and decremented is a name, an element, a member or an object that a pointer points to. *)
Definition lvalue (e : ex) : bool :=
  match e with Var _ | Un (B Mul) _ | Index _ _ | Mem _ _ _ => true | _ => false end.
Fixpoint lvalues (e : ex) : bool :=
  match e with
  | Var _ | Lit _ | SizeT _ _ | Complit _ _ | Block _ => true
  | Un o e => match o with Inc | Dec => lvalue e | _ => true end && lvalues e
  | Bin o a b => match o with Assign _ => lvalue a | _ => true end && lvalues a && lvalues b
  | Cond a b c => lvalues a && lvalues b && lvalues c
  | Post o e => lvalue e && lvalues e
  | Mem _ e _ | Cast _ e | SizeE _ e => lvalues e
  | Index a b => lvalues a && lvalues b
  | Call f l => lvalues f && forallb lvalues l
  end.
