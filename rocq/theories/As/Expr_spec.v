(** Expressions as one writes them, with the usual precedence, and their values. *)
From stdpp Require Import base list numbers.
From Verif Require Import As.Expr_model.
Open Scope Z_scope.

(** A number or label after signs ([true]: minus), a product of such, and a sum of products.
    The operators of products and sums: [true] for [/] and [-]. *)
Record un := Un { signs : list bool; atom : nat + Z }.
Record term := Term { first : un; factors : list (bool * un) }.
Record sum := Sum { start : term; terms : list (bool * term) }.

Definition print_un (u : un) : list token :=
  ((fun m : bool => if m then TSub else TAdd) <$> signs u) ++ [match atom u with inl n => TLabel n | inr z => TFix z end].
Definition print_term (t : term) : list token :=
  print_un (first t) ++ (factors t ≫= fun p : bool * un => (if p.1 then TDiv else TMul) :: print_un p.2).
Definition print (s : sum) : list token :=
  print_term (start s) ++ (terms s ≫= fun p : bool * term => (if p.1 then TSub else TAdd) :: print_term p.2).
(** What follows is not part of the expression. *)
Definition ends (ts : list token) : Prop := mul_token ts = None /\ add_token ts = None.

Section value.
  Context (A : nat -> Z).
  Definition value_un (u : un) : Z :=
    foldr (fun (m : bool) z => if m then - z else z) (match atom u with inl n => A n | inr z => z end) (signs u).
  (** Division truncates. *)
  Definition value_term (t : term) : Z :=
    foldl (fun z (p : bool * un) => if p.1 then Z.quot z (value_un p.2) else z * value_un p.2) (value_un (first t)) (factors t).
  Definition value (s : sum) : Z :=
    foldl (fun z (p : bool * term) => if p.1 then z - value_term p.2 else z + value_term p.2) (value_term (start s)) (terms s).
  (** The value that an outcome stands for. *)
  Definition meaning (v : val) : Z := match vlabel v with Some n => A n | None => 0 end + voffset v.
End value.

(** No labels. *)
Definition const_un (u : un) : bool := match atom u with inl _ => false | inr _ => true end.
Definition const_term (t : term) : bool := const_un (first t) && forallb (fun p => const_un p.2) (factors t).
(** No constant is divided by a constant. *)
Definition no_div (t : term) : Prop :=
  forall pre u post, factors t = pre ++ (true, u) :: post -> const_term (Term (first t) pre) && const_un u = false.
(** No constant is subtracted from a constant, and a label only from a term that is the whole
    left-hand side. *)
Definition no_sub (s : sum) : Prop :=
  forall pre t post, terms s = pre ++ (true, t) :: post ->
  if const_term t then const_term (start s) && forallb (fun p => const_term p.2) pre = false else pre = [].
Definition clean (s : sum) : Prop :=
  no_div (start s) /\ (forall p, p ∈ terms s -> no_div p.2) /\ no_sub s.
(** The addresses in the table of labels are right. *)
Definition table_ok (A : nat -> Z) (table : nat -> option Z) : Prop :=
  forall n a, table n = Some a -> a = A n /\ 0 <= a < 2 ^ 63.
