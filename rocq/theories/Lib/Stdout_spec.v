(** What a client of an output stream may expect. *)
From stdpp Require Import base list numbers.
From Verif Require Import Lib.Stdout_model.
Local Open Scope Z_scope.

(** All data offered. *)
Fixpoint offered (ops : list op) : list Z :=
  match ops with
  | [] => []
  | Write d :: ops => d ++ offered ops
  | Flush :: ops => offered ops
  end.

(** The data the results say was accepted. *)
Fixpoint accepted (ops : list op) (rs : list Z) : list Z :=
  match ops, rs with
  | Write d :: ops, r :: rs => take (Z.to_nat r) d ++ accepted ops rs
  | Flush :: ops, _ :: rs => accepted ops rs
  | _, _ => []
  end.

(** [t] is made of what each write took: the [r] bytes it reports, or, if it
    reports fewer than offered, possibly one more. *)
Inductive taken : list op -> list Z -> list Z -> Prop :=
| taken_nil : taken [] [] []
| taken_write d r k ops rs t : 0 <= r -> (k = Z.to_nat r \/ k = S (Z.to_nat r) /\ r < Z.of_nat (length d)) ->
    taken ops rs t -> taken (Write d :: ops) (r :: rs) (take k d ++ t)
| taken_flush r ops rs t : taken ops rs t -> taken (Flush :: ops) (r :: rs) t.

Definition no_short (es : list wevent) : Prop := Forall (fun e => match e with WShort _ => False | _ => True end) es.
Definition all_full (es : list wevent) : Prop := Forall (fun e => e = WFull) es.
Definition results_full (ops : list op) : list Z :=
  map (fun o => match o with Write d => Z.of_nat (length d) | Flush => 0 end) ops.
