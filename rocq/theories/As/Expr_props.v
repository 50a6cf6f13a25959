(** C36. *)
From stdpp Require Import base list numbers.
From Verif Require Import As.Expr_model As.Expr_spec As.Expr_proof.
Open Scope Z_scope.

(** Every expression is accepted as it is written, up to its end, unless a number does not fit
    64 bits on the way. *)
Theorem C36_accepts : forall s rest, ends rest ->
  parse_expr (print s ++ rest) = Undef \/ exists e, parse_expr (print s ++ rest) = Ok (e, rest).
Proof. exact parse_accepts. Qed.
Print Assumptions C36_accepts.

(** The parser ends on all input. *)
Theorem C36_ends : forall ts, parse_expr ts <> NoFuel.
Proof. exact parse_ends. Qed.
Print Assumptions C36_ends.

(** What is missing: a division of two constants, a subtraction of two constants, and a
    subtraction of a label from more than a label are wrong. *)
Theorem C36_value_partial : forall A table, table_ok A table ->
  forall s rest r, ends rest -> clean s -> parse_expr (print s ++ rest) = Ok r ->
  exists e, r = (e, rest) /\ forall v, calc table e = Ok v -> meaning A v = value A s.
Proof. exact parse_expr_ok. Qed.
Print Assumptions C36_value_partial.

Definition num (z : Z) : term := Term (Un [] (inr z)) [].
Definition lab (n : nat) : term := Term (Un [] (inl n)) [].
(** [10 - 3] is 13. *)
Theorem C36_sub_refuted : exists s e v A table, table_ok A table /\
  parse_expr (print s) = Ok (e, []) /\ calc table e = Ok v /\ value A s = 7 /\ meaning A v = 13.
Proof. exists (Sum (num 10) [(true, num 3)]), (EFix 13), (Val None 13), (fun _ => 0), (fun _ => None). done. Qed.
Print Assumptions C36_sub_refuted.
(** [10 / 2] is 12. *)
Theorem C36_div_refuted : exists s e v A table, table_ok A table /\
  parse_expr (print s) = Ok (e, []) /\ calc table e = Ok v /\ value A s = 5 /\ meaning A v = 12.
Proof. exists (Sum (Term (Un [] (inr 10)) [(true, Un [] (inr 2))]) []), (EFix 12), (Val None 12), (fun _ => 0), (fun _ => None). done. Qed.
Print Assumptions C36_div_refuted.
(** [b + 4 - a] is the same as [b - a]. *)
Theorem C36_label_refuted : exists s e v A table, table_ok A table /\
  parse_expr (print s) = Ok (e, []) /\ calc table e = Ok v /\ value A s = 14 /\ meaning A v = 10.
Proof.
  exists (Sum (lab 1) [(false, num 4); (true, lab 0)]). eexists _, _.
  exists (fun n => Z.of_nat n * 10), (fun n => if (n <? 2)%nat then Some (Z.of_nat n * 10) else None).
  split; [|split; [by vm_compute|split; [by vm_compute|done]]].
  intros n a H. destruct (n <? 2)%nat eqn:E; [|done]. injection H as <-. apply Nat.ltb_lt in E. lia.
Qed.
Print Assumptions C36_label_refuted.

(** [b - a + 2 * -3] with a at 16 and b at 40 is 18. *)
Definition ex : sum := Sum (lab 1) [(true, lab 0); (false, Term (Un [] (inr 2)) [(false, Un [true] (inr 3))])].
Definition ex_A (n : nat) : Z := if (n =? 0)%nat then 16 else 40.
Example ex_value : clean ex /\ print ex = [TLabel 1; TSub; TLabel 0; TAdd; TFix 2; TMul; TSub; TFix 3] /\
  exists e, parse_expr (print ex) = Ok (e, []) /\ calc (fun n => Some (ex_A n)) e = Ok (Val None 18) /\ value ex_A ex = 18.
Proof.
  split; [|split; [done|]].
  - split; [|split].
    + intros pre u post H. by destruct pre.
    + intros p Hp. cbn in Hp. apply elem_of_cons in Hp as [->|Hp]; [intros pre u post H; by destruct pre|].
      apply elem_of_list_singleton in Hp as ->. intros pre u post H. destruct pre as [|? [|]]; done.
    + intros pre t post H. destruct pre as [|? [|? []]]; cbn in H; try done. injection H as <- <-. done.
  - eexists. split; [by vm_compute|]. by vm_compute.
Qed.
