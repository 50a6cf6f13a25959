(** How statements are executed (C11 6.8), as far as it matters for where control gets: a condition that is no constant may go either way,
    and a switch may go to any of its cases. *)
From stdpp Require Import base numbers list gmap.
From Verif Require Import Front.Funcend_model.
Global Instance cond_eq : EqDecision cond. Proof. solve_decision. Defined.

(** What is left to do after a statement. *)
Inductive cont :=
| Kstop (* the end of the function's body *)
| Kseq (l : list stmt) (k : cont)
| Kloop (i : nat) (c : cond) (s : stmt) (k : cont) (* the condition, then again *)
| Kswitch (i : nat) (k : cont).
Inductive conf := Run (s : stmt) (k : cont) | Items (l : list stmt) (k : cont) | Test (i : nat) (c : cond) (s : stmt) (k : cont) | Fall (k : cont) | Returned (v : option Z).
Definition may (b : bool) (c : cond) : bool := match c with CTrue => b | CFalse => negb b | CAny => true end.
Definition for_cond (c : option cond) : cond := match c with Some c => c | None => CTrue end.
(** Where break and continue go. *)
Fixpoint after_break (i : nat) (k : cont) : option cont :=
  match k with
  | Kstop => None
  | Kseq _ k => after_break i k
  | Kloop j _ _ k | Kswitch j k => if decide (i = j) then Some k else after_break i k
  end.
Fixpoint after_continue (i : nat) (k : cont) : option conf :=
  match k with
  | Kstop => None
  | Kseq _ k | Kswitch _ k => after_continue i k
  | Kloop j c s k => if decide (i = j) then Some (Test j c s k) else after_continue i k
  end.
(** The statements in [s] that have a label chosen by [p], and what is left to do after them. *)
Fixpoint entries (p : stmt -> bool) (s : stmt) (k : cont) : list (stmt * cont) :=
  (if p s then [(s, k)] else []) ++
  match s with
  | Block l => (fix go l := match l with [] => [] | s :: l => entries p s (Kseq l k) ++ go l end) l
  | If _ s t => entries p s k ++ match t with Some t => entries p t k | None => [] end
  | Switch i _ s => entries p s (Kswitch i k)
  | While i c s | DoWhile i s c => entries p s (Kloop i c s k)
  | For i c s => entries p s (Kloop i (for_cond c) s k)
  | Label _ s | Case _ s => entries p s k
  | _ => []
  end.
Definition is_label (x : nat) (s : stmt) : bool := match s with Label y _ => bool_decide (x = y) | _ => false end.
Definition is_case (i : nat) (s : stmt) : bool := match s with Case j _ => bool_decide (i = j) | _ => false end.
Section steps.
  Context (body : stmt).
  Inductive step : conf -> conf -> Prop :=
  | r_plain k : step (Run Plain k) (Fall k)
  | r_asm k : step (Run Asm k) (Fall k)
  | r_return v k : step (Run (Return v) k) (Returned v)
  | r_block l k : step (Run (Block l) k) (Items l k)
  | r_if_true c s t k : may true c = true -> step (Run (If c s t) k) (Run s k)
  | r_if_false c s t k : may false c = true -> step (Run (If c s (Some t)) k) (Run t k)
  | r_if_none c s k : may false c = true -> step (Run (If c s None) k) (Fall k)
  | r_switch i d s k s' k' : (s', k') ∈ entries (is_case i) s (Kswitch i k) -> step (Run (Switch i d s) k) (Run s' k')
  | r_switch_none i s k : step (Run (Switch i false s) k) (Fall k)
  | r_while i c s k : step (Run (While i c s) k) (Test i c s k)
  | r_do i s c k : step (Run (DoWhile i s c) k) (Run s (Kloop i c s k))
  | r_for i c s k : step (Run (For i c s) k) (Test i (for_cond c) s k)
  | r_test_true i c s k : may true c = true -> step (Test i c s k) (Run s (Kloop i c s k))
  | r_test_false i c s k : may false c = true -> step (Test i c s k) (Fall k)
  | r_break i k k' : after_break i k = Some k' -> step (Run (Break i) k) (Fall k')
  | r_continue i k t : after_continue i k = Some t -> step (Run (Continue i) k) t
  | r_goto x k s' k' : (s', k') ∈ entries (is_label x) body Kstop -> step (Run (Goto x) k) (Run s' k')
  | r_label x s k : step (Run (Label x s) k) (Run s k)
  | r_case i s k : step (Run (Case i s) k) (Run s k)
  | r_items_nil k : step (Items [] k) (Fall k)
  | r_items s l k : step (Items (s :: l) k) (Run s (Kseq l k))
  | r_seq l k : step (Fall (Kseq l k)) (Items l k)
  | r_loop i c s k : step (Fall (Kloop i c s k)) (Test i c s k)
  | r_end_switch i k : step (Fall (Kswitch i k)) (Fall k).
End steps.
(** The function gets to its closing brace, or returns [v]. *)
Definition falls_off (l : list stmt) : Prop := rtc (step (Block l)) (Run (Block l) Kstop) (Fall Kstop).
Definition returns (l : list stmt) (v : option Z) : Prop := rtc (step (Block l)) (Run (Block l) Kstop) (Returned v).

(** The rule by which a statement is not passed: whether it is so, and the loops and switches that a break in it leaves, where statements after one that
    is not passed count only from the next label on. *)
Fixpoint flow (s : stmt) : bool * list nat :=
  match s with
  | Plain | Asm => (false, [])
  | Noreturn | Return _ | Continue _ | Goto _ => (true, [])
  | Break i => (true, [i])
  | Block l =>
    (fix go (r : bool) (l : list stmt) : bool * list nat :=
       match l with
       | [] => (r, [])
       | s :: l => if r && negb (labelled s) then go r l else let (r1, b1) := flow s in let (r2, b2) := go r1 l in (r2, b1 ++ b2)
       end) false l
  | If c s t =>
    let (r1, b1) := flow s in let (r2, b2) := match t with Some t => flow t | None => (false, []) end in
    (match c with CTrue => r1 | CFalse => r2 | CAny => r1 && r2 end, b1 ++ b2)
  | Switch i d s => let (r, b) := flow s in (d && r && bool_decide (i ∉ b), b)
  | While i CFalse _ | For i (Some CFalse) _ => (false, [])
  | While i c s | DoWhile i s c => let (_, b) := flow s in (bool_decide (c = CTrue) && bool_decide (i ∉ b), b)
  | For i c s => let (_, b) := flow s in (bool_decide (for_cond c = CTrue) && bool_decide (i ∉ b), b)
  | Label _ s | Case _ s => flow s
  end.
(** No label, and no case of a switch other than [own], is in the statement. *)
Fixpoint closed (own : list nat) (s : stmt) : bool :=
  match s with
  | Block l => forallb (closed own) l
  | If _ s t => closed own s && match t with Some t => closed own t | None => true end
  | Switch i _ s => closed (i :: own) s
  | While _ _ s | DoWhile _ s _ | For _ _ s => closed own s
  | Label _ _ => false
  | Case i s => bool_decide (i ∈ own) && closed own s
  | _ => true
  end.
(** Labels and cases are in sight: there is none within a statement that is unreachable by the rule, or in the branch that a constant condition does not take. *)
Fixpoint in_sight (s : stmt) : bool :=
  match s with
  | Block l =>
    (fix go (r : bool) (l : list stmt) : bool :=
       match l with
       | [] => true
       | s :: l => if r && negb (labelled s) then closed [] s && go r l else in_sight s && go (flow s).1 l
       end) false l
  | If c s t =>
    (if falsy c then closed [] s else in_sight s) && match t with Some t => if truthy c then closed [] t else in_sight t | None => true end
  | While _ CFalse s | For _ (Some CFalse) s => closed [] s
  | Switch _ _ s | While _ _ s | DoWhile _ s _ | For _ _ s => in_sight s
  | Label _ s | Case _ s => in_sight s
  | _ => true
  end.
(** The numbers of loops and switches. *)
Fixpoint ids (s : stmt) : list nat :=
  match s with
  | Block l => l ≫= ids
  | If _ s t => ids s ++ match t with Some t => ids t | None => [] end
  | Switch i _ s | While i _ s | DoWhile i s _ | For i _ s => i :: ids s
  | Label _ s | Case _ s => ids s
  | _ => []
  end.
