(** C128, C129: the end of a function's body. *)
From stdpp Require Import base numbers list gmap.
From Verif Require Import Front.Funcend_model Front.Funcend_spec Front.Funcend_proof Front.Funcend_main_proof.

(** * C128: main returns 0 if it gets to its end *)
(** Not proved: with labels or cases in places that look unreachable, see below; with asm as the last statement. *)
Theorem C128_zero_partial f : is_main f = true -> rettype f <> ROther -> noreturn f = false -> last (body f) <> Some Asm -> NoDup (body f ≫= ids) -> in_sight (Block (body f)) = true ->
  (check_func f).2 = [] /\ ~ falls_off (body (check_func f).1) /\ forall v, returns (body (check_func f).1) v <-> returns (body f) v \/ (v = Some 0%Z /\ falls_off (body f)).
Proof. exact (main_ok f). Qed.
Print Assumptions C128_zero_partial.
(** [int main(...) { for (;;) { switch (x) { case 1: break; default: continue; } if (y) break; } }] *)
Definition loops : list stmt := [For 1 None (Block [Switch 2 true (Block [Case 2 (Break 2); Case 2 (Continue 1)]); If CAny (Break 1) None])].
Example C128_loops : falls_off loops /\ in_sight (Block loops) = true /\ NoDup (loops ≫= ids) /\ check_func (Func true RVoid false loops) = (Func true RInt false (loops ++ [Return (Some 0%Z)]), []).
Proof.
  split; [|split; [done|split; [repeat constructor; set_solver|vm_compute; reflexivity]]].
  unfold falls_off. do 4 (eapply rtc_l; [constructor; try done|]). do 2 (eapply rtc_l; [constructor|]).
  eapply rtc_l; [eapply (r_switch _ 2); cbn; by left|]. eapply rtc_l; [constructor|]. eapply rtc_l; [by constructor|]. do 2 (eapply rtc_l; [constructor|]). eapply rtc_l; [by constructor|]. eapply rtc_l; [by constructor|].
  do 2 (eapply rtc_l; [constructor|]). done.
Qed.
(** [while (1) { if (x) return 2; }] gets no return. *)
Example C128_forever : check_func (Func true RInt false [While 1 CTrue (If CAny (Return (Some 2%Z)) None)]) = (Func true RInt false [While 1 CTrue (If CAny (Return (Some 2%Z)) None)], []).
Proof. vm_compute. reflexivity. Qed.
(** [int main(...) { switch (x) { default: return 1; if (0) { case 1: g(); } } }] returns what is in the register. *)
Theorem C128_case_refuted : exists l, NoDup (l ≫= ids) /\ last l <> Some Asm /\ check_func (Func true RInt false l) = (Func true RInt false l, []) /\ falls_off l.
Proof. exists hidden_case. split; [exact hidden_ids|]. split; [exact hidden_last|]. split; [vm_compute; reflexivity|exact hidden_falls]. Qed.
(** [int main(...) { while (1) { goto out; { out: break; } } }] too. *)
Theorem C128_label_refuted : exists l, NoDup (l ≫= ids) /\ last l <> Some Asm /\ check_func (Func true RInt false l) = (Func true RInt false l, []) /\ falls_off l.
Proof.
  exists [While 1 CTrue (Block [Goto 1; Block [Label 1 (Break 1)]])]. split; [repeat constructor; set_solver|]. split; [done|]. split; [vm_compute; reflexivity|].
  unfold falls_off. do 5 (eapply rtc_l; [by constructor|]). eapply rtc_l; [by constructor|]. eapply rtc_l; [eapply r_goto; cbn; by left|]. eapply rtc_l; [constructor|]. eapply rtc_l; [by constructor|]. do 2 (eapply rtc_l; [constructor|]). done.
Qed.
Print Assumptions C128_case_refuted.
Print Assumptions C128_label_refuted.

(** * C129: a warning for every function that gets to its end and should not *)
(** Not proved: as in C128. *)
Theorem C129_value_partial f : is_main f = false -> rettype f <> RVoid -> noreturn f = false -> last (body f) <> Some Asm -> NoDup (body f ≫= ids) -> in_sight (Block (body f)) = true ->
  falls_off (body f) -> check_func f = (f, [ReturnRequired]).
Proof. exact (value_ok f). Qed.
Theorem C129_noreturn_partial f : is_main f = false -> noreturn f = true -> last (body f) <> Some Asm -> NoDup (body f ≫= ids) -> in_sight (Block (body f)) = true ->
  falls_off (body f) -> (check_func f).2 <> [].
Proof. exact (noreturn_ok f). Qed.
Theorem C129_case_refuted : exists l, NoDup (l ≫= ids) /\ last l <> Some Asm /\ falls_off l /\
  check_func (Func false RInt false l) = (Func false RInt false l, []) /\ check_func (Func false RVoid true l) = (Func false RVoid true l, []).
Proof. exists hidden_case. split; [exact hidden_ids|]. split; [exact hidden_last|]. split; [exact hidden_falls|]. split; vm_compute; reflexivity. Qed.
Print Assumptions C129_value_partial.
Print Assumptions C129_noreturn_partial.
Print Assumptions C129_case_refuted.
(** [int f(...) { do { if (x) return 1; else continue; } while (y); }] *)
Definition do_loop : list stmt := [DoWhile 1 (Block [If CAny (Return (Some 1%Z)) (Some (Continue 1))]) CAny].
Example C129_do : falls_off do_loop /\ check_func (Func false RInt false do_loop) = (Func false RInt false do_loop, [ReturnRequired]) /\ check_func (Func false RVoid true do_loop) = (Func false RVoid true do_loop, [ShouldNotReturn]).
Proof.
  split; [|split; vm_compute; reflexivity]. unfold falls_off. do 4 (eapply rtc_l; [by constructor|]). eapply rtc_l; [constructor|]. eapply rtc_l; [by apply r_if_false|]. eapply rtc_l; [by constructor|]. eapply rtc_l; [by apply r_test_false|].
  do 2 (eapply rtc_l; [constructor|]). done.
Qed.
(** [switch (x) { case 1: return 1; default: for (;;) ; }] gets no warning. *)
Example C129_stop : (check_func (Func false RInt false [Switch 1 true (Block [Case 1 (Return (Some 1%Z)); Case 1 (For 2 None Plain)])])).2 = [].
Proof. vm_compute. reflexivity. Qed.
