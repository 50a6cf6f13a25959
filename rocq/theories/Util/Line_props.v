(** Property theorem C12: line continuation. *)
From stdpp Require Import base list numbers.
From Verif Require Import Util.Line_model Util.Line_spec Util.Line_proof.
Local Open Scope Z_scope.

(** C12, line numbers: for every stream, getline_cont terminates and the
    counter advances by exactly the number of physical lines consumed. *)
Theorem C12_line_counter : forall s n, exists res, getline_cont s n = Some res /\
  match res with
  | None => s = []
  | Some (l, r, n') => (n' + length (physical_lines r) = n + length (physical_lines s))%nat /\
                       (n < n')%nat
  end.
Proof. exact line_counter. Qed.
Print Assumptions C12_line_counter.

(** C12, text: if no physical line ends in two backslashes, reading the whole
    stream gives exactly the logical lines of C's translation phase 2, each with
    its line number.  Missing: lines ending in two backslashes (below). *)
Theorem C12_logical_lines_partial : forall s n,
  Forall no_double_backslash (physical_lines s) ->
  read_all (S (length s)) s n = Some (logical_lines s n).
Proof. exact read_all_logical. Qed.
Print Assumptions C12_logical_lines_partial.

(* "ab\" nl "c\" crlf "d" nl nl "e" *)
Example C12_example :
  let s := [97;98;92;10;99;92;13;10;100;10;10;101] in
  forallb (fun l => match unsplice l with Some l' => bool_decide (unsplice l' = None) | None => true end)
    (physical_lines s) = true /\
  read_all (S (length s)) s 0 = Some [([97;98;99;100], 3%nat); ([], 4%nat); ([101], 5%nat)].
Proof. vm_compute. auto. Qed.

(** A spliced line that then ends in a backslash is spliced once more: two
    backslashes, an empty line and "x" are read as one line. *)
Theorem C12_double_splice_refuted : exists s,
  read_all (S (length s)) s 0 = Some [([120], 3%nat)] /\
  logical_lines s 0 = [([92], 2%nat); ([120], 3%nat)].
Proof. exact double_splice_refuted. Qed.
Print Assumptions C12_double_splice_refuted.
