(** C49, C50 and C59: vfprintf. *)
From stdpp Require Import base list numbers.
From Verif Require Import Lib.Printf_model Lib.Printf_spec Lib.Printf_proof Lib.Printf_text_proof.
Local Open Scope Z_scope.

(** C49.  Whatever the format and the arguments, including floating-point
    ones: if the call is defined, the result is the number of bytes sent.
    Missing: negative widths given by [*] (refuted below). *)
Theorem C49_returns_count_partial : forall fmt args o n,
  no_star fmt \/ Forall arg_nonneg args ->
  vfprintf fmt args = Some (o, n) -> n = Z.of_nat (length o).
Proof. exact returns_count. Qed.
Print Assumptions C49_returns_count_partial.

(** printf("%*x", -5, 1) prints one byte and returns -5. *)
Theorem C49_negative_width_refuted : exists fmt args o n,
  vfprintf fmt args = Some (o, n) /\ n <> Z.of_nat (length o).
Proof. exact negative_width. Qed.
Print Assumptions C49_negative_width_refuted.

(** "<%-4d|%05ld|%q%%>" and a "%8.2f" of a number whose parts are 3 and 14. *)
Example C49_example :
  vfprintf [60;37;45;52;100;124;37;48;53;108;100;124;37;113;37;37;62] [AInt 7; AInt (-12)] =
    Some ([60;55;32;32;32;124;45;48;48;49;50;124;37;113;37;62], 16) /\
  vfprintf [37;56;46;50;102] [AFlo (Flo true false true (fun _ => (3, 14)) 0 (fun _ => (3, 14)))] =
    Some ([45;32;32;32;32;32;32;51;46;49;52], 11).
Proof. vm_compute. split; reflexivity. Qed.

(** C50.  [l] ranges over no modifier, l, ll and z; [raw] over all values. *)
Theorem C50_signed_decimal : forall l raw, exists t,
  numeral false 10 (Z.abs (as_signed l raw)) t /\
  let o := (if as_signed l raw <? 0 then [45] else []) ++ t in
  vfprintf (format_text [Conv (Item FNone false [] None l Cd)]) [AInt raw] = Some (o, Z.of_nat (length o)).
Proof. exact print_int. Qed.
Print Assumptions C50_signed_decimal.

Theorem C50_unsigned_decimal : forall l raw, exists t,
  numeral false 10 (as_unsigned l raw) t /\
  vfprintf (format_text [Conv (Item FNone false [] None l Cu)]) [AInt raw] = Some (t, Z.of_nat (length t)).
Proof. exact print_unsigned. Qed.
Print Assumptions C50_unsigned_decimal.

Theorem C50_hexadecimal : forall up l raw, exists t,
  numeral up 16 (as_unsigned l raw) t /\
  vfprintf (format_text [Conv (Item FNone false [] None l (Cx up))]) [AInt raw] = Some (t, Z.of_nat (length t)).
Proof. exact print_hex. Qed.
Print Assumptions C50_hexadecimal.

(** "%lld" of LLONG_MIN, "%u" of -1 and "%lX" of 2^64-17. *)
Example C50_example :
  vfprintf [37;108;108;100] [AInt (-2^63)] =
    Some ([45;57;50;50;51;51;55;50;48;51;54;56;53;52;55;55;53;56;48;56], 20) /\
  vfprintf [37;117] [AInt (-1)] = Some ([52;50;57;52;57;54;55;50;57;53], 10) /\
  vfprintf [37;108;88] [AInt (2^64 - 17)] =
    Some ([70;70;70;70;70;70;70;70;70;70;70;70;70;70;69;70], 16).
Proof. vm_compute. repeat split. Qed.

(** C59.  For every format built from text, %% and supported conversions, and
    every suitable argument list, the output is the one C prescribes.  Missing:
    the conversions excluded by [supported] (refuted below), [%p] (its text is
    implementation-defined), [*] widths, floating point. *)
Theorem C59_output_as_prescribed_partial : forall ps args,
  Forall piece_wf ps -> all_supported ps args ->
  exists o, output ps args o /\ vfprintf (format_text ps) args = Some (o, Z.of_nat (length o)).
Proof. exact printf_text. Qed.
Print Assumptions C59_output_as_prescribed_partial.

(** The prescribed output is unique. *)
Theorem C59_output_unique : forall ps args o o', output ps args o -> output ps args o' -> o = o'.
Proof. exact output_unique. Qed.
Print Assumptions C59_output_unique.

(** "%5d" of -42 gives "-  42". *)
Theorem C59_space_before_sign_refuted : wrong [Conv (Item FNone false [5] None LNone Cd)] [AInt (-42)].
Proof. exact space_before_sign. Qed.
Print Assumptions C59_space_before_sign_refuted.
(** "%.3d" of 5 gives "5". *)
Theorem C59_number_precision_refuted : wrong [Conv (Item FNone false [] (Some [3]) LNone Cd)] [AInt 5].
Proof. exact number_precision. Qed.
Print Assumptions C59_number_precision_refuted.
(** "%.1u" of 42 gives "4". *)
Theorem C59_number_truncated_refuted : wrong [Conv (Item FNone false [] (Some [1]) LNone Cu)] [AInt 42].
Proof. exact number_truncated. Qed.
Print Assumptions C59_number_truncated_refuted.
(** "%-4x" of 255 gives "  ff". *)
Theorem C59_left_hex_refuted : wrong [Conv (Item FMinus false [4] None LNone (Cx false))] [AInt 255].
Proof. exact left_hex. Qed.
Print Assumptions C59_left_hex_refuted.
(** "%-04d" of 42 gives "4200". *)
Theorem C59_left_zero_refuted : wrong [Conv (Item FMinus true [4] None LNone Cd)] [AInt 42].
Proof. exact left_zero. Qed.
Print Assumptions C59_left_zero_refuted.
(** "%+u" of 7 gives "+7". *)
Theorem C59_plus_unsigned_refuted : wrong [Conv (Item FPlus false [] None LNone Cu)] [AInt 7].
Proof. exact plus_unsigned. Qed.
Print Assumptions C59_plus_unsigned_refuted.
(** "%.0s" prints the whole string. *)
Theorem C59_empty_precision_refuted :
  wrong [Conv (Item FNone false [] (Some [0]) LNone Cs)] [AStr (Some [104;105])].
Proof. exact empty_precision. Qed.
Print Assumptions C59_empty_precision_refuted.
(** "%3c" prints one character. *)
Theorem C59_char_width_refuted : wrong [Conv (Item FNone false [3] None LNone Cc)] [AInt 65].
Proof. exact char_width. Qed.
Print Assumptions C59_char_width_refuted.
(** "100%": a format ending in a lone % makes the loop read behind the NUL. *)
Theorem C59_lone_percent_refuted : forall args, vfprintf [49;48;48;37] args = None.
Proof. exact lone_percent. Qed.
Print Assumptions C59_lone_percent_refuted.

(** "id=%-6s|%04X%%" with "ab" and 0xbeef. *)
Example C59_example :
  let ps := [Lit 105; Lit 100; Lit 61; Conv (Item FMinus false [6] None LNone Cs); Lit 124;
             Conv (Item FNone true [8] None LNone (Cx true)); Percent] in
  all_supported ps [AStr (Some [97;98]); AInt 48879] /\
  vfprintf (format_text ps) [AStr (Some [97;98]); AInt 48879] =
    Some ([105;100;61;97;98;32;32;32;32;124;48;48;48;48;66;69;69;70;37], 19).
Proof. split; [vm_compute; repeat split; discriminate|vm_compute; reflexivity]. Qed.
