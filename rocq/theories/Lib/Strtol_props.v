(** C45 and C58: the strtol family. *)
From stdpp Require Import base list numbers.
From Verif Require Import Lib.Cmem Lib.Strtol_model Lib.Strtol_spec Lib.Strtol_proof.
Local Open Scope Z_scope.

(** [strtol]/[strtoll]: white space, an optional sign, digits, then a
    non-digit: the clamped value and a pointer to the non-digit. *)
Theorem C45_strtol_value : forall base ws s ds rest,
  2 <= base <= 36 -> Forall is_space ws -> Forall (is_digit base) ds -> ds <> [] -> no_digit base rest ->
  Forall (fun b => 0 <= b < 256) (ws ++ sign_text s ++ ds ++ rest) ->
  strtol (ws ++ sign_text s ++ ds ++ rest) base =
    Some (clamp (-2^63) (2^63 - 1) (signed s (num base ds)), rest).
Proof. exact strtol_ok. Qed.
Print Assumptions C45_strtol_value.

(** No digits: 0 and the original pointer. *)
Theorem C45_strtol_no_digits : forall base ws s rest,
  2 <= base <= 36 -> Forall is_space ws -> no_digit base rest ->
  Forall (fun b => 0 <= b < 256) (ws ++ sign_text s ++ rest) ->
  (match rest with [] => True | c :: _ => ~ is_space c /\ (s = SNone -> c <> 43 /\ c <> 45) end) ->
  strtol (ws ++ sign_text s ++ rest) base = Some (0, ws ++ sign_text s ++ rest).
Proof. exact strtol_none. Qed.
Print Assumptions C45_strtol_no_digits.

Theorem C45_strtoull_value : forall base ws s ds rest,
  2 <= base <= 36 -> Forall is_space ws -> Forall (is_digit base) ds -> ds <> [] -> no_digit base rest ->
  s <> SMinus -> Forall (fun b => 0 <= b < 256) (ws ++ sign_text s ++ ds ++ rest) ->
  strtoull (ws ++ sign_text s ++ ds ++ rest) base = Some (clamp 0 (2^64 - 1) (num base ds), rest).
Proof. exact strtoull_ok. Qed.
Print Assumptions C45_strtoull_value.

Theorem C45_strtoul_value : forall base s ds rest,
  2 <= base <= 36 -> Forall (is_digit base) ds -> ds <> [] -> no_digit base rest ->
  s <> SMinus -> Forall (fun b => 0 <= b < 256) (sign_text s ++ ds ++ rest) ->
  strtoul (sign_text s ++ ds ++ rest) base = Some (clamp 0 (2^64 - 1) (num base ds), rest).
Proof. exact strtoul_ok. Qed.
Print Assumptions C45_strtoul_value.

Theorem C45_atoi_value : forall ws s ds rest,
  Forall is_space ws -> Forall (is_digit 10) ds -> ds <> [] -> no_digit 10 rest ->
  Forall (fun b => 0 <= b < 256) (ws ++ sign_text s ++ ds ++ rest) -> num 10 ds < 2^31 ->
  atoi (ws ++ sign_text s ++ ds ++ rest) = Some (signed s (num 10 ds)).
Proof. exact atoi_ok. Qed.
Print Assumptions C45_atoi_value.

(** " -zZ9!" in base 36, an overflowing literal, and "+7fg" in base 16. *)
Example C45_example :
  strtol [32;45;122;90;57;33] 36 = Some (- (35 * 36 * 36 + 35 * 36 + 9), [33]) /\
  strtol [57;57;57;57;57;57;57;57;57;57;57;57;57;57;57;57;57;57;57;57;57;46] 10 = Some (2^63 - 1, [46]) /\
  strtoull [9;43;55;102;103] 16 = Some (127, [103]) /\
  strtol [45;57;50;50;51;51;55;50;48;51;54;56;53;52;55;55;53;56;48;56] 10 = Some (-2^63, []).
Proof. vm_compute. repeat split. Qed.

(** C58: C also asks for base 0, a 0x prefix with base 16, leading white space
    in [strtoul] and a minus sign in the unsigned functions. *)
Theorem C58_hex_prefix_refuted : strtol [48;120;49;48] 16 <> Some (16, []).
Proof. rewrite hex_prefix_wrong. discriminate. Qed.
Print Assumptions C58_hex_prefix_refuted.

(** Base 0 divides by zero. *)
Theorem C58_base_zero_refuted : strtol [49;48] 0 = None.
Proof. exact base0_undefined. Qed.
Print Assumptions C58_base_zero_refuted.

Theorem C58_strtoul_space_refuted : strtoul [32;49] 10 <> Some (1, []).
Proof. rewrite strtoul_space_wrong. discriminate. Qed.
Print Assumptions C58_strtoul_space_refuted.

Theorem C58_strtoull_minus_refuted : strtoull [45;49] 10 <> Some (2^64 - 1, []).
Proof. rewrite strtoull_minus_wrong. discriminate. Qed.
Print Assumptions C58_strtoull_minus_refuted.
