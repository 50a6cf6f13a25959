(** Property theorems C46, C47, C48: <string.h>. *)
From stdpp Require Import base list numbers gmap.
From Coq Require Import ZArith Lia.
From Verif Require Import Lib.Cmem Lib.String_model Lib.String_spec Lib.String_proof Lib.Strcopy_proof.
Local Open Scope Z_scope.

(** C46: whatever the overlap, memmove stores the old bytes of the source at the
    destination and changes nothing else. *)
Theorem C46_memmove_any_overlap : forall l m d s,
  bytes_at m s l -> accessible m d (length l) ->
  exists m', memmove m d s (length l) = Some m' /\ stored m d l m'.
Proof. exact memmove_ok. Qed.
Print Assumptions C46_memmove_any_overlap.

(** memcpy does so when the regions do not overlap. *)
Theorem C46_memcpy_disjoint : forall l m d s,
  bytes_at m s l -> accessible m d (length l) ->
  (d <= s \/ s + Z.of_nat (length l) <= d) ->
  exists m', memcpy m d s (length l) = Some m' /\ stored m d l m'.
Proof. exact memcpy_up. Qed.
Print Assumptions C46_memcpy_disjoint.

Theorem C46_memset : forall n m p v, accessible m p n ->
  exists m', memset m p v n = Some m' /\ stored m p (replicate n (v mod 256)) m'.
Proof. exact memset_ok. Qed.
Print Assumptions C46_memset.

(* Overlap by three bytes, destination above the source. *)
Example C46_example :
  let show m := map (fun a => default (-1) (m !! a)) [100;101;102;103;104;105] in
  show <$> memmove (mem_of 100 [1;2;3;4;5;6]) 102 100 4 = Some [1;2;1;2;3;4] /\
  show <$> memmove (mem_of 100 [1;2;3;4;5;6]) 100 102 4 = Some [3;4;5;6;5;6].
Proof. split; vm_compute; reflexivity. Qed.

(** C47: functions meeting their specification for all strings.  Memories are
    arbitrary, in particular they may contain nothing but the arguments. *)
Theorem C47_strlen : forall m s p fuel, cstr m p s -> (length s < fuel)%nat ->
  strlen fuel m p = Some (Z.of_nat (length s)).
Proof. exact strlen_ok. Qed.
Print Assumptions C47_strlen.

Theorem C47_strnlen : forall m n s p, bytes_at m p s -> nonzero s ->
  ((n <= length s)%nat \/ m !! (p + Z.of_nat (length s)) = Some 0) ->
  strnlen m p n = Some (Z.of_nat (Nat.min n (length s))).
Proof. exact strnlen_ok. Qed.
Print Assumptions C47_strnlen.

Theorem C47_strcmp : forall m s t p q fuel, cstr m p s -> cstr m q t -> (length s < fuel)%nat ->
  exists r, strcmp fuel m p q = Some r /\ (r ?= 0) = lex s t.
Proof. exact strcmp_ok. Qed.
Print Assumptions C47_strcmp.

Theorem C47_strncmp : forall m n s t p q, cstr m p s -> cstr m q t ->
  exists r, strncmp m p q n = Some r /\ (r ?= 0) = lex (take n s) (take n t).
Proof. exact strncmp_ok. Qed.
Print Assumptions C47_strncmp.

Theorem C47_memcmp : forall m s t p q, length s = length t -> bytes_at m p s -> bytes_at m q t ->
  exists r, memcmp m p q (length s) = Some r /\ (r ?= 0) = lex s t.
Proof. exact memcmp_ok. Qed.
Print Assumptions C47_memcmp.

Theorem C47_strncasecmp : forall m n s t p q, cstr m p s -> cstr m q t ->
  exists r, strncasecmp m p q n = Some r /\
    (r ?= 0) = lex (map fold_case (take n s)) (map fold_case (take n t)).
Proof. exact strncasecmp_ok. Qed.
Print Assumptions C47_strncasecmp.

Theorem C47_strspn : forall m t q fuel2, cstr m q t -> (length t < fuel2)%nat ->
  forall s p fuel, cstr m p s -> (length s < fuel)%nat ->
  exists n, strspn fuel fuel2 m p q = Some (Z.of_nat n) /\ span (fun c => c ∈ t) s n.
Proof. exact strspn_ok. Qed.
Print Assumptions C47_strspn.

Theorem C47_strcspn : forall m t q fuel2, cstr m q t -> (length t < fuel2)%nat ->
  forall s p fuel, cstr m p s -> (length s < fuel)%nat ->
  exists n, strcspn fuel fuel2 m p q = Some (Z.of_nat n) /\ span (fun c => c ∉ t) s n.
Proof. exact strcspn_ok. Qed.
Print Assumptions C47_strcspn.

Theorem C47_strpbrk : forall m s p t q fuel fuel2, cstr m p s -> cstr m q t -> (length s < fuel)%nat ->
  (length t < fuel2)%nat ->
  exists r, strpbrk fuel fuel2 m p q = Some r /\ found_first (fun b => b ∈ t) p s r.
Proof. exact strpbrk_ok. Qed.
Print Assumptions C47_strpbrk.

Theorem C47_strcpy : forall str m d s fuel, cstr m s str -> accessible m d (S (length str)) ->
  apart s (S (length str)) d (S (length str)) -> (length str < fuel)%nat ->
  exists m', strcpy fuel m d s = Some m' /\ stored m d (str ++ [0]) m'.
Proof. exact strcpy_ok. Qed.
Print Assumptions C47_strcpy.

Theorem C47_strcat : forall m d s a b fuel, cstr m d a -> cstr m s b ->
  accessible m d (S (length a + length b)) ->
  apart s (S (length b)) d (S (length a + length b)) -> (length a < fuel)%nat -> (length b < fuel)%nat ->
  exists m', strcat fuel m d s = Some m' /\ cstr m' d (a ++ b) /\
    stored m (d + Z.of_nat (length a)) (b ++ [0]) m'.
Proof. exact strcat_ok. Qed.
Print Assumptions C47_strcat.

Theorem C47_strncat : forall n m d s a b fuel, cstr m d a -> cstr m s b ->
  accessible m d (S (length a + Nat.min n (length b))) ->
  apart s (S (length b)) d (S (length a + Nat.min n (length b))) -> (length a < fuel)%nat ->
  exists m', strncat fuel m d s n = Some m' /\ cstr m' d (a ++ take n b) /\
    stored m (d + Z.of_nat (length a)) (take n b ++ [0]) m'.
Proof. exact strncat_ok. Qed.
Print Assumptions C47_strncat.

(** Character searches, for arguments in the range of a (signed) char; missing:
    arguments 128..255, see below. *)
Theorem C47_strchr_partial : forall m c, -128 <= c < 128 -> forall s p fuel,
  cstr m p s -> (length s < fuel)%nat ->
  exists r, strchr fuel m p c = Some r /\ found_first (fun b => b = c mod 256) p (s ++ [0]) r.
Proof. exact strchr_ok. Qed.
Print Assumptions C47_strchr_partial.

Theorem C47_strrchr_partial : forall m c, -128 <= c < 128 -> forall s p fuel,
  cstr m p s -> (length s < fuel)%nat ->
  exists r, strrchr fuel m p c = Some r /\ found_last (fun b => b = c mod 256) p (s ++ [0]) r.
Proof. exact strrchr_ok. Qed.
Print Assumptions C47_strrchr_partial.

Theorem C47_memchr_partial : forall m c, -128 <= c < 128 -> forall l p,
  bytes_at m p l -> Forall (fun b => 0 <= b < 256) l ->
  exists r, memchr m p c (length l) = Some r /\ found_first (fun b => b = c mod 256) p l r.
Proof. exact memchr_ok. Qed.
Print Assumptions C47_memchr_partial.

(** strstr, except for two empty strings. *)
Theorem C47_strstr_partial : forall m s t p q fuel, cstr m p s -> cstr m q t ->
  (length s < fuel)%nat -> (length t < fuel)%nat -> (s <> [] \/ t <> []) ->
  exists r, strstr fuel m p q = Some r /\ found_sub p s t r.
Proof. exact strstr_ok. Qed.
Print Assumptions C47_strstr_partial.

(** strncpy copies the right characters; missing: the padding (below). *)
Theorem C47_strncpy_partial : forall n m d s str, cstr m s str ->
  accessible m d (Nat.min n (S (length str))) ->
  apart s (S (length str)) d (Nat.min n (S (length str))) ->
  exists m', strncpy m d s n = Some m' /\ stored m d (take n (str ++ [0])) m'.
Proof. exact strncpy_ok. Qed.
Print Assumptions C47_strncpy_partial.

(* "hello" at 100, "lo" at 200 *)
Example C47_example :
  let m := mem_of 100 [104;101;108;108;111;0] ∪ mem_of 200 [108;111;0] in
  strlen 9 m 100 = Some 5 /\ strstr 9 m 100 200 = Some (Some 103) /\
  strchr 9 m 100 108 = Some (Some 102) /\ strrchr 9 m 100 108 = Some (Some 103) /\
  strcspn 9 9 m 100 200 = Some 2 /\ strncmp m 103 200 2 = Some 0.
Proof. vm_compute. auto 10. Qed.

(** Where the code departs from C. *)
Theorem C47_strchr_refuted : exists m p s c, cstr m p s /\ 0 <= c < 256 /\
  strchr 2 m p c = Some None /\ ~ found_first (fun b => b = c) p (s ++ [0]) None.
Proof. exact strchr_high. Qed.
Print Assumptions C47_strchr_refuted.
Theorem C47_memchr_refuted : exists m p l c, bytes_at m p l /\ 0 <= c < 256 /\
  memchr m p c (length l) = Some None /\ ~ found_first (fun b => b = c) p l None.
Proof. exact memchr_high. Qed.
Print Assumptions C47_memchr_refuted.
Theorem C47_strstr_refuted : exists m p q, cstr m p [] /\ cstr m q [] /\
  strstr 1 m p q = Some None /\ ~ found_sub p [] [] None.
Proof. exact strstr_empty. Qed.
Print Assumptions C47_strstr_refuted.
Theorem C47_strncpy_refuted : exists m d s n m', cstr m s [97] /\ accessible m d n /\ apart s 2 d n /\
  strncpy m d s n = Some m' /\ ~ bytes_at m' d ([97] ++ replicate (n - 1) 0).
Proof. exact strncpy_no_pad. Qed.
Print Assumptions C47_strncpy_refuted.
(** stpcpy returns the address after the NUL, not of the NUL. *)
Theorem C47_stpcpy_refuted : exists m d s str m', cstr m s str /\ accessible m d (S (length str)) /\
  apart s (S (length str)) d (S (length str)) /\
  stpcpy 5 m d s = Some (m', d + Z.of_nat (length str) + 1) /\ m' !! (d + Z.of_nat (length str)) = Some 0.
Proof. exact stpcpy_off_by_one. Qed.
Print Assumptions C47_stpcpy_refuted.
(** memccpy does not copy the searched byte and returns dst. *)
Theorem C47_memccpy_refuted : exists m d s m', bytes_at m s [97; 98; 99] /\ accessible m d 3 /\
  memccpy m d s 98 3 = Some (d, m') /\ m' !! (d + 1) = m !! (d + 1) /\ m !! (d + 1) <> Some 98.
Proof. exact memccpy_wrong. Qed.
Print Assumptions C47_memccpy_refuted.
(** strcasecmp("a","A") is not 0. *)
Theorem C47_strcasecmp_refuted : exists m p q, cstr m p [97] /\ cstr m q [65] /\
  map fold_case [97] = map fold_case [65] /\ strcasecmp 5 m p q = Some 32.
Proof. exact strcasecmp_wrong. Qed.
Print Assumptions C47_strcasecmp_refuted.

(** C48: on a string that is empty or ends in a delimiter, the sequence of calls
    returns every token in order (each NUL-terminated in the final memory), then
    NULL for ever.  Missing: strings whose last token reaches the terminator. *)
Theorem C48_strtok_splits_partial : forall t m p s q fuel extra ptr,
  cstr m p s -> cstr m q t -> ends_in_delim t s ->
  apart p (S (length s)) q (S (length t)) -> (length s < fuel)%nat -> (length t < fuel)%nat ->
  let toks := tokens (is_delim t) s in
  exists m', strtok_calls fuel (length toks + S extra) m (Some p) q ptr =
    Some (map (fun x => Some (p + Z.of_nat (fst x))) toks ++ replicate (S extra) None, m') /\
    Forall (fun x => cstr m' (p + Z.of_nat (fst x)) (snd x)) toks.
Proof. exact strtok_splits. Qed.
Print Assumptions C48_strtok_splits_partial.

(* ",,ab,c,," *)
Example C48_example :
  ends_in_delim [44] [44;44;97;98;44;99;44;44] /\
  tokens (is_delim [44]) [44;44;97;98;44;99;44;44] = [(2%nat, [97;98]); (5%nat, [99])] /\
  fst <$> strtok_calls 20 4 (mem_of 100 [44;44;97;98;44;99;44;44;0] ∪ mem_of 200 [44;0]) (Some 100) 200 0
  = Some [Some 102; Some 105; None; None].
Proof.
  split; [right; exists [44;44;97;98;44;99;44], 44; split; [reflexivity|constructor]|].
  vm_compute. auto.
Qed.

(** When the last token reaches the terminator, the next call reads beyond the
    string. *)
Theorem C48_strtok_refuted : exists m p q, cstr m p [97] /\ cstr m q [44] /\
  tokens (is_delim [44]) [97] = [(0%nat, [97])] /\
  (exists r, strtok_calls 9 1 m (Some p) q 0 = Some r) /\
  strtok_calls 9 2 m (Some p) q 0 = None.
Proof. exact strtok_overrun. Qed.
Print Assumptions C48_strtok_refuted.
