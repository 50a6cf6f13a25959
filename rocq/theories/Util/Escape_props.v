(** Property theorem C09: string literals survive the assembler. *)
From stdpp Require Import base list numbers.
From Verif Require Import Util.Escape_model Util.Escape_proof.
Local Open Scope Z_scope.

(** C09: for every byte string, the compiler's quoted text is printable ASCII
    and the assembler reads it back exactly, stopping after the closing quote
    (34), whatever follows. *)
Theorem C09_escape_roundtrip : forall str rest,
  Forall (fun c => 0 <= c < 256) str ->
  exists out, escape_string str = Some out /\
    unescape_string (out ++ 34 :: rest) = Some (str, rest) /\
    Forall (fun c => 32 <= c < 127) out.
Proof. exact escape_roundtrip. Qed.
Print Assumptions C09_escape_roundtrip.

(* NUL, 'a' after a hex escape, quote, backslash, 0xff, newline *)
Example C09_example :
  Forall (fun c => 0 <= c < 256) [0; 97; 34; 92; 255; 10; 127; 65] /\
  (out ← escape_string [0; 97; 34; 92; 255; 10; 127; 65]; unescape_string (out ++ [34; 1]))
    = Some ([0; 97; 34; 92; 255; 10; 127; 65], [1]).
Proof. split; [repeat (constructor; [lia|]); constructor|vm_compute; reflexivity]. Qed.
