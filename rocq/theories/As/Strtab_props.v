(** Property theorem C57: the ELF string table. *)
From stdpp Require Import base list numbers.
From Verif Require Import Util.Table_model Util.Name_model As.Strtab_model As.Strtab_spec As.Strtab_proof.

(** C57: for every sequence of names, whatever their hashes, every addition succeeds; the dumped
    table has all its bytes written and consists of the different names in the order they were first
    added, each with its NUL; the offset returned for a name is where the table has that name; and
    equal names have the same offset. *)
Theorem C57_table : forall hash chars names, exists s os,
  strtab_adds hash chars strtab_init names = Some (s, os) /\ length os = length names /\
  strtab_dump chars s = Some (Some <$> image chars (firsts names)) /\
  size s = length (image chars (firsts names)) /\
  (forall i n o, names !! i = Some n -> os !! i = Some o ->
    exists rest, drop o (image chars (firsts names)) = chars n ++ 0%N :: rest) /\
  (forall i j n o o', names !! i = Some n -> names !! j = Some n ->
    os !! i = Some o -> os !! j = Some o' -> o = o').
Proof. exact strtab_ok. Qed.
Print Assumptions C57_table.

(** C57, in terms of strings: interning them and adding them one after the other gives offsets at
    which the table reads as those strings; equal strings, and only those, share an offset. *)
Theorem C57_strings : forall ss, exists st ps s os buf,
  alloc_names name_init ss = Some (st, ps) /\
  strtab_adds (hash_of (names st)) (chars_of st) strtab_init ps = Some (s, os) /\
  strtab_dump (chars_of st) s = Some (Some <$> buf) /\ length os = length ss /\
  forall i x o, ss !! i = Some x -> os !! i = Some o ->
    (0%N ∉ x -> string_at buf o = Some x) /\
    forall j y o', ss !! j = Some y -> os !! j = Some o' -> (x = y -> o = o') /\ (0%N ∉ x -> 0%N ∉ y -> o = o' -> x = y).
Proof. exact strtab_strings. Qed.
Print Assumptions C57_strings.

(* The empty name, a, bc and a again. *)
Example C57_example :
  let chars := fun k => match k with 1 => [97] | 2 => [98; 99] | _ => [] end%N in
  ('(s, os) ← strtab_adds (fun _ => 3%N) chars strtab_init [0; 1; 2; 1]%N;
   d ← strtab_dump chars s; Some (os, d))
  = Some ([0; 1; 3; 1], Some <$> [0; 97; 0; 98; 99; 0]%N).
Proof. vm_compute. reflexivity. Qed.
