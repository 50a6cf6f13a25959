(** C53, C61, C63 and C64: buffered input. *)
From stdpp Require Import base list numbers.
From Verif Require Import Lib.Stdin_model Lib.Stdin_spec Lib.Stdin_proof.
Local Open Scope Z_scope.

(** C53.  However the OS splits the data, the stream delivers it in order,
    each byte once.  Missing: failing reads, fread after ungetc, and two
    ungetc in a row (all refuted below). *)
Theorem C53_stream_partial : forall data es capa pipe ops, no_fail es -> polite false ops ->
  exists f rs, run (opened data es capa pipe) ops = Some (f, rs) /\ stream false data ops rs (pending f).
Proof. exact stream_ok. Qed.
Print Assumptions C53_stream_partial.

(** If the OS never answers short, every read takes all it can. *)
Theorem C53_stream_full_partial : forall data es capa pipe ops, all_full es -> polite false ops ->
  exists f rs, run (opened data es capa pipe) ops = Some (f, rs) /\ stream true data ops rs (pending f).
Proof. exact stream_full_ok. Qed.
Print Assumptions C53_stream_full_partial.

(** fread ignores the pushed-back byte, which comes late. *)
Theorem C53_ungetc_order_refuted : exists f,
  run (opened [65; 66] [] 256 false) [Getc; Ungetc 65; Read 1; Getc] =
    Some (f, [Char (Some 65); Done; Bytes [66]; Char (Some 65)]).
Proof. exact unget_order. Qed.
Print Assumptions C53_ungetc_order_refuted.

(** A second ungetc succeeds and loses the first byte. *)
Theorem C53_ungetc_lost_refuted : exists f,
  run (opened [65] [] 256 false) [Ungetc 66; Ungetc 67; Getc; Getc] =
    Some (f, [Done; Done; Char (Some 67); Char (Some 65)]).
Proof. exact unget_lost. Qed.
Print Assumptions C53_ungetc_lost_refuted.

(** ungetc does not convert to unsigned char: a negative char comes back
    negative. *)
Theorem C53_ungetc_char_refuted : exists f,
  run (opened [200] [] 256 false) [Getc; Ungetc (200 - 256); Getc] =
    Some (f, [Char (Some 200); Done; Char (Some (-56))]).
Proof. exact unget_char. Qed.
Print Assumptions C53_ungetc_char_refuted.

(** A failing read(2) makes fgetc copy (size_t)-1 bytes. *)
Theorem C53_read_error_refuted : forall data es capa pipe, (3 <= capa)%nat ->
  fgetc (opened data (RFail :: es) capa pipe) = None.
Proof. exact fail_crash. Qed.
Print Assumptions C53_read_error_refuted.

(** A failing direct read delivers the buffered bytes twice. *)
Theorem C53_duplicate_refuted : exists f,
  run (opened [1;2;3;4;5;6;7;8;9] [RFull; RFail] 8 false) [Read 1; Read 13; Read 7] =
    Some (f, [Bytes [1]; Bytes [2;3;4;5;6;7;8]; Bytes [2;3;4;5;6;7;8]]).
Proof. exact fail_twice. Qed.
Print Assumptions C53_duplicate_refuted.

(** fread with size 0 divides by zero. *)
Theorem C53_size_zero_refuted : forall data es capa pipe n, no_fail es -> fread (opened data es capa pipe) 0 n = None.
Proof. exact size_zero_opened. Qed.
Print Assumptions C53_size_zero_refuted.

Example C53_example : exists f,
  run (opened [1;2;3;4;5;6] [RShort 2; RShort 0] 4 false) [Read 2; Getc; Ungetc 3; Getc; Read 4; Read 1] =
    Some (f, [Bytes [1;2]; Char (Some 3); Done; Char (Some 3); Bytes [4]; Bytes [5]]).
Proof. vm_compute. eexists. reflexivity. Qed.

(** C61.  ftell names the position of the next byte.  Missing: a pushed-back
    byte (refuted below). *)
Theorem C61_ftell_partial : forall data es capa pipe ops f rs, no_fail es -> polite false ops ->
  run (opened data es capa pipe) ops = Some (f, rs) -> unget f = None ->
  0 <= ftell f /\ pending f = drop (Z.to_nat (ftell f)) data.
Proof. exact tell_ok. Qed.
Print Assumptions C61_ftell_partial.

(** fseek to a position from the start or the end: reading goes on there.
    Missing: SEEK_CUR (refuted below). *)
Theorem C61_fseek_partial : forall data es capa ops f rs o w, no_fail es -> polite false ops ->
  run (opened data es capa false) ops = Some (f, rs) ->
  (w = SeekSet /\ 0 <= o \/ w = SeekEnd /\ 0 <= Z.of_nat (length data) + o) ->
  exists f', fseek f o w = (f', true) /\
    ftell f' = (match w with SeekSet => 0 | _ => Z.of_nat (length data) end) + o /\
    eof f' = false /\ forall ops, polite false ops -> exists f'' rs, run f' ops = Some (f'', rs) /\
      stream false (drop (Z.to_nat (ftell f')) data) ops rs (pending f'').
Proof. exact seek_ok. Qed.
Print Assumptions C61_fseek_partial.

(** fseek(fp, 0, SEEK_CUR) moves past the read-ahead. *)
Theorem C61_seek_cur_refuted : exists f rs f', run (opened [1;2;3] [] 256 false) [Getc] = Some (f, rs) /\
  ftell f = 1 /\ fseek f 0 SeekCur = (f', true) /\ ftell f' = 3.
Proof. exact seek_cur. Qed.
Print Assumptions C61_seek_cur_refuted.

(** ftell ignores the pushed-back byte. *)
Theorem C61_tell_unget_refuted : exists f rs,
  run (opened [1;2;3] [] 256 false) [Getc; Ungetc 1] = Some (f, rs) /\ pending f = [1;2;3] /\ ftell f = 1.
Proof. exact tell_unget. Qed.
Print Assumptions C61_tell_unget_refuted.

Example C61_example : exists f rs, run (opened [7;8;9;10] [RShort 0] 4 false) [Getc; Read 2] = Some (f, rs) /\
  ftell f = 3 /\ ftell (fseek f (-3) SeekEnd).1 = 1.
Proof. vm_compute. eexists _, _. repeat split; reflexivity. Qed.

(** C63.  fgets returns the next line, or as much of it as fits.  Missing:
    fgets(s, 1, fp) (refuted below). *)
Theorem C63_fgets_partial : forall data es capa pipe ops f rs n, no_fail es -> polite false ops ->
  run (opened data es capa pipe) ops = Some (f, rs) -> (2 <= n)%nat ->
  exists f' r, fgets f n = Some (f', r) /\
  match r with
  | None => pending f = []
  | Some l => l <> [] /\ is_line (n - 1) (pending f) l /\ pending f = l ++ pending f'
  end.
Proof. exact fgets_ok. Qed.
Print Assumptions C63_fgets_partial.

(** getline returns the whole next line, terminated, in a buffer big enough,
    and never stores outside it. *)
Theorem C63_getline : forall data es capa pipe ops f rs junk lineptr n, no_fail es -> polite false ops ->
  run (opened data es capa pipe) ops = Some (f, rs) ->
  (forall b, lineptr = Some b -> (n <= length b)%nat) ->
  exists f' r size, getline (S (length (pending f))) junk f lineptr n = Some (f', r, size) /\
  match r with
  | None => pending f = []
  | Some (buf, capa') => exists l, l <> [] /\ pending f = l ++ pending f' /\
      is_line (length (pending f)) (pending f) l /\
      size = length l /\ take (S size) buf = l ++ [0] /\ (size < capa' <= length buf)%nat
  end.
Proof. exact getline_ok. Qed.
Print Assumptions C63_getline.

(** fgets(s, 1, fp) reports the end of the file instead of storing "". *)
Theorem C63_fgets_one_refuted : forall data es capa pipe,
  fgets (opened data es capa pipe) 1 = Some (opened data es capa pipe, None).
Proof. exact fgets_one. Qed.
Print Assumptions C63_fgets_one_refuted.

Example C63_example : exists f f2 f3,
  fgets (opened [65;66;10;67] [] 256 false) 3 = Some (f, Some [65;66]) /\
  fgets f 3 = Some (f2, Some [10]) /\ getline 5 0 f2 None 0 = Some (f3, Some ([67] ++ replicate 15 0, 16%nat), 1%nat).
Proof. vm_compute. eexists _, _, _. repeat split; reflexivity. Qed.

(** C64.  EOF from fgetc sets the end-of-file indicator. *)
Theorem C64_eof_reported : forall data es capa pipe ops f rs f', no_fail es -> polite false ops ->
  run (opened data es capa pipe) ops = Some (f, rs) -> fgetc f = Some (f', None) -> eof f' = true.
Proof. exact eof_after_getc. Qed.
Print Assumptions C64_eof_reported.

(** The indicator is set only if nothing is left.  Missing: devices that answer
    short without being pipes (refuted below). *)
Theorem C64_eof_partial : forall data es capa pipe ops f rs,
  no_fail es -> all_full es \/ pipe = true -> polite false ops ->
  run (opened data es capa pipe) ops = Some (f, rs) -> eof f = true -> pending f = [].
Proof. exact eof_ok. Qed.
Print Assumptions C64_eof_partial.

(** Reading a whole line from a terminal sets it with more lines to come. *)
Theorem C64_terminal_refuted : exists f rs,
  run (opened [65; 10; 66; 10] [RShort 1] 256 false) [Read 2] = Some (f, rs) /\ eof f = true /\ pending f = [66; 10].
Proof. exact eof_terminal. Qed.
Print Assumptions C64_terminal_refuted.

(** It is set although no read went past the end. *)
Theorem C64_early_refuted : exists f,
  run (opened [65] [] 256 false) [Getc] = Some (f, [Char (Some 65)]) /\ eof f = true.
Proof. exact eof_early. Qed.
Print Assumptions C64_early_refuted.

Example C64_example : exists f, run (opened [65; 66] [] 256 true) [Getc; Getc; Getc] =
  Some (f, [Char (Some 65); Char (Some 66); Char None]) /\ eof f = true.
Proof. vm_compute. eexists. split; reflexivity. Qed.
