From stdpp Require Import base list list_numbers numbers.
From Coq Require Import Lia ZArith.
From Verif Require Import Util.Escape_model.
Local Open Scope Z_scope.

Definition enc (c : Z) (hex : bool) : list Z :=
  match (if hex && isxdigit c then Some (escape_hex c) else escape c) with
  | Some e => e | None => [c] end.

Definition printable (c : Z) : Prop := 32 <= c < 127.

Lemma all_bytes (P : Z -> Prop) : Forall P (seqZ 0 256) -> forall c, 0 <= c < 256 -> P c.
Proof.
  intros H c Hc. rewrite Forall_forall in H. apply H. apply elem_of_list_In, elem_of_seqZ. lia.
Qed.

(* one step of the assembler's loop on an encoded character *)
Definition dec1 (c : Z) (hex : bool) : Prop :=
  forall fuel rest s r, unescape_loop fuel rest = Some (s, r) ->
    unescape_loop (S fuel) (enc c hex ++ rest) = Some (c :: s, r).

Lemma dec1_all hex : forall c, 0 <= c < 256 -> dec1 c hex.
Proof.
  apply all_bytes. vm_compute seqZ. unfold dec1.
  destruct hex;
  repeat (apply List.Forall_cons;
    [intros fuel rest s r H;
     match goal with |- unescape_loop _ (enc ?c ?h ++ _) = _ =>
       let e := eval vm_compute in (enc c h) in change (enc c h) with e end;
     cbn -[unescape_loop]; cbn [unescape_loop]; cbn; rewrite H; reflexivity
    |]); apply List.Forall_nil.
Qed.

Lemma enc_printable hex : forall c, 0 <= c < 256 -> Forall printable (enc c hex).
Proof.
  apply all_bytes. apply Forall_forall. intros c Hc.
  assert (H : forallb (fun c => forallb (fun x => (32 <=? x) && (x <? 127)) (enc c hex)) (seqZ 0 256) = true)
    by (destruct hex; vm_compute; reflexivity).
  rewrite forallb_forall in H. specialize (H c). rewrite <- elem_of_list_In in H.
  rewrite elem_of_list_In in H. specialize (H Hc). rewrite forallb_forall in H.
  apply Forall_forall. intros x Hx. specialize (H x Hx).
  unfold printable. lia.
Qed.

Definition next_hex (c : Z) (hex : bool) : bool :=
  match (if hex && isxdigit c then Some (escape_hex c) else escape c) with
  | Some e => bool_decide (e !! 1%nat = Some 120) | None => false end.

Fixpoint escs (str : list Z) (hex : bool) : list Z :=
  match str with [] => [] | c :: str => enc c hex ++ escs str (next_hex c hex) end.

Lemma escape_loop_escs : forall str run hex, run = [] \/ hex = false ->
  escape_loop str run hex = Some (run ++ escs str hex).
Proof.
  induction str as [|c str IH]; intros run hex Hr; cbn [escape_loop escs].
  - rewrite app_nil_r. destruct run; [done|]. destruct Hr as [?| ->]; done.
  - unfold enc, next_hex.
    destruct (if hex && isxdigit c then Some (escape_hex c) else escape c) as [e|].
    + rewrite IH by (by left). done.
    + rewrite IH by (by right). rewrite <- app_assoc. done.
Qed.

Lemma unescape_escs : forall str hex rest fuel, Forall (fun c => 0 <= c < 256) str ->
  (length str < fuel)%nat ->
  unescape_loop fuel (escs str hex ++ 34 :: rest) = Some (str, rest).
Proof.
  induction str as [|c str IH]; intros hex rest fuel Hb Hf; cbn [escs length] in *.
  - destruct fuel; [lia|]. done.
  - apply List.Forall_cons_iff in Hb as [Hc Hb]. destruct fuel as [|fuel]; [lia|].
    rewrite <- app_assoc. apply dec1_all; [done|]. apply IH; [done|lia].
Qed.

Lemma enc_nonempty c hex : (1 <= length (enc c hex))%nat.
Proof.
  unfold enc, escape, escape_hex. destruct (hex && isxdigit c); [simpl; lia|].
  repeat (destruct (_ =? _); [simpl; lia|]). destruct (_ || _); simpl; lia.
Qed.

Lemma escs_length : forall str hex, (length str <= length (escs str hex))%nat.
Proof.
  induction str as [|c str IH]; intros hex; cbn [escs length]; [lia|].
  rewrite app_length. pose proof (enc_nonempty c hex). specialize (IH (next_hex c hex)). lia.
Qed.

Lemma escs_printable : forall str hex, Forall (fun c => 0 <= c < 256) str -> Forall printable (escs str hex).
Proof.
  induction str as [|c str IH]; intros hex Hb; cbn [escs]; [constructor|].
  apply List.Forall_cons_iff in Hb as [Hc Hb]. apply Forall_app. split; [apply enc_printable; done|].
  apply IH. done.
Qed.

Lemma escape_roundtrip str rest : Forall (fun c => 0 <= c < 256) str ->
  exists out, escape_string str = Some out /\
    unescape_string (out ++ 34 :: rest) = Some (str, rest) /\
    Forall (fun c => 32 <= c < 127) out.
Proof.
  intros Hb. unfold escape_string. rewrite escape_loop_escs by (by left). simpl.
  eexists; split; [done|]. split; [|apply escs_printable; done].
  unfold unescape_string. apply unescape_escs; [done|].
  rewrite app_length. pose proof (escs_length str false). simpl. lia.
Qed.
