(** What C11 7.21.6.1 asks of printf for integer, character and string
    conversions, as a relation between a parsed format, the arguments and the
    text.  Nothing here mentions the model. *)
From stdpp Require Import base list numbers.
From Verif Require Import Lib.Printf_model.
Local Open Scope Z_scope.

(** A digit's character. *)
Definition digit_char (upper : bool) (d : Z) : Z :=
  if d <? 10 then 48 + d else if upper then 65 + (d - 10) else 97 + (d - 10).

(** [ds] are the digits (most significant first) of [x], without leading zeros. *)
Definition digits_of (base x : Z) (ds : list Z) : Prop :=
  Forall (fun d => 0 <= d < base) ds /\
  foldl (fun v d => v * base + d) 0 ds = x /\
  match ds with [] => False | [_] => True | d :: _ => d <> 0 end.
Definition numeral (upper : bool) (base x : Z) (t : list Z) : Prop :=
  exists ds, digits_of base x ds /\ t = map (digit_char upper) ds.

Inductive flag := FNone | FPlus | FMinus.
Inductive length_mod := LNone | Ll | Lll | Lz.
Inductive conversion := Cd | Cu | Cx (upper : bool) | Cs | Cc.
(** Width and precision are given by their decimal digits. *)
Record item := Item { i_flag : flag; i_zero : bool; i_width : list Z; i_prec : option (list Z);
                      i_len : length_mod; i_conv : conversion }.
Inductive piece := Lit (c : Z) | Percent | Conv (i : item).

Definition dec (ds : list Z) : Z := foldl (fun v d => v * 10 + d) 0 ds.
Definition digit_text (ds : list Z) : list Z := map (fun d => 48 + d) ds.

(** The text of a format. *)
Definition item_text (i : item) : list Z :=
  match i_flag i with FNone => [] | FPlus => [43] | FMinus => [45] end ++
  (if i_zero i then [48] else []) ++ digit_text (i_width i) ++
  match i_prec i with None => [] | Some ds => 46 :: digit_text ds end ++
  match i_len i with LNone => [] | Ll => [108] | Lll => [108;108] | Lz => [122] end ++
  [match i_conv i with Cd => 100 | Cu => 117 | Cx false => 120 | Cx true => 88 | Cs => 115 | Cc => 99 end].
Definition piece_text (p : piece) : list Z :=
  match p with Lit c => [c] | Percent => [37; 37] | Conv i => 37 :: item_text i end.
Definition format_text (ps : list piece) : list Z := concat (map piece_text ps).

(** The value an argument of the given length has. *)
Definition bits (l : length_mod) : Z := match l with LNone => 32 | _ => 64 end.
Definition as_unsigned (l : length_mod) (raw : Z) : Z := raw mod 2 ^ bits l.
Definition as_signed (l : length_mod) (raw : Z) : Z :=
  let u := raw mod 2 ^ bits l in if u <? 2 ^ (bits l - 1) then u else u - 2 ^ bits l.

(** A field of at least [w] characters: sign and digits, padded. *)
Definition field (w : Z) (left zero : bool) (sign body : list Z) : list Z :=
  let missing := Z.to_nat (w - Z.of_nat (length sign + length body)) in
  if left then sign ++ body ++ replicate missing 32
  else if zero then sign ++ replicate missing 48 ++ body
  else replicate missing 32 ++ sign ++ body.
Definition is_left (i : item) : bool := match i_flag i with FMinus => true | _ => false end.

(** A precision is the least number of digits, disables the [0] flag, and
    precision 0 prints 0 as nothing. *)
Definition with_prec (p : option (list Z)) (x : Z) (t : list Z) : list Z :=
  match p with
  | None => t
  | Some ds => if (dec ds =? 0) && (x =? 0) then []
               else replicate (Z.to_nat (dec ds - Z.of_nat (length t))) 48 ++ t
  end.
Definition zero_pad (i : item) : bool := i_zero i && match i_prec i with None => true | Some _ => false end.

(** The text one conversion produces from one argument. *)
Inductive item_out (i : item) : arg -> list Z -> Prop :=
| out_d raw t : i_conv i = Cd ->
    numeral false 10 (Z.abs (as_signed (i_len i) raw)) t ->
    item_out i (AInt raw)
      (field (dec (i_width i)) (is_left i) (zero_pad i)
             (if as_signed (i_len i) raw <? 0 then [45]
              else match i_flag i with FPlus => [43] | _ => [] end)
             (with_prec (i_prec i) (as_signed (i_len i) raw) t))
| out_u raw t : i_conv i = Cu ->
    numeral false 10 (as_unsigned (i_len i) raw) t ->
    item_out i (AInt raw) (field (dec (i_width i)) (is_left i) (zero_pad i) []
                                 (with_prec (i_prec i) (as_unsigned (i_len i) raw) t))
| out_x raw t up : i_conv i = Cx up ->
    numeral up 16 (as_unsigned (i_len i) raw) t ->
    item_out i (AInt raw) (field (dec (i_width i)) (is_left i) (zero_pad i) []
                                 (with_prec (i_prec i) (as_unsigned (i_len i) raw) t))
| out_s str : i_conv i = Cs ->
    item_out i (AStr (Some str))
      (field (dec (i_width i)) (is_left i) false []
             (match i_prec i with None => str | Some ds => take (Z.to_nat (dec ds)) str end))
| out_c raw : i_conv i = Cc ->
    item_out i (AInt raw) (field (dec (i_width i)) (is_left i) false [] [raw mod 256]).

Inductive output : list piece -> list arg -> list Z -> Prop :=
| out_nil args : output [] args []
| out_lit c ps args t : output ps args t -> output (Lit c :: ps) args (c :: t)
| out_percent ps args t : output ps args t -> output (Percent :: ps) args (37 :: t)
| out_conv i ps a args o t : item_out i a o -> output ps args t ->
    output (Conv i :: ps) (a :: args) (o ++ t).

(** Formats that are well formed at all. *)
Definition small (ds : list Z) : Prop := Forall (fun d => 0 <= d < 10) ds /\ dec ds < 2^31.
Definition item_wf (i : item) : Prop :=
  small (i_width i) /\ (match i_width i with 0 :: _ => False | _ => True end) /\
  (match i_prec i with None => True | Some ds => small ds end).
Definition piece_wf (p : piece) : Prop :=
  match p with Lit c => c <> 37 /\ c <> 0 | Percent => True | Conv i => item_wf i end.

(** The conversions this printf gets right: a number has no precision; [-] and
    [0] are not combined; a signed number is not space-padded on the left of
    its sign; [+] is not used with [u], [-] not with a hexadecimal width; a
    string precision is not zero; a character has no width. *)
Definition supported (i : item) (a : arg) : Prop :=
  match i_conv i, a with
  | Cd, AInt raw => i_prec i = None /\ ~ (i_flag i = FMinus /\ i_zero i = true) /\
      (i_flag i = FMinus \/ i_zero i = true \/ dec (i_width i) <= 1 \/
       i_flag i = FNone /\ 0 <= as_signed (i_len i) raw)
  | Cu, AInt _ => i_prec i = None /\ i_flag i <> FPlus /\ ~ (i_flag i = FMinus /\ i_zero i = true)
  | Cx _, AInt _ => i_prec i = None /\ (i_flag i = FMinus -> i_width i = [])
  | Cs, AStr (Some _) => match i_prec i with None => True | Some ds => 0 < dec ds end
  | Cc, AInt _ => dec (i_width i) <= 1
  | _, _ => False
  end.
Fixpoint all_supported (ps : list piece) (args : list arg) : Prop :=
  match ps with
  | [] => True
  | Conv i :: ps => match args with a :: args => supported i a /\ all_supported ps args | [] => False end
  | _ :: ps => all_supported ps args
  end.

(** No width or precision is taken from the arguments, or none of the integer
    arguments is negative (C49). *)
Definition arg_nonneg (a : arg) : Prop := match a with AInt raw => 0 <= raw < 2^31 | _ => True end.
Definition no_star (fmt : list Z) : Prop := Forall (fun c => c <> 42) fmt.
