(** What C prescribes of switch (6.8.4.2), and how the code of a switch runs. *)
From stdpp Require Import base list numbers sorting.
From Verif Require Import Front.Layout_model Front.Fold_model Front.Fold_spec Back.Ir_spec Back.Switch_model.
Open Scope Z_scope.

(** A label: the type and value of the constant of a case, or default (None); and its block. *)
Definition label : Type := option (fty * Z) * nat.
(** The compiler keeps constants in an int64_t. *)
Definition stored (l : label) : label :=
  match l with
  | (Some (ct, c), b) => (Some (ct, to_fixnum c), b)
  | _ => l
  end.

Section spec.
  Context (lp64 : bool) (t : fty).

  (** p5: constants are converted to the promoted type of the controlling expression. *)
  Definition converted (c : Z) : Z := conv_int lp64 (promoted lp64 t) c.
  (** The block control goes to for the value [v] of the controlling expression, which has
      type [t]. *)
  Fixpoint matching (labels : list label) (v : Z) : option nat :=
    match labels with
    | [] => None
    | (Some (_, c), b) :: ls => if decide (converted c = v) then Some b else matching ls v
    | (None, _) :: ls => matching ls v
    end.
  Fixpoint default_label (labels : list label) : option nat :=
    match labels with
    | [] => None
    | (None, b) :: _ => Some b
    | _ :: ls => default_label ls
    end.
  Definition target (labels : list label) (break : nat) (v : Z) : nat :=
    match matching labels v with
    | Some b => b
    | None => match default_label labels with Some b => b | None => break end
    end.

  Definition constants (labels : list label) : list Z := omap (fun l : label => snd <$> fst l) labels.
  (** p3: no two constants have the same value after the conversion, and there is at most one
      default. *)
  Definition constraints (labels : list label) : Prop :=
    NoDup (converted <$> constants labels) /\ (length (filter (fun l : label => fst l = None) labels) <= 1)%nat.
  (** The constants are values of their types. *)
  Definition well_typed (labels : list label) : Prop :=
    forall ct c b, (Some (ct, c), b) ∈ labels -> in_range lp64 ct c.
  (** The constants of a switch on a type narrower than int are values of that type. *)
  Definition fitting (labels : list label) : Prop :=
    (kd t = FX_CHAR \/ kd t = FX_SHORT \/ kd t = FX_BOOL) -> forall c, c ∈ constants labels -> in_range lp64 t c.
  (** For a 64-bit unsigned type, the constants are all below 2^63, or none is. *)
  Definition same_half (labels : list label) : Prop :=
    uns t = true -> width lp64 t = 64 ->
    (forall c, c ∈ constants labels -> converted c < 2 ^ 63) \/ (forall c, c ∈ constants labels -> 2 ^ 63 <= converted c).
  (** Subtracting the constants does not overflow an int64_t. *)
  Definition close (labels : list label) : Prop :=
    forall a b, a ∈ constants labels -> b ∈ constants labels -> to_fixnum (converted a) - to_fixnum (converted b) < 2 ^ 63 - 1.
  (** The blocks are older than [n]. *)
  Definition blocks_below (n : nat) (labels : list label) : Prop := forall l b, (l, b) ∈ labels -> (b < n)%nat.
End spec.

(** What the C standard promises of qsort. *)
Definition qsorted (cases sorted : list case) : Prop :=
  cases ≡ₚ sorted /\
  forall i j a b, (i < j)%nat -> sorted !! i = Some a -> sorted !! j = Some b -> exists d, compare_cases a b = Ok d /\ d <= 0.

(** Runs of the code on registers of [size] bytes.  A jump to a block of the code continues
    there, one to another block leaves it.  [None]: out of fuel, or undefined: an index
    outside the table, or the end of the code is reached. *)
Fixpoint find_block (code : list ir) (b : nat) : option (list ir) :=
  match code with
  | [] => None
  | LABEL b' :: code' => if decide (b' = b) then Some code' else find_block code' b
  | _ :: code' => find_block code' b
  end.
Fixpoint run (fuel : nat) (size : Z) (whole code : list ir) (regs : nat -> Z) : option nat :=
  match fuel with
  | O => None
  | S fuel =>
    let goto b := match find_block whole b with
                  | Some code => run fuel size whole code regs
                  | None => Some b
                  end in
    match code with
    | [] => None
    | LABEL _ :: code => run fuel size whole code regs
    | SUB dst src c :: code =>
      run fuel size whole code (fun r => if decide (r = dst) then (regs src - c) mod 2 ^ (8 * size) else regs r)
    | CJMP r c cond b :: code =>
      if cond_holds size cond (regs r) c then goto b else run fuel size whole code regs
    | JMP b :: _ => goto b
    | TJMP r table :: _ =>
      match table !! Z.to_nat (view size true (regs r)) with
      | Some b => goto b
      | None => None
      end
    end
  end.

(** Running the code in registers [regs] ends up in block [b] outside of it. *)
Definition leaves_to (size : Z) (code : list ir) (regs : nat -> Z) (b : nat) : Prop :=
  exists fuel, run fuel size code code regs = Some b.
