(** src/cc/backend/codegen.c:386-497 the code of a switch, and src/cc/frontend/parser.c:360-400
    its cases.
    Simplifications: a basic block is the instructions between two [LABEL]s, in the order in
    which set_curbb puts the blocks; blocks and registers are numbered.  The result of qsort is
    an argument.  The error about a case defined twice stops the model, where the compiler
    reports it and goes on to the end of the file. *)
From stdpp Require Import base list numbers.
From Verif Require Import Util.Wrap_model Front.Layout_model Front.Fold_model Back.Ir_model.
Open Scope Z_scope.

(** The outcome of the compiler: its own behaviour may be undefined. *)
Inductive res (A : Type) := Ok (a : A) | Undefined | Err | NoFuel.
Arguments Ok {A}. Arguments Undefined {A}. Arguments Err {A}. Arguments NoFuel {A}.
#[global] Instance res_bind : MBind res := fun A B f r =>
  match r with Ok a => f a | Undefined => Undefined | Err => Err | NoFuel => NoFuel end.

(** A case or default (value NULL) of a switch, with its block. *)
Record case := Case { value : option Z; bb : nat }.

(** parser.c:360-370 *)
Fixpoint find_case (cases : list case) (v : Z) : bool :=
  match cases with
  | [] => false
  | c :: cs => match value c with Some w => (w =? v) || find_case cs v | None => find_case cs v end
  end.

(** parser.c:372-400, for the cases of a switch on a value of type [t], in order.  A case is
    written with its constant and the type of that. *)
Fixpoint parse_cases (lp64 : bool) (t : fty) (written : list (option (fty * Z) * nat)) (cases : list case)
    : res (list case) :=
  match written with
  | [] => Ok cases
  | (Some (vt, v), b) :: written =>
    if find_case cases v then Err
    else
      match make_cast lp64 64 16384 (NFix t) (EFix vt v) with
      | Some (EFix _ w) => parse_cases lp64 t written (cases ++ [Case (Some w) b])
      | _ => Err
      end
  | (None, b) :: written =>
    if existsb (fun c => match value c with None => true | Some _ => false end) cases then Err
    else parse_cases lp64 t written (cases ++ [Case None b])
  end.

(** switch_.default_ *)
Fixpoint default_of (cases : list case) : option nat :=
  match cases with
  | [] => None
  | c :: cs => match value c with None => Some (bb c) | Some _ => default_of cs end
  end.

(** Subtraction of Fixnums. *)
Definition fix_sub (a b : Z) : res Z := match fix_check (a - b) with Some d => Ok d | None => Undefined end.

(** codegen.c:386-396 *)
Definition compare_cases (a b : case) : res Z :=
  match value a, value b with
  | None, _ => Ok 1
  | _, None => Ok (-1)
  | Some va, Some vb => d ← fix_sub va vb; Ok (if 0 <? d then 1 else if d <? 0 then -1 else 0)
  end.

(** The instructions: registers are of the size of the switched value. *)
Inductive ir :=
| LABEL (b : nat)
| SUB (dst src : nat) (c : Z)
| CJMP (r : nat) (c : Z) (cond : Z) (b : nat)
| JMP (b : nat)
| TJMP (r : nat) (table : list nat).

(** The next unused block and register. *)
Definition st : Type := nat * nat.

Section gen.
  (** The register of the switched value, the target when no case matches (default or break),
      and COND_UNSIGNED or 0. *)
  Context (vreg skip : nat) (cond_flag : Z).

  (** The value of a case: the default is the last one and left out. *)
  Definition val (c : case) : Z := match value c with Some v => v | None => 0 end.

  (** codegen.c:403-411 the table *)
  Definition fill (min : Z) (cases : list case) (range : Z) : list nat :=
    foldl (fun t c => <[Z.to_nat (val c - min) := bb c]> t) (replicate (Z.to_nat range) skip) cases.

  (** codegen.c:398-422 *)
  Definition table_jump (cases : list case) (min max : Z) (s : st) : res (list ir * st) :=
    let '(nb, nr) := s in
    d ← fix_sub max min;
    range ← fix_sub d (-1);
    let table := fill min cases range in
    let nextbb := nb in
    let '(sub, val, nr') := if min =? 0 then ([], vreg, nr) else ([SUB nr vreg min], nr, S nr) in
    Ok (sub ++ [CJMP val d (Z.lor COND_GT COND_UNSIGNED) skip; LABEL nextbb; TJMP val table], (S nb, nr')).

  (** codegen.c:425-435 *)
  Fixpoint linear (cases : list case) (s : st) : list ir * st :=
    match cases with
    | [] => ([JMP skip], s)
    | c :: cs =>
      let '(code, s') := linear cs (S s.1, s.2) in
      (CJMP vreg (val c) (Z.lor COND_EQ cond_flag) (bb c) :: LABEL s.1 :: code, s')
    end.

  (** codegen.c:424-459 *)
  Fixpoint recur (fuel : nat) (cases : list case) (s : st) : res (list ir * st) :=
    match fuel with
    | O => NoFuel
    | S fuel =>
      let len := Z.of_nat (length cases) in
      if len <=? 2 then Ok (linear cases s)
      else
        match list.head cases, list.last cases with
        | Some cmin, Some cmax =>
          let min := val cmin in
          let max := val cmax in
          d ← fix_sub max min;
          range ← fix_sub d (-1);
          if (4 <=? range) && (Z.shiftr range 1 <? len) then table_jump cases min max s
          else
            let m := Z.to_nat (Z.shiftr len 1) in
            match cases !! m with
            | Some c =>
              let '(nb, nr) := s in
              let bbne := nb in
              let bblt := S nb in
              let bbgt := S (S nb) in
              '(lower, s) ← recur fuel (take m cases) (S (S (S nb)), nr);
              '(upper, s) ← recur fuel (drop (S m) cases) s;
              Ok ([CJMP vreg (val c) (Z.lor COND_EQ cond_flag) (bb c); LABEL bbne;
                   CJMP vreg (val c) (Z.lor COND_GT cond_flag) bbgt; LABEL bblt] ++ lower ++ LABEL bbgt :: upper, s)
            | None => Undefined
            end
        | _, _ => Undefined
        end
    end.
End gen.

(** codegen.c:468-478 the switched value is a constant *)
Fixpoint const_target (cases : list case) (default : option nat) (v : Z) : option nat :=
  match cases with
  | [] => default
  | c :: cs => if match value c with Some w => w =? v | None => false end then Some (bb c)
               else const_target cs default v
  end.

(** The switched value: in a register, or a constant. *)
Inductive switched := Reg (r : nat) | Const (v : Z).

(** codegen.c:461-497; [sorted] is what qsort makes of [cases]. *)
Definition gen_switch_cond (is_unsigned : bool) (v : switched) (cases sorted : list case) (break_bb : nat) (s : st)
    : res (list ir * st) :=
  let default := default_of cases in
  let skip := match default with Some b => b | None => break_bb end in
  '(code, (nb, nr)) ←
    match v with
    | Const v =>
      Ok ([JMP (match const_target cases default v with Some b => b | None => break_bb end); LABEL s.1], (S s.1, s.2))
    | Reg vreg =>
      match cases with
      | [] => Ok ([JMP skip], s)
      | _ :: _ =>
        let len := match default with Some _ => Nat.pred (length cases) | None => length cases end in
        recur vreg skip (if is_unsigned then COND_UNSIGNED else 0) (S len) (take len sorted) s
      end
    end;
  Ok (code ++ [LABEL nb], (S nb, nr)).
