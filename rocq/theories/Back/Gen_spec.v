(** What expressions and statements of C mean, and what the instructions do. *)
From stdpp Require Import base list numbers.
From Verif Require Import Back.Ir_spec Back.Opt_model Back.Opt_spec Back.Gen_model.
Local Open Scope Z_scope.

(** The value of a type that a number becomes. *)
Definition conv (t : ty) (z : Z) : Z := view (size_of (tsz t)) (tuns t) z.
(** Unsigned arithmetic wraps; signed arithmetic must not overflow. *)
Definition arith (t : ty) (z : Z) : option Z :=
  if tuns t then Some (conv t z) else if fits (size_of (tsz t)) false z then Some z else None.

Definition c_bop (k : bkind) (t : ty) (a b : Z) : option Z :=
  match k with
  | IR_ADD => arith t (a + b)
  | IR_SUB => arith t (a - b)
  | IR_MUL => arith t (a * b)
  | IR_DIV => if bool_decide (b = 0) then None else arith t (Z.quot a b)
  | IR_MOD => if bool_decide (b = 0) then None else _ ← arith t (Z.quot a b); Some (Z.rem a b)
  | IR_BITAND => Some (Z.land a b)
  | IR_BITOR => Some (Z.lor a b)
  | IR_BITXOR => Some (Z.lxor a b)
  | IR_LSHIFT => if bool_decide (0 <= b < 8 * size_of (tsz t)) then
                   if tuns t then Some (conv t (a * 2 ^ b)) else if bool_decide (0 <= a) then arith t (a * 2 ^ b) else None
                 else None
  | IR_RSHIFT => if bool_decide (0 <= b < 8 * size_of (tsz t)) then Some (a / 2 ^ b) else None
  end.
Definition c_una (k : ukind) (t : ty) (a : Z) : option Z :=
  match k with IR_NEG => arith t (- a) | IR_BITNOT => Some (conv t (-1 - a)) end.
Definition c_rel (c : rel) (a b : Z) : bool :=
  match c with
  | REq => bool_decide (a = b) | RNe => bool_decide (a <> b) | RLt => bool_decide (a < b)
  | RLe => bool_decide (a <= b) | RGe => bool_decide (b <= a) | RGt => bool_decide (b < a)
  end.
(** ++ and --: types narrower than int are computed as int. *)
Definition c_inc (dec : bool) (t : ty) (step a : Z) : option Z :=
  let z := if dec then a - step else a + step in
  if tsz t <? 2 then Some (conv t z) else arith t z.

Definition truth (v : Z) : bool := negb (v =? 0).

(** Evaluations that are not sequenced: no variable that one writes is read or written by the
    other. *)
Definition apart (r1 w1 r2 w2 : list nat) : bool :=
  forallb (fun x => bool_decide (x ∉ r2 ++ w2)) w1 && forallb (fun x => bool_decide (x ∉ r1 ++ w1)) w2.

(** The type of an expression. *)
Fixpoint typeof (e : expr) : ty :=
  match e with
  | EFix _ t | EVar _ t | EBop _ t _ _ | EAssign _ t _ | EIncVar _ _ t _ _ | EIncMem _ _ t _ _ | EUna _ t _
  | ECast t _ _ | ETern t _ _ _ | EDeref t _ | EStore t _ _ | ECall _ t _ => t
  | ERel _ _ _ _ | EAnd _ _ | EOr _ _ => ty_bool
  | EComma _ e => typeof e
  | EPos e => typeof e
  end.

Section Sem.
  (** Memory and everything outside: loads and stores of a size at an address, calls of a
      function with the bytes of its arguments; [None] is undefined. *)
  Context {W : Type} (ld : W -> Z -> Z -> option Z) (st : W -> Z -> Z -> Z -> option W)
    (call : W -> nat -> list Z -> option (Z * W)).
  Notation state := (nat -> Z) (only parsing).

  (** The value, the variables, the world, and the variables read and written; [None] is
      undefined behaviour.  The left operand goes first, except that the value to store goes
      before the address, and the last argument before the others; C allows any order. *)
  Fixpoint eval (e : expr) (s : state) (w : W) {struct e} : option (Z * state * W * list nat * list nat) :=
    match e with
    | EFix z t => Some (conv t z, s, w, [], [])
    | EVar x t => Some (s x, s, w, [x], [])
    | EBop k t e1 e2 =>
      '(v1, s, w, r1, w1) ← eval e1 s w;
      '(v2, s, w, r2, w2) ← eval e2 s w;
      if apart r1 w1 r2 w2 then v ← c_bop k t v1 v2; Some (v, s, w, r1 ++ r2, w1 ++ w2) else None
    | ERel c t e1 e2 =>
      '(v1, s, w, r1, w1) ← eval e1 s w;
      '(v2, s, w, r2, w2) ← eval e2 s w;
      if apart r1 w1 r2 w2 then Some (Z.b2z (c_rel c v1 v2), s, w, r1 ++ r2, w1 ++ w2) else None
    | EAnd e1 e2 =>
      '(v1, s, w, r1, w1) ← eval e1 s w;
      if truth v1 then
        '(v2, s, w, r2, w2) ← eval e2 s w;
        Some (Z.b2z (truth v2), s, w, r1 ++ r2, w1 ++ w2)
      else Some (0, s, w, r1, w1)
    | EOr e1 e2 =>
      '(v1, s, w, r1, w1) ← eval e1 s w;
      if truth v1 then Some (1, s, w, r1, w1)
      else
        '(v2, s, w, r2, w2) ← eval e2 s w;
        Some (Z.b2z (truth v2), s, w, r1 ++ r2, w1 ++ w2)
    | EComma e1 e2 =>
      '(_, s, w, r1, w1) ← eval e1 s w;
      '(v2, s, w, r2, w2) ← eval e2 s w;
      Some (v2, s, w, r1 ++ r2, w1 ++ w2)
    | EAssign x t e =>
      '(v, s, w, r1, w1) ← eval e s w;
      Some (v, set s x v, w, r1, w1 ++ [x])
    | EIncVar post dec t step x =>
      v ← c_inc dec t step (s x);
      Some (if post then s x else v, set s x v, w, [x], [x])
    | EIncMem post dec t step e =>
      '(a, s, w, r1, w1) ← eval e s w;
      z ← ld w a (tsz t);
      v ← c_inc dec t step (conv t z);
      w ← st w a (tsz t) (cut (tsz t) v);
      Some (if post then conv t z else v, s, w, r1, w1)
    | EUna k t e =>
      '(a, s, w, r1, w1) ← eval e s w;
      v ← c_una k t a;
      Some (v, s, w, r1, w1)
    | EPos e => eval e s w
    | ECast t _ e =>
      '(a, s, w, r1, w1) ← eval e s w;
      Some (conv t a, s, w, r1, w1)
    | ETern t c e1 e2 =>
      '(v, s, w, r0, w0) ← eval c s w;
      '(v, s, w, r1, w1) ← (if truth v then eval e1 s w else eval e2 s w);
      Some (v, s, w, r0 ++ r1, w0 ++ w1)
    | EDeref t e =>
      '(a, s, w, r1, w1) ← eval e s w;
      z ← ld w a (tsz t);
      Some (conv t z, s, w, r1, w1)
    | EStore t e1 e2 =>
      '(v, s, w, r2, w2) ← eval e2 s w;
      '(a, s, w, r1, w1) ← eval e1 s w;
      if apart r1 w1 r2 w2 then w ← st w a (tsz t) (cut (tsz t) v); Some (v, s, w, r1 ++ r2, w1 ++ w2) else None
    | ECall f t args =>
      '(vs, s, w, r1, w1) ← eval_args args s w;
      '(z, w) ← call w f vs;
      Some (conv t z, s, w, r1, w1)
    end
  with eval_args (es : exprs) (s : state) (w : W) {struct es} : option (list Z * state * W * list nat * list nat) :=
    match es with
    | ANil => Some ([], s, w, [], [])
    | ACons e es =>
      '(vs, s, w, r2, w2) ← eval_args es s w;
      '(v, s, w, r1, w1) ← eval e s w;
      if apart r1 w1 r2 w2 then Some (cut (tsz (typeof e)) v :: vs, s, w, r1 ++ r2, w1 ++ w2) else None
    end.

  (** Statements run with what is to be done after them.  [Kwhile]: test, then again the
      body (also for do); [Kfor]: the last part of a for; [Kcond]: its test. *)
  Inductive cont :=
  | Kstop
  | Kseq (s : stmt) (k : cont)
  | Kwhile (c : expr) (s : stmt) (k : cont)
  | Kfor (c post : option expr) (s : stmt) (k : cont)
  | Kcond (c post : option expr) (s : stmt) (k : cont)
  | Kswitch (k : cont).
  (** Running, or ended with the bytes of the result. *)
  Inductive conf :=
  | Run (s : stmt) (k : cont) (v : state) (w : W)
  | Done (ret : option Z) (v : state) (w : W).

  Fixpoint break_to (k : cont) : option cont :=
    match k with
    | Kstop | Kcond _ _ _ _ => None
    | Kseq _ k => break_to k
    | Kwhile _ _ k | Kfor _ _ _ k | Kswitch k => Some k
    end.
  Fixpoint continue_to (k : cont) : option cont :=
    match k with
    | Kstop | Kcond _ _ _ _ => None
    | Kseq _ k | Kswitch k => continue_to k
    | Kwhile _ _ _ | Kfor _ _ _ _ => Some k
    end.
  (** The statement with a label, and what is to be done after it. *)
  Fixpoint find_label (id : nat) (s : stmt) (k : cont) : option (stmt * cont) :=
    match s with
    | SLabel id' s => if decide (id = id') then Some (s, k) else find_label id s k
    | SSeq s1 s2 => match find_label id s1 (Kseq s2 k) with Some r => Some r | None => find_label id s2 k end
    | SIf _ s1 None => find_label id s1 k
    | SIf _ s1 (Some s2) => match find_label id s1 k with Some r => Some r | None => find_label id s2 k end
    | SSwitch _ _ _ _ s => find_label id s (Kswitch k)
    | SWhile c s => find_label id s (Kwhile c s k)
    | SDo s c => find_label id s (Kwhile c s k)
    | SFor _ c post s => find_label id s (Kfor c post s k)
    | _ => None
    end.
  (** The case for a value. *)
  Fixpoint pick_case {A} (size : Z) (u : bool) (cases : list (Z * A)) (v : Z) : option A :=
    match cases with
    | [] => None
    | (z, a) :: cases => if view size u z =? v then Some a else pick_case size u cases v
    end.

  Definition eval_opt (e : option expr) (s : state) (w : W) : option (state * W) :=
    match e with None => Some (s, w) | Some e => '(_, s, w, _, _) ← eval e s w; Some (s, w) end.
  Definition test_opt (e : option expr) (s : state) (w : W) : option (bool * state * W) :=
    match e with None => Some (true, s, w) | Some e => '(v, s, w, _, _) ← eval e s w; Some (truth v, s, w) end.

  Section Body.
  Context (body : stmt).
  (** One step of the function; [None]: undefined behaviour, or ended. *)
  Definition step (c : conf) : option conf :=
    match c with
    | Done _ _ _ => None
    | Run s k v w =>
      match s with
      | SEmpty =>
        match k with
        | Kstop => Some (Done None v w)
        | Kseq s k => Some (Run s k v w)
        | Kwhile c s k =>
          '(b, v, w) ← test_opt (Some c) v w;
          Some (if (b : bool) then Run s (Kwhile c s k) v w else Run SEmpty k v w)
        | Kfor c post s k => '(v, w) ← eval_opt post v w; Some (Run SEmpty (Kcond c post s k) v w)
        | Kcond c post s k =>
          '(b, v, w) ← test_opt c v w;
          Some (if (b : bool) then Run s (Kfor c post s k) v w else Run SEmpty k v w)
        | Kswitch k => Some (Run SEmpty k v w)
        end
      | SExpr e => '(v, w) ← eval_opt (Some e) v w; Some (Run SEmpty k v w)
      | SReturn None => Some (Done None v w)
      | SReturn (Some e) => '(z, v, w, _, _) ← eval e v w; Some (Done (Some (cut (tsz (typeof e)) z)) v w)
      | SSeq s1 s2 => Some (Run s1 (Kseq s2 k) v w)
      | SIf c s1 s2 =>
        '(b, v, w) ← test_opt (Some c) v w;
        Some (Run (if (b : bool) then s1 else match s2 with Some s2 => s2 | None => SEmpty end) k v w)
      | SSwitch e t cases def s =>
        '(z, v, w, _, _) ← eval e v w;
        match (match pick_case (size_of (tsz t)) (tuns t) cases z with Some id => Some id | None => def end) with
        | Some id => '(s, k) ← find_label id s (Kswitch k); Some (Run s k v w)
        | None => Some (Run SEmpty k v w)
        end
      | SLabel _ s => Some (Run s k v w)
      | SWhile c s => Some (Run SEmpty (Kwhile c s k) v w)
      | SDo s c => Some (Run s (Kwhile c s k) v w)
      | SFor pre c post s => '(v, w) ← eval_opt pre v w; Some (Run SEmpty (Kcond c post s k) v w)
      | SBreak => k ← break_to k; Some (Run SEmpty k v w)
      | SContinue => k ← continue_to k; Some (Run SEmpty k v w)
      | SGoto id => '(s, k) ← find_label id body Kstop; Some (Run s k v w)
      end
    end.
  Inductive steps : nat -> conf -> conf -> Prop :=
  | steps_0 c : steps 0 c c
  | steps_S n c c' c'' : step c = Some c' -> steps n c' c'' -> steps (S n) c c''.
  Definition start (v : state) (w : W) : conf := Run body Kstop v w.
  End Body.

  (** * The instructions *)
  Record mach := Mach { m_pc : nat; m_regs : nat -> Z; m_args : nat -> Z; m_ret : option Z; m_w : W }.
  Fixpoint find_lab (code : list item) (l : lbl) : option nat :=
    match code with
    | [] => None
    | Lab l' :: code => if decide (l = l') then Some 0%nat else S <$> find_lab code l
    | _ :: code => S <$> find_lab code l
    end.
  (** An address is a number of 64 bits. *)
  Definition addr (regs : nat -> Z) (a : opr) : Z := view 8 true (val regs a).
  Definition mstep (code : list item) (m : mach) : option mach :=
    let 'Mach pc regs args ret w := m in
    i ← code !! pc;
    match i with
    | Lab _ => Some (Mach (S pc) regs args ret w)
    | Ins i => match exec regs i with Some (ESet d vs v) => Some (Mach (S pc) (set regs d v) args ret w) | _ => None end
    | Load d a vs => z ← ld w (addr regs a) vs; Some (Mach (S pc) (set regs d (cut vs z)) args ret w)
    | Store a v vs => w ← st w (addr regs a) vs (cut vs (val regs v)); Some (Mach (S pc) regs args ret w)
    | Push n o vs => Some (Mach (S pc) regs (set args n (cut vs (val regs o))) ret w)
    | Call f n d vs => '(z, w) ← call w f (args <$> seq 0 n); Some (Mach (S pc) (set regs d (cut vs z)) args ret w)
    | Result o vs => Some (Mach (S pc) regs args (Some (cut vs (val regs o))) w)
    | Jump l => pc ← find_lab code l; Some (Mach pc regs args ret w)
    | CJump cond a b vs l =>
      if cond_holds (size_of vs) cond (val regs a) (val regs b)
      then pc ← find_lab code l; Some (Mach pc regs args ret w)
      else Some (Mach (S pc) regs args ret w)
    | Switch o vs u cases def =>
      let v := view (size_of vs) u (val regs o) in
      pc ← find_lab code (match pick_case (size_of vs) u cases v with Some l => l | None => def end);
      Some (Mach pc regs args ret w)
    end.
  Inductive msteps (code : list item) : nat -> mach -> mach -> Prop :=
  | msteps_0 m : msteps code 0 m m
  | msteps_S n m m' m'' : mstep code m = Some m' -> msteps code n m' m'' -> msteps code (S n) m m''.
End Sem.

(** * Programs that the rules of C accept *)
(** Operands that may be constants for the generator. *)
Fixpoint literal (e : expr) : bool :=
  match e with
  | EFix _ _ => true
  | EBop _ _ e1 e2 | ERel _ _ e1 e2 => literal e1 || literal e2
  | EComma _ e | EAssign _ _ e | EUna _ _ e | EPos e | ECast _ _ e | EStore _ _ e => literal e
  | _ => false
  end.
(** Conversions of such an operand that keep the way it is written: to fewer bytes, to 8 bytes, to the
    same signedness, or from unsigned to more bytes. *)
Definition cast_ok (t ts : ty) : Prop :=
  tsz t < tsz ts \/ tsz t = 3 \/ (tuns t = tuns ts) \/ (tsz ts < tsz t /\ tuns ts = true).

Fixpoint nocall (e : expr) : bool :=
  match e with
  | EFix _ _ | EVar _ _ | EIncVar _ _ _ _ _ => true
  | EBop _ _ e1 e2 | ERel _ _ e1 e2 | EAnd e1 e2 | EOr e1 e2 | EComma e1 e2 | EStore _ e1 e2 => nocall e1 && nocall e2
  | EAssign _ _ e | EIncMem _ _ _ _ e | EUna _ _ e | EPos e | ECast _ _ e | EDeref _ e => nocall e
  | ETern _ c e1 e2 => nocall c && nocall e1 && nocall e2
  | ECall _ _ _ => false
  end.

Section Typed.
  (** Whether conversions of constants are restricted as above; the variables and their types. *)
  Context (strict : bool) (nv : nat) (vt : nat -> ty).
  Definition good_ty (t : ty) : Prop := vsizes (tsz t).
  Definition is_var (x : nat) (t : ty) : Prop := (x < nv)%nat /\ vt x = t /\ good_ty t.
  (** A number of a type, as the compiler writes it (modulo 2^64). *)
  Definition fixnum_of (t : ty) (z : Z) : Prop := int64 z /\ canon (tsz t) (tuns t) (OConst z).

  Fixpoint typed (e : expr) : Prop :=
    match e with
    | EFix z t => good_ty t /\ fixnum_of t z
    | EVar x t => is_var x t
    | EBop k t e1 e2 =>
      typed e1 /\ typed e2 /\ typeof e1 = t /\
      (typeof e2 = t \/ is_shift k = true \/ ((k = IR_ADD \/ k = IR_SUB) /\ tuns t = true /\ tsz (typeof e2) = tsz t))
    | ERel c t e1 e2 => typed e1 /\ typed e2 /\ typeof e1 = t /\ typeof e2 = t
    | EAnd e1 e2 | EOr e1 e2 | EComma e1 e2 => typed e1 /\ typed e2
    | EAssign x t e => typed e /\ is_var x t /\ typeof e = t
    | EIncVar post dec t step x => is_var x t /\ fixnum_of t step /\ 0 <= step
    | EIncMem post dec t step e => typed e /\ good_ty t /\ fixnum_of t step /\ 0 <= step /\ typeof e = Ty 3 true
    | EUna k t e => typed e /\ typeof e = t
    | EPos e => typed e
    | ECast t ts e => typed e /\ good_ty t /\ typeof e = ts /\ (strict = true -> literal e = true -> cast_ok t ts)
    | ETern t c e1 e2 => typed c /\ typed e1 /\ typed e2 /\ typeof e1 = t /\ typeof e2 = t
    | EDeref t e => typed e /\ good_ty t /\ typeof e = Ty 3 true
    | EStore t e1 e2 => typed e1 /\ typed e2 /\ typeof e1 = Ty 3 true /\ typeof e2 = t
    | ECall f t args => good_ty t /\ typed_args args
    end
  (** simplify_funcall (fe_misc.c) has taken the calls out of arguments *)
  with typed_args (es : exprs) : Prop :=
    match es with ANil => True | ACons e es => typed e /\ nocall e = true /\ typed_args es end.

  Definition typed_opt (e : option expr) : Prop := match e with None => True | Some e => typed e end.
  Fixpoint typed_stmt (s : stmt) : Prop :=
    match s with
    | SEmpty | SBreak | SContinue | SGoto _ => True
    | SExpr e => typed e
    | SReturn e => typed_opt e
    | SSeq s1 s2 => typed_stmt s1 /\ typed_stmt s2
    | SIf c s1 s2 => typed c /\ typed_stmt s1 /\ match s2 with None => True | Some s2 => typed_stmt s2 end
    | SSwitch e t _ _ s => typed e /\ typeof e = t /\ typed_stmt s
    | SLabel _ s => typed_stmt s
    | SWhile c s | SDo s c => typed c /\ typed_stmt s
    | SFor pre c post s => typed_opt pre /\ typed_opt c /\ typed_opt post /\ typed_stmt s
    end.

  (** The registers of the variables hold their values. *)
  Definition matches (s : nat -> Z) (regs : nat -> Z) : Prop :=
    forall x, (x < nv)%nat -> conv (vt x) (regs x) = s x.
  (** An operand stands for a value of a type. *)
  Definition stands (regs : nat -> Z) (o : opr) (t : ty) (v : Z) : Prop := conv t (val regs o) = v.
End Typed.

(** The labels of the program's own, and those of the code. *)
Fixpoint user_labels (s : stmt) : list nat :=
  match s with
  | SLabel id s => id :: user_labels s
  | SSeq s1 s2 => user_labels s1 ++ user_labels s2
  | SIf _ s1 s2 => user_labels s1 ++ match s2 with None => [] | Some s2 => user_labels s2 end
  | SSwitch _ _ _ _ s | SWhile _ s | SDo s _ | SFor _ _ _ s => user_labels s
  | _ => []
  end.
Fixpoint labs (code : list item) : list lbl :=
  match code with [] => [] | Lab l :: code => l :: labs code | _ :: code => labs code end.
(** A jump ends its block. *)
Definition is_jump (i : item) : bool := match i with Jump _ | CJump _ _ _ _ _ | Switch _ _ _ _ _ => true | _ => false end.
Definition is_lab (i : item) : bool := match i with Lab _ => true | _ => false end.
Fixpoint jumps_last (code : list item) : bool :=
  match code with
  | [] => true
  | i :: code => (negb (is_jump i) || match code with [] => false | j :: _ => is_lab j end) && jumps_last code
  end.

(** Runs by computation, for the examples. *)
Fixpoint run_source {W} (ld : W -> Z -> Z -> option Z) st call (body : stmt) (n : nat) (c : conf) : conf :=
  match n with O => c | S n => match step ld st call body c with Some c => run_source ld st call body n c | None => c end end.
Fixpoint run_code {W} (ld : W -> Z -> Z -> option Z) st call (code : list item) (n : nat) (m : mach) : mach :=
  match n with O => m | S n => match mstep ld st call code m with Some m => run_code ld st call code n m | None => m end end.
