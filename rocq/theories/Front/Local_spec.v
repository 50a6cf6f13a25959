(** The initialisers of local objects; what the object then holds is [object] of Static_spec. *)
From stdpp Require Import base list numbers.
From Verif Require Import Front.Layout_model Front.Static_model Front.Static_spec.
From Verif Require Front.Bitfield_model.
Local Open Scope Z_scope.

Section spec.
  (** The type of the values given for bit-fields. *)
  Context (vtype : Bitfield_model.ity).
  (** The value is wide enough for a field of [w] bits: with a bit to spare when it is signed. *)
  Definition wide_enough (w : Z) : Prop :=
    w < Bitfield_model.bits vtype \/ Bitfield_model.unsigned vtype = true /\ w <= Bitfield_model.bits vtype.
  Definition local_members (f : ty -> option init -> Prop) :=
    fix go (ms : list (ty * option Z)) (is : list (option init)) {struct ms} : Prop :=
      match ms, is with
      | [], [] => True
      | (t, width) :: ms, i :: is =>
        match width with
        | None => f t i
        | Some w => match i with None => True | Some (ISingle (XFix _)) => 0 < w < 64 /\ wide_enough w | _ => False end
        end /\ go ms is
      | _, _ => False
      end.
  (** As [fits], with values for expressions; the literal for an array fits with its terminator. *)
  Fixpoint local_fits (t : ty) (i : option init) {struct t} : Prop :=
    match i with
    | None => True
    | Some i =>
      match t, i with
      | TyFlo _, ISingle (XFlo _ _) => True
      | TyFix _, ISingle (XFix _) | TyPtr, ISingle (XFix _) => True
      | TyArr (TyFix FX_CHAR) n, ISingle (XStr false units) => Z.of_nat (length units) <= n
      | TyArr (TyFix FX_INT) n, ISingle (XStr true units) => Z.of_nat (length units) <= n
      | TyArr t' n, IMulti l => Z.of_nat (length l) <= n /\ foldr (fun x P => local_fits t' x /\ P) True l
      | TyFam _, IMulti [] => True
      | TyStruct u ms, IMulti l => local_members local_fits ms l /\ (u = true -> one_given l)
      | _, _ => False
      end
    end.
End spec.

(** ** Objects of the examples and refutations *)
(** char s[3] = abc, without room for the terminator. *)
Definition tight : ty := TyArr (TyFix FX_CHAR) 3.
Definition tight_init : init := ISingle (XStr false [97; 98; 99; 0]).
(** struct { int x : 8; int y : 8; } s = { c }; *)
Definition two_fields : ty := TyStruct false [(TyFix FX_INT, Some 8); (TyFix FX_INT, Some 8)].
Definition first_given : init := IMulti [Some (ISingle (XFix (-1))); None].
(** struct { char c; int x : 5; int y : 3; short s[3]; union { char u; int v; } w; char t[4]; char *p; } with all but x, s[0] and w.v given. *)
Definition local_sample : ty := TyStruct false
  [(TyFix FX_CHAR, None); (TyFix FX_INT, Some 5); (TyFix FX_INT, Some 3); (TyArr (TyFix FX_SHORT) 3, None);
   (TyStruct true [(TyFix FX_CHAR, None); (TyFix FX_INT, None)], None); (TyArr (TyFix FX_CHAR) 4, None); (TyPtr, None)].
Definition local_sample_init : init := IMulti
  [Some (ISingle (XFix 65)); None; Some (ISingle (XFix 6)); Some (IMulti [None; Some (ISingle (XFix 258))]);
   Some (IMulti [Some (ISingle (XFix 7)); None]); Some (ISingle (XStr false [104; 105; 0])); Some (ISingle (XFix 4098))].
