(** Specification of the table: a finite map from keys to values. *)
From stdpp Require Import base list numbers gmap.
From Verif Require Import Util.Table_model.

Definition sstep (m : gmap N cval) (o : op) : gmap N cval * result :=
  match o with
  | Put k v => (<[k := v]> m, RBool (match m !! k with None => true | Some _ => false end))
  | Delete k => (delete k m, RBool (match m !! k with None => false | Some _ => true end))
  | Get k => (m, RVal (default VNull (m !! k)))
  | TryGet k => (m, ROpt (m !! k))
  end.

Fixpoint srun (m : gmap N cval) (ops : list op) : gmap N cval * list result :=
  match ops with
  | [] => (m, [])
  | o :: ops =>
    let '(m, r) := sstep m o in
    let '(m, rs) := srun m ops in
    (m, r :: rs)
  end.
