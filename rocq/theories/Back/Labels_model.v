(** src/cc/backend/emit_code.c:329-336, 356-381: which blocks get a label in the assembly.
    A block is its position, as in Flow_model. *)
From stdpp Require Import base list numbers.
From Verif Require Back.Blocks_model Back.Ir_model.
From Verif Require Import Back.Flow_model.
Open Scope nat_scope.

(** emit_code.c:329-336 is_fall_path_only *)
Definition is_fall_path_only (bbs : list bb) (from : list (list nat)) (i : nat) : bool :=
  match i with
  | O => true
  | S p =>
    match from !! i with
    | Some [f] => bool_decide (f = p) && match bbs !! p with Some (BB _ (Table _)) => false | _ => true end
    | _ => false
    end
  end.
(** emit_code.c:356-381: the labels emitted, in order. *)
Definition emitted (bbs : list bb) (from : list (list nat)) : list nat :=
  filter (fun i => is_fall_path_only bbs from i = false) (seq 0 (length bbs)).
(** codegen.c:938 with optimize.c:663, then emit_code.c. *)
Definition labels (bbs : list bb) : option (list nat) := emitted bbs <$> detect_from_bbs bbs.

(** The blocks that remove_unnecessary_bb leaves, with positions for labels. *)
Definition position (ls : list nat) (l : nat) : nat := match list_find (l =.) ls with Some (i, _) => i | None => length ls end.
Definition flow {I R} (bs : list (Blocks_model.bb I R)) : list bb :=
  let at_ := position (Blocks_model.label <$> bs) in
  (fun b : Blocks_model.bb I R => BB []
     match Blocks_model.last b with
     | Blocks_model.EJmp c _ d => if bool_decide (c = Ir_model.COND_ANY) then Jump (at_ d) else CJump (at_ d)
     | Blocks_model.ETab _ ds => Table (at_ <$> ds)
     | Blocks_model.EFall => Falls
     end) <$> bs.
(** optimize.c:657-663 and emit_code.c: from the blocks to the labels emitted. *)
Definition finish {I R} (bs : list (Blocks_model.bb I R)) : option (list bb * list nat) :=
  bs' ← Blocks_model.remove_unnecessary_bb bs; ls ← labels (flow bs'); Some (flow bs', ls).
