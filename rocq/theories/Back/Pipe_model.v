(** src/cc/backend/optimize.c:637-664, the passes of a function in turn, with SSA form.
    Simplifications: the peephole optimisation of optimize.c:645-649, which is C29's, is left out; the
    options are those of -O. *)
From stdpp Require Import base list numbers.
From Verif Require Import Back.Unused_model Back.Ssa_model Back.Cprop_model Back.Unphi_model Back.Unphi_spec.
From Verif Require Back.Flow_model.
Local Open Scope nat_scope.

Section Pipe.
  Context {K C : Type}.
  Implicit Types bs : list (blk K (jmp C)).
  (** optimize.c:639-643: blocks without predecessors, except the first one, are emptied. *)
  Definition clear (from : list (list nat)) bs : list (blk K (jmp C)) :=
    imap (fun b x => if bool_decide (b <> 0 /\ from !! b = Some []) then Blk (phis x) [] None else x) bs.
  (** ssa.c:146-149: the blocks that get a vector of phis. *)
  Definition with_phis (from : list (list nat)) (b : nat) : bool := bool_decide (b <> 0 /\ 2 <= length (default [] (from !! b))).

  Context (mov : K) (is_copy : K -> bool) (fold_ins : ins K -> ins K) (fold_exit : jmp C -> list (Z + nat) -> option (jmp C * list (Z + nat))) (inv : C -> C).
  (** VRF_FORCEMEMORY; VRF_PARAM; VRF_PARAM or VRF_REF. *)
  Context (pinned param keep : nat -> bool).
  (** optimize.c:651-654 after 639-643; [nv] registers before, [nv'] after.  The results are what they are after copies are propagated, and
      after unused results are removed. *)
  Definition propagated (from : list (list nat)) (nv : nat) bs : option (list (blk K (jmp C))) :=
    bs ← make_ssa ends pinned param nv (clear from bs);
    copy_propagation mov is_copy fold_ins fold_exit pinned from bs.
  Definition reduced (from : list (list nat)) (nv nv' : nat) bs : option (list (blk K (jmp C))) :=
    bs ← propagated from nv bs;
    remove_unused_vregs keep (replicate nv' true) bs.
  (** optimize.c:639-656, but the last pass. *)
  Definition optimized (nv nv' : nat) bs : option (@fn K C) :=
    from ← Flow_model.detect_from_bbs (flow_blk ends <$> bs);
    bs ← reduced from nv nv' bs;
    resolve_phis mov inv (with_phis from) from nv' bs.
End Pipe.
