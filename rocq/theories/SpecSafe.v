(** * Specification vocabulary: staying inside the allocations *)

From Verif Require Import Base.
Open Scope Z_scope.

(** The kernel has a result, which means that every access it makes lies in an
    allocation (an access outside has none), and the allocations keep their sizes. *)
Definition safe {S : Scalar} (k : mem S -> option (mem S)) (m : mem S) : Prop :=
  exists m', k m = Some m' /\ shape m' = shape m.

(** [b] is the ghost layer next to the patch [lo..hi] on side [s] (0: below). *)
Definition at_side (s lo hi b : Z) : Prop := b = if s =? 0 then lo - 1 else hi + 1.
