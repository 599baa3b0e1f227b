(** * Specification: two subroutines with different outcomes *)

From Verif Require Import Base.

(** From [m] the second subroutine returns and the first does not return the
    same memory: it either stops at an invalid access or leaves other values. *)
Definition disagree {S : Scalar} (s1 s2 : mem S -> option (mem S)) (m : mem S) : Prop :=
  exists m2, s2 m = Some m2 /\ s1 m <> Some m2.
