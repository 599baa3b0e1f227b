(** * Specification: the bilinear form of the operator along a grid line *)

From Verif Require Import Base SpecRow.
Open Scope Z_scope.

(** The form of the second difference with coefficient [b] along the cells
    [lo..hi] of one grid line, for the solution [w] and the test function [z]:
    the product of the two differences over every interior face, and at the two
    outer faces the flux of [w] against the value of [z] in the last cell.  [b i]
    belongs to the face between the cells [i-1] and [i]; only [w] is used outside
    [lo..hi]. *)
Definition line {S : Scalar} (lo hi : Z) (h : S) (b w z : Z -> S) : S :=
  (total (lo + 1) hi (fun i => b i * ((w i - w (i - 1)%Z) / h) * ((z i - z (i - 1)%Z) / h))
   + (b lo * ((w lo - w (lo - 1)%Z) / h) * z lo - b (hi + 1)%Z * ((w (hi + 1)%Z - w hi) / h) * z hi) / h)%T.
