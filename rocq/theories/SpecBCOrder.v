(** * The boundary boxes of a patch, and calls of a boundary kernel

    Independent of the kernels.  A ghost region of the patch [lo..hi] in [n]
    dimensions lies beyond the patch in some directions (one for a face, two for an
    edge or a corner of a 2D patch, three for a corner of a 3D patch) and beside it
    in the others. *)

From Coq Require Import Bool.
From Verif Require Import Base SpecKernel SpecBoundary.
Import ListNotations.
Open Scope Z_scope.

(** One call of a boundary kernel: the boundary box and the condition on it. *)
Record bcall (S : Scalar) := mkCall {
  c_type : Z;            (** 1 face, 2 edge (corner in 2D), 3 corner in 3D *)
  c_face : Z;            (** which face, edge or corner *)
  c_lo : Z -> Z;         (** the boundary box *)
  c_hi : Z -> Z;
  c_btype : Z;           (** kind of condition *)
  c_order : Z;           (** order of the extrapolation *)
  c_alpha : S;
  c_beta : S }.
Arguments mkCall {S}. Arguments c_type {S}. Arguments c_face {S}. Arguments c_lo {S}. Arguments c_hi {S}.
Arguments c_btype {S}. Arguments c_order {S}. Arguments c_alpha {S}. Arguments c_beta {S}.

(** -1, 1: the low, high side. *)
Definition sd (bit : Z) : Z := if bit =? 0 then -1 else 1.

(** On which side of the patch the region lies in direction [d]; 0: neither.
    Faces are numbered low, high of direction 0, low, high of direction 1, ...;
    edges and corners by the binary number of their sides, the edges first those
    in the 0-1 planes, then 0-2, then 1-2. *)
Definition side (n type face d : Z) : Z :=
  if type =? 1 then if d =? face / 2 then sd (face mod 2) else 0
  else if type =? 2 then
    if n =? 2 then (if d =? 0 then sd (face mod 2) else sd (face / 2 mod 2))
    else
      let a := if face <? 8 then 0 else 1 in
      let b := if face <? 4 then 1 else 2 in
      if d =? a then sd (face mod 2) else if d =? b then sd (face / 2 mod 2) else 0
  else if d =? 0 then sd (face mod 2) else if d =? 1 then sd (face / 2 mod 2) else sd (face / 4 mod 2).

(** The regions there are. *)
Definition regions (n type : Z) : Z :=
  if type =? 1 then 2 * n
  else if type =? 2 then (if n =? 2 then 4 else if n =? 3 then 12 else 0)
  else if type =? 3 then (if n =? 3 then 8 else 0)
  else 0.

Section Calls.
  Context {S : Scalar} (n : Z) (lo hi : Z -> Z).

  (** The box of the call is one cell thick and next to the patch in the directions
      in which the region lies beyond it. *)
  Definition placed (c : bcall S) : Prop :=
    0 <= c_face c < regions n (c_type c) /\
    forall d, 0 <= d < n ->
      let s := side n (c_type c) (c_face c) d in
      if s =? -1 then c_lo c d = lo d - 1 /\ c_hi c d = lo d - 1
      else if s =? 1 then c_lo c d = hi d + 1 /\ c_hi c d = hi d + 1
      else seg_meets (lo d) (hi d) (c_lo c d) (c_hi c d).

  (** The ghost cells of the call: in the box, and in the patch in the directions
      in which the region is beside it. *)
  Definition covers (c : bcall S) (q : Z -> Z) : Prop :=
    forall d, 0 <= d < n ->
      c_lo c d <= q d <= c_hi c d /\
      (side n (c_type c) (c_face c) d = 0 -> lo d <= q d <= hi d).

  (** No ghost cell belongs to both calls. *)
  Definition separate (c c' : bcall S) : Prop := forall q, covers c q -> covers c' q -> False.

  (** The patch has at least as many cells across the face as the formula reads. *)
  Definition thick (c : bcall S) : Prop :=
    c_type c = 1 -> depth (c_btype c) (c_order c) <= hi (c_face c / 2) - lo (c_face c / 2) + 1.
End Calls.

(** Faces first, then edges, then corners. *)
Definition by_kind {S : Scalar} (cs : list (bcall S)) : Prop :=
  ForallOrdPairs (fun c c' => c_type c <= c_type c') cs.
