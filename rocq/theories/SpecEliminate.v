(** * Specification: eliminating the value outside the boundary

    A row of the matrix at a cell refers to the cell itself (column 0), to its neighbours
    below and above in each direction (columns 1, 2; 3, 4; 5, 6), one of which may lie
    outside the boundary.  The rules here say what the value [out] there is, given the
    value [inn] of the cell, [inn2] of its neighbour on the other side, and the datum [g]
    of the boundary.  They speak about the polynomial through the values: a line
    [a + s t] or a parabola [a + s t + c t^2]. *)

From Verif Require Import Base FortranBase.
Open Scope Z_scope.

(** The cell of the patch next to the boundary segment (in ghost cells) on side [side]
    (0: below, 1: above) of direction [dir]. *)
Definition beside1 (side pi0 i : Z) : Prop := i = pi0 - 2 * side + 1.
Definition beside2 (dir side pi0 pj0 pi1 pj1 i j : Z) : Prop :=
  (dir = 0 /\ i = pi0 - 2 * side + 1 /\ pj0 <= j <= pj1) \/
  (dir = 1 /\ j = pj0 - 2 * side + 1 /\ pi0 <= i <= pi1).
Definition beside3 (dir side pi0 pj0 pk0 pi1 pj1 pk1 i j k : Z) : Prop :=
  (dir = 0 /\ i = pi0 - 2 * side + 1 /\ pj0 <= j <= pj1 /\ pk0 <= k <= pk1) \/
  (dir = 1 /\ j = pj0 - 2 * side + 1 /\ pi0 <= i <= pi1 /\ pk0 <= k <= pk1) \/
  (dir = 2 /\ k = pk0 - 2 * side + 1 /\ pi0 <= i <= pi1 /\ pj0 <= j <= pj1).

(** The columns of the neighbour outside and of the one on the other side. *)
Definition col_out (dir side : Z) : Z := 2 * dir + 1 + side.
Definition col_in (dir side : Z) : Z := 2 * dir + 2 - side.

Section Rules.
  Context {S : Scalar}.
  Open Scope scalar_scope.

  (** Dirichlet, first order: the line through the cell at 0 and the ghost cell at 1
      takes the value [g] at [1/d]; [d = 2] is the face between them. *)
  Definition dirichlet1 (d out inn g : S) : Prop :=
    exists a s, inn = a /\ out = a + s /\ g = a + s / d.

  (** Dirichlet, second order: the parabola through the two cells and the ghost cell, in
      units of half a cell from the face, takes the value [g] at the face. *)
  Definition dirichlet2 (out inn inn2 g : S) : Prop :=
    exists a s c, inn2 = a - #3 * s + #9 * c /\ inn = a - s + c /\ out = a + s + c /\ g = a.

  (** Neumann: no slope. *)
  Definition neumann (out inn : S) : Prop := out = inn.

  (** Robin, first order: with the line through the cell and the ghost cell, the value
      at the face plus [2 b] times the outward slope is [g]; [s] is the change over half
      a cell of size [h]. *)
  Definition robin1 (h b out inn g : S) : Prop :=
    exists a s, inn = a - s /\ out = a + s /\ g = a + #2 * b * (s / (h / #2)).

  (** Robin, second order: the same with the parabola. *)
  Definition robin2 (h b out inn inn2 g : S) : Prop :=
    exists a s c, inn2 = a - #3 * s + #9 * c /\ inn = a - s + c /\ out = a + s + c /\
      g = a + #2 * b * (s / (h / #2)).

  (** The rule by boundary type and order. *)
  Definition ghost_rule (btype order : Z) (d h b out inn inn2 g : S) : Prop :=
    (btype = 0%Z /\ order = 1%Z /\ dirichlet1 d out inn g) \/
    (btype = 0%Z /\ order = 2%Z /\ dirichlet2 out inn inn2 g) \/
    (btype = 1%Z /\ neumann out inn) \/
    (btype = 4%Z /\ order = 1%Z /\ robin1 h b out inn g).

  (** Coarse–fine interface with refinement ratio [r]: in units of half a fine cell from
      the interface, the coarse cell is at [-r], the ghost cell at -1, the fine cells at
      1 and 3.  The ghost value is interpolated from the coarse value and the fine cells. *)
  Definition interp1 (r out inn coarse : S) : Prop :=
    exists a s, coarse = a - r * s /\ out = a - s /\ inn = a + s.
  Definition interp2 (r out inn inn2 coarse : S) : Prop :=
    exists a s c, coarse = a - r * s + r * r * c /\ out = a - s + c /\ inn = a + s + c /\
      inn2 = a + #3 * s + #9 * c.

  Definition coarse_rule (order : Z) (r : S) (out inn inn2 coarse : S) : Prop :=
    (order = 1%Z /\ r = #2 /\ interp1 r out inn coarse) \/
    (order = 2%Z /\ interp2 r out inn inn2 coarse).
End Rules.

(** A row of the matrix times the values [x] of the cell and its neighbours. *)
Section RowOf.
  Context {S : Scalar}.
  Open Scope fortran_scope.

  Definition row1 (st : farray) (i : Z) (x : Z -> S) : fexp S :=
    st!(0, i) * $(x 0) + st!(1, i) * $(x 1) + st!(2, i) * $(x 2).
  Definition row2 (st : farray) (i j : Z) (x : Z -> S) : fexp S :=
    st!(0, i, j) * $(x 0) + st!(1, i, j) * $(x 1) + st!(2, i, j) * $(x 2) +
    st!(3, i, j) * $(x 3) + st!(4, i, j) * $(x 4).
  Definition row3 (st : farray) (i j k : Z) (x : Z -> S) : fexp S :=
    st!(0, i, j, k) * $(x 0) + st!(1, i, j, k) * $(x 1) + st!(2, i, j, k) * $(x 2) +
    st!(3, i, j, k) * $(x 3) + st!(4, i, j, k) * $(x 4) +
    st!(5, i, j, k) * $(x 5) + st!(6, i, j, k) * $(x 6).
End RowOf.
