(** * What a boundary value should be

    Independent of the kernels.  On a line of cells normal to a boundary face, at
    distance x from the face and counted positive into the patch, the first cells
    of the patch have their centres at h/2, 3h/2, 5h/2, ... and the ghost cell has
    its centre at -h/2.  A ghost value is right when it continues the polynomials
    that satisfy the boundary condition. *)

From Coq Require Import Bool.
From Verif Require Import Base FortranBase.
Import ListNotations.
Open Scope Z_scope.

Section Profile.
  Context {S : Scalar}.

  (** The polynomial c0 + c1 x + c2 x^2 + ... *)
  Fixpoint peval (cs : list S) (x : S) : S :=
    match cs with [] => lit 0 | c :: cs' => (c + x * peval cs' x)%T end.
  Definition value_at_face (cs : list S) : S := nth 0 cs (lit 0).
  Definition slope_at_face (cs : list S) : S := nth 1 cs (lit 0).
  Definition degree_le (n : Z) (cs : list S) : Prop := Z.of_nat (length cs) <= n + 1.

  (** Centres of the ghost cell and of the k-th cell of the patch. *)
  Definition ghost_x (h : S) : S := (- (h / lit 2))%T.
  Definition centre_x (k : Z) (h : S) : S := (lit (2 * k - 1) * (h / lit 2))%T.

  (** Homogeneous Dirichlet (0), Neumann (1) and Robin (4) conditions; [d] is the
      diffusion coefficient on the face, [slope] points into the patch. *)
  Definition satisfies_bc (btype : Z) (alpha beta d : S) (cs : list S) : Prop :=
    (btype = 0 /\ value_at_face cs = lit 0) \/
    (btype = 1 /\ slope_at_face cs = lit 0) \/
    (btype = 4 /\ (alpha * d * slope_at_face cs)%T = (beta * value_at_face cs)%T).

  (** The polynomials a condition of the given order can be expected to continue:
      Dirichlet and Robin up to the extrapolation order, Neumann parabolas. *)
  Definition order_covers (btype exOrder : Z) (cs : list S) : Prop :=
    if btype =? 1 then degree_le 2 cs else (exOrder = 1 \/ exOrder = 2) /\ degree_le exOrder cs.

  (** The Robin formulas divide by these. *)
  Definition robin_solvable (btype exOrder : Z) (alpha beta d h : S) : Prop :=
    btype = 4 ->
    (exOrder = 1 -> (lit 2 * alpha * d + h * beta)%T <> lit 0) /\
    (exOrder = 2 -> (lit 8 * alpha * d + lit 3 * beta * h)%T <> lit 0).
End Profile.

(** ** Faces: 0, 1 are the low and high ends of direction 0, 2, 3 those of 1, ... *)

Definition dir (face : Z) : Z := face / 2.
Definition low (face : Z) : bool := Z.even face.

(** The cell [k] cells further into the patch. *)
Definition inward (face k : Z) (q : Z -> Z) : Z -> Z :=
  fun d => if d =? dir face then (if low face then q d + k else q d - k) else q d.

(** [q] is a ghost cell of the segment [bLo..bHi]: on its low (high) end in the
    direction of the face, between the ends and in the patch [lo..hi] in the others. *)
Definition ghost_cell (n face : Z) (lo hi bLo bHi q : Z -> Z) : Prop :=
  forall d, 0 <= d < n ->
    if d =? dir face then q d = (if low face then bLo d else bHi d)
    else Z.max (lo d) (bLo d) <= q d <= Z.min (hi d) (bHi d).

(** The same for a segment given only along the face: the ghost cell is the one
    next to the patch. *)
Definition rim_cell (n face : Z) (lo hi bLo bHi q : Z -> Z) : Prop :=
  forall d, 0 <= d < n ->
    if d =? dir face then q d = (if low face then lo d - 1 else hi d + 1)
    else Z.max (lo d) (bLo d) <= q d <= Z.min (hi d) (bHi d).

(** The cell lies in the array with [g] ghost layers. *)
Definition in_array (n g : Z) (lo hi q : Z -> Z) : Prop :=
  forall d, 0 <= d < n -> lo d - g <= q d <= hi d + g.

(** Number of cells inside the patch the formula reads. *)
Definition depth (btype exOrder : Z) : Z := if (negb (btype =? 1) && (exOrder =? 2))%bool then 2 else 1.

(** The diffusion coefficient on the face between the ghost cell [q] and the patch,
    from the Fortran face arrays. *)
Section Coef.
  Context {S : Scalar}.
  Definition face_index (face : Z) (q : Z -> Z) : Z := q (dir face) + (if low face then 1 else 0).
  Definition coef1 (d0 : farray) (face : Z) (q : Z -> Z) : fexp S := fel d0 [face_index face q].
  Definition coef2 (d0 d1 : farray) (face : Z) (q : Z -> Z) : fexp S :=
    if dir face =? 0 then fel d0 [face_index face q; q 1] else fel d1 [face_index face q; q 0].
  Definition coef3 (d0 d1 d2 : farray) (face : Z) (q : Z -> Z) : fexp S :=
    if dir face =? 0 then fel d0 [face_index face q; q 1; q 2]
    else if dir face =? 1 then fel d1 [face_index face q; q 2; q 0]
    else fel d2 [face_index face q; q 0; q 1].
End Coef.
