(** * Properties C48, C49, C50: eliminating the values outside the boundary *)

From Coq Require Import QArith Qcanon.
From Verif Require Import Base ModelBounds ModelMatrix ModelIters ModelSpan ModelProxy Spec SpecAssign FortranBase SpecKernel
  SpecEliminate Instances KernelsStencil LemEliminate1 LemEliminate2 LemEliminate3 LemRhs PropertiesStencilKernels.
Import ListNotations.
Open Scope Z_scope.

(** Values of a cell (column 0) and its neighbours; [out], [inn2] in the columns [co], [ci]. *)
Definition ex_vals (co ci out inn inn2 : Z) : Z -> QcS :=
  fun w => lit (if w =? co then out else if w =? ci then inn2 else if w =? 0 then inn else 10 + w).
(** An expression after a run, as (numerator, denominator). *)
Definition ex_after (r : option (mem QcS)) (e : fexp QcS) : option (Z * Z) :=
  m <- r ;; x <- e m ;; Some (Qnum (this x), Zpos (Qden (this x))).
Ltac k_qc := apply Qc_is_canon; vm_compute; reflexivity.
Ltac k_qne := let C := fresh in intro C; apply (f_equal this) in C; vm_compute in C; discriminate C.
Ltac k_vals := let w := fresh in let H := fresh in intros w H; unfold ex_vals;
  apply Z.eqb_neq in H; rewrite H; reflexivity.

(** ** C48: at a physical boundary

    [m1]: the matrix assembled as if the ghost cell were a cell; [m2]: the off-diagonal
    corrected at the boundary before the diagonal is computed, both from the same [m].
    If the ghost value in [x] follows from the datum in [y] by the rule of the boundary
    type and order, the corrected row acts on the datum as the original on the ghost
    value. *)

Theorem C48_physical_v1_1d : forall (S : Scalar), field_laws S ->
  forall i0 i1 pi0 pi1 side btype order dx d nf beta b0 alpha ai0 ai1 a sgcw st i (m m1 m2 : mem S),
  i0 <= i <= i1 -> 0 <= sgcw -> apart st [b0; a] ->
  beside1 side pi0 i -> (side = 0 \/ side = 1) -> 
  (m' <- cd_stencil_1d_offdiag i0 i1 i0 i1 dx beta b0 sgcw st m ;;
   cd_stencil_1d_v1diag i0 i1 ai0 ai1 alpha a sgcw st m') = Some m1 ->
  (m' <- cd_stencil_1d_offdiag i0 i1 i0 i1 dx beta b0 sgcw st m ;;
   m' <- cd_stencil_1d_adj_offdiag i0 i1 pi0 pi1 side btype order dx d nf beta b0 sgcw st m' ;;
   cd_stencil_1d_v1diag i0 i1 ai0 ai1 alpha a sgcw st m') = Some m2 ->
  forall bv, ((mkFa b0 (FACE1d i0 i1 0))!(i + side))%F m = Some bv ->
  (btype = 0 -> d <> lit 0) -> dx 0 <> lit 0 -> (btype = 4 -> (lit 4 * bv + dx 0)%T <> lit 0) ->
  forall x y : Z -> S, (forall w, w <> col_out 0 side -> y w = x w) ->
  ghost_rule btype order d (dx 0) bv (x (col_out 0 side)) (x 0) (x (col_in 0 side)) (y (col_out 0 side)) ->
  exists v, row1 (mkFa st ((0, 2) :: CELL1d i0 i1 sgcw)) i x m1 = Some v /\ row1 (mkFa st ((0, 2) :: CELL1d i0 i1 sgcw)) i y m2 = Some v.
Proof. exact @physical_v1_1d. Qed.
Print Assumptions C48_physical_v1_1d.

Example C48_physical_v1_1d_example :
  apart (9%nat, 0) [(0%nat, 0); (3%nat, 0)] /\
  beside1 1 2 1 /\
  ex_st_h 0 <> lit 0 /\
  ((mkFa (0%nat, 0) [(0, 2)])!(2))%F (ex_st_cells 16) = Some (lit 5) /\
  (lit 4 * lit 5 + ex_st_h 0)%T <> lit 0 /\
  (forall w, w <> 2 -> (ex_vals 2 1 13 2 7) w = (ex_vals 2 1 4 2 7) w) /\
  ghost_rule 4 1 (lit 2) (ex_st_h 0) (lit 5) ((ex_vals 2 1 4 2 7) 2) ((ex_vals 2 1 4 2 7) 0) ((ex_vals 2 1 4 2 7) 1) ((ex_vals 2 1 13 2 7) 2) /\
  ex_after (m' <- cd_stencil_1d_offdiag 0 1 0 1 ex_st_h (lit 3) (0%nat, 0) 0 (9%nat, 0) (ex_st_cells 16) ;; cd_stencil_1d_v1diag 0 1 0 1 (lit 5) (3%nat, 0) 0 (9%nat, 0) m')
    (row1 (mkFa (9%nat, 0) [(0, 2); (0, 1)]) 1 (ex_vals 2 1 4 2 7)) = Some (95, 1) /\
  ex_after (m' <- cd_stencil_1d_offdiag 0 1 0 1 ex_st_h (lit 3) (0%nat, 0) 0 (9%nat, 0) (ex_st_cells 16) ;; m' <- cd_stencil_1d_adj_offdiag 0 1 2 2 1 4 1 ex_st_h (lit 2) (lit 1) (lit 3) (0%nat, 0) 0 (9%nat, 0) m' ;; cd_stencil_1d_v1diag 0 1 0 1 (lit 5) (3%nat, 0) 0 (9%nat, 0) m')
    (row1 (mkFa (9%nat, 0) [(0, 2); (0, 1)]) 1 (ex_vals 2 1 13 2 7)) = Some (95, 1).
Proof.
  split; [repeat constructor; discriminate|].
  split; [unfold beside1; lia|].
  split; [k_qne|].
  split; [vm_compute; reflexivity|].
  split; [k_qne|].
  split; [k_vals|].
  split; [right; right; right; split; [reflexivity|split; [reflexivity|]]; exists (lit 3), (lit 1); repeat split; k_qc|].
  split; [vm_compute; reflexivity|].
  vm_compute; reflexivity.
Qed.

Theorem C48_physical_v2_1d : forall (S : Scalar), field_laws S ->
  forall i0 i1 pi0 pi1 side btype order dx d nf beta b0 alpha sgcw st i (m m1 m2 : mem S),
  i0 <= i <= i1 -> 0 <= sgcw -> apart st [b0] ->
  beside1 side pi0 i -> (side = 0 \/ side = 1) -> 
  (m' <- cd_stencil_1d_offdiag i0 i1 i0 i1 dx beta b0 sgcw st m ;;
   cd_stencil_1d_v2diag i0 i1 alpha sgcw st m') = Some m1 ->
  (m' <- cd_stencil_1d_offdiag i0 i1 i0 i1 dx beta b0 sgcw st m ;;
   m' <- cd_stencil_1d_adj_offdiag i0 i1 pi0 pi1 side btype order dx d nf beta b0 sgcw st m' ;;
   cd_stencil_1d_v2diag i0 i1 alpha sgcw st m') = Some m2 ->
  forall bv, ((mkFa b0 (FACE1d i0 i1 0))!(i + side))%F m = Some bv ->
  (btype = 0 -> d <> lit 0) -> dx 0 <> lit 0 -> (btype = 4 -> (lit 4 * bv + dx 0)%T <> lit 0) ->
  forall x y : Z -> S, (forall w, w <> col_out 0 side -> y w = x w) ->
  ghost_rule btype order d (dx 0) bv (x (col_out 0 side)) (x 0) (x (col_in 0 side)) (y (col_out 0 side)) ->
  exists v, row1 (mkFa st ((0, 2) :: CELL1d i0 i1 sgcw)) i x m1 = Some v /\ row1 (mkFa st ((0, 2) :: CELL1d i0 i1 sgcw)) i y m2 = Some v.
Proof. exact @physical_v2_1d. Qed.
Print Assumptions C48_physical_v2_1d.

Example C48_physical_v2_1d_example :
  apart (9%nat, 0) [(0%nat, 0)] /\
  beside1 0 (-1) 0 /\
  ex_st_h 0 <> lit 0 /\
  ((mkFa (0%nat, 0) [(0, 2)])!(0))%F (ex_st_cells 16) = Some (lit 1) /\
  lit 2 <> (lit 0 : QcS) /\
  (forall w, w <> 1 -> (ex_vals 1 2 1 1 7) w = (ex_vals 1 2 3 1 7) w) /\
  ghost_rule 0 2 (lit 2) (ex_st_h 0) (lit 1) ((ex_vals 1 2 3 1 7) 1) ((ex_vals 1 2 3 1 7) 0) ((ex_vals 1 2 3 1 7) 2) ((ex_vals 1 2 1 1 7) 1) /\
  ex_after (m' <- cd_stencil_1d_offdiag 0 1 0 1 ex_st_h (lit 3) (0%nat, 0) 0 (9%nat, 0) (ex_st_cells 16) ;; cd_stencil_1d_v2diag 0 1 (lit 5) 0 (9%nat, 0) m')
    (row1 (mkFa (9%nat, 0) [(0, 2); (0, 1)]) 0 (ex_vals 1 2 3 1 7)) = Some (-11, 2) /\
  ex_after (m' <- cd_stencil_1d_offdiag 0 1 0 1 ex_st_h (lit 3) (0%nat, 0) 0 (9%nat, 0) (ex_st_cells 16) ;; m' <- cd_stencil_1d_adj_offdiag 0 1 (-1) (-1) 0 0 2 ex_st_h (lit 2) (lit 1) (lit 3) (0%nat, 0) 0 (9%nat, 0) m' ;; cd_stencil_1d_v2diag 0 1 (lit 5) 0 (9%nat, 0) m')
    (row1 (mkFa (9%nat, 0) [(0, 2); (0, 1)]) 0 (ex_vals 1 2 1 1 7)) = Some (-11, 2).
Proof.
  split; [repeat constructor; discriminate|].
  split; [unfold beside1; lia|].
  split; [k_qne|].
  split; [vm_compute; reflexivity|].
  split; [k_qne|].
  split; [k_vals|].
  split; [right; left; split; [reflexivity|split; [reflexivity|]]; exists (lit 1), (lit 1), (lit 1); repeat split; k_qc|].
  split; [vm_compute; reflexivity|].
  vm_compute; reflexivity.
Qed.

Theorem C48_physical_poisson_1d : forall (S : Scalar), field_laws S ->
  forall i0 i1 pi0 pi1 side btype order dx d nf beta sgcw st i (m m1 m2 : mem S),
  i0 <= i <= i1 -> 0 <= sgcw -> 
  beside1 side pi0 i -> (side = 0 \/ side = 1) -> 
  (m' <- cd_stencil_1d_poisson_offdiag i0 i1 dx beta sgcw st m ;;
   cd_stencil_1d_poisson_diag i0 i1 sgcw st m') = Some m1 ->
  (m' <- cd_stencil_1d_poisson_offdiag i0 i1 dx beta sgcw st m ;;
   m' <- cd_stencil_1d_adj_poisson_offdiag i0 i1 pi0 pi1 side btype order dx d nf beta sgcw st m' ;;
   cd_stencil_1d_poisson_diag i0 i1 sgcw st m') = Some m2 ->
  (btype = 0 -> d <> lit 0) -> dx 0 <> lit 0 -> (btype = 4 -> (lit 4 + dx 0)%T <> lit 0) ->
  forall x y : Z -> S, (forall w, w <> col_out 0 side -> y w = x w) ->
  ghost_rule btype order d (dx 0) (lit 1) (x (col_out 0 side)) (x 0) (x (col_in 0 side)) (y (col_out 0 side)) ->
  exists v, row1 (mkFa st ((0, 2) :: CELL1d i0 i1 sgcw)) i x m1 = Some v /\ row1 (mkFa st ((0, 2) :: CELL1d i0 i1 sgcw)) i y m2 = Some v.
Proof. exact @physical_poisson_1d. Qed.
Print Assumptions C48_physical_poisson_1d.

Example C48_physical_poisson_1d_example :
  beside1 1 2 1 /\
  ex_st_h 0 <> lit 0 /\
  lit 2 <> (lit 0 : QcS) /\
  (forall w, w <> 2 -> (ex_vals 2 1 3 1 7) w = (ex_vals 2 1 5 1 7) w) /\
  ghost_rule 0 1 (lit 2) (ex_st_h 0) (lit 1) ((ex_vals 2 1 5 1 7) 2) ((ex_vals 2 1 5 1 7) 0) ((ex_vals 2 1 5 1 7) 1) ((ex_vals 2 1 3 1 7) 2) /\
  ex_after (m' <- cd_stencil_1d_poisson_offdiag 0 1 ex_st_h (lit 3) 0 (9%nat, 0) (ex_st_cells 16) ;; cd_stencil_1d_poisson_diag 0 1 0 (9%nat, 0) m')
    (row1 (mkFa (9%nat, 0) [(0, 2); (0, 1)]) 1 (ex_vals 2 1 5 1 7)) = Some (-15, 2) /\
  ex_after (m' <- cd_stencil_1d_poisson_offdiag 0 1 ex_st_h (lit 3) 0 (9%nat, 0) (ex_st_cells 16) ;; m' <- cd_stencil_1d_adj_poisson_offdiag 0 1 2 2 1 0 1 ex_st_h (lit 2) (lit 1) (lit 3) 0 (9%nat, 0) m' ;; cd_stencil_1d_poisson_diag 0 1 0 (9%nat, 0) m')
    (row1 (mkFa (9%nat, 0) [(0, 2); (0, 1)]) 1 (ex_vals 2 1 3 1 7)) = Some (-15, 2).
Proof.
  split; [unfold beside1; lia|].
  split; [k_qne|].
  split; [k_qne|].
  split; [k_vals|].
  split; [left; split; [reflexivity|split; [reflexivity|]]; exists (lit 1), (lit 4); repeat split; k_qc|].
  split; [vm_compute; reflexivity|].
  vm_compute; reflexivity.
Qed.

Theorem C48_physical_v1_2d : forall (S : Scalar), field_laws S ->
  forall i0 j0 i1 j1 pi0 pj0 pi1 pj1 dir side btype order dx d nf beta b0 b1 alpha ai0 aj0 ai1 aj1 a sgcw st i j (m m1 m2 : mem S),
  i0 <= i <= i1 -> j0 <= j <= j1 -> 0 <= sgcw -> apart st [b0; b1; a] ->
  beside2 dir side pi0 pj0 pi1 pj1 i j -> (side = 0 \/ side = 1) -> (dir = 0 -> j0 <= pj0 /\ pj1 <= j1) -> (dir = 1 -> i0 <= pi0 /\ pi1 <= i1) -> (btype = 4 -> dir = 0) ->
  (m' <- cd_stencil_2d_offdiag i0 j0 i1 j1 i0 j0 i1 j1 dx beta b0 b1 sgcw st m ;;
   cd_stencil_2d_v1diag i0 j0 i1 j1 ai0 aj0 ai1 aj1 alpha a sgcw st m') = Some m1 ->
  (m' <- cd_stencil_2d_offdiag i0 j0 i1 j1 i0 j0 i1 j1 dx beta b0 b1 sgcw st m ;;
   m' <- cd_stencil_2d_adj_offdiag i0 j0 i1 j1 pi0 pj0 pi1 pj1 dir side btype order dx d nf beta b0 b1 sgcw st m' ;;
   cd_stencil_2d_v1diag i0 j0 i1 j1 ai0 aj0 ai1 aj1 alpha a sgcw st m') = Some m2 ->
  forall bv, (if dir =? 0 then ((mkFa b0 (FACE2d0 i0 j0 i1 j1 0))!(i + side, j))%F else ((mkFa b1 (FACE2d1 i0 j0 i1 j1 0))!(j + side, i))%F) m = Some bv ->
  (btype = 0 -> d <> lit 0) -> dx dir <> lit 0 -> (btype = 4 -> (lit 4 * bv + dx dir)%T <> lit 0) ->
  forall x y : Z -> S, (forall w, w <> col_out dir side -> y w = x w) ->
  ghost_rule btype order d (dx dir) bv (x (col_out dir side)) (x 0) (x (col_in dir side)) (y (col_out dir side)) ->
  exists v, row2 (mkFa st ((0, 4) :: CELL2d i0 j0 i1 j1 sgcw)) i j x m1 = Some v /\ row2 (mkFa st ((0, 4) :: CELL2d i0 j0 i1 j1 sgcw)) i j y m2 = Some v.
Proof. exact @physical_v1_2d. Qed.
Print Assumptions C48_physical_v1_2d.

Example C48_physical_v1_2d_example :
  apart (9%nat, 0) [(0%nat, 0); (1%nat, 0); (3%nat, 0)] /\
  beside2 0 1 2 0 2 1 1 1 /\
  ex_st_h 0 <> lit 0 /\
  ((mkFa (0%nat, 0) [(0, 2); (0, 1)])!(2, 1))%F (ex_st_cells 24) = Some (lit 26) /\
  (lit 4 * lit 26 + ex_st_h 0)%T <> lit 0 /\
  (forall w, w <> 2 -> (ex_vals 2 1 55 2 7) w = (ex_vals 2 1 4 2 7) w) /\
  ghost_rule 4 1 (lit 2) (ex_st_h 0) (lit 26) ((ex_vals 2 1 4 2 7) 2) ((ex_vals 2 1 4 2 7) 0) ((ex_vals 2 1 4 2 7) 1) ((ex_vals 2 1 55 2 7) 2) /\
  ex_after (m' <- cd_stencil_2d_offdiag 0 0 1 1 0 0 1 1 ex_st_h (lit 3) (0%nat, 0) (1%nat, 0) 0 (9%nat, 0) (ex_st_cells 24) ;; cd_stencil_2d_v1diag 0 0 1 1 0 0 1 1 (lit 5) (3%nat, 0) 0 (9%nat, 0) m')
    (row2 (mkFa (9%nat, 0) [(0, 4); (0, 1); (0, 1)]) 1 1 (ex_vals 2 1 4 2 7)) = Some (-37, 12) /\
  ex_after (m' <- cd_stencil_2d_offdiag 0 0 1 1 0 0 1 1 ex_st_h (lit 3) (0%nat, 0) (1%nat, 0) 0 (9%nat, 0) (ex_st_cells 24) ;; m' <- cd_stencil_2d_adj_offdiag 0 0 1 1 2 0 2 1 0 1 4 1 ex_st_h (lit 2) (lit 1) (lit 3) (0%nat, 0) (1%nat, 0) 0 (9%nat, 0) m' ;; cd_stencil_2d_v1diag 0 0 1 1 0 0 1 1 (lit 5) (3%nat, 0) 0 (9%nat, 0) m')
    (row2 (mkFa (9%nat, 0) [(0, 4); (0, 1); (0, 1)]) 1 1 (ex_vals 2 1 55 2 7)) = Some (-37, 12).
Proof.
  split; [repeat constructor; discriminate|].
  split; [unfold beside2; lia|].
  split; [k_qne|].
  split; [vm_compute; reflexivity|].
  split; [k_qne|].
  split; [k_vals|].
  split; [right; right; right; split; [reflexivity|split; [reflexivity|]]; exists (lit 3), (lit 1); repeat split; k_qc|].
  split; [vm_compute; reflexivity|].
  vm_compute; reflexivity.
Qed.

Theorem C48_physical_v2_2d : forall (S : Scalar), field_laws S ->
  forall i0 j0 i1 j1 pi0 pj0 pi1 pj1 dir side btype order dx d nf beta b0 b1 alpha sgcw st i j (m m1 m2 : mem S),
  i0 <= i <= i1 -> j0 <= j <= j1 -> 0 <= sgcw -> apart st [b0; b1] ->
  beside2 dir side pi0 pj0 pi1 pj1 i j -> (side = 0 \/ side = 1) -> (dir = 0 -> j0 <= pj0 /\ pj1 <= j1) -> (dir = 1 -> i0 <= pi0 /\ pi1 <= i1) -> (btype = 4 -> dir = 0) ->
  (m' <- cd_stencil_2d_offdiag i0 j0 i1 j1 i0 j0 i1 j1 dx beta b0 b1 sgcw st m ;;
   cd_stencil_2d_v2diag i0 j0 i1 j1 alpha sgcw st m') = Some m1 ->
  (m' <- cd_stencil_2d_offdiag i0 j0 i1 j1 i0 j0 i1 j1 dx beta b0 b1 sgcw st m ;;
   m' <- cd_stencil_2d_adj_offdiag i0 j0 i1 j1 pi0 pj0 pi1 pj1 dir side btype order dx d nf beta b0 b1 sgcw st m' ;;
   cd_stencil_2d_v2diag i0 j0 i1 j1 alpha sgcw st m') = Some m2 ->
  forall bv, (if dir =? 0 then ((mkFa b0 (FACE2d0 i0 j0 i1 j1 0))!(i + side, j))%F else ((mkFa b1 (FACE2d1 i0 j0 i1 j1 0))!(j + side, i))%F) m = Some bv ->
  (btype = 0 -> d <> lit 0) -> dx dir <> lit 0 -> (btype = 4 -> (lit 4 * bv + dx dir)%T <> lit 0) ->
  forall x y : Z -> S, (forall w, w <> col_out dir side -> y w = x w) ->
  ghost_rule btype order d (dx dir) bv (x (col_out dir side)) (x 0) (x (col_in dir side)) (y (col_out dir side)) ->
  exists v, row2 (mkFa st ((0, 4) :: CELL2d i0 j0 i1 j1 sgcw)) i j x m1 = Some v /\ row2 (mkFa st ((0, 4) :: CELL2d i0 j0 i1 j1 sgcw)) i j y m2 = Some v.
Proof. exact @physical_v2_2d. Qed.
Print Assumptions C48_physical_v2_2d.

Example C48_physical_v2_2d_example :
  apart (9%nat, 0) [(0%nat, 0); (1%nat, 0)] /\
  beside2 1 1 0 2 1 2 1 1 /\
  ex_st_h 1 <> lit 0 /\
  ((mkFa (1%nat, 0) [(0, 2); (0, 1)])!(2, 1))%F (ex_st_cells 24) = Some (lit 41) /\
  lit 2 <> (lit 0 : QcS) /\
  (forall w, w <> 4 -> (ex_vals 4 3 1 1 7) w = (ex_vals 4 3 3 1 7) w) /\
  ghost_rule 0 2 (lit 2) (ex_st_h 1) (lit 41) ((ex_vals 4 3 3 1 7) 4) ((ex_vals 4 3 3 1 7) 0) ((ex_vals 4 3 3 1 7) 3) ((ex_vals 4 3 1 1 7) 4) /\
  ex_after (m' <- cd_stencil_2d_offdiag 0 0 1 1 0 0 1 1 ex_st_h (lit 3) (0%nat, 0) (1%nat, 0) 0 (9%nat, 0) (ex_st_cells 24) ;; cd_stencil_2d_v2diag 0 0 1 1 (lit 5) 0 (9%nat, 0) m')
    (row2 (mkFa (9%nat, 0) [(0, 4); (0, 1); (0, 1)]) 1 1 (ex_vals 4 3 3 1 7)) = Some (-1267, 3) /\
  ex_after (m' <- cd_stencil_2d_offdiag 0 0 1 1 0 0 1 1 ex_st_h (lit 3) (0%nat, 0) (1%nat, 0) 0 (9%nat, 0) (ex_st_cells 24) ;; m' <- cd_stencil_2d_adj_offdiag 0 0 1 1 0 2 1 2 1 1 0 2 ex_st_h (lit 2) (lit 1) (lit 3) (0%nat, 0) (1%nat, 0) 0 (9%nat, 0) m' ;; cd_stencil_2d_v2diag 0 0 1 1 (lit 5) 0 (9%nat, 0) m')
    (row2 (mkFa (9%nat, 0) [(0, 4); (0, 1); (0, 1)]) 1 1 (ex_vals 4 3 1 1 7)) = Some (-1267, 3).
Proof.
  split; [repeat constructor; discriminate|].
  split; [unfold beside2; lia|].
  split; [k_qne|].
  split; [vm_compute; reflexivity|].
  split; [k_qne|].
  split; [k_vals|].
  split; [right; left; split; [reflexivity|split; [reflexivity|]]; exists (lit 1), (lit 1), (lit 1); repeat split; k_qc|].
  split; [vm_compute; reflexivity|].
  vm_compute; reflexivity.
Qed.

Theorem C48_physical_poisson_2d : forall (S : Scalar), field_laws S ->
  forall i0 j0 i1 j1 pi0 pj0 pi1 pj1 dir side btype order dx d nf beta sgcw st i j (m m1 m2 : mem S),
  i0 <= i <= i1 -> j0 <= j <= j1 -> 0 <= sgcw -> 
  beside2 dir side pi0 pj0 pi1 pj1 i j -> (side = 0 \/ side = 1) -> (dir = 0 -> j0 <= pj0 /\ pj1 <= j1) -> (dir = 1 -> i0 <= pi0 /\ pi1 <= i1) -> (btype = 4 -> dir = 0) ->
  (m' <- cd_stencil_2d_poisson_offdiag i0 j0 i1 j1 dx beta sgcw st m ;;
   cd_stencil_2d_poisson_diag i0 j0 i1 j1 sgcw st m') = Some m1 ->
  (m' <- cd_stencil_2d_poisson_offdiag i0 j0 i1 j1 dx beta sgcw st m ;;
   m' <- cd_stencil_2d_adj_poisson_offdiag i0 j0 i1 j1 pi0 pj0 pi1 pj1 dir side btype order dx d nf beta sgcw st m' ;;
   cd_stencil_2d_poisson_diag i0 j0 i1 j1 sgcw st m') = Some m2 ->
  (btype = 0 -> d <> lit 0) -> dx dir <> lit 0 -> (btype = 4 -> (lit 4 + dx dir)%T <> lit 0) ->
  forall x y : Z -> S, (forall w, w <> col_out dir side -> y w = x w) ->
  ghost_rule btype order d (dx dir) (lit 1) (x (col_out dir side)) (x 0) (x (col_in dir side)) (y (col_out dir side)) ->
  exists v, row2 (mkFa st ((0, 4) :: CELL2d i0 j0 i1 j1 sgcw)) i j x m1 = Some v /\ row2 (mkFa st ((0, 4) :: CELL2d i0 j0 i1 j1 sgcw)) i j y m2 = Some v.
Proof. exact @physical_poisson_2d. Qed.
Print Assumptions C48_physical_poisson_2d.

Example C48_physical_poisson_2d_example :
  beside2 1 0 0 (-1) 1 (-1) 1 0 /\
  ex_st_h 1 <> lit 0 /\
  (forall w, w <> 3 -> (ex_vals 3 4 9 2 7) w = (ex_vals 3 4 2 2 7) w) /\
  ghost_rule 1 1 (lit 2) (ex_st_h 1) (lit 1) ((ex_vals 3 4 2 2 7) 3) ((ex_vals 3 4 2 2 7) 0) ((ex_vals 3 4 2 2 7) 4) ((ex_vals 3 4 9 2 7) 3) /\
  ex_after (m' <- cd_stencil_2d_poisson_offdiag 0 0 1 1 ex_st_h (lit 3) 0 (9%nat, 0) (ex_st_cells 24) ;; cd_stencil_2d_poisson_diag 0 0 1 1 0 (9%nat, 0) m')
    (row2 (mkFa (9%nat, 0) [(0, 4); (0, 1); (0, 1)]) 1 0 (ex_vals 3 4 2 2 7)) = Some (-191, 12) /\
  ex_after (m' <- cd_stencil_2d_poisson_offdiag 0 0 1 1 ex_st_h (lit 3) 0 (9%nat, 0) (ex_st_cells 24) ;; m' <- cd_stencil_2d_adj_poisson_offdiag 0 0 1 1 0 (-1) 1 (-1) 1 0 1 1 ex_st_h (lit 2) (lit 1) (lit 3) 0 (9%nat, 0) m' ;; cd_stencil_2d_poisson_diag 0 0 1 1 0 (9%nat, 0) m')
    (row2 (mkFa (9%nat, 0) [(0, 4); (0, 1); (0, 1)]) 1 0 (ex_vals 3 4 9 2 7)) = Some (-191, 12).
Proof.
  split; [unfold beside2; lia|].
  split; [k_qne|].
  split; [k_vals|].
  split; [right; right; left; split; reflexivity|].
  split; [vm_compute; reflexivity|].
  vm_compute; reflexivity.
Qed.

Theorem C48_physical_v1_3d : forall (S : Scalar), field_laws S ->
  forall i0 j0 k0 i1 j1 k1 pi0 pj0 pk0 pi1 pj1 pk1 dir side btype order dx d nf beta b0 b1 b2 alpha ai0 aj0 ak0 ai1 aj1 ak1 a sgcw st i j k (m m1 m2 : mem S),
  i0 <= i <= i1 -> j0 <= j <= j1 -> k0 <= k <= k1 -> 0 <= sgcw -> apart st [b0; b1; b2; a] ->
  beside3 dir side pi0 pj0 pk0 pi1 pj1 pk1 i j k -> (side = 0 \/ side = 1) -> (dir = 0 -> j0 <= pj0 /\ pj1 <= j1 /\ k0 <= pk0 /\ pk1 <= k1) -> (dir = 1 -> i0 <= pi0 /\ pi1 <= i1 /\ k0 <= pk0 /\ pk1 <= k1) -> (dir = 2 -> i0 <= pi0 /\ pi1 <= i1 /\ j0 <= pj0 /\ pj1 <= j1) -> 
  (m' <- cd_stencil_3d_offdiag i0 j0 k0 i1 j1 k1 i0 j0 k0 i1 j1 k1 dx beta b0 b1 b2 sgcw st m ;;
   cd_stencil_3d_v1diag i0 j0 k0 i1 j1 k1 ai0 aj0 ak0 ai1 aj1 ak1 alpha a sgcw st m') = Some m1 ->
  (m' <- cd_stencil_3d_offdiag i0 j0 k0 i1 j1 k1 i0 j0 k0 i1 j1 k1 dx beta b0 b1 b2 sgcw st m ;;
   m' <- cd_stencil_3d_adj_offdiag i0 j0 k0 i1 j1 k1 pi0 pj0 pk0 pi1 pj1 pk1 dir side btype order dx d nf beta b0 b1 b2 sgcw st m' ;;
   cd_stencil_3d_v1diag i0 j0 k0 i1 j1 k1 ai0 aj0 ak0 ai1 aj1 ak1 alpha a sgcw st m') = Some m2 ->
  forall bv, (if dir =? 0 then ((mkFa b0 (FACE3d0 i0 j0 k0 i1 j1 k1 0))!(i + side, j, k))%F else if dir =? 1 then ((mkFa b1 (FACE3d1 i0 j0 k0 i1 j1 k1 0))!(j + side, k, i))%F else ((mkFa b2 (FACE3d2 i0 j0 k0 i1 j1 k1 0))!(k + side, i, j))%F) m = Some bv ->
  (btype = 0 -> d <> lit 0) -> dx dir <> lit 0 -> (btype = 4 -> (lit 4 * bv + dx dir)%T <> lit 0) ->
  forall x y : Z -> S, (forall w, w <> col_out dir side -> y w = x w) ->
  ghost_rule btype order d (dx dir) bv (x (col_out dir side)) (x 0) (x (col_in dir side)) (y (col_out dir side)) ->
  exists v, row3 (mkFa st ((0, 6) :: CELL3d i0 j0 k0 i1 j1 k1 sgcw)) i j k x m1 = Some v /\ row3 (mkFa st ((0, 6) :: CELL3d i0 j0 k0 i1 j1 k1 sgcw)) i j k y m2 = Some v.
Proof. exact @physical_v1_3d. Qed.
Print Assumptions C48_physical_v1_3d.

Example C48_physical_v1_3d_example :
  apart (9%nat, 0) [(0%nat, 0); (1%nat, 0); (2%nat, 0); (3%nat, 0)] /\
  beside3 2 1 0 0 2 1 1 2 1 1 1 /\
  ex_st_h 2 <> lit 0 /\
  ((mkFa (2%nat, 0) [(0, 2); (0, 1); (0, 1)])!(2, 1, 1))%F (ex_st_cells 60) = Some (lit 188) /\
  lit 2 <> (lit 0 : QcS) /\
  (forall w, w <> 6 -> (ex_vals 6 5 1 1 7) w = (ex_vals 6 5 3 1 7) w) /\
  ghost_rule 0 2 (lit 2) (ex_st_h 2) (lit 188) ((ex_vals 6 5 3 1 7) 6) ((ex_vals 6 5 3 1 7) 0) ((ex_vals 6 5 3 1 7) 5) ((ex_vals 6 5 1 1 7) 6) /\
  ex_after (m' <- cd_stencil_3d_offdiag 0 0 0 1 1 1 0 0 0 1 1 1 ex_st_h (lit 3) (0%nat, 0) (1%nat, 0) (2%nat, 0) 0 (9%nat, 0) (ex_st_cells 60) ;; cd_stencil_3d_v1diag 0 0 0 1 1 1 0 0 0 1 1 1 (lit 5) (3%nat, 0) 0 (9%nat, 0) m')
    (row3 (mkFa (9%nat, 0) [(0, 6); (0, 1); (0, 1); (0, 1)]) 1 1 1 (ex_vals 6 5 3 1 7)) = Some (-63511, 24) /\
  ex_after (m' <- cd_stencil_3d_offdiag 0 0 0 1 1 1 0 0 0 1 1 1 ex_st_h (lit 3) (0%nat, 0) (1%nat, 0) (2%nat, 0) 0 (9%nat, 0) (ex_st_cells 60) ;; m' <- cd_stencil_3d_adj_offdiag 0 0 0 1 1 1 0 0 2 1 1 2 2 1 0 2 ex_st_h (lit 2) (lit 1) (lit 3) (0%nat, 0) (1%nat, 0) (2%nat, 0) 0 (9%nat, 0) m' ;; cd_stencil_3d_v1diag 0 0 0 1 1 1 0 0 0 1 1 1 (lit 5) (3%nat, 0) 0 (9%nat, 0) m')
    (row3 (mkFa (9%nat, 0) [(0, 6); (0, 1); (0, 1); (0, 1)]) 1 1 1 (ex_vals 6 5 1 1 7)) = Some (-63511, 24).
Proof.
  split; [repeat constructor; discriminate|].
  split; [unfold beside3; lia|].
  split; [k_qne|].
  split; [vm_compute; reflexivity|].
  split; [k_qne|].
  split; [k_vals|].
  split; [right; left; split; [reflexivity|split; [reflexivity|]]; exists (lit 1), (lit 1), (lit 1); repeat split; k_qc|].
  split; [vm_compute; reflexivity|].
  vm_compute; reflexivity.
Qed.

Theorem C48_physical_v2_3d : forall (S : Scalar), field_laws S ->
  forall i0 j0 k0 i1 j1 k1 pi0 pj0 pk0 pi1 pj1 pk1 dir side btype order dx d nf beta b0 b1 b2 alpha sgcw st i j k (m m1 m2 : mem S),
  i0 <= i <= i1 -> j0 <= j <= j1 -> k0 <= k <= k1 -> 0 <= sgcw -> apart st [b0; b1; b2] ->
  beside3 dir side pi0 pj0 pk0 pi1 pj1 pk1 i j k -> (side = 0 \/ side = 1) -> (dir = 0 -> j0 <= pj0 /\ pj1 <= j1 /\ k0 <= pk0 /\ pk1 <= k1) -> (dir = 1 -> i0 <= pi0 /\ pi1 <= i1 /\ k0 <= pk0 /\ pk1 <= k1) -> (dir = 2 -> i0 <= pi0 /\ pi1 <= i1 /\ j0 <= pj0 /\ pj1 <= j1) -> 
  (m' <- cd_stencil_3d_offdiag i0 j0 k0 i1 j1 k1 i0 j0 k0 i1 j1 k1 dx beta b0 b1 b2 sgcw st m ;;
   cd_stencil_3d_v2diag i0 j0 k0 i1 j1 k1 alpha sgcw st m') = Some m1 ->
  (m' <- cd_stencil_3d_offdiag i0 j0 k0 i1 j1 k1 i0 j0 k0 i1 j1 k1 dx beta b0 b1 b2 sgcw st m ;;
   m' <- cd_stencil_3d_adj_offdiag i0 j0 k0 i1 j1 k1 pi0 pj0 pk0 pi1 pj1 pk1 dir side btype order dx d nf beta b0 b1 b2 sgcw st m' ;;
   cd_stencil_3d_v2diag i0 j0 k0 i1 j1 k1 alpha sgcw st m') = Some m2 ->
  forall bv, (if dir =? 0 then ((mkFa b0 (FACE3d0 i0 j0 k0 i1 j1 k1 0))!(i + side, j, k))%F else if dir =? 1 then ((mkFa b1 (FACE3d1 i0 j0 k0 i1 j1 k1 0))!(j + side, k, i))%F else ((mkFa b2 (FACE3d2 i0 j0 k0 i1 j1 k1 0))!(k + side, i, j))%F) m = Some bv ->
  (btype = 0 -> d <> lit 0) -> dx dir <> lit 0 -> (btype = 4 -> (lit 4 * bv + dx dir)%T <> lit 0) ->
  forall x y : Z -> S, (forall w, w <> col_out dir side -> y w = x w) ->
  ghost_rule btype order d (dx dir) bv (x (col_out dir side)) (x 0) (x (col_in dir side)) (y (col_out dir side)) ->
  exists v, row3 (mkFa st ((0, 6) :: CELL3d i0 j0 k0 i1 j1 k1 sgcw)) i j k x m1 = Some v /\ row3 (mkFa st ((0, 6) :: CELL3d i0 j0 k0 i1 j1 k1 sgcw)) i j k y m2 = Some v.
Proof. exact @physical_v2_3d. Qed.
Print Assumptions C48_physical_v2_3d.

Example C48_physical_v2_3d_example :
  apart (9%nat, 0) [(0%nat, 0); (1%nat, 0); (2%nat, 0)] /\
  beside3 1 0 0 (-1) 0 1 (-1) 1 1 0 1 /\
  ex_st_h 1 <> lit 0 /\
  ((mkFa (1%nat, 0) [(0, 2); (0, 1); (0, 1)])!(0, 1, 1))%F (ex_st_cells 60) = Some (lit 109) /\
  (lit 4 * lit 109 + ex_st_h 1)%T <> lit 0 /\
  (forall w, w <> 3 -> (ex_vals 3 4 439 0 7) w = (ex_vals 3 4 6 0 7) w) /\
  ghost_rule 4 1 (lit 2) (ex_st_h 1) (lit 109) ((ex_vals 3 4 6 0 7) 3) ((ex_vals 3 4 6 0 7) 0) ((ex_vals 3 4 6 0 7) 4) ((ex_vals 3 4 439 0 7) 3) /\
  ex_after (m' <- cd_stencil_3d_offdiag 0 0 0 1 1 1 0 0 0 1 1 1 ex_st_h (lit 3) (0%nat, 0) (1%nat, 0) (2%nat, 0) 0 (9%nat, 0) (ex_st_cells 60) ;; cd_stencil_3d_v2diag 0 0 0 1 1 1 (lit 5) 0 (9%nat, 0) m')
    (row3 (mkFa (9%nat, 0) [(0, 6); (0, 1); (0, 1); (0, 1)]) 1 0 1 (ex_vals 3 4 6 0 7)) = Some (-86615, 48) /\
  ex_after (m' <- cd_stencil_3d_offdiag 0 0 0 1 1 1 0 0 0 1 1 1 ex_st_h (lit 3) (0%nat, 0) (1%nat, 0) (2%nat, 0) 0 (9%nat, 0) (ex_st_cells 60) ;; m' <- cd_stencil_3d_adj_offdiag 0 0 0 1 1 1 0 (-1) 0 1 (-1) 1 1 0 4 1 ex_st_h (lit 2) (lit 1) (lit 3) (0%nat, 0) (1%nat, 0) (2%nat, 0) 0 (9%nat, 0) m' ;; cd_stencil_3d_v2diag 0 0 0 1 1 1 (lit 5) 0 (9%nat, 0) m')
    (row3 (mkFa (9%nat, 0) [(0, 6); (0, 1); (0, 1); (0, 1)]) 1 0 1 (ex_vals 3 4 439 0 7)) = Some (-86615, 48).
Proof.
  split; [repeat constructor; discriminate|].
  split; [unfold beside3; lia|].
  split; [k_qne|].
  split; [vm_compute; reflexivity|].
  split; [k_qne|].
  split; [k_vals|].
  split; [right; right; right; split; [reflexivity|split; [reflexivity|]]; exists (lit 3), (lit 3); repeat split; k_qc|].
  split; [vm_compute; reflexivity|].
  vm_compute; reflexivity.
Qed.

Theorem C48_physical_poisson_3d : forall (S : Scalar), field_laws S ->
  forall i0 j0 k0 i1 j1 k1 pi0 pj0 pk0 pi1 pj1 pk1 dir side btype order dx d nf beta sgcw st i j k (m m1 m2 : mem S),
  i0 <= i <= i1 -> j0 <= j <= j1 -> k0 <= k <= k1 -> 0 <= sgcw -> 
  beside3 dir side pi0 pj0 pk0 pi1 pj1 pk1 i j k -> (side = 0 \/ side = 1) -> (dir = 0 -> j0 <= pj0 /\ pj1 <= j1 /\ k0 <= pk0 /\ pk1 <= k1) -> (dir = 1 -> i0 <= pi0 /\ pi1 <= i1 /\ k0 <= pk0 /\ pk1 <= k1) -> (dir = 2 -> i0 <= pi0 /\ pi1 <= i1 /\ j0 <= pj0 /\ pj1 <= j1) -> 
  (m' <- cd_stencil_3d_poisson_offdiag i0 j0 k0 i1 j1 k1 dx beta sgcw st m ;;
   cd_stencil_3d_poisson_diag i0 j0 k0 i1 j1 k1 sgcw st m') = Some m1 ->
  (m' <- cd_stencil_3d_poisson_offdiag i0 j0 k0 i1 j1 k1 dx beta sgcw st m ;;
   m' <- cd_stencil_3d_adj_poisson_offdiag i0 j0 k0 i1 j1 k1 pi0 pj0 pk0 pi1 pj1 pk1 dir side btype order dx d nf beta sgcw st m' ;;
   cd_stencil_3d_poisson_diag i0 j0 k0 i1 j1 k1 sgcw st m') = Some m2 ->
  (btype = 0 -> d <> lit 0) -> dx dir <> lit 0 -> (btype = 4 -> (lit 4 + dx dir)%T <> lit 0) ->
  forall x y : Z -> S, (forall w, w <> col_out dir side -> y w = x w) ->
  ghost_rule btype order d (dx dir) (lit 1) (x (col_out dir side)) (x 0) (x (col_in dir side)) (y (col_out dir side)) ->
  exists v, row3 (mkFa st ((0, 6) :: CELL3d i0 j0 k0 i1 j1 k1 sgcw)) i j k x m1 = Some v /\ row3 (mkFa st ((0, 6) :: CELL3d i0 j0 k0 i1 j1 k1 sgcw)) i j k y m2 = Some v.
Proof. exact @physical_poisson_3d. Qed.
Print Assumptions C48_physical_poisson_3d.

Example C48_physical_poisson_3d_example :
  beside3 2 1 0 0 2 1 1 2 1 1 1 /\
  ex_st_h 2 <> lit 0 /\
  (lit 4 * lit 1 + ex_st_h 2)%T <> lit 0 /\
  (forall w, w <> 6 -> (ex_vals 6 5 5 1 7) w = (ex_vals 6 5 5 1 7) w) /\
  ghost_rule 4 1 (lit 2) (ex_st_h 2) (lit 1) ((ex_vals 6 5 5 1 7) 6) ((ex_vals 6 5 5 1 7) 0) ((ex_vals 6 5 5 1 7) 5) ((ex_vals 6 5 5 1 7) 6) /\
  ex_after (m' <- cd_stencil_3d_poisson_offdiag 0 0 0 1 1 1 ex_st_h (lit 3) 0 (9%nat, 0) (ex_st_cells 60) ;; cd_stencil_3d_poisson_diag 0 0 0 1 1 1 0 (9%nat, 0) m')
    (row3 (mkFa (9%nat, 0) [(0, 6); (0, 1); (0, 1); (0, 1)]) 1 1 1 (ex_vals 6 5 5 1 7)) = Some (-623, 24) /\
  ex_after (m' <- cd_stencil_3d_poisson_offdiag 0 0 0 1 1 1 ex_st_h (lit 3) 0 (9%nat, 0) (ex_st_cells 60) ;; m' <- cd_stencil_3d_adj_poisson_offdiag 0 0 0 1 1 1 0 0 2 1 1 2 2 1 4 1 ex_st_h (lit 2) (lit 1) (lit 3) 0 (9%nat, 0) m' ;; cd_stencil_3d_poisson_diag 0 0 0 1 1 1 0 (9%nat, 0) m')
    (row3 (mkFa (9%nat, 0) [(0, 6); (0, 1); (0, 1); (0, 1)]) 1 1 1 (ex_vals 6 5 5 1 7)) = Some (-623, 24).
Proof.
  split; [unfold beside3; lia|].
  split; [k_qne|].
  split; [k_qne|].
  split; [k_vals|].
  split; [right; right; right; split; [reflexivity|split; [reflexivity|]]; exists (lit 3), (lit 2); repeat split; k_qc|].
  split; [vm_compute; reflexivity|].
  vm_compute; reflexivity.
Qed.

(** ** C48, what is not true

    Robin of order 2: the elimination needs [beta b / (h (3 h + 16 b))], the kernels
    compute [beta b / h * (3 h + 16 b)].  With [b = 1], [h = 2], datum 0 and values on a
    parabola that meets the condition, the row after the correction gives another value,
    whether the diagonal is computed before or after the off-diagonal is corrected. *)

Theorem C48_robin2_refuted :
  exists x : Z -> QcS,
  robin2 (ex_st_h 0) (lit 1) (x 1) (x 0) (x 2) (lit 0) /\
  ((mkFa (0%nat, 0) [(0, 2)])!(0))%F (ex_st_cells 16) = Some (lit 1) /\
  let y := fun w => if w =? 1 then lit 0 else x w in
  ex_after (m' <- cd_stencil_1d_offdiag 0 1 0 1 ex_st_h (lit 3) (0%nat, 0) 0 (9%nat, 0) (ex_st_cells 16) ;; cd_stencil_1d_v2diag 0 1 (lit 5) 0 (9%nat, 0) m')
    (row1 (mkFa (9%nat, 0) [(0, 2); (0, 1)]) 0 x) = Some (-41, 2) /\
  ex_after (m' <- cd_stencil_1d_offdiag 0 1 0 1 ex_st_h (lit 3) (0%nat, 0) 0 (9%nat, 0) (ex_st_cells 16) ;; m' <- cd_stencil_1d_adj_offdiag 0 1 (-1) (-1) 0 4 2 ex_st_h (lit 2) (lit 1) (lit 3) (0%nat, 0) 0 (9%nat, 0) m' ;; m' <- cd_stencil_1d_v2diag 0 1 (lit 5) 0 (9%nat, 0) m' ;; cd_stencil_1d_adj_diag 0 1 (-1) (-1) 0 4 2 ex_st_h (lit 3) (0%nat, 0) 0 (9%nat, 0) m')
    (row1 (mkFa (9%nat, 0) [(0, 2); (0, 1)]) 0 y) = Some (499, 11) /\
  ex_after (m' <- cd_stencil_1d_offdiag 0 1 0 1 ex_st_h (lit 3) (0%nat, 0) 0 (9%nat, 0) (ex_st_cells 16) ;; m' <- cd_stencil_1d_v2diag 0 1 (lit 5) 0 (9%nat, 0) m' ;; m' <- cd_stencil_1d_adj_offdiag 0 1 (-1) (-1) 0 4 2 ex_st_h (lit 2) (lit 1) (lit 3) (0%nat, 0) 0 (9%nat, 0) m' ;; cd_stencil_1d_adj_diag 0 1 (-1) (-1) 0 4 2 ex_st_h (lit 3) (0%nat, 0) 0 (9%nat, 0) m')
    (row1 (mkFa (9%nat, 0) [(0, 2); (0, 1)]) 0 y) = Some (995, 22).
Proof.
  exists (ex_vals 1 2 0 (-2) 4). split; [exists (lit (-2)), (lit 1), (lit 1); repeat split; k_qc|].
  split; [vm_compute; reflexivity|]. vm_compute. repeat split; reflexivity.
Qed.
Print Assumptions C48_robin2_refuted.

(** Dirichlet of order 2 in 2D and 3D: the diagonal computed from the corrected
    off-diagonal is right ([C48_physical_*]); the further change [adj_diag] makes to it
    is one too many, and is not enough either if the diagonal was computed first. *)

Theorem C48_dirichlet2_adj_diag_2d_refuted :
  dirichlet2 ((ex_vals 1 2 3 1 7) 1) ((ex_vals 1 2 3 1 7) 0) ((ex_vals 1 2 3 1 7) 2) ((ex_vals 1 2 1 1 7) 1) /\
  (forall w, w <> 1 -> (ex_vals 1 2 1 1 7) w = (ex_vals 1 2 3 1 7) w) /\
  ex_after (m' <- cd_stencil_2d_offdiag 0 0 1 1 0 0 1 1 ex_st_h (lit 3) (0%nat, 0) (1%nat, 0) 0 (9%nat, 0) (ex_st_cells 24) ;; cd_stencil_2d_v2diag 0 0 1 1 (lit 5) 0 (9%nat, 0) m')
    (row2 (mkFa (9%nat, 0) [(0, 4); (0, 1); (0, 1)]) 0 1 (ex_vals 1 2 3 1 7)) = Some (-925, 6) /\
  ex_after (m' <- cd_stencil_2d_offdiag 0 0 1 1 0 0 1 1 ex_st_h (lit 3) (0%nat, 0) (1%nat, 0) 0 (9%nat, 0) (ex_st_cells 24) ;; m' <- cd_stencil_2d_adj_offdiag 0 0 1 1 (-1) 0 (-1) 1 0 0 0 2 ex_st_h (lit 2) (lit 1) (lit 3) (0%nat, 0) (1%nat, 0) 0 (9%nat, 0) m' ;; m' <- cd_stencil_2d_v2diag 0 0 1 1 (lit 5) 0 (9%nat, 0) m' ;; cd_stencil_2d_adj_diag 0 0 1 1 (-1) 0 (-1) 1 0 0 0 2 ex_st_h (lit 3) (0%nat, 0) (1%nat, 0) 0 (9%nat, 0) m')
    (row2 (mkFa (9%nat, 0) [(0, 4); (0, 1); (0, 1)]) 0 1 (ex_vals 1 2 1 1 7)) = Some (-455, 3) /\
  ex_after (m' <- cd_stencil_2d_offdiag 0 0 1 1 0 0 1 1 ex_st_h (lit 3) (0%nat, 0) (1%nat, 0) 0 (9%nat, 0) (ex_st_cells 24) ;; m' <- cd_stencil_2d_v2diag 0 0 1 1 (lit 5) 0 (9%nat, 0) m' ;; m' <- cd_stencil_2d_adj_offdiag 0 0 1 1 (-1) 0 (-1) 1 0 0 0 2 ex_st_h (lit 2) (lit 1) (lit 3) (0%nat, 0) (1%nat, 0) 0 (9%nat, 0) m' ;; cd_stencil_2d_adj_diag 0 0 1 1 (-1) 0 (-1) 1 0 0 0 2 ex_st_h (lit 3) (0%nat, 0) (1%nat, 0) 0 (9%nat, 0) m')
    (row2 (mkFa (9%nat, 0) [(0, 4); (0, 1); (0, 1)]) 0 1 (ex_vals 1 2 1 1 7)) = Some (-500, 3).
Proof.
  split; [exists (lit 1), (lit 1), (lit 1); repeat split; k_qc|].
  split; [k_vals|]. vm_compute. repeat split; reflexivity.
Qed.
Print Assumptions C48_dirichlet2_adj_diag_2d_refuted.

Theorem C48_dirichlet2_adj_diag_3d_refuted :
  dirichlet2 ((ex_vals 1 2 3 1 7) 1) ((ex_vals 1 2 3 1 7) 0) ((ex_vals 1 2 3 1 7) 2) ((ex_vals 1 2 1 1 7) 1) /\
  (forall w, w <> 1 -> (ex_vals 1 2 1 1 7) w = (ex_vals 1 2 3 1 7) w) /\
  ex_after (m' <- cd_stencil_3d_offdiag 0 0 0 1 1 1 0 0 0 1 1 1 ex_st_h (lit 3) (0%nat, 0) (1%nat, 0) (2%nat, 0) 0 (9%nat, 0) (ex_st_cells 60) ;; cd_stencil_3d_v2diag 0 0 0 1 1 1 (lit 5) 0 (9%nat, 0) m')
    (row3 (mkFa (9%nat, 0) [(0, 6); (0, 1); (0, 1); (0, 1)]) 0 1 1 (ex_vals 1 2 3 1 7)) = Some (-68423, 48) /\
  ex_after (m' <- cd_stencil_3d_offdiag 0 0 0 1 1 1 0 0 0 1 1 1 ex_st_h (lit 3) (0%nat, 0) (1%nat, 0) (2%nat, 0) 0 (9%nat, 0) (ex_st_cells 60) ;; m' <- cd_stencil_3d_adj_offdiag 0 0 0 1 1 1 (-1) 0 0 (-1) 1 1 0 0 0 2 ex_st_h (lit 2) (lit 1) (lit 3) (0%nat, 0) (1%nat, 0) (2%nat, 0) 0 (9%nat, 0) m' ;; m' <- cd_stencil_3d_v2diag 0 0 0 1 1 1 (lit 5) 0 (9%nat, 0) m' ;; cd_stencil_3d_adj_diag 0 0 0 1 1 1 (-1) 0 0 (-1) 1 1 0 0 0 2 ex_st_h (lit 3) (0%nat, 0) (1%nat, 0) (2%nat, 0) 0 (9%nat, 0) m')
    (row3 (mkFa (9%nat, 0) [(0, 6); (0, 1); (0, 1); (0, 1)]) 0 1 1 (ex_vals 1 2 1 1 7)) = Some (-67439, 48) /\
  ex_after (m' <- cd_stencil_3d_offdiag 0 0 0 1 1 1 0 0 0 1 1 1 ex_st_h (lit 3) (0%nat, 0) (1%nat, 0) (2%nat, 0) 0 (9%nat, 0) (ex_st_cells 60) ;; m' <- cd_stencil_3d_v2diag 0 0 0 1 1 1 (lit 5) 0 (9%nat, 0) m' ;; m' <- cd_stencil_3d_adj_offdiag 0 0 0 1 1 1 (-1) 0 0 (-1) 1 1 0 0 0 2 ex_st_h (lit 2) (lit 1) (lit 3) (0%nat, 0) (1%nat, 0) (2%nat, 0) 0 (9%nat, 0) m' ;; cd_stencil_3d_adj_diag 0 0 0 1 1 1 (-1) 0 0 (-1) 1 1 0 0 0 2 ex_st_h (lit 3) (0%nat, 0) (1%nat, 0) (2%nat, 0) 0 (9%nat, 0) m')
    (row3 (mkFa (9%nat, 0) [(0, 6); (0, 1); (0, 1); (0, 1)]) 0 1 1 (ex_vals 1 2 1 1 7)) = Some (-73343, 48).
Proof.
  split; [exists (lit 1), (lit 1), (lit 1); repeat split; k_qc|].
  split; [k_vals|]. vm_compute. repeat split; reflexivity.
Qed.
Print Assumptions C48_dirichlet2_adj_diag_3d_refuted.

(** ** C49: at a coarse–fine interface

    [m2]: diagonal and off-diagonal corrected after assembly.  The corrected row acts on
    the coarse value as the original on the value interpolated in the ghost cell. *)

Theorem C49_coarse_v1_1d : forall (S : Scalar), field_laws S ->
  forall i0 i1 pi0 pi1 r side order dx beta b0 alpha ai0 ai1 a sgcw st i (m m1 m2 : mem S),
  i0 <= i <= i1 -> 0 <= sgcw -> apart st [b0; a] ->
  beside1 side pi0 i -> (side = 0 \/ side = 1) -> 
  (m' <- cd_stencil_1d_offdiag i0 i1 i0 i1 dx beta b0 sgcw st m ;;
   cd_stencil_1d_v1diag i0 i1 ai0 ai1 alpha a sgcw st m') = Some m1 ->
  (m' <- cd_stencil_1d_offdiag i0 i1 i0 i1 dx beta b0 sgcw st m ;; m' <- cd_stencil_1d_v1diag i0 i1 ai0 ai1 alpha a sgcw st m' ;;
   m' <- cd_stencil_1d_adj_cf_diag i0 i1 pi0 pi1 r side order dx beta b0 sgcw st m' ;;
   cd_stencil_1d_adj_cf_offdiag i0 i1 pi0 pi1 r side order sgcw st m') = Some m2 ->
  1 <= r ->
  forall x y : Z -> S, (forall w, w <> col_out 0 side -> y w = x w) ->
  coarse_rule order (lit r) (x (col_out 0 side)) (x 0) (x (col_in 0 side)) (y (col_out 0 side)) ->
  exists v, row1 (mkFa st ((0, 2) :: CELL1d i0 i1 sgcw)) i x m1 = Some v /\ row1 (mkFa st ((0, 2) :: CELL1d i0 i1 sgcw)) i y m2 = Some v.
Proof. exact @coarse_v1_1d. Qed.
Print Assumptions C49_coarse_v1_1d.

Example C49_coarse_v1_1d_example :
  apart (9%nat, 0) [(0%nat, 0); (3%nat, 0)] /\
  beside1 0 (-1) 0 /\
  (forall w, w <> 1 -> (ex_vals 1 2 13 3 13) w = (ex_vals 1 2 1 3 13) w) /\
  coarse_rule 2 (lit 4) ((ex_vals 1 2 1 3 13) 1) ((ex_vals 1 2 1 3 13) 0) ((ex_vals 1 2 1 3 13) 2) ((ex_vals 1 2 13 3 13) 1) /\
  ex_after (m' <- cd_stencil_1d_offdiag 0 1 0 1 ex_st_h (lit 3) (0%nat, 0) 0 (9%nat, 0) (ex_st_cells 16) ;; cd_stencil_1d_v1diag 0 1 0 1 (lit 5) (3%nat, 0) 0 (9%nat, 0) m')
    (row1 (mkFa (9%nat, 0) [(0, 2); (0, 1)]) 0 (ex_vals 1 2 1 3 13)) = Some (3, 2) /\
  ex_after (m' <- cd_stencil_1d_offdiag 0 1 0 1 ex_st_h (lit 3) (0%nat, 0) 0 (9%nat, 0) (ex_st_cells 16) ;; m' <- cd_stencil_1d_v1diag 0 1 0 1 (lit 5) (3%nat, 0) 0 (9%nat, 0) m' ;; m' <- cd_stencil_1d_adj_cf_diag 0 1 (-1) (-1) 4 0 2 ex_st_h (lit 3) (0%nat, 0) 0 (9%nat, 0) m' ;; cd_stencil_1d_adj_cf_offdiag 0 1 (-1) (-1) 4 0 2 0 (9%nat, 0) m')
    (row1 (mkFa (9%nat, 0) [(0, 2); (0, 1)]) 0 (ex_vals 1 2 13 3 13)) = Some (3, 2).
Proof.
  split; [repeat constructor; discriminate|].
  split; [unfold beside1; lia|].
  split; [k_vals|].
  split; [right; split; [reflexivity|]; exists (lit 1), (lit 1), (lit 1); repeat split; k_qc|].
  split; [vm_compute; reflexivity|].
  vm_compute; reflexivity.
Qed.

Theorem C49_coarse_v2_1d : forall (S : Scalar), field_laws S ->
  forall i0 i1 pi0 pi1 r side order dx beta b0 alpha sgcw st i (m m1 m2 : mem S),
  i0 <= i <= i1 -> 0 <= sgcw -> apart st [b0] ->
  beside1 side pi0 i -> (side = 0 \/ side = 1) -> 
  (m' <- cd_stencil_1d_offdiag i0 i1 i0 i1 dx beta b0 sgcw st m ;;
   cd_stencil_1d_v2diag i0 i1 alpha sgcw st m') = Some m1 ->
  (m' <- cd_stencil_1d_offdiag i0 i1 i0 i1 dx beta b0 sgcw st m ;; m' <- cd_stencil_1d_v2diag i0 i1 alpha sgcw st m' ;;
   m' <- cd_stencil_1d_adj_cf_diag i0 i1 pi0 pi1 r side order dx beta b0 sgcw st m' ;;
   cd_stencil_1d_adj_cf_offdiag i0 i1 pi0 pi1 r side order sgcw st m') = Some m2 ->
  1 <= r ->
  forall x y : Z -> S, (forall w, w <> col_out 0 side -> y w = x w) ->
  coarse_rule order (lit r) (x (col_out 0 side)) (x 0) (x (col_in 0 side)) (y (col_out 0 side)) ->
  exists v, row1 (mkFa st ((0, 2) :: CELL1d i0 i1 sgcw)) i x m1 = Some v /\ row1 (mkFa st ((0, 2) :: CELL1d i0 i1 sgcw)) i y m2 = Some v.
Proof. exact @coarse_v2_1d. Qed.
Print Assumptions C49_coarse_v2_1d.

Example C49_coarse_v2_1d_example :
  apart (9%nat, 0) [(0%nat, 0)] /\
  beside1 1 2 1 /\
  (forall w, w <> 2 -> (ex_vals 2 1 (-3) 3 7) w = (ex_vals 2 1 (-1) 3 7) w) /\
  coarse_rule 1 (lit 2) ((ex_vals 2 1 (-1) 3 7) 2) ((ex_vals 2 1 (-1) 3 7) 0) ((ex_vals 2 1 (-1) 3 7) 1) ((ex_vals 2 1 (-3) 3 7) 2) /\
  ex_after (m' <- cd_stencil_1d_offdiag 0 1 0 1 ex_st_h (lit 3) (0%nat, 0) 0 (9%nat, 0) (ex_st_cells 16) ;; cd_stencil_1d_v2diag 0 1 (lit 5) 0 (9%nat, 0) m')
    (row1 (mkFa (9%nat, 0) [(0, 2); (0, 1)]) 1 (ex_vals 2 1 (-1) 3 7)) = Some (24, 1) /\
  ex_after (m' <- cd_stencil_1d_offdiag 0 1 0 1 ex_st_h (lit 3) (0%nat, 0) 0 (9%nat, 0) (ex_st_cells 16) ;; m' <- cd_stencil_1d_v2diag 0 1 (lit 5) 0 (9%nat, 0) m' ;; m' <- cd_stencil_1d_adj_cf_diag 0 1 2 2 2 1 1 ex_st_h (lit 3) (0%nat, 0) 0 (9%nat, 0) m' ;; cd_stencil_1d_adj_cf_offdiag 0 1 2 2 2 1 1 0 (9%nat, 0) m')
    (row1 (mkFa (9%nat, 0) [(0, 2); (0, 1)]) 1 (ex_vals 2 1 (-3) 3 7)) = Some (24, 1).
Proof.
  split; [repeat constructor; discriminate|].
  split; [unfold beside1; lia|].
  split; [k_vals|].
  split; [left; split; [reflexivity|split; [reflexivity|]]; exists (lit 1), (lit 2); repeat split; k_qc|].
  split; [vm_compute; reflexivity|].
  vm_compute; reflexivity.
Qed.

Theorem C49_coarse_poisson_1d : forall (S : Scalar), field_laws S ->
  forall i0 i1 pi0 pi1 r side order dx beta sgcw st i (m m1 m2 : mem S),
  i0 <= i <= i1 -> 0 <= sgcw -> 
  beside1 side pi0 i -> (side = 0 \/ side = 1) -> 
  (m' <- cd_stencil_1d_poisson_offdiag i0 i1 dx beta sgcw st m ;;
   cd_stencil_1d_poisson_diag i0 i1 sgcw st m') = Some m1 ->
  (m' <- cd_stencil_1d_poisson_offdiag i0 i1 dx beta sgcw st m ;; m' <- cd_stencil_1d_poisson_diag i0 i1 sgcw st m' ;;
   m' <- cd_stencil_1d_adj_poisson_cf_diag i0 i1 pi0 pi1 r side order dx beta sgcw st m' ;;
   cd_stencil_1d_adj_cf_offdiag i0 i1 pi0 pi1 r side order sgcw st m') = Some m2 ->
  1 <= r ->
  forall x y : Z -> S, (forall w, w <> col_out 0 side -> y w = x w) ->
  coarse_rule order (lit r) (x (col_out 0 side)) (x 0) (x (col_in 0 side)) (y (col_out 0 side)) ->
  exists v, row1 (mkFa st ((0, 2) :: CELL1d i0 i1 sgcw)) i x m1 = Some v /\ row1 (mkFa st ((0, 2) :: CELL1d i0 i1 sgcw)) i y m2 = Some v.
Proof. exact @coarse_poisson_1d. Qed.
Print Assumptions C49_coarse_poisson_1d.

Example C49_coarse_poisson_1d_example :
  beside1 1 2 1 /\
  (forall w, w <> 2 -> (ex_vals 2 1 7 3 13) w = (ex_vals 2 1 1 3 13) w) /\
  coarse_rule 2 (lit 3) ((ex_vals 2 1 1 3 13) 2) ((ex_vals 2 1 1 3 13) 0) ((ex_vals 2 1 1 3 13) 1) ((ex_vals 2 1 7 3 13) 2) /\
  ex_after (m' <- cd_stencil_1d_poisson_offdiag 0 1 ex_st_h (lit 3) 0 (9%nat, 0) (ex_st_cells 16) ;; cd_stencil_1d_poisson_diag 0 1 0 (9%nat, 0) m')
    (row1 (mkFa (9%nat, 0) [(0, 2); (0, 1)]) 1 (ex_vals 2 1 1 3 13)) = Some (-6, 1) /\
  ex_after (m' <- cd_stencil_1d_poisson_offdiag 0 1 ex_st_h (lit 3) 0 (9%nat, 0) (ex_st_cells 16) ;; m' <- cd_stencil_1d_poisson_diag 0 1 0 (9%nat, 0) m' ;; m' <- cd_stencil_1d_adj_poisson_cf_diag 0 1 2 2 3 1 2 ex_st_h (lit 3) 0 (9%nat, 0) m' ;; cd_stencil_1d_adj_cf_offdiag 0 1 2 2 3 1 2 0 (9%nat, 0) m')
    (row1 (mkFa (9%nat, 0) [(0, 2); (0, 1)]) 1 (ex_vals 2 1 7 3 13)) = Some (-6, 1).
Proof.
  split; [unfold beside1; lia|].
  split; [k_vals|].
  split; [right; split; [reflexivity|]; exists (lit 1), (lit 1), (lit 1); repeat split; k_qc|].
  split; [vm_compute; reflexivity|].
  vm_compute; reflexivity.
Qed.

Theorem C49_coarse_v1_2d : forall (S : Scalar), field_laws S ->
  forall i0 j0 i1 j1 pi0 pj0 pi1 pj1 r dir side order dx beta b0 b1 alpha ai0 aj0 ai1 aj1 a sgcw st i j (m m1 m2 : mem S),
  i0 <= i <= i1 -> j0 <= j <= j1 -> 0 <= sgcw -> apart st [b0; b1; a] ->
  beside2 dir side pi0 pj0 pi1 pj1 i j -> (side = 0 \/ side = 1) -> (dir = 0 -> j0 <= pj0 /\ pj1 <= j1) -> (dir = 1 -> i0 <= pi0 /\ pi1 <= i1) -> 
  (m' <- cd_stencil_2d_offdiag i0 j0 i1 j1 i0 j0 i1 j1 dx beta b0 b1 sgcw st m ;;
   cd_stencil_2d_v1diag i0 j0 i1 j1 ai0 aj0 ai1 aj1 alpha a sgcw st m') = Some m1 ->
  (m' <- cd_stencil_2d_offdiag i0 j0 i1 j1 i0 j0 i1 j1 dx beta b0 b1 sgcw st m ;; m' <- cd_stencil_2d_v1diag i0 j0 i1 j1 ai0 aj0 ai1 aj1 alpha a sgcw st m' ;;
   m' <- cd_stencil_2d_adj_cf_diag i0 j0 i1 j1 pi0 pj0 pi1 pj1 r dir side order dx beta b0 b1 sgcw st m' ;;
   cd_stencil_2d_adj_cf_offdiag i0 j0 i1 j1 pi0 pj0 pi1 pj1 r dir side order sgcw st m') = Some m2 ->
  1 <= r ->
  forall x y : Z -> S, (forall w, w <> col_out dir side -> y w = x w) ->
  coarse_rule order (lit r) (x (col_out dir side)) (x 0) (x (col_in dir side)) (y (col_out dir side)) ->
  exists v, row2 (mkFa st ((0, 4) :: CELL2d i0 j0 i1 j1 sgcw)) i j x m1 = Some v /\ row2 (mkFa st ((0, 4) :: CELL2d i0 j0 i1 j1 sgcw)) i j y m2 = Some v.
Proof. exact @coarse_v1_2d. Qed.
Print Assumptions C49_coarse_v1_2d.

Example C49_coarse_v1_2d_example :
  apart (9%nat, 0) [(0%nat, 0); (1%nat, 0); (3%nat, 0)] /\
  beside2 1 1 0 2 1 2 1 1 /\
  (forall w, w <> 4 -> (ex_vals 4 3 13 3 13) w = (ex_vals 4 3 1 3 13) w) /\
  coarse_rule 2 (lit 4) ((ex_vals 4 3 1 3 13) 4) ((ex_vals 4 3 1 3 13) 0) ((ex_vals 4 3 1 3 13) 3) ((ex_vals 4 3 13 3 13) 4) /\
  ex_after (m' <- cd_stencil_2d_offdiag 0 0 1 1 0 0 1 1 ex_st_h (lit 3) (0%nat, 0) (1%nat, 0) 0 (9%nat, 0) (ex_st_cells 24) ;; cd_stencil_2d_v1diag 0 0 1 1 0 0 1 1 (lit 5) (3%nat, 0) 0 (9%nat, 0) m')
    (row2 (mkFa (9%nat, 0) [(0, 4); (0, 1); (0, 1)]) 1 1 (ex_vals 4 3 1 3 13)) = Some (1249, 6) /\
  ex_after (m' <- cd_stencil_2d_offdiag 0 0 1 1 0 0 1 1 ex_st_h (lit 3) (0%nat, 0) (1%nat, 0) 0 (9%nat, 0) (ex_st_cells 24) ;; m' <- cd_stencil_2d_v1diag 0 0 1 1 0 0 1 1 (lit 5) (3%nat, 0) 0 (9%nat, 0) m' ;; m' <- cd_stencil_2d_adj_cf_diag 0 0 1 1 0 2 1 2 4 1 1 2 ex_st_h (lit 3) (0%nat, 0) (1%nat, 0) 0 (9%nat, 0) m' ;; cd_stencil_2d_adj_cf_offdiag 0 0 1 1 0 2 1 2 4 1 1 2 0 (9%nat, 0) m')
    (row2 (mkFa (9%nat, 0) [(0, 4); (0, 1); (0, 1)]) 1 1 (ex_vals 4 3 13 3 13)) = Some (1249, 6).
Proof.
  split; [repeat constructor; discriminate|].
  split; [unfold beside2; lia|].
  split; [k_vals|].
  split; [right; split; [reflexivity|]; exists (lit 1), (lit 1), (lit 1); repeat split; k_qc|].
  split; [vm_compute; reflexivity|].
  vm_compute; reflexivity.
Qed.

Theorem C49_coarse_v2_2d : forall (S : Scalar), field_laws S ->
  forall i0 j0 i1 j1 pi0 pj0 pi1 pj1 r dir side order dx beta b0 b1 alpha sgcw st i j (m m1 m2 : mem S),
  i0 <= i <= i1 -> j0 <= j <= j1 -> 0 <= sgcw -> apart st [b0; b1] ->
  beside2 dir side pi0 pj0 pi1 pj1 i j -> (side = 0 \/ side = 1) -> (dir = 0 -> j0 <= pj0 /\ pj1 <= j1) -> (dir = 1 -> i0 <= pi0 /\ pi1 <= i1) -> 
  (m' <- cd_stencil_2d_offdiag i0 j0 i1 j1 i0 j0 i1 j1 dx beta b0 b1 sgcw st m ;;
   cd_stencil_2d_v2diag i0 j0 i1 j1 alpha sgcw st m') = Some m1 ->
  (m' <- cd_stencil_2d_offdiag i0 j0 i1 j1 i0 j0 i1 j1 dx beta b0 b1 sgcw st m ;; m' <- cd_stencil_2d_v2diag i0 j0 i1 j1 alpha sgcw st m' ;;
   m' <- cd_stencil_2d_adj_cf_diag i0 j0 i1 j1 pi0 pj0 pi1 pj1 r dir side order dx beta b0 b1 sgcw st m' ;;
   cd_stencil_2d_adj_cf_offdiag i0 j0 i1 j1 pi0 pj0 pi1 pj1 r dir side order sgcw st m') = Some m2 ->
  1 <= r ->
  forall x y : Z -> S, (forall w, w <> col_out dir side -> y w = x w) ->
  coarse_rule order (lit r) (x (col_out dir side)) (x 0) (x (col_in dir side)) (y (col_out dir side)) ->
  exists v, row2 (mkFa st ((0, 4) :: CELL2d i0 j0 i1 j1 sgcw)) i j x m1 = Some v /\ row2 (mkFa st ((0, 4) :: CELL2d i0 j0 i1 j1 sgcw)) i j y m2 = Some v.
Proof. exact @coarse_v2_2d. Qed.
Print Assumptions C49_coarse_v2_2d.

Example C49_coarse_v2_2d_example :
  apart (9%nat, 0) [(0%nat, 0); (1%nat, 0)] /\
  beside2 0 0 (-1) 0 (-1) 1 0 1 /\
  (forall w, w <> 1 -> (ex_vals 1 2 (-3) 3 7) w = (ex_vals 1 2 (-1) 3 7) w) /\
  coarse_rule 1 (lit 2) ((ex_vals 1 2 (-1) 3 7) 1) ((ex_vals 1 2 (-1) 3 7) 0) ((ex_vals 1 2 (-1) 3 7) 2) ((ex_vals 1 2 (-3) 3 7) 1) /\
  ex_after (m' <- cd_stencil_2d_offdiag 0 0 1 1 0 0 1 1 ex_st_h (lit 3) (0%nat, 0) (1%nat, 0) 0 (9%nat, 0) (ex_st_cells 24) ;; cd_stencil_2d_v2diag 0 0 1 1 (lit 5) 0 (9%nat, 0) m')
    (row2 (mkFa (9%nat, 0) [(0, 4); (0, 1); (0, 1)]) 0 1 (ex_vals 1 2 (-1) 3 7)) = Some (-63, 1) /\
  ex_after (m' <- cd_stencil_2d_offdiag 0 0 1 1 0 0 1 1 ex_st_h (lit 3) (0%nat, 0) (1%nat, 0) 0 (9%nat, 0) (ex_st_cells 24) ;; m' <- cd_stencil_2d_v2diag 0 0 1 1 (lit 5) 0 (9%nat, 0) m' ;; m' <- cd_stencil_2d_adj_cf_diag 0 0 1 1 (-1) 0 (-1) 1 2 0 0 1 ex_st_h (lit 3) (0%nat, 0) (1%nat, 0) 0 (9%nat, 0) m' ;; cd_stencil_2d_adj_cf_offdiag 0 0 1 1 (-1) 0 (-1) 1 2 0 0 1 0 (9%nat, 0) m')
    (row2 (mkFa (9%nat, 0) [(0, 4); (0, 1); (0, 1)]) 0 1 (ex_vals 1 2 (-3) 3 7)) = Some (-63, 1).
Proof.
  split; [repeat constructor; discriminate|].
  split; [unfold beside2; lia|].
  split; [k_vals|].
  split; [left; split; [reflexivity|split; [reflexivity|]]; exists (lit 1), (lit 2); repeat split; k_qc|].
  split; [vm_compute; reflexivity|].
  vm_compute; reflexivity.
Qed.

Theorem C49_coarse_poisson_2d : forall (S : Scalar), field_laws S ->
  forall i0 j0 i1 j1 pi0 pj0 pi1 pj1 r dir side order dx beta sgcw st i j (m m1 m2 : mem S),
  i0 <= i <= i1 -> j0 <= j <= j1 -> 0 <= sgcw -> 
  beside2 dir side pi0 pj0 pi1 pj1 i j -> (side = 0 \/ side = 1) -> (dir = 0 -> j0 <= pj0 /\ pj1 <= j1) -> (dir = 1 -> i0 <= pi0 /\ pi1 <= i1) -> 
  (m' <- cd_stencil_2d_poisson_offdiag i0 j0 i1 j1 dx beta sgcw st m ;;
   cd_stencil_2d_poisson_diag i0 j0 i1 j1 sgcw st m') = Some m1 ->
  (m' <- cd_stencil_2d_poisson_offdiag i0 j0 i1 j1 dx beta sgcw st m ;; m' <- cd_stencil_2d_poisson_diag i0 j0 i1 j1 sgcw st m' ;;
   m' <- cd_stencil_2d_adj_poisson_cf_diag i0 j0 i1 j1 pi0 pj0 pi1 pj1 r dir side order dx beta sgcw st m' ;;
   cd_stencil_2d_adj_cf_offdiag i0 j0 i1 j1 pi0 pj0 pi1 pj1 r dir side order sgcw st m') = Some m2 ->
  1 <= r ->
  forall x y : Z -> S, (forall w, w <> col_out dir side -> y w = x w) ->
  coarse_rule order (lit r) (x (col_out dir side)) (x 0) (x (col_in dir side)) (y (col_out dir side)) ->
  exists v, row2 (mkFa st ((0, 4) :: CELL2d i0 j0 i1 j1 sgcw)) i j x m1 = Some v /\ row2 (mkFa st ((0, 4) :: CELL2d i0 j0 i1 j1 sgcw)) i j y m2 = Some v.
Proof. exact @coarse_poisson_2d. Qed.
Print Assumptions C49_coarse_poisson_2d.

Example C49_coarse_poisson_2d_example :
  beside2 1 0 0 (-1) 1 (-1) 1 0 /\
  (forall w, w <> 3 -> (ex_vals 3 4 3 3 13) w = (ex_vals 3 4 1 3 13) w) /\
  coarse_rule 2 (lit 2) ((ex_vals 3 4 1 3 13) 3) ((ex_vals 3 4 1 3 13) 0) ((ex_vals 3 4 1 3 13) 4) ((ex_vals 3 4 3 3 13) 3) /\
  ex_after (m' <- cd_stencil_2d_poisson_offdiag 0 0 1 1 ex_st_h (lit 3) 0 (9%nat, 0) (ex_st_cells 24) ;; cd_stencil_2d_poisson_diag 0 0 1 1 0 (9%nat, 0) m')
    (row2 (mkFa (9%nat, 0) [(0, 4); (0, 1); (0, 1)]) 1 0 (ex_vals 3 4 1 3 13)) = Some (-185, 12) /\
  ex_after (m' <- cd_stencil_2d_poisson_offdiag 0 0 1 1 ex_st_h (lit 3) 0 (9%nat, 0) (ex_st_cells 24) ;; m' <- cd_stencil_2d_poisson_diag 0 0 1 1 0 (9%nat, 0) m' ;; m' <- cd_stencil_2d_adj_poisson_cf_diag 0 0 1 1 0 (-1) 1 (-1) 2 1 0 2 ex_st_h (lit 3) 0 (9%nat, 0) m' ;; cd_stencil_2d_adj_cf_offdiag 0 0 1 1 0 (-1) 1 (-1) 2 1 0 2 0 (9%nat, 0) m')
    (row2 (mkFa (9%nat, 0) [(0, 4); (0, 1); (0, 1)]) 1 0 (ex_vals 3 4 3 3 13)) = Some (-185, 12).
Proof.
  split; [unfold beside2; lia|].
  split; [k_vals|].
  split; [right; split; [reflexivity|]; exists (lit 1), (lit 1), (lit 1); repeat split; k_qc|].
  split; [vm_compute; reflexivity|].
  vm_compute; reflexivity.
Qed.

Theorem C49_coarse_v1_3d : forall (S : Scalar), field_laws S ->
  forall i0 j0 k0 i1 j1 k1 pi0 pj0 pk0 pi1 pj1 pk1 r dir side order dx beta b0 b1 b2 alpha ai0 aj0 ak0 ai1 aj1 ak1 a sgcw st i j k (m m1 m2 : mem S),
  i0 <= i <= i1 -> j0 <= j <= j1 -> k0 <= k <= k1 -> 0 <= sgcw -> apart st [b0; b1; b2; a] ->
  beside3 dir side pi0 pj0 pk0 pi1 pj1 pk1 i j k -> (side = 0 \/ side = 1) -> (dir = 0 -> j0 <= pj0 /\ pj1 <= j1 /\ k0 <= pk0 /\ pk1 <= k1) -> (dir = 1 -> i0 <= pi0 /\ pi1 <= i1 /\ k0 <= pk0 /\ pk1 <= k1) -> (dir = 2 -> i0 <= pi0 /\ pi1 <= i1 /\ j0 <= pj0 /\ pj1 <= j1) -> 
  (m' <- cd_stencil_3d_offdiag i0 j0 k0 i1 j1 k1 i0 j0 k0 i1 j1 k1 dx beta b0 b1 b2 sgcw st m ;;
   cd_stencil_3d_v1diag i0 j0 k0 i1 j1 k1 ai0 aj0 ak0 ai1 aj1 ak1 alpha a sgcw st m') = Some m1 ->
  (m' <- cd_stencil_3d_offdiag i0 j0 k0 i1 j1 k1 i0 j0 k0 i1 j1 k1 dx beta b0 b1 b2 sgcw st m ;; m' <- cd_stencil_3d_v1diag i0 j0 k0 i1 j1 k1 ai0 aj0 ak0 ai1 aj1 ak1 alpha a sgcw st m' ;;
   m' <- cd_stencil_3d_adj_cf_diag i0 j0 k0 i1 j1 k1 pi0 pj0 pk0 pi1 pj1 pk1 r dir side order dx beta b0 b1 b2 sgcw st m' ;;
   cd_stencil_3d_adj_cf_offdiag i0 j0 k0 i1 j1 k1 pi0 pj0 pk0 pi1 pj1 pk1 r dir side order sgcw st m') = Some m2 ->
  1 <= r ->
  forall x y : Z -> S, (forall w, w <> col_out dir side -> y w = x w) ->
  coarse_rule order (lit r) (x (col_out dir side)) (x 0) (x (col_in dir side)) (y (col_out dir side)) ->
  exists v, row3 (mkFa st ((0, 6) :: CELL3d i0 j0 k0 i1 j1 k1 sgcw)) i j k x m1 = Some v /\ row3 (mkFa st ((0, 6) :: CELL3d i0 j0 k0 i1 j1 k1 sgcw)) i j k y m2 = Some v.
Proof. exact @coarse_v1_3d. Qed.
Print Assumptions C49_coarse_v1_3d.

Example C49_coarse_v1_3d_example :
  apart (9%nat, 0) [(0%nat, 0); (1%nat, 0); (2%nat, 0); (3%nat, 0)] /\
  beside3 2 0 0 0 (-1) 1 1 (-1) 1 1 0 /\
  (forall w, w <> 5 -> (ex_vals 5 6 (-3) 3 7) w = (ex_vals 5 6 (-1) 3 7) w) /\
  coarse_rule 1 (lit 2) ((ex_vals 5 6 (-1) 3 7) 5) ((ex_vals 5 6 (-1) 3 7) 0) ((ex_vals 5 6 (-1) 3 7) 6) ((ex_vals 5 6 (-3) 3 7) 5) /\
  ex_after (m' <- cd_stencil_3d_offdiag 0 0 0 1 1 1 0 0 0 1 1 1 ex_st_h (lit 3) (0%nat, 0) (1%nat, 0) (2%nat, 0) 0 (9%nat, 0) (ex_st_cells 60) ;; cd_stencil_3d_v1diag 0 0 0 1 1 1 0 0 0 1 1 1 (lit 5) (3%nat, 0) 0 (9%nat, 0) m')
    (row3 (mkFa (9%nat, 0) [(0, 6); (0, 1); (0, 1); (0, 1)]) 1 1 0 (ex_vals 5 6 (-1) 3 7)) = Some (-1217, 4) /\
  ex_after (m' <- cd_stencil_3d_offdiag 0 0 0 1 1 1 0 0 0 1 1 1 ex_st_h (lit 3) (0%nat, 0) (1%nat, 0) (2%nat, 0) 0 (9%nat, 0) (ex_st_cells 60) ;; m' <- cd_stencil_3d_v1diag 0 0 0 1 1 1 0 0 0 1 1 1 (lit 5) (3%nat, 0) 0 (9%nat, 0) m' ;; m' <- cd_stencil_3d_adj_cf_diag 0 0 0 1 1 1 0 0 (-1) 1 1 (-1) 2 2 0 1 ex_st_h (lit 3) (0%nat, 0) (1%nat, 0) (2%nat, 0) 0 (9%nat, 0) m' ;; cd_stencil_3d_adj_cf_offdiag 0 0 0 1 1 1 0 0 (-1) 1 1 (-1) 2 2 0 1 0 (9%nat, 0) m')
    (row3 (mkFa (9%nat, 0) [(0, 6); (0, 1); (0, 1); (0, 1)]) 1 1 0 (ex_vals 5 6 (-3) 3 7)) = Some (-1217, 4).
Proof.
  split; [repeat constructor; discriminate|].
  split; [unfold beside3; lia|].
  split; [k_vals|].
  split; [left; split; [reflexivity|split; [reflexivity|]]; exists (lit 1), (lit 2); repeat split; k_qc|].
  split; [vm_compute; reflexivity|].
  vm_compute; reflexivity.
Qed.

Theorem C49_coarse_v2_3d : forall (S : Scalar), field_laws S ->
  forall i0 j0 k0 i1 j1 k1 pi0 pj0 pk0 pi1 pj1 pk1 r dir side order dx beta b0 b1 b2 alpha sgcw st i j k (m m1 m2 : mem S),
  i0 <= i <= i1 -> j0 <= j <= j1 -> k0 <= k <= k1 -> 0 <= sgcw -> apart st [b0; b1; b2] ->
  beside3 dir side pi0 pj0 pk0 pi1 pj1 pk1 i j k -> (side = 0 \/ side = 1) -> (dir = 0 -> j0 <= pj0 /\ pj1 <= j1 /\ k0 <= pk0 /\ pk1 <= k1) -> (dir = 1 -> i0 <= pi0 /\ pi1 <= i1 /\ k0 <= pk0 /\ pk1 <= k1) -> (dir = 2 -> i0 <= pi0 /\ pi1 <= i1 /\ j0 <= pj0 /\ pj1 <= j1) -> 
  (m' <- cd_stencil_3d_offdiag i0 j0 k0 i1 j1 k1 i0 j0 k0 i1 j1 k1 dx beta b0 b1 b2 sgcw st m ;;
   cd_stencil_3d_v2diag i0 j0 k0 i1 j1 k1 alpha sgcw st m') = Some m1 ->
  (m' <- cd_stencil_3d_offdiag i0 j0 k0 i1 j1 k1 i0 j0 k0 i1 j1 k1 dx beta b0 b1 b2 sgcw st m ;; m' <- cd_stencil_3d_v2diag i0 j0 k0 i1 j1 k1 alpha sgcw st m' ;;
   m' <- cd_stencil_3d_adj_cf_diag i0 j0 k0 i1 j1 k1 pi0 pj0 pk0 pi1 pj1 pk1 r dir side order dx beta b0 b1 b2 sgcw st m' ;;
   cd_stencil_3d_adj_cf_offdiag i0 j0 k0 i1 j1 k1 pi0 pj0 pk0 pi1 pj1 pk1 r dir side order sgcw st m') = Some m2 ->
  1 <= r ->
  forall x y : Z -> S, (forall w, w <> col_out dir side -> y w = x w) ->
  coarse_rule order (lit r) (x (col_out dir side)) (x 0) (x (col_in dir side)) (y (col_out dir side)) ->
  exists v, row3 (mkFa st ((0, 6) :: CELL3d i0 j0 k0 i1 j1 k1 sgcw)) i j k x m1 = Some v /\ row3 (mkFa st ((0, 6) :: CELL3d i0 j0 k0 i1 j1 k1 sgcw)) i j k y m2 = Some v.
Proof. exact @coarse_v2_3d. Qed.
Print Assumptions C49_coarse_v2_3d.

Example C49_coarse_v2_3d_example :
  apart (9%nat, 0) [(0%nat, 0); (1%nat, 0); (2%nat, 0)] /\
  beside3 1 1 0 2 0 1 2 1 1 1 1 /\
  (forall w, w <> 4 -> (ex_vals 4 3 13 3 13) w = (ex_vals 4 3 1 3 13) w) /\
  coarse_rule 2 (lit 4) ((ex_vals 4 3 1 3 13) 4) ((ex_vals 4 3 1 3 13) 0) ((ex_vals 4 3 1 3 13) 3) ((ex_vals 4 3 13 3 13) 4) /\
  ex_after (m' <- cd_stencil_3d_offdiag 0 0 0 1 1 1 0 0 0 1 1 1 ex_st_h (lit 3) (0%nat, 0) (1%nat, 0) (2%nat, 0) 0 (9%nat, 0) (ex_st_cells 60) ;; cd_stencil_3d_v2diag 0 0 0 1 1 1 (lit 5) 0 (9%nat, 0) m')
    (row3 (mkFa (9%nat, 0) [(0, 6); (0, 1); (0, 1); (0, 1)]) 1 1 1 (ex_vals 4 3 1 3 13)) = Some (-7705, 3) /\
  ex_after (m' <- cd_stencil_3d_offdiag 0 0 0 1 1 1 0 0 0 1 1 1 ex_st_h (lit 3) (0%nat, 0) (1%nat, 0) (2%nat, 0) 0 (9%nat, 0) (ex_st_cells 60) ;; m' <- cd_stencil_3d_v2diag 0 0 0 1 1 1 (lit 5) 0 (9%nat, 0) m' ;; m' <- cd_stencil_3d_adj_cf_diag 0 0 0 1 1 1 0 2 0 1 2 1 4 1 1 2 ex_st_h (lit 3) (0%nat, 0) (1%nat, 0) (2%nat, 0) 0 (9%nat, 0) m' ;; cd_stencil_3d_adj_cf_offdiag 0 0 0 1 1 1 0 2 0 1 2 1 4 1 1 2 0 (9%nat, 0) m')
    (row3 (mkFa (9%nat, 0) [(0, 6); (0, 1); (0, 1); (0, 1)]) 1 1 1 (ex_vals 4 3 13 3 13)) = Some (-7705, 3).
Proof.
  split; [repeat constructor; discriminate|].
  split; [unfold beside3; lia|].
  split; [k_vals|].
  split; [right; split; [reflexivity|]; exists (lit 1), (lit 1), (lit 1); repeat split; k_qc|].
  split; [vm_compute; reflexivity|].
  vm_compute; reflexivity.
Qed.

Theorem C49_coarse_poisson_3d : forall (S : Scalar), field_laws S ->
  forall i0 j0 k0 i1 j1 k1 pi0 pj0 pk0 pi1 pj1 pk1 r dir side order dx beta sgcw st i j k (m m1 m2 : mem S),
  i0 <= i <= i1 -> j0 <= j <= j1 -> k0 <= k <= k1 -> 0 <= sgcw -> 
  beside3 dir side pi0 pj0 pk0 pi1 pj1 pk1 i j k -> (side = 0 \/ side = 1) -> (dir = 0 -> j0 <= pj0 /\ pj1 <= j1 /\ k0 <= pk0 /\ pk1 <= k1) -> (dir = 1 -> i0 <= pi0 /\ pi1 <= i1 /\ k0 <= pk0 /\ pk1 <= k1) -> (dir = 2 -> i0 <= pi0 /\ pi1 <= i1 /\ j0 <= pj0 /\ pj1 <= j1) -> 
  (m' <- cd_stencil_3d_poisson_offdiag i0 j0 k0 i1 j1 k1 dx beta sgcw st m ;;
   cd_stencil_3d_poisson_diag i0 j0 k0 i1 j1 k1 sgcw st m') = Some m1 ->
  (m' <- cd_stencil_3d_poisson_offdiag i0 j0 k0 i1 j1 k1 dx beta sgcw st m ;; m' <- cd_stencil_3d_poisson_diag i0 j0 k0 i1 j1 k1 sgcw st m' ;;
   m' <- cd_stencil_3d_adj_poisson_cf_diag i0 j0 k0 i1 j1 k1 pi0 pj0 pk0 pi1 pj1 pk1 r dir side order dx beta sgcw st m' ;;
   cd_stencil_3d_adj_cf_offdiag i0 j0 k0 i1 j1 k1 pi0 pj0 pk0 pi1 pj1 pk1 r dir side order sgcw st m') = Some m2 ->
  1 <= r ->
  forall x y : Z -> S, (forall w, w <> col_out dir side -> y w = x w) ->
  coarse_rule order (lit r) (x (col_out dir side)) (x 0) (x (col_in dir side)) (y (col_out dir side)) ->
  exists v, row3 (mkFa st ((0, 6) :: CELL3d i0 j0 k0 i1 j1 k1 sgcw)) i j k x m1 = Some v /\ row3 (mkFa st ((0, 6) :: CELL3d i0 j0 k0 i1 j1 k1 sgcw)) i j k y m2 = Some v.
Proof. exact @coarse_poisson_3d. Qed.
Print Assumptions C49_coarse_poisson_3d.

Example C49_coarse_poisson_3d_example :
  beside3 0 0 (-1) 0 0 (-1) 1 1 0 1 1 /\
  (forall w, w <> 1 -> (ex_vals 1 2 7 3 13) w = (ex_vals 1 2 1 3 13) w) /\
  coarse_rule 2 (lit 3) ((ex_vals 1 2 1 3 13) 1) ((ex_vals 1 2 1 3 13) 0) ((ex_vals 1 2 1 3 13) 2) ((ex_vals 1 2 7 3 13) 1) /\
  ex_after (m' <- cd_stencil_3d_poisson_offdiag 0 0 0 1 1 1 ex_st_h (lit 3) 0 (9%nat, 0) (ex_st_cells 60) ;; cd_stencil_3d_poisson_diag 0 0 0 1 1 1 0 (9%nat, 0) m')
    (row3 (mkFa (9%nat, 0) [(0, 6); (0, 1); (0, 1); (0, 1)]) 0 1 1 (ex_vals 1 2 1 3 13)) = Some (-283, 16) /\
  ex_after (m' <- cd_stencil_3d_poisson_offdiag 0 0 0 1 1 1 ex_st_h (lit 3) 0 (9%nat, 0) (ex_st_cells 60) ;; m' <- cd_stencil_3d_poisson_diag 0 0 0 1 1 1 0 (9%nat, 0) m' ;; m' <- cd_stencil_3d_adj_poisson_cf_diag 0 0 0 1 1 1 (-1) 0 0 (-1) 1 1 3 0 0 2 ex_st_h (lit 3) 0 (9%nat, 0) m' ;; cd_stencil_3d_adj_cf_offdiag 0 0 0 1 1 1 (-1) 0 0 (-1) 1 1 3 0 0 2 0 (9%nat, 0) m')
    (row3 (mkFa (9%nat, 0) [(0, 6); (0, 1); (0, 1); (0, 1)]) 0 1 1 (ex_vals 1 2 7 3 13)) = Some (-283, 16).
Proof.
  split; [unfold beside3; lia|].
  split; [k_vals|].
  split; [right; split; [reflexivity|]; exists (lit 1), (lit 1), (lit 1); repeat split; k_qc|].
  split; [vm_compute; reflexivity|].
  vm_compute; reflexivity.
Qed.

(** ** C49, what is not true

    The weights of order 1 do not depend on the ratio: for a ratio of 4 they are not those
    of linear interpolation. *)

Theorem C49_linear_refuted :
  interp1 (lit 4) ((ex_vals 1 2 0 2 7) 1) ((ex_vals 1 2 0 2 7) 0) ((ex_vals 1 2 (-3) 2 7) 1) /\
  (forall w, w <> 1 -> (ex_vals 1 2 (-3) 2 7) w = (ex_vals 1 2 0 2 7) w) /\
  ex_after (m' <- cd_stencil_1d_offdiag 0 1 0 1 ex_st_h (lit 3) (0%nat, 0) 0 (9%nat, 0) (ex_st_cells 16) ;; cd_stencil_1d_v2diag 0 1 (lit 5) 0 (9%nat, 0) m')
    (row1 (mkFa (9%nat, 0) [(0, 2); (0, 1)]) 0 (ex_vals 1 2 0 2 7)) = Some (4, 1) /\
  ex_after (m' <- cd_stencil_1d_offdiag 0 1 0 1 ex_st_h (lit 3) (0%nat, 0) 0 (9%nat, 0) (ex_st_cells 16) ;; m' <- cd_stencil_1d_v2diag 0 1 (lit 5) 0 (9%nat, 0) m' ;; m' <- cd_stencil_1d_adj_cf_diag 0 1 (-1) (-1) 4 0 1 ex_st_h (lit 3) (0%nat, 0) 0 (9%nat, 0) m' ;; cd_stencil_1d_adj_cf_offdiag 0 1 (-1) (-1) 4 0 1 0 (9%nat, 0) m')
    (row1 (mkFa (9%nat, 0) [(0, 2); (0, 1)]) 0 (ex_vals 1 2 (-3) 2 7)) = Some (5, 1).
Proof.
  split; [exists (lit 1), (lit 1); repeat split; k_qc|].
  split; [k_vals|]. vm_compute. repeat split; reflexivity.
Qed.
Print Assumptions C49_linear_refuted.

(** ** C50: moving the ghost value to the right-hand side

    [uv]: the ghost value of u; [r0], [v0]: right-hand side and row before.  Afterwards the
    row no longer refers to the ghost cell (the value of [y] there is arbitrary), and the
    residual is the same. *)

Theorem C50_residual_1d : forall (S : Scalar), field_laws S ->
  forall i0 i1 pi0 pi1 side sgcw st gcw u rhs i uv r0 v0 (m m2 : mem S),
  i0 <= i <= i1 -> 0 <= sgcw -> apart rhs [st; u] ->
  beside1 side pi0 i -> (side = 0 \/ side = 1) -> 
  (m' <- cd_stencil_1d_adj_cf_bdryrhs i0 i1 pi0 pi1 side sgcw st gcw u rhs m ;;
   cd_stencil_1d_readj_offdiag i0 i1 pi0 pi1 side sgcw st m') = Some m2 ->
  ((mkFa u (CELL1d i0 i1 gcw))!(i + (2 * side - 1)))%F m = Some uv ->
  (mkFa rhs (CELL1d i0 i1 0))!(i)%F m = Some r0 ->
  forall x y : Z -> S, x (col_out 0 side) = uv -> (forall w, w <> col_out 0 side -> y w = x w) ->
  row1 (mkFa st ((0, 2) :: CELL1d i0 i1 sgcw)) i x m = Some v0 ->
  exists r1 v1, (mkFa rhs (CELL1d i0 i1 0))!(i)%F m2 = Some r1 /\ row1 (mkFa st ((0, 2) :: CELL1d i0 i1 sgcw)) i y m2 = Some v1 /\
    (r1 - v1 = r0 - v0)%T.
Proof. exact @residual_1d. Qed.
Print Assumptions C50_residual_1d.

Example C50_residual_1d_example :
  apart (5%nat, 0) [(9%nat, 0); (4%nat, 0)] /\
  beside1 1 2 1 /\
  ((mkFa (4%nat, 0) [(-1, 2)])!(2))%F (ex_st_cells 16) = Some (lit 46) /\
  (forall w, w <> 2 -> (ex_vals 2 1 77 3 8) w = (ex_vals 2 1 46 3 8) w) /\
  ex_after (Some (ex_st_cells 16))
    ((mkFa (5%nat, 0) [(0, 1)])!(1))%F = Some (17, 1) /\
  ex_after (Some (ex_st_cells 16))
    (row1 (mkFa (9%nat, 0) [(0, 2); (0, 1)]) 1 (ex_vals 2 1 46 3 8)) = Some (8679, 1) /\
  ex_after (Some (ex_st_cells 16))
    (fop (fun a b => a - b)%T ((mkFa (5%nat, 0) [(0, 1)])!(1))%F (row1 (mkFa (9%nat, 0) [(0, 2); (0, 1)]) 1 (ex_vals 2 1 46 3 8))) = Some (-8662, 1) /\
  ex_after (m' <- cd_stencil_1d_adj_cf_bdryrhs 0 1 2 2 1 0 (9%nat, 0) 1 (4%nat, 0) (5%nat, 0) (ex_st_cells 16) ;; cd_stencil_1d_readj_offdiag 0 1 2 2 1 0 (9%nat, 0) m')
    ((mkFa (5%nat, 0) [(0, 1)])!(1))%F = Some (-7389, 1) /\
  ex_after (m' <- cd_stencil_1d_adj_cf_bdryrhs 0 1 2 2 1 0 (9%nat, 0) 1 (4%nat, 0) (5%nat, 0) (ex_st_cells 16) ;; cd_stencil_1d_readj_offdiag 0 1 2 2 1 0 (9%nat, 0) m')
    (row1 (mkFa (9%nat, 0) [(0, 2); (0, 1)]) 1 (ex_vals 2 1 77 3 8)) = Some (1273, 1) /\
  ex_after (m' <- cd_stencil_1d_adj_cf_bdryrhs 0 1 2 2 1 0 (9%nat, 0) 1 (4%nat, 0) (5%nat, 0) (ex_st_cells 16) ;; cd_stencil_1d_readj_offdiag 0 1 2 2 1 0 (9%nat, 0) m')
    (fop (fun a b => a - b)%T ((mkFa (5%nat, 0) [(0, 1)])!(1))%F (row1 (mkFa (9%nat, 0) [(0, 2); (0, 1)]) 1 (ex_vals 2 1 77 3 8))) = Some (-8662, 1).
Proof.
  split; [repeat constructor; discriminate|].
  split; [unfold beside1; lia|].
  split; [vm_compute; reflexivity|].
  split; [k_vals|].
  split; [vm_compute; reflexivity|].
  split; [vm_compute; reflexivity|].
  split; [vm_compute; reflexivity|].
  split; [vm_compute; reflexivity|].
  split; [vm_compute; reflexivity|].
  vm_compute; reflexivity.
Qed.

Theorem C50_residual_2d : forall (S : Scalar), field_laws S ->
  forall i0 j0 i1 j1 pi0 pj0 pi1 pj1 dir side sgcw st gcw u rhs i j uv r0 v0 (m m2 : mem S),
  i0 <= i <= i1 -> j0 <= j <= j1 -> 0 <= sgcw -> apart rhs [st; u] ->
  beside2 dir side pi0 pj0 pi1 pj1 i j -> (side = 0 \/ side = 1) -> (dir = 0 -> j0 <= pj0 /\ pj1 <= j1) -> (dir = 1 -> i0 <= pi0 /\ pi1 <= i1) -> 
  (m' <- cd_stencil_2d_adj_cf_bdryrhs i0 j0 i1 j1 pi0 pj0 pi1 pj1 dir side sgcw st gcw u rhs m ;;
   cd_stencil_2d_readj_offdiag i0 j0 i1 j1 pi0 pj0 pi1 pj1 dir side sgcw st m') = Some m2 ->
  (if dir =? 0 then ((mkFa u (CELL2d i0 j0 i1 j1 gcw))!(i + (2 * side - 1), j))%F else ((mkFa u (CELL2d i0 j0 i1 j1 gcw))!(i, j + (2 * side - 1)))%F) m = Some uv ->
  (mkFa rhs (CELL2d i0 j0 i1 j1 0))!(i, j)%F m = Some r0 ->
  forall x y : Z -> S, x (col_out dir side) = uv -> (forall w, w <> col_out dir side -> y w = x w) ->
  row2 (mkFa st ((0, 4) :: CELL2d i0 j0 i1 j1 sgcw)) i j x m = Some v0 ->
  exists r1 v1, (mkFa rhs (CELL2d i0 j0 i1 j1 0))!(i, j)%F m2 = Some r1 /\ row2 (mkFa st ((0, 4) :: CELL2d i0 j0 i1 j1 sgcw)) i j y m2 = Some v1 /\
    (r1 - v1 = r0 - v0)%T.
Proof. exact @residual_2d. Qed.
Print Assumptions C50_residual_2d.

Example C50_residual_2d_example :
  apart (5%nat, 0) [(9%nat, 0); (4%nat, 0)] /\
  beside2 1 0 0 (-1) 1 (-1) 1 0 /\
  ((mkFa (4%nat, 0) [(-1, 2); (-1, 2)])!(1, -1))%F (ex_st_cells 24) = Some (lit 29) /\
  (forall w, w <> 3 -> (ex_vals 3 4 77 3 8) w = (ex_vals 3 4 29 3 8) w) /\
  ex_after (Some (ex_st_cells 24))
    ((mkFa (5%nat, 0) [(0, 1); (0, 1)])!(1, 0))%F = Some (17, 1) /\
  ex_after (Some (ex_st_cells 24))
    (row2 (mkFa (9%nat, 0) [(0, 4); (0, 1); (0, 1)]) 1 0 (ex_vals 3 4 29 3 8)) = Some (16289, 1) /\
  ex_after (Some (ex_st_cells 24))
    (fop (fun a b => a - b)%T ((mkFa (5%nat, 0) [(0, 1); (0, 1)])!(1, 0))%F (row2 (mkFa (9%nat, 0) [(0, 4); (0, 1); (0, 1)]) 1 0 (ex_vals 3 4 29 3 8))) = Some (-16272, 1) /\
  ex_after (m' <- cd_stencil_2d_adj_cf_bdryrhs 0 0 1 1 0 (-1) 1 (-1) 1 0 0 (9%nat, 0) 1 (4%nat, 0) (5%nat, 0) (ex_st_cells 24) ;; cd_stencil_2d_readj_offdiag 0 0 1 1 0 (-1) 1 (-1) 1 0 0 (9%nat, 0) m')
    ((mkFa (5%nat, 0) [(0, 1); (0, 1)])!(1, 0))%F = Some (-8132, 1) /\
  ex_after (m' <- cd_stencil_2d_adj_cf_bdryrhs 0 0 1 1 0 (-1) 1 (-1) 1 0 0 (9%nat, 0) 1 (4%nat, 0) (5%nat, 0) (ex_st_cells 24) ;; cd_stencil_2d_readj_offdiag 0 0 1 1 0 (-1) 1 (-1) 1 0 0 (9%nat, 0) m')
    (row2 (mkFa (9%nat, 0) [(0, 4); (0, 1); (0, 1)]) 1 0 (ex_vals 3 4 77 3 8)) = Some (8140, 1) /\
  ex_after (m' <- cd_stencil_2d_adj_cf_bdryrhs 0 0 1 1 0 (-1) 1 (-1) 1 0 0 (9%nat, 0) 1 (4%nat, 0) (5%nat, 0) (ex_st_cells 24) ;; cd_stencil_2d_readj_offdiag 0 0 1 1 0 (-1) 1 (-1) 1 0 0 (9%nat, 0) m')
    (fop (fun a b => a - b)%T ((mkFa (5%nat, 0) [(0, 1); (0, 1)])!(1, 0))%F (row2 (mkFa (9%nat, 0) [(0, 4); (0, 1); (0, 1)]) 1 0 (ex_vals 3 4 77 3 8))) = Some (-16272, 1).
Proof.
  split; [repeat constructor; discriminate|].
  split; [unfold beside2; lia|].
  split; [vm_compute; reflexivity|].
  split; [k_vals|].
  split; [vm_compute; reflexivity|].
  split; [vm_compute; reflexivity|].
  split; [vm_compute; reflexivity|].
  split; [vm_compute; reflexivity|].
  split; [vm_compute; reflexivity|].
  vm_compute; reflexivity.
Qed.

Theorem C50_residual_3d : forall (S : Scalar), field_laws S ->
  forall i0 j0 k0 i1 j1 k1 pi0 pj0 pk0 pi1 pj1 pk1 dir side sgcw st gcw u rhs i j k uv r0 v0 (m m2 : mem S),
  i0 <= i <= i1 -> j0 <= j <= j1 -> k0 <= k <= k1 -> 0 <= sgcw -> apart rhs [st; u] ->
  beside3 dir side pi0 pj0 pk0 pi1 pj1 pk1 i j k -> (side = 0 \/ side = 1) -> (dir = 0 -> j0 <= pj0 /\ pj1 <= j1 /\ k0 <= pk0 /\ pk1 <= k1) -> (dir = 1 -> i0 <= pi0 /\ pi1 <= i1 /\ k0 <= pk0 /\ pk1 <= k1) -> (dir = 2 -> i0 <= pi0 /\ pi1 <= i1 /\ j0 <= pj0 /\ pj1 <= j1) -> 
  (m' <- cd_stencil_3d_adj_cf_bdryrhs i0 j0 k0 i1 j1 k1 pi0 pj0 pk0 pi1 pj1 pk1 dir side sgcw st gcw u rhs m ;;
   cd_stencil_3d_readj_offdiag i0 j0 k0 i1 j1 k1 pi0 pj0 pk0 pi1 pj1 pk1 dir side sgcw st m') = Some m2 ->
  (if dir =? 0 then ((mkFa u (CELL3d i0 j0 k0 i1 j1 k1 gcw))!(i + (2 * side - 1), j, k))%F else if dir =? 1 then ((mkFa u (CELL3d i0 j0 k0 i1 j1 k1 gcw))!(i, j + (2 * side - 1), k))%F else ((mkFa u (CELL3d i0 j0 k0 i1 j1 k1 gcw))!(i, j, k + (2 * side - 1)))%F) m = Some uv ->
  (mkFa rhs (CELL3d i0 j0 k0 i1 j1 k1 0))!(i, j, k)%F m = Some r0 ->
  forall x y : Z -> S, x (col_out dir side) = uv -> (forall w, w <> col_out dir side -> y w = x w) ->
  row3 (mkFa st ((0, 6) :: CELL3d i0 j0 k0 i1 j1 k1 sgcw)) i j k x m = Some v0 ->
  exists r1 v1, (mkFa rhs (CELL3d i0 j0 k0 i1 j1 k1 0))!(i, j, k)%F m2 = Some r1 /\ row3 (mkFa st ((0, 6) :: CELL3d i0 j0 k0 i1 j1 k1 sgcw)) i j k y m2 = Some v1 /\
    (r1 - v1 = r0 - v0)%T.
Proof. exact @residual_3d. Qed.
Print Assumptions C50_residual_3d.

Example C50_residual_3d_example :
  apart (5%nat, 0) [(9%nat, 0); (4%nat, 0)] /\
  beside3 2 1 0 0 2 1 1 2 1 1 1 /\
  ((mkFa (4%nat, 0) [(-1, 2); (-1, 2); (-1, 2)])!(1, 1, 2))%F (ex_st_cells 70) = Some (lit 4061) /\
  (forall w, w <> 6 -> (ex_vals 6 5 77 3 8) w = (ex_vals 6 5 4061 3 8) w) /\
  ex_after (Some (ex_st_cells 70))
    ((mkFa (5%nat, 0) [(0, 1); (0, 1); (0, 1)])!(1, 1, 1))%F = Some (155, 1) /\
  ex_after (Some (ex_st_cells 70))
    (row3 (mkFa (9%nat, 0) [(0, 6); (0, 1); (0, 1); (0, 1)]) 1 1 1 (ex_vals 6 5 4061 3 8)) = Some (18568246, 1) /\
  ex_after (Some (ex_st_cells 70))
    (fop (fun a b => a - b)%T ((mkFa (5%nat, 0) [(0, 1); (0, 1); (0, 1)])!(1, 1, 1))%F (row3 (mkFa (9%nat, 0) [(0, 6); (0, 1); (0, 1); (0, 1)]) 1 1 1 (ex_vals 6 5 4061 3 8))) = Some (-18568091, 1) /\
  ex_after (m' <- cd_stencil_3d_adj_cf_bdryrhs 0 0 0 1 1 1 0 0 2 1 1 2 2 1 0 (9%nat, 0) 1 (4%nat, 0) (5%nat, 0) (ex_st_cells 70) ;; cd_stencil_3d_readj_offdiag 0 0 0 1 1 1 0 0 2 1 1 2 2 1 0 (9%nat, 0) m')
    ((mkFa (5%nat, 0) [(0, 1); (0, 1); (0, 1)])!(1, 1, 1))%F = Some (-18319016, 1) /\
  ex_after (m' <- cd_stencil_3d_adj_cf_bdryrhs 0 0 0 1 1 1 0 0 2 1 1 2 2 1 0 (9%nat, 0) 1 (4%nat, 0) (5%nat, 0) (ex_st_cells 70) ;; cd_stencil_3d_readj_offdiag 0 0 0 1 1 1 0 0 2 1 1 2 2 1 0 (9%nat, 0) m')
    (row3 (mkFa (9%nat, 0) [(0, 6); (0, 1); (0, 1); (0, 1)]) 1 1 1 (ex_vals 6 5 77 3 8)) = Some (249075, 1) /\
  ex_after (m' <- cd_stencil_3d_adj_cf_bdryrhs 0 0 0 1 1 1 0 0 2 1 1 2 2 1 0 (9%nat, 0) 1 (4%nat, 0) (5%nat, 0) (ex_st_cells 70) ;; cd_stencil_3d_readj_offdiag 0 0 0 1 1 1 0 0 2 1 1 2 2 1 0 (9%nat, 0) m')
    (fop (fun a b => a - b)%T ((mkFa (5%nat, 0) [(0, 1); (0, 1); (0, 1)])!(1, 1, 1))%F (row3 (mkFa (9%nat, 0) [(0, 6); (0, 1); (0, 1); (0, 1)]) 1 1 1 (ex_vals 6 5 77 3 8))) = Some (-18568091, 1).
Proof.
  split; [repeat constructor; discriminate|].
  split; [unfold beside3; lia|].
  split; [vm_compute; reflexivity|].
  split; [k_vals|].
  split; [vm_compute; reflexivity|].
  split; [vm_compute; reflexivity|].
  split; [vm_compute; reflexivity|].
  split; [vm_compute; reflexivity|].
  split; [vm_compute; reflexivity|].
  vm_compute; reflexivity.
Qed.
