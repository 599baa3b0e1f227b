(** * Boundary kernels in 1D and 2D with [int] index arithmetic *)

From Coq Require Import Permutation.
From Verif Require Import Base ModelBounds ModelMatrix ModelIters ModelSpan ModelProxy ModelInt ModelIntProxy Spec
  SpecWindow SpecInt FortranBase SpecKernel SpecSafe ModelPar LemKernel LemKernel2 LemBC LemStencil LemSafe
  LemIntKernel KernelNotations KernelsFlux KernelsApply KernelsBC KernelsStencil KernelsCopy KernelsBy.
Import ListNotations.
Open Scope Z_scope.

Section Int.
  Context {S : Scalar}.

  Lemma cd_1d_set_bc_int i0 i1 dx dgcw d0 ugcw u bLo bHi exOrder face btype alpha beta (m : mem S) :
    i0 <= i1 -> 1 <= ugcw -> 0 <= dgcw -> (face = 0 -> bLo 0 = i0 - 1) -> (face = 1 -> bHi 0 = i1 + 1) ->
    int_dims (FACE1d i0 i1 dgcw) -> int_dims (CELL1d i0 i1 ugcw) ->
    cd_1d_set_bc_by int32 i0 i1 dx dgcw d0 ugcw u bLo bHi exOrder face btype alpha beta m = cd_1d_set_bc i0 i1 dx dgcw d0 ugcw u bLo bHi exOrder face btype alpha beta m.
  Proof. intros; k_dims; unfold cd_1d_set_bc_by, cd_1d_set_bc; k_int. Qed.

  Lemma cd_1d_set_poisson_bc_int i0 i1 dx ugcw u bLo bHi exOrder face btype alpha beta (m : mem S) :
    i0 <= i1 -> 1 <= ugcw -> (face = 0 -> bLo 0 = i0 - 1) -> (face = 1 -> bHi 0 = i1 + 1) ->
    int_dims (CELL1d i0 i1 ugcw) ->
    cd_1d_set_poisson_bc_by int32 i0 i1 dx ugcw u bLo bHi exOrder face btype alpha beta m = cd_1d_set_poisson_bc i0 i1 dx ugcw u bLo bHi exOrder face btype alpha beta m.
  Proof. intros; k_dims; unfold cd_1d_set_poisson_bc_by, cd_1d_set_poisson_bc; k_int. Qed.

  Lemma cd_2d_set_bc_int i0 i1 j0 j1 dx dgcw d0 d1 ugcw u bLo bHi exOrder face type btype alpha beta (m : mem S) :
    i0 <= i1 -> j0 <= j1 -> 1 <= ugcw -> 0 <= dgcw ->
    (type = 1 -> face = 0 -> bLo 0 = i0 - 1 /\ seg_overlaps j0 j1 (bLo 1) (bHi 1)) ->
    (type = 1 -> face = 1 -> bHi 0 = i1 + 1 /\ seg_overlaps j0 j1 (bLo 1) (bHi 1)) ->
    (type = 1 -> face = 2 -> bLo 1 = j0 - 1 /\ seg_overlaps i0 i1 (bLo 0) (bHi 0)) ->
    (type = 1 -> face = 3 -> bHi 1 = j1 + 1 /\ seg_overlaps i0 i1 (bLo 0) (bHi 0)) ->
    (type = 2 -> face = 0 -> bLo 0 = i0 - 1 /\ bLo 1 = j0 - 1) ->
    (type = 2 -> face = 1 -> bHi 0 = i1 + 1 /\ bLo 1 = j0 - 1) ->
    (type = 2 -> face = 2 -> bLo 0 = i0 - 1 /\ bHi 1 = j1 + 1) ->
    (type = 2 -> face = 3 -> bHi 0 = i1 + 1 /\ bHi 1 = j1 + 1) -> int_dims (FACE2d0 i0 j0 i1 j1 dgcw) ->
    int_dims (FACE2d1 i0 j0 i1 j1 dgcw) -> int_dims (CELL2d i0 j0 i1 j1 ugcw) ->
    cd_2d_set_bc_by int32 i0 i1 j0 j1 dx dgcw d0 d1 ugcw u bLo bHi exOrder face type btype alpha beta m = cd_2d_set_bc i0 i1 j0 j1 dx dgcw d0 d1 ugcw u bLo bHi exOrder face type btype alpha beta m.
  Proof. intros; k_dims; unfold cd_2d_set_bc_by, cd_2d_set_bc; k_int. Qed.

  Lemma cd_2d_set_poisson_bc_int i0 i1 j0 j1 dx ugcw u bLo bHi exOrder face type btype alpha beta (m : mem S) :
    i0 <= i1 -> j0 <= j1 -> 1 <= ugcw ->
    (type = 1 -> face = 0 -> bLo 0 = i0 - 1 /\ seg_overlaps j0 j1 (bLo 1) (bHi 1)) ->
    (type = 1 -> face = 1 -> bHi 0 = i1 + 1 /\ seg_overlaps j0 j1 (bLo 1) (bHi 1)) ->
    (type = 1 -> face = 2 -> bLo 1 = j0 - 1 /\ seg_overlaps i0 i1 (bLo 0) (bHi 0)) ->
    (type = 1 -> face = 3 -> bHi 1 = j1 + 1 /\ seg_overlaps i0 i1 (bLo 0) (bHi 0)) ->
    (type = 2 -> face = 0 -> bLo 0 = i0 - 1 /\ bLo 1 = j0 - 1) ->
    (type = 2 -> face = 1 -> bHi 0 = i1 + 1 /\ bLo 1 = j0 - 1) ->
    (type = 2 -> face = 2 -> bLo 0 = i0 - 1 /\ bHi 1 = j1 + 1) ->
    (type = 2 -> face = 3 -> bHi 0 = i1 + 1 /\ bHi 1 = j1 + 1) -> int_dims (CELL2d i0 j0 i1 j1 ugcw) ->
    cd_2d_set_poisson_bc_by int32 i0 i1 j0 j1 dx ugcw u bLo bHi exOrder face type btype alpha beta m = cd_2d_set_poisson_bc i0 i1 j0 j1 dx ugcw u bLo bHi exOrder face type btype alpha beta m.
  Proof. intros; k_dims; unfold cd_2d_set_poisson_bc_by, cd_2d_set_poisson_bc; k_int. Qed.

  Lemma cd_2d_set_corner_bc_int i0 i1 j0 j1 gcw dx d0 d1 u bLo bHi exOrder face type btype (m : mem S) :
    i0 <= i1 -> j0 <= j1 -> 1 <= gcw -> (face = 0 -> bLo 0 = i0 - 1 /\ bLo 1 = j0 - 1) ->
    (face = 1 -> bHi 0 = i1 + 1 /\ bLo 1 = j0 - 1) -> (face = 2 -> bLo 0 = i0 - 1 /\ bHi 1 = j1 + 1) ->
    (face = 3 -> bHi 0 = i1 + 1 /\ bHi 1 = j1 + 1) -> int_dims (CELL2d i0 j0 i1 j1 gcw) ->
    cd_2d_set_corner_bc_by int32 i0 i1 j0 j1 gcw dx d0 d1 u bLo bHi exOrder face type btype m = cd_2d_set_corner_bc i0 i1 j0 j1 gcw dx d0 d1 u bLo bHi exOrder face type btype m.
  Proof. intros; k_dims; unfold cd_2d_set_corner_bc_by, cd_2d_set_corner_bc; k_int. Qed.
End Int.
