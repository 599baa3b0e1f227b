(** * Boundary kernels in 1D and 2D in parallel *)

From Coq Require Import Permutation.
From Verif Require Import Base ModelBounds ModelMatrix ModelIters ModelSpan ModelProxy Spec SpecIter ModelSched ModelPar
  LemBase LemDomain LemExpr LemExec SpecAssign LemAssign LemProps LemProps4 SpecWindow LemWindow
  FortranBase SpecKernel SpecSafe LemKernel LemKernel2 LemBC LemStencil LemRow LemRhs LemBoundary LemSafe KernelNotations
  KernelsFlux KernelsApply KernelsBC KernelsStencil KernelsCopy KernelsBy LemPar.
Import ListNotations.
Open Scope Z_scope.

Section Par.
  Context {S : Scalar}.

  Lemma cd_1d_set_bc_par O i0 i1 dx dgcw d0 ugcw u bLo bHi exOrder face btype alpha beta (m : mem S) :
    i0 <= i1 -> 1 <= ugcw -> 0 <= dgcw -> (face = 0 -> bLo 0 = i0 - 1) -> (face = 1 -> bHi 0 = i1 + 1) ->
    apart u [d0] ->
    cd_1d_set_bc_by (parallel O) i0 i1 dx dgcw d0 ugcw u bLo bHi exOrder face btype alpha beta m = cd_1d_set_bc i0 i1 dx dgcw d0 ugcw u bLo bHi exOrder face btype alpha beta m.
  Proof. intros; k_apart; unfold cd_1d_set_bc_by, cd_1d_set_bc; k_par. Qed.

  Lemma cd_1d_set_poisson_bc_par O i0 i1 dx ugcw u bLo bHi exOrder face btype alpha beta (m : mem S) :
    i0 <= i1 -> 1 <= ugcw -> (face = 0 -> bLo 0 = i0 - 1) -> (face = 1 -> bHi 0 = i1 + 1) ->
    cd_1d_set_poisson_bc_by (parallel O) i0 i1 dx ugcw u bLo bHi exOrder face btype alpha beta m = cd_1d_set_poisson_bc i0 i1 dx ugcw u bLo bHi exOrder face btype alpha beta m.
  Proof. intros; k_apart; unfold cd_1d_set_poisson_bc_by, cd_1d_set_poisson_bc; k_par. Qed.

  Lemma cd_2d_set_bc_par O i0 i1 j0 j1 dx dgcw d0 d1 ugcw u bLo bHi exOrder face type btype alpha beta (m : mem S) :
    i0 <= i1 -> j0 <= j1 -> 1 <= ugcw -> 0 <= dgcw ->
    (type = 1 -> face = 0 -> bLo 0 = i0 - 1 /\ seg_meets j0 j1 (bLo 1) (bHi 1)) ->
    (type = 1 -> face = 1 -> bHi 0 = i1 + 1 /\ seg_meets j0 j1 (bLo 1) (bHi 1)) ->
    (type = 1 -> face = 2 -> bLo 1 = j0 - 1 /\ seg_meets i0 i1 (bLo 0) (bHi 0)) ->
    (type = 1 -> face = 3 -> bHi 1 = j1 + 1 /\ seg_meets i0 i1 (bLo 0) (bHi 0)) ->
    (type = 2 -> face = 0 -> bLo 0 = i0 - 1 /\ bLo 1 = j0 - 1) ->
    (type = 2 -> face = 1 -> bHi 0 = i1 + 1 /\ bLo 1 = j0 - 1) ->
    (type = 2 -> face = 2 -> bLo 0 = i0 - 1 /\ bHi 1 = j1 + 1) ->
    (type = 2 -> face = 3 -> bHi 0 = i1 + 1 /\ bHi 1 = j1 + 1) -> apart u [d0; d1] ->
    cd_2d_set_bc_by (parallel O) i0 i1 j0 j1 dx dgcw d0 d1 ugcw u bLo bHi exOrder face type btype alpha beta m = cd_2d_set_bc i0 i1 j0 j1 dx dgcw d0 d1 ugcw u bLo bHi exOrder face type btype alpha beta m.
  Proof. intros; k_apart; unfold cd_2d_set_bc_by, cd_2d_set_bc; k_par. Qed.

  Lemma cd_2d_set_poisson_bc_par O i0 i1 j0 j1 dx ugcw u bLo bHi exOrder face type btype alpha beta (m : mem S) :
    i0 <= i1 -> j0 <= j1 -> 1 <= ugcw ->
    (type = 1 -> face = 0 -> bLo 0 = i0 - 1 /\ seg_meets j0 j1 (bLo 1) (bHi 1)) ->
    (type = 1 -> face = 1 -> bHi 0 = i1 + 1 /\ seg_meets j0 j1 (bLo 1) (bHi 1)) ->
    (type = 1 -> face = 2 -> bLo 1 = j0 - 1 /\ seg_meets i0 i1 (bLo 0) (bHi 0)) ->
    (type = 1 -> face = 3 -> bHi 1 = j1 + 1 /\ seg_meets i0 i1 (bLo 0) (bHi 0)) ->
    (type = 2 -> face = 0 -> bLo 0 = i0 - 1 /\ bLo 1 = j0 - 1) ->
    (type = 2 -> face = 1 -> bHi 0 = i1 + 1 /\ bLo 1 = j0 - 1) ->
    (type = 2 -> face = 2 -> bLo 0 = i0 - 1 /\ bHi 1 = j1 + 1) ->
    (type = 2 -> face = 3 -> bHi 0 = i1 + 1 /\ bHi 1 = j1 + 1) ->
    cd_2d_set_poisson_bc_by (parallel O) i0 i1 j0 j1 dx ugcw u bLo bHi exOrder face type btype alpha beta m = cd_2d_set_poisson_bc i0 i1 j0 j1 dx ugcw u bLo bHi exOrder face type btype alpha beta m.
  Proof. intros; k_apart; unfold cd_2d_set_poisson_bc_by, cd_2d_set_poisson_bc; k_par. Qed.

  Lemma cd_2d_set_corner_bc_par O i0 i1 j0 j1 gcw dx d0 d1 u bLo bHi exOrder face type btype (m : mem S) :
    i0 <= i1 -> j0 <= j1 -> 1 <= gcw -> (face = 0 -> bLo 0 = i0 - 1 /\ bLo 1 = j0 - 1) ->
    (face = 1 -> bHi 0 = i1 + 1 /\ bLo 1 = j0 - 1) -> (face = 2 -> bLo 0 = i0 - 1 /\ bHi 1 = j1 + 1) ->
    (face = 3 -> bHi 0 = i1 + 1 /\ bHi 1 = j1 + 1) ->
    cd_2d_set_corner_bc_by (parallel O) i0 i1 j0 j1 gcw dx d0 d1 u bLo bHi exOrder face type btype m = cd_2d_set_corner_bc i0 i1 j0 j1 gcw dx d0 d1 u bLo bHi exOrder face type btype m.
  Proof. intros; k_apart; unfold cd_2d_set_corner_bc_by, cd_2d_set_corner_bc; k_par. Qed.
End Par.
