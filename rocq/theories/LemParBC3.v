(** * The 3D boundary kernel in parallel *)

From Coq Require Import Permutation.
From Verif Require Import Base ModelBounds ModelMatrix ModelIters ModelSpan ModelProxy Spec SpecIter ModelSched ModelPar
  LemBase LemDomain LemExpr LemExec SpecAssign LemAssign LemProps LemProps4 SpecWindow LemWindow
  FortranBase SpecKernel SpecSafe LemKernel LemKernel2 LemBC LemStencil LemRow LemRhs LemBoundary LemSafe KernelNotations
  KernelsFlux KernelsApply KernelsBC KernelsStencil KernelsCopy KernelsBy LemPar.
Import ListNotations.
Open Scope Z_scope.

Section Par.
  Context {S : Scalar}.

  Lemma cd_3d_set_bc_par O i0 i1 j0 j1 k0 k1 dx dgcw d0 d1 d2 ugcw u bLo bHi exOrder face type btype alpha beta (m : mem S) :
    i0 <= i1 -> j0 <= j1 -> k0 <= k1 -> 1 <= ugcw -> 0 <= dgcw ->
    (type = 1 -> face = 0 -> bLo 0 = i0 - 1 /\ seg_meets j0 j1 (bLo 1) (bHi 1) /\ seg_meets k0 k1 (bLo 2) (bHi 2)) ->
    (type = 1 -> face = 1 -> bHi 0 = i1 + 1 /\ seg_meets j0 j1 (bLo 1) (bHi 1) /\ seg_meets k0 k1 (bLo 2) (bHi 2)) ->
    (type = 1 -> face = 2 -> bLo 1 = j0 - 1 /\ seg_meets i0 i1 (bLo 0) (bHi 0) /\ seg_meets k0 k1 (bLo 2) (bHi 2)) ->
    (type = 1 -> face = 3 -> bHi 1 = j1 + 1 /\ seg_meets i0 i1 (bLo 0) (bHi 0) /\ seg_meets k0 k1 (bLo 2) (bHi 2)) ->
    (type = 1 -> face = 4 -> bLo 2 = k0 - 1 /\ seg_meets i0 i1 (bLo 0) (bHi 0) /\ seg_meets j0 j1 (bLo 1) (bHi 1)) ->
    (type = 1 -> face = 5 -> bHi 2 = k1 + 1 /\ seg_meets i0 i1 (bLo 0) (bHi 0) /\ seg_meets j0 j1 (bLo 1) (bHi 1)) ->
    (type = 2 -> 0 <= face < 4 -> at_side (face mod 2) i0 i1 (bLo 0) /\ at_side (face / 2 mod 2) j0 j1 (bLo 1) /\ seg_meets k0 k1 (bLo 2) (bHi 2)) ->
    (type = 2 -> 4 <= face < 8 -> at_side (face mod 2) i0 i1 (bLo 0) /\ at_side (face / 2 mod 2) k0 k1 (bLo 2) /\ seg_meets j0 j1 (bLo 1) (bHi 1)) ->
    (type = 2 -> 8 <= face < 12 -> at_side (face mod 2) j0 j1 (bLo 1) /\ at_side (face / 2 mod 2) k0 k1 (bLo 2) /\ seg_meets i0 i1 (bLo 0) (bHi 0)) ->
    (type = 3 -> 0 <= face < 8 -> at_side (face mod 2) i0 i1 (bLo 0) /\ at_side (face / 2 mod 2) j0 j1 (bLo 1) /\ at_side (face / 4) k0 k1 (bLo 2)) ->
    apart u [d0; d1; d2] ->
    cd_3d_set_bc_by (parallel O) i0 i1 j0 j1 k0 k1 dx dgcw d0 d1 d2 ugcw u bLo bHi exOrder face type btype alpha beta m = cd_3d_set_bc i0 i1 j0 j1 k0 k1 dx dgcw d0 d1 d2 ugcw u bLo bHi exOrder face type btype alpha beta m.
  Proof. intros; k_apart; unfold cd_3d_set_bc_by, cd_3d_set_bc; k_par. Qed.
End Par.
