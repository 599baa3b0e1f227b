(** * The 3D boundary kernel with [int] index arithmetic *)

From Coq Require Import Permutation.
From Verif Require Import Base ModelBounds ModelMatrix ModelIters ModelSpan ModelProxy ModelInt ModelIntProxy Spec
  SpecWindow SpecInt FortranBase SpecKernel SpecSafe ModelPar LemKernel LemKernel2 LemBC LemStencil LemSafe
  LemIntKernel KernelNotations KernelsFlux KernelsApply KernelsBC KernelsStencil KernelsCopy KernelsBy.
Import ListNotations.
Open Scope Z_scope.

Section Int.
  Context {S : Scalar}.

  Lemma cd_3d_set_bc_int i0 i1 j0 j1 k0 k1 dx dgcw d0 d1 d2 ugcw u bLo bHi exOrder face type btype alpha beta (m : mem S) :
    i0 <= i1 -> j0 <= j1 -> k0 <= k1 -> 1 <= ugcw -> 0 <= dgcw ->
    (type = 1 -> face = 0 -> bLo 0 = i0 - 1 /\ seg_overlaps j0 j1 (bLo 1) (bHi 1) /\ seg_overlaps k0 k1 (bLo 2) (bHi 2)) ->
    (type = 1 -> face = 1 -> bHi 0 = i1 + 1 /\ seg_overlaps j0 j1 (bLo 1) (bHi 1) /\ seg_overlaps k0 k1 (bLo 2) (bHi 2)) ->
    (type = 1 -> face = 2 -> bLo 1 = j0 - 1 /\ seg_overlaps i0 i1 (bLo 0) (bHi 0) /\ seg_overlaps k0 k1 (bLo 2) (bHi 2)) ->
    (type = 1 -> face = 3 -> bHi 1 = j1 + 1 /\ seg_overlaps i0 i1 (bLo 0) (bHi 0) /\ seg_overlaps k0 k1 (bLo 2) (bHi 2)) ->
    (type = 1 -> face = 4 -> bLo 2 = k0 - 1 /\ seg_overlaps i0 i1 (bLo 0) (bHi 0) /\ seg_overlaps j0 j1 (bLo 1) (bHi 1)) ->
    (type = 1 -> face = 5 -> bHi 2 = k1 + 1 /\ seg_overlaps i0 i1 (bLo 0) (bHi 0) /\ seg_overlaps j0 j1 (bLo 1) (bHi 1)) ->
    (type = 2 -> 0 <= face < 4 -> at_side (face mod 2) i0 i1 (bLo 0) /\ at_side (face / 2 mod 2) j0 j1 (bLo 1) /\ seg_overlaps k0 k1 (bLo 2) (bHi 2)) ->
    (type = 2 -> 4 <= face < 8 -> at_side (face mod 2) i0 i1 (bLo 0) /\ at_side (face / 2 mod 2) k0 k1 (bLo 2) /\ seg_overlaps j0 j1 (bLo 1) (bHi 1)) ->
    (type = 2 -> 8 <= face < 12 -> at_side (face mod 2) j0 j1 (bLo 1) /\ at_side (face / 2 mod 2) k0 k1 (bLo 2) /\ seg_overlaps i0 i1 (bLo 0) (bHi 0)) ->
    (type = 3 -> 0 <= face < 8 -> at_side (face mod 2) i0 i1 (bLo 0) /\ at_side (face / 2 mod 2) j0 j1 (bLo 1) /\ at_side (face / 4) k0 k1 (bLo 2)) ->
    int_dims (FACE3d0 i0 j0 k0 i1 j1 k1 dgcw) -> int_dims (FACE3d1 i0 j0 k0 i1 j1 k1 dgcw) ->
    int_dims (FACE3d2 i0 j0 k0 i1 j1 k1 dgcw) -> int_dims (CELL3d i0 j0 k0 i1 j1 k1 ugcw) ->
    cd_3d_set_bc_by int32 i0 i1 j0 j1 k0 k1 dx dgcw d0 d1 d2 ugcw u bLo bHi exOrder face type btype alpha beta m = cd_3d_set_bc i0 i1 j0 j1 k0 k1 dx dgcw d0 d1 d2 ugcw u bLo bHi exOrder face type btype alpha beta m.
  Proof. intros; k_dims; unfold cd_3d_set_bc_by, cd_3d_set_bc; k_int. Qed.
End Int.
