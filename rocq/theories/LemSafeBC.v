(** * Boundary kernels stay inside their arrays *)

From Coq Require Import Permutation.
From Verif Require Import Base ModelBounds ModelMatrix ModelIters ModelSpan ModelProxy Spec SpecIter ModelSched
  LemBase LemDomain LemExpr LemExec SpecAssign LemAssign LemProps LemProps4 SpecWindow LemWindow
  FortranBase SpecKernel SpecSafe LemKernel LemKernel2 LemBC LemStencil LemSafe KernelNotations KernelsBC.
Import ListNotations.
Open Scope Z_scope.

Section Safe.
  Context {S : Scalar}.

  Lemma cd_1d_set_bc_safe i0 i1 dx dgcw d0 ugcw u bLo bHi exOrder face btype alpha beta (m : mem S) :
    i0 <= i1 -> 1 <= ugcw -> 0 <= dgcw -> (face = 0 -> bLo 0 = i0 - 1) -> (face = 1 -> bHi 0 = i1 + 1) ->
    room m d0 (fcount (FACE1d i0 i1 dgcw)) -> room m u (fcount (CELL1d i0 i1 ugcw)) ->
    safe (cd_1d_set_bc i0 i1 dx dgcw d0 ugcw u bLo bHi exOrder face btype alpha beta) m.
  Proof. intros; k_apart; k_rooms; unfold cd_1d_set_bc; k_safe. Qed.

  Lemma cd_1d_set_poisson_bc_safe i0 i1 dx ugcw u bLo bHi exOrder face btype alpha beta (m : mem S) :
    i0 <= i1 -> 1 <= ugcw -> (face = 0 -> bLo 0 = i0 - 1) -> (face = 1 -> bHi 0 = i1 + 1) ->
    room m u (fcount (CELL1d i0 i1 ugcw)) ->
    safe (cd_1d_set_poisson_bc i0 i1 dx ugcw u bLo bHi exOrder face btype alpha beta) m.
  Proof. intros; k_apart; k_rooms; unfold cd_1d_set_poisson_bc; k_safe. Qed.

  Lemma cd_2d_set_bc_safe i0 i1 j0 j1 dx dgcw d0 d1 ugcw u bLo bHi exOrder face type btype alpha beta (m : mem S) :
    i0 <= i1 -> j0 <= j1 -> 1 <= ugcw -> 0 <= dgcw ->
    (type = 1 -> face = 0 -> bLo 0 = i0 - 1 /\ seg_meets j0 j1 (bLo 1) (bHi 1)) ->
    (type = 1 -> face = 1 -> bHi 0 = i1 + 1 /\ seg_meets j0 j1 (bLo 1) (bHi 1)) ->
    (type = 1 -> face = 2 -> bLo 1 = j0 - 1 /\ seg_meets i0 i1 (bLo 0) (bHi 0)) ->
    (type = 1 -> face = 3 -> bHi 1 = j1 + 1 /\ seg_meets i0 i1 (bLo 0) (bHi 0)) ->
    (type = 2 -> face = 0 -> bLo 0 = i0 - 1 /\ bLo 1 = j0 - 1) ->
    (type = 2 -> face = 1 -> bHi 0 = i1 + 1 /\ bLo 1 = j0 - 1) ->
    (type = 2 -> face = 2 -> bLo 0 = i0 - 1 /\ bHi 1 = j1 + 1) ->
    (type = 2 -> face = 3 -> bHi 0 = i1 + 1 /\ bHi 1 = j1 + 1) ->
    room m d0 (fcount (FACE2d0 i0 j0 i1 j1 dgcw)) -> room m d1 (fcount (FACE2d1 i0 j0 i1 j1 dgcw)) ->
    room m u (fcount (CELL2d i0 j0 i1 j1 ugcw)) ->
    safe (cd_2d_set_bc i0 i1 j0 j1 dx dgcw d0 d1 ugcw u bLo bHi exOrder face type btype alpha beta) m.
  Proof. intros; k_apart; k_rooms; unfold cd_2d_set_bc; k_safe. Qed.

  Lemma cd_2d_set_poisson_bc_safe i0 i1 j0 j1 dx ugcw u bLo bHi exOrder face type btype alpha beta (m : mem S) :
    i0 <= i1 -> j0 <= j1 -> 1 <= ugcw ->
    (type = 1 -> face = 0 -> bLo 0 = i0 - 1 /\ seg_meets j0 j1 (bLo 1) (bHi 1)) ->
    (type = 1 -> face = 1 -> bHi 0 = i1 + 1 /\ seg_meets j0 j1 (bLo 1) (bHi 1)) ->
    (type = 1 -> face = 2 -> bLo 1 = j0 - 1 /\ seg_meets i0 i1 (bLo 0) (bHi 0)) ->
    (type = 1 -> face = 3 -> bHi 1 = j1 + 1 /\ seg_meets i0 i1 (bLo 0) (bHi 0)) ->
    (type = 2 -> face = 0 -> bLo 0 = i0 - 1 /\ bLo 1 = j0 - 1) ->
    (type = 2 -> face = 1 -> bHi 0 = i1 + 1 /\ bLo 1 = j0 - 1) ->
    (type = 2 -> face = 2 -> bLo 0 = i0 - 1 /\ bHi 1 = j1 + 1) ->
    (type = 2 -> face = 3 -> bHi 0 = i1 + 1 /\ bHi 1 = j1 + 1) ->
    room m u (fcount (CELL2d i0 j0 i1 j1 ugcw)) ->
    safe (cd_2d_set_poisson_bc i0 i1 j0 j1 dx ugcw u bLo bHi exOrder face type btype alpha beta) m.
  Proof. intros; k_apart; k_rooms; unfold cd_2d_set_poisson_bc; k_safe. Qed.

  Lemma cd_2d_set_corner_bc_safe i0 i1 j0 j1 gcw dx d0 d1 u bLo bHi exOrder face type btype (m : mem S) :
    i0 <= i1 -> j0 <= j1 -> 1 <= gcw -> (face = 0 -> bLo 0 = i0 - 1 /\ bLo 1 = j0 - 1) ->
    (face = 1 -> bHi 0 = i1 + 1 /\ bLo 1 = j0 - 1) -> (face = 2 -> bLo 0 = i0 - 1 /\ bHi 1 = j1 + 1) ->
    (face = 3 -> bHi 0 = i1 + 1 /\ bHi 1 = j1 + 1) -> room m u (fcount (CELL2d i0 j0 i1 j1 gcw)) ->
    safe (cd_2d_set_corner_bc i0 i1 j0 j1 gcw dx d0 d1 u bLo bHi exOrder face type btype) m.
  Proof. intros; k_apart; k_rooms; unfold cd_2d_set_corner_bc; k_safe. Qed.

  Lemma cd_3d_set_bc_safe i0 i1 j0 j1 k0 k1 dx dgcw d0 d1 d2 ugcw u bLo bHi exOrder face type btype alpha beta (m : mem S) :
    i0 <= i1 -> j0 <= j1 -> k0 <= k1 -> 1 <= ugcw -> 0 <= dgcw ->
    (type = 1 -> face = 0 -> bLo 0 = i0 - 1 /\ seg_meets j0 j1 (bLo 1) (bHi 1) /\ seg_meets k0 k1 (bLo 2) (bHi 2)) ->
    (type = 1 -> face = 1 -> bHi 0 = i1 + 1 /\ seg_meets j0 j1 (bLo 1) (bHi 1) /\ seg_meets k0 k1 (bLo 2) (bHi 2)) ->
    (type = 1 -> face = 2 -> bLo 1 = j0 - 1 /\ seg_meets i0 i1 (bLo 0) (bHi 0) /\ seg_meets k0 k1 (bLo 2) (bHi 2)) ->
    (type = 1 -> face = 3 -> bHi 1 = j1 + 1 /\ seg_meets i0 i1 (bLo 0) (bHi 0) /\ seg_meets k0 k1 (bLo 2) (bHi 2)) ->
    (type = 1 -> face = 4 -> bLo 2 = k0 - 1 /\ seg_meets i0 i1 (bLo 0) (bHi 0) /\ seg_meets j0 j1 (bLo 1) (bHi 1)) ->
    (type = 1 -> face = 5 -> bHi 2 = k1 + 1 /\ seg_meets i0 i1 (bLo 0) (bHi 0) /\ seg_meets j0 j1 (bLo 1) (bHi 1)) ->
    (type = 2 -> 0 <= face < 4 -> at_side (face mod 2) i0 i1 (bLo 0) /\ at_side (face / 2 mod 2) j0 j1 (bLo 1) /\ seg_meets k0 k1 (bLo 2) (bHi 2)) ->
    (type = 2 -> 4 <= face < 8 -> at_side (face mod 2) i0 i1 (bLo 0) /\ at_side (face / 2 mod 2) k0 k1 (bLo 2) /\ seg_meets j0 j1 (bLo 1) (bHi 1)) ->
    (type = 2 -> 8 <= face < 12 -> at_side (face mod 2) j0 j1 (bLo 1) /\ at_side (face / 2 mod 2) k0 k1 (bLo 2) /\ seg_meets i0 i1 (bLo 0) (bHi 0)) ->
    (type = 3 -> 0 <= face < 8 -> at_side (face mod 2) i0 i1 (bLo 0) /\ at_side (face / 2 mod 2) j0 j1 (bLo 1) /\ at_side (face / 4) k0 k1 (bLo 2)) ->
    room m d0 (fcount (FACE3d0 i0 j0 k0 i1 j1 k1 dgcw)) ->
    room m d1 (fcount (FACE3d1 i0 j0 k0 i1 j1 k1 dgcw)) ->
    room m d2 (fcount (FACE3d2 i0 j0 k0 i1 j1 k1 dgcw)) ->
    room m u (fcount (CELL3d i0 j0 k0 i1 j1 k1 ugcw)) ->
    safe (cd_3d_set_bc i0 i1 j0 j1 k0 k1 dx dgcw d0 d1 d2 ugcw u bLo bHi exOrder face type btype alpha beta) m.
  Proof. intros; k_apart; k_rooms; unfold cd_3d_set_bc; k_safe. Qed.

  Lemma cd_3d_set_poisson_bc_safe i0 i1 j0 j1 k0 k1 dx ugcw u bLo bHi exOrder face type btype alpha beta (m : mem S) :
    i0 <= i1 -> j0 <= j1 -> k0 <= k1 -> 1 <= ugcw ->
    (type = 1 -> face = 0 -> bLo 0 = i0 - 1 /\ seg_meets j0 j1 (bLo 1) (bHi 1) /\ seg_meets k0 k1 (bLo 2) (bHi 2)) ->
    (type = 1 -> face = 1 -> bHi 0 = i1 + 1 /\ seg_meets j0 j1 (bLo 1) (bHi 1) /\ seg_meets k0 k1 (bLo 2) (bHi 2)) ->
    (type = 1 -> face = 2 -> bLo 1 = j0 - 1 /\ seg_meets i0 i1 (bLo 0) (bHi 0) /\ seg_meets k0 k1 (bLo 2) (bHi 2)) ->
    (type = 1 -> face = 3 -> bHi 1 = j1 + 1 /\ seg_meets i0 i1 (bLo 0) (bHi 0) /\ seg_meets k0 k1 (bLo 2) (bHi 2)) ->
    (type = 1 -> face = 4 -> bLo 2 = k0 - 1 /\ seg_meets i0 i1 (bLo 0) (bHi 0) /\ seg_meets j0 j1 (bLo 1) (bHi 1)) ->
    (type = 1 -> face = 5 -> bHi 2 = k1 + 1 /\ seg_meets i0 i1 (bLo 0) (bHi 0) /\ seg_meets j0 j1 (bLo 1) (bHi 1)) ->
    (type = 2 -> 0 <= face < 4 -> at_side (face mod 2) i0 i1 (bLo 0) /\ at_side (face / 2 mod 2) j0 j1 (bLo 1) /\ seg_meets k0 k1 (bLo 2) (bHi 2)) ->
    (type = 2 -> 4 <= face < 8 -> at_side (face mod 2) i0 i1 (bLo 0) /\ at_side (face / 2 mod 2) k0 k1 (bLo 2) /\ seg_meets j0 j1 (bLo 1) (bHi 1)) ->
    (type = 2 -> 8 <= face < 12 -> at_side (face mod 2) j0 j1 (bLo 1) /\ at_side (face / 2 mod 2) k0 k1 (bLo 2) /\ seg_meets i0 i1 (bLo 0) (bHi 0)) ->
    (type = 3 -> 0 <= face < 8 -> at_side (face mod 2) i0 i1 (bLo 0) /\ at_side (face / 2 mod 2) j0 j1 (bLo 1) /\ at_side (face / 4) k0 k1 (bLo 2)) ->
    room m u (fcount (CELL3d i0 j0 k0 i1 j1 k1 ugcw)) ->
    safe (cd_3d_set_poisson_bc i0 i1 j0 j1 k0 k1 dx ugcw u bLo bHi exOrder face type btype alpha beta) m.
  Proof. intros; k_apart; k_rooms; unfold cd_3d_set_poisson_bc; k_safe. Qed.
End Safe.
