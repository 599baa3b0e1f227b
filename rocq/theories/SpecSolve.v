(** * Specification: the operator applied to a grid function

    [patch], [near]: the cells of the patch, and these with the cells beyond its faces.
    [applied_…]: the arrays of the memory [m] hold the grid function [w] (with a layer
    of ghost cells) and the coefficients, and the flux kernel followed by the operator
    kernel leave [r] in the cells of [res].  The arrays written do not overlap those
    read. *)

From Verif Require Import Base ModelBounds ModelMatrix ModelIters ModelSpan ModelProxy Spec SpecAssign FortranBase SpecKernel
  KernelsFlux KernelsApply.
Import ListNotations.
Open Scope Z_scope.

Definition patch1 i0 i1 i : Prop := i0 <= i <= i1.
Definition near1 i0 i1 i : Prop :=
  (i0 - 1 <= i <= i1 + 1).
Definition ghost1 i0 i1 i : Prop := near1 i0 i1 i /\ ~ patch1 i0 i1 i.

Definition patch2 i0 j0 i1 j1 i j : Prop := i0 <= i <= i1 /\ j0 <= j <= j1.
Definition near2 i0 j0 i1 j1 i j : Prop :=
  (i0 - 1 <= i <= i1 + 1 /\ j0 <= j <= j1) \/ (i0 <= i <= i1 /\ j0 - 1 <= j <= j1 + 1).
Definition ghost2 i0 j0 i1 j1 i j : Prop := near2 i0 j0 i1 j1 i j /\ ~ patch2 i0 j0 i1 j1 i j.

Definition patch3 i0 j0 k0 i1 j1 k1 i j k : Prop := i0 <= i <= i1 /\ j0 <= j <= j1 /\ k0 <= k <= k1.
Definition near3 i0 j0 k0 i1 j1 k1 i j k : Prop :=
  (i0 - 1 <= i <= i1 + 1 /\ j0 <= j <= j1 /\ k0 <= k <= k1) \/ (i0 <= i <= i1 /\ j0 - 1 <= j <= j1 + 1 /\ k0 <= k <= k1) \/ (i0 <= i <= i1 /\ j0 <= j <= j1 /\ k0 - 1 <= k <= k1 + 1).
Definition ghost3 i0 j0 k0 i1 j1 k1 i j k : Prop := near3 i0 j0 k0 i1 j1 k1 i j k /\ ~ patch3 i0 j0 k0 i1 j1 k1 i j k.

Definition applied_v1_1d {S : Scalar} i0 i1 dx beta b0 gcw u f0 alpha agcw a rgcw res (m : mem S) (r w c v0 : Z -> S) : Prop :=
  0 <= gcw /\ 0 <= rgcw /\ apart f0 [b0; a; u] /\ apart res [f0; a; u] /\
  exists mo, (m' <- cdf_1d_flux i0 i1 dx b0 gcw u f0 m ;;
   cd_apply_1d_diffusion_v1_apply i0 i1 alpha beta dx agcw a gcw u f0 rgcw res m') = Some mo /\
  (forall i, i0 <= i <= i1 -> ((mkFa res (CELL1d i0 i1 rgcw))!(i))%F mo = Some (r i)) /\
  (forall i, i0 - 1 <= i <= i1 + 1 -> ((mkFa u (CELL1d i0 i1 gcw))!(i))%F m = Some (w i)) /\
  (forall i, i0 <= i <= i1 -> ((mkFa a (CELL1d i0 i1 agcw))!(i))%F m = Some (c i)) /\
  (forall i, i0 <= i <= i1 + 1 -> ((mkFa b0 (FACE1d i0 i1 0))!(i))%F m = Some (v0 i)).

Definition applied_v2_1d {S : Scalar} i0 i1 dx beta b0 gcw u f0 alpha rgcw res (m : mem S) (r w v0 : Z -> S) : Prop :=
  0 <= gcw /\ 0 <= rgcw /\ apart f0 [b0; u] /\ apart res [f0; u] /\
  exists mo, (m' <- cdf_1d_flux i0 i1 dx b0 gcw u f0 m ;;
   cd_apply_1d_diffusion_v2_apply i0 i1 alpha beta dx gcw u f0 rgcw res m') = Some mo /\
  (forall i, i0 <= i <= i1 -> ((mkFa res (CELL1d i0 i1 rgcw))!(i))%F mo = Some (r i)) /\
  (forall i, i0 - 1 <= i <= i1 + 1 -> ((mkFa u (CELL1d i0 i1 gcw))!(i))%F m = Some (w i)) /\
  (forall i, i0 <= i <= i1 + 1 -> ((mkFa b0 (FACE1d i0 i1 0))!(i))%F m = Some (v0 i)).

Definition applied_poisson_1d {S : Scalar} i0 i1 dx beta gcw u f0 rgcw res (m : mem S) (r w : Z -> S) : Prop :=
  0 <= gcw /\ 0 <= rgcw /\ apart f0 [u] /\ apart res [f0; u] /\
  exists mo, (m' <- cdf_1d_poisson_flux i0 i1 dx gcw u f0 m ;;
   cd_apply_1d_poisson_v2_apply i0 i1 beta dx f0 rgcw res m') = Some mo /\
  (forall i, i0 <= i <= i1 -> ((mkFa res (CELL1d i0 i1 rgcw))!(i))%F mo = Some (r i)) /\
  (forall i, i0 - 1 <= i <= i1 + 1 -> ((mkFa u (CELL1d i0 i1 gcw))!(i))%F m = Some (w i)).

Definition applied_v1_2d {S : Scalar} i0 j0 i1 j1 dx beta b0 b1 gcw u f0 f1 alpha agcw a rgcw res (m : mem S) (r w c v0 v1 : Z -> Z -> S) : Prop :=
  0 <= gcw /\ 0 <= rgcw /\ apart f0 [f1; b0; b1; a; u] /\ apart f1 [b0; b1; a; u] /\ apart res [f0; f1; a; u] /\
  exists mo, (m' <- cdf_2d_flux i0 j0 i1 j1 dx b0 b1 gcw u f0 f1 m ;;
   cd_apply_2d_diffusion_v1_apply i0 i1 j0 j1 alpha beta dx agcw a gcw u f0 f1 rgcw res m') = Some mo /\
  (forall i j, i0 <= i <= i1 -> j0 <= j <= j1 -> ((mkFa res (CELL2d i0 j0 i1 j1 rgcw))!(i, j))%F mo = Some (r i j)) /\
  (forall i j, i0 - 1 <= i <= i1 + 1 -> j0 - 1 <= j <= j1 + 1 -> ((mkFa u (CELL2d i0 j0 i1 j1 gcw))!(i, j))%F m = Some (w i j)) /\
  (forall i j, i0 <= i <= i1 -> j0 <= j <= j1 -> ((mkFa a (CELL2d i0 j0 i1 j1 agcw))!(i, j))%F m = Some (c i j)) /\
  (forall i j, i0 <= i <= i1 + 1 -> j0 <= j <= j1 -> ((mkFa b0 (FACE2d0 i0 j0 i1 j1 0))!(i, j))%F m = Some (v0 i j)) /\
  (forall i j, i0 <= i <= i1 -> j0 <= j <= j1 + 1 -> ((mkFa b1 (FACE2d1 i0 j0 i1 j1 0))!(j, i))%F m = Some (v1 i j)).

Definition applied_v2_2d {S : Scalar} i0 j0 i1 j1 dx beta b0 b1 gcw u f0 f1 alpha rgcw res (m : mem S) (r w v0 v1 : Z -> Z -> S) : Prop :=
  0 <= gcw /\ 0 <= rgcw /\ apart f0 [f1; b0; b1; u] /\ apart f1 [b0; b1; u] /\ apart res [f0; f1; u] /\
  exists mo, (m' <- cdf_2d_flux i0 j0 i1 j1 dx b0 b1 gcw u f0 f1 m ;;
   cd_apply_2d_diffusion_v2_apply i0 i1 j0 j1 alpha beta dx gcw u f0 f1 rgcw res m') = Some mo /\
  (forall i j, i0 <= i <= i1 -> j0 <= j <= j1 -> ((mkFa res (CELL2d i0 j0 i1 j1 rgcw))!(i, j))%F mo = Some (r i j)) /\
  (forall i j, i0 - 1 <= i <= i1 + 1 -> j0 - 1 <= j <= j1 + 1 -> ((mkFa u (CELL2d i0 j0 i1 j1 gcw))!(i, j))%F m = Some (w i j)) /\
  (forall i j, i0 <= i <= i1 + 1 -> j0 <= j <= j1 -> ((mkFa b0 (FACE2d0 i0 j0 i1 j1 0))!(i, j))%F m = Some (v0 i j)) /\
  (forall i j, i0 <= i <= i1 -> j0 <= j <= j1 + 1 -> ((mkFa b1 (FACE2d1 i0 j0 i1 j1 0))!(j, i))%F m = Some (v1 i j)).

Definition applied_poisson_2d {S : Scalar} i0 j0 i1 j1 dx beta gcw u f0 f1 rgcw res (m : mem S) (r w : Z -> Z -> S) : Prop :=
  0 <= gcw /\ 0 <= rgcw /\ apart f0 [f1; u] /\ apart f1 [u] /\ apart res [f0; f1; u] /\
  exists mo, (m' <- cdf_2d_poisson_flux i0 j0 i1 j1 dx gcw u f0 f1 m ;;
   cd_apply_2d_poisson_v2_apply i0 i1 j0 j1 beta dx f0 f1 rgcw res m') = Some mo /\
  (forall i j, i0 <= i <= i1 -> j0 <= j <= j1 -> ((mkFa res (CELL2d i0 j0 i1 j1 rgcw))!(i, j))%F mo = Some (r i j)) /\
  (forall i j, i0 - 1 <= i <= i1 + 1 -> j0 - 1 <= j <= j1 + 1 -> ((mkFa u (CELL2d i0 j0 i1 j1 gcw))!(i, j))%F m = Some (w i j)).

Definition applied_v1_3d {S : Scalar} i0 j0 k0 i1 j1 k1 dx beta b0 b1 b2 gcw u f0 f1 f2 alpha agcw a rgcw res (m : mem S) (r w c v0 v1 v2 : Z -> Z -> Z -> S) : Prop :=
  0 <= gcw /\ 0 <= rgcw /\ apart f0 [f1; f2; b0; b1; b2; a; u] /\ apart f1 [f2; b0; b1; b2; a; u] /\ apart f2 [b0; b1; b2; a; u] /\ apart res [f0; f1; f2; a; u] /\
  exists mo, (m' <- cdf_3d_flux i0 j0 k0 i1 j1 k1 dx b0 b1 b2 gcw u f0 f1 f2 m ;;
   cd_apply_3d_diffusion_v1_apply i0 i1 j0 j1 k0 k1 alpha beta dx agcw a gcw u f0 f1 f2 rgcw res m') = Some mo /\
  (forall i j k, i0 <= i <= i1 -> j0 <= j <= j1 -> k0 <= k <= k1 -> ((mkFa res (CELL3d i0 j0 k0 i1 j1 k1 rgcw))!(i, j, k))%F mo = Some (r i j k)) /\
  (forall i j k, i0 - 1 <= i <= i1 + 1 -> j0 - 1 <= j <= j1 + 1 -> k0 - 1 <= k <= k1 + 1 -> ((mkFa u (CELL3d i0 j0 k0 i1 j1 k1 gcw))!(i, j, k))%F m = Some (w i j k)) /\
  (forall i j k, i0 <= i <= i1 -> j0 <= j <= j1 -> k0 <= k <= k1 -> ((mkFa a (CELL3d i0 j0 k0 i1 j1 k1 agcw))!(i, j, k))%F m = Some (c i j k)) /\
  (forall i j k, i0 <= i <= i1 + 1 -> j0 <= j <= j1 -> k0 <= k <= k1 -> ((mkFa b0 (FACE3d0 i0 j0 k0 i1 j1 k1 0))!(i, j, k))%F m = Some (v0 i j k)) /\
  (forall i j k, i0 <= i <= i1 -> j0 <= j <= j1 + 1 -> k0 <= k <= k1 -> ((mkFa b1 (FACE3d1 i0 j0 k0 i1 j1 k1 0))!(j, k, i))%F m = Some (v1 i j k)) /\
  (forall i j k, i0 <= i <= i1 -> j0 <= j <= j1 -> k0 <= k <= k1 + 1 -> ((mkFa b2 (FACE3d2 i0 j0 k0 i1 j1 k1 0))!(k, i, j))%F m = Some (v2 i j k)).

Definition applied_v2_3d {S : Scalar} i0 j0 k0 i1 j1 k1 dx beta b0 b1 b2 gcw u f0 f1 f2 alpha rgcw res (m : mem S) (r w v0 v1 v2 : Z -> Z -> Z -> S) : Prop :=
  0 <= gcw /\ 0 <= rgcw /\ apart f0 [f1; f2; b0; b1; b2; u] /\ apart f1 [f2; b0; b1; b2; u] /\ apart f2 [b0; b1; b2; u] /\ apart res [f0; f1; f2; u] /\
  exists mo, (m' <- cdf_3d_flux i0 j0 k0 i1 j1 k1 dx b0 b1 b2 gcw u f0 f1 f2 m ;;
   cd_apply_3d_diffusion_v2_apply i0 i1 j0 j1 k0 k1 alpha beta dx gcw u f0 f1 f2 rgcw res m') = Some mo /\
  (forall i j k, i0 <= i <= i1 -> j0 <= j <= j1 -> k0 <= k <= k1 -> ((mkFa res (CELL3d i0 j0 k0 i1 j1 k1 rgcw))!(i, j, k))%F mo = Some (r i j k)) /\
  (forall i j k, i0 - 1 <= i <= i1 + 1 -> j0 - 1 <= j <= j1 + 1 -> k0 - 1 <= k <= k1 + 1 -> ((mkFa u (CELL3d i0 j0 k0 i1 j1 k1 gcw))!(i, j, k))%F m = Some (w i j k)) /\
  (forall i j k, i0 <= i <= i1 + 1 -> j0 <= j <= j1 -> k0 <= k <= k1 -> ((mkFa b0 (FACE3d0 i0 j0 k0 i1 j1 k1 0))!(i, j, k))%F m = Some (v0 i j k)) /\
  (forall i j k, i0 <= i <= i1 -> j0 <= j <= j1 + 1 -> k0 <= k <= k1 -> ((mkFa b1 (FACE3d1 i0 j0 k0 i1 j1 k1 0))!(j, k, i))%F m = Some (v1 i j k)) /\
  (forall i j k, i0 <= i <= i1 -> j0 <= j <= j1 -> k0 <= k <= k1 + 1 -> ((mkFa b2 (FACE3d2 i0 j0 k0 i1 j1 k1 0))!(k, i, j))%F m = Some (v2 i j k)).

Definition applied_poisson_3d {S : Scalar} i0 j0 k0 i1 j1 k1 dx beta gcw u f0 f1 f2 rgcw res (m : mem S) (r w : Z -> Z -> Z -> S) : Prop :=
  0 <= gcw /\ 0 <= rgcw /\ apart f0 [f1; f2; u] /\ apart f1 [f2; u] /\ apart f2 [u] /\ apart res [f0; f1; f2; u] /\
  exists mo, (m' <- cdf_3d_poisson_flux i0 j0 k0 i1 j1 k1 dx gcw u f0 f1 f2 m ;;
   cd_apply_3d_poisson_v2_apply i0 i1 j0 j1 k0 k1 beta dx f0 f1 f2 rgcw res m') = Some mo /\
  (forall i j k, i0 <= i <= i1 -> j0 <= j <= j1 -> k0 <= k <= k1 -> ((mkFa res (CELL3d i0 j0 k0 i1 j1 k1 rgcw))!(i, j, k))%F mo = Some (r i j k)) /\
  (forall i j k, i0 - 1 <= i <= i1 + 1 -> j0 - 1 <= j <= j1 + 1 -> k0 - 1 <= k <= k1 + 1 -> ((mkFa u (CELL3d i0 j0 k0 i1 j1 k1 gcw))!(i, j, k))%F m = Some (w i j k)).
