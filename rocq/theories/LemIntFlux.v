(** * Flux and operator kernels with [int] index arithmetic *)

From Coq Require Import Permutation.
From Verif Require Import Base ModelBounds ModelMatrix ModelIters ModelSpan ModelProxy ModelInt ModelIntProxy Spec
  SpecWindow SpecInt FortranBase SpecKernel SpecSafe ModelPar LemKernel LemKernel2 LemBC LemStencil LemSafe
  LemIntKernel KernelNotations KernelsFlux KernelsApply KernelsBC KernelsStencil KernelsCopy KernelsBy.
Import ListNotations.
Open Scope Z_scope.

Section Int.
  Context {S : Scalar}.

  Lemma cdf_1d_flux_int i0 i1 dx b0 gcw u f0 (m : mem S) :
    i0 <= i1 -> 1 <= gcw -> int_dims (CELL1d i0 i1 gcw) -> int_dims (FACE1d i0 i1 0) ->
    cdf_1d_flux_by int32 i0 i1 dx b0 gcw u f0 m = cdf_1d_flux i0 i1 dx b0 gcw u f0 m.
  Proof. intros; k_dims; unfold cdf_1d_flux_by, cdf_1d_flux; k_int. Qed.

  Lemma cdf_2d_flux_int i0 j0 i1 j1 dx b0 b1 gcw u f0 f1 (m : mem S) :
    i0 <= i1 -> j0 <= j1 -> 1 <= gcw -> int_dims (CELL2d i0 j0 i1 j1 gcw) ->
    int_dims (FACE2d0 i0 j0 i1 j1 0) -> int_dims (FACE2d1 i0 j0 i1 j1 0) ->
    cdf_2d_flux_by int32 i0 j0 i1 j1 dx b0 b1 gcw u f0 f1 m = cdf_2d_flux i0 j0 i1 j1 dx b0 b1 gcw u f0 f1 m.
  Proof. intros; k_dims; unfold cdf_2d_flux_by, cdf_2d_flux; k_int. Qed.

  Lemma cdf_3d_flux_int i0 j0 k0 i1 j1 k1 dx b0 b1 b2 gcw u f0 f1 f2 (m : mem S) :
    i0 <= i1 -> j0 <= j1 -> k0 <= k1 -> 1 <= gcw -> int_dims (CELL3d i0 j0 k0 i1 j1 k1 gcw) ->
    int_dims (FACE3d0 i0 j0 k0 i1 j1 k1 0) -> int_dims (FACE3d1 i0 j0 k0 i1 j1 k1 0) ->
    int_dims (FACE3d2 i0 j0 k0 i1 j1 k1 0) ->
    cdf_3d_flux_by int32 i0 j0 k0 i1 j1 k1 dx b0 b1 b2 gcw u f0 f1 f2 m = cdf_3d_flux i0 j0 k0 i1 j1 k1 dx b0 b1 b2 gcw u f0 f1 f2 m.
  Proof. intros; k_dims; unfold cdf_3d_flux_by, cdf_3d_flux; k_int. Qed.

  Lemma cdf_1d_poisson_flux_int i0 i1 dx gcw u f0 (m : mem S) :
    i0 <= i1 -> 1 <= gcw -> int_dims (CELL1d i0 i1 gcw) -> int_dims (FACE1d i0 i1 0) ->
    cdf_1d_poisson_flux_by int32 i0 i1 dx gcw u f0 m = cdf_1d_poisson_flux i0 i1 dx gcw u f0 m.
  Proof. intros; k_dims; unfold cdf_1d_poisson_flux_by, cdf_1d_poisson_flux; k_int. Qed.

  Lemma cdf_2d_poisson_flux_int i0 j0 i1 j1 dx gcw u f0 f1 (m : mem S) :
    i0 <= i1 -> j0 <= j1 -> 1 <= gcw -> int_dims (CELL2d i0 j0 i1 j1 gcw) ->
    int_dims (FACE2d0 i0 j0 i1 j1 0) -> int_dims (FACE2d1 i0 j0 i1 j1 0) ->
    cdf_2d_poisson_flux_by int32 i0 j0 i1 j1 dx gcw u f0 f1 m = cdf_2d_poisson_flux i0 j0 i1 j1 dx gcw u f0 f1 m.
  Proof. intros; k_dims; unfold cdf_2d_poisson_flux_by, cdf_2d_poisson_flux; k_int. Qed.

  Lemma cdf_3d_poisson_flux_int i0 j0 k0 i1 j1 k1 dx gcw u f0 f1 f2 (m : mem S) :
    i0 <= i1 -> j0 <= j1 -> k0 <= k1 -> 1 <= gcw -> int_dims (CELL3d i0 j0 k0 i1 j1 k1 gcw) ->
    int_dims (FACE3d0 i0 j0 k0 i1 j1 k1 0) -> int_dims (FACE3d1 i0 j0 k0 i1 j1 k1 0) ->
    int_dims (FACE3d2 i0 j0 k0 i1 j1 k1 0) ->
    cdf_3d_poisson_flux_by int32 i0 j0 k0 i1 j1 k1 dx gcw u f0 f1 f2 m = cdf_3d_poisson_flux i0 j0 k0 i1 j1 k1 dx gcw u f0 f1 f2 m.
  Proof. intros; k_dims; unfold cdf_3d_poisson_flux_by, cdf_3d_poisson_flux; k_int. Qed.

  Lemma cd_apply_1d_diffusion_v1_res_int i0 i1 alpha beta dx agcw a ugcw u fgcw f f0 rgcw res (m : mem S) :
    i0 <= i1 -> 0 <= agcw -> 0 <= ugcw -> 0 <= fgcw -> 0 <= rgcw -> int_dims (CELL1d i0 i1 agcw) ->
    int_dims (CELL1d i0 i1 ugcw) -> int_dims (CELL1d i0 i1 fgcw) -> int_dims (CELL1d i0 i1 rgcw) ->
    int_dims (FACE1d i0 i1 0) ->
    cd_apply_1d_diffusion_v1_res_by int32 i0 i1 alpha beta dx agcw a ugcw u fgcw f f0 rgcw res m = cd_apply_1d_diffusion_v1_res i0 i1 alpha beta dx agcw a ugcw u fgcw f f0 rgcw res m.
  Proof. intros; k_dims; unfold cd_apply_1d_diffusion_v1_res_by, cd_apply_1d_diffusion_v1_res; k_int. Qed.

  Lemma cd_apply_1d_diffusion_v2_res_int i0 i1 alpha beta dx ugcw u fgcw f f0 rgcw res (m : mem S) :
    i0 <= i1 -> 0 <= ugcw -> 0 <= fgcw -> 0 <= rgcw -> int_dims (CELL1d i0 i1 ugcw) ->
    int_dims (CELL1d i0 i1 fgcw) -> int_dims (CELL1d i0 i1 rgcw) -> int_dims (FACE1d i0 i1 0) ->
    cd_apply_1d_diffusion_v2_res_by int32 i0 i1 alpha beta dx ugcw u fgcw f f0 rgcw res m = cd_apply_1d_diffusion_v2_res i0 i1 alpha beta dx ugcw u fgcw f f0 rgcw res m.
  Proof. intros; k_dims; unfold cd_apply_1d_diffusion_v2_res_by, cd_apply_1d_diffusion_v2_res; k_int. Qed.

  Lemma cd_apply_1d_poisson_v1_res_int i0 i1 beta dx fgcw f f0 rgcw res (m : mem S) :
    i0 <= i1 -> 0 <= fgcw -> 0 <= rgcw -> int_dims (CELL1d i0 i1 fgcw) -> int_dims (CELL1d i0 i1 rgcw) ->
    int_dims (FACE1d i0 i1 0) ->
    cd_apply_1d_poisson_v1_res_by int32 i0 i1 beta dx fgcw f f0 rgcw res m = cd_apply_1d_poisson_v1_res i0 i1 beta dx fgcw f f0 rgcw res m.
  Proof. intros; k_dims; unfold cd_apply_1d_poisson_v1_res_by, cd_apply_1d_poisson_v1_res; k_int. Qed.

  Lemma cd_apply_1d_diffusion_v1_apply_int i0 i1 alpha beta dx agcw a ugcw u f0 rgcw res (m : mem S) :
    i0 <= i1 -> 0 <= agcw -> 0 <= ugcw -> 0 <= rgcw -> int_dims (CELL1d i0 i1 agcw) ->
    int_dims (CELL1d i0 i1 ugcw) -> int_dims (CELL1d i0 i1 rgcw) -> int_dims (FACE1d i0 i1 0) ->
    cd_apply_1d_diffusion_v1_apply_by int32 i0 i1 alpha beta dx agcw a ugcw u f0 rgcw res m = cd_apply_1d_diffusion_v1_apply i0 i1 alpha beta dx agcw a ugcw u f0 rgcw res m.
  Proof. intros; k_dims; unfold cd_apply_1d_diffusion_v1_apply_by, cd_apply_1d_diffusion_v1_apply; k_int. Qed.

  Lemma cd_apply_1d_diffusion_v2_apply_int i0 i1 alpha beta dx ugcw u f0 rgcw res (m : mem S) :
    i0 <= i1 -> 0 <= ugcw -> 0 <= rgcw -> int_dims (CELL1d i0 i1 ugcw) -> int_dims (CELL1d i0 i1 rgcw) ->
    int_dims (FACE1d i0 i1 0) ->
    cd_apply_1d_diffusion_v2_apply_by int32 i0 i1 alpha beta dx ugcw u f0 rgcw res m = cd_apply_1d_diffusion_v2_apply i0 i1 alpha beta dx ugcw u f0 rgcw res m.
  Proof. intros; k_dims; unfold cd_apply_1d_diffusion_v2_apply_by, cd_apply_1d_diffusion_v2_apply; k_int. Qed.

  Lemma cd_apply_1d_poisson_v2_apply_int i0 i1 beta dx f0 rgcw res (m : mem S) :
    i0 <= i1 -> 0 <= rgcw -> int_dims (CELL1d i0 i1 rgcw) -> int_dims (FACE1d i0 i1 0) ->
    cd_apply_1d_poisson_v2_apply_by int32 i0 i1 beta dx f0 rgcw res m = cd_apply_1d_poisson_v2_apply i0 i1 beta dx f0 rgcw res m.
  Proof. intros; k_dims; unfold cd_apply_1d_poisson_v2_apply_by, cd_apply_1d_poisson_v2_apply; k_int. Qed.

  Lemma cd_apply_2d_diffusion_v1_res_int i0 i1 j0 j1 alpha beta dx agcw a ugcw u fgcw f f0 f1 rgcw res (m : mem S) :
    i0 <= i1 -> j0 <= j1 -> 0 <= agcw -> 0 <= ugcw -> 0 <= fgcw -> 0 <= rgcw ->
    int_dims (CELL2d i0 j0 i1 j1 agcw) -> int_dims (CELL2d i0 j0 i1 j1 ugcw) ->
    int_dims (CELL2d i0 j0 i1 j1 fgcw) -> int_dims (CELL2d i0 j0 i1 j1 rgcw) ->
    int_dims (FACE2d0 i0 j0 i1 j1 0) -> int_dims (FACE2d1 i0 j0 i1 j1 0) ->
    cd_apply_2d_diffusion_v1_res_by int32 i0 i1 j0 j1 alpha beta dx agcw a ugcw u fgcw f f0 f1 rgcw res m = cd_apply_2d_diffusion_v1_res i0 i1 j0 j1 alpha beta dx agcw a ugcw u fgcw f f0 f1 rgcw res m.
  Proof. intros; k_dims; unfold cd_apply_2d_diffusion_v1_res_by, cd_apply_2d_diffusion_v1_res; k_int. Qed.

  Lemma cd_apply_2d_diffusion_v2_res_int i0 i1 j0 j1 alpha beta dx ugcw u fgcw f f0 f1 rgcw res (m : mem S) :
    i0 <= i1 -> j0 <= j1 -> 0 <= ugcw -> 0 <= fgcw -> 0 <= rgcw -> int_dims (CELL2d i0 j0 i1 j1 ugcw) ->
    int_dims (CELL2d i0 j0 i1 j1 fgcw) -> int_dims (CELL2d i0 j0 i1 j1 rgcw) ->
    int_dims (FACE2d0 i0 j0 i1 j1 0) -> int_dims (FACE2d1 i0 j0 i1 j1 0) ->
    cd_apply_2d_diffusion_v2_res_by int32 i0 i1 j0 j1 alpha beta dx ugcw u fgcw f f0 f1 rgcw res m = cd_apply_2d_diffusion_v2_res i0 i1 j0 j1 alpha beta dx ugcw u fgcw f f0 f1 rgcw res m.
  Proof. intros; k_dims; unfold cd_apply_2d_diffusion_v2_res_by, cd_apply_2d_diffusion_v2_res; k_int. Qed.

  Lemma cd_apply_2d_poisson_v1_res_int i0 i1 j0 j1 beta dx fgcw f f0 f1 rgcw res (m : mem S) :
    i0 <= i1 -> j0 <= j1 -> 0 <= fgcw -> 0 <= rgcw -> int_dims (CELL2d i0 j0 i1 j1 fgcw) ->
    int_dims (CELL2d i0 j0 i1 j1 rgcw) -> int_dims (FACE2d0 i0 j0 i1 j1 0) ->
    int_dims (FACE2d1 i0 j0 i1 j1 0) ->
    cd_apply_2d_poisson_v1_res_by int32 i0 i1 j0 j1 beta dx fgcw f f0 f1 rgcw res m = cd_apply_2d_poisson_v1_res i0 i1 j0 j1 beta dx fgcw f f0 f1 rgcw res m.
  Proof. intros; k_dims; unfold cd_apply_2d_poisson_v1_res_by, cd_apply_2d_poisson_v1_res; k_int. Qed.

  Lemma cd_apply_2d_diffusion_v1_apply_int i0 i1 j0 j1 alpha beta dx agcw a ugcw u f0 f1 rgcw res (m : mem S) :
    i0 <= i1 -> j0 <= j1 -> 0 <= agcw -> 0 <= ugcw -> 0 <= rgcw -> int_dims (CELL2d i0 j0 i1 j1 agcw) ->
    int_dims (CELL2d i0 j0 i1 j1 ugcw) -> int_dims (CELL2d i0 j0 i1 j1 rgcw) ->
    int_dims (FACE2d0 i0 j0 i1 j1 0) -> int_dims (FACE2d1 i0 j0 i1 j1 0) ->
    cd_apply_2d_diffusion_v1_apply_by int32 i0 i1 j0 j1 alpha beta dx agcw a ugcw u f0 f1 rgcw res m = cd_apply_2d_diffusion_v1_apply i0 i1 j0 j1 alpha beta dx agcw a ugcw u f0 f1 rgcw res m.
  Proof. intros; k_dims; unfold cd_apply_2d_diffusion_v1_apply_by, cd_apply_2d_diffusion_v1_apply; k_int. Qed.

  Lemma cd_apply_2d_diffusion_v2_apply_int i0 i1 j0 j1 alpha beta dx ugcw u f0 f1 rgcw res (m : mem S) :
    i0 <= i1 -> j0 <= j1 -> 0 <= ugcw -> 0 <= rgcw -> int_dims (CELL2d i0 j0 i1 j1 ugcw) ->
    int_dims (CELL2d i0 j0 i1 j1 rgcw) -> int_dims (FACE2d0 i0 j0 i1 j1 0) ->
    int_dims (FACE2d1 i0 j0 i1 j1 0) ->
    cd_apply_2d_diffusion_v2_apply_by int32 i0 i1 j0 j1 alpha beta dx ugcw u f0 f1 rgcw res m = cd_apply_2d_diffusion_v2_apply i0 i1 j0 j1 alpha beta dx ugcw u f0 f1 rgcw res m.
  Proof. intros; k_dims; unfold cd_apply_2d_diffusion_v2_apply_by, cd_apply_2d_diffusion_v2_apply; k_int. Qed.

  Lemma cd_apply_2d_poisson_v2_apply_int i0 i1 j0 j1 beta dx f0 f1 rgcw res (m : mem S) :
    i0 <= i1 -> j0 <= j1 -> 0 <= rgcw -> int_dims (CELL2d i0 j0 i1 j1 rgcw) ->
    int_dims (FACE2d0 i0 j0 i1 j1 0) -> int_dims (FACE2d1 i0 j0 i1 j1 0) ->
    cd_apply_2d_poisson_v2_apply_by int32 i0 i1 j0 j1 beta dx f0 f1 rgcw res m = cd_apply_2d_poisson_v2_apply i0 i1 j0 j1 beta dx f0 f1 rgcw res m.
  Proof. intros; k_dims; unfold cd_apply_2d_poisson_v2_apply_by, cd_apply_2d_poisson_v2_apply; k_int. Qed.

  Lemma cd_apply_3d_diffusion_v1_res_int i0 i1 j0 j1 k0 k1 alpha beta dx agcw a ugcw u fgcw f f0 f1 f2 rgcw res (m : mem S) :
    i0 <= i1 -> j0 <= j1 -> k0 <= k1 -> 0 <= agcw -> 0 <= ugcw -> 0 <= fgcw -> 0 <= rgcw ->
    int_dims (CELL3d i0 j0 k0 i1 j1 k1 agcw) -> int_dims (CELL3d i0 j0 k0 i1 j1 k1 ugcw) ->
    int_dims (CELL3d i0 j0 k0 i1 j1 k1 fgcw) -> int_dims (CELL3d i0 j0 k0 i1 j1 k1 rgcw) ->
    int_dims (FACE3d0 i0 j0 k0 i1 j1 k1 0) -> int_dims (FACE3d1 i0 j0 k0 i1 j1 k1 0) ->
    int_dims (FACE3d2 i0 j0 k0 i1 j1 k1 0) ->
    cd_apply_3d_diffusion_v1_res_by int32 i0 i1 j0 j1 k0 k1 alpha beta dx agcw a ugcw u fgcw f f0 f1 f2 rgcw res m = cd_apply_3d_diffusion_v1_res i0 i1 j0 j1 k0 k1 alpha beta dx agcw a ugcw u fgcw f f0 f1 f2 rgcw res m.
  Proof. intros; k_dims; unfold cd_apply_3d_diffusion_v1_res_by, cd_apply_3d_diffusion_v1_res; k_int. Qed.

  Lemma cd_apply_3d_diffusion_v2_res_int i0 i1 j0 j1 k0 k1 alpha beta dx ugcw u fgcw f f0 f1 f2 rgcw res (m : mem S) :
    i0 <= i1 -> j0 <= j1 -> k0 <= k1 -> 0 <= ugcw -> 0 <= fgcw -> 0 <= rgcw ->
    int_dims (CELL3d i0 j0 k0 i1 j1 k1 ugcw) -> int_dims (CELL3d i0 j0 k0 i1 j1 k1 fgcw) ->
    int_dims (CELL3d i0 j0 k0 i1 j1 k1 rgcw) -> int_dims (FACE3d0 i0 j0 k0 i1 j1 k1 0) ->
    int_dims (FACE3d1 i0 j0 k0 i1 j1 k1 0) -> int_dims (FACE3d2 i0 j0 k0 i1 j1 k1 0) ->
    cd_apply_3d_diffusion_v2_res_by int32 i0 i1 j0 j1 k0 k1 alpha beta dx ugcw u fgcw f f0 f1 f2 rgcw res m = cd_apply_3d_diffusion_v2_res i0 i1 j0 j1 k0 k1 alpha beta dx ugcw u fgcw f f0 f1 f2 rgcw res m.
  Proof. intros; k_dims; unfold cd_apply_3d_diffusion_v2_res_by, cd_apply_3d_diffusion_v2_res; k_int. Qed.

  Lemma cd_apply_3d_poisson_v1_res_int i0 i1 j0 j1 k0 k1 beta dx fgcw f f0 f1 f2 rgcw res (m : mem S) :
    i0 <= i1 -> j0 <= j1 -> k0 <= k1 -> 0 <= fgcw -> 0 <= rgcw -> int_dims (CELL3d i0 j0 k0 i1 j1 k1 fgcw) ->
    int_dims (CELL3d i0 j0 k0 i1 j1 k1 rgcw) -> int_dims (FACE3d0 i0 j0 k0 i1 j1 k1 0) ->
    int_dims (FACE3d1 i0 j0 k0 i1 j1 k1 0) -> int_dims (FACE3d2 i0 j0 k0 i1 j1 k1 0) ->
    cd_apply_3d_poisson_v1_res_by int32 i0 i1 j0 j1 k0 k1 beta dx fgcw f f0 f1 f2 rgcw res m = cd_apply_3d_poisson_v1_res i0 i1 j0 j1 k0 k1 beta dx fgcw f f0 f1 f2 rgcw res m.
  Proof. intros; k_dims; unfold cd_apply_3d_poisson_v1_res_by, cd_apply_3d_poisson_v1_res; k_int. Qed.

  Lemma cd_apply_3d_diffusion_v1_apply_int i0 i1 j0 j1 k0 k1 alpha beta dx agcw a ugcw u f0 f1 f2 rgcw res (m : mem S) :
    i0 <= i1 -> j0 <= j1 -> k0 <= k1 -> 0 <= agcw -> 0 <= ugcw -> 0 <= rgcw ->
    int_dims (CELL3d i0 j0 k0 i1 j1 k1 agcw) -> int_dims (CELL3d i0 j0 k0 i1 j1 k1 ugcw) ->
    int_dims (CELL3d i0 j0 k0 i1 j1 k1 rgcw) -> int_dims (FACE3d0 i0 j0 k0 i1 j1 k1 0) ->
    int_dims (FACE3d1 i0 j0 k0 i1 j1 k1 0) -> int_dims (FACE3d2 i0 j0 k0 i1 j1 k1 0) ->
    cd_apply_3d_diffusion_v1_apply_by int32 i0 i1 j0 j1 k0 k1 alpha beta dx agcw a ugcw u f0 f1 f2 rgcw res m = cd_apply_3d_diffusion_v1_apply i0 i1 j0 j1 k0 k1 alpha beta dx agcw a ugcw u f0 f1 f2 rgcw res m.
  Proof. intros; k_dims; unfold cd_apply_3d_diffusion_v1_apply_by, cd_apply_3d_diffusion_v1_apply; k_int. Qed.

  Lemma cd_apply_3d_diffusion_v2_apply_int i0 i1 j0 j1 k0 k1 alpha beta dx ugcw u f0 f1 f2 rgcw res (m : mem S) :
    i0 <= i1 -> j0 <= j1 -> k0 <= k1 -> 0 <= ugcw -> 0 <= rgcw -> int_dims (CELL3d i0 j0 k0 i1 j1 k1 ugcw) ->
    int_dims (CELL3d i0 j0 k0 i1 j1 k1 rgcw) -> int_dims (FACE3d0 i0 j0 k0 i1 j1 k1 0) ->
    int_dims (FACE3d1 i0 j0 k0 i1 j1 k1 0) -> int_dims (FACE3d2 i0 j0 k0 i1 j1 k1 0) ->
    cd_apply_3d_diffusion_v2_apply_by int32 i0 i1 j0 j1 k0 k1 alpha beta dx ugcw u f0 f1 f2 rgcw res m = cd_apply_3d_diffusion_v2_apply i0 i1 j0 j1 k0 k1 alpha beta dx ugcw u f0 f1 f2 rgcw res m.
  Proof. intros; k_dims; unfold cd_apply_3d_diffusion_v2_apply_by, cd_apply_3d_diffusion_v2_apply; k_int. Qed.

  Lemma cd_apply_3d_poisson_v2_apply_int i0 i1 j0 j1 k0 k1 beta dx f0 f1 f2 rgcw res (m : mem S) :
    i0 <= i1 -> j0 <= j1 -> k0 <= k1 -> 0 <= rgcw -> int_dims (CELL3d i0 j0 k0 i1 j1 k1 rgcw) ->
    int_dims (FACE3d0 i0 j0 k0 i1 j1 k1 0) -> int_dims (FACE3d1 i0 j0 k0 i1 j1 k1 0) ->
    int_dims (FACE3d2 i0 j0 k0 i1 j1 k1 0) ->
    cd_apply_3d_poisson_v2_apply_by int32 i0 i1 j0 j1 k0 k1 beta dx f0 f1 f2 rgcw res m = cd_apply_3d_poisson_v2_apply i0 i1 j0 j1 k0 k1 beta dx f0 f1 f2 rgcw res m.
  Proof. intros; k_dims; unfold cd_apply_3d_poisson_v2_apply_by, cd_apply_3d_poisson_v2_apply; k_int. Qed.
End Int.
