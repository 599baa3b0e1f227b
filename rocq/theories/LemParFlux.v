(** * Flux and operator kernels in parallel *)

From Coq Require Import Permutation.
From Verif Require Import Base ModelBounds ModelMatrix ModelIters ModelSpan ModelProxy Spec SpecIter ModelSched ModelPar
  LemBase LemDomain LemExpr LemExec SpecAssign LemAssign LemProps LemProps4 SpecWindow LemWindow
  FortranBase SpecKernel SpecSafe LemKernel LemKernel2 LemBC LemStencil LemRow LemRhs LemBoundary LemSafe KernelNotations
  KernelsFlux KernelsApply KernelsBC KernelsStencil KernelsCopy KernelsBy LemPar.
Import ListNotations.
Open Scope Z_scope.

Section Par.
  Context {S : Scalar}.

  Lemma cdf_1d_flux_par O i0 i1 dx b0 gcw u f0 (m : mem S) :
    i0 <= i1 + 1 -> 1 <= gcw -> apart f0 [u; b0] ->
    cdf_1d_flux_by (parallel O) i0 i1 dx b0 gcw u f0 m = cdf_1d_flux i0 i1 dx b0 gcw u f0 m.
  Proof. intros; k_apart; unfold cdf_1d_flux_by, cdf_1d_flux; k_par. Qed.

  Lemma cdf_2d_flux_par O i0 j0 i1 j1 dx b0 b1 gcw u f0 f1 (m : mem S) :
    i0 <= i1 + 1 -> j0 <= j1 + 1 -> 1 <= gcw -> apart f0 [u; b0] -> apart f1 [u; b1] ->
    cdf_2d_flux_by (parallel O) i0 j0 i1 j1 dx b0 b1 gcw u f0 f1 m = cdf_2d_flux i0 j0 i1 j1 dx b0 b1 gcw u f0 f1 m.
  Proof. intros; k_apart; unfold cdf_2d_flux_by, cdf_2d_flux; k_par. Qed.

  Lemma cdf_3d_flux_par O i0 j0 k0 i1 j1 k1 dx b0 b1 b2 gcw u f0 f1 f2 (m : mem S) :
    i0 <= i1 + 1 -> j0 <= j1 + 1 -> k0 <= k1 + 1 -> 1 <= gcw -> apart f0 [u; b0] -> apart f1 [u; b1] ->
    apart f2 [u; b2] ->
    cdf_3d_flux_by (parallel O) i0 j0 k0 i1 j1 k1 dx b0 b1 b2 gcw u f0 f1 f2 m = cdf_3d_flux i0 j0 k0 i1 j1 k1 dx b0 b1 b2 gcw u f0 f1 f2 m.
  Proof. intros; k_apart; unfold cdf_3d_flux_by, cdf_3d_flux; k_par. Qed.

  Lemma cdf_1d_poisson_flux_par O i0 i1 dx gcw u f0 (m : mem S) :
    i0 <= i1 + 1 -> 1 <= gcw -> apart f0 [u] ->
    cdf_1d_poisson_flux_by (parallel O) i0 i1 dx gcw u f0 m = cdf_1d_poisson_flux i0 i1 dx gcw u f0 m.
  Proof. intros; k_apart; unfold cdf_1d_poisson_flux_by, cdf_1d_poisson_flux; k_par. Qed.

  Lemma cdf_2d_poisson_flux_par O i0 j0 i1 j1 dx gcw u f0 f1 (m : mem S) :
    i0 <= i1 + 1 -> j0 <= j1 + 1 -> 1 <= gcw -> apart f0 [u] -> apart f1 [u] ->
    cdf_2d_poisson_flux_by (parallel O) i0 j0 i1 j1 dx gcw u f0 f1 m = cdf_2d_poisson_flux i0 j0 i1 j1 dx gcw u f0 f1 m.
  Proof. intros; k_apart; unfold cdf_2d_poisson_flux_by, cdf_2d_poisson_flux; k_par. Qed.

  Lemma cdf_3d_poisson_flux_par O i0 j0 k0 i1 j1 k1 dx gcw u f0 f1 f2 (m : mem S) :
    i0 <= i1 + 1 -> j0 <= j1 + 1 -> k0 <= k1 + 1 -> 1 <= gcw -> apart f0 [u] -> apart f1 [u] -> apart f2 [u] ->
    cdf_3d_poisson_flux_by (parallel O) i0 j0 k0 i1 j1 k1 dx gcw u f0 f1 f2 m = cdf_3d_poisson_flux i0 j0 k0 i1 j1 k1 dx gcw u f0 f1 f2 m.
  Proof. intros; k_apart; unfold cdf_3d_poisson_flux_by, cdf_3d_poisson_flux; k_par. Qed.

  Lemma cd_apply_1d_diffusion_v1_res_par O i0 i1 alpha beta dx agcw a ugcw u fgcw f f0 rgcw res (m : mem S) :
    i0 <= i1 + 1 -> 0 <= agcw -> 0 <= ugcw -> 0 <= fgcw -> 0 <= rgcw -> apart res [a; u; f; f0] ->
    cd_apply_1d_diffusion_v1_res_by (parallel O) i0 i1 alpha beta dx agcw a ugcw u fgcw f f0 rgcw res m = cd_apply_1d_diffusion_v1_res i0 i1 alpha beta dx agcw a ugcw u fgcw f f0 rgcw res m.
  Proof. intros; k_apart; unfold cd_apply_1d_diffusion_v1_res_by, cd_apply_1d_diffusion_v1_res; k_par. Qed.

  Lemma cd_apply_1d_diffusion_v2_res_par O i0 i1 alpha beta dx ugcw u fgcw f f0 rgcw res (m : mem S) :
    i0 <= i1 + 1 -> 0 <= ugcw -> 0 <= fgcw -> 0 <= rgcw -> apart res [u; f; f0] ->
    cd_apply_1d_diffusion_v2_res_by (parallel O) i0 i1 alpha beta dx ugcw u fgcw f f0 rgcw res m = cd_apply_1d_diffusion_v2_res i0 i1 alpha beta dx ugcw u fgcw f f0 rgcw res m.
  Proof. intros; k_apart; unfold cd_apply_1d_diffusion_v2_res_by, cd_apply_1d_diffusion_v2_res; k_par. Qed.

  Lemma cd_apply_1d_poisson_v1_res_par O i0 i1 beta dx fgcw f f0 rgcw res (m : mem S) :
    i0 <= i1 + 1 -> 0 <= fgcw -> 0 <= rgcw -> apart res [f; f0] ->
    cd_apply_1d_poisson_v1_res_by (parallel O) i0 i1 beta dx fgcw f f0 rgcw res m = cd_apply_1d_poisson_v1_res i0 i1 beta dx fgcw f f0 rgcw res m.
  Proof. intros; k_apart; unfold cd_apply_1d_poisson_v1_res_by, cd_apply_1d_poisson_v1_res; k_par. Qed.

  Lemma cd_apply_1d_diffusion_v1_apply_par O i0 i1 alpha beta dx agcw a ugcw u f0 rgcw res (m : mem S) :
    i0 <= i1 + 1 -> 0 <= agcw -> 0 <= ugcw -> 0 <= rgcw -> apart res [a; u; f0] ->
    cd_apply_1d_diffusion_v1_apply_by (parallel O) i0 i1 alpha beta dx agcw a ugcw u f0 rgcw res m = cd_apply_1d_diffusion_v1_apply i0 i1 alpha beta dx agcw a ugcw u f0 rgcw res m.
  Proof. intros; k_apart; unfold cd_apply_1d_diffusion_v1_apply_by, cd_apply_1d_diffusion_v1_apply; k_par. Qed.

  Lemma cd_apply_1d_diffusion_v2_apply_par O i0 i1 alpha beta dx ugcw u f0 rgcw res (m : mem S) :
    i0 <= i1 + 1 -> 0 <= ugcw -> 0 <= rgcw -> apart res [u; f0] ->
    cd_apply_1d_diffusion_v2_apply_by (parallel O) i0 i1 alpha beta dx ugcw u f0 rgcw res m = cd_apply_1d_diffusion_v2_apply i0 i1 alpha beta dx ugcw u f0 rgcw res m.
  Proof. intros; k_apart; unfold cd_apply_1d_diffusion_v2_apply_by, cd_apply_1d_diffusion_v2_apply; k_par. Qed.

  Lemma cd_apply_1d_poisson_v2_apply_par O i0 i1 beta dx f0 rgcw res (m : mem S) :
    i0 <= i1 + 1 -> 0 <= rgcw -> apart res [f0] ->
    cd_apply_1d_poisson_v2_apply_by (parallel O) i0 i1 beta dx f0 rgcw res m = cd_apply_1d_poisson_v2_apply i0 i1 beta dx f0 rgcw res m.
  Proof. intros; k_apart; unfold cd_apply_1d_poisson_v2_apply_by, cd_apply_1d_poisson_v2_apply; k_par. Qed.

  Lemma cd_apply_2d_diffusion_v1_res_par O i0 i1 j0 j1 alpha beta dx agcw a ugcw u fgcw f f0 f1 rgcw res (m : mem S) :
    i0 <= i1 + 1 -> j0 <= j1 + 1 -> 0 <= agcw -> 0 <= ugcw -> 0 <= fgcw -> 0 <= rgcw ->
    apart res [a; u; f; f0; f1] ->
    cd_apply_2d_diffusion_v1_res_by (parallel O) i0 i1 j0 j1 alpha beta dx agcw a ugcw u fgcw f f0 f1 rgcw res m = cd_apply_2d_diffusion_v1_res i0 i1 j0 j1 alpha beta dx agcw a ugcw u fgcw f f0 f1 rgcw res m.
  Proof. intros; k_apart; unfold cd_apply_2d_diffusion_v1_res_by, cd_apply_2d_diffusion_v1_res; k_par. Qed.

  Lemma cd_apply_2d_diffusion_v2_res_par O i0 i1 j0 j1 alpha beta dx ugcw u fgcw f f0 f1 rgcw res (m : mem S) :
    i0 <= i1 + 1 -> j0 <= j1 + 1 -> 0 <= ugcw -> 0 <= fgcw -> 0 <= rgcw -> apart res [u; f; f0; f1] ->
    cd_apply_2d_diffusion_v2_res_by (parallel O) i0 i1 j0 j1 alpha beta dx ugcw u fgcw f f0 f1 rgcw res m = cd_apply_2d_diffusion_v2_res i0 i1 j0 j1 alpha beta dx ugcw u fgcw f f0 f1 rgcw res m.
  Proof. intros; k_apart; unfold cd_apply_2d_diffusion_v2_res_by, cd_apply_2d_diffusion_v2_res; k_par. Qed.

  Lemma cd_apply_2d_poisson_v1_res_par O i0 i1 j0 j1 beta dx fgcw f f0 f1 rgcw res (m : mem S) :
    i0 <= i1 + 1 -> j0 <= j1 + 1 -> 0 <= fgcw -> 0 <= rgcw -> apart res [f; f0; f1] ->
    cd_apply_2d_poisson_v1_res_by (parallel O) i0 i1 j0 j1 beta dx fgcw f f0 f1 rgcw res m = cd_apply_2d_poisson_v1_res i0 i1 j0 j1 beta dx fgcw f f0 f1 rgcw res m.
  Proof. intros; k_apart; unfold cd_apply_2d_poisson_v1_res_by, cd_apply_2d_poisson_v1_res; k_par. Qed.

  Lemma cd_apply_2d_diffusion_v1_apply_par O i0 i1 j0 j1 alpha beta dx agcw a ugcw u f0 f1 rgcw res (m : mem S) :
    i0 <= i1 + 1 -> j0 <= j1 + 1 -> 0 <= agcw -> 0 <= ugcw -> 0 <= rgcw -> apart res [a; u; f0; f1] ->
    cd_apply_2d_diffusion_v1_apply_by (parallel O) i0 i1 j0 j1 alpha beta dx agcw a ugcw u f0 f1 rgcw res m = cd_apply_2d_diffusion_v1_apply i0 i1 j0 j1 alpha beta dx agcw a ugcw u f0 f1 rgcw res m.
  Proof. intros; k_apart; unfold cd_apply_2d_diffusion_v1_apply_by, cd_apply_2d_diffusion_v1_apply; k_par. Qed.

  Lemma cd_apply_2d_diffusion_v2_apply_par O i0 i1 j0 j1 alpha beta dx ugcw u f0 f1 rgcw res (m : mem S) :
    i0 <= i1 + 1 -> j0 <= j1 + 1 -> 0 <= ugcw -> 0 <= rgcw -> apart res [u; f0; f1] ->
    cd_apply_2d_diffusion_v2_apply_by (parallel O) i0 i1 j0 j1 alpha beta dx ugcw u f0 f1 rgcw res m = cd_apply_2d_diffusion_v2_apply i0 i1 j0 j1 alpha beta dx ugcw u f0 f1 rgcw res m.
  Proof. intros; k_apart; unfold cd_apply_2d_diffusion_v2_apply_by, cd_apply_2d_diffusion_v2_apply; k_par. Qed.

  Lemma cd_apply_2d_poisson_v2_apply_par O i0 i1 j0 j1 beta dx f0 f1 rgcw res (m : mem S) :
    i0 <= i1 + 1 -> j0 <= j1 + 1 -> 0 <= rgcw -> apart res [f0; f1] ->
    cd_apply_2d_poisson_v2_apply_by (parallel O) i0 i1 j0 j1 beta dx f0 f1 rgcw res m = cd_apply_2d_poisson_v2_apply i0 i1 j0 j1 beta dx f0 f1 rgcw res m.
  Proof. intros; k_apart; unfold cd_apply_2d_poisson_v2_apply_by, cd_apply_2d_poisson_v2_apply; k_par. Qed.

  Lemma cd_apply_3d_diffusion_v1_res_par O i0 i1 j0 j1 k0 k1 alpha beta dx agcw a ugcw u fgcw f f0 f1 f2 rgcw res (m : mem S) :
    i0 <= i1 + 1 -> j0 <= j1 + 1 -> k0 <= k1 + 1 -> 0 <= agcw -> 0 <= ugcw -> 0 <= fgcw -> 0 <= rgcw ->
    apart res [a; u; f; f0; f1; f2] ->
    cd_apply_3d_diffusion_v1_res_by (parallel O) i0 i1 j0 j1 k0 k1 alpha beta dx agcw a ugcw u fgcw f f0 f1 f2 rgcw res m = cd_apply_3d_diffusion_v1_res i0 i1 j0 j1 k0 k1 alpha beta dx agcw a ugcw u fgcw f f0 f1 f2 rgcw res m.
  Proof. intros; k_apart; unfold cd_apply_3d_diffusion_v1_res_by, cd_apply_3d_diffusion_v1_res; k_par. Qed.

  Lemma cd_apply_3d_diffusion_v2_res_par O i0 i1 j0 j1 k0 k1 alpha beta dx ugcw u fgcw f f0 f1 f2 rgcw res (m : mem S) :
    i0 <= i1 + 1 -> j0 <= j1 + 1 -> k0 <= k1 + 1 -> 0 <= ugcw -> 0 <= fgcw -> 0 <= rgcw ->
    apart res [u; f; f0; f1; f2] ->
    cd_apply_3d_diffusion_v2_res_by (parallel O) i0 i1 j0 j1 k0 k1 alpha beta dx ugcw u fgcw f f0 f1 f2 rgcw res m = cd_apply_3d_diffusion_v2_res i0 i1 j0 j1 k0 k1 alpha beta dx ugcw u fgcw f f0 f1 f2 rgcw res m.
  Proof. intros; k_apart; unfold cd_apply_3d_diffusion_v2_res_by, cd_apply_3d_diffusion_v2_res; k_par. Qed.

  Lemma cd_apply_3d_poisson_v1_res_par O i0 i1 j0 j1 k0 k1 beta dx fgcw f f0 f1 f2 rgcw res (m : mem S) :
    i0 <= i1 + 1 -> j0 <= j1 + 1 -> k0 <= k1 + 1 -> 0 <= fgcw -> 0 <= rgcw -> apart res [f; f0; f1; f2] ->
    cd_apply_3d_poisson_v1_res_by (parallel O) i0 i1 j0 j1 k0 k1 beta dx fgcw f f0 f1 f2 rgcw res m = cd_apply_3d_poisson_v1_res i0 i1 j0 j1 k0 k1 beta dx fgcw f f0 f1 f2 rgcw res m.
  Proof. intros; k_apart; unfold cd_apply_3d_poisson_v1_res_by, cd_apply_3d_poisson_v1_res; k_par. Qed.

  Lemma cd_apply_3d_diffusion_v1_apply_par O i0 i1 j0 j1 k0 k1 alpha beta dx agcw a ugcw u f0 f1 f2 rgcw res (m : mem S) :
    i0 <= i1 + 1 -> j0 <= j1 + 1 -> k0 <= k1 + 1 -> 0 <= agcw -> 0 <= ugcw -> 0 <= rgcw ->
    apart res [a; u; f0; f1; f2] ->
    cd_apply_3d_diffusion_v1_apply_by (parallel O) i0 i1 j0 j1 k0 k1 alpha beta dx agcw a ugcw u f0 f1 f2 rgcw res m = cd_apply_3d_diffusion_v1_apply i0 i1 j0 j1 k0 k1 alpha beta dx agcw a ugcw u f0 f1 f2 rgcw res m.
  Proof. intros; k_apart; unfold cd_apply_3d_diffusion_v1_apply_by, cd_apply_3d_diffusion_v1_apply; k_par. Qed.

  Lemma cd_apply_3d_diffusion_v2_apply_par O i0 i1 j0 j1 k0 k1 alpha beta dx ugcw u f0 f1 f2 rgcw res (m : mem S) :
    i0 <= i1 + 1 -> j0 <= j1 + 1 -> k0 <= k1 + 1 -> 0 <= ugcw -> 0 <= rgcw -> apart res [u; f0; f1; f2] ->
    cd_apply_3d_diffusion_v2_apply_by (parallel O) i0 i1 j0 j1 k0 k1 alpha beta dx ugcw u f0 f1 f2 rgcw res m = cd_apply_3d_diffusion_v2_apply i0 i1 j0 j1 k0 k1 alpha beta dx ugcw u f0 f1 f2 rgcw res m.
  Proof. intros; k_apart; unfold cd_apply_3d_diffusion_v2_apply_by, cd_apply_3d_diffusion_v2_apply; k_par. Qed.

  Lemma cd_apply_3d_poisson_v2_apply_par O i0 i1 j0 j1 k0 k1 beta dx f0 f1 f2 rgcw res (m : mem S) :
    i0 <= i1 + 1 -> j0 <= j1 + 1 -> k0 <= k1 + 1 -> 0 <= rgcw -> apart res [f0; f1; f2] ->
    cd_apply_3d_poisson_v2_apply_by (parallel O) i0 i1 j0 j1 k0 k1 beta dx f0 f1 f2 rgcw res m = cd_apply_3d_poisson_v2_apply i0 i1 j0 j1 k0 k1 beta dx f0 f1 f2 rgcw res m.
  Proof. intros; k_apart; unfold cd_apply_3d_poisson_v2_apply_by, cd_apply_3d_poisson_v2_apply; k_par. Qed.
End Par.
