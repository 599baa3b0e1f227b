(** * Flux and operator kernels stay inside their arrays *)

From Coq Require Import Permutation.
From Verif Require Import Base ModelBounds ModelMatrix ModelIters ModelSpan ModelProxy Spec SpecIter ModelSched
  LemBase LemDomain LemExpr LemExec SpecAssign LemAssign LemProps LemProps4 SpecWindow LemWindow
  FortranBase SpecKernel SpecSafe LemKernel LemKernel2 LemBC LemStencil LemSafe KernelNotations KernelsFlux KernelsApply.
Import ListNotations.
Open Scope Z_scope.

Section Safe.
  Context {S : Scalar}.

  Lemma cdf_1d_flux_safe i0 i1 dx b0 gcw u f0 (m : mem S) :
    i0 <= i1 + 1 -> 1 <= gcw -> room m u (fcount (CELL1d i0 i1 gcw)) ->
    room m b0 (fcount (FACE1d i0 i1 0)) -> room m f0 (fcount (FACE1d i0 i1 0)) ->
    safe (cdf_1d_flux i0 i1 dx b0 gcw u f0) m.
  Proof. intros; k_apart; k_rooms; unfold cdf_1d_flux; k_safe. Qed.

  Lemma cdf_2d_flux_safe i0 j0 i1 j1 dx b0 b1 gcw u f0 f1 (m : mem S) :
    i0 <= i1 + 1 -> j0 <= j1 + 1 -> 1 <= gcw -> room m u (fcount (CELL2d i0 j0 i1 j1 gcw)) ->
    room m b0 (fcount (FACE2d0 i0 j0 i1 j1 0)) -> room m b1 (fcount (FACE2d1 i0 j0 i1 j1 0)) ->
    room m f0 (fcount (FACE2d0 i0 j0 i1 j1 0)) -> room m f1 (fcount (FACE2d1 i0 j0 i1 j1 0)) ->
    safe (cdf_2d_flux i0 j0 i1 j1 dx b0 b1 gcw u f0 f1) m.
  Proof. intros; k_apart; k_rooms; unfold cdf_2d_flux; k_safe. Qed.

  Lemma cdf_3d_flux_safe i0 j0 k0 i1 j1 k1 dx b0 b1 b2 gcw u f0 f1 f2 (m : mem S) :
    i0 <= i1 + 1 -> j0 <= j1 + 1 -> k0 <= k1 + 1 -> 1 <= gcw ->
    room m u (fcount (CELL3d i0 j0 k0 i1 j1 k1 gcw)) -> room m b0 (fcount (FACE3d0 i0 j0 k0 i1 j1 k1 0)) ->
    room m b1 (fcount (FACE3d1 i0 j0 k0 i1 j1 k1 0)) -> room m b2 (fcount (FACE3d2 i0 j0 k0 i1 j1 k1 0)) ->
    room m f0 (fcount (FACE3d0 i0 j0 k0 i1 j1 k1 0)) -> room m f1 (fcount (FACE3d1 i0 j0 k0 i1 j1 k1 0)) ->
    room m f2 (fcount (FACE3d2 i0 j0 k0 i1 j1 k1 0)) ->
    safe (cdf_3d_flux i0 j0 k0 i1 j1 k1 dx b0 b1 b2 gcw u f0 f1 f2) m.
  Proof. intros; k_apart; k_rooms; unfold cdf_3d_flux; k_safe. Qed.

  Lemma cdf_1d_poisson_flux_safe i0 i1 dx gcw u f0 (m : mem S) :
    i0 <= i1 + 1 -> 1 <= gcw -> room m u (fcount (CELL1d i0 i1 gcw)) ->
    room m f0 (fcount (FACE1d i0 i1 0)) ->
    safe (cdf_1d_poisson_flux i0 i1 dx gcw u f0) m.
  Proof. intros; k_apart; k_rooms; unfold cdf_1d_poisson_flux; k_safe. Qed.

  Lemma cdf_2d_poisson_flux_safe i0 j0 i1 j1 dx gcw u f0 f1 (m : mem S) :
    i0 <= i1 + 1 -> j0 <= j1 + 1 -> 1 <= gcw -> room m u (fcount (CELL2d i0 j0 i1 j1 gcw)) ->
    room m f0 (fcount (FACE2d0 i0 j0 i1 j1 0)) -> room m f1 (fcount (FACE2d1 i0 j0 i1 j1 0)) ->
    safe (cdf_2d_poisson_flux i0 j0 i1 j1 dx gcw u f0 f1) m.
  Proof. intros; k_apart; k_rooms; unfold cdf_2d_poisson_flux; k_safe. Qed.

  Lemma cdf_3d_poisson_flux_safe i0 j0 k0 i1 j1 k1 dx gcw u f0 f1 f2 (m : mem S) :
    i0 <= i1 + 1 -> j0 <= j1 + 1 -> k0 <= k1 + 1 -> 1 <= gcw ->
    room m u (fcount (CELL3d i0 j0 k0 i1 j1 k1 gcw)) -> room m f0 (fcount (FACE3d0 i0 j0 k0 i1 j1 k1 0)) ->
    room m f1 (fcount (FACE3d1 i0 j0 k0 i1 j1 k1 0)) -> room m f2 (fcount (FACE3d2 i0 j0 k0 i1 j1 k1 0)) ->
    safe (cdf_3d_poisson_flux i0 j0 k0 i1 j1 k1 dx gcw u f0 f1 f2) m.
  Proof. intros; k_apart; k_rooms; unfold cdf_3d_poisson_flux; k_safe. Qed.

  Lemma cd_apply_1d_diffusion_v1_res_safe i0 i1 alpha beta dx agcw a ugcw u fgcw f f0 rgcw res (m : mem S) :
    i0 <= i1 + 1 -> 0 <= agcw -> 0 <= ugcw -> 0 <= fgcw -> 0 <= rgcw ->
    room m a (fcount (CELL1d i0 i1 agcw)) -> room m u (fcount (CELL1d i0 i1 ugcw)) ->
    room m f (fcount (CELL1d i0 i1 fgcw)) -> room m res (fcount (CELL1d i0 i1 rgcw)) ->
    room m f0 (fcount (FACE1d i0 i1 0)) ->
    safe (cd_apply_1d_diffusion_v1_res i0 i1 alpha beta dx agcw a ugcw u fgcw f f0 rgcw res) m.
  Proof. intros; k_apart; k_rooms; unfold cd_apply_1d_diffusion_v1_res; k_safe. Qed.

  Lemma cd_apply_1d_diffusion_v2_res_safe i0 i1 alpha beta dx ugcw u fgcw f f0 rgcw res (m : mem S) :
    i0 <= i1 + 1 -> 0 <= ugcw -> 0 <= fgcw -> 0 <= rgcw -> room m u (fcount (CELL1d i0 i1 ugcw)) ->
    room m f (fcount (CELL1d i0 i1 fgcw)) -> room m res (fcount (CELL1d i0 i1 rgcw)) ->
    room m f0 (fcount (FACE1d i0 i1 0)) ->
    safe (cd_apply_1d_diffusion_v2_res i0 i1 alpha beta dx ugcw u fgcw f f0 rgcw res) m.
  Proof. intros; k_apart; k_rooms; unfold cd_apply_1d_diffusion_v2_res; k_safe. Qed.

  Lemma cd_apply_1d_poisson_v1_res_safe i0 i1 beta dx fgcw f f0 rgcw res (m : mem S) :
    i0 <= i1 + 1 -> 0 <= fgcw -> 0 <= rgcw -> room m f (fcount (CELL1d i0 i1 fgcw)) ->
    room m res (fcount (CELL1d i0 i1 rgcw)) -> room m f0 (fcount (FACE1d i0 i1 0)) ->
    safe (cd_apply_1d_poisson_v1_res i0 i1 beta dx fgcw f f0 rgcw res) m.
  Proof. intros; k_apart; k_rooms; unfold cd_apply_1d_poisson_v1_res; k_safe. Qed.

  Lemma cd_apply_1d_diffusion_v1_apply_safe i0 i1 alpha beta dx agcw a ugcw u f0 rgcw res (m : mem S) :
    i0 <= i1 + 1 -> 0 <= agcw -> 0 <= ugcw -> 0 <= rgcw -> room m a (fcount (CELL1d i0 i1 agcw)) ->
    room m u (fcount (CELL1d i0 i1 ugcw)) -> room m res (fcount (CELL1d i0 i1 rgcw)) ->
    room m f0 (fcount (FACE1d i0 i1 0)) ->
    safe (cd_apply_1d_diffusion_v1_apply i0 i1 alpha beta dx agcw a ugcw u f0 rgcw res) m.
  Proof. intros; k_apart; k_rooms; unfold cd_apply_1d_diffusion_v1_apply; k_safe. Qed.

  Lemma cd_apply_1d_diffusion_v2_apply_safe i0 i1 alpha beta dx ugcw u f0 rgcw res (m : mem S) :
    i0 <= i1 + 1 -> 0 <= ugcw -> 0 <= rgcw -> room m u (fcount (CELL1d i0 i1 ugcw)) ->
    room m res (fcount (CELL1d i0 i1 rgcw)) -> room m f0 (fcount (FACE1d i0 i1 0)) ->
    safe (cd_apply_1d_diffusion_v2_apply i0 i1 alpha beta dx ugcw u f0 rgcw res) m.
  Proof. intros; k_apart; k_rooms; unfold cd_apply_1d_diffusion_v2_apply; k_safe. Qed.

  Lemma cd_apply_1d_poisson_v2_apply_safe i0 i1 beta dx f0 rgcw res (m : mem S) :
    i0 <= i1 + 1 -> 0 <= rgcw -> room m res (fcount (CELL1d i0 i1 rgcw)) ->
    room m f0 (fcount (FACE1d i0 i1 0)) ->
    safe (cd_apply_1d_poisson_v2_apply i0 i1 beta dx f0 rgcw res) m.
  Proof. intros; k_apart; k_rooms; unfold cd_apply_1d_poisson_v2_apply; k_safe. Qed.

  Lemma cd_apply_2d_diffusion_v1_res_safe i0 i1 j0 j1 alpha beta dx agcw a ugcw u fgcw f f0 f1 rgcw res (m : mem S) :
    i0 <= i1 + 1 -> j0 <= j1 + 1 -> 0 <= agcw -> 0 <= ugcw -> 0 <= fgcw -> 0 <= rgcw ->
    room m a (fcount (CELL2d i0 j0 i1 j1 agcw)) -> room m u (fcount (CELL2d i0 j0 i1 j1 ugcw)) ->
    room m f (fcount (CELL2d i0 j0 i1 j1 fgcw)) -> room m res (fcount (CELL2d i0 j0 i1 j1 rgcw)) ->
    room m f0 (fcount (FACE2d0 i0 j0 i1 j1 0)) -> room m f1 (fcount (FACE2d1 i0 j0 i1 j1 0)) ->
    safe (cd_apply_2d_diffusion_v1_res i0 i1 j0 j1 alpha beta dx agcw a ugcw u fgcw f f0 f1 rgcw res) m.
  Proof. intros; k_apart; k_rooms; unfold cd_apply_2d_diffusion_v1_res; k_safe. Qed.

  Lemma cd_apply_2d_diffusion_v2_res_safe i0 i1 j0 j1 alpha beta dx ugcw u fgcw f f0 f1 rgcw res (m : mem S) :
    i0 <= i1 + 1 -> j0 <= j1 + 1 -> 0 <= ugcw -> 0 <= fgcw -> 0 <= rgcw ->
    room m u (fcount (CELL2d i0 j0 i1 j1 ugcw)) -> room m f (fcount (CELL2d i0 j0 i1 j1 fgcw)) ->
    room m res (fcount (CELL2d i0 j0 i1 j1 rgcw)) -> room m f0 (fcount (FACE2d0 i0 j0 i1 j1 0)) ->
    room m f1 (fcount (FACE2d1 i0 j0 i1 j1 0)) ->
    safe (cd_apply_2d_diffusion_v2_res i0 i1 j0 j1 alpha beta dx ugcw u fgcw f f0 f1 rgcw res) m.
  Proof. intros; k_apart; k_rooms; unfold cd_apply_2d_diffusion_v2_res; k_safe. Qed.

  Lemma cd_apply_2d_poisson_v1_res_safe i0 i1 j0 j1 beta dx fgcw f f0 f1 rgcw res (m : mem S) :
    i0 <= i1 + 1 -> j0 <= j1 + 1 -> 0 <= fgcw -> 0 <= rgcw -> room m f (fcount (CELL2d i0 j0 i1 j1 fgcw)) ->
    room m res (fcount (CELL2d i0 j0 i1 j1 rgcw)) -> room m f0 (fcount (FACE2d0 i0 j0 i1 j1 0)) ->
    room m f1 (fcount (FACE2d1 i0 j0 i1 j1 0)) ->
    safe (cd_apply_2d_poisson_v1_res i0 i1 j0 j1 beta dx fgcw f f0 f1 rgcw res) m.
  Proof. intros; k_apart; k_rooms; unfold cd_apply_2d_poisson_v1_res; k_safe. Qed.

  Lemma cd_apply_2d_diffusion_v1_apply_safe i0 i1 j0 j1 alpha beta dx agcw a ugcw u f0 f1 rgcw res (m : mem S) :
    i0 <= i1 + 1 -> j0 <= j1 + 1 -> 0 <= agcw -> 0 <= ugcw -> 0 <= rgcw ->
    room m a (fcount (CELL2d i0 j0 i1 j1 agcw)) -> room m u (fcount (CELL2d i0 j0 i1 j1 ugcw)) ->
    room m res (fcount (CELL2d i0 j0 i1 j1 rgcw)) -> room m f0 (fcount (FACE2d0 i0 j0 i1 j1 0)) ->
    room m f1 (fcount (FACE2d1 i0 j0 i1 j1 0)) ->
    safe (cd_apply_2d_diffusion_v1_apply i0 i1 j0 j1 alpha beta dx agcw a ugcw u f0 f1 rgcw res) m.
  Proof. intros; k_apart; k_rooms; unfold cd_apply_2d_diffusion_v1_apply; k_safe. Qed.

  Lemma cd_apply_2d_diffusion_v2_apply_safe i0 i1 j0 j1 alpha beta dx ugcw u f0 f1 rgcw res (m : mem S) :
    i0 <= i1 + 1 -> j0 <= j1 + 1 -> 0 <= ugcw -> 0 <= rgcw -> room m u (fcount (CELL2d i0 j0 i1 j1 ugcw)) ->
    room m res (fcount (CELL2d i0 j0 i1 j1 rgcw)) -> room m f0 (fcount (FACE2d0 i0 j0 i1 j1 0)) ->
    room m f1 (fcount (FACE2d1 i0 j0 i1 j1 0)) ->
    safe (cd_apply_2d_diffusion_v2_apply i0 i1 j0 j1 alpha beta dx ugcw u f0 f1 rgcw res) m.
  Proof. intros; k_apart; k_rooms; unfold cd_apply_2d_diffusion_v2_apply; k_safe. Qed.

  Lemma cd_apply_2d_poisson_v2_apply_safe i0 i1 j0 j1 beta dx f0 f1 rgcw res (m : mem S) :
    i0 <= i1 + 1 -> j0 <= j1 + 1 -> 0 <= rgcw -> room m res (fcount (CELL2d i0 j0 i1 j1 rgcw)) ->
    room m f0 (fcount (FACE2d0 i0 j0 i1 j1 0)) -> room m f1 (fcount (FACE2d1 i0 j0 i1 j1 0)) ->
    safe (cd_apply_2d_poisson_v2_apply i0 i1 j0 j1 beta dx f0 f1 rgcw res) m.
  Proof. intros; k_apart; k_rooms; unfold cd_apply_2d_poisson_v2_apply; k_safe. Qed.

  Lemma cd_apply_3d_diffusion_v1_res_safe i0 i1 j0 j1 k0 k1 alpha beta dx agcw a ugcw u fgcw f f0 f1 f2 rgcw res (m : mem S) :
    i0 <= i1 + 1 -> j0 <= j1 + 1 -> k0 <= k1 + 1 -> 0 <= agcw -> 0 <= ugcw -> 0 <= fgcw -> 0 <= rgcw ->
    room m a (fcount (CELL3d i0 j0 k0 i1 j1 k1 agcw)) -> room m u (fcount (CELL3d i0 j0 k0 i1 j1 k1 ugcw)) ->
    room m f (fcount (CELL3d i0 j0 k0 i1 j1 k1 fgcw)) ->
    room m res (fcount (CELL3d i0 j0 k0 i1 j1 k1 rgcw)) ->
    room m f0 (fcount (FACE3d0 i0 j0 k0 i1 j1 k1 0)) -> room m f1 (fcount (FACE3d1 i0 j0 k0 i1 j1 k1 0)) ->
    room m f2 (fcount (FACE3d2 i0 j0 k0 i1 j1 k1 0)) ->
    safe (cd_apply_3d_diffusion_v1_res i0 i1 j0 j1 k0 k1 alpha beta dx agcw a ugcw u fgcw f f0 f1 f2 rgcw res) m.
  Proof. intros; k_apart; k_rooms; unfold cd_apply_3d_diffusion_v1_res; k_safe. Qed.

  Lemma cd_apply_3d_diffusion_v2_res_safe i0 i1 j0 j1 k0 k1 alpha beta dx ugcw u fgcw f f0 f1 f2 rgcw res (m : mem S) :
    i0 <= i1 + 1 -> j0 <= j1 + 1 -> k0 <= k1 + 1 -> 0 <= ugcw -> 0 <= fgcw -> 0 <= rgcw ->
    room m u (fcount (CELL3d i0 j0 k0 i1 j1 k1 ugcw)) -> room m f (fcount (CELL3d i0 j0 k0 i1 j1 k1 fgcw)) ->
    room m res (fcount (CELL3d i0 j0 k0 i1 j1 k1 rgcw)) ->
    room m f0 (fcount (FACE3d0 i0 j0 k0 i1 j1 k1 0)) -> room m f1 (fcount (FACE3d1 i0 j0 k0 i1 j1 k1 0)) ->
    room m f2 (fcount (FACE3d2 i0 j0 k0 i1 j1 k1 0)) ->
    safe (cd_apply_3d_diffusion_v2_res i0 i1 j0 j1 k0 k1 alpha beta dx ugcw u fgcw f f0 f1 f2 rgcw res) m.
  Proof. intros; k_apart; k_rooms; unfold cd_apply_3d_diffusion_v2_res; k_safe. Qed.

  Lemma cd_apply_3d_poisson_v1_res_safe i0 i1 j0 j1 k0 k1 beta dx fgcw f f0 f1 f2 rgcw res (m : mem S) :
    i0 <= i1 + 1 -> j0 <= j1 + 1 -> k0 <= k1 + 1 -> 0 <= fgcw -> 0 <= rgcw ->
    room m f (fcount (CELL3d i0 j0 k0 i1 j1 k1 fgcw)) ->
    room m res (fcount (CELL3d i0 j0 k0 i1 j1 k1 rgcw)) ->
    room m f0 (fcount (FACE3d0 i0 j0 k0 i1 j1 k1 0)) -> room m f1 (fcount (FACE3d1 i0 j0 k0 i1 j1 k1 0)) ->
    room m f2 (fcount (FACE3d2 i0 j0 k0 i1 j1 k1 0)) ->
    safe (cd_apply_3d_poisson_v1_res i0 i1 j0 j1 k0 k1 beta dx fgcw f f0 f1 f2 rgcw res) m.
  Proof. intros; k_apart; k_rooms; unfold cd_apply_3d_poisson_v1_res; k_safe. Qed.

  Lemma cd_apply_3d_diffusion_v1_apply_safe i0 i1 j0 j1 k0 k1 alpha beta dx agcw a ugcw u f0 f1 f2 rgcw res (m : mem S) :
    i0 <= i1 + 1 -> j0 <= j1 + 1 -> k0 <= k1 + 1 -> 0 <= agcw -> 0 <= ugcw -> 0 <= rgcw ->
    room m a (fcount (CELL3d i0 j0 k0 i1 j1 k1 agcw)) -> room m u (fcount (CELL3d i0 j0 k0 i1 j1 k1 ugcw)) ->
    room m res (fcount (CELL3d i0 j0 k0 i1 j1 k1 rgcw)) ->
    room m f0 (fcount (FACE3d0 i0 j0 k0 i1 j1 k1 0)) -> room m f1 (fcount (FACE3d1 i0 j0 k0 i1 j1 k1 0)) ->
    room m f2 (fcount (FACE3d2 i0 j0 k0 i1 j1 k1 0)) ->
    safe (cd_apply_3d_diffusion_v1_apply i0 i1 j0 j1 k0 k1 alpha beta dx agcw a ugcw u f0 f1 f2 rgcw res) m.
  Proof. intros; k_apart; k_rooms; unfold cd_apply_3d_diffusion_v1_apply; k_safe. Qed.

  Lemma cd_apply_3d_diffusion_v2_apply_safe i0 i1 j0 j1 k0 k1 alpha beta dx ugcw u f0 f1 f2 rgcw res (m : mem S) :
    i0 <= i1 + 1 -> j0 <= j1 + 1 -> k0 <= k1 + 1 -> 0 <= ugcw -> 0 <= rgcw ->
    room m u (fcount (CELL3d i0 j0 k0 i1 j1 k1 ugcw)) ->
    room m res (fcount (CELL3d i0 j0 k0 i1 j1 k1 rgcw)) ->
    room m f0 (fcount (FACE3d0 i0 j0 k0 i1 j1 k1 0)) -> room m f1 (fcount (FACE3d1 i0 j0 k0 i1 j1 k1 0)) ->
    room m f2 (fcount (FACE3d2 i0 j0 k0 i1 j1 k1 0)) ->
    safe (cd_apply_3d_diffusion_v2_apply i0 i1 j0 j1 k0 k1 alpha beta dx ugcw u f0 f1 f2 rgcw res) m.
  Proof. intros; k_apart; k_rooms; unfold cd_apply_3d_diffusion_v2_apply; k_safe. Qed.

  Lemma cd_apply_3d_poisson_v2_apply_safe i0 i1 j0 j1 k0 k1 beta dx f0 f1 f2 rgcw res (m : mem S) :
    i0 <= i1 + 1 -> j0 <= j1 + 1 -> k0 <= k1 + 1 -> 0 <= rgcw ->
    room m res (fcount (CELL3d i0 j0 k0 i1 j1 k1 rgcw)) ->
    room m f0 (fcount (FACE3d0 i0 j0 k0 i1 j1 k1 0)) -> room m f1 (fcount (FACE3d1 i0 j0 k0 i1 j1 k1 0)) ->
    room m f2 (fcount (FACE3d2 i0 j0 k0 i1 j1 k1 0)) ->
    safe (cd_apply_3d_poisson_v2_apply i0 i1 j0 j1 k0 k1 beta dx f0 f1 f2 rgcw res) m.
  Proof. intros; k_apart; k_rooms; unfold cd_apply_3d_poisson_v2_apply; k_safe. Qed.
End Safe.
