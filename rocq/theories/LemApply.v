(** * The apply and residual kernels compute what the Fortran subroutines compute *)

From Verif Require Import Base ModelBounds ModelMatrix ModelIters ModelSpan Spec SpecIter ModelSched
  LemBase LemDomain LemExpr LemExec SpecAssign LemProps LemProps4
  FortranBase Instances LemField LemKernel KernelNotations KernelsApply FortranApply.
Import ListNotations.
Open Scope Z_scope.

Section Apply.
  Context {S : Scalar} (L : field_laws S).
  Add Field SF : (s_field S L) (morphism (lit_morph S L), constants [lit_cst]).

  Ltac elem :=
    apply forM_ext_in; intros pt m' _; unfold fset, fel, fsc, fop, fneg;
    cbn [assign_point denote]; autorewrite with dgrad;
    autorewrite with fa; k_idx;
    k_loads; cbn [bind app_op num_op]; try reflexivity;
    f_equal; k_div L; ring.

  Lemma cd_apply_1d_diffusion_v1_res_eq i0 i1 alpha beta dx agcw a ugcw u fgcw f f0 rgcw res (m : mem S) : i0 <= i1 + 1 ->
    cd_apply_1d_diffusion_v1_res i0 i1 alpha beta dx agcw a ugcw u fgcw f f0 rgcw res m = celldiffusionv1res1d i0 i1 alpha beta dx agcw a ugcw u fgcw f f0 rgcw res m.
  Proof.
    intros. unfold cd_apply_1d_diffusion_v1_res, celldiffusionv1res1d. cbv zeta.
    rewrite with_domain_points; [|k_dom|k_assign]. rewrite (do_points1 dI). elem.
  Qed.

  Lemma cd_apply_1d_diffusion_v2_res_eq i0 i1 alpha beta dx ugcw u fgcw f f0 rgcw res (m : mem S) : i0 <= i1 + 1 ->
    cd_apply_1d_diffusion_v2_res i0 i1 alpha beta dx ugcw u fgcw f f0 rgcw res m = celldiffusionv2res1d i0 i1 alpha beta dx ugcw u fgcw f f0 rgcw res m.
  Proof.
    intros. unfold cd_apply_1d_diffusion_v2_res, celldiffusionv2res1d. cbv zeta.
    rewrite with_domain_points; [|k_dom|k_assign]. rewrite (do_points1 dI). elem.
  Qed.

  Lemma cd_apply_1d_poisson_v1_res_eq i0 i1 beta dx fgcw f f0 rgcw res (m : mem S) : i0 <= i1 + 1 ->
    cd_apply_1d_poisson_v1_res i0 i1 beta dx fgcw f f0 rgcw res m = cellpoissonv1res1d i0 i1 beta dx fgcw f f0 rgcw res m.
  Proof.
    intros. unfold cd_apply_1d_poisson_v1_res, cellpoissonv1res1d. cbv zeta.
    rewrite with_domain_points; [|k_dom|k_assign]. rewrite (do_points1 dI). elem.
  Qed.

  Lemma cd_apply_1d_diffusion_v1_apply_eq i0 i1 alpha beta dx agcw a ugcw u f0 rgcw res (m : mem S) : i0 <= i1 + 1 ->
    cd_apply_1d_diffusion_v1_apply i0 i1 alpha beta dx agcw a ugcw u f0 rgcw res m = celldiffusionv1apply1d i0 i1 alpha beta dx agcw a ugcw u f0 rgcw res m.
  Proof.
    intros. unfold cd_apply_1d_diffusion_v1_apply, celldiffusionv1apply1d. cbv zeta.
    rewrite with_domain_points; [|k_dom|k_assign]. rewrite (do_points1 dI). elem.
  Qed.

  Lemma cd_apply_1d_diffusion_v2_apply_eq i0 i1 alpha beta dx ugcw u f0 rgcw res (m : mem S) : i0 <= i1 + 1 ->
    cd_apply_1d_diffusion_v2_apply i0 i1 alpha beta dx ugcw u f0 rgcw res m = celldiffusionv2apply1d i0 i1 alpha beta dx ugcw u f0 rgcw res m.
  Proof.
    intros. unfold cd_apply_1d_diffusion_v2_apply, celldiffusionv2apply1d. cbv zeta.
    rewrite with_domain_points; [|k_dom|k_assign]. rewrite (do_points1 dI). elem.
  Qed.

  Lemma cd_apply_1d_poisson_v2_apply_eq i0 i1 beta dx f0 rgcw res (m : mem S) : i0 <= i1 + 1 ->
    cd_apply_1d_poisson_v2_apply i0 i1 beta dx f0 rgcw res m = cellpoissonv2apply1d i0 i1 beta dx f0 rgcw res m.
  Proof.
    intros. unfold cd_apply_1d_poisson_v2_apply, cellpoissonv2apply1d. cbv zeta.
    rewrite with_domain_points; [|k_dom|k_assign]. rewrite (do_points1 dI). elem.
  Qed.

  Lemma cd_apply_2d_diffusion_v1_res_eq i0 i1 j0 j1 alpha beta dx agcw a ugcw u fgcw f f0 f1 rgcw res (m : mem S) : i0 <= i1 + 1 -> j0 <= j1 + 1 ->
    cd_apply_2d_diffusion_v1_res i0 i1 j0 j1 alpha beta dx agcw a ugcw u fgcw f f0 f1 rgcw res m = celldiffusionv1res2d i0 i1 j0 j1 alpha beta dx agcw a ugcw u fgcw f f0 f1 rgcw res m.
  Proof.
    intros. unfold cd_apply_2d_diffusion_v1_res, celldiffusionv1res2d. cbv zeta.
    rewrite with_domain_points; [|k_dom|k_assign]. rewrite (do_points2 dJ dI) by discriminate. elem.
  Qed.

  Lemma cd_apply_2d_diffusion_v2_res_eq i0 i1 j0 j1 alpha beta dx ugcw u fgcw f f0 f1 rgcw res (m : mem S) : i0 <= i1 + 1 -> j0 <= j1 + 1 ->
    cd_apply_2d_diffusion_v2_res i0 i1 j0 j1 alpha beta dx ugcw u fgcw f f0 f1 rgcw res m = celldiffusionv2res2d i0 i1 j0 j1 alpha beta dx ugcw u fgcw f f0 f1 rgcw res m.
  Proof.
    intros. unfold cd_apply_2d_diffusion_v2_res, celldiffusionv2res2d. cbv zeta.
    rewrite with_domain_points; [|k_dom|k_assign]. rewrite (do_points2 dJ dI) by discriminate. elem.
  Qed.

  Lemma cd_apply_2d_poisson_v1_res_eq i0 i1 j0 j1 beta dx fgcw f f0 f1 rgcw res (m : mem S) : i0 <= i1 + 1 -> j0 <= j1 + 1 ->
    cd_apply_2d_poisson_v1_res i0 i1 j0 j1 beta dx fgcw f f0 f1 rgcw res m = cellpoissonv1res2d i0 i1 j0 j1 beta dx fgcw f f0 f1 rgcw res m.
  Proof.
    intros. unfold cd_apply_2d_poisson_v1_res, cellpoissonv1res2d. cbv zeta.
    rewrite with_domain_points; [|k_dom|k_assign]. rewrite (do_points2 dJ dI) by discriminate. elem.
  Qed.

  Lemma cd_apply_2d_diffusion_v1_apply_eq i0 i1 j0 j1 alpha beta dx agcw a ugcw u f0 f1 rgcw res (m : mem S) : i0 <= i1 + 1 -> j0 <= j1 + 1 ->
    cd_apply_2d_diffusion_v1_apply i0 i1 j0 j1 alpha beta dx agcw a ugcw u f0 f1 rgcw res m = celldiffusionv1apply2d i0 i1 j0 j1 alpha beta dx agcw a ugcw u f0 f1 rgcw res m.
  Proof.
    intros. unfold cd_apply_2d_diffusion_v1_apply, celldiffusionv1apply2d. cbv zeta.
    rewrite with_domain_points; [|k_dom|k_assign]. rewrite (do_points2 dJ dI) by discriminate. elem.
  Qed.

  Lemma cd_apply_2d_diffusion_v2_apply_eq i0 i1 j0 j1 alpha beta dx ugcw u f0 f1 rgcw res (m : mem S) : i0 <= i1 + 1 -> j0 <= j1 + 1 ->
    cd_apply_2d_diffusion_v2_apply i0 i1 j0 j1 alpha beta dx ugcw u f0 f1 rgcw res m = celldiffusionv2apply2d i0 i1 j0 j1 alpha beta dx ugcw u f0 f1 rgcw res m.
  Proof.
    intros. unfold cd_apply_2d_diffusion_v2_apply, celldiffusionv2apply2d. cbv zeta.
    rewrite with_domain_points; [|k_dom|k_assign]. rewrite (do_points2 dJ dI) by discriminate. elem.
  Qed.

  Lemma cd_apply_2d_poisson_v2_apply_eq i0 i1 j0 j1 beta dx f0 f1 rgcw res (m : mem S) : i0 <= i1 + 1 -> j0 <= j1 + 1 ->
    cd_apply_2d_poisson_v2_apply i0 i1 j0 j1 beta dx f0 f1 rgcw res m = cellpoissonv2apply2d i0 i1 j0 j1 beta dx f0 f1 rgcw res m.
  Proof.
    intros. unfold cd_apply_2d_poisson_v2_apply, cellpoissonv2apply2d. cbv zeta.
    rewrite with_domain_points; [|k_dom|k_assign]. rewrite (do_points2 dJ dI) by discriminate. elem.
  Qed.

  Lemma cd_apply_3d_diffusion_v1_res_eq i0 i1 j0 j1 k0 k1 alpha beta dx agcw a ugcw u fgcw f f0 f1 f2 rgcw res (m : mem S) : i0 <= i1 + 1 -> j0 <= j1 + 1 -> k0 <= k1 + 1 ->
    cd_apply_3d_diffusion_v1_res i0 i1 j0 j1 k0 k1 alpha beta dx agcw a ugcw u fgcw f f0 f1 f2 rgcw res m = celldiffusionv1res3d i0 i1 j0 j1 k0 k1 alpha beta dx agcw a ugcw u fgcw f f0 f1 f2 rgcw res m.
  Proof.
    intros. unfold cd_apply_3d_diffusion_v1_res, celldiffusionv1res3d. cbv zeta.
    rewrite with_domain_points; [|k_dom|k_assign]. rewrite (do_points3 dK dJ dI) by discriminate. elem.
  Qed.

  Lemma cd_apply_3d_diffusion_v2_res_eq i0 i1 j0 j1 k0 k1 alpha beta dx ugcw u fgcw f f0 f1 f2 rgcw res (m : mem S) : i0 <= i1 + 1 -> j0 <= j1 + 1 -> k0 <= k1 + 1 ->
    cd_apply_3d_diffusion_v2_res i0 i1 j0 j1 k0 k1 alpha beta dx ugcw u fgcw f f0 f1 f2 rgcw res m = celldiffusionv2res3d i0 i1 j0 j1 k0 k1 alpha beta dx ugcw u fgcw f f0 f1 f2 rgcw res m.
  Proof.
    intros. unfold cd_apply_3d_diffusion_v2_res, celldiffusionv2res3d. cbv zeta.
    rewrite with_domain_points; [|k_dom|k_assign]. rewrite (do_points3 dK dJ dI) by discriminate. elem.
  Qed.

  Lemma cd_apply_3d_poisson_v1_res_eq i0 i1 j0 j1 k0 k1 beta dx fgcw f f0 f1 f2 rgcw res (m : mem S) : i0 <= i1 + 1 -> j0 <= j1 + 1 -> k0 <= k1 + 1 ->
    cd_apply_3d_poisson_v1_res i0 i1 j0 j1 k0 k1 beta dx fgcw f f0 f1 f2 rgcw res m = cellpoissonv1res3d i0 i1 j0 j1 k0 k1 beta dx fgcw f f0 f1 f2 rgcw res m.
  Proof.
    intros. unfold cd_apply_3d_poisson_v1_res, cellpoissonv1res3d. cbv zeta.
    rewrite with_domain_points; [|k_dom|k_assign]. rewrite (do_points3 dK dJ dI) by discriminate. elem.
  Qed.

  Lemma cd_apply_3d_diffusion_v1_apply_eq i0 i1 j0 j1 k0 k1 alpha beta dx agcw a ugcw u f0 f1 f2 rgcw res (m : mem S) : i0 <= i1 + 1 -> j0 <= j1 + 1 -> k0 <= k1 + 1 ->
    cd_apply_3d_diffusion_v1_apply i0 i1 j0 j1 k0 k1 alpha beta dx agcw a ugcw u f0 f1 f2 rgcw res m = celldiffusionv1apply3d i0 i1 j0 j1 k0 k1 alpha beta dx agcw a ugcw u f0 f1 f2 rgcw res m.
  Proof.
    intros. unfold cd_apply_3d_diffusion_v1_apply, celldiffusionv1apply3d. cbv zeta.
    rewrite with_domain_points; [|k_dom|k_assign]. rewrite (do_points3 dK dJ dI) by discriminate. elem.
  Qed.

  Lemma cd_apply_3d_diffusion_v2_apply_eq i0 i1 j0 j1 k0 k1 alpha beta dx ugcw u f0 f1 f2 rgcw res (m : mem S) : i0 <= i1 + 1 -> j0 <= j1 + 1 -> k0 <= k1 + 1 ->
    cd_apply_3d_diffusion_v2_apply i0 i1 j0 j1 k0 k1 alpha beta dx ugcw u f0 f1 f2 rgcw res m = celldiffusionv2apply3d i0 i1 j0 j1 k0 k1 alpha beta dx ugcw u f0 f1 f2 rgcw res m.
  Proof.
    intros. unfold cd_apply_3d_diffusion_v2_apply, celldiffusionv2apply3d. cbv zeta.
    rewrite with_domain_points; [|k_dom|k_assign]. rewrite (do_points3 dK dJ dI) by discriminate. elem.
  Qed.

  Lemma cd_apply_3d_poisson_v2_apply_eq i0 i1 j0 j1 k0 k1 beta dx f0 f1 f2 rgcw res (m : mem S) : i0 <= i1 + 1 -> j0 <= j1 + 1 -> k0 <= k1 + 1 ->
    cd_apply_3d_poisson_v2_apply i0 i1 j0 j1 k0 k1 beta dx f0 f1 f2 rgcw res m = cellpoissonv2apply3d i0 i1 j0 j1 k0 k1 beta dx f0 f1 f2 rgcw res m.
  Proof.
    intros. unfold cd_apply_3d_poisson_v2_apply, cellpoissonv2apply3d. cbv zeta.
    rewrite with_domain_points; [|k_dom|k_assign]. rewrite (do_points3 dK dJ dI) by discriminate. elem.
  Qed.
End Apply.
