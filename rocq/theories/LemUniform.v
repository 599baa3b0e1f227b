(** * Every program is uniform (generated by tools/gen_uniform.py) *)

From Verif Require Import Base SpecRel SpecPrograms SpecReference Instances LemUniform1 LemUniform2 LemUniform3 LemUniform4
  LemUniform5 LemUniform6 LemUniform7 LemFlux LemApply LemCopy LemBC LemHomog LemStencil LemStencil2 LemStencil3.
Import ListNotations.
Open Scope Z_scope.

Lemma kernel_uniform K : kernel K -> uniform K.
Proof.
  intros H. destruct H.
  - apply cdf_1d_flux_uniform.
  - apply cdf_1d_poisson_flux_uniform.
  - apply cdf_2d_flux_uniform.
  - apply cdf_2d_poisson_flux_uniform.
  - apply cdf_3d_flux_uniform.
  - apply cdf_3d_poisson_flux_uniform.
  - apply cd_apply_1d_diffusion_v1_res_uniform.
  - apply cd_apply_1d_diffusion_v2_res_uniform.
  - apply cd_apply_1d_poisson_v1_res_uniform.
  - apply cd_apply_1d_diffusion_v1_apply_uniform.
  - apply cd_apply_1d_diffusion_v2_apply_uniform.
  - apply cd_apply_1d_poisson_v2_apply_uniform.
  - apply cd_apply_2d_diffusion_v1_res_uniform.
  - apply cd_apply_2d_diffusion_v2_res_uniform.
  - apply cd_apply_2d_poisson_v1_res_uniform.
  - apply cd_apply_2d_diffusion_v1_apply_uniform.
  - apply cd_apply_2d_diffusion_v2_apply_uniform.
  - apply cd_apply_2d_poisson_v2_apply_uniform.
  - apply cd_apply_3d_diffusion_v1_res_uniform.
  - apply cd_apply_3d_diffusion_v2_res_uniform.
  - apply cd_apply_3d_poisson_v1_res_uniform.
  - apply cd_apply_3d_diffusion_v1_apply_uniform.
  - apply cd_apply_3d_diffusion_v2_apply_uniform.
  - apply cd_apply_3d_poisson_v2_apply_uniform.
  - apply c2f_copy_uniform.
  - apply c2f_copy_corner_uniform.
  - apply dot_offset_1d_uniform.
  - apply dot_offset_2d_uniform.
  - apply dot_offset_3d_uniform.
  - apply ls_apply_st_3d_at_point_uniform.
  - apply cd_1d_set_bc_uniform.
  - apply cd_1d_set_poisson_bc_uniform.
  - apply cd_2d_set_bc_uniform.
  - apply cd_2d_set_poisson_bc_uniform.
  - apply cd_2d_set_corner_bc_uniform.
  - apply cd_2d_set_homogenous_bc_uniform.
  - apply cd_3d_set_bc_uniform.
  - apply cd_3d_set_poisson_bc_uniform.
  - apply cd_stencil_1d_offdiag_uniform.
  - apply cd_stencil_1d_poisson_offdiag_uniform.
  - apply cd_stencil_1d_v1diag_uniform.
  - apply cd_stencil_1d_v2diag_uniform.
  - apply cd_stencil_1d_poisson_diag_uniform.
  - apply cd_stencil_1d_adj_diag_uniform.
  - apply cd_stencil_1d_adj_poisson_diag_uniform.
  - apply cd_stencil_1d_adj_cf_diag_uniform.
  - apply cd_stencil_1d_adj_poisson_cf_diag_uniform.
  - apply cd_stencil_1d_adj_offdiag_uniform.
  - apply cd_stencil_1d_adj_poisson_offdiag_uniform.
  - apply cd_stencil_1d_adj_cf_offdiag_uniform.
  - apply cd_stencil_1d_readj_offdiag_uniform.
  - apply cd_stencil_1d_adj_cf_bdryrhs_uniform.
  - apply cd_stencil_2d_offdiag_uniform.
  - apply cd_stencil_2d_poisson_offdiag_uniform.
  - apply cd_stencil_2d_v1diag_uniform.
  - apply cd_stencil_2d_v2diag_uniform.
  - apply cd_stencil_2d_poisson_diag_uniform.
  - apply cd_stencil_2d_adj_diag_uniform.
  - apply cd_stencil_2d_adj_poisson_diag_uniform.
  - apply cd_stencil_2d_adj_cf_diag_uniform.
  - apply cd_stencil_2d_adj_poisson_cf_diag_uniform.
  - apply cd_stencil_2d_adj_offdiag_uniform.
  - apply cd_stencil_2d_adj_poisson_offdiag_uniform.
  - apply cd_stencil_2d_adj_cf_offdiag_uniform.
  - apply cd_stencil_2d_readj_offdiag_uniform.
  - apply cd_stencil_2d_adj_cf_bdryrhs_uniform.
  - apply cd_stencil_3d_offdiag_uniform.
  - apply cd_stencil_3d_poisson_offdiag_uniform.
  - apply cd_stencil_3d_v1diag_uniform.
  - apply cd_stencil_3d_v2diag_uniform.
  - apply cd_stencil_3d_poisson_diag_uniform.
  - apply cd_stencil_3d_adj_diag_uniform.
  - apply cd_stencil_3d_adj_poisson_diag_uniform.
  - apply cd_stencil_3d_adj_cf_diag_uniform.
  - apply cd_stencil_3d_adj_poisson_cf_diag_uniform.
  - apply cd_stencil_3d_adj_offdiag_uniform.
  - apply cd_stencil_3d_adj_poisson_offdiag_uniform.
  - apply cd_stencil_3d_adj_cf_offdiag_uniform.
  - apply cd_stencil_3d_readj_offdiag_uniform.
  - apply cd_stencil_3d_adj_cf_bdryrhs_uniform.
Qed.

Lemma subroutine_uniform K : subroutine K -> uniform K.
Proof.
  intros H. destruct H.
  - apply celldiffusionflux1d_uniform.
  - apply cellpoissonflux1d_uniform.
  - apply celldiffusionflux2d_uniform.
  - apply cellpoissonflux2d_uniform.
  - apply celldiffusionflux3d_uniform.
  - apply cellpoissonflux3d_uniform.
  - apply celldiffusionv1res1d_uniform.
  - apply celldiffusionv2res1d_uniform.
  - apply cellpoissonv1res1d_uniform.
  - apply celldiffusionv1apply1d_uniform.
  - apply celldiffusionv2apply1d_uniform.
  - apply cellpoissonv2apply1d_uniform.
  - apply celldiffusionv1res2d_uniform.
  - apply celldiffusionv2res2d_uniform.
  - apply cellpoissonv1res2d_uniform.
  - apply celldiffusionv1apply2d_uniform.
  - apply celldiffusionv2apply2d_uniform.
  - apply cellpoissonv2apply2d_uniform.
  - apply celldiffusionv1res3d_uniform.
  - apply celldiffusionv2res3d_uniform.
  - apply cellpoissonv1res3d_uniform.
  - apply celldiffusionv1apply3d_uniform.
  - apply celldiffusionv2apply3d_uniform.
  - apply cellpoissonv2apply3d_uniform.
  - apply copycoarsetofine3d_uniform.
  - apply copycoarsetofinecorner3d_uniform.
  - apply cellsetcorrectionbc1d_uniform.
  - apply cellsetpoissoncorrectionbc1d_uniform.
  - apply cellsetcorrectionbc2d_uniform.
  - apply cellsetpoissoncorrectionbc2d_uniform.
  - apply cellsetinteriorcornerbc2d_uniform.
  - apply cellsetcorrectionbc3d_uniform.
  - apply cellsetpoissoncorrectionbc3d_uniform.
  - apply cellsethomogenousbc2d_uniform.
  - apply celldiffusionoffdiag1d_uniform.
  - apply cellpoissonoffdiag1d_uniform.
  - apply celldiffusionv1diag1d_uniform.
  - apply celldiffusionv2diag1d_uniform.
  - apply cellpoissondiag1d_uniform.
  - apply adjcelldiffusiondiag1d_uniform.
  - apply adjcellpoissondiag1d_uniform.
  - apply adjcelldiffusioncfdiag1d_uniform.
  - apply adjcellpoissoncfdiag1d_uniform.
  - apply adjcelldiffusionoffdiag1d_uniform.
  - apply adjcellpoissonoffdiag1d_uniform.
  - apply adjcelldiffusioncfoffdiag1d_uniform.
  - apply readjcelldiffusionoffdiag1d_uniform.
  - apply adjcelldiffusioncfbdryrhs1d_uniform.
  - apply celldiffusionoffdiag2d_uniform.
  - apply cellpoissonoffdiag2d_uniform.
  - apply celldiffusionv1diag2d_uniform.
  - apply celldiffusionv2diag2d_uniform.
  - apply cellpoissondiag2d_uniform.
  - apply adjcelldiffusiondiag2d_uniform.
  - apply adjcellpoissondiag2d_uniform.
  - apply adjcelldiffusioncfdiag2d_uniform.
  - apply adjcellpoissoncfdiag2d_uniform.
  - apply adjcelldiffusionoffdiag2d_uniform.
  - apply adjcellpoissonoffdiag2d_uniform.
  - apply adjcelldiffusioncfoffdiag2d_uniform.
  - apply readjcelldiffusionoffdiag2d_uniform.
  - apply adjcelldiffusioncfbdryrhs2d_uniform.
  - apply celldiffusionoffdiag3d_uniform.
  - apply cellpoissonoffdiag3d_uniform.
  - apply celldiffusionv1diag3d_uniform.
  - apply celldiffusionv2diag3d_uniform.
  - apply cellpoissondiag3d_uniform.
  - apply adjcelldiffusiondiag3d_uniform.
  - apply adjcellpoissondiag3d_uniform.
  - apply adjcelldiffusioncfdiag3d_uniform.
  - apply adjcellpoissoncfdiag3d_uniform.
  - apply adjcelldiffusionoffdiag3d_uniform.
  - apply adjcellpoissonoffdiag3d_uniform.
  - apply adjcelldiffusioncfoffdiag3d_uniform.
  - apply readjcelldiffusionoffdiag3d_uniform.
  - apply adjcelldiffusioncfbdryrhs3d_uniform.
  - apply applystencilatpoint1d_uniform.
  - apply applystencilonpatch1d_uniform.
  - apply applystencilatpoint2d_uniform.
  - apply applystencilonpatch2d_uniform.
  - apply applystencilatpoint3d_uniform.
  - apply applystencilonpatch3d_uniform.
  - apply celljacobi1d_uniform.
  - apply cellgs1d_uniform.
  - apply cellrbgs1d_uniform.
  - apply celljacobi2d_uniform.
  - apply cellgs2d_uniform.
  - apply cellrbgs2d_uniform.
  - apply cells5rbgs2d_uniform.
  - apply cells9rbgs2d_uniform.
  - apply celljacobi3d_uniform.
  - apply cellgs3d_uniform.
  - apply cellrbgs3d_uniform.
  - apply cells7rbgs3d_uniform.
  - apply cellblock1x1jacobi1d_uniform.
  - apply cellblock2x2jacobi1d_uniform.
  - apply cellblock1x1jacobi2d_uniform.
  - apply cellblock2x2jacobi2d_uniform.
  - apply creatematrix_uniform.
  - apply adjcellcrsfinebdryrhs1d_uniform.
  - apply celladjustsystemrhspatch1d_uniform.
  - apply adjcellcrsfinebdryrhs2d_uniform.
  - apply celladjustsystemrhspatch2d_uniform.
  - apply adjcellcrsfinebdryrhs3d_uniform.
Qed.

Lemma reference_programs K F : reference K F -> kernel K /\ subroutine F.
Proof.
  intros H. destruct H.
  - split; [apply L_cdf_1d_flux|apply L_celldiffusionflux1d].
  - split; [apply L_cdf_2d_flux|apply L_celldiffusionflux2d].
  - split; [apply L_cdf_3d_flux|apply L_celldiffusionflux3d].
  - split; [apply L_cdf_1d_poisson_flux|apply L_cellpoissonflux1d].
  - split; [apply L_cdf_2d_poisson_flux|apply L_cellpoissonflux2d].
  - split; [apply L_cdf_3d_poisson_flux|apply L_cellpoissonflux3d].
  - split; [apply L_cd_apply_1d_diffusion_v1_res|apply L_celldiffusionv1res1d].
  - split; [apply L_cd_apply_1d_diffusion_v2_res|apply L_celldiffusionv2res1d].
  - split; [apply L_cd_apply_1d_poisson_v1_res|apply L_cellpoissonv1res1d].
  - split; [apply L_cd_apply_1d_diffusion_v1_apply|apply L_celldiffusionv1apply1d].
  - split; [apply L_cd_apply_1d_diffusion_v2_apply|apply L_celldiffusionv2apply1d].
  - split; [apply L_cd_apply_1d_poisson_v2_apply|apply L_cellpoissonv2apply1d].
  - split; [apply L_cd_apply_2d_diffusion_v1_res|apply L_celldiffusionv1res2d].
  - split; [apply L_cd_apply_2d_diffusion_v2_res|apply L_celldiffusionv2res2d].
  - split; [apply L_cd_apply_2d_poisson_v1_res|apply L_cellpoissonv1res2d].
  - split; [apply L_cd_apply_2d_diffusion_v1_apply|apply L_celldiffusionv1apply2d].
  - split; [apply L_cd_apply_2d_diffusion_v2_apply|apply L_celldiffusionv2apply2d].
  - split; [apply L_cd_apply_2d_poisson_v2_apply|apply L_cellpoissonv2apply2d].
  - split; [apply L_cd_apply_3d_diffusion_v1_res|apply L_celldiffusionv1res3d].
  - split; [apply L_cd_apply_3d_diffusion_v2_res|apply L_celldiffusionv2res3d].
  - split; [apply L_cd_apply_3d_poisson_v1_res|apply L_cellpoissonv1res3d].
  - split; [apply L_cd_apply_3d_diffusion_v1_apply|apply L_celldiffusionv1apply3d].
  - split; [apply L_cd_apply_3d_diffusion_v2_apply|apply L_celldiffusionv2apply3d].
  - split; [apply L_cd_apply_3d_poisson_v2_apply|apply L_cellpoissonv2apply3d].
  - split; [apply L_c2f_copy|apply L_copycoarsetofine3d].
  - split; [apply L_c2f_copy_corner|apply L_copycoarsetofinecorner3d].
  - split; [apply L_cd_1d_set_bc|apply L_cellsetcorrectionbc1d].
  - split; [apply L_cd_1d_set_poisson_bc|apply L_cellsetpoissoncorrectionbc1d].
  - split; [apply L_cd_2d_set_bc|apply L_cellsetcorrectionbc2d].
  - split; [apply L_cd_2d_set_poisson_bc|apply L_cellsetpoissoncorrectionbc2d].
  - split; [apply L_cd_2d_set_corner_bc|apply L_cellsetinteriorcornerbc2d].
  - split; [apply L_cd_2d_set_homogenous_bc|apply L_cellsethomogenousbc2d].
  - split; [apply L_cd_3d_set_bc|apply L_cellsetcorrectionbc3d].
  - split; [apply L_cd_3d_set_poisson_bc|apply L_cellsetpoissoncorrectionbc3d].
  - split; [apply L_cd_stencil_1d_offdiag|apply L_celldiffusionoffdiag1d].
  - split; [apply L_cd_stencil_1d_poisson_offdiag|apply L_cellpoissonoffdiag1d].
  - split; [apply L_cd_stencil_1d_v1diag|apply L_celldiffusionv1diag1d].
  - split; [apply L_cd_stencil_1d_v2diag|apply L_celldiffusionv2diag1d].
  - split; [apply L_cd_stencil_1d_poisson_diag|apply L_cellpoissondiag1d].
  - split; [apply L_cd_stencil_1d_adj_diag|apply L_adjcelldiffusiondiag1d].
  - split; [apply L_cd_stencil_1d_adj_poisson_diag|apply L_adjcellpoissondiag1d].
  - split; [apply L_cd_stencil_1d_adj_cf_diag|apply L_adjcelldiffusioncfdiag1d].
  - split; [apply L_cd_stencil_1d_adj_poisson_cf_diag|apply L_adjcellpoissoncfdiag1d].
  - split; [apply L_cd_stencil_1d_adj_offdiag|apply L_adjcelldiffusionoffdiag1d].
  - split; [apply L_cd_stencil_1d_adj_poisson_offdiag|apply L_adjcellpoissonoffdiag1d].
  - split; [apply L_cd_stencil_1d_adj_cf_offdiag|apply L_adjcelldiffusioncfoffdiag1d].
  - split; [apply L_cd_stencil_1d_readj_offdiag|apply L_readjcelldiffusionoffdiag1d].
  - split; [apply L_cd_stencil_1d_adj_cf_bdryrhs|apply L_adjcelldiffusioncfbdryrhs1d].
  - split; [apply L_cd_stencil_2d_offdiag|apply L_celldiffusionoffdiag2d].
  - split; [apply L_cd_stencil_2d_poisson_offdiag|apply L_cellpoissonoffdiag2d].
  - split; [apply L_cd_stencil_2d_v1diag|apply L_celldiffusionv1diag2d].
  - split; [apply L_cd_stencil_2d_v2diag|apply L_celldiffusionv2diag2d].
  - split; [apply L_cd_stencil_2d_poisson_diag|apply L_cellpoissondiag2d].
  - split; [apply L_cd_stencil_2d_adj_diag|apply L_adjcelldiffusiondiag2d].
  - split; [apply L_cd_stencil_2d_adj_poisson_diag|apply L_adjcellpoissondiag2d].
  - split; [apply L_cd_stencil_2d_adj_cf_diag|apply L_adjcelldiffusioncfdiag2d].
  - split; [apply L_cd_stencil_2d_adj_poisson_cf_diag|apply L_adjcellpoissoncfdiag2d].
  - split; [apply L_cd_stencil_2d_adj_offdiag|apply L_adjcelldiffusionoffdiag2d].
  - split; [apply L_cd_stencil_2d_adj_poisson_offdiag|apply L_adjcellpoissonoffdiag2d].
  - split; [apply L_cd_stencil_2d_adj_cf_offdiag|apply L_adjcelldiffusioncfoffdiag2d].
  - split; [apply L_cd_stencil_2d_readj_offdiag|apply L_readjcelldiffusionoffdiag2d].
  - split; [apply L_cd_stencil_2d_adj_cf_bdryrhs|apply L_adjcelldiffusioncfbdryrhs2d].
  - split; [apply L_cd_stencil_3d_offdiag|apply L_celldiffusionoffdiag3d].
  - split; [apply L_cd_stencil_3d_poisson_offdiag|apply L_cellpoissonoffdiag3d].
  - split; [apply L_cd_stencil_3d_v1diag|apply L_celldiffusionv1diag3d].
  - split; [apply L_cd_stencil_3d_v2diag|apply L_celldiffusionv2diag3d].
  - split; [apply L_cd_stencil_3d_poisson_diag|apply L_cellpoissondiag3d].
  - split; [apply L_cd_stencil_3d_adj_diag|apply L_adjcelldiffusiondiag3d].
  - split; [apply L_cd_stencil_3d_adj_poisson_diag|apply L_adjcellpoissondiag3d].
  - split; [apply L_cd_stencil_3d_adj_cf_diag|apply L_adjcelldiffusioncfdiag3d].
  - split; [apply L_cd_stencil_3d_adj_poisson_cf_diag|apply L_adjcellpoissoncfdiag3d].
  - split; [apply L_cd_stencil_3d_adj_offdiag|apply L_adjcelldiffusionoffdiag3d].
  - split; [apply L_cd_stencil_3d_adj_poisson_offdiag|apply L_adjcellpoissonoffdiag3d].
  - split; [apply L_cd_stencil_3d_adj_cf_offdiag|apply L_adjcelldiffusioncfoffdiag3d].
  - split; [apply L_cd_stencil_3d_readj_offdiag|apply L_readjcelldiffusionoffdiag3d].
  - split; [apply L_cd_stencil_3d_adj_cf_bdryrhs|apply L_adjcelldiffusioncfbdryrhs3d].
Qed.

Lemma reference_exact K F : reference K F -> forall S, field_laws S -> forall p (m : mem S),
  (forall d, 0 <= d <= 2 -> p d <> lit 0) -> K S p m = F S p m.
Proof.
  intros H S L p m N. destruct H.
  - apply @cdf_1d_flux_eq; try assumption; apply N; lia.
  - apply @cdf_2d_flux_eq; try assumption; apply N; lia.
  - apply @cdf_3d_flux_eq; try assumption; apply N; lia.
  - apply @cdf_1d_poisson_flux_eq; try assumption; apply N; lia.
  - apply @cdf_2d_poisson_flux_eq; try assumption; apply N; lia.
  - apply @cdf_3d_poisson_flux_eq; try assumption; apply N; lia.
  - apply @cd_apply_1d_diffusion_v1_res_eq; try assumption; apply N; lia.
  - apply @cd_apply_1d_diffusion_v2_res_eq; try assumption; apply N; lia.
  - apply @cd_apply_1d_poisson_v1_res_eq; try assumption; apply N; lia.
  - apply @cd_apply_1d_diffusion_v1_apply_eq; try assumption; apply N; lia.
  - apply @cd_apply_1d_diffusion_v2_apply_eq; try assumption; apply N; lia.
  - apply @cd_apply_1d_poisson_v2_apply_eq; try assumption; apply N; lia.
  - apply @cd_apply_2d_diffusion_v1_res_eq; try assumption; apply N; lia.
  - apply @cd_apply_2d_diffusion_v2_res_eq; try assumption; apply N; lia.
  - apply @cd_apply_2d_poisson_v1_res_eq; try assumption; apply N; lia.
  - apply @cd_apply_2d_diffusion_v1_apply_eq; try assumption; apply N; lia.
  - apply @cd_apply_2d_diffusion_v2_apply_eq; try assumption; apply N; lia.
  - apply @cd_apply_2d_poisson_v2_apply_eq; try assumption; apply N; lia.
  - apply @cd_apply_3d_diffusion_v1_res_eq; try assumption; apply N; lia.
  - apply @cd_apply_3d_diffusion_v2_res_eq; try assumption; apply N; lia.
  - apply @cd_apply_3d_poisson_v1_res_eq; try assumption; apply N; lia.
  - apply @cd_apply_3d_diffusion_v1_apply_eq; try assumption; apply N; lia.
  - apply @cd_apply_3d_diffusion_v2_apply_eq; try assumption; apply N; lia.
  - apply @cd_apply_3d_poisson_v2_apply_eq; try assumption; apply N; lia.
  - apply @c2f_copy_eq; try assumption; apply N; lia.
  - apply @c2f_copy_corner_eq; try assumption; apply N; lia.
  - apply @cd_1d_set_bc_eq; try assumption; apply N; lia.
  - apply @cd_1d_set_poisson_bc_eq; try assumption; apply N; lia.
  - apply @cd_2d_set_bc_eq; try assumption; apply N; lia.
  - apply @cd_2d_set_poisson_bc_eq; try assumption; apply N; lia.
  - apply @cd_2d_set_corner_bc_eq; try assumption; apply N; lia.
  - apply @cd_2d_set_homogenous_bc_eq; try assumption; apply N; lia.
  - apply @cd_3d_set_bc_eq; try assumption; apply N; lia.
  - apply @cd_3d_set_poisson_bc_eq; try assumption; apply N; lia.
  - apply @cd_stencil_1d_offdiag_eq; try assumption; apply N; lia.
  - apply @cd_stencil_1d_poisson_offdiag_eq; try assumption; apply N; lia.
  - apply @cd_stencil_1d_v1diag_eq; try assumption; apply N; lia.
  - apply @cd_stencil_1d_v2diag_eq; try assumption; apply N; lia.
  - apply @cd_stencil_1d_poisson_diag_eq; try assumption; apply N; lia.
  - apply @cd_stencil_1d_adj_diag_eq; try assumption; apply N; lia.
  - apply @cd_stencil_1d_adj_poisson_diag_eq; try assumption; apply N; lia.
  - apply @cd_stencil_1d_adj_cf_diag_eq; try assumption; apply N; lia.
  - apply @cd_stencil_1d_adj_poisson_cf_diag_eq; try assumption; apply N; lia.
  - apply @cd_stencil_1d_adj_offdiag_eq; try assumption; apply N; lia.
  - apply @cd_stencil_1d_adj_poisson_offdiag_eq; try assumption; apply N; lia.
  - apply @cd_stencil_1d_adj_cf_offdiag_eq; try assumption; apply N; lia.
  - apply @cd_stencil_1d_readj_offdiag_eq; try assumption; apply N; lia.
  - apply @cd_stencil_1d_adj_cf_bdryrhs_eq; try assumption; apply N; lia.
  - apply @cd_stencil_2d_offdiag_eq; try assumption; apply N; lia.
  - apply @cd_stencil_2d_poisson_offdiag_eq; try assumption; apply N; lia.
  - apply @cd_stencil_2d_v1diag_eq; try assumption; apply N; lia.
  - apply @cd_stencil_2d_v2diag_eq; try assumption; apply N; lia.
  - apply @cd_stencil_2d_poisson_diag_eq; try assumption; apply N; lia.
  - apply @cd_stencil_2d_adj_diag_eq; try assumption; apply N; lia.
  - apply @cd_stencil_2d_adj_poisson_diag_eq; try assumption; apply N; lia.
  - apply @cd_stencil_2d_adj_cf_diag_eq; try assumption; apply N; lia.
  - apply @cd_stencil_2d_adj_poisson_cf_diag_eq; try assumption; apply N; lia.
  - apply @cd_stencil_2d_adj_offdiag_eq; try assumption; apply N; lia.
  - apply @cd_stencil_2d_adj_poisson_offdiag_eq; try assumption; apply N; lia.
  - apply @cd_stencil_2d_adj_cf_offdiag_eq; try assumption; apply N; lia.
  - apply @cd_stencil_2d_readj_offdiag_eq; try assumption; apply N; lia.
  - apply @cd_stencil_2d_adj_cf_bdryrhs_eq; try assumption; apply N; lia.
  - apply @cd_stencil_3d_offdiag_eq; try assumption; apply N; lia.
  - apply @cd_stencil_3d_poisson_offdiag_eq; try assumption; apply N; lia.
  - apply @cd_stencil_3d_v1diag_eq; try assumption; apply N; lia.
  - apply @cd_stencil_3d_v2diag_eq; try assumption; apply N; lia.
  - apply @cd_stencil_3d_poisson_diag_eq; try assumption; apply N; lia.
  - apply @cd_stencil_3d_adj_diag_eq; try assumption; apply N; lia.
  - apply @cd_stencil_3d_adj_poisson_diag_eq; try assumption; apply N; lia.
  - apply @cd_stencil_3d_adj_cf_diag_eq; try assumption; apply N; lia.
  - apply @cd_stencil_3d_adj_poisson_cf_diag_eq; try assumption; apply N; lia.
  - apply @cd_stencil_3d_adj_offdiag_eq; try assumption; apply N; lia.
  - apply @cd_stencil_3d_adj_poisson_offdiag_eq; try assumption; apply N; lia.
  - apply @cd_stencil_3d_adj_cf_offdiag_eq; try assumption; apply N; lia.
  - apply @cd_stencil_3d_readj_offdiag_eq; try assumption; apply N; lia.
  - apply @cd_stencil_3d_adj_cf_bdryrhs_eq; try assumption; apply N; lia.
Qed.
