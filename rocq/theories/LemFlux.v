(** * The flux kernels compute what the Fortran subroutines compute *)

From Coq Require Import Permutation.
From Verif Require Import Base ModelBounds ModelMatrix ModelIters ModelSpan Spec SpecIter ModelSched
  LemBase LemDomain LemExpr LemExec SpecAssign LemProps LemProps4
  FortranBase Instances LemField LemKernel KernelNotations KernelsFlux FortranFlux.
Import ListNotations.
Open Scope Z_scope.

Section Flux.
  Context {S : Scalar} (L : field_laws S).

  Add Field SF : (s_field S L) (morphism (lit_morph S L), constants [lit_cst]).

  Ltac elem :=
    apply forM_ext_in; intros pt m' _; unfold fset, fel, fsc, fop, fneg;
    cbn [assign_point denote]; autorewrite with dgrad;
    autorewrite with fa; k_idx; unfold Z.sub; cbn [Z.opp];
    k_loads; cbn [bind app_op num_op]; try reflexivity;
    f_equal; k_div L; ring.

  Lemma cdf_1d_flux_eq i0 i1 dx b0 gcw u f0 (m : mem S) : i0 <= i1 + 1 ->
    cdf_1d_flux i0 i1 dx b0 gcw u f0 m = celldiffusionflux1d i0 i1 dx b0 gcw u f0 m.
  Proof.
    intros H. unfold cdf_1d_flux, celldiffusionflux1d. cbv zeta.
    rewrite with_lhs_points; [|k_dom|k_assign].
    rewrite (do_points1 dI). elem.
  Qed.

  Lemma cdf_2d_flux_eq i0 j0 i1 j1 dx b0 b1 gcw u f0 f1 (m : mem S) : i0 <= i1 + 1 -> j0 <= j1 + 1 ->
    cdf_2d_flux i0 j0 i1 j1 dx b0 b1 gcw u f0 f1 m =
    celldiffusionflux2d i0 j0 i1 j1 dx b0 b1 gcw u f0 f1 m.
  Proof.
    intros Hi Hj. unfold cdf_2d_flux, celldiffusionflux2d, fseq. cbv zeta.
    apply bind_cong; [|intros m1].
    - rewrite with_lhs_points; [|k_dom|k_assign].
      rewrite (do_points2 dJ dI) by discriminate. elem.
    - rewrite with_lhs_points; [|k_dom|k_assign].
      rewrite (do_points2 dI dJ) by discriminate. elem.
  Qed.

  Lemma cdf_3d_flux_eq i0 j0 k0 i1 j1 k1 dx b0 b1 b2 gcw u f0 f1 f2 (m : mem S) :
    i0 <= i1 + 1 -> j0 <= j1 + 1 -> k0 <= k1 + 1 ->
    cdf_3d_flux i0 j0 k0 i1 j1 k1 dx b0 b1 b2 gcw u f0 f1 f2 m =
    celldiffusionflux3d i0 j0 k0 i1 j1 k1 dx b0 b1 b2 gcw u f0 f1 f2 m.
  Proof.
    intros Hi Hj Hk. unfold cdf_3d_flux, celldiffusionflux3d, fseq. cbv zeta.
    apply bind_cong; [|intros m1; apply bind_cong; [|intros m2]].
    - rewrite with_lhs_points; [|k_dom|k_assign].
      rewrite (do_points3 dK dJ dI) by discriminate. elem.
    - rewrite with_lhs_points; [|k_dom|k_assign].
      rewrite (do_points3 dI dK dJ) by discriminate. elem.
    - rewrite with_lhs_points; [|k_dom|k_assign].
      rewrite (do_points3 dJ dI dK) by discriminate. elem.
  Qed.
End Flux.

(** The Poisson fluxes agree operation for operation. *)
Section Poisson.
  Context {S : Scalar}.

  Ltac elem :=
    apply forM_ext_in; intros pt m' _; unfold fset, fel, fsc, fop, fneg;
    cbn [assign_point]; autorewrite with dgrad;
    autorewrite with fa; k_idx; unfold Z.sub; cbn [Z.opp];
    k_loads; cbn [bind app_op num_op]; try reflexivity.

  Lemma cdf_1d_poisson_flux_eq i0 i1 dx gcw u f0 (m : mem S) : i0 <= i1 + 1 ->
    cdf_1d_poisson_flux i0 i1 dx gcw u f0 m = cellpoissonflux1d i0 i1 dx gcw u f0 m.
  Proof.
    intros H. unfold cdf_1d_poisson_flux, cellpoissonflux1d. cbv zeta.
    rewrite with_lhs_points; [|k_dom|k_assign].
    rewrite (do_points1 dI). elem.
  Qed.

  Lemma cdf_2d_poisson_flux_eq i0 j0 i1 j1 dx gcw u f0 f1 (m : mem S) :
    i0 <= i1 + 1 -> j0 <= j1 + 1 -> fst f0 <> fst u -> fst f1 <> fst u ->
    cdf_2d_poisson_flux i0 j0 i1 j1 dx gcw u f0 f1 m =
    cellpoissonflux2d i0 j0 i1 j1 dx gcw u f0 f1 m.
  Proof.
    intros Hi Hj N0 N1. unfold cdf_2d_poisson_flux, cellpoissonflux2d, fseq. cbv zeta.
    apply bind_cong; [|intros m1].
    - rewrite with_lhs_points; [|k_dom|k_assign].
      rewrite (assign_any_order _ _ [(dI, Bnd i0 (i1 + 1)); (dJ, Bnd j0 j1)]).
      2:{ split; [k_dom|split; [k_assign|apply within_self; k_nodup]]. }
      2:{ apply avoids_independent. cbn. congruence. }
      2:{ apply perm_swap. }
      rewrite (do_points2 dI dJ) by discriminate. elem.
    - rewrite with_lhs_points; [|k_dom|k_assign].
      rewrite (assign_any_order _ _ [(dJ, Bnd j0 (j1 + 1)); (dI, Bnd i0 i1)]).
      2:{ split; [k_dom|split; [k_assign|apply within_self; k_nodup]]. }
      2:{ apply avoids_independent. cbn. congruence. }
      2:{ apply perm_swap. }
      rewrite (do_points2 dJ dI) by discriminate. elem.
  Qed.

  Lemma cdf_3d_poisson_flux_eq i0 j0 k0 i1 j1 k1 dx gcw u f0 f1 f2 (m : mem S) :
    i0 <= i1 + 1 -> j0 <= j1 + 1 -> k0 <= k1 + 1 ->
    cdf_3d_poisson_flux i0 j0 k0 i1 j1 k1 dx gcw u f0 f1 f2 m =
    cellpoissonflux3d i0 j0 k0 i1 j1 k1 dx gcw u f0 f1 f2 m.
  Proof.
    intros Hi Hj Hk. unfold cdf_3d_poisson_flux, cellpoissonflux3d, fseq. cbv zeta.
    apply bind_cong; [|intros m1; apply bind_cong; [|intros m2]].
    - rewrite with_lhs_points; [|k_dom|k_assign].
      rewrite (do_points3 dK dJ dI) by discriminate. elem.
    - rewrite with_lhs_points; [|k_dom|k_assign].
      rewrite (do_points3 dI dK dJ) by discriminate. elem.
    - rewrite with_lhs_points; [|k_dom|k_assign].
      rewrite (do_points3 dJ dI dK) by discriminate. elem.
  Qed.
End Poisson.
