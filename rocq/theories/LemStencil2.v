(** * The stencil coefficient kernels in 2D compute what the Fortran subroutines compute *)

From Coq Require Import Permutation Field.
From Verif Require Import Base ModelBounds ModelMatrix ModelIters ModelSpan ModelProxy Spec SpecIter ModelSched
  LemBase LemDomain LemExpr LemExec SpecAssign LemProps LemProps4 SpecWindow LemWindow
  FortranBase SpecKernel Instances LemField LemKernel LemKernel2 LemBC KernelNotations KernelsStencil LemStencil
  FortranStencil2.
Import ListNotations.
Open Scope Z_scope.

Section Stencil2.
  Context {S : Scalar} (L : field_laws S).
  Add Field SF : (s_field S L) (morphism (lit_morph S L), constants [lit_cst]).

  Lemma cd_stencil_2d_offdiag_eq i0 j0 i1 j1 bi0 bj0 bi1 bj1 dx beta b0 b1 sgcw st (m : mem S) :
    i0 <= i1 + 1 -> j0 <= j1 + 1 -> apart st [b0; b1] ->
    cd_stencil_2d_offdiag i0 j0 i1 j1 bi0 bj0 bi1 bj1 dx beta b0 b1 sgcw st m =
    celldiffusionoffdiag2d i0 j0 i1 j1 bi0 bj0 bi1 bj1 dx beta b0 b1 sgcw st m.
  Proof. intros; k_apart; unfold cd_stencil_2d_offdiag, celldiffusionoffdiag2d; k_stencil L. Qed.

  Lemma cd_stencil_2d_poisson_offdiag_eq i0 j0 i1 j1 dx beta sgcw st (m : mem S) :
    i0 <= i1 + 1 -> j0 <= j1 + 1 ->
    cd_stencil_2d_poisson_offdiag i0 j0 i1 j1 dx beta sgcw st m =
    cellpoissonoffdiag2d i0 j0 i1 j1 dx beta sgcw st m.
  Proof. intros; k_apart; unfold cd_stencil_2d_poisson_offdiag, cellpoissonoffdiag2d; k_stencil L. Qed.

  Lemma cd_stencil_2d_v1diag_eq i0 j0 i1 j1 ai0 aj0 ai1 aj1 alpha a sgcw st (m : mem S) :
    i0 <= i1 + 1 -> j0 <= j1 + 1 ->
    cd_stencil_2d_v1diag i0 j0 i1 j1 ai0 aj0 ai1 aj1 alpha a sgcw st m =
    celldiffusionv1diag2d i0 j0 i1 j1 ai0 aj0 ai1 aj1 alpha a sgcw st m.
  Proof. intros; k_apart; unfold cd_stencil_2d_v1diag, celldiffusionv1diag2d; k_stencil L. Qed.

  Lemma cd_stencil_2d_v2diag_eq i0 j0 i1 j1 alpha sgcw st (m : mem S) :
    i0 <= i1 + 1 -> j0 <= j1 + 1 ->
    cd_stencil_2d_v2diag i0 j0 i1 j1 alpha sgcw st m =
    celldiffusionv2diag2d i0 j0 i1 j1 alpha sgcw st m.
  Proof. intros; k_apart; unfold cd_stencil_2d_v2diag, celldiffusionv2diag2d; k_stencil L. Qed.

  Lemma cd_stencil_2d_poisson_diag_eq i0 j0 i1 j1 sgcw st (m : mem S) :
    i0 <= i1 + 1 -> j0 <= j1 + 1 ->
    cd_stencil_2d_poisson_diag i0 j0 i1 j1 sgcw st m =
    cellpoissondiag2d i0 j0 i1 j1 sgcw st m.
  Proof. intros; k_apart; unfold cd_stencil_2d_poisson_diag, cellpoissondiag2d; k_stencil L. Qed.

  Lemma cd_stencil_2d_adj_diag_eq i0 j0 i1 j1 pi0 pj0 pi1 pj1 dir side btype exOrder dx beta b0 b1 sgcw st (m : mem S) :
    side = 0 \/ side = 1 -> pi0 <= pi1 + 1 -> pj0 <= pj1 + 1 -> dx dir <> lit 0 ->
    cd_stencil_2d_adj_diag i0 j0 i1 j1 pi0 pj0 pi1 pj1 dir side btype exOrder dx beta b0 b1 sgcw st m =
    adjcelldiffusiondiag2d i0 j0 i1 j1 pi0 pj0 pi1 pj1 dir side btype exOrder dx beta b0 b1 sgcw st m.
  Proof. intros [-> | ->]; intros; k_apart; unfold cd_stencil_2d_adj_diag, adjcelldiffusiondiag2d; k_stencil L. Qed.

  Lemma cd_stencil_2d_adj_poisson_diag_eq i0 j0 i1 j1 pi0 pj0 pi1 pj1 dir side btype exOrder dx beta sgcw st (m : mem S) :
    side = 0 \/ side = 1 -> pi0 <= pi1 + 1 -> pj0 <= pj1 + 1 ->
    cd_stencil_2d_adj_poisson_diag i0 j0 i1 j1 pi0 pj0 pi1 pj1 dir side btype exOrder dx beta sgcw st m =
    adjcellpoissondiag2d i0 j0 i1 j1 pi0 pj0 pi1 pj1 dir side btype exOrder dx beta sgcw st m.
  Proof. intros [-> | ->]; intros; k_apart; unfold cd_stencil_2d_adj_poisson_diag, adjcellpoissondiag2d; k_stencil L. Qed.

  Lemma cd_stencil_2d_adj_cf_diag_eq i0 j0 i1 j1 pi0 pj0 pi1 pj1 r dir side intOrder dx beta b0 b1 sgcw st (m : mem S) :
    side = 0 \/ side = 1 -> pi0 <= pi1 + 1 -> pj0 <= pj1 + 1 -> dx dir <> lit 0 ->
    cd_stencil_2d_adj_cf_diag i0 j0 i1 j1 pi0 pj0 pi1 pj1 r dir side intOrder dx beta b0 b1 sgcw st m =
    adjcelldiffusioncfdiag2d i0 j0 i1 j1 pi0 pj0 pi1 pj1 r dir side intOrder dx beta b0 b1 sgcw st m.
  Proof. intros [-> | ->]; intros; k_apart; unfold cd_stencil_2d_adj_cf_diag, adjcelldiffusioncfdiag2d; k_stencil L. Qed.

  Lemma cd_stencil_2d_adj_poisson_cf_diag_eq i0 j0 i1 j1 pi0 pj0 pi1 pj1 r dir side intOrder dx beta sgcw st (m : mem S) :
    side = 0 \/ side = 1 -> pi0 <= pi1 + 1 -> pj0 <= pj1 + 1 -> dx dir <> lit 0 ->
    cd_stencil_2d_adj_poisson_cf_diag i0 j0 i1 j1 pi0 pj0 pi1 pj1 r dir side intOrder dx beta sgcw st m =
    adjcellpoissoncfdiag2d i0 j0 i1 j1 pi0 pj0 pi1 pj1 r dir side intOrder dx beta sgcw st m.
  Proof. intros [-> | ->]; intros; k_apart; unfold cd_stencil_2d_adj_poisson_cf_diag, adjcellpoissoncfdiag2d; k_stencil L. Qed.

  Lemma cd_stencil_2d_adj_offdiag_eq i0 j0 i1 j1 pi0 pj0 pi1 pj1 dir side btype exOrder dx dirf neuf beta b0 b1 sgcw st (m : mem S) :
    side = 0 \/ side = 1 -> pi0 <= pi1 + 1 -> pj0 <= pj1 + 1 -> apart st [b0; b1] ->
    cd_stencil_2d_adj_offdiag i0 j0 i1 j1 pi0 pj0 pi1 pj1 dir side btype exOrder dx dirf neuf beta b0 b1 sgcw st m =
    adjcelldiffusionoffdiag2d i0 j0 i1 j1 pi0 pj0 pi1 pj1 dir side btype exOrder dx dirf neuf beta b0 b1 sgcw st m.
  Proof. intros [-> | ->]; intros; k_apart; unfold cd_stencil_2d_adj_offdiag, adjcelldiffusionoffdiag2d; k_stencil L. Qed.

  Lemma cd_stencil_2d_adj_poisson_offdiag_eq i0 j0 i1 j1 pi0 pj0 pi1 pj1 dir side btype exOrder dx dirf neuf beta sgcw st (m : mem S) :
    side = 0 \/ side = 1 -> pi0 <= pi1 + 1 -> pj0 <= pj1 + 1 ->
    cd_stencil_2d_adj_poisson_offdiag i0 j0 i1 j1 pi0 pj0 pi1 pj1 dir side btype exOrder dx dirf neuf beta sgcw st m =
    adjcellpoissonoffdiag2d i0 j0 i1 j1 pi0 pj0 pi1 pj1 dir side btype exOrder dx dirf neuf beta sgcw st m.
  Proof. intros [-> | ->]; intros; k_apart; unfold cd_stencil_2d_adj_poisson_offdiag, adjcellpoissonoffdiag2d; k_stencil L. Qed.

  Lemma cd_stencil_2d_adj_cf_offdiag_eq i0 j0 i1 j1 ci0 cj0 ci1 cj1 r dir side intOrder sgcw st (m : mem S) :
    side = 0 \/ side = 1 -> ci0 <= ci1 + 1 -> cj0 <= cj1 + 1 ->
    cd_stencil_2d_adj_cf_offdiag i0 j0 i1 j1 ci0 cj0 ci1 cj1 r dir side intOrder sgcw st m =
    adjcelldiffusioncfoffdiag2d i0 j0 i1 j1 ci0 cj0 ci1 cj1 r dir side intOrder sgcw st m.
  Proof. intros [-> | ->]; intros; k_apart; unfold cd_stencil_2d_adj_cf_offdiag, adjcelldiffusioncfoffdiag2d; k_stencil L. Qed.

  Lemma cd_stencil_2d_readj_offdiag_eq i0 j0 i1 j1 pi0 pj0 pi1 pj1 dir side sgcw st (m : mem S) :
    side = 0 \/ side = 1 -> pi0 <= pi1 + 1 -> pj0 <= pj1 + 1 ->
    cd_stencil_2d_readj_offdiag i0 j0 i1 j1 pi0 pj0 pi1 pj1 dir side sgcw st m =
    readjcelldiffusionoffdiag2d i0 j0 i1 j1 pi0 pj0 pi1 pj1 dir side sgcw st m.
  Proof. intros [-> | ->]; intros; k_apart; unfold cd_stencil_2d_readj_offdiag, readjcelldiffusionoffdiag2d; k_stencil L. Qed.

  Lemma cd_stencil_2d_adj_cf_bdryrhs_eq i0 j0 i1 j1 pi0 pj0 pi1 pj1 dir side sgcw st gcw u rhs (m : mem S) :
    side = 0 \/ side = 1 -> pi0 <= pi1 + 1 -> pj0 <= pj1 + 1 ->
    cd_stencil_2d_adj_cf_bdryrhs i0 j0 i1 j1 pi0 pj0 pi1 pj1 dir side sgcw st gcw u rhs m =
    adjcelldiffusioncfbdryrhs2d i0 j0 i1 j1 pi0 pj0 pi1 pj1 dir side sgcw st gcw u rhs m.
  Proof. intros [-> | ->]; intros; k_apart; unfold cd_stencil_2d_adj_cf_bdryrhs, adjcelldiffusioncfbdryrhs2d; k_stencil L. Qed.
End Stencil2.
