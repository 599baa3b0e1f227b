(** * The stencil coefficient kernels in 3D compute what the Fortran subroutines compute *)

From Coq Require Import Permutation Field.
From Verif Require Import Base ModelBounds ModelMatrix ModelIters ModelSpan ModelProxy Spec SpecIter ModelSched
  LemBase LemDomain LemExpr LemExec SpecAssign LemProps LemProps4 SpecWindow LemWindow
  FortranBase SpecKernel Instances LemField LemKernel LemKernel2 LemBC KernelNotations KernelsStencil LemStencil
  FortranStencil3.
Import ListNotations.
Open Scope Z_scope.

Section Stencil3.
  Context {S : Scalar} (L : field_laws S).
  Add Field SF : (s_field S L) (morphism (lit_morph S L), constants [lit_cst]).

  Lemma cd_stencil_3d_offdiag_eq i0 j0 k0 i1 j1 k1 bi0 bj0 bk0 bi1 bj1 bk1 dx beta b0 b1 b2 sgcw st (m : mem S) :
    i0 <= i1 + 1 -> j0 <= j1 + 1 -> k0 <= k1 + 1 -> apart st [b0; b1; b2] ->
    cd_stencil_3d_offdiag i0 j0 k0 i1 j1 k1 bi0 bj0 bk0 bi1 bj1 bk1 dx beta b0 b1 b2 sgcw st m =
    celldiffusionoffdiag3d i0 j0 k0 i1 j1 k1 bi0 bj0 bk0 bi1 bj1 bk1 dx beta b0 b1 b2 sgcw st m.
  Proof. intros; k_apart; unfold cd_stencil_3d_offdiag, celldiffusionoffdiag3d; k_stencil L. Qed.

  Lemma cd_stencil_3d_poisson_offdiag_eq i0 j0 k0 i1 j1 k1 dx beta sgcw st (m : mem S) :
    i0 <= i1 + 1 -> j0 <= j1 + 1 -> k0 <= k1 + 1 ->
    cd_stencil_3d_poisson_offdiag i0 j0 k0 i1 j1 k1 dx beta sgcw st m =
    cellpoissonoffdiag3d i0 j0 k0 i1 j1 k1 dx beta sgcw st m.
  Proof. intros; k_apart; unfold cd_stencil_3d_poisson_offdiag, cellpoissonoffdiag3d; k_stencil L. Qed.

  Lemma cd_stencil_3d_v1diag_eq i0 j0 k0 i1 j1 k1 ai0 aj0 ak0 ai1 aj1 ak1 alpha a sgcw st (m : mem S) :
    i0 <= i1 + 1 -> j0 <= j1 + 1 -> k0 <= k1 + 1 ->
    cd_stencil_3d_v1diag i0 j0 k0 i1 j1 k1 ai0 aj0 ak0 ai1 aj1 ak1 alpha a sgcw st m =
    celldiffusionv1diag3d i0 j0 k0 i1 j1 k1 ai0 aj0 ak0 ai1 aj1 ak1 alpha a sgcw st m.
  Proof. intros; k_apart; unfold cd_stencil_3d_v1diag, celldiffusionv1diag3d; k_stencil L. Qed.

  Lemma cd_stencil_3d_v2diag_eq i0 j0 k0 i1 j1 k1 alpha sgcw st (m : mem S) :
    i0 <= i1 + 1 -> j0 <= j1 + 1 -> k0 <= k1 + 1 ->
    cd_stencil_3d_v2diag i0 j0 k0 i1 j1 k1 alpha sgcw st m =
    celldiffusionv2diag3d i0 j0 k0 i1 j1 k1 alpha sgcw st m.
  Proof. intros; k_apart; unfold cd_stencil_3d_v2diag, celldiffusionv2diag3d; k_stencil L. Qed.

  Lemma cd_stencil_3d_poisson_diag_eq i0 j0 k0 i1 j1 k1 sgcw st (m : mem S) :
    i0 <= i1 + 1 -> j0 <= j1 + 1 -> k0 <= k1 + 1 ->
    cd_stencil_3d_poisson_diag i0 j0 k0 i1 j1 k1 sgcw st m =
    cellpoissondiag3d i0 j0 k0 i1 j1 k1 sgcw st m.
  Proof. intros; k_apart; unfold cd_stencil_3d_poisson_diag, cellpoissondiag3d; k_stencil L. Qed.

  Lemma cd_stencil_3d_adj_diag_eq i0 j0 k0 i1 j1 k1 pi0 pj0 pk0 pi1 pj1 pk1 dir side btype exOrder dx beta b0 b1 b2 sgcw st (m : mem S) :
    side = 0 \/ side = 1 -> pi0 <= pi1 + 1 -> pj0 <= pj1 + 1 -> pk0 <= pk1 + 1 -> dx dir <> lit 0 ->
    cd_stencil_3d_adj_diag i0 j0 k0 i1 j1 k1 pi0 pj0 pk0 pi1 pj1 pk1 dir side btype exOrder dx beta b0 b1 b2 sgcw st m =
    adjcelldiffusiondiag3d i0 j0 k0 i1 j1 k1 pi0 pj0 pk0 pi1 pj1 pk1 dir side btype exOrder dx beta b0 b1 b2 sgcw st m.
  Proof. intros [-> | ->]; intros; k_apart; unfold cd_stencil_3d_adj_diag, adjcelldiffusiondiag3d; k_stencil L. Qed.

  Lemma cd_stencil_3d_adj_poisson_diag_eq i0 j0 k0 i1 j1 k1 pi0 pj0 pk0 pi1 pj1 pk1 dir side btype exOrder dx beta sgcw st (m : mem S) :
    side = 0 \/ side = 1 -> pi0 <= pi1 + 1 -> pj0 <= pj1 + 1 -> pk0 <= pk1 + 1 -> dx dir <> lit 0 ->
    cd_stencil_3d_adj_poisson_diag i0 j0 k0 i1 j1 k1 pi0 pj0 pk0 pi1 pj1 pk1 dir side btype exOrder dx beta sgcw st m =
    adjcellpoissondiag3d i0 j0 k0 i1 j1 k1 pi0 pj0 pk0 pi1 pj1 pk1 dir side btype exOrder dx beta sgcw st m.
  Proof. intros [-> | ->]; intros; k_apart; unfold cd_stencil_3d_adj_poisson_diag, adjcellpoissondiag3d; k_stencil L. Qed.

  Lemma cd_stencil_3d_adj_cf_diag_eq i0 j0 k0 i1 j1 k1 pi0 pj0 pk0 pi1 pj1 pk1 r dir side intOrder dx beta b0 b1 b2 sgcw st (m : mem S) :
    side = 0 \/ side = 1 -> pi0 <= pi1 + 1 -> pj0 <= pj1 + 1 -> pk0 <= pk1 + 1 -> dx dir <> lit 0 ->
    cd_stencil_3d_adj_cf_diag i0 j0 k0 i1 j1 k1 pi0 pj0 pk0 pi1 pj1 pk1 r dir side intOrder dx beta b0 b1 b2 sgcw st m =
    adjcelldiffusioncfdiag3d i0 j0 k0 i1 j1 k1 pi0 pj0 pk0 pi1 pj1 pk1 r dir side intOrder dx beta b0 b1 b2 sgcw st m.
  Proof. intros [-> | ->]; intros; k_apart; unfold cd_stencil_3d_adj_cf_diag, adjcelldiffusioncfdiag3d; k_stencil L. Qed.

  Lemma cd_stencil_3d_adj_poisson_cf_diag_eq i0 j0 k0 i1 j1 k1 pi0 pj0 pk0 pi1 pj1 pk1 r dir side intOrder dx beta sgcw st (m : mem S) :
    side = 0 \/ side = 1 -> pi0 <= pi1 + 1 -> pj0 <= pj1 + 1 -> pk0 <= pk1 + 1 -> dx dir <> lit 0 ->
    cd_stencil_3d_adj_poisson_cf_diag i0 j0 k0 i1 j1 k1 pi0 pj0 pk0 pi1 pj1 pk1 r dir side intOrder dx beta sgcw st m =
    adjcellpoissoncfdiag3d i0 j0 k0 i1 j1 k1 pi0 pj0 pk0 pi1 pj1 pk1 r dir side intOrder dx beta sgcw st m.
  Proof. intros [-> | ->]; intros; k_apart; unfold cd_stencil_3d_adj_poisson_cf_diag, adjcellpoissoncfdiag3d; k_stencil L. Qed.

  Lemma cd_stencil_3d_adj_offdiag_eq i0 j0 k0 i1 j1 k1 pi0 pj0 pk0 pi1 pj1 pk1 dir side btype exOrder dx dirf neuf beta b0 b1 b2 sgcw st (m : mem S) :
    side = 0 \/ side = 1 -> pi0 <= pi1 + 1 -> pj0 <= pj1 + 1 -> pk0 <= pk1 + 1 -> apart st [b0; b1; b2] ->
    cd_stencil_3d_adj_offdiag i0 j0 k0 i1 j1 k1 pi0 pj0 pk0 pi1 pj1 pk1 dir side btype exOrder dx dirf neuf beta b0 b1 b2 sgcw st m =
    adjcelldiffusionoffdiag3d i0 j0 k0 i1 j1 k1 pi0 pj0 pk0 pi1 pj1 pk1 dir side btype exOrder dx dirf neuf beta b0 b1 b2 sgcw st m.
  Proof. intros [-> | ->]; intros; k_apart; unfold cd_stencil_3d_adj_offdiag, adjcelldiffusionoffdiag3d; k_stencil L. Qed.

  Lemma cd_stencil_3d_adj_poisson_offdiag_eq i0 j0 k0 i1 j1 k1 pi0 pj0 pk0 pi1 pj1 pk1 dir side btype exOrder dx dirf neuf beta sgcw st (m : mem S) :
    side = 0 \/ side = 1 -> pi0 <= pi1 + 1 -> pj0 <= pj1 + 1 -> pk0 <= pk1 + 1 ->
    cd_stencil_3d_adj_poisson_offdiag i0 j0 k0 i1 j1 k1 pi0 pj0 pk0 pi1 pj1 pk1 dir side btype exOrder dx dirf neuf beta sgcw st m =
    adjcellpoissonoffdiag3d i0 j0 k0 i1 j1 k1 pi0 pj0 pk0 pi1 pj1 pk1 dir side btype exOrder dx dirf neuf beta sgcw st m.
  Proof. intros [-> | ->]; intros; k_apart; unfold cd_stencil_3d_adj_poisson_offdiag, adjcellpoissonoffdiag3d; k_stencil L. Qed.

  Lemma cd_stencil_3d_adj_cf_offdiag_eq i0 j0 k0 i1 j1 k1 ci0 cj0 ck0 ci1 cj1 ck1 r dir side intOrder sgcw st (m : mem S) :
    side = 0 \/ side = 1 -> ci0 <= ci1 + 1 -> cj0 <= cj1 + 1 -> ck0 <= ck1 + 1 ->
    cd_stencil_3d_adj_cf_offdiag i0 j0 k0 i1 j1 k1 ci0 cj0 ck0 ci1 cj1 ck1 r dir side intOrder sgcw st m =
    adjcelldiffusioncfoffdiag3d i0 j0 k0 i1 j1 k1 ci0 cj0 ck0 ci1 cj1 ck1 r dir side intOrder sgcw st m.
  Proof. intros [-> | ->]; intros; k_apart; unfold cd_stencil_3d_adj_cf_offdiag, adjcelldiffusioncfoffdiag3d; k_stencil L. Qed.

  Lemma cd_stencil_3d_readj_offdiag_eq i0 j0 k0 i1 j1 k1 pi0 pj0 pk0 pi1 pj1 pk1 dir side sgcw st (m : mem S) :
    side = 0 \/ side = 1 -> pi0 <= pi1 + 1 -> pj0 <= pj1 + 1 -> pk0 <= pk1 + 1 ->
    cd_stencil_3d_readj_offdiag i0 j0 k0 i1 j1 k1 pi0 pj0 pk0 pi1 pj1 pk1 dir side sgcw st m =
    readjcelldiffusionoffdiag3d i0 j0 k0 i1 j1 k1 pi0 pj0 pk0 pi1 pj1 pk1 dir side sgcw st m.
  Proof. intros [-> | ->]; intros; k_apart; unfold cd_stencil_3d_readj_offdiag, readjcelldiffusionoffdiag3d; k_stencil L. Qed.

  Lemma cd_stencil_3d_adj_cf_bdryrhs_eq i0 j0 k0 i1 j1 k1 pi0 pj0 pk0 pi1 pj1 pk1 dir side sgcw st gcw u rhs (m : mem S) :
    side = 0 \/ side = 1 -> pi0 <= pi1 + 1 -> pj0 <= pj1 + 1 -> pk0 <= pk1 + 1 ->
    cd_stencil_3d_adj_cf_bdryrhs i0 j0 k0 i1 j1 k1 pi0 pj0 pk0 pi1 pj1 pk1 dir side sgcw st gcw u rhs m =
    adjcelldiffusioncfbdryrhs3d i0 j0 k0 i1 j1 k1 pi0 pj0 pk0 pi1 pj1 pk1 dir side sgcw st gcw u rhs m.
  Proof. intros [-> | ->]; intros; k_apart; unfold cd_stencil_3d_adj_cf_bdryrhs, adjcelldiffusioncfbdryrhs3d; k_stencil L. Qed.
End Stencil3.
