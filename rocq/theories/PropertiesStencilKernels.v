(** * Property C41: stencil coefficient kernels *)

From Coq Require Import QArith Qcanon.
From Verif Require Import Base ModelBounds ModelMatrix ModelIters ModelSpan ModelProxy Spec SpecAssign FortranBase SpecKernel
  Instances KernelsStencil FortranStencil1 FortranStencil2 FortranStencil3 LemStencil LemStencil2 LemStencil3.
Import ListNotations.
Open Scope Z_scope.

(** ** The kernels leave the memory the Fortran subroutines leave *)

Theorem C41_offdiag_1d : forall (S : Scalar), field_laws S -> forall i0 i1 bi0 bi1 dx beta b0 sgcw st (m : mem S),
  i0 <= i1 + 1 -> apart st [b0] ->
  cd_stencil_1d_offdiag i0 i1 bi0 bi1 dx beta b0 sgcw st m =
  celldiffusionoffdiag1d i0 i1 bi0 bi1 dx beta b0 sgcw st m.
Proof. exact @cd_stencil_1d_offdiag_eq. Qed.
Print Assumptions C41_offdiag_1d.

Theorem C41_poisson_offdiag_1d : forall (S : Scalar), field_laws S -> forall i0 i1 dx beta sgcw st (m : mem S),
  i0 <= i1 + 1 ->
  cd_stencil_1d_poisson_offdiag i0 i1 dx beta sgcw st m =
  cellpoissonoffdiag1d i0 i1 dx beta sgcw st m.
Proof. exact @cd_stencil_1d_poisson_offdiag_eq. Qed.
Print Assumptions C41_poisson_offdiag_1d.

Theorem C41_v1diag_1d : forall (S : Scalar), field_laws S -> forall i0 i1 ai0 ai1 alpha a sgcw st (m : mem S),
  i0 <= i1 + 1 ->
  cd_stencil_1d_v1diag i0 i1 ai0 ai1 alpha a sgcw st m =
  celldiffusionv1diag1d i0 i1 ai0 ai1 alpha a sgcw st m.
Proof. exact @cd_stencil_1d_v1diag_eq. Qed.
Print Assumptions C41_v1diag_1d.

Theorem C41_v2diag_1d : forall (S : Scalar), field_laws S -> forall i0 i1 alpha sgcw st (m : mem S),
  i0 <= i1 + 1 ->
  cd_stencil_1d_v2diag i0 i1 alpha sgcw st m =
  celldiffusionv2diag1d i0 i1 alpha sgcw st m.
Proof. exact @cd_stencil_1d_v2diag_eq. Qed.
Print Assumptions C41_v2diag_1d.

Theorem C41_poisson_diag_1d : forall (S : Scalar), field_laws S -> forall i0 i1 sgcw st (m : mem S),
  i0 <= i1 + 1 ->
  cd_stencil_1d_poisson_diag i0 i1 sgcw st m =
  cellpoissondiag1d i0 i1 sgcw st m.
Proof. exact @cd_stencil_1d_poisson_diag_eq. Qed.
Print Assumptions C41_poisson_diag_1d.

Theorem C41_adj_diag_1d : forall (S : Scalar), field_laws S -> forall i0 i1 pi0 pi1 side btype exOrder dx beta b0 sgcw st (m : mem S),
  side = 0 \/ side = 1 ->
  cd_stencil_1d_adj_diag i0 i1 pi0 pi1 side btype exOrder dx beta b0 sgcw st m =
  adjcelldiffusiondiag1d i0 i1 pi0 pi1 side btype exOrder dx beta b0 sgcw st m.
Proof. exact @cd_stencil_1d_adj_diag_eq. Qed.
Print Assumptions C41_adj_diag_1d.

Theorem C41_adj_poisson_diag_1d : forall (S : Scalar) i0 i1 pi0 pi1 side btype exOrder dx beta sgcw st (m : mem S),
  side = 0 \/ side = 1 ->
  cd_stencil_1d_adj_poisson_diag i0 i1 pi0 pi1 side btype exOrder dx beta sgcw st m =
  adjcellpoissondiag1d i0 i1 pi0 pi1 side btype exOrder dx beta sgcw st m.
Proof. exact @cd_stencil_1d_adj_poisson_diag_eq. Qed.
Print Assumptions C41_adj_poisson_diag_1d.

Theorem C41_adj_cf_diag_1d : forall (S : Scalar), field_laws S -> forall i0 i1 pi0 pi1 r side intOrder dx beta b0 sgcw st (m : mem S),
  side = 0 \/ side = 1 -> dx 0 <> lit 0 ->
  cd_stencil_1d_adj_cf_diag i0 i1 pi0 pi1 r side intOrder dx beta b0 sgcw st m =
  adjcelldiffusioncfdiag1d i0 i1 pi0 pi1 r side intOrder dx beta b0 sgcw st m.
Proof. exact @cd_stencil_1d_adj_cf_diag_eq. Qed.
Print Assumptions C41_adj_cf_diag_1d.

Theorem C41_adj_poisson_cf_diag_1d : forall (S : Scalar), field_laws S -> forall i0 i1 pi0 pi1 r side intOrder dx beta sgcw st (m : mem S),
  side = 0 \/ side = 1 -> dx 0 <> lit 0 ->
  cd_stencil_1d_adj_poisson_cf_diag i0 i1 pi0 pi1 r side intOrder dx beta sgcw st m =
  adjcellpoissoncfdiag1d i0 i1 pi0 pi1 r side intOrder dx beta sgcw st m.
Proof. exact @cd_stencil_1d_adj_poisson_cf_diag_eq. Qed.
Print Assumptions C41_adj_poisson_cf_diag_1d.

Theorem C41_adj_offdiag_1d : forall (S : Scalar), field_laws S -> forall i0 i1 pi0 pi1 side btype exOrder dx dirf neuf beta b0 sgcw st (m : mem S),
  side = 0 \/ side = 1 -> apart st [b0] ->
  cd_stencil_1d_adj_offdiag i0 i1 pi0 pi1 side btype exOrder dx dirf neuf beta b0 sgcw st m =
  adjcelldiffusionoffdiag1d i0 i1 pi0 pi1 side btype exOrder dx dirf neuf beta b0 sgcw st m.
Proof. exact @cd_stencil_1d_adj_offdiag_eq. Qed.
Print Assumptions C41_adj_offdiag_1d.

Theorem C41_adj_poisson_offdiag_1d : forall (S : Scalar), field_laws S -> forall i0 i1 pi0 pi1 side btype exOrder dx dirf neuf beta sgcw st (m : mem S),
  side = 0 \/ side = 1 ->
  cd_stencil_1d_adj_poisson_offdiag i0 i1 pi0 pi1 side btype exOrder dx dirf neuf beta sgcw st m =
  adjcellpoissonoffdiag1d i0 i1 pi0 pi1 side btype exOrder dx dirf neuf beta sgcw st m.
Proof. exact @cd_stencil_1d_adj_poisson_offdiag_eq. Qed.
Print Assumptions C41_adj_poisson_offdiag_1d.

Theorem C41_adj_cf_offdiag_1d : forall (S : Scalar), field_laws S -> forall i0 i1 ci0 ci1 r side intOrder sgcw st (m : mem S),
  side = 0 \/ side = 1 ->
  cd_stencil_1d_adj_cf_offdiag i0 i1 ci0 ci1 r side intOrder sgcw st m =
  adjcelldiffusioncfoffdiag1d i0 i1 ci0 ci1 r side intOrder sgcw st m.
Proof. exact @cd_stencil_1d_adj_cf_offdiag_eq. Qed.
Print Assumptions C41_adj_cf_offdiag_1d.

Theorem C41_readj_offdiag_1d : forall (S : Scalar) i0 i1 pi0 pi1 side sgcw st (m : mem S),
  side = 0 \/ side = 1 ->
  cd_stencil_1d_readj_offdiag i0 i1 pi0 pi1 side sgcw st m =
  readjcelldiffusionoffdiag1d i0 i1 pi0 pi1 side sgcw st m.
Proof. exact @cd_stencil_1d_readj_offdiag_eq. Qed.
Print Assumptions C41_readj_offdiag_1d.

Theorem C41_adj_cf_bdryrhs_1d : forall (S : Scalar), field_laws S -> forall i0 i1 pi0 pi1 side sgcw st gcw u rhs (m : mem S),
  side = 0 \/ side = 1 ->
  cd_stencil_1d_adj_cf_bdryrhs i0 i1 pi0 pi1 side sgcw st gcw u rhs m =
  adjcelldiffusioncfbdryrhs1d i0 i1 pi0 pi1 side sgcw st gcw u rhs m.
Proof. exact @cd_stencil_1d_adj_cf_bdryrhs_eq. Qed.
Print Assumptions C41_adj_cf_bdryrhs_1d.

Theorem C41_offdiag_2d : forall (S : Scalar), field_laws S -> forall i0 j0 i1 j1 bi0 bj0 bi1 bj1 dx beta b0 b1 sgcw st (m : mem S),
  i0 <= i1 + 1 -> j0 <= j1 + 1 -> apart st [b0; b1] ->
  cd_stencil_2d_offdiag i0 j0 i1 j1 bi0 bj0 bi1 bj1 dx beta b0 b1 sgcw st m =
  celldiffusionoffdiag2d i0 j0 i1 j1 bi0 bj0 bi1 bj1 dx beta b0 b1 sgcw st m.
Proof. exact @cd_stencil_2d_offdiag_eq. Qed.
Print Assumptions C41_offdiag_2d.

Theorem C41_poisson_offdiag_2d : forall (S : Scalar), field_laws S -> forall i0 j0 i1 j1 dx beta sgcw st (m : mem S),
  i0 <= i1 + 1 -> j0 <= j1 + 1 ->
  cd_stencil_2d_poisson_offdiag i0 j0 i1 j1 dx beta sgcw st m =
  cellpoissonoffdiag2d i0 j0 i1 j1 dx beta sgcw st m.
Proof. exact @cd_stencil_2d_poisson_offdiag_eq. Qed.
Print Assumptions C41_poisson_offdiag_2d.

Theorem C41_v1diag_2d : forall (S : Scalar), field_laws S -> forall i0 j0 i1 j1 ai0 aj0 ai1 aj1 alpha a sgcw st (m : mem S),
  i0 <= i1 + 1 -> j0 <= j1 + 1 ->
  cd_stencil_2d_v1diag i0 j0 i1 j1 ai0 aj0 ai1 aj1 alpha a sgcw st m =
  celldiffusionv1diag2d i0 j0 i1 j1 ai0 aj0 ai1 aj1 alpha a sgcw st m.
Proof. exact @cd_stencil_2d_v1diag_eq. Qed.
Print Assumptions C41_v1diag_2d.

Theorem C41_v2diag_2d : forall (S : Scalar), field_laws S -> forall i0 j0 i1 j1 alpha sgcw st (m : mem S),
  i0 <= i1 + 1 -> j0 <= j1 + 1 ->
  cd_stencil_2d_v2diag i0 j0 i1 j1 alpha sgcw st m =
  celldiffusionv2diag2d i0 j0 i1 j1 alpha sgcw st m.
Proof. exact @cd_stencil_2d_v2diag_eq. Qed.
Print Assumptions C41_v2diag_2d.

Theorem C41_poisson_diag_2d : forall (S : Scalar), field_laws S -> forall i0 j0 i1 j1 sgcw st (m : mem S),
  i0 <= i1 + 1 -> j0 <= j1 + 1 ->
  cd_stencil_2d_poisson_diag i0 j0 i1 j1 sgcw st m =
  cellpoissondiag2d i0 j0 i1 j1 sgcw st m.
Proof. exact @cd_stencil_2d_poisson_diag_eq. Qed.
Print Assumptions C41_poisson_diag_2d.

Theorem C41_adj_diag_2d : forall (S : Scalar), field_laws S -> forall i0 j0 i1 j1 pi0 pj0 pi1 pj1 dir side btype exOrder dx beta b0 b1 sgcw st (m : mem S),
  side = 0 \/ side = 1 -> pi0 <= pi1 + 1 -> pj0 <= pj1 + 1 -> dx dir <> lit 0 ->
  cd_stencil_2d_adj_diag i0 j0 i1 j1 pi0 pj0 pi1 pj1 dir side btype exOrder dx beta b0 b1 sgcw st m =
  adjcelldiffusiondiag2d i0 j0 i1 j1 pi0 pj0 pi1 pj1 dir side btype exOrder dx beta b0 b1 sgcw st m.
Proof. exact @cd_stencil_2d_adj_diag_eq. Qed.
Print Assumptions C41_adj_diag_2d.

Theorem C41_adj_poisson_diag_2d : forall (S : Scalar) i0 j0 i1 j1 pi0 pj0 pi1 pj1 dir side btype exOrder dx beta sgcw st (m : mem S),
  side = 0 \/ side = 1 -> pi0 <= pi1 + 1 -> pj0 <= pj1 + 1 ->
  cd_stencil_2d_adj_poisson_diag i0 j0 i1 j1 pi0 pj0 pi1 pj1 dir side btype exOrder dx beta sgcw st m =
  adjcellpoissondiag2d i0 j0 i1 j1 pi0 pj0 pi1 pj1 dir side btype exOrder dx beta sgcw st m.
Proof. exact @cd_stencil_2d_adj_poisson_diag_eq. Qed.
Print Assumptions C41_adj_poisson_diag_2d.

Theorem C41_adj_cf_diag_2d : forall (S : Scalar), field_laws S -> forall i0 j0 i1 j1 pi0 pj0 pi1 pj1 r dir side intOrder dx beta b0 b1 sgcw st (m : mem S),
  side = 0 \/ side = 1 -> pi0 <= pi1 + 1 -> pj0 <= pj1 + 1 -> dx dir <> lit 0 ->
  cd_stencil_2d_adj_cf_diag i0 j0 i1 j1 pi0 pj0 pi1 pj1 r dir side intOrder dx beta b0 b1 sgcw st m =
  adjcelldiffusioncfdiag2d i0 j0 i1 j1 pi0 pj0 pi1 pj1 r dir side intOrder dx beta b0 b1 sgcw st m.
Proof. exact @cd_stencil_2d_adj_cf_diag_eq. Qed.
Print Assumptions C41_adj_cf_diag_2d.

Theorem C41_adj_poisson_cf_diag_2d : forall (S : Scalar), field_laws S -> forall i0 j0 i1 j1 pi0 pj0 pi1 pj1 r dir side intOrder dx beta sgcw st (m : mem S),
  side = 0 \/ side = 1 -> pi0 <= pi1 + 1 -> pj0 <= pj1 + 1 -> dx dir <> lit 0 ->
  cd_stencil_2d_adj_poisson_cf_diag i0 j0 i1 j1 pi0 pj0 pi1 pj1 r dir side intOrder dx beta sgcw st m =
  adjcellpoissoncfdiag2d i0 j0 i1 j1 pi0 pj0 pi1 pj1 r dir side intOrder dx beta sgcw st m.
Proof. exact @cd_stencil_2d_adj_poisson_cf_diag_eq. Qed.
Print Assumptions C41_adj_poisson_cf_diag_2d.

Theorem C41_adj_offdiag_2d : forall (S : Scalar), field_laws S -> forall i0 j0 i1 j1 pi0 pj0 pi1 pj1 dir side btype exOrder dx dirf neuf beta b0 b1 sgcw st (m : mem S),
  side = 0 \/ side = 1 -> pi0 <= pi1 + 1 -> pj0 <= pj1 + 1 -> apart st [b0; b1] ->
  cd_stencil_2d_adj_offdiag i0 j0 i1 j1 pi0 pj0 pi1 pj1 dir side btype exOrder dx dirf neuf beta b0 b1 sgcw st m =
  adjcelldiffusionoffdiag2d i0 j0 i1 j1 pi0 pj0 pi1 pj1 dir side btype exOrder dx dirf neuf beta b0 b1 sgcw st m.
Proof. exact @cd_stencil_2d_adj_offdiag_eq. Qed.
Print Assumptions C41_adj_offdiag_2d.

Theorem C41_adj_poisson_offdiag_2d : forall (S : Scalar), field_laws S -> forall i0 j0 i1 j1 pi0 pj0 pi1 pj1 dir side btype exOrder dx dirf neuf beta sgcw st (m : mem S),
  side = 0 \/ side = 1 -> pi0 <= pi1 + 1 -> pj0 <= pj1 + 1 ->
  cd_stencil_2d_adj_poisson_offdiag i0 j0 i1 j1 pi0 pj0 pi1 pj1 dir side btype exOrder dx dirf neuf beta sgcw st m =
  adjcellpoissonoffdiag2d i0 j0 i1 j1 pi0 pj0 pi1 pj1 dir side btype exOrder dx dirf neuf beta sgcw st m.
Proof. exact @cd_stencil_2d_adj_poisson_offdiag_eq. Qed.
Print Assumptions C41_adj_poisson_offdiag_2d.

Theorem C41_adj_cf_offdiag_2d : forall (S : Scalar), field_laws S -> forall i0 j0 i1 j1 ci0 cj0 ci1 cj1 r dir side intOrder sgcw st (m : mem S),
  side = 0 \/ side = 1 -> ci0 <= ci1 + 1 -> cj0 <= cj1 + 1 ->
  cd_stencil_2d_adj_cf_offdiag i0 j0 i1 j1 ci0 cj0 ci1 cj1 r dir side intOrder sgcw st m =
  adjcelldiffusioncfoffdiag2d i0 j0 i1 j1 ci0 cj0 ci1 cj1 r dir side intOrder sgcw st m.
Proof. exact @cd_stencil_2d_adj_cf_offdiag_eq. Qed.
Print Assumptions C41_adj_cf_offdiag_2d.

Theorem C41_readj_offdiag_2d : forall (S : Scalar) i0 j0 i1 j1 pi0 pj0 pi1 pj1 dir side sgcw st (m : mem S),
  side = 0 \/ side = 1 -> pi0 <= pi1 + 1 -> pj0 <= pj1 + 1 ->
  cd_stencil_2d_readj_offdiag i0 j0 i1 j1 pi0 pj0 pi1 pj1 dir side sgcw st m =
  readjcelldiffusionoffdiag2d i0 j0 i1 j1 pi0 pj0 pi1 pj1 dir side sgcw st m.
Proof. exact @cd_stencil_2d_readj_offdiag_eq. Qed.
Print Assumptions C41_readj_offdiag_2d.

Theorem C41_adj_cf_bdryrhs_2d : forall (S : Scalar), field_laws S -> forall i0 j0 i1 j1 pi0 pj0 pi1 pj1 dir side sgcw st gcw u rhs (m : mem S),
  side = 0 \/ side = 1 -> pi0 <= pi1 + 1 -> pj0 <= pj1 + 1 ->
  cd_stencil_2d_adj_cf_bdryrhs i0 j0 i1 j1 pi0 pj0 pi1 pj1 dir side sgcw st gcw u rhs m =
  adjcelldiffusioncfbdryrhs2d i0 j0 i1 j1 pi0 pj0 pi1 pj1 dir side sgcw st gcw u rhs m.
Proof. exact @cd_stencil_2d_adj_cf_bdryrhs_eq. Qed.
Print Assumptions C41_adj_cf_bdryrhs_2d.

Theorem C41_offdiag_3d : forall (S : Scalar), field_laws S -> forall i0 j0 k0 i1 j1 k1 bi0 bj0 bk0 bi1 bj1 bk1 dx beta b0 b1 b2 sgcw st (m : mem S),
  i0 <= i1 + 1 -> j0 <= j1 + 1 -> k0 <= k1 + 1 -> apart st [b0; b1; b2] ->
  cd_stencil_3d_offdiag i0 j0 k0 i1 j1 k1 bi0 bj0 bk0 bi1 bj1 bk1 dx beta b0 b1 b2 sgcw st m =
  celldiffusionoffdiag3d i0 j0 k0 i1 j1 k1 bi0 bj0 bk0 bi1 bj1 bk1 dx beta b0 b1 b2 sgcw st m.
Proof. exact @cd_stencil_3d_offdiag_eq. Qed.
Print Assumptions C41_offdiag_3d.

Theorem C41_poisson_offdiag_3d : forall (S : Scalar), field_laws S -> forall i0 j0 k0 i1 j1 k1 dx beta sgcw st (m : mem S),
  i0 <= i1 + 1 -> j0 <= j1 + 1 -> k0 <= k1 + 1 ->
  cd_stencil_3d_poisson_offdiag i0 j0 k0 i1 j1 k1 dx beta sgcw st m =
  cellpoissonoffdiag3d i0 j0 k0 i1 j1 k1 dx beta sgcw st m.
Proof. exact @cd_stencil_3d_poisson_offdiag_eq. Qed.
Print Assumptions C41_poisson_offdiag_3d.

Theorem C41_v1diag_3d : forall (S : Scalar), field_laws S -> forall i0 j0 k0 i1 j1 k1 ai0 aj0 ak0 ai1 aj1 ak1 alpha a sgcw st (m : mem S),
  i0 <= i1 + 1 -> j0 <= j1 + 1 -> k0 <= k1 + 1 ->
  cd_stencil_3d_v1diag i0 j0 k0 i1 j1 k1 ai0 aj0 ak0 ai1 aj1 ak1 alpha a sgcw st m =
  celldiffusionv1diag3d i0 j0 k0 i1 j1 k1 ai0 aj0 ak0 ai1 aj1 ak1 alpha a sgcw st m.
Proof. exact @cd_stencil_3d_v1diag_eq. Qed.
Print Assumptions C41_v1diag_3d.

Theorem C41_v2diag_3d : forall (S : Scalar), field_laws S -> forall i0 j0 k0 i1 j1 k1 alpha sgcw st (m : mem S),
  i0 <= i1 + 1 -> j0 <= j1 + 1 -> k0 <= k1 + 1 ->
  cd_stencil_3d_v2diag i0 j0 k0 i1 j1 k1 alpha sgcw st m =
  celldiffusionv2diag3d i0 j0 k0 i1 j1 k1 alpha sgcw st m.
Proof. exact @cd_stencil_3d_v2diag_eq. Qed.
Print Assumptions C41_v2diag_3d.

Theorem C41_poisson_diag_3d : forall (S : Scalar), field_laws S -> forall i0 j0 k0 i1 j1 k1 sgcw st (m : mem S),
  i0 <= i1 + 1 -> j0 <= j1 + 1 -> k0 <= k1 + 1 ->
  cd_stencil_3d_poisson_diag i0 j0 k0 i1 j1 k1 sgcw st m =
  cellpoissondiag3d i0 j0 k0 i1 j1 k1 sgcw st m.
Proof. exact @cd_stencil_3d_poisson_diag_eq. Qed.
Print Assumptions C41_poisson_diag_3d.

Theorem C41_adj_diag_3d : forall (S : Scalar), field_laws S -> forall i0 j0 k0 i1 j1 k1 pi0 pj0 pk0 pi1 pj1 pk1 dir side btype exOrder dx beta b0 b1 b2 sgcw st (m : mem S),
  side = 0 \/ side = 1 -> pi0 <= pi1 + 1 -> pj0 <= pj1 + 1 -> pk0 <= pk1 + 1 -> dx dir <> lit 0 ->
  cd_stencil_3d_adj_diag i0 j0 k0 i1 j1 k1 pi0 pj0 pk0 pi1 pj1 pk1 dir side btype exOrder dx beta b0 b1 b2 sgcw st m =
  adjcelldiffusiondiag3d i0 j0 k0 i1 j1 k1 pi0 pj0 pk0 pi1 pj1 pk1 dir side btype exOrder dx beta b0 b1 b2 sgcw st m.
Proof. exact @cd_stencil_3d_adj_diag_eq. Qed.
Print Assumptions C41_adj_diag_3d.

Theorem C41_adj_poisson_diag_3d : forall (S : Scalar), field_laws S -> forall i0 j0 k0 i1 j1 k1 pi0 pj0 pk0 pi1 pj1 pk1 dir side btype exOrder dx beta sgcw st (m : mem S),
  side = 0 \/ side = 1 -> pi0 <= pi1 + 1 -> pj0 <= pj1 + 1 -> pk0 <= pk1 + 1 -> dx dir <> lit 0 ->
  cd_stencil_3d_adj_poisson_diag i0 j0 k0 i1 j1 k1 pi0 pj0 pk0 pi1 pj1 pk1 dir side btype exOrder dx beta sgcw st m =
  adjcellpoissondiag3d i0 j0 k0 i1 j1 k1 pi0 pj0 pk0 pi1 pj1 pk1 dir side btype exOrder dx beta sgcw st m.
Proof. exact @cd_stencil_3d_adj_poisson_diag_eq. Qed.
Print Assumptions C41_adj_poisson_diag_3d.

Theorem C41_adj_cf_diag_3d : forall (S : Scalar), field_laws S -> forall i0 j0 k0 i1 j1 k1 pi0 pj0 pk0 pi1 pj1 pk1 r dir side intOrder dx beta b0 b1 b2 sgcw st (m : mem S),
  side = 0 \/ side = 1 -> pi0 <= pi1 + 1 -> pj0 <= pj1 + 1 -> pk0 <= pk1 + 1 -> dx dir <> lit 0 ->
  cd_stencil_3d_adj_cf_diag i0 j0 k0 i1 j1 k1 pi0 pj0 pk0 pi1 pj1 pk1 r dir side intOrder dx beta b0 b1 b2 sgcw st m =
  adjcelldiffusioncfdiag3d i0 j0 k0 i1 j1 k1 pi0 pj0 pk0 pi1 pj1 pk1 r dir side intOrder dx beta b0 b1 b2 sgcw st m.
Proof. exact @cd_stencil_3d_adj_cf_diag_eq. Qed.
Print Assumptions C41_adj_cf_diag_3d.

Theorem C41_adj_poisson_cf_diag_3d : forall (S : Scalar), field_laws S -> forall i0 j0 k0 i1 j1 k1 pi0 pj0 pk0 pi1 pj1 pk1 r dir side intOrder dx beta sgcw st (m : mem S),
  side = 0 \/ side = 1 -> pi0 <= pi1 + 1 -> pj0 <= pj1 + 1 -> pk0 <= pk1 + 1 -> dx dir <> lit 0 ->
  cd_stencil_3d_adj_poisson_cf_diag i0 j0 k0 i1 j1 k1 pi0 pj0 pk0 pi1 pj1 pk1 r dir side intOrder dx beta sgcw st m =
  adjcellpoissoncfdiag3d i0 j0 k0 i1 j1 k1 pi0 pj0 pk0 pi1 pj1 pk1 r dir side intOrder dx beta sgcw st m.
Proof. exact @cd_stencil_3d_adj_poisson_cf_diag_eq. Qed.
Print Assumptions C41_adj_poisson_cf_diag_3d.

Theorem C41_adj_offdiag_3d : forall (S : Scalar), field_laws S -> forall i0 j0 k0 i1 j1 k1 pi0 pj0 pk0 pi1 pj1 pk1 dir side btype exOrder dx dirf neuf beta b0 b1 b2 sgcw st (m : mem S),
  side = 0 \/ side = 1 -> pi0 <= pi1 + 1 -> pj0 <= pj1 + 1 -> pk0 <= pk1 + 1 -> apart st [b0; b1; b2] ->
  cd_stencil_3d_adj_offdiag i0 j0 k0 i1 j1 k1 pi0 pj0 pk0 pi1 pj1 pk1 dir side btype exOrder dx dirf neuf beta b0 b1 b2 sgcw st m =
  adjcelldiffusionoffdiag3d i0 j0 k0 i1 j1 k1 pi0 pj0 pk0 pi1 pj1 pk1 dir side btype exOrder dx dirf neuf beta b0 b1 b2 sgcw st m.
Proof. exact @cd_stencil_3d_adj_offdiag_eq. Qed.
Print Assumptions C41_adj_offdiag_3d.

Theorem C41_adj_poisson_offdiag_3d : forall (S : Scalar), field_laws S -> forall i0 j0 k0 i1 j1 k1 pi0 pj0 pk0 pi1 pj1 pk1 dir side btype exOrder dx dirf neuf beta sgcw st (m : mem S),
  side = 0 \/ side = 1 -> pi0 <= pi1 + 1 -> pj0 <= pj1 + 1 -> pk0 <= pk1 + 1 ->
  cd_stencil_3d_adj_poisson_offdiag i0 j0 k0 i1 j1 k1 pi0 pj0 pk0 pi1 pj1 pk1 dir side btype exOrder dx dirf neuf beta sgcw st m =
  adjcellpoissonoffdiag3d i0 j0 k0 i1 j1 k1 pi0 pj0 pk0 pi1 pj1 pk1 dir side btype exOrder dx dirf neuf beta sgcw st m.
Proof. exact @cd_stencil_3d_adj_poisson_offdiag_eq. Qed.
Print Assumptions C41_adj_poisson_offdiag_3d.

Theorem C41_adj_cf_offdiag_3d : forall (S : Scalar), field_laws S -> forall i0 j0 k0 i1 j1 k1 ci0 cj0 ck0 ci1 cj1 ck1 r dir side intOrder sgcw st (m : mem S),
  side = 0 \/ side = 1 -> ci0 <= ci1 + 1 -> cj0 <= cj1 + 1 -> ck0 <= ck1 + 1 ->
  cd_stencil_3d_adj_cf_offdiag i0 j0 k0 i1 j1 k1 ci0 cj0 ck0 ci1 cj1 ck1 r dir side intOrder sgcw st m =
  adjcelldiffusioncfoffdiag3d i0 j0 k0 i1 j1 k1 ci0 cj0 ck0 ci1 cj1 ck1 r dir side intOrder sgcw st m.
Proof. exact @cd_stencil_3d_adj_cf_offdiag_eq. Qed.
Print Assumptions C41_adj_cf_offdiag_3d.

Theorem C41_readj_offdiag_3d : forall (S : Scalar) i0 j0 k0 i1 j1 k1 pi0 pj0 pk0 pi1 pj1 pk1 dir side sgcw st (m : mem S),
  side = 0 \/ side = 1 -> pi0 <= pi1 + 1 -> pj0 <= pj1 + 1 -> pk0 <= pk1 + 1 ->
  cd_stencil_3d_readj_offdiag i0 j0 k0 i1 j1 k1 pi0 pj0 pk0 pi1 pj1 pk1 dir side sgcw st m =
  readjcelldiffusionoffdiag3d i0 j0 k0 i1 j1 k1 pi0 pj0 pk0 pi1 pj1 pk1 dir side sgcw st m.
Proof. exact @cd_stencil_3d_readj_offdiag_eq. Qed.
Print Assumptions C41_readj_offdiag_3d.

Theorem C41_adj_cf_bdryrhs_3d : forall (S : Scalar), field_laws S -> forall i0 j0 k0 i1 j1 k1 pi0 pj0 pk0 pi1 pj1 pk1 dir side sgcw st gcw u rhs (m : mem S),
  side = 0 \/ side = 1 -> pi0 <= pi1 + 1 -> pj0 <= pj1 + 1 -> pk0 <= pk1 + 1 ->
  cd_stencil_3d_adj_cf_bdryrhs i0 j0 k0 i1 j1 k1 pi0 pj0 pk0 pi1 pj1 pk1 dir side sgcw st gcw u rhs m =
  adjcelldiffusioncfbdryrhs3d i0 j0 k0 i1 j1 k1 pi0 pj0 pk0 pi1 pj1 pk1 dir side sgcw st gcw u rhs m.
Proof. exact @cd_stencil_3d_adj_cf_bdryrhs_eq. Qed.
Print Assumptions C41_adj_cf_bdryrhs_3d.

(** Memory with ten allocations of [n] cells, cell [k] of allocation [a] holding
    k*k + 3*a*k + 1, and entries (cell, column) of a stencil array afterwards. *)
Definition ex_st_cells (n : nat) : mem QcS :=
  mkMem (map (fun a => map (fun k => (lit (Z.of_nat (k * k + 3 * a * k + 1)) : QcS)) (seq 0 n)) (seq 0 10)) [].
Definition ex_st_h : Z -> QcS := fun d => lit (2 + d).
Definition ex_st_val (r : option (mem QcS)) (a : farray) (ix : list (list Z)) : list (option Q) :=
  map (fun i => m <- r ;; x <- load m (faddr a i) ;; Some (this x)) ix.
Definition ex_st1 : farray := mkFa (9%nat, 0) [(0, 2); (0, 2)].
Definition ex_st2 : farray := mkFa (9%nat, 0) [(0, 4); (0, 1); (0, 1)].
Definition ex_st3 : farray := mkFa (9%nat, 0) [(0, 6); (0, 1); (0, 1); (0, 1)].

(** Off-diagonal entries in 1D and 2D, a Dirichlet correction of order 2 on the low
    side in 2D and the high side in 3D, a coarse-fine correction of order 1. The
    columns not listed in the correction keep their value. *)
Example C41_example :
  field_laws QcS /\ apart (9%nat, 0) [(0%nat, 0); (1%nat, 0); (2%nat, 0)] /\ ex_st_h 2 <> lit 0 /\
  ex_st_val (cd_stencil_1d_offdiag 0 2 0 2 ex_st_h (lit 3) (0%nat, 0) 0 (9%nat, 0) (ex_st_cells 20)) ex_st1
    [[1; 1]; [2; 2]; [0; 1]] = [Some (Qmake (-3) 2); Some (Qmake (-15) 2); Some 91%Q] /\
  ex_st_val (cd_stencil_2d_offdiag 0 0 1 1 0 0 1 1 ex_st_h (lit 3) (0%nat, 0) (1%nat, 0) 0 (9%nat, 0) (ex_st_cells 30)) ex_st2
    [[1; 1; 1]; [2; 1; 1]; [3; 1; 0]; [4; 0; 1]; [0; 1; 1]]
    = [Some (Qmake (-51) 4); Some (Qmake (-39) 2); Some (Qmake (-19) 3); Some (Qmake (-11) 3); Some 631%Q] /\
  ex_st_val (cd_stencil_2d_adj_offdiag 0 0 1 1 (-1) 0 (-1) 1 0 0 0 2 ex_st_h (lit 0) (lit 1) (lit 3)
      (0%nat, 0) (1%nat, 0) 0 (9%nat, 0) (ex_st_cells 30)) ex_st2
    [[1; 0; 1]; [2; 0; 1]; [3; 0; 0]; [4; 0; 1]; [0; 0; 1]]
    = [Some (Qmake 3352 3); Some (Qmake 1826 3); Some 91%Q; Some 575%Q; Some 371%Q] /\
  ex_st_val (cd_stencil_2d_adj_cf_offdiag 0 0 1 1 (-1) 0 (-1) 1 2 0 0 1 0 (9%nat, 0) (ex_st_cells 30)) ex_st2
    [[1; 0; 1]; [2; 0; 1]; [3; 0; 0]; [4; 0; 1]; [0; 0; 1]]
    = [Some (Qmake 838 3); Some 469%Q; Some 91%Q; Some 575%Q; Some 371%Q] /\
  ex_st_val (cd_stencil_3d_adj_offdiag 0 0 0 1 1 1 0 2 0 1 2 1 1 1 0 2 ex_st_h (lit 0) (lit 1) (lit 3)
      (0%nat, 0) (1%nat, 0) (2%nat, 0) 0 (9%nat, 0) (ex_st_cells 60)) ex_st3
    [[1; 0; 1; 0]; [2; 0; 1; 1]; [3; 0; 1; 0]; [4; 0; 1; 1]; [0; 0; 1; 1]]
    = [Some 631%Q; Some 3125%Q; Some (Qmake 3058 3); Some (Qmake 26872 3); Some 2899%Q] /\
  ex_st_val (cd_stencil_3d_adj_cf_diag 0 0 0 1 1 1 0 0 2 1 1 2 2 2 1 1 ex_st_h (lit 3)
      (0%nat, 0) (1%nat, 0) (2%nat, 0) 0 (9%nat, 0) (ex_st_cells 60)) ex_st3
    [[1; 0; 1; 1]; [0; 0; 1; 1]] = [Some 3011%Q; Some (Qmake 46271 16)].
Proof.
  split; [exact QcS_laws|]. split; [repeat constructor; discriminate|].
  split; [intro C; apply (f_equal this) in C; vm_compute in C; discriminate C|].
  repeat split; vm_compute; reflexivity.
Qed.
