(** * KernelsStencil: uniform (generated by tools/gen_uniform.py) *)

From Verif Require Import Base ModelBounds ModelIters ModelSpan ModelProxy SpecRel LemRel.
From Verif Require Import FortranBase FortranLoops LemRelF LemRelTac KernelsStencil.
Import ListNotations.
Open Scope Z_scope.

Lemma cd_stencil_1d_offdiag_uniform (i0 i1 bi0 bi1 : Z) (b0 : ptr) (sgcw : Z) (st : ptr) :
  uniform (fun S p => @cd_stencil_1d_offdiag S i0 i1 bi0 bi1 p (p 4) b0 sgcw st).
Proof. u_kernel. unfold cd_stencil_1d_offdiag. u_go. Qed.

Lemma cd_stencil_1d_poisson_offdiag_uniform (i0 i1 sgcw : Z) (st : ptr) :
  uniform (fun S p => @cd_stencil_1d_poisson_offdiag S i0 i1 p (p 4) sgcw st).
Proof. u_kernel. unfold cd_stencil_1d_poisson_offdiag. u_go. Qed.

Lemma cd_stencil_1d_v1diag_uniform (i0 i1 ai0 ai1 : Z) (a : ptr) (sgcw : Z) (st : ptr) :
  uniform (fun S p => @cd_stencil_1d_v1diag S i0 i1 ai0 ai1 (p 3) a sgcw st).
Proof. u_kernel. unfold cd_stencil_1d_v1diag. u_go. Qed.

Lemma cd_stencil_1d_v2diag_uniform (i0 i1 sgcw : Z) (st : ptr) :
  uniform (fun S p => @cd_stencil_1d_v2diag S i0 i1 (p 3) sgcw st).
Proof. u_kernel. unfold cd_stencil_1d_v2diag. u_go. Qed.

Lemma cd_stencil_1d_poisson_diag_uniform (i0 i1 sgcw : Z) (st : ptr) :
  uniform (fun S p => @cd_stencil_1d_poisson_diag S i0 i1 sgcw st).
Proof. u_kernel. unfold cd_stencil_1d_poisson_diag. u_go. Qed.

Lemma cd_stencil_1d_adj_diag_uniform (i0 i1 pi0 pi1 side btype exOrder : Z) (b0 : ptr) (sgcw : Z) (st : ptr) :
  uniform (fun S p => @cd_stencil_1d_adj_diag S i0 i1 pi0 pi1 side btype exOrder p (p 4) b0 sgcw st).
Proof. u_kernel. unfold cd_stencil_1d_adj_diag. u_go. Qed.

Lemma cd_stencil_1d_adj_poisson_diag_uniform (i0 i1 pi0 pi1 side btype exOrder sgcw : Z) (st : ptr) :
  uniform (fun S p => @cd_stencil_1d_adj_poisson_diag S i0 i1 pi0 pi1 side btype exOrder p (p 4) sgcw st).
Proof. u_kernel. unfold cd_stencil_1d_adj_poisson_diag. u_go. Qed.

Lemma cd_stencil_1d_adj_cf_diag_uniform (i0 i1 pi0 pi1 r side intOrder : Z) (b0 : ptr) (sgcw : Z) (st : ptr) :
  uniform (fun S p => @cd_stencil_1d_adj_cf_diag S i0 i1 pi0 pi1 r side intOrder p (p 4) b0 sgcw st).
Proof. u_kernel. unfold cd_stencil_1d_adj_cf_diag. u_go. Qed.

Lemma cd_stencil_1d_adj_poisson_cf_diag_uniform (i0 i1 pi0 pi1 r side intOrder sgcw : Z) (st : ptr) :
  uniform (fun S p => @cd_stencil_1d_adj_poisson_cf_diag S i0 i1 pi0 pi1 r side intOrder p (p 4) sgcw st).
Proof. u_kernel. unfold cd_stencil_1d_adj_poisson_cf_diag. u_go. Qed.

Lemma cd_stencil_1d_adj_offdiag_uniform (i0 i1 pi0 pi1 side btype exOrder : Z) (b0 : ptr) (sgcw : Z) (st : ptr) :
  uniform (fun S p => @cd_stencil_1d_adj_offdiag S i0 i1 pi0 pi1 side btype exOrder p (p 5) (p 6) (p 4) b0 sgcw st).
Proof. u_kernel. unfold cd_stencil_1d_adj_offdiag. u_go. Qed.

Lemma cd_stencil_1d_adj_poisson_offdiag_uniform (i0 i1 pi0 pi1 side btype exOrder sgcw : Z) (st : ptr) :
  uniform (fun S p => @cd_stencil_1d_adj_poisson_offdiag S i0 i1 pi0 pi1 side btype exOrder p (p 5) (p 6) (p 4) sgcw st).
Proof. u_kernel. unfold cd_stencil_1d_adj_poisson_offdiag. u_go. Qed.

Lemma cd_stencil_1d_adj_cf_offdiag_uniform (i0 i1 ci0 ci1 r side intOrder sgcw : Z) (st : ptr) :
  uniform (fun S p => @cd_stencil_1d_adj_cf_offdiag S i0 i1 ci0 ci1 r side intOrder sgcw st).
Proof. u_kernel. unfold cd_stencil_1d_adj_cf_offdiag. u_go. Qed.

Lemma cd_stencil_1d_readj_offdiag_uniform (i0 i1 pi0 pi1 side sgcw : Z) (st : ptr) :
  uniform (fun S p => @cd_stencil_1d_readj_offdiag S i0 i1 pi0 pi1 side sgcw st).
Proof. u_kernel. unfold cd_stencil_1d_readj_offdiag. u_go. Qed.

Lemma cd_stencil_1d_adj_cf_bdryrhs_uniform (i0 i1 pi0 pi1 side sgcw : Z) (st : ptr) (gcw : Z) (u rhs : ptr) :
  uniform (fun S p => @cd_stencil_1d_adj_cf_bdryrhs S i0 i1 pi0 pi1 side sgcw st gcw u rhs).
Proof. u_kernel. unfold cd_stencil_1d_adj_cf_bdryrhs. u_go. Qed.

Lemma cd_stencil_2d_offdiag_uniform (i0 j0 i1 j1 bi0 bj0 bi1 bj1 : Z) (b0 b1 : ptr) (sgcw : Z) (st : ptr) :
  uniform (fun S p => @cd_stencil_2d_offdiag S i0 j0 i1 j1 bi0 bj0 bi1 bj1 p (p 4) b0 b1 sgcw st).
Proof. u_kernel. unfold cd_stencil_2d_offdiag. u_go. Qed.

Lemma cd_stencil_2d_poisson_offdiag_uniform (i0 j0 i1 j1 sgcw : Z) (st : ptr) :
  uniform (fun S p => @cd_stencil_2d_poisson_offdiag S i0 j0 i1 j1 p (p 4) sgcw st).
Proof. u_kernel. unfold cd_stencil_2d_poisson_offdiag. u_go. Qed.

Lemma cd_stencil_2d_v1diag_uniform (i0 j0 i1 j1 ai0 aj0 ai1 aj1 : Z) (a : ptr) (sgcw : Z) (st : ptr) :
  uniform (fun S p => @cd_stencil_2d_v1diag S i0 j0 i1 j1 ai0 aj0 ai1 aj1 (p 3) a sgcw st).
Proof. u_kernel. unfold cd_stencil_2d_v1diag. u_go. Qed.

Lemma cd_stencil_2d_v2diag_uniform (i0 j0 i1 j1 sgcw : Z) (st : ptr) :
  uniform (fun S p => @cd_stencil_2d_v2diag S i0 j0 i1 j1 (p 3) sgcw st).
Proof. u_kernel. unfold cd_stencil_2d_v2diag. u_go. Qed.

Lemma cd_stencil_2d_poisson_diag_uniform (i0 j0 i1 j1 sgcw : Z) (st : ptr) :
  uniform (fun S p => @cd_stencil_2d_poisson_diag S i0 j0 i1 j1 sgcw st).
Proof. u_kernel. unfold cd_stencil_2d_poisson_diag. u_go. Qed.

Lemma cd_stencil_2d_adj_diag_uniform (i0 j0 i1 j1 pi0 pj0 pi1 pj1 dir side btype exOrder : Z) (b0 b1 : ptr) (sgcw : Z) (st : ptr) :
  uniform (fun S p => @cd_stencil_2d_adj_diag S i0 j0 i1 j1 pi0 pj0 pi1 pj1 dir side btype exOrder p (p 4) b0 b1 sgcw st).
Proof. u_kernel. unfold cd_stencil_2d_adj_diag. u_go. Qed.

Lemma cd_stencil_2d_adj_poisson_diag_uniform (i0 j0 i1 j1 pi0 pj0 pi1 pj1 dir side btype exOrder sgcw : Z) (st : ptr) :
  uniform (fun S p => @cd_stencil_2d_adj_poisson_diag S i0 j0 i1 j1 pi0 pj0 pi1 pj1 dir side btype exOrder p (p 4) sgcw st).
Proof. u_kernel. unfold cd_stencil_2d_adj_poisson_diag. u_go. Qed.

Lemma cd_stencil_2d_adj_cf_diag_uniform (i0 j0 i1 j1 pi0 pj0 pi1 pj1 r dir side intOrder : Z) (b0 b1 : ptr) (sgcw : Z) (st : ptr) :
  uniform (fun S p => @cd_stencil_2d_adj_cf_diag S i0 j0 i1 j1 pi0 pj0 pi1 pj1 r dir side intOrder p (p 4) b0 b1 sgcw st).
Proof. u_kernel. unfold cd_stencil_2d_adj_cf_diag. u_go. Qed.

Lemma cd_stencil_2d_adj_poisson_cf_diag_uniform (i0 j0 i1 j1 pi0 pj0 pi1 pj1 r dir side intOrder sgcw : Z) (st : ptr) :
  uniform (fun S p => @cd_stencil_2d_adj_poisson_cf_diag S i0 j0 i1 j1 pi0 pj0 pi1 pj1 r dir side intOrder p (p 4) sgcw st).
Proof. u_kernel. unfold cd_stencil_2d_adj_poisson_cf_diag. u_go. Qed.

Lemma cd_stencil_2d_adj_offdiag_uniform (i0 j0 i1 j1 pi0 pj0 pi1 pj1 dir side btype exOrder : Z) (b0 b1 : ptr) (sgcw : Z) (st : ptr) :
  uniform (fun S p => @cd_stencil_2d_adj_offdiag S i0 j0 i1 j1 pi0 pj0 pi1 pj1 dir side btype exOrder p (p 5) (p 6) (p 4) b0 b1 sgcw st).
Proof. u_kernel. unfold cd_stencil_2d_adj_offdiag. u_go. Qed.

Lemma cd_stencil_2d_adj_poisson_offdiag_uniform (i0 j0 i1 j1 pi0 pj0 pi1 pj1 dir side btype exOrder sgcw : Z) (st : ptr) :
  uniform (fun S p => @cd_stencil_2d_adj_poisson_offdiag S i0 j0 i1 j1 pi0 pj0 pi1 pj1 dir side btype exOrder p (p 5) (p 6) (p 4) sgcw st).
Proof. u_kernel. unfold cd_stencil_2d_adj_poisson_offdiag. u_go. Qed.

Lemma cd_stencil_2d_adj_cf_offdiag_uniform (i0 j0 i1 j1 ci0 cj0 ci1 cj1 r dir side intOrder sgcw : Z) (st : ptr) :
  uniform (fun S p => @cd_stencil_2d_adj_cf_offdiag S i0 j0 i1 j1 ci0 cj0 ci1 cj1 r dir side intOrder sgcw st).
Proof. u_kernel. unfold cd_stencil_2d_adj_cf_offdiag. u_go. Qed.

Lemma cd_stencil_2d_readj_offdiag_uniform (i0 j0 i1 j1 pi0 pj0 pi1 pj1 dir side sgcw : Z) (st : ptr) :
  uniform (fun S p => @cd_stencil_2d_readj_offdiag S i0 j0 i1 j1 pi0 pj0 pi1 pj1 dir side sgcw st).
Proof. u_kernel. unfold cd_stencil_2d_readj_offdiag. u_go. Qed.

Lemma cd_stencil_2d_adj_cf_bdryrhs_uniform (i0 j0 i1 j1 pi0 pj0 pi1 pj1 dir side sgcw : Z) (st : ptr) (gcw : Z) (u rhs : ptr) :
  uniform (fun S p => @cd_stencil_2d_adj_cf_bdryrhs S i0 j0 i1 j1 pi0 pj0 pi1 pj1 dir side sgcw st gcw u rhs).
Proof. u_kernel. unfold cd_stencil_2d_adj_cf_bdryrhs. u_go. Qed.

Lemma cd_stencil_3d_offdiag_uniform (i0 j0 k0 i1 j1 k1 bi0 bj0 bk0 bi1 bj1 bk1 : Z) (b0 b1 b2 : ptr) (sgcw : Z) (st : ptr) :
  uniform (fun S p => @cd_stencil_3d_offdiag S i0 j0 k0 i1 j1 k1 bi0 bj0 bk0 bi1 bj1 bk1 p (p 4) b0 b1 b2 sgcw st).
Proof. u_kernel. unfold cd_stencil_3d_offdiag. u_go. Qed.

Lemma cd_stencil_3d_poisson_offdiag_uniform (i0 j0 k0 i1 j1 k1 sgcw : Z) (st : ptr) :
  uniform (fun S p => @cd_stencil_3d_poisson_offdiag S i0 j0 k0 i1 j1 k1 p (p 4) sgcw st).
Proof. u_kernel. unfold cd_stencil_3d_poisson_offdiag. u_go. Qed.

Lemma cd_stencil_3d_v1diag_uniform (i0 j0 k0 i1 j1 k1 ai0 aj0 ak0 ai1 aj1 ak1 : Z) (a : ptr) (sgcw : Z) (st : ptr) :
  uniform (fun S p => @cd_stencil_3d_v1diag S i0 j0 k0 i1 j1 k1 ai0 aj0 ak0 ai1 aj1 ak1 (p 3) a sgcw st).
Proof. u_kernel. unfold cd_stencil_3d_v1diag. u_go. Qed.

Lemma cd_stencil_3d_v2diag_uniform (i0 j0 k0 i1 j1 k1 sgcw : Z) (st : ptr) :
  uniform (fun S p => @cd_stencil_3d_v2diag S i0 j0 k0 i1 j1 k1 (p 3) sgcw st).
Proof. u_kernel. unfold cd_stencil_3d_v2diag. u_go. Qed.

Lemma cd_stencil_3d_poisson_diag_uniform (i0 j0 k0 i1 j1 k1 sgcw : Z) (st : ptr) :
  uniform (fun S p => @cd_stencil_3d_poisson_diag S i0 j0 k0 i1 j1 k1 sgcw st).
Proof. u_kernel. unfold cd_stencil_3d_poisson_diag. u_go. Qed.

Lemma cd_stencil_3d_adj_diag_uniform (i0 j0 k0 i1 j1 k1 pi0 pj0 pk0 pi1 pj1 pk1 dir side btype exOrder : Z) (b0 b1 b2 : ptr) (sgcw : Z) (st : ptr) :
  uniform (fun S p => @cd_stencil_3d_adj_diag S i0 j0 k0 i1 j1 k1 pi0 pj0 pk0 pi1 pj1 pk1 dir side btype exOrder p (p 4) b0 b1 b2 sgcw st).
Proof. u_kernel. unfold cd_stencil_3d_adj_diag. u_go. Qed.

Lemma cd_stencil_3d_adj_poisson_diag_uniform (i0 j0 k0 i1 j1 k1 pi0 pj0 pk0 pi1 pj1 pk1 dir side btype exOrder sgcw : Z) (st : ptr) :
  uniform (fun S p => @cd_stencil_3d_adj_poisson_diag S i0 j0 k0 i1 j1 k1 pi0 pj0 pk0 pi1 pj1 pk1 dir side btype exOrder p (p 4) sgcw st).
Proof. u_kernel. unfold cd_stencil_3d_adj_poisson_diag. u_go. Qed.

Lemma cd_stencil_3d_adj_cf_diag_uniform (i0 j0 k0 i1 j1 k1 pi0 pj0 pk0 pi1 pj1 pk1 r dir side intOrder : Z) (b0 b1 b2 : ptr) (sgcw : Z) (st : ptr) :
  uniform (fun S p => @cd_stencil_3d_adj_cf_diag S i0 j0 k0 i1 j1 k1 pi0 pj0 pk0 pi1 pj1 pk1 r dir side intOrder p (p 4) b0 b1 b2 sgcw st).
Proof. u_kernel. unfold cd_stencil_3d_adj_cf_diag. u_go. Qed.

Lemma cd_stencil_3d_adj_poisson_cf_diag_uniform (i0 j0 k0 i1 j1 k1 pi0 pj0 pk0 pi1 pj1 pk1 r dir side intOrder sgcw : Z) (st : ptr) :
  uniform (fun S p => @cd_stencil_3d_adj_poisson_cf_diag S i0 j0 k0 i1 j1 k1 pi0 pj0 pk0 pi1 pj1 pk1 r dir side intOrder p (p 4) sgcw st).
Proof. u_kernel. unfold cd_stencil_3d_adj_poisson_cf_diag. u_go. Qed.

Lemma cd_stencil_3d_adj_offdiag_uniform (i0 j0 k0 i1 j1 k1 pi0 pj0 pk0 pi1 pj1 pk1 dir side btype exOrder : Z) (b0 b1 b2 : ptr) (sgcw : Z) (st : ptr) :
  uniform (fun S p => @cd_stencil_3d_adj_offdiag S i0 j0 k0 i1 j1 k1 pi0 pj0 pk0 pi1 pj1 pk1 dir side btype exOrder p (p 5) (p 6) (p 4) b0 b1 b2 sgcw st).
Proof. u_kernel. unfold cd_stencil_3d_adj_offdiag. u_go. Qed.

Lemma cd_stencil_3d_adj_poisson_offdiag_uniform (i0 j0 k0 i1 j1 k1 pi0 pj0 pk0 pi1 pj1 pk1 dir side btype exOrder sgcw : Z) (st : ptr) :
  uniform (fun S p => @cd_stencil_3d_adj_poisson_offdiag S i0 j0 k0 i1 j1 k1 pi0 pj0 pk0 pi1 pj1 pk1 dir side btype exOrder p (p 5) (p 6) (p 4) sgcw st).
Proof. u_kernel. unfold cd_stencil_3d_adj_poisson_offdiag. u_go. Qed.

Lemma cd_stencil_3d_adj_cf_offdiag_uniform (i0 j0 k0 i1 j1 k1 ci0 cj0 ck0 ci1 cj1 ck1 r dir side intOrder sgcw : Z) (st : ptr) :
  uniform (fun S p => @cd_stencil_3d_adj_cf_offdiag S i0 j0 k0 i1 j1 k1 ci0 cj0 ck0 ci1 cj1 ck1 r dir side intOrder sgcw st).
Proof. u_kernel. unfold cd_stencil_3d_adj_cf_offdiag. u_go. Qed.

Lemma cd_stencil_3d_readj_offdiag_uniform (i0 j0 k0 i1 j1 k1 pi0 pj0 pk0 pi1 pj1 pk1 dir side sgcw : Z) (st : ptr) :
  uniform (fun S p => @cd_stencil_3d_readj_offdiag S i0 j0 k0 i1 j1 k1 pi0 pj0 pk0 pi1 pj1 pk1 dir side sgcw st).
Proof. u_kernel. unfold cd_stencil_3d_readj_offdiag. u_go. Qed.

Lemma cd_stencil_3d_adj_cf_bdryrhs_uniform (i0 j0 k0 i1 j1 k1 pi0 pj0 pk0 pi1 pj1 pk1 dir side sgcw : Z) (st : ptr) (gcw : Z) (u rhs : ptr) :
  uniform (fun S p => @cd_stencil_3d_adj_cf_bdryrhs S i0 j0 k0 i1 j1 k1 pi0 pj0 pk0 pi1 pj1 pk1 dir side sgcw st gcw u rhs).
Proof. u_kernel. unfold cd_stencil_3d_adj_cf_bdryrhs. u_go. Qed.
