(** * Stencil kernels in 3D with [int] index arithmetic *)

From Coq Require Import Permutation.
From Verif Require Import Base ModelBounds ModelMatrix ModelIters ModelSpan ModelProxy ModelInt ModelIntProxy Spec
  SpecWindow SpecInt FortranBase SpecKernel SpecSafe ModelPar LemKernel LemKernel2 LemBC LemStencil LemSafe
  LemIntKernel KernelNotations KernelsFlux KernelsApply KernelsBC KernelsStencil KernelsCopy KernelsBy.
Import ListNotations.
Open Scope Z_scope.

Section Int.
  Context {S : Scalar}.

  Lemma cd_stencil_3d_offdiag_int i0 j0 k0 i1 j1 k1 bi0 bj0 bk0 bi1 bj1 bk1 dx beta b0 b1 b2 sgcw st (m : mem S) :
    i0 <= i1 -> j0 <= j1 -> k0 <= k1 -> 0 <= sgcw -> bi0 <= i0 -> i1 <= bi1 -> bj0 <= j0 -> j1 <= bj1 ->
    bk0 <= k0 -> k1 <= bk1 -> int_dims (FACE3d0 bi0 bj0 bk0 bi1 bj1 bk1 0) ->
    int_dims (FACE3d1 bi0 bj0 bk0 bi1 bj1 bk1 0) -> int_dims (FACE3d2 bi0 bj0 bk0 bi1 bj1 bk1 0) ->
    int_dims ((0, 6) :: CELL3d i0 j0 k0 i1 j1 k1 sgcw) ->
    cd_stencil_3d_offdiag_by int32 i0 j0 k0 i1 j1 k1 bi0 bj0 bk0 bi1 bj1 bk1 dx beta b0 b1 b2 sgcw st m = cd_stencil_3d_offdiag i0 j0 k0 i1 j1 k1 bi0 bj0 bk0 bi1 bj1 bk1 dx beta b0 b1 b2 sgcw st m.
  Proof. intros; k_dims; unfold cd_stencil_3d_offdiag_by, cd_stencil_3d_offdiag; k_int. Qed.

  Lemma cd_stencil_3d_poisson_offdiag_int i0 j0 k0 i1 j1 k1 dx beta sgcw st (m : mem S) :
    i0 <= i1 -> j0 <= j1 -> k0 <= k1 -> 0 <= sgcw -> int_dims ((0, 6) :: CELL3d i0 j0 k0 i1 j1 k1 sgcw) ->
    cd_stencil_3d_poisson_offdiag_by int32 i0 j0 k0 i1 j1 k1 dx beta sgcw st m = cd_stencil_3d_poisson_offdiag i0 j0 k0 i1 j1 k1 dx beta sgcw st m.
  Proof. intros; k_dims; unfold cd_stencil_3d_poisson_offdiag_by, cd_stencil_3d_poisson_offdiag; k_int. Qed.

  Lemma cd_stencil_3d_v1diag_int i0 j0 k0 i1 j1 k1 ai0 aj0 ak0 ai1 aj1 ak1 alpha a sgcw st (m : mem S) :
    i0 <= i1 -> j0 <= j1 -> k0 <= k1 -> 0 <= sgcw -> ai0 <= i0 -> i1 <= ai1 -> aj0 <= j0 -> j1 <= aj1 ->
    ak0 <= k0 -> k1 <= ak1 -> int_dims (CELL3d ai0 aj0 ak0 ai1 aj1 ak1 0) ->
    int_dims ((0, 6) :: CELL3d i0 j0 k0 i1 j1 k1 sgcw) ->
    cd_stencil_3d_v1diag_by int32 i0 j0 k0 i1 j1 k1 ai0 aj0 ak0 ai1 aj1 ak1 alpha a sgcw st m = cd_stencil_3d_v1diag i0 j0 k0 i1 j1 k1 ai0 aj0 ak0 ai1 aj1 ak1 alpha a sgcw st m.
  Proof. intros; k_dims; unfold cd_stencil_3d_v1diag_by, cd_stencil_3d_v1diag; k_int. Qed.

  Lemma cd_stencil_3d_v2diag_int i0 j0 k0 i1 j1 k1 alpha sgcw st (m : mem S) :
    i0 <= i1 -> j0 <= j1 -> k0 <= k1 -> 0 <= sgcw -> int_dims ((0, 6) :: CELL3d i0 j0 k0 i1 j1 k1 sgcw) ->
    cd_stencil_3d_v2diag_by int32 i0 j0 k0 i1 j1 k1 alpha sgcw st m = cd_stencil_3d_v2diag i0 j0 k0 i1 j1 k1 alpha sgcw st m.
  Proof. intros; k_dims; unfold cd_stencil_3d_v2diag_by, cd_stencil_3d_v2diag; k_int. Qed.

  Lemma cd_stencil_3d_poisson_diag_int i0 j0 k0 i1 j1 k1 sgcw st (m : mem S) :
    i0 <= i1 -> j0 <= j1 -> k0 <= k1 -> 0 <= sgcw -> int_dims ((0, 6) :: CELL3d i0 j0 k0 i1 j1 k1 sgcw) ->
    cd_stencil_3d_poisson_diag_by int32 i0 j0 k0 i1 j1 k1 sgcw st m = cd_stencil_3d_poisson_diag i0 j0 k0 i1 j1 k1 sgcw st m.
  Proof. intros; k_dims; unfold cd_stencil_3d_poisson_diag_by, cd_stencil_3d_poisson_diag; k_int. Qed.

  Lemma cd_stencil_3d_adj_diag_int i0 j0 k0 i1 j1 k1 pi0 pj0 pk0 pi1 pj1 pk1 dir side btype exOrder dx beta b0 b1 b2 sgcw st (m : mem S) :
    side = 0 \/ side = 1 -> i0 <= i1 -> j0 <= j1 -> k0 <= k1 ->
    (dir = 0 -> at_side side i0 i1 pi0 /\ seg_inside j0 j1 pj0 pj1 /\ seg_inside k0 k1 pk0 pk1) ->
    (dir = 1 -> at_side side j0 j1 pj0 /\ seg_inside i0 i1 pi0 pi1 /\ seg_inside k0 k1 pk0 pk1) ->
    (dir = 2 -> at_side side k0 k1 pk0 /\ seg_inside i0 i1 pi0 pi1 /\ seg_inside j0 j1 pj0 pj1) -> 0 <= sgcw ->
    int_dims (FACE3d0 i0 j0 k0 i1 j1 k1 0) -> int_dims (FACE3d1 i0 j0 k0 i1 j1 k1 0) ->
    int_dims (FACE3d2 i0 j0 k0 i1 j1 k1 0) -> int_dims ((0, 6) :: CELL3d i0 j0 k0 i1 j1 k1 sgcw) ->
    cd_stencil_3d_adj_diag_by int32 i0 j0 k0 i1 j1 k1 pi0 pj0 pk0 pi1 pj1 pk1 dir side btype exOrder dx beta b0 b1 b2 sgcw st m = cd_stencil_3d_adj_diag i0 j0 k0 i1 j1 k1 pi0 pj0 pk0 pi1 pj1 pk1 dir side btype exOrder dx beta b0 b1 b2 sgcw st m.
  Proof. intros [-> | ->]; intros; k_dims; unfold cd_stencil_3d_adj_diag_by, cd_stencil_3d_adj_diag; k_int. Qed.

  Lemma cd_stencil_3d_adj_poisson_diag_int i0 j0 k0 i1 j1 k1 pi0 pj0 pk0 pi1 pj1 pk1 dir side btype exOrder dx beta sgcw st (m : mem S) :
    side = 0 \/ side = 1 -> i0 <= i1 -> j0 <= j1 -> k0 <= k1 ->
    (dir = 0 -> at_side side i0 i1 pi0 /\ seg_inside j0 j1 pj0 pj1 /\ seg_inside k0 k1 pk0 pk1) ->
    (dir = 1 -> at_side side j0 j1 pj0 /\ seg_inside i0 i1 pi0 pi1 /\ seg_inside k0 k1 pk0 pk1) ->
    (dir = 2 -> at_side side k0 k1 pk0 /\ seg_inside i0 i1 pi0 pi1 /\ seg_inside j0 j1 pj0 pj1) -> 0 <= sgcw ->
    int_dims ((0, 6) :: CELL3d i0 j0 k0 i1 j1 k1 sgcw) ->
    cd_stencil_3d_adj_poisson_diag_by int32 i0 j0 k0 i1 j1 k1 pi0 pj0 pk0 pi1 pj1 pk1 dir side btype exOrder dx beta sgcw st m = cd_stencil_3d_adj_poisson_diag i0 j0 k0 i1 j1 k1 pi0 pj0 pk0 pi1 pj1 pk1 dir side btype exOrder dx beta sgcw st m.
  Proof. intros [-> | ->]; intros; k_dims; unfold cd_stencil_3d_adj_poisson_diag_by, cd_stencil_3d_adj_poisson_diag; k_int. Qed.

  Lemma cd_stencil_3d_adj_cf_diag_int i0 j0 k0 i1 j1 k1 pi0 pj0 pk0 pi1 pj1 pk1 r dir side intOrder dx beta b0 b1 b2 sgcw st (m : mem S) :
    side = 0 \/ side = 1 -> i0 <= i1 -> j0 <= j1 -> k0 <= k1 ->
    (dir = 0 -> at_side side i0 i1 pi0 /\ seg_inside j0 j1 pj0 pj1 /\ seg_inside k0 k1 pk0 pk1) ->
    (dir = 1 -> at_side side j0 j1 pj0 /\ seg_inside i0 i1 pi0 pi1 /\ seg_inside k0 k1 pk0 pk1) ->
    (dir = 2 -> at_side side k0 k1 pk0 /\ seg_inside i0 i1 pi0 pi1 /\ seg_inside j0 j1 pj0 pj1) -> 0 <= sgcw ->
    int_dims (FACE3d0 i0 j0 k0 i1 j1 k1 0) -> int_dims (FACE3d1 i0 j0 k0 i1 j1 k1 0) ->
    int_dims (FACE3d2 i0 j0 k0 i1 j1 k1 0) -> int_dims ((0, 6) :: CELL3d i0 j0 k0 i1 j1 k1 sgcw) ->
    cd_stencil_3d_adj_cf_diag_by int32 i0 j0 k0 i1 j1 k1 pi0 pj0 pk0 pi1 pj1 pk1 r dir side intOrder dx beta b0 b1 b2 sgcw st m = cd_stencil_3d_adj_cf_diag i0 j0 k0 i1 j1 k1 pi0 pj0 pk0 pi1 pj1 pk1 r dir side intOrder dx beta b0 b1 b2 sgcw st m.
  Proof. intros [-> | ->]; intros; k_dims; unfold cd_stencil_3d_adj_cf_diag_by, cd_stencil_3d_adj_cf_diag; k_int. Qed.

  Lemma cd_stencil_3d_adj_poisson_cf_diag_int i0 j0 k0 i1 j1 k1 pi0 pj0 pk0 pi1 pj1 pk1 r dir side intOrder dx beta sgcw st (m : mem S) :
    side = 0 \/ side = 1 -> i0 <= i1 -> j0 <= j1 -> k0 <= k1 ->
    (dir = 0 -> at_side side i0 i1 pi0 /\ seg_inside j0 j1 pj0 pj1 /\ seg_inside k0 k1 pk0 pk1) ->
    (dir = 1 -> at_side side j0 j1 pj0 /\ seg_inside i0 i1 pi0 pi1 /\ seg_inside k0 k1 pk0 pk1) ->
    (dir = 2 -> at_side side k0 k1 pk0 /\ seg_inside i0 i1 pi0 pi1 /\ seg_inside j0 j1 pj0 pj1) -> 0 <= sgcw ->
    int_dims ((0, 6) :: CELL3d i0 j0 k0 i1 j1 k1 sgcw) ->
    cd_stencil_3d_adj_poisson_cf_diag_by int32 i0 j0 k0 i1 j1 k1 pi0 pj0 pk0 pi1 pj1 pk1 r dir side intOrder dx beta sgcw st m = cd_stencil_3d_adj_poisson_cf_diag i0 j0 k0 i1 j1 k1 pi0 pj0 pk0 pi1 pj1 pk1 r dir side intOrder dx beta sgcw st m.
  Proof. intros [-> | ->]; intros; k_dims; unfold cd_stencil_3d_adj_poisson_cf_diag_by, cd_stencil_3d_adj_poisson_cf_diag; k_int. Qed.

  Lemma cd_stencil_3d_adj_offdiag_int i0 j0 k0 i1 j1 k1 pi0 pj0 pk0 pi1 pj1 pk1 dir side btype exOrder dx dirf neuf beta b0 b1 b2 sgcw st (m : mem S) :
    side = 0 \/ side = 1 -> i0 <= i1 -> j0 <= j1 -> k0 <= k1 ->
    (dir = 0 -> at_side side i0 i1 pi0 /\ seg_inside j0 j1 pj0 pj1 /\ seg_inside k0 k1 pk0 pk1) ->
    (dir = 1 -> at_side side j0 j1 pj0 /\ seg_inside i0 i1 pi0 pi1 /\ seg_inside k0 k1 pk0 pk1) ->
    (dir = 2 -> at_side side k0 k1 pk0 /\ seg_inside i0 i1 pi0 pi1 /\ seg_inside j0 j1 pj0 pj1) -> 0 <= sgcw ->
    int_dims (FACE3d0 i0 j0 k0 i1 j1 k1 0) -> int_dims (FACE3d1 i0 j0 k0 i1 j1 k1 0) ->
    int_dims (FACE3d2 i0 j0 k0 i1 j1 k1 0) -> int_dims ((0, 6) :: CELL3d i0 j0 k0 i1 j1 k1 sgcw) ->
    cd_stencil_3d_adj_offdiag_by int32 i0 j0 k0 i1 j1 k1 pi0 pj0 pk0 pi1 pj1 pk1 dir side btype exOrder dx dirf neuf beta b0 b1 b2 sgcw st m = cd_stencil_3d_adj_offdiag i0 j0 k0 i1 j1 k1 pi0 pj0 pk0 pi1 pj1 pk1 dir side btype exOrder dx dirf neuf beta b0 b1 b2 sgcw st m.
  Proof. intros [-> | ->]; intros; k_dims; unfold cd_stencil_3d_adj_offdiag_by, cd_stencil_3d_adj_offdiag; k_int. Qed.

  Lemma cd_stencil_3d_adj_poisson_offdiag_int i0 j0 k0 i1 j1 k1 pi0 pj0 pk0 pi1 pj1 pk1 dir side btype exOrder dx dirf neuf beta sgcw st (m : mem S) :
    side = 0 \/ side = 1 -> i0 <= i1 -> j0 <= j1 -> k0 <= k1 ->
    (dir = 0 -> at_side side i0 i1 pi0 /\ seg_inside j0 j1 pj0 pj1 /\ seg_inside k0 k1 pk0 pk1) ->
    (dir = 1 -> at_side side j0 j1 pj0 /\ seg_inside i0 i1 pi0 pi1 /\ seg_inside k0 k1 pk0 pk1) ->
    (dir = 2 -> at_side side k0 k1 pk0 /\ seg_inside i0 i1 pi0 pi1 /\ seg_inside j0 j1 pj0 pj1) -> 0 <= sgcw ->
    int_dims ((0, 6) :: CELL3d i0 j0 k0 i1 j1 k1 sgcw) ->
    cd_stencil_3d_adj_poisson_offdiag_by int32 i0 j0 k0 i1 j1 k1 pi0 pj0 pk0 pi1 pj1 pk1 dir side btype exOrder dx dirf neuf beta sgcw st m = cd_stencil_3d_adj_poisson_offdiag i0 j0 k0 i1 j1 k1 pi0 pj0 pk0 pi1 pj1 pk1 dir side btype exOrder dx dirf neuf beta sgcw st m.
  Proof. intros [-> | ->]; intros; k_dims; unfold cd_stencil_3d_adj_poisson_offdiag_by, cd_stencil_3d_adj_poisson_offdiag; k_int. Qed.

  Lemma cd_stencil_3d_adj_cf_offdiag_int i0 j0 k0 i1 j1 k1 ci0 cj0 ck0 ci1 cj1 ck1 r dir side intOrder sgcw st (m : mem S) :
    side = 0 \/ side = 1 -> i0 <= i1 -> j0 <= j1 -> k0 <= k1 ->
    (dir = 0 -> at_side side i0 i1 ci0 /\ seg_inside j0 j1 cj0 cj1 /\ seg_inside k0 k1 ck0 ck1) ->
    (dir = 1 -> at_side side j0 j1 cj0 /\ seg_inside i0 i1 ci0 ci1 /\ seg_inside k0 k1 ck0 ck1) ->
    (dir = 2 -> at_side side k0 k1 ck0 /\ seg_inside i0 i1 ci0 ci1 /\ seg_inside j0 j1 cj0 cj1) -> 0 <= sgcw ->
    int_dims ((0, 6) :: CELL3d i0 j0 k0 i1 j1 k1 sgcw) ->
    cd_stencil_3d_adj_cf_offdiag_by int32 i0 j0 k0 i1 j1 k1 ci0 cj0 ck0 ci1 cj1 ck1 r dir side intOrder sgcw st m = cd_stencil_3d_adj_cf_offdiag i0 j0 k0 i1 j1 k1 ci0 cj0 ck0 ci1 cj1 ck1 r dir side intOrder sgcw st m.
  Proof. intros [-> | ->]; intros; k_dims; unfold cd_stencil_3d_adj_cf_offdiag_by, cd_stencil_3d_adj_cf_offdiag; k_int. Qed.

  Lemma cd_stencil_3d_readj_offdiag_int i0 j0 k0 i1 j1 k1 pi0 pj0 pk0 pi1 pj1 pk1 dir side sgcw st (m : mem S) :
    side = 0 \/ side = 1 -> i0 <= i1 -> j0 <= j1 -> k0 <= k1 ->
    (dir = 0 -> at_side side i0 i1 pi0 /\ seg_inside j0 j1 pj0 pj1 /\ seg_inside k0 k1 pk0 pk1) ->
    (dir = 1 -> at_side side j0 j1 pj0 /\ seg_inside i0 i1 pi0 pi1 /\ seg_inside k0 k1 pk0 pk1) ->
    (dir = 2 -> at_side side k0 k1 pk0 /\ seg_inside i0 i1 pi0 pi1 /\ seg_inside j0 j1 pj0 pj1) -> 0 <= sgcw ->
    int_dims ((0, 6) :: CELL3d i0 j0 k0 i1 j1 k1 sgcw) ->
    cd_stencil_3d_readj_offdiag_by int32 i0 j0 k0 i1 j1 k1 pi0 pj0 pk0 pi1 pj1 pk1 dir side sgcw st m = cd_stencil_3d_readj_offdiag i0 j0 k0 i1 j1 k1 pi0 pj0 pk0 pi1 pj1 pk1 dir side sgcw st m.
  Proof. intros [-> | ->]; intros; k_dims; unfold cd_stencil_3d_readj_offdiag_by, cd_stencil_3d_readj_offdiag; k_int. Qed.

  Lemma cd_stencil_3d_adj_cf_bdryrhs_int i0 j0 k0 i1 j1 k1 pi0 pj0 pk0 pi1 pj1 pk1 dir side sgcw st gcw u rhs (m : mem S) :
    side = 0 \/ side = 1 -> i0 <= i1 -> j0 <= j1 -> k0 <= k1 ->
    (dir = 0 -> at_side side i0 i1 pi0 /\ seg_inside j0 j1 pj0 pj1 /\ seg_inside k0 k1 pk0 pk1) ->
    (dir = 1 -> at_side side j0 j1 pj0 /\ seg_inside i0 i1 pi0 pi1 /\ seg_inside k0 k1 pk0 pk1) ->
    (dir = 2 -> at_side side k0 k1 pk0 /\ seg_inside i0 i1 pi0 pi1 /\ seg_inside j0 j1 pj0 pj1) -> 0 <= sgcw ->
    1 <= gcw -> int_dims ((0, 6) :: CELL3d i0 j0 k0 i1 j1 k1 sgcw) ->
    int_dims (CELL3d i0 j0 k0 i1 j1 k1 gcw) -> int_dims (CELL3d i0 j0 k0 i1 j1 k1 0) ->
    cd_stencil_3d_adj_cf_bdryrhs_by int32 i0 j0 k0 i1 j1 k1 pi0 pj0 pk0 pi1 pj1 pk1 dir side sgcw st gcw u rhs m = cd_stencil_3d_adj_cf_bdryrhs i0 j0 k0 i1 j1 k1 pi0 pj0 pk0 pi1 pj1 pk1 dir side sgcw st gcw u rhs m.
  Proof. intros [-> | ->]; intros; k_dims; unfold cd_stencil_3d_adj_cf_bdryrhs_by, cd_stencil_3d_adj_cf_bdryrhs; k_int. Qed.
End Int.
