(** * Stencil kernels in 1D and 2D stay inside their arrays *)

From Coq Require Import Permutation.
From Verif Require Import Base ModelBounds ModelMatrix ModelIters ModelSpan ModelProxy Spec SpecIter ModelSched
  LemBase LemDomain LemExpr LemExec SpecAssign LemAssign LemProps LemProps4 SpecWindow LemWindow
  FortranBase SpecKernel SpecSafe LemKernel LemKernel2 LemBC LemStencil LemSafe KernelNotations KernelsStencil.
Import ListNotations.
Open Scope Z_scope.

Section Safe.
  Context {S : Scalar}.

  Lemma cd_stencil_1d_offdiag_safe i0 i1 bi0 bi1 dx beta b0 sgcw st (m : mem S) :
    i0 <= i1 + 1 -> 0 <= sgcw -> bi0 <= i0 -> i1 <= bi1 -> apart st [b0] ->
    room m b0 (fcount (FACE1d bi0 bi1 0)) -> room m st (fcount ((0, 2) :: CELL1d i0 i1 sgcw)) ->
    safe (cd_stencil_1d_offdiag i0 i1 bi0 bi1 dx beta b0 sgcw st) m.
  Proof. intros; k_apart; k_rooms; unfold cd_stencil_1d_offdiag; k_safe. Qed.

  Lemma cd_stencil_1d_poisson_offdiag_safe i0 i1 dx beta sgcw st (m : mem S) :
    i0 <= i1 + 1 -> 0 <= sgcw -> room m st (fcount ((0, 2) :: CELL1d i0 i1 sgcw)) ->
    safe (cd_stencil_1d_poisson_offdiag i0 i1 dx beta sgcw st) m.
  Proof. intros; k_apart; k_rooms; unfold cd_stencil_1d_poisson_offdiag; k_safe. Qed.

  Lemma cd_stencil_1d_v1diag_safe i0 i1 ai0 ai1 alpha a sgcw st (m : mem S) :
    i0 <= i1 + 1 -> 0 <= sgcw -> ai0 <= i0 -> i1 <= ai1 -> room m a (fcount (CELL1d ai0 ai1 0)) ->
    room m st (fcount ((0, 2) :: CELL1d i0 i1 sgcw)) ->
    safe (cd_stencil_1d_v1diag i0 i1 ai0 ai1 alpha a sgcw st) m.
  Proof. intros; k_apart; k_rooms; unfold cd_stencil_1d_v1diag; k_safe. Qed.

  Lemma cd_stencil_1d_v2diag_safe i0 i1 alpha sgcw st (m : mem S) :
    i0 <= i1 + 1 -> 0 <= sgcw -> room m st (fcount ((0, 2) :: CELL1d i0 i1 sgcw)) ->
    safe (cd_stencil_1d_v2diag i0 i1 alpha sgcw st) m.
  Proof. intros; k_apart; k_rooms; unfold cd_stencil_1d_v2diag; k_safe. Qed.

  Lemma cd_stencil_1d_poisson_diag_safe i0 i1 sgcw st (m : mem S) :
    i0 <= i1 + 1 -> 0 <= sgcw -> room m st (fcount ((0, 2) :: CELL1d i0 i1 sgcw)) ->
    safe (cd_stencil_1d_poisson_diag i0 i1 sgcw st) m.
  Proof. intros; k_apart; k_rooms; unfold cd_stencil_1d_poisson_diag; k_safe. Qed.

  Lemma cd_stencil_1d_adj_diag_safe i0 i1 pi0 pi1 side btype exOrder dx beta b0 sgcw st (m : mem S) :
    side = 0 \/ side = 1 -> i0 <= i1 -> at_side side i0 i1 pi0 -> 0 <= sgcw ->
    room m b0 (fcount (FACE1d i0 i1 0)) -> room m st (fcount ((0, 2) :: CELL1d i0 i1 sgcw)) ->
    safe (cd_stencil_1d_adj_diag i0 i1 pi0 pi1 side btype exOrder dx beta b0 sgcw st) m.
  Proof. intros [-> | ->]; intros; k_apart; k_rooms; unfold cd_stencil_1d_adj_diag; k_safe. Qed.

  Lemma cd_stencil_1d_adj_poisson_diag_safe i0 i1 pi0 pi1 side btype exOrder dx beta sgcw st (m : mem S) :
    side = 0 \/ side = 1 -> i0 <= i1 -> at_side side i0 i1 pi0 -> 0 <= sgcw ->
    room m st (fcount ((0, 2) :: CELL1d i0 i1 sgcw)) ->
    safe (cd_stencil_1d_adj_poisson_diag i0 i1 pi0 pi1 side btype exOrder dx beta sgcw st) m.
  Proof. intros [-> | ->]; intros; k_apart; k_rooms; unfold cd_stencil_1d_adj_poisson_diag; k_safe. Qed.

  Lemma cd_stencil_1d_adj_cf_diag_safe i0 i1 pi0 pi1 r side intOrder dx beta b0 sgcw st (m : mem S) :
    side = 0 \/ side = 1 -> i0 <= i1 -> at_side side i0 i1 pi0 -> 0 <= sgcw ->
    room m b0 (fcount (FACE1d i0 i1 0)) -> room m st (fcount ((0, 2) :: CELL1d i0 i1 sgcw)) ->
    safe (cd_stencil_1d_adj_cf_diag i0 i1 pi0 pi1 r side intOrder dx beta b0 sgcw st) m.
  Proof. intros [-> | ->]; intros; k_apart; k_rooms; unfold cd_stencil_1d_adj_cf_diag; k_safe. Qed.

  Lemma cd_stencil_1d_adj_poisson_cf_diag_safe i0 i1 pi0 pi1 r side intOrder dx beta sgcw st (m : mem S) :
    side = 0 \/ side = 1 -> i0 <= i1 -> at_side side i0 i1 pi0 -> 0 <= sgcw ->
    room m st (fcount ((0, 2) :: CELL1d i0 i1 sgcw)) ->
    safe (cd_stencil_1d_adj_poisson_cf_diag i0 i1 pi0 pi1 r side intOrder dx beta sgcw st) m.
  Proof. intros [-> | ->]; intros; k_apart; k_rooms; unfold cd_stencil_1d_adj_poisson_cf_diag; k_safe. Qed.

  Lemma cd_stencil_1d_adj_offdiag_safe i0 i1 pi0 pi1 side btype exOrder dx dirf neuf beta b0 sgcw st (m : mem S) :
    side = 0 \/ side = 1 -> i0 <= i1 -> at_side side i0 i1 pi0 -> 0 <= sgcw -> apart st [b0] ->
    room m b0 (fcount (FACE1d i0 i1 0)) -> room m st (fcount ((0, 2) :: CELL1d i0 i1 sgcw)) ->
    safe (cd_stencil_1d_adj_offdiag i0 i1 pi0 pi1 side btype exOrder dx dirf neuf beta b0 sgcw st) m.
  Proof. intros [-> | ->]; intros; k_apart; k_rooms; unfold cd_stencil_1d_adj_offdiag; k_safe. Qed.

  Lemma cd_stencil_1d_adj_poisson_offdiag_safe i0 i1 pi0 pi1 side btype exOrder dx dirf neuf beta sgcw st (m : mem S) :
    side = 0 \/ side = 1 -> i0 <= i1 -> at_side side i0 i1 pi0 -> 0 <= sgcw ->
    room m st (fcount ((0, 2) :: CELL1d i0 i1 sgcw)) ->
    safe (cd_stencil_1d_adj_poisson_offdiag i0 i1 pi0 pi1 side btype exOrder dx dirf neuf beta sgcw st) m.
  Proof. intros [-> | ->]; intros; k_apart; k_rooms; unfold cd_stencil_1d_adj_poisson_offdiag; k_safe. Qed.

  Lemma cd_stencil_1d_adj_cf_offdiag_safe i0 i1 ci0 ci1 r side intOrder sgcw st (m : mem S) :
    side = 0 \/ side = 1 -> i0 <= i1 -> at_side side i0 i1 ci0 -> 0 <= sgcw ->
    room m st (fcount ((0, 2) :: CELL1d i0 i1 sgcw)) ->
    safe (cd_stencil_1d_adj_cf_offdiag i0 i1 ci0 ci1 r side intOrder sgcw st) m.
  Proof. intros [-> | ->]; intros; k_apart; k_rooms; unfold cd_stencil_1d_adj_cf_offdiag; k_safe. Qed.

  Lemma cd_stencil_1d_readj_offdiag_safe i0 i1 pi0 pi1 side sgcw st (m : mem S) :
    side = 0 \/ side = 1 -> i0 <= i1 -> at_side side i0 i1 pi0 -> 0 <= sgcw ->
    room m st (fcount ((0, 2) :: CELL1d i0 i1 sgcw)) ->
    safe (cd_stencil_1d_readj_offdiag i0 i1 pi0 pi1 side sgcw st) m.
  Proof. intros [-> | ->]; intros; k_apart; k_rooms; unfold cd_stencil_1d_readj_offdiag; k_safe. Qed.

  Lemma cd_stencil_1d_adj_cf_bdryrhs_safe i0 i1 pi0 pi1 side sgcw st gcw u rhs (m : mem S) :
    side = 0 \/ side = 1 -> i0 <= i1 -> at_side side i0 i1 pi0 -> 0 <= sgcw -> 1 <= gcw ->
    room m st (fcount ((0, 2) :: CELL1d i0 i1 sgcw)) -> room m u (fcount (CELL1d i0 i1 gcw)) ->
    room m rhs (fcount (CELL1d i0 i1 0)) ->
    safe (cd_stencil_1d_adj_cf_bdryrhs i0 i1 pi0 pi1 side sgcw st gcw u rhs) m.
  Proof. intros [-> | ->]; intros; k_apart; k_rooms; unfold cd_stencil_1d_adj_cf_bdryrhs; k_safe. Qed.

  Lemma cd_stencil_2d_offdiag_safe i0 j0 i1 j1 bi0 bj0 bi1 bj1 dx beta b0 b1 sgcw st (m : mem S) :
    i0 <= i1 + 1 -> j0 <= j1 + 1 -> 0 <= sgcw -> bi0 <= i0 -> i1 <= bi1 -> bj0 <= j0 -> j1 <= bj1 ->
    apart st [b0; b1] -> room m b0 (fcount (FACE2d0 bi0 bj0 bi1 bj1 0)) ->
    room m b1 (fcount (FACE2d1 bi0 bj0 bi1 bj1 0)) ->
    room m st (fcount ((0, 4) :: CELL2d i0 j0 i1 j1 sgcw)) ->
    safe (cd_stencil_2d_offdiag i0 j0 i1 j1 bi0 bj0 bi1 bj1 dx beta b0 b1 sgcw st) m.
  Proof. intros; k_apart; k_rooms; unfold cd_stencil_2d_offdiag; k_safe. Qed.

  Lemma cd_stencil_2d_poisson_offdiag_safe i0 j0 i1 j1 dx beta sgcw st (m : mem S) :
    i0 <= i1 + 1 -> j0 <= j1 + 1 -> 0 <= sgcw -> room m st (fcount ((0, 4) :: CELL2d i0 j0 i1 j1 sgcw)) ->
    safe (cd_stencil_2d_poisson_offdiag i0 j0 i1 j1 dx beta sgcw st) m.
  Proof. intros; k_apart; k_rooms; unfold cd_stencil_2d_poisson_offdiag; k_safe. Qed.

  Lemma cd_stencil_2d_v1diag_safe i0 j0 i1 j1 ai0 aj0 ai1 aj1 alpha a sgcw st (m : mem S) :
    i0 <= i1 + 1 -> j0 <= j1 + 1 -> 0 <= sgcw -> ai0 <= i0 -> i1 <= ai1 -> aj0 <= j0 -> j1 <= aj1 ->
    room m a (fcount (CELL2d ai0 aj0 ai1 aj1 0)) -> room m st (fcount ((0, 4) :: CELL2d i0 j0 i1 j1 sgcw)) ->
    safe (cd_stencil_2d_v1diag i0 j0 i1 j1 ai0 aj0 ai1 aj1 alpha a sgcw st) m.
  Proof. intros; k_apart; k_rooms; unfold cd_stencil_2d_v1diag; k_safe. Qed.

  Lemma cd_stencil_2d_v2diag_safe i0 j0 i1 j1 alpha sgcw st (m : mem S) :
    i0 <= i1 + 1 -> j0 <= j1 + 1 -> 0 <= sgcw -> room m st (fcount ((0, 4) :: CELL2d i0 j0 i1 j1 sgcw)) ->
    safe (cd_stencil_2d_v2diag i0 j0 i1 j1 alpha sgcw st) m.
  Proof. intros; k_apart; k_rooms; unfold cd_stencil_2d_v2diag; k_safe. Qed.

  Lemma cd_stencil_2d_poisson_diag_safe i0 j0 i1 j1 sgcw st (m : mem S) :
    i0 <= i1 + 1 -> j0 <= j1 + 1 -> 0 <= sgcw -> room m st (fcount ((0, 4) :: CELL2d i0 j0 i1 j1 sgcw)) ->
    safe (cd_stencil_2d_poisson_diag i0 j0 i1 j1 sgcw st) m.
  Proof. intros; k_apart; k_rooms; unfold cd_stencil_2d_poisson_diag; k_safe. Qed.

  Lemma cd_stencil_2d_adj_diag_safe i0 j0 i1 j1 pi0 pj0 pi1 pj1 dir side btype exOrder dx beta b0 b1 sgcw st (m : mem S) :
    side = 0 \/ side = 1 -> i0 <= i1 -> j0 <= j1 ->
    (dir = 0 -> at_side side i0 i1 pi0 /\ seg_within j0 j1 pj0 pj1) ->
    (dir = 1 -> at_side side j0 j1 pj0 /\ seg_within i0 i1 pi0 pi1) -> 1 <= sgcw ->
    room m b0 (fcount (FACE2d0 i0 j0 i1 j1 0)) -> room m b1 (fcount (FACE2d1 i0 j0 i1 j1 0)) ->
    room m st (fcount ((0, 4) :: CELL2d i0 j0 i1 j1 sgcw)) ->
    safe (cd_stencil_2d_adj_diag i0 j0 i1 j1 pi0 pj0 pi1 pj1 dir side btype exOrder dx beta b0 b1 sgcw st) m.
  Proof. intros [-> | ->]; intros; k_apart; k_rooms; unfold cd_stencil_2d_adj_diag; k_safe. Qed.

  Lemma cd_stencil_2d_adj_poisson_diag_safe i0 j0 i1 j1 pi0 pj0 pi1 pj1 dir side btype exOrder dx beta sgcw st (m : mem S) :
    side = 0 \/ side = 1 -> i0 <= i1 -> j0 <= j1 ->
    (dir = 0 -> at_side side i0 i1 pi0 /\ seg_within j0 j1 pj0 pj1) ->
    (dir = 1 -> at_side side j0 j1 pj0 /\ seg_within i0 i1 pi0 pi1) -> 0 <= sgcw ->
    room m st (fcount ((0, 4) :: CELL2d i0 j0 i1 j1 sgcw)) ->
    safe (cd_stencil_2d_adj_poisson_diag i0 j0 i1 j1 pi0 pj0 pi1 pj1 dir side btype exOrder dx beta sgcw st) m.
  Proof. intros [-> | ->]; intros; k_apart; k_rooms; unfold cd_stencil_2d_adj_poisson_diag; k_safe. Qed.

  Lemma cd_stencil_2d_adj_cf_diag_safe i0 j0 i1 j1 pi0 pj0 pi1 pj1 r dir side intOrder dx beta b0 b1 sgcw st (m : mem S) :
    side = 0 \/ side = 1 -> i0 <= i1 -> j0 <= j1 ->
    (dir = 0 -> at_side side i0 i1 pi0 /\ seg_within j0 j1 pj0 pj1) ->
    (dir = 1 -> at_side side j0 j1 pj0 /\ seg_within i0 i1 pi0 pi1) -> 0 <= sgcw ->
    room m b0 (fcount (FACE2d0 i0 j0 i1 j1 0)) -> room m b1 (fcount (FACE2d1 i0 j0 i1 j1 0)) ->
    room m st (fcount ((0, 4) :: CELL2d i0 j0 i1 j1 sgcw)) ->
    safe (cd_stencil_2d_adj_cf_diag i0 j0 i1 j1 pi0 pj0 pi1 pj1 r dir side intOrder dx beta b0 b1 sgcw st) m.
  Proof. intros [-> | ->]; intros; k_apart; k_rooms; unfold cd_stencil_2d_adj_cf_diag; k_safe. Qed.

  Lemma cd_stencil_2d_adj_poisson_cf_diag_safe i0 j0 i1 j1 pi0 pj0 pi1 pj1 r dir side intOrder dx beta sgcw st (m : mem S) :
    side = 0 \/ side = 1 -> i0 <= i1 -> j0 <= j1 ->
    (dir = 0 -> at_side side i0 i1 pi0 /\ seg_within j0 j1 pj0 pj1) ->
    (dir = 1 -> at_side side j0 j1 pj0 /\ seg_within i0 i1 pi0 pi1) -> 0 <= sgcw ->
    room m st (fcount ((0, 4) :: CELL2d i0 j0 i1 j1 sgcw)) ->
    safe (cd_stencil_2d_adj_poisson_cf_diag i0 j0 i1 j1 pi0 pj0 pi1 pj1 r dir side intOrder dx beta sgcw st) m.
  Proof. intros [-> | ->]; intros; k_apart; k_rooms; unfold cd_stencil_2d_adj_poisson_cf_diag; k_safe. Qed.

  Lemma cd_stencil_2d_adj_offdiag_safe i0 j0 i1 j1 pi0 pj0 pi1 pj1 dir side btype exOrder dx dirf neuf beta b0 b1 sgcw st (m : mem S) :
    side = 0 \/ side = 1 -> i0 <= i1 -> j0 <= j1 ->
    (dir = 0 -> at_side side i0 i1 pi0 /\ seg_within j0 j1 pj0 pj1) ->
    (dir = 1 -> at_side side j0 j1 pj0 /\ seg_within i0 i1 pi0 pi1) -> 0 <= sgcw -> apart st [b0; b1] ->
    room m b0 (fcount (FACE2d0 i0 j0 i1 j1 0)) -> room m b1 (fcount (FACE2d1 i0 j0 i1 j1 0)) ->
    room m st (fcount ((0, 4) :: CELL2d i0 j0 i1 j1 sgcw)) ->
    safe (cd_stencil_2d_adj_offdiag i0 j0 i1 j1 pi0 pj0 pi1 pj1 dir side btype exOrder dx dirf neuf beta b0 b1 sgcw st) m.
  Proof. intros [-> | ->]; intros; k_apart; k_rooms; unfold cd_stencil_2d_adj_offdiag; k_safe. Qed.

  Lemma cd_stencil_2d_adj_poisson_offdiag_safe i0 j0 i1 j1 pi0 pj0 pi1 pj1 dir side btype exOrder dx dirf neuf beta sgcw st (m : mem S) :
    side = 0 \/ side = 1 -> i0 <= i1 -> j0 <= j1 ->
    (dir = 0 -> at_side side i0 i1 pi0 /\ seg_within j0 j1 pj0 pj1) ->
    (dir = 1 -> at_side side j0 j1 pj0 /\ seg_within i0 i1 pi0 pi1) -> 0 <= sgcw ->
    room m st (fcount ((0, 4) :: CELL2d i0 j0 i1 j1 sgcw)) ->
    safe (cd_stencil_2d_adj_poisson_offdiag i0 j0 i1 j1 pi0 pj0 pi1 pj1 dir side btype exOrder dx dirf neuf beta sgcw st) m.
  Proof. intros [-> | ->]; intros; k_apart; k_rooms; unfold cd_stencil_2d_adj_poisson_offdiag; k_safe. Qed.

  Lemma cd_stencil_2d_adj_cf_offdiag_safe i0 j0 i1 j1 ci0 cj0 ci1 cj1 r dir side intOrder sgcw st (m : mem S) :
    side = 0 \/ side = 1 -> i0 <= i1 -> j0 <= j1 ->
    (dir = 0 -> at_side side i0 i1 ci0 /\ seg_within j0 j1 cj0 cj1) ->
    (dir = 1 -> at_side side j0 j1 cj0 /\ seg_within i0 i1 ci0 ci1) -> 0 <= sgcw ->
    room m st (fcount ((0, 4) :: CELL2d i0 j0 i1 j1 sgcw)) ->
    safe (cd_stencil_2d_adj_cf_offdiag i0 j0 i1 j1 ci0 cj0 ci1 cj1 r dir side intOrder sgcw st) m.
  Proof. intros [-> | ->]; intros; k_apart; k_rooms; unfold cd_stencil_2d_adj_cf_offdiag; k_safe. Qed.

  Lemma cd_stencil_2d_readj_offdiag_safe i0 j0 i1 j1 pi0 pj0 pi1 pj1 dir side sgcw st (m : mem S) :
    side = 0 \/ side = 1 -> i0 <= i1 -> j0 <= j1 ->
    (dir = 0 -> at_side side i0 i1 pi0 /\ seg_within j0 j1 pj0 pj1) ->
    (dir = 1 -> at_side side j0 j1 pj0 /\ seg_within i0 i1 pi0 pi1) -> 0 <= sgcw ->
    room m st (fcount ((0, 4) :: CELL2d i0 j0 i1 j1 sgcw)) ->
    safe (cd_stencil_2d_readj_offdiag i0 j0 i1 j1 pi0 pj0 pi1 pj1 dir side sgcw st) m.
  Proof. intros [-> | ->]; intros; k_apart; k_rooms; unfold cd_stencil_2d_readj_offdiag; k_safe. Qed.

  Lemma cd_stencil_2d_adj_cf_bdryrhs_safe i0 j0 i1 j1 pi0 pj0 pi1 pj1 dir side sgcw st gcw u rhs (m : mem S) :
    side = 0 \/ side = 1 -> i0 <= i1 -> j0 <= j1 ->
    (dir = 0 -> at_side side i0 i1 pi0 /\ seg_within j0 j1 pj0 pj1) ->
    (dir = 1 -> at_side side j0 j1 pj0 /\ seg_within i0 i1 pi0 pi1) -> 0 <= sgcw -> 1 <= gcw ->
    room m st (fcount ((0, 4) :: CELL2d i0 j0 i1 j1 sgcw)) -> room m u (fcount (CELL2d i0 j0 i1 j1 gcw)) ->
    room m rhs (fcount (CELL2d i0 j0 i1 j1 0)) ->
    safe (cd_stencil_2d_adj_cf_bdryrhs i0 j0 i1 j1 pi0 pj0 pi1 pj1 dir side sgcw st gcw u rhs) m.
  Proof. intros [-> | ->]; intros; k_apart; k_rooms; unfold cd_stencil_2d_adj_cf_bdryrhs; k_safe. Qed.
End Safe.
