(** * The calls of SpecBCOrder made on the boundary kernels

    Used in the statement of property C70: each definition only hands the fields of
    the call to a kernel of KernelsBC (src/cuda/cd_correct_bc_*_cuda.cpp). *)

From Verif Require Import Base KernelsBC SpecBCOrder.
Open Scope Z_scope.

Section Calls.
  Context {S : Scalar} (lo hi : Z -> Z).

  Definition call_set_bc_1d (dx : Z -> S) (dgcw : Z) (d0 : ptr) (ugcw : Z) (u : ptr) (c : bcall S) : mem S -> option (mem S) :=
    cd_1d_set_bc (lo 0) (hi 0) dx dgcw d0 ugcw u (c_lo c) (c_hi c) (c_order c) (c_face c) (c_btype c) (c_alpha c) (c_beta c).

  Definition call_set_poisson_bc_1d (dx : Z -> S) (ugcw : Z) (u : ptr) (c : bcall S) : mem S -> option (mem S) :=
    cd_1d_set_poisson_bc (lo 0) (hi 0) dx ugcw u (c_lo c) (c_hi c) (c_order c) (c_face c) (c_btype c) (c_alpha c) (c_beta c).

  Definition call_set_bc_2d (dx : Z -> S) (dgcw : Z) (d0 d1 : ptr) (ugcw : Z) (u : ptr) (c : bcall S) : mem S -> option (mem S) :=
    cd_2d_set_bc (lo 0) (hi 0) (lo 1) (hi 1) dx dgcw d0 d1 ugcw u (c_lo c) (c_hi c) (c_order c) (c_face c) (c_type c) (c_btype c) (c_alpha c) (c_beta c).

  Definition call_set_poisson_bc_2d (dx : Z -> S) (ugcw : Z) (u : ptr) (c : bcall S) : mem S -> option (mem S) :=
    cd_2d_set_poisson_bc (lo 0) (hi 0) (lo 1) (hi 1) dx ugcw u (c_lo c) (c_hi c) (c_order c) (c_face c) (c_type c) (c_btype c) (c_alpha c) (c_beta c).

  (** Faces by [cd_2d_set_bc], corners by [cd_2d_set_corner_bc]. *)
  Definition call_corner_bc_2d (dx : Z -> S) (dgcw : Z) (d0 d1 : ptr) (ugcw : Z) (u : ptr) (c : bcall S) : mem S -> option (mem S) :=
    if c_type c =? 2 then cd_2d_set_corner_bc (lo 0) (hi 0) (lo 1) (hi 1) ugcw dx d0 d1 u (c_lo c) (c_hi c) (c_order c) (c_face c) (c_type c) (c_btype c)
    else cd_2d_set_bc (lo 0) (hi 0) (lo 1) (hi 1) dx dgcw d0 d1 ugcw u (c_lo c) (c_hi c) (c_order c) (c_face c) (c_type c) (c_btype c) (c_alpha c) (c_beta c).

  Definition call_set_bc_3d (dx : Z -> S) (dgcw : Z) (d0 d1 d2 : ptr) (ugcw : Z) (u : ptr) (c : bcall S) : mem S -> option (mem S) :=
    cd_3d_set_bc (lo 0) (hi 0) (lo 1) (hi 1) (lo 2) (hi 2) dx dgcw d0 d1 d2 ugcw u (c_lo c) (c_hi c) (c_order c) (c_face c) (c_type c) (c_btype c) (c_alpha c) (c_beta c).

  Definition call_set_poisson_bc_3d (dx : Z -> S) (ugcw : Z) (u : ptr) (c : bcall S) : mem S -> option (mem S) :=
    cd_3d_set_poisson_bc (lo 0) (hi 0) (lo 1) (hi 1) (lo 2) (hi 2) dx ugcw u (c_lo c) (c_hi c) (c_order c) (c_face c) (c_type c) (c_btype c) (c_alpha c) (c_beta c).
End Calls.
