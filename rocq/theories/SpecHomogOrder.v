(** * Calls of the homogeneous boundary kernel

    Used in the statement of property C70.  The kernel is called once for each
    boundary box of a face; every call also fills the two corners of its face. *)

From Verif Require Import Base KernelsBC FortranHomog SpecBCOrder.
Open Scope Z_scope.

Section Calls.
  Context {S : Scalar} (lo hi : Z -> Z) (u : ptr).

  (** A box on a face. *)
  Definition on_face (c : bcall S) : Prop := c_type c = 1 /\ placed 2 lo hi c.

  (** The formula of the order reads that many cells of the patch. *)
  Definition deep (c : bcall S) : Prop := c_order c <= hi (c_face c / 2) - lo (c_face c / 2) + 1.

  (** Only hands the fields of the call to the kernel (src/cuda/cd_correct_bc_2d_cuda.cpp:277-349). *)
  Definition call_homogenous_2d (c : bcall S) : mem S -> option (mem S) :=
    cd_2d_set_homogenous_bc (lo 0) (lo 1) (hi 0) (hi 1) (c_face c) (c_lo c) (c_hi c) (c_order c) u.

  (** The same to the Fortran subroutine. *)
  Definition call_homogenous_2d_fortran (c : bcall S) : mem S -> option (mem S) :=
    cellsethomogenousbc2d (lo 0) (lo 1) (hi 0) (hi 1) (c_face c) (c_lo c) (c_hi c) (c_order c) u.
End Calls.
