(** * Relaxation with several unknowns per cell: m4/cellsmooth3d.m4

    The library is the parameter of FortranBlock.v. *)

From Verif Require Import Base FortranBase FortranLoops FortranBlock.
Import ListNotations.
Open Scope Z_scope.

Section BlockCell.
  Context {S : Scalar} (la : lapack S).

  (** [call dgesv(n,1,A,n,ipiv,x,n,info)]: [dgetrf], then [dgetrs]. *)
  Definition dgesv (n : Z) (A x : farray) : mem S -> option (mem S) :=
    dgetrf la n A (fun ipiv => dgetrs la n A ipiv x).

  (** Element [a] of [matmul(block, v)]; the terms are added in the order of the
      index, which the language leaves open. *)
  Definition matmul_el (n : Z) (block : Z -> Z -> fexp S) (v : Z -> fexp S) (a : Z) : fexp S :=
    facc 1 n (fsc (lit 0)) (fun b acc => fop sadd (fsc acc) (fop smul (block a b) (v b))).

  (** cellsmooth3d.m4:281-339.  The local array [block] is a parameter.  An assignment
      of array sections is a loop over the elements: no element is written that is read
      later in the same assignment.  [reshape] keeps the elements in storage order.  The
      section [r(:,i,j,k)] is contiguous and is passed by its address. *)
  Definition ccellblkjacobi3d (lo0 hi0 lo1 hi1 lo2 hi2 size : Z) (offset stencil : ptr) (ndof fgcw : Z) (f : ptr)
      (ugcw : Z) (u : ptr) (rgcw : Z) (r : ptr) (block : ptr) : mem S -> option (mem S) :=
    let block_ := mkFa block [(0, ndof - 1); (0, ndof - 1)] in
    let offset := mkFa offset [(1, 3); (1, size)] in
    let f := mkFa f ((1, ndof) :: CELL3d lo0 lo1 lo2 hi0 hi1 hi2 fgcw) in
    let u := mkFa u ((1, ndof) :: CELL3d lo0 lo1 lo2 hi0 hi1 hi2 ugcw) in
    let r := mkFa r ((1, ndof) :: CELL3d lo0 lo1 lo2 hi0 hi1 hi2 rgcw) in
    let stencil := mkFa stencil ((1, size) :: (1, ndof * ndof) :: CELL3d lo0 lo1 lo2 hi0 hi1 hi2 0) in
    let block := mkFa block [(1, ndof); (1, ndof)] in
    (do_ lo2 hi2 (fun k =>
      do_ lo1 hi1 (fun j =>
        do_ lo0 hi0 (fun i =>
          do_ 1 ndof (fun a => put r!(a, i, j, k) := f!(a, i, j, k)) ;;;
          do_ 2 size (fun s =>
            integer io := offset!(1, s) in integer jo := offset!(2, s) in integer ko := offset!(3, s) in
            do_ 1 ndof (fun b => do_ 1 ndof (fun a => put block!(a, b) := stencil!(s, a + (b - 1) * ndof, i, j, k))) ;;;
            do_ 1 ndof (fun a =>
              put r!(a, i, j, k) := r!(a, i, j, k)
                - matmul_el ndof (fun a b => block!(a, b)) (fun b => u!(b, i + io, j + jo, k + ko)) a)) ;;;
          do_ 1 ndof (fun b => do_ 1 ndof (fun a => put block!(a, b) := stencil!(1, a + (b - 1) * ndof, i, j, k))) ;;;
          dgesv ndof block_ (mkFa (faddr r [1; i; j; k]) [(0, (ndof - 1)%Z)]) ;;;
          do_ 1 ndof (fun a => put u!(a, i, j, k) := u!(a, i, j, k) + r!(a, i, j, k))))))%F.
End BlockCell.
