(** * Block Jacobi in three dimensions

    The subroutines of /repo/m4/cellblocksmooth3d.m4 that call LAPACK.  The library
    is a parameter; what is assumed of it is stated in SpecBlockJacobi.v. *)

From Verif Require Import Base FortranBase FortranLoops FortranSmooth.
Import ListNotations.
Open Scope Z_scope.

(** [dgetrf] turns a matrix into factors and pivots, [dgetrs] solves with them.  Both
    are functions of the elements they read; the error code is not modelled, the
    subroutine only prints a message. *)
Record lapack (S : Scalar) := mkLapack {
  la_pivots : Type;
  la_getrf : Z -> (Z -> Z -> S) -> (Z -> Z -> S) * la_pivots;
  la_getrs : Z -> (Z -> Z -> S) -> la_pivots -> (Z -> S) -> Z -> S
}.
Arguments la_pivots {S} _.
Arguments la_getrf {S} _ _ _.
Arguments la_getrs {S} _ _ _ _ _ _.

Section Block.
  Context {S : Scalar} (la : lapack S).

  (** The elements of an array passed to the library: all must be readable. *)
  Definition fval (a : farray) (is : list Z) (m : mem S) : S :=
    match fel a is m with Some x => x | None => lit 0 end.
  (** Fails when an element passed to the library (dgetrf, dgetrs in m4/cellblocksmooth*.m4) cannot be read. *)
  Definition fcheck (a : farray) (is : list Z) (m : mem S) : option (mem S) :=
    x <- fel a is m ;; Some m.

  (** [call dgetrf(n,n,A,n,ipiv,error)]; the pivots are in scope in [k]. *)
  Definition dgetrf (n : Z) (A : farray) (k : la_pivots la -> mem S -> option (mem S)) (m : mem S) : option (mem S) :=
    m <- do_ 0 (n - 1) (fun j => do_ 0 (n - 1) (fun i => fcheck A [i; j])) m ;;
    let r := la_getrf la n (fun i j => fval A [i; j] m) in
    m' <- do_ 0 (n - 1) (fun j => do_ 0 (n - 1) (fun i => fset A [i; j] (fsc (fst r i j)))) m ;;
    k (snd r) m'.

  (** [call dcopy(n,b,one,x,one)] *)
  Definition dcopy (n : Z) (b x : farray) : mem S -> option (mem S) :=
    do_ 0 (n - 1) (fun i => fset x [i] (fel b [i])).

  (** [call dgetrs(trans,n,one,A,n,ipiv,x,n,error)] with [trans = 'N'] *)
  Definition dgetrs (n : Z) (A : farray) (ipiv : la_pivots la) (x : farray) (m : mem S) : option (mem S) :=
    m <- do_ 0 (n - 1) (fun j => do_ 0 (n - 1) (fun i => fcheck A [i; j])) m ;;
    m <- do_ 0 (n - 1) (fun i => fcheck x [i]) m ;;
    let v := la_getrs la n (fun i j => fval A [i; j] m) ipiv (fun i => fval x [i] m) in
    do_ 0 (n - 1) (fun i => fset x [i] (fsc (v i))) m.

  (** cellblocksmooth3d.m4:46-78 *)
  Definition apply (A x b : ptr) (n : Z) : mem S -> option (mem S) :=
    let A := mkFa A [(0, n - 1); (0, n - 1)] in
    let x := mkFa x [(0, n - 1)] in
    let b := mkFa b [(0, n - 1)] in
    dgetrf n A (fun ipiv => fseq (dcopy n b x) (dgetrs n A ipiv x)).

  (** cellblocksmooth3d.m4:80-188.  [w] is the literal [0.8D0]; the local arrays [r],
      [A], [br], [update] and [bStencil] are parameters; an assignment of array
      sections is a nest of loops (no element is written that is read later in the
      same assignment). *)
  Definition cellblockjacobi3d (lo0 hi0 lo1 hi1 lo2 hi2 : Z) (stencilsize : Z) (offset stencil : ptr)
      (flo0 fhi0 flo1 fhi1 flo2 fhi2 : Z) (f : ptr) (ulo0 uhi0 ulo1 uhi1 ulo2 uhi2 : Z) (u : ptr)
      (bDispX : ptr) (bNumX bSizeX : Z) (bDispY : ptr) (bNumY bSizeY : Z) (bDispZ : ptr) (bNumZ bSizeZ : Z)
      (r A br update bStencil : ptr) (w : S) : mem S -> option (mem S) :=
    let offset_ := offset in
    let A_ := A in let br_ := br in let update_ := update in let bStencil_ := bStencil in
    let n := bSizeX * bSizeY * bSizeZ in
    let offset := mkFa offset [(0, 2); (0, stencilsize - 1)] in
    let stencil := mkFa stencil ((0, stencilsize - 1) :: CELL3d lo0 lo1 lo2 hi0 hi1 hi2 0) in
    let u := mkFa u (CELL3d ulo0 ulo1 ulo2 uhi0 uhi1 uhi2 0) in
    let f := mkFa f (CELL3d flo0 flo1 flo2 fhi0 fhi1 fhi2 0) in
    let bDispX := mkFa bDispX [(0, bNumX - 1)] in
    let bDispY := mkFa bDispY [(0, bNumY - 1)] in
    let bDispZ := mkFa bDispZ [(0, bNumZ - 1)] in
    let r := mkFa r (CELL3d lo0 lo1 lo2 hi0 hi1 hi2 0) in
    let A := mkFa A [(0, n - 1); (0, n - 1)] in
    let br := mkFa br [(0, bSizeX - 1); (0, bSizeY - 1); (0, bSizeZ - 1)] in
    let update := mkFa update [(0, bSizeX - 1); (0, bSizeY - 1); (0, bSizeZ - 1)] in
    let bStencil := mkFa bStencil [(0, stencilsize - 1); (0, bSizeX - 1); (0, bSizeY - 1); (0, bSizeZ - 1)] in
    (do_ lo2 hi2 (fun k =>
      do_ lo1 hi1 (fun j =>
        do_ lo0 hi0 (fun i =>
          put r!(i, j, k) := f!(i, j, k) ;;;
          do_ 0 (stencilsize - 1) (fun s =>
            integer io := offset!(0, s) in integer jo := offset!(1, s) in integer ko := offset!(2, s) in
            put r!(i, j, k) := r!(i, j, k) - stencil!(s, i, j, k) * u!(i + io, j + jo, k + ko))))) ;;;
    integer dz0 := bDispZ!(0) in integer dz1 := bDispZ!(bNumZ - 1) in
    do_step (lo2 + dz0)%Z (lo2 + dz1)%Z bSizeZ (fun k =>
      integer dy0 := bDispY!(0) in integer dy1 := bDispY!(bNumY - 1) in
      do_step (lo1 + dy0)%Z (lo1 + dy1)%Z bSizeY (fun j =>
        integer dx0 := bDispX!(0) in integer dx1 := bDispX!(bNumX - 1) in
        do_step (lo0 + dx0)%Z (lo0 + dx1)%Z bSizeX (fun i =>
          do_ 0 (bSizeZ - 1) (fun lz => do_ 0 (bSizeY - 1) (fun ly => do_ 0 (bSizeX - 1) (fun lx =>
            put br!(lx, ly, lz) := r!(i + lx, j + ly, k + lz)))) ;;;
          do_ 0 (bSizeZ - 1) (fun lz => do_ 0 (bSizeY - 1) (fun ly => do_ 0 (bSizeX - 1) (fun lx => do_ 0 (stencilsize - 1) (fun s =>
            put bStencil!(s, lx, ly, lz) := stencil!(s, i + lx, j + ly, k + lz))))) ;;;
          do_ 0 (n - 1) (fun q => do_ 0 (n - 1) (fun p =>
            put A!(p, q) := #0)) ;;;
          creatematrix A_ stencilsize bStencil_ offset_ bSizeX bSizeY bSizeZ ;;;
          apply A_ update_ br_ n ;;;
          do_ 0 (bSizeZ - 1) (fun lz => do_ 0 (bSizeY - 1) (fun ly => do_ 0 (bSizeX - 1) (fun lx =>
            put u!(i + lx, j + ly, k + lz) := u!(i + lx, j + ly, k + lz) + $w * update!(lx, ly, lz))))))))%F.
End Block.
