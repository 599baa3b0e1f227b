(** * Applying an assembled stencil, smoothers and right-hand-side adjustment

    m4/applystencil{1,2,3}d.m4, cellsmooth{1,2,3}d.m4, cellblocksmooth{1,2,3}d.m4
    (the part that does not call LAPACK) and celladjustrhs{1,2,3}d.m4.  A local
    array is an extra argument, the address of its storage.  The arguments are
    listed in the order of the dummy arguments, scalars of one kind together. *)

From Verif Require Import Base FortranBase FortranLoops.
Import ListNotations.
Open Scope Z_scope.

Section FortranSmooth.
  Context {S : Scalar}.

  (** ** Applying a stencil *)

  (** applystencil1d.m4:24-61 *)
  Definition applystencilatpoint1d (lo0 hi0 i : Z) (stencilsize : Z) (offsets stencil : ptr) (a b : S)
      (fgcw : Z) (f : ptr) (ugcw : Z) (u : ptr) (rgcw : Z) (r : ptr) : mem S -> option (mem S) :=
    let offsets := mkFa offsets [(1, 1); (1, stencilsize)] in
    let stencil := mkFa stencil ((1, stencilsize) :: CELL1d lo0 hi0 0) in
    let u := mkFa u (CELL1d lo0 hi0 ugcw) in
    let f := mkFa f (CELL1d lo0 hi0 fgcw) in
    let r := mkFa r (CELL1d lo0 hi0 rgcw) in
    (put r!(i) := $b * f!(i) ;;;
    do_ 1 stencilsize (fun s =>
      integer io := offsets!(1, s) in
      put r!(i) := r!(i) + $a * stencil!(s, i) * u!(i + io)))%F.

  (** applystencil1d.m4:63-101 *)
  Definition applystencilonpatch1d (lo0 hi0 : Z) (stencilsize : Z) (offsets stencil : ptr) (a b : S)
      (fgcw : Z) (f : ptr) (ugcw : Z) (u : ptr) (rgcw : Z) (r : ptr) : mem S -> option (mem S) :=
    let offsets := mkFa offsets [(1, 1); (1, stencilsize)] in
    let stencil := mkFa stencil ((1, stencilsize) :: CELL1d lo0 hi0 0) in
    let u := mkFa u (CELL1d lo0 hi0 ugcw) in
    let f := mkFa f (CELL1d lo0 hi0 fgcw) in
    let r := mkFa r (CELL1d lo0 hi0 rgcw) in
    (do_ lo0 hi0 (fun i =>
      put r!(i) := $b * f!(i) ;;;
      do_ 1 stencilsize (fun s =>
        integer io := offsets!(1, s) in
        put r!(i) := r!(i) + $a * stencil!(s, i) * u!(i + io))))%F.

  (** applystencil2d.m4:24-62 *)
  Definition applystencilatpoint2d (lo0 hi0 lo1 hi1 i j : Z) (stencilsize : Z) (offsets stencil : ptr) (a b : S)
      (fgcw : Z) (f : ptr) (ugcw : Z) (u : ptr) (rgcw : Z) (r : ptr) : mem S -> option (mem S) :=
    let offsets := mkFa offsets [(1, 2); (1, stencilsize)] in
    let stencil := mkFa stencil ((1, stencilsize) :: CELL2d lo0 lo1 hi0 hi1 0) in
    let u := mkFa u (CELL2d lo0 lo1 hi0 hi1 ugcw) in
    let f := mkFa f (CELL2d lo0 lo1 hi0 hi1 fgcw) in
    let r := mkFa r (CELL2d lo0 lo1 hi0 hi1 rgcw) in
    (put r!(i, j) := $b * f!(i, j) ;;;
    do_ 1 stencilsize (fun s =>
      integer io := offsets!(1, s) in integer jo := offsets!(2, s) in
      put r!(i, j) := r!(i, j) + $a * stencil!(s, i, j) * u!(i + io, j + jo)))%F.

  (** applystencil2d.m4:64-105; the loop bounds are as in the source *)
  Definition applystencilonpatch2d (lo0 hi0 lo1 hi1 : Z) (stencilsize : Z) (offsets stencil : ptr) (a b : S)
      (fgcw : Z) (f : ptr) (ugcw : Z) (u : ptr) (rgcw : Z) (r : ptr) : mem S -> option (mem S) :=
    let offsets := mkFa offsets [(1, 2); (1, stencilsize)] in
    let stencil := mkFa stencil ((1, stencilsize) :: CELL2d lo0 lo1 hi0 hi1 0) in
    let u := mkFa u (CELL2d lo0 lo1 hi0 hi1 ugcw) in
    let f := mkFa f (CELL2d lo0 lo1 hi0 hi1 fgcw) in
    let r := mkFa r (CELL2d lo0 lo1 hi0 hi1 rgcw) in
    (do_ lo0 hi0 (fun j =>
      do_ lo1 hi1 (fun i =>
        put r!(i, j) := $b * f!(i, j) ;;;
        do_ 1 stencilsize (fun s =>
          integer io := offsets!(1, s) in integer jo := offsets!(2, s) in
          put r!(i, j) := r!(i, j) + $a * stencil!(s, i, j) * u!(i + io, j + jo)))))%F.

  (** applystencil3d.m4:24-66 *)
  Definition applystencilatpoint3d (lo0 hi0 lo1 hi1 lo2 hi2 i j k : Z) (stencilsize : Z) (offsets stencil : ptr) (a b : S)
      (fgcw : Z) (f : ptr) (ugcw : Z) (u : ptr) (rgcw : Z) (r : ptr) : mem S -> option (mem S) :=
    let offsets := mkFa offsets [(1, 3); (1, stencilsize)] in
    let stencil := mkFa stencil ((1, stencilsize) :: CELL3d lo0 lo1 lo2 hi0 hi1 hi2 0) in
    let u := mkFa u (CELL3d lo0 lo1 lo2 hi0 hi1 hi2 ugcw) in
    let f := mkFa f (CELL3d lo0 lo1 lo2 hi0 hi1 hi2 fgcw) in
    let r := mkFa r (CELL3d lo0 lo1 lo2 hi0 hi1 hi2 rgcw) in
    (put r!(i, j, k) := $b * f!(i, j, k) ;;;
    do_ 1 stencilsize (fun s =>
      integer io := offsets!(1, s) in integer jo := offsets!(2, s) in integer ko := offsets!(3, s) in
      put r!(i, j, k) := r!(i, j, k) + $a * stencil!(s, i, j, k) * u!(i + io, j + jo, k + ko)))%F.

  (** applystencil3d.m4:68-116 *)
  Definition applystencilonpatch3d (lo0 hi0 lo1 hi1 lo2 hi2 : Z) (stencilsize : Z) (offsets stencil : ptr) (a b : S)
      (fgcw : Z) (f : ptr) (ugcw : Z) (u : ptr) (rgcw : Z) (r : ptr) : mem S -> option (mem S) :=
    let offsets := mkFa offsets [(1, 3); (1, stencilsize)] in
    let stencil := mkFa stencil ((1, stencilsize) :: CELL3d lo0 lo1 lo2 hi0 hi1 hi2 0) in
    let u := mkFa u (CELL3d lo0 lo1 lo2 hi0 hi1 hi2 ugcw) in
    let f := mkFa f (CELL3d lo0 lo1 lo2 hi0 hi1 hi2 fgcw) in
    let r := mkFa r (CELL3d lo0 lo1 lo2 hi0 hi1 hi2 rgcw) in
    (do_ lo2 hi2 (fun k =>
      do_ lo1 hi1 (fun j =>
        do_ lo0 hi0 (fun i =>
          put r!(i, j, k) := $b * f!(i, j, k) ;;;
          do_ 1 stencilsize (fun s =>
            integer io := offsets!(1, s) in integer jo := offsets!(2, s) in integer ko := offsets!(3, s) in
            put r!(i, j, k) := r!(i, j, k) + $a * stencil!(s, i, j, k) * u!(i + io, j + jo, k + ko))))))%F.

  (** ** Point smoothers *)

  (** cellsmooth1d.m4:35-81 *)
  Definition celljacobi1d (lo0 hi0 : Z) (stencilsize : Z) (offset : ptr)
      (slo0 shi0 : Z) (stencil : ptr) (flo0 fhi0 : Z) (f : ptr) (ulo0 uhi0 : Z) (u : ptr)
      (r : ptr) : mem S -> option (mem S) :=
    let offset := mkFa offset [(0, 0); (0, stencilsize - 1)] in
    let stencil := mkFa stencil ((0, stencilsize - 1) :: CELL1d slo0 shi0 0) in
    let u := mkFa u (CELL1d ulo0 uhi0 0) in
    let f := mkFa f (CELL1d flo0 fhi0 0) in
    let r := mkFa r (CELL1d lo0 hi0 0) in
    (scalar w := #2 / #3 in
    do_ lo0 hi0 (fun i =>
      put r!(i) := f!(i) ;;;
      do_ 0 (stencilsize - 1) (fun s =>
        integer io := offset!(0, s) in
        put r!(i) := r!(i) - stencil!(s, i) * u!(i + io)) ;;;
      put r!(i) := r!(i) / stencil!(0, i)) ;;;
    do_ lo0 hi0 (fun i =>
      put u!(i) := u!(i) + $w * r!(i)))%F.

  (** cellsmooth1d.m4:83-121; [f] is declared with the bounds of [u], as in the source *)
  Definition cellgs1d (lo0 hi0 : Z) (stencilsize : Z) (offset : ptr)
      (slo0 shi0 : Z) (stencil : ptr) (flo0 fhi0 : Z) (f : ptr) (ulo0 uhi0 : Z) (u : ptr) : mem S -> option (mem S) :=
    let offset := mkFa offset [(0, 0); (0, stencilsize - 1)] in
    let stencil := mkFa stencil ((0, stencilsize - 1) :: CELL1d slo0 shi0 0) in
    let u := mkFa u (CELL1d ulo0 uhi0 0) in
    let f := mkFa f (CELL1d ulo0 uhi0 0) in
    (do_ lo0 hi0 (fun i =>
      scalar r := facc 1 (stencilsize - 1) f!(i) (fun s r =>
        integer io := offset!(0, s) in
        $r - stencil!(s, i) * u!(i + io)) in
      put u!(i) := $r / stencil!(0, i)))%F.

  (** cellsmooth1d.m4:123-163 *)
  Definition cellrbgs1d (lo0 hi0 color : Z) (stencilsize : Z) (offset : ptr)
      (slo0 shi0 : Z) (stencil : ptr) (flo0 fhi0 : Z) (f : ptr) (ulo0 uhi0 : Z) (u : ptr) : mem S -> option (mem S) :=
    let offset := mkFa offset [(0, 0); (0, stencilsize - 1)] in
    let stencil := mkFa stencil ((0, stencilsize - 1) :: CELL1d slo0 shi0 0) in
    let u := mkFa u (CELL1d ulo0 uhi0 0) in
    let f := mkFa f (CELL1d flo0 fhi0 0) in
    (do_step (lo0 + fmod color 2) hi0 2 (fun i =>
      scalar r := facc 1 (stencilsize - 1) f!(i) (fun s r =>
        integer io := offset!(0, s) in
        $r - stencil!(s, i) * u!(i + io)) in
      put u!(i) := $r / stencil!(0, i)))%F.

  (** cellsmooth2d.m4:35-86; [w] is the literal [0.8] *)
  Definition celljacobi2d (lo0 hi0 lo1 hi1 : Z) (stencilsize : Z) (offset : ptr)
      (slo0 shi0 slo1 shi1 : Z) (stencil : ptr) (flo0 fhi0 flo1 fhi1 : Z) (f : ptr) (ulo0 uhi0 ulo1 uhi1 : Z) (u : ptr)
      (r : ptr) (w : S) : mem S -> option (mem S) :=
    let offset := mkFa offset [(0, 1); (0, stencilsize - 1)] in
    let stencil := mkFa stencil ((0, stencilsize - 1) :: CELL2d slo0 slo1 shi0 shi1 0) in
    let u := mkFa u (CELL2d ulo0 ulo1 uhi0 uhi1 0) in
    let f := mkFa f (CELL2d flo0 flo1 fhi0 fhi1 0) in
    let r := mkFa r (CELL2d lo0 lo1 hi0 hi1 0) in
    (do_ lo1 hi1 (fun j =>
      do_ lo0 hi0 (fun i =>
        put r!(i, j) := f!(i, j) ;;;
        do_ 0 (stencilsize - 1) (fun s =>
          integer io := offset!(0, s) in integer jo := offset!(1, s) in
          put r!(i, j) := r!(i, j) - stencil!(s, i, j) * u!(i + io, j + jo)) ;;;
        put r!(i, j) := r!(i, j) / stencil!(0, i, j))) ;;;
    do_ lo1 hi1 (fun j =>
      do_ lo0 hi0 (fun i =>
        put u!(i, j) := u!(i, j) + $w * r!(i, j))))%F.

  (** cellsmooth2d.m4:88-131 *)
  Definition cellgs2d (lo0 hi0 lo1 hi1 : Z) (stencilsize : Z) (offset : ptr)
      (slo0 shi0 slo1 shi1 : Z) (stencil : ptr) (flo0 fhi0 flo1 fhi1 : Z) (f : ptr) (ulo0 uhi0 ulo1 uhi1 : Z) (u : ptr) : mem S -> option (mem S) :=
    let offset := mkFa offset [(0, 1); (0, stencilsize - 1)] in
    let stencil := mkFa stencil ((0, stencilsize - 1) :: CELL2d slo0 slo1 shi0 shi1 0) in
    let u := mkFa u (CELL2d ulo0 ulo1 uhi0 uhi1 0) in
    let f := mkFa f (CELL2d flo0 flo1 fhi0 fhi1 0) in
    (do_ lo1 hi1 (fun j =>
      do_ lo0 hi0 (fun i =>
        scalar r := facc 1 (stencilsize - 1) f!(i, j) (fun s r =>
          integer io := offset!(0, s) in integer jo := offset!(1, s) in
          $r - stencil!(s, i, j) * u!(i + io, j + jo)) in
        put u!(i, j) := $r / stencil!(0, i, j))))%F.

  (** cellsmooth2d.m4:133-178 *)
  Definition cellrbgs2d (lo0 hi0 lo1 hi1 color : Z) (stencilsize : Z) (offset : ptr)
      (slo0 shi0 slo1 shi1 : Z) (stencil : ptr) (flo0 fhi0 flo1 fhi1 : Z) (f : ptr) (ulo0 uhi0 ulo1 uhi1 : Z) (u : ptr) : mem S -> option (mem S) :=
    let offset := mkFa offset [(0, 1); (0, stencilsize - 1)] in
    let stencil := mkFa stencil ((0, stencilsize - 1) :: CELL2d slo0 slo1 shi0 shi1 0) in
    let u := mkFa u (CELL2d ulo0 ulo1 uhi0 uhi1 0) in
    let f := mkFa f (CELL2d flo0 flo1 fhi0 fhi1 0) in
    (do_ lo1 hi1 (fun j =>
      do_step (lo0 + fmod (j + color) 2) hi0 2 (fun i =>
        scalar r := facc 1 (stencilsize - 1) f!(i, j) (fun s r =>
          integer io := offset!(0, s) in integer jo := offset!(1, s) in
          $r - stencil!(s, i, j) * u!(i + io, j + jo)) in
        put u!(i, j) := $r / stencil!(0, i, j))))%F.

  (** cellsmooth2d.m4:180-217 *)
  Definition cells5rbgs2d (lo0 hi0 lo1 hi1 color : Z)
      (slo0 shi0 slo1 shi1 : Z) (stencil : ptr) (flo0 fhi0 flo1 fhi1 : Z) (f : ptr) (ulo0 uhi0 ulo1 uhi1 : Z) (u : ptr) : mem S -> option (mem S) :=
    let stencil := mkFa stencil ((0, 4) :: CELL2d slo0 slo1 shi0 shi1 0) in
    let u := mkFa u (CELL2d ulo0 ulo1 uhi0 uhi1 0) in
    let f := mkFa f (CELL2d flo0 flo1 fhi0 fhi1 0) in
    (do_ lo1 hi1 (fun j =>
      do_step (lo0 + fmod (j + color) 2) hi0 2 (fun i =>
        put u!(i, j) := (f!(i, j) - stencil!(1, i, j) * u!(i - 1, j)
          - stencil!(2, i, j) * u!(i + 1, j)
          - stencil!(3, i, j) * u!(i, j - 1)
          - stencil!(4, i, j) * u!(i, j + 1)) / stencil!(0, i, j))))%F.

  (** cellsmooth2d.m4:219-260 *)
  Definition cells9rbgs2d (lo0 hi0 lo1 hi1 color : Z)
      (slo0 shi0 slo1 shi1 : Z) (stencil : ptr) (flo0 fhi0 flo1 fhi1 : Z) (f : ptr) (ulo0 uhi0 ulo1 uhi1 : Z) (u : ptr) : mem S -> option (mem S) :=
    let stencil := mkFa stencil ((0, 8) :: CELL2d slo0 slo1 shi0 shi1 0) in
    let u := mkFa u (CELL2d ulo0 ulo1 uhi0 uhi1 0) in
    let f := mkFa f (CELL2d flo0 flo1 fhi0 fhi1 0) in
    (do_ lo1 hi1 (fun j =>
      do_step (lo0 + fmod (j + color) 2) hi0 2 (fun i =>
        put u!(i, j) := (f!(i, j) - stencil!(1, i, j) * u!(i - 1, j + 0)
          - stencil!(2, i, j) * u!(i + 1, j + 0)
          - stencil!(3, i, j) * u!(i + 0, j - 1)
          - stencil!(4, i, j) * u!(i + 0, j + 1)
          - stencil!(5, i, j) * u!(i - 1, j - 1)
          - stencil!(6, i, j) * u!(i + 1, j - 1)
          - stencil!(7, i, j) * u!(i - 1, j + 1)
          - stencil!(8, i, j) * u!(i + 1, j + 1)) / stencil!(0, i, j))))%F.

  (** cellsmooth3d.m4:35-103; [w] is the literal [0.8D0] *)
  Definition celljacobi3d (lo0 hi0 lo1 hi1 lo2 hi2 : Z) (stencilsize : Z) (offset : ptr)
      (slo0 shi0 slo1 shi1 slo2 shi2 : Z) (stencil : ptr) (flo0 fhi0 flo1 fhi1 flo2 fhi2 : Z) (f : ptr) (ulo0 uhi0 ulo1 uhi1 ulo2 uhi2 : Z) (u : ptr)
      (r : ptr) (w : S) : mem S -> option (mem S) :=
    let offset := mkFa offset [(0, 2); (0, stencilsize - 1)] in
    let stencil := mkFa stencil ((0, stencilsize - 1) :: CELL3d slo0 slo1 slo2 shi0 shi1 shi2 0) in
    let u := mkFa u (CELL3d ulo0 ulo1 ulo2 uhi0 uhi1 uhi2 0) in
    let f := mkFa f (CELL3d flo0 flo1 flo2 fhi0 fhi1 fhi2 0) in
    let r := mkFa r (CELL3d lo0 lo1 lo2 hi0 hi1 hi2 0) in
    (do_ lo2 hi2 (fun k =>
      do_ lo1 hi1 (fun j =>
        do_ lo0 hi0 (fun i =>
          put r!(i, j, k) := f!(i, j, k) ;;;
          do_ 0 (stencilsize - 1) (fun s =>
            integer io := offset!(0, s) in integer jo := offset!(1, s) in integer ko := offset!(2, s) in
            put r!(i, j, k) := r!(i, j, k) - stencil!(s, i, j, k) * u!(i + io, j + jo, k + ko)) ;;;
          put r!(i, j, k) := r!(i, j, k) / stencil!(0, i, j, k)))) ;;;
    do_ lo2 hi2 (fun k =>
      do_ lo1 hi1 (fun j =>
        do_ lo0 hi0 (fun i =>
          put u!(i, j, k) := u!(i, j, k) + $w * r!(i, j, k)))))%F.

  (** cellsmooth3d.m4:105-163 *)
  Definition cellgs3d (lo0 hi0 lo1 hi1 lo2 hi2 : Z) (stencilsize : Z) (offset : ptr)
      (slo0 shi0 slo1 shi1 slo2 shi2 : Z) (stencil : ptr) (flo0 fhi0 flo1 fhi1 flo2 fhi2 : Z) (f : ptr) (ulo0 uhi0 ulo1 uhi1 ulo2 uhi2 : Z) (u : ptr) : mem S -> option (mem S) :=
    let offset := mkFa offset [(0, 2); (0, stencilsize - 1)] in
    let stencil := mkFa stencil ((0, stencilsize - 1) :: CELL3d slo0 slo1 slo2 shi0 shi1 shi2 0) in
    let u := mkFa u (CELL3d ulo0 ulo1 ulo2 uhi0 uhi1 uhi2 0) in
    let f := mkFa f (CELL3d flo0 flo1 flo2 fhi0 fhi1 fhi2 0) in
    (do_ lo2 hi2 (fun k =>
      do_ lo1 hi1 (fun j =>
        do_ lo0 hi0 (fun i =>
          scalar r := facc 1 (stencilsize - 1) f!(i, j, k) (fun s r =>
            integer io := offset!(0, s) in integer jo := offset!(1, s) in integer ko := offset!(2, s) in
            $r - stencil!(s, i, j, k) * u!(i + io, j + jo, k + ko)) in
          put u!(i, j, k) := $r / stencil!(0, i, j, k)))))%F.

  (** cellsmooth3d.m4:165-225 *)
  Definition cellrbgs3d (lo0 hi0 lo1 hi1 lo2 hi2 color : Z) (stencilsize : Z) (offset : ptr)
      (slo0 shi0 slo1 shi1 slo2 shi2 : Z) (stencil : ptr) (flo0 fhi0 flo1 fhi1 flo2 fhi2 : Z) (f : ptr) (ulo0 uhi0 ulo1 uhi1 ulo2 uhi2 : Z) (u : ptr) : mem S -> option (mem S) :=
    let offset := mkFa offset [(0, 2); (0, stencilsize - 1)] in
    let stencil := mkFa stencil ((0, stencilsize - 1) :: CELL3d slo0 slo1 slo2 shi0 shi1 shi2 0) in
    let u := mkFa u (CELL3d ulo0 ulo1 ulo2 uhi0 uhi1 uhi2 0) in
    let f := mkFa f (CELL3d flo0 flo1 flo2 fhi0 fhi1 fhi2 0) in
    (do_ lo2 hi2 (fun k =>
      do_ lo1 hi1 (fun j =>
        do_step (lo0 + fmod (Z.abs (j + k) + color) 2) hi0 2 (fun i =>
          scalar r := facc 1 (stencilsize - 1) f!(i, j, k) (fun s r =>
            integer io := offset!(0, s) in integer jo := offset!(1, s) in integer ko := offset!(2, s) in
            $r - stencil!(s, i, j, k) * u!(i + io, j + jo, k + ko)) in
          put u!(i, j, k) := $r / stencil!(0, i, j, k)))))%F.

  (** cellsmooth3d.m4:227-279 *)
  Definition cells7rbgs3d (lo0 hi0 lo1 hi1 lo2 hi2 color : Z)
      (slo0 shi0 slo1 shi1 slo2 shi2 : Z) (stencil : ptr) (flo0 fhi0 flo1 fhi1 flo2 fhi2 : Z) (f : ptr) (ulo0 uhi0 ulo1 uhi1 ulo2 uhi2 : Z) (u : ptr) : mem S -> option (mem S) :=
    let stencil := mkFa stencil ((0, 6) :: CELL3d slo0 slo1 slo2 shi0 shi1 shi2 0) in
    let u := mkFa u (CELL3d ulo0 ulo1 ulo2 uhi0 uhi1 uhi2 0) in
    let f := mkFa f (CELL3d flo0 flo1 flo2 fhi0 fhi1 fhi2 0) in
    (do_ lo2 hi2 (fun k =>
      do_ lo1 hi1 (fun j =>
        do_step (lo0 + fmod (Z.abs (j + k) + color) 2) hi0 2 (fun i =>
          put u!(i, j, k) := f!(i, j, k) - stencil!(1, i, j, k) * u!(i - 1, j, k)
            - stencil!(2, i, j, k) * u!(i + 1, j, k)
            - stencil!(3, i, j, k) * u!(i, j - 1, k)
            - stencil!(4, i, j, k) * u!(i, j + 1, k)
            - stencil!(5, i, j, k) * u!(i, j, k - 1)
            - stencil!(6, i, j, k) * u!(i, j, k + 1) ;;;
          put u!(i, j, k) := u!(i, j, k) / stencil!(0, i, j, k)))))%F.

  (** ** Block smoothers *)

  (** cellblocksmooth1d.m4:35-64 *)
  Definition cellblock1x1jacobi1d (lo0 hi0 : Z) (stencil : ptr) (fgcw : Z) (f : ptr) (ugcw : Z) (u : ptr) : mem S -> option (mem S) :=
    let stencil := mkFa stencil (CELL1d lo0 hi0 0) in
    let u := mkFa u (CELL1d lo0 hi0 ugcw) in
    let f := mkFa f (CELL1d lo0 hi0 fgcw) in
    (scalar w := #2 / #3 in
    do_ lo0 hi0 (fun i =>
      put u!(i) := u!(i) + $w * f!(i) / stencil!(i)))%F.

  (** cellblocksmooth1d.m4:66-100 *)
  Definition cellblock2x2jacobi1d (lo0 hi0 : Z) (a : ptr) (fgcw : Z) (f0 f1 : ptr) (ugcw : Z) (u0 u1 : ptr) : mem S -> option (mem S) :=
    let a := mkFa a ((0, 3) :: CELL1d lo0 hi0 0) in
    let u0 := mkFa u0 (CELL1d lo0 hi0 ugcw) in
    let u1 := mkFa u1 (CELL1d lo0 hi0 ugcw) in
    let f0 := mkFa f0 (CELL1d lo0 hi0 fgcw) in
    let f1 := mkFa f1 (CELL1d lo0 hi0 fgcw) in
    (scalar w := #2 / #3 in
    do_ lo0 hi0 (fun i =>
      scalar det := a!(0, i) * a!(3, i) - a!(1, i) * a!(2, i) in
      put u0!(i) := u0!(i) + $w * (a!(3, i) * f0!(i) - a!(1, i) * f1!(i)) / $det ;;;
      put u1!(i) := u1!(i) + $w * (a!(0, i) * f1!(i) - a!(2, i) * f0!(i)) / $det))%F.

  (** cellblocksmooth2d.m4:35-66; [w] is the literal [0.8] *)
  Definition cellblock1x1jacobi2d (lo0 hi0 lo1 hi1 : Z) (stencil : ptr) (fgcw : Z) (f : ptr) (ugcw : Z) (u : ptr) (w : S) : mem S -> option (mem S) :=
    let stencil := mkFa stencil (CELL2d lo0 lo1 hi0 hi1 0) in
    let u := mkFa u (CELL2d lo0 lo1 hi0 hi1 ugcw) in
    let f := mkFa f (CELL2d lo0 lo1 hi0 hi1 fgcw) in
    (do_ lo1 hi1 (fun j =>
      do_ lo0 hi0 (fun i =>
        put u!(i, j) := u!(i, j) + $w * f!(i, j) / stencil!(i, j))))%F.

  (** cellblocksmooth2d.m4:68-104; [w] is the literal [0.8] *)
  Definition cellblock2x2jacobi2d (lo0 hi0 lo1 hi1 : Z) (a : ptr) (fgcw : Z) (f0 f1 : ptr) (ugcw : Z) (u0 u1 : ptr) (w : S) : mem S -> option (mem S) :=
    let a := mkFa a ((0, 3) :: CELL2d lo0 lo1 hi0 hi1 0) in
    let u0 := mkFa u0 (CELL2d lo0 lo1 hi0 hi1 ugcw) in
    let u1 := mkFa u1 (CELL2d lo0 lo1 hi0 hi1 ugcw) in
    let f0 := mkFa f0 (CELL2d lo0 lo1 hi0 hi1 fgcw) in
    let f1 := mkFa f1 (CELL2d lo0 lo1 hi0 hi1 fgcw) in
    (do_ lo1 hi1 (fun j =>
      do_ lo0 hi0 (fun i =>
        scalar det := a!(0, i, j) * a!(3, i, j) - a!(1, i, j) * a!(2, i, j) in
        put u0!(i, j) := u0!(i, j) + $w * (a!(3, i, j) * f0!(i, j) - a!(1, i, j) * f1!(i, j)) / $det ;;;
        put u1!(i, j) := u1!(i, j) + $w * (a!(0, i, j) * f1!(i, j) - a!(2, i, j) * f0!(i, j)) / $det)))%F.

  (** cellblocksmooth3d.m4:7-44 *)
  Definition creatematrix (A : ptr) (stencilsize : Z) (stencil offset : ptr) (bSizeX bSizeY bSizeZ : Z)
      : mem S -> option (mem S) :=
    let n := bSizeX * bSizeY * bSizeZ in
    let A := mkFa A [(0, n - 1); (0, n - 1)] in
    let stencil := mkFa stencil [(0, stencilsize - 1); (0, bSizeX - 1); (0, bSizeY - 1); (0, bSizeZ - 1)] in
    let offset := mkFa offset [(0, 2); (0, stencilsize - 1)] in
    (do_ 0 (bSizeZ - 1) (fun k =>
      do_ 0 (bSizeY - 1) (fun j =>
        do_ 0 (bSizeX - 1) (fun i =>
          let idx := (k * bSizeY * bSizeX + j * bSizeX + i)%Z in
          put A!(idx, idx) := stencil!(0, i, j, k) ;;;
          do_ 1 stencilsize (fun s =>
            integer io := offset!(0, s) in
            integer jo := offset!(1, s) in
            integer ko := offset!(2, s) in
            let ix := (i + io)%Z in
            let iy := (j + jo)%Z in
            let iz := (k + ko)%Z in
            fif ((ix >=? 0) && (ix <? bSizeX) && (iy >=? 0) && (iy <? bSizeY) && (iz >=? 0) && (iz <? bSizeZ))%Z
              (let idxr := (iz * bSizeY * bSizeX + iy * bSizeX + ix)%Z in
               put A!(idx, idxr) := stencil!(s, i, j, k))
              fskip)))))%F.

  (** ** Right-hand-side adjustment *)

  (** celladjustrhs1d.m4:35-92 *)
  Definition adjcellcrsfinebdryrhs1d (ifirst0 ilast0 pfirst0 plast0 : Z) (side : Z) (stencilsize : Z)
      (offset stencil : ptr) (gcw : Z) (u rhs ul : ptr) : mem S -> option (mem S) :=
    let offset := mkFa offset [(0, 0); (0, stencilsize - 1)] in
    let stencil := mkFa stencil ((0, stencilsize - 1) :: CELL1d ifirst0 ilast0 0) in
    let u := mkFa u (CELL1d ifirst0 ilast0 gcw) in
    let rhs := mkFa rhs (CELL1d ifirst0 ilast0 0) in
    let ul := mkFa ul [(-1, 1)] in
    (do_ (-1) 1 (fun i =>
      put ul!(i) := #0) ;;;
    let ie0 := (pfirst0 + 1 - 2 * side)%Z in
    fif (side =? 0)%Z
      ((let i := (-1)%Z in
        put ul!(i) := u!(ie0 + i)) ;;;
       do_ 0 (stencilsize - 1) (fun s =>
         integer i := offset!(0, s) in
         put rhs!(ie0) := rhs!(ie0) - stencil!(s, ie0) * ul!(i)))
      ((let i := 1%Z in
        put ul!(i) := u!(ie0 + i)) ;;;
       do_ 0 (stencilsize - 1) (fun s =>
         integer i := offset!(0, s) in
         put rhs!(ie0) := rhs!(ie0) - stencil!(s, ie0) * ul!(i))))%F.

  (** celladjustrhs1d.m4:94-133 *)
  Definition celladjustsystemrhspatch1d (ifirst0 ilast0 : Z) (noffsets : Z) (offset : ptr) (stencilsize : Z) (stencil : ptr)
      (ugcw : Z) (u : ptr) (fgcw : Z) (f : ptr) : mem S -> option (mem S) :=
    let offset := mkFa offset [(1, 1); (1, noffsets)] in
    let stencil := mkFa stencil ((1, stencilsize) :: CELL1d ifirst0 ilast0 0) in
    let u := mkFa u (CELL1d ifirst0 ilast0 ugcw) in
    let f := mkFa f (CELL1d ifirst0 ilast0 fgcw) in
    (do_ ifirst0 ilast0 (fun i =>
      do_ 1 noffsets (fun s =>
        integer io := offset!(1, s) in
        put f!(i) := f!(i) + stencil!(s, i) * u!(i + io))))%F.

  (** celladjustrhs2d.m4:35-136 *)
  Definition adjcellcrsfinebdryrhs2d (ifirst0 ifirst1 ilast0 ilast1 pfirst0 pfirst1 plast0 plast1 : Z) (direction side : Z) (stencilsize : Z)
      (offset stencil : ptr) (gcw : Z) (u rhs ul : ptr) : mem S -> option (mem S) :=
    let offset := mkFa offset [(0, 1); (0, stencilsize - 1)] in
    let stencil := mkFa stencil ((0, stencilsize - 1) :: CELL2d ifirst0 ifirst1 ilast0 ilast1 0) in
    let u := mkFa u (CELL2d ifirst0 ifirst1 ilast0 ilast1 gcw) in
    let rhs := mkFa rhs (CELL2d ifirst0 ifirst1 ilast0 ilast1 0) in
    let ul := mkFa ul [(-1, 1); (-1, 1)] in
    (do_ (-1) 1 (fun i =>
      do_ (-1) 1 (fun j =>
        put ul!(i, j) := #0)) ;;;
    fif (direction =? 0)%Z
      (let ie0 := (pfirst0 + 1 - 2 * side)%Z in
       fif (side =? 0)%Z
         (do_ pfirst1 plast1 (fun ic1 =>
            (let i := (-1)%Z in
             do_ (-1) 1 (fun j =>
               put ul!(i, j) := u!(ie0 + i, ic1 + j))) ;;;
            do_ 0 (stencilsize - 1) (fun s =>
              integer i := offset!(0, s) in integer j := offset!(1, s) in
              put rhs!(ie0, ic1) := rhs!(ie0, ic1) - stencil!(s, ie0, ic1) * ul!(i, j))))
         (do_ pfirst1 plast1 (fun ic1 =>
            (let i := 1%Z in
             do_ (-1) 1 (fun j =>
               put ul!(i, j) := u!(ie0 + i, ic1 + j))) ;;;
            do_ 0 (stencilsize - 1) (fun s =>
              integer i := offset!(0, s) in integer j := offset!(1, s) in
              put rhs!(ie0, ic1) := rhs!(ie0, ic1) - stencil!(s, ie0, ic1) * ul!(i, j)))))
      (fif (direction =? 1)%Z
        (let ie1 := (pfirst1 + 1 - 2 * side)%Z in
         fif (side =? 0)%Z
           (do_ pfirst0 plast0 (fun ic0 =>
              (let j := (-1)%Z in
               do_ (-1) 1 (fun i =>
                 put ul!(i, j) := u!(ic0 + i, ie1 + j))) ;;;
              do_ 0 (stencilsize - 1) (fun s =>
                integer i := offset!(0, s) in integer j := offset!(1, s) in
                put rhs!(ic0, ie1) := rhs!(ic0, ie1) - stencil!(s, ic0, ie1) * ul!(i, j))))
           (do_ pfirst0 plast0 (fun ic0 =>
              (let j := 1%Z in
               do_ (-1) 1 (fun i =>
                 put ul!(i, j) := u!(ic0 + i, ie1 + j))) ;;;
              do_ 0 (stencilsize - 1) (fun s =>
                integer i := offset!(0, s) in integer j := offset!(1, s) in
                put rhs!(ic0, ie1) := rhs!(ic0, ie1) - stencil!(s, ic0, ie1) * ul!(i, j)))))
        fskip))%F.

  (** celladjustrhs2d.m4:138-180; the loop bounds are as in the source *)
  Definition celladjustsystemrhspatch2d (ifirst0 ifirst1 ilast0 ilast1 : Z) (noffsets : Z) (offset : ptr) (stencilsize : Z)
      (stencil : ptr) (ugcw : Z) (u : ptr) (fgcw : Z) (f : ptr) : mem S -> option (mem S) :=
    let offset := mkFa offset [(1, 2); (1, noffsets)] in
    let stencil := mkFa stencil ((1, stencilsize) :: CELL2d ifirst0 ifirst1 ilast0 ilast1 0) in
    let u := mkFa u (CELL2d ifirst0 ifirst1 ilast0 ilast1 ugcw) in
    let f := mkFa f (CELL2d ifirst0 ifirst1 ilast0 ilast1 fgcw) in
    (do_ ifirst0 ilast0 (fun j =>
      do_ ifirst1 ilast1 (fun i =>
        do_ 1 noffsets (fun s =>
          integer io := offset!(1, s) in integer jo := offset!(2, s) in
          put f!(i, j) := f!(i, j) + stencil!(s, i, j) * u!(i + io, j + jo)))))%F.

  (** celladjustrhs3d.m4:35-200 *)
  Definition adjcellcrsfinebdryrhs3d (ifirst0 ifirst1 ifirst2 ilast0 ilast1 ilast2 pfirst0 pfirst1 pfirst2 plast0 plast1 plast2 : Z) (direction side : Z) (stencilsize : Z)
      (offset stencil : ptr) (gcw : Z) (u rhs ul : ptr) : mem S -> option (mem S) :=
    let offset := mkFa offset [(0, 2); (0, stencilsize - 1)] in
    let stencil := mkFa stencil ((0, stencilsize - 1) :: CELL3d ifirst0 ifirst1 ifirst2 ilast0 ilast1 ilast2 0) in
    let u := mkFa u (CELL3d ifirst0 ifirst1 ifirst2 ilast0 ilast1 ilast2 gcw) in
    let rhs := mkFa rhs (CELL3d ifirst0 ifirst1 ifirst2 ilast0 ilast1 ilast2 0) in
    let ul := mkFa ul [(-1, 1); (-1, 1); (-1, 1)] in
    (do_ (-1) 1 (fun k =>
      do_ (-1) 1 (fun j =>
        do_ (-1) 1 (fun i =>
          put ul!(i, j, k) := #0))) ;;;
    fif (direction =? 0)%Z
      (let ie0 := (pfirst0 + 1 - 2 * side)%Z in
       fif (side =? 0)%Z
         (do_ pfirst2 plast2 (fun ic2 =>
            do_ pfirst1 plast1 (fun ic1 =>
              (let i := (-1)%Z in
               do_ (-1) 1 (fun k =>
                 do_ (-1) 1 (fun j =>
                   put ul!(i, j, k) := u!(ie0 + i, ic1 + j, ic2 + k)))) ;;;
              do_ 0 (stencilsize - 1) (fun s =>
                integer i := offset!(0, s) in integer j := offset!(1, s) in integer k := offset!(2, s) in
                put rhs!(ie0, ic1, ic2) := rhs!(ie0, ic1, ic2) - stencil!(s, ie0, ic1, ic2) * ul!(i, j, k)))))
         (do_ pfirst2 plast2 (fun ic2 =>
            do_ pfirst1 plast1 (fun ic1 =>
              (let i := 1%Z in
               do_ (-1) 1 (fun k =>
                 do_ (-1) 1 (fun j =>
                   put ul!(i, j, k) := u!(ie0 + i, ic1 + j, ic2 + k)))) ;;;
              do_ 0 (stencilsize - 1) (fun s =>
                integer i := offset!(0, s) in integer j := offset!(1, s) in integer k := offset!(2, s) in
                put rhs!(ie0, ic1, ic2) := rhs!(ie0, ic1, ic2) - stencil!(s, ie0, ic1, ic2) * ul!(i, j, k))))))
      (fif (direction =? 1)%Z
        (let ie1 := (pfirst1 + 1 - 2 * side)%Z in
         fif (side =? 0)%Z
           (do_ pfirst2 plast2 (fun ic2 =>
              do_ pfirst0 plast0 (fun ic0 =>
                (let j := (-1)%Z in
                 do_ (-1) 1 (fun k =>
                   do_ (-1) 1 (fun i =>
                     put ul!(i, j, k) := u!(ic0 + i, ie1 + j, ic2 + k)))) ;;;
                do_ 0 (stencilsize - 1) (fun s =>
                  integer i := offset!(0, s) in integer j := offset!(1, s) in integer k := offset!(2, s) in
                  put rhs!(ic0, ie1, ic2) := rhs!(ic0, ie1, ic2) - stencil!(s, ic0, ie1, ic2) * ul!(i, j, k)))))
           (do_ pfirst2 plast2 (fun ic2 =>
              do_ pfirst0 plast0 (fun ic0 =>
                (let j := 1%Z in
                 do_ (-1) 1 (fun k =>
                   do_ (-1) 1 (fun i =>
                     put ul!(i, j, k) := u!(ic0 + i, ie1 + j, ic2 + k)))) ;;;
                do_ 0 (stencilsize - 1) (fun s =>
                  integer i := offset!(0, s) in integer j := offset!(1, s) in integer k := offset!(2, s) in
                  put rhs!(ic0, ie1, ic2) := rhs!(ic0, ie1, ic2) - stencil!(s, ic0, ie1, ic2) * ul!(i, j, k))))))
        (fif (direction =? 2)%Z
          (let ie2 := (pfirst2 + 1 - 2 * side)%Z in
           fif (side =? 0)%Z
             (do_ pfirst1 plast1 (fun ic1 =>
                do_ pfirst0 plast0 (fun ic0 =>
                  (let k := (-1)%Z in
                   do_ (-1) 1 (fun j =>
                     do_ (-1) 1 (fun i =>
                       put ul!(i, j, k) := u!(ic0 + i, ic1 + j, ie2 + k)))) ;;;
                  do_ 0 (stencilsize - 1) (fun s =>
                    integer i := offset!(0, s) in integer j := offset!(1, s) in integer k := offset!(2, s) in
                    put rhs!(ic0, ic1, ie2) := rhs!(ic0, ic1, ie2) - stencil!(s, ic0, ic1, ie2) * ul!(i, j, k)))))
             (do_ pfirst1 plast1 (fun ic1 =>
                do_ pfirst0 plast0 (fun ic0 =>
                  (let k := 1%Z in
                   do_ (-1) 1 (fun j =>
                     do_ (-1) 1 (fun i =>
                       put ul!(i, j, k) := u!(ic0 + i, ic1 + j, ie2 + k)))) ;;;
                  do_ 0 (stencilsize - 1) (fun s =>
                    integer i := offset!(0, s) in integer j := offset!(1, s) in integer k := offset!(2, s) in
                    put rhs!(ic0, ic1, ie2) := rhs!(ic0, ic1, ie2) - stencil!(s, ic0, ic1, ie2) * ul!(i, j, k))))))
          fskip)))%F.
End FortranSmooth.
