(** * Reference flux subroutines: m4/celldiffusionflux{1,2,3}d.m4 *)

From Verif Require Import Base FortranBase.
Import ListNotations.
Open Scope Z_scope.
Open Scope fortran_scope.

Section Flux.
  Context {S : Scalar}.

  (** celldiffusionflux1d.m4:35-61 *)
  Definition celldiffusionflux1d (ifirst0 ilast0 : Z) (dx : Z -> S) (b0 : ptr) (gcw : Z) (u flux0 : ptr)
      : mem S -> option (mem S) :=
    let u := mkFa u (CELL1d ifirst0 ilast0 gcw) in
    let b0 := mkFa b0 (FACE1d ifirst0 ilast0 0) in
    let flux0 := mkFa flux0 (FACE1d ifirst0 ilast0 0) in
    do_ ifirst0 (ilast0 + 1) (fun ie0 =>
      put flux0!(ie0) := b0!(ie0) * (u!(ie0) - u!(ie0 - 1)) / $(dx 0)).

  (** celldiffusionflux1d.m4:63-86 *)
  Definition cellpoissonflux1d (ifirst0 ilast0 : Z) (dx : Z -> S) (gcw : Z) (u flux0 : ptr)
      : mem S -> option (mem S) :=
    let u := mkFa u (CELL1d ifirst0 ilast0 gcw) in
    let flux0 := mkFa flux0 (FACE1d ifirst0 ilast0 0) in
    do_ ifirst0 (ilast0 + 1) (fun ie0 =>
      put flux0!(ie0) := (u!(ie0) - u!(ie0 - 1)) / $(dx 0)).

  (** celldiffusionflux2d.m4:35-73 *)
  Definition celldiffusionflux2d (ifirst0 ifirst1 ilast0 ilast1 : Z) (dx : Z -> S) (b0 b1 : ptr) (gcw : Z)
      (u flux0 flux1 : ptr) : mem S -> option (mem S) :=
    let u := mkFa u (CELL2d ifirst0 ifirst1 ilast0 ilast1 gcw) in
    let b0 := mkFa b0 (FACE2d0 ifirst0 ifirst1 ilast0 ilast1 0) in
    let b1 := mkFa b1 (FACE2d1 ifirst0 ifirst1 ilast0 ilast1 0) in
    let flux0 := mkFa flux0 (FACE2d0 ifirst0 ifirst1 ilast0 ilast1 0) in
    let flux1 := mkFa flux1 (FACE2d1 ifirst0 ifirst1 ilast0 ilast1 0) in
    do_ ifirst1 ilast1 (fun ic1 =>
      do_ ifirst0 (ilast0 + 1) (fun ie0 =>
        put flux0!(ie0, ic1) := b0!(ie0, ic1) * (u!(ie0, ic1) - u!(ie0 - 1, ic1)) / $(dx 0))) ;;;
    do_ ifirst0 ilast0 (fun ic0 =>
      do_ ifirst1 (ilast1 + 1) (fun ie1 =>
        put flux1!(ie1, ic0) := b1!(ie1, ic0) * (u!(ic0, ie1) - u!(ic0, ie1 - 1)) / $(dx 1))).

  (** celldiffusionflux2d.m4:75-109 *)
  Definition cellpoissonflux2d (ifirst0 ifirst1 ilast0 ilast1 : Z) (dx : Z -> S) (gcw : Z)
      (u flux0 flux1 : ptr) : mem S -> option (mem S) :=
    let u := mkFa u (CELL2d ifirst0 ifirst1 ilast0 ilast1 gcw) in
    let flux0 := mkFa flux0 (FACE2d0 ifirst0 ifirst1 ilast0 ilast1 0) in
    let flux1 := mkFa flux1 (FACE2d1 ifirst0 ifirst1 ilast0 ilast1 0) in
    do_ ifirst0 (ilast0 + 1) (fun ie0 =>
      do_ ifirst1 ilast1 (fun ic1 =>
        put flux0!(ie0, ic1) := (u!(ie0, ic1) - u!(ie0 - 1, ic1)) / $(dx 0))) ;;;
    do_ ifirst1 (ilast1 + 1) (fun ie1 =>
      do_ ifirst0 ilast0 (fun ic0 =>
        put flux1!(ie1, ic0) := (u!(ic0, ie1) - u!(ic0, ie1 - 1)) / $(dx 1))).

  (** celldiffusionflux3d.m4:36-89 *)
  Definition celldiffusionflux3d (ifirst0 ifirst1 ifirst2 ilast0 ilast1 ilast2 : Z) (dx : Z -> S)
      (b0 b1 b2 : ptr) (gcw : Z) (u flux0 flux1 flux2 : ptr) : mem S -> option (mem S) :=
    let u := mkFa u (CELL3d ifirst0 ifirst1 ifirst2 ilast0 ilast1 ilast2 gcw) in
    let b0 := mkFa b0 (FACE3d0 ifirst0 ifirst1 ifirst2 ilast0 ilast1 ilast2 0) in
    let b1 := mkFa b1 (FACE3d1 ifirst0 ifirst1 ifirst2 ilast0 ilast1 ilast2 0) in
    let b2 := mkFa b2 (FACE3d2 ifirst0 ifirst1 ifirst2 ilast0 ilast1 ilast2 0) in
    let flux0 := mkFa flux0 (FACE3d0 ifirst0 ifirst1 ifirst2 ilast0 ilast1 ilast2 0) in
    let flux1 := mkFa flux1 (FACE3d1 ifirst0 ifirst1 ifirst2 ilast0 ilast1 ilast2 0) in
    let flux2 := mkFa flux2 (FACE3d2 ifirst0 ifirst1 ifirst2 ilast0 ilast1 ilast2 0) in
    do_ ifirst2 ilast2 (fun k => do_ ifirst1 ilast1 (fun j => do_ ifirst0 (ilast0 + 1) (fun i =>
      put flux0!(i, j, k) := b0!(i, j, k) * (u!(i, j, k) - u!(i - 1, j, k)) / $(dx 0)))) ;;;
    do_ ifirst0 ilast0 (fun i => do_ ifirst2 ilast2 (fun k => do_ ifirst1 (ilast1 + 1) (fun j =>
      put flux1!(j, k, i) := b1!(j, k, i) * (u!(i, j, k) - u!(i, j - 1, k)) / $(dx 1)))) ;;;
    do_ ifirst1 ilast1 (fun j => do_ ifirst0 ilast0 (fun i => do_ ifirst2 (ilast2 + 1) (fun k =>
      put flux2!(k, i, j) := b2!(k, i, j) * (u!(i, j, k) - u!(i, j, k - 1)) / $(dx 2)))).

  (** celldiffusionflux3d.m4:91-139 *)
  Definition cellpoissonflux3d (ifirst0 ifirst1 ifirst2 ilast0 ilast1 ilast2 : Z) (dx : Z -> S)
      (gcw : Z) (u flux0 flux1 flux2 : ptr) : mem S -> option (mem S) :=
    let u := mkFa u (CELL3d ifirst0 ifirst1 ifirst2 ilast0 ilast1 ilast2 gcw) in
    let flux0 := mkFa flux0 (FACE3d0 ifirst0 ifirst1 ifirst2 ilast0 ilast1 ilast2 0) in
    let flux1 := mkFa flux1 (FACE3d1 ifirst0 ifirst1 ifirst2 ilast0 ilast1 ilast2 0) in
    let flux2 := mkFa flux2 (FACE3d2 ifirst0 ifirst1 ifirst2 ilast0 ilast1 ilast2 0) in
    do_ ifirst2 ilast2 (fun k => do_ ifirst1 ilast1 (fun j => do_ ifirst0 (ilast0 + 1) (fun i =>
      put flux0!(i, j, k) := (u!(i, j, k) - u!(i - 1, j, k)) / $(dx 0)))) ;;;
    do_ ifirst0 ilast0 (fun i => do_ ifirst2 ilast2 (fun k => do_ ifirst1 (ilast1 + 1) (fun j =>
      put flux1!(j, k, i) := (u!(i, j, k) - u!(i, j - 1, k)) / $(dx 1)))) ;;;
    do_ ifirst1 ilast1 (fun j => do_ ifirst0 ilast0 (fun i => do_ ifirst2 (ilast2 + 1) (fun k =>
      put flux2!(k, i, j) := (u!(i, j, k) - u!(i, j, k - 1)) / $(dx 2)))).
End Flux.
