(** * Node-centred fluxes and operators

    Transcribed statement by statement by tools/f2v.py from the m4 sources.  An
    assignment to a local scalar is the binding [scalar x := e in ...], evaluated
    where it stands; assignments to variables that are never read are left out. *)

From Verif Require Import Base FortranBase.
Import ListNotations.
Open Scope Z_scope.

Section FortranNode.
  Context {S : Scalar}.

  (** nodediffusionflux1d.m4:35-61 *)
  Definition nodediffusionflux1d (ifirst0 ilast0 : Z) (dx : Z -> S) (b0 : ptr) (gcw : Z) (u
      flux0 : ptr) : mem S -> option (mem S) :=
    let b0 := mkFa b0 (FACE1d ifirst0 ilast0 0) in
    let u := mkFa u (CELL1d ifirst0 ilast0 gcw) in
    let flux0 := mkFa flux0 (FACE1d ifirst0 ilast0 0) in
    (do_ ifirst0 (ilast0 + 1) (fun ie0 =>
      put flux0!(ie0) := b0!(ie0) * (u!(ie0) - u!(ie0 - 1)) / $(dx 0)))%F.

  (** nodediffusionflux1d.m4:63-86 *)
  Definition nodepoissonflux1d (ifirst0 ilast0 : Z) (dx : Z -> S) (gcw : Z) (u flux0 : ptr) : mem S -> option (mem S) :=
    let u := mkFa u (CELL1d ifirst0 ilast0 gcw) in
    let flux0 := mkFa flux0 (FACE1d ifirst0 ilast0 0) in
    (do_ ifirst0 (ilast0 + 1) (fun ie0 =>
      put flux0!(ie0) := (u!(ie0) - u!(ie0 - 1)) / $(dx 0)))%F.

  (** nodediffusionflux2d.m4:35-73 *)
  Definition nodediffusionflux2d (ifirst0 ifirst1 ilast0 ilast1 : Z) (dx : Z -> S) (b0 b1 : ptr)
      (gcw : Z) (u flux0 flux1 : ptr) : mem S -> option (mem S) :=
    let b0 := mkFa b0 (FACE2d0 ifirst0 ifirst1 ilast0 ilast1 0) in
    let b1 := mkFa b1 (FACE2d1 ifirst0 ifirst1 ilast0 ilast1 0) in
    let u := mkFa u (CELL2d ifirst0 ifirst1 ilast0 ilast1 gcw) in
    let flux0 := mkFa flux0 (FACE2d0 ifirst0 ifirst1 ilast0 ilast1 0) in
    let flux1 := mkFa flux1 (FACE2d1 ifirst0 ifirst1 ilast0 ilast1 0) in
    (do_ ifirst1 ilast1 (fun ic1 =>
      do_ ifirst0 (ilast0 + 1) (fun ie0 =>
        put flux0!(ie0, ic1) := b0!(ie0, ic1) * (u!(ie0, ic1) - u!(ie0 - 1, ic1)) / $(dx 0))) ;;;
    do_ ifirst0 ilast0 (fun ic0 =>
      do_ ifirst1 (ilast1 + 1) (fun ie1 =>
        put flux1!(ie1, ic0) := b1!(ie1, ic0) * (u!(ic0, ie1) - u!(ic0, ie1 - 1)) / $(dx 1))))%F.

  (** nodediffusionflux2d.m4:75-109 *)
  Definition nodepoissonflux2d (ifirst0 ifirst1 ilast0 ilast1 : Z) (dx : Z -> S) (gcw : Z) (u flux0
      flux1 : ptr) : mem S -> option (mem S) :=
    let u := mkFa u (CELL2d ifirst0 ifirst1 ilast0 ilast1 gcw) in
    let flux0 := mkFa flux0 (FACE2d0 ifirst0 ifirst1 ilast0 ilast1 0) in
    let flux1 := mkFa flux1 (FACE2d1 ifirst0 ifirst1 ilast0 ilast1 0) in
    (do_ ifirst0 (ilast0 + 1) (fun ie0 =>
      do_ ifirst1 ilast1 (fun ic1 =>
        put flux0!(ie0, ic1) := (u!(ie0, ic1) - u!(ie0 - 1, ic1)) / $(dx 0))) ;;;
    do_ ifirst1 (ilast1 + 1) (fun ie1 =>
      do_ ifirst0 ilast0 (fun ic0 =>
        put flux1!(ie1, ic0) := (u!(ic0, ie1) - u!(ic0, ie1 - 1)) / $(dx 1))))%F.

  (** nodediffusionflux3d.m4:35-88 *)
  Definition nodediffusionflux3d (ifirst0 ifirst1 ifirst2 ilast0 ilast1 ilast2 : Z) (dx : Z -> S) (b0
      b1 b2 : ptr) (gcw : Z) (u flux0 flux1 flux2 : ptr) : mem S -> option (mem S) :=
    let b0 := mkFa b0 (FACE3d0 ifirst0 ifirst1 ifirst2 ilast0 ilast1 ilast2 0) in
    let b1 := mkFa b1 (FACE3d1 ifirst0 ifirst1 ifirst2 ilast0 ilast1 ilast2 0) in
    let b2 := mkFa b2 (FACE3d2 ifirst0 ifirst1 ifirst2 ilast0 ilast1 ilast2 0) in
    let u := mkFa u (CELL3d ifirst0 ifirst1 ifirst2 ilast0 ilast1 ilast2 gcw) in
    let flux0 := mkFa flux0 (FACE3d0 ifirst0 ifirst1 ifirst2 ilast0 ilast1 ilast2 0) in
    let flux1 := mkFa flux1 (FACE3d1 ifirst0 ifirst1 ifirst2 ilast0 ilast1 ilast2 0) in
    let flux2 := mkFa flux2 (FACE3d2 ifirst0 ifirst1 ifirst2 ilast0 ilast1 ilast2 0) in
    (do_ ifirst2 ilast2 (fun k =>
      do_ ifirst1 ilast1 (fun j =>
        do_ ifirst0 (ilast0 + 1) (fun i =>
          put flux0!(i, j, k) := b0!(i, j, k) * (u!(i, j, k) - u!(i - 1, j, k)) / $(dx 0)))) ;;;
    do_ ifirst0 ilast0 (fun i =>
      do_ ifirst2 ilast2 (fun k =>
        do_ ifirst1 (ilast1 + 1) (fun j =>
          put flux1!(j, k, i) := b1!(j, k, i) * (u!(i, j, k) - u!(i, j - 1, k)) / $(dx 1)))) ;;;
    do_ ifirst1 ilast1 (fun j =>
      do_ ifirst0 ilast0 (fun i =>
        do_ ifirst2 (ilast2 + 1) (fun k =>
          put flux2!(k, i, j) := b1!(k, i, j) * (u!(i, j, k) - u!(i, j, k - 1)) / $(dx 2)))))%F.

  (** nodediffusionflux3d.m4:90-138 *)
  Definition nodepoissonflux3d (ifirst0 ifirst1 ifirst2 ilast0 ilast1 ilast2 : Z) (dx : Z -> S)
      (gcw : Z) (u flux0 flux1 flux2 : ptr) : mem S -> option (mem S) :=
    let u := mkFa u (CELL3d ifirst0 ifirst1 ifirst2 ilast0 ilast1 ilast2 gcw) in
    let flux0 := mkFa flux0 (FACE3d0 ifirst0 ifirst1 ifirst2 ilast0 ilast1 ilast2 0) in
    let flux1 := mkFa flux1 (FACE3d1 ifirst0 ifirst1 ifirst2 ilast0 ilast1 ilast2 0) in
    let flux2 := mkFa flux2 (FACE3d2 ifirst0 ifirst1 ifirst2 ilast0 ilast1 ilast2 0) in
    (do_ ifirst2 ilast2 (fun k =>
      do_ ifirst1 ilast1 (fun j =>
        do_ ifirst0 (ilast0 + 1) (fun i =>
          put flux0!(i, j, k) := (u!(i, j, k) - u!(i - 1, j, k)) / $(dx 0)))) ;;;
    do_ ifirst0 ilast0 (fun i =>
      do_ ifirst2 ilast2 (fun k =>
        do_ ifirst1 (ilast1 + 1) (fun j =>
          put flux1!(j, k, i) := (u!(i, j, k) - u!(i, j - 1, k)) / $(dx 1)))) ;;;
    do_ ifirst1 ilast1 (fun j =>
      do_ ifirst0 ilast0 (fun i =>
        do_ ifirst2 (ilast2 + 1) (fun k =>
          put flux2!(k, i, j) := (u!(i, j, k) - u!(i, j, k - 1)) / $(dx 2)))))%F.

  (** nodediffusionapply1d.m4:35-77 *)
  Definition nodediffusionv1apply1d (ifirst0 ilast0 : Z) (alpha beta : S) (dx : Z -> S) (agcw : Z)
      (acoef : ptr) (ugcw : Z) (u : ptr) (fgcw : Z) (f flux0 : ptr) (a b : S) (rgcw : Z) (res : ptr) : mem S -> option (mem S) :=
    let acoef := mkFa acoef (CELL1d ifirst0 ilast0 agcw) in
    let u := mkFa u (CELL1d ifirst0 ilast0 ugcw) in
    let f := mkFa f (CELL1d ifirst0 ilast0 fgcw) in
    let flux0 := mkFa flux0 (FACE1d ifirst0 ilast0 0) in
    let res := mkFa res (CELL1d ifirst0 ilast0 rgcw) in
    (do_ ifirst0 ilast0 (fun ic0 =>
      scalar diver := $beta * ((flux0!(ic0 + 1) - flux0!(ic0)) / $(dx 0)) in
      scalar lu := (- $diver) + $alpha * acoef!(ic0) * u!(ic0) in
      put res!(ic0) := $b * f!(ic0) + $a * $lu))%F.

  (** nodediffusionapply1d.m4:79-118 *)
  Definition nodediffusionv2apply1d (ifirst0 ilast0 : Z) (alpha beta : S) (dx : Z -> S) (ugcw : Z)
      (u : ptr) (fgcw : Z) (f flux0 : ptr) (a b : S) (rgcw : Z) (res : ptr) : mem S -> option (mem S) :=
    let u := mkFa u (CELL1d ifirst0 ilast0 ugcw) in
    let f := mkFa f (CELL1d ifirst0 ilast0 fgcw) in
    let flux0 := mkFa flux0 (FACE1d ifirst0 ilast0 0) in
    let res := mkFa res (CELL1d ifirst0 ilast0 rgcw) in
    (do_ ifirst0 ilast0 (fun ic0 =>
      scalar diver := $beta * ((flux0!(ic0 + 1) - flux0!(ic0)) / $(dx 0)) in
      scalar lu := (- $diver) + $alpha * u!(ic0) in
      put res!(ic0) := $b * f!(ic0) + $a * $lu))%F.

  (** nodediffusionapply1d.m4:120-155 *)
  Definition nodepoissonapply1d (ifirst0 ilast0 : Z) (beta : S) (dx : Z -> S) (fgcw : Z) (f
      flux0 : ptr) (a b : S) (rgcw : Z) (res : ptr) : mem S -> option (mem S) :=
    let f := mkFa f (CELL1d ifirst0 ilast0 fgcw) in
    let flux0 := mkFa flux0 (FACE1d ifirst0 ilast0 0) in
    let res := mkFa res (CELL1d ifirst0 ilast0 rgcw) in
    (do_ ifirst0 ilast0 (fun ic0 =>
      scalar lu := (- ($beta * ((flux0!(ic0 + 1) - flux0!(ic0)) / $(dx 0)))) in
      put res!(ic0) := $b * f!(ic0) + $a * $lu))%F.

  (** nodediffusionapply2d.m4:35-82 *)
  Definition nodediffusionv1apply2d (ifirst0 ilast0 ifirst1 ilast1 : Z) (alpha beta : S)
      (dx : Z -> S) (agcw : Z) (acoef : ptr) (ugcw : Z) (u : ptr) (fgcw : Z) (f flux0 flux1 : ptr) (a
      b : S) (rgcw : Z) (res : ptr) : mem S -> option (mem S) :=
    let acoef := mkFa acoef (CELL2d ifirst0 ifirst1 ilast0 ilast1 agcw) in
    let u := mkFa u (CELL2d ifirst0 ifirst1 ilast0 ilast1 ugcw) in
    let f := mkFa f (CELL2d ifirst0 ifirst1 ilast0 ilast1 fgcw) in
    let flux0 := mkFa flux0 (FACE2d0 ifirst0 ifirst1 ilast0 ilast1 0) in
    let flux1 := mkFa flux1 (FACE2d1 ifirst0 ifirst1 ilast0 ilast1 0) in
    let res := mkFa res (CELL2d ifirst0 ifirst1 ilast0 ilast1 rgcw) in
    (do_ ifirst1 ilast1 (fun ic1 =>
      do_ ifirst0 ilast0 (fun ic0 =>
        scalar diver := $beta * ((flux0!(ic0 + 1, ic1) - flux0!(ic0, ic1)) / $(dx 0) + (flux1!(ic1 + 1, ic0) - flux1!(ic1, ic0)) / $(dx 1)) in
        scalar lu := (- $diver) + $alpha * acoef!(ic0, ic1) * u!(ic0, ic1) in
        put res!(ic0, ic1) := $b * f!(ic0, ic1) + $a * $lu)))%F.

  (** nodediffusionapply2d.m4:84-128 *)
  Definition nodediffusionv2apply2d (ifirst0 ilast0 ifirst1 ilast1 : Z) (alpha beta : S)
      (dx : Z -> S) (ugcw : Z) (u : ptr) (fgcw : Z) (f flux0 flux1 : ptr) (a b : S) (rgcw : Z)
      (res : ptr) : mem S -> option (mem S) :=
    let u := mkFa u (CELL2d ifirst0 ifirst1 ilast0 ilast1 ugcw) in
    let f := mkFa f (CELL2d ifirst0 ifirst1 ilast0 ilast1 fgcw) in
    let flux0 := mkFa flux0 (FACE2d0 ifirst0 ifirst1 ilast0 ilast1 0) in
    let flux1 := mkFa flux1 (FACE2d1 ifirst0 ifirst1 ilast0 ilast1 0) in
    let res := mkFa res (CELL2d ifirst0 ifirst1 ilast0 ilast1 rgcw) in
    (do_ ifirst1 ilast1 (fun ic1 =>
      do_ ifirst0 ilast0 (fun ic0 =>
        scalar diver := $beta * ((flux0!(ic0 + 1, ic1) - flux0!(ic0, ic1)) / $(dx 0) + (flux1!(ic1 + 1, ic0) - flux1!(ic1, ic0)) / $(dx 1)) in
        scalar lu := (- $diver) + $alpha * u!(ic0, ic1) in
        put res!(ic0, ic1) := $b * f!(ic0, ic1) + $a * $lu)))%F.

  (** nodediffusionapply2d.m4:130-170 *)
  Definition nodepoissonapply2d (ifirst0 ilast0 ifirst1 ilast1 : Z) (beta : S) (dx : Z -> S)
      (fgcw : Z) (f flux0 flux1 : ptr) (a b : S) (rgcw : Z) (res : ptr) : mem S -> option (mem S) :=
    let f := mkFa f (CELL2d ifirst0 ifirst1 ilast0 ilast1 fgcw) in
    let flux0 := mkFa flux0 (FACE2d0 ifirst0 ifirst1 ilast0 ilast1 0) in
    let flux1 := mkFa flux1 (FACE2d1 ifirst0 ifirst1 ilast0 ilast1 0) in
    let res := mkFa res (CELL2d ifirst0 ifirst1 ilast0 ilast1 rgcw) in
    (do_ ifirst1 ilast1 (fun ic1 =>
      do_ ifirst0 ilast0 (fun ic0 =>
        scalar lu := (- ($beta * ((flux0!(ic0 + 1, ic1) - flux0!(ic0, ic1)) / $(dx 0) + (flux1!(ic1 + 1, ic0) - flux1!(ic1, ic0)) / $(dx 1)))) in
        put res!(ic0, ic1) := $b * f!(ic0, ic1) + $a * $lu)))%F.

  (** nodediffusionapply3d.m4:35-86 *)
  Definition nodediffusionv1apply3d (ifirst0 ilast0 ifirst1 ilast1 ifirst2 ilast2 : Z) (alpha
      beta : S) (dx : Z -> S) (agcw : Z) (acoef : ptr) (ugcw : Z) (u : ptr) (fgcw : Z) (f flux0 flux1
      flux2 : ptr) (a b : S) (rgcw : Z) (res : ptr) : mem S -> option (mem S) :=
    let acoef := mkFa acoef (CELL3d ifirst0 ifirst1 ifirst2 ilast0 ilast1 ilast2 agcw) in
    let u := mkFa u (CELL3d ifirst0 ifirst1 ifirst2 ilast0 ilast1 ilast2 ugcw) in
    let f := mkFa f (CELL3d ifirst0 ifirst1 ifirst2 ilast0 ilast1 ilast2 fgcw) in
    let flux0 := mkFa flux0 (FACE3d0 ifirst0 ifirst1 ifirst2 ilast0 ilast1 ilast2 0) in
    let flux1 := mkFa flux1 (FACE3d1 ifirst0 ifirst1 ifirst2 ilast0 ilast1 ilast2 0) in
    let flux2 := mkFa flux2 (FACE3d2 ifirst0 ifirst1 ifirst2 ilast0 ilast1 ilast2 0) in
    let res := mkFa res (CELL3d ifirst0 ifirst1 ifirst2 ilast0 ilast1 ilast2 rgcw) in
    (do_ ifirst2 ilast2 (fun k =>
      do_ ifirst1 ilast1 (fun j =>
        do_ ifirst0 ilast0 (fun i =>
          scalar diver := $beta * ((flux0!(i + 1, j, k) - flux0!(i, j, k)) / $(dx 0) + (flux1!(j + 1, k, i) - flux1!(j, k, i)) / $(dx 1) + (flux2!(k + 1, i, j) - flux2!(k, i, j)) / $(dx 2)) in
          scalar lu := (- $diver) + $alpha * acoef!(i, j, k) * u!(i, j, k) in
          put res!(i, j, k) := $b * f!(i, j, k) + $a * $lu))))%F.

  (** nodediffusionapply3d.m4:88-139 *)
  Definition nodediffusionv2apply3d (ifirst0 ilast0 ifirst1 ilast1 ifirst2 ilast2 : Z) (alpha
      beta : S) (dx : Z -> S) (ugcw : Z) (u : ptr) (fgcw : Z) (f flux0 flux1 flux2 : ptr) (a b : S)
      (rgcw : Z) (res : ptr) : mem S -> option (mem S) :=
    let u := mkFa u (CELL3d ifirst0 ifirst1 ifirst2 ilast0 ilast1 ilast2 ugcw) in
    let f := mkFa f (CELL3d ifirst0 ifirst1 ifirst2 ilast0 ilast1 ilast2 fgcw) in
    let flux0 := mkFa flux0 (FACE3d0 ifirst0 ifirst1 ifirst2 ilast0 ilast1 ilast2 0) in
    let flux1 := mkFa flux1 (FACE3d1 ifirst0 ifirst1 ifirst2 ilast0 ilast1 ilast2 0) in
    let flux2 := mkFa flux2 (FACE3d2 ifirst0 ifirst1 ifirst2 ilast0 ilast1 ilast2 0) in
    let res := mkFa res (CELL3d ifirst0 ifirst1 ifirst2 ilast0 ilast1 ilast2 rgcw) in
    (do_ ifirst2 ilast2 (fun k =>
      do_ ifirst1 ilast1 (fun j =>
        do_ ifirst0 ilast0 (fun i =>
          scalar diver := $beta * ((flux0!(i + 1, j, k) - flux0!(i, j, k)) / $(dx 0) + (flux1!(j + 1, k, i) - flux1!(j, k, i)) / $(dx 1) + (flux1!(k + 1, i, j) - flux1!(k, i, j)) / $(dx 2)) in
          scalar lu := (- $diver) + $alpha * u!(i, j, k) in
          put res!(i, j, k) := $b * f!(i, j, k) + $a * $lu))))%F.

  (** nodediffusionapply3d.m4:141-188 *)
  Definition nodepoissonapply3d (ifirst0 ilast0 ifirst1 ilast1 ifirst2 ilast2 : Z) (beta : S)
      (dx : Z -> S) (fgcw : Z) (f flux0 flux1 flux2 : ptr) (a b : S) (rgcw : Z) (res : ptr) : mem S -> option (mem S) :=
    let f := mkFa f (CELL3d ifirst0 ifirst1 ifirst2 ilast0 ilast1 ilast2 fgcw) in
    let flux0 := mkFa flux0 (FACE3d0 ifirst0 ifirst1 ifirst2 ilast0 ilast1 ilast2 0) in
    let flux1 := mkFa flux1 (FACE3d1 ifirst0 ifirst1 ifirst2 ilast0 ilast1 ilast2 0) in
    let flux2 := mkFa flux2 (FACE3d2 ifirst0 ifirst1 ifirst2 ilast0 ilast1 ilast2 0) in
    let res := mkFa res (CELL3d ifirst0 ifirst1 ifirst2 ilast0 ilast1 ilast2 rgcw) in
    (do_ ifirst2 ilast2 (fun k =>
      do_ ifirst1 ilast1 (fun j =>
        do_ ifirst0 ilast0 (fun i =>
          scalar lu := (- ($beta * ((flux0!(i + 1, j, k) - flux0!(i, j, k)) / $(dx 0) + (flux1!(j + 1, k, i) - flux1!(j, k, i)) / $(dx 1) + (flux1!(k + 1, i, j) - flux1!(k, i, j)) / $(dx 2)))) in
          put res!(i, j, k) := $b * f!(i, j, k) + $a * $lu))))%F.
End FortranNode.
