(** * Reference apply and residual subroutines: m4/celldiffusionapply{1,2,3}d.m4 *)

From Verif Require Import Base FortranBase.
Import ListNotations.
Open Scope Z_scope.
Open Scope fortran_scope.

Section Apply.
  Context {S : Scalar}.

  (** celldiffusionapply1d.m4:35-73 *)
  Definition celldiffusionv1res1d (ifirst0 ilast0 : Z) (alpha beta : S) (dx : Z -> S) (agcw : Z) (acoef : ptr) (ugcw : Z) (u : ptr) (fgcw : Z) (f : ptr) (flux0 : ptr) (rgcw : Z) (res : ptr)
      : mem S -> option (mem S) :=
    let acoef := mkFa acoef (CELL1d ifirst0 ilast0 agcw) in
    let u := mkFa u (CELL1d ifirst0 ilast0 ugcw) in
    let f := mkFa f (CELL1d ifirst0 ilast0 fgcw) in
    let res := mkFa res (CELL1d ifirst0 ilast0 rgcw) in
    let flux0 := mkFa flux0 (FACE1d ifirst0 ilast0 0) in
    do_ ifirst0 ilast0 (fun ic0 =>
      let diver := $beta * ((flux0!(ic0 + 1) - flux0!(ic0)) / $(dx 0)) in
      let lu := - diver + $alpha * acoef!(ic0) * u!(ic0) in
      put res!(ic0) := f!(ic0) - lu).

  (** celldiffusionapply1d.m4:75-110 *)
  Definition celldiffusionv2res1d (ifirst0 ilast0 : Z) (alpha beta : S) (dx : Z -> S) (ugcw : Z) (u : ptr) (fgcw : Z) (f : ptr) (flux0 : ptr) (rgcw : Z) (res : ptr)
      : mem S -> option (mem S) :=
    let u := mkFa u (CELL1d ifirst0 ilast0 ugcw) in
    let f := mkFa f (CELL1d ifirst0 ilast0 fgcw) in
    let res := mkFa res (CELL1d ifirst0 ilast0 rgcw) in
    let flux0 := mkFa flux0 (FACE1d ifirst0 ilast0 0) in
    do_ ifirst0 ilast0 (fun ic0 =>
      let diver := $beta * ((flux0!(ic0 + 1) - flux0!(ic0)) / $(dx 0)) in
      let lu := - diver + $alpha * u!(ic0) in
      put res!(ic0) := f!(ic0) - lu).

  (** celldiffusionapply1d.m4:112-143 *)
  Definition cellpoissonv1res1d (ifirst0 ilast0 : Z) (beta : S) (dx : Z -> S) (fgcw : Z) (f : ptr) (flux0 : ptr) (rgcw : Z) (res : ptr)
      : mem S -> option (mem S) :=
    let f := mkFa f (CELL1d ifirst0 ilast0 fgcw) in
    let res := mkFa res (CELL1d ifirst0 ilast0 rgcw) in
    let flux0 := mkFa flux0 (FACE1d ifirst0 ilast0 0) in
    do_ ifirst0 ilast0 (fun ic0 =>
      let lu := - ($beta * ((flux0!(ic0 + 1) - flux0!(ic0)) / $(dx 0))) in
      put res!(ic0) := f!(ic0) - lu).

  (** celldiffusionapply1d.m4:145-179 *)
  Definition celldiffusionv1apply1d (ifirst0 ilast0 : Z) (alpha beta : S) (dx : Z -> S) (agcw : Z) (acoef : ptr) (ugcw : Z) (u : ptr) (flux0 : ptr) (rgcw : Z) (res : ptr)
      : mem S -> option (mem S) :=
    let acoef := mkFa acoef (CELL1d ifirst0 ilast0 agcw) in
    let u := mkFa u (CELL1d ifirst0 ilast0 ugcw) in
    let res := mkFa res (CELL1d ifirst0 ilast0 rgcw) in
    let flux0 := mkFa flux0 (FACE1d ifirst0 ilast0 0) in
    do_ ifirst0 ilast0 (fun ic0 =>
      let diver := $beta * ((flux0!(ic0 + 1) - flux0!(ic0)) / $(dx 0)) in
      put res!(ic0) := - diver + $alpha * acoef!(ic0) * u!(ic0)).

  (** celldiffusionapply1d.m4:181-212 *)
  Definition celldiffusionv2apply1d (ifirst0 ilast0 : Z) (alpha beta : S) (dx : Z -> S) (ugcw : Z) (u : ptr) (flux0 : ptr) (rgcw : Z) (res : ptr)
      : mem S -> option (mem S) :=
    let u := mkFa u (CELL1d ifirst0 ilast0 ugcw) in
    let res := mkFa res (CELL1d ifirst0 ilast0 rgcw) in
    let flux0 := mkFa flux0 (FACE1d ifirst0 ilast0 0) in
    do_ ifirst0 ilast0 (fun ic0 =>
      let diver := $beta * ((flux0!(ic0 + 1) - flux0!(ic0)) / $(dx 0)) in
      put res!(ic0) := - diver + $alpha * u!(ic0)).

  (** celldiffusionapply1d.m4:214-239 *)
  Definition cellpoissonv2apply1d (ifirst0 ilast0 : Z) (beta : S) (dx : Z -> S) (flux0 : ptr) (rgcw : Z) (res : ptr)
      : mem S -> option (mem S) :=
    let res := mkFa res (CELL1d ifirst0 ilast0 rgcw) in
    let flux0 := mkFa flux0 (FACE1d ifirst0 ilast0 0) in
    do_ ifirst0 ilast0 (fun ic0 =>
      put res!(ic0) := - ($beta * ((flux0!(ic0 + 1) - flux0!(ic0)) / $(dx 0)))).

  (** celldiffusionapply2d.m4:35-78 *)
  Definition celldiffusionv1res2d (ifirst0 ilast0 ifirst1 ilast1 : Z) (alpha beta : S) (dx : Z -> S) (agcw : Z) (acoef : ptr) (ugcw : Z) (u : ptr) (fgcw : Z) (f : ptr) (flux0 flux1 : ptr) (rgcw : Z) (res : ptr)
      : mem S -> option (mem S) :=
    let acoef := mkFa acoef (CELL2d ifirst0 ifirst1 ilast0 ilast1 agcw) in
    let u := mkFa u (CELL2d ifirst0 ifirst1 ilast0 ilast1 ugcw) in
    let f := mkFa f (CELL2d ifirst0 ifirst1 ilast0 ilast1 fgcw) in
    let res := mkFa res (CELL2d ifirst0 ifirst1 ilast0 ilast1 rgcw) in
    let flux0 := mkFa flux0 (FACE2d0 ifirst0 ifirst1 ilast0 ilast1 0) in
    let flux1 := mkFa flux1 (FACE2d1 ifirst0 ifirst1 ilast0 ilast1 0) in
    do_ ifirst1 ilast1 (fun ic1 => do_ ifirst0 ilast0 (fun ic0 =>
      let diver := $beta * ((flux0!(ic0 + 1, ic1) - flux0!(ic0, ic1)) / $(dx 0) +
          (flux1!(ic1 + 1, ic0) - flux1!(ic1, ic0)) / $(dx 1)) in
      let lu := - diver + $alpha * acoef!(ic0, ic1) * u!(ic0, ic1) in
      put res!(ic0, ic1) := f!(ic0, ic1) - lu)).

  (** celldiffusionapply2d.m4:80-122 *)
  Definition celldiffusionv2res2d (ifirst0 ilast0 ifirst1 ilast1 : Z) (alpha beta : S) (dx : Z -> S) (ugcw : Z) (u : ptr) (fgcw : Z) (f : ptr) (flux0 flux1 : ptr) (rgcw : Z) (res : ptr)
      : mem S -> option (mem S) :=
    let u := mkFa u (CELL2d ifirst0 ifirst1 ilast0 ilast1 ugcw) in
    let f := mkFa f (CELL2d ifirst0 ifirst1 ilast0 ilast1 fgcw) in
    let res := mkFa res (CELL2d ifirst0 ifirst1 ilast0 ilast1 rgcw) in
    let flux0 := mkFa flux0 (FACE2d0 ifirst0 ifirst1 ilast0 ilast1 0) in
    let flux1 := mkFa flux1 (FACE2d1 ifirst0 ifirst1 ilast0 ilast1 0) in
    do_ ifirst1 ilast1 (fun ic1 => do_ ifirst0 ilast0 (fun ic0 =>
      let diver := $beta * ((flux0!(ic0 + 1, ic1) - flux0!(ic0, ic1)) / $(dx 0) +
          (flux1!(ic1 + 1, ic0) - flux1!(ic1, ic0)) / $(dx 1)) in
      let lu := - diver + $alpha * u!(ic0, ic1) in
      put res!(ic0, ic1) := f!(ic0, ic1) - lu)).

  (** celldiffusionapply2d.m4:124-160 *)
  Definition cellpoissonv1res2d (ifirst0 ilast0 ifirst1 ilast1 : Z) (beta : S) (dx : Z -> S) (fgcw : Z) (f : ptr) (flux0 flux1 : ptr) (rgcw : Z) (res : ptr)
      : mem S -> option (mem S) :=
    let f := mkFa f (CELL2d ifirst0 ifirst1 ilast0 ilast1 fgcw) in
    let res := mkFa res (CELL2d ifirst0 ifirst1 ilast0 ilast1 rgcw) in
    let flux0 := mkFa flux0 (FACE2d0 ifirst0 ifirst1 ilast0 ilast1 0) in
    let flux1 := mkFa flux1 (FACE2d1 ifirst0 ifirst1 ilast0 ilast1 0) in
    do_ ifirst1 ilast1 (fun ic1 => do_ ifirst0 ilast0 (fun ic0 =>
      let lu := - ($beta * ((flux0!(ic0 + 1, ic1) - flux0!(ic0, ic1)) / $(dx 0) +
          (flux1!(ic1 + 1, ic0) - flux1!(ic1, ic0)) / $(dx 1))) in
      put res!(ic0, ic1) := f!(ic0, ic1) - lu)).

  (** celldiffusionapply2d.m4:162-201 *)
  Definition celldiffusionv1apply2d (ifirst0 ilast0 ifirst1 ilast1 : Z) (alpha beta : S) (dx : Z -> S) (agcw : Z) (acoef : ptr) (ugcw : Z) (u : ptr) (flux0 flux1 : ptr) (rgcw : Z) (res : ptr)
      : mem S -> option (mem S) :=
    let acoef := mkFa acoef (CELL2d ifirst0 ifirst1 ilast0 ilast1 agcw) in
    let u := mkFa u (CELL2d ifirst0 ifirst1 ilast0 ilast1 ugcw) in
    let res := mkFa res (CELL2d ifirst0 ifirst1 ilast0 ilast1 rgcw) in
    let flux0 := mkFa flux0 (FACE2d0 ifirst0 ifirst1 ilast0 ilast1 0) in
    let flux1 := mkFa flux1 (FACE2d1 ifirst0 ifirst1 ilast0 ilast1 0) in
    do_ ifirst1 ilast1 (fun ic1 => do_ ifirst0 ilast0 (fun ic0 =>
      let diver := $beta * ((flux0!(ic0 + 1, ic1) - flux0!(ic0, ic1)) / $(dx 0) +
          (flux1!(ic1 + 1, ic0) - flux1!(ic1, ic0)) / $(dx 1)) in
      put res!(ic0, ic1) := - diver + $alpha * acoef!(ic0, ic1) * u!(ic0, ic1))).

  (** celldiffusionapply2d.m4:203-239 *)
  Definition celldiffusionv2apply2d (ifirst0 ilast0 ifirst1 ilast1 : Z) (alpha beta : S) (dx : Z -> S) (ugcw : Z) (u : ptr) (flux0 flux1 : ptr) (rgcw : Z) (res : ptr)
      : mem S -> option (mem S) :=
    let u := mkFa u (CELL2d ifirst0 ifirst1 ilast0 ilast1 ugcw) in
    let res := mkFa res (CELL2d ifirst0 ifirst1 ilast0 ilast1 rgcw) in
    let flux0 := mkFa flux0 (FACE2d0 ifirst0 ifirst1 ilast0 ilast1 0) in
    let flux1 := mkFa flux1 (FACE2d1 ifirst0 ifirst1 ilast0 ilast1 0) in
    do_ ifirst1 ilast1 (fun ic1 => do_ ifirst0 ilast0 (fun ic0 =>
      let diver := $beta * ((flux0!(ic0 + 1, ic1) - flux0!(ic0, ic1)) / $(dx 0) +
          (flux1!(ic1 + 1, ic0) - flux1!(ic1, ic0)) / $(dx 1)) in
      put res!(ic0, ic1) := - diver + $alpha * u!(ic0, ic1))).

  (** celldiffusionapply2d.m4:241-271 *)
  Definition cellpoissonv2apply2d (ifirst0 ilast0 ifirst1 ilast1 : Z) (beta : S) (dx : Z -> S) (flux0 flux1 : ptr) (rgcw : Z) (res : ptr)
      : mem S -> option (mem S) :=
    let res := mkFa res (CELL2d ifirst0 ifirst1 ilast0 ilast1 rgcw) in
    let flux0 := mkFa flux0 (FACE2d0 ifirst0 ifirst1 ilast0 ilast1 0) in
    let flux1 := mkFa flux1 (FACE2d1 ifirst0 ifirst1 ilast0 ilast1 0) in
    do_ ifirst1 ilast1 (fun ic1 => do_ ifirst0 ilast0 (fun ic0 =>
      put res!(ic0, ic1) := - ($beta * ((flux0!(ic0 + 1, ic1) - flux0!(ic0, ic1)) / $(dx 0) +
          (flux1!(ic1 + 1, ic0) - flux1!(ic1, ic0)) / $(dx 1))))).

  (** celldiffusionapply3d.m4:35-82 *)
  Definition celldiffusionv1res3d (ifirst0 ilast0 ifirst1 ilast1 ifirst2 ilast2 : Z) (alpha beta : S) (dx : Z -> S) (agcw : Z) (acoef : ptr) (ugcw : Z) (u : ptr) (fgcw : Z) (f : ptr) (flux0 flux1 flux2 : ptr) (rgcw : Z) (res : ptr)
      : mem S -> option (mem S) :=
    let acoef := mkFa acoef (CELL3d ifirst0 ifirst1 ifirst2 ilast0 ilast1 ilast2 agcw) in
    let u := mkFa u (CELL3d ifirst0 ifirst1 ifirst2 ilast0 ilast1 ilast2 ugcw) in
    let f := mkFa f (CELL3d ifirst0 ifirst1 ifirst2 ilast0 ilast1 ilast2 fgcw) in
    let res := mkFa res (CELL3d ifirst0 ifirst1 ifirst2 ilast0 ilast1 ilast2 rgcw) in
    let flux0 := mkFa flux0 (FACE3d0 ifirst0 ifirst1 ifirst2 ilast0 ilast1 ilast2 0) in
    let flux1 := mkFa flux1 (FACE3d1 ifirst0 ifirst1 ifirst2 ilast0 ilast1 ilast2 0) in
    let flux2 := mkFa flux2 (FACE3d2 ifirst0 ifirst1 ifirst2 ilast0 ilast1 ilast2 0) in
    do_ ifirst2 ilast2 (fun k => do_ ifirst1 ilast1 (fun j => do_ ifirst0 ilast0 (fun i =>
      let diver := $beta * ((flux0!(i + 1, j, k) - flux0!(i, j, k)) / $(dx 0) +
          (flux1!(j + 1, k, i) - flux1!(j, k, i)) / $(dx 1) +
          (flux2!(k + 1, i, j) - flux2!(k, i, j)) / $(dx 2)) in
      let lu := - diver + $alpha * acoef!(i, j, k) * u!(i, j, k) in
      put res!(i, j, k) := f!(i, j, k) - lu))).

  (** celldiffusionapply3d.m4:84-131 *)
  Definition celldiffusionv2res3d (ifirst0 ilast0 ifirst1 ilast1 ifirst2 ilast2 : Z) (alpha beta : S) (dx : Z -> S) (ugcw : Z) (u : ptr) (fgcw : Z) (f : ptr) (flux0 flux1 flux2 : ptr) (rgcw : Z) (res : ptr)
      : mem S -> option (mem S) :=
    let u := mkFa u (CELL3d ifirst0 ifirst1 ifirst2 ilast0 ilast1 ilast2 ugcw) in
    let f := mkFa f (CELL3d ifirst0 ifirst1 ifirst2 ilast0 ilast1 ilast2 fgcw) in
    let res := mkFa res (CELL3d ifirst0 ifirst1 ifirst2 ilast0 ilast1 ilast2 rgcw) in
    let flux0 := mkFa flux0 (FACE3d0 ifirst0 ifirst1 ifirst2 ilast0 ilast1 ilast2 0) in
    let flux1 := mkFa flux1 (FACE3d1 ifirst0 ifirst1 ifirst2 ilast0 ilast1 ilast2 0) in
    let flux2 := mkFa flux2 (FACE3d2 ifirst0 ifirst1 ifirst2 ilast0 ilast1 ilast2 0) in
    do_ ifirst2 ilast2 (fun k => do_ ifirst1 ilast1 (fun j => do_ ifirst0 ilast0 (fun i =>
      let diver := $beta * ((flux0!(i + 1, j, k) - flux0!(i, j, k)) / $(dx 0) +
          (flux1!(j + 1, k, i) - flux1!(j, k, i)) / $(dx 1) +
          (flux2!(k + 1, i, j) - flux2!(k, i, j)) / $(dx 2)) in
      let lu := - diver + $alpha * u!(i, j, k) in
      put res!(i, j, k) := f!(i, j, k) - lu))).

  (** celldiffusionapply3d.m4:133-176 *)
  Definition cellpoissonv1res3d (ifirst0 ilast0 ifirst1 ilast1 ifirst2 ilast2 : Z) (beta : S) (dx : Z -> S) (fgcw : Z) (f : ptr) (flux0 flux1 flux2 : ptr) (rgcw : Z) (res : ptr)
      : mem S -> option (mem S) :=
    let f := mkFa f (CELL3d ifirst0 ifirst1 ifirst2 ilast0 ilast1 ilast2 fgcw) in
    let res := mkFa res (CELL3d ifirst0 ifirst1 ifirst2 ilast0 ilast1 ilast2 rgcw) in
    let flux0 := mkFa flux0 (FACE3d0 ifirst0 ifirst1 ifirst2 ilast0 ilast1 ilast2 0) in
    let flux1 := mkFa flux1 (FACE3d1 ifirst0 ifirst1 ifirst2 ilast0 ilast1 ilast2 0) in
    let flux2 := mkFa flux2 (FACE3d2 ifirst0 ifirst1 ifirst2 ilast0 ilast1 ilast2 0) in
    do_ ifirst2 ilast2 (fun k => do_ ifirst1 ilast1 (fun j => do_ ifirst0 ilast0 (fun i =>
      let lu := - ($beta * ((flux0!(i + 1, j, k) - flux0!(i, j, k)) / $(dx 0) +
          (flux1!(j + 1, k, i) - flux1!(j, k, i)) / $(dx 1) +
          (flux2!(k + 1, i, j) - flux2!(k, i, j)) / $(dx 2))) in
      put res!(i, j, k) := f!(i, j, k) - lu))).

  (** celldiffusionapply3d.m4:178-221 *)
  Definition celldiffusionv1apply3d (ifirst0 ilast0 ifirst1 ilast1 ifirst2 ilast2 : Z) (alpha beta : S) (dx : Z -> S) (agcw : Z) (acoef : ptr) (ugcw : Z) (u : ptr) (flux0 flux1 flux2 : ptr) (rgcw : Z) (res : ptr)
      : mem S -> option (mem S) :=
    let acoef := mkFa acoef (CELL3d ifirst0 ifirst1 ifirst2 ilast0 ilast1 ilast2 agcw) in
    let u := mkFa u (CELL3d ifirst0 ifirst1 ifirst2 ilast0 ilast1 ilast2 ugcw) in
    let res := mkFa res (CELL3d ifirst0 ifirst1 ifirst2 ilast0 ilast1 ilast2 rgcw) in
    let flux0 := mkFa flux0 (FACE3d0 ifirst0 ifirst1 ifirst2 ilast0 ilast1 ilast2 0) in
    let flux1 := mkFa flux1 (FACE3d1 ifirst0 ifirst1 ifirst2 ilast0 ilast1 ilast2 0) in
    let flux2 := mkFa flux2 (FACE3d2 ifirst0 ifirst1 ifirst2 ilast0 ilast1 ilast2 0) in
    do_ ifirst2 ilast2 (fun k => do_ ifirst1 ilast1 (fun j => do_ ifirst0 ilast0 (fun i =>
      let diver := $beta * ((flux0!(i + 1, j, k) - flux0!(i, j, k)) / $(dx 0) +
          (flux1!(j + 1, k, i) - flux1!(j, k, i)) / $(dx 1) +
          (flux2!(k + 1, i, j) - flux2!(k, i, j)) / $(dx 2)) in
      put res!(i, j, k) := - diver + $alpha * acoef!(i, j, k) * u!(i, j, k)))).

  (** celldiffusionapply3d.m4:223-266 *)
  Definition celldiffusionv2apply3d (ifirst0 ilast0 ifirst1 ilast1 ifirst2 ilast2 : Z) (alpha beta : S) (dx : Z -> S) (ugcw : Z) (u : ptr) (flux0 flux1 flux2 : ptr) (rgcw : Z) (res : ptr)
      : mem S -> option (mem S) :=
    let u := mkFa u (CELL3d ifirst0 ifirst1 ifirst2 ilast0 ilast1 ilast2 ugcw) in
    let res := mkFa res (CELL3d ifirst0 ifirst1 ifirst2 ilast0 ilast1 ilast2 rgcw) in
    let flux0 := mkFa flux0 (FACE3d0 ifirst0 ifirst1 ifirst2 ilast0 ilast1 ilast2 0) in
    let flux1 := mkFa flux1 (FACE3d1 ifirst0 ifirst1 ifirst2 ilast0 ilast1 ilast2 0) in
    let flux2 := mkFa flux2 (FACE3d2 ifirst0 ifirst1 ifirst2 ilast0 ilast1 ilast2 0) in
    do_ ifirst2 ilast2 (fun k => do_ ifirst1 ilast1 (fun j => do_ ifirst0 ilast0 (fun i =>
      let diver := $beta * ((flux0!(i + 1, j, k) - flux0!(i, j, k)) / $(dx 0) +
          (flux1!(j + 1, k, i) - flux1!(j, k, i)) / $(dx 1) +
          (flux2!(k + 1, i, j) - flux2!(k, i, j)) / $(dx 2)) in
      put res!(i, j, k) := - diver + $alpha * u!(i, j, k)))).

  (** celldiffusionapply3d.m4:268-305 *)
  Definition cellpoissonv2apply3d (ifirst0 ilast0 ifirst1 ilast1 ifirst2 ilast2 : Z) (beta : S) (dx : Z -> S) (flux0 flux1 flux2 : ptr) (rgcw : Z) (res : ptr)
      : mem S -> option (mem S) :=
    let res := mkFa res (CELL3d ifirst0 ifirst1 ifirst2 ilast0 ilast1 ilast2 rgcw) in
    let flux0 := mkFa flux0 (FACE3d0 ifirst0 ifirst1 ifirst2 ilast0 ilast1 ilast2 0) in
    let flux1 := mkFa flux1 (FACE3d1 ifirst0 ifirst1 ifirst2 ilast0 ilast1 ilast2 0) in
    let flux2 := mkFa flux2 (FACE3d2 ifirst0 ifirst1 ifirst2 ilast0 ilast1 ilast2 0) in
    do_ ifirst2 ilast2 (fun k => do_ ifirst1 ilast1 (fun j => do_ ifirst0 ilast0 (fun i =>
      put res!(i, j, k) := - ($beta * ((flux0!(i + 1, j, k) - flux0!(i, j, k)) / $(dx 0) +
          (flux1!(j + 1, k, i) - flux1!(j, k, i)) / $(dx 1) +
          (flux2!(k + 1, i, j) - flux2!(k, i, j)) / $(dx 2)))))).
End Apply.
