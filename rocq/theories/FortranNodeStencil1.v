(** * Node-centred stencil coefficients, 1D

    Transcribed statement by statement by tools/f2v.py from the m4 sources.  An
    assignment to a local scalar is the binding [scalar x := e in ...], evaluated
    where it stands; assignments to variables that are never read are left out. *)

From Verif Require Import Base FortranBase.
Import ListNotations.
Open Scope Z_scope.

Section FortranNodeStencil1.
  Context {S : Scalar}.

  (** nodediffusionstencilcoeffs1d.m4:38-78 *)
  Definition nodediffusionoffdiag1d (ifirst0 ilast0 bilo0 bihi0 : Z) (dx : Z -> S) (beta : S) (b0
      stencil : ptr) : mem S -> option (mem S) :=
    let b0 := mkFa b0 (FACE1d bilo0 bihi0 0) in
    let stencil := mkFa stencil ((0, 2) :: CELL1d ifirst0 ilast0 0) in
    (scalar d0 := (- ($beta / ($(dx 0) * $(dx 0)))) in
    do_ ifirst0 ilast0 (fun ie0 =>
      put stencil!(1, ie0) := $d0 * b0!(ie0) ;;;
      put stencil!(2, ie0) := $d0 * b0!(ie0 + 1)))%F.

  (** nodediffusionstencilcoeffs1d.m4:80-111 *)
  Definition nodepoissonoffdiag1d (ifirst0 ilast0 : Z) (dx : Z -> S) (beta : S) (stencil : ptr) : mem S -> option (mem S) :=
    let stencil := mkFa stencil ((0, 2) :: CELL1d ifirst0 ilast0 0) in
    (scalar d0 := (- ($beta / ($(dx 0) * $(dx 0)))) in
    do_ ifirst0 ilast0 (fun ie0 =>
      put stencil!(1, ie0) := $d0 ;;;
      put stencil!(2, ie0) := $d0))%F.

  (** nodediffusionstencilcoeffs1d.m4:114-146 *)
  Definition nodediffusionv1diag1d (ifirst0 ilast0 ailo0 aihi0 : Z) (alpha : S) (a stencil : ptr) : mem S -> option (mem S) :=
    let a := mkFa a (CELL1d ailo0 aihi0 0) in
    let stencil := mkFa stencil ((0, 2) :: CELL1d ifirst0 ilast0 0) in
    (do_ ifirst0 ilast0 (fun ic0 =>
      put stencil!(0, ic0) := (- (stencil!(1, ic0) + stencil!(2, ic0))) + $alpha * a!(ic0)))%F.

  (** nodediffusionstencilcoeffs1d.m4:149-173 *)
  Definition nodediffusionv2diag1d (ifirst0 ilast0 : Z) (alpha : S) (stencil : ptr) : mem S -> option (mem S) :=
    let stencil := mkFa stencil ((0, 2) :: CELL1d ifirst0 ilast0 0) in
    (do_ ifirst0 ilast0 (fun ic0 =>
      put stencil!(0, ic0) := (- (stencil!(1, ic0) + stencil!(2, ic0))) + $alpha))%F.

  (** nodediffusionstencilcoeffs1d.m4:176-198 *)
  Definition nodepoissondiag1d (ifirst0 ilast0 : Z) (stencil : ptr) : mem S -> option (mem S) :=
    let stencil := mkFa stencil ((0, 2) :: CELL1d ifirst0 ilast0 0) in
    (do_ ifirst0 ilast0 (fun ic0 =>
      put stencil!(0, ic0) := (- (stencil!(1, ic0) + stencil!(2, ic0)))))%F.

  (** nodediffusionstencilcoeffs1d.m4:201-258 *)
  Definition adjnodediffusiondiag1d (ifirst0 ilast0 pfirst0 plast0 side bdrytype extrapOrder : Z)
      (dx : Z -> S) (beta : S) (b0 stencil : ptr) : mem S -> option (mem S) :=
    let b0 := mkFa b0 (FACE1d ifirst0 ilast0 0) in
    let stencil := mkFa stencil ((0, 2) :: CELL1d ifirst0 ilast0 0) in
    ((if (bdrytype =? 4)%Z then
      let ie0 := (pfirst0 - 2 * side + 1)%Z in
      let edge := (pfirst0 - side + 1)%Z in
      scalar h := $(dx 0) in
      (if (side =? 0)%Z then
        (if (extrapOrder =? 1)%Z then
          fskip
        else if (extrapOrder =? 2)%Z then
          scalar factor := $beta * b0!(edge) / $h * (#3 * $h + #16 * b0!(edge)) in
          put stencil!(0, ie0) := stencil!(0, ie0) - $factor
        else
          fskip)
      else
        (if (extrapOrder =? 1)%Z then
          fskip
        else if (extrapOrder =? 2)%Z then
          scalar factor := $beta * b0!(edge) / $h * (#3 * $h + #16 * b0!(edge)) in
          put stencil!(0, ie0) := stencil!(0, ie0) - $factor
        else
          fskip))
    else
      (if (bdrytype =? 1)%Z then
        fskip
      else if (bdrytype =? 0)%Z then
        fskip
      else
        fskip)))%F.

  (** nodediffusionstencilcoeffs1d.m4:260-316 *)
  Definition adjnodepoissondiag1d (ifirst0 ilast0 pfirst0 plast0 side bdrytype extrapOrder : Z)
      (dx : Z -> S) (beta : S) (stencil : ptr) : mem S -> option (mem S) :=
    let stencil := mkFa stencil ((0, 2) :: CELL1d ifirst0 ilast0 0) in
    ((if (bdrytype =? 4)%Z then
      let ie0 := (pfirst0 - 2 * side + 1)%Z in
      scalar h := $(dx 0) in
      (if (side =? 0)%Z then
        (if (extrapOrder =? 1)%Z then
          fskip
        else if (extrapOrder =? 2)%Z then
          scalar factor := $beta / $h * (#3 * $h + #16) in
          put stencil!(0, ie0) := stencil!(0, ie0) - $factor
        else
          fskip)
      else
        (if (extrapOrder =? 1)%Z then
          fskip
        else if (extrapOrder =? 2)%Z then
          scalar factor := $beta / $h * (#3 * $h + #16) in
          put stencil!(0, ie0) := stencil!(0, ie0) - $factor
        else
          fskip))
    else
      (if (bdrytype =? 1)%Z then
        fskip
      else if (bdrytype =? 0)%Z then
        fskip
      else
        fskip)))%F.

  (** nodediffusionstencilcoeffs1d.m4:318-369 *)
  Definition adjnodediffusioncfdiag1d (ifirst0 ilast0 pfirst0 plast0 r side interporder : Z)
      (dx : Z -> S) (beta : S) (b0 stencil : ptr) : mem S -> option (mem S) :=
    let b0 := mkFa b0 (FACE1d ifirst0 ilast0 0) in
    let stencil := mkFa stencil ((0, 2) :: CELL1d ifirst0 ilast0 0) in
    (scalar dr := #r in
    scalar dr1 := #2 * ($dr - #1) / ($dr + #1) in
    let ie0 := (pfirst0 - 2 * side + 1)%Z in
    let edge := (pfirst0 - side + 1)%Z in
    scalar h := $(dx 0) in
    (if (interporder =? 1)%Z then
      scalar factor := $beta * b0!(edge) / (#3 * ($h * $h)) in
      put stencil!(0, ie0) := stencil!(0, ie0) - $factor
    else if (interporder =? 2)%Z then
      scalar factor := $dr1 * $beta * b0!(edge) / ($h * $h) in
      put stencil!(0, ie0) := stencil!(0, ie0) - $factor
    else
      fskip))%F.

  (** nodediffusionstencilcoeffs1d.m4:371-416 *)
  Definition adjnodepoissoncfdiag1d (ifirst0 ilast0 pfirst0 plast0 r side interporder : Z)
      (dx : Z -> S) (beta : S) (stencil : ptr) : mem S -> option (mem S) :=
    let stencil := mkFa stencil ((0, 2) :: CELL1d ifirst0 ilast0 0) in
    (scalar dr := #r in
    scalar dr1 := #2 * ($dr - #1) / ($dr + #1) in
    let ie0 := (pfirst0 - 2 * side + 1)%Z in
    scalar h := $(dx 0) in
    (if (interporder =? 1)%Z then
      scalar factor := $beta / (#3 * ($h * $h)) in
      put stencil!(0, ie0) := stencil!(0, ie0) - $factor
    else if (interporder =? 2)%Z then
      scalar factor := $dr1 * $beta / ($h * $h) in
      put stencil!(0, ie0) := stencil!(0, ie0) - $factor
    else
      fskip))%F.

  (** nodediffusionstencilcoeffs1d.m4:419-505 *)
  Definition adjnodediffusionoffdiag1d (ifirst0 ilast0 pfirst0 plast0 side bdrytype extrapOrder : Z)
      (dx : Z -> S) (dirfactor neufactor beta : S) (b0 stencil : ptr) : mem S -> option (mem S) :=
    let b0 := mkFa b0 (FACE1d ifirst0 ilast0 0) in
    let stencil := mkFa stencil ((0, 2) :: CELL1d ifirst0 ilast0 0) in
    ((if (bdrytype =? 4)%Z then
      let ie0 := (pfirst0 - side + 1)%Z in
      scalar h := $(dx 0) in
      (if (side =? 0)%Z then
        (if (extrapOrder =? 1)%Z then
          scalar factor := #2 * $h / (#4 * b0!(ie0) + $h) in
          put stencil!(1, ie0) := $factor * stencil!(1, ie0)
        else if (extrapOrder =? 2)%Z then
          scalar factor := $beta * b0!(ie0) / ($h * (#3 * $h + #16 * b0!(ie0))) in
          put stencil!(1, ie0) := (- (#9 * $factor)) ;;;
          put stencil!(2, ie0) := stencil!(2, ie0) - $factor
        else
          fskip)
      else
        (if (extrapOrder =? 1)%Z then
          scalar factor := #2 * $h / (#4 * b0!(ie0) + $h) in
          put stencil!(2, ie0 - 1) := $factor * stencil!(2, ie0 - 1)
        else if (extrapOrder =? 2)%Z then
          scalar factor := $beta * b0!(ie0) / ($h * (#3 * $h + #16 * b0!(ie0))) in
          put stencil!(2, ie0 - 1) := (- (#9 * $factor)) ;;;
          put stencil!(1, ie0 - 1) := stencil!(1, ie0 - 1) - $factor
        else
          fskip))
    else if (bdrytype =? 0)%Z then
      scalar factor := $dirfactor in
      let ie0 := (pfirst0 - side + 1)%Z in
      (if (side =? 0)%Z then
        (if (extrapOrder =? 1)%Z then
          put stencil!(1, ie0) := stencil!(1, ie0) * $factor
        else if (extrapOrder =? 2)%Z then
          put stencil!(2, ie0) := stencil!(2, ie0) + stencil!(1, ie0) / #3 ;;;
          put stencil!(1, ie0) := #8 * stencil!(1, ie0) / #3
        else
          fskip)
      else
        (if (extrapOrder =? 1)%Z then
          put stencil!(2, ie0 - 1) := stencil!(2, ie0 - 1) * $factor
        else if (extrapOrder =? 2)%Z then
          put stencil!(1, ie0 - 1) := stencil!(1, ie0 - 1) + stencil!(2, ie0 - 1) / #3 ;;;
          put stencil!(2, ie0 - 1) := #8 * stencil!(2, ie0 - 1) / #3
        else
          fskip))
    else if (bdrytype =? 1)%Z then
      let ie0 := (pfirst0 - side + 1)%Z in
      (if (side =? 0)%Z then
        put stencil!(1, ie0) := #0
      else
        put stencil!(2, ie0 - 1) := #0)
    else
      fskip))%F.

  (** nodediffusionstencilcoeffs1d.m4:507-591 *)
  Definition adjnodepoissonoffdiag1d (ifirst0 ilast0 pfirst0 plast0 side bdrytype extrapOrder : Z)
      (dx : Z -> S) (dirfactor neufactor beta : S) (stencil : ptr) : mem S -> option (mem S) :=
    let stencil := mkFa stencil ((0, 2) :: CELL1d ifirst0 ilast0 0) in
    ((if (bdrytype =? 4)%Z then
      let ie0 := (pfirst0 - side + 1)%Z in
      scalar h := $(dx 0) in
      (if (side =? 0)%Z then
        (if (extrapOrder =? 1)%Z then
          scalar factor := #2 * $h / (#4 + $h) in
          put stencil!(1, ie0) := $factor * stencil!(1, ie0)
        else if (extrapOrder =? 2)%Z then
          scalar factor := $beta / ($h * (#3 * $h + #16)) in
          put stencil!(1, ie0) := (- (#9 * $factor)) ;;;
          put stencil!(2, ie0) := stencil!(2, ie0) - $factor
        else
          fskip)
      else
        (if (extrapOrder =? 1)%Z then
          scalar factor := #2 * $h / (#4 + $h) in
          put stencil!(2, ie0 - 1) := $factor * stencil!(2, ie0 - 1)
        else if (extrapOrder =? 2)%Z then
          scalar factor := $beta / ($h * (#3 * $h + #16)) in
          put stencil!(2, ie0 - 1) := (- (#9 * $factor)) ;;;
          put stencil!(1, ie0 - 1) := stencil!(1, ie0 - 1) - $factor
        else
          fskip))
    else if (bdrytype =? 0)%Z then
      scalar factor := $dirfactor in
      let ie0 := (pfirst0 - side + 1)%Z in
      (if (side =? 0)%Z then
        (if (extrapOrder =? 1)%Z then
          put stencil!(1, ie0) := stencil!(1, ie0) * $factor
        else if (extrapOrder =? 2)%Z then
          put stencil!(2, ie0) := stencil!(2, ie0) + stencil!(1, ie0) / #3 ;;;
          put stencil!(1, ie0) := #8 * stencil!(1, ie0) / #3
        else
          fskip)
      else
        (if (extrapOrder =? 1)%Z then
          put stencil!(2, ie0 - 1) := stencil!(2, ie0 - 1) * $factor
        else if (extrapOrder =? 2)%Z then
          put stencil!(1, ie0 - 1) := stencil!(1, ie0 - 1) + stencil!(2, ie0 - 1) / #3 ;;;
          put stencil!(2, ie0 - 1) := #8 * stencil!(2, ie0 - 1) / #3
        else
          fskip))
    else if (bdrytype =? 1)%Z then
      let ie0 := (pfirst0 - side + 1)%Z in
      (if (side =? 0)%Z then
        put stencil!(1, ie0) := #0
      else
        put stencil!(2, ie0 - 1) := #0)
    else
      fskip))%F.

  (** nodediffusionstencilcoeffs1d.m4:594-644 *)
  Definition adjnodediffusioncfoffdiag1d (ifirst0 ilast0 cfirst0 clast0 r side interporder : Z)
      (stencil : ptr) : mem S -> option (mem S) :=
    let stencil := mkFa stencil ((0, 2) :: CELL1d ifirst0 ilast0 0) in
    (scalar dr := #r in
    let ie0 := (cfirst0 - side + 1)%Z in
    (if (side =? 0)%Z then
      (if (interporder =? 1)%Z then
        put stencil!(1, ie0) := #2 * stencil!(1, ie0) / #3
      else if (interporder =? 2)%Z then
        put stencil!(2, ie0) := stencil!(2, ie0) - stencil!(1, ie0) * ($dr - #1) / ($dr + #3) ;;;
        put stencil!(1, ie0) := #8 * stencil!(1, ie0) / (($dr + #1) * ($dr + #3))
      else
        fskip)
    else
      (if (interporder =? 1)%Z then
        put stencil!(2, ie0 - 1) := #2 * stencil!(2, ie0 - 1) / #3
      else if (interporder =? 2)%Z then
        put stencil!(1, ie0 - 1) := stencil!(1, ie0 - 1) - stencil!(2, ie0 - 1) * ($dr - #1) / ($dr + #3) ;;;
        put stencil!(2, ie0 - 1) := #8 * stencil!(2, ie0 - 1) / (($dr + #1) * ($dr + #3))
      else
        fskip)))%F.

  (** nodediffusionstencilcoeffs1d.m4:647-676 *)
  Definition readjnodediffusionoffdiag1d (ifirst0 ilast0 pfirst0 plast0 side : Z) (stencil : ptr) : mem S -> option (mem S) :=
    let stencil := mkFa stencil ((0, 2) :: CELL1d ifirst0 ilast0 0) in
    (let ie0 := (pfirst0 - side + 1)%Z in
    (if (side =? 0)%Z then
      put stencil!(1, ie0) := #0
    else
      put stencil!(2, ie0 - 1) := #0))%F.

  (** nodediffusionstencilcoeffs1d.m4:679-714 *)
  Definition adjnodediffusioncfbdryrhs1d (ifirst0 ilast0 pfirst0 plast0 side : Z) (stencil : ptr)
      (gcw : Z) (u rhs : ptr) : mem S -> option (mem S) :=
    let stencil := mkFa stencil ((0, 2) :: CELL1d ifirst0 ilast0 0) in
    let u := mkFa u (CELL1d ifirst0 ilast0 gcw) in
    let rhs := mkFa rhs (CELL1d ifirst0 ilast0 0) in
    (let ie0 := (pfirst0 + 1 - 2 * side)%Z in
    (if (side =? 0)%Z then
      put rhs!(ie0) := rhs!(ie0) - stencil!(1, ie0) * u!(ie0 - 1)
    else
      put rhs!(ie0) := rhs!(ie0) - stencil!(2, ie0) * u!(ie0 + 1)))%F.
End FortranNodeStencil1.
