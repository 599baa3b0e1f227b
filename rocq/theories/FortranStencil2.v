(** * Reference stencil coefficients in 2D: m4/celldiffusionstencilcoeffs2d.m4

    Transcribed statement by statement by tools/f2v.py from the m4 sources.  An
    assignment to a local scalar is the binding [scalar x := e in ...], evaluated
    where it stands; assignments to variables that are never read are left out. *)

From Verif Require Import Base FortranBase.
Import ListNotations.
Open Scope Z_scope.

Section FortranStencil2.
  Context {S : Scalar}.

  (** celldiffusionstencilcoeffs2d.m4:40-83 *)
  Definition celldiffusionoffdiag2d (ifirst0 ifirst1 ilast0 ilast1 bilo0 bilo1 bihi0 bihi1 : Z)
      (dx : Z -> S) (beta : S) (b0 b1 : ptr) (sgcw : Z) (stencil : ptr) : mem S -> option (mem S) :=
    let b0 := mkFa b0 (FACE2d0 bilo0 bilo1 bihi0 bihi1 0) in
    let b1 := mkFa b1 (FACE2d1 bilo0 bilo1 bihi0 bihi1 0) in
    let stencil := mkFa stencil ((0, 4) :: CELL2d ifirst0 ifirst1 ilast0 ilast1 sgcw) in
    (scalar d0 := (- ($beta / ($(dx 0) * $(dx 0)))) in
    scalar d1 := (- ($beta / ($(dx 1) * $(dx 1)))) in
    do_ ifirst1 ilast1 (fun ic1 =>
      do_ ifirst0 ilast0 (fun ie0 =>
        put stencil!(1, ie0, ic1) := $d0 * b0!(ie0, ic1) ;;;
        put stencil!(2, ie0, ic1) := $d0 * b0!(ie0 + 1, ic1) ;;;
        put stencil!(3, ie0, ic1) := $d1 * b1!(ic1, ie0) ;;;
        put stencil!(4, ie0, ic1) := $d1 * b1!(ic1 + 1, ie0))))%F.

  (** celldiffusionstencilcoeffs2d.m4:85-119 *)
  Definition cellpoissonoffdiag2d (ifirst0 ifirst1 ilast0 ilast1 : Z) (dx : Z -> S) (beta : S)
      (sgcw : Z) (stencil : ptr) : mem S -> option (mem S) :=
    let stencil := mkFa stencil ((0, 4) :: CELL2d ifirst0 ifirst1 ilast0 ilast1 sgcw) in
    (scalar d0 := (- ($beta / ($(dx 0) * $(dx 0)))) in
    scalar d1 := (- ($beta / ($(dx 1) * $(dx 1)))) in
    do_ ifirst1 ilast1 (fun ic1 =>
      do_ ifirst0 ilast0 (fun ie0 =>
        put stencil!(1, ie0, ic1) := $d0 ;;;
        put stencil!(2, ie0, ic1) := $d0 ;;;
        put stencil!(3, ie0, ic1) := $d1 ;;;
        put stencil!(4, ie0, ic1) := $d1)))%F.

  (** celldiffusionstencilcoeffs2d.m4:122-156 *)
  Definition celldiffusionv1diag2d (ifirst0 ifirst1 ilast0 ilast1 ailo0 ailo1 aihi0 aihi1 : Z)
      (alpha : S) (a : ptr) (sgcw : Z) (stencil : ptr) : mem S -> option (mem S) :=
    let a := mkFa a (CELL2d ailo0 ailo1 aihi0 aihi1 0) in
    let stencil := mkFa stencil ((0, 4) :: CELL2d ifirst0 ifirst1 ilast0 ilast1 sgcw) in
    (do_ ifirst1 ilast1 (fun ic1 =>
      do_ ifirst0 ilast0 (fun ic0 =>
        put stencil!(0, ic0, ic1) := (- (stencil!(1, ic0, ic1) + stencil!(2, ic0, ic1) + stencil!(3, ic0, ic1) + stencil!(4, ic0, ic1))) + $alpha * a!(ic0, ic1))))%F.

  (** celldiffusionstencilcoeffs2d.m4:159-187 *)
  Definition celldiffusionv2diag2d (ifirst0 ifirst1 ilast0 ilast1 : Z) (alpha : S) (sgcw : Z)
      (stencil : ptr) : mem S -> option (mem S) :=
    let stencil := mkFa stencil ((0, 4) :: CELL2d ifirst0 ifirst1 ilast0 ilast1 sgcw) in
    (do_ ifirst1 ilast1 (fun ic1 =>
      do_ ifirst0 ilast0 (fun ic0 =>
        put stencil!(0, ic0, ic1) := (- (stencil!(1, ic0, ic1) + stencil!(2, ic0, ic1) + stencil!(3, ic0, ic1) + stencil!(4, ic0, ic1))) + $alpha)))%F.

  (** celldiffusionstencilcoeffs2d.m4:190-216 *)
  Definition cellpoissondiag2d (ifirst0 ifirst1 ilast0 ilast1 sgcw : Z) (stencil : ptr) : mem S -> option (mem S) :=
    let stencil := mkFa stencil ((0, 4) :: CELL2d ifirst0 ifirst1 ilast0 ilast1 sgcw) in
    (do_ ifirst1 ilast1 (fun ic1 =>
      do_ ifirst0 ilast0 (fun ic0 =>
        put stencil!(0, ic0, ic1) := (- (stencil!(1, ic0, ic1) + stencil!(2, ic0, ic1) + stencil!(3, ic0, ic1) + stencil!(4, ic0, ic1))))))%F.

  (** celldiffusionstencilcoeffs2d.m4:219-322 *)
  Definition adjcelldiffusiondiag2d (ifirst0 ifirst1 ilast0 ilast1 pfirst0 pfirst1 plast0 plast1
      direction side bdrytype extrapOrder : Z) (dx : Z -> S) (beta : S) (b0 b1 : ptr) (sgcw : Z)
      (stencil : ptr) : mem S -> option (mem S) :=
    let b0 := mkFa b0 (FACE2d0 ifirst0 ifirst1 ilast0 ilast1 0) in
    let b1 := mkFa b1 (FACE2d1 ifirst0 ifirst1 ilast0 ilast1 0) in
    let stencil := mkFa stencil ((0, 4) :: CELL2d ifirst0 ifirst1 ilast0 ilast1 sgcw) in
    ((if (bdrytype =? 4)%Z then
      (if (direction =? 0)%Z then
        let ie0 := (pfirst0 - 2 * side + 1)%Z in
        let edge := (pfirst0 - side + 1)%Z in
        scalar h := $(dx 0) in
        (if (side =? 0)%Z then
          do_ pfirst1 plast1 (fun ic1 =>
            (if (extrapOrder =? 1)%Z then
              fskip
            else if (extrapOrder =? 2)%Z then
              scalar factor := $beta * b0!(edge, ic1) / $h * (#3 * $h + #16 * b0!(edge, ic1)) in
              put stencil!(0, ie0, ic1) := stencil!(0, ie0, ic1) - $factor
            else
              fskip))
        else
          do_ pfirst1 plast1 (fun ic1 =>
            (if (extrapOrder =? 1)%Z then
              fskip
            else if (extrapOrder =? 2)%Z then
              scalar factor := $beta * b0!(edge, ic1) / $h * (#3 * $h + #16 * b0!(edge, ic1)) in
              put stencil!(0, ie0, ic1) := stencil!(0, ie0, ic1) - $factor
            else
              fskip)))
      else if (direction =? 1)%Z then
        do_ pfirst0 plast0 (fun ic0 =>
          fskip)
      else
        fskip)
    else
      (if (bdrytype =? 1)%Z then
        (if (direction =? 0)%Z then
          do_ pfirst1 plast1 (fun ic1 =>
            fskip)
        else if (direction =? 1)%Z then
          do_ pfirst0 plast0 (fun ic0 =>
            fskip)
        else
          fskip)
      else if (bdrytype =? 0)%Z then
        (if (direction =? 0)%Z then
          let ie0 := (pfirst0 - side + 1)%Z in
          scalar h := $(dx 0) in
          (if (extrapOrder =? 1)%Z then
            do_ pfirst1 plast1 (fun ic1 =>
              fskip)
          else if (extrapOrder =? 2)%Z then
            do_ pfirst1 plast1 (fun ic1 =>
              scalar factor := $beta * b0!(ie0, ic1) / (#3 * ($h * $h)) in
              put stencil!(0, ie0, ic1) := stencil!(0, ie0, ic1) + $factor)
          else
            fskip)
        else if (direction =? 1)%Z then
          let ie1 := (pfirst1 - side + 1)%Z in
          scalar h := $(dx 1) in
          (if (extrapOrder =? 1)%Z then
            do_ pfirst0 plast0 (fun ic0 =>
              fskip)
          else if (extrapOrder =? 2)%Z then
            do_ pfirst0 plast0 (fun ic0 =>
              scalar factor := $beta * b1!(ie1, ic0) / (#3 * ($h * $h)) in
              put stencil!(0, ic0, ie1) := stencil!(0, ic0, ie1) + $factor)
          else
            fskip)
        else
          fskip)
      else
        fskip)))%F.

  (** celldiffusionstencilcoeffs2d.m4:324-407 *)
  Definition adjcellpoissondiag2d (ifirst0 ifirst1 ilast0 ilast1 pfirst0 pfirst1 plast0 plast1
      direction side bdrytype extrapOrder : Z) (dx : Z -> S) (beta : S) (sgcw : Z) (stencil : ptr) : mem S -> option (mem S) :=
    let stencil := mkFa stencil ((0, 4) :: CELL2d ifirst0 ifirst1 ilast0 ilast1 sgcw) in
    ((if (bdrytype =? 4)%Z then
      (if (direction =? 0)%Z then
        let ie0 := (pfirst0 - 2 * side + 1)%Z in
        scalar h := $(dx 0) in
        (if (side =? 0)%Z then
          do_ pfirst1 plast1 (fun ic1 =>
            (if (extrapOrder =? 1)%Z then
              fskip
            else if (extrapOrder =? 2)%Z then
              scalar factor := $beta / $h * (#3 * $h + #16) in
              put stencil!(0, ie0, ic1) := stencil!(0, ie0, ic1) - $factor
            else
              fskip))
        else
          do_ pfirst1 plast1 (fun ic1 =>
            (if (extrapOrder =? 1)%Z then
              fskip
            else if (extrapOrder =? 2)%Z then
              scalar factor := $beta / $h * (#3 * $h + #16) in
              put stencil!(0, ie0, ic1) := stencil!(0, ie0, ic1) - $factor
            else
              fskip)))
      else if (direction =? 1)%Z then
        do_ pfirst0 plast0 (fun ic0 =>
          fskip)
      else
        fskip)
    else
      (if (bdrytype =? 1)%Z then
        (if (direction =? 0)%Z then
          do_ pfirst1 plast1 (fun ic1 =>
            fskip)
        else if (direction =? 1)%Z then
          do_ pfirst0 plast0 (fun ic0 =>
            fskip)
        else
          fskip)
      else if (bdrytype =? 0)%Z then
        (if (direction =? 0)%Z then
          do_ pfirst1 plast1 (fun ic1 =>
            fskip)
        else if (direction =? 1)%Z then
          do_ pfirst0 plast0 (fun ic0 =>
            fskip)
        else
          fskip)
      else
        fskip)))%F.

  (** celldiffusionstencilcoeffs2d.m4:409-483 *)
  Definition adjcelldiffusioncfdiag2d (ifirst0 ifirst1 ilast0 ilast1 pfirst0 pfirst1 plast0 plast1 r
      direction side interporder : Z) (dx : Z -> S) (beta : S) (b0 b1 : ptr) (sgcw : Z)
      (stencil : ptr) : mem S -> option (mem S) :=
    let b0 := mkFa b0 (FACE2d0 ifirst0 ifirst1 ilast0 ilast1 0) in
    let b1 := mkFa b1 (FACE2d1 ifirst0 ifirst1 ilast0 ilast1 0) in
    let stencil := mkFa stencil ((0, 4) :: CELL2d ifirst0 ifirst1 ilast0 ilast1 sgcw) in
    (scalar dr := #r in
    scalar dr1 := #2 * ($dr - #1) / ($dr + #1) in
    (if (direction =? 0)%Z then
      let ie0 := (pfirst0 - 2 * side + 1)%Z in
      let edge := (pfirst0 - side + 1)%Z in
      scalar h := $(dx 0) in
      (if (interporder =? 1)%Z then
        do_ pfirst1 plast1 (fun ic1 =>
          scalar factor := $beta * b0!(edge, ic1) / (#3 * ($h * $h)) in
          put stencil!(0, ie0, ic1) := stencil!(0, ie0, ic1) - $factor)
      else if (interporder =? 2)%Z then
        do_ pfirst1 plast1 (fun ic1 =>
          scalar factor := $dr1 * $beta * b0!(edge, ic1) / ($h * $h) in
          put stencil!(0, ie0, ic1) := stencil!(0, ie0, ic1) - $factor)
      else
        fskip)
    else if (direction =? 1)%Z then
      let ie1 := (pfirst1 - 2 * side + 1)%Z in
      let edge := (pfirst1 - side + 1)%Z in
      scalar h := $(dx 1) in
      (if (interporder =? 1)%Z then
        do_ pfirst0 plast0 (fun ic0 =>
          scalar factor := $beta * b1!(edge, ic0) / (#3 * ($h * $h)) in
          put stencil!(0, ic0, ie1) := stencil!(0, ic0, ie1) - $factor)
      else if (interporder =? 2)%Z then
        do_ pfirst0 plast0 (fun ic0 =>
          scalar factor := $dr1 * $beta * b1!(edge, ic0) / ($h * $h) in
          put stencil!(0, ic0, ie1) := stencil!(0, ic0, ie1) - $factor)
      else
        fskip)
    else
      fskip))%F.

  (** celldiffusionstencilcoeffs2d.m4:485-553 *)
  Definition adjcellpoissoncfdiag2d (ifirst0 ifirst1 ilast0 ilast1 pfirst0 pfirst1 plast0 plast1 r
      direction side interporder : Z) (dx : Z -> S) (beta : S) (sgcw : Z) (stencil : ptr) : mem S -> option (mem S) :=
    let stencil := mkFa stencil ((0, 4) :: CELL2d ifirst0 ifirst1 ilast0 ilast1 sgcw) in
    (scalar dr := #r in
    scalar dr1 := #2 * ($dr - #1) / ($dr + #1) in
    (if (direction =? 0)%Z then
      let ie0 := (pfirst0 - 2 * side + 1)%Z in
      scalar h := $(dx 0) in
      (if (interporder =? 1)%Z then
        do_ pfirst1 plast1 (fun ic1 =>
          scalar factor := $beta / (#3 * ($h * $h)) in
          put stencil!(0, ie0, ic1) := stencil!(0, ie0, ic1) - $factor)
      else if (interporder =? 2)%Z then
        do_ pfirst1 plast1 (fun ic1 =>
          scalar factor := $dr1 * $beta / ($h * $h) in
          put stencil!(0, ie0, ic1) := stencil!(0, ie0, ic1) - $factor)
      else
        fskip)
    else if (direction =? 1)%Z then
      let ie1 := (pfirst1 - 2 * side + 1)%Z in
      scalar h := $(dx 1) in
      (if (interporder =? 1)%Z then
        do_ pfirst0 plast0 (fun ic0 =>
          scalar factor := $beta / (#3 * ($h * $h)) in
          put stencil!(0, ic0, ie1) := stencil!(0, ic0, ie1) - $factor)
      else if (interporder =? 2)%Z then
        do_ pfirst0 plast0 (fun ic0 =>
          scalar factor := $dr1 * $beta / ($h * $h) in
          put stencil!(0, ic0, ie1) := stencil!(0, ic0, ie1) - $factor)
      else
        fskip)
    else
      fskip))%F.

  (** celldiffusionstencilcoeffs2d.m4:556-702 *)
  Definition adjcelldiffusionoffdiag2d (ifirst0 ifirst1 ilast0 ilast1 pfirst0 pfirst1 plast0 plast1
      direction side bdrytype extrapOrder : Z) (dx : Z -> S) (dirfactor neufactor beta : S) (b0
      b1 : ptr) (sgcw : Z) (stencil : ptr) : mem S -> option (mem S) :=
    let b0 := mkFa b0 (FACE2d0 ifirst0 ifirst1 ilast0 ilast1 0) in
    let b1 := mkFa b1 (FACE2d1 ifirst0 ifirst1 ilast0 ilast1 0) in
    let stencil := mkFa stencil ((0, 4) :: CELL2d ifirst0 ifirst1 ilast0 ilast1 sgcw) in
    ((if (bdrytype =? 4)%Z then
      (if (direction =? 0)%Z then
        let ie0 := (pfirst0 - side + 1)%Z in
        scalar h := $(dx 0) in
        (if (side =? 0)%Z then
          do_ pfirst1 plast1 (fun ic1 =>
            (if (extrapOrder =? 1)%Z then
              scalar factor := #2 * $h / (#4 * b0!(ie0, ic1) + $h) in
              put stencil!(1, ie0, ic1) := $factor * stencil!(1, ie0, ic1)
            else if (extrapOrder =? 2)%Z then
              scalar factor := $beta * b0!(ie0, ic1) / ($h * (#3 * $h + #16 * b0!(ie0, ic1))) in
              put stencil!(1, ie0, ic1) := (- (#9 * $factor)) ;;;
              put stencil!(2, ie0, ic1) := stencil!(2, ie0, ic1) - $factor
            else
              fskip))
        else
          do_ pfirst1 plast1 (fun ic1 =>
            (if (extrapOrder =? 1)%Z then
              scalar factor := #2 * $h / (#4 * b0!(ie0, ic1) + $h) in
              put stencil!(2, ie0 - 1, ic1) := $factor * stencil!(2, ie0 - 1, ic1)
            else if (extrapOrder =? 2)%Z then
              scalar factor := $beta * b0!(ie0, ic1) / ($h * (#3 * $h + #16 * b0!(ie0, ic1))) in
              put stencil!(2, ie0 - 1, ic1) := (- (#9 * $factor)) ;;;
              put stencil!(1, ie0 - 1, ic1) := stencil!(1, ie0 - 1, ic1) - $factor
            else
              fskip)))
      else if (direction =? 1)%Z then
        do_ pfirst0 plast0 (fun ic0 =>
          fskip)
      else
        fskip)
    else if (bdrytype =? 0)%Z then
      scalar factor := $dirfactor in
      (if (direction =? 0)%Z then
        let ie0 := (pfirst0 - side + 1)%Z in
        (if (side =? 0)%Z then
          do_ pfirst1 plast1 (fun ic1 =>
            (if (extrapOrder =? 1)%Z then
              put stencil!(1, ie0, ic1) := stencil!(1, ie0, ic1) * $factor
            else if (extrapOrder =? 2)%Z then
              put stencil!(2, ie0, ic1) := stencil!(2, ie0, ic1) + stencil!(1, ie0, ic1) / #3 ;;;
              put stencil!(1, ie0, ic1) := #8 * stencil!(1, ie0, ic1) / #3
            else
              fskip))
        else
          do_ pfirst1 plast1 (fun ic1 =>
            (if (extrapOrder =? 1)%Z then
              put stencil!(2, ie0 - 1, ic1) := stencil!(2, ie0 - 1, ic1) * $factor
            else if (extrapOrder =? 2)%Z then
              put stencil!(1, ie0 - 1, ic1) := stencil!(1, ie0 - 1, ic1) + stencil!(2, ie0 - 1, ic1) / #3 ;;;
              put stencil!(2, ie0 - 1, ic1) := #8 * stencil!(2, ie0 - 1, ic1) / #3
            else
              fskip)))
      else if (direction =? 1)%Z then
        let ie1 := (pfirst1 - side + 1)%Z in
        (if (side =? 0)%Z then
          do_ pfirst0 plast0 (fun ic0 =>
            (if (extrapOrder =? 1)%Z then
              put stencil!(3, ic0, ie1) := stencil!(3, ic0, ie1) * $factor
            else if (extrapOrder =? 2)%Z then
              put stencil!(4, ic0, ie1) := stencil!(4, ic0, ie1) + stencil!(3, ic0, ie1) / #3 ;;;
              put stencil!(3, ic0, ie1) := #8 * stencil!(3, ic0, ie1) / #3
            else
              fskip))
        else
          do_ pfirst0 plast0 (fun ic0 =>
            (if (extrapOrder =? 1)%Z then
              put stencil!(4, ic0, ie1 - 1) := stencil!(4, ic0, ie1 - 1) * $factor
            else if (extrapOrder =? 2)%Z then
              put stencil!(3, ic0, ie1 - 1) := stencil!(3, ic0, ie1 - 1) + stencil!(4, ic0, ie1 - 1) / #3 ;;;
              put stencil!(4, ic0, ie1 - 1) := #8 * stencil!(4, ic0, ie1 - 1) / #3
            else
              fskip)))
      else
        fskip)
    else if (bdrytype =? 1)%Z then
      (if (direction =? 0)%Z then
        let ie0 := (pfirst0 - side + 1)%Z in
        (if (side =? 0)%Z then
          do_ pfirst1 plast1 (fun ic1 =>
            put stencil!(1, ie0, ic1) := #0)
        else
          do_ pfirst1 plast1 (fun ic1 =>
            put stencil!(2, ie0 - 1, ic1) := #0))
      else if (direction =? 1)%Z then
        let ie1 := (pfirst1 - side + 1)%Z in
        (if (side =? 0)%Z then
          do_ pfirst0 plast0 (fun ic0 =>
            put stencil!(3, ic0, ie1) := #0)
        else
          do_ pfirst0 plast0 (fun ic0 =>
            put stencil!(4, ic0, ie1 - 1) := #0))
      else
        fskip)
    else
      fskip))%F.

  (** celldiffusionstencilcoeffs2d.m4:704-847 *)
  Definition adjcellpoissonoffdiag2d (ifirst0 ifirst1 ilast0 ilast1 pfirst0 pfirst1 plast0 plast1
      direction side bdrytype extrapOrder : Z) (dx : Z -> S) (dirfactor neufactor beta : S)
      (sgcw : Z) (stencil : ptr) : mem S -> option (mem S) :=
    let stencil := mkFa stencil ((0, 4) :: CELL2d ifirst0 ifirst1 ilast0 ilast1 sgcw) in
    ((if (bdrytype =? 4)%Z then
      (if (direction =? 0)%Z then
        let ie0 := (pfirst0 - side + 1)%Z in
        scalar h := $(dx 0) in
        (if (side =? 0)%Z then
          do_ pfirst1 plast1 (fun ic1 =>
            (if (extrapOrder =? 1)%Z then
              scalar factor := #2 * $h / (#4 + $h) in
              put stencil!(1, ie0, ic1) := $factor * stencil!(1, ie0, ic1)
            else if (extrapOrder =? 2)%Z then
              scalar factor := $beta / ($h * (#3 * $h + #16)) in
              put stencil!(1, ie0, ic1) := (- (#9 * $factor)) ;;;
              put stencil!(2, ie0, ic1) := stencil!(2, ie0, ic1) - $factor
            else
              fskip))
        else
          do_ pfirst1 plast1 (fun ic1 =>
            (if (extrapOrder =? 1)%Z then
              scalar factor := #2 * $h / (#4 + $h) in
              put stencil!(2, ie0 - 1, ic1) := $factor * stencil!(2, ie0 - 1, ic1)
            else if (extrapOrder =? 2)%Z then
              scalar factor := $beta / ($h * (#3 * $h + #16)) in
              put stencil!(2, ie0 - 1, ic1) := (- (#9 * $factor)) ;;;
              put stencil!(1, ie0 - 1, ic1) := stencil!(1, ie0 - 1, ic1) - $factor
            else
              fskip)))
      else if (direction =? 1)%Z then
        do_ pfirst0 plast0 (fun ic0 =>
          fskip)
      else
        fskip)
    else if (bdrytype =? 0)%Z then
      scalar factor := $dirfactor in
      (if (direction =? 0)%Z then
        let ie0 := (pfirst0 - side + 1)%Z in
        (if (side =? 0)%Z then
          do_ pfirst1 plast1 (fun ic1 =>
            (if (extrapOrder =? 1)%Z then
              put stencil!(1, ie0, ic1) := stencil!(1, ie0, ic1) * $factor
            else if (extrapOrder =? 2)%Z then
              put stencil!(2, ie0, ic1) := stencil!(2, ie0, ic1) + stencil!(1, ie0, ic1) / #3 ;;;
              put stencil!(1, ie0, ic1) := #8 * stencil!(1, ie0, ic1) / #3
            else
              fskip))
        else
          do_ pfirst1 plast1 (fun ic1 =>
            (if (extrapOrder =? 1)%Z then
              put stencil!(2, ie0 - 1, ic1) := stencil!(2, ie0 - 1, ic1) * $factor
            else if (extrapOrder =? 2)%Z then
              put stencil!(1, ie0 - 1, ic1) := stencil!(1, ie0 - 1, ic1) + stencil!(2, ie0 - 1, ic1) / #3 ;;;
              put stencil!(2, ie0 - 1, ic1) := #8 * stencil!(2, ie0 - 1, ic1) / #3
            else
              fskip)))
      else if (direction =? 1)%Z then
        let ie1 := (pfirst1 - side + 1)%Z in
        (if (side =? 0)%Z then
          do_ pfirst0 plast0 (fun ic0 =>
            (if (extrapOrder =? 1)%Z then
              put stencil!(3, ic0, ie1) := stencil!(3, ic0, ie1) * $factor
            else if (extrapOrder =? 2)%Z then
              put stencil!(4, ic0, ie1) := stencil!(4, ic0, ie1) + stencil!(3, ic0, ie1) / #3 ;;;
              put stencil!(3, ic0, ie1) := #8 * stencil!(3, ic0, ie1) / #3
            else
              fskip))
        else
          do_ pfirst0 plast0 (fun ic0 =>
            (if (extrapOrder =? 1)%Z then
              put stencil!(4, ic0, ie1 - 1) := stencil!(4, ic0, ie1 - 1) * $factor
            else if (extrapOrder =? 2)%Z then
              put stencil!(3, ic0, ie1 - 1) := stencil!(3, ic0, ie1 - 1) + stencil!(4, ic0, ie1 - 1) / #3 ;;;
              put stencil!(4, ic0, ie1 - 1) := #8 * stencil!(4, ic0, ie1 - 1) / #3
            else
              fskip)))
      else
        fskip)
    else if (bdrytype =? 1)%Z then
      (if (direction =? 0)%Z then
        let ie0 := (pfirst0 - side + 1)%Z in
        (if (side =? 0)%Z then
          do_ pfirst1 plast1 (fun ic1 =>
            put stencil!(1, ie0, ic1) := #0)
        else
          do_ pfirst1 plast1 (fun ic1 =>
            put stencil!(2, ie0 - 1, ic1) := #0))
      else if (direction =? 1)%Z then
        let ie1 := (pfirst1 - side + 1)%Z in
        (if (side =? 0)%Z then
          do_ pfirst0 plast0 (fun ic0 =>
            put stencil!(3, ic0, ie1) := #0)
        else
          do_ pfirst0 plast0 (fun ic0 =>
            put stencil!(4, ic0, ie1 - 1) := #0))
      else
        fskip)
    else
      fskip))%F.

  (** celldiffusionstencilcoeffs2d.m4:850-938 *)
  Definition adjcelldiffusioncfoffdiag2d (ifirst0 ifirst1 ilast0 ilast1 cfirst0 cfirst1 clast0 clast1
      r direction side interporder sgcw : Z) (stencil : ptr) : mem S -> option (mem S) :=
    let stencil := mkFa stencil ((0, 4) :: CELL2d ifirst0 ifirst1 ilast0 ilast1 sgcw) in
    (scalar dr := #r in
    (if (direction =? 0)%Z then
      let ie0 := (cfirst0 - side + 1)%Z in
      (if (side =? 0)%Z then
        (if (interporder =? 1)%Z then
          do_ cfirst1 clast1 (fun ic1 =>
            put stencil!(1, ie0, ic1) := #2 * stencil!(1, ie0, ic1) / #3)
        else if (interporder =? 2)%Z then
          do_ cfirst1 clast1 (fun ic1 =>
            put stencil!(2, ie0, ic1) := stencil!(2, ie0, ic1) - stencil!(1, ie0, ic1) * ($dr - #1) / ($dr + #3) ;;;
            put stencil!(1, ie0, ic1) := #8 * stencil!(1, ie0, ic1) / (($dr + #1) * ($dr + #3)))
        else
          fskip)
      else
        (if (interporder =? 1)%Z then
          do_ cfirst1 clast1 (fun ic1 =>
            put stencil!(2, ie0 - 1, ic1) := #2 * stencil!(2, ie0 - 1, ic1) / #3)
        else if (interporder =? 2)%Z then
          do_ cfirst1 clast1 (fun ic1 =>
            put stencil!(1, ie0 - 1, ic1) := stencil!(1, ie0 - 1, ic1) - stencil!(2, ie0 - 1, ic1) * ($dr - #1) / ($dr + #3) ;;;
            put stencil!(2, ie0 - 1, ic1) := #8 * stencil!(2, ie0 - 1, ic1) / (($dr + #1) * ($dr + #3)))
        else
          fskip))
    else if (direction =? 1)%Z then
      let ie1 := (cfirst1 - side + 1)%Z in
      (if (side =? 0)%Z then
        (if (interporder =? 1)%Z then
          do_ cfirst0 clast0 (fun ic0 =>
            put stencil!(3, ic0, ie1) := #2 * stencil!(3, ic0, ie1) / #3)
        else if (interporder =? 2)%Z then
          do_ cfirst0 clast0 (fun ic0 =>
            put stencil!(4, ic0, ie1) := stencil!(4, ic0, ie1) - stencil!(3, ic0, ie1) * ($dr - #1) / ($dr + #3) ;;;
            put stencil!(3, ic0, ie1) := #8 * stencil!(3, ic0, ie1) / (($dr + #1) * ($dr + #3)))
        else
          fskip)
      else
        (if (interporder =? 1)%Z then
          do_ cfirst0 clast0 (fun ic0 =>
            put stencil!(4, ic0, ie1 - 1) := #2 * stencil!(4, ic0, ie1 - 1) / #3)
        else if (interporder =? 2)%Z then
          do_ cfirst0 clast0 (fun ic0 =>
            put stencil!(3, ic0, ie1 - 1) := stencil!(3, ic0, ie1 - 1) - stencil!(4, ic0, ie1 - 1) * ($dr - #1) / ($dr + #3) ;;;
            put stencil!(4, ic0, ie1 - 1) := #8 * stencil!(4, ic0, ie1 - 1) / (($dr + #1) * ($dr + #3)))
        else
          fskip))
    else
      fskip))%F.

  (** celldiffusionstencilcoeffs2d.m4:941-986 *)
  Definition readjcelldiffusionoffdiag2d (ifirst0 ifirst1 ilast0 ilast1 pfirst0 pfirst1 plast0 plast1
      direction side sgcw : Z) (stencil : ptr) : mem S -> option (mem S) :=
    let stencil := mkFa stencil ((0, 4) :: CELL2d ifirst0 ifirst1 ilast0 ilast1 sgcw) in
    ((if (direction =? 0)%Z then
      let ie0 := (pfirst0 - side + 1)%Z in
      (if (side =? 0)%Z then
        do_ pfirst1 plast1 (fun ic1 =>
          put stencil!(1, ie0, ic1) := #0)
      else
        do_ pfirst1 plast1 (fun ic1 =>
          put stencil!(2, ie0 - 1, ic1) := #0))
    else if (direction =? 1)%Z then
      let ie1 := (pfirst1 - side + 1)%Z in
      (if (side =? 0)%Z then
        do_ pfirst0 plast0 (fun ic0 =>
          put stencil!(3, ic0, ie1) := #0)
      else
        do_ pfirst0 plast0 (fun ic0 =>
          put stencil!(4, ic0, ie1 - 1) := #0))
    else
      fskip))%F.

  (** celldiffusionstencilcoeffs2d.m4:989-1043 *)
  Definition adjcelldiffusioncfbdryrhs2d (ifirst0 ifirst1 ilast0 ilast1 pfirst0 pfirst1 plast0 plast1
      direction side sgcw : Z) (stencil : ptr) (gcw : Z) (u rhs : ptr) : mem S -> option (mem S) :=
    let stencil := mkFa stencil ((0, 4) :: CELL2d ifirst0 ifirst1 ilast0 ilast1 sgcw) in
    let u := mkFa u (CELL2d ifirst0 ifirst1 ilast0 ilast1 gcw) in
    let rhs := mkFa rhs (CELL2d ifirst0 ifirst1 ilast0 ilast1 0) in
    ((if (direction =? 0)%Z then
      let ie0 := (pfirst0 + 1 - 2 * side)%Z in
      (if (side =? 0)%Z then
        do_ pfirst1 plast1 (fun ic1 =>
          put rhs!(ie0, ic1) := rhs!(ie0, ic1) - stencil!(1, ie0, ic1) * u!(ie0 - 1, ic1))
      else
        do_ pfirst1 plast1 (fun ic1 =>
          put rhs!(ie0, ic1) := rhs!(ie0, ic1) - stencil!(2, ie0, ic1) * u!(ie0 + 1, ic1)))
    else if (direction =? 1)%Z then
      let ie1 := (pfirst1 + 1 - 2 * side)%Z in
      (if (side =? 0)%Z then
        do_ pfirst0 plast0 (fun ic0 =>
          put rhs!(ic0, ie1) := rhs!(ic0, ie1) - stencil!(3, ic0, ie1) * u!(ic0, ie1 - 1))
      else
        do_ pfirst0 plast0 (fun ic0 =>
          put rhs!(ic0, ie1) := rhs!(ic0, ie1) - stencil!(4, ic0, ie1) * u!(ic0, ie1 + 1)))
    else
      fskip))%F.
End FortranStencil2.
