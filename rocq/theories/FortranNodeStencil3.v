(** * Node-centred stencil coefficients, 3D

    Transcribed statement by statement by tools/f2v.py from the m4 sources.  An
    assignment to a local scalar is the binding [scalar x := e in ...], evaluated
    where it stands; assignments to variables that are never read are left out. *)

From Verif Require Import Base FortranBase.
Import ListNotations.
Open Scope Z_scope.

Section FortranNodeStencil3.
  Context {S : Scalar}.

  (** nodediffusionstencilcoeffs3d.m4:42-92 *)
  Definition nodediffusionoffdiag3d (ifirst0 ifirst1 ifirst2 ilast0 ilast1 ilast2 bilo0 bilo1 bilo2
      bihi0 bihi1 bihi2 : Z) (dx : Z -> S) (beta : S) (b0 b1 b2 stencil : ptr) : mem S -> option (mem S) :=
    let b0 := mkFa b0 (FACE3d0 bilo0 bilo1 bilo2 bihi0 bihi1 bihi2 0) in
    let b1 := mkFa b1 (FACE3d1 bilo0 bilo1 bilo2 bihi0 bihi1 bihi2 0) in
    let b2 := mkFa b2 (FACE3d2 bilo0 bilo1 bilo2 bihi0 bihi1 bihi2 0) in
    let stencil := mkFa stencil ((0, 6) :: CELL3d ifirst0 ifirst1 ifirst2 ilast0 ilast1 ilast2 0) in
    (scalar d0 := (- ($beta / ($(dx 0) * $(dx 0)))) in
    scalar d1 := (- ($beta / ($(dx 1) * $(dx 1)))) in
    scalar d2 := (- ($beta / ($(dx 2) * $(dx 2)))) in
    do_ ifirst2 ilast2 (fun k =>
      do_ ifirst1 ilast1 (fun j =>
        do_ ifirst0 ilast0 (fun i =>
          put stencil!(1, i, j, k) := $d0 * b0!(i, j, k) ;;;
          put stencil!(2, i, j, k) := $d0 * b0!(i + 1, j, k) ;;;
          put stencil!(3, i, j, k) := $d1 * b1!(j, k, i) ;;;
          put stencil!(4, i, j, k) := $d1 * b1!(j + 1, k, i) ;;;
          put stencil!(5, i, j, k) := $d2 * b2!(k, i, j) ;;;
          put stencil!(6, i, j, k) := $d2 * b2!(k + 1, i, j)))))%F.

  (** nodediffusionstencilcoeffs3d.m4:94-132 *)
  Definition nodepoissonoffdiag3d (ifirst0 ifirst1 ifirst2 ilast0 ilast1 ilast2 : Z) (dx : Z -> S)
      (beta : S) (stencil : ptr) : mem S -> option (mem S) :=
    let stencil := mkFa stencil ((0, 6) :: CELL3d ifirst0 ifirst1 ifirst2 ilast0 ilast1 ilast2 0) in
    (scalar d0 := (- ($beta / ($(dx 0) * $(dx 0)))) in
    scalar d1 := (- ($beta / ($(dx 1) * $(dx 1)))) in
    scalar d2 := (- ($beta / ($(dx 2) * $(dx 2)))) in
    do_ ifirst2 ilast2 (fun k =>
      do_ ifirst1 ilast1 (fun j =>
        do_ ifirst0 ilast0 (fun i =>
          put stencil!(1, i, j, k) := $d0 ;;;
          put stencil!(2, i, j, k) := $d0 ;;;
          put stencil!(3, i, j, k) := $d1 ;;;
          put stencil!(4, i, j, k) := $d1 ;;;
          put stencil!(5, i, j, k) := $d2 ;;;
          put stencil!(6, i, j, k) := $d2))))%F.

  (** nodediffusionstencilcoeffs3d.m4:135-173 *)
  Definition nodediffusionv1diag3d (ifirst0 ifirst1 ifirst2 ilast0 ilast1 ilast2 ailo0 ailo1 ailo2
      aihi0 aihi1 aihi2 : Z) (alpha : S) (a stencil : ptr) : mem S -> option (mem S) :=
    let a := mkFa a (CELL3d ailo0 ailo1 ailo2 aihi0 aihi1 aihi2 0) in
    let stencil := mkFa stencil ((0, 6) :: CELL3d ifirst0 ifirst1 ifirst2 ilast0 ilast1 ilast2 0) in
    (do_ ifirst2 ilast2 (fun k =>
      do_ ifirst1 ilast1 (fun j =>
        do_ ifirst0 ilast0 (fun i =>
          put stencil!(0, i, j, k) := (- (stencil!(1, i, j, k) + stencil!(2, i, j, k) + stencil!(3, i, j, k) + stencil!(4, i, j, k) + stencil!(5, i, j, k) + stencil!(6, i, j, k))) + $alpha * a!(i, j, k)))))%F.

  (** nodediffusionstencilcoeffs3d.m4:176-207 *)
  Definition nodediffusionv2diag3d (ifirst0 ifirst1 ifirst2 ilast0 ilast1 ilast2 : Z) (alpha : S)
      (stencil : ptr) : mem S -> option (mem S) :=
    let stencil := mkFa stencil ((0, 6) :: CELL3d ifirst0 ifirst1 ifirst2 ilast0 ilast1 ilast2 0) in
    (do_ ifirst2 ilast2 (fun k =>
      do_ ifirst1 ilast1 (fun j =>
        do_ ifirst0 ilast0 (fun i =>
          put stencil!(0, i, j, k) := (- (stencil!(1, i, j, k) + stencil!(2, i, j, k) + stencil!(3, i, j, k) + stencil!(4, i, j, k) + stencil!(5, i, j, k) + stencil!(6, i, j, k))) + $alpha))))%F.

  (** nodediffusionstencilcoeffs3d.m4:210-239 *)
  Definition nodepoissondiag3d (ifirst0 ifirst1 ifirst2 ilast0 ilast1 ilast2 : Z) (stencil : ptr) : mem S -> option (mem S) :=
    let stencil := mkFa stencil ((0, 6) :: CELL3d ifirst0 ifirst1 ifirst2 ilast0 ilast1 ilast2 0) in
    (do_ ifirst2 ilast2 (fun k =>
      do_ ifirst1 ilast1 (fun j =>
        do_ ifirst0 ilast0 (fun i =>
          put stencil!(0, i, j, k) := (- (stencil!(1, i, j, k) + stencil!(2, i, j, k) + stencil!(3, i, j, k) + stencil!(4, i, j, k) + stencil!(5, i, j, k) + stencil!(6, i, j, k)))))))%F.

  (** nodediffusionstencilcoeffs3d.m4:242-444 *)
  Definition adjnodediffusiondiag3d (ifirst0 ifirst1 ifirst2 ilast0 ilast1 ilast2 pfirst0 pfirst1
      pfirst2 plast0 plast1 plast2 direction side bdrytype extrapOrder : Z) (dx : Z -> S) (beta : S)
      (b0 b1 b2 stencil : ptr) : mem S -> option (mem S) :=
    let b0 := mkFa b0 (FACE3d0 ifirst0 ifirst1 ifirst2 ilast0 ilast1 ilast2 0) in
    let b1 := mkFa b1 (FACE3d1 ifirst0 ifirst1 ifirst2 ilast0 ilast1 ilast2 0) in
    let b2 := mkFa b2 (FACE3d2 ifirst0 ifirst1 ifirst2 ilast0 ilast1 ilast2 0) in
    let stencil := mkFa stencil ((0, 6) :: CELL3d ifirst0 ifirst1 ifirst2 ilast0 ilast1 ilast2 0) in
    (scalar h := $(dx direction) in
    (if (bdrytype =? 4)%Z then
      (if (direction =? 0)%Z then
        let ie0 := (pfirst0 - 2 * side + 1)%Z in
        let edge := (pfirst0 - side + 1)%Z in
        (if (side =? 0)%Z then
          (if (extrapOrder =? 1)%Z then
            do_ pfirst2 plast2 (fun k =>
              do_ pfirst1 plast1 (fun j =>
                fskip))
          else if (extrapOrder =? 2)%Z then
            do_ pfirst2 plast2 (fun k =>
              do_ pfirst1 plast1 (fun j =>
                scalar factor := $beta * b0!(edge, j, k) in
                scalar factor := $factor / $h * (#3 * $h + #16 * b0!(edge, j, k)) in
                put stencil!(0, ie0, j, k) := stencil!(0, ie0, j, k) - $factor))
          else
            fskip)
        else
          (if (extrapOrder =? 1)%Z then
            do_ pfirst2 plast2 (fun k =>
              do_ pfirst1 plast1 (fun j =>
                fskip))
          else if (extrapOrder =? 2)%Z then
            do_ pfirst2 plast2 (fun k =>
              do_ pfirst1 plast1 (fun j =>
                scalar factor := $beta * b0!(edge, j, k) in
                scalar factor := $factor / $h * (#3 * $h + #16 * b0!(edge, j, k)) in
                put stencil!(0, ie0, j, k) := stencil!(0, ie0, j, k) - $factor))
          else
            fskip))
      else if (direction =? 1)%Z then
        let ie1 := (pfirst1 - 2 * side + 1)%Z in
        let edge := (pfirst1 - side + 1)%Z in
        (if (side =? 0)%Z then
          (if (extrapOrder =? 1)%Z then
            do_ pfirst2 plast2 (fun k =>
              do_ pfirst0 plast0 (fun i =>
                fskip))
          else if (extrapOrder =? 2)%Z then
            do_ pfirst2 plast2 (fun k =>
              do_ pfirst0 plast0 (fun i =>
                scalar factor := $beta * b1!(edge, k, i) in
                scalar factor := $factor / $h * (#3 * $h + #16 * b1!(edge, k, i)) in
                put stencil!(0, i, ie1, k) := stencil!(0, i, ie1, k) - $factor))
          else
            fskip)
        else
          (if (extrapOrder =? 1)%Z then
            do_ pfirst2 plast2 (fun k =>
              do_ pfirst0 plast0 (fun i =>
                fskip))
          else if (extrapOrder =? 2)%Z then
            do_ pfirst2 plast2 (fun k =>
              do_ pfirst0 plast0 (fun i =>
                scalar factor := $beta * b1!(edge, k, i) in
                scalar factor := $factor / $h * (#3 * $h + #16 * b1!(edge, k, i)) in
                put stencil!(0, i, ie1, k) := stencil!(0, i, ie1, k) - $factor))
          else
            fskip))
      else if (direction =? 2)%Z then
        let ie2 := (pfirst2 - 2 * side + 1)%Z in
        let edge := (pfirst2 - side + 1)%Z in
        (if (side =? 0)%Z then
          (if (extrapOrder =? 1)%Z then
            do_ pfirst1 plast1 (fun j =>
              do_ pfirst0 plast0 (fun i =>
                fskip))
          else if (extrapOrder =? 2)%Z then
            do_ pfirst1 plast1 (fun j =>
              do_ pfirst0 plast0 (fun i =>
                scalar factor := $beta * b2!(edge, i, j) in
                scalar factor := $factor / $h * (#3 * $h + #16 * b2!(edge, i, j)) in
                put stencil!(0, i, j, ie2) := stencil!(0, i, j, ie2) - $factor))
          else
            fskip)
        else
          (if (extrapOrder =? 1)%Z then
            do_ pfirst1 plast1 (fun j =>
              do_ pfirst0 plast0 (fun i =>
                fskip))
          else if (extrapOrder =? 2)%Z then
            do_ pfirst1 plast1 (fun j =>
              do_ pfirst0 plast0 (fun i =>
                scalar factor := $beta * b2!(edge, i, j) in
                scalar factor := $factor / $h * (#3 * $h + #16 * b2!(edge, i, j)) in
                put stencil!(0, i, j, ie2) := stencil!(0, i, j, ie2) - $factor))
          else
            fskip))
      else
        fskip)
    else if (bdrytype =? 1)%Z then
      (if (direction =? 0)%Z then
        do_ pfirst1 plast1 (fun j =>
          fskip)
      else if (direction =? 1)%Z then
        do_ pfirst0 plast0 (fun i =>
          fskip)
      else
        fskip)
    else if (bdrytype =? 0)%Z then
      (if (direction =? 0)%Z then
        let ie0 := (pfirst0 - side + 1)%Z in
        (if (extrapOrder =? 1)%Z then
          do_ pfirst2 plast2 (fun k =>
            do_ pfirst1 plast1 (fun j =>
              fskip))
        else if (extrapOrder =? 2)%Z then
          do_ pfirst2 plast2 (fun k =>
            do_ pfirst1 plast1 (fun j =>
              scalar factor := $beta * b0!(ie0, j, k) / (#3 * ($h * $h)) in
              put stencil!(0, ie0, j, k) := stencil!(0, ie0, j, k) + $factor))
        else
          fskip)
      else if (direction =? 1)%Z then
        let ie1 := (pfirst1 - side + 1)%Z in
        (if (extrapOrder =? 1)%Z then
          do_ pfirst2 plast2 (fun k =>
            do_ pfirst0 plast0 (fun i =>
              fskip))
        else if (extrapOrder =? 2)%Z then
          do_ pfirst2 plast2 (fun k =>
            do_ pfirst0 plast0 (fun i =>
              scalar factor := $beta * b1!(ie1, k, i) / (#3 * ($h * $h)) in
              put stencil!(0, i, ie1, k) := stencil!(0, i, ie1, k) + $factor))
        else
          fskip)
      else if (direction =? 2)%Z then
        let ie2 := (pfirst2 - side + 1)%Z in
        (if (extrapOrder =? 1)%Z then
          do_ pfirst1 plast1 (fun j =>
            do_ pfirst0 plast0 (fun i =>
              fskip))
        else if (extrapOrder =? 2)%Z then
          do_ pfirst1 plast1 (fun j =>
            do_ pfirst0 plast0 (fun i =>
              scalar factor := $beta * b2!(ie2, i, j) / (#3 * ($h * $h)) in
              put stencil!(0, i, j, ie2) := stencil!(0, i, j, ie2) + $factor))
        else
          fskip)
      else
        fskip)
    else
      fskip))%F.

  (** nodediffusionstencilcoeffs3d.m4:446-639 *)
  Definition adjnodepoissondiag3d (ifirst0 ifirst1 ifirst2 ilast0 ilast1 ilast2 pfirst0 pfirst1
      pfirst2 plast0 plast1 plast2 direction side bdrytype extrapOrder : Z) (dx : Z -> S) (beta : S)
      (stencil : ptr) : mem S -> option (mem S) :=
    let stencil := mkFa stencil ((0, 6) :: CELL3d ifirst0 ifirst1 ifirst2 ilast0 ilast1 ilast2 0) in
    (scalar h := $(dx direction) in
    (if (bdrytype =? 4)%Z then
      (if (direction =? 0)%Z then
        let ie0 := (pfirst0 - 2 * side + 1)%Z in
        (if (side =? 0)%Z then
          (if (extrapOrder =? 1)%Z then
            do_ pfirst2 plast2 (fun k =>
              do_ pfirst1 plast1 (fun j =>
                fskip))
          else
            fskip) ;;;
          (if (extrapOrder =? 2)%Z then
            scalar factor := $beta / $h * (#3 * $h + #16) in
            do_ pfirst2 plast2 (fun k =>
              do_ pfirst1 plast1 (fun j =>
                put stencil!(0, ie0, j, k) := stencil!(0, ie0, j, k) - $factor))
          else
            fskip)
        else
          (if (extrapOrder =? 1)%Z then
            do_ pfirst2 plast2 (fun k =>
              do_ pfirst1 plast1 (fun j =>
                fskip))
          else
            fskip) ;;;
          (if (extrapOrder =? 2)%Z then
            scalar factor := $beta / $h * (#3 * $h + #16) in
            do_ pfirst2 plast2 (fun k =>
              do_ pfirst1 plast1 (fun j =>
                put stencil!(0, ie0, j, k) := stencil!(0, ie0, j, k) - $factor))
          else
            fskip))
      else if (direction =? 1)%Z then
        let ie1 := (pfirst1 - 2 * side + 1)%Z in
        (if (side =? 0)%Z then
          (if (extrapOrder =? 1)%Z then
            do_ pfirst2 plast2 (fun k =>
              do_ pfirst0 plast0 (fun i =>
                fskip))
          else
            fskip) ;;;
          (if (extrapOrder =? 2)%Z then
            scalar factor := $beta / $h * (#3 * $h + #16) in
            do_ pfirst2 plast2 (fun k =>
              do_ pfirst0 plast0 (fun i =>
                put stencil!(0, i, ie1, k) := stencil!(0, i, ie1, k) - $factor))
          else
            fskip)
        else
          (if (extrapOrder =? 1)%Z then
            do_ pfirst2 plast2 (fun k =>
              do_ pfirst0 plast0 (fun i =>
                fskip))
          else
            fskip) ;;;
          (if (extrapOrder =? 2)%Z then
            scalar factor := $beta / $h * (#3 * $h + #16) in
            do_ pfirst2 plast2 (fun k =>
              do_ pfirst0 plast0 (fun i =>
                put stencil!(0, i, ie1, k) := stencil!(0, i, ie1, k) - $factor))
          else
            fskip))
      else if (direction =? 2)%Z then
        let ie2 := (pfirst2 - 2 * side + 1)%Z in
        (if (side =? 0)%Z then
          (if (extrapOrder =? 1)%Z then
            do_ pfirst1 plast1 (fun j =>
              do_ pfirst0 plast0 (fun i =>
                fskip))
          else
            fskip) ;;;
          (if (extrapOrder =? 2)%Z then
            scalar factor := $beta / $h * (#3 * $h + #16) in
            do_ pfirst1 plast1 (fun j =>
              do_ pfirst0 plast0 (fun i =>
                put stencil!(0, i, j, ie2) := stencil!(0, i, j, ie2) - $factor))
          else
            fskip)
        else
          (if (extrapOrder =? 1)%Z then
            do_ pfirst1 plast1 (fun j =>
              do_ pfirst0 plast0 (fun i =>
                fskip))
          else
            fskip) ;;;
          (if (extrapOrder =? 2)%Z then
            scalar factor := $beta / $h * (#3 * $h + #16) in
            do_ pfirst1 plast1 (fun j =>
              do_ pfirst0 plast0 (fun i =>
                put stencil!(0, i, j, ie2) := stencil!(0, i, j, ie2) - $factor))
          else
            fskip))
      else
        fskip)
    else if (bdrytype =? 1)%Z then
      (if (direction =? 0)%Z then
        do_ pfirst1 plast1 (fun j =>
          fskip)
      else if (direction =? 1)%Z then
        do_ pfirst0 plast0 (fun i =>
          fskip)
      else
        fskip)
    else if (bdrytype =? 0)%Z then
      (if (direction =? 0)%Z then
        let ie0 := (pfirst0 - side + 1)%Z in
        (if (extrapOrder =? 1)%Z then
          do_ pfirst2 plast2 (fun k =>
            do_ pfirst1 plast1 (fun j =>
              fskip))
        else if (extrapOrder =? 2)%Z then
          scalar factor := $beta / (#3 * ($h * $h)) in
          do_ pfirst2 plast2 (fun k =>
            do_ pfirst1 plast1 (fun j =>
              put stencil!(0, ie0, j, k) := stencil!(0, ie0, j, k) + $factor))
        else
          fskip)
      else if (direction =? 1)%Z then
        let ie1 := (pfirst1 - side + 1)%Z in
        (if (extrapOrder =? 1)%Z then
          do_ pfirst2 plast2 (fun k =>
            do_ pfirst0 plast0 (fun i =>
              fskip))
        else if (extrapOrder =? 2)%Z then
          scalar factor := $beta / (#3 * ($h * $h)) in
          do_ pfirst2 plast2 (fun k =>
            do_ pfirst0 plast0 (fun i =>
              put stencil!(0, i, ie1, k) := stencil!(0, i, ie1, k) + $factor))
        else
          fskip)
      else if (direction =? 2)%Z then
        let ie2 := (pfirst2 - side + 1)%Z in
        (if (extrapOrder =? 1)%Z then
          do_ pfirst1 plast1 (fun j =>
            do_ pfirst0 plast0 (fun i =>
              fskip))
        else if (extrapOrder =? 2)%Z then
          scalar factor := $beta / (#3 * ($h * $h)) in
          do_ pfirst1 plast1 (fun j =>
            do_ pfirst0 plast0 (fun i =>
              put stencil!(0, i, j, ie2) := stencil!(0, i, j, ie2) + $factor))
        else
          fskip)
      else
        fskip)
    else
      fskip))%F.

  (** nodediffusionstencilcoeffs3d.m4:641-740 *)
  Definition adjnodediffusioncfdiag3d (ifirst0 ifirst1 ifirst2 ilast0 ilast1 ilast2 pfirst0 pfirst1
      pfirst2 plast0 plast1 plast2 r direction side interporder : Z) (dx : Z -> S) (beta : S) (b0 b1
      b2 stencil : ptr) : mem S -> option (mem S) :=
    let b0 := mkFa b0 (FACE3d0 ifirst0 ifirst1 ifirst2 ilast0 ilast1 ilast2 0) in
    let b1 := mkFa b1 (FACE3d1 ifirst0 ifirst1 ifirst2 ilast0 ilast1 ilast2 0) in
    let b2 := mkFa b2 (FACE3d2 ifirst0 ifirst1 ifirst2 ilast0 ilast1 ilast2 0) in
    let stencil := mkFa stencil ((0, 6) :: CELL3d ifirst0 ifirst1 ifirst2 ilast0 ilast1 ilast2 0) in
    (scalar dr := #r in
    scalar dr1 := #2 * ($dr - #1) / ($dr + #1) in
    scalar h := $(dx direction) in
    (if (direction =? 0)%Z then
      let ie0 := (pfirst0 - 2 * side + 1)%Z in
      let edge := (pfirst0 - side + 1)%Z in
      (if (interporder =? 1)%Z then
        do_ pfirst2 plast2 (fun k =>
          do_ pfirst1 plast1 (fun j =>
            scalar factor := $beta * b0!(edge, j, k) / (#3 * ($h * $h)) in
            put stencil!(0, ie0, j, k) := stencil!(0, ie0, j, k) - $factor))
      else if (interporder =? 2)%Z then
        do_ pfirst2 plast2 (fun k =>
          do_ pfirst1 plast1 (fun j =>
            scalar factor := $dr1 * $beta * b0!(edge, j, k) / ($h * $h) in
            put stencil!(0, ie0, j, k) := stencil!(0, ie0, j, k) - $factor))
      else
        fskip)
    else if (direction =? 1)%Z then
      let ie1 := (pfirst1 - 2 * side + 1)%Z in
      let edge := (pfirst1 - side + 1)%Z in
      (if (interporder =? 1)%Z then
        do_ pfirst2 plast2 (fun k =>
          do_ pfirst0 plast0 (fun i =>
            scalar factor := $beta * b1!(edge, k, i) / (#3 * ($h * $h)) in
            put stencil!(0, i, ie1, k) := stencil!(0, i, ie1, k) - $factor))
      else if (interporder =? 2)%Z then
        do_ pfirst2 plast2 (fun k =>
          do_ pfirst0 plast0 (fun i =>
            scalar factor := $dr1 * $beta * b1!(edge, k, i) / ($h * $h) in
            put stencil!(0, i, ie1, k) := stencil!(0, i, ie1, k) - $factor))
      else
        fskip)
    else if (direction =? 2)%Z then
      let ie2 := (pfirst2 - 2 * side + 1)%Z in
      let edge := (pfirst2 - side + 1)%Z in
      (if (interporder =? 1)%Z then
        do_ pfirst1 plast1 (fun j =>
          do_ pfirst0 plast0 (fun i =>
            scalar factor := $beta * b2!(edge, i, j) / (#3 * ($h * $h)) in
            put stencil!(0, i, j, ie2) := stencil!(0, i, j, ie2) - $factor))
      else if (interporder =? 2)%Z then
        do_ pfirst1 plast1 (fun j =>
          do_ pfirst0 plast0 (fun i =>
            scalar factor := $dr1 * $beta * b1!(edge, i, j) / ($h * $h) in
            put stencil!(0, i, j, ie2) := stencil!(0, i, j, ie2) - $factor))
      else
        fskip)
    else
      fskip))%F.

  (** nodediffusionstencilcoeffs3d.m4:742-833 *)
  Definition adjnodepoissoncfdiag3d (ifirst0 ifirst1 ifirst2 ilast0 ilast1 ilast2 pfirst0 pfirst1
      pfirst2 plast0 plast1 plast2 r direction side interporder : Z) (dx : Z -> S) (beta : S)
      (stencil : ptr) : mem S -> option (mem S) :=
    let stencil := mkFa stencil ((0, 6) :: CELL3d ifirst0 ifirst1 ifirst2 ilast0 ilast1 ilast2 0) in
    (scalar dr := #r in
    scalar dr1 := #2 * ($dr - #1) / ($dr + #1) in
    scalar h := $(dx direction) in
    (if (direction =? 0)%Z then
      let ie0 := (pfirst0 - 2 * side + 1)%Z in
      (if (interporder =? 1)%Z then
        scalar factor := $beta / (#3 * ($h * $h)) in
        do_ pfirst2 plast2 (fun k =>
          do_ pfirst1 plast1 (fun j =>
            put stencil!(0, ie0, j, k) := stencil!(0, ie0, j, k) - $factor))
      else if (interporder =? 2)%Z then
        scalar factor := $dr1 * $beta / ($h * $h) in
        do_ pfirst2 plast2 (fun k =>
          do_ pfirst1 plast1 (fun j =>
            put stencil!(0, ie0, j, k) := stencil!(0, ie0, j, k) - $factor))
      else
        fskip)
    else if (direction =? 1)%Z then
      let ie1 := (pfirst1 - 2 * side + 1)%Z in
      (if (interporder =? 1)%Z then
        scalar factor := $beta / (#3 * ($h * $h)) in
        do_ pfirst2 plast2 (fun k =>
          do_ pfirst0 plast0 (fun i =>
            put stencil!(0, i, ie1, k) := stencil!(0, i, ie1, k) - $factor))
      else if (interporder =? 2)%Z then
        scalar factor := $dr1 * $beta / ($h * $h) in
        do_ pfirst2 plast2 (fun k =>
          do_ pfirst0 plast0 (fun i =>
            put stencil!(0, i, ie1, k) := stencil!(0, i, ie1, k) - $factor))
      else
        fskip)
    else if (direction =? 2)%Z then
      let ie2 := (pfirst2 - 2 * side + 1)%Z in
      (if (interporder =? 1)%Z then
        scalar factor := $beta / (#3 * ($h * $h)) in
        do_ pfirst1 plast1 (fun j =>
          do_ pfirst0 plast0 (fun i =>
            put stencil!(0, i, j, ie2) := stencil!(0, i, j, ie2) - $factor))
      else if (interporder =? 2)%Z then
        scalar factor := $dr1 * $beta / ($h * $h) in
        do_ pfirst1 plast1 (fun j =>
          do_ pfirst0 plast0 (fun i =>
            put stencil!(0, i, j, ie2) := stencil!(0, i, j, ie2) - $factor))
      else
        fskip)
    else
      fskip))%F.

  (** nodediffusionstencilcoeffs3d.m4:836-1153 *)
  Definition adjnodediffusionoffdiag3d (ifirst0 ifirst1 ifirst2 ilast0 ilast1 ilast2 pfirst0 pfirst1
      pfirst2 plast0 plast1 plast2 direction side bdrytype extrapOrder : Z) (dx : Z -> S) (dirfactor
      neufactor beta : S) (b0 b1 b2 stencil : ptr) : mem S -> option (mem S) :=
    let b0 := mkFa b0 (FACE3d0 ifirst0 ifirst1 ifirst2 ilast0 ilast1 ilast2 0) in
    let b1 := mkFa b1 (FACE3d1 ifirst0 ifirst1 ifirst2 ilast0 ilast1 ilast2 0) in
    let b2 := mkFa b2 (FACE3d2 ifirst0 ifirst1 ifirst2 ilast0 ilast1 ilast2 0) in
    let stencil := mkFa stencil ((0, 6) :: CELL3d ifirst0 ifirst1 ifirst2 ilast0 ilast1 ilast2 0) in
    (scalar h := $(dx direction) in
    (if (bdrytype =? 4)%Z then
      (if (direction =? 0)%Z then
        let ie0 := (pfirst0 - side + 1)%Z in
        (if (side =? 0)%Z then
          (if (extrapOrder =? 1)%Z then
            do_ pfirst2 plast2 (fun k =>
              do_ pfirst1 plast1 (fun j =>
                scalar factor := #2 * $h / (#4 * b0!(ie0, j, k) + $h) in
                put stencil!(1, ie0, j, k) := $factor * stencil!(1, ie0, j, k)))
          else if (extrapOrder =? 2)%Z then
            do_ pfirst2 plast2 (fun k =>
              do_ pfirst1 plast1 (fun j =>
                scalar factor := $beta * b0!(ie0, j, k) in
                scalar factor := $factor / ($h * (#3 * $h + #16 * b0!(ie0, j, k))) in
                put stencil!(1, ie0, j, k) := (- (#9 * $factor)) ;;;
                put stencil!(2, ie0, j, k) := stencil!(2, ie0, j, k) - $factor))
          else
            fskip)
        else
          (if (extrapOrder =? 1)%Z then
            do_ pfirst2 plast2 (fun k =>
              do_ pfirst1 plast1 (fun j =>
                scalar factor := #2 * $h / (#4 * b0!(ie0, j, k) + $h) in
                put stencil!(2, ie0 - 1, j, k) := $factor * stencil!(2, ie0 - 1, j, k)))
          else if (extrapOrder =? 2)%Z then
            do_ pfirst2 plast2 (fun k =>
              do_ pfirst1 plast1 (fun j =>
                scalar factor := $beta * b0!(ie0, j, k) in
                scalar factor := $factor / ($h * (#3 * $h + #16 * b0!(ie0, j, k))) in
                put stencil!(2, ie0 - 1, j, k) := (- (#9 * $factor)) ;;;
                put stencil!(1, ie0 - 1, j, k) := stencil!(1, ie0 - 1, j, k) - $factor))
          else
            fskip))
      else if (direction =? 1)%Z then
        let ie1 := (pfirst1 - side + 1)%Z in
        (if (side =? 0)%Z then
          (if (extrapOrder =? 1)%Z then
            do_ pfirst2 plast2 (fun k =>
              do_ pfirst0 plast0 (fun i =>
                scalar factor := #2 * $h / (#4 * b1!(ie1, k, i) + $h) in
                put stencil!(3, i, ie1, k) := $factor * stencil!(3, i, ie1, k)))
          else if (extrapOrder =? 2)%Z then
            do_ pfirst2 plast2 (fun k =>
              do_ pfirst0 plast0 (fun i =>
                scalar factor := $beta * b1!(ie1, k, i) in
                scalar factor := $factor / ($h * (#3 * $h + #16 * b1!(ie1, k, i))) in
                put stencil!(3, i, ie1, k) := (- (#9 * $factor)) ;;;
                put stencil!(4, i, ie1, k) := stencil!(4, i, ie1, k) - $factor))
          else
            fskip)
        else
          (if (extrapOrder =? 1)%Z then
            do_ pfirst2 plast2 (fun k =>
              do_ pfirst0 plast0 (fun i =>
                scalar factor := #2 * $h / (#4 * b1!(ie1, k, i) + $h) in
                put stencil!(4, i, ie1 - 1, k) := $factor * stencil!(4, i, ie1 - 1, k)))
          else if (extrapOrder =? 2)%Z then
            do_ pfirst2 plast2 (fun k =>
              do_ pfirst0 plast0 (fun i =>
                scalar factor := $beta * b1!(ie1, k, i) in
                scalar factor := $factor / ($h * (#3 * $h + #16 * b1!(ie1, k, i))) in
                put stencil!(4, i, ie1 - 1, k) := (- (#9 * $factor)) ;;;
                put stencil!(3, 1, ie1 - 1, k) := stencil!(3, i, ie1 - 1, k) - $factor))
          else
            fskip))
      else if (direction =? 2)%Z then
        let ie2 := (pfirst2 - side + 1)%Z in
        (if (side =? 0)%Z then
          (if (extrapOrder =? 1)%Z then
            do_ pfirst1 plast1 (fun j =>
              do_ pfirst0 plast0 (fun i =>
                scalar factor := #2 * $h / (#4 * b2!(ie2, i, j) + $h) in
                put stencil!(5, i, j, ie2) := $factor * stencil!(5, i, j, ie2)))
          else if (extrapOrder =? 2)%Z then
            do_ pfirst1 plast1 (fun j =>
              do_ pfirst0 plast0 (fun i =>
                scalar factor := $beta * b2!(ie2, i, j) in
                scalar factor := $factor / ($h * (#3 * $h + #16 * b2!(ie2, i, j))) in
                put stencil!(5, i, j, ie2) := (- (#9 * $factor)) ;;;
                put stencil!(6, i, j, ie2) := stencil!(6, i, j, ie2) - $factor))
          else
            fskip)
        else
          (if (extrapOrder =? 1)%Z then
            do_ pfirst1 plast1 (fun j =>
              do_ pfirst0 plast0 (fun i =>
                scalar factor := #2 * $h / (#4 * b2!(ie2, i, j) + $h) in
                put stencil!(6, i, j, ie2 - 1) := $factor * stencil!(6, i, j, ie2 - 1)))
          else if (extrapOrder =? 2)%Z then
            do_ pfirst1 plast1 (fun j =>
              do_ pfirst0 plast0 (fun i =>
                scalar factor := $beta * b2!(ie2, i, j) in
                scalar factor := $factor / ($h * (#3 * $h + #16 * b2!(ie2, i, j))) in
                put stencil!(6, i, j, ie2 - 1) := (- (#9 * $factor)) ;;;
                put stencil!(5, 1, j, ie2 - 1) := stencil!(5, i, j, ie2 - 1) - $factor))
          else
            fskip))
      else
        fskip)
    else if (bdrytype =? 0)%Z then
      scalar factor := $dirfactor in
      (if (direction =? 0)%Z then
        let ie0 := (pfirst0 - side + 1)%Z in
        (if (side =? 0)%Z then
          (if (extrapOrder =? 1)%Z then
            do_ pfirst2 plast2 (fun k =>
              do_ pfirst1 plast1 (fun j =>
                put stencil!(1, ie0, j, k) := stencil!(1, ie0, j, k) * $factor))
          else
            fskip) ;;;
          (if (extrapOrder =? 2)%Z then
            do_ pfirst2 plast2 (fun k =>
              do_ pfirst1 plast1 (fun j =>
                put stencil!(2, ie0, j, k) := stencil!(2, ie0, j, k) + stencil!(1, ie0, j, k) / #3 ;;;
                put stencil!(1, ie0, j, k) := #8 * stencil!(1, ie0, j, k) / #3))
          else
            fskip)
        else
          (if (extrapOrder =? 1)%Z then
            do_ pfirst2 plast2 (fun k =>
              do_ pfirst1 plast1 (fun j =>
                put stencil!(2, ie0 - 1, j, k) := stencil!(2, ie0 - 1, j, k) * $factor))
          else
            fskip) ;;;
          (if (extrapOrder =? 2)%Z then
            do_ pfirst2 plast2 (fun k =>
              do_ pfirst1 plast1 (fun j =>
                put stencil!(1, ie0 - 1, j, k) := stencil!(1, ie0 - 1, j, k) + stencil!(2, ie0 - 1, j, k) / #3 ;;;
                put stencil!(2, ie0 - 1, j, k) := #8 * stencil!(2, ie0 - 1, j, k) / #3))
          else
            fskip))
      else if (direction =? 1)%Z then
        let ie1 := (pfirst1 - side + 1)%Z in
        (if (side =? 0)%Z then
          (if (extrapOrder =? 1)%Z then
            do_ pfirst2 plast2 (fun k =>
              do_ pfirst0 plast0 (fun i =>
                put stencil!(3, i, ie1, k) := stencil!(3, i, ie1, k) * $factor))
          else if (extrapOrder =? 2)%Z then
            do_ pfirst2 plast2 (fun k =>
              do_ pfirst0 plast0 (fun i =>
                put stencil!(4, i, ie1, k) := stencil!(4, i, ie1, k) + stencil!(3, i, ie1, k) / #3 ;;;
                put stencil!(3, i, ie1, k) := #8 * stencil!(3, i, ie1, k) / #3))
          else
            fskip)
        else
          (if (extrapOrder =? 1)%Z then
            do_ pfirst2 plast2 (fun k =>
              do_ pfirst0 plast0 (fun i =>
                put stencil!(4, i, ie1 - 1, k) := stencil!(4, i, ie1 - 1, k) * $factor))
          else if (extrapOrder =? 2)%Z then
            do_ pfirst2 plast2 (fun k =>
              do_ pfirst0 plast0 (fun i =>
                put stencil!(3, i, ie1 - 1, k) := stencil!(3, i, ie1 - 1, k) + stencil!(4, i, ie1 - 1, k) / #3 ;;;
                put stencil!(4, i, ie1 - 1, k) := #8 * stencil!(4, i, ie1 - 1, k) / #3))
          else
            fskip))
      else if (direction =? 2)%Z then
        let ie2 := (pfirst2 - side + 1)%Z in
        (if (side =? 0)%Z then
          (if (extrapOrder =? 1)%Z then
            do_ pfirst1 plast1 (fun j =>
              do_ pfirst0 plast0 (fun i =>
                put stencil!(5, i, j, ie2) := stencil!(5, i, j, ie2) * $factor))
          else if (extrapOrder =? 2)%Z then
            do_ pfirst1 plast1 (fun j =>
              do_ pfirst0 plast0 (fun i =>
                put stencil!(6, i, j, ie2) := stencil!(6, i, j, ie2) + stencil!(5, i, j, ie2) / #3 ;;;
                put stencil!(5, i, j, ie2) := #8 * stencil!(5, i, j, ie2) / #3))
          else
            fskip)
        else
          (if (extrapOrder =? 1)%Z then
            do_ pfirst1 plast1 (fun j =>
              do_ pfirst0 plast0 (fun i =>
                put stencil!(6, i, j, ie2 - 1) := stencil!(6, i, j, ie2 - 1) * $factor))
          else if (extrapOrder =? 2)%Z then
            do_ pfirst1 plast1 (fun j =>
              do_ pfirst0 plast0 (fun i =>
                put stencil!(5, i, j, ie2 - 1) := stencil!(5, i, j, ie2 - 1) + stencil!(6, i, j, ie2 - 1) / #3 ;;;
                put stencil!(6, i, j, ie2 - 1) := #8 * stencil!(6, i, j, ie2 - 1) / #3))
          else
            fskip))
      else
        fskip)
    else if (bdrytype =? 1)%Z then
      (if (direction =? 0)%Z then
        let ie0 := (pfirst0 - side + 1)%Z in
        (if (side =? 0)%Z then
          do_ pfirst2 plast2 (fun k =>
            do_ pfirst1 plast1 (fun j =>
              put stencil!(1, ie0, j, k) := #0))
        else
          do_ pfirst2 plast2 (fun k =>
            do_ pfirst1 plast1 (fun j =>
              put stencil!(2, ie0 - 1, j, k) := #0)))
      else if (direction =? 1)%Z then
        let ie1 := (pfirst1 - side + 1)%Z in
        (if (side =? 0)%Z then
          do_ pfirst2 plast2 (fun k =>
            do_ pfirst0 plast0 (fun i =>
              put stencil!(3, i, ie1, k) := #0))
        else
          do_ pfirst2 plast2 (fun k =>
            do_ pfirst0 plast0 (fun i =>
              put stencil!(4, i, ie1 - 1, k) := #0)))
      else if (direction =? 2)%Z then
        let ie2 := (pfirst2 - side + 1)%Z in
        (if (side =? 0)%Z then
          do_ pfirst1 plast1 (fun j =>
            do_ pfirst0 plast0 (fun i =>
              put stencil!(5, i, j, ie2) := #0))
        else
          do_ pfirst1 plast1 (fun j =>
            do_ pfirst0 plast0 (fun i =>
              put stencil!(6, i, j, ie2 - 1) := #0)))
      else
        fskip)
    else
      fskip))%F.

  (** nodediffusionstencilcoeffs3d.m4:1155-1460 *)
  Definition adjnodepoissonoffdiag3d (ifirst0 ifirst1 ifirst2 ilast0 ilast1 ilast2 pfirst0 pfirst1
      pfirst2 plast0 plast1 plast2 direction side bdrytype extrapOrder : Z) (dx : Z -> S) (dirfactor
      neufactor beta : S) (stencil : ptr) : mem S -> option (mem S) :=
    let stencil := mkFa stencil ((0, 6) :: CELL3d ifirst0 ifirst1 ifirst2 ilast0 ilast1 ilast2 0) in
    (scalar h := $(dx direction) in
    (if (bdrytype =? 4)%Z then
      (if (direction =? 0)%Z then
        let ie0 := (pfirst0 - side + 1)%Z in
        (if (side =? 0)%Z then
          (if (extrapOrder =? 1)%Z then
            scalar factor := #2 * $h / (#4 + $h) in
            do_ pfirst2 plast2 (fun k =>
              do_ pfirst1 plast1 (fun j =>
                put stencil!(1, ie0, j, k) := $factor * stencil!(1, ie0, j, k)))
          else if (extrapOrder =? 2)%Z then
            scalar factor := $beta / ($h * (#3 * $h + #16)) in
            do_ pfirst2 plast2 (fun k =>
              do_ pfirst1 plast1 (fun j =>
                put stencil!(1, ie0, j, k) := (- (#9 * $factor)) ;;;
                put stencil!(2, ie0, j, k) := stencil!(2, ie0, j, k) - $factor))
          else
            fskip)
        else
          (if (extrapOrder =? 1)%Z then
            scalar factor := #2 * $h / (#4 + $h) in
            do_ pfirst2 plast2 (fun k =>
              do_ pfirst1 plast1 (fun j =>
                put stencil!(2, ie0 - 1, j, k) := $factor * stencil!(2, ie0 - 1, j, k)))
          else if (extrapOrder =? 2)%Z then
            scalar factor := $beta / ($h * (#3 * $h + #16)) in
            do_ pfirst2 plast2 (fun k =>
              do_ pfirst1 plast1 (fun j =>
                put stencil!(2, ie0 - 1, j, k) := (- (#9 * $factor)) ;;;
                put stencil!(1, ie0 - 1, j, k) := stencil!(1, ie0 - 1, j, k) - $factor))
          else
            fskip))
      else if (direction =? 1)%Z then
        let ie1 := (pfirst1 - side + 1)%Z in
        (if (side =? 0)%Z then
          (if (extrapOrder =? 1)%Z then
            scalar factor := #2 * $h / (#4 + $h) in
            do_ pfirst2 plast2 (fun k =>
              do_ pfirst0 plast0 (fun i =>
                put stencil!(3, i, ie1, k) := $factor * stencil!(3, i, ie1, k)))
          else if (extrapOrder =? 2)%Z then
            scalar factor := $beta / ($h * (#3 * $h + #16)) in
            do_ pfirst2 plast2 (fun k =>
              do_ pfirst0 plast0 (fun i =>
                put stencil!(3, i, ie1, k) := (- (#9 * $factor)) ;;;
                put stencil!(4, i, ie1, k) := stencil!(4, i, ie1, k) - $factor))
          else
            fskip)
        else
          (if (extrapOrder =? 1)%Z then
            scalar factor := #2 * $h / (#4 + $h) in
            do_ pfirst2 plast2 (fun k =>
              do_ pfirst0 plast0 (fun i =>
                put stencil!(4, i, ie1 - 1, k) := $factor * stencil!(4, i, ie1 - 1, k)))
          else if (extrapOrder =? 2)%Z then
            scalar factor := $beta / ($h * (#3 * $h + #16)) in
            do_ pfirst2 plast2 (fun k =>
              do_ pfirst0 plast0 (fun i =>
                put stencil!(4, i, ie1 - 1, k) := (- (#9 * $factor)) ;;;
                put stencil!(3, 1, ie1 - 1, k) := stencil!(3, i, ie1 - 1, k) - $factor))
          else
            fskip))
      else if (direction =? 2)%Z then
        let ie2 := (pfirst2 - side + 1)%Z in
        (if (side =? 0)%Z then
          (if (extrapOrder =? 1)%Z then
            scalar factor := #2 * $h / (#4 + $h) in
            do_ pfirst1 plast1 (fun j =>
              do_ pfirst0 plast0 (fun i =>
                put stencil!(5, i, j, ie2) := $factor * stencil!(5, i, j, ie2)))
          else if (extrapOrder =? 2)%Z then
            scalar factor := $beta / ($h * (#3 * $h + #16)) in
            do_ pfirst1 plast1 (fun j =>
              do_ pfirst0 plast0 (fun i =>
                put stencil!(5, i, j, ie2) := (- (#9 * $factor)) ;;;
                put stencil!(6, i, j, ie2) := stencil!(6, i, j, ie2) - $factor))
          else
            fskip)
        else
          (if (extrapOrder =? 1)%Z then
            scalar factor := #2 * $h / (#4 + $h) in
            do_ pfirst1 plast1 (fun j =>
              do_ pfirst0 plast0 (fun i =>
                put stencil!(6, i, j, ie2 - 1) := $factor * stencil!(6, i, j, ie2 - 1)))
          else if (extrapOrder =? 2)%Z then
            scalar factor := $beta / ($h * (#3 * $h + #16)) in
            do_ pfirst1 plast1 (fun j =>
              do_ pfirst0 plast0 (fun i =>
                put stencil!(6, i, j, ie2 - 1) := (- (#9 * $factor)) ;;;
                put stencil!(5, 1, j, ie2 - 1) := stencil!(5, i, j, ie2 - 1) - $factor))
          else
            fskip))
      else
        fskip)
    else if (bdrytype =? 0)%Z then
      scalar factor := $dirfactor in
      (if (direction =? 0)%Z then
        let ie0 := (pfirst0 - side + 1)%Z in
        (if (side =? 0)%Z then
          (if (extrapOrder =? 1)%Z then
            do_ pfirst2 plast2 (fun k =>
              do_ pfirst1 plast1 (fun j =>
                put stencil!(1, ie0, j, k) := stencil!(1, ie0, j, k) * $factor))
          else if (extrapOrder =? 2)%Z then
            do_ pfirst2 plast2 (fun k =>
              do_ pfirst1 plast1 (fun j =>
                put stencil!(2, ie0, j, k) := stencil!(2, ie0, j, k) + stencil!(1, ie0, j, k) / #3 ;;;
                put stencil!(1, ie0, j, k) := #8 * stencil!(1, ie0, j, k) / #3))
          else
            fskip)
        else
          (if (extrapOrder =? 1)%Z then
            do_ pfirst2 plast2 (fun k =>
              do_ pfirst1 plast1 (fun j =>
                put stencil!(2, ie0 - 1, j, k) := stencil!(2, ie0 - 1, j, k) * $factor))
          else if (extrapOrder =? 2)%Z then
            do_ pfirst2 plast2 (fun k =>
              do_ pfirst1 plast1 (fun j =>
                put stencil!(1, ie0 - 1, j, k) := stencil!(1, ie0 - 1, j, k) + stencil!(2, ie0 - 1, j, k) / #3 ;;;
                put stencil!(2, ie0 - 1, j, k) := #8 * stencil!(2, ie0 - 1, j, k) / #3))
          else
            fskip))
      else if (direction =? 1)%Z then
        let ie1 := (pfirst1 - side + 1)%Z in
        (if (side =? 0)%Z then
          (if (extrapOrder =? 1)%Z then
            do_ pfirst2 plast2 (fun k =>
              do_ pfirst0 plast0 (fun i =>
                put stencil!(3, i, ie1, k) := stencil!(3, i, ie1, k) * $factor))
          else if (extrapOrder =? 2)%Z then
            do_ pfirst2 plast2 (fun k =>
              do_ pfirst0 plast0 (fun i =>
                put stencil!(4, i, ie1, k) := stencil!(4, i, ie1, k) + stencil!(3, i, ie1, k) / #3 ;;;
                put stencil!(3, i, ie1, k) := #8 * stencil!(3, i, ie1, k) / #3))
          else
            fskip)
        else
          (if (extrapOrder =? 1)%Z then
            do_ pfirst2 plast2 (fun k =>
              do_ pfirst0 plast0 (fun i =>
                put stencil!(4, i, ie1 - 1, k) := stencil!(4, i, ie1 - 1, k) * $factor))
          else if (extrapOrder =? 2)%Z then
            do_ pfirst2 plast2 (fun k =>
              do_ pfirst0 plast0 (fun i =>
                put stencil!(3, i, ie1 - 1, k) := stencil!(3, i, ie1 - 1, k) + stencil!(4, i, ie1 - 1, k) / #3 ;;;
                put stencil!(4, i, ie1 - 1, k) := #8 * stencil!(4, i, ie1 - 1, k) / #3))
          else
            fskip))
      else if (direction =? 2)%Z then
        let ie2 := (pfirst2 - side + 1)%Z in
        (if (side =? 0)%Z then
          (if (extrapOrder =? 1)%Z then
            do_ pfirst1 plast1 (fun j =>
              do_ pfirst0 plast0 (fun i =>
                put stencil!(5, i, j, ie2) := stencil!(5, i, j, ie2) * $factor))
          else if (extrapOrder =? 2)%Z then
            do_ pfirst1 plast1 (fun j =>
              do_ pfirst0 plast0 (fun i =>
                put stencil!(6, i, j, ie2) := stencil!(6, i, j, ie2) + stencil!(5, i, j, ie2) / #3 ;;;
                put stencil!(5, i, j, ie2) := #8 * stencil!(5, i, j, ie2) / #3))
          else
            fskip)
        else
          (if (extrapOrder =? 1)%Z then
            do_ pfirst1 plast1 (fun j =>
              do_ pfirst0 plast0 (fun i =>
                put stencil!(6, i, j, ie2 - 1) := stencil!(6, i, j, ie2 - 1) * $factor))
          else if (extrapOrder =? 2)%Z then
            do_ pfirst1 plast1 (fun j =>
              do_ pfirst0 plast0 (fun i =>
                put stencil!(5, i, j, ie2 - 1) := stencil!(5, i, j, ie2 - 1) + stencil!(6, i, j, ie2 - 1) / #3 ;;;
                put stencil!(6, i, j, ie2 - 1) := #8 * stencil!(6, i, j, ie2 - 1) / #3))
          else
            fskip))
      else
        fskip)
    else if (bdrytype =? 1)%Z then
      (if (direction =? 0)%Z then
        let ie0 := (pfirst0 - side + 1)%Z in
        (if (side =? 0)%Z then
          do_ pfirst2 plast2 (fun k =>
            do_ pfirst1 plast1 (fun j =>
              put stencil!(1, ie0, j, k) := #0))
        else
          do_ pfirst2 plast2 (fun k =>
            do_ pfirst1 plast1 (fun j =>
              put stencil!(2, ie0 - 1, j, k) := #0)))
      else if (direction =? 1)%Z then
        let ie1 := (pfirst1 - side + 1)%Z in
        (if (side =? 0)%Z then
          do_ pfirst2 plast2 (fun k =>
            do_ pfirst0 plast0 (fun i =>
              put stencil!(3, i, ie1, k) := #0))
        else
          do_ pfirst2 plast2 (fun k =>
            do_ pfirst0 plast0 (fun i =>
              put stencil!(4, i, ie1 - 1, k) := #0)))
      else if (direction =? 2)%Z then
        let ie2 := (pfirst2 - side + 1)%Z in
        (if (side =? 0)%Z then
          do_ pfirst1 plast1 (fun j =>
            do_ pfirst0 plast0 (fun i =>
              put stencil!(5, i, j, ie2) := #0))
        else
          do_ pfirst1 plast1 (fun j =>
            do_ pfirst0 plast0 (fun i =>
              put stencil!(6, i, j, ie2 - 1) := #0)))
      else
        fskip)
    else
      fskip))%F.

  (** nodediffusionstencilcoeffs3d.m4:1463-1605 *)
  Definition adjnodediffusioncfoffdiag3d (ifirst0 ifirst1 ifirst2 ilast0 ilast1 ilast2 cfirst0
      cfirst1 cfirst2 clast0 clast1 clast2 r direction side interporder : Z) (stencil : ptr) : mem S -> option (mem S) :=
    let stencil := mkFa stencil ((0, 6) :: CELL3d ifirst0 ifirst1 ifirst2 ilast0 ilast1 ilast2 0) in
    (scalar dr := #r in
    (if (direction =? 0)%Z then
      let ie0 := (cfirst0 - side + 1)%Z in
      (if (side =? 0)%Z then
        (if (interporder =? 1)%Z then
          do_ cfirst2 clast2 (fun k =>
            do_ cfirst1 clast1 (fun j =>
              put stencil!(1, ie0, j, k) := #2 * stencil!(1, ie0, j, k) / #3))
        else if (interporder =? 2)%Z then
          do_ cfirst2 clast2 (fun k =>
            do_ cfirst1 clast1 (fun j =>
              put stencil!(2, ie0, j, k) := stencil!(2, ie0, j, k) - stencil!(1, ie0, j, k) * ($dr - #1) / ($dr + #3) ;;;
              put stencil!(1, ie0, j, k) := #8 * stencil!(1, ie0, j, k) / (($dr + #1) * ($dr + #3))))
        else
          fskip)
      else
        (if (interporder =? 1)%Z then
          do_ cfirst2 clast2 (fun k =>
            do_ cfirst1 clast1 (fun j =>
              put stencil!(2, ie0 - 1, j, k) := #2 * stencil!(2, ie0 - 1, j, k) / #3))
        else if (interporder =? 2)%Z then
          do_ cfirst2 clast2 (fun k =>
            do_ cfirst1 clast1 (fun j =>
              put stencil!(1, ie0 - 1, j, k) := stencil!(1, ie0 - 1, j, k) - stencil!(2, ie0 - 1, j, k) * ($dr - #1) / ($dr + #3) ;;;
              put stencil!(2, ie0 - 1, j, k) := #8 * stencil!(2, ie0 - 1, j, k) / (($dr + #1) * ($dr + #3))))
        else
          fskip))
    else if (direction =? 1)%Z then
      let ie1 := (cfirst1 - side + 1)%Z in
      (if (side =? 0)%Z then
        (if (interporder =? 1)%Z then
          do_ cfirst2 clast2 (fun k =>
            do_ cfirst0 clast0 (fun i =>
              put stencil!(3, i, ie1, k) := #2 * stencil!(3, i, ie1, k) / #3))
        else if (interporder =? 2)%Z then
          do_ cfirst2 clast2 (fun k =>
            do_ cfirst0 clast0 (fun i =>
              put stencil!(4, i, ie1, k) := stencil!(4, i, ie1, k) - stencil!(3, i, ie1, k) * ($dr - #1) / ($dr + #3) ;;;
              put stencil!(3, i, ie1, k) := #8 * stencil!(3, i, ie1, k) / (($dr + #1) * ($dr + #3))))
        else
          fskip)
      else
        (if (interporder =? 1)%Z then
          do_ cfirst2 clast2 (fun k =>
            do_ cfirst0 clast0 (fun i =>
              put stencil!(4, i, ie1 - 1, k) := #2 * stencil!(4, i, ie1 - 1, k) / #3))
        else if (interporder =? 2)%Z then
          do_ cfirst2 clast2 (fun k =>
            do_ cfirst0 clast0 (fun i =>
              put stencil!(3, i, ie1 - 1, k) := stencil!(3, i, ie1 - 1, k) - stencil!(4, i, ie1 - 1, k) * ($dr - #1) / ($dr + #3) ;;;
              put stencil!(4, i, ie1 - 1, k) := #8 * stencil!(4, i, ie1 - 1, k) / (($dr + #1) * ($dr + #3))))
        else
          fskip))
    else if (direction =? 2)%Z then
      let ie2 := (cfirst2 - side + 1)%Z in
      (if (side =? 0)%Z then
        (if (interporder =? 1)%Z then
          do_ cfirst1 clast1 (fun j =>
            do_ cfirst0 clast0 (fun i =>
              put stencil!(5, i, j, ie2) := #2 * stencil!(5, i, j, ie2) / #3))
        else if (interporder =? 2)%Z then
          do_ cfirst1 clast1 (fun j =>
            do_ cfirst0 clast0 (fun i =>
              put stencil!(6, i, j, ie2) := stencil!(6, i, j, ie2) - stencil!(5, i, j, ie2) * ($dr - #1) / ($dr + #3) ;;;
              put stencil!(5, i, j, ie2) := #8 * stencil!(5, i, j, ie2) / (($dr + #1) * ($dr + #3))))
        else
          fskip)
      else
        (if (interporder =? 1)%Z then
          do_ cfirst1 clast1 (fun j =>
            do_ cfirst0 clast0 (fun i =>
              put stencil!(6, i, j, ie2 - 1) := #2 * stencil!(6, i, j, ie2 - 1) / #3))
        else if (interporder =? 2)%Z then
          do_ cfirst1 clast1 (fun j =>
            do_ cfirst0 clast0 (fun i =>
              put stencil!(5, i, j, ie2 - 1) := stencil!(5, i, j, ie2 - 1) - stencil!(6, i, j, ie2 - 1) * ($dr - #1) / ($dr + #3) ;;;
              put stencil!(6, i, j, ie2 - 1) := #8 * stencil!(6, i, j, ie2 - 1) / (($dr + #1) * ($dr + #3))))
        else
          fskip))
    else
      fskip))%F.

  (** nodediffusionstencilcoeffs3d.m4:1608-1677 *)
  Definition readjnodediffusionoffdiag3d (ifirst0 ifirst1 ifirst2 ilast0 ilast1 ilast2 pfirst0
      pfirst1 pfirst2 plast0 plast1 plast2 direction side : Z) (stencil : ptr) : mem S -> option (mem S) :=
    let stencil := mkFa stencil ((0, 6) :: CELL3d ifirst0 ifirst1 ifirst2 ilast0 ilast1 ilast2 0) in
    ((if (direction =? 0)%Z then
      let ie0 := (pfirst0 - side + 1)%Z in
      (if (side =? 0)%Z then
        do_ pfirst2 plast2 (fun k =>
          do_ pfirst1 plast1 (fun j =>
            put stencil!(1, ie0, j, k) := #0))
      else
        do_ pfirst2 plast2 (fun k =>
          do_ pfirst1 plast1 (fun j =>
            put stencil!(2, ie0 - 1, j, k) := #0)))
    else if (direction =? 1)%Z then
      let ie1 := (pfirst1 - side + 1)%Z in
      (if (side =? 0)%Z then
        do_ pfirst2 plast2 (fun k =>
          do_ pfirst0 plast0 (fun i =>
            put stencil!(3, i, ie1, k) := #0))
      else
        do_ pfirst2 plast2 (fun k =>
          do_ pfirst0 plast0 (fun i =>
            put stencil!(4, i, ie1 - 1, k) := #0)))
    else if (direction =? 2)%Z then
      let ie2 := (pfirst1 - side + 1)%Z in
      (if (side =? 0)%Z then
        do_ pfirst1 plast1 (fun j =>
          do_ pfirst0 plast0 (fun i =>
            put stencil!(5, i, j, ie2) := #0))
      else
        do_ pfirst1 plast1 (fun j =>
          do_ pfirst0 plast0 (fun i =>
            put stencil!(6, i, j, ie2 - 1) := #0)))
    else
      fskip))%F.

  (** nodediffusionstencilcoeffs3d.m4:1680-1759 *)
  Definition adjnodediffusioncfbdryrhs3d (ifirst0 ifirst1 ifirst2 ilast0 ilast1 ilast2 pfirst0
      pfirst1 pfirst2 plast0 plast1 plast2 direction side : Z) (stencil : ptr) (gcw : Z) (u
      rhs : ptr) : mem S -> option (mem S) :=
    let stencil := mkFa stencil ((0, 6) :: CELL3d ifirst0 ifirst1 ifirst2 ilast0 ilast1 ilast2 0) in
    let u := mkFa u (CELL3d ifirst0 ifirst1 ifirst2 ilast0 ilast1 ilast2 gcw) in
    let rhs := mkFa rhs (CELL3d ifirst0 ifirst1 ifirst2 ilast0 ilast1 ilast2 0) in
    ((if (direction =? 0)%Z then
      let ie0 := (pfirst0 + 1 - 2 * side)%Z in
      (if (side =? 0)%Z then
        do_ pfirst2 plast2 (fun k =>
          do_ pfirst1 plast1 (fun j =>
            put rhs!(ie0, j, k) := rhs!(ie0, j, k) - stencil!(1, ie0, j, k) * u!(ie0 - 1, j, k)))
      else
        do_ pfirst2 plast2 (fun k =>
          do_ pfirst1 plast1 (fun j =>
            put rhs!(ie0, j, k) := rhs!(ie0, j, k) - stencil!(2, ie0, j, k) * u!(ie0 + 1, j, k))))
    else if (direction =? 1)%Z then
      let ie1 := (pfirst1 + 1 - 2 * side)%Z in
      (if (side =? 0)%Z then
        do_ pfirst2 plast2 (fun k =>
          do_ pfirst0 plast0 (fun i =>
            put rhs!(i, ie1, k) := rhs!(i, ie1, k) - stencil!(3, i, ie1, k) * u!(i, ie1 - 1, k)))
      else
        do_ pfirst2 plast2 (fun k =>
          do_ pfirst0 plast0 (fun i =>
            put rhs!(i, ie1, k) := rhs!(i, ie1, k) - stencil!(4, i, ie1, k) * u!(i, ie1 + 1, k))))
    else if (direction =? 2)%Z then
      let ie2 := (pfirst2 + 1 - 2 * side)%Z in
      (if (side =? 0)%Z then
        do_ pfirst1 plast1 (fun j =>
          do_ pfirst0 plast0 (fun i =>
            put rhs!(i, j, ie2) := rhs!(i, j, ie2) - stencil!(5, i, j, ie2) * u!(i, j, ie2 - 1)))
      else
        do_ pfirst1 plast1 (fun j =>
          do_ pfirst0 plast0 (fun i =>
            put rhs!(i, j, ie2) := rhs!(i, j, ie2) - stencil!(6, i, j, ie2) * u!(i, j, ie2 + 1))))
    else
      fskip))%F.
End FortranNodeStencil3.
