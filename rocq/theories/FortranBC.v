(** * Reference boundary conditions: m4/cellsetcorrectionbc*.m4

    Transcribed statement by statement by tools/f2v.py from the m4 sources.  An
    assignment to a local scalar is the binding [scalar x := e in ...], evaluated
    where it stands; assignments to variables that are never read are left out. *)

From Verif Require Import Base FortranBase.
Import ListNotations.
Open Scope Z_scope.

Section FortranBC.
  Context {S : Scalar}.

  (** cellsetcorrectionbc1d.m4:28-130 *)
  Definition cellsetcorrectionbc1d (lo0 hi0 : Z) (dx : Z -> S) (dgcw : Z) (d0 : ptr) (ugcw : Z)
      (u : ptr) (bdrySegLo bdrySegHi : Z -> Z) (extrapOrder face bdryType : Z) (alpha beta : S) : mem S -> option (mem S) :=
    let d0 := mkFa d0 (FACE1d lo0 hi0 dgcw) in
    let u := mkFa u (CELL1d lo0 hi0 ugcw) in
    ((if (face =? 0)%Z then
      let ilo := (bdrySegLo 0 + 1)%Z in
      scalar h := $(dx 0) in
      (if (bdryType =? 0)%Z then
        (if (extrapOrder =? 1)%Z then
          put u!(ilo - 1) := (- u!(ilo))
        else if (extrapOrder =? 2)%Z then
          put u!(ilo - 1) := (- (#2 * u!(ilo))) + u!(ilo + 1) / #3
        else
          fskip)
      else if (bdryType =? 1)%Z then
        put u!(ilo - 1) := u!(ilo)
      else if (bdryType =? 4)%Z then
        (if (extrapOrder =? 1)%Z then
          scalar factor := #2 * $alpha * d0!(ilo) - $h * $beta in
          scalar factor := $factor / (#2 * $alpha * d0!(ilo) + $h * $beta) in
          put u!(ilo - 1) := $factor * u!(ilo)
        else if (extrapOrder =? 2)%Z then
          scalar b := d0!(ilo) in
          scalar coeff1 := #8 * $alpha * $b - #6 * $beta * $h in
          scalar coeff1 := $coeff1 / (#8 * $alpha * $b + #3 * $beta * $h) in
          scalar coeff2 := $h / (#8 * $alpha * $b + #3 * $beta * $h) in
          put u!(ilo - 1) := $coeff1 * u!(ilo) + $coeff2 * u!(ilo + 1)
        else
          fskip)
      else
        fskip)
    else if (face =? 1)%Z then
      let ihi := (bdrySegHi 0 - 1)%Z in
      scalar h := $(dx 0) in
      (if (bdryType =? 0)%Z then
        (if (extrapOrder =? 1)%Z then
          put u!(ihi + 1) := (- u!(ihi))
        else if (extrapOrder =? 2)%Z then
          put u!(ihi + 1) := (- (#2 * u!(ihi))) + u!(ihi - 1) / #3
        else
          fskip)
      else if (bdryType =? 1)%Z then
        put u!(ihi + 1) := u!(ihi)
      else if (bdryType =? 4)%Z then
        (if (extrapOrder =? 1)%Z then
          scalar factor := #2 * $alpha * d0!(ihi + 1) - $h * $beta in
          scalar factor := $factor / (#2 * $alpha * d0!(ihi + 1) + $h * $beta) in
          put u!(ihi + 1) := $factor * u!(ihi)
        else if (extrapOrder =? 2)%Z then
          scalar b := d0!(ihi + 1) in
          scalar coeff1 := (#8 * $alpha * $b - #6 * $beta * $h) / (#8 * $alpha * $b + #3 * $beta * $h) in
          scalar coeff2 := $h / (#8 * $alpha * $b + #3 * $beta * $h) in
          put u!(ihi + 1) := $coeff1 * u!(ihi) + $coeff2 * u!(ihi - 1)
        else
          fskip)
      else
        fskip)
    else
      fskip))%F.

  (** cellsetcorrectionbc1d.m4:132-228 *)
  Definition cellsetpoissoncorrectionbc1d (lo0 hi0 : Z) (dx : Z -> S) (ugcw : Z) (u : ptr) (bdrySegLo
      bdrySegHi : Z -> Z) (extrapOrder face bdryType : Z) (alpha beta : S) : mem S -> option (mem S) :=
    let u := mkFa u (CELL1d lo0 hi0 ugcw) in
    ((if (face =? 0)%Z then
      let ilo := (bdrySegLo 0 + 1)%Z in
      scalar h := $(dx 0) in
      (if (bdryType =? 0)%Z then
        (if (extrapOrder =? 1)%Z then
          put u!(ilo - 1) := (- u!(ilo))
        else if (extrapOrder =? 2)%Z then
          put u!(ilo - 1) := (- (#2 * u!(ilo))) + u!(ilo + 1) / #3
        else
          fskip)
      else if (bdryType =? 1)%Z then
        put u!(ilo - 1) := u!(ilo)
      else if (bdryType =? 4)%Z then
        (if (extrapOrder =? 1)%Z then
          scalar factor := (#4 - $h) / (#4 + $h) in
          put u!(ilo - 1) := $factor * u!(ilo)
        else if (extrapOrder =? 2)%Z then
          scalar b := #1 in
          scalar coeff1 := (#16 * $b - #6 * $h) / (#16 * $b + #3 * $h) in
          scalar coeff2 := $h / (#16 * $b + #3 * $h) in
          put u!(ilo - 1) := $coeff1 * u!(ilo) + $coeff2 * u!(ilo + 1)
        else
          fskip)
      else
        fskip)
    else if (face =? 1)%Z then
      let ihi := (bdrySegHi 0 - 1)%Z in
      scalar h := $(dx 0) in
      (if (bdryType =? 0)%Z then
        (if (extrapOrder =? 1)%Z then
          put u!(ihi + 1) := (- u!(ihi))
        else if (extrapOrder =? 2)%Z then
          put u!(ihi + 1) := (- (#2 * u!(ihi))) + u!(ihi - 1) / #3
        else
          fskip)
      else if (bdryType =? 1)%Z then
        put u!(ihi + 1) := u!(ihi)
      else if (bdryType =? 4)%Z then
        (if (extrapOrder =? 1)%Z then
          scalar factor := (#4 - $h) / (#4 + $h) in
          put u!(ihi + 1) := $factor * u!(ihi)
        else if (extrapOrder =? 2)%Z then
          scalar b := #1 in
          scalar coeff1 := (#16 * $b - #6 * $h) / (#3 * $h + #16 * $b) in
          scalar coeff2 := $h / (#3 * $h + #16 * $b) in
          put u!(ihi + 1) := $coeff1 * u!(ihi) + $coeff2 * u!(ihi - 1)
        else
          fskip)
      else
        fskip)
    else
      fskip))%F.

  (** cellsetcorrectionbc2d.m4:38-283 *)
  Definition cellsetcorrectionbc2d (lo0 hi0 lo1 hi1 : Z) (dx : Z -> S) (dgcw : Z) (d0 d1 : ptr)
      (ugcw : Z) (u : ptr) (bdrySegLo bdrySegHi : Z -> Z) (extrapOrder face type bdryType : Z) (alpha
      beta : S) : mem S -> option (mem S) :=
    let d0 := mkFa d0 (FACE2d0 lo0 lo1 hi0 hi1 dgcw) in
    let d1 := mkFa d1 (FACE2d1 lo0 lo1 hi0 hi1 dgcw) in
    let u := mkFa u (CELL2d lo0 lo1 hi0 hi1 ugcw) in
    ((if (type =? 1)%Z then
      (if (face =? 0)%Z then
        let ilo := (bdrySegLo 0 + 1)%Z in
        let jlo := (bdrySegLo 1)%Z in
        let jhi := (bdrySegHi 1)%Z in
        scalar h := $(dx 0) in
        (if (bdryType =? 0)%Z then
          do_ jlo jhi (fun j =>
            (if (extrapOrder =? 0)%Z then
              put u!(ilo - 1, j) := #0
            else if (extrapOrder =? 1)%Z then
              put u!(ilo - 1, j) := (- u!(ilo, j))
            else if (extrapOrder =? 2)%Z then
              put u!(ilo - 1, j) := (- (#2 * u!(ilo, j))) + u!(ilo + 1, j) / #3
            else
              fskip))
        else if (bdryType =? 1)%Z then
          do_ jlo jhi (fun j =>
            put u!(ilo - 1, j) := u!(ilo, j))
        else if (bdryType =? 4)%Z then
          do_ jlo jhi (fun j =>
            (if (extrapOrder =? 1)%Z then
              scalar factor := #2 * $alpha * d0!(ilo, j) - $h * $beta in
              scalar factor := $factor / (#2 * $alpha * d0!(ilo, j) + $h * $beta) in
              put u!(ilo - 1, j) := $factor * u!(ilo, j)
            else if (extrapOrder =? 2)%Z then
              scalar b := d0!(ilo, j) in
              scalar coeff1 := #8 * $alpha * $b - #6 * $beta * $h in
              scalar coeff1 := $coeff1 / (#8 * $alpha * $b + #3 * $beta * $h) in
              scalar coeff2 := $h / (#8 * $alpha * $b + #3 * $beta * $h) in
              put u!(ilo - 1, j) := $coeff1 * u!(ilo, j) + $coeff2 * u!(ilo + 1, j)
            else
              fskip))
        else
          fskip)
      else if (face =? 1)%Z then
        let ihi := (bdrySegHi 0 - 1)%Z in
        let jlo := (bdrySegLo 1)%Z in
        let jhi := (bdrySegHi 1)%Z in
        scalar h := $(dx 0) in
        (if (bdryType =? 0)%Z then
          do_ jlo jhi (fun j =>
            (if (extrapOrder =? 0)%Z then
              put u!(ihi + 1, j) := #0
            else if (extrapOrder =? 1)%Z then
              put u!(ihi + 1, j) := (- u!(ihi, j))
            else if (extrapOrder =? 2)%Z then
              put u!(ihi + 1, j) := (- (#2 * u!(ihi, j))) + u!(ihi - 1, j) / #3
            else
              fskip))
        else if (bdryType =? 1)%Z then
          do_ jlo jhi (fun j =>
            put u!(ihi + 1, j) := u!(ihi, j))
        else if (bdryType =? 4)%Z then
          do_ jlo jhi (fun j =>
            (if (extrapOrder =? 1)%Z then
              scalar factor := #2 * $alpha * d0!(ihi + 1, j) - $h * $beta in
              scalar factor := $factor / (#2 * $alpha * d0!(ihi + 1, j) + $h * $beta) in
              put u!(ihi + 1, j) := $factor * u!(ihi, j)
            else if (extrapOrder =? 2)%Z then
              scalar b := d0!(ihi + 1, j) in
              scalar coeff1 := #8 * $alpha * $b - #6 * $beta * $h in
              scalar coeff1 := $coeff1 / (#8 * $alpha * $b + #3 * $beta * $h) in
              scalar coeff2 := $h / (#8 * $alpha * $b + #3 * $beta * $h) in
              put u!(ihi + 1, j) := $coeff1 * u!(ihi, j) + $coeff2 * u!(ihi - 1, j)
            else
              fskip))
        else
          fskip)
      else if (face =? 2)%Z then
        let jlo := (bdrySegLo 1 + 1)%Z in
        let ilo := (bdrySegLo 0)%Z in
        let ihi := (bdrySegHi 0)%Z in
        scalar h := $(dx 1) in
        (if (bdryType =? 0)%Z then
          do_ ilo ihi (fun i =>
            (if (extrapOrder =? 0)%Z then
              put u!(i, jlo - 1) := #0
            else if (extrapOrder =? 1)%Z then
              put u!(i, jlo - 1) := (- u!(i, jlo))
            else if (extrapOrder =? 2)%Z then
              put u!(i, jlo - 1) := (- (#2 * u!(i, jlo))) + u!(i, jlo + 1) / #3
            else
              fskip))
        else if (bdryType =? 1)%Z then
          do_ ilo ihi (fun i =>
            put u!(i, jlo - 1) := u!(i, jlo))
        else if (bdryType =? 4)%Z then
          do_ ilo ihi (fun i =>
            (if (extrapOrder =? 1)%Z then
              scalar factor := #2 * $alpha * d1!(jlo, i) - $h * $beta in
              scalar factor := $factor / (#2 * $alpha * d1!(jlo, i) + $h * $beta) in
              put u!(i, jlo - 1) := $factor * u!(i, jlo)
            else if (extrapOrder =? 2)%Z then
              scalar b := d1!(jlo, i) in
              scalar coeff1 := #8 * $alpha * $b - #6 * $beta * $h in
              scalar coeff1 := $coeff1 / (#8 * $alpha * $b + #3 * $beta * $h) in
              scalar coeff2 := $h / (#8 * $alpha * $b + #3 * $beta * $h) in
              put u!(i, jlo - 1) := $coeff1 * u!(i, jlo) + $coeff2 * u!(i, jlo + 1)
            else
              fskip))
        else
          fskip)
      else if (face =? 3)%Z then
        let jhi := (bdrySegHi 1 - 1)%Z in
        let ilo := (bdrySegLo 0)%Z in
        let ihi := (bdrySegHi 0)%Z in
        scalar h := $(dx 1) in
        (if (bdryType =? 0)%Z then
          do_ ilo ihi (fun i =>
            (if (extrapOrder =? 0)%Z then
              put u!(i, jhi + 1) := #0
            else if (extrapOrder =? 1)%Z then
              put u!(i, jhi + 1) := (- u!(i, jhi))
            else if (extrapOrder =? 2)%Z then
              put u!(i, jhi + 1) := (- (#2 * u!(i, jhi))) + u!(i, jhi - 1) / #3
            else
              fskip))
        else if (bdryType =? 1)%Z then
          do_ ilo ihi (fun i =>
            put u!(i, jhi + 1) := u!(i, jhi))
        else if (bdryType =? 4)%Z then
          do_ ilo ihi (fun i =>
            (if (extrapOrder =? 1)%Z then
              scalar factor := #2 * $alpha * d1!(jhi + 1, i) - $h * $beta in
              scalar factor := $factor / (#2 * $alpha * d1!(jhi + 1, i) + $h * $beta) in
              put u!(i, jhi + 1) := $factor * u!(i, jhi)
            else if (extrapOrder =? 2)%Z then
              scalar b := d1!(jhi + 1, i) in
              scalar coeff1 := #8 * $alpha * $b - #6 * $beta * $h in
              scalar coeff1 := $coeff1 / (#8 * $alpha * $b + #3 * $beta * $h) in
              scalar coeff2 := $h / (#8 * $alpha * $b + #3 * $beta * $h) in
              put u!(i, jhi + 1) := $coeff1 * u!(i, jhi) + $coeff2 * u!(i, jhi - 1)
            else
              fskip))
        else
          fskip)
      else
        fskip)
    else if (type =? 2)%Z then
      (if (face =? 0)%Z then
        let ilo := (bdrySegLo 0)%Z in
        let jlo := (bdrySegLo 1)%Z in
        put u!(ilo, jlo) := (- u!(ilo + 1, jlo + 1)) + u!(ilo, jlo + 1) + u!(ilo + 1, jlo)
      else if (face =? 1)%Z then
        let ihi := (bdrySegHi 0)%Z in
        let jlo := (bdrySegLo 1)%Z in
        put u!(ihi, jlo) := (- u!(ihi - 1, jlo + 1)) + u!(ihi, jlo + 1) + u!(ihi - 1, jlo)
      else if (face =? 2)%Z then
        let ilo := (bdrySegLo 0)%Z in
        let jhi := (bdrySegHi 1)%Z in
        put u!(ilo, jhi) := (- u!(ilo + 1, jhi - 1)) + u!(ilo, jhi - 1) + u!(ilo + 1, jhi)
      else if (face =? 3)%Z then
        let ihi := (bdrySegHi 0)%Z in
        let jhi := (bdrySegHi 1)%Z in
        put u!(ihi, jhi) := (- u!(ihi - 1, jhi - 1)) + u!(ihi, jhi - 1) + u!(ihi - 1, jhi)
      else
        fskip)
    else
      fskip))%F.

  (** cellsetcorrectionbc2d.m4:285-489 *)
  Definition cellsetpoissoncorrectionbc2d (lo0 hi0 lo1 hi1 : Z) (dx : Z -> S) (ugcw : Z) (u : ptr)
      (bdrySegLo bdrySegHi : Z -> Z) (extrapOrder face type bdryType : Z) (alpha beta : S) : mem S -> option (mem S) :=
    let u := mkFa u (CELL2d lo0 lo1 hi0 hi1 ugcw) in
    ((if (type =? 1)%Z then
      (if (face =? 0)%Z then
        let ilo := (bdrySegLo 0 + 1)%Z in
        let jlo := (bdrySegLo 1)%Z in
        let jhi := (bdrySegHi 1)%Z in
        scalar h := $(dx 0) in
        (if (bdryType =? 0)%Z then
          do_ jlo jhi (fun j =>
            (if (extrapOrder =? 1)%Z then
              put u!(ilo - 1, j) := (- u!(ilo, j))
            else if (extrapOrder =? 2)%Z then
              put u!(ilo - 1, j) := (- (#2 * u!(ilo, j))) + u!(ilo + 1, j) / #3
            else
              fskip))
        else if (bdryType =? 1)%Z then
          do_ jlo jhi (fun j =>
            put u!(ilo - 1, j) := u!(ilo, j))
        else if (bdryType =? 4)%Z then
          do_ jlo jhi (fun j =>
            (if (extrapOrder =? 1)%Z then
              scalar factor := (#2 * $alpha - $h * $beta) / (#2 * $alpha + $h * $beta) in
              put u!(ilo - 1, j) := $factor * u!(ilo, j)
            else if (extrapOrder =? 2)%Z then
              scalar b := #1 in
              scalar coeff1 := #8 * $alpha * $b - #6 * $beta * $h in
              scalar coeff1 := $coeff1 / (#8 * $alpha * $b + #3 * $beta * $h) in
              scalar coeff2 := $h / (#8 * $alpha * $b + #3 * $beta * $h) in
              put u!(ilo - 1, j) := $coeff1 * u!(ilo, j) + $coeff2 * u!(ilo + 1, j)
            else
              fskip))
        else
          fskip)
      else if (face =? 1)%Z then
        let ihi := (bdrySegHi 0 - 1)%Z in
        let jlo := (bdrySegLo 1)%Z in
        let jhi := (bdrySegHi 1)%Z in
        scalar h := $(dx 0) in
        (if (bdryType =? 0)%Z then
          do_ jlo jhi (fun j =>
            (if (extrapOrder =? 1)%Z then
              put u!(ihi + 1, j) := (- u!(ihi, j))
            else if (extrapOrder =? 2)%Z then
              put u!(ihi + 1, j) := (- (#2 * u!(ihi, j))) + u!(ihi - 1, j) / #3
            else
              fskip))
        else if (bdryType =? 1)%Z then
          do_ jlo jhi (fun j =>
            put u!(ihi + 1, j) := u!(ihi, j))
        else if (bdryType =? 4)%Z then
          do_ jlo jhi (fun j =>
            (if (extrapOrder =? 1)%Z then
              scalar factor := (#2 * $alpha - $h * $beta) / (#2 * $alpha + $h * $beta) in
              put u!(ihi + 1, j) := $factor * u!(ihi, j)
            else if (extrapOrder =? 2)%Z then
              scalar b := #1 in
              scalar coeff1 := #8 * $alpha * $b - #6 * $beta * $h in
              scalar coeff1 := $coeff1 / (#8 * $alpha * $b + #3 * $beta * $h) in
              scalar coeff2 := $h / (#8 * $alpha * $b + #3 * $beta * $h) in
              put u!(ihi + 1, j) := $coeff1 * u!(ihi, j) + $coeff2 * u!(ihi - 1, j)
            else
              fskip))
        else
          fskip)
      else if (face =? 2)%Z then
        let jlo := (bdrySegLo 1 + 1)%Z in
        let ilo := (bdrySegLo 0)%Z in
        let ihi := (bdrySegHi 0)%Z in
        (if (bdryType =? 0)%Z then
          do_ ilo ihi (fun i =>
            (if (extrapOrder =? 1)%Z then
              put u!(i, jlo - 1) := (- u!(i, jlo))
            else if (extrapOrder =? 2)%Z then
              put u!(i, jlo - 1) := (- (#2 * u!(i, jlo))) + u!(i, jlo + 1) / #3
            else
              fskip))
        else if (bdryType =? 1)%Z then
          do_ ilo ihi (fun i =>
            put u!(i, jlo - 1) := u!(i, jlo))
        else if (bdryType =? 4)%Z then
          fskip
        else
          fskip)
      else if (face =? 3)%Z then
        let jhi := (bdrySegHi 1 - 1)%Z in
        let ilo := (bdrySegLo 0)%Z in
        let ihi := (bdrySegHi 0)%Z in
        (if (bdryType =? 0)%Z then
          do_ ilo ihi (fun i =>
            (if (extrapOrder =? 1)%Z then
              put u!(i, jhi + 1) := (- u!(i, jhi))
            else if (extrapOrder =? 2)%Z then
              put u!(i, jhi + 1) := (- (#2 * u!(i, jhi))) + u!(i, jhi - 1) / #3
            else
              fskip))
        else if (bdryType =? 1)%Z then
          do_ ilo ihi (fun i =>
            put u!(i, jhi + 1) := u!(i, jhi))
        else if (bdryType =? 4)%Z then
          fskip
        else
          fskip)
      else
        fskip)
    else if (type =? 2)%Z then
      (if (face =? 0)%Z then
        let ilo := (bdrySegLo 0)%Z in
        let jlo := (bdrySegLo 1)%Z in
        put u!(ilo, jlo) := (- u!(ilo + 1, jlo + 1)) + u!(ilo, jlo + 1) + u!(ilo + 1, jlo)
      else if (face =? 1)%Z then
        let ihi := (bdrySegHi 0)%Z in
        let jlo := (bdrySegLo 1)%Z in
        put u!(ihi, jlo) := (- u!(ihi - 1, jlo + 1)) + u!(ihi, jlo + 1) + u!(ihi - 1, jlo)
      else if (face =? 2)%Z then
        let ilo := (bdrySegLo 0)%Z in
        let jhi := (bdrySegHi 1)%Z in
        put u!(ilo, jhi) := (- u!(ilo + 1, jhi - 1)) + u!(ilo, jhi - 1) + u!(ilo + 1, jhi)
      else if (face =? 3)%Z then
        let ihi := (bdrySegHi 0)%Z in
        let jhi := (bdrySegHi 1)%Z in
        put u!(ihi, jhi) := (- u!(ihi - 1, jhi - 1)) + u!(ihi, jhi - 1) + u!(ihi - 1, jhi)
      else
        fskip)
    else
      fskip))%F.

  (** cellsetcorrectionbc2d.m4:491-574 *)
  Definition cellsetinteriorcornerbc2d (lo0 hi0 lo1 hi1 gcw : Z) (dx : Z -> S) (d0 d1 u : ptr)
      (bdrySegLo bdrySegHi : Z -> Z) (extrapOrder face type bdryType : Z) : mem S -> option (mem S) :=
    let d0 := mkFa d0 (FACE2d0 lo0 lo1 hi0 hi1 0) in
    let d1 := mkFa d1 (FACE2d1 lo0 lo1 hi0 hi1 0) in
    let u := mkFa u (CELL2d lo0 lo1 hi0 hi1 gcw) in
    ((if (face =? 0)%Z then
      let ilo := (bdrySegLo 0)%Z in
      let jlo := (bdrySegLo 1)%Z in
      put u!(ilo, jlo) := (- (#5 * u!(ilo + 1, jlo + 1)))
    else if (face =? 1)%Z then
      let ihi := (bdrySegHi 0)%Z in
      let jlo := (bdrySegLo 1)%Z in
      put u!(ihi, jlo) := (- (#5 * u!(ihi - 1, jlo + 1)))
    else if (face =? 2)%Z then
      let ilo := (bdrySegLo 0)%Z in
      let jhi := (bdrySegHi 1)%Z in
      put u!(ilo, jhi) := (- (#5 * u!(ilo + 1, jhi - 1)))
    else if (face =? 3)%Z then
      let ihi := (bdrySegHi 0)%Z in
      let jhi := (bdrySegHi 1)%Z in
      put u!(ihi, jhi) := (- (#5 * u!(ihi - 1, jhi - 1)))
    else
      fskip))%F.

  (** cellsetcorrectionbc3d.m4:45-520 *)
  Definition cellsetcorrectionbc3d (lo0 hi0 lo1 hi1 lo2 hi2 : Z) (dx : Z -> S) (dgcw : Z) (d0 d1
      d2 : ptr) (ugcw : Z) (u : ptr) (bdrySegLo bdrySegHi : Z -> Z) (extrapOrder face type
      bdryType : Z) (alpha beta : S) : mem S -> option (mem S) :=
    let d0 := mkFa d0 (FACE3d0 lo0 lo1 lo2 hi0 hi1 hi2 dgcw) in
    let d1 := mkFa d1 (FACE3d1 lo0 lo1 lo2 hi0 hi1 hi2 dgcw) in
    let d2 := mkFa d2 (FACE3d2 lo0 lo1 lo2 hi0 hi1 hi2 dgcw) in
    let u := mkFa u (CELL3d lo0 lo1 lo2 hi0 hi1 hi2 ugcw) in
    ((if (type =? 1)%Z then
      (if (face =? 0)%Z then
        let ilo := (bdrySegLo 0 + 1)%Z in
        let jlo := (bdrySegLo 1)%Z in
        let jhi := (bdrySegHi 1)%Z in
        let klo := (bdrySegLo 2)%Z in
        let khi := (bdrySegHi 2)%Z in
        scalar h := $(dx 0) in
        (if (bdryType =? 0)%Z then
          (if (extrapOrder =? 1)%Z then
            do_ (Z.max lo2 klo) (Z.min hi2 khi) (fun k =>
              do_ (Z.max lo1 jlo) (Z.min hi1 jhi) (fun j =>
                put u!(ilo - 1, j, k) := (- u!(ilo, j, k))))
          else if (extrapOrder =? 2)%Z then
            do_ (Z.max lo2 klo) (Z.min hi2 khi) (fun k =>
              do_ (Z.max lo1 jlo) (Z.min hi1 jhi) (fun j =>
                put u!(ilo - 1, j, k) := (- (#2 * u!(ilo, j, k))) + u!(ilo + 1, j, k) / #3))
          else
            fskip)
        else if (bdryType =? 1)%Z then
          do_ (Z.max lo2 klo) (Z.min hi2 khi) (fun k =>
            do_ (Z.max lo1 jlo) (Z.min hi1 jhi) (fun j =>
              put u!(ilo - 1, j, k) := u!(ilo, j, k)))
        else if (bdryType =? 4)%Z then
          (if (extrapOrder =? 1)%Z then
            do_ (Z.max lo2 klo) (Z.min hi2 khi) (fun k =>
              do_ (Z.max lo1 jlo) (Z.min hi1 jhi) (fun j =>
                scalar factor := #2 * $alpha * d0!(ilo, j, k) - $h * $beta in
                scalar factor := $factor / (#2 * $alpha * d0!(ilo, j, k) + $h * $beta) in
                put u!(ilo - 1, j, k) := $factor * u!(ilo, j, k)))
          else if (extrapOrder =? 2)%Z then
            do_ (Z.max lo2 klo) (Z.min hi2 khi) (fun k =>
              do_ (Z.max lo1 jlo) (Z.min hi1 jhi) (fun j =>
                scalar b := d0!(ilo, j, k) in
                scalar coeff1 := #8 * $alpha * $b - #6 * $beta * $h in
                scalar coeff1 := $coeff1 / (#8 * $alpha * $b + #3 * $beta * $h) in
                scalar coeff2 := $h / (#8 * $alpha * $b + #3 * $beta * $h) in
                put u!(ilo - 1, j, k) := $coeff1 * u!(ilo, j, k) + $coeff2 * u!(ilo + 1, j, k)))
          else
            fskip)
        else
          fskip)
      else if (face =? 1)%Z then
        let ihi := (bdrySegHi 0 - 1)%Z in
        let jlo := (bdrySegLo 1)%Z in
        let jhi := (bdrySegHi 1)%Z in
        let klo := (bdrySegLo 2)%Z in
        let khi := (bdrySegHi 2)%Z in
        scalar h := $(dx 0) in
        (if (bdryType =? 0)%Z then
          (if (extrapOrder =? 1)%Z then
            do_ (Z.max lo2 klo) (Z.min hi2 khi) (fun k =>
              do_ (Z.max lo1 jlo) (Z.min hi1 jhi) (fun j =>
                put u!(ihi + 1, j, k) := (- u!(ihi, j, k))))
          else if (extrapOrder =? 2)%Z then
            do_ (Z.max lo2 klo) (Z.min hi2 khi) (fun k =>
              do_ (Z.max lo1 jlo) (Z.min hi1 jhi) (fun j =>
                put u!(ihi + 1, j, k) := (- (#2 * u!(ihi, j, k))) + u!(ihi - 1, j, k) / #3))
          else
            fskip)
        else if (bdryType =? 1)%Z then
          do_ (Z.max lo2 klo) (Z.min hi2 khi) (fun k =>
            do_ (Z.max lo1 jlo) (Z.min hi1 jhi) (fun j =>
              put u!(ihi + 1, j, k) := u!(ihi, j, k)))
        else if (bdryType =? 4)%Z then
          (if (extrapOrder =? 1)%Z then
            do_ (Z.max lo2 klo) (Z.min hi2 khi) (fun k =>
              do_ (Z.max lo1 jlo) (Z.min hi1 jhi) (fun j =>
                scalar b := d0!(ihi + 1, j, k) in
                scalar factor := #2 * $alpha * $b - $h * $beta in
                scalar factor := $factor / (#2 * $alpha * $b + $h * $beta) in
                put u!(ihi + 1, j, k) := $factor * u!(ihi, j, k)))
          else if (extrapOrder =? 2)%Z then
            do_ (Z.max lo2 klo) (Z.min hi2 khi) (fun k =>
              do_ (Z.max lo1 jlo) (Z.min hi1 jhi) (fun j =>
                scalar b := d0!(ihi + 1, j, k) in
                scalar coeff1 := #8 * $alpha * $b - #6 * $beta * $h in
                scalar coeff1 := $coeff1 / (#8 * $alpha * $b + #3 * $beta * $h) in
                scalar coeff2 := $h / (#8 * $alpha * $b + #3 * $beta * $h) in
                put u!(ihi + 1, j, k) := $coeff1 * u!(ihi, j, k) + $coeff2 * u!(ihi - 1, j, k)))
          else
            fskip)
        else
          fskip)
      else if (face =? 2)%Z then
        let jlo := (bdrySegLo 1 + 1)%Z in
        let ilo := (bdrySegLo 0)%Z in
        let ihi := (bdrySegHi 0)%Z in
        let klo := (bdrySegLo 2)%Z in
        let khi := (bdrySegHi 2)%Z in
        scalar h := $(dx 1) in
        (if (bdryType =? 0)%Z then
          (if (extrapOrder =? 1)%Z then
            do_ (Z.max lo2 klo) (Z.min hi2 khi) (fun k =>
              do_ (Z.max lo0 ilo) (Z.min hi0 ihi) (fun i =>
                put u!(i, jlo - 1, k) := (- u!(i, jlo, k))))
          else if (extrapOrder =? 2)%Z then
            do_ (Z.max lo2 klo) (Z.min hi2 khi) (fun k =>
              do_ (Z.max lo0 ilo) (Z.min hi0 ihi) (fun i =>
                put u!(i, jlo - 1, k) := (- (#2 * u!(i, jlo, k))) + u!(i, jlo + 1, k) / #3))
          else
            fskip)
        else if (bdryType =? 1)%Z then
          do_ (Z.max lo2 klo) (Z.min hi2 khi) (fun k =>
            do_ (Z.max lo0 ilo) (Z.min hi0 ihi) (fun i =>
              put u!(i, jlo - 1, k) := u!(i, jlo, k)))
        else if (bdryType =? 4)%Z then
          (if (extrapOrder =? 1)%Z then
            do_ (Z.max lo2 klo) (Z.min hi2 khi) (fun k =>
              do_ (Z.max lo0 ilo) (Z.min hi0 ihi) (fun i =>
                scalar b := d1!(jlo, k, i) in
                scalar factor := #2 * $alpha * $b - $h * $beta in
                scalar factor := $factor / (#2 * $alpha * $b + $h * $beta) in
                put u!(i, jlo - 1, k) := $factor * u!(i, jlo, k)))
          else if (extrapOrder =? 2)%Z then
            do_ (Z.max lo2 klo) (Z.min hi2 khi) (fun k =>
              do_ (Z.max lo0 ilo) (Z.min hi0 ihi) (fun i =>
                scalar b := d1!(jlo, k, i) in
                scalar coeff1 := #8 * $alpha * $b - #6 * $beta * $h in
                scalar coeff1 := $coeff1 / (#8 * $alpha * $b + #3 * $beta * $h) in
                scalar coeff2 := $h / (#8 * $alpha * $b + #3 * $beta * $h) in
                put u!(i, jlo - 1, k) := $coeff1 * u!(i, jlo, k) + $coeff2 * u!(i, jlo + 1, k)))
          else
            fskip)
        else
          fskip)
      else if (face =? 3)%Z then
        let jhi := (bdrySegHi 1 - 1)%Z in
        let ilo := (bdrySegLo 0)%Z in
        let ihi := (bdrySegHi 0)%Z in
        let klo := (bdrySegLo 2)%Z in
        let khi := (bdrySegHi 2)%Z in
        scalar h := $(dx 1) in
        (if (bdryType =? 0)%Z then
          (if (extrapOrder =? 1)%Z then
            do_ (Z.max lo2 klo) (Z.min hi2 khi) (fun k =>
              do_ (Z.max lo0 ilo) (Z.min hi0 ihi) (fun i =>
                put u!(i, jhi + 1, k) := (- u!(i, jhi, k))))
          else if (extrapOrder =? 2)%Z then
            do_ (Z.max lo2 klo) (Z.min hi2 khi) (fun k =>
              do_ (Z.max lo0 ilo) (Z.min hi0 ihi) (fun i =>
                put u!(i, jhi + 1, k) := (- (#2 * u!(i, jhi, k))) + u!(i, jhi - 1, k) / #3))
          else
            fskip)
        else if (bdryType =? 1)%Z then
          do_ (Z.max lo2 klo) (Z.min hi2 khi) (fun k =>
            do_ (Z.max lo0 ilo) (Z.min hi0 ihi) (fun i =>
              put u!(i, jhi + 1, k) := u!(i, jhi, k)))
        else if (bdryType =? 4)%Z then
          (if (extrapOrder =? 1)%Z then
            do_ (Z.max lo2 klo) (Z.min hi2 khi) (fun k =>
              do_ (Z.max lo0 ilo) (Z.min hi0 ihi) (fun i =>
                scalar b := d1!(jhi + 1, k, i) in
                scalar factor := #2 * $alpha * $b - $h * $beta in
                scalar factor := $factor / (#2 * $alpha * $b + $h * $beta) in
                put u!(i, jhi + 1, k) := $factor * u!(i, jhi, k)))
          else if (extrapOrder =? 2)%Z then
            do_ (Z.max lo2 klo) (Z.min hi2 khi) (fun k =>
              do_ (Z.max lo0 ilo) (Z.min hi0 ihi) (fun i =>
                scalar b := d1!(jhi + 1, k, i) in
                scalar coeff1 := #8 * $alpha * $b - #6 * $beta * $h in
                scalar coeff1 := $coeff1 / (#8 * $alpha * $b + #3 * $beta * $h) in
                scalar coeff2 := $h / (#8 * $alpha * $b + #3 * $beta * $h) in
                put u!(i, jhi + 1, k) := $coeff1 * u!(i, jhi, k) + $coeff2 * u!(i, jhi - 1, k)))
          else
            fskip)
        else
          fskip)
      else if (face =? 4)%Z then
        let klo := (bdrySegLo 2 + 1)%Z in
        let ilo := (bdrySegLo 0)%Z in
        let ihi := (bdrySegHi 0)%Z in
        let jlo := (bdrySegLo 1)%Z in
        let jhi := (bdrySegHi 1)%Z in
        scalar h := $(dx 2) in
        (if (bdryType =? 0)%Z then
          (if (extrapOrder =? 1)%Z then
            do_ (Z.max lo1 jlo) (Z.min hi1 jhi) (fun j =>
              do_ (Z.max lo0 ilo) (Z.min hi0 ihi) (fun i =>
                put u!(i, j, klo - 1) := (- u!(i, j, klo))))
          else if (extrapOrder =? 2)%Z then
            do_ (Z.max lo1 jlo) (Z.min hi1 jhi) (fun j =>
              do_ (Z.max lo0 ilo) (Z.min hi0 ihi) (fun i =>
                put u!(i, j, klo - 1) := (- (#2 * u!(i, j, klo))) + u!(i, j, klo + 1) / #3))
          else
            fskip)
        else if (bdryType =? 1)%Z then
          do_ (Z.max lo1 jlo) (Z.min hi1 jhi) (fun j =>
            do_ (Z.max lo0 ilo) (Z.min hi0 ihi) (fun i =>
              put u!(i, j, klo - 1) := u!(i, j, klo)))
        else if (bdryType =? 4)%Z then
          (if (extrapOrder =? 1)%Z then
            do_ (Z.max lo1 jlo) (Z.min hi1 jhi) (fun j =>
              do_ (Z.max lo0 ilo) (Z.min hi0 ihi) (fun i =>
                scalar b := d2!(klo, i, j) in
                scalar factor := #2 * $alpha * $b - $h * $beta in
                scalar factor := $factor / (#2 * $alpha * $b + $h * $beta) in
                put u!(i, j, klo - 1) := $factor * u!(i, j, klo)))
          else if (extrapOrder =? 2)%Z then
            do_ (Z.max lo1 jlo) (Z.min hi1 jhi) (fun j =>
              do_ (Z.max lo0 ilo) (Z.min hi0 ihi) (fun i =>
                scalar b := d2!(klo, i, j) in
                scalar coeff1 := #8 * $alpha * $b - #6 * $beta * $h in
                scalar coeff1 := $coeff1 / (#8 * $alpha * $b + #3 * $beta * $h) in
                scalar coeff2 := $h / (#8 * $alpha * $b + #3 * $beta * $h) in
                put u!(i, j, klo - 1) := $coeff1 * u!(i, j, klo) + $coeff2 * u!(i, j, klo + 1)))
          else
            fskip)
        else
          fskip)
      else if (face =? 5)%Z then
        let khi := (bdrySegHi 2 - 1)%Z in
        let ilo := (bdrySegLo 0)%Z in
        let ihi := (bdrySegHi 0)%Z in
        let jlo := (bdrySegLo 1)%Z in
        let jhi := (bdrySegHi 1)%Z in
        scalar h := $(dx 2) in
        (if (bdryType =? 0)%Z then
          (if (extrapOrder =? 1)%Z then
            do_ (Z.max lo1 jlo) (Z.min hi1 jhi) (fun j =>
              do_ (Z.max lo0 ilo) (Z.min hi0 ihi) (fun i =>
                put u!(i, j, khi + 1) := (- u!(i, j, khi))))
          else if (extrapOrder =? 2)%Z then
            do_ (Z.max lo1 jlo) (Z.min hi1 jhi) (fun j =>
              do_ (Z.max lo0 ilo) (Z.min hi0 ihi) (fun i =>
                put u!(i, j, khi + 1) := (- (#2 * u!(i, j, khi))) + u!(i, j, khi - 1) / #3))
          else
            fskip)
        else if (bdryType =? 1)%Z then
          do_ (Z.max lo1 jlo) (Z.min hi1 jhi) (fun j =>
            do_ (Z.max lo0 ilo) (Z.min hi0 ihi) (fun i =>
              put u!(i, j, khi + 1) := u!(i, j, khi)))
        else if (bdryType =? 4)%Z then
          (if (extrapOrder =? 1)%Z then
            do_ (Z.max lo1 jlo) (Z.min hi1 jhi) (fun j =>
              do_ (Z.max lo0 ilo) (Z.min hi0 ihi) (fun i =>
                scalar b := d2!(khi + 1, i, j) in
                scalar factor := #2 * $alpha * $b - $h * $beta in
                scalar factor := $factor / (#2 * $alpha * $b + $h * $beta) in
                put u!(i, j, khi + 1) := $factor * u!(i, j, khi)))
          else if (extrapOrder =? 2)%Z then
            do_ (Z.max lo1 jlo) (Z.min hi1 jhi) (fun j =>
              do_ (Z.max lo0 ilo) (Z.min hi0 ihi) (fun i =>
                scalar b := d2!(khi + 1, i, j) in
                scalar coeff1 := #8 * $alpha * $b - #6 * $beta * $h in
                scalar coeff1 := $coeff1 / (#8 * $alpha * $b + #3 * $beta * $h) in
                scalar coeff2 := $h / (#8 * $alpha * $b + #3 * $beta * $h) in
                put u!(i, j, khi + 1) := $coeff1 * u!(i, j, khi) + $coeff2 * u!(i, j, khi - 1)))
          else
            fskip)
        else
          fskip)
      else
        fskip)
    else if (type =? 2)%Z then
      let ilo := (bdrySegLo 0)%Z in
      let ihi := (bdrySegHi 0)%Z in
      let jlo := (bdrySegLo 1)%Z in
      let jhi := (bdrySegHi 1)%Z in
      let klo := (bdrySegLo 2)%Z in
      let khi := (bdrySegHi 2)%Z in
      (if (face =? 0)%Z then
        do_ klo khi (fun k =>
          put u!(ilo, jlo, k) := (- u!(ilo + 1, jlo + 1, k)) + u!(ilo + 1, jlo, k) + u!(ilo, jlo + 1, k))
      else if (face =? 1)%Z then
        do_ klo khi (fun k =>
          put u!(ilo, jlo, k) := (- u!(ilo - 1, jlo + 1, k)) + u!(ilo - 1, jlo, k) + u!(ilo, jlo + 1, k))
      else if (face =? 2)%Z then
        do_ klo khi (fun k =>
          put u!(ilo, jlo, k) := (- u!(ilo + 1, jlo - 1, k)) + u!(ilo + 1, jlo, k) + u!(ilo, jlo - 1, k))
      else if (face =? 3)%Z then
        do_ klo khi (fun k =>
          put u!(ilo, jlo, k) := (- u!(ilo - 1, jlo - 1, k)) + u!(ilo - 1, jlo, k) + u!(ilo, jlo - 1, k))
      else if (face =? 4)%Z then
        do_ jlo jhi (fun j =>
          put u!(ilo, j, klo) := (- u!(ilo + 1, j, klo + 1)) + u!(ilo + 1, j, klo) + u!(ilo, j, klo + 1))
      else if (face =? 5)%Z then
        do_ jlo jhi (fun j =>
          put u!(ilo, j, klo) := (- u!(ilo - 1, j, klo + 1)) + u!(ilo - 1, j, klo) + u!(ilo, j, klo + 1))
      else if (face =? 6)%Z then
        do_ jlo jhi (fun j =>
          put u!(ilo, j, klo) := (- u!(ilo + 1, j, klo - 1)) + u!(ilo + 1, j, klo) + u!(ilo, j, klo - 1))
      else if (face =? 7)%Z then
        do_ jlo jhi (fun j =>
          put u!(ilo, j, klo) := (- u!(ilo - 1, j, klo - 1)) + u!(ilo - 1, j, klo) + u!(ilo, j, klo - 1))
      else if (face =? 8)%Z then
        do_ ilo ihi (fun i =>
          put u!(i, jlo, klo) := (- u!(i, jlo + 1, klo + 1)) + u!(i, jlo + 1, klo) + u!(i, jlo, klo + 1))
      else if (face =? 9)%Z then
        do_ ilo ihi (fun i =>
          put u!(i, jlo, klo) := (- u!(i, jlo - 1, klo + 1)) + u!(i, jlo - 1, klo) + u!(i, jlo, klo + 1))
      else if (face =? 10)%Z then
        do_ ilo ihi (fun i =>
          put u!(i, jlo, klo) := (- u!(i, jlo + 1, klo - 1)) + u!(i, jlo + 1, klo) + u!(i, jlo, klo - 1))
      else if (face =? 11)%Z then
        do_ ilo ihi (fun i =>
          put u!(i, jlo, klo) := (- u!(i, jlo - 1, klo - 1)) + u!(i, jlo - 1, klo) + u!(i, jlo, klo - 1))
      else
        fskip)
    else if (type =? 3)%Z then
      let ilo := (bdrySegLo 0)%Z in
      let jlo := (bdrySegLo 1)%Z in
      let klo := (bdrySegLo 2)%Z in
      (if ((face =? 0) || (face =? 4))%Z then
        put u!(ilo, jlo, klo) := (- u!(ilo + 1, jlo + 1, klo)) + u!(ilo + 1, jlo, klo) + u!(ilo, jlo + 1, klo)
      else if ((face =? 1) || (face =? 5))%Z then
        put u!(ilo, jlo, klo) := (- u!(ilo - 1, jlo + 1, klo)) + u!(ilo - 1, jlo, klo) + u!(ilo, jlo + 1, klo)
      else if ((face =? 2) || (face =? 6))%Z then
        put u!(ilo, jlo, klo) := (- u!(ilo + 1, jlo - 1, klo)) + u!(ilo + 1, jlo, klo) + u!(ilo, jlo - 1, klo)
      else if ((face =? 3) || (face =? 7))%Z then
        put u!(ilo, jlo, klo) := (- u!(ilo - 1, jlo - 1, klo)) + u!(ilo - 1, jlo, klo) + u!(ilo, jlo - 1, klo)
      else
        fskip)
    else
      fskip))%F.

  (** cellsetcorrectionbc3d.m4:522-984 *)
  Definition cellsetpoissoncorrectionbc3d (lo0 hi0 lo1 hi1 lo2 hi2 : Z) (dx : Z -> S) (ugcw : Z)
      (u : ptr) (bdrySegLo bdrySegHi : Z -> Z) (extrapOrder face type bdryType : Z) (alpha beta : S) : mem S -> option (mem S) :=
    let u := mkFa u (CELL3d lo0 lo1 lo2 hi0 hi1 hi2 ugcw) in
    ((if (type =? 1)%Z then
      (if (face =? 0)%Z then
        let ilo := (bdrySegLo 0 + 1)%Z in
        let jlo := (bdrySegLo 1)%Z in
        let jhi := (bdrySegHi 1)%Z in
        let klo := (bdrySegLo 2)%Z in
        let khi := (bdrySegHi 2)%Z in
        scalar h := $(dx 0) in
        (if (bdryType =? 0)%Z then
          (if (extrapOrder =? 1)%Z then
            do_ klo khi (fun k =>
              do_ jlo jhi (fun j =>
                put u!(ilo - 1, j, k) := (- u!(ilo, j, k))))
          else if (extrapOrder =? 2)%Z then
            do_ klo khi (fun k =>
              do_ jlo jhi (fun j =>
                put u!(ilo - 1, j, k) := (- (#2 * u!(ilo, j, k))) + u!(ilo + 1, j, k) / #3))
          else
            fskip)
        else if (bdryType =? 1)%Z then
          do_ klo khi (fun k =>
            do_ jlo jhi (fun j =>
              put u!(ilo - 1, j, k) := u!(ilo, j, k)))
        else if (bdryType =? 4)%Z then
          (if (extrapOrder =? 1)%Z then
            scalar factor := (#2 * $alpha - $h * $beta) / (#2 * $alpha + $h * $beta) in
            do_ klo khi (fun k =>
              do_ jlo jhi (fun j =>
                put u!(ilo - 1, j, k) := $factor * u!(ilo, j, k)))
          else if (extrapOrder =? 2)%Z then
            scalar b := #1 in
            scalar coeff1 := #8 * $alpha * $b - #6 * $beta * $h in
            scalar coeff1 := $coeff1 / (#8 * $alpha * $b + #3 * $beta * $h) in
            scalar coeff2 := $h / (#8 * $alpha * $b + #3 * $beta * $h) in
            do_ klo khi (fun k =>
              do_ jlo jhi (fun j =>
                put u!(ilo - 1, j, k) := $coeff1 * u!(ilo, j, k) + $coeff2 * u!(ilo + 1, j, k)))
          else
            fskip)
        else
          fskip)
      else if (face =? 1)%Z then
        let ihi := (bdrySegHi 0 - 1)%Z in
        let jlo := (bdrySegLo 1)%Z in
        let jhi := (bdrySegHi 1)%Z in
        let klo := (bdrySegLo 2)%Z in
        let khi := (bdrySegHi 2)%Z in
        scalar h := $(dx 0) in
        (if (bdryType =? 0)%Z then
          (if (extrapOrder =? 1)%Z then
            do_ klo khi (fun k =>
              do_ jlo jhi (fun j =>
                put u!(ihi + 1, j, k) := (- u!(ihi, j, k))))
          else if (extrapOrder =? 2)%Z then
            do_ klo khi (fun k =>
              do_ jlo jhi (fun j =>
                put u!(ihi + 1, j, k) := (- (#2 * u!(ihi, j, k))) + u!(ihi - 1, j, k) / #3))
          else
            fskip)
        else if (bdryType =? 1)%Z then
          do_ klo khi (fun k =>
            do_ jlo jhi (fun j =>
              put u!(ihi + 1, j, k) := u!(ihi, j, k)))
        else if (bdryType =? 4)%Z then
          (if (extrapOrder =? 1)%Z then
            scalar b := #1 in
            scalar factor := #2 * $alpha * $b - $h * $beta in
            scalar factor := $factor / (#2 * $alpha * $b + $h * $beta) in
            do_ klo khi (fun k =>
              do_ jlo jhi (fun j =>
                put u!(ihi + 1, j, k) := $factor * u!(ihi, j, k)))
          else if (extrapOrder =? 2)%Z then
            scalar b := #1 in
            scalar coeff1 := #8 * $alpha * $b - #6 * $beta * $h in
            scalar coeff1 := $coeff1 / (#8 * $alpha * $b + #3 * $beta * $h) in
            scalar coeff2 := $h / (#8 * $alpha * $b + #3 * $beta * $h) in
            do_ klo khi (fun k =>
              do_ jlo jhi (fun j =>
                put u!(ihi + 1, j, k) := $coeff1 * u!(ihi, j, k) + $coeff2 * u!(ihi - 1, j, k)))
          else
            fskip)
        else
          fskip)
      else if (face =? 2)%Z then
        let jlo := (bdrySegLo 1 + 1)%Z in
        let ilo := (bdrySegLo 0)%Z in
        let ihi := (bdrySegHi 0)%Z in
        let klo := (bdrySegLo 2)%Z in
        let khi := (bdrySegHi 2)%Z in
        scalar h := $(dx 1) in
        (if (bdryType =? 0)%Z then
          (if (extrapOrder =? 1)%Z then
            do_ klo khi (fun k =>
              do_ ilo ihi (fun i =>
                put u!(i, jlo - 1, k) := (- u!(i, jlo, k))))
          else if (extrapOrder =? 2)%Z then
            do_ klo khi (fun k =>
              do_ ilo ihi (fun i =>
                put u!(i, jlo - 1, k) := (- (#2 * u!(i, jlo, k))) + u!(i, jlo + 1, k) / #3))
          else
            fskip)
        else if (bdryType =? 1)%Z then
          do_ klo khi (fun k =>
            do_ ilo ihi (fun i =>
              put u!(i, jlo - 1, k) := u!(i, jlo, k)))
        else if (bdryType =? 4)%Z then
          (if (extrapOrder =? 1)%Z then
            scalar b := #1 in
            scalar factor := #2 * $alpha * $b - $h * $beta in
            scalar factor := $factor / (#2 * $alpha * $b + $h * $beta) in
            do_ klo khi (fun k =>
              do_ ilo ihi (fun i =>
                put u!(i, jlo - 1, k) := $factor * u!(i, jlo, k)))
          else if (extrapOrder =? 2)%Z then
            scalar b := #1 in
            scalar coeff1 := #8 * $alpha * $b - #6 * $beta * $h in
            scalar coeff1 := $coeff1 / (#8 * $alpha * $b + #3 * $beta * $h) in
            scalar coeff2 := $h / (#8 * $alpha * $b + #3 * $beta * $h) in
            do_ klo khi (fun k =>
              do_ ilo ihi (fun i =>
                put u!(i, jlo - 1, k) := $coeff1 * u!(i, jlo, k) + $coeff2 * u!(i, jlo + 1, k)))
          else
            fskip)
        else
          fskip)
      else if (face =? 3)%Z then
        let jhi := (bdrySegHi 1 - 1)%Z in
        let ilo := (bdrySegLo 0)%Z in
        let ihi := (bdrySegHi 0)%Z in
        let klo := (bdrySegLo 2)%Z in
        let khi := (bdrySegHi 2)%Z in
        scalar h := $(dx 1) in
        (if (bdryType =? 0)%Z then
          (if (extrapOrder =? 1)%Z then
            do_ klo khi (fun k =>
              do_ ilo ihi (fun i =>
                put u!(i, jhi + 1, k) := (- u!(i, jhi, k))))
          else if (extrapOrder =? 2)%Z then
            do_ klo khi (fun k =>
              do_ ilo ihi (fun i =>
                put u!(i, jhi + 1, k) := (- (#2 * u!(i, jhi, k))) + u!(i, jhi - 1, k) / #3))
          else
            fskip)
        else if (bdryType =? 1)%Z then
          do_ klo khi (fun k =>
            do_ ilo ihi (fun i =>
              put u!(i, jhi + 1, k) := u!(i, jhi, k)))
        else if (bdryType =? 4)%Z then
          (if (extrapOrder =? 1)%Z then
            scalar b := #1 in
            scalar factor := #2 * $alpha * $b - $h * $beta in
            scalar factor := $factor / (#2 * $alpha * $b + $h * $beta) in
            do_ klo khi (fun k =>
              do_ ilo ihi (fun i =>
                put u!(i, jhi + 1, k) := $factor * u!(i, jhi, k)))
          else if (extrapOrder =? 2)%Z then
            scalar b := #1 in
            scalar coeff1 := #8 * $alpha * $b - #6 * $beta * $h in
            scalar coeff1 := $coeff1 / (#8 * $alpha * $b + #3 * $beta * $h) in
            scalar coeff2 := $h / (#8 * $alpha * $b + #3 * $beta * $h) in
            do_ klo khi (fun k =>
              do_ ilo ihi (fun i =>
                put u!(i, jhi + 1, k) := $coeff1 * u!(i, jhi, k) + $coeff2 * u!(i, jhi - 1, k)))
          else
            fskip)
        else
          fskip)
      else if (face =? 4)%Z then
        let klo := (bdrySegLo 2 + 1)%Z in
        let ilo := (bdrySegLo 0)%Z in
        let ihi := (bdrySegHi 0)%Z in
        let jlo := (bdrySegLo 1)%Z in
        let jhi := (bdrySegHi 1)%Z in
        scalar h := $(dx 2) in
        (if (bdryType =? 0)%Z then
          (if (extrapOrder =? 1)%Z then
            do_ jlo jhi (fun j =>
              do_ ilo ihi (fun i =>
                put u!(i, j, klo - 1) := (- u!(i, j, klo))))
          else if (extrapOrder =? 2)%Z then
            do_ jlo jhi (fun j =>
              do_ ilo ihi (fun i =>
                put u!(i, j, klo - 1) := (- (#2 * u!(i, j, klo))) + u!(i, j, klo + 1) / #3))
          else
            fskip)
        else if (bdryType =? 1)%Z then
          do_ jlo jhi (fun j =>
            do_ ilo ihi (fun i =>
              put u!(i, j, klo - 1) := u!(i, j, klo)))
        else if (bdryType =? 4)%Z then
          (if (extrapOrder =? 1)%Z then
            scalar b := #1 in
            scalar factor := #2 * $alpha * $b - $h * $beta in
            scalar factor := $factor / (#2 * $alpha * $b + $h * $beta) in
            do_ jlo jhi (fun j =>
              do_ ilo ihi (fun i =>
                put u!(i, j, klo - 1) := $factor * u!(i, j, klo)))
          else if (extrapOrder =? 2)%Z then
            scalar b := #1 in
            scalar coeff1 := #8 * $alpha * $b - #6 * $beta * $h in
            scalar coeff1 := $coeff1 / (#8 * $alpha * $b + #3 * $beta * $h) in
            scalar coeff2 := $h / (#8 * $alpha * $b + #3 * $beta * $h) in
            do_ jlo jhi (fun j =>
              do_ ilo ihi (fun i =>
                put u!(i, j, klo - 1) := $coeff1 * u!(i, j, klo) + $coeff2 * u!(i, j, klo + 1)))
          else
            fskip)
        else
          fskip)
      else if (face =? 5)%Z then
        let khi := (bdrySegHi 2 - 1)%Z in
        let ilo := (bdrySegLo 0)%Z in
        let ihi := (bdrySegHi 0)%Z in
        let jlo := (bdrySegLo 1)%Z in
        let jhi := (bdrySegHi 1)%Z in
        scalar h := $(dx 2) in
        (if (bdryType =? 0)%Z then
          (if (extrapOrder =? 1)%Z then
            do_ jlo jhi (fun j =>
              do_ ilo ihi (fun i =>
                put u!(i, j, khi + 1) := (- u!(i, j, khi))))
          else if (extrapOrder =? 2)%Z then
            do_ jlo jhi (fun j =>
              do_ ilo ihi (fun i =>
                put u!(i, j, khi + 1) := (- (#2 * u!(i, j, khi))) + u!(i, j, khi - 1) / #3))
          else
            fskip)
        else if (bdryType =? 1)%Z then
          do_ jlo jhi (fun j =>
            do_ ilo ihi (fun i =>
              put u!(i, j, khi + 1) := u!(i, j, khi)))
        else if (bdryType =? 4)%Z then
          (if (extrapOrder =? 1)%Z then
            scalar b := #1 in
            scalar factor := #2 * $alpha * $b - $h * $beta in
            scalar factor := $factor / (#2 * $alpha * $b + $h * $beta) in
            do_ jlo jhi (fun j =>
              do_ ilo ihi (fun i =>
                put u!(i, j, khi + 1) := $factor * u!(i, j, khi)))
          else if (extrapOrder =? 2)%Z then
            scalar b := #1 in
            scalar coeff1 := #8 * $alpha * $b - #6 * $beta * $h in
            scalar coeff1 := $coeff1 / (#8 * $alpha * $b + #3 * $beta * $h) in
            scalar coeff2 := $h / (#8 * $alpha * $b + #3 * $beta * $h) in
            do_ jlo jhi (fun j =>
              do_ ilo ihi (fun i =>
                put u!(i, j, khi + 1) := $coeff1 * u!(i, j, khi) + $coeff2 * u!(i, j, khi - 1)))
          else
            fskip)
        else
          fskip)
      else
        fskip)
    else if (type =? 2)%Z then
      let ilo := (bdrySegLo 0)%Z in
      let ihi := (bdrySegHi 0)%Z in
      let jlo := (bdrySegLo 1)%Z in
      let jhi := (bdrySegHi 1)%Z in
      let klo := (bdrySegLo 2)%Z in
      let khi := (bdrySegHi 2)%Z in
      (if (face =? 0)%Z then
        do_ klo khi (fun k =>
          put u!(ilo, jlo, k) := (- u!(ilo + 1, jlo + 1, k)) + u!(ilo + 1, jlo, k) + u!(ilo, jlo + 1, k))
      else if (face =? 1)%Z then
        do_ klo khi (fun k =>
          put u!(ilo, jlo, k) := (- u!(ilo - 1, jlo + 1, k)) + u!(ilo - 1, jlo, k) + u!(ilo, jlo + 1, k))
      else if (face =? 2)%Z then
        do_ klo khi (fun k =>
          put u!(ilo, jlo, k) := (- u!(ilo + 1, jlo - 1, k)) + u!(ilo + 1, jlo, k) + u!(ilo, jlo - 1, k))
      else if (face =? 3)%Z then
        do_ klo khi (fun k =>
          put u!(ilo, jlo, k) := (- u!(ilo - 1, jlo - 1, k)) + u!(ilo - 1, jlo, k) + u!(ilo, jlo - 1, k))
      else if (face =? 4)%Z then
        do_ jlo jhi (fun j =>
          put u!(ilo, j, klo) := (- u!(ilo + 1, j, klo + 1)) + u!(ilo + 1, j, klo) + u!(ilo, j, klo + 1))
      else if (face =? 5)%Z then
        do_ jlo jhi (fun j =>
          put u!(ilo, j, klo) := (- u!(ilo - 1, j, klo + 1)) + u!(ilo - 1, j, klo) + u!(ilo, j, klo + 1))
      else if (face =? 6)%Z then
        do_ jlo jhi (fun j =>
          put u!(ilo, j, klo) := (- u!(ilo + 1, j, klo - 1)) + u!(ilo + 1, j, klo) + u!(ilo, j, klo - 1))
      else if (face =? 7)%Z then
        do_ jlo jhi (fun j =>
          put u!(ilo, j, klo) := (- u!(ilo - 1, j, klo - 1)) + u!(ilo - 1, j, klo) + u!(ilo, j, klo - 1))
      else if (face =? 8)%Z then
        do_ ilo ihi (fun i =>
          put u!(i, jlo, klo) := (- u!(i, jlo + 1, klo + 1)) + u!(i, jlo + 1, klo) + u!(i, jlo, klo + 1))
      else if (face =? 9)%Z then
        do_ ilo ihi (fun i =>
          put u!(i, jlo, klo) := (- u!(i, jlo - 1, klo + 1)) + u!(i, jlo - 1, klo) + u!(i, jlo, klo + 1))
      else if (face =? 10)%Z then
        do_ ilo ihi (fun i =>
          put u!(i, jlo, klo) := (- u!(i, jlo + 1, klo - 1)) + u!(i, jlo + 1, klo) + u!(i, jlo, klo - 1))
      else if (face =? 11)%Z then
        do_ ilo ihi (fun i =>
          put u!(i, jlo, klo) := (- u!(i, jlo - 1, klo - 1)) + u!(i, jlo - 1, klo) + u!(i, jlo, klo - 1))
      else
        fskip)
    else if (type =? 3)%Z then
      let ilo := (bdrySegLo 0)%Z in
      let jlo := (bdrySegLo 1)%Z in
      let klo := (bdrySegLo 2)%Z in
      (if ((face =? 0) || (face =? 4))%Z then
        put u!(ilo, jlo, klo) := (- u!(ilo + 1, jlo + 1, klo)) + u!(ilo + 1, jlo, klo) + u!(ilo, jlo + 1, klo)
      else if ((face =? 1) || (face =? 5))%Z then
        put u!(ilo, jlo, klo) := (- u!(ilo - 1, jlo + 1, klo)) + u!(ilo - 1, jlo, klo) + u!(ilo, jlo + 1, klo)
      else if ((face =? 2) || (face =? 6))%Z then
        put u!(ilo, jlo, klo) := (- u!(ilo + 1, jlo - 1, klo)) + u!(ilo + 1, jlo, klo) + u!(ilo, jlo - 1, klo)
      else if ((face =? 3) || (face =? 7))%Z then
        put u!(ilo, jlo, klo) := (- u!(ilo - 1, jlo - 1, klo)) + u!(ilo - 1, jlo, klo) + u!(ilo, jlo - 1, klo)
      else
        fskip)
    else
      fskip))%F.
End FortranBC.
