(** * Reference homogeneous boundary values: m4/cellsetcorrectionbc2d.m4:575-671 *)

From Verif Require Import Base FortranBase.
Import ListNotations.
Open Scope Z_scope.

Section FortranHomog.
  Context {S : Scalar}.

  (** The local array [coeff(1:4)] after lines 612-626.  An entry the branch does not
      assign has no value. *)
  Definition homog_coeff (extrapOrder i : Z) : fexp S :=
    (if (extrapOrder =? 1)%Z then
      (if (i =? 1)%Z then - #1 else fun _ => None)
    else if (extrapOrder =? 2)%Z then
      (if (i =? 1)%Z then - #2 else if (i =? 2)%Z then #1 / #3 else fun _ => None)
    else if (extrapOrder =? 3)%Z then
      (if (i =? 1)%Z then - #3 else if (i =? 2)%Z then #1 else if (i =? 3)%Z then - (#1 / #5) else fun _ => None)
    else if (extrapOrder =? 4)%Z then
      (if (i =? 1)%Z then - #4 else if (i =? 2)%Z then #2 else if (i =? 3)%Z then - (#4 / #5)
       else if (i =? 4)%Z then #1 / #7 else fun _ => None)
    else fun _ => None)%F.

  (** cellsetcorrectionbc2d.m4:575-671 *)
  Definition cellsethomogenousbc2d (lo0 lo1 hi0 hi1 face : Z) (segLo segHi : Z -> Z)
      (extrapOrder : Z) (var : ptr) : mem S -> option (mem S) :=
    let var := mkFa var (CELL2d lo0 lo1 hi0 hi1 1) in
    let coeff := homog_coeff extrapOrder in
    ((if (face =? 0)%Z then
      let ilo := (lo0 - 1)%Z in
      do_ (Z.max lo1 (segLo 1)) (Z.min hi1 (segHi 1)) (fun j =>
        put var!(ilo, j) := #0 ;;;
        do_ 1 extrapOrder (fun iorder =>
          put var!(ilo, j) := var!(ilo, j) + coeff iorder * var!(ilo + iorder, j))) ;;;
      put var!(ilo, lo1 - 1) := var!(lo0, lo1) ;;;
      put var!(ilo, hi1 + 1) := var!(lo0, hi1)
    else if (face =? 1)%Z then
      let ihi := (hi0 + 1)%Z in
      do_ (Z.max lo1 (segLo 1)) (Z.min hi1 (segHi 1)) (fun j =>
        put var!(ihi, j) := #0 ;;;
        do_ 1 extrapOrder (fun iorder =>
          put var!(ihi, j) := var!(ihi, j) + coeff iorder * var!(ihi - iorder, j))) ;;;
      put var!(ihi, lo1 - 1) := var!(hi0, lo1) ;;;
      put var!(ihi, hi1 + 1) := var!(hi0, hi1)
    else if (face =? 2)%Z then
      let jlo := (lo1 - 1)%Z in
      do_ (Z.max lo0 (segLo 0)) (Z.min hi0 (segHi 0)) (fun i =>
        put var!(i, jlo) := #0 ;;;
        do_ 1 extrapOrder (fun jorder =>
          put var!(i, jlo) := var!(i, jlo) + coeff jorder * var!(i, jlo + jorder))) ;;;
      put var!(lo0 - 1, jlo) := var!(lo0, lo1) ;;;
      put var!(hi0 + 1, jlo) := var!(hi0, lo1)
    else if (face =? 3)%Z then
      let jhi := (hi1 + 1)%Z in
      do_ (Z.max lo0 (segLo 0)) (Z.min hi0 (segHi 0)) (fun i =>
        put var!(i, jhi) := #0 ;;;
        do_ 1 extrapOrder (fun jorder =>
          put var!(i, jhi) := var!(i, jhi) + coeff jorder * var!(i, jhi - jorder))) ;;;
      put var!(lo0 - 1, jhi) := var!(lo0, hi1) ;;;
      put var!(hi0 + 1, jhi) := var!(hi0, hi1)
    else
      fskip))%F.
End FortranHomog.
