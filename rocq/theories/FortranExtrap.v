(** * Linear extrapolation into ghost cells: m4/copycoarsetofine.m4

    Transcribed statement by statement by tools/f2v.py from the m4 sources.  An
    assignment to a local scalar is the binding [scalar x := e in ...], evaluated
    where it stands; assignments to variables that are never read are left out. *)

From Verif Require Import Base FortranBase.
Import ListNotations.
Open Scope Z_scope.

Section FortranExtrap.
  Context {S : Scalar}.

  (** copycoarsetofine.m4:190-417 *)
  Definition linearextrap (lo0 hi0 lo1 hi1 lo2 hi2 gcw : Z) (u : ptr) (bdrySegLo bdrySegHi : Z -> Z)
      (face type : Z) : mem S -> option (mem S) :=
    let u := mkFa u (CELL3d lo0 lo1 lo2 hi0 hi1 hi2 gcw) in
    ((if (type =? 1)%Z then
      (if (face =? 0)%Z then
        let ilo := (bdrySegLo 0 + 1)%Z in
        let jlo := (bdrySegLo 1)%Z in
        let jhi := (bdrySegHi 1)%Z in
        let klo := (bdrySegLo 2)%Z in
        let khi := (bdrySegHi 2)%Z in
        do_ klo khi (fun k =>
          do_ jlo jhi (fun j =>
            put u!(ilo - 1, j, k) := #2 * u!(ilo, j, k) - u!(ilo + 1, j, k)))
      else if (face =? 1)%Z then
        let ihi := (bdrySegHi 0 - 1)%Z in
        let jlo := (bdrySegLo 1)%Z in
        let jhi := (bdrySegHi 1)%Z in
        let klo := (bdrySegLo 2)%Z in
        let khi := (bdrySegHi 2)%Z in
        do_ klo khi (fun k =>
          do_ jlo jhi (fun j =>
            put u!(ihi + 1, j, k) := #2 * u!(ihi, j, k) - u!(ihi - 1, j, k)))
      else if (face =? 2)%Z then
        let jlo := (bdrySegLo 1 + 1)%Z in
        let ilo := (bdrySegLo 0)%Z in
        let ihi := (bdrySegHi 0)%Z in
        let klo := (bdrySegLo 2)%Z in
        let khi := (bdrySegHi 2)%Z in
        do_ klo khi (fun k =>
          do_ ilo ihi (fun i =>
            put u!(i, jlo - 1, k) := #2 * u!(i, jlo, k) - u!(i, jlo + 1, k)))
      else if (face =? 3)%Z then
        let jhi := (bdrySegHi 1 - 1)%Z in
        let ilo := (bdrySegLo 0)%Z in
        let ihi := (bdrySegHi 0)%Z in
        let klo := (bdrySegLo 2)%Z in
        let khi := (bdrySegHi 2)%Z in
        do_ klo khi (fun k =>
          do_ ilo ihi (fun i =>
            put u!(i, jhi + 1, k) := #2 * u!(i, jhi, k) - u!(i, jhi - 1, k)))
      else if (face =? 4)%Z then
        let klo := (bdrySegLo 2 + 1)%Z in
        let ilo := (bdrySegLo 0)%Z in
        let ihi := (bdrySegHi 0)%Z in
        let jlo := (bdrySegLo 1)%Z in
        let jhi := (bdrySegHi 1)%Z in
        do_ jlo jhi (fun j =>
          do_ ilo ihi (fun i =>
            put u!(i, j, klo - 1) := #2 * u!(i, j, klo) - u!(i, j, klo + 1)))
      else if (face =? 5)%Z then
        let khi := (bdrySegHi 2 - 1)%Z in
        let ilo := (bdrySegLo 0)%Z in
        let ihi := (bdrySegHi 0)%Z in
        let jlo := (bdrySegLo 1)%Z in
        let jhi := (bdrySegHi 1)%Z in
        do_ jlo jhi (fun j =>
          do_ ilo ihi (fun i =>
            put u!(i, j, khi + 1) := #2 * u!(i, j, khi) - u!(i, j, khi - 1)))
      else
        fskip)
    else if (type =? 2)%Z then
      let ilo := (bdrySegLo 0)%Z in
      let ihi := (bdrySegHi 0)%Z in
      let jlo := (bdrySegLo 1)%Z in
      let jhi := (bdrySegHi 1)%Z in
      let klo := (bdrySegLo 2)%Z in
      let khi := (bdrySegHi 2)%Z in
      (if (face =? 0)%Z then
        do_ klo khi (fun k =>
          put u!(ilo, jlo, k) := (- u!(ilo + 1, jlo + 1, k)) + u!(ilo + 1, jlo, k) + u!(ilo, jlo + 1, k))
      else if (face =? 1)%Z then
        do_ klo khi (fun k =>
          put u!(ilo, jlo, k) := (- u!(ilo - 1, jlo + 1, k)) + u!(ilo - 1, jlo, k) + u!(ilo, jlo + 1, k))
      else if (face =? 2)%Z then
        do_ klo khi (fun k =>
          put u!(ilo, jlo, k) := (- u!(ilo + 1, jlo - 1, k)) + u!(ilo + 1, jlo, k) + u!(ilo, jlo - 1, k))
      else if (face =? 3)%Z then
        do_ klo khi (fun k =>
          put u!(ilo, jlo, k) := (- u!(ilo - 1, jlo - 1, k)) + u!(ilo - 1, jlo, k) + u!(ilo, jlo - 1, k))
      else if (face =? 4)%Z then
        do_ jlo jhi (fun j =>
          put u!(ilo, j, klo) := (- u!(ilo + 1, j, klo + 1)) + u!(ilo + 1, j, klo) + u!(ilo, j, klo + 1))
      else if (face =? 5)%Z then
        do_ jlo jhi (fun j =>
          put u!(ilo, j, klo) := (- u!(ilo - 1, j, klo + 1)) + u!(ilo - 1, j, klo) + u!(ilo, j, klo + 1))
      else if (face =? 6)%Z then
        do_ jlo jhi (fun j =>
          put u!(ilo, j, klo) := (- u!(ilo + 1, j, klo - 1)) + u!(ilo + 1, j, klo) + u!(ilo, j, klo - 1))
      else if (face =? 7)%Z then
        do_ jlo jhi (fun j =>
          put u!(ilo, j, klo) := (- u!(ilo - 1, j, klo - 1)) + u!(ilo - 1, j, klo) + u!(ilo, j, klo - 1))
      else if (face =? 8)%Z then
        do_ ilo ihi (fun i =>
          put u!(i, jlo, klo) := (- u!(i, jlo + 1, klo + 1)) + u!(i, jlo + 1, klo) + u!(i, jlo, klo + 1))
      else if (face =? 9)%Z then
        do_ ilo ihi (fun i =>
          put u!(i, jlo, klo) := (- u!(i, jlo - 1, klo + 1)) + u!(i, jlo - 1, klo) + u!(i, jlo, klo + 1))
      else if (face =? 10)%Z then
        do_ ilo ihi (fun i =>
          put u!(i, jlo, klo) := (- u!(i, jlo + 1, klo - 1)) + u!(i, jlo + 1, klo) + u!(i, jlo, klo - 1))
      else if (face =? 11)%Z then
        do_ ilo ihi (fun i =>
          put u!(i, jlo, klo) := (- u!(i, jlo - 1, klo - 1)) + u!(i, jlo - 1, klo) + u!(i, jlo, klo - 1))
      else
        fskip)
    else if (type =? 3)%Z then
      let ilo := (bdrySegLo 0)%Z in
      let jlo := (bdrySegLo 1)%Z in
      let klo := (bdrySegLo 2)%Z in
      (if ((face =? 0) || (face =? 4))%Z then
        put u!(ilo, jlo, klo) := (- u!(ilo + 1, jlo + 1, klo)) + u!(ilo + 1, jlo, klo) + u!(ilo, jlo + 1, klo)
      else if ((face =? 1) || (face =? 5))%Z then
        put u!(ilo, jlo, klo) := (- u!(ilo - 1, jlo + 1, klo)) + u!(ilo - 1, jlo, klo) + u!(ilo, jlo + 1, klo)
      else if ((face =? 2) || (face =? 6))%Z then
        put u!(ilo, jlo, klo) := (- u!(ilo + 1, jlo - 1, klo)) + u!(ilo + 1, jlo, klo) + u!(ilo, jlo - 1, klo)
      else if ((face =? 3) || (face =? 7))%Z then
        put u!(ilo, jlo, klo) := (- u!(ilo - 1, jlo - 1, klo)) + u!(ilo - 1, jlo, klo) + u!(ilo, jlo - 1, klo)
      else
        fskip)
    else
      fskip))%F.
End FortranExtrap.
