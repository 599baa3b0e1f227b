(** * Reference copies: m4/copycoarsetofine.m4

    Fortran integer division truncates towards zero ([Z.quot]). *)

From Verif Require Import Base FortranBase.
Import ListNotations.
Open Scope Z_scope.

Section Copy.
  Context {S : Scalar}.

  (** The inlined index computation, copycoarsetofine.m4:89-93, 112-116, 135-139. *)
  Definition coarse_of (r fx : Z) : Z := if fx <? 0 then Z.quot (fx + 1) r - 1 else Z.quot fx r.

  (** copycoarsetofine.m4:28-146 *)
  Definition copycoarsetofine3d (clo0 chi0 clo1 chi1 clo2 chi2 flo0 fhi0 flo1 fhi1 flo2 fhi2 axis
      cblo0 cbhi0 cblo1 cbhi1 cblo2 cbhi2 fblo0 fbhi0 fblo1 fbhi1 fblo2 fbhi2 gcw : Z) (ratio : Z -> Z)
      (cdata fdata : ptr) (m : mem S) : option (mem S) :=
    let cdata := mkFa cdata (CELL3d cblo0 cblo1 cblo2 cbhi0 cbhi1 cbhi2 gcw) in
    let fdata := mkFa fdata (CELL3d fblo0 fblo1 fblo2 fbhi0 fbhi1 fbhi2 gcw) in
    if axis =? 0 then
      let fj := flo1 in let fk := flo2 in let cj := clo1 in let ck := clo2 in
      do_ flo0 fhi0 (fun fi =>
        let ci := coarse_of (ratio 0) fi in
        (put fdata!(fi, fj, fk) := cdata!(ci, cj, ck))%F) m
    else if axis =? 1 then
      let fi := flo0 in let fk := flo2 in let ci := clo0 in let ck := clo2 in
      do_ flo1 fhi1 (fun fj =>
        let cj := coarse_of (ratio 1) fj in
        (put fdata!(fi, fj, fk) := cdata!(ci, cj, ck))%F) m
    else if axis =? 2 then
      let fi := flo0 in let fj := flo1 in let ci := clo0 in let cj := clo1 in
      do_ flo2 fhi2 (fun fk =>
        let ck := coarse_of (ratio 2) fk in
        (put fdata!(fi, fj, fk) := cdata!(ci, cj, ck))%F) m
    else Some m.

  (** copycoarsetofine.m4:148-187 *)
  Definition copycoarsetofinecorner3d (clo0 chi0 clo1 chi1 clo2 chi2 flo0 fhi0 flo1 fhi1 flo2 fhi2
      cblo0 cbhi0 cblo1 cbhi1 cblo2 cbhi2 fblo0 fbhi0 fblo1 fbhi1 fblo2 fbhi2 gcw : Z)
      (cdata fdata : ptr) (m : mem S) : option (mem S) :=
    let cdata := mkFa cdata (CELL3d cblo0 cblo1 cblo2 cbhi0 cbhi1 cbhi2 gcw) in
    let fdata := mkFa fdata (CELL3d fblo0 fblo1 fblo2 fbhi0 fbhi1 fbhi2 gcw) in
    let fi := flo0 in let fj := flo1 in let fk := flo2 in
    let ic := clo0 in let jc := clo1 in let kc := clo2 in
    (put fdata!(fi, fj, fk) := cdata!(ic, jc, kc))%F m.
End Copy.
