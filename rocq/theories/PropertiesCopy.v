(** * Property C38: coarse-to-fine copies *)

From Verif Require Import Base ModelBounds ModelIters ModelSpan Spec SpecAssign FortranBase SpecKernel
  Instances KernelsCopy FortranCopy LemCopy.
Import ListNotations.
Open Scope Z_scope.

(** ** The kernels leave the memory the Fortran subroutines leave *)

Theorem C38_copy : forall (S : Scalar) ci0 ci1 cj0 cj1 ck0 ck1 fi0 fi1 fj0 fj1 fk0 fk1 axis
    cbi0 cbi1 cbj0 cbj1 cbk0 cbk1 fbi0 fbi1 fbj0 fbj1 fbk0 fbk1 gcw ratio cdata fdata (m : mem S),
  fi0 <= fi1 + 1 -> fj0 <= fj1 + 1 -> fk0 <= fk1 + 1 -> (0 <= axis < 3 -> 1 <= ratio axis) ->
  c2f_copy ci0 ci1 cj0 cj1 ck0 ck1 fi0 fi1 fj0 fj1 fk0 fk1 axis
    cbi0 cbi1 cbj0 cbj1 cbk0 cbk1 fbi0 fbi1 fbj0 fbj1 fbk0 fbk1 gcw ratio cdata fdata m =
  copycoarsetofine3d ci0 ci1 cj0 cj1 ck0 ck1 fi0 fi1 fj0 fj1 fk0 fk1 axis
    cbi0 cbi1 cbj0 cbj1 cbk0 cbk1 fbi0 fbi1 fbj0 fbj1 fbk0 fbk1 gcw ratio cdata fdata m.
Proof. exact @c2f_copy_eq. Qed.
Print Assumptions C38_copy.

Theorem C38_copy_corner : forall (S : Scalar) ci0 ci1 cj0 cj1 ck0 ck1 fi0 fi1 fj0 fj1 fk0 fk1
    cbi0 cbi1 cbj0 cbj1 cbk0 cbk1 fbi0 fbi1 fbj0 fbj1 fbk0 fbk1 gcw cdata fdata (m : mem S),
  c2f_copy_corner ci0 ci1 cj0 cj1 ck0 ck1 fi0 fi1 fj0 fj1 fk0 fk1
    cbi0 cbi1 cbj0 cbj1 cbk0 cbk1 fbi0 fbi1 fbj0 fbj1 fbk0 fbk1 gcw cdata fdata m =
  copycoarsetofinecorner3d ci0 ci1 cj0 cj1 ck0 ck1 fi0 fi1 fj0 fj1 fk0 fk1
    cbi0 cbi1 cbj0 cbj1 cbk0 cbk1 fbi0 fbi1 fbj0 fbj1 fbk0 fbk1 gcw cdata fdata m.
Proof. exact @c2f_copy_corner_eq. Qed.
Print Assumptions C38_copy_corner.

(** ** Every fine cell of the line receives the coarse cell that contains it *)

Theorem C38_copy_value : forall (S : Scalar) ci0 ci1 cj0 cj1 ck0 ck1 fi0 fi1 fj0 fj1 fk0 fk1 axis
    cbi0 cbi1 cbj0 cbj1 cbk0 cbk1 fbi0 fbi1 fbj0 fbj1 fbk0 fbk1 gcw ratio cdata fdata (m m' : mem S),
  let c := mkFa cdata (CELL3d cbi0 cbj0 cbk0 cbi1 cbj1 cbk1 gcw) in
  let f := mkFa fdata (CELL3d fbi0 fbj0 fbk0 fbi1 fbj1 fbk1 gcw) in
  0 <= axis < 3 -> 1 <= ratio axis -> fst fdata <> fst cdata ->
  fbi0 - gcw <= fi0 <= fi1 + 1 -> fi1 <= fbi1 + gcw -> fi0 <= fbi1 + gcw ->
  fbj0 - gcw <= fj0 <= fj1 + 1 -> fj1 <= fbj1 + gcw -> fj0 <= fbj1 + gcw ->
  fbk0 - gcw <= fk0 <= fk1 + 1 -> fk1 <= fbk1 + gcw -> fk0 <= fbk1 + gcw ->
  c2f_copy ci0 ci1 cj0 cj1 ck0 ck1 fi0 fi1 fj0 fj1 fk0 fk1 axis
    cbi0 cbi1 cbj0 cbj1 cbk0 cbk1 fbi0 fbi1 fbj0 fbj1 fbk0 fbk1 gcw ratio cdata fdata m = Some m' ->
  (axis = 0 -> forall i, fi0 <= i <= fi1 -> exists v,
     c!(i / ratio 0, cj0, ck0)%F m = Some v /\ f!(i, fj0, fk0)%F m' = Some v) /\
  (axis = 1 -> forall j, fj0 <= j <= fj1 -> exists v,
     c!(ci0, j / ratio 1, ck0)%F m = Some v /\ f!(fi0, j, fk0)%F m' = Some v) /\
  (axis = 2 -> forall k, fk0 <= k <= fk1 -> exists v,
     c!(ci0, cj0, k / ratio 2)%F m = Some v /\ f!(fi0, fj0, k)%F m' = Some v).
Proof. exact @c2f_copy_value. Qed.
Print Assumptions C38_copy_value.

(** Ratio 3 along the second axis, fine indices -4 .. 4 across zero, coarse
    indices -2 .. 1: cells -4 and -3 take coarse cells -2 and -1. *)
Definition ex_copy (fj : Z) : option Z :=
  m <- c2f_copy (S := ZS) 0 0 (-2) 1 0 0 1 1 (-4) 4 0 0 1 0 0 (-2) 1 0 0 0 2 (-4) 4 0 1 0
         (fun a => a + 2) (0%nat, 0) (1%nat, 0) (mkMem (S := ZS) [[10; 20; 30; 40]; repeat 0 54] []) ;;
  load m (faddr (mkFa (1%nat, 0) (CELL3d 0 (-4) 0 2 4 1 0)) [1; fj; 0]).
Example C38_example :
  map ex_copy [-4; -3; -1; 0; 2; 3; 4] = [Some 10; Some 20; Some 20; Some 30; Some 30; Some 40; Some 40].
Proof. vm_compute. reflexivity. Qed.
