(** * Property C70 for the homogeneous boundary kernel *)

From Coq Require Import Permutation QArith Qcanon.
From Verif Require Import Base FortranBase SpecKernel SpecBoundary SpecBCOrder Instances SpecHomogOrder LemHomogOrder LemBCOrderCase.
Import ListNotations.
Open Scope Z_scope.

(** Each call fills a box on a face and the two corners of that face, so that calls
    for adjoining faces write the same corner.  The order of the calls is all the
    same of no importance ([_order]), and doing everything once more changes nothing
    ([_again]), as long as no two boxes share a ghost cell and the patch is as thick
    as the formulas reach. *)

Theorem C70_homogenous_2d_order : forall (S : Scalar) lo hi (u : ptr), lo 0 <= hi 0 -> lo 1 <= hi 1 -> forall cs : list (bcall S),
  Forall (on_face lo hi) cs -> Forall (deep lo hi) cs -> ForallOrdPairs (separate 2 lo hi) cs ->
  forall cs' m, Permutation cs cs' ->
  forM cs (call_homogenous_2d lo hi u) m = forM cs' (call_homogenous_2d lo hi u) m.
Proof. exact @homogenous_order. Qed.
Print Assumptions C70_homogenous_2d_order.

Theorem C70_homogenous_2d_again : forall (S : Scalar) lo hi (u : ptr), lo 0 <= hi 0 -> lo 1 <= hi 1 -> forall cs : list (bcall S),
  Forall (on_face lo hi) cs -> Forall (deep lo hi) cs -> ForallOrdPairs (separate 2 lo hi) cs ->
  forall m m', forM cs (call_homogenous_2d lo hi u) m = Some m' -> forM cs (call_homogenous_2d lo hi u) m' = Some m'.
Proof. exact @homogenous_again. Qed.
Print Assumptions C70_homogenous_2d_again.

(** The Fortran subroutine, for the orders it has. *)
Theorem C70_homogenous_2d_fortran_order : forall (S : Scalar), field_laws S -> forall lo hi (u : ptr), lo 0 <= hi 0 -> lo 1 <= hi 1 -> forall (cs cs' : list (bcall S)) m,
  Forall (on_face lo hi) cs -> Forall (fun c => 1 <= c_order c <= 4) cs -> Forall (deep lo hi) cs -> ForallOrdPairs (separate 2 lo hi) cs ->
  Permutation cs cs' ->
  forM cs (call_homogenous_2d_fortran lo hi u) m = forM cs' (call_homogenous_2d_fortran lo hi u) m.
Proof. exact @homogenous_fortran_order. Qed.
Print Assumptions C70_homogenous_2d_fortran_order.

Theorem C70_homogenous_2d_fortran_again : forall (S : Scalar), field_laws S -> forall lo hi (u : ptr), lo 0 <= hi 0 -> lo 1 <= hi 1 -> forall (cs : list (bcall S)) m m',
  Forall (on_face lo hi) cs -> Forall (fun c => 1 <= c_order c <= 4) cs -> Forall (deep lo hi) cs -> ForallOrdPairs (separate 2 lo hi) cs ->
  forM cs (call_homogenous_2d_fortran lo hi u) m = Some m' -> forM cs (call_homogenous_2d_fortran lo hi u) m' = Some m'.
Proof. exact @homogenous_fortran_again. Qed.
Print Assumptions C70_homogenous_2d_fortran_again.

(** The hypotheses are met on a patch of three by two cells by two boxes of different
    order on one face and by boxes on the three others; the calls succeed and change
    the ghost cells. *)
Definition hcalls : list (bcall QcS) :=
  [ocall 1 0 (obox (-1) 0 (-1) 0) 0 2; ocall 1 0 (obox (-1) 1 (-1) 1) 0 3; ocall 1 1 (obox 3 0 3 1) 0 1;
   ocall 1 2 (obox 0 (-1) 2 (-1)) 0 2; ocall 1 3 (obox 0 2 2 2) 0 1].

Example C70_homogenous_2d_case : Forall (on_face olo ohi) hcalls /\ Forall (fun c => 1 <= c_order c <= 4) hcalls /\
  Forall (deep olo ohi) hcalls /\ ForallOrdPairs (separate 2 olo ohi) hcalls /\
  (forM hcalls (call_homogenous_2d olo ohi (2%nat, 0)) omem <> None /\
   forM hcalls (call_homogenous_2d olo ohi (2%nat, 0)) omem <> Some omem).
Proof.
  split.
  { repeat (apply Forall_cons || apply Forall_nil); (split; [reflexivity|]); (split; [vm_compute; split; [discriminate|reflexivity]|]);
      intros d Hd; assert (d = 0 \/ d = 1) as [->| ->] by lia; vm_compute; intuition (discriminate || reflexivity). }
  split; [repeat (apply Forall_cons || apply Forall_nil); vm_compute; split; discriminate|].
  split; [repeat (apply Forall_cons || apply Forall_nil); vm_compute; discriminate|].
  split.
  { repeat (apply FOP_cons || apply FOP_nil); repeat (apply Forall_cons || apply Forall_nil);
      intros q H H'; destruct (H 0 ltac:(lia)) as [A _], (H 1 ltac:(lia)) as [B _], (H' 0 ltac:(lia)) as [A' _], (H' 1 ltac:(lia)) as [B' _];
      cbn in A, B, A', B'; lia. }
  assert (oeqb (forM hcalls (call_homogenous_2d olo ohi (2%nat, 0)) omem) (Some omem) = false) as E by (vm_compute; reflexivity).
  apply oeqb_ne in E as (A & _ & B). split; assumption.
Qed.

(** On a patch one cell thick the second order formula on a face reads the ghost cell
    of the opposite face: the order matters, and so does repetition. *)
Theorem C70_homogenous_thin_refuted : exists (lo hi : Z -> Z) c1 c2 (m : mem QcS),
  let K := call_homogenous_2d lo hi (0%nat, 0) in
  lo 0 <= hi 0 /\ lo 1 <= hi 1 /\ Forall (on_face lo hi) [c1; c2] /\ ForallOrdPairs (separate 2 lo hi) [c1; c2] /\
  (forM [c1; c2] K m <> None /\ forM [c2; c1] K m <> None /\ forM [c1; c2] K m <> forM [c2; c1] K m) /\
  (forM ([c1; c2] ++ [c1; c2]) K m <> None /\ forM [c1; c2] K m <> None /\ forM ([c1; c2] ++ [c1; c2]) K m <> forM [c1; c2] K m).
Proof.
  exists olo, olo, (ocall 1 0 (obox (-1) 0 (-1) 0) 0 2), (ocall 1 1 (obox 1 0 1 0) 0 2),
    (mkMem (S := QcS) [map (fun k => lit (Z.of_nat k * Z.of_nat k)) (seq 0 9)] []). cbv zeta.
  split; [vm_compute; discriminate|]. split; [vm_compute; discriminate|]. split.
  { repeat (apply Forall_cons || apply Forall_nil); (split; [reflexivity|]); (split; [vm_compute; split; [discriminate|reflexivity]|]);
      intros d Hd; assert (d = 0 \/ d = 1) as [->| ->] by lia; vm_compute; intuition (discriminate || reflexivity). }
  split.
  { repeat (apply FOP_cons || apply FOP_nil); repeat (apply Forall_cons || apply Forall_nil);
      intros q H H'; destruct (H 0 ltac:(lia)) as [A _], (H' 0 ltac:(lia)) as [A' _]; cbn in A, A'; lia. }
  split; apply oeqb_ne; vm_compute; reflexivity.
Qed.
Print Assumptions C70_homogenous_thin_refuted.
