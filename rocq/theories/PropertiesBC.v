(** * Properties C39, C40: boundary kernels *)

From Coq Require Import QArith Qcanon.
From Verif Require Import Base ModelBounds ModelIters ModelSpan Spec SpecAssign FortranBase SpecKernel
  Instances KernelsBC FortranBC FortranHomog LemBC LemBCCut LemHomog.
Import ListNotations.
Open Scope Z_scope.

(** ** C39: the kernels leave the memory the Fortran subroutines leave *)

Theorem C39_set_bc_1d : forall (S : Scalar), field_laws S -> forall i0 i1 dx dgcw d0 ugcw u bLo bHi exOrder face btype alpha beta (m : mem S),
  cd_1d_set_bc i0 i1 dx dgcw d0 ugcw u bLo bHi exOrder face btype alpha beta m =
  cellsetcorrectionbc1d i0 i1 dx dgcw d0 ugcw u bLo bHi exOrder face btype alpha beta m.
Proof. exact @cd_1d_set_bc_eq. Qed.
Print Assumptions C39_set_bc_1d.

Theorem C39_set_poisson_bc_1d : forall (S : Scalar), field_laws S -> forall i0 i1 dx ugcw u bLo bHi exOrder face btype alpha beta (m : mem S),
  cd_1d_set_poisson_bc i0 i1 dx ugcw u bLo bHi exOrder face btype alpha beta m =
  cellsetpoissoncorrectionbc1d i0 i1 dx ugcw u bLo bHi exOrder face btype alpha beta m.
Proof. exact @cd_1d_set_poisson_bc_eq. Qed.
Print Assumptions C39_set_poisson_bc_1d.

Theorem C39_set_bc_2d : forall (S : Scalar), field_laws S -> forall i0 i1 j0 j1 dx dgcw d0 d1 ugcw u bLo bHi exOrder face type btype alpha beta (m : mem S),
  (type = 1 -> face = 0 \/ face = 1 -> seg_within j0 j1 (bLo 1) (bHi 1)) ->
  (type = 1 -> face = 2 \/ face = 3 -> seg_within i0 i1 (bLo 0) (bHi 0)) ->
  cd_2d_set_bc i0 i1 j0 j1 dx dgcw d0 d1 ugcw u bLo bHi exOrder face type btype alpha beta m =
  cellsetcorrectionbc2d i0 i1 j0 j1 dx dgcw d0 d1 ugcw u bLo bHi exOrder face type btype alpha beta m.
Proof. exact @cd_2d_set_bc_eq. Qed.
Print Assumptions C39_set_bc_2d.

Theorem C39_set_poisson_bc_2d : forall (S : Scalar), field_laws S -> forall i0 i1 j0 j1 dx ugcw u bLo bHi exOrder face type btype alpha beta (m : mem S),
  (type = 1 -> face = 0 \/ face = 1 -> seg_within j0 j1 (bLo 1) (bHi 1)) ->
  (type = 1 -> face = 2 \/ face = 3 -> seg_within i0 i1 (bLo 0) (bHi 0)) ->
  cd_2d_set_poisson_bc i0 i1 j0 j1 dx ugcw u bLo bHi exOrder face type btype alpha beta m =
  cellsetpoissoncorrectionbc2d i0 i1 j0 j1 dx ugcw u bLo bHi exOrder face type btype alpha beta m.
Proof. exact @cd_2d_set_poisson_bc_eq. Qed.
Print Assumptions C39_set_poisson_bc_2d.

Theorem C39_set_corner_bc_2d : forall (S : Scalar), field_laws S -> forall i0 i1 j0 j1 gcw dx d0 d1 u bLo bHi exOrder face type btype (m : mem S),
  cd_2d_set_corner_bc i0 i1 j0 j1 gcw dx d0 d1 u bLo bHi exOrder face type btype m =
  cellsetinteriorcornerbc2d i0 i1 j0 j1 gcw dx d0 d1 u bLo bHi exOrder face type btype m.
Proof. exact @cd_2d_set_corner_bc_eq. Qed.
Print Assumptions C39_set_corner_bc_2d.

Theorem C39_set_homogenous_bc_2d : forall (S : Scalar), field_laws S -> forall i0 j0 i1 j1 face bLo bHi exOrder u (m : mem S),
  1 <= exOrder <= 4 ->
  (face = 0 \/ face = 1 -> seg_meets j0 j1 (bLo 1) (bHi 1)) ->
  (face = 2 \/ face = 3 -> seg_meets i0 i1 (bLo 0) (bHi 0) /\ i0 <= i1 + 1) ->
  cd_2d_set_homogenous_bc i0 j0 i1 j1 face bLo bHi exOrder u m =
  cellsethomogenousbc2d i0 j0 i1 j1 face bLo bHi exOrder u m.
Proof. exact @cd_2d_set_homogenous_bc_eq. Qed.
Print Assumptions C39_set_homogenous_bc_2d.

Theorem C39_set_bc_3d : forall (S : Scalar), field_laws S -> forall i0 i1 j0 j1 k0 k1 dx dgcw d0 d1 d2 ugcw u bLo bHi exOrder face type btype alpha beta (m : mem S),
  (type = 1 -> face = 0 \/ face = 1 -> seg_meets j0 j1 (bLo 1) (bHi 1) /\ seg_meets k0 k1 (bLo 2) (bHi 2)) ->
  (type = 1 -> face = 2 \/ face = 3 -> seg_meets i0 i1 (bLo 0) (bHi 0) /\ seg_meets k0 k1 (bLo 2) (bHi 2)) ->
  (type = 1 -> face = 4 \/ face = 5 -> seg_meets i0 i1 (bLo 0) (bHi 0) /\ seg_meets j0 j1 (bLo 1) (bHi 1)) ->
  (type = 2 -> 0 <= face < 4 -> seg_within k0 k1 (bLo 2) (bHi 2)) ->
  (type = 2 -> 4 <= face < 8 -> seg_within j0 j1 (bLo 1) (bHi 1)) ->
  (type = 2 -> 8 <= face < 12 -> seg_within i0 i1 (bLo 0) (bHi 0)) ->
  cd_3d_set_bc i0 i1 j0 j1 k0 k1 dx dgcw d0 d1 d2 ugcw u bLo bHi exOrder face type btype alpha beta m =
  cellsetcorrectionbc3d i0 i1 j0 j1 k0 k1 dx dgcw d0 d1 d2 ugcw u bLo bHi exOrder face type btype alpha beta m.
Proof. exact @cd_3d_set_bc_eq. Qed.
Print Assumptions C39_set_bc_3d.

Theorem C39_set_poisson_bc_3d : forall (S : Scalar), field_laws S -> forall i0 i1 j0 j1 k0 k1 dx ugcw u bLo bHi exOrder face type btype alpha beta (m : mem S),
  (type = 1 -> face = 0 \/ face = 1 -> seg_within j0 j1 (bLo 1) (bHi 1) /\ seg_within k0 k1 (bLo 2) (bHi 2)) ->
  (type = 1 -> face = 2 \/ face = 3 -> seg_within i0 i1 (bLo 0) (bHi 0) /\ seg_within k0 k1 (bLo 2) (bHi 2)) ->
  (type = 1 -> face = 4 \/ face = 5 -> seg_within i0 i1 (bLo 0) (bHi 0) /\ seg_within j0 j1 (bLo 1) (bHi 1)) ->
  (type = 2 -> 0 <= face < 4 -> seg_within k0 k1 (bLo 2) (bHi 2)) ->
  (type = 2 -> 4 <= face < 8 -> seg_within j0 j1 (bLo 1) (bHi 1)) ->
  (type = 2 -> 8 <= face < 12 -> seg_within i0 i1 (bLo 0) (bHi 0)) ->
  cd_3d_set_poisson_bc i0 i1 j0 j1 k0 k1 dx ugcw u bLo bHi exOrder face type btype alpha beta m =
  cellsetpoissoncorrectionbc3d i0 i1 j0 j1 k0 k1 dx ugcw u bLo bHi exOrder face type btype alpha beta m.
Proof. exact @cd_3d_set_poisson_bc_eq. Qed.
Print Assumptions C39_set_poisson_bc_3d.

(** Memory with ten allocations of [n] cells, cell [k] of allocation [a] holding
    k*k + 3*a*k + 1, and the value at an address afterwards. *)
Definition ex_bc_cells (S : Scalar) (n : nat) : mem S :=
  mkMem (map (fun a => map (fun k => lit (Z.of_nat (k * k + 3 * a * k + 1))) (seq 0 n)) (seq 0 10)) [].
Definition ex_bc_val (r : option (mem QcS)) (p : ptr) : option Q := m <- r ;; x <- load m p ;; Some (this x).

Definition seg (a b c : Z) : Z -> Z := fun d => if d =? 0 then a else if d =? 1 then b else c.
Definition ex_h : Z -> QcS := fun d => lit (2 + d).

(** Robin values of order 2 above a 3 x 2 patch, on top of a 3 x 2 x 2 patch, an
    edge of the latter, and a homogeneous extrapolation of order 4:
    -4*833 + 2*776 - 4/5*721 + 1/7*668. *)
Example C39_example :
  field_laws QcS /\ seg_within 0 2 (seg 0 2 0 0) (seg 2 2 0 0) /\
  ex_bc_val (cd_2d_set_bc 0 2 0 1 ex_h 1 (0%nat, 0) (1%nat, 0) 2 (2%nat, 0) (seg 0 2 0) (seg 2 2 0) 2 3 1 4
    (lit 3) (lit 2) (ex_bc_cells QcS 60)) (2%nat, 30) = Some (Qmake (467953) 718) /\
  seg_meets 0 2 (seg 0 0 2 0) (seg 2 1 2 0) /\ seg_meets 0 1 (seg 0 0 2 1) (seg 2 1 2 1) /\
  ex_bc_val (cd_3d_set_bc 0 2 0 1 0 1 ex_h 1 (0%nat, 0) (1%nat, 0) (2%nat, 0) 2 (3%nat, 0) (seg 0 0 2) (seg 2 1 2) 2 5 1 4
    (lit 3) (lit 2) (ex_bc_cells QcS 300)) (faddr (mkFa (3%nat, 0) (CELL3d 0 0 0 2 1 1 2)) [1; 1; 2]) = Some (Qmake (621951313) 26094) /\
  ex_bc_val (cd_3d_set_bc 0 2 0 1 0 1 ex_h 1 (0%nat, 0) (1%nat, 0) (2%nat, 0) 2 (3%nat, 0) (seg (-1) (-1) 0) (seg (-1) (-1) 1) 2 0 2 4
    (lit 3) (lit 2) (ex_bc_cells QcS 300)) (faddr (mkFa (3%nat, 0) (CELL3d 0 0 0 2 1 1 2)) [-1; -1; 1]) = Some 19149%Q /\
  ex_bc_val (cd_2d_set_homogenous_bc 0 0 4 5 1 (seg 0 1 0) (seg 0 3 0) 4 (2%nat, 0) (ex_bc_cells QcS 60))
    (faddr (mkFa (2%nat, 0) (CELL2d 0 0 4 5 1)) [5; 2]) = Some (Qmake (-79148) 35).
Proof. split; [exact QcS_laws|]. unfold seg_within, seg_meets. cbn [seg Z.eqb]. repeat split; vm_compute; try reflexivity; discriminate. Qed.

(** ** C40: segments that reach beyond the patch *)

(** The C++ kernel cuts the segment to the patch, the 2D Fortran and the 3D Poisson
    Fortran do not: the ghost cell (-1, 2), or (-1, 2, 0), beside the corner of the
    patch gets a value in Fortran only. *)
Theorem C40_set_bc_2d_refuted :
  exists (bLo bHi : Z -> Z) (m : mem QcS), seg_meets 0 1 (bLo 1) (bHi 1) /\
    let p := faddr (mkFa (2%nat, 0) (CELL2d 0 0 2 1 2)) [-1; 2] in
    ex_bc_val (Some m) p = Some 1016%Q /\
    ex_bc_val (cd_2d_set_bc 0 2 0 1 ex_h 1 (0%nat, 0) (1%nat, 0) 2 (2%nat, 0) bLo bHi 1 0 1 1 (lit 3) (lit 2) m) p
      = Some 1016%Q /\
    ex_bc_val (cellsetcorrectionbc2d 0 2 0 1 ex_h 1 (0%nat, 0) (1%nat, 0) 2 (2%nat, 0) bLo bHi 1 0 1 1 (lit 3) (lit 2) m) p
      = Some 1081%Q.
Proof.
  exists (seg (-1) (-1) 0), (seg (-1) 2 0), (ex_bc_cells QcS 60).
  split; [vm_compute; discriminate|]. vm_compute. repeat split; reflexivity.
Qed.
Print Assumptions C40_set_bc_2d_refuted.

Theorem C40_set_poisson_bc_3d_refuted :
  exists (bLo bHi : Z -> Z) (m : mem QcS), seg_meets 0 1 (bLo 1) (bHi 1) /\ seg_meets 0 1 (bLo 2) (bHi 2) /\
    let p := faddr (mkFa (2%nat, 0) (CELL3d 0 0 0 0 1 1 1)) [-1; 2; 0] in
    ex_bc_val (cd_3d_set_poisson_bc 0 0 0 1 0 1 ex_h 1 (2%nat, 0) bLo bHi 1 0 1 1 (lit 3) (lit 2) m) p
      = ex_bc_val (Some m) p /\
    ex_bc_val (cellsetpoissoncorrectionbc3d 0 0 0 1 0 1 ex_h 1 (2%nat, 0) bLo bHi 1 0 1 1 (lit 3) (lit 2) m) p
      = ex_bc_val (Some m) (faddr (mkFa (2%nat, 0) (CELL3d 0 0 0 0 1 1 1)) [0; 2; 0]) /\
    ex_bc_val (Some m) p <> ex_bc_val (Some m) (faddr (mkFa (2%nat, 0) (CELL3d 0 0 0 0 1 1 1)) [0; 2; 0]).
Proof.
  exists (seg (-1) (-1) 0), (seg (-1) 2 1), (ex_bc_cells QcS 48).
  split; [vm_compute; discriminate|]. split; [vm_compute; discriminate|]. vm_compute. repeat split; discriminate.
Qed.
Print Assumptions C40_set_poisson_bc_3d_refuted.

(** What holds for every segment that meets the patch: the C++ kernel does what the
    Fortran does on the segment cut to the patch along the face. *)

Theorem C40_set_bc_2d : forall (S : Scalar), field_laws S -> forall i0 i1 j0 j1 dx dgcw d0 d1 ugcw u bLo bHi exOrder face btype alpha beta (m : mem S),
  seg_meets i0 i1 (bLo 0) (bHi 0) \/ face = 0 \/ face = 1 ->
  seg_meets j0 j1 (bLo 1) (bHi 1) \/ face = 2 \/ face = 3 ->
  let t := if (face =? 0) || (face =? 1) then 1 else 0 in
  let lo := if (face =? 0) || (face =? 1) then j0 else i0 in
  let hi := if (face =? 0) || (face =? 1) then j1 else i1 in
  cd_2d_set_bc i0 i1 j0 j1 dx dgcw d0 d1 ugcw u bLo bHi exOrder face 1 btype alpha beta m =
  cellsetcorrectionbc2d i0 i1 j0 j1 dx dgcw d0 d1 ugcw u (cut_lo t lo bLo) (cut_hi t hi bHi) exOrder face 1 btype alpha beta m.
Proof. exact @cd_2d_set_bc_cut. Qed.
Print Assumptions C40_set_bc_2d.

Theorem C40_set_poisson_bc_2d : forall (S : Scalar), field_laws S -> forall i0 i1 j0 j1 dx ugcw u bLo bHi exOrder face btype alpha beta (m : mem S),
  seg_meets i0 i1 (bLo 0) (bHi 0) \/ face = 0 \/ face = 1 ->
  seg_meets j0 j1 (bLo 1) (bHi 1) \/ face = 2 \/ face = 3 ->
  let t := if (face =? 0) || (face =? 1) then 1 else 0 in
  let lo := if (face =? 0) || (face =? 1) then j0 else i0 in
  let hi := if (face =? 0) || (face =? 1) then j1 else i1 in
  cd_2d_set_poisson_bc i0 i1 j0 j1 dx ugcw u bLo bHi exOrder face 1 btype alpha beta m =
  cellsetpoissoncorrectionbc2d i0 i1 j0 j1 dx ugcw u (cut_lo t lo bLo) (cut_hi t hi bHi) exOrder face 1 btype alpha beta m.
Proof. exact @cd_2d_set_poisson_bc_cut. Qed.
Print Assumptions C40_set_poisson_bc_2d.

Theorem C40_set_poisson_bc_3d : forall (S : Scalar), field_laws S -> forall i0 i1 j0 j1 k0 k1 dx ugcw u bLo bHi exOrder face btype alpha beta (m : mem S),
  seg_meets i0 i1 (bLo 0) (bHi 0) \/ face = 0 \/ face = 1 ->
  seg_meets j0 j1 (bLo 1) (bHi 1) \/ face = 2 \/ face = 3 ->
  seg_meets k0 k1 (bLo 2) (bHi 2) \/ face = 4 \/ face = 5 ->
  let cutLo := if (face =? 0) || (face =? 1) then fun b => cut_lo 1 j0 (cut_lo 2 k0 b)
               else if (face =? 2) || (face =? 3) then fun b => cut_lo 0 i0 (cut_lo 2 k0 b)
               else fun b => cut_lo 0 i0 (cut_lo 1 j0 b) in
  let cutHi := if (face =? 0) || (face =? 1) then fun b => cut_hi 1 j1 (cut_hi 2 k1 b)
               else if (face =? 2) || (face =? 3) then fun b => cut_hi 0 i1 (cut_hi 2 k1 b)
               else fun b => cut_hi 0 i1 (cut_hi 1 j1 b) in
  cd_3d_set_poisson_bc i0 i1 j0 j1 k0 k1 dx ugcw u bLo bHi exOrder face 1 btype alpha beta m =
  cellsetpoissoncorrectionbc3d i0 i1 j0 j1 k0 k1 dx ugcw u (cutLo bLo) (cutHi bHi) exOrder face 1 btype alpha beta m.
Proof. exact @cd_3d_set_poisson_bc_cut. Qed.
Print Assumptions C40_set_poisson_bc_3d.

(** The segment of the counterexample meets these hypotheses, and cutting changes it. *)
Example C40_example :
  (seg_meets 0 2 (seg (-1) (-1) 0 0) (seg (-1) 2 0 0) \/ 0 = 0 \/ 0 = 1) /\
  seg_meets 0 1 (seg (-1) (-1) 0 1) (seg (-1) 2 0 1) /\
  map (cut_lo 1 0 (seg (-1) (-1) 0)) [0; 1] = [-1; 0] /\ map (cut_hi 1 1 (seg (-1) 2 0)) [0; 1] = [-1; 1].
Proof. unfold seg_meets. repeat split; try (right; left; reflexivity); vm_compute; try reflexivity; discriminate. Qed.
