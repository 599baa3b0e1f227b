(** * Specification: the boundary value problem on a patch

    A condition on each face of the patch [lo..hi]; the ghost cells are filled by one
    call of a boundary kernel for each face, then the operator is applied.  [filled]
    reads: [u] holds [w] in the patch, filling the ghost cells completes, and the
    operator applied to the result gives [r] (SpecSolve). *)

From Coq Require Import QArith Qcanon.
From Verif Require Import Base FortranBase SpecKernel SpecBoundary SpecBCOrder SpecBCCalls SpecSolve Instances.
Import ListNotations.
Open Scope Z_scope.

(** The condition on a face: kind (0 Dirichlet, 1 Neumann, 4 Robin), order, coefficients. *)
Record bcond (S : Scalar) := mkBc { b_kind : Z; b_order : Z; b_alpha : S; b_beta : S }.
Arguments mkBc {S}. Arguments b_kind {S}. Arguments b_order {S}. Arguments b_alpha {S}. Arguments b_beta {S}.

(** The call for a whole face: faces 0, 1 are the low and high ends of direction 0, ... *)
Definition face_call {S : Scalar} (lo hi : Z -> Z) (bc : Z -> bcond S) (f : Z) : bcall S :=
  mkCall 1 f (fun d => if d =? f / 2 then (if f mod 2 =? 0 then lo d - 1 else hi d + 1) else lo d)
             (fun d => if d =? f / 2 then (if f mod 2 =? 0 then lo d - 1 else hi d + 1) else hi d)
    (b_kind (bc f)) (b_order (bc f)) (b_alpha (bc f)) (b_beta (bc f)).

(** The calls for the faces of a patch in [n] dimensions. *)
Definition face_calls {S : Scalar} (n : nat) lo hi (bc : Z -> bcond S) : list (bcall S) :=
  map (fun f => face_call lo hi bc (Z.of_nat f)) (seq 0 (2 * n)).

(** Ends of the patch by direction. *)
Definition ends1 (a : Z) : Z -> Z := fun _ => a.
Definition ends2 (a b : Z) : Z -> Z := fun d => if d =? 0 then a else b.
Definition ends3 (a b c : Z) : Z -> Z := fun d => if d =? 0 then a else if d =? 1 then b else c.

(** Conditions of the good sign: Dirichlet of order 1 or 2, Neumann, and with
    [robin] also Robin of order 1 with coefficients of the right sign. *)
Definition sound (robin : bool) (b : bcond QcS) : Prop :=
  (b_kind b = 0 /\ (b_order b = 1 \/ b_order b = 2)) \/ b_kind b = 1 \/
  (robin = true /\ b_kind b = 4 /\ b_order b = 1 /\ (0 <= b_alpha b)%Qc /\ (0 < b_beta b)%Qc).

(** The patch is as thick as the formulas need: two cells for Dirichlet of order 2. *)
Definition roomy (n : nat) (lo hi : Z -> Z) (bc : Z -> bcond QcS) : Prop :=
  forall f, 0 <= f < 2 * Z.of_nat n -> depth (b_kind (bc f)) (b_order (bc f)) <= hi (f / 2) - lo (f / 2) + 1.

(** The problems: for each operator, [u] apart from the coefficients. *)

Definition filled_v1_1d {S : Scalar} i0 i1 dx beta b0 gcw u f0 alpha agcw a rgcw res (bc : Z -> bcond S) (m : mem S) (r w c v0 : Z -> S) : Prop :=
  1 <= gcw /\ apart u [b0; a] /\
  (forall i, i0 <= i <= i1 -> ((mkFa u (CELL1d i0 i1 gcw))!(i))%F m = Some (w i)) /\
  exists m1 w1, forM (face_calls 1 (ends1 i0) (ends1 i1) bc) (call_set_bc_1d (ends1 i0) (ends1 i1) dx 0 b0 gcw u) m = Some m1 /\
    applied_v1_1d i0 i1 dx beta b0 gcw u f0 alpha agcw a rgcw res m1 r w1 c v0.

Definition filled_v2_1d {S : Scalar} i0 i1 dx beta b0 gcw u f0 alpha rgcw res (bc : Z -> bcond S) (m : mem S) (r w v0 : Z -> S) : Prop :=
  1 <= gcw /\ apart u [b0] /\
  (forall i, i0 <= i <= i1 -> ((mkFa u (CELL1d i0 i1 gcw))!(i))%F m = Some (w i)) /\
  exists m1 w1, forM (face_calls 1 (ends1 i0) (ends1 i1) bc) (call_set_bc_1d (ends1 i0) (ends1 i1) dx 0 b0 gcw u) m = Some m1 /\
    applied_v2_1d i0 i1 dx beta b0 gcw u f0 alpha rgcw res m1 r w1 v0.

Definition filled_poisson_1d {S : Scalar} i0 i1 dx beta gcw u f0 rgcw res (bc : Z -> bcond S) (m : mem S) (r w : Z -> S) : Prop :=
  1 <= gcw /\
  (forall i, i0 <= i <= i1 -> ((mkFa u (CELL1d i0 i1 gcw))!(i))%F m = Some (w i)) /\
  exists m1 w1, forM (face_calls 1 (ends1 i0) (ends1 i1) bc) (call_set_poisson_bc_1d (ends1 i0) (ends1 i1) dx gcw u) m = Some m1 /\
    applied_poisson_1d i0 i1 dx beta gcw u f0 rgcw res m1 r w1.

Definition filled_v1_2d {S : Scalar} i0 j0 i1 j1 dx beta b0 b1 gcw u f0 f1 alpha agcw a rgcw res (bc : Z -> bcond S) (m : mem S) (r w c v0 v1 : Z -> Z -> S) : Prop :=
  1 <= gcw /\ apart u [b0; b1; a] /\
  (forall i j, i0 <= i <= i1 -> j0 <= j <= j1 -> ((mkFa u (CELL2d i0 j0 i1 j1 gcw))!(i, j))%F m = Some (w i j)) /\
  exists m1 w1, forM (face_calls 2 (ends2 i0 j0) (ends2 i1 j1) bc) (call_set_bc_2d (ends2 i0 j0) (ends2 i1 j1) dx 0 b0 b1 gcw u) m = Some m1 /\
    applied_v1_2d i0 j0 i1 j1 dx beta b0 b1 gcw u f0 f1 alpha agcw a rgcw res m1 r w1 c v0 v1.

Definition filled_v2_2d {S : Scalar} i0 j0 i1 j1 dx beta b0 b1 gcw u f0 f1 alpha rgcw res (bc : Z -> bcond S) (m : mem S) (r w v0 v1 : Z -> Z -> S) : Prop :=
  1 <= gcw /\ apart u [b0; b1] /\
  (forall i j, i0 <= i <= i1 -> j0 <= j <= j1 -> ((mkFa u (CELL2d i0 j0 i1 j1 gcw))!(i, j))%F m = Some (w i j)) /\
  exists m1 w1, forM (face_calls 2 (ends2 i0 j0) (ends2 i1 j1) bc) (call_set_bc_2d (ends2 i0 j0) (ends2 i1 j1) dx 0 b0 b1 gcw u) m = Some m1 /\
    applied_v2_2d i0 j0 i1 j1 dx beta b0 b1 gcw u f0 f1 alpha rgcw res m1 r w1 v0 v1.

Definition filled_poisson_2d {S : Scalar} i0 j0 i1 j1 dx beta gcw u f0 f1 rgcw res (bc : Z -> bcond S) (m : mem S) (r w : Z -> Z -> S) : Prop :=
  1 <= gcw /\
  (forall i j, i0 <= i <= i1 -> j0 <= j <= j1 -> ((mkFa u (CELL2d i0 j0 i1 j1 gcw))!(i, j))%F m = Some (w i j)) /\
  exists m1 w1, forM (face_calls 2 (ends2 i0 j0) (ends2 i1 j1) bc) (call_set_poisson_bc_2d (ends2 i0 j0) (ends2 i1 j1) dx gcw u) m = Some m1 /\
    applied_poisson_2d i0 j0 i1 j1 dx beta gcw u f0 f1 rgcw res m1 r w1.

Definition filled_v1_3d {S : Scalar} i0 j0 k0 i1 j1 k1 dx beta b0 b1 b2 gcw u f0 f1 f2 alpha agcw a rgcw res (bc : Z -> bcond S) (m : mem S) (r w c v0 v1 v2 : Z -> Z -> Z -> S) : Prop :=
  1 <= gcw /\ apart u [b0; b1; b2; a] /\
  (forall i j k, i0 <= i <= i1 -> j0 <= j <= j1 -> k0 <= k <= k1 -> ((mkFa u (CELL3d i0 j0 k0 i1 j1 k1 gcw))!(i, j, k))%F m = Some (w i j k)) /\
  exists m1 w1, forM (face_calls 3 (ends3 i0 j0 k0) (ends3 i1 j1 k1) bc) (call_set_bc_3d (ends3 i0 j0 k0) (ends3 i1 j1 k1) dx 0 b0 b1 b2 gcw u) m = Some m1 /\
    applied_v1_3d i0 j0 k0 i1 j1 k1 dx beta b0 b1 b2 gcw u f0 f1 f2 alpha agcw a rgcw res m1 r w1 c v0 v1 v2.

Definition filled_v2_3d {S : Scalar} i0 j0 k0 i1 j1 k1 dx beta b0 b1 b2 gcw u f0 f1 f2 alpha rgcw res (bc : Z -> bcond S) (m : mem S) (r w v0 v1 v2 : Z -> Z -> Z -> S) : Prop :=
  1 <= gcw /\ apart u [b0; b1; b2] /\
  (forall i j k, i0 <= i <= i1 -> j0 <= j <= j1 -> k0 <= k <= k1 -> ((mkFa u (CELL3d i0 j0 k0 i1 j1 k1 gcw))!(i, j, k))%F m = Some (w i j k)) /\
  exists m1 w1, forM (face_calls 3 (ends3 i0 j0 k0) (ends3 i1 j1 k1) bc) (call_set_bc_3d (ends3 i0 j0 k0) (ends3 i1 j1 k1) dx 0 b0 b1 b2 gcw u) m = Some m1 /\
    applied_v2_3d i0 j0 k0 i1 j1 k1 dx beta b0 b1 b2 gcw u f0 f1 f2 alpha rgcw res m1 r w1 v0 v1 v2.

Definition filled_poisson_3d {S : Scalar} i0 j0 k0 i1 j1 k1 dx beta gcw u f0 f1 f2 rgcw res (bc : Z -> bcond S) (m : mem S) (r w : Z -> Z -> Z -> S) : Prop :=
  1 <= gcw /\
  (forall i j k, i0 <= i <= i1 -> j0 <= j <= j1 -> k0 <= k <= k1 -> ((mkFa u (CELL3d i0 j0 k0 i1 j1 k1 gcw))!(i, j, k))%F m = Some (w i j k)) /\
  exists m1 w1, forM (face_calls 3 (ends3 i0 j0 k0) (ends3 i1 j1 k1) bc) (call_set_poisson_bc_3d (ends3 i0 j0 k0) (ends3 i1 j1 k1) dx gcw u) m = Some m1 /\
    applied_poisson_3d i0 j0 k0 i1 j1 k1 dx beta gcw u f0 f1 f2 rgcw res m1 r w1.

