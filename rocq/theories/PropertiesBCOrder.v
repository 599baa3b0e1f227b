(** * Property C70: the order and the repetition of boundary calls *)

From Coq Require Import Permutation QArith Qcanon.
From Verif Require Import Base FortranBase SpecKernel SpecBoundary SpecBCOrder SpecBCCalls Instances LemBCCalls LemBCOrderCase.
Import ListNotations.
Open Scope Z_scope.

(** The ghost cells around a patch are filled by a list of calls, one for each
    boundary box.  When the faces come before the edges and these before the corners,
    no two boxes share a ghost cell and the patch is as thick as the formulas reach,
    the order is otherwise of no importance ([_order]), and doing everything once
    more changes nothing ([_again]). *)

Theorem C70_set_bc_1d_order : forall (S : Scalar) lo hi (dx : Z -> S) (dgcw : Z) (d0 : ptr) (ugcw : Z) (u : ptr) cs cs' (m : mem S),
  (forall d, 0 <= d < 1 -> lo d <= hi d) -> 1 <= ugcw -> apart u [d0] -> 
  by_kind cs -> Forall (placed 1 lo hi) cs -> Forall (thick lo hi) cs -> ForallOrdPairs (separate 1 lo hi) cs ->
  Permutation cs cs' -> by_kind cs' ->
  forM cs (call_set_bc_1d lo hi dx dgcw d0 ugcw u) m = forM cs' (call_set_bc_1d lo hi dx dgcw d0 ugcw u) m.
Proof. exact @set_bc_1d_order. Qed.
Print Assumptions C70_set_bc_1d_order.

Theorem C70_set_bc_1d_again : forall (S : Scalar) lo hi (dx : Z -> S) (dgcw : Z) (d0 : ptr) (ugcw : Z) (u : ptr) cs (m m' : mem S),
  (forall d, 0 <= d < 1 -> lo d <= hi d) -> 1 <= ugcw -> apart u [d0] -> 
  by_kind cs -> Forall (placed 1 lo hi) cs -> Forall (thick lo hi) cs -> ForallOrdPairs (separate 1 lo hi) cs ->
  forM cs (call_set_bc_1d lo hi dx dgcw d0 ugcw u) m = Some m' -> forM cs (call_set_bc_1d lo hi dx dgcw d0 ugcw u) m' = Some m'.
Proof. exact @set_bc_1d_again. Qed.
Print Assumptions C70_set_bc_1d_again.

Theorem C70_set_poisson_bc_1d_order : forall (S : Scalar) lo hi (dx : Z -> S) (ugcw : Z) (u : ptr) cs cs' (m : mem S),
  (forall d, 0 <= d < 1 -> lo d <= hi d) -> 1 <= ugcw -> 
  by_kind cs -> Forall (placed 1 lo hi) cs -> Forall (thick lo hi) cs -> ForallOrdPairs (separate 1 lo hi) cs ->
  Permutation cs cs' -> by_kind cs' ->
  forM cs (call_set_poisson_bc_1d lo hi dx ugcw u) m = forM cs' (call_set_poisson_bc_1d lo hi dx ugcw u) m.
Proof. exact @set_poisson_bc_1d_order. Qed.
Print Assumptions C70_set_poisson_bc_1d_order.

Theorem C70_set_poisson_bc_1d_again : forall (S : Scalar) lo hi (dx : Z -> S) (ugcw : Z) (u : ptr) cs (m m' : mem S),
  (forall d, 0 <= d < 1 -> lo d <= hi d) -> 1 <= ugcw -> 
  by_kind cs -> Forall (placed 1 lo hi) cs -> Forall (thick lo hi) cs -> ForallOrdPairs (separate 1 lo hi) cs ->
  forM cs (call_set_poisson_bc_1d lo hi dx ugcw u) m = Some m' -> forM cs (call_set_poisson_bc_1d lo hi dx ugcw u) m' = Some m'.
Proof. exact @set_poisson_bc_1d_again. Qed.
Print Assumptions C70_set_poisson_bc_1d_again.

Theorem C70_set_bc_2d_order : forall (S : Scalar) lo hi (dx : Z -> S) (dgcw : Z) (d0 d1 : ptr) (ugcw : Z) (u : ptr) cs cs' (m : mem S),
  (forall d, 0 <= d < 2 -> lo d <= hi d) -> 1 <= ugcw -> apart u [d0; d1] -> 
  by_kind cs -> Forall (placed 2 lo hi) cs -> Forall (thick lo hi) cs -> ForallOrdPairs (separate 2 lo hi) cs ->
  Permutation cs cs' -> by_kind cs' ->
  forM cs (call_set_bc_2d lo hi dx dgcw d0 d1 ugcw u) m = forM cs' (call_set_bc_2d lo hi dx dgcw d0 d1 ugcw u) m.
Proof. exact @set_bc_2d_order. Qed.
Print Assumptions C70_set_bc_2d_order.

Theorem C70_set_bc_2d_again : forall (S : Scalar) lo hi (dx : Z -> S) (dgcw : Z) (d0 d1 : ptr) (ugcw : Z) (u : ptr) cs (m m' : mem S),
  (forall d, 0 <= d < 2 -> lo d <= hi d) -> 1 <= ugcw -> apart u [d0; d1] -> 
  by_kind cs -> Forall (placed 2 lo hi) cs -> Forall (thick lo hi) cs -> ForallOrdPairs (separate 2 lo hi) cs ->
  forM cs (call_set_bc_2d lo hi dx dgcw d0 d1 ugcw u) m = Some m' -> forM cs (call_set_bc_2d lo hi dx dgcw d0 d1 ugcw u) m' = Some m'.
Proof. exact @set_bc_2d_again. Qed.
Print Assumptions C70_set_bc_2d_again.

Theorem C70_set_poisson_bc_2d_order : forall (S : Scalar) lo hi (dx : Z -> S) (ugcw : Z) (u : ptr) cs cs' (m : mem S),
  (forall d, 0 <= d < 2 -> lo d <= hi d) -> 1 <= ugcw -> 
  by_kind cs -> Forall (placed 2 lo hi) cs -> Forall (thick lo hi) cs -> ForallOrdPairs (separate 2 lo hi) cs ->
  Permutation cs cs' -> by_kind cs' ->
  forM cs (call_set_poisson_bc_2d lo hi dx ugcw u) m = forM cs' (call_set_poisson_bc_2d lo hi dx ugcw u) m.
Proof. exact @set_poisson_bc_2d_order. Qed.
Print Assumptions C70_set_poisson_bc_2d_order.

Theorem C70_set_poisson_bc_2d_again : forall (S : Scalar) lo hi (dx : Z -> S) (ugcw : Z) (u : ptr) cs (m m' : mem S),
  (forall d, 0 <= d < 2 -> lo d <= hi d) -> 1 <= ugcw -> 
  by_kind cs -> Forall (placed 2 lo hi) cs -> Forall (thick lo hi) cs -> ForallOrdPairs (separate 2 lo hi) cs ->
  forM cs (call_set_poisson_bc_2d lo hi dx ugcw u) m = Some m' -> forM cs (call_set_poisson_bc_2d lo hi dx ugcw u) m' = Some m'.
Proof. exact @set_poisson_bc_2d_again. Qed.
Print Assumptions C70_set_poisson_bc_2d_again.

(** Faces by [cd_2d_set_bc], corners by [cd_2d_set_corner_bc]. *)
Theorem C70_corner_bc_2d_order : forall (S : Scalar) lo hi (dx : Z -> S) (dgcw : Z) (d0 d1 : ptr) (ugcw : Z) (u : ptr) cs cs' (m : mem S),
  (forall d, 0 <= d < 2 -> lo d <= hi d) -> 1 <= ugcw -> apart u [d0; d1] -> 
  by_kind cs -> Forall (placed 2 lo hi) cs -> Forall (thick lo hi) cs -> ForallOrdPairs (separate 2 lo hi) cs ->
  Permutation cs cs' -> by_kind cs' ->
  forM cs (call_corner_bc_2d lo hi dx dgcw d0 d1 ugcw u) m = forM cs' (call_corner_bc_2d lo hi dx dgcw d0 d1 ugcw u) m.
Proof. exact @corner_bc_2d_order. Qed.
Print Assumptions C70_corner_bc_2d_order.

Theorem C70_corner_bc_2d_again : forall (S : Scalar) lo hi (dx : Z -> S) (dgcw : Z) (d0 d1 : ptr) (ugcw : Z) (u : ptr) cs (m m' : mem S),
  (forall d, 0 <= d < 2 -> lo d <= hi d) -> 1 <= ugcw -> apart u [d0; d1] -> 
  by_kind cs -> Forall (placed 2 lo hi) cs -> Forall (thick lo hi) cs -> ForallOrdPairs (separate 2 lo hi) cs ->
  forM cs (call_corner_bc_2d lo hi dx dgcw d0 d1 ugcw u) m = Some m' -> forM cs (call_corner_bc_2d lo hi dx dgcw d0 d1 ugcw u) m' = Some m'.
Proof. exact @corner_bc_2d_again. Qed.
Print Assumptions C70_corner_bc_2d_again.

Theorem C70_set_bc_3d_order : forall (S : Scalar) lo hi (dx : Z -> S) (dgcw : Z) (d0 d1 d2 : ptr) (ugcw : Z) (u : ptr) cs cs' (m : mem S),
  (forall d, 0 <= d < 3 -> lo d <= hi d) -> 1 <= ugcw -> apart u [d0; d1; d2] -> 
  by_kind cs -> Forall (placed 3 lo hi) cs -> Forall (thick lo hi) cs -> ForallOrdPairs (separate 3 lo hi) cs ->
  Permutation cs cs' -> by_kind cs' ->
  forM cs (call_set_bc_3d lo hi dx dgcw d0 d1 d2 ugcw u) m = forM cs' (call_set_bc_3d lo hi dx dgcw d0 d1 d2 ugcw u) m.
Proof. exact @set_bc_3d_order. Qed.
Print Assumptions C70_set_bc_3d_order.

Theorem C70_set_bc_3d_again : forall (S : Scalar) lo hi (dx : Z -> S) (dgcw : Z) (d0 d1 d2 : ptr) (ugcw : Z) (u : ptr) cs (m m' : mem S),
  (forall d, 0 <= d < 3 -> lo d <= hi d) -> 1 <= ugcw -> apart u [d0; d1; d2] -> 
  by_kind cs -> Forall (placed 3 lo hi) cs -> Forall (thick lo hi) cs -> ForallOrdPairs (separate 3 lo hi) cs ->
  forM cs (call_set_bc_3d lo hi dx dgcw d0 d1 d2 ugcw u) m = Some m' -> forM cs (call_set_bc_3d lo hi dx dgcw d0 d1 d2 ugcw u) m' = Some m'.
Proof. exact @set_bc_3d_again. Qed.
Print Assumptions C70_set_bc_3d_again.

Theorem C70_set_poisson_bc_3d_order : forall (S : Scalar) lo hi (dx : Z -> S) (ugcw : Z) (u : ptr) cs cs' (m : mem S),
  (forall d, 0 <= d < 3 -> lo d <= hi d) -> 1 <= ugcw -> 
  by_kind cs -> Forall (placed 3 lo hi) cs -> Forall (thick lo hi) cs -> ForallOrdPairs (separate 3 lo hi) cs ->
  Permutation cs cs' -> by_kind cs' ->
  forM cs (call_set_poisson_bc_3d lo hi dx ugcw u) m = forM cs' (call_set_poisson_bc_3d lo hi dx ugcw u) m.
Proof. exact @set_poisson_bc_3d_order. Qed.
Print Assumptions C70_set_poisson_bc_3d_order.

Theorem C70_set_poisson_bc_3d_again : forall (S : Scalar) lo hi (dx : Z -> S) (ugcw : Z) (u : ptr) cs (m m' : mem S),
  (forall d, 0 <= d < 3 -> lo d <= hi d) -> 1 <= ugcw -> 
  by_kind cs -> Forall (placed 3 lo hi) cs -> Forall (thick lo hi) cs -> ForallOrdPairs (separate 3 lo hi) cs ->
  forM cs (call_set_poisson_bc_3d lo hi dx ugcw u) m = Some m' -> forM cs (call_set_poisson_bc_3d lo hi dx ugcw u) m' = Some m'.
Proof. exact @set_poisson_bc_3d_again. Qed.
Print Assumptions C70_set_poisson_bc_3d_again.

(** The hypotheses are met by two boxes with different conditions on one face of a
    2D patch, a box on another face and two corners, taken in two orders; the calls
    succeed and change the ghost cells. *)
Example C70_2d_case : Permutation ocalls ocalls' /\ by_kind ocalls /\ by_kind ocalls' /\
  Forall (placed 2 olo ohi) ocalls /\ Forall (thick olo ohi) ocalls /\ ForallOrdPairs (separate 2 olo ohi) ocalls /\
  (let K := call_set_bc_2d olo ohi (fun _ => lit 1 : QcS) 0 (0%nat, 0) (1%nat, 0) 1 (2%nat, 0) in
   forM ocalls K omem <> None /\ forM ocalls K omem <> Some omem).
Proof.
  destruct ocalls_ok as (A & B & C & D & E & F). repeat (split; [assumption|]). exact ocalls_run.
Qed.

(** In 3D by two faces, an edge and a corner. *)
Example C70_3d_case : by_kind o3_calls /\ Forall (placed 3 o3 o3h) o3_calls /\ Forall (thick o3 o3h) o3_calls /\
  ForallOrdPairs (separate 3 o3 o3h) o3_calls /\
  (let K := call_set_bc_3d o3 o3h (fun _ => lit 1 : QcS) 0 (0%nat, 0) (1%nat, 0) (2%nat, 0) 1 (3%nat, 0) in
   forM o3_calls K o3_mem <> None /\ forM o3_calls K o3_mem <> Some o3_mem).
Proof.
  destruct o3_ok as (A & B & C & D). repeat (split; [assumption|]). exact o3_run.
Qed.

(** A corner before a face it uses: the result is another. *)
Theorem C70_corner_first_refuted : exists (lo hi : Z -> Z) c1 c2 (m : mem QcS),
  let K := call_set_bc_2d lo hi (fun _ => lit 1 : QcS) 0 (0%nat, 0) (1%nat, 0) 1 (2%nat, 0) in
  Forall (placed 2 lo hi) [c1; c2] /\ Forall (thick lo hi) [c1; c2] /\ ForallOrdPairs (separate 2 lo hi) [c1; c2] /\
  c_type c1 = 1 /\ c_type c2 = 2 /\
  forM [c1; c2] K m <> None /\ forM [c2; c1] K m <> None /\ forM [c1; c2] K m <> forM [c2; c1] K m.
Proof.
  exists olo, ohi, o_low_a, o_corner_a, omem. destruct swapped_ok as (A & B & C). cbv zeta.
  repeat (split; [assumption || reflexivity|]). exact swapped_case.
Qed.
Print Assumptions C70_corner_first_refuted.

(** On a patch of one cell the second order formula on a face reads the ghost cell
    of the opposite face: the order of the two matters, and so does repetition. *)
Theorem C70_thin_refuted : exists (lo hi : Z -> Z) c1 c2 (m : mem QcS),
  let K := call_set_bc_1d lo hi (fun _ => lit 1 : QcS) 0 (0%nat, 0) 1 (1%nat, 0) in
  lo 0 = hi 0 /\ Forall (placed 1 lo hi) [c1; c2] /\ ForallOrdPairs (separate 1 lo hi) [c1; c2] /\
  c_type c1 = 1 /\ c_type c2 = 1 /\
  (forM [c1; c2] K m <> None /\ forM [c2; c1] K m <> None /\ forM [c1; c2] K m <> forM [c2; c1] K m) /\
  (forM ([c1; c2] ++ [c1; c2]) K m <> None /\ forM [c1; c2] K m <> None /\ forM ([c1; c2] ++ [c1; c2]) K m <> forM [c1; c2] K m).
Proof.
  exists tlo, tlo, t_low, t_high, tmem. destruct thin_ok as (A & B). cbv zeta.
  repeat (split; [assumption || reflexivity|]). split; [exact thin_case|exact thin_again_case].
Qed.
Print Assumptions C70_thin_refuted.
