(** * Linearity, comparison and solvability of the operator (C71 - C73)

    The meaning of [applied_...], [patch], [near] and [ghost] is in SpecSolve.  The
    examples are on the arrays of LemSolveCase. *)

From Coq Require Import QArith Qcanon.
From Verif Require Import Base FortranBase SpecKernel Instances SpecSolve LemSolve LemSolveOp LemSolveMem LemSolveCase.
Import ListNotations.
Open Scope Z_scope.

(** C71: the result is linear in the grid function, and depends on it only near the patch. *)

Theorem C71_linear_v1_1d : forall (S : Scalar), field_laws S -> forall i0 i1 dx beta b0 gcw u f0 alpha agcw a rgcw res (m1 m2 m3 : mem S) (r1 w1 r2 w2 r3 w3 c v0 : Z -> S) x y,
  applied_v1_1d i0 i1 dx beta b0 gcw u f0 alpha agcw a rgcw res m1 r1 w1 c v0 ->
  applied_v1_1d i0 i1 dx beta b0 gcw u f0 alpha agcw a rgcw res m2 r2 w2 c v0 ->
  applied_v1_1d i0 i1 dx beta b0 gcw u f0 alpha agcw a rgcw res m3 r3 w3 c v0 ->
  (forall i, near1 i0 i1 i -> w3 i = (x * w1 i + y * w2 i)%T) ->
  forall i, patch1 i0 i1 i -> r3 i = (x * r1 i + y * r2 i)%T.
Proof. exact @linear_v1_1d. Qed.
Print Assumptions C71_linear_v1_1d.

Example C71_linear_v1_1d_example :
  applied_v1_1d (S := QcS) 0 1 ex_h (ex_q 2) (0%nat, 0) 1 (4%nat, 0) (5%nat, 0) (ex_q 3) 0 (3%nat, 0) 0 (8%nat, 0) (ex_so 4 ex_any) (r_v1_1d ex_any) (w_v1_1d ex_any) c_v1_1d v0_v1_1d /\
  applied_v1_1d (S := QcS) 0 1 ex_h (ex_q 2) (0%nat, 0) 1 (4%nat, 0) (5%nat, 0) (ex_q 3) 0 (3%nat, 0) 0 (8%nat, 0) (ex_so 4 ex_bump) (r_v1_1d ex_bump) (w_v1_1d ex_bump) c_v1_1d v0_v1_1d /\
  applied_v1_1d (S := QcS) 0 1 ex_h (ex_q 2) (0%nat, 0) 1 (4%nat, 0) (5%nat, 0) (ex_q 3) 0 (3%nat, 0) 0 (8%nat, 0) (ex_so 4 ex_sum) (r_v1_1d ex_sum) (w_v1_1d ex_sum) c_v1_1d v0_v1_1d /\
  (forall i, near1 0 1 i -> w_v1_1d ex_sum i = (ex_q 1 * w_v1_1d ex_any i + ex_q 1 * w_v1_1d ex_bump i)%Qc).
Proof.
  split; [exact ex_any_v1_1d|].
  split; [exact ex_bump_v1_1d|].
  split; [exact ex_sum_v1_1d|].
  exact sum_v1_1d.
Qed.

Theorem C71_linear_v2_1d : forall (S : Scalar), field_laws S -> forall i0 i1 dx beta b0 gcw u f0 alpha rgcw res (m1 m2 m3 : mem S) (r1 w1 r2 w2 r3 w3 v0 : Z -> S) x y,
  applied_v2_1d i0 i1 dx beta b0 gcw u f0 alpha rgcw res m1 r1 w1 v0 ->
  applied_v2_1d i0 i1 dx beta b0 gcw u f0 alpha rgcw res m2 r2 w2 v0 ->
  applied_v2_1d i0 i1 dx beta b0 gcw u f0 alpha rgcw res m3 r3 w3 v0 ->
  (forall i, near1 i0 i1 i -> w3 i = (x * w1 i + y * w2 i)%T) ->
  forall i, patch1 i0 i1 i -> r3 i = (x * r1 i + y * r2 i)%T.
Proof. exact @linear_v2_1d. Qed.
Print Assumptions C71_linear_v2_1d.

Example C71_linear_v2_1d_example :
  applied_v2_1d (S := QcS) 0 1 ex_h (ex_q 2) (0%nat, 0) 1 (4%nat, 0) (5%nat, 0) (ex_q 3) 0 (8%nat, 0) (ex_so 4 ex_any) (r_v2_1d ex_any) (w_v2_1d ex_any) v0_v2_1d /\
  applied_v2_1d (S := QcS) 0 1 ex_h (ex_q 2) (0%nat, 0) 1 (4%nat, 0) (5%nat, 0) (ex_q 3) 0 (8%nat, 0) (ex_so 4 ex_bump) (r_v2_1d ex_bump) (w_v2_1d ex_bump) v0_v2_1d /\
  applied_v2_1d (S := QcS) 0 1 ex_h (ex_q 2) (0%nat, 0) 1 (4%nat, 0) (5%nat, 0) (ex_q 3) 0 (8%nat, 0) (ex_so 4 ex_sum) (r_v2_1d ex_sum) (w_v2_1d ex_sum) v0_v2_1d /\
  (forall i, near1 0 1 i -> w_v2_1d ex_sum i = (ex_q 1 * w_v2_1d ex_any i + ex_q 1 * w_v2_1d ex_bump i)%Qc).
Proof.
  split; [exact ex_any_v2_1d|].
  split; [exact ex_bump_v2_1d|].
  split; [exact ex_sum_v2_1d|].
  exact sum_v2_1d.
Qed.

Theorem C71_linear_poisson_1d : forall (S : Scalar), field_laws S -> forall i0 i1 dx beta gcw u f0 rgcw res (m1 m2 m3 : mem S) (r1 w1 r2 w2 r3 w3 : Z -> S) x y,
  applied_poisson_1d i0 i1 dx beta gcw u f0 rgcw res m1 r1 w1 ->
  applied_poisson_1d i0 i1 dx beta gcw u f0 rgcw res m2 r2 w2 ->
  applied_poisson_1d i0 i1 dx beta gcw u f0 rgcw res m3 r3 w3 ->
  (forall i, near1 i0 i1 i -> w3 i = (x * w1 i + y * w2 i)%T) ->
  forall i, patch1 i0 i1 i -> r3 i = (x * r1 i + y * r2 i)%T.
Proof. exact @linear_poisson_1d. Qed.
Print Assumptions C71_linear_poisson_1d.

Example C71_linear_poisson_1d_example :
  applied_poisson_1d (S := QcS) 0 1 ex_h (ex_q 2) 1 (4%nat, 0) (5%nat, 0) 0 (8%nat, 0) (ex_so 4 ex_any) (r_poisson_1d ex_any) (w_poisson_1d ex_any)  /\
  applied_poisson_1d (S := QcS) 0 1 ex_h (ex_q 2) 1 (4%nat, 0) (5%nat, 0) 0 (8%nat, 0) (ex_so 4 ex_bump) (r_poisson_1d ex_bump) (w_poisson_1d ex_bump)  /\
  applied_poisson_1d (S := QcS) 0 1 ex_h (ex_q 2) 1 (4%nat, 0) (5%nat, 0) 0 (8%nat, 0) (ex_so 4 ex_sum) (r_poisson_1d ex_sum) (w_poisson_1d ex_sum)  /\
  (forall i, near1 0 1 i -> w_poisson_1d ex_sum i = (ex_q 1 * w_poisson_1d ex_any i + ex_q 1 * w_poisson_1d ex_bump i)%Qc).
Proof.
  split; [exact ex_any_poisson_1d|].
  split; [exact ex_bump_poisson_1d|].
  split; [exact ex_sum_poisson_1d|].
  exact sum_poisson_1d.
Qed.

Theorem C71_linear_v1_2d : forall (S : Scalar), field_laws S -> forall i0 j0 i1 j1 dx beta b0 b1 gcw u f0 f1 alpha agcw a rgcw res (m1 m2 m3 : mem S) (r1 w1 r2 w2 r3 w3 c v0 v1 : Z -> Z -> S) x y,
  applied_v1_2d i0 j0 i1 j1 dx beta b0 b1 gcw u f0 f1 alpha agcw a rgcw res m1 r1 w1 c v0 v1 ->
  applied_v1_2d i0 j0 i1 j1 dx beta b0 b1 gcw u f0 f1 alpha agcw a rgcw res m2 r2 w2 c v0 v1 ->
  applied_v1_2d i0 j0 i1 j1 dx beta b0 b1 gcw u f0 f1 alpha agcw a rgcw res m3 r3 w3 c v0 v1 ->
  (forall i j, near2 i0 j0 i1 j1 i j -> w3 i j = (x * w1 i j + y * w2 i j)%T) ->
  forall i j, patch2 i0 j0 i1 j1 i j -> r3 i j = (x * r1 i j + y * r2 i j)%T.
Proof. exact @linear_v1_2d. Qed.
Print Assumptions C71_linear_v1_2d.

Example C71_linear_v1_2d_example :
  applied_v1_2d (S := QcS) 0 0 1 1 ex_h (ex_q 2) (0%nat, 0) (1%nat, 0) 1 (4%nat, 0) (5%nat, 0) (6%nat, 0) (ex_q 3) 0 (3%nat, 0) 0 (8%nat, 0) (ex_so 16 ex_any) (r_v1_2d ex_any) (w_v1_2d ex_any) c_v1_2d v0_v1_2d v1_v1_2d /\
  applied_v1_2d (S := QcS) 0 0 1 1 ex_h (ex_q 2) (0%nat, 0) (1%nat, 0) 1 (4%nat, 0) (5%nat, 0) (6%nat, 0) (ex_q 3) 0 (3%nat, 0) 0 (8%nat, 0) (ex_so 16 ex_bump) (r_v1_2d ex_bump) (w_v1_2d ex_bump) c_v1_2d v0_v1_2d v1_v1_2d /\
  applied_v1_2d (S := QcS) 0 0 1 1 ex_h (ex_q 2) (0%nat, 0) (1%nat, 0) 1 (4%nat, 0) (5%nat, 0) (6%nat, 0) (ex_q 3) 0 (3%nat, 0) 0 (8%nat, 0) (ex_so 16 ex_sum) (r_v1_2d ex_sum) (w_v1_2d ex_sum) c_v1_2d v0_v1_2d v1_v1_2d /\
  (forall i j, near2 0 0 1 1 i j -> w_v1_2d ex_sum i j = (ex_q 1 * w_v1_2d ex_any i j + ex_q 1 * w_v1_2d ex_bump i j)%Qc).
Proof.
  split; [exact ex_any_v1_2d|].
  split; [exact ex_bump_v1_2d|].
  split; [exact ex_sum_v1_2d|].
  exact sum_v1_2d.
Qed.

Theorem C71_linear_v2_2d : forall (S : Scalar), field_laws S -> forall i0 j0 i1 j1 dx beta b0 b1 gcw u f0 f1 alpha rgcw res (m1 m2 m3 : mem S) (r1 w1 r2 w2 r3 w3 v0 v1 : Z -> Z -> S) x y,
  applied_v2_2d i0 j0 i1 j1 dx beta b0 b1 gcw u f0 f1 alpha rgcw res m1 r1 w1 v0 v1 ->
  applied_v2_2d i0 j0 i1 j1 dx beta b0 b1 gcw u f0 f1 alpha rgcw res m2 r2 w2 v0 v1 ->
  applied_v2_2d i0 j0 i1 j1 dx beta b0 b1 gcw u f0 f1 alpha rgcw res m3 r3 w3 v0 v1 ->
  (forall i j, near2 i0 j0 i1 j1 i j -> w3 i j = (x * w1 i j + y * w2 i j)%T) ->
  forall i j, patch2 i0 j0 i1 j1 i j -> r3 i j = (x * r1 i j + y * r2 i j)%T.
Proof. exact @linear_v2_2d. Qed.
Print Assumptions C71_linear_v2_2d.

Example C71_linear_v2_2d_example :
  applied_v2_2d (S := QcS) 0 0 1 1 ex_h (ex_q 2) (0%nat, 0) (1%nat, 0) 1 (4%nat, 0) (5%nat, 0) (6%nat, 0) (ex_q 3) 0 (8%nat, 0) (ex_so 16 ex_any) (r_v2_2d ex_any) (w_v2_2d ex_any) v0_v2_2d v1_v2_2d /\
  applied_v2_2d (S := QcS) 0 0 1 1 ex_h (ex_q 2) (0%nat, 0) (1%nat, 0) 1 (4%nat, 0) (5%nat, 0) (6%nat, 0) (ex_q 3) 0 (8%nat, 0) (ex_so 16 ex_bump) (r_v2_2d ex_bump) (w_v2_2d ex_bump) v0_v2_2d v1_v2_2d /\
  applied_v2_2d (S := QcS) 0 0 1 1 ex_h (ex_q 2) (0%nat, 0) (1%nat, 0) 1 (4%nat, 0) (5%nat, 0) (6%nat, 0) (ex_q 3) 0 (8%nat, 0) (ex_so 16 ex_sum) (r_v2_2d ex_sum) (w_v2_2d ex_sum) v0_v2_2d v1_v2_2d /\
  (forall i j, near2 0 0 1 1 i j -> w_v2_2d ex_sum i j = (ex_q 1 * w_v2_2d ex_any i j + ex_q 1 * w_v2_2d ex_bump i j)%Qc).
Proof.
  split; [exact ex_any_v2_2d|].
  split; [exact ex_bump_v2_2d|].
  split; [exact ex_sum_v2_2d|].
  exact sum_v2_2d.
Qed.

Theorem C71_linear_poisson_2d : forall (S : Scalar), field_laws S -> forall i0 j0 i1 j1 dx beta gcw u f0 f1 rgcw res (m1 m2 m3 : mem S) (r1 w1 r2 w2 r3 w3 : Z -> Z -> S) x y,
  applied_poisson_2d i0 j0 i1 j1 dx beta gcw u f0 f1 rgcw res m1 r1 w1 ->
  applied_poisson_2d i0 j0 i1 j1 dx beta gcw u f0 f1 rgcw res m2 r2 w2 ->
  applied_poisson_2d i0 j0 i1 j1 dx beta gcw u f0 f1 rgcw res m3 r3 w3 ->
  (forall i j, near2 i0 j0 i1 j1 i j -> w3 i j = (x * w1 i j + y * w2 i j)%T) ->
  forall i j, patch2 i0 j0 i1 j1 i j -> r3 i j = (x * r1 i j + y * r2 i j)%T.
Proof. exact @linear_poisson_2d. Qed.
Print Assumptions C71_linear_poisson_2d.

Example C71_linear_poisson_2d_example :
  applied_poisson_2d (S := QcS) 0 0 1 1 ex_h (ex_q 2) 1 (4%nat, 0) (5%nat, 0) (6%nat, 0) 0 (8%nat, 0) (ex_so 16 ex_any) (r_poisson_2d ex_any) (w_poisson_2d ex_any)  /\
  applied_poisson_2d (S := QcS) 0 0 1 1 ex_h (ex_q 2) 1 (4%nat, 0) (5%nat, 0) (6%nat, 0) 0 (8%nat, 0) (ex_so 16 ex_bump) (r_poisson_2d ex_bump) (w_poisson_2d ex_bump)  /\
  applied_poisson_2d (S := QcS) 0 0 1 1 ex_h (ex_q 2) 1 (4%nat, 0) (5%nat, 0) (6%nat, 0) 0 (8%nat, 0) (ex_so 16 ex_sum) (r_poisson_2d ex_sum) (w_poisson_2d ex_sum)  /\
  (forall i j, near2 0 0 1 1 i j -> w_poisson_2d ex_sum i j = (ex_q 1 * w_poisson_2d ex_any i j + ex_q 1 * w_poisson_2d ex_bump i j)%Qc).
Proof.
  split; [exact ex_any_poisson_2d|].
  split; [exact ex_bump_poisson_2d|].
  split; [exact ex_sum_poisson_2d|].
  exact sum_poisson_2d.
Qed.

Theorem C71_linear_v1_3d : forall (S : Scalar), field_laws S -> forall i0 j0 k0 i1 j1 k1 dx beta b0 b1 b2 gcw u f0 f1 f2 alpha agcw a rgcw res (m1 m2 m3 : mem S) (r1 w1 r2 w2 r3 w3 c v0 v1 v2 : Z -> Z -> Z -> S) x y,
  applied_v1_3d i0 j0 k0 i1 j1 k1 dx beta b0 b1 b2 gcw u f0 f1 f2 alpha agcw a rgcw res m1 r1 w1 c v0 v1 v2 ->
  applied_v1_3d i0 j0 k0 i1 j1 k1 dx beta b0 b1 b2 gcw u f0 f1 f2 alpha agcw a rgcw res m2 r2 w2 c v0 v1 v2 ->
  applied_v1_3d i0 j0 k0 i1 j1 k1 dx beta b0 b1 b2 gcw u f0 f1 f2 alpha agcw a rgcw res m3 r3 w3 c v0 v1 v2 ->
  (forall i j k, near3 i0 j0 k0 i1 j1 k1 i j k -> w3 i j k = (x * w1 i j k + y * w2 i j k)%T) ->
  forall i j k, patch3 i0 j0 k0 i1 j1 k1 i j k -> r3 i j k = (x * r1 i j k + y * r2 i j k)%T.
Proof. exact @linear_v1_3d. Qed.
Print Assumptions C71_linear_v1_3d.

Example C71_linear_v1_3d_example :
  applied_v1_3d (S := QcS) 0 0 0 1 1 0 ex_h (ex_q 2) (0%nat, 0) (1%nat, 0) (2%nat, 0) 1 (4%nat, 0) (5%nat, 0) (6%nat, 0) (7%nat, 0) (ex_q 3) 0 (3%nat, 0) 0 (8%nat, 0) (ex_so 48 ex_any) (r_v1_3d ex_any) (w_v1_3d ex_any) c_v1_3d v0_v1_3d v1_v1_3d v2_v1_3d /\
  applied_v1_3d (S := QcS) 0 0 0 1 1 0 ex_h (ex_q 2) (0%nat, 0) (1%nat, 0) (2%nat, 0) 1 (4%nat, 0) (5%nat, 0) (6%nat, 0) (7%nat, 0) (ex_q 3) 0 (3%nat, 0) 0 (8%nat, 0) (ex_so 48 ex_bump) (r_v1_3d ex_bump) (w_v1_3d ex_bump) c_v1_3d v0_v1_3d v1_v1_3d v2_v1_3d /\
  applied_v1_3d (S := QcS) 0 0 0 1 1 0 ex_h (ex_q 2) (0%nat, 0) (1%nat, 0) (2%nat, 0) 1 (4%nat, 0) (5%nat, 0) (6%nat, 0) (7%nat, 0) (ex_q 3) 0 (3%nat, 0) 0 (8%nat, 0) (ex_so 48 ex_sum) (r_v1_3d ex_sum) (w_v1_3d ex_sum) c_v1_3d v0_v1_3d v1_v1_3d v2_v1_3d /\
  (forall i j k, near3 0 0 0 1 1 0 i j k -> w_v1_3d ex_sum i j k = (ex_q 1 * w_v1_3d ex_any i j k + ex_q 1 * w_v1_3d ex_bump i j k)%Qc).
Proof.
  split; [exact ex_any_v1_3d|].
  split; [exact ex_bump_v1_3d|].
  split; [exact ex_sum_v1_3d|].
  exact sum_v1_3d.
Qed.

Theorem C71_linear_v2_3d : forall (S : Scalar), field_laws S -> forall i0 j0 k0 i1 j1 k1 dx beta b0 b1 b2 gcw u f0 f1 f2 alpha rgcw res (m1 m2 m3 : mem S) (r1 w1 r2 w2 r3 w3 v0 v1 v2 : Z -> Z -> Z -> S) x y,
  applied_v2_3d i0 j0 k0 i1 j1 k1 dx beta b0 b1 b2 gcw u f0 f1 f2 alpha rgcw res m1 r1 w1 v0 v1 v2 ->
  applied_v2_3d i0 j0 k0 i1 j1 k1 dx beta b0 b1 b2 gcw u f0 f1 f2 alpha rgcw res m2 r2 w2 v0 v1 v2 ->
  applied_v2_3d i0 j0 k0 i1 j1 k1 dx beta b0 b1 b2 gcw u f0 f1 f2 alpha rgcw res m3 r3 w3 v0 v1 v2 ->
  (forall i j k, near3 i0 j0 k0 i1 j1 k1 i j k -> w3 i j k = (x * w1 i j k + y * w2 i j k)%T) ->
  forall i j k, patch3 i0 j0 k0 i1 j1 k1 i j k -> r3 i j k = (x * r1 i j k + y * r2 i j k)%T.
Proof. exact @linear_v2_3d. Qed.
Print Assumptions C71_linear_v2_3d.

Example C71_linear_v2_3d_example :
  applied_v2_3d (S := QcS) 0 0 0 1 1 0 ex_h (ex_q 2) (0%nat, 0) (1%nat, 0) (2%nat, 0) 1 (4%nat, 0) (5%nat, 0) (6%nat, 0) (7%nat, 0) (ex_q 3) 0 (8%nat, 0) (ex_so 48 ex_any) (r_v2_3d ex_any) (w_v2_3d ex_any) v0_v2_3d v1_v2_3d v2_v2_3d /\
  applied_v2_3d (S := QcS) 0 0 0 1 1 0 ex_h (ex_q 2) (0%nat, 0) (1%nat, 0) (2%nat, 0) 1 (4%nat, 0) (5%nat, 0) (6%nat, 0) (7%nat, 0) (ex_q 3) 0 (8%nat, 0) (ex_so 48 ex_bump) (r_v2_3d ex_bump) (w_v2_3d ex_bump) v0_v2_3d v1_v2_3d v2_v2_3d /\
  applied_v2_3d (S := QcS) 0 0 0 1 1 0 ex_h (ex_q 2) (0%nat, 0) (1%nat, 0) (2%nat, 0) 1 (4%nat, 0) (5%nat, 0) (6%nat, 0) (7%nat, 0) (ex_q 3) 0 (8%nat, 0) (ex_so 48 ex_sum) (r_v2_3d ex_sum) (w_v2_3d ex_sum) v0_v2_3d v1_v2_3d v2_v2_3d /\
  (forall i j k, near3 0 0 0 1 1 0 i j k -> w_v2_3d ex_sum i j k = (ex_q 1 * w_v2_3d ex_any i j k + ex_q 1 * w_v2_3d ex_bump i j k)%Qc).
Proof.
  split; [exact ex_any_v2_3d|].
  split; [exact ex_bump_v2_3d|].
  split; [exact ex_sum_v2_3d|].
  exact sum_v2_3d.
Qed.

Theorem C71_linear_poisson_3d : forall (S : Scalar), field_laws S -> forall i0 j0 k0 i1 j1 k1 dx beta gcw u f0 f1 f2 rgcw res (m1 m2 m3 : mem S) (r1 w1 r2 w2 r3 w3 : Z -> Z -> Z -> S) x y,
  applied_poisson_3d i0 j0 k0 i1 j1 k1 dx beta gcw u f0 f1 f2 rgcw res m1 r1 w1 ->
  applied_poisson_3d i0 j0 k0 i1 j1 k1 dx beta gcw u f0 f1 f2 rgcw res m2 r2 w2 ->
  applied_poisson_3d i0 j0 k0 i1 j1 k1 dx beta gcw u f0 f1 f2 rgcw res m3 r3 w3 ->
  (forall i j k, near3 i0 j0 k0 i1 j1 k1 i j k -> w3 i j k = (x * w1 i j k + y * w2 i j k)%T) ->
  forall i j k, patch3 i0 j0 k0 i1 j1 k1 i j k -> r3 i j k = (x * r1 i j k + y * r2 i j k)%T.
Proof. exact @linear_poisson_3d. Qed.
Print Assumptions C71_linear_poisson_3d.

Example C71_linear_poisson_3d_example :
  applied_poisson_3d (S := QcS) 0 0 0 1 1 0 ex_h (ex_q 2) 1 (4%nat, 0) (5%nat, 0) (6%nat, 0) (7%nat, 0) 0 (8%nat, 0) (ex_so 48 ex_any) (r_poisson_3d ex_any) (w_poisson_3d ex_any)  /\
  applied_poisson_3d (S := QcS) 0 0 0 1 1 0 ex_h (ex_q 2) 1 (4%nat, 0) (5%nat, 0) (6%nat, 0) (7%nat, 0) 0 (8%nat, 0) (ex_so 48 ex_bump) (r_poisson_3d ex_bump) (w_poisson_3d ex_bump)  /\
  applied_poisson_3d (S := QcS) 0 0 0 1 1 0 ex_h (ex_q 2) 1 (4%nat, 0) (5%nat, 0) (6%nat, 0) (7%nat, 0) 0 (8%nat, 0) (ex_so 48 ex_sum) (r_poisson_3d ex_sum) (w_poisson_3d ex_sum)  /\
  (forall i j k, near3 0 0 0 1 1 0 i j k -> w_poisson_3d ex_sum i j k = (ex_q 1 * w_poisson_3d ex_any i j k + ex_q 1 * w_poisson_3d ex_bump i j k)%Qc).
Proof.
  split; [exact ex_any_poisson_3d|].
  split; [exact ex_bump_poisson_3d|].
  split; [exact ex_sum_poisson_3d|].
  exact sum_poisson_3d.
Qed.

(** C72: larger data, larger solution. *)

Theorem C72_compare_v1_1d : forall i0 i1 (dx : Z -> Qc) (beta : Qc) b0 gcw u f0 (alpha : Qc) agcw a rgcw res (m n : mem QcS) (r w s z c v0 : Z -> Qc),
  applied_v1_1d (S := QcS) i0 i1 dx beta b0 gcw u f0 alpha agcw a rgcw res m r w c v0 ->
  applied_v1_1d (S := QcS) i0 i1 dx beta b0 gcw u f0 alpha agcw a rgcw res n s z c v0 ->
  (0 < beta)%Qc ->
  dx 0%Z <> 0%Qc ->
  (0 <= alpha)%Qc ->
  (forall i, patch1 i0 i1 i -> (0 <= c i)%Qc) ->
  (forall i, i0 <= i <= i1 + 1 -> (0 < v0 i)%Qc) ->
  (forall i, patch1 i0 i1 i -> (r i <= s i)%Qc) ->
  (forall i, ghost1 i0 i1 i -> (w i <= z i)%Qc) ->
  forall i, patch1 i0 i1 i -> (w i <= z i)%Qc.
Proof. exact @compare_v1_1d. Qed.
Print Assumptions C72_compare_v1_1d.

Example C72_compare_v1_1d_example :
  applied_v1_1d (S := QcS) 0 1 ex_h (ex_q 2) (0%nat, 0) 1 (4%nat, 0) (5%nat, 0) (ex_q 3) 0 (3%nat, 0) 0 (8%nat, 0) (ex_so 4 ex_any) (r_v1_1d ex_any) (w_v1_1d ex_any) c_v1_1d v0_v1_1d /\
  applied_v1_1d (S := QcS) 0 1 ex_h (ex_q 2) (0%nat, 0) 1 (4%nat, 0) (5%nat, 0) (ex_q 3) 0 (3%nat, 0) 0 (8%nat, 0) (ex_so 4 ex_sum) (r_v1_1d ex_sum) (w_v1_1d ex_sum) c_v1_1d v0_v1_1d /\
  (0 < (ex_q 2))%Qc /\
  ex_h 0%Z <> 0%Qc /\
  (0 <= (ex_q 3))%Qc /\
  (forall i, patch1 0 1 i -> (0 <= c_v1_1d i)%Qc) /\
  (forall i, 0 <= i <= 1 + 1 -> (0 < v0_v1_1d i)%Qc) /\
  (forall i, patch1 0 1 i -> (r_v1_1d ex_any i <= r_v1_1d ex_sum i)%Qc) /\
  (forall i, ghost1 0 1 i -> (w_v1_1d ex_any i <= w_v1_1d ex_sum i)%Qc).
Proof.
  split; [exact ex_any_v1_1d|].
  split; [exact ex_sum_v1_1d|].
  split; [now apply lt|].
  split; [discriminate|].
  split; [now apply le|].
  split; [exact cpos_v1_1d|].
  split; [exact v0pos_v1_1d|].
  split; [exact more_v1_1d|].
  exact higher_v1_1d.
Qed.

Theorem C72_compare_v2_1d : forall i0 i1 (dx : Z -> Qc) (beta : Qc) b0 gcw u f0 (alpha : Qc) rgcw res (m n : mem QcS) (r w s z v0 : Z -> Qc),
  applied_v2_1d (S := QcS) i0 i1 dx beta b0 gcw u f0 alpha rgcw res m r w v0 ->
  applied_v2_1d (S := QcS) i0 i1 dx beta b0 gcw u f0 alpha rgcw res n s z v0 ->
  (0 < beta)%Qc ->
  dx 0%Z <> 0%Qc ->
  (0 <= alpha)%Qc ->
  (forall i, i0 <= i <= i1 + 1 -> (0 < v0 i)%Qc) ->
  (forall i, patch1 i0 i1 i -> (r i <= s i)%Qc) ->
  (forall i, ghost1 i0 i1 i -> (w i <= z i)%Qc) ->
  forall i, patch1 i0 i1 i -> (w i <= z i)%Qc.
Proof. exact @compare_v2_1d. Qed.
Print Assumptions C72_compare_v2_1d.

Example C72_compare_v2_1d_example :
  applied_v2_1d (S := QcS) 0 1 ex_h (ex_q 2) (0%nat, 0) 1 (4%nat, 0) (5%nat, 0) (ex_q 3) 0 (8%nat, 0) (ex_so 4 ex_any) (r_v2_1d ex_any) (w_v2_1d ex_any) v0_v2_1d /\
  applied_v2_1d (S := QcS) 0 1 ex_h (ex_q 2) (0%nat, 0) 1 (4%nat, 0) (5%nat, 0) (ex_q 3) 0 (8%nat, 0) (ex_so 4 ex_sum) (r_v2_1d ex_sum) (w_v2_1d ex_sum) v0_v2_1d /\
  (0 < (ex_q 2))%Qc /\
  ex_h 0%Z <> 0%Qc /\
  (0 <= (ex_q 3))%Qc /\
  (forall i, 0 <= i <= 1 + 1 -> (0 < v0_v2_1d i)%Qc) /\
  (forall i, patch1 0 1 i -> (r_v2_1d ex_any i <= r_v2_1d ex_sum i)%Qc) /\
  (forall i, ghost1 0 1 i -> (w_v2_1d ex_any i <= w_v2_1d ex_sum i)%Qc).
Proof.
  split; [exact ex_any_v2_1d|].
  split; [exact ex_sum_v2_1d|].
  split; [now apply lt|].
  split; [discriminate|].
  split; [now apply le|].
  split; [exact v0pos_v2_1d|].
  split; [exact more_v2_1d|].
  exact higher_v2_1d.
Qed.

Theorem C72_compare_poisson_1d : forall i0 i1 (dx : Z -> Qc) (beta : Qc) gcw u f0 rgcw res (m n : mem QcS) (r w s z : Z -> Qc),
  applied_poisson_1d (S := QcS) i0 i1 dx beta gcw u f0 rgcw res m r w ->
  applied_poisson_1d (S := QcS) i0 i1 dx beta gcw u f0 rgcw res n s z ->
  (0 < beta)%Qc ->
  dx 0%Z <> 0%Qc ->
  (forall i, patch1 i0 i1 i -> (r i <= s i)%Qc) ->
  (forall i, ghost1 i0 i1 i -> (w i <= z i)%Qc) ->
  forall i, patch1 i0 i1 i -> (w i <= z i)%Qc.
Proof. exact @compare_poisson_1d. Qed.
Print Assumptions C72_compare_poisson_1d.

Example C72_compare_poisson_1d_example :
  applied_poisson_1d (S := QcS) 0 1 ex_h (ex_q 2) 1 (4%nat, 0) (5%nat, 0) 0 (8%nat, 0) (ex_so 4 ex_any) (r_poisson_1d ex_any) (w_poisson_1d ex_any)  /\
  applied_poisson_1d (S := QcS) 0 1 ex_h (ex_q 2) 1 (4%nat, 0) (5%nat, 0) 0 (8%nat, 0) (ex_so 4 ex_sum) (r_poisson_1d ex_sum) (w_poisson_1d ex_sum)  /\
  (0 < (ex_q 2))%Qc /\
  ex_h 0%Z <> 0%Qc /\
  (forall i, patch1 0 1 i -> (r_poisson_1d ex_any i <= r_poisson_1d ex_sum i)%Qc) /\
  (forall i, ghost1 0 1 i -> (w_poisson_1d ex_any i <= w_poisson_1d ex_sum i)%Qc).
Proof.
  split; [exact ex_any_poisson_1d|].
  split; [exact ex_sum_poisson_1d|].
  split; [now apply lt|].
  split; [discriminate|].
  split; [exact more_poisson_1d|].
  exact higher_poisson_1d.
Qed.

Theorem C72_compare_v1_2d : forall i0 j0 i1 j1 (dx : Z -> Qc) (beta : Qc) b0 b1 gcw u f0 f1 (alpha : Qc) agcw a rgcw res (m n : mem QcS) (r w s z c v0 v1 : Z -> Z -> Qc),
  applied_v1_2d (S := QcS) i0 j0 i1 j1 dx beta b0 b1 gcw u f0 f1 alpha agcw a rgcw res m r w c v0 v1 ->
  applied_v1_2d (S := QcS) i0 j0 i1 j1 dx beta b0 b1 gcw u f0 f1 alpha agcw a rgcw res n s z c v0 v1 ->
  (0 < beta)%Qc ->
  dx 0%Z <> 0%Qc ->
  (0 <= alpha)%Qc ->
  (forall i j, patch2 i0 j0 i1 j1 i j -> (0 <= c i j)%Qc) ->
  (forall i j, i0 <= i <= i1 + 1 -> j0 <= j <= j1 -> (0 < v0 i j)%Qc) ->
  (forall i j, i0 <= i <= i1 -> j0 <= j <= j1 + 1 -> (0 <= v1 i j)%Qc) ->
  (forall i j, patch2 i0 j0 i1 j1 i j -> (r i j <= s i j)%Qc) ->
  (forall i j, ghost2 i0 j0 i1 j1 i j -> (w i j <= z i j)%Qc) ->
  forall i j, patch2 i0 j0 i1 j1 i j -> (w i j <= z i j)%Qc.
Proof. exact @compare_v1_2d. Qed.
Print Assumptions C72_compare_v1_2d.

Example C72_compare_v1_2d_example :
  applied_v1_2d (S := QcS) 0 0 1 1 ex_h (ex_q 2) (0%nat, 0) (1%nat, 0) 1 (4%nat, 0) (5%nat, 0) (6%nat, 0) (ex_q 3) 0 (3%nat, 0) 0 (8%nat, 0) (ex_so 16 ex_any) (r_v1_2d ex_any) (w_v1_2d ex_any) c_v1_2d v0_v1_2d v1_v1_2d /\
  applied_v1_2d (S := QcS) 0 0 1 1 ex_h (ex_q 2) (0%nat, 0) (1%nat, 0) 1 (4%nat, 0) (5%nat, 0) (6%nat, 0) (ex_q 3) 0 (3%nat, 0) 0 (8%nat, 0) (ex_so 16 ex_sum) (r_v1_2d ex_sum) (w_v1_2d ex_sum) c_v1_2d v0_v1_2d v1_v1_2d /\
  (0 < (ex_q 2))%Qc /\
  ex_h 0%Z <> 0%Qc /\
  (0 <= (ex_q 3))%Qc /\
  (forall i j, patch2 0 0 1 1 i j -> (0 <= c_v1_2d i j)%Qc) /\
  (forall i j, 0 <= i <= 1 + 1 -> 0 <= j <= 1 -> (0 < v0_v1_2d i j)%Qc) /\
  (forall i j, 0 <= i <= 1 -> 0 <= j <= 1 + 1 -> (0 <= v1_v1_2d i j)%Qc) /\
  (forall i j, patch2 0 0 1 1 i j -> (r_v1_2d ex_any i j <= r_v1_2d ex_sum i j)%Qc) /\
  (forall i j, ghost2 0 0 1 1 i j -> (w_v1_2d ex_any i j <= w_v1_2d ex_sum i j)%Qc).
Proof.
  split; [exact ex_any_v1_2d|].
  split; [exact ex_sum_v1_2d|].
  split; [now apply lt|].
  split; [discriminate|].
  split; [now apply le|].
  split; [exact cpos_v1_2d|].
  split; [exact v0pos_v1_2d|].
  split; [exact v1pos_v1_2d|].
  split; [exact more_v1_2d|].
  exact higher_v1_2d.
Qed.

Theorem C72_compare_v2_2d : forall i0 j0 i1 j1 (dx : Z -> Qc) (beta : Qc) b0 b1 gcw u f0 f1 (alpha : Qc) rgcw res (m n : mem QcS) (r w s z v0 v1 : Z -> Z -> Qc),
  applied_v2_2d (S := QcS) i0 j0 i1 j1 dx beta b0 b1 gcw u f0 f1 alpha rgcw res m r w v0 v1 ->
  applied_v2_2d (S := QcS) i0 j0 i1 j1 dx beta b0 b1 gcw u f0 f1 alpha rgcw res n s z v0 v1 ->
  (0 < beta)%Qc ->
  dx 0%Z <> 0%Qc ->
  (0 <= alpha)%Qc ->
  (forall i j, i0 <= i <= i1 + 1 -> j0 <= j <= j1 -> (0 < v0 i j)%Qc) ->
  (forall i j, i0 <= i <= i1 -> j0 <= j <= j1 + 1 -> (0 <= v1 i j)%Qc) ->
  (forall i j, patch2 i0 j0 i1 j1 i j -> (r i j <= s i j)%Qc) ->
  (forall i j, ghost2 i0 j0 i1 j1 i j -> (w i j <= z i j)%Qc) ->
  forall i j, patch2 i0 j0 i1 j1 i j -> (w i j <= z i j)%Qc.
Proof. exact @compare_v2_2d. Qed.
Print Assumptions C72_compare_v2_2d.

Example C72_compare_v2_2d_example :
  applied_v2_2d (S := QcS) 0 0 1 1 ex_h (ex_q 2) (0%nat, 0) (1%nat, 0) 1 (4%nat, 0) (5%nat, 0) (6%nat, 0) (ex_q 3) 0 (8%nat, 0) (ex_so 16 ex_any) (r_v2_2d ex_any) (w_v2_2d ex_any) v0_v2_2d v1_v2_2d /\
  applied_v2_2d (S := QcS) 0 0 1 1 ex_h (ex_q 2) (0%nat, 0) (1%nat, 0) 1 (4%nat, 0) (5%nat, 0) (6%nat, 0) (ex_q 3) 0 (8%nat, 0) (ex_so 16 ex_sum) (r_v2_2d ex_sum) (w_v2_2d ex_sum) v0_v2_2d v1_v2_2d /\
  (0 < (ex_q 2))%Qc /\
  ex_h 0%Z <> 0%Qc /\
  (0 <= (ex_q 3))%Qc /\
  (forall i j, 0 <= i <= 1 + 1 -> 0 <= j <= 1 -> (0 < v0_v2_2d i j)%Qc) /\
  (forall i j, 0 <= i <= 1 -> 0 <= j <= 1 + 1 -> (0 <= v1_v2_2d i j)%Qc) /\
  (forall i j, patch2 0 0 1 1 i j -> (r_v2_2d ex_any i j <= r_v2_2d ex_sum i j)%Qc) /\
  (forall i j, ghost2 0 0 1 1 i j -> (w_v2_2d ex_any i j <= w_v2_2d ex_sum i j)%Qc).
Proof.
  split; [exact ex_any_v2_2d|].
  split; [exact ex_sum_v2_2d|].
  split; [now apply lt|].
  split; [discriminate|].
  split; [now apply le|].
  split; [exact v0pos_v2_2d|].
  split; [exact v1pos_v2_2d|].
  split; [exact more_v2_2d|].
  exact higher_v2_2d.
Qed.

Theorem C72_compare_poisson_2d : forall i0 j0 i1 j1 (dx : Z -> Qc) (beta : Qc) gcw u f0 f1 rgcw res (m n : mem QcS) (r w s z : Z -> Z -> Qc),
  applied_poisson_2d (S := QcS) i0 j0 i1 j1 dx beta gcw u f0 f1 rgcw res m r w ->
  applied_poisson_2d (S := QcS) i0 j0 i1 j1 dx beta gcw u f0 f1 rgcw res n s z ->
  (0 < beta)%Qc ->
  dx 0%Z <> 0%Qc ->
  (forall i j, patch2 i0 j0 i1 j1 i j -> (r i j <= s i j)%Qc) ->
  (forall i j, ghost2 i0 j0 i1 j1 i j -> (w i j <= z i j)%Qc) ->
  forall i j, patch2 i0 j0 i1 j1 i j -> (w i j <= z i j)%Qc.
Proof. exact @compare_poisson_2d. Qed.
Print Assumptions C72_compare_poisson_2d.

Example C72_compare_poisson_2d_example :
  applied_poisson_2d (S := QcS) 0 0 1 1 ex_h (ex_q 2) 1 (4%nat, 0) (5%nat, 0) (6%nat, 0) 0 (8%nat, 0) (ex_so 16 ex_any) (r_poisson_2d ex_any) (w_poisson_2d ex_any)  /\
  applied_poisson_2d (S := QcS) 0 0 1 1 ex_h (ex_q 2) 1 (4%nat, 0) (5%nat, 0) (6%nat, 0) 0 (8%nat, 0) (ex_so 16 ex_sum) (r_poisson_2d ex_sum) (w_poisson_2d ex_sum)  /\
  (0 < (ex_q 2))%Qc /\
  ex_h 0%Z <> 0%Qc /\
  (forall i j, patch2 0 0 1 1 i j -> (r_poisson_2d ex_any i j <= r_poisson_2d ex_sum i j)%Qc) /\
  (forall i j, ghost2 0 0 1 1 i j -> (w_poisson_2d ex_any i j <= w_poisson_2d ex_sum i j)%Qc).
Proof.
  split; [exact ex_any_poisson_2d|].
  split; [exact ex_sum_poisson_2d|].
  split; [now apply lt|].
  split; [discriminate|].
  split; [exact more_poisson_2d|].
  exact higher_poisson_2d.
Qed.

Theorem C72_compare_v1_3d : forall i0 j0 k0 i1 j1 k1 (dx : Z -> Qc) (beta : Qc) b0 b1 b2 gcw u f0 f1 f2 (alpha : Qc) agcw a rgcw res (m n : mem QcS) (r w s z c v0 v1 v2 : Z -> Z -> Z -> Qc),
  applied_v1_3d (S := QcS) i0 j0 k0 i1 j1 k1 dx beta b0 b1 b2 gcw u f0 f1 f2 alpha agcw a rgcw res m r w c v0 v1 v2 ->
  applied_v1_3d (S := QcS) i0 j0 k0 i1 j1 k1 dx beta b0 b1 b2 gcw u f0 f1 f2 alpha agcw a rgcw res n s z c v0 v1 v2 ->
  (0 < beta)%Qc ->
  dx 0%Z <> 0%Qc ->
  (0 <= alpha)%Qc ->
  (forall i j k, patch3 i0 j0 k0 i1 j1 k1 i j k -> (0 <= c i j k)%Qc) ->
  (forall i j k, i0 <= i <= i1 + 1 -> j0 <= j <= j1 -> k0 <= k <= k1 -> (0 < v0 i j k)%Qc) ->
  (forall i j k, i0 <= i <= i1 -> j0 <= j <= j1 + 1 -> k0 <= k <= k1 -> (0 <= v1 i j k)%Qc) ->
  (forall i j k, i0 <= i <= i1 -> j0 <= j <= j1 -> k0 <= k <= k1 + 1 -> (0 <= v2 i j k)%Qc) ->
  (forall i j k, patch3 i0 j0 k0 i1 j1 k1 i j k -> (r i j k <= s i j k)%Qc) ->
  (forall i j k, ghost3 i0 j0 k0 i1 j1 k1 i j k -> (w i j k <= z i j k)%Qc) ->
  forall i j k, patch3 i0 j0 k0 i1 j1 k1 i j k -> (w i j k <= z i j k)%Qc.
Proof. exact @compare_v1_3d. Qed.
Print Assumptions C72_compare_v1_3d.

Example C72_compare_v1_3d_example :
  applied_v1_3d (S := QcS) 0 0 0 1 1 0 ex_h (ex_q 2) (0%nat, 0) (1%nat, 0) (2%nat, 0) 1 (4%nat, 0) (5%nat, 0) (6%nat, 0) (7%nat, 0) (ex_q 3) 0 (3%nat, 0) 0 (8%nat, 0) (ex_so 48 ex_any) (r_v1_3d ex_any) (w_v1_3d ex_any) c_v1_3d v0_v1_3d v1_v1_3d v2_v1_3d /\
  applied_v1_3d (S := QcS) 0 0 0 1 1 0 ex_h (ex_q 2) (0%nat, 0) (1%nat, 0) (2%nat, 0) 1 (4%nat, 0) (5%nat, 0) (6%nat, 0) (7%nat, 0) (ex_q 3) 0 (3%nat, 0) 0 (8%nat, 0) (ex_so 48 ex_sum) (r_v1_3d ex_sum) (w_v1_3d ex_sum) c_v1_3d v0_v1_3d v1_v1_3d v2_v1_3d /\
  (0 < (ex_q 2))%Qc /\
  ex_h 0%Z <> 0%Qc /\
  (0 <= (ex_q 3))%Qc /\
  (forall i j k, patch3 0 0 0 1 1 0 i j k -> (0 <= c_v1_3d i j k)%Qc) /\
  (forall i j k, 0 <= i <= 1 + 1 -> 0 <= j <= 1 -> 0 <= k <= 0 -> (0 < v0_v1_3d i j k)%Qc) /\
  (forall i j k, 0 <= i <= 1 -> 0 <= j <= 1 + 1 -> 0 <= k <= 0 -> (0 <= v1_v1_3d i j k)%Qc) /\
  (forall i j k, 0 <= i <= 1 -> 0 <= j <= 1 -> 0 <= k <= 0 + 1 -> (0 <= v2_v1_3d i j k)%Qc) /\
  (forall i j k, patch3 0 0 0 1 1 0 i j k -> (r_v1_3d ex_any i j k <= r_v1_3d ex_sum i j k)%Qc) /\
  (forall i j k, ghost3 0 0 0 1 1 0 i j k -> (w_v1_3d ex_any i j k <= w_v1_3d ex_sum i j k)%Qc).
Proof.
  split; [exact ex_any_v1_3d|].
  split; [exact ex_sum_v1_3d|].
  split; [now apply lt|].
  split; [discriminate|].
  split; [now apply le|].
  split; [exact cpos_v1_3d|].
  split; [exact v0pos_v1_3d|].
  split; [exact v1pos_v1_3d|].
  split; [exact v2pos_v1_3d|].
  split; [exact more_v1_3d|].
  exact higher_v1_3d.
Qed.

Theorem C72_compare_v2_3d : forall i0 j0 k0 i1 j1 k1 (dx : Z -> Qc) (beta : Qc) b0 b1 b2 gcw u f0 f1 f2 (alpha : Qc) rgcw res (m n : mem QcS) (r w s z v0 v1 v2 : Z -> Z -> Z -> Qc),
  applied_v2_3d (S := QcS) i0 j0 k0 i1 j1 k1 dx beta b0 b1 b2 gcw u f0 f1 f2 alpha rgcw res m r w v0 v1 v2 ->
  applied_v2_3d (S := QcS) i0 j0 k0 i1 j1 k1 dx beta b0 b1 b2 gcw u f0 f1 f2 alpha rgcw res n s z v0 v1 v2 ->
  (0 < beta)%Qc ->
  dx 0%Z <> 0%Qc ->
  (0 <= alpha)%Qc ->
  (forall i j k, i0 <= i <= i1 + 1 -> j0 <= j <= j1 -> k0 <= k <= k1 -> (0 < v0 i j k)%Qc) ->
  (forall i j k, i0 <= i <= i1 -> j0 <= j <= j1 + 1 -> k0 <= k <= k1 -> (0 <= v1 i j k)%Qc) ->
  (forall i j k, i0 <= i <= i1 -> j0 <= j <= j1 -> k0 <= k <= k1 + 1 -> (0 <= v2 i j k)%Qc) ->
  (forall i j k, patch3 i0 j0 k0 i1 j1 k1 i j k -> (r i j k <= s i j k)%Qc) ->
  (forall i j k, ghost3 i0 j0 k0 i1 j1 k1 i j k -> (w i j k <= z i j k)%Qc) ->
  forall i j k, patch3 i0 j0 k0 i1 j1 k1 i j k -> (w i j k <= z i j k)%Qc.
Proof. exact @compare_v2_3d. Qed.
Print Assumptions C72_compare_v2_3d.

Example C72_compare_v2_3d_example :
  applied_v2_3d (S := QcS) 0 0 0 1 1 0 ex_h (ex_q 2) (0%nat, 0) (1%nat, 0) (2%nat, 0) 1 (4%nat, 0) (5%nat, 0) (6%nat, 0) (7%nat, 0) (ex_q 3) 0 (8%nat, 0) (ex_so 48 ex_any) (r_v2_3d ex_any) (w_v2_3d ex_any) v0_v2_3d v1_v2_3d v2_v2_3d /\
  applied_v2_3d (S := QcS) 0 0 0 1 1 0 ex_h (ex_q 2) (0%nat, 0) (1%nat, 0) (2%nat, 0) 1 (4%nat, 0) (5%nat, 0) (6%nat, 0) (7%nat, 0) (ex_q 3) 0 (8%nat, 0) (ex_so 48 ex_sum) (r_v2_3d ex_sum) (w_v2_3d ex_sum) v0_v2_3d v1_v2_3d v2_v2_3d /\
  (0 < (ex_q 2))%Qc /\
  ex_h 0%Z <> 0%Qc /\
  (0 <= (ex_q 3))%Qc /\
  (forall i j k, 0 <= i <= 1 + 1 -> 0 <= j <= 1 -> 0 <= k <= 0 -> (0 < v0_v2_3d i j k)%Qc) /\
  (forall i j k, 0 <= i <= 1 -> 0 <= j <= 1 + 1 -> 0 <= k <= 0 -> (0 <= v1_v2_3d i j k)%Qc) /\
  (forall i j k, 0 <= i <= 1 -> 0 <= j <= 1 -> 0 <= k <= 0 + 1 -> (0 <= v2_v2_3d i j k)%Qc) /\
  (forall i j k, patch3 0 0 0 1 1 0 i j k -> (r_v2_3d ex_any i j k <= r_v2_3d ex_sum i j k)%Qc) /\
  (forall i j k, ghost3 0 0 0 1 1 0 i j k -> (w_v2_3d ex_any i j k <= w_v2_3d ex_sum i j k)%Qc).
Proof.
  split; [exact ex_any_v2_3d|].
  split; [exact ex_sum_v2_3d|].
  split; [now apply lt|].
  split; [discriminate|].
  split; [now apply le|].
  split; [exact v0pos_v2_3d|].
  split; [exact v1pos_v2_3d|].
  split; [exact v2pos_v2_3d|].
  split; [exact more_v2_3d|].
  exact higher_v2_3d.
Qed.

Theorem C72_compare_poisson_3d : forall i0 j0 k0 i1 j1 k1 (dx : Z -> Qc) (beta : Qc) gcw u f0 f1 f2 rgcw res (m n : mem QcS) (r w s z : Z -> Z -> Z -> Qc),
  applied_poisson_3d (S := QcS) i0 j0 k0 i1 j1 k1 dx beta gcw u f0 f1 f2 rgcw res m r w ->
  applied_poisson_3d (S := QcS) i0 j0 k0 i1 j1 k1 dx beta gcw u f0 f1 f2 rgcw res n s z ->
  (0 < beta)%Qc ->
  dx 0%Z <> 0%Qc ->
  (forall i j k, patch3 i0 j0 k0 i1 j1 k1 i j k -> (r i j k <= s i j k)%Qc) ->
  (forall i j k, ghost3 i0 j0 k0 i1 j1 k1 i j k -> (w i j k <= z i j k)%Qc) ->
  forall i j k, patch3 i0 j0 k0 i1 j1 k1 i j k -> (w i j k <= z i j k)%Qc.
Proof. exact @compare_poisson_3d. Qed.
Print Assumptions C72_compare_poisson_3d.

Example C72_compare_poisson_3d_example :
  applied_poisson_3d (S := QcS) 0 0 0 1 1 0 ex_h (ex_q 2) 1 (4%nat, 0) (5%nat, 0) (6%nat, 0) (7%nat, 0) 0 (8%nat, 0) (ex_so 48 ex_any) (r_poisson_3d ex_any) (w_poisson_3d ex_any)  /\
  applied_poisson_3d (S := QcS) 0 0 0 1 1 0 ex_h (ex_q 2) 1 (4%nat, 0) (5%nat, 0) (6%nat, 0) (7%nat, 0) 0 (8%nat, 0) (ex_so 48 ex_sum) (r_poisson_3d ex_sum) (w_poisson_3d ex_sum)  /\
  (0 < (ex_q 2))%Qc /\
  ex_h 0%Z <> 0%Qc /\
  (forall i j k, patch3 0 0 0 1 1 0 i j k -> (r_poisson_3d ex_any i j k <= r_poisson_3d ex_sum i j k)%Qc) /\
  (forall i j k, ghost3 0 0 0 1 1 0 i j k -> (w_poisson_3d ex_any i j k <= w_poisson_3d ex_sum i j k)%Qc).
Proof.
  split; [exact ex_any_poisson_3d|].
  split; [exact ex_sum_poisson_3d|].
  split; [now apply lt|].
  split; [discriminate|].
  split; [exact more_poisson_3d|].
  exact higher_poisson_3d.
Qed.

(** C72: with no source the solution is at most its boundary values. *)

Theorem C72_above_v1_1d : forall i0 i1 (dx : Z -> Qc) (beta : Qc) b0 gcw u f0 (alpha : Qc) agcw a rgcw res (m : mem QcS) (r w c v0 : Z -> Qc) (B : Qc),
  applied_v1_1d (S := QcS) i0 i1 dx beta b0 gcw u f0 alpha agcw a rgcw res m r w c v0 ->
  (0 < beta)%Qc ->
  dx 0%Z <> 0%Qc ->
  (0 <= alpha)%Qc ->
  (forall i, patch1 i0 i1 i -> (0 <= c i)%Qc) ->
  (forall i, i0 <= i <= i1 + 1 -> (0 < v0 i)%Qc) ->
  alpha = 0%Qc \/ (0 <= B)%Qc ->
  (forall i, patch1 i0 i1 i -> (r i <= 0)%Qc) ->
  (forall i, ghost1 i0 i1 i -> (w i <= B)%Qc) ->
  forall i, patch1 i0 i1 i -> (w i <= B)%Qc.
Proof. exact @above_v1_1d. Qed.
Print Assumptions C72_above_v1_1d.

Example C72_above_v1_1d_example :
  applied_v1_1d (S := QcS) 0 1 ex_h (ex_q 2) (0%nat, 0) 1 (4%nat, 0) (5%nat, 0) (ex_q 3) 0 (3%nat, 0) 0 (8%nat, 0) (ex_so 4 ex_dip) (r_v1_1d ex_dip) (w_v1_1d ex_dip) c_v1_1d v0_v1_1d /\
  (0 < (ex_q 2))%Qc /\
  ex_h 0%Z <> 0%Qc /\
  (0 <= (ex_q 3))%Qc /\
  (forall i, patch1 0 1 i -> (0 <= c_v1_1d i)%Qc) /\
  (forall i, 0 <= i <= 1 + 1 -> (0 < v0_v1_1d i)%Qc) /\
  (0 <= ex_q 5000)%Qc /\
  (forall i, patch1 0 1 i -> (r_v1_1d ex_dip i <= 0)%Qc) /\
  (forall i, ghost1 0 1 i -> (w_v1_1d ex_dip i <= ex_q 5000)%Qc).
Proof.
  split; [exact ex_dip_v1_1d|].
  split; [now apply lt|].
  split; [discriminate|].
  split; [now apply le|].
  split; [exact cpos_v1_1d|].
  split; [exact v0pos_v1_1d|].
  split; [now apply le|].
  split; [exact sink_v1_1d|].
  exact hole_v1_1d.
Qed.

Theorem C72_above_v2_1d : forall i0 i1 (dx : Z -> Qc) (beta : Qc) b0 gcw u f0 (alpha : Qc) rgcw res (m : mem QcS) (r w v0 : Z -> Qc) (B : Qc),
  applied_v2_1d (S := QcS) i0 i1 dx beta b0 gcw u f0 alpha rgcw res m r w v0 ->
  (0 < beta)%Qc ->
  dx 0%Z <> 0%Qc ->
  (0 <= alpha)%Qc ->
  (forall i, i0 <= i <= i1 + 1 -> (0 < v0 i)%Qc) ->
  alpha = 0%Qc \/ (0 <= B)%Qc ->
  (forall i, patch1 i0 i1 i -> (r i <= 0)%Qc) ->
  (forall i, ghost1 i0 i1 i -> (w i <= B)%Qc) ->
  forall i, patch1 i0 i1 i -> (w i <= B)%Qc.
Proof. exact @above_v2_1d. Qed.
Print Assumptions C72_above_v2_1d.

Example C72_above_v2_1d_example :
  applied_v2_1d (S := QcS) 0 1 ex_h (ex_q 2) (0%nat, 0) 1 (4%nat, 0) (5%nat, 0) (ex_q 3) 0 (8%nat, 0) (ex_so 4 ex_dip) (r_v2_1d ex_dip) (w_v2_1d ex_dip) v0_v2_1d /\
  (0 < (ex_q 2))%Qc /\
  ex_h 0%Z <> 0%Qc /\
  (0 <= (ex_q 3))%Qc /\
  (forall i, 0 <= i <= 1 + 1 -> (0 < v0_v2_1d i)%Qc) /\
  (0 <= ex_q 5000)%Qc /\
  (forall i, patch1 0 1 i -> (r_v2_1d ex_dip i <= 0)%Qc) /\
  (forall i, ghost1 0 1 i -> (w_v2_1d ex_dip i <= ex_q 5000)%Qc).
Proof.
  split; [exact ex_dip_v2_1d|].
  split; [now apply lt|].
  split; [discriminate|].
  split; [now apply le|].
  split; [exact v0pos_v2_1d|].
  split; [now apply le|].
  split; [exact sink_v2_1d|].
  exact hole_v2_1d.
Qed.

Theorem C72_above_poisson_1d : forall i0 i1 (dx : Z -> Qc) (beta : Qc) gcw u f0 rgcw res (m : mem QcS) (r w : Z -> Qc) (B : Qc),
  applied_poisson_1d (S := QcS) i0 i1 dx beta gcw u f0 rgcw res m r w ->
  (0 < beta)%Qc ->
  dx 0%Z <> 0%Qc ->
  (forall i, patch1 i0 i1 i -> (r i <= 0)%Qc) ->
  (forall i, ghost1 i0 i1 i -> (w i <= B)%Qc) ->
  forall i, patch1 i0 i1 i -> (w i <= B)%Qc.
Proof. exact @above_poisson_1d. Qed.
Print Assumptions C72_above_poisson_1d.

Example C72_above_poisson_1d_example :
  applied_poisson_1d (S := QcS) 0 1 ex_h (ex_q 2) 1 (4%nat, 0) (5%nat, 0) 0 (8%nat, 0) (ex_so 4 ex_dip) (r_poisson_1d ex_dip) (w_poisson_1d ex_dip)  /\
  (0 < (ex_q 2))%Qc /\
  ex_h 0%Z <> 0%Qc /\
  (forall i, patch1 0 1 i -> (r_poisson_1d ex_dip i <= 0)%Qc) /\
  (forall i, ghost1 0 1 i -> (w_poisson_1d ex_dip i <= ex_q 5000)%Qc).
Proof.
  split; [exact ex_dip_poisson_1d|].
  split; [now apply lt|].
  split; [discriminate|].
  split; [exact sink_poisson_1d|].
  exact hole_poisson_1d.
Qed.

Theorem C72_above_v1_2d : forall i0 j0 i1 j1 (dx : Z -> Qc) (beta : Qc) b0 b1 gcw u f0 f1 (alpha : Qc) agcw a rgcw res (m : mem QcS) (r w c v0 v1 : Z -> Z -> Qc) (B : Qc),
  applied_v1_2d (S := QcS) i0 j0 i1 j1 dx beta b0 b1 gcw u f0 f1 alpha agcw a rgcw res m r w c v0 v1 ->
  (0 < beta)%Qc ->
  dx 0%Z <> 0%Qc ->
  (0 <= alpha)%Qc ->
  (forall i j, patch2 i0 j0 i1 j1 i j -> (0 <= c i j)%Qc) ->
  (forall i j, i0 <= i <= i1 + 1 -> j0 <= j <= j1 -> (0 < v0 i j)%Qc) ->
  (forall i j, i0 <= i <= i1 -> j0 <= j <= j1 + 1 -> (0 <= v1 i j)%Qc) ->
  alpha = 0%Qc \/ (0 <= B)%Qc ->
  (forall i j, patch2 i0 j0 i1 j1 i j -> (r i j <= 0)%Qc) ->
  (forall i j, ghost2 i0 j0 i1 j1 i j -> (w i j <= B)%Qc) ->
  forall i j, patch2 i0 j0 i1 j1 i j -> (w i j <= B)%Qc.
Proof. exact @above_v1_2d. Qed.
Print Assumptions C72_above_v1_2d.

Example C72_above_v1_2d_example :
  applied_v1_2d (S := QcS) 0 0 1 1 ex_h (ex_q 2) (0%nat, 0) (1%nat, 0) 1 (4%nat, 0) (5%nat, 0) (6%nat, 0) (ex_q 3) 0 (3%nat, 0) 0 (8%nat, 0) (ex_so 16 ex_dip) (r_v1_2d ex_dip) (w_v1_2d ex_dip) c_v1_2d v0_v1_2d v1_v1_2d /\
  (0 < (ex_q 2))%Qc /\
  ex_h 0%Z <> 0%Qc /\
  (0 <= (ex_q 3))%Qc /\
  (forall i j, patch2 0 0 1 1 i j -> (0 <= c_v1_2d i j)%Qc) /\
  (forall i j, 0 <= i <= 1 + 1 -> 0 <= j <= 1 -> (0 < v0_v1_2d i j)%Qc) /\
  (forall i j, 0 <= i <= 1 -> 0 <= j <= 1 + 1 -> (0 <= v1_v1_2d i j)%Qc) /\
  (0 <= ex_q 5000)%Qc /\
  (forall i j, patch2 0 0 1 1 i j -> (r_v1_2d ex_dip i j <= 0)%Qc) /\
  (forall i j, ghost2 0 0 1 1 i j -> (w_v1_2d ex_dip i j <= ex_q 5000)%Qc).
Proof.
  split; [exact ex_dip_v1_2d|].
  split; [now apply lt|].
  split; [discriminate|].
  split; [now apply le|].
  split; [exact cpos_v1_2d|].
  split; [exact v0pos_v1_2d|].
  split; [exact v1pos_v1_2d|].
  split; [now apply le|].
  split; [exact sink_v1_2d|].
  exact hole_v1_2d.
Qed.

Theorem C72_above_v2_2d : forall i0 j0 i1 j1 (dx : Z -> Qc) (beta : Qc) b0 b1 gcw u f0 f1 (alpha : Qc) rgcw res (m : mem QcS) (r w v0 v1 : Z -> Z -> Qc) (B : Qc),
  applied_v2_2d (S := QcS) i0 j0 i1 j1 dx beta b0 b1 gcw u f0 f1 alpha rgcw res m r w v0 v1 ->
  (0 < beta)%Qc ->
  dx 0%Z <> 0%Qc ->
  (0 <= alpha)%Qc ->
  (forall i j, i0 <= i <= i1 + 1 -> j0 <= j <= j1 -> (0 < v0 i j)%Qc) ->
  (forall i j, i0 <= i <= i1 -> j0 <= j <= j1 + 1 -> (0 <= v1 i j)%Qc) ->
  alpha = 0%Qc \/ (0 <= B)%Qc ->
  (forall i j, patch2 i0 j0 i1 j1 i j -> (r i j <= 0)%Qc) ->
  (forall i j, ghost2 i0 j0 i1 j1 i j -> (w i j <= B)%Qc) ->
  forall i j, patch2 i0 j0 i1 j1 i j -> (w i j <= B)%Qc.
Proof. exact @above_v2_2d. Qed.
Print Assumptions C72_above_v2_2d.

Example C72_above_v2_2d_example :
  applied_v2_2d (S := QcS) 0 0 1 1 ex_h (ex_q 2) (0%nat, 0) (1%nat, 0) 1 (4%nat, 0) (5%nat, 0) (6%nat, 0) (ex_q 3) 0 (8%nat, 0) (ex_so 16 ex_dip) (r_v2_2d ex_dip) (w_v2_2d ex_dip) v0_v2_2d v1_v2_2d /\
  (0 < (ex_q 2))%Qc /\
  ex_h 0%Z <> 0%Qc /\
  (0 <= (ex_q 3))%Qc /\
  (forall i j, 0 <= i <= 1 + 1 -> 0 <= j <= 1 -> (0 < v0_v2_2d i j)%Qc) /\
  (forall i j, 0 <= i <= 1 -> 0 <= j <= 1 + 1 -> (0 <= v1_v2_2d i j)%Qc) /\
  (0 <= ex_q 5000)%Qc /\
  (forall i j, patch2 0 0 1 1 i j -> (r_v2_2d ex_dip i j <= 0)%Qc) /\
  (forall i j, ghost2 0 0 1 1 i j -> (w_v2_2d ex_dip i j <= ex_q 5000)%Qc).
Proof.
  split; [exact ex_dip_v2_2d|].
  split; [now apply lt|].
  split; [discriminate|].
  split; [now apply le|].
  split; [exact v0pos_v2_2d|].
  split; [exact v1pos_v2_2d|].
  split; [now apply le|].
  split; [exact sink_v2_2d|].
  exact hole_v2_2d.
Qed.

Theorem C72_above_poisson_2d : forall i0 j0 i1 j1 (dx : Z -> Qc) (beta : Qc) gcw u f0 f1 rgcw res (m : mem QcS) (r w : Z -> Z -> Qc) (B : Qc),
  applied_poisson_2d (S := QcS) i0 j0 i1 j1 dx beta gcw u f0 f1 rgcw res m r w ->
  (0 < beta)%Qc ->
  dx 0%Z <> 0%Qc ->
  (forall i j, patch2 i0 j0 i1 j1 i j -> (r i j <= 0)%Qc) ->
  (forall i j, ghost2 i0 j0 i1 j1 i j -> (w i j <= B)%Qc) ->
  forall i j, patch2 i0 j0 i1 j1 i j -> (w i j <= B)%Qc.
Proof. exact @above_poisson_2d. Qed.
Print Assumptions C72_above_poisson_2d.

Example C72_above_poisson_2d_example :
  applied_poisson_2d (S := QcS) 0 0 1 1 ex_h (ex_q 2) 1 (4%nat, 0) (5%nat, 0) (6%nat, 0) 0 (8%nat, 0) (ex_so 16 ex_dip) (r_poisson_2d ex_dip) (w_poisson_2d ex_dip)  /\
  (0 < (ex_q 2))%Qc /\
  ex_h 0%Z <> 0%Qc /\
  (forall i j, patch2 0 0 1 1 i j -> (r_poisson_2d ex_dip i j <= 0)%Qc) /\
  (forall i j, ghost2 0 0 1 1 i j -> (w_poisson_2d ex_dip i j <= ex_q 5000)%Qc).
Proof.
  split; [exact ex_dip_poisson_2d|].
  split; [now apply lt|].
  split; [discriminate|].
  split; [exact sink_poisson_2d|].
  exact hole_poisson_2d.
Qed.

Theorem C72_above_v1_3d : forall i0 j0 k0 i1 j1 k1 (dx : Z -> Qc) (beta : Qc) b0 b1 b2 gcw u f0 f1 f2 (alpha : Qc) agcw a rgcw res (m : mem QcS) (r w c v0 v1 v2 : Z -> Z -> Z -> Qc) (B : Qc),
  applied_v1_3d (S := QcS) i0 j0 k0 i1 j1 k1 dx beta b0 b1 b2 gcw u f0 f1 f2 alpha agcw a rgcw res m r w c v0 v1 v2 ->
  (0 < beta)%Qc ->
  dx 0%Z <> 0%Qc ->
  (0 <= alpha)%Qc ->
  (forall i j k, patch3 i0 j0 k0 i1 j1 k1 i j k -> (0 <= c i j k)%Qc) ->
  (forall i j k, i0 <= i <= i1 + 1 -> j0 <= j <= j1 -> k0 <= k <= k1 -> (0 < v0 i j k)%Qc) ->
  (forall i j k, i0 <= i <= i1 -> j0 <= j <= j1 + 1 -> k0 <= k <= k1 -> (0 <= v1 i j k)%Qc) ->
  (forall i j k, i0 <= i <= i1 -> j0 <= j <= j1 -> k0 <= k <= k1 + 1 -> (0 <= v2 i j k)%Qc) ->
  alpha = 0%Qc \/ (0 <= B)%Qc ->
  (forall i j k, patch3 i0 j0 k0 i1 j1 k1 i j k -> (r i j k <= 0)%Qc) ->
  (forall i j k, ghost3 i0 j0 k0 i1 j1 k1 i j k -> (w i j k <= B)%Qc) ->
  forall i j k, patch3 i0 j0 k0 i1 j1 k1 i j k -> (w i j k <= B)%Qc.
Proof. exact @above_v1_3d. Qed.
Print Assumptions C72_above_v1_3d.

Example C72_above_v1_3d_example :
  applied_v1_3d (S := QcS) 0 0 0 1 1 0 ex_h (ex_q 2) (0%nat, 0) (1%nat, 0) (2%nat, 0) 1 (4%nat, 0) (5%nat, 0) (6%nat, 0) (7%nat, 0) (ex_q 3) 0 (3%nat, 0) 0 (8%nat, 0) (ex_so 48 ex_dip) (r_v1_3d ex_dip) (w_v1_3d ex_dip) c_v1_3d v0_v1_3d v1_v1_3d v2_v1_3d /\
  (0 < (ex_q 2))%Qc /\
  ex_h 0%Z <> 0%Qc /\
  (0 <= (ex_q 3))%Qc /\
  (forall i j k, patch3 0 0 0 1 1 0 i j k -> (0 <= c_v1_3d i j k)%Qc) /\
  (forall i j k, 0 <= i <= 1 + 1 -> 0 <= j <= 1 -> 0 <= k <= 0 -> (0 < v0_v1_3d i j k)%Qc) /\
  (forall i j k, 0 <= i <= 1 -> 0 <= j <= 1 + 1 -> 0 <= k <= 0 -> (0 <= v1_v1_3d i j k)%Qc) /\
  (forall i j k, 0 <= i <= 1 -> 0 <= j <= 1 -> 0 <= k <= 0 + 1 -> (0 <= v2_v1_3d i j k)%Qc) /\
  (0 <= ex_q 5000)%Qc /\
  (forall i j k, patch3 0 0 0 1 1 0 i j k -> (r_v1_3d ex_dip i j k <= 0)%Qc) /\
  (forall i j k, ghost3 0 0 0 1 1 0 i j k -> (w_v1_3d ex_dip i j k <= ex_q 5000)%Qc).
Proof.
  split; [exact ex_dip_v1_3d|].
  split; [now apply lt|].
  split; [discriminate|].
  split; [now apply le|].
  split; [exact cpos_v1_3d|].
  split; [exact v0pos_v1_3d|].
  split; [exact v1pos_v1_3d|].
  split; [exact v2pos_v1_3d|].
  split; [now apply le|].
  split; [exact sink_v1_3d|].
  exact hole_v1_3d.
Qed.

Theorem C72_above_v2_3d : forall i0 j0 k0 i1 j1 k1 (dx : Z -> Qc) (beta : Qc) b0 b1 b2 gcw u f0 f1 f2 (alpha : Qc) rgcw res (m : mem QcS) (r w v0 v1 v2 : Z -> Z -> Z -> Qc) (B : Qc),
  applied_v2_3d (S := QcS) i0 j0 k0 i1 j1 k1 dx beta b0 b1 b2 gcw u f0 f1 f2 alpha rgcw res m r w v0 v1 v2 ->
  (0 < beta)%Qc ->
  dx 0%Z <> 0%Qc ->
  (0 <= alpha)%Qc ->
  (forall i j k, i0 <= i <= i1 + 1 -> j0 <= j <= j1 -> k0 <= k <= k1 -> (0 < v0 i j k)%Qc) ->
  (forall i j k, i0 <= i <= i1 -> j0 <= j <= j1 + 1 -> k0 <= k <= k1 -> (0 <= v1 i j k)%Qc) ->
  (forall i j k, i0 <= i <= i1 -> j0 <= j <= j1 -> k0 <= k <= k1 + 1 -> (0 <= v2 i j k)%Qc) ->
  alpha = 0%Qc \/ (0 <= B)%Qc ->
  (forall i j k, patch3 i0 j0 k0 i1 j1 k1 i j k -> (r i j k <= 0)%Qc) ->
  (forall i j k, ghost3 i0 j0 k0 i1 j1 k1 i j k -> (w i j k <= B)%Qc) ->
  forall i j k, patch3 i0 j0 k0 i1 j1 k1 i j k -> (w i j k <= B)%Qc.
Proof. exact @above_v2_3d. Qed.
Print Assumptions C72_above_v2_3d.

Example C72_above_v2_3d_example :
  applied_v2_3d (S := QcS) 0 0 0 1 1 0 ex_h (ex_q 2) (0%nat, 0) (1%nat, 0) (2%nat, 0) 1 (4%nat, 0) (5%nat, 0) (6%nat, 0) (7%nat, 0) (ex_q 3) 0 (8%nat, 0) (ex_so 48 ex_dip) (r_v2_3d ex_dip) (w_v2_3d ex_dip) v0_v2_3d v1_v2_3d v2_v2_3d /\
  (0 < (ex_q 2))%Qc /\
  ex_h 0%Z <> 0%Qc /\
  (0 <= (ex_q 3))%Qc /\
  (forall i j k, 0 <= i <= 1 + 1 -> 0 <= j <= 1 -> 0 <= k <= 0 -> (0 < v0_v2_3d i j k)%Qc) /\
  (forall i j k, 0 <= i <= 1 -> 0 <= j <= 1 + 1 -> 0 <= k <= 0 -> (0 <= v1_v2_3d i j k)%Qc) /\
  (forall i j k, 0 <= i <= 1 -> 0 <= j <= 1 -> 0 <= k <= 0 + 1 -> (0 <= v2_v2_3d i j k)%Qc) /\
  (0 <= ex_q 5000)%Qc /\
  (forall i j k, patch3 0 0 0 1 1 0 i j k -> (r_v2_3d ex_dip i j k <= 0)%Qc) /\
  (forall i j k, ghost3 0 0 0 1 1 0 i j k -> (w_v2_3d ex_dip i j k <= ex_q 5000)%Qc).
Proof.
  split; [exact ex_dip_v2_3d|].
  split; [now apply lt|].
  split; [discriminate|].
  split; [now apply le|].
  split; [exact v0pos_v2_3d|].
  split; [exact v1pos_v2_3d|].
  split; [exact v2pos_v2_3d|].
  split; [now apply le|].
  split; [exact sink_v2_3d|].
  exact hole_v2_3d.
Qed.

Theorem C72_above_poisson_3d : forall i0 j0 k0 i1 j1 k1 (dx : Z -> Qc) (beta : Qc) gcw u f0 f1 f2 rgcw res (m : mem QcS) (r w : Z -> Z -> Z -> Qc) (B : Qc),
  applied_poisson_3d (S := QcS) i0 j0 k0 i1 j1 k1 dx beta gcw u f0 f1 f2 rgcw res m r w ->
  (0 < beta)%Qc ->
  dx 0%Z <> 0%Qc ->
  (forall i j k, patch3 i0 j0 k0 i1 j1 k1 i j k -> (r i j k <= 0)%Qc) ->
  (forall i j k, ghost3 i0 j0 k0 i1 j1 k1 i j k -> (w i j k <= B)%Qc) ->
  forall i j k, patch3 i0 j0 k0 i1 j1 k1 i j k -> (w i j k <= B)%Qc.
Proof. exact @above_poisson_3d. Qed.
Print Assumptions C72_above_poisson_3d.

Example C72_above_poisson_3d_example :
  applied_poisson_3d (S := QcS) 0 0 0 1 1 0 ex_h (ex_q 2) 1 (4%nat, 0) (5%nat, 0) (6%nat, 0) (7%nat, 0) 0 (8%nat, 0) (ex_so 48 ex_dip) (r_poisson_3d ex_dip) (w_poisson_3d ex_dip)  /\
  (0 < (ex_q 2))%Qc /\
  ex_h 0%Z <> 0%Qc /\
  (forall i j k, patch3 0 0 0 1 1 0 i j k -> (r_poisson_3d ex_dip i j k <= 0)%Qc) /\
  (forall i j k, ghost3 0 0 0 1 1 0 i j k -> (w_poisson_3d ex_dip i j k <= ex_q 5000)%Qc).
Proof.
  split; [exact ex_dip_poisson_3d|].
  split; [now apply lt|].
  split; [discriminate|].
  split; [exact sink_poisson_3d|].
  exact hole_poisson_3d.
Qed.

(** C72: with no sink the solution is at least its boundary values. *)

Theorem C72_below_v1_1d : forall i0 i1 (dx : Z -> Qc) (beta : Qc) b0 gcw u f0 (alpha : Qc) agcw a rgcw res (m : mem QcS) (r w c v0 : Z -> Qc) (B : Qc),
  applied_v1_1d (S := QcS) i0 i1 dx beta b0 gcw u f0 alpha agcw a rgcw res m r w c v0 ->
  (0 < beta)%Qc ->
  dx 0%Z <> 0%Qc ->
  (0 <= alpha)%Qc ->
  (forall i, patch1 i0 i1 i -> (0 <= c i)%Qc) ->
  (forall i, i0 <= i <= i1 + 1 -> (0 < v0 i)%Qc) ->
  alpha = 0%Qc \/ (B <= 0)%Qc ->
  (forall i, patch1 i0 i1 i -> (0 <= r i)%Qc) ->
  (forall i, ghost1 i0 i1 i -> (B <= w i)%Qc) ->
  forall i, patch1 i0 i1 i -> (B <= w i)%Qc.
Proof. exact @below_v1_1d. Qed.
Print Assumptions C72_below_v1_1d.

Example C72_below_v1_1d_example :
  applied_v1_1d (S := QcS) 0 1 ex_h (ex_q 2) (0%nat, 0) 1 (4%nat, 0) (5%nat, 0) (ex_q 3) 0 (3%nat, 0) 0 (8%nat, 0) (ex_so 4 ex_bump) (r_v1_1d ex_bump) (w_v1_1d ex_bump) c_v1_1d v0_v1_1d /\
  (0 < (ex_q 2))%Qc /\
  ex_h 0%Z <> 0%Qc /\
  (0 <= (ex_q 3))%Qc /\
  (forall i, patch1 0 1 i -> (0 <= c_v1_1d i)%Qc) /\
  (forall i, 0 <= i <= 1 + 1 -> (0 < v0_v1_1d i)%Qc) /\
  (forall i, patch1 0 1 i -> (0 <= r_v1_1d ex_bump i)%Qc) /\
  (forall i, ghost1 0 1 i -> (0 <= w_v1_1d ex_bump i)%Qc).
Proof.
  split; [exact ex_bump_v1_1d|].
  split; [now apply lt|].
  split; [discriminate|].
  split; [now apply le|].
  split; [exact cpos_v1_1d|].
  split; [exact v0pos_v1_1d|].
  split; [exact source_v1_1d|].
  intros i H; eapply Qcle_trans; [|exact (rim_v1_1d i H)]; now apply le.
Qed.

Theorem C72_below_v2_1d : forall i0 i1 (dx : Z -> Qc) (beta : Qc) b0 gcw u f0 (alpha : Qc) rgcw res (m : mem QcS) (r w v0 : Z -> Qc) (B : Qc),
  applied_v2_1d (S := QcS) i0 i1 dx beta b0 gcw u f0 alpha rgcw res m r w v0 ->
  (0 < beta)%Qc ->
  dx 0%Z <> 0%Qc ->
  (0 <= alpha)%Qc ->
  (forall i, i0 <= i <= i1 + 1 -> (0 < v0 i)%Qc) ->
  alpha = 0%Qc \/ (B <= 0)%Qc ->
  (forall i, patch1 i0 i1 i -> (0 <= r i)%Qc) ->
  (forall i, ghost1 i0 i1 i -> (B <= w i)%Qc) ->
  forall i, patch1 i0 i1 i -> (B <= w i)%Qc.
Proof. exact @below_v2_1d. Qed.
Print Assumptions C72_below_v2_1d.

Example C72_below_v2_1d_example :
  applied_v2_1d (S := QcS) 0 1 ex_h (ex_q 2) (0%nat, 0) 1 (4%nat, 0) (5%nat, 0) (ex_q 3) 0 (8%nat, 0) (ex_so 4 ex_bump) (r_v2_1d ex_bump) (w_v2_1d ex_bump) v0_v2_1d /\
  (0 < (ex_q 2))%Qc /\
  ex_h 0%Z <> 0%Qc /\
  (0 <= (ex_q 3))%Qc /\
  (forall i, 0 <= i <= 1 + 1 -> (0 < v0_v2_1d i)%Qc) /\
  (forall i, patch1 0 1 i -> (0 <= r_v2_1d ex_bump i)%Qc) /\
  (forall i, ghost1 0 1 i -> (0 <= w_v2_1d ex_bump i)%Qc).
Proof.
  split; [exact ex_bump_v2_1d|].
  split; [now apply lt|].
  split; [discriminate|].
  split; [now apply le|].
  split; [exact v0pos_v2_1d|].
  split; [exact source_v2_1d|].
  intros i H; eapply Qcle_trans; [|exact (rim_v2_1d i H)]; now apply le.
Qed.

Theorem C72_below_poisson_1d : forall i0 i1 (dx : Z -> Qc) (beta : Qc) gcw u f0 rgcw res (m : mem QcS) (r w : Z -> Qc) (B : Qc),
  applied_poisson_1d (S := QcS) i0 i1 dx beta gcw u f0 rgcw res m r w ->
  (0 < beta)%Qc ->
  dx 0%Z <> 0%Qc ->
  (forall i, patch1 i0 i1 i -> (0 <= r i)%Qc) ->
  (forall i, ghost1 i0 i1 i -> (B <= w i)%Qc) ->
  forall i, patch1 i0 i1 i -> (B <= w i)%Qc.
Proof. exact @below_poisson_1d. Qed.
Print Assumptions C72_below_poisson_1d.

Example C72_below_poisson_1d_example :
  applied_poisson_1d (S := QcS) 0 1 ex_h (ex_q 2) 1 (4%nat, 0) (5%nat, 0) 0 (8%nat, 0) (ex_so 4 ex_bump) (r_poisson_1d ex_bump) (w_poisson_1d ex_bump)  /\
  (0 < (ex_q 2))%Qc /\
  ex_h 0%Z <> 0%Qc /\
  (forall i, patch1 0 1 i -> (0 <= r_poisson_1d ex_bump i)%Qc) /\
  (forall i, ghost1 0 1 i -> (ex_q 1 <= w_poisson_1d ex_bump i)%Qc).
Proof.
  split; [exact ex_bump_poisson_1d|].
  split; [now apply lt|].
  split; [discriminate|].
  split; [exact source_poisson_1d|].
  exact rim_poisson_1d.
Qed.

Theorem C72_below_v1_2d : forall i0 j0 i1 j1 (dx : Z -> Qc) (beta : Qc) b0 b1 gcw u f0 f1 (alpha : Qc) agcw a rgcw res (m : mem QcS) (r w c v0 v1 : Z -> Z -> Qc) (B : Qc),
  applied_v1_2d (S := QcS) i0 j0 i1 j1 dx beta b0 b1 gcw u f0 f1 alpha agcw a rgcw res m r w c v0 v1 ->
  (0 < beta)%Qc ->
  dx 0%Z <> 0%Qc ->
  (0 <= alpha)%Qc ->
  (forall i j, patch2 i0 j0 i1 j1 i j -> (0 <= c i j)%Qc) ->
  (forall i j, i0 <= i <= i1 + 1 -> j0 <= j <= j1 -> (0 < v0 i j)%Qc) ->
  (forall i j, i0 <= i <= i1 -> j0 <= j <= j1 + 1 -> (0 <= v1 i j)%Qc) ->
  alpha = 0%Qc \/ (B <= 0)%Qc ->
  (forall i j, patch2 i0 j0 i1 j1 i j -> (0 <= r i j)%Qc) ->
  (forall i j, ghost2 i0 j0 i1 j1 i j -> (B <= w i j)%Qc) ->
  forall i j, patch2 i0 j0 i1 j1 i j -> (B <= w i j)%Qc.
Proof. exact @below_v1_2d. Qed.
Print Assumptions C72_below_v1_2d.

Example C72_below_v1_2d_example :
  applied_v1_2d (S := QcS) 0 0 1 1 ex_h (ex_q 2) (0%nat, 0) (1%nat, 0) 1 (4%nat, 0) (5%nat, 0) (6%nat, 0) (ex_q 3) 0 (3%nat, 0) 0 (8%nat, 0) (ex_so 16 ex_bump) (r_v1_2d ex_bump) (w_v1_2d ex_bump) c_v1_2d v0_v1_2d v1_v1_2d /\
  (0 < (ex_q 2))%Qc /\
  ex_h 0%Z <> 0%Qc /\
  (0 <= (ex_q 3))%Qc /\
  (forall i j, patch2 0 0 1 1 i j -> (0 <= c_v1_2d i j)%Qc) /\
  (forall i j, 0 <= i <= 1 + 1 -> 0 <= j <= 1 -> (0 < v0_v1_2d i j)%Qc) /\
  (forall i j, 0 <= i <= 1 -> 0 <= j <= 1 + 1 -> (0 <= v1_v1_2d i j)%Qc) /\
  (forall i j, patch2 0 0 1 1 i j -> (0 <= r_v1_2d ex_bump i j)%Qc) /\
  (forall i j, ghost2 0 0 1 1 i j -> (0 <= w_v1_2d ex_bump i j)%Qc).
Proof.
  split; [exact ex_bump_v1_2d|].
  split; [now apply lt|].
  split; [discriminate|].
  split; [now apply le|].
  split; [exact cpos_v1_2d|].
  split; [exact v0pos_v1_2d|].
  split; [exact v1pos_v1_2d|].
  split; [exact source_v1_2d|].
  intros i j H; eapply Qcle_trans; [|exact (rim_v1_2d i j H)]; now apply le.
Qed.

Theorem C72_below_v2_2d : forall i0 j0 i1 j1 (dx : Z -> Qc) (beta : Qc) b0 b1 gcw u f0 f1 (alpha : Qc) rgcw res (m : mem QcS) (r w v0 v1 : Z -> Z -> Qc) (B : Qc),
  applied_v2_2d (S := QcS) i0 j0 i1 j1 dx beta b0 b1 gcw u f0 f1 alpha rgcw res m r w v0 v1 ->
  (0 < beta)%Qc ->
  dx 0%Z <> 0%Qc ->
  (0 <= alpha)%Qc ->
  (forall i j, i0 <= i <= i1 + 1 -> j0 <= j <= j1 -> (0 < v0 i j)%Qc) ->
  (forall i j, i0 <= i <= i1 -> j0 <= j <= j1 + 1 -> (0 <= v1 i j)%Qc) ->
  alpha = 0%Qc \/ (B <= 0)%Qc ->
  (forall i j, patch2 i0 j0 i1 j1 i j -> (0 <= r i j)%Qc) ->
  (forall i j, ghost2 i0 j0 i1 j1 i j -> (B <= w i j)%Qc) ->
  forall i j, patch2 i0 j0 i1 j1 i j -> (B <= w i j)%Qc.
Proof. exact @below_v2_2d. Qed.
Print Assumptions C72_below_v2_2d.

Example C72_below_v2_2d_example :
  applied_v2_2d (S := QcS) 0 0 1 1 ex_h (ex_q 2) (0%nat, 0) (1%nat, 0) 1 (4%nat, 0) (5%nat, 0) (6%nat, 0) (ex_q 3) 0 (8%nat, 0) (ex_so 16 ex_bump) (r_v2_2d ex_bump) (w_v2_2d ex_bump) v0_v2_2d v1_v2_2d /\
  (0 < (ex_q 2))%Qc /\
  ex_h 0%Z <> 0%Qc /\
  (0 <= (ex_q 3))%Qc /\
  (forall i j, 0 <= i <= 1 + 1 -> 0 <= j <= 1 -> (0 < v0_v2_2d i j)%Qc) /\
  (forall i j, 0 <= i <= 1 -> 0 <= j <= 1 + 1 -> (0 <= v1_v2_2d i j)%Qc) /\
  (forall i j, patch2 0 0 1 1 i j -> (0 <= r_v2_2d ex_bump i j)%Qc) /\
  (forall i j, ghost2 0 0 1 1 i j -> (0 <= w_v2_2d ex_bump i j)%Qc).
Proof.
  split; [exact ex_bump_v2_2d|].
  split; [now apply lt|].
  split; [discriminate|].
  split; [now apply le|].
  split; [exact v0pos_v2_2d|].
  split; [exact v1pos_v2_2d|].
  split; [exact source_v2_2d|].
  intros i j H; eapply Qcle_trans; [|exact (rim_v2_2d i j H)]; now apply le.
Qed.

Theorem C72_below_poisson_2d : forall i0 j0 i1 j1 (dx : Z -> Qc) (beta : Qc) gcw u f0 f1 rgcw res (m : mem QcS) (r w : Z -> Z -> Qc) (B : Qc),
  applied_poisson_2d (S := QcS) i0 j0 i1 j1 dx beta gcw u f0 f1 rgcw res m r w ->
  (0 < beta)%Qc ->
  dx 0%Z <> 0%Qc ->
  (forall i j, patch2 i0 j0 i1 j1 i j -> (0 <= r i j)%Qc) ->
  (forall i j, ghost2 i0 j0 i1 j1 i j -> (B <= w i j)%Qc) ->
  forall i j, patch2 i0 j0 i1 j1 i j -> (B <= w i j)%Qc.
Proof. exact @below_poisson_2d. Qed.
Print Assumptions C72_below_poisson_2d.

Example C72_below_poisson_2d_example :
  applied_poisson_2d (S := QcS) 0 0 1 1 ex_h (ex_q 2) 1 (4%nat, 0) (5%nat, 0) (6%nat, 0) 0 (8%nat, 0) (ex_so 16 ex_bump) (r_poisson_2d ex_bump) (w_poisson_2d ex_bump)  /\
  (0 < (ex_q 2))%Qc /\
  ex_h 0%Z <> 0%Qc /\
  (forall i j, patch2 0 0 1 1 i j -> (0 <= r_poisson_2d ex_bump i j)%Qc) /\
  (forall i j, ghost2 0 0 1 1 i j -> (ex_q 1 <= w_poisson_2d ex_bump i j)%Qc).
Proof.
  split; [exact ex_bump_poisson_2d|].
  split; [now apply lt|].
  split; [discriminate|].
  split; [exact source_poisson_2d|].
  exact rim_poisson_2d.
Qed.

Theorem C72_below_v1_3d : forall i0 j0 k0 i1 j1 k1 (dx : Z -> Qc) (beta : Qc) b0 b1 b2 gcw u f0 f1 f2 (alpha : Qc) agcw a rgcw res (m : mem QcS) (r w c v0 v1 v2 : Z -> Z -> Z -> Qc) (B : Qc),
  applied_v1_3d (S := QcS) i0 j0 k0 i1 j1 k1 dx beta b0 b1 b2 gcw u f0 f1 f2 alpha agcw a rgcw res m r w c v0 v1 v2 ->
  (0 < beta)%Qc ->
  dx 0%Z <> 0%Qc ->
  (0 <= alpha)%Qc ->
  (forall i j k, patch3 i0 j0 k0 i1 j1 k1 i j k -> (0 <= c i j k)%Qc) ->
  (forall i j k, i0 <= i <= i1 + 1 -> j0 <= j <= j1 -> k0 <= k <= k1 -> (0 < v0 i j k)%Qc) ->
  (forall i j k, i0 <= i <= i1 -> j0 <= j <= j1 + 1 -> k0 <= k <= k1 -> (0 <= v1 i j k)%Qc) ->
  (forall i j k, i0 <= i <= i1 -> j0 <= j <= j1 -> k0 <= k <= k1 + 1 -> (0 <= v2 i j k)%Qc) ->
  alpha = 0%Qc \/ (B <= 0)%Qc ->
  (forall i j k, patch3 i0 j0 k0 i1 j1 k1 i j k -> (0 <= r i j k)%Qc) ->
  (forall i j k, ghost3 i0 j0 k0 i1 j1 k1 i j k -> (B <= w i j k)%Qc) ->
  forall i j k, patch3 i0 j0 k0 i1 j1 k1 i j k -> (B <= w i j k)%Qc.
Proof. exact @below_v1_3d. Qed.
Print Assumptions C72_below_v1_3d.

Example C72_below_v1_3d_example :
  applied_v1_3d (S := QcS) 0 0 0 1 1 0 ex_h (ex_q 2) (0%nat, 0) (1%nat, 0) (2%nat, 0) 1 (4%nat, 0) (5%nat, 0) (6%nat, 0) (7%nat, 0) (ex_q 3) 0 (3%nat, 0) 0 (8%nat, 0) (ex_so 48 ex_bump) (r_v1_3d ex_bump) (w_v1_3d ex_bump) c_v1_3d v0_v1_3d v1_v1_3d v2_v1_3d /\
  (0 < (ex_q 2))%Qc /\
  ex_h 0%Z <> 0%Qc /\
  (0 <= (ex_q 3))%Qc /\
  (forall i j k, patch3 0 0 0 1 1 0 i j k -> (0 <= c_v1_3d i j k)%Qc) /\
  (forall i j k, 0 <= i <= 1 + 1 -> 0 <= j <= 1 -> 0 <= k <= 0 -> (0 < v0_v1_3d i j k)%Qc) /\
  (forall i j k, 0 <= i <= 1 -> 0 <= j <= 1 + 1 -> 0 <= k <= 0 -> (0 <= v1_v1_3d i j k)%Qc) /\
  (forall i j k, 0 <= i <= 1 -> 0 <= j <= 1 -> 0 <= k <= 0 + 1 -> (0 <= v2_v1_3d i j k)%Qc) /\
  (forall i j k, patch3 0 0 0 1 1 0 i j k -> (0 <= r_v1_3d ex_bump i j k)%Qc) /\
  (forall i j k, ghost3 0 0 0 1 1 0 i j k -> (0 <= w_v1_3d ex_bump i j k)%Qc).
Proof.
  split; [exact ex_bump_v1_3d|].
  split; [now apply lt|].
  split; [discriminate|].
  split; [now apply le|].
  split; [exact cpos_v1_3d|].
  split; [exact v0pos_v1_3d|].
  split; [exact v1pos_v1_3d|].
  split; [exact v2pos_v1_3d|].
  split; [exact source_v1_3d|].
  intros i j k H; eapply Qcle_trans; [|exact (rim_v1_3d i j k H)]; now apply le.
Qed.

Theorem C72_below_v2_3d : forall i0 j0 k0 i1 j1 k1 (dx : Z -> Qc) (beta : Qc) b0 b1 b2 gcw u f0 f1 f2 (alpha : Qc) rgcw res (m : mem QcS) (r w v0 v1 v2 : Z -> Z -> Z -> Qc) (B : Qc),
  applied_v2_3d (S := QcS) i0 j0 k0 i1 j1 k1 dx beta b0 b1 b2 gcw u f0 f1 f2 alpha rgcw res m r w v0 v1 v2 ->
  (0 < beta)%Qc ->
  dx 0%Z <> 0%Qc ->
  (0 <= alpha)%Qc ->
  (forall i j k, i0 <= i <= i1 + 1 -> j0 <= j <= j1 -> k0 <= k <= k1 -> (0 < v0 i j k)%Qc) ->
  (forall i j k, i0 <= i <= i1 -> j0 <= j <= j1 + 1 -> k0 <= k <= k1 -> (0 <= v1 i j k)%Qc) ->
  (forall i j k, i0 <= i <= i1 -> j0 <= j <= j1 -> k0 <= k <= k1 + 1 -> (0 <= v2 i j k)%Qc) ->
  alpha = 0%Qc \/ (B <= 0)%Qc ->
  (forall i j k, patch3 i0 j0 k0 i1 j1 k1 i j k -> (0 <= r i j k)%Qc) ->
  (forall i j k, ghost3 i0 j0 k0 i1 j1 k1 i j k -> (B <= w i j k)%Qc) ->
  forall i j k, patch3 i0 j0 k0 i1 j1 k1 i j k -> (B <= w i j k)%Qc.
Proof. exact @below_v2_3d. Qed.
Print Assumptions C72_below_v2_3d.

Example C72_below_v2_3d_example :
  applied_v2_3d (S := QcS) 0 0 0 1 1 0 ex_h (ex_q 2) (0%nat, 0) (1%nat, 0) (2%nat, 0) 1 (4%nat, 0) (5%nat, 0) (6%nat, 0) (7%nat, 0) (ex_q 3) 0 (8%nat, 0) (ex_so 48 ex_bump) (r_v2_3d ex_bump) (w_v2_3d ex_bump) v0_v2_3d v1_v2_3d v2_v2_3d /\
  (0 < (ex_q 2))%Qc /\
  ex_h 0%Z <> 0%Qc /\
  (0 <= (ex_q 3))%Qc /\
  (forall i j k, 0 <= i <= 1 + 1 -> 0 <= j <= 1 -> 0 <= k <= 0 -> (0 < v0_v2_3d i j k)%Qc) /\
  (forall i j k, 0 <= i <= 1 -> 0 <= j <= 1 + 1 -> 0 <= k <= 0 -> (0 <= v1_v2_3d i j k)%Qc) /\
  (forall i j k, 0 <= i <= 1 -> 0 <= j <= 1 -> 0 <= k <= 0 + 1 -> (0 <= v2_v2_3d i j k)%Qc) /\
  (forall i j k, patch3 0 0 0 1 1 0 i j k -> (0 <= r_v2_3d ex_bump i j k)%Qc) /\
  (forall i j k, ghost3 0 0 0 1 1 0 i j k -> (0 <= w_v2_3d ex_bump i j k)%Qc).
Proof.
  split; [exact ex_bump_v2_3d|].
  split; [now apply lt|].
  split; [discriminate|].
  split; [now apply le|].
  split; [exact v0pos_v2_3d|].
  split; [exact v1pos_v2_3d|].
  split; [exact v2pos_v2_3d|].
  split; [exact source_v2_3d|].
  intros i j k H; eapply Qcle_trans; [|exact (rim_v2_3d i j k H)]; now apply le.
Qed.

Theorem C72_below_poisson_3d : forall i0 j0 k0 i1 j1 k1 (dx : Z -> Qc) (beta : Qc) gcw u f0 f1 f2 rgcw res (m : mem QcS) (r w : Z -> Z -> Z -> Qc) (B : Qc),
  applied_poisson_3d (S := QcS) i0 j0 k0 i1 j1 k1 dx beta gcw u f0 f1 f2 rgcw res m r w ->
  (0 < beta)%Qc ->
  dx 0%Z <> 0%Qc ->
  (forall i j k, patch3 i0 j0 k0 i1 j1 k1 i j k -> (0 <= r i j k)%Qc) ->
  (forall i j k, ghost3 i0 j0 k0 i1 j1 k1 i j k -> (B <= w i j k)%Qc) ->
  forall i j k, patch3 i0 j0 k0 i1 j1 k1 i j k -> (B <= w i j k)%Qc.
Proof. exact @below_poisson_3d. Qed.
Print Assumptions C72_below_poisson_3d.

Example C72_below_poisson_3d_example :
  applied_poisson_3d (S := QcS) 0 0 0 1 1 0 ex_h (ex_q 2) 1 (4%nat, 0) (5%nat, 0) (6%nat, 0) (7%nat, 0) 0 (8%nat, 0) (ex_so 48 ex_bump) (r_poisson_3d ex_bump) (w_poisson_3d ex_bump)  /\
  (0 < (ex_q 2))%Qc /\
  ex_h 0%Z <> 0%Qc /\
  (forall i j k, patch3 0 0 0 1 1 0 i j k -> (0 <= r_poisson_3d ex_bump i j k)%Qc) /\
  (forall i j k, ghost3 0 0 0 1 1 0 i j k -> (ex_q 1 <= w_poisson_3d ex_bump i j k)%Qc).
Proof.
  split; [exact ex_bump_poisson_3d|].
  split; [now apply lt|].
  split; [discriminate|].
  split; [exact source_poisson_3d|].
  exact rim_poisson_3d.
Qed.

(** C73: at most one solution. *)

Theorem C73_unique_v1_1d : forall i0 i1 (dx : Z -> Qc) (beta : Qc) b0 gcw u f0 (alpha : Qc) agcw a rgcw res (m n : mem QcS) (r w s z c v0 : Z -> Qc),
  applied_v1_1d (S := QcS) i0 i1 dx beta b0 gcw u f0 alpha agcw a rgcw res m r w c v0 ->
  applied_v1_1d (S := QcS) i0 i1 dx beta b0 gcw u f0 alpha agcw a rgcw res n s z c v0 ->
  (0 < beta)%Qc ->
  dx 0%Z <> 0%Qc ->
  (0 <= alpha)%Qc ->
  (forall i, patch1 i0 i1 i -> (0 <= c i)%Qc) ->
  (forall i, i0 <= i <= i1 + 1 -> (0 < v0 i)%Qc) ->
  (forall i, patch1 i0 i1 i -> r i = s i) ->
  (forall i, ghost1 i0 i1 i -> w i = z i) ->
  forall i, patch1 i0 i1 i -> w i = z i.
Proof. exact @unique_v1_1d. Qed.
Print Assumptions C73_unique_v1_1d.

Example C73_unique_v1_1d_example :
  applied_v1_1d (S := QcS) 0 1 ex_h (ex_q 2) (0%nat, 0) 1 (4%nat, 0) (5%nat, 0) (ex_q 3) 0 (3%nat, 0) 0 (8%nat, 0) (ex_so 4 ex_any) (r_v1_1d ex_any) (w_v1_1d ex_any) c_v1_1d v0_v1_1d /\
  (0 < (ex_q 2))%Qc /\
  ex_h 0%Z <> 0%Qc /\
  (0 <= (ex_q 3))%Qc /\
  (forall i, patch1 0 1 i -> (0 <= c_v1_1d i)%Qc) /\
  (forall i, 0 <= i <= 1 + 1 -> (0 < v0_v1_1d i)%Qc).
Proof.
  split; [exact ex_any_v1_1d|].
  split; [now apply lt|].
  split; [discriminate|].
  split; [now apply le|].
  split; [exact cpos_v1_1d|].
  exact v0pos_v1_1d.
Qed.

Theorem C73_unique_v2_1d : forall i0 i1 (dx : Z -> Qc) (beta : Qc) b0 gcw u f0 (alpha : Qc) rgcw res (m n : mem QcS) (r w s z v0 : Z -> Qc),
  applied_v2_1d (S := QcS) i0 i1 dx beta b0 gcw u f0 alpha rgcw res m r w v0 ->
  applied_v2_1d (S := QcS) i0 i1 dx beta b0 gcw u f0 alpha rgcw res n s z v0 ->
  (0 < beta)%Qc ->
  dx 0%Z <> 0%Qc ->
  (0 <= alpha)%Qc ->
  (forall i, i0 <= i <= i1 + 1 -> (0 < v0 i)%Qc) ->
  (forall i, patch1 i0 i1 i -> r i = s i) ->
  (forall i, ghost1 i0 i1 i -> w i = z i) ->
  forall i, patch1 i0 i1 i -> w i = z i.
Proof. exact @unique_v2_1d. Qed.
Print Assumptions C73_unique_v2_1d.

Example C73_unique_v2_1d_example :
  applied_v2_1d (S := QcS) 0 1 ex_h (ex_q 2) (0%nat, 0) 1 (4%nat, 0) (5%nat, 0) (ex_q 3) 0 (8%nat, 0) (ex_so 4 ex_any) (r_v2_1d ex_any) (w_v2_1d ex_any) v0_v2_1d /\
  (0 < (ex_q 2))%Qc /\
  ex_h 0%Z <> 0%Qc /\
  (0 <= (ex_q 3))%Qc /\
  (forall i, 0 <= i <= 1 + 1 -> (0 < v0_v2_1d i)%Qc).
Proof.
  split; [exact ex_any_v2_1d|].
  split; [now apply lt|].
  split; [discriminate|].
  split; [now apply le|].
  exact v0pos_v2_1d.
Qed.

Theorem C73_unique_poisson_1d : forall i0 i1 (dx : Z -> Qc) (beta : Qc) gcw u f0 rgcw res (m n : mem QcS) (r w s z : Z -> Qc),
  applied_poisson_1d (S := QcS) i0 i1 dx beta gcw u f0 rgcw res m r w ->
  applied_poisson_1d (S := QcS) i0 i1 dx beta gcw u f0 rgcw res n s z ->
  (0 < beta)%Qc ->
  dx 0%Z <> 0%Qc ->
  (forall i, patch1 i0 i1 i -> r i = s i) ->
  (forall i, ghost1 i0 i1 i -> w i = z i) ->
  forall i, patch1 i0 i1 i -> w i = z i.
Proof. exact @unique_poisson_1d. Qed.
Print Assumptions C73_unique_poisson_1d.

Example C73_unique_poisson_1d_example :
  applied_poisson_1d (S := QcS) 0 1 ex_h (ex_q 2) 1 (4%nat, 0) (5%nat, 0) 0 (8%nat, 0) (ex_so 4 ex_any) (r_poisson_1d ex_any) (w_poisson_1d ex_any)  /\
  (0 < (ex_q 2))%Qc /\
  ex_h 0%Z <> 0%Qc.
Proof.
  split; [exact ex_any_poisson_1d|].
  split; [now apply lt|].
  discriminate.
Qed.

Theorem C73_unique_v1_2d : forall i0 j0 i1 j1 (dx : Z -> Qc) (beta : Qc) b0 b1 gcw u f0 f1 (alpha : Qc) agcw a rgcw res (m n : mem QcS) (r w s z c v0 v1 : Z -> Z -> Qc),
  applied_v1_2d (S := QcS) i0 j0 i1 j1 dx beta b0 b1 gcw u f0 f1 alpha agcw a rgcw res m r w c v0 v1 ->
  applied_v1_2d (S := QcS) i0 j0 i1 j1 dx beta b0 b1 gcw u f0 f1 alpha agcw a rgcw res n s z c v0 v1 ->
  (0 < beta)%Qc ->
  dx 0%Z <> 0%Qc ->
  (0 <= alpha)%Qc ->
  (forall i j, patch2 i0 j0 i1 j1 i j -> (0 <= c i j)%Qc) ->
  (forall i j, i0 <= i <= i1 + 1 -> j0 <= j <= j1 -> (0 < v0 i j)%Qc) ->
  (forall i j, i0 <= i <= i1 -> j0 <= j <= j1 + 1 -> (0 <= v1 i j)%Qc) ->
  (forall i j, patch2 i0 j0 i1 j1 i j -> r i j = s i j) ->
  (forall i j, ghost2 i0 j0 i1 j1 i j -> w i j = z i j) ->
  forall i j, patch2 i0 j0 i1 j1 i j -> w i j = z i j.
Proof. exact @unique_v1_2d. Qed.
Print Assumptions C73_unique_v1_2d.

Example C73_unique_v1_2d_example :
  applied_v1_2d (S := QcS) 0 0 1 1 ex_h (ex_q 2) (0%nat, 0) (1%nat, 0) 1 (4%nat, 0) (5%nat, 0) (6%nat, 0) (ex_q 3) 0 (3%nat, 0) 0 (8%nat, 0) (ex_so 16 ex_any) (r_v1_2d ex_any) (w_v1_2d ex_any) c_v1_2d v0_v1_2d v1_v1_2d /\
  (0 < (ex_q 2))%Qc /\
  ex_h 0%Z <> 0%Qc /\
  (0 <= (ex_q 3))%Qc /\
  (forall i j, patch2 0 0 1 1 i j -> (0 <= c_v1_2d i j)%Qc) /\
  (forall i j, 0 <= i <= 1 + 1 -> 0 <= j <= 1 -> (0 < v0_v1_2d i j)%Qc) /\
  (forall i j, 0 <= i <= 1 -> 0 <= j <= 1 + 1 -> (0 <= v1_v1_2d i j)%Qc).
Proof.
  split; [exact ex_any_v1_2d|].
  split; [now apply lt|].
  split; [discriminate|].
  split; [now apply le|].
  split; [exact cpos_v1_2d|].
  split; [exact v0pos_v1_2d|].
  exact v1pos_v1_2d.
Qed.

Theorem C73_unique_v2_2d : forall i0 j0 i1 j1 (dx : Z -> Qc) (beta : Qc) b0 b1 gcw u f0 f1 (alpha : Qc) rgcw res (m n : mem QcS) (r w s z v0 v1 : Z -> Z -> Qc),
  applied_v2_2d (S := QcS) i0 j0 i1 j1 dx beta b0 b1 gcw u f0 f1 alpha rgcw res m r w v0 v1 ->
  applied_v2_2d (S := QcS) i0 j0 i1 j1 dx beta b0 b1 gcw u f0 f1 alpha rgcw res n s z v0 v1 ->
  (0 < beta)%Qc ->
  dx 0%Z <> 0%Qc ->
  (0 <= alpha)%Qc ->
  (forall i j, i0 <= i <= i1 + 1 -> j0 <= j <= j1 -> (0 < v0 i j)%Qc) ->
  (forall i j, i0 <= i <= i1 -> j0 <= j <= j1 + 1 -> (0 <= v1 i j)%Qc) ->
  (forall i j, patch2 i0 j0 i1 j1 i j -> r i j = s i j) ->
  (forall i j, ghost2 i0 j0 i1 j1 i j -> w i j = z i j) ->
  forall i j, patch2 i0 j0 i1 j1 i j -> w i j = z i j.
Proof. exact @unique_v2_2d. Qed.
Print Assumptions C73_unique_v2_2d.

Example C73_unique_v2_2d_example :
  applied_v2_2d (S := QcS) 0 0 1 1 ex_h (ex_q 2) (0%nat, 0) (1%nat, 0) 1 (4%nat, 0) (5%nat, 0) (6%nat, 0) (ex_q 3) 0 (8%nat, 0) (ex_so 16 ex_any) (r_v2_2d ex_any) (w_v2_2d ex_any) v0_v2_2d v1_v2_2d /\
  (0 < (ex_q 2))%Qc /\
  ex_h 0%Z <> 0%Qc /\
  (0 <= (ex_q 3))%Qc /\
  (forall i j, 0 <= i <= 1 + 1 -> 0 <= j <= 1 -> (0 < v0_v2_2d i j)%Qc) /\
  (forall i j, 0 <= i <= 1 -> 0 <= j <= 1 + 1 -> (0 <= v1_v2_2d i j)%Qc).
Proof.
  split; [exact ex_any_v2_2d|].
  split; [now apply lt|].
  split; [discriminate|].
  split; [now apply le|].
  split; [exact v0pos_v2_2d|].
  exact v1pos_v2_2d.
Qed.

Theorem C73_unique_poisson_2d : forall i0 j0 i1 j1 (dx : Z -> Qc) (beta : Qc) gcw u f0 f1 rgcw res (m n : mem QcS) (r w s z : Z -> Z -> Qc),
  applied_poisson_2d (S := QcS) i0 j0 i1 j1 dx beta gcw u f0 f1 rgcw res m r w ->
  applied_poisson_2d (S := QcS) i0 j0 i1 j1 dx beta gcw u f0 f1 rgcw res n s z ->
  (0 < beta)%Qc ->
  dx 0%Z <> 0%Qc ->
  (forall i j, patch2 i0 j0 i1 j1 i j -> r i j = s i j) ->
  (forall i j, ghost2 i0 j0 i1 j1 i j -> w i j = z i j) ->
  forall i j, patch2 i0 j0 i1 j1 i j -> w i j = z i j.
Proof. exact @unique_poisson_2d. Qed.
Print Assumptions C73_unique_poisson_2d.

Example C73_unique_poisson_2d_example :
  applied_poisson_2d (S := QcS) 0 0 1 1 ex_h (ex_q 2) 1 (4%nat, 0) (5%nat, 0) (6%nat, 0) 0 (8%nat, 0) (ex_so 16 ex_any) (r_poisson_2d ex_any) (w_poisson_2d ex_any)  /\
  (0 < (ex_q 2))%Qc /\
  ex_h 0%Z <> 0%Qc.
Proof.
  split; [exact ex_any_poisson_2d|].
  split; [now apply lt|].
  discriminate.
Qed.

Theorem C73_unique_v1_3d : forall i0 j0 k0 i1 j1 k1 (dx : Z -> Qc) (beta : Qc) b0 b1 b2 gcw u f0 f1 f2 (alpha : Qc) agcw a rgcw res (m n : mem QcS) (r w s z c v0 v1 v2 : Z -> Z -> Z -> Qc),
  applied_v1_3d (S := QcS) i0 j0 k0 i1 j1 k1 dx beta b0 b1 b2 gcw u f0 f1 f2 alpha agcw a rgcw res m r w c v0 v1 v2 ->
  applied_v1_3d (S := QcS) i0 j0 k0 i1 j1 k1 dx beta b0 b1 b2 gcw u f0 f1 f2 alpha agcw a rgcw res n s z c v0 v1 v2 ->
  (0 < beta)%Qc ->
  dx 0%Z <> 0%Qc ->
  (0 <= alpha)%Qc ->
  (forall i j k, patch3 i0 j0 k0 i1 j1 k1 i j k -> (0 <= c i j k)%Qc) ->
  (forall i j k, i0 <= i <= i1 + 1 -> j0 <= j <= j1 -> k0 <= k <= k1 -> (0 < v0 i j k)%Qc) ->
  (forall i j k, i0 <= i <= i1 -> j0 <= j <= j1 + 1 -> k0 <= k <= k1 -> (0 <= v1 i j k)%Qc) ->
  (forall i j k, i0 <= i <= i1 -> j0 <= j <= j1 -> k0 <= k <= k1 + 1 -> (0 <= v2 i j k)%Qc) ->
  (forall i j k, patch3 i0 j0 k0 i1 j1 k1 i j k -> r i j k = s i j k) ->
  (forall i j k, ghost3 i0 j0 k0 i1 j1 k1 i j k -> w i j k = z i j k) ->
  forall i j k, patch3 i0 j0 k0 i1 j1 k1 i j k -> w i j k = z i j k.
Proof. exact @unique_v1_3d. Qed.
Print Assumptions C73_unique_v1_3d.

Example C73_unique_v1_3d_example :
  applied_v1_3d (S := QcS) 0 0 0 1 1 0 ex_h (ex_q 2) (0%nat, 0) (1%nat, 0) (2%nat, 0) 1 (4%nat, 0) (5%nat, 0) (6%nat, 0) (7%nat, 0) (ex_q 3) 0 (3%nat, 0) 0 (8%nat, 0) (ex_so 48 ex_any) (r_v1_3d ex_any) (w_v1_3d ex_any) c_v1_3d v0_v1_3d v1_v1_3d v2_v1_3d /\
  (0 < (ex_q 2))%Qc /\
  ex_h 0%Z <> 0%Qc /\
  (0 <= (ex_q 3))%Qc /\
  (forall i j k, patch3 0 0 0 1 1 0 i j k -> (0 <= c_v1_3d i j k)%Qc) /\
  (forall i j k, 0 <= i <= 1 + 1 -> 0 <= j <= 1 -> 0 <= k <= 0 -> (0 < v0_v1_3d i j k)%Qc) /\
  (forall i j k, 0 <= i <= 1 -> 0 <= j <= 1 + 1 -> 0 <= k <= 0 -> (0 <= v1_v1_3d i j k)%Qc) /\
  (forall i j k, 0 <= i <= 1 -> 0 <= j <= 1 -> 0 <= k <= 0 + 1 -> (0 <= v2_v1_3d i j k)%Qc).
Proof.
  split; [exact ex_any_v1_3d|].
  split; [now apply lt|].
  split; [discriminate|].
  split; [now apply le|].
  split; [exact cpos_v1_3d|].
  split; [exact v0pos_v1_3d|].
  split; [exact v1pos_v1_3d|].
  exact v2pos_v1_3d.
Qed.

Theorem C73_unique_v2_3d : forall i0 j0 k0 i1 j1 k1 (dx : Z -> Qc) (beta : Qc) b0 b1 b2 gcw u f0 f1 f2 (alpha : Qc) rgcw res (m n : mem QcS) (r w s z v0 v1 v2 : Z -> Z -> Z -> Qc),
  applied_v2_3d (S := QcS) i0 j0 k0 i1 j1 k1 dx beta b0 b1 b2 gcw u f0 f1 f2 alpha rgcw res m r w v0 v1 v2 ->
  applied_v2_3d (S := QcS) i0 j0 k0 i1 j1 k1 dx beta b0 b1 b2 gcw u f0 f1 f2 alpha rgcw res n s z v0 v1 v2 ->
  (0 < beta)%Qc ->
  dx 0%Z <> 0%Qc ->
  (0 <= alpha)%Qc ->
  (forall i j k, i0 <= i <= i1 + 1 -> j0 <= j <= j1 -> k0 <= k <= k1 -> (0 < v0 i j k)%Qc) ->
  (forall i j k, i0 <= i <= i1 -> j0 <= j <= j1 + 1 -> k0 <= k <= k1 -> (0 <= v1 i j k)%Qc) ->
  (forall i j k, i0 <= i <= i1 -> j0 <= j <= j1 -> k0 <= k <= k1 + 1 -> (0 <= v2 i j k)%Qc) ->
  (forall i j k, patch3 i0 j0 k0 i1 j1 k1 i j k -> r i j k = s i j k) ->
  (forall i j k, ghost3 i0 j0 k0 i1 j1 k1 i j k -> w i j k = z i j k) ->
  forall i j k, patch3 i0 j0 k0 i1 j1 k1 i j k -> w i j k = z i j k.
Proof. exact @unique_v2_3d. Qed.
Print Assumptions C73_unique_v2_3d.

Example C73_unique_v2_3d_example :
  applied_v2_3d (S := QcS) 0 0 0 1 1 0 ex_h (ex_q 2) (0%nat, 0) (1%nat, 0) (2%nat, 0) 1 (4%nat, 0) (5%nat, 0) (6%nat, 0) (7%nat, 0) (ex_q 3) 0 (8%nat, 0) (ex_so 48 ex_any) (r_v2_3d ex_any) (w_v2_3d ex_any) v0_v2_3d v1_v2_3d v2_v2_3d /\
  (0 < (ex_q 2))%Qc /\
  ex_h 0%Z <> 0%Qc /\
  (0 <= (ex_q 3))%Qc /\
  (forall i j k, 0 <= i <= 1 + 1 -> 0 <= j <= 1 -> 0 <= k <= 0 -> (0 < v0_v2_3d i j k)%Qc) /\
  (forall i j k, 0 <= i <= 1 -> 0 <= j <= 1 + 1 -> 0 <= k <= 0 -> (0 <= v1_v2_3d i j k)%Qc) /\
  (forall i j k, 0 <= i <= 1 -> 0 <= j <= 1 -> 0 <= k <= 0 + 1 -> (0 <= v2_v2_3d i j k)%Qc).
Proof.
  split; [exact ex_any_v2_3d|].
  split; [now apply lt|].
  split; [discriminate|].
  split; [now apply le|].
  split; [exact v0pos_v2_3d|].
  split; [exact v1pos_v2_3d|].
  exact v2pos_v2_3d.
Qed.

Theorem C73_unique_poisson_3d : forall i0 j0 k0 i1 j1 k1 (dx : Z -> Qc) (beta : Qc) gcw u f0 f1 f2 rgcw res (m n : mem QcS) (r w s z : Z -> Z -> Z -> Qc),
  applied_poisson_3d (S := QcS) i0 j0 k0 i1 j1 k1 dx beta gcw u f0 f1 f2 rgcw res m r w ->
  applied_poisson_3d (S := QcS) i0 j0 k0 i1 j1 k1 dx beta gcw u f0 f1 f2 rgcw res n s z ->
  (0 < beta)%Qc ->
  dx 0%Z <> 0%Qc ->
  (forall i j k, patch3 i0 j0 k0 i1 j1 k1 i j k -> r i j k = s i j k) ->
  (forall i j k, ghost3 i0 j0 k0 i1 j1 k1 i j k -> w i j k = z i j k) ->
  forall i j k, patch3 i0 j0 k0 i1 j1 k1 i j k -> w i j k = z i j k.
Proof. exact @unique_poisson_3d. Qed.
Print Assumptions C73_unique_poisson_3d.

Example C73_unique_poisson_3d_example :
  applied_poisson_3d (S := QcS) 0 0 0 1 1 0 ex_h (ex_q 2) 1 (4%nat, 0) (5%nat, 0) (6%nat, 0) (7%nat, 0) 0 (8%nat, 0) (ex_so 48 ex_any) (r_poisson_3d ex_any) (w_poisson_3d ex_any)  /\
  (0 < (ex_q 2))%Qc /\
  ex_h 0%Z <> 0%Qc.
Proof.
  split; [exact ex_any_poisson_3d|].
  split; [now apply lt|].
  discriminate.
Qed.

(** C73: a solution, in memory. *)

Theorem C73_solve_v1_1d : forall i0 i1 (dx : Z -> Qc) (beta : Qc) b0 gcw u f0 (alpha : Qc) agcw a rgcw res (m : mem QcS) (r w c v0 f : Z -> Qc),
  applied_v1_1d (S := QcS) i0 i1 dx beta b0 gcw u f0 alpha agcw a rgcw res m r w c v0 ->
  1 <= gcw ->
  apart u [b0; a] ->
  (0 < beta)%Qc ->
  dx 0%Z <> 0%Qc ->
  (0 <= alpha)%Qc ->
  (forall i, patch1 i0 i1 i -> (0 <= c i)%Qc) ->
  (forall i, i0 <= i <= i1 + 1 -> (0 < v0 i)%Qc) ->
  exists (n : mem QcS) (z : Z -> Qc), applied_v1_1d (S := QcS) i0 i1 dx beta b0 gcw u f0 alpha agcw a rgcw res n f z c v0 /\
    (forall i, ~ patch1 i0 i1 i -> z i = w i) /\
    shape n = shape m /\ ints n = ints m /\
    (forall p, (forall i, patch1 i0 i1 i -> faddr (mkFa u (CELL1d i0 i1 gcw)) [i] <> p) -> load n p = load m p).
Proof. exact @solve_v1_1d. Qed.
Print Assumptions C73_solve_v1_1d.

Example C73_solve_v1_1d_example :
  applied_v1_1d (S := QcS) 0 1 ex_h (ex_q 2) (0%nat, 0) 1 (4%nat, 0) (5%nat, 0) (ex_q 3) 0 (3%nat, 0) 0 (8%nat, 0) (ex_so 4 ex_any) (r_v1_1d ex_any) (w_v1_1d ex_any) c_v1_1d v0_v1_1d /\
  1 <= 1 /\
  apart (4%nat, 0) [(0%nat, 0); (3%nat, 0)] /\
  (0 < (ex_q 2))%Qc /\
  ex_h 0%Z <> 0%Qc /\
  (0 <= (ex_q 3))%Qc /\
  (forall i, patch1 0 1 i -> (0 <= c_v1_1d i)%Qc) /\
  (forall i, 0 <= i <= 1 + 1 -> (0 < v0_v1_1d i)%Qc).
Proof.
  split; [exact ex_any_v1_1d|].
  split; [lia|].
  split; [k_apart|].
  split; [now apply lt|].
  split; [discriminate|].
  split; [now apply le|].
  split; [exact cpos_v1_1d|].
  exact v0pos_v1_1d.
Qed.

Theorem C73_solve_v2_1d : forall i0 i1 (dx : Z -> Qc) (beta : Qc) b0 gcw u f0 (alpha : Qc) rgcw res (m : mem QcS) (r w v0 f : Z -> Qc),
  applied_v2_1d (S := QcS) i0 i1 dx beta b0 gcw u f0 alpha rgcw res m r w v0 ->
  1 <= gcw ->
  apart u [b0] ->
  (0 < beta)%Qc ->
  dx 0%Z <> 0%Qc ->
  (0 <= alpha)%Qc ->
  (forall i, i0 <= i <= i1 + 1 -> (0 < v0 i)%Qc) ->
  exists (n : mem QcS) (z : Z -> Qc), applied_v2_1d (S := QcS) i0 i1 dx beta b0 gcw u f0 alpha rgcw res n f z v0 /\
    (forall i, ~ patch1 i0 i1 i -> z i = w i) /\
    shape n = shape m /\ ints n = ints m /\
    (forall p, (forall i, patch1 i0 i1 i -> faddr (mkFa u (CELL1d i0 i1 gcw)) [i] <> p) -> load n p = load m p).
Proof. exact @solve_v2_1d. Qed.
Print Assumptions C73_solve_v2_1d.

Example C73_solve_v2_1d_example :
  applied_v2_1d (S := QcS) 0 1 ex_h (ex_q 2) (0%nat, 0) 1 (4%nat, 0) (5%nat, 0) (ex_q 3) 0 (8%nat, 0) (ex_so 4 ex_any) (r_v2_1d ex_any) (w_v2_1d ex_any) v0_v2_1d /\
  1 <= 1 /\
  apart (4%nat, 0) [(0%nat, 0)] /\
  (0 < (ex_q 2))%Qc /\
  ex_h 0%Z <> 0%Qc /\
  (0 <= (ex_q 3))%Qc /\
  (forall i, 0 <= i <= 1 + 1 -> (0 < v0_v2_1d i)%Qc).
Proof.
  split; [exact ex_any_v2_1d|].
  split; [lia|].
  split; [k_apart|].
  split; [now apply lt|].
  split; [discriminate|].
  split; [now apply le|].
  exact v0pos_v2_1d.
Qed.

Theorem C73_solve_poisson_1d : forall i0 i1 (dx : Z -> Qc) (beta : Qc) gcw u f0 rgcw res (m : mem QcS) (r w f : Z -> Qc),
  applied_poisson_1d (S := QcS) i0 i1 dx beta gcw u f0 rgcw res m r w ->
  1 <= gcw ->
  (0 < beta)%Qc ->
  dx 0%Z <> 0%Qc ->
  exists (n : mem QcS) (z : Z -> Qc), applied_poisson_1d (S := QcS) i0 i1 dx beta gcw u f0 rgcw res n f z /\
    (forall i, ~ patch1 i0 i1 i -> z i = w i) /\
    shape n = shape m /\ ints n = ints m /\
    (forall p, (forall i, patch1 i0 i1 i -> faddr (mkFa u (CELL1d i0 i1 gcw)) [i] <> p) -> load n p = load m p).
Proof. exact @solve_poisson_1d. Qed.
Print Assumptions C73_solve_poisson_1d.

Example C73_solve_poisson_1d_example :
  applied_poisson_1d (S := QcS) 0 1 ex_h (ex_q 2) 1 (4%nat, 0) (5%nat, 0) 0 (8%nat, 0) (ex_so 4 ex_any) (r_poisson_1d ex_any) (w_poisson_1d ex_any)  /\
  1 <= 1 /\
  (0 < (ex_q 2))%Qc /\
  ex_h 0%Z <> 0%Qc.
Proof.
  split; [exact ex_any_poisson_1d|].
  split; [lia|].
  split; [now apply lt|].
  discriminate.
Qed.

Theorem C73_solve_v1_2d : forall i0 j0 i1 j1 (dx : Z -> Qc) (beta : Qc) b0 b1 gcw u f0 f1 (alpha : Qc) agcw a rgcw res (m : mem QcS) (r w c v0 v1 f : Z -> Z -> Qc),
  applied_v1_2d (S := QcS) i0 j0 i1 j1 dx beta b0 b1 gcw u f0 f1 alpha agcw a rgcw res m r w c v0 v1 ->
  1 <= gcw ->
  apart u [b0; b1; a] ->
  (0 < beta)%Qc ->
  dx 0%Z <> 0%Qc ->
  (0 <= alpha)%Qc ->
  (forall i j, patch2 i0 j0 i1 j1 i j -> (0 <= c i j)%Qc) ->
  (forall i j, i0 <= i <= i1 + 1 -> j0 <= j <= j1 -> (0 < v0 i j)%Qc) ->
  (forall i j, i0 <= i <= i1 -> j0 <= j <= j1 + 1 -> (0 <= v1 i j)%Qc) ->
  exists (n : mem QcS) (z : Z -> Z -> Qc), applied_v1_2d (S := QcS) i0 j0 i1 j1 dx beta b0 b1 gcw u f0 f1 alpha agcw a rgcw res n f z c v0 v1 /\
    (forall i j, ~ patch2 i0 j0 i1 j1 i j -> z i j = w i j) /\
    shape n = shape m /\ ints n = ints m /\
    (forall p, (forall i j, patch2 i0 j0 i1 j1 i j -> faddr (mkFa u (CELL2d i0 j0 i1 j1 gcw)) [i; j] <> p) -> load n p = load m p).
Proof. exact @solve_v1_2d. Qed.
Print Assumptions C73_solve_v1_2d.

Example C73_solve_v1_2d_example :
  applied_v1_2d (S := QcS) 0 0 1 1 ex_h (ex_q 2) (0%nat, 0) (1%nat, 0) 1 (4%nat, 0) (5%nat, 0) (6%nat, 0) (ex_q 3) 0 (3%nat, 0) 0 (8%nat, 0) (ex_so 16 ex_any) (r_v1_2d ex_any) (w_v1_2d ex_any) c_v1_2d v0_v1_2d v1_v1_2d /\
  1 <= 1 /\
  apart (4%nat, 0) [(0%nat, 0); (1%nat, 0); (3%nat, 0)] /\
  (0 < (ex_q 2))%Qc /\
  ex_h 0%Z <> 0%Qc /\
  (0 <= (ex_q 3))%Qc /\
  (forall i j, patch2 0 0 1 1 i j -> (0 <= c_v1_2d i j)%Qc) /\
  (forall i j, 0 <= i <= 1 + 1 -> 0 <= j <= 1 -> (0 < v0_v1_2d i j)%Qc) /\
  (forall i j, 0 <= i <= 1 -> 0 <= j <= 1 + 1 -> (0 <= v1_v1_2d i j)%Qc).
Proof.
  split; [exact ex_any_v1_2d|].
  split; [lia|].
  split; [k_apart|].
  split; [now apply lt|].
  split; [discriminate|].
  split; [now apply le|].
  split; [exact cpos_v1_2d|].
  split; [exact v0pos_v1_2d|].
  exact v1pos_v1_2d.
Qed.

Theorem C73_solve_v2_2d : forall i0 j0 i1 j1 (dx : Z -> Qc) (beta : Qc) b0 b1 gcw u f0 f1 (alpha : Qc) rgcw res (m : mem QcS) (r w v0 v1 f : Z -> Z -> Qc),
  applied_v2_2d (S := QcS) i0 j0 i1 j1 dx beta b0 b1 gcw u f0 f1 alpha rgcw res m r w v0 v1 ->
  1 <= gcw ->
  apart u [b0; b1] ->
  (0 < beta)%Qc ->
  dx 0%Z <> 0%Qc ->
  (0 <= alpha)%Qc ->
  (forall i j, i0 <= i <= i1 + 1 -> j0 <= j <= j1 -> (0 < v0 i j)%Qc) ->
  (forall i j, i0 <= i <= i1 -> j0 <= j <= j1 + 1 -> (0 <= v1 i j)%Qc) ->
  exists (n : mem QcS) (z : Z -> Z -> Qc), applied_v2_2d (S := QcS) i0 j0 i1 j1 dx beta b0 b1 gcw u f0 f1 alpha rgcw res n f z v0 v1 /\
    (forall i j, ~ patch2 i0 j0 i1 j1 i j -> z i j = w i j) /\
    shape n = shape m /\ ints n = ints m /\
    (forall p, (forall i j, patch2 i0 j0 i1 j1 i j -> faddr (mkFa u (CELL2d i0 j0 i1 j1 gcw)) [i; j] <> p) -> load n p = load m p).
Proof. exact @solve_v2_2d. Qed.
Print Assumptions C73_solve_v2_2d.

Example C73_solve_v2_2d_example :
  applied_v2_2d (S := QcS) 0 0 1 1 ex_h (ex_q 2) (0%nat, 0) (1%nat, 0) 1 (4%nat, 0) (5%nat, 0) (6%nat, 0) (ex_q 3) 0 (8%nat, 0) (ex_so 16 ex_any) (r_v2_2d ex_any) (w_v2_2d ex_any) v0_v2_2d v1_v2_2d /\
  1 <= 1 /\
  apart (4%nat, 0) [(0%nat, 0); (1%nat, 0)] /\
  (0 < (ex_q 2))%Qc /\
  ex_h 0%Z <> 0%Qc /\
  (0 <= (ex_q 3))%Qc /\
  (forall i j, 0 <= i <= 1 + 1 -> 0 <= j <= 1 -> (0 < v0_v2_2d i j)%Qc) /\
  (forall i j, 0 <= i <= 1 -> 0 <= j <= 1 + 1 -> (0 <= v1_v2_2d i j)%Qc).
Proof.
  split; [exact ex_any_v2_2d|].
  split; [lia|].
  split; [k_apart|].
  split; [now apply lt|].
  split; [discriminate|].
  split; [now apply le|].
  split; [exact v0pos_v2_2d|].
  exact v1pos_v2_2d.
Qed.

Theorem C73_solve_poisson_2d : forall i0 j0 i1 j1 (dx : Z -> Qc) (beta : Qc) gcw u f0 f1 rgcw res (m : mem QcS) (r w f : Z -> Z -> Qc),
  applied_poisson_2d (S := QcS) i0 j0 i1 j1 dx beta gcw u f0 f1 rgcw res m r w ->
  1 <= gcw ->
  (0 < beta)%Qc ->
  dx 0%Z <> 0%Qc ->
  exists (n : mem QcS) (z : Z -> Z -> Qc), applied_poisson_2d (S := QcS) i0 j0 i1 j1 dx beta gcw u f0 f1 rgcw res n f z /\
    (forall i j, ~ patch2 i0 j0 i1 j1 i j -> z i j = w i j) /\
    shape n = shape m /\ ints n = ints m /\
    (forall p, (forall i j, patch2 i0 j0 i1 j1 i j -> faddr (mkFa u (CELL2d i0 j0 i1 j1 gcw)) [i; j] <> p) -> load n p = load m p).
Proof. exact @solve_poisson_2d. Qed.
Print Assumptions C73_solve_poisson_2d.

Example C73_solve_poisson_2d_example :
  applied_poisson_2d (S := QcS) 0 0 1 1 ex_h (ex_q 2) 1 (4%nat, 0) (5%nat, 0) (6%nat, 0) 0 (8%nat, 0) (ex_so 16 ex_any) (r_poisson_2d ex_any) (w_poisson_2d ex_any)  /\
  1 <= 1 /\
  (0 < (ex_q 2))%Qc /\
  ex_h 0%Z <> 0%Qc.
Proof.
  split; [exact ex_any_poisson_2d|].
  split; [lia|].
  split; [now apply lt|].
  discriminate.
Qed.

Theorem C73_solve_v1_3d : forall i0 j0 k0 i1 j1 k1 (dx : Z -> Qc) (beta : Qc) b0 b1 b2 gcw u f0 f1 f2 (alpha : Qc) agcw a rgcw res (m : mem QcS) (r w c v0 v1 v2 f : Z -> Z -> Z -> Qc),
  applied_v1_3d (S := QcS) i0 j0 k0 i1 j1 k1 dx beta b0 b1 b2 gcw u f0 f1 f2 alpha agcw a rgcw res m r w c v0 v1 v2 ->
  1 <= gcw ->
  apart u [b0; b1; b2; a] ->
  (0 < beta)%Qc ->
  dx 0%Z <> 0%Qc ->
  (0 <= alpha)%Qc ->
  (forall i j k, patch3 i0 j0 k0 i1 j1 k1 i j k -> (0 <= c i j k)%Qc) ->
  (forall i j k, i0 <= i <= i1 + 1 -> j0 <= j <= j1 -> k0 <= k <= k1 -> (0 < v0 i j k)%Qc) ->
  (forall i j k, i0 <= i <= i1 -> j0 <= j <= j1 + 1 -> k0 <= k <= k1 -> (0 <= v1 i j k)%Qc) ->
  (forall i j k, i0 <= i <= i1 -> j0 <= j <= j1 -> k0 <= k <= k1 + 1 -> (0 <= v2 i j k)%Qc) ->
  exists (n : mem QcS) (z : Z -> Z -> Z -> Qc), applied_v1_3d (S := QcS) i0 j0 k0 i1 j1 k1 dx beta b0 b1 b2 gcw u f0 f1 f2 alpha agcw a rgcw res n f z c v0 v1 v2 /\
    (forall i j k, ~ patch3 i0 j0 k0 i1 j1 k1 i j k -> z i j k = w i j k) /\
    shape n = shape m /\ ints n = ints m /\
    (forall p, (forall i j k, patch3 i0 j0 k0 i1 j1 k1 i j k -> faddr (mkFa u (CELL3d i0 j0 k0 i1 j1 k1 gcw)) [i; j; k] <> p) -> load n p = load m p).
Proof. exact @solve_v1_3d. Qed.
Print Assumptions C73_solve_v1_3d.

Example C73_solve_v1_3d_example :
  applied_v1_3d (S := QcS) 0 0 0 1 1 0 ex_h (ex_q 2) (0%nat, 0) (1%nat, 0) (2%nat, 0) 1 (4%nat, 0) (5%nat, 0) (6%nat, 0) (7%nat, 0) (ex_q 3) 0 (3%nat, 0) 0 (8%nat, 0) (ex_so 48 ex_any) (r_v1_3d ex_any) (w_v1_3d ex_any) c_v1_3d v0_v1_3d v1_v1_3d v2_v1_3d /\
  1 <= 1 /\
  apart (4%nat, 0) [(0%nat, 0); (1%nat, 0); (2%nat, 0); (3%nat, 0)] /\
  (0 < (ex_q 2))%Qc /\
  ex_h 0%Z <> 0%Qc /\
  (0 <= (ex_q 3))%Qc /\
  (forall i j k, patch3 0 0 0 1 1 0 i j k -> (0 <= c_v1_3d i j k)%Qc) /\
  (forall i j k, 0 <= i <= 1 + 1 -> 0 <= j <= 1 -> 0 <= k <= 0 -> (0 < v0_v1_3d i j k)%Qc) /\
  (forall i j k, 0 <= i <= 1 -> 0 <= j <= 1 + 1 -> 0 <= k <= 0 -> (0 <= v1_v1_3d i j k)%Qc) /\
  (forall i j k, 0 <= i <= 1 -> 0 <= j <= 1 -> 0 <= k <= 0 + 1 -> (0 <= v2_v1_3d i j k)%Qc).
Proof.
  split; [exact ex_any_v1_3d|].
  split; [lia|].
  split; [k_apart|].
  split; [now apply lt|].
  split; [discriminate|].
  split; [now apply le|].
  split; [exact cpos_v1_3d|].
  split; [exact v0pos_v1_3d|].
  split; [exact v1pos_v1_3d|].
  exact v2pos_v1_3d.
Qed.

Theorem C73_solve_v2_3d : forall i0 j0 k0 i1 j1 k1 (dx : Z -> Qc) (beta : Qc) b0 b1 b2 gcw u f0 f1 f2 (alpha : Qc) rgcw res (m : mem QcS) (r w v0 v1 v2 f : Z -> Z -> Z -> Qc),
  applied_v2_3d (S := QcS) i0 j0 k0 i1 j1 k1 dx beta b0 b1 b2 gcw u f0 f1 f2 alpha rgcw res m r w v0 v1 v2 ->
  1 <= gcw ->
  apart u [b0; b1; b2] ->
  (0 < beta)%Qc ->
  dx 0%Z <> 0%Qc ->
  (0 <= alpha)%Qc ->
  (forall i j k, i0 <= i <= i1 + 1 -> j0 <= j <= j1 -> k0 <= k <= k1 -> (0 < v0 i j k)%Qc) ->
  (forall i j k, i0 <= i <= i1 -> j0 <= j <= j1 + 1 -> k0 <= k <= k1 -> (0 <= v1 i j k)%Qc) ->
  (forall i j k, i0 <= i <= i1 -> j0 <= j <= j1 -> k0 <= k <= k1 + 1 -> (0 <= v2 i j k)%Qc) ->
  exists (n : mem QcS) (z : Z -> Z -> Z -> Qc), applied_v2_3d (S := QcS) i0 j0 k0 i1 j1 k1 dx beta b0 b1 b2 gcw u f0 f1 f2 alpha rgcw res n f z v0 v1 v2 /\
    (forall i j k, ~ patch3 i0 j0 k0 i1 j1 k1 i j k -> z i j k = w i j k) /\
    shape n = shape m /\ ints n = ints m /\
    (forall p, (forall i j k, patch3 i0 j0 k0 i1 j1 k1 i j k -> faddr (mkFa u (CELL3d i0 j0 k0 i1 j1 k1 gcw)) [i; j; k] <> p) -> load n p = load m p).
Proof. exact @solve_v2_3d. Qed.
Print Assumptions C73_solve_v2_3d.

Example C73_solve_v2_3d_example :
  applied_v2_3d (S := QcS) 0 0 0 1 1 0 ex_h (ex_q 2) (0%nat, 0) (1%nat, 0) (2%nat, 0) 1 (4%nat, 0) (5%nat, 0) (6%nat, 0) (7%nat, 0) (ex_q 3) 0 (8%nat, 0) (ex_so 48 ex_any) (r_v2_3d ex_any) (w_v2_3d ex_any) v0_v2_3d v1_v2_3d v2_v2_3d /\
  1 <= 1 /\
  apart (4%nat, 0) [(0%nat, 0); (1%nat, 0); (2%nat, 0)] /\
  (0 < (ex_q 2))%Qc /\
  ex_h 0%Z <> 0%Qc /\
  (0 <= (ex_q 3))%Qc /\
  (forall i j k, 0 <= i <= 1 + 1 -> 0 <= j <= 1 -> 0 <= k <= 0 -> (0 < v0_v2_3d i j k)%Qc) /\
  (forall i j k, 0 <= i <= 1 -> 0 <= j <= 1 + 1 -> 0 <= k <= 0 -> (0 <= v1_v2_3d i j k)%Qc) /\
  (forall i j k, 0 <= i <= 1 -> 0 <= j <= 1 -> 0 <= k <= 0 + 1 -> (0 <= v2_v2_3d i j k)%Qc).
Proof.
  split; [exact ex_any_v2_3d|].
  split; [lia|].
  split; [k_apart|].
  split; [now apply lt|].
  split; [discriminate|].
  split; [now apply le|].
  split; [exact v0pos_v2_3d|].
  split; [exact v1pos_v2_3d|].
  exact v2pos_v2_3d.
Qed.

Theorem C73_solve_poisson_3d : forall i0 j0 k0 i1 j1 k1 (dx : Z -> Qc) (beta : Qc) gcw u f0 f1 f2 rgcw res (m : mem QcS) (r w f : Z -> Z -> Z -> Qc),
  applied_poisson_3d (S := QcS) i0 j0 k0 i1 j1 k1 dx beta gcw u f0 f1 f2 rgcw res m r w ->
  1 <= gcw ->
  (0 < beta)%Qc ->
  dx 0%Z <> 0%Qc ->
  exists (n : mem QcS) (z : Z -> Z -> Z -> Qc), applied_poisson_3d (S := QcS) i0 j0 k0 i1 j1 k1 dx beta gcw u f0 f1 f2 rgcw res n f z /\
    (forall i j k, ~ patch3 i0 j0 k0 i1 j1 k1 i j k -> z i j k = w i j k) /\
    shape n = shape m /\ ints n = ints m /\
    (forall p, (forall i j k, patch3 i0 j0 k0 i1 j1 k1 i j k -> faddr (mkFa u (CELL3d i0 j0 k0 i1 j1 k1 gcw)) [i; j; k] <> p) -> load n p = load m p).
Proof. exact @solve_poisson_3d. Qed.
Print Assumptions C73_solve_poisson_3d.

Example C73_solve_poisson_3d_example :
  applied_poisson_3d (S := QcS) 0 0 0 1 1 0 ex_h (ex_q 2) 1 (4%nat, 0) (5%nat, 0) (6%nat, 0) (7%nat, 0) 0 (8%nat, 0) (ex_so 48 ex_any) (r_poisson_3d ex_any) (w_poisson_3d ex_any)  /\
  1 <= 1 /\
  (0 < (ex_q 2))%Qc /\
  ex_h 0%Z <> 0%Qc.
Proof.
  split; [exact ex_any_poisson_3d|].
  split; [lia|].
  split; [now apply lt|].
  discriminate.
Qed.

(** Two cells of each example: the numbers are not constant. *)
Example C71_values : (r_v1_2d ex_any 0 0 <> r_v1_2d ex_any 1 0) /\ (w_v1_2d ex_any 0 0 <> w_v1_2d ex_sum 0 0).
Proof. split; intros C; apply (f_equal this) in C; vm_compute in C; discriminate. Qed.
