(** * The 3D boundary kernels continue the polynomials that satisfy the condition *)

From Coq Require Import Permutation Field.
From Verif Require Import Base ModelBounds ModelMatrix ModelIters ModelSpan Spec SpecIter ModelSched
  LemBase LemDomain LemExpr LemExec SpecAssign LemProps LemProps4
  FortranBase SpecKernel SpecBoundary Instances LemField LemKernel LemKernel2 KernelNotations KernelsBC LemBC LemBoundary.
Import ListNotations.
Open Scope Z_scope.

Section Exact3.
  Context {S : Scalar} (L : field_laws S).

  Lemma cd_3d_set_bc_exact lo hi dx dgcw d0 d1 d2 ugcw u bLo bHi exOrder face btype alpha beta (m m' : mem S) q cs dv :
    let ua := mkFa u (CELL3d (lo 0) (lo 1) (lo 2) (hi 0) (hi 1) (hi 2) ugcw) in
    let da0 := mkFa d0 (FACE3d0 (lo 0) (lo 1) (lo 2) (hi 0) (hi 1) (hi 2) dgcw) in
    let da1 := mkFa d1 (FACE3d1 (lo 0) (lo 1) (lo 2) (hi 0) (hi 1) (hi 2) dgcw) in
    let da2 := mkFa d2 (FACE3d2 (lo 0) (lo 1) (lo 2) (hi 0) (hi 1) (hi 2) dgcw) in
    let h := dx (dir face) in
    0 <= face < 6 -> 0 <= ugcw -> apart u [d0; d1; d2] ->
    ghost_cell 3 face lo hi bLo bHi q ->
    in_array 3 ugcw lo hi q -> in_array 3 ugcw lo hi (inward face (depth btype exOrder) q) ->
    satisfies_bc btype alpha beta dv cs -> order_covers btype exOrder cs -> robin_solvable btype exOrder alpha beta dv h ->
    (btype = 4 -> coef3 da0 da1 da2 face q m = Some dv) ->
    (btype = 4 -> exOrder = 2 -> beta = lit 1) ->
    (forall k, 1 <= k <= depth btype exOrder ->
       fel ua (map (inward face k q) [0; 1; 2]) m = Some (peval cs (centre_x k h))) ->
    cd_3d_set_bc (lo 0) (hi 0) (lo 1) (hi 1) (lo 2) (hi 2) dx dgcw d0 d1 d2 ugcw u bLo bHi exOrder face 1 btype alpha beta m = Some m' ->
    fel ua (map q [0; 1; 2]) m' = Some (peval cs (ghost_x h)).
  Proof.
    intros ua da0 da1 da2 h Hf Hg Hap Hq Hin Hin2 Hbc Hord Hrob Hcoef Hbeta Hu E.
    k_apart.
    assert (face = 0 \/ face = 1 \/ face = 2 \/ face = 3 \/ face = 4 \/ face = 5) as HF by lia.
    unfold ghost_cell in Hq. unfold in_array in Hin, Hin2.
    pose proof (Hq 0 ltac:(lia)) as Q0. pose proof (Hq 1 ltac:(lia)) as Q1. pose proof (Hq 2 ltac:(lia)) as Q2.
    pose proof (Hin 0 ltac:(lia)) as A0. pose proof (Hin 1 ltac:(lia)) as A1. pose proof (Hin 2 ltac:(lia)) as A2.
    pose proof (Hin2 0 ltac:(lia)) as B0. pose proof (Hin2 1 ltac:(lia)) as B1. pose proof (Hin2 2 ltac:(lia)) as B2.
    pose proof (Hu 1) as U1. pose proof (Hu 2) as U2. clear Hq Hin Hin2 Hu.
    unfold cd_3d_set_bc in E; cbv zeta in E; cbn [Z.eqb Pos.eqb] in E.
    unfold h, ua, da0, da1, da2 in * ; clear ua da0 da1 da2 h.
    destruct HF as [->|[->|[->|[->|[->| ->]]]]]; cbn [Z.eqb Pos.eqb] in E.
    all: unfold inward, coef3, face_index, fel in * ; k_dir; cbn [map] in * ; cbn [Z.eqb Pos.eqb] in * .
    all: destruct Hbc as [[-> Hv]|[[-> Hv]|[-> Hv]]]; cbn [Z.eqb Pos.eqb] in E;
      unfold order_covers, robin_solvable, depth in * ; cbn [Z.eqb Pos.eqb negb andb] in * ;
      try (destruct Hord as [[->| ->] Hd]); cbn [Z.eqb Pos.eqb] in * .
    all: k_exact L E U1 U2 Hcoef Hv Hrob Hbeta (pt3 dK dJ dI (q 2) (q 1) (q 0)) ltac:(apply in_points3; lia).
  Qed.

  Lemma cd_3d_set_poisson_bc_exact lo hi dx ugcw u bLo bHi exOrder face btype alpha beta (m m' : mem S) q cs :
    let ua := mkFa u (CELL3d (lo 0) (lo 1) (lo 2) (hi 0) (hi 1) (hi 2) ugcw) in
    let h := dx (dir face) in
    0 <= face < 6 -> 0 <= ugcw ->
    ghost_cell 3 face lo hi bLo bHi q ->
    in_array 3 ugcw lo hi q -> in_array 3 ugcw lo hi (inward face (depth btype exOrder) q) ->
    satisfies_bc btype alpha beta (lit 1) cs -> order_covers btype exOrder cs -> robin_solvable btype exOrder alpha beta (lit 1) h ->
    (btype = 4 -> exOrder = 2 -> beta = lit 1) ->
    (forall k, 1 <= k <= depth btype exOrder ->
       fel ua (map (inward face k q) [0; 1; 2]) m = Some (peval cs (centre_x k h))) ->
    cd_3d_set_poisson_bc (lo 0) (hi 0) (lo 1) (hi 1) (lo 2) (hi 2) dx ugcw u bLo bHi exOrder face 1 btype alpha beta m = Some m' ->
    fel ua (map q [0; 1; 2]) m' = Some (peval cs (ghost_x h)).
  Proof.
    intros ua h Hf Hg Hq Hin Hin2 Hbc Hord Hrob Hbeta Hu E.
    pose proof Logic.I as Hcoef.
    assert (face = 0 \/ face = 1 \/ face = 2 \/ face = 3 \/ face = 4 \/ face = 5) as HF by lia.
    unfold ghost_cell in Hq. unfold in_array in Hin, Hin2.
    pose proof (Hq 0 ltac:(lia)) as Q0. pose proof (Hq 1 ltac:(lia)) as Q1. pose proof (Hq 2 ltac:(lia)) as Q2.
    pose proof (Hin 0 ltac:(lia)) as A0. pose proof (Hin 1 ltac:(lia)) as A1. pose proof (Hin 2 ltac:(lia)) as A2.
    pose proof (Hin2 0 ltac:(lia)) as B0. pose proof (Hin2 1 ltac:(lia)) as B1. pose proof (Hin2 2 ltac:(lia)) as B2.
    pose proof (Hu 1) as U1. pose proof (Hu 2) as U2. clear Hq Hin Hin2 Hu.
    unfold cd_3d_set_poisson_bc in E; cbv zeta in E; cbn [Z.eqb Pos.eqb] in E.
    unfold h, ua in * ; clear ua h.
    destruct HF as [->|[->|[->|[->|[->| ->]]]]]; cbn [Z.eqb Pos.eqb] in E.
    all: unfold inward, face_index, fel in * ; k_dir; cbn [map] in * ; cbn [Z.eqb Pos.eqb] in * .
    all: destruct Hbc as [[-> Hv]|[[-> Hv]|[-> Hv]]]; cbn [Z.eqb Pos.eqb] in E;
      unfold order_covers, robin_solvable, depth in * ; cbn [Z.eqb Pos.eqb negb andb] in * ;
      try (destruct Hord as [[->| ->] Hd]); cbn [Z.eqb Pos.eqb] in * .
    all: k_exact L E U1 U2 Hcoef Hv Hrob Hbeta (pt3 dK dJ dI (q 2) (q 1) (q 0)) ltac:(apply in_points3; lia).
  Qed.
End Exact3.
