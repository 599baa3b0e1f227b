(** * Boundary segments that reach beyond the patch *)

From Coq Require Import Permutation.
From Verif Require Import Base ModelBounds ModelMatrix ModelIters ModelSpan Spec SpecIter ModelSched
  LemBase LemDomain LemExpr LemExec SpecAssign LemProps LemProps4
  FortranBase SpecKernel Instances LemField LemKernel LemKernel2 KernelNotations KernelsBC FortranBC LemBC.
Import ListNotations.
Open Scope Z_scope.

Section Cut.
  Context {S : Scalar} (L : field_laws S).

  Ltac k_cut :=
    cbv beta zeta; unfold cut_lo, cut_hi;
    cbn [Z.eqb Pos.eqb];
    repeat match goal with
    | |- context [Z.max (Z.max ?a ?b) ?a] => replace (Z.max (Z.max a b) a) with (Z.max b a) by lia
    | |- context [Z.min (Z.min ?a ?b) ?a] => replace (Z.min (Z.min a b) a) with (Z.min b a) by lia
    end; reflexivity.

  Lemma cd_2d_set_bc_cut i0 i1 j0 j1 dx dgcw d0 d1 ugcw u bLo bHi exOrder face btype alpha beta (m : mem S) :
    seg_meets i0 i1 (bLo 0) (bHi 0) \/ face = 0 \/ face = 1 ->
    seg_meets j0 j1 (bLo 1) (bHi 1) \/ face = 2 \/ face = 3 ->
    let t := if (face =? 0) || (face =? 1) then 1 else 0 in
    let lo := if (face =? 0) || (face =? 1) then j0 else i0 in
    let hi := if (face =? 0) || (face =? 1) then j1 else i1 in
    cd_2d_set_bc i0 i1 j0 j1 dx dgcw d0 d1 ugcw u bLo bHi exOrder face 1 btype alpha beta m =
    cellsetcorrectionbc2d i0 i1 j0 j1 dx dgcw d0 d1 ugcw u (cut_lo t lo bLo) (cut_hi t hi bHi) exOrder face 1 btype alpha beta m.
  Proof.
    unfold seg_meets; cbv zeta. intros Hi Hj. rewrite <- (cd_2d_set_bc_eq L).
    - unfold cd_2d_set_bc. k_switch; k_cut.
    - unfold seg_within, cut_lo, cut_hi. intros _ [->| ->]; cbn; lia.
    - unfold seg_within, cut_lo, cut_hi. intros _ [->| ->]; cbn; lia.
  Qed.

  Lemma cd_2d_set_poisson_bc_cut i0 i1 j0 j1 dx ugcw u bLo bHi exOrder face btype alpha beta (m : mem S) :
    seg_meets i0 i1 (bLo 0) (bHi 0) \/ face = 0 \/ face = 1 ->
    seg_meets j0 j1 (bLo 1) (bHi 1) \/ face = 2 \/ face = 3 ->
    let t := if (face =? 0) || (face =? 1) then 1 else 0 in
    let lo := if (face =? 0) || (face =? 1) then j0 else i0 in
    let hi := if (face =? 0) || (face =? 1) then j1 else i1 in
    cd_2d_set_poisson_bc i0 i1 j0 j1 dx ugcw u bLo bHi exOrder face 1 btype alpha beta m =
    cellsetpoissoncorrectionbc2d i0 i1 j0 j1 dx ugcw u (cut_lo t lo bLo) (cut_hi t hi bHi) exOrder face 1 btype alpha beta m.
  Proof.
    unfold seg_meets; cbv zeta. intros Hi Hj. rewrite <- (cd_2d_set_poisson_bc_eq L).
    - unfold cd_2d_set_poisson_bc. k_switch; k_cut.
    - unfold seg_within, cut_lo, cut_hi. intros _ [->| ->]; cbn; lia.
    - unfold seg_within, cut_lo, cut_hi. intros _ [->| ->]; cbn; lia.
  Qed.

  Lemma cd_3d_set_poisson_bc_cut i0 i1 j0 j1 k0 k1 dx ugcw u bLo bHi exOrder face btype alpha beta (m : mem S) :
    seg_meets i0 i1 (bLo 0) (bHi 0) \/ face = 0 \/ face = 1 ->
    seg_meets j0 j1 (bLo 1) (bHi 1) \/ face = 2 \/ face = 3 ->
    seg_meets k0 k1 (bLo 2) (bHi 2) \/ face = 4 \/ face = 5 ->
    let cutLo := if (face =? 0) || (face =? 1) then fun b => cut_lo 1 j0 (cut_lo 2 k0 b)
                 else if (face =? 2) || (face =? 3) then fun b => cut_lo 0 i0 (cut_lo 2 k0 b)
                 else fun b => cut_lo 0 i0 (cut_lo 1 j0 b) in
    let cutHi := if (face =? 0) || (face =? 1) then fun b => cut_hi 1 j1 (cut_hi 2 k1 b)
                 else if (face =? 2) || (face =? 3) then fun b => cut_hi 0 i1 (cut_hi 2 k1 b)
                 else fun b => cut_hi 0 i1 (cut_hi 1 j1 b) in
    cd_3d_set_poisson_bc i0 i1 j0 j1 k0 k1 dx ugcw u bLo bHi exOrder face 1 btype alpha beta m =
    cellsetpoissoncorrectionbc3d i0 i1 j0 j1 k0 k1 dx ugcw u (cutLo bLo) (cutHi bHi) exOrder face 1 btype alpha beta m.
  Proof.
    unfold seg_meets; cbv zeta. intros Hi Hj Hk. rewrite <- (cd_3d_set_poisson_bc_eq L).
    - unfold cd_3d_set_poisson_bc. k_switch; k_cut.
    - unfold seg_within, cut_lo, cut_hi. intros _ [->| ->]; cbn; lia.
    - unfold seg_within, cut_lo, cut_hi. intros _ [->| ->]; cbn; lia.
    - unfold seg_within, cut_lo, cut_hi. intros _ [->| ->]; cbn; lia.
    - discriminate.
    - discriminate.
    - discriminate.
  Qed.
End Cut.
