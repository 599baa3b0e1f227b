(** * The 3D boundary kernels read and write where the order theorems need it *)

From Coq Require Import Bool Permutation.
From Verif Require Import Base ModelBounds ModelMatrix ModelIters ModelSpan Spec SpecIter ModelSched
  LemBase LemDomain LemExpr LemExec LemSched SpecAssign LemAssign LemProps LemProps4
  FortranBase SpecKernel SpecBoundary SpecBCOrder LemKernel LemKernel2 KernelNotations KernelsBC LemBC LemBoundary LemBCOrder LemBCOrderK.
Import ListNotations.
Open Scope Z_scope.

Section Kernels3.
  Context {S : Scalar}.

  Lemma cd_3d_set_bc_confined lo hi (dx : Z -> S) dgcw d0 d1 d2 ugcw u c :
    lo 0 <= hi 0 -> lo 1 <= hi 1 -> lo 2 <= hi 2 -> 1 <= ugcw -> apart u [d0; d1; d2] -> placed 3 lo hi c -> thick lo hi c ->
    let us := make_md_span_g u ugcw [Kb (lo 2) (hi 2); Jb (lo 1) (hi 1); Ib (lo 0) (hi 0)] in
    confined (Rset 3 lo hi us c) (Wset 3 lo hi us c)
      (cd_3d_set_bc (lo 0) (hi 0) (lo 1) (hi 1) (lo 2) (hi 2) dx dgcw d0 d1 d2 ugcw u (c_lo c) (c_hi c) (c_order c) (c_face c) (c_type c) (c_btype c) (c_alpha c) (c_beta c)).
  Proof.
    intros. k_apart. match goal with H : placed _ _ _ c |- _ => rename H into Hp end. match goal with H : thick _ _ c |- _ => rename H into Hth end.
    b_open c Hp Hf Hpl Ht type face bt eo. unfold cd_3d_set_bc. cbv zeta. unfold us; clear us.
    b_kernel Hp type face bt eo Hf Hpl Hth.
  Qed.
End Kernels3.
