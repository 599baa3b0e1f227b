(** * Each residual is the right-hand side minus the operator *)

From Coq Require Import Permutation.
From Verif Require Import Base ModelBounds ModelMatrix ModelIters ModelSpan Spec SpecIter ModelSched
  LemBase LemDomain LemExpr LemExec SpecAssign LemProps LemProps4
  FortranBase SpecKernel Instances LemField LemKernel LemKernel2 KernelNotations KernelsApply FortranApply.
Import ListNotations.
Open Scope Z_scope.

Section Residual.
  Context {S : Scalar} (L : field_laws S).
  Add Field SF : (s_field S L) (morphism (lit_morph S L), constants [lit_cst]).

  (** Both kernels at one cell. *)
  Ltac pair EA ER p lem :=
    let vA := fresh "vA" in let vR := fresh "vR" in
    let DA := fresh in let LA := fresh in let DR := fresh in let LR := fresh in
    k_at EA p lem vA DA LA; k_at ER p lem vR DR LR;
    autorewrite with fa in LA, LR; unfold fel;
    revert DA DR LA LR; cbn [denote]; autorewrite with dgrad; autorewrite with fa; k_pt;
    intros DA DR LA LR; rewrite LA, LR; clear LA LR; revert DA DR;
    repeat match goal with
    | |- context [load ?m ?q] => lazymatch goal with |- (_ -> _) => destruct (load m q) as [?|]; cbn [bind app_op num_op] end
    end; intros DA DR; try discriminate;
    inversion DA; inversion DR; subst;
    do 3 eexists; split; [reflexivity|split; [reflexivity|split; [reflexivity|k_div L; ring]]].

  Lemma residual_1d_diffusion_v1_res i0 i1 alpha beta dx agcw a ugcw u fgcw f f0 rgcw res (m mA mR : mem S) :
    i0 <= i1 + 1 -> 0 <= rgcw -> apart res [a; u; f; f0] ->
    cd_apply_1d_diffusion_v1_apply i0 i1 alpha beta dx agcw a ugcw u f0 rgcw res m = Some mA ->
    cd_apply_1d_diffusion_v1_res i0 i1 alpha beta dx agcw a ugcw u fgcw f f0 rgcw res m = Some mR ->
    forall i, i0 <= i <= i1 ->
      exists x a r, (mkFa f (CELL1d i0 i1 fgcw))!(i)%F m = Some x /\ (mkFa res (CELL1d i0 i1 rgcw))!(i)%F mA = Some a /\
        (mkFa res (CELL1d i0 i1 rgcw))!(i)%F mR = Some r /\ r = (x - a)%T.
  Proof.
    intros Bi Hg HN EA ER i Hi. unfold cd_apply_1d_diffusion_v1_apply in EA. unfold cd_apply_1d_diffusion_v1_res in ER. cbv zeta in EA, ER.
    k_apart. pair EA ER (pt1 dI i) (in_points1 dI i0 i1 i Hi).
  Qed.

  Lemma residual_1d_diffusion_v2_res i0 i1 alpha beta dx ugcw u fgcw f f0 rgcw res (m mA mR : mem S) :
    i0 <= i1 + 1 -> 0 <= rgcw -> apart res [u; f; f0] ->
    cd_apply_1d_diffusion_v2_apply i0 i1 alpha beta dx ugcw u f0 rgcw res m = Some mA ->
    cd_apply_1d_diffusion_v2_res i0 i1 alpha beta dx ugcw u fgcw f f0 rgcw res m = Some mR ->
    forall i, i0 <= i <= i1 ->
      exists x a r, (mkFa f (CELL1d i0 i1 fgcw))!(i)%F m = Some x /\ (mkFa res (CELL1d i0 i1 rgcw))!(i)%F mA = Some a /\
        (mkFa res (CELL1d i0 i1 rgcw))!(i)%F mR = Some r /\ r = (x - a)%T.
  Proof.
    intros Bi Hg HN EA ER i Hi. unfold cd_apply_1d_diffusion_v2_apply in EA. unfold cd_apply_1d_diffusion_v2_res in ER. cbv zeta in EA, ER.
    k_apart. pair EA ER (pt1 dI i) (in_points1 dI i0 i1 i Hi).
  Qed.

  Lemma residual_1d_poisson_v1_res i0 i1 beta dx fgcw f f0 rgcw res (m mA mR : mem S) :
    i0 <= i1 + 1 -> 0 <= rgcw -> apart res [f; f0] ->
    cd_apply_1d_poisson_v2_apply i0 i1 beta dx f0 rgcw res m = Some mA ->
    cd_apply_1d_poisson_v1_res i0 i1 beta dx fgcw f f0 rgcw res m = Some mR ->
    forall i, i0 <= i <= i1 ->
      exists x a r, (mkFa f (CELL1d i0 i1 fgcw))!(i)%F m = Some x /\ (mkFa res (CELL1d i0 i1 rgcw))!(i)%F mA = Some a /\
        (mkFa res (CELL1d i0 i1 rgcw))!(i)%F mR = Some r /\ r = (x - a)%T.
  Proof.
    intros Bi Hg HN EA ER i Hi. unfold cd_apply_1d_poisson_v2_apply in EA. unfold cd_apply_1d_poisson_v1_res in ER. cbv zeta in EA, ER.
    k_apart. pair EA ER (pt1 dI i) (in_points1 dI i0 i1 i Hi).
  Qed.

  Lemma residual_2d_diffusion_v1_res i0 i1 j0 j1 alpha beta dx agcw a ugcw u fgcw f f0 f1 rgcw res (m mA mR : mem S) :
    i0 <= i1 + 1 -> j0 <= j1 + 1 -> 0 <= rgcw -> apart res [a; u; f; f0; f1] ->
    cd_apply_2d_diffusion_v1_apply i0 i1 j0 j1 alpha beta dx agcw a ugcw u f0 f1 rgcw res m = Some mA ->
    cd_apply_2d_diffusion_v1_res i0 i1 j0 j1 alpha beta dx agcw a ugcw u fgcw f f0 f1 rgcw res m = Some mR ->
    forall i j, i0 <= i <= i1 -> j0 <= j <= j1 ->
      exists x a r, (mkFa f (CELL2d i0 j0 i1 j1 fgcw))!(i, j)%F m = Some x /\ (mkFa res (CELL2d i0 j0 i1 j1 rgcw))!(i, j)%F mA = Some a /\
        (mkFa res (CELL2d i0 j0 i1 j1 rgcw))!(i, j)%F mR = Some r /\ r = (x - a)%T.
  Proof.
    intros Bi Bj Hg HN EA ER i j Hi Hj. unfold cd_apply_2d_diffusion_v1_apply in EA. unfold cd_apply_2d_diffusion_v1_res in ER. cbv zeta in EA, ER.
    k_apart. pair EA ER (pt2 dJ dI j i) (in_points2 dJ dI j0 j1 i0 i1 j i Hj Hi).
  Qed.

  Lemma residual_2d_diffusion_v2_res i0 i1 j0 j1 alpha beta dx ugcw u fgcw f f0 f1 rgcw res (m mA mR : mem S) :
    i0 <= i1 + 1 -> j0 <= j1 + 1 -> 0 <= rgcw -> apart res [u; f; f0; f1] ->
    cd_apply_2d_diffusion_v2_apply i0 i1 j0 j1 alpha beta dx ugcw u f0 f1 rgcw res m = Some mA ->
    cd_apply_2d_diffusion_v2_res i0 i1 j0 j1 alpha beta dx ugcw u fgcw f f0 f1 rgcw res m = Some mR ->
    forall i j, i0 <= i <= i1 -> j0 <= j <= j1 ->
      exists x a r, (mkFa f (CELL2d i0 j0 i1 j1 fgcw))!(i, j)%F m = Some x /\ (mkFa res (CELL2d i0 j0 i1 j1 rgcw))!(i, j)%F mA = Some a /\
        (mkFa res (CELL2d i0 j0 i1 j1 rgcw))!(i, j)%F mR = Some r /\ r = (x - a)%T.
  Proof.
    intros Bi Bj Hg HN EA ER i j Hi Hj. unfold cd_apply_2d_diffusion_v2_apply in EA. unfold cd_apply_2d_diffusion_v2_res in ER. cbv zeta in EA, ER.
    k_apart. pair EA ER (pt2 dJ dI j i) (in_points2 dJ dI j0 j1 i0 i1 j i Hj Hi).
  Qed.

  Lemma residual_2d_poisson_v1_res i0 i1 j0 j1 beta dx fgcw f f0 f1 rgcw res (m mA mR : mem S) :
    i0 <= i1 + 1 -> j0 <= j1 + 1 -> 0 <= rgcw -> apart res [f; f0; f1] ->
    cd_apply_2d_poisson_v2_apply i0 i1 j0 j1 beta dx f0 f1 rgcw res m = Some mA ->
    cd_apply_2d_poisson_v1_res i0 i1 j0 j1 beta dx fgcw f f0 f1 rgcw res m = Some mR ->
    forall i j, i0 <= i <= i1 -> j0 <= j <= j1 ->
      exists x a r, (mkFa f (CELL2d i0 j0 i1 j1 fgcw))!(i, j)%F m = Some x /\ (mkFa res (CELL2d i0 j0 i1 j1 rgcw))!(i, j)%F mA = Some a /\
        (mkFa res (CELL2d i0 j0 i1 j1 rgcw))!(i, j)%F mR = Some r /\ r = (x - a)%T.
  Proof.
    intros Bi Bj Hg HN EA ER i j Hi Hj. unfold cd_apply_2d_poisson_v2_apply in EA. unfold cd_apply_2d_poisson_v1_res in ER. cbv zeta in EA, ER.
    k_apart. pair EA ER (pt2 dJ dI j i) (in_points2 dJ dI j0 j1 i0 i1 j i Hj Hi).
  Qed.

  Lemma residual_3d_diffusion_v1_res i0 i1 j0 j1 k0 k1 alpha beta dx agcw a ugcw u fgcw f f0 f1 f2 rgcw res (m mA mR : mem S) :
    i0 <= i1 + 1 -> j0 <= j1 + 1 -> k0 <= k1 + 1 -> 0 <= rgcw -> apart res [a; u; f; f0; f1; f2] ->
    cd_apply_3d_diffusion_v1_apply i0 i1 j0 j1 k0 k1 alpha beta dx agcw a ugcw u f0 f1 f2 rgcw res m = Some mA ->
    cd_apply_3d_diffusion_v1_res i0 i1 j0 j1 k0 k1 alpha beta dx agcw a ugcw u fgcw f f0 f1 f2 rgcw res m = Some mR ->
    forall i j k, i0 <= i <= i1 -> j0 <= j <= j1 -> k0 <= k <= k1 ->
      exists x a r, (mkFa f (CELL3d i0 j0 k0 i1 j1 k1 fgcw))!(i, j, k)%F m = Some x /\ (mkFa res (CELL3d i0 j0 k0 i1 j1 k1 rgcw))!(i, j, k)%F mA = Some a /\
        (mkFa res (CELL3d i0 j0 k0 i1 j1 k1 rgcw))!(i, j, k)%F mR = Some r /\ r = (x - a)%T.
  Proof.
    intros Bi Bj Bk Hg HN EA ER i j k Hi Hj Hk. unfold cd_apply_3d_diffusion_v1_apply in EA. unfold cd_apply_3d_diffusion_v1_res in ER. cbv zeta in EA, ER.
    k_apart. pair EA ER (pt3 dK dJ dI k j i) (in_points3 dK dJ dI k0 k1 j0 j1 i0 i1 k j i Hk Hj Hi).
  Qed.

  Lemma residual_3d_diffusion_v2_res i0 i1 j0 j1 k0 k1 alpha beta dx ugcw u fgcw f f0 f1 f2 rgcw res (m mA mR : mem S) :
    i0 <= i1 + 1 -> j0 <= j1 + 1 -> k0 <= k1 + 1 -> 0 <= rgcw -> apart res [u; f; f0; f1; f2] ->
    cd_apply_3d_diffusion_v2_apply i0 i1 j0 j1 k0 k1 alpha beta dx ugcw u f0 f1 f2 rgcw res m = Some mA ->
    cd_apply_3d_diffusion_v2_res i0 i1 j0 j1 k0 k1 alpha beta dx ugcw u fgcw f f0 f1 f2 rgcw res m = Some mR ->
    forall i j k, i0 <= i <= i1 -> j0 <= j <= j1 -> k0 <= k <= k1 ->
      exists x a r, (mkFa f (CELL3d i0 j0 k0 i1 j1 k1 fgcw))!(i, j, k)%F m = Some x /\ (mkFa res (CELL3d i0 j0 k0 i1 j1 k1 rgcw))!(i, j, k)%F mA = Some a /\
        (mkFa res (CELL3d i0 j0 k0 i1 j1 k1 rgcw))!(i, j, k)%F mR = Some r /\ r = (x - a)%T.
  Proof.
    intros Bi Bj Bk Hg HN EA ER i j k Hi Hj Hk. unfold cd_apply_3d_diffusion_v2_apply in EA. unfold cd_apply_3d_diffusion_v2_res in ER. cbv zeta in EA, ER.
    k_apart. pair EA ER (pt3 dK dJ dI k j i) (in_points3 dK dJ dI k0 k1 j0 j1 i0 i1 k j i Hk Hj Hi).
  Qed.

  Lemma residual_3d_poisson_v1_res i0 i1 j0 j1 k0 k1 beta dx fgcw f f0 f1 f2 rgcw res (m mA mR : mem S) :
    i0 <= i1 + 1 -> j0 <= j1 + 1 -> k0 <= k1 + 1 -> 0 <= rgcw -> apart res [f; f0; f1; f2] ->
    cd_apply_3d_poisson_v2_apply i0 i1 j0 j1 k0 k1 beta dx f0 f1 f2 rgcw res m = Some mA ->
    cd_apply_3d_poisson_v1_res i0 i1 j0 j1 k0 k1 beta dx fgcw f f0 f1 f2 rgcw res m = Some mR ->
    forall i j k, i0 <= i <= i1 -> j0 <= j <= j1 -> k0 <= k <= k1 ->
      exists x a r, (mkFa f (CELL3d i0 j0 k0 i1 j1 k1 fgcw))!(i, j, k)%F m = Some x /\ (mkFa res (CELL3d i0 j0 k0 i1 j1 k1 rgcw))!(i, j, k)%F mA = Some a /\
        (mkFa res (CELL3d i0 j0 k0 i1 j1 k1 rgcw))!(i, j, k)%F mR = Some r /\ r = (x - a)%T.
  Proof.
    intros Bi Bj Bk Hg HN EA ER i j k Hi Hj Hk. unfold cd_apply_3d_poisson_v2_apply in EA. unfold cd_apply_3d_poisson_v1_res in ER. cbv zeta in EA, ER.
    k_apart. pair EA ER (pt3 dK dJ dI k j i) (in_points3 dK dJ dI k0 k1 j0 j1 i0 i1 k j i Hk Hj Hi).
  Qed.
End Residual.
