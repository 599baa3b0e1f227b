(** * The operator at a cell, from the solution and the coefficients *)

From Coq Require Import Permutation Field.
From Verif Require Import Base ModelBounds ModelMatrix ModelIters ModelSpan ModelProxy Spec SpecIter ModelSched
  LemBase LemDomain LemExpr LemExec SpecAssign LemAssign LemProps LemProps4 SpecWindow LemWindow LemWindow2
  FortranBase SpecKernel Instances LemField LemKernel LemKernel2 LemBC LemHomog KernelNotations
  KernelsFlux KernelsApply KernelsStencil LemStencil LemRow LemValues1 LemValues2 LemValues3.
Import ListNotations.
Open Scope Z_scope.

Section Operator.
  Context {S : Scalar} (L : field_laws S).
  Add Field SF : (s_field S L) (morphism (lit_morph S L), constants [lit_cst]).

  Lemma op_v1_1d i0 i1 dx beta b0 gcw u f0 alpha agcw a rgcw res (m mo : mem S) r w c v0 :
  i0 <= i1 + 1 -> 0 <= gcw -> 0 <= rgcw ->
  apart f0 [b0; a; u] -> apart res [f0; a; u] ->
  (m' <- cdf_1d_flux i0 i1 dx b0 gcw u f0 m ;;
   cd_apply_1d_diffusion_v1_apply i0 i1 alpha beta dx agcw a gcw u f0 rgcw res m') = Some mo ->
  (forall i, i0 <= i <= i1 -> ((mkFa res (CELL1d i0 i1 rgcw))!(i))%F mo = Some (r i)) ->
  (forall i, i0 - 1 <= i <= i1 + 1 -> ((mkFa u (CELL1d i0 i1 gcw))!(i))%F m = Some (w i)) ->
  (forall i, i0 <= i <= i1 -> ((mkFa a (CELL1d i0 i1 agcw))!(i))%F m = Some (c i)) ->
  (forall i, i0 <= i <= i1 + 1 -> ((mkFa b0 (FACE1d i0 i1 0))!(i))%F m = Some (v0 i)) ->
  forall i, i0 <= i <= i1 ->
  r i = (- beta * ((v0 (i + 1)%Z * ((w (i + 1)%Z - w i) / dx 0) - v0 i * ((w i - w (i - 1)%Z) / dx 0)) / dx 0) + alpha * (c i * w i))%T.
  Proof.
    intros Bi Hg Hr A0 A1 E Rr Ru Ra Rb0 i Ii.
    apply bind_Some_inv in E as (m2 & Ef & Ea). k_apart.
    destruct (flux_1d_at i0 i1 dx b0 gcw u f0 m m2 ltac:(k_rapart L) ltac:(k_rapart L) ltac:(k_rapart L) Ef) as (Vf0 & Ff).
    destruct (diffusion_v1_apply_1d_at i0 i1 alpha beta dx agcw a gcw u f0 rgcw res m2 mo ltac:(k_rapart L) ltac:(k_rapart L) ltac:(k_rapart L) Ea) as (Va & Fa). clear Ef Ea.
    specialize (Va i Ii). specialize (Rr i Ii).
    pose proof (Vf0 i ltac:(lia)) as Ga0. pose proof (Vf0 (i + 1)%Z ltac:(lia)) as Gb0.
    pose proof (Ru (i - 1)%Z ltac:(lia)) as Ul0. pose proof (Ru (i + 1)%Z ltac:(lia)) as Uh0.
    pose proof (Rb0 i ltac:(lia)) as Bl0. pose proof (Rb0 (i + 1)%Z ltac:(lia)) as Bh0.
    pose proof (Ru i ltac:(lia)) as Uc. pose proof (Ra i ltac:(lia)) as Ac.
    clear Vf0 Ru Ra Rb0. subst_lets.
    replace (i + 1 - 1) with i in * by lia.
    k_open. match goal with H : r i = _ |- _ => rewrite H end. ring.
  Qed.

  Lemma op_v2_1d i0 i1 dx beta b0 gcw u f0 alpha rgcw res (m mo : mem S) r w v0 :
  i0 <= i1 + 1 -> 0 <= gcw -> 0 <= rgcw ->
  apart f0 [b0; u] -> apart res [f0; u] ->
  (m' <- cdf_1d_flux i0 i1 dx b0 gcw u f0 m ;;
   cd_apply_1d_diffusion_v2_apply i0 i1 alpha beta dx gcw u f0 rgcw res m') = Some mo ->
  (forall i, i0 <= i <= i1 -> ((mkFa res (CELL1d i0 i1 rgcw))!(i))%F mo = Some (r i)) ->
  (forall i, i0 - 1 <= i <= i1 + 1 -> ((mkFa u (CELL1d i0 i1 gcw))!(i))%F m = Some (w i)) ->
  (forall i, i0 <= i <= i1 + 1 -> ((mkFa b0 (FACE1d i0 i1 0))!(i))%F m = Some (v0 i)) ->
  forall i, i0 <= i <= i1 ->
  r i = (- beta * ((v0 (i + 1)%Z * ((w (i + 1)%Z - w i) / dx 0) - v0 i * ((w i - w (i - 1)%Z) / dx 0)) / dx 0) + alpha * w i)%T.
  Proof.
    intros Bi Hg Hr A0 A1 E Rr Ru Rb0 i Ii.
    apply bind_Some_inv in E as (m2 & Ef & Ea). k_apart.
    destruct (flux_1d_at i0 i1 dx b0 gcw u f0 m m2 ltac:(k_rapart L) ltac:(k_rapart L) ltac:(k_rapart L) Ef) as (Vf0 & Ff).
    destruct (diffusion_v2_apply_1d_at i0 i1 alpha beta dx gcw u f0 rgcw res m2 mo ltac:(k_rapart L) ltac:(k_rapart L) ltac:(k_rapart L) Ea) as (Va & Fa). clear Ef Ea.
    specialize (Va i Ii). specialize (Rr i Ii).
    pose proof (Vf0 i ltac:(lia)) as Ga0. pose proof (Vf0 (i + 1)%Z ltac:(lia)) as Gb0.
    pose proof (Ru (i - 1)%Z ltac:(lia)) as Ul0. pose proof (Ru (i + 1)%Z ltac:(lia)) as Uh0.
    pose proof (Rb0 i ltac:(lia)) as Bl0. pose proof (Rb0 (i + 1)%Z ltac:(lia)) as Bh0.
    pose proof (Ru i ltac:(lia)) as Uc.
    clear Vf0 Ru Rb0. subst_lets.
    replace (i + 1 - 1) with i in * by lia.
    k_open. match goal with H : r i = _ |- _ => rewrite H end. ring.
  Qed.

  Lemma op_poisson_1d i0 i1 dx beta gcw u f0 rgcw res (m mo : mem S) r w :
  i0 <= i1 + 1 -> 0 <= gcw -> 0 <= rgcw ->
  apart f0 [u] -> apart res [f0; u] ->
  (m' <- cdf_1d_poisson_flux i0 i1 dx gcw u f0 m ;;
   cd_apply_1d_poisson_v2_apply i0 i1 beta dx f0 rgcw res m') = Some mo ->
  (forall i, i0 <= i <= i1 -> ((mkFa res (CELL1d i0 i1 rgcw))!(i))%F mo = Some (r i)) ->
  (forall i, i0 - 1 <= i <= i1 + 1 -> ((mkFa u (CELL1d i0 i1 gcw))!(i))%F m = Some (w i)) ->
  forall i, i0 <= i <= i1 ->
  r i = (- beta * (((w (i + 1)%Z - w i) / dx 0 - (w i - w (i - 1)%Z) / dx 0) / dx 0))%T.
  Proof.
    intros Bi Hg Hr A0 A1 E Rr Ru i Ii.
    apply bind_Some_inv in E as (m2 & Ef & Ea). k_apart.
    destruct (poisson_flux_1d_at i0 i1 dx gcw u f0 m m2 ltac:(k_rapart L) ltac:(k_rapart L) ltac:(k_rapart L) Ef) as (Vf0 & Ff).
    destruct (poisson_v2_apply_1d_at i0 i1 beta dx f0 rgcw res m2 mo ltac:(k_rapart L) ltac:(k_rapart L) ltac:(k_rapart L) Ea) as (Va & Fa). clear Ef Ea.
    specialize (Va i Ii). specialize (Rr i Ii).
    pose proof (Vf0 i ltac:(lia)) as Ga0. pose proof (Vf0 (i + 1)%Z ltac:(lia)) as Gb0.
    pose proof (Ru (i - 1)%Z ltac:(lia)) as Ul0. pose proof (Ru (i + 1)%Z ltac:(lia)) as Uh0.
    pose proof (Ru i ltac:(lia)) as Uc.
    clear Vf0 Ru . subst_lets.
    replace (i + 1 - 1) with i in * by lia.
    k_open. match goal with H : r i = _ |- _ => rewrite H end. ring.
  Qed.

  Lemma op_v1_2d i0 j0 i1 j1 dx beta b0 b1 gcw u f0 f1 alpha agcw a rgcw res (m mo : mem S) r w c v0 v1 :
  i0 <= i1 + 1 -> j0 <= j1 + 1 -> 0 <= gcw -> 0 <= rgcw ->
  apart f0 [f1; b0; b1; a; u] -> apart f1 [b0; b1; a; u] -> apart res [f0; f1; a; u] ->
  (m' <- cdf_2d_flux i0 j0 i1 j1 dx b0 b1 gcw u f0 f1 m ;;
   cd_apply_2d_diffusion_v1_apply i0 i1 j0 j1 alpha beta dx agcw a gcw u f0 f1 rgcw res m') = Some mo ->
  (forall i j, i0 <= i <= i1 -> j0 <= j <= j1 -> ((mkFa res (CELL2d i0 j0 i1 j1 rgcw))!(i, j))%F mo = Some (r i j)) ->
  (forall i j, i0 - 1 <= i <= i1 + 1 -> j0 - 1 <= j <= j1 + 1 -> ((mkFa u (CELL2d i0 j0 i1 j1 gcw))!(i, j))%F m = Some (w i j)) ->
  (forall i j, i0 <= i <= i1 -> j0 <= j <= j1 -> ((mkFa a (CELL2d i0 j0 i1 j1 agcw))!(i, j))%F m = Some (c i j)) ->
  (forall i j, i0 <= i <= i1 + 1 -> j0 <= j <= j1 -> ((mkFa b0 (FACE2d0 i0 j0 i1 j1 0))!(i, j))%F m = Some (v0 i j)) ->
  (forall i j, i0 <= i <= i1 -> j0 <= j <= j1 + 1 -> ((mkFa b1 (FACE2d1 i0 j0 i1 j1 0))!(j, i))%F m = Some (v1 i j)) ->
  forall i j, i0 <= i <= i1 -> j0 <= j <= j1 ->
  r i j = (- beta * ((v0 (i + 1)%Z j * ((w (i + 1)%Z j - w i j) / dx 0) - v0 i j * ((w i j - w (i - 1)%Z j) / dx 0)) / dx 0 + (v1 i (j + 1)%Z * ((w i (j + 1)%Z - w i j) / dx 1) - v1 i j * ((w i j - w i (j - 1)%Z) / dx 1)) / dx 1) + alpha * (c i j * w i j))%T.
  Proof.
    intros Bi Bj Hg Hr A0 A1 A2 E Rr Ru Ra Rb0 Rb1 i j Ii Ij.
    apply bind_Some_inv in E as (m2 & Ef & Ea). k_apart.
    destruct (flux_2d_at i0 j0 i1 j1 dx b0 b1 gcw u f0 f1 m m2 ltac:(k_rapart L) ltac:(k_rapart L) ltac:(k_rapart L) ltac:(k_rapart L) ltac:(k_rapart L) Ef) as (Vf0 & Vf1 & Ff).
    destruct (diffusion_v1_apply_2d_at i0 i1 j0 j1 alpha beta dx agcw a gcw u f0 f1 rgcw res m2 mo ltac:(k_rapart L) ltac:(k_rapart L) ltac:(k_rapart L) ltac:(k_rapart L) Ea) as (Va & Fa). clear Ef Ea.
    specialize (Va i j Ii Ij). specialize (Rr i j Ii Ij).
    pose proof (Vf0 i j ltac:(lia) ltac:(lia)) as Ga0. pose proof (Vf0 (i + 1)%Z j ltac:(lia) ltac:(lia)) as Gb0.
    pose proof (Ru (i - 1)%Z j ltac:(lia) ltac:(lia)) as Ul0. pose proof (Ru (i + 1)%Z j ltac:(lia) ltac:(lia)) as Uh0.
    pose proof (Rb0 i j ltac:(lia) ltac:(lia)) as Bl0. pose proof (Rb0 (i + 1)%Z j ltac:(lia) ltac:(lia)) as Bh0.
    pose proof (Vf1 i j ltac:(lia) ltac:(lia)) as Ga1. pose proof (Vf1 i (j + 1)%Z ltac:(lia) ltac:(lia)) as Gb1.
    pose proof (Ru i (j - 1)%Z ltac:(lia) ltac:(lia)) as Ul1. pose proof (Ru i (j + 1)%Z ltac:(lia) ltac:(lia)) as Uh1.
    pose proof (Rb1 i j ltac:(lia) ltac:(lia)) as Bl1. pose proof (Rb1 i (j + 1)%Z ltac:(lia) ltac:(lia)) as Bh1.
    pose proof (Ru i j ltac:(lia) ltac:(lia)) as Uc. pose proof (Ra i j ltac:(lia) ltac:(lia)) as Ac.
    clear Vf0 Vf1 Ru Ra Rb0 Rb1. subst_lets.
    replace (i + 1 - 1) with i in * by lia.
    replace (j + 1 - 1) with j in * by lia.
    k_open. match goal with H : r i j = _ |- _ => rewrite H end. ring.
  Qed.

  Lemma op_v2_2d i0 j0 i1 j1 dx beta b0 b1 gcw u f0 f1 alpha rgcw res (m mo : mem S) r w v0 v1 :
  i0 <= i1 + 1 -> j0 <= j1 + 1 -> 0 <= gcw -> 0 <= rgcw ->
  apart f0 [f1; b0; b1; u] -> apart f1 [b0; b1; u] -> apart res [f0; f1; u] ->
  (m' <- cdf_2d_flux i0 j0 i1 j1 dx b0 b1 gcw u f0 f1 m ;;
   cd_apply_2d_diffusion_v2_apply i0 i1 j0 j1 alpha beta dx gcw u f0 f1 rgcw res m') = Some mo ->
  (forall i j, i0 <= i <= i1 -> j0 <= j <= j1 -> ((mkFa res (CELL2d i0 j0 i1 j1 rgcw))!(i, j))%F mo = Some (r i j)) ->
  (forall i j, i0 - 1 <= i <= i1 + 1 -> j0 - 1 <= j <= j1 + 1 -> ((mkFa u (CELL2d i0 j0 i1 j1 gcw))!(i, j))%F m = Some (w i j)) ->
  (forall i j, i0 <= i <= i1 + 1 -> j0 <= j <= j1 -> ((mkFa b0 (FACE2d0 i0 j0 i1 j1 0))!(i, j))%F m = Some (v0 i j)) ->
  (forall i j, i0 <= i <= i1 -> j0 <= j <= j1 + 1 -> ((mkFa b1 (FACE2d1 i0 j0 i1 j1 0))!(j, i))%F m = Some (v1 i j)) ->
  forall i j, i0 <= i <= i1 -> j0 <= j <= j1 ->
  r i j = (- beta * ((v0 (i + 1)%Z j * ((w (i + 1)%Z j - w i j) / dx 0) - v0 i j * ((w i j - w (i - 1)%Z j) / dx 0)) / dx 0 + (v1 i (j + 1)%Z * ((w i (j + 1)%Z - w i j) / dx 1) - v1 i j * ((w i j - w i (j - 1)%Z) / dx 1)) / dx 1) + alpha * w i j)%T.
  Proof.
    intros Bi Bj Hg Hr A0 A1 A2 E Rr Ru Rb0 Rb1 i j Ii Ij.
    apply bind_Some_inv in E as (m2 & Ef & Ea). k_apart.
    destruct (flux_2d_at i0 j0 i1 j1 dx b0 b1 gcw u f0 f1 m m2 ltac:(k_rapart L) ltac:(k_rapart L) ltac:(k_rapart L) ltac:(k_rapart L) ltac:(k_rapart L) Ef) as (Vf0 & Vf1 & Ff).
    destruct (diffusion_v2_apply_2d_at i0 i1 j0 j1 alpha beta dx gcw u f0 f1 rgcw res m2 mo ltac:(k_rapart L) ltac:(k_rapart L) ltac:(k_rapart L) ltac:(k_rapart L) Ea) as (Va & Fa). clear Ef Ea.
    specialize (Va i j Ii Ij). specialize (Rr i j Ii Ij).
    pose proof (Vf0 i j ltac:(lia) ltac:(lia)) as Ga0. pose proof (Vf0 (i + 1)%Z j ltac:(lia) ltac:(lia)) as Gb0.
    pose proof (Ru (i - 1)%Z j ltac:(lia) ltac:(lia)) as Ul0. pose proof (Ru (i + 1)%Z j ltac:(lia) ltac:(lia)) as Uh0.
    pose proof (Rb0 i j ltac:(lia) ltac:(lia)) as Bl0. pose proof (Rb0 (i + 1)%Z j ltac:(lia) ltac:(lia)) as Bh0.
    pose proof (Vf1 i j ltac:(lia) ltac:(lia)) as Ga1. pose proof (Vf1 i (j + 1)%Z ltac:(lia) ltac:(lia)) as Gb1.
    pose proof (Ru i (j - 1)%Z ltac:(lia) ltac:(lia)) as Ul1. pose proof (Ru i (j + 1)%Z ltac:(lia) ltac:(lia)) as Uh1.
    pose proof (Rb1 i j ltac:(lia) ltac:(lia)) as Bl1. pose proof (Rb1 i (j + 1)%Z ltac:(lia) ltac:(lia)) as Bh1.
    pose proof (Ru i j ltac:(lia) ltac:(lia)) as Uc.
    clear Vf0 Vf1 Ru Rb0 Rb1. subst_lets.
    replace (i + 1 - 1) with i in * by lia.
    replace (j + 1 - 1) with j in * by lia.
    k_open. match goal with H : r i j = _ |- _ => rewrite H end. ring.
  Qed.

  Lemma op_poisson_2d i0 j0 i1 j1 dx beta gcw u f0 f1 rgcw res (m mo : mem S) r w :
  i0 <= i1 + 1 -> j0 <= j1 + 1 -> 0 <= gcw -> 0 <= rgcw ->
  apart f0 [f1; u] -> apart f1 [u] -> apart res [f0; f1; u] ->
  (m' <- cdf_2d_poisson_flux i0 j0 i1 j1 dx gcw u f0 f1 m ;;
   cd_apply_2d_poisson_v2_apply i0 i1 j0 j1 beta dx f0 f1 rgcw res m') = Some mo ->
  (forall i j, i0 <= i <= i1 -> j0 <= j <= j1 -> ((mkFa res (CELL2d i0 j0 i1 j1 rgcw))!(i, j))%F mo = Some (r i j)) ->
  (forall i j, i0 - 1 <= i <= i1 + 1 -> j0 - 1 <= j <= j1 + 1 -> ((mkFa u (CELL2d i0 j0 i1 j1 gcw))!(i, j))%F m = Some (w i j)) ->
  forall i j, i0 <= i <= i1 -> j0 <= j <= j1 ->
  r i j = (- beta * (((w (i + 1)%Z j - w i j) / dx 0 - (w i j - w (i - 1)%Z j) / dx 0) / dx 0 + ((w i (j + 1)%Z - w i j) / dx 1 - (w i j - w i (j - 1)%Z) / dx 1) / dx 1))%T.
  Proof.
    intros Bi Bj Hg Hr A0 A1 A2 E Rr Ru i j Ii Ij.
    apply bind_Some_inv in E as (m2 & Ef & Ea). k_apart.
    destruct (poisson_flux_2d_at i0 j0 i1 j1 dx gcw u f0 f1 m m2 ltac:(k_rapart L) ltac:(k_rapart L) ltac:(k_rapart L) ltac:(k_rapart L) ltac:(k_rapart L) Ef) as (Vf0 & Vf1 & Ff).
    destruct (poisson_v2_apply_2d_at i0 i1 j0 j1 beta dx f0 f1 rgcw res m2 mo ltac:(k_rapart L) ltac:(k_rapart L) ltac:(k_rapart L) ltac:(k_rapart L) Ea) as (Va & Fa). clear Ef Ea.
    specialize (Va i j Ii Ij). specialize (Rr i j Ii Ij).
    pose proof (Vf0 i j ltac:(lia) ltac:(lia)) as Ga0. pose proof (Vf0 (i + 1)%Z j ltac:(lia) ltac:(lia)) as Gb0.
    pose proof (Ru (i - 1)%Z j ltac:(lia) ltac:(lia)) as Ul0. pose proof (Ru (i + 1)%Z j ltac:(lia) ltac:(lia)) as Uh0.
    pose proof (Vf1 i j ltac:(lia) ltac:(lia)) as Ga1. pose proof (Vf1 i (j + 1)%Z ltac:(lia) ltac:(lia)) as Gb1.
    pose proof (Ru i (j - 1)%Z ltac:(lia) ltac:(lia)) as Ul1. pose proof (Ru i (j + 1)%Z ltac:(lia) ltac:(lia)) as Uh1.
    pose proof (Ru i j ltac:(lia) ltac:(lia)) as Uc.
    clear Vf0 Vf1 Ru . subst_lets.
    replace (i + 1 - 1) with i in * by lia.
    replace (j + 1 - 1) with j in * by lia.
    k_open. match goal with H : r i j = _ |- _ => rewrite H end. ring.
  Qed.

  Lemma op_v1_3d i0 j0 k0 i1 j1 k1 dx beta b0 b1 b2 gcw u f0 f1 f2 alpha agcw a rgcw res (m mo : mem S) r w c v0 v1 v2 :
  i0 <= i1 + 1 -> j0 <= j1 + 1 -> k0 <= k1 + 1 -> 0 <= gcw -> 0 <= rgcw ->
  apart f0 [f1; f2; b0; b1; b2; a; u] -> apart f1 [f2; b0; b1; b2; a; u] -> apart f2 [b0; b1; b2; a; u] -> apart res [f0; f1; f2; a; u] ->
  (m' <- cdf_3d_flux i0 j0 k0 i1 j1 k1 dx b0 b1 b2 gcw u f0 f1 f2 m ;;
   cd_apply_3d_diffusion_v1_apply i0 i1 j0 j1 k0 k1 alpha beta dx agcw a gcw u f0 f1 f2 rgcw res m') = Some mo ->
  (forall i j k, i0 <= i <= i1 -> j0 <= j <= j1 -> k0 <= k <= k1 -> ((mkFa res (CELL3d i0 j0 k0 i1 j1 k1 rgcw))!(i, j, k))%F mo = Some (r i j k)) ->
  (forall i j k, i0 - 1 <= i <= i1 + 1 -> j0 - 1 <= j <= j1 + 1 -> k0 - 1 <= k <= k1 + 1 -> ((mkFa u (CELL3d i0 j0 k0 i1 j1 k1 gcw))!(i, j, k))%F m = Some (w i j k)) ->
  (forall i j k, i0 <= i <= i1 -> j0 <= j <= j1 -> k0 <= k <= k1 -> ((mkFa a (CELL3d i0 j0 k0 i1 j1 k1 agcw))!(i, j, k))%F m = Some (c i j k)) ->
  (forall i j k, i0 <= i <= i1 + 1 -> j0 <= j <= j1 -> k0 <= k <= k1 -> ((mkFa b0 (FACE3d0 i0 j0 k0 i1 j1 k1 0))!(i, j, k))%F m = Some (v0 i j k)) ->
  (forall i j k, i0 <= i <= i1 -> j0 <= j <= j1 + 1 -> k0 <= k <= k1 -> ((mkFa b1 (FACE3d1 i0 j0 k0 i1 j1 k1 0))!(j, k, i))%F m = Some (v1 i j k)) ->
  (forall i j k, i0 <= i <= i1 -> j0 <= j <= j1 -> k0 <= k <= k1 + 1 -> ((mkFa b2 (FACE3d2 i0 j0 k0 i1 j1 k1 0))!(k, i, j))%F m = Some (v2 i j k)) ->
  forall i j k, i0 <= i <= i1 -> j0 <= j <= j1 -> k0 <= k <= k1 ->
  r i j k = (- beta * ((v0 (i + 1)%Z j k * ((w (i + 1)%Z j k - w i j k) / dx 0) - v0 i j k * ((w i j k - w (i - 1)%Z j k) / dx 0)) / dx 0 + (v1 i (j + 1)%Z k * ((w i (j + 1)%Z k - w i j k) / dx 1) - v1 i j k * ((w i j k - w i (j - 1)%Z k) / dx 1)) / dx 1 + (v2 i j (k + 1)%Z * ((w i j (k + 1)%Z - w i j k) / dx 2) - v2 i j k * ((w i j k - w i j (k - 1)%Z) / dx 2)) / dx 2) + alpha * (c i j k * w i j k))%T.
  Proof.
    intros Bi Bj Bk Hg Hr A0 A1 A2 A3 E Rr Ru Ra Rb0 Rb1 Rb2 i j k Ii Ij Ik.
    apply bind_Some_inv in E as (m2 & Ef & Ea). k_apart.
    destruct (flux_3d_at i0 j0 k0 i1 j1 k1 dx b0 b1 b2 gcw u f0 f1 f2 m m2 ltac:(k_rapart L) ltac:(k_rapart L) ltac:(k_rapart L) ltac:(k_rapart L) ltac:(k_rapart L) ltac:(k_rapart L) ltac:(k_rapart L) Ef) as (Vf0 & Vf1 & Vf2 & Ff).
    destruct (diffusion_v1_apply_3d_at i0 i1 j0 j1 k0 k1 alpha beta dx agcw a gcw u f0 f1 f2 rgcw res m2 mo ltac:(k_rapart L) ltac:(k_rapart L) ltac:(k_rapart L) ltac:(k_rapart L) ltac:(k_rapart L) Ea) as (Va & Fa). clear Ef Ea.
    specialize (Va i j k Ii Ij Ik). specialize (Rr i j k Ii Ij Ik).
    pose proof (Vf0 i j k ltac:(lia) ltac:(lia) ltac:(lia)) as Ga0. pose proof (Vf0 (i + 1)%Z j k ltac:(lia) ltac:(lia) ltac:(lia)) as Gb0.
    pose proof (Ru (i - 1)%Z j k ltac:(lia) ltac:(lia) ltac:(lia)) as Ul0. pose proof (Ru (i + 1)%Z j k ltac:(lia) ltac:(lia) ltac:(lia)) as Uh0.
    pose proof (Rb0 i j k ltac:(lia) ltac:(lia) ltac:(lia)) as Bl0. pose proof (Rb0 (i + 1)%Z j k ltac:(lia) ltac:(lia) ltac:(lia)) as Bh0.
    pose proof (Vf1 i j k ltac:(lia) ltac:(lia) ltac:(lia)) as Ga1. pose proof (Vf1 i (j + 1)%Z k ltac:(lia) ltac:(lia) ltac:(lia)) as Gb1.
    pose proof (Ru i (j - 1)%Z k ltac:(lia) ltac:(lia) ltac:(lia)) as Ul1. pose proof (Ru i (j + 1)%Z k ltac:(lia) ltac:(lia) ltac:(lia)) as Uh1.
    pose proof (Rb1 i j k ltac:(lia) ltac:(lia) ltac:(lia)) as Bl1. pose proof (Rb1 i (j + 1)%Z k ltac:(lia) ltac:(lia) ltac:(lia)) as Bh1.
    pose proof (Vf2 i j k ltac:(lia) ltac:(lia) ltac:(lia)) as Ga2. pose proof (Vf2 i j (k + 1)%Z ltac:(lia) ltac:(lia) ltac:(lia)) as Gb2.
    pose proof (Ru i j (k - 1)%Z ltac:(lia) ltac:(lia) ltac:(lia)) as Ul2. pose proof (Ru i j (k + 1)%Z ltac:(lia) ltac:(lia) ltac:(lia)) as Uh2.
    pose proof (Rb2 i j k ltac:(lia) ltac:(lia) ltac:(lia)) as Bl2. pose proof (Rb2 i j (k + 1)%Z ltac:(lia) ltac:(lia) ltac:(lia)) as Bh2.
    pose proof (Ru i j k ltac:(lia) ltac:(lia) ltac:(lia)) as Uc. pose proof (Ra i j k ltac:(lia) ltac:(lia) ltac:(lia)) as Ac.
    clear Vf0 Vf1 Vf2 Ru Ra Rb0 Rb1 Rb2. subst_lets.
    replace (i + 1 - 1) with i in * by lia.
    replace (j + 1 - 1) with j in * by lia.
    replace (k + 1 - 1) with k in * by lia.
    k_open. match goal with H : r i j k = _ |- _ => rewrite H end. ring.
  Qed.

  Lemma op_v2_3d i0 j0 k0 i1 j1 k1 dx beta b0 b1 b2 gcw u f0 f1 f2 alpha rgcw res (m mo : mem S) r w v0 v1 v2 :
  i0 <= i1 + 1 -> j0 <= j1 + 1 -> k0 <= k1 + 1 -> 0 <= gcw -> 0 <= rgcw ->
  apart f0 [f1; f2; b0; b1; b2; u] -> apart f1 [f2; b0; b1; b2; u] -> apart f2 [b0; b1; b2; u] -> apart res [f0; f1; f2; u] ->
  (m' <- cdf_3d_flux i0 j0 k0 i1 j1 k1 dx b0 b1 b2 gcw u f0 f1 f2 m ;;
   cd_apply_3d_diffusion_v2_apply i0 i1 j0 j1 k0 k1 alpha beta dx gcw u f0 f1 f2 rgcw res m') = Some mo ->
  (forall i j k, i0 <= i <= i1 -> j0 <= j <= j1 -> k0 <= k <= k1 -> ((mkFa res (CELL3d i0 j0 k0 i1 j1 k1 rgcw))!(i, j, k))%F mo = Some (r i j k)) ->
  (forall i j k, i0 - 1 <= i <= i1 + 1 -> j0 - 1 <= j <= j1 + 1 -> k0 - 1 <= k <= k1 + 1 -> ((mkFa u (CELL3d i0 j0 k0 i1 j1 k1 gcw))!(i, j, k))%F m = Some (w i j k)) ->
  (forall i j k, i0 <= i <= i1 + 1 -> j0 <= j <= j1 -> k0 <= k <= k1 -> ((mkFa b0 (FACE3d0 i0 j0 k0 i1 j1 k1 0))!(i, j, k))%F m = Some (v0 i j k)) ->
  (forall i j k, i0 <= i <= i1 -> j0 <= j <= j1 + 1 -> k0 <= k <= k1 -> ((mkFa b1 (FACE3d1 i0 j0 k0 i1 j1 k1 0))!(j, k, i))%F m = Some (v1 i j k)) ->
  (forall i j k, i0 <= i <= i1 -> j0 <= j <= j1 -> k0 <= k <= k1 + 1 -> ((mkFa b2 (FACE3d2 i0 j0 k0 i1 j1 k1 0))!(k, i, j))%F m = Some (v2 i j k)) ->
  forall i j k, i0 <= i <= i1 -> j0 <= j <= j1 -> k0 <= k <= k1 ->
  r i j k = (- beta * ((v0 (i + 1)%Z j k * ((w (i + 1)%Z j k - w i j k) / dx 0) - v0 i j k * ((w i j k - w (i - 1)%Z j k) / dx 0)) / dx 0 + (v1 i (j + 1)%Z k * ((w i (j + 1)%Z k - w i j k) / dx 1) - v1 i j k * ((w i j k - w i (j - 1)%Z k) / dx 1)) / dx 1 + (v2 i j (k + 1)%Z * ((w i j (k + 1)%Z - w i j k) / dx 2) - v2 i j k * ((w i j k - w i j (k - 1)%Z) / dx 2)) / dx 2) + alpha * w i j k)%T.
  Proof.
    intros Bi Bj Bk Hg Hr A0 A1 A2 A3 E Rr Ru Rb0 Rb1 Rb2 i j k Ii Ij Ik.
    apply bind_Some_inv in E as (m2 & Ef & Ea). k_apart.
    destruct (flux_3d_at i0 j0 k0 i1 j1 k1 dx b0 b1 b2 gcw u f0 f1 f2 m m2 ltac:(k_rapart L) ltac:(k_rapart L) ltac:(k_rapart L) ltac:(k_rapart L) ltac:(k_rapart L) ltac:(k_rapart L) ltac:(k_rapart L) Ef) as (Vf0 & Vf1 & Vf2 & Ff).
    destruct (diffusion_v2_apply_3d_at i0 i1 j0 j1 k0 k1 alpha beta dx gcw u f0 f1 f2 rgcw res m2 mo ltac:(k_rapart L) ltac:(k_rapart L) ltac:(k_rapart L) ltac:(k_rapart L) ltac:(k_rapart L) Ea) as (Va & Fa). clear Ef Ea.
    specialize (Va i j k Ii Ij Ik). specialize (Rr i j k Ii Ij Ik).
    pose proof (Vf0 i j k ltac:(lia) ltac:(lia) ltac:(lia)) as Ga0. pose proof (Vf0 (i + 1)%Z j k ltac:(lia) ltac:(lia) ltac:(lia)) as Gb0.
    pose proof (Ru (i - 1)%Z j k ltac:(lia) ltac:(lia) ltac:(lia)) as Ul0. pose proof (Ru (i + 1)%Z j k ltac:(lia) ltac:(lia) ltac:(lia)) as Uh0.
    pose proof (Rb0 i j k ltac:(lia) ltac:(lia) ltac:(lia)) as Bl0. pose proof (Rb0 (i + 1)%Z j k ltac:(lia) ltac:(lia) ltac:(lia)) as Bh0.
    pose proof (Vf1 i j k ltac:(lia) ltac:(lia) ltac:(lia)) as Ga1. pose proof (Vf1 i (j + 1)%Z k ltac:(lia) ltac:(lia) ltac:(lia)) as Gb1.
    pose proof (Ru i (j - 1)%Z k ltac:(lia) ltac:(lia) ltac:(lia)) as Ul1. pose proof (Ru i (j + 1)%Z k ltac:(lia) ltac:(lia) ltac:(lia)) as Uh1.
    pose proof (Rb1 i j k ltac:(lia) ltac:(lia) ltac:(lia)) as Bl1. pose proof (Rb1 i (j + 1)%Z k ltac:(lia) ltac:(lia) ltac:(lia)) as Bh1.
    pose proof (Vf2 i j k ltac:(lia) ltac:(lia) ltac:(lia)) as Ga2. pose proof (Vf2 i j (k + 1)%Z ltac:(lia) ltac:(lia) ltac:(lia)) as Gb2.
    pose proof (Ru i j (k - 1)%Z ltac:(lia) ltac:(lia) ltac:(lia)) as Ul2. pose proof (Ru i j (k + 1)%Z ltac:(lia) ltac:(lia) ltac:(lia)) as Uh2.
    pose proof (Rb2 i j k ltac:(lia) ltac:(lia) ltac:(lia)) as Bl2. pose proof (Rb2 i j (k + 1)%Z ltac:(lia) ltac:(lia) ltac:(lia)) as Bh2.
    pose proof (Ru i j k ltac:(lia) ltac:(lia) ltac:(lia)) as Uc.
    clear Vf0 Vf1 Vf2 Ru Rb0 Rb1 Rb2. subst_lets.
    replace (i + 1 - 1) with i in * by lia.
    replace (j + 1 - 1) with j in * by lia.
    replace (k + 1 - 1) with k in * by lia.
    k_open. match goal with H : r i j k = _ |- _ => rewrite H end. ring.
  Qed.

  Lemma op_poisson_3d i0 j0 k0 i1 j1 k1 dx beta gcw u f0 f1 f2 rgcw res (m mo : mem S) r w :
  i0 <= i1 + 1 -> j0 <= j1 + 1 -> k0 <= k1 + 1 -> 0 <= gcw -> 0 <= rgcw ->
  apart f0 [f1; f2; u] -> apart f1 [f2; u] -> apart f2 [u] -> apart res [f0; f1; f2; u] ->
  (m' <- cdf_3d_poisson_flux i0 j0 k0 i1 j1 k1 dx gcw u f0 f1 f2 m ;;
   cd_apply_3d_poisson_v2_apply i0 i1 j0 j1 k0 k1 beta dx f0 f1 f2 rgcw res m') = Some mo ->
  (forall i j k, i0 <= i <= i1 -> j0 <= j <= j1 -> k0 <= k <= k1 -> ((mkFa res (CELL3d i0 j0 k0 i1 j1 k1 rgcw))!(i, j, k))%F mo = Some (r i j k)) ->
  (forall i j k, i0 - 1 <= i <= i1 + 1 -> j0 - 1 <= j <= j1 + 1 -> k0 - 1 <= k <= k1 + 1 -> ((mkFa u (CELL3d i0 j0 k0 i1 j1 k1 gcw))!(i, j, k))%F m = Some (w i j k)) ->
  forall i j k, i0 <= i <= i1 -> j0 <= j <= j1 -> k0 <= k <= k1 ->
  r i j k = (- beta * (((w (i + 1)%Z j k - w i j k) / dx 0 - (w i j k - w (i - 1)%Z j k) / dx 0) / dx 0 + ((w i (j + 1)%Z k - w i j k) / dx 1 - (w i j k - w i (j - 1)%Z k) / dx 1) / dx 1 + ((w i j (k + 1)%Z - w i j k) / dx 2 - (w i j k - w i j (k - 1)%Z) / dx 2) / dx 2))%T.
  Proof.
    intros Bi Bj Bk Hg Hr A0 A1 A2 A3 E Rr Ru i j k Ii Ij Ik.
    apply bind_Some_inv in E as (m2 & Ef & Ea). k_apart.
    destruct (poisson_flux_3d_at i0 j0 k0 i1 j1 k1 dx gcw u f0 f1 f2 m m2 ltac:(k_rapart L) ltac:(k_rapart L) ltac:(k_rapart L) ltac:(k_rapart L) ltac:(k_rapart L) ltac:(k_rapart L) ltac:(k_rapart L) Ef) as (Vf0 & Vf1 & Vf2 & Ff).
    destruct (poisson_v2_apply_3d_at i0 i1 j0 j1 k0 k1 beta dx f0 f1 f2 rgcw res m2 mo ltac:(k_rapart L) ltac:(k_rapart L) ltac:(k_rapart L) ltac:(k_rapart L) ltac:(k_rapart L) Ea) as (Va & Fa). clear Ef Ea.
    specialize (Va i j k Ii Ij Ik). specialize (Rr i j k Ii Ij Ik).
    pose proof (Vf0 i j k ltac:(lia) ltac:(lia) ltac:(lia)) as Ga0. pose proof (Vf0 (i + 1)%Z j k ltac:(lia) ltac:(lia) ltac:(lia)) as Gb0.
    pose proof (Ru (i - 1)%Z j k ltac:(lia) ltac:(lia) ltac:(lia)) as Ul0. pose proof (Ru (i + 1)%Z j k ltac:(lia) ltac:(lia) ltac:(lia)) as Uh0.
    pose proof (Vf1 i j k ltac:(lia) ltac:(lia) ltac:(lia)) as Ga1. pose proof (Vf1 i (j + 1)%Z k ltac:(lia) ltac:(lia) ltac:(lia)) as Gb1.
    pose proof (Ru i (j - 1)%Z k ltac:(lia) ltac:(lia) ltac:(lia)) as Ul1. pose proof (Ru i (j + 1)%Z k ltac:(lia) ltac:(lia) ltac:(lia)) as Uh1.
    pose proof (Vf2 i j k ltac:(lia) ltac:(lia) ltac:(lia)) as Ga2. pose proof (Vf2 i j (k + 1)%Z ltac:(lia) ltac:(lia) ltac:(lia)) as Gb2.
    pose proof (Ru i j (k - 1)%Z ltac:(lia) ltac:(lia) ltac:(lia)) as Ul2. pose proof (Ru i j (k + 1)%Z ltac:(lia) ltac:(lia) ltac:(lia)) as Uh2.
    pose proof (Ru i j k ltac:(lia) ltac:(lia) ltac:(lia)) as Uc.
    clear Vf0 Vf1 Vf2 Ru . subst_lets.
    replace (i + 1 - 1) with i in * by lia.
    replace (j + 1 - 1) with j in * by lia.
    replace (k + 1 - 1) with k in * by lia.
    k_open. match goal with H : r i j k = _ |- _ => rewrite H end. ring.
  Qed.

End Operator.
