(** * Sums of the operator over a patch *)

From Coq Require Import Permutation Field.
From Verif Require Import Base ModelBounds ModelMatrix ModelIters ModelSpan ModelProxy Spec SpecIter ModelSched
  LemBase LemDomain LemExpr LemExec SpecAssign LemAssign LemProps LemProps4 SpecWindow LemWindow LemWindow2
  FortranBase SpecKernel Instances LemField LemKernel LemKernel2 LemBC LemHomog KernelNotations
  KernelsFlux KernelsApply KernelsStencil LemStencil LemRow LemValues1 LemValues2 LemValues3 LemRows SpecRow LemSum.
Import ListNotations.
Open Scope Z_scope.

Section Conserve.
  Context {S : Scalar} (L : field_laws S).
  Add Field SF : (s_field S L) (morphism (lit_morph S L), constants [lit_cst]).

  Lemma conserve_v1_1d i0 i1 alpha beta dx agcw a gcw u f0 rgcw res (m m' : mem S) r w c v0 :
  i0 <= i1 + 1 -> 0 <= rgcw -> apart res [f0; u; a] ->
  cd_apply_1d_diffusion_v1_apply i0 i1 alpha beta dx agcw a gcw u f0 rgcw res m = Some m' ->
  (forall i, i0 <= i <= i1 -> ((mkFa res (CELL1d i0 i1 rgcw))!(i))%F m' = Some (r i)) ->
  (forall i, i0 <= i <= i1 -> ((mkFa u (CELL1d i0 i1 gcw))!(i))%F m = Some (w i)) ->
  (forall i, i0 <= i <= i1 -> ((mkFa a (CELL1d i0 i1 agcw))!(i))%F m = Some (c i)) ->
  (forall i, i0 <= i <= i1 + 1 -> ((mkFa f0 (FACE1d i0 i1 0))!(i))%F m = Some (v0 i)) ->
  (total i0 i1 (fun i => r i))%T =
  (- beta * ((v0 (i1 + 1)%Z - v0 i0) / dx 0) + alpha * total i0 i1 (fun i => c i * w i))%T.
  Proof.
    intros Bi Hg A E Rr Ru Ra R0. k_apart.
    destruct (diffusion_v1_apply_1d_at i0 i1 alpha beta dx agcw a gcw u f0 rgcw res m m' ltac:(k_rapart L) ltac:(k_rapart L) ltac:(k_rapart L) E) as (V & _). clear E. subst_lets.
    transitivity (total i0 i1 (fun i => (- beta * ((v0 (i + 1)%Z - v0 i) / dx 0) + alpha * (c i * w i))%T)).
    - apply total_ext. intros i Ii. specialize (V i Ii).
      destruct V as (x & Hx & Ex). specialize (Rr i Ii).
      pose proof (R0 i ltac:(lia)) as Ga0. pose proof (R0 (i + 1) ltac:(lia)) as Gb0.
      pose proof (Ru i ltac:(lia)) as Gu.
      pose proof (Ra i ltac:(lia)) as Gc.
      unfold fel, fop, fsc, fneg in * . cbv beta in * . rewrite Rr in Hx. injection Hx as Hx. subst x.
      repeat match goal with H : load ?mm ?p = _ |- _ => match type of Ex with context [load mm p] => rewrite H in Ex; clear H end end.
      cbn [bind] in Ex. injection Ex as Ex. rewrite <- Ex. ring.
    - rewrite (total_add L), (total_mul L _ _ alpha). f_equal. rewrite (total_mul L). f_equal. rewrite ?(total_div L). rewrite (total_steps L i0 i1 v0 Bi). reflexivity.
  Qed.

  Lemma conserve_v2_1d i0 i1 alpha beta dx gcw u f0 rgcw res (m m' : mem S) r w v0 :
  i0 <= i1 + 1 -> 0 <= rgcw -> apart res [f0; u] ->
  cd_apply_1d_diffusion_v2_apply i0 i1 alpha beta dx gcw u f0 rgcw res m = Some m' ->
  (forall i, i0 <= i <= i1 -> ((mkFa res (CELL1d i0 i1 rgcw))!(i))%F m' = Some (r i)) ->
  (forall i, i0 <= i <= i1 -> ((mkFa u (CELL1d i0 i1 gcw))!(i))%F m = Some (w i)) ->
  (forall i, i0 <= i <= i1 + 1 -> ((mkFa f0 (FACE1d i0 i1 0))!(i))%F m = Some (v0 i)) ->
  (total i0 i1 (fun i => r i))%T =
  (- beta * ((v0 (i1 + 1)%Z - v0 i0) / dx 0) + alpha * total i0 i1 (fun i => w i))%T.
  Proof.
    intros Bi Hg A E Rr Ru R0. k_apart.
    destruct (diffusion_v2_apply_1d_at i0 i1 alpha beta dx gcw u f0 rgcw res m m' ltac:(k_rapart L) ltac:(k_rapart L) ltac:(k_rapart L) E) as (V & _). clear E. subst_lets.
    transitivity (total i0 i1 (fun i => (- beta * ((v0 (i + 1)%Z - v0 i) / dx 0) + alpha * w i)%T)).
    - apply total_ext. intros i Ii. specialize (V i Ii).
      destruct V as (x & Hx & Ex). specialize (Rr i Ii).
      pose proof (R0 i ltac:(lia)) as Ga0. pose proof (R0 (i + 1) ltac:(lia)) as Gb0.
      pose proof (Ru i ltac:(lia)) as Gu.
      unfold fel, fop, fsc, fneg in * . cbv beta in * . rewrite Rr in Hx. injection Hx as Hx. subst x.
      repeat match goal with H : load ?mm ?p = _ |- _ => match type of Ex with context [load mm p] => rewrite H in Ex; clear H end end.
      cbn [bind] in Ex. injection Ex as Ex. rewrite <- Ex. ring.
    - rewrite (total_add L), (total_mul L _ _ alpha). f_equal. rewrite (total_mul L). f_equal. rewrite ?(total_div L). rewrite (total_steps L i0 i1 v0 Bi). reflexivity.
  Qed.

  Lemma conserve_poisson_1d i0 i1 beta dx f0 rgcw res (m m' : mem S) r v0 :
  i0 <= i1 + 1 -> 0 <= rgcw -> apart res [f0] ->
  cd_apply_1d_poisson_v2_apply i0 i1 beta dx f0 rgcw res m = Some m' ->
  (forall i, i0 <= i <= i1 -> ((mkFa res (CELL1d i0 i1 rgcw))!(i))%F m' = Some (r i)) ->
  (forall i, i0 <= i <= i1 + 1 -> ((mkFa f0 (FACE1d i0 i1 0))!(i))%F m = Some (v0 i)) ->
  (total i0 i1 (fun i => r i))%T =
  (- beta * ((v0 (i1 + 1)%Z - v0 i0) / dx 0))%T.
  Proof.
    intros Bi Hg A E Rr R0. k_apart.
    destruct (poisson_v2_apply_1d_at i0 i1 beta dx f0 rgcw res m m' ltac:(k_rapart L) ltac:(k_rapart L) ltac:(k_rapart L) E) as (V & _). clear E. subst_lets.
    transitivity (total i0 i1 (fun i => (- beta * ((v0 (i + 1)%Z - v0 i) / dx 0))%T)).
    - apply total_ext. intros i Ii. specialize (V i Ii).
      destruct V as (x & Hx & Ex). specialize (Rr i Ii).
      pose proof (R0 i ltac:(lia)) as Ga0. pose proof (R0 (i + 1) ltac:(lia)) as Gb0.
      unfold fel, fop, fsc, fneg in * . cbv beta in * . rewrite Rr in Hx. injection Hx as Hx. subst x.
      repeat match goal with H : load ?mm ?p = _ |- _ => match type of Ex with context [load mm p] => rewrite H in Ex; clear H end end.
      cbn [bind] in Ex. injection Ex as Ex. rewrite <- Ex. ring.
    - rewrite (total_mul L). f_equal. rewrite ?(total_div L). rewrite (total_steps L i0 i1 v0 Bi). reflexivity.
  Qed.

  Lemma conserve_v1_2d i0 i1 j0 j1 alpha beta dx agcw a gcw u f0 f1 rgcw res (m m' : mem S) r w c v0 v1 :
  i0 <= i1 + 1 -> j0 <= j1 + 1 -> 0 <= rgcw -> apart res [f0; f1; u; a] ->
  cd_apply_2d_diffusion_v1_apply i0 i1 j0 j1 alpha beta dx agcw a gcw u f0 f1 rgcw res m = Some m' ->
  (forall i j, i0 <= i <= i1 -> j0 <= j <= j1 -> ((mkFa res (CELL2d i0 j0 i1 j1 rgcw))!(i, j))%F m' = Some (r i j)) ->
  (forall i j, i0 <= i <= i1 -> j0 <= j <= j1 -> ((mkFa u (CELL2d i0 j0 i1 j1 gcw))!(i, j))%F m = Some (w i j)) ->
  (forall i j, i0 <= i <= i1 -> j0 <= j <= j1 -> ((mkFa a (CELL2d i0 j0 i1 j1 agcw))!(i, j))%F m = Some (c i j)) ->
  (forall i j, i0 <= i <= i1 + 1 -> j0 <= j <= j1 -> ((mkFa f0 (FACE2d0 i0 j0 i1 j1 0))!(i, j))%F m = Some (v0 i j)) ->
  (forall i j, i0 <= i <= i1 -> j0 <= j <= j1 + 1 -> ((mkFa f1 (FACE2d1 i0 j0 i1 j1 0))!(j, i))%F m = Some (v1 i j)) ->
  (total2 i0 j0 i1 j1 (fun i j => r i j))%T =
  (- beta * (total j0 j1 (fun j => (v0 (i1 + 1)%Z j - v0 i0 j)) / dx 0 + total i0 i1 (fun i => (v1 i (j1 + 1)%Z - v1 i j0)) / dx 1) + alpha * total2 i0 j0 i1 j1 (fun i j => c i j * w i j))%T.
  Proof.
    intros Bi Bj Hg A E Rr Ru Ra R0 R1. k_apart.
    destruct (diffusion_v1_apply_2d_at i0 i1 j0 j1 alpha beta dx agcw a gcw u f0 f1 rgcw res m m' ltac:(k_rapart L) ltac:(k_rapart L) ltac:(k_rapart L) ltac:(k_rapart L) E) as (V & _). clear E. subst_lets.
    transitivity (total2 i0 j0 i1 j1 (fun i j => (- beta * ((v0 (i + 1)%Z j - v0 i j) / dx 0 + (v1 i (j + 1)%Z - v1 i j) / dx 1) + alpha * (c i j * w i j))%T)).
    - apply total2_ext. intros i j Ii Ij. specialize (V i j Ii Ij).
      destruct V as (x & Hx & Ex). specialize (Rr i j Ii Ij).
      pose proof (R0 i j ltac:(lia) ltac:(lia)) as Ga0. pose proof (R0 (i + 1) j ltac:(lia) ltac:(lia)) as Gb0.
      pose proof (R1 i j ltac:(lia) ltac:(lia)) as Ga1. pose proof (R1 i (j + 1) ltac:(lia) ltac:(lia)) as Gb1.
      pose proof (Ru i j ltac:(lia) ltac:(lia)) as Gu.
      pose proof (Ra i j ltac:(lia) ltac:(lia)) as Gc.
      unfold fel, fop, fsc, fneg in * . cbv beta in * . rewrite Rr in Hx. injection Hx as Hx. subst x.
      repeat match goal with H : load ?mm ?p = _ |- _ => match type of Ex with context [load mm p] => rewrite H in Ex; clear H end end.
      cbn [bind] in Ex. injection Ex as Ex. rewrite <- Ex. ring.
    - rewrite (total2_add L), (total2_mul L _ _ _ _ alpha). f_equal. rewrite (total2_mul L). f_equal. rewrite ?(total2_add L). rewrite ?(total2_div L). rewrite (total2_steps0 L i0 j0 i1 j1 v0 Bi). rewrite (total2_steps1 L i0 j0 i1 j1 v1 Bj). reflexivity.
  Qed.

  Lemma conserve_v2_2d i0 i1 j0 j1 alpha beta dx gcw u f0 f1 rgcw res (m m' : mem S) r w v0 v1 :
  i0 <= i1 + 1 -> j0 <= j1 + 1 -> 0 <= rgcw -> apart res [f0; f1; u] ->
  cd_apply_2d_diffusion_v2_apply i0 i1 j0 j1 alpha beta dx gcw u f0 f1 rgcw res m = Some m' ->
  (forall i j, i0 <= i <= i1 -> j0 <= j <= j1 -> ((mkFa res (CELL2d i0 j0 i1 j1 rgcw))!(i, j))%F m' = Some (r i j)) ->
  (forall i j, i0 <= i <= i1 -> j0 <= j <= j1 -> ((mkFa u (CELL2d i0 j0 i1 j1 gcw))!(i, j))%F m = Some (w i j)) ->
  (forall i j, i0 <= i <= i1 + 1 -> j0 <= j <= j1 -> ((mkFa f0 (FACE2d0 i0 j0 i1 j1 0))!(i, j))%F m = Some (v0 i j)) ->
  (forall i j, i0 <= i <= i1 -> j0 <= j <= j1 + 1 -> ((mkFa f1 (FACE2d1 i0 j0 i1 j1 0))!(j, i))%F m = Some (v1 i j)) ->
  (total2 i0 j0 i1 j1 (fun i j => r i j))%T =
  (- beta * (total j0 j1 (fun j => (v0 (i1 + 1)%Z j - v0 i0 j)) / dx 0 + total i0 i1 (fun i => (v1 i (j1 + 1)%Z - v1 i j0)) / dx 1) + alpha * total2 i0 j0 i1 j1 (fun i j => w i j))%T.
  Proof.
    intros Bi Bj Hg A E Rr Ru R0 R1. k_apart.
    destruct (diffusion_v2_apply_2d_at i0 i1 j0 j1 alpha beta dx gcw u f0 f1 rgcw res m m' ltac:(k_rapart L) ltac:(k_rapart L) ltac:(k_rapart L) ltac:(k_rapart L) E) as (V & _). clear E. subst_lets.
    transitivity (total2 i0 j0 i1 j1 (fun i j => (- beta * ((v0 (i + 1)%Z j - v0 i j) / dx 0 + (v1 i (j + 1)%Z - v1 i j) / dx 1) + alpha * w i j)%T)).
    - apply total2_ext. intros i j Ii Ij. specialize (V i j Ii Ij).
      destruct V as (x & Hx & Ex). specialize (Rr i j Ii Ij).
      pose proof (R0 i j ltac:(lia) ltac:(lia)) as Ga0. pose proof (R0 (i + 1) j ltac:(lia) ltac:(lia)) as Gb0.
      pose proof (R1 i j ltac:(lia) ltac:(lia)) as Ga1. pose proof (R1 i (j + 1) ltac:(lia) ltac:(lia)) as Gb1.
      pose proof (Ru i j ltac:(lia) ltac:(lia)) as Gu.
      unfold fel, fop, fsc, fneg in * . cbv beta in * . rewrite Rr in Hx. injection Hx as Hx. subst x.
      repeat match goal with H : load ?mm ?p = _ |- _ => match type of Ex with context [load mm p] => rewrite H in Ex; clear H end end.
      cbn [bind] in Ex. injection Ex as Ex. rewrite <- Ex. ring.
    - rewrite (total2_add L), (total2_mul L _ _ _ _ alpha). f_equal. rewrite (total2_mul L). f_equal. rewrite ?(total2_add L). rewrite ?(total2_div L). rewrite (total2_steps0 L i0 j0 i1 j1 v0 Bi). rewrite (total2_steps1 L i0 j0 i1 j1 v1 Bj). reflexivity.
  Qed.

  Lemma conserve_poisson_2d i0 i1 j0 j1 beta dx f0 f1 rgcw res (m m' : mem S) r v0 v1 :
  i0 <= i1 + 1 -> j0 <= j1 + 1 -> 0 <= rgcw -> apart res [f0; f1] ->
  cd_apply_2d_poisson_v2_apply i0 i1 j0 j1 beta dx f0 f1 rgcw res m = Some m' ->
  (forall i j, i0 <= i <= i1 -> j0 <= j <= j1 -> ((mkFa res (CELL2d i0 j0 i1 j1 rgcw))!(i, j))%F m' = Some (r i j)) ->
  (forall i j, i0 <= i <= i1 + 1 -> j0 <= j <= j1 -> ((mkFa f0 (FACE2d0 i0 j0 i1 j1 0))!(i, j))%F m = Some (v0 i j)) ->
  (forall i j, i0 <= i <= i1 -> j0 <= j <= j1 + 1 -> ((mkFa f1 (FACE2d1 i0 j0 i1 j1 0))!(j, i))%F m = Some (v1 i j)) ->
  (total2 i0 j0 i1 j1 (fun i j => r i j))%T =
  (- beta * (total j0 j1 (fun j => (v0 (i1 + 1)%Z j - v0 i0 j)) / dx 0 + total i0 i1 (fun i => (v1 i (j1 + 1)%Z - v1 i j0)) / dx 1))%T.
  Proof.
    intros Bi Bj Hg A E Rr R0 R1. k_apart.
    destruct (poisson_v2_apply_2d_at i0 i1 j0 j1 beta dx f0 f1 rgcw res m m' ltac:(k_rapart L) ltac:(k_rapart L) ltac:(k_rapart L) ltac:(k_rapart L) E) as (V & _). clear E. subst_lets.
    transitivity (total2 i0 j0 i1 j1 (fun i j => (- beta * ((v0 (i + 1)%Z j - v0 i j) / dx 0 + (v1 i (j + 1)%Z - v1 i j) / dx 1))%T)).
    - apply total2_ext. intros i j Ii Ij. specialize (V i j Ii Ij).
      destruct V as (x & Hx & Ex). specialize (Rr i j Ii Ij).
      pose proof (R0 i j ltac:(lia) ltac:(lia)) as Ga0. pose proof (R0 (i + 1) j ltac:(lia) ltac:(lia)) as Gb0.
      pose proof (R1 i j ltac:(lia) ltac:(lia)) as Ga1. pose proof (R1 i (j + 1) ltac:(lia) ltac:(lia)) as Gb1.
      unfold fel, fop, fsc, fneg in * . cbv beta in * . rewrite Rr in Hx. injection Hx as Hx. subst x.
      repeat match goal with H : load ?mm ?p = _ |- _ => match type of Ex with context [load mm p] => rewrite H in Ex; clear H end end.
      cbn [bind] in Ex. injection Ex as Ex. rewrite <- Ex. ring.
    - rewrite (total2_mul L). f_equal. rewrite ?(total2_add L). rewrite ?(total2_div L). rewrite (total2_steps0 L i0 j0 i1 j1 v0 Bi). rewrite (total2_steps1 L i0 j0 i1 j1 v1 Bj). reflexivity.
  Qed.

  Lemma conserve_v1_3d i0 i1 j0 j1 k0 k1 alpha beta dx agcw a gcw u f0 f1 f2 rgcw res (m m' : mem S) r w c v0 v1 v2 :
  i0 <= i1 + 1 -> j0 <= j1 + 1 -> k0 <= k1 + 1 -> 0 <= rgcw -> apart res [f0; f1; f2; u; a] ->
  cd_apply_3d_diffusion_v1_apply i0 i1 j0 j1 k0 k1 alpha beta dx agcw a gcw u f0 f1 f2 rgcw res m = Some m' ->
  (forall i j k, i0 <= i <= i1 -> j0 <= j <= j1 -> k0 <= k <= k1 -> ((mkFa res (CELL3d i0 j0 k0 i1 j1 k1 rgcw))!(i, j, k))%F m' = Some (r i j k)) ->
  (forall i j k, i0 <= i <= i1 -> j0 <= j <= j1 -> k0 <= k <= k1 -> ((mkFa u (CELL3d i0 j0 k0 i1 j1 k1 gcw))!(i, j, k))%F m = Some (w i j k)) ->
  (forall i j k, i0 <= i <= i1 -> j0 <= j <= j1 -> k0 <= k <= k1 -> ((mkFa a (CELL3d i0 j0 k0 i1 j1 k1 agcw))!(i, j, k))%F m = Some (c i j k)) ->
  (forall i j k, i0 <= i <= i1 + 1 -> j0 <= j <= j1 -> k0 <= k <= k1 -> ((mkFa f0 (FACE3d0 i0 j0 k0 i1 j1 k1 0))!(i, j, k))%F m = Some (v0 i j k)) ->
  (forall i j k, i0 <= i <= i1 -> j0 <= j <= j1 + 1 -> k0 <= k <= k1 -> ((mkFa f1 (FACE3d1 i0 j0 k0 i1 j1 k1 0))!(j, k, i))%F m = Some (v1 i j k)) ->
  (forall i j k, i0 <= i <= i1 -> j0 <= j <= j1 -> k0 <= k <= k1 + 1 -> ((mkFa f2 (FACE3d2 i0 j0 k0 i1 j1 k1 0))!(k, i, j))%F m = Some (v2 i j k)) ->
  (total3 i0 j0 k0 i1 j1 k1 (fun i j k => r i j k))%T =
  (- beta * (total2 j0 k0 j1 k1 (fun j k => (v0 (i1 + 1)%Z j k - v0 i0 j k)) / dx 0 + total2 i0 k0 i1 k1 (fun i k => (v1 i (j1 + 1)%Z k - v1 i j0 k)) / dx 1 + total2 i0 j0 i1 j1 (fun i j => (v2 i j (k1 + 1)%Z - v2 i j k0)) / dx 2) + alpha * total3 i0 j0 k0 i1 j1 k1 (fun i j k => c i j k * w i j k))%T.
  Proof.
    intros Bi Bj Bk Hg A E Rr Ru Ra R0 R1 R2. k_apart.
    destruct (diffusion_v1_apply_3d_at i0 i1 j0 j1 k0 k1 alpha beta dx agcw a gcw u f0 f1 f2 rgcw res m m' ltac:(k_rapart L) ltac:(k_rapart L) ltac:(k_rapart L) ltac:(k_rapart L) ltac:(k_rapart L) E) as (V & _). clear E. subst_lets.
    transitivity (total3 i0 j0 k0 i1 j1 k1 (fun i j k => (- beta * ((v0 (i + 1)%Z j k - v0 i j k) / dx 0 + (v1 i (j + 1)%Z k - v1 i j k) / dx 1 + (v2 i j (k + 1)%Z - v2 i j k) / dx 2) + alpha * (c i j k * w i j k))%T)).
    - apply total3_ext. intros i j k Ii Ij Ik. specialize (V i j k Ii Ij Ik).
      destruct V as (x & Hx & Ex). specialize (Rr i j k Ii Ij Ik).
      pose proof (R0 i j k ltac:(lia) ltac:(lia) ltac:(lia)) as Ga0. pose proof (R0 (i + 1) j k ltac:(lia) ltac:(lia) ltac:(lia)) as Gb0.
      pose proof (R1 i j k ltac:(lia) ltac:(lia) ltac:(lia)) as Ga1. pose proof (R1 i (j + 1) k ltac:(lia) ltac:(lia) ltac:(lia)) as Gb1.
      pose proof (R2 i j k ltac:(lia) ltac:(lia) ltac:(lia)) as Ga2. pose proof (R2 i j (k + 1) ltac:(lia) ltac:(lia) ltac:(lia)) as Gb2.
      pose proof (Ru i j k ltac:(lia) ltac:(lia) ltac:(lia)) as Gu.
      pose proof (Ra i j k ltac:(lia) ltac:(lia) ltac:(lia)) as Gc.
      unfold fel, fop, fsc, fneg in * . cbv beta in * . rewrite Rr in Hx. injection Hx as Hx. subst x.
      repeat match goal with H : load ?mm ?p = _ |- _ => match type of Ex with context [load mm p] => rewrite H in Ex; clear H end end.
      cbn [bind] in Ex. injection Ex as Ex. rewrite <- Ex. ring.
    - rewrite (total3_add L), (total3_mul L _ _ _ _ _ _ alpha). f_equal. rewrite (total3_mul L). f_equal. rewrite ?(total3_add L). rewrite ?(total3_div L). rewrite (total3_steps0 L i0 j0 k0 i1 j1 k1 v0 Bi). rewrite (total3_steps1 L i0 j0 k0 i1 j1 k1 v1 Bj). rewrite (total3_steps2 L i0 j0 k0 i1 j1 k1 v2 Bk). reflexivity.
  Qed.

  Lemma conserve_v2_3d i0 i1 j0 j1 k0 k1 alpha beta dx gcw u f0 f1 f2 rgcw res (m m' : mem S) r w v0 v1 v2 :
  i0 <= i1 + 1 -> j0 <= j1 + 1 -> k0 <= k1 + 1 -> 0 <= rgcw -> apart res [f0; f1; f2; u] ->
  cd_apply_3d_diffusion_v2_apply i0 i1 j0 j1 k0 k1 alpha beta dx gcw u f0 f1 f2 rgcw res m = Some m' ->
  (forall i j k, i0 <= i <= i1 -> j0 <= j <= j1 -> k0 <= k <= k1 -> ((mkFa res (CELL3d i0 j0 k0 i1 j1 k1 rgcw))!(i, j, k))%F m' = Some (r i j k)) ->
  (forall i j k, i0 <= i <= i1 -> j0 <= j <= j1 -> k0 <= k <= k1 -> ((mkFa u (CELL3d i0 j0 k0 i1 j1 k1 gcw))!(i, j, k))%F m = Some (w i j k)) ->
  (forall i j k, i0 <= i <= i1 + 1 -> j0 <= j <= j1 -> k0 <= k <= k1 -> ((mkFa f0 (FACE3d0 i0 j0 k0 i1 j1 k1 0))!(i, j, k))%F m = Some (v0 i j k)) ->
  (forall i j k, i0 <= i <= i1 -> j0 <= j <= j1 + 1 -> k0 <= k <= k1 -> ((mkFa f1 (FACE3d1 i0 j0 k0 i1 j1 k1 0))!(j, k, i))%F m = Some (v1 i j k)) ->
  (forall i j k, i0 <= i <= i1 -> j0 <= j <= j1 -> k0 <= k <= k1 + 1 -> ((mkFa f2 (FACE3d2 i0 j0 k0 i1 j1 k1 0))!(k, i, j))%F m = Some (v2 i j k)) ->
  (total3 i0 j0 k0 i1 j1 k1 (fun i j k => r i j k))%T =
  (- beta * (total2 j0 k0 j1 k1 (fun j k => (v0 (i1 + 1)%Z j k - v0 i0 j k)) / dx 0 + total2 i0 k0 i1 k1 (fun i k => (v1 i (j1 + 1)%Z k - v1 i j0 k)) / dx 1 + total2 i0 j0 i1 j1 (fun i j => (v2 i j (k1 + 1)%Z - v2 i j k0)) / dx 2) + alpha * total3 i0 j0 k0 i1 j1 k1 (fun i j k => w i j k))%T.
  Proof.
    intros Bi Bj Bk Hg A E Rr Ru R0 R1 R2. k_apart.
    destruct (diffusion_v2_apply_3d_at i0 i1 j0 j1 k0 k1 alpha beta dx gcw u f0 f1 f2 rgcw res m m' ltac:(k_rapart L) ltac:(k_rapart L) ltac:(k_rapart L) ltac:(k_rapart L) ltac:(k_rapart L) E) as (V & _). clear E. subst_lets.
    transitivity (total3 i0 j0 k0 i1 j1 k1 (fun i j k => (- beta * ((v0 (i + 1)%Z j k - v0 i j k) / dx 0 + (v1 i (j + 1)%Z k - v1 i j k) / dx 1 + (v2 i j (k + 1)%Z - v2 i j k) / dx 2) + alpha * w i j k)%T)).
    - apply total3_ext. intros i j k Ii Ij Ik. specialize (V i j k Ii Ij Ik).
      destruct V as (x & Hx & Ex). specialize (Rr i j k Ii Ij Ik).
      pose proof (R0 i j k ltac:(lia) ltac:(lia) ltac:(lia)) as Ga0. pose proof (R0 (i + 1) j k ltac:(lia) ltac:(lia) ltac:(lia)) as Gb0.
      pose proof (R1 i j k ltac:(lia) ltac:(lia) ltac:(lia)) as Ga1. pose proof (R1 i (j + 1) k ltac:(lia) ltac:(lia) ltac:(lia)) as Gb1.
      pose proof (R2 i j k ltac:(lia) ltac:(lia) ltac:(lia)) as Ga2. pose proof (R2 i j (k + 1) ltac:(lia) ltac:(lia) ltac:(lia)) as Gb2.
      pose proof (Ru i j k ltac:(lia) ltac:(lia) ltac:(lia)) as Gu.
      unfold fel, fop, fsc, fneg in * . cbv beta in * . rewrite Rr in Hx. injection Hx as Hx. subst x.
      repeat match goal with H : load ?mm ?p = _ |- _ => match type of Ex with context [load mm p] => rewrite H in Ex; clear H end end.
      cbn [bind] in Ex. injection Ex as Ex. rewrite <- Ex. ring.
    - rewrite (total3_add L), (total3_mul L _ _ _ _ _ _ alpha). f_equal. rewrite (total3_mul L). f_equal. rewrite ?(total3_add L). rewrite ?(total3_div L). rewrite (total3_steps0 L i0 j0 k0 i1 j1 k1 v0 Bi). rewrite (total3_steps1 L i0 j0 k0 i1 j1 k1 v1 Bj). rewrite (total3_steps2 L i0 j0 k0 i1 j1 k1 v2 Bk). reflexivity.
  Qed.

  Lemma conserve_poisson_3d i0 i1 j0 j1 k0 k1 beta dx f0 f1 f2 rgcw res (m m' : mem S) r v0 v1 v2 :
  i0 <= i1 + 1 -> j0 <= j1 + 1 -> k0 <= k1 + 1 -> 0 <= rgcw -> apart res [f0; f1; f2] ->
  cd_apply_3d_poisson_v2_apply i0 i1 j0 j1 k0 k1 beta dx f0 f1 f2 rgcw res m = Some m' ->
  (forall i j k, i0 <= i <= i1 -> j0 <= j <= j1 -> k0 <= k <= k1 -> ((mkFa res (CELL3d i0 j0 k0 i1 j1 k1 rgcw))!(i, j, k))%F m' = Some (r i j k)) ->
  (forall i j k, i0 <= i <= i1 + 1 -> j0 <= j <= j1 -> k0 <= k <= k1 -> ((mkFa f0 (FACE3d0 i0 j0 k0 i1 j1 k1 0))!(i, j, k))%F m = Some (v0 i j k)) ->
  (forall i j k, i0 <= i <= i1 -> j0 <= j <= j1 + 1 -> k0 <= k <= k1 -> ((mkFa f1 (FACE3d1 i0 j0 k0 i1 j1 k1 0))!(j, k, i))%F m = Some (v1 i j k)) ->
  (forall i j k, i0 <= i <= i1 -> j0 <= j <= j1 -> k0 <= k <= k1 + 1 -> ((mkFa f2 (FACE3d2 i0 j0 k0 i1 j1 k1 0))!(k, i, j))%F m = Some (v2 i j k)) ->
  (total3 i0 j0 k0 i1 j1 k1 (fun i j k => r i j k))%T =
  (- beta * (total2 j0 k0 j1 k1 (fun j k => (v0 (i1 + 1)%Z j k - v0 i0 j k)) / dx 0 + total2 i0 k0 i1 k1 (fun i k => (v1 i (j1 + 1)%Z k - v1 i j0 k)) / dx 1 + total2 i0 j0 i1 j1 (fun i j => (v2 i j (k1 + 1)%Z - v2 i j k0)) / dx 2))%T.
  Proof.
    intros Bi Bj Bk Hg A E Rr R0 R1 R2. k_apart.
    destruct (poisson_v2_apply_3d_at i0 i1 j0 j1 k0 k1 beta dx f0 f1 f2 rgcw res m m' ltac:(k_rapart L) ltac:(k_rapart L) ltac:(k_rapart L) ltac:(k_rapart L) ltac:(k_rapart L) E) as (V & _). clear E. subst_lets.
    transitivity (total3 i0 j0 k0 i1 j1 k1 (fun i j k => (- beta * ((v0 (i + 1)%Z j k - v0 i j k) / dx 0 + (v1 i (j + 1)%Z k - v1 i j k) / dx 1 + (v2 i j (k + 1)%Z - v2 i j k) / dx 2))%T)).
    - apply total3_ext. intros i j k Ii Ij Ik. specialize (V i j k Ii Ij Ik).
      destruct V as (x & Hx & Ex). specialize (Rr i j k Ii Ij Ik).
      pose proof (R0 i j k ltac:(lia) ltac:(lia) ltac:(lia)) as Ga0. pose proof (R0 (i + 1) j k ltac:(lia) ltac:(lia) ltac:(lia)) as Gb0.
      pose proof (R1 i j k ltac:(lia) ltac:(lia) ltac:(lia)) as Ga1. pose proof (R1 i (j + 1) k ltac:(lia) ltac:(lia) ltac:(lia)) as Gb1.
      pose proof (R2 i j k ltac:(lia) ltac:(lia) ltac:(lia)) as Ga2. pose proof (R2 i j (k + 1) ltac:(lia) ltac:(lia) ltac:(lia)) as Gb2.
      unfold fel, fop, fsc, fneg in * . cbv beta in * . rewrite Rr in Hx. injection Hx as Hx. subst x.
      repeat match goal with H : load ?mm ?p = _ |- _ => match type of Ex with context [load mm p] => rewrite H in Ex; clear H end end.
      cbn [bind] in Ex. injection Ex as Ex. rewrite <- Ex. ring.
    - rewrite (total3_mul L). f_equal. rewrite ?(total3_add L). rewrite ?(total3_div L). rewrite (total3_steps0 L i0 j0 k0 i1 j1 k1 v0 Bi). rewrite (total3_steps1 L i0 j0 k0 i1 j1 k1 v1 Bj). rewrite (total3_steps2 L i0 j0 k0 i1 j1 k1 v2 Bk). reflexivity.
  Qed.
End Conserve.
