(** * The operator as a bilinear form *)

From Coq Require Import Field QArith Qcanon.
From Verif Require Import Base ModelBounds ModelMatrix ModelIters ModelSpan ModelProxy Spec SpecAssign FortranBase SpecKernel
  Instances LemField KernelsFlux KernelsApply SpecRow LemSum SpecEnergy LemEnergy LemOperator.
Import ListNotations.
Open Scope Z_scope.

Section Form.
  Context {S : Scalar} (L : field_laws S).
  Add Field SF : (s_field S L) (morphism (lit_morph S L), constants [lit_cst]).

  Lemma weak_v1_1d i0 i1 dx beta b0 gcw u f0 alpha agcw a rgcw res (m mo : mem S) r w c v0 z :
  i0 <= i1 -> 0 <= gcw -> 0 <= rgcw ->
  apart f0 [b0; a; u] -> apart res [f0; a; u] ->
  (m' <- cdf_1d_flux i0 i1 dx b0 gcw u f0 m ;;
   cd_apply_1d_diffusion_v1_apply i0 i1 alpha beta dx agcw a gcw u f0 rgcw res m') = Some mo ->
  (forall i, i0 <= i <= i1 -> ((mkFa res (CELL1d i0 i1 rgcw))!(i))%F mo = Some (r i)) ->
  (forall i, i0 - 1 <= i <= i1 + 1 -> ((mkFa u (CELL1d i0 i1 gcw))!(i))%F m = Some (w i)) ->
  (forall i, i0 <= i <= i1 -> ((mkFa a (CELL1d i0 i1 agcw))!(i))%F m = Some (c i)) ->
  (forall i, i0 <= i <= i1 + 1 -> ((mkFa b0 (FACE1d i0 i1 0))!(i))%F m = Some (v0 i)) ->
  (total i0 i1 (fun i => r i * z i))%T =
  (beta * (line i0 i1 (dx 0) v0 w z) + alpha * total i0 i1 (fun i => c i * w i * z i))%T.
  Proof.
    intros Bi Hg Hr A0 A1 E R0 R1 R2 R3.
    pose proof (op_v1_1d L i0 i1 dx beta b0 gcw u f0 alpha agcw a rgcw res m mo r w c v0 ltac:(lia) Hg Hr A0 A1 E R0 R1 R2 R3) as V. clear A0 A1 E R0 R1 R2 R3.
    transitivity (total i0 i1 (fun i => (- beta * (((v0 (i + 1)%Z * ((w (i + 1)%Z - w i) / dx 0) - v0 i * ((w i - w (i - 1)%Z) / dx 0)) / dx 0) * z i) + alpha * (c i * w i * z i))%T)).
    - apply total_ext. intros i Ii. rewrite (V i Ii). destruct (inverse L (dx 0)) as (y0 & D0); rewrite !D0. ring.
    - rewrite (total_add L), (total_mul L _ _ alpha). f_equal. rewrite (total_mul L). rewrite ?(total_add L). pose proof (line_parts L i0 i1 (dx 0) v0 w z Bi) as P0. cbv beta in P0. rewrite P0. ring.
  Qed.

  Lemma weak_v2_1d i0 i1 dx beta b0 gcw u f0 alpha rgcw res (m mo : mem S) r w v0 z :
  i0 <= i1 -> 0 <= gcw -> 0 <= rgcw ->
  apart f0 [b0; u] -> apart res [f0; u] ->
  (m' <- cdf_1d_flux i0 i1 dx b0 gcw u f0 m ;;
   cd_apply_1d_diffusion_v2_apply i0 i1 alpha beta dx gcw u f0 rgcw res m') = Some mo ->
  (forall i, i0 <= i <= i1 -> ((mkFa res (CELL1d i0 i1 rgcw))!(i))%F mo = Some (r i)) ->
  (forall i, i0 - 1 <= i <= i1 + 1 -> ((mkFa u (CELL1d i0 i1 gcw))!(i))%F m = Some (w i)) ->
  (forall i, i0 <= i <= i1 + 1 -> ((mkFa b0 (FACE1d i0 i1 0))!(i))%F m = Some (v0 i)) ->
  (total i0 i1 (fun i => r i * z i))%T =
  (beta * (line i0 i1 (dx 0) v0 w z) + alpha * total i0 i1 (fun i => w i * z i))%T.
  Proof.
    intros Bi Hg Hr A0 A1 E R0 R1 R2.
    pose proof (op_v2_1d L i0 i1 dx beta b0 gcw u f0 alpha rgcw res m mo r w v0 ltac:(lia) Hg Hr A0 A1 E R0 R1 R2) as V. clear A0 A1 E R0 R1 R2.
    transitivity (total i0 i1 (fun i => (- beta * (((v0 (i + 1)%Z * ((w (i + 1)%Z - w i) / dx 0) - v0 i * ((w i - w (i - 1)%Z) / dx 0)) / dx 0) * z i) + alpha * (w i * z i))%T)).
    - apply total_ext. intros i Ii. rewrite (V i Ii). destruct (inverse L (dx 0)) as (y0 & D0); rewrite !D0. ring.
    - rewrite (total_add L), (total_mul L _ _ alpha). f_equal. rewrite (total_mul L). rewrite ?(total_add L). pose proof (line_parts L i0 i1 (dx 0) v0 w z Bi) as P0. cbv beta in P0. rewrite P0. ring.
  Qed.

  Lemma weak_poisson_1d i0 i1 dx beta gcw u f0 rgcw res (m mo : mem S) r w z :
  i0 <= i1 -> 0 <= gcw -> 0 <= rgcw ->
  apart f0 [u] -> apart res [f0; u] ->
  (m' <- cdf_1d_poisson_flux i0 i1 dx gcw u f0 m ;;
   cd_apply_1d_poisson_v2_apply i0 i1 beta dx f0 rgcw res m') = Some mo ->
  (forall i, i0 <= i <= i1 -> ((mkFa res (CELL1d i0 i1 rgcw))!(i))%F mo = Some (r i)) ->
  (forall i, i0 - 1 <= i <= i1 + 1 -> ((mkFa u (CELL1d i0 i1 gcw))!(i))%F m = Some (w i)) ->
  (total i0 i1 (fun i => r i * z i))%T =
  (beta * (line i0 i1 (dx 0) (fun _ => lit 1) w z))%T.
  Proof.
    intros Bi Hg Hr A0 A1 E R0 R1.
    pose proof (op_poisson_1d L i0 i1 dx beta gcw u f0 rgcw res m mo r w ltac:(lia) Hg Hr A0 A1 E R0 R1) as V. clear A0 A1 E R0 R1.
    transitivity (total i0 i1 (fun i => (- beta * (((lit 1 * ((w (i + 1)%Z - w i) / dx 0) - lit 1 * ((w i - w (i - 1)%Z) / dx 0)) / dx 0) * z i))%T)).
    - apply total_ext. intros i Ii. rewrite (V i Ii). destruct (inverse L (dx 0)) as (y0 & D0); rewrite !D0. ring.
    - rewrite (total_mul L). rewrite ?(total_add L). pose proof (line_parts L i0 i1 (dx 0) (fun _ => lit 1) w z Bi) as P0. cbv beta in P0. rewrite P0. ring.
  Qed.

  Lemma weak_v1_2d i0 j0 i1 j1 dx beta b0 b1 gcw u f0 f1 alpha agcw a rgcw res (m mo : mem S) r w c v0 v1 z :
  i0 <= i1 -> j0 <= j1 -> 0 <= gcw -> 0 <= rgcw ->
  apart f0 [f1; b0; b1; a; u] -> apart f1 [b0; b1; a; u] -> apart res [f0; f1; a; u] ->
  (m' <- cdf_2d_flux i0 j0 i1 j1 dx b0 b1 gcw u f0 f1 m ;;
   cd_apply_2d_diffusion_v1_apply i0 i1 j0 j1 alpha beta dx agcw a gcw u f0 f1 rgcw res m') = Some mo ->
  (forall i j, i0 <= i <= i1 -> j0 <= j <= j1 -> ((mkFa res (CELL2d i0 j0 i1 j1 rgcw))!(i, j))%F mo = Some (r i j)) ->
  (forall i j, i0 - 1 <= i <= i1 + 1 -> j0 - 1 <= j <= j1 + 1 -> ((mkFa u (CELL2d i0 j0 i1 j1 gcw))!(i, j))%F m = Some (w i j)) ->
  (forall i j, i0 <= i <= i1 -> j0 <= j <= j1 -> ((mkFa a (CELL2d i0 j0 i1 j1 agcw))!(i, j))%F m = Some (c i j)) ->
  (forall i j, i0 <= i <= i1 + 1 -> j0 <= j <= j1 -> ((mkFa b0 (FACE2d0 i0 j0 i1 j1 0))!(i, j))%F m = Some (v0 i j)) ->
  (forall i j, i0 <= i <= i1 -> j0 <= j <= j1 + 1 -> ((mkFa b1 (FACE2d1 i0 j0 i1 j1 0))!(j, i))%F m = Some (v1 i j)) ->
  (total2 i0 j0 i1 j1 (fun i j => r i j * z i j))%T =
  (beta * (total j0 j1 (fun j => line i0 i1 (dx 0) (fun i => v0 i j) (fun i => w i j) (fun i => z i j)) + total i0 i1 (fun i => line j0 j1 (dx 1) (fun j => v1 i j) (fun j => w i j) (fun j => z i j))) + alpha * total2 i0 j0 i1 j1 (fun i j => c i j * w i j * z i j))%T.
  Proof.
    intros Bi Bj Hg Hr A0 A1 A2 E R0 R1 R2 R3 R4.
    pose proof (op_v1_2d L i0 j0 i1 j1 dx beta b0 b1 gcw u f0 f1 alpha agcw a rgcw res m mo r w c v0 v1 ltac:(lia) ltac:(lia) Hg Hr A0 A1 A2 E R0 R1 R2 R3 R4) as V. clear A0 A1 A2 E R0 R1 R2 R3 R4.
    transitivity (total2 i0 j0 i1 j1 (fun i j => (- beta * (((v0 (i + 1)%Z j * ((w (i + 1)%Z j - w i j) / dx 0) - v0 i j * ((w i j - w (i - 1)%Z j) / dx 0)) / dx 0) * z i j + ((v1 i (j + 1)%Z * ((w i (j + 1)%Z - w i j) / dx 1) - v1 i j * ((w i j - w i (j - 1)%Z) / dx 1)) / dx 1) * z i j) + alpha * (c i j * w i j * z i j))%T)).
    - apply total2_ext. intros i j Ii Ij. rewrite (V i j Ii Ij). destruct (inverse L (dx 0)) as (y0 & D0); rewrite !D0. destruct (inverse L (dx 1)) as (y1 & D1); rewrite !D1. ring.
    - rewrite (total2_add L), (total2_mul L _ _ _ _ alpha). f_equal. rewrite (total2_mul L). rewrite ?(total2_add L). pose proof (line_parts_2d_0 L i0 j0 i1 j1 (dx 0) v0 w z Bi) as P0. cbv beta in P0. rewrite P0. pose proof (line_parts_2d_1 L i0 j0 i1 j1 (dx 1) v1 w z Bj) as P1. cbv beta in P1. rewrite P1. ring.
  Qed.

  Lemma weak_v2_2d i0 j0 i1 j1 dx beta b0 b1 gcw u f0 f1 alpha rgcw res (m mo : mem S) r w v0 v1 z :
  i0 <= i1 -> j0 <= j1 -> 0 <= gcw -> 0 <= rgcw ->
  apart f0 [f1; b0; b1; u] -> apart f1 [b0; b1; u] -> apart res [f0; f1; u] ->
  (m' <- cdf_2d_flux i0 j0 i1 j1 dx b0 b1 gcw u f0 f1 m ;;
   cd_apply_2d_diffusion_v2_apply i0 i1 j0 j1 alpha beta dx gcw u f0 f1 rgcw res m') = Some mo ->
  (forall i j, i0 <= i <= i1 -> j0 <= j <= j1 -> ((mkFa res (CELL2d i0 j0 i1 j1 rgcw))!(i, j))%F mo = Some (r i j)) ->
  (forall i j, i0 - 1 <= i <= i1 + 1 -> j0 - 1 <= j <= j1 + 1 -> ((mkFa u (CELL2d i0 j0 i1 j1 gcw))!(i, j))%F m = Some (w i j)) ->
  (forall i j, i0 <= i <= i1 + 1 -> j0 <= j <= j1 -> ((mkFa b0 (FACE2d0 i0 j0 i1 j1 0))!(i, j))%F m = Some (v0 i j)) ->
  (forall i j, i0 <= i <= i1 -> j0 <= j <= j1 + 1 -> ((mkFa b1 (FACE2d1 i0 j0 i1 j1 0))!(j, i))%F m = Some (v1 i j)) ->
  (total2 i0 j0 i1 j1 (fun i j => r i j * z i j))%T =
  (beta * (total j0 j1 (fun j => line i0 i1 (dx 0) (fun i => v0 i j) (fun i => w i j) (fun i => z i j)) + total i0 i1 (fun i => line j0 j1 (dx 1) (fun j => v1 i j) (fun j => w i j) (fun j => z i j))) + alpha * total2 i0 j0 i1 j1 (fun i j => w i j * z i j))%T.
  Proof.
    intros Bi Bj Hg Hr A0 A1 A2 E R0 R1 R2 R3.
    pose proof (op_v2_2d L i0 j0 i1 j1 dx beta b0 b1 gcw u f0 f1 alpha rgcw res m mo r w v0 v1 ltac:(lia) ltac:(lia) Hg Hr A0 A1 A2 E R0 R1 R2 R3) as V. clear A0 A1 A2 E R0 R1 R2 R3.
    transitivity (total2 i0 j0 i1 j1 (fun i j => (- beta * (((v0 (i + 1)%Z j * ((w (i + 1)%Z j - w i j) / dx 0) - v0 i j * ((w i j - w (i - 1)%Z j) / dx 0)) / dx 0) * z i j + ((v1 i (j + 1)%Z * ((w i (j + 1)%Z - w i j) / dx 1) - v1 i j * ((w i j - w i (j - 1)%Z) / dx 1)) / dx 1) * z i j) + alpha * (w i j * z i j))%T)).
    - apply total2_ext. intros i j Ii Ij. rewrite (V i j Ii Ij). destruct (inverse L (dx 0)) as (y0 & D0); rewrite !D0. destruct (inverse L (dx 1)) as (y1 & D1); rewrite !D1. ring.
    - rewrite (total2_add L), (total2_mul L _ _ _ _ alpha). f_equal. rewrite (total2_mul L). rewrite ?(total2_add L). pose proof (line_parts_2d_0 L i0 j0 i1 j1 (dx 0) v0 w z Bi) as P0. cbv beta in P0. rewrite P0. pose proof (line_parts_2d_1 L i0 j0 i1 j1 (dx 1) v1 w z Bj) as P1. cbv beta in P1. rewrite P1. ring.
  Qed.

  Lemma weak_poisson_2d i0 j0 i1 j1 dx beta gcw u f0 f1 rgcw res (m mo : mem S) r w z :
  i0 <= i1 -> j0 <= j1 -> 0 <= gcw -> 0 <= rgcw ->
  apart f0 [f1; u] -> apart f1 [u] -> apart res [f0; f1; u] ->
  (m' <- cdf_2d_poisson_flux i0 j0 i1 j1 dx gcw u f0 f1 m ;;
   cd_apply_2d_poisson_v2_apply i0 i1 j0 j1 beta dx f0 f1 rgcw res m') = Some mo ->
  (forall i j, i0 <= i <= i1 -> j0 <= j <= j1 -> ((mkFa res (CELL2d i0 j0 i1 j1 rgcw))!(i, j))%F mo = Some (r i j)) ->
  (forall i j, i0 - 1 <= i <= i1 + 1 -> j0 - 1 <= j <= j1 + 1 -> ((mkFa u (CELL2d i0 j0 i1 j1 gcw))!(i, j))%F m = Some (w i j)) ->
  (total2 i0 j0 i1 j1 (fun i j => r i j * z i j))%T =
  (beta * (total j0 j1 (fun j => line i0 i1 (dx 0) (fun _ => lit 1) (fun i => w i j) (fun i => z i j)) + total i0 i1 (fun i => line j0 j1 (dx 1) (fun _ => lit 1) (fun j => w i j) (fun j => z i j))))%T.
  Proof.
    intros Bi Bj Hg Hr A0 A1 A2 E R0 R1.
    pose proof (op_poisson_2d L i0 j0 i1 j1 dx beta gcw u f0 f1 rgcw res m mo r w ltac:(lia) ltac:(lia) Hg Hr A0 A1 A2 E R0 R1) as V. clear A0 A1 A2 E R0 R1.
    transitivity (total2 i0 j0 i1 j1 (fun i j => (- beta * (((lit 1 * ((w (i + 1)%Z j - w i j) / dx 0) - lit 1 * ((w i j - w (i - 1)%Z j) / dx 0)) / dx 0) * z i j + ((lit 1 * ((w i (j + 1)%Z - w i j) / dx 1) - lit 1 * ((w i j - w i (j - 1)%Z) / dx 1)) / dx 1) * z i j))%T)).
    - apply total2_ext. intros i j Ii Ij. rewrite (V i j Ii Ij). destruct (inverse L (dx 0)) as (y0 & D0); rewrite !D0. destruct (inverse L (dx 1)) as (y1 & D1); rewrite !D1. ring.
    - rewrite (total2_mul L). rewrite ?(total2_add L). pose proof (line_parts_2d_0 L i0 j0 i1 j1 (dx 0) (fun _ _ => lit 1) w z Bi) as P0. cbv beta in P0. rewrite P0. pose proof (line_parts_2d_1 L i0 j0 i1 j1 (dx 1) (fun _ _ => lit 1) w z Bj) as P1. cbv beta in P1. rewrite P1. ring.
  Qed.

  Lemma weak_v1_3d i0 j0 k0 i1 j1 k1 dx beta b0 b1 b2 gcw u f0 f1 f2 alpha agcw a rgcw res (m mo : mem S) r w c v0 v1 v2 z :
  i0 <= i1 -> j0 <= j1 -> k0 <= k1 -> 0 <= gcw -> 0 <= rgcw ->
  apart f0 [f1; f2; b0; b1; b2; a; u] -> apart f1 [f2; b0; b1; b2; a; u] -> apart f2 [b0; b1; b2; a; u] -> apart res [f0; f1; f2; a; u] ->
  (m' <- cdf_3d_flux i0 j0 k0 i1 j1 k1 dx b0 b1 b2 gcw u f0 f1 f2 m ;;
   cd_apply_3d_diffusion_v1_apply i0 i1 j0 j1 k0 k1 alpha beta dx agcw a gcw u f0 f1 f2 rgcw res m') = Some mo ->
  (forall i j k, i0 <= i <= i1 -> j0 <= j <= j1 -> k0 <= k <= k1 -> ((mkFa res (CELL3d i0 j0 k0 i1 j1 k1 rgcw))!(i, j, k))%F mo = Some (r i j k)) ->
  (forall i j k, i0 - 1 <= i <= i1 + 1 -> j0 - 1 <= j <= j1 + 1 -> k0 - 1 <= k <= k1 + 1 -> ((mkFa u (CELL3d i0 j0 k0 i1 j1 k1 gcw))!(i, j, k))%F m = Some (w i j k)) ->
  (forall i j k, i0 <= i <= i1 -> j0 <= j <= j1 -> k0 <= k <= k1 -> ((mkFa a (CELL3d i0 j0 k0 i1 j1 k1 agcw))!(i, j, k))%F m = Some (c i j k)) ->
  (forall i j k, i0 <= i <= i1 + 1 -> j0 <= j <= j1 -> k0 <= k <= k1 -> ((mkFa b0 (FACE3d0 i0 j0 k0 i1 j1 k1 0))!(i, j, k))%F m = Some (v0 i j k)) ->
  (forall i j k, i0 <= i <= i1 -> j0 <= j <= j1 + 1 -> k0 <= k <= k1 -> ((mkFa b1 (FACE3d1 i0 j0 k0 i1 j1 k1 0))!(j, k, i))%F m = Some (v1 i j k)) ->
  (forall i j k, i0 <= i <= i1 -> j0 <= j <= j1 -> k0 <= k <= k1 + 1 -> ((mkFa b2 (FACE3d2 i0 j0 k0 i1 j1 k1 0))!(k, i, j))%F m = Some (v2 i j k)) ->
  (total3 i0 j0 k0 i1 j1 k1 (fun i j k => r i j k * z i j k))%T =
  (beta * (total2 j0 k0 j1 k1 (fun j k => line i0 i1 (dx 0) (fun i => v0 i j k) (fun i => w i j k) (fun i => z i j k)) + total2 i0 k0 i1 k1 (fun i k => line j0 j1 (dx 1) (fun j => v1 i j k) (fun j => w i j k) (fun j => z i j k)) + total2 i0 j0 i1 j1 (fun i j => line k0 k1 (dx 2) (fun k => v2 i j k) (fun k => w i j k) (fun k => z i j k))) + alpha * total3 i0 j0 k0 i1 j1 k1 (fun i j k => c i j k * w i j k * z i j k))%T.
  Proof.
    intros Bi Bj Bk Hg Hr A0 A1 A2 A3 E R0 R1 R2 R3 R4 R5.
    pose proof (op_v1_3d L i0 j0 k0 i1 j1 k1 dx beta b0 b1 b2 gcw u f0 f1 f2 alpha agcw a rgcw res m mo r w c v0 v1 v2 ltac:(lia) ltac:(lia) ltac:(lia) Hg Hr A0 A1 A2 A3 E R0 R1 R2 R3 R4 R5) as V. clear A0 A1 A2 A3 E R0 R1 R2 R3 R4 R5.
    transitivity (total3 i0 j0 k0 i1 j1 k1 (fun i j k => (- beta * (((v0 (i + 1)%Z j k * ((w (i + 1)%Z j k - w i j k) / dx 0) - v0 i j k * ((w i j k - w (i - 1)%Z j k) / dx 0)) / dx 0) * z i j k + ((v1 i (j + 1)%Z k * ((w i (j + 1)%Z k - w i j k) / dx 1) - v1 i j k * ((w i j k - w i (j - 1)%Z k) / dx 1)) / dx 1) * z i j k + ((v2 i j (k + 1)%Z * ((w i j (k + 1)%Z - w i j k) / dx 2) - v2 i j k * ((w i j k - w i j (k - 1)%Z) / dx 2)) / dx 2) * z i j k) + alpha * (c i j k * w i j k * z i j k))%T)).
    - apply total3_ext. intros i j k Ii Ij Ik. rewrite (V i j k Ii Ij Ik). destruct (inverse L (dx 0)) as (y0 & D0); rewrite !D0. destruct (inverse L (dx 1)) as (y1 & D1); rewrite !D1. destruct (inverse L (dx 2)) as (y2 & D2); rewrite !D2. ring.
    - rewrite (total3_add L), (total3_mul L _ _ _ _ _ _ alpha). f_equal. rewrite (total3_mul L). rewrite ?(total3_add L). pose proof (line_parts_3d_0 L i0 j0 k0 i1 j1 k1 (dx 0) v0 w z Bi) as P0. cbv beta in P0. rewrite P0. pose proof (line_parts_3d_1 L i0 j0 k0 i1 j1 k1 (dx 1) v1 w z Bj) as P1. cbv beta in P1. rewrite P1. pose proof (line_parts_3d_2 L i0 j0 k0 i1 j1 k1 (dx 2) v2 w z Bk) as P2. cbv beta in P2. rewrite P2. ring.
  Qed.

  Lemma weak_v2_3d i0 j0 k0 i1 j1 k1 dx beta b0 b1 b2 gcw u f0 f1 f2 alpha rgcw res (m mo : mem S) r w v0 v1 v2 z :
  i0 <= i1 -> j0 <= j1 -> k0 <= k1 -> 0 <= gcw -> 0 <= rgcw ->
  apart f0 [f1; f2; b0; b1; b2; u] -> apart f1 [f2; b0; b1; b2; u] -> apart f2 [b0; b1; b2; u] -> apart res [f0; f1; f2; u] ->
  (m' <- cdf_3d_flux i0 j0 k0 i1 j1 k1 dx b0 b1 b2 gcw u f0 f1 f2 m ;;
   cd_apply_3d_diffusion_v2_apply i0 i1 j0 j1 k0 k1 alpha beta dx gcw u f0 f1 f2 rgcw res m') = Some mo ->
  (forall i j k, i0 <= i <= i1 -> j0 <= j <= j1 -> k0 <= k <= k1 -> ((mkFa res (CELL3d i0 j0 k0 i1 j1 k1 rgcw))!(i, j, k))%F mo = Some (r i j k)) ->
  (forall i j k, i0 - 1 <= i <= i1 + 1 -> j0 - 1 <= j <= j1 + 1 -> k0 - 1 <= k <= k1 + 1 -> ((mkFa u (CELL3d i0 j0 k0 i1 j1 k1 gcw))!(i, j, k))%F m = Some (w i j k)) ->
  (forall i j k, i0 <= i <= i1 + 1 -> j0 <= j <= j1 -> k0 <= k <= k1 -> ((mkFa b0 (FACE3d0 i0 j0 k0 i1 j1 k1 0))!(i, j, k))%F m = Some (v0 i j k)) ->
  (forall i j k, i0 <= i <= i1 -> j0 <= j <= j1 + 1 -> k0 <= k <= k1 -> ((mkFa b1 (FACE3d1 i0 j0 k0 i1 j1 k1 0))!(j, k, i))%F m = Some (v1 i j k)) ->
  (forall i j k, i0 <= i <= i1 -> j0 <= j <= j1 -> k0 <= k <= k1 + 1 -> ((mkFa b2 (FACE3d2 i0 j0 k0 i1 j1 k1 0))!(k, i, j))%F m = Some (v2 i j k)) ->
  (total3 i0 j0 k0 i1 j1 k1 (fun i j k => r i j k * z i j k))%T =
  (beta * (total2 j0 k0 j1 k1 (fun j k => line i0 i1 (dx 0) (fun i => v0 i j k) (fun i => w i j k) (fun i => z i j k)) + total2 i0 k0 i1 k1 (fun i k => line j0 j1 (dx 1) (fun j => v1 i j k) (fun j => w i j k) (fun j => z i j k)) + total2 i0 j0 i1 j1 (fun i j => line k0 k1 (dx 2) (fun k => v2 i j k) (fun k => w i j k) (fun k => z i j k))) + alpha * total3 i0 j0 k0 i1 j1 k1 (fun i j k => w i j k * z i j k))%T.
  Proof.
    intros Bi Bj Bk Hg Hr A0 A1 A2 A3 E R0 R1 R2 R3 R4.
    pose proof (op_v2_3d L i0 j0 k0 i1 j1 k1 dx beta b0 b1 b2 gcw u f0 f1 f2 alpha rgcw res m mo r w v0 v1 v2 ltac:(lia) ltac:(lia) ltac:(lia) Hg Hr A0 A1 A2 A3 E R0 R1 R2 R3 R4) as V. clear A0 A1 A2 A3 E R0 R1 R2 R3 R4.
    transitivity (total3 i0 j0 k0 i1 j1 k1 (fun i j k => (- beta * (((v0 (i + 1)%Z j k * ((w (i + 1)%Z j k - w i j k) / dx 0) - v0 i j k * ((w i j k - w (i - 1)%Z j k) / dx 0)) / dx 0) * z i j k + ((v1 i (j + 1)%Z k * ((w i (j + 1)%Z k - w i j k) / dx 1) - v1 i j k * ((w i j k - w i (j - 1)%Z k) / dx 1)) / dx 1) * z i j k + ((v2 i j (k + 1)%Z * ((w i j (k + 1)%Z - w i j k) / dx 2) - v2 i j k * ((w i j k - w i j (k - 1)%Z) / dx 2)) / dx 2) * z i j k) + alpha * (w i j k * z i j k))%T)).
    - apply total3_ext. intros i j k Ii Ij Ik. rewrite (V i j k Ii Ij Ik). destruct (inverse L (dx 0)) as (y0 & D0); rewrite !D0. destruct (inverse L (dx 1)) as (y1 & D1); rewrite !D1. destruct (inverse L (dx 2)) as (y2 & D2); rewrite !D2. ring.
    - rewrite (total3_add L), (total3_mul L _ _ _ _ _ _ alpha). f_equal. rewrite (total3_mul L). rewrite ?(total3_add L). pose proof (line_parts_3d_0 L i0 j0 k0 i1 j1 k1 (dx 0) v0 w z Bi) as P0. cbv beta in P0. rewrite P0. pose proof (line_parts_3d_1 L i0 j0 k0 i1 j1 k1 (dx 1) v1 w z Bj) as P1. cbv beta in P1. rewrite P1. pose proof (line_parts_3d_2 L i0 j0 k0 i1 j1 k1 (dx 2) v2 w z Bk) as P2. cbv beta in P2. rewrite P2. ring.
  Qed.

  Lemma weak_poisson_3d i0 j0 k0 i1 j1 k1 dx beta gcw u f0 f1 f2 rgcw res (m mo : mem S) r w z :
  i0 <= i1 -> j0 <= j1 -> k0 <= k1 -> 0 <= gcw -> 0 <= rgcw ->
  apart f0 [f1; f2; u] -> apart f1 [f2; u] -> apart f2 [u] -> apart res [f0; f1; f2; u] ->
  (m' <- cdf_3d_poisson_flux i0 j0 k0 i1 j1 k1 dx gcw u f0 f1 f2 m ;;
   cd_apply_3d_poisson_v2_apply i0 i1 j0 j1 k0 k1 beta dx f0 f1 f2 rgcw res m') = Some mo ->
  (forall i j k, i0 <= i <= i1 -> j0 <= j <= j1 -> k0 <= k <= k1 -> ((mkFa res (CELL3d i0 j0 k0 i1 j1 k1 rgcw))!(i, j, k))%F mo = Some (r i j k)) ->
  (forall i j k, i0 - 1 <= i <= i1 + 1 -> j0 - 1 <= j <= j1 + 1 -> k0 - 1 <= k <= k1 + 1 -> ((mkFa u (CELL3d i0 j0 k0 i1 j1 k1 gcw))!(i, j, k))%F m = Some (w i j k)) ->
  (total3 i0 j0 k0 i1 j1 k1 (fun i j k => r i j k * z i j k))%T =
  (beta * (total2 j0 k0 j1 k1 (fun j k => line i0 i1 (dx 0) (fun _ => lit 1) (fun i => w i j k) (fun i => z i j k)) + total2 i0 k0 i1 k1 (fun i k => line j0 j1 (dx 1) (fun _ => lit 1) (fun j => w i j k) (fun j => z i j k)) + total2 i0 j0 i1 j1 (fun i j => line k0 k1 (dx 2) (fun _ => lit 1) (fun k => w i j k) (fun k => z i j k))))%T.
  Proof.
    intros Bi Bj Bk Hg Hr A0 A1 A2 A3 E R0 R1.
    pose proof (op_poisson_3d L i0 j0 k0 i1 j1 k1 dx beta gcw u f0 f1 f2 rgcw res m mo r w ltac:(lia) ltac:(lia) ltac:(lia) Hg Hr A0 A1 A2 A3 E R0 R1) as V. clear A0 A1 A2 A3 E R0 R1.
    transitivity (total3 i0 j0 k0 i1 j1 k1 (fun i j k => (- beta * (((lit 1 * ((w (i + 1)%Z j k - w i j k) / dx 0) - lit 1 * ((w i j k - w (i - 1)%Z j k) / dx 0)) / dx 0) * z i j k + ((lit 1 * ((w i (j + 1)%Z k - w i j k) / dx 1) - lit 1 * ((w i j k - w i (j - 1)%Z k) / dx 1)) / dx 1) * z i j k + ((lit 1 * ((w i j (k + 1)%Z - w i j k) / dx 2) - lit 1 * ((w i j k - w i j (k - 1)%Z) / dx 2)) / dx 2) * z i j k))%T)).
    - apply total3_ext. intros i j k Ii Ij Ik. rewrite (V i j k Ii Ij Ik). destruct (inverse L (dx 0)) as (y0 & D0); rewrite !D0. destruct (inverse L (dx 1)) as (y1 & D1); rewrite !D1. destruct (inverse L (dx 2)) as (y2 & D2); rewrite !D2. ring.
    - rewrite (total3_mul L). rewrite ?(total3_add L). pose proof (line_parts_3d_0 L i0 j0 k0 i1 j1 k1 (dx 0) (fun _ _ _ => lit 1) w z Bi) as P0. cbv beta in P0. rewrite P0. pose proof (line_parts_3d_1 L i0 j0 k0 i1 j1 k1 (dx 1) (fun _ _ _ => lit 1) w z Bj) as P1. cbv beta in P1. rewrite P1. pose proof (line_parts_3d_2 L i0 j0 k0 i1 j1 k1 (dx 2) (fun _ _ _ => lit 1) w z Bk) as P2. cbv beta in P2. rewrite P2. ring.
  Qed.

  Lemma selfadjoint_v1_1d i0 i1 dx beta b0 gcw u f0 alpha agcw a rgcw res (m mo n no : mem S) r w c v0 r' z :
  i0 <= i1 -> 0 <= gcw -> 0 <= rgcw ->
  apart f0 [b0; a; u] -> apart res [f0; a; u] ->
  (m' <- cdf_1d_flux i0 i1 dx b0 gcw u f0 m ;;
   cd_apply_1d_diffusion_v1_apply i0 i1 alpha beta dx agcw a gcw u f0 rgcw res m') = Some mo ->
  (forall i, i0 <= i <= i1 -> ((mkFa res (CELL1d i0 i1 rgcw))!(i))%F mo = Some (r i)) ->
  (forall i, i0 - 1 <= i <= i1 + 1 -> ((mkFa u (CELL1d i0 i1 gcw))!(i))%F m = Some (w i)) ->
  (forall i, i0 <= i <= i1 -> ((mkFa a (CELL1d i0 i1 agcw))!(i))%F m = Some (c i)) ->
  (forall i, i0 <= i <= i1 + 1 -> ((mkFa b0 (FACE1d i0 i1 0))!(i))%F m = Some (v0 i)) ->
  (n' <- cdf_1d_flux i0 i1 dx b0 gcw u f0 n ;;
   cd_apply_1d_diffusion_v1_apply i0 i1 alpha beta dx agcw a gcw u f0 rgcw res n') = Some no ->
  (forall i, i0 <= i <= i1 -> ((mkFa res (CELL1d i0 i1 rgcw))!(i))%F no = Some (r' i)) ->
  (forall i, i0 - 1 <= i <= i1 + 1 -> ((mkFa u (CELL1d i0 i1 gcw))!(i))%F n = Some (z i)) ->
  (forall i, i0 <= i <= i1 -> ((mkFa a (CELL1d i0 i1 agcw))!(i))%F n = Some (c i)) ->
  (forall i, i0 <= i <= i1 + 1 -> ((mkFa b0 (FACE1d i0 i1 0))!(i))%F n = Some (v0 i)) ->
  ((w (i0 - 1)%Z * z i0 = z (i0 - 1)%Z * w i0)%T /\ (w (i1 + 1)%Z * z i1 = z (i1 + 1)%Z * w i1)%T) ->
  (total i0 i1 (fun i => r i * z i))%T = (total i0 i1 (fun i => r' i * w i))%T.
  Proof.
    intros Bi Hg Hr A0 A1 E R0 R1 R2 R3 E' R0' R1' R2' R3' G0.
    rewrite (weak_v1_1d i0 i1 dx beta b0 gcw u f0 alpha agcw a rgcw res m mo r w c v0 z Bi Hg Hr A0 A1 E R0 R1 R2 R3).
    rewrite (weak_v1_1d i0 i1 dx beta b0 gcw u f0 alpha agcw a rgcw res n no r' z c v0 w Bi Hg Hr A0 A1 E' R0' R1' R2' R3'). clear Hg Hr A0 A1 E R0 R1 R2 R3 E' R0' R1' R2' R3'.
    assert (P0 : (line i0 i1 (dx 0) v0 w z)%T = (line i0 i1 (dx 0) v0 z w)%T).
    { destruct G0 as (Gl & Gh). apply (line_sym L); [exact Gl|exact Gh]. }
    rewrite P0. clear P0.
    do 2 f_equal. apply total_ext. intros i _. ring.
  Qed.

  Lemma selfadjoint_v2_1d i0 i1 dx beta b0 gcw u f0 alpha rgcw res (m mo n no : mem S) r w v0 r' z :
  i0 <= i1 -> 0 <= gcw -> 0 <= rgcw ->
  apart f0 [b0; u] -> apart res [f0; u] ->
  (m' <- cdf_1d_flux i0 i1 dx b0 gcw u f0 m ;;
   cd_apply_1d_diffusion_v2_apply i0 i1 alpha beta dx gcw u f0 rgcw res m') = Some mo ->
  (forall i, i0 <= i <= i1 -> ((mkFa res (CELL1d i0 i1 rgcw))!(i))%F mo = Some (r i)) ->
  (forall i, i0 - 1 <= i <= i1 + 1 -> ((mkFa u (CELL1d i0 i1 gcw))!(i))%F m = Some (w i)) ->
  (forall i, i0 <= i <= i1 + 1 -> ((mkFa b0 (FACE1d i0 i1 0))!(i))%F m = Some (v0 i)) ->
  (n' <- cdf_1d_flux i0 i1 dx b0 gcw u f0 n ;;
   cd_apply_1d_diffusion_v2_apply i0 i1 alpha beta dx gcw u f0 rgcw res n') = Some no ->
  (forall i, i0 <= i <= i1 -> ((mkFa res (CELL1d i0 i1 rgcw))!(i))%F no = Some (r' i)) ->
  (forall i, i0 - 1 <= i <= i1 + 1 -> ((mkFa u (CELL1d i0 i1 gcw))!(i))%F n = Some (z i)) ->
  (forall i, i0 <= i <= i1 + 1 -> ((mkFa b0 (FACE1d i0 i1 0))!(i))%F n = Some (v0 i)) ->
  ((w (i0 - 1)%Z * z i0 = z (i0 - 1)%Z * w i0)%T /\ (w (i1 + 1)%Z * z i1 = z (i1 + 1)%Z * w i1)%T) ->
  (total i0 i1 (fun i => r i * z i))%T = (total i0 i1 (fun i => r' i * w i))%T.
  Proof.
    intros Bi Hg Hr A0 A1 E R0 R1 R2 E' R0' R1' R2' G0.
    rewrite (weak_v2_1d i0 i1 dx beta b0 gcw u f0 alpha rgcw res m mo r w v0 z Bi Hg Hr A0 A1 E R0 R1 R2).
    rewrite (weak_v2_1d i0 i1 dx beta b0 gcw u f0 alpha rgcw res n no r' z v0 w Bi Hg Hr A0 A1 E' R0' R1' R2'). clear Hg Hr A0 A1 E R0 R1 R2 E' R0' R1' R2'.
    assert (P0 : (line i0 i1 (dx 0) v0 w z)%T = (line i0 i1 (dx 0) v0 z w)%T).
    { destruct G0 as (Gl & Gh). apply (line_sym L); [exact Gl|exact Gh]. }
    rewrite P0. clear P0.
    do 2 f_equal. apply total_ext. intros i _. ring.
  Qed.

  Lemma selfadjoint_poisson_1d i0 i1 dx beta gcw u f0 rgcw res (m mo n no : mem S) r w r' z :
  i0 <= i1 -> 0 <= gcw -> 0 <= rgcw ->
  apart f0 [u] -> apart res [f0; u] ->
  (m' <- cdf_1d_poisson_flux i0 i1 dx gcw u f0 m ;;
   cd_apply_1d_poisson_v2_apply i0 i1 beta dx f0 rgcw res m') = Some mo ->
  (forall i, i0 <= i <= i1 -> ((mkFa res (CELL1d i0 i1 rgcw))!(i))%F mo = Some (r i)) ->
  (forall i, i0 - 1 <= i <= i1 + 1 -> ((mkFa u (CELL1d i0 i1 gcw))!(i))%F m = Some (w i)) ->
  (n' <- cdf_1d_poisson_flux i0 i1 dx gcw u f0 n ;;
   cd_apply_1d_poisson_v2_apply i0 i1 beta dx f0 rgcw res n') = Some no ->
  (forall i, i0 <= i <= i1 -> ((mkFa res (CELL1d i0 i1 rgcw))!(i))%F no = Some (r' i)) ->
  (forall i, i0 - 1 <= i <= i1 + 1 -> ((mkFa u (CELL1d i0 i1 gcw))!(i))%F n = Some (z i)) ->
  ((w (i0 - 1)%Z * z i0 = z (i0 - 1)%Z * w i0)%T /\ (w (i1 + 1)%Z * z i1 = z (i1 + 1)%Z * w i1)%T) ->
  (total i0 i1 (fun i => r i * z i))%T = (total i0 i1 (fun i => r' i * w i))%T.
  Proof.
    intros Bi Hg Hr A0 A1 E R0 R1 E' R0' R1' G0.
    rewrite (weak_poisson_1d i0 i1 dx beta gcw u f0 rgcw res m mo r w z Bi Hg Hr A0 A1 E R0 R1).
    rewrite (weak_poisson_1d i0 i1 dx beta gcw u f0 rgcw res n no r' z w Bi Hg Hr A0 A1 E' R0' R1'). clear Hg Hr A0 A1 E R0 R1 E' R0' R1'.
    assert (P0 : (line i0 i1 (dx 0) (fun _ => lit 1) w z)%T = (line i0 i1 (dx 0) (fun _ => lit 1) z w)%T).
    { destruct G0 as (Gl & Gh). apply (line_sym L); [exact Gl|exact Gh]. }
    rewrite P0. clear P0.
    reflexivity.
  Qed.

  Lemma selfadjoint_v1_2d i0 j0 i1 j1 dx beta b0 b1 gcw u f0 f1 alpha agcw a rgcw res (m mo n no : mem S) r w c v0 v1 r' z :
  i0 <= i1 -> j0 <= j1 -> 0 <= gcw -> 0 <= rgcw ->
  apart f0 [f1; b0; b1; a; u] -> apart f1 [b0; b1; a; u] -> apart res [f0; f1; a; u] ->
  (m' <- cdf_2d_flux i0 j0 i1 j1 dx b0 b1 gcw u f0 f1 m ;;
   cd_apply_2d_diffusion_v1_apply i0 i1 j0 j1 alpha beta dx agcw a gcw u f0 f1 rgcw res m') = Some mo ->
  (forall i j, i0 <= i <= i1 -> j0 <= j <= j1 -> ((mkFa res (CELL2d i0 j0 i1 j1 rgcw))!(i, j))%F mo = Some (r i j)) ->
  (forall i j, i0 - 1 <= i <= i1 + 1 -> j0 - 1 <= j <= j1 + 1 -> ((mkFa u (CELL2d i0 j0 i1 j1 gcw))!(i, j))%F m = Some (w i j)) ->
  (forall i j, i0 <= i <= i1 -> j0 <= j <= j1 -> ((mkFa a (CELL2d i0 j0 i1 j1 agcw))!(i, j))%F m = Some (c i j)) ->
  (forall i j, i0 <= i <= i1 + 1 -> j0 <= j <= j1 -> ((mkFa b0 (FACE2d0 i0 j0 i1 j1 0))!(i, j))%F m = Some (v0 i j)) ->
  (forall i j, i0 <= i <= i1 -> j0 <= j <= j1 + 1 -> ((mkFa b1 (FACE2d1 i0 j0 i1 j1 0))!(j, i))%F m = Some (v1 i j)) ->
  (n' <- cdf_2d_flux i0 j0 i1 j1 dx b0 b1 gcw u f0 f1 n ;;
   cd_apply_2d_diffusion_v1_apply i0 i1 j0 j1 alpha beta dx agcw a gcw u f0 f1 rgcw res n') = Some no ->
  (forall i j, i0 <= i <= i1 -> j0 <= j <= j1 -> ((mkFa res (CELL2d i0 j0 i1 j1 rgcw))!(i, j))%F no = Some (r' i j)) ->
  (forall i j, i0 - 1 <= i <= i1 + 1 -> j0 - 1 <= j <= j1 + 1 -> ((mkFa u (CELL2d i0 j0 i1 j1 gcw))!(i, j))%F n = Some (z i j)) ->
  (forall i j, i0 <= i <= i1 -> j0 <= j <= j1 -> ((mkFa a (CELL2d i0 j0 i1 j1 agcw))!(i, j))%F n = Some (c i j)) ->
  (forall i j, i0 <= i <= i1 + 1 -> j0 <= j <= j1 -> ((mkFa b0 (FACE2d0 i0 j0 i1 j1 0))!(i, j))%F n = Some (v0 i j)) ->
  (forall i j, i0 <= i <= i1 -> j0 <= j <= j1 + 1 -> ((mkFa b1 (FACE2d1 i0 j0 i1 j1 0))!(j, i))%F n = Some (v1 i j)) ->
  (forall j, j0 <= j <= j1 -> (w (i0 - 1)%Z j * z i0 j = z (i0 - 1)%Z j * w i0 j)%T /\ (w (i1 + 1)%Z j * z i1 j = z (i1 + 1)%Z j * w i1 j)%T) ->
  (forall i, i0 <= i <= i1 -> (w i (j0 - 1)%Z * z i j0 = z i (j0 - 1)%Z * w i j0)%T /\ (w i (j1 + 1)%Z * z i j1 = z i (j1 + 1)%Z * w i j1)%T) ->
  (total2 i0 j0 i1 j1 (fun i j => r i j * z i j))%T = (total2 i0 j0 i1 j1 (fun i j => r' i j * w i j))%T.
  Proof.
    intros Bi Bj Hg Hr A0 A1 A2 E R0 R1 R2 R3 R4 E' R0' R1' R2' R3' R4' G0 G1.
    rewrite (weak_v1_2d i0 j0 i1 j1 dx beta b0 b1 gcw u f0 f1 alpha agcw a rgcw res m mo r w c v0 v1 z Bi Bj Hg Hr A0 A1 A2 E R0 R1 R2 R3 R4).
    rewrite (weak_v1_2d i0 j0 i1 j1 dx beta b0 b1 gcw u f0 f1 alpha agcw a rgcw res n no r' z c v0 v1 w Bi Bj Hg Hr A0 A1 A2 E' R0' R1' R2' R3' R4'). clear Hg Hr A0 A1 A2 E R0 R1 R2 R3 R4 E' R0' R1' R2' R3' R4'.
    assert (P0 : (total j0 j1 (fun j => line i0 i1 (dx 0) (fun i => v0 i j) (fun i => w i j) (fun i => z i j)))%T = (total j0 j1 (fun j => line i0 i1 (dx 0) (fun i => v0 i j) (fun i => z i j) (fun i => w i j)))%T).
    { apply total_ext; intros j Ij; destruct (G0 j Ij) as (Gl & Gh). apply (line_sym L); [exact Gl|exact Gh]. }
    rewrite P0. clear P0.
    assert (P1 : (total i0 i1 (fun i => line j0 j1 (dx 1) (fun j => v1 i j) (fun j => w i j) (fun j => z i j)))%T = (total i0 i1 (fun i => line j0 j1 (dx 1) (fun j => v1 i j) (fun j => z i j) (fun j => w i j)))%T).
    { apply total_ext; intros i Ii; destruct (G1 i Ii) as (Gl & Gh). apply (line_sym L); [exact Gl|exact Gh]. }
    rewrite P1. clear P1.
    do 2 f_equal. apply total2_ext. intros i j _ _. ring.
  Qed.

  Lemma selfadjoint_v2_2d i0 j0 i1 j1 dx beta b0 b1 gcw u f0 f1 alpha rgcw res (m mo n no : mem S) r w v0 v1 r' z :
  i0 <= i1 -> j0 <= j1 -> 0 <= gcw -> 0 <= rgcw ->
  apart f0 [f1; b0; b1; u] -> apart f1 [b0; b1; u] -> apart res [f0; f1; u] ->
  (m' <- cdf_2d_flux i0 j0 i1 j1 dx b0 b1 gcw u f0 f1 m ;;
   cd_apply_2d_diffusion_v2_apply i0 i1 j0 j1 alpha beta dx gcw u f0 f1 rgcw res m') = Some mo ->
  (forall i j, i0 <= i <= i1 -> j0 <= j <= j1 -> ((mkFa res (CELL2d i0 j0 i1 j1 rgcw))!(i, j))%F mo = Some (r i j)) ->
  (forall i j, i0 - 1 <= i <= i1 + 1 -> j0 - 1 <= j <= j1 + 1 -> ((mkFa u (CELL2d i0 j0 i1 j1 gcw))!(i, j))%F m = Some (w i j)) ->
  (forall i j, i0 <= i <= i1 + 1 -> j0 <= j <= j1 -> ((mkFa b0 (FACE2d0 i0 j0 i1 j1 0))!(i, j))%F m = Some (v0 i j)) ->
  (forall i j, i0 <= i <= i1 -> j0 <= j <= j1 + 1 -> ((mkFa b1 (FACE2d1 i0 j0 i1 j1 0))!(j, i))%F m = Some (v1 i j)) ->
  (n' <- cdf_2d_flux i0 j0 i1 j1 dx b0 b1 gcw u f0 f1 n ;;
   cd_apply_2d_diffusion_v2_apply i0 i1 j0 j1 alpha beta dx gcw u f0 f1 rgcw res n') = Some no ->
  (forall i j, i0 <= i <= i1 -> j0 <= j <= j1 -> ((mkFa res (CELL2d i0 j0 i1 j1 rgcw))!(i, j))%F no = Some (r' i j)) ->
  (forall i j, i0 - 1 <= i <= i1 + 1 -> j0 - 1 <= j <= j1 + 1 -> ((mkFa u (CELL2d i0 j0 i1 j1 gcw))!(i, j))%F n = Some (z i j)) ->
  (forall i j, i0 <= i <= i1 + 1 -> j0 <= j <= j1 -> ((mkFa b0 (FACE2d0 i0 j0 i1 j1 0))!(i, j))%F n = Some (v0 i j)) ->
  (forall i j, i0 <= i <= i1 -> j0 <= j <= j1 + 1 -> ((mkFa b1 (FACE2d1 i0 j0 i1 j1 0))!(j, i))%F n = Some (v1 i j)) ->
  (forall j, j0 <= j <= j1 -> (w (i0 - 1)%Z j * z i0 j = z (i0 - 1)%Z j * w i0 j)%T /\ (w (i1 + 1)%Z j * z i1 j = z (i1 + 1)%Z j * w i1 j)%T) ->
  (forall i, i0 <= i <= i1 -> (w i (j0 - 1)%Z * z i j0 = z i (j0 - 1)%Z * w i j0)%T /\ (w i (j1 + 1)%Z * z i j1 = z i (j1 + 1)%Z * w i j1)%T) ->
  (total2 i0 j0 i1 j1 (fun i j => r i j * z i j))%T = (total2 i0 j0 i1 j1 (fun i j => r' i j * w i j))%T.
  Proof.
    intros Bi Bj Hg Hr A0 A1 A2 E R0 R1 R2 R3 E' R0' R1' R2' R3' G0 G1.
    rewrite (weak_v2_2d i0 j0 i1 j1 dx beta b0 b1 gcw u f0 f1 alpha rgcw res m mo r w v0 v1 z Bi Bj Hg Hr A0 A1 A2 E R0 R1 R2 R3).
    rewrite (weak_v2_2d i0 j0 i1 j1 dx beta b0 b1 gcw u f0 f1 alpha rgcw res n no r' z v0 v1 w Bi Bj Hg Hr A0 A1 A2 E' R0' R1' R2' R3'). clear Hg Hr A0 A1 A2 E R0 R1 R2 R3 E' R0' R1' R2' R3'.
    assert (P0 : (total j0 j1 (fun j => line i0 i1 (dx 0) (fun i => v0 i j) (fun i => w i j) (fun i => z i j)))%T = (total j0 j1 (fun j => line i0 i1 (dx 0) (fun i => v0 i j) (fun i => z i j) (fun i => w i j)))%T).
    { apply total_ext; intros j Ij; destruct (G0 j Ij) as (Gl & Gh). apply (line_sym L); [exact Gl|exact Gh]. }
    rewrite P0. clear P0.
    assert (P1 : (total i0 i1 (fun i => line j0 j1 (dx 1) (fun j => v1 i j) (fun j => w i j) (fun j => z i j)))%T = (total i0 i1 (fun i => line j0 j1 (dx 1) (fun j => v1 i j) (fun j => z i j) (fun j => w i j)))%T).
    { apply total_ext; intros i Ii; destruct (G1 i Ii) as (Gl & Gh). apply (line_sym L); [exact Gl|exact Gh]. }
    rewrite P1. clear P1.
    do 2 f_equal. apply total2_ext. intros i j _ _. ring.
  Qed.

  Lemma selfadjoint_poisson_2d i0 j0 i1 j1 dx beta gcw u f0 f1 rgcw res (m mo n no : mem S) r w r' z :
  i0 <= i1 -> j0 <= j1 -> 0 <= gcw -> 0 <= rgcw ->
  apart f0 [f1; u] -> apart f1 [u] -> apart res [f0; f1; u] ->
  (m' <- cdf_2d_poisson_flux i0 j0 i1 j1 dx gcw u f0 f1 m ;;
   cd_apply_2d_poisson_v2_apply i0 i1 j0 j1 beta dx f0 f1 rgcw res m') = Some mo ->
  (forall i j, i0 <= i <= i1 -> j0 <= j <= j1 -> ((mkFa res (CELL2d i0 j0 i1 j1 rgcw))!(i, j))%F mo = Some (r i j)) ->
  (forall i j, i0 - 1 <= i <= i1 + 1 -> j0 - 1 <= j <= j1 + 1 -> ((mkFa u (CELL2d i0 j0 i1 j1 gcw))!(i, j))%F m = Some (w i j)) ->
  (n' <- cdf_2d_poisson_flux i0 j0 i1 j1 dx gcw u f0 f1 n ;;
   cd_apply_2d_poisson_v2_apply i0 i1 j0 j1 beta dx f0 f1 rgcw res n') = Some no ->
  (forall i j, i0 <= i <= i1 -> j0 <= j <= j1 -> ((mkFa res (CELL2d i0 j0 i1 j1 rgcw))!(i, j))%F no = Some (r' i j)) ->
  (forall i j, i0 - 1 <= i <= i1 + 1 -> j0 - 1 <= j <= j1 + 1 -> ((mkFa u (CELL2d i0 j0 i1 j1 gcw))!(i, j))%F n = Some (z i j)) ->
  (forall j, j0 <= j <= j1 -> (w (i0 - 1)%Z j * z i0 j = z (i0 - 1)%Z j * w i0 j)%T /\ (w (i1 + 1)%Z j * z i1 j = z (i1 + 1)%Z j * w i1 j)%T) ->
  (forall i, i0 <= i <= i1 -> (w i (j0 - 1)%Z * z i j0 = z i (j0 - 1)%Z * w i j0)%T /\ (w i (j1 + 1)%Z * z i j1 = z i (j1 + 1)%Z * w i j1)%T) ->
  (total2 i0 j0 i1 j1 (fun i j => r i j * z i j))%T = (total2 i0 j0 i1 j1 (fun i j => r' i j * w i j))%T.
  Proof.
    intros Bi Bj Hg Hr A0 A1 A2 E R0 R1 E' R0' R1' G0 G1.
    rewrite (weak_poisson_2d i0 j0 i1 j1 dx beta gcw u f0 f1 rgcw res m mo r w z Bi Bj Hg Hr A0 A1 A2 E R0 R1).
    rewrite (weak_poisson_2d i0 j0 i1 j1 dx beta gcw u f0 f1 rgcw res n no r' z w Bi Bj Hg Hr A0 A1 A2 E' R0' R1'). clear Hg Hr A0 A1 A2 E R0 R1 E' R0' R1'.
    assert (P0 : (total j0 j1 (fun j => line i0 i1 (dx 0) (fun _ => lit 1) (fun i => w i j) (fun i => z i j)))%T = (total j0 j1 (fun j => line i0 i1 (dx 0) (fun _ => lit 1) (fun i => z i j) (fun i => w i j)))%T).
    { apply total_ext; intros j Ij; destruct (G0 j Ij) as (Gl & Gh). apply (line_sym L); [exact Gl|exact Gh]. }
    rewrite P0. clear P0.
    assert (P1 : (total i0 i1 (fun i => line j0 j1 (dx 1) (fun _ => lit 1) (fun j => w i j) (fun j => z i j)))%T = (total i0 i1 (fun i => line j0 j1 (dx 1) (fun _ => lit 1) (fun j => z i j) (fun j => w i j)))%T).
    { apply total_ext; intros i Ii; destruct (G1 i Ii) as (Gl & Gh). apply (line_sym L); [exact Gl|exact Gh]. }
    rewrite P1. clear P1.
    reflexivity.
  Qed.

  Lemma selfadjoint_v1_3d i0 j0 k0 i1 j1 k1 dx beta b0 b1 b2 gcw u f0 f1 f2 alpha agcw a rgcw res (m mo n no : mem S) r w c v0 v1 v2 r' z :
  i0 <= i1 -> j0 <= j1 -> k0 <= k1 -> 0 <= gcw -> 0 <= rgcw ->
  apart f0 [f1; f2; b0; b1; b2; a; u] -> apart f1 [f2; b0; b1; b2; a; u] -> apart f2 [b0; b1; b2; a; u] -> apart res [f0; f1; f2; a; u] ->
  (m' <- cdf_3d_flux i0 j0 k0 i1 j1 k1 dx b0 b1 b2 gcw u f0 f1 f2 m ;;
   cd_apply_3d_diffusion_v1_apply i0 i1 j0 j1 k0 k1 alpha beta dx agcw a gcw u f0 f1 f2 rgcw res m') = Some mo ->
  (forall i j k, i0 <= i <= i1 -> j0 <= j <= j1 -> k0 <= k <= k1 -> ((mkFa res (CELL3d i0 j0 k0 i1 j1 k1 rgcw))!(i, j, k))%F mo = Some (r i j k)) ->
  (forall i j k, i0 - 1 <= i <= i1 + 1 -> j0 - 1 <= j <= j1 + 1 -> k0 - 1 <= k <= k1 + 1 -> ((mkFa u (CELL3d i0 j0 k0 i1 j1 k1 gcw))!(i, j, k))%F m = Some (w i j k)) ->
  (forall i j k, i0 <= i <= i1 -> j0 <= j <= j1 -> k0 <= k <= k1 -> ((mkFa a (CELL3d i0 j0 k0 i1 j1 k1 agcw))!(i, j, k))%F m = Some (c i j k)) ->
  (forall i j k, i0 <= i <= i1 + 1 -> j0 <= j <= j1 -> k0 <= k <= k1 -> ((mkFa b0 (FACE3d0 i0 j0 k0 i1 j1 k1 0))!(i, j, k))%F m = Some (v0 i j k)) ->
  (forall i j k, i0 <= i <= i1 -> j0 <= j <= j1 + 1 -> k0 <= k <= k1 -> ((mkFa b1 (FACE3d1 i0 j0 k0 i1 j1 k1 0))!(j, k, i))%F m = Some (v1 i j k)) ->
  (forall i j k, i0 <= i <= i1 -> j0 <= j <= j1 -> k0 <= k <= k1 + 1 -> ((mkFa b2 (FACE3d2 i0 j0 k0 i1 j1 k1 0))!(k, i, j))%F m = Some (v2 i j k)) ->
  (n' <- cdf_3d_flux i0 j0 k0 i1 j1 k1 dx b0 b1 b2 gcw u f0 f1 f2 n ;;
   cd_apply_3d_diffusion_v1_apply i0 i1 j0 j1 k0 k1 alpha beta dx agcw a gcw u f0 f1 f2 rgcw res n') = Some no ->
  (forall i j k, i0 <= i <= i1 -> j0 <= j <= j1 -> k0 <= k <= k1 -> ((mkFa res (CELL3d i0 j0 k0 i1 j1 k1 rgcw))!(i, j, k))%F no = Some (r' i j k)) ->
  (forall i j k, i0 - 1 <= i <= i1 + 1 -> j0 - 1 <= j <= j1 + 1 -> k0 - 1 <= k <= k1 + 1 -> ((mkFa u (CELL3d i0 j0 k0 i1 j1 k1 gcw))!(i, j, k))%F n = Some (z i j k)) ->
  (forall i j k, i0 <= i <= i1 -> j0 <= j <= j1 -> k0 <= k <= k1 -> ((mkFa a (CELL3d i0 j0 k0 i1 j1 k1 agcw))!(i, j, k))%F n = Some (c i j k)) ->
  (forall i j k, i0 <= i <= i1 + 1 -> j0 <= j <= j1 -> k0 <= k <= k1 -> ((mkFa b0 (FACE3d0 i0 j0 k0 i1 j1 k1 0))!(i, j, k))%F n = Some (v0 i j k)) ->
  (forall i j k, i0 <= i <= i1 -> j0 <= j <= j1 + 1 -> k0 <= k <= k1 -> ((mkFa b1 (FACE3d1 i0 j0 k0 i1 j1 k1 0))!(j, k, i))%F n = Some (v1 i j k)) ->
  (forall i j k, i0 <= i <= i1 -> j0 <= j <= j1 -> k0 <= k <= k1 + 1 -> ((mkFa b2 (FACE3d2 i0 j0 k0 i1 j1 k1 0))!(k, i, j))%F n = Some (v2 i j k)) ->
  (forall j k, j0 <= j <= j1 -> k0 <= k <= k1 -> (w (i0 - 1)%Z j k * z i0 j k = z (i0 - 1)%Z j k * w i0 j k)%T /\ (w (i1 + 1)%Z j k * z i1 j k = z (i1 + 1)%Z j k * w i1 j k)%T) ->
  (forall i k, i0 <= i <= i1 -> k0 <= k <= k1 -> (w i (j0 - 1)%Z k * z i j0 k = z i (j0 - 1)%Z k * w i j0 k)%T /\ (w i (j1 + 1)%Z k * z i j1 k = z i (j1 + 1)%Z k * w i j1 k)%T) ->
  (forall i j, i0 <= i <= i1 -> j0 <= j <= j1 -> (w i j (k0 - 1)%Z * z i j k0 = z i j (k0 - 1)%Z * w i j k0)%T /\ (w i j (k1 + 1)%Z * z i j k1 = z i j (k1 + 1)%Z * w i j k1)%T) ->
  (total3 i0 j0 k0 i1 j1 k1 (fun i j k => r i j k * z i j k))%T = (total3 i0 j0 k0 i1 j1 k1 (fun i j k => r' i j k * w i j k))%T.
  Proof.
    intros Bi Bj Bk Hg Hr A0 A1 A2 A3 E R0 R1 R2 R3 R4 R5 E' R0' R1' R2' R3' R4' R5' G0 G1 G2.
    rewrite (weak_v1_3d i0 j0 k0 i1 j1 k1 dx beta b0 b1 b2 gcw u f0 f1 f2 alpha agcw a rgcw res m mo r w c v0 v1 v2 z Bi Bj Bk Hg Hr A0 A1 A2 A3 E R0 R1 R2 R3 R4 R5).
    rewrite (weak_v1_3d i0 j0 k0 i1 j1 k1 dx beta b0 b1 b2 gcw u f0 f1 f2 alpha agcw a rgcw res n no r' z c v0 v1 v2 w Bi Bj Bk Hg Hr A0 A1 A2 A3 E' R0' R1' R2' R3' R4' R5'). clear Hg Hr A0 A1 A2 A3 E R0 R1 R2 R3 R4 R5 E' R0' R1' R2' R3' R4' R5'.
    assert (P0 : (total2 j0 k0 j1 k1 (fun j k => line i0 i1 (dx 0) (fun i => v0 i j k) (fun i => w i j k) (fun i => z i j k)))%T = (total2 j0 k0 j1 k1 (fun j k => line i0 i1 (dx 0) (fun i => v0 i j k) (fun i => z i j k) (fun i => w i j k)))%T).
    { apply total2_ext; intros j k Ij Ik; destruct (G0 j k Ij Ik) as (Gl & Gh). apply (line_sym L); [exact Gl|exact Gh]. }
    rewrite P0. clear P0.
    assert (P1 : (total2 i0 k0 i1 k1 (fun i k => line j0 j1 (dx 1) (fun j => v1 i j k) (fun j => w i j k) (fun j => z i j k)))%T = (total2 i0 k0 i1 k1 (fun i k => line j0 j1 (dx 1) (fun j => v1 i j k) (fun j => z i j k) (fun j => w i j k)))%T).
    { apply total2_ext; intros i k Ii Ik; destruct (G1 i k Ii Ik) as (Gl & Gh). apply (line_sym L); [exact Gl|exact Gh]. }
    rewrite P1. clear P1.
    assert (P2 : (total2 i0 j0 i1 j1 (fun i j => line k0 k1 (dx 2) (fun k => v2 i j k) (fun k => w i j k) (fun k => z i j k)))%T = (total2 i0 j0 i1 j1 (fun i j => line k0 k1 (dx 2) (fun k => v2 i j k) (fun k => z i j k) (fun k => w i j k)))%T).
    { apply total2_ext; intros i j Ii Ij; destruct (G2 i j Ii Ij) as (Gl & Gh). apply (line_sym L); [exact Gl|exact Gh]. }
    rewrite P2. clear P2.
    do 2 f_equal. apply total3_ext. intros i j k _ _ _. ring.
  Qed.

  Lemma selfadjoint_v2_3d i0 j0 k0 i1 j1 k1 dx beta b0 b1 b2 gcw u f0 f1 f2 alpha rgcw res (m mo n no : mem S) r w v0 v1 v2 r' z :
  i0 <= i1 -> j0 <= j1 -> k0 <= k1 -> 0 <= gcw -> 0 <= rgcw ->
  apart f0 [f1; f2; b0; b1; b2; u] -> apart f1 [f2; b0; b1; b2; u] -> apart f2 [b0; b1; b2; u] -> apart res [f0; f1; f2; u] ->
  (m' <- cdf_3d_flux i0 j0 k0 i1 j1 k1 dx b0 b1 b2 gcw u f0 f1 f2 m ;;
   cd_apply_3d_diffusion_v2_apply i0 i1 j0 j1 k0 k1 alpha beta dx gcw u f0 f1 f2 rgcw res m') = Some mo ->
  (forall i j k, i0 <= i <= i1 -> j0 <= j <= j1 -> k0 <= k <= k1 -> ((mkFa res (CELL3d i0 j0 k0 i1 j1 k1 rgcw))!(i, j, k))%F mo = Some (r i j k)) ->
  (forall i j k, i0 - 1 <= i <= i1 + 1 -> j0 - 1 <= j <= j1 + 1 -> k0 - 1 <= k <= k1 + 1 -> ((mkFa u (CELL3d i0 j0 k0 i1 j1 k1 gcw))!(i, j, k))%F m = Some (w i j k)) ->
  (forall i j k, i0 <= i <= i1 + 1 -> j0 <= j <= j1 -> k0 <= k <= k1 -> ((mkFa b0 (FACE3d0 i0 j0 k0 i1 j1 k1 0))!(i, j, k))%F m = Some (v0 i j k)) ->
  (forall i j k, i0 <= i <= i1 -> j0 <= j <= j1 + 1 -> k0 <= k <= k1 -> ((mkFa b1 (FACE3d1 i0 j0 k0 i1 j1 k1 0))!(j, k, i))%F m = Some (v1 i j k)) ->
  (forall i j k, i0 <= i <= i1 -> j0 <= j <= j1 -> k0 <= k <= k1 + 1 -> ((mkFa b2 (FACE3d2 i0 j0 k0 i1 j1 k1 0))!(k, i, j))%F m = Some (v2 i j k)) ->
  (n' <- cdf_3d_flux i0 j0 k0 i1 j1 k1 dx b0 b1 b2 gcw u f0 f1 f2 n ;;
   cd_apply_3d_diffusion_v2_apply i0 i1 j0 j1 k0 k1 alpha beta dx gcw u f0 f1 f2 rgcw res n') = Some no ->
  (forall i j k, i0 <= i <= i1 -> j0 <= j <= j1 -> k0 <= k <= k1 -> ((mkFa res (CELL3d i0 j0 k0 i1 j1 k1 rgcw))!(i, j, k))%F no = Some (r' i j k)) ->
  (forall i j k, i0 - 1 <= i <= i1 + 1 -> j0 - 1 <= j <= j1 + 1 -> k0 - 1 <= k <= k1 + 1 -> ((mkFa u (CELL3d i0 j0 k0 i1 j1 k1 gcw))!(i, j, k))%F n = Some (z i j k)) ->
  (forall i j k, i0 <= i <= i1 + 1 -> j0 <= j <= j1 -> k0 <= k <= k1 -> ((mkFa b0 (FACE3d0 i0 j0 k0 i1 j1 k1 0))!(i, j, k))%F n = Some (v0 i j k)) ->
  (forall i j k, i0 <= i <= i1 -> j0 <= j <= j1 + 1 -> k0 <= k <= k1 -> ((mkFa b1 (FACE3d1 i0 j0 k0 i1 j1 k1 0))!(j, k, i))%F n = Some (v1 i j k)) ->
  (forall i j k, i0 <= i <= i1 -> j0 <= j <= j1 -> k0 <= k <= k1 + 1 -> ((mkFa b2 (FACE3d2 i0 j0 k0 i1 j1 k1 0))!(k, i, j))%F n = Some (v2 i j k)) ->
  (forall j k, j0 <= j <= j1 -> k0 <= k <= k1 -> (w (i0 - 1)%Z j k * z i0 j k = z (i0 - 1)%Z j k * w i0 j k)%T /\ (w (i1 + 1)%Z j k * z i1 j k = z (i1 + 1)%Z j k * w i1 j k)%T) ->
  (forall i k, i0 <= i <= i1 -> k0 <= k <= k1 -> (w i (j0 - 1)%Z k * z i j0 k = z i (j0 - 1)%Z k * w i j0 k)%T /\ (w i (j1 + 1)%Z k * z i j1 k = z i (j1 + 1)%Z k * w i j1 k)%T) ->
  (forall i j, i0 <= i <= i1 -> j0 <= j <= j1 -> (w i j (k0 - 1)%Z * z i j k0 = z i j (k0 - 1)%Z * w i j k0)%T /\ (w i j (k1 + 1)%Z * z i j k1 = z i j (k1 + 1)%Z * w i j k1)%T) ->
  (total3 i0 j0 k0 i1 j1 k1 (fun i j k => r i j k * z i j k))%T = (total3 i0 j0 k0 i1 j1 k1 (fun i j k => r' i j k * w i j k))%T.
  Proof.
    intros Bi Bj Bk Hg Hr A0 A1 A2 A3 E R0 R1 R2 R3 R4 E' R0' R1' R2' R3' R4' G0 G1 G2.
    rewrite (weak_v2_3d i0 j0 k0 i1 j1 k1 dx beta b0 b1 b2 gcw u f0 f1 f2 alpha rgcw res m mo r w v0 v1 v2 z Bi Bj Bk Hg Hr A0 A1 A2 A3 E R0 R1 R2 R3 R4).
    rewrite (weak_v2_3d i0 j0 k0 i1 j1 k1 dx beta b0 b1 b2 gcw u f0 f1 f2 alpha rgcw res n no r' z v0 v1 v2 w Bi Bj Bk Hg Hr A0 A1 A2 A3 E' R0' R1' R2' R3' R4'). clear Hg Hr A0 A1 A2 A3 E R0 R1 R2 R3 R4 E' R0' R1' R2' R3' R4'.
    assert (P0 : (total2 j0 k0 j1 k1 (fun j k => line i0 i1 (dx 0) (fun i => v0 i j k) (fun i => w i j k) (fun i => z i j k)))%T = (total2 j0 k0 j1 k1 (fun j k => line i0 i1 (dx 0) (fun i => v0 i j k) (fun i => z i j k) (fun i => w i j k)))%T).
    { apply total2_ext; intros j k Ij Ik; destruct (G0 j k Ij Ik) as (Gl & Gh). apply (line_sym L); [exact Gl|exact Gh]. }
    rewrite P0. clear P0.
    assert (P1 : (total2 i0 k0 i1 k1 (fun i k => line j0 j1 (dx 1) (fun j => v1 i j k) (fun j => w i j k) (fun j => z i j k)))%T = (total2 i0 k0 i1 k1 (fun i k => line j0 j1 (dx 1) (fun j => v1 i j k) (fun j => z i j k) (fun j => w i j k)))%T).
    { apply total2_ext; intros i k Ii Ik; destruct (G1 i k Ii Ik) as (Gl & Gh). apply (line_sym L); [exact Gl|exact Gh]. }
    rewrite P1. clear P1.
    assert (P2 : (total2 i0 j0 i1 j1 (fun i j => line k0 k1 (dx 2) (fun k => v2 i j k) (fun k => w i j k) (fun k => z i j k)))%T = (total2 i0 j0 i1 j1 (fun i j => line k0 k1 (dx 2) (fun k => v2 i j k) (fun k => z i j k) (fun k => w i j k)))%T).
    { apply total2_ext; intros i j Ii Ij; destruct (G2 i j Ii Ij) as (Gl & Gh). apply (line_sym L); [exact Gl|exact Gh]. }
    rewrite P2. clear P2.
    do 2 f_equal. apply total3_ext. intros i j k _ _ _. ring.
  Qed.

  Lemma selfadjoint_poisson_3d i0 j0 k0 i1 j1 k1 dx beta gcw u f0 f1 f2 rgcw res (m mo n no : mem S) r w r' z :
  i0 <= i1 -> j0 <= j1 -> k0 <= k1 -> 0 <= gcw -> 0 <= rgcw ->
  apart f0 [f1; f2; u] -> apart f1 [f2; u] -> apart f2 [u] -> apart res [f0; f1; f2; u] ->
  (m' <- cdf_3d_poisson_flux i0 j0 k0 i1 j1 k1 dx gcw u f0 f1 f2 m ;;
   cd_apply_3d_poisson_v2_apply i0 i1 j0 j1 k0 k1 beta dx f0 f1 f2 rgcw res m') = Some mo ->
  (forall i j k, i0 <= i <= i1 -> j0 <= j <= j1 -> k0 <= k <= k1 -> ((mkFa res (CELL3d i0 j0 k0 i1 j1 k1 rgcw))!(i, j, k))%F mo = Some (r i j k)) ->
  (forall i j k, i0 - 1 <= i <= i1 + 1 -> j0 - 1 <= j <= j1 + 1 -> k0 - 1 <= k <= k1 + 1 -> ((mkFa u (CELL3d i0 j0 k0 i1 j1 k1 gcw))!(i, j, k))%F m = Some (w i j k)) ->
  (n' <- cdf_3d_poisson_flux i0 j0 k0 i1 j1 k1 dx gcw u f0 f1 f2 n ;;
   cd_apply_3d_poisson_v2_apply i0 i1 j0 j1 k0 k1 beta dx f0 f1 f2 rgcw res n') = Some no ->
  (forall i j k, i0 <= i <= i1 -> j0 <= j <= j1 -> k0 <= k <= k1 -> ((mkFa res (CELL3d i0 j0 k0 i1 j1 k1 rgcw))!(i, j, k))%F no = Some (r' i j k)) ->
  (forall i j k, i0 - 1 <= i <= i1 + 1 -> j0 - 1 <= j <= j1 + 1 -> k0 - 1 <= k <= k1 + 1 -> ((mkFa u (CELL3d i0 j0 k0 i1 j1 k1 gcw))!(i, j, k))%F n = Some (z i j k)) ->
  (forall j k, j0 <= j <= j1 -> k0 <= k <= k1 -> (w (i0 - 1)%Z j k * z i0 j k = z (i0 - 1)%Z j k * w i0 j k)%T /\ (w (i1 + 1)%Z j k * z i1 j k = z (i1 + 1)%Z j k * w i1 j k)%T) ->
  (forall i k, i0 <= i <= i1 -> k0 <= k <= k1 -> (w i (j0 - 1)%Z k * z i j0 k = z i (j0 - 1)%Z k * w i j0 k)%T /\ (w i (j1 + 1)%Z k * z i j1 k = z i (j1 + 1)%Z k * w i j1 k)%T) ->
  (forall i j, i0 <= i <= i1 -> j0 <= j <= j1 -> (w i j (k0 - 1)%Z * z i j k0 = z i j (k0 - 1)%Z * w i j k0)%T /\ (w i j (k1 + 1)%Z * z i j k1 = z i j (k1 + 1)%Z * w i j k1)%T) ->
  (total3 i0 j0 k0 i1 j1 k1 (fun i j k => r i j k * z i j k))%T = (total3 i0 j0 k0 i1 j1 k1 (fun i j k => r' i j k * w i j k))%T.
  Proof.
    intros Bi Bj Bk Hg Hr A0 A1 A2 A3 E R0 R1 E' R0' R1' G0 G1 G2.
    rewrite (weak_poisson_3d i0 j0 k0 i1 j1 k1 dx beta gcw u f0 f1 f2 rgcw res m mo r w z Bi Bj Bk Hg Hr A0 A1 A2 A3 E R0 R1).
    rewrite (weak_poisson_3d i0 j0 k0 i1 j1 k1 dx beta gcw u f0 f1 f2 rgcw res n no r' z w Bi Bj Bk Hg Hr A0 A1 A2 A3 E' R0' R1'). clear Hg Hr A0 A1 A2 A3 E R0 R1 E' R0' R1'.
    assert (P0 : (total2 j0 k0 j1 k1 (fun j k => line i0 i1 (dx 0) (fun _ => lit 1) (fun i => w i j k) (fun i => z i j k)))%T = (total2 j0 k0 j1 k1 (fun j k => line i0 i1 (dx 0) (fun _ => lit 1) (fun i => z i j k) (fun i => w i j k)))%T).
    { apply total2_ext; intros j k Ij Ik; destruct (G0 j k Ij Ik) as (Gl & Gh). apply (line_sym L); [exact Gl|exact Gh]. }
    rewrite P0. clear P0.
    assert (P1 : (total2 i0 k0 i1 k1 (fun i k => line j0 j1 (dx 1) (fun _ => lit 1) (fun j => w i j k) (fun j => z i j k)))%T = (total2 i0 k0 i1 k1 (fun i k => line j0 j1 (dx 1) (fun _ => lit 1) (fun j => z i j k) (fun j => w i j k)))%T).
    { apply total2_ext; intros i k Ii Ik; destruct (G1 i k Ii Ik) as (Gl & Gh). apply (line_sym L); [exact Gl|exact Gh]. }
    rewrite P1. clear P1.
    assert (P2 : (total2 i0 j0 i1 j1 (fun i j => line k0 k1 (dx 2) (fun _ => lit 1) (fun k => w i j k) (fun k => z i j k)))%T = (total2 i0 j0 i1 j1 (fun i j => line k0 k1 (dx 2) (fun _ => lit 1) (fun k => z i j k) (fun k => w i j k)))%T).
    { apply total2_ext; intros i j Ii Ij; destruct (G2 i j Ii Ij) as (Gl & Gh). apply (line_sym L); [exact Gl|exact Gh]. }
    rewrite P2. clear P2.
    reflexivity.
  Qed.

End Form.

Lemma nonneg_v1_1d i0 i1 dx beta b0 gcw u f0 alpha agcw a rgcw res (m mo : mem QcS) r w c v0 :
  i0 <= i1 -> 0 <= gcw -> 0 <= rgcw ->
  apart f0 [b0; a; u] -> apart res [f0; a; u] ->
  (m' <- cdf_1d_flux i0 i1 dx b0 gcw u f0 m ;;
   cd_apply_1d_diffusion_v1_apply i0 i1 alpha beta dx agcw a gcw u f0 rgcw res m') = Some mo ->
  (forall i, i0 <= i <= i1 -> ((mkFa res (CELL1d i0 i1 rgcw))!(i))%F mo = Some (r i)) ->
  (forall i, i0 - 1 <= i <= i1 + 1 -> ((mkFa u (CELL1d i0 i1 gcw))!(i))%F m = Some (w i)) ->
  (forall i, i0 <= i <= i1 -> ((mkFa a (CELL1d i0 i1 agcw))!(i))%F m = Some (c i)) ->
  (forall i, i0 <= i <= i1 + 1 -> ((mkFa b0 (FACE1d i0 i1 0))!(i))%F m = Some (v0 i)) ->
  (0 <= beta)%Qc ->
  (0 <= alpha)%Qc ->
  (forall i, i0 <= i <= i1 -> (0 <= c i)%Qc) ->
  (forall i, i0 <= i <= i1 + 1 -> (0 <= v0 i)%Qc) ->
  (w (i0 - 1)%Z * w i0 <= w i0 * w i0 /\ w (i1 + 1)%Z * w i1 <= w i1 * w i1)%Qc ->
  (0 <= (total i0 i1 (fun i => r i * w i))%T)%Qc.
Proof.
  intros Bi Hg Hr A0 A1 E R0 R1 R2 R3 Hb Ha Hc Hv0 G0.
  rewrite (weak_v1_1d QcS_laws i0 i1 dx beta b0 gcw u f0 alpha agcw a rgcw res m mo r w c v0 w Bi Hg Hr A0 A1 E R0 R1 R2 R3). clear Hg Hr A0 A1 E R0 R1 R2 R3.
  apply Qc_add.
  - apply Qc_mul; [exact Hb|]. { destruct G0 as (Gl & Gh); apply line_nonneg; [assumption | intros i Ii; apply Hv0; assumption | exact Gl | exact Gh]. }
  - apply Qc_mul; [exact Ha|]. apply total_nonneg. intros i Ii. change (0 <= c i * w i * w i)%Qc; rewrite <- Qcmult_assoc; apply Qc_mul; [apply Hc; assumption | apply Qc_sq].
Qed.

Lemma nonneg_v2_1d i0 i1 dx beta b0 gcw u f0 alpha rgcw res (m mo : mem QcS) r w v0 :
  i0 <= i1 -> 0 <= gcw -> 0 <= rgcw ->
  apart f0 [b0; u] -> apart res [f0; u] ->
  (m' <- cdf_1d_flux i0 i1 dx b0 gcw u f0 m ;;
   cd_apply_1d_diffusion_v2_apply i0 i1 alpha beta dx gcw u f0 rgcw res m') = Some mo ->
  (forall i, i0 <= i <= i1 -> ((mkFa res (CELL1d i0 i1 rgcw))!(i))%F mo = Some (r i)) ->
  (forall i, i0 - 1 <= i <= i1 + 1 -> ((mkFa u (CELL1d i0 i1 gcw))!(i))%F m = Some (w i)) ->
  (forall i, i0 <= i <= i1 + 1 -> ((mkFa b0 (FACE1d i0 i1 0))!(i))%F m = Some (v0 i)) ->
  (0 <= beta)%Qc ->
  (0 <= alpha)%Qc ->
  (forall i, i0 <= i <= i1 + 1 -> (0 <= v0 i)%Qc) ->
  (w (i0 - 1)%Z * w i0 <= w i0 * w i0 /\ w (i1 + 1)%Z * w i1 <= w i1 * w i1)%Qc ->
  (0 <= (total i0 i1 (fun i => r i * w i))%T)%Qc.
Proof.
  intros Bi Hg Hr A0 A1 E R0 R1 R2 Hb Ha Hv0 G0.
  rewrite (weak_v2_1d QcS_laws i0 i1 dx beta b0 gcw u f0 alpha rgcw res m mo r w v0 w Bi Hg Hr A0 A1 E R0 R1 R2). clear Hg Hr A0 A1 E R0 R1 R2.
  apply Qc_add.
  - apply Qc_mul; [exact Hb|]. { destruct G0 as (Gl & Gh); apply line_nonneg; [assumption | intros i Ii; apply Hv0; assumption | exact Gl | exact Gh]. }
  - apply Qc_mul; [exact Ha|]. apply total_nonneg. intros i Ii. apply Qc_sq.
Qed.

Lemma nonneg_poisson_1d i0 i1 dx beta gcw u f0 rgcw res (m mo : mem QcS) r w :
  i0 <= i1 -> 0 <= gcw -> 0 <= rgcw ->
  apart f0 [u] -> apart res [f0; u] ->
  (m' <- cdf_1d_poisson_flux i0 i1 dx gcw u f0 m ;;
   cd_apply_1d_poisson_v2_apply i0 i1 beta dx f0 rgcw res m') = Some mo ->
  (forall i, i0 <= i <= i1 -> ((mkFa res (CELL1d i0 i1 rgcw))!(i))%F mo = Some (r i)) ->
  (forall i, i0 - 1 <= i <= i1 + 1 -> ((mkFa u (CELL1d i0 i1 gcw))!(i))%F m = Some (w i)) ->
  (0 <= beta)%Qc ->
  (w (i0 - 1)%Z * w i0 <= w i0 * w i0 /\ w (i1 + 1)%Z * w i1 <= w i1 * w i1)%Qc ->
  (0 <= (total i0 i1 (fun i => r i * w i))%T)%Qc.
Proof.
  intros Bi Hg Hr A0 A1 E R0 R1 Hb G0.
  rewrite (weak_poisson_1d QcS_laws i0 i1 dx beta gcw u f0 rgcw res m mo r w w Bi Hg Hr A0 A1 E R0 R1). clear Hg Hr A0 A1 E R0 R1.
  apply Qc_mul; [exact Hb|]. { destruct G0 as (Gl & Gh); apply line_nonneg; [assumption | intros ? ?; vm_compute; discriminate | exact Gl | exact Gh]. }
Qed.

Lemma nonneg_v1_2d i0 j0 i1 j1 dx beta b0 b1 gcw u f0 f1 alpha agcw a rgcw res (m mo : mem QcS) r w c v0 v1 :
  i0 <= i1 -> j0 <= j1 -> 0 <= gcw -> 0 <= rgcw ->
  apart f0 [f1; b0; b1; a; u] -> apart f1 [b0; b1; a; u] -> apart res [f0; f1; a; u] ->
  (m' <- cdf_2d_flux i0 j0 i1 j1 dx b0 b1 gcw u f0 f1 m ;;
   cd_apply_2d_diffusion_v1_apply i0 i1 j0 j1 alpha beta dx agcw a gcw u f0 f1 rgcw res m') = Some mo ->
  (forall i j, i0 <= i <= i1 -> j0 <= j <= j1 -> ((mkFa res (CELL2d i0 j0 i1 j1 rgcw))!(i, j))%F mo = Some (r i j)) ->
  (forall i j, i0 - 1 <= i <= i1 + 1 -> j0 - 1 <= j <= j1 + 1 -> ((mkFa u (CELL2d i0 j0 i1 j1 gcw))!(i, j))%F m = Some (w i j)) ->
  (forall i j, i0 <= i <= i1 -> j0 <= j <= j1 -> ((mkFa a (CELL2d i0 j0 i1 j1 agcw))!(i, j))%F m = Some (c i j)) ->
  (forall i j, i0 <= i <= i1 + 1 -> j0 <= j <= j1 -> ((mkFa b0 (FACE2d0 i0 j0 i1 j1 0))!(i, j))%F m = Some (v0 i j)) ->
  (forall i j, i0 <= i <= i1 -> j0 <= j <= j1 + 1 -> ((mkFa b1 (FACE2d1 i0 j0 i1 j1 0))!(j, i))%F m = Some (v1 i j)) ->
  (0 <= beta)%Qc ->
  (0 <= alpha)%Qc ->
  (forall i j, i0 <= i <= i1 -> j0 <= j <= j1 -> (0 <= c i j)%Qc) ->
  (forall i j, i0 <= i <= i1 + 1 -> j0 <= j <= j1 -> (0 <= v0 i j)%Qc) ->
  (forall i j, i0 <= i <= i1 -> j0 <= j <= j1 + 1 -> (0 <= v1 i j)%Qc) ->
  (forall j, j0 <= j <= j1 -> (w (i0 - 1)%Z j * w i0 j <= w i0 j * w i0 j /\ w (i1 + 1)%Z j * w i1 j <= w i1 j * w i1 j)%Qc) ->
  (forall i, i0 <= i <= i1 -> (w i (j0 - 1)%Z * w i j0 <= w i j0 * w i j0 /\ w i (j1 + 1)%Z * w i j1 <= w i j1 * w i j1)%Qc) ->
  (0 <= (total2 i0 j0 i1 j1 (fun i j => r i j * w i j))%T)%Qc.
Proof.
  intros Bi Bj Hg Hr A0 A1 A2 E R0 R1 R2 R3 R4 Hb Ha Hc Hv0 Hv1 G0 G1.
  rewrite (weak_v1_2d QcS_laws i0 j0 i1 j1 dx beta b0 b1 gcw u f0 f1 alpha agcw a rgcw res m mo r w c v0 v1 w Bi Bj Hg Hr A0 A1 A2 E R0 R1 R2 R3 R4). clear Hg Hr A0 A1 A2 E R0 R1 R2 R3 R4.
  apply Qc_add.
  - apply Qc_mul; [exact Hb|]. { apply Qc_add. { apply total_nonneg; intros j Ij; destruct (G0 j Ij) as (Gl & Gh); apply line_nonneg; [assumption | intros i Ii; apply Hv0; assumption | exact Gl | exact Gh]. } { apply total_nonneg; intros i Ii; destruct (G1 i Ii) as (Gl & Gh); apply line_nonneg; [assumption | intros j Ij; apply Hv1; assumption | exact Gl | exact Gh]. } }
  - apply Qc_mul; [exact Ha|]. apply total2_nonneg. intros i j Ii Ij. change (0 <= c i j * w i j * w i j)%Qc; rewrite <- Qcmult_assoc; apply Qc_mul; [apply Hc; assumption | apply Qc_sq].
Qed.

Lemma nonneg_v2_2d i0 j0 i1 j1 dx beta b0 b1 gcw u f0 f1 alpha rgcw res (m mo : mem QcS) r w v0 v1 :
  i0 <= i1 -> j0 <= j1 -> 0 <= gcw -> 0 <= rgcw ->
  apart f0 [f1; b0; b1; u] -> apart f1 [b0; b1; u] -> apart res [f0; f1; u] ->
  (m' <- cdf_2d_flux i0 j0 i1 j1 dx b0 b1 gcw u f0 f1 m ;;
   cd_apply_2d_diffusion_v2_apply i0 i1 j0 j1 alpha beta dx gcw u f0 f1 rgcw res m') = Some mo ->
  (forall i j, i0 <= i <= i1 -> j0 <= j <= j1 -> ((mkFa res (CELL2d i0 j0 i1 j1 rgcw))!(i, j))%F mo = Some (r i j)) ->
  (forall i j, i0 - 1 <= i <= i1 + 1 -> j0 - 1 <= j <= j1 + 1 -> ((mkFa u (CELL2d i0 j0 i1 j1 gcw))!(i, j))%F m = Some (w i j)) ->
  (forall i j, i0 <= i <= i1 + 1 -> j0 <= j <= j1 -> ((mkFa b0 (FACE2d0 i0 j0 i1 j1 0))!(i, j))%F m = Some (v0 i j)) ->
  (forall i j, i0 <= i <= i1 -> j0 <= j <= j1 + 1 -> ((mkFa b1 (FACE2d1 i0 j0 i1 j1 0))!(j, i))%F m = Some (v1 i j)) ->
  (0 <= beta)%Qc ->
  (0 <= alpha)%Qc ->
  (forall i j, i0 <= i <= i1 + 1 -> j0 <= j <= j1 -> (0 <= v0 i j)%Qc) ->
  (forall i j, i0 <= i <= i1 -> j0 <= j <= j1 + 1 -> (0 <= v1 i j)%Qc) ->
  (forall j, j0 <= j <= j1 -> (w (i0 - 1)%Z j * w i0 j <= w i0 j * w i0 j /\ w (i1 + 1)%Z j * w i1 j <= w i1 j * w i1 j)%Qc) ->
  (forall i, i0 <= i <= i1 -> (w i (j0 - 1)%Z * w i j0 <= w i j0 * w i j0 /\ w i (j1 + 1)%Z * w i j1 <= w i j1 * w i j1)%Qc) ->
  (0 <= (total2 i0 j0 i1 j1 (fun i j => r i j * w i j))%T)%Qc.
Proof.
  intros Bi Bj Hg Hr A0 A1 A2 E R0 R1 R2 R3 Hb Ha Hv0 Hv1 G0 G1.
  rewrite (weak_v2_2d QcS_laws i0 j0 i1 j1 dx beta b0 b1 gcw u f0 f1 alpha rgcw res m mo r w v0 v1 w Bi Bj Hg Hr A0 A1 A2 E R0 R1 R2 R3). clear Hg Hr A0 A1 A2 E R0 R1 R2 R3.
  apply Qc_add.
  - apply Qc_mul; [exact Hb|]. { apply Qc_add. { apply total_nonneg; intros j Ij; destruct (G0 j Ij) as (Gl & Gh); apply line_nonneg; [assumption | intros i Ii; apply Hv0; assumption | exact Gl | exact Gh]. } { apply total_nonneg; intros i Ii; destruct (G1 i Ii) as (Gl & Gh); apply line_nonneg; [assumption | intros j Ij; apply Hv1; assumption | exact Gl | exact Gh]. } }
  - apply Qc_mul; [exact Ha|]. apply total2_nonneg. intros i j Ii Ij. apply Qc_sq.
Qed.

Lemma nonneg_poisson_2d i0 j0 i1 j1 dx beta gcw u f0 f1 rgcw res (m mo : mem QcS) r w :
  i0 <= i1 -> j0 <= j1 -> 0 <= gcw -> 0 <= rgcw ->
  apart f0 [f1; u] -> apart f1 [u] -> apart res [f0; f1; u] ->
  (m' <- cdf_2d_poisson_flux i0 j0 i1 j1 dx gcw u f0 f1 m ;;
   cd_apply_2d_poisson_v2_apply i0 i1 j0 j1 beta dx f0 f1 rgcw res m') = Some mo ->
  (forall i j, i0 <= i <= i1 -> j0 <= j <= j1 -> ((mkFa res (CELL2d i0 j0 i1 j1 rgcw))!(i, j))%F mo = Some (r i j)) ->
  (forall i j, i0 - 1 <= i <= i1 + 1 -> j0 - 1 <= j <= j1 + 1 -> ((mkFa u (CELL2d i0 j0 i1 j1 gcw))!(i, j))%F m = Some (w i j)) ->
  (0 <= beta)%Qc ->
  (forall j, j0 <= j <= j1 -> (w (i0 - 1)%Z j * w i0 j <= w i0 j * w i0 j /\ w (i1 + 1)%Z j * w i1 j <= w i1 j * w i1 j)%Qc) ->
  (forall i, i0 <= i <= i1 -> (w i (j0 - 1)%Z * w i j0 <= w i j0 * w i j0 /\ w i (j1 + 1)%Z * w i j1 <= w i j1 * w i j1)%Qc) ->
  (0 <= (total2 i0 j0 i1 j1 (fun i j => r i j * w i j))%T)%Qc.
Proof.
  intros Bi Bj Hg Hr A0 A1 A2 E R0 R1 Hb G0 G1.
  rewrite (weak_poisson_2d QcS_laws i0 j0 i1 j1 dx beta gcw u f0 f1 rgcw res m mo r w w Bi Bj Hg Hr A0 A1 A2 E R0 R1). clear Hg Hr A0 A1 A2 E R0 R1.
  apply Qc_mul; [exact Hb|]. { apply Qc_add. { apply total_nonneg; intros j Ij; destruct (G0 j Ij) as (Gl & Gh); apply line_nonneg; [assumption | intros ? ?; vm_compute; discriminate | exact Gl | exact Gh]. } { apply total_nonneg; intros i Ii; destruct (G1 i Ii) as (Gl & Gh); apply line_nonneg; [assumption | intros ? ?; vm_compute; discriminate | exact Gl | exact Gh]. } }
Qed.

Lemma nonneg_v1_3d i0 j0 k0 i1 j1 k1 dx beta b0 b1 b2 gcw u f0 f1 f2 alpha agcw a rgcw res (m mo : mem QcS) r w c v0 v1 v2 :
  i0 <= i1 -> j0 <= j1 -> k0 <= k1 -> 0 <= gcw -> 0 <= rgcw ->
  apart f0 [f1; f2; b0; b1; b2; a; u] -> apart f1 [f2; b0; b1; b2; a; u] -> apart f2 [b0; b1; b2; a; u] -> apart res [f0; f1; f2; a; u] ->
  (m' <- cdf_3d_flux i0 j0 k0 i1 j1 k1 dx b0 b1 b2 gcw u f0 f1 f2 m ;;
   cd_apply_3d_diffusion_v1_apply i0 i1 j0 j1 k0 k1 alpha beta dx agcw a gcw u f0 f1 f2 rgcw res m') = Some mo ->
  (forall i j k, i0 <= i <= i1 -> j0 <= j <= j1 -> k0 <= k <= k1 -> ((mkFa res (CELL3d i0 j0 k0 i1 j1 k1 rgcw))!(i, j, k))%F mo = Some (r i j k)) ->
  (forall i j k, i0 - 1 <= i <= i1 + 1 -> j0 - 1 <= j <= j1 + 1 -> k0 - 1 <= k <= k1 + 1 -> ((mkFa u (CELL3d i0 j0 k0 i1 j1 k1 gcw))!(i, j, k))%F m = Some (w i j k)) ->
  (forall i j k, i0 <= i <= i1 -> j0 <= j <= j1 -> k0 <= k <= k1 -> ((mkFa a (CELL3d i0 j0 k0 i1 j1 k1 agcw))!(i, j, k))%F m = Some (c i j k)) ->
  (forall i j k, i0 <= i <= i1 + 1 -> j0 <= j <= j1 -> k0 <= k <= k1 -> ((mkFa b0 (FACE3d0 i0 j0 k0 i1 j1 k1 0))!(i, j, k))%F m = Some (v0 i j k)) ->
  (forall i j k, i0 <= i <= i1 -> j0 <= j <= j1 + 1 -> k0 <= k <= k1 -> ((mkFa b1 (FACE3d1 i0 j0 k0 i1 j1 k1 0))!(j, k, i))%F m = Some (v1 i j k)) ->
  (forall i j k, i0 <= i <= i1 -> j0 <= j <= j1 -> k0 <= k <= k1 + 1 -> ((mkFa b2 (FACE3d2 i0 j0 k0 i1 j1 k1 0))!(k, i, j))%F m = Some (v2 i j k)) ->
  (0 <= beta)%Qc ->
  (0 <= alpha)%Qc ->
  (forall i j k, i0 <= i <= i1 -> j0 <= j <= j1 -> k0 <= k <= k1 -> (0 <= c i j k)%Qc) ->
  (forall i j k, i0 <= i <= i1 + 1 -> j0 <= j <= j1 -> k0 <= k <= k1 -> (0 <= v0 i j k)%Qc) ->
  (forall i j k, i0 <= i <= i1 -> j0 <= j <= j1 + 1 -> k0 <= k <= k1 -> (0 <= v1 i j k)%Qc) ->
  (forall i j k, i0 <= i <= i1 -> j0 <= j <= j1 -> k0 <= k <= k1 + 1 -> (0 <= v2 i j k)%Qc) ->
  (forall j k, j0 <= j <= j1 -> k0 <= k <= k1 -> (w (i0 - 1)%Z j k * w i0 j k <= w i0 j k * w i0 j k /\ w (i1 + 1)%Z j k * w i1 j k <= w i1 j k * w i1 j k)%Qc) ->
  (forall i k, i0 <= i <= i1 -> k0 <= k <= k1 -> (w i (j0 - 1)%Z k * w i j0 k <= w i j0 k * w i j0 k /\ w i (j1 + 1)%Z k * w i j1 k <= w i j1 k * w i j1 k)%Qc) ->
  (forall i j, i0 <= i <= i1 -> j0 <= j <= j1 -> (w i j (k0 - 1)%Z * w i j k0 <= w i j k0 * w i j k0 /\ w i j (k1 + 1)%Z * w i j k1 <= w i j k1 * w i j k1)%Qc) ->
  (0 <= (total3 i0 j0 k0 i1 j1 k1 (fun i j k => r i j k * w i j k))%T)%Qc.
Proof.
  intros Bi Bj Bk Hg Hr A0 A1 A2 A3 E R0 R1 R2 R3 R4 R5 Hb Ha Hc Hv0 Hv1 Hv2 G0 G1 G2.
  rewrite (weak_v1_3d QcS_laws i0 j0 k0 i1 j1 k1 dx beta b0 b1 b2 gcw u f0 f1 f2 alpha agcw a rgcw res m mo r w c v0 v1 v2 w Bi Bj Bk Hg Hr A0 A1 A2 A3 E R0 R1 R2 R3 R4 R5). clear Hg Hr A0 A1 A2 A3 E R0 R1 R2 R3 R4 R5.
  apply Qc_add.
  - apply Qc_mul; [exact Hb|]. { apply Qc_add. { apply Qc_add. { apply total2_nonneg; intros j k Ij Ik; destruct (G0 j k Ij Ik) as (Gl & Gh); apply line_nonneg; [assumption | intros i Ii; apply Hv0; assumption | exact Gl | exact Gh]. } { apply total2_nonneg; intros i k Ii Ik; destruct (G1 i k Ii Ik) as (Gl & Gh); apply line_nonneg; [assumption | intros j Ij; apply Hv1; assumption | exact Gl | exact Gh]. } } { apply total2_nonneg; intros i j Ii Ij; destruct (G2 i j Ii Ij) as (Gl & Gh); apply line_nonneg; [assumption | intros k Ik; apply Hv2; assumption | exact Gl | exact Gh]. } }
  - apply Qc_mul; [exact Ha|]. apply total3_nonneg. intros i j k Ii Ij Ik. change (0 <= c i j k * w i j k * w i j k)%Qc; rewrite <- Qcmult_assoc; apply Qc_mul; [apply Hc; assumption | apply Qc_sq].
Qed.

Lemma nonneg_v2_3d i0 j0 k0 i1 j1 k1 dx beta b0 b1 b2 gcw u f0 f1 f2 alpha rgcw res (m mo : mem QcS) r w v0 v1 v2 :
  i0 <= i1 -> j0 <= j1 -> k0 <= k1 -> 0 <= gcw -> 0 <= rgcw ->
  apart f0 [f1; f2; b0; b1; b2; u] -> apart f1 [f2; b0; b1; b2; u] -> apart f2 [b0; b1; b2; u] -> apart res [f0; f1; f2; u] ->
  (m' <- cdf_3d_flux i0 j0 k0 i1 j1 k1 dx b0 b1 b2 gcw u f0 f1 f2 m ;;
   cd_apply_3d_diffusion_v2_apply i0 i1 j0 j1 k0 k1 alpha beta dx gcw u f0 f1 f2 rgcw res m') = Some mo ->
  (forall i j k, i0 <= i <= i1 -> j0 <= j <= j1 -> k0 <= k <= k1 -> ((mkFa res (CELL3d i0 j0 k0 i1 j1 k1 rgcw))!(i, j, k))%F mo = Some (r i j k)) ->
  (forall i j k, i0 - 1 <= i <= i1 + 1 -> j0 - 1 <= j <= j1 + 1 -> k0 - 1 <= k <= k1 + 1 -> ((mkFa u (CELL3d i0 j0 k0 i1 j1 k1 gcw))!(i, j, k))%F m = Some (w i j k)) ->
  (forall i j k, i0 <= i <= i1 + 1 -> j0 <= j <= j1 -> k0 <= k <= k1 -> ((mkFa b0 (FACE3d0 i0 j0 k0 i1 j1 k1 0))!(i, j, k))%F m = Some (v0 i j k)) ->
  (forall i j k, i0 <= i <= i1 -> j0 <= j <= j1 + 1 -> k0 <= k <= k1 -> ((mkFa b1 (FACE3d1 i0 j0 k0 i1 j1 k1 0))!(j, k, i))%F m = Some (v1 i j k)) ->
  (forall i j k, i0 <= i <= i1 -> j0 <= j <= j1 -> k0 <= k <= k1 + 1 -> ((mkFa b2 (FACE3d2 i0 j0 k0 i1 j1 k1 0))!(k, i, j))%F m = Some (v2 i j k)) ->
  (0 <= beta)%Qc ->
  (0 <= alpha)%Qc ->
  (forall i j k, i0 <= i <= i1 + 1 -> j0 <= j <= j1 -> k0 <= k <= k1 -> (0 <= v0 i j k)%Qc) ->
  (forall i j k, i0 <= i <= i1 -> j0 <= j <= j1 + 1 -> k0 <= k <= k1 -> (0 <= v1 i j k)%Qc) ->
  (forall i j k, i0 <= i <= i1 -> j0 <= j <= j1 -> k0 <= k <= k1 + 1 -> (0 <= v2 i j k)%Qc) ->
  (forall j k, j0 <= j <= j1 -> k0 <= k <= k1 -> (w (i0 - 1)%Z j k * w i0 j k <= w i0 j k * w i0 j k /\ w (i1 + 1)%Z j k * w i1 j k <= w i1 j k * w i1 j k)%Qc) ->
  (forall i k, i0 <= i <= i1 -> k0 <= k <= k1 -> (w i (j0 - 1)%Z k * w i j0 k <= w i j0 k * w i j0 k /\ w i (j1 + 1)%Z k * w i j1 k <= w i j1 k * w i j1 k)%Qc) ->
  (forall i j, i0 <= i <= i1 -> j0 <= j <= j1 -> (w i j (k0 - 1)%Z * w i j k0 <= w i j k0 * w i j k0 /\ w i j (k1 + 1)%Z * w i j k1 <= w i j k1 * w i j k1)%Qc) ->
  (0 <= (total3 i0 j0 k0 i1 j1 k1 (fun i j k => r i j k * w i j k))%T)%Qc.
Proof.
  intros Bi Bj Bk Hg Hr A0 A1 A2 A3 E R0 R1 R2 R3 R4 Hb Ha Hv0 Hv1 Hv2 G0 G1 G2.
  rewrite (weak_v2_3d QcS_laws i0 j0 k0 i1 j1 k1 dx beta b0 b1 b2 gcw u f0 f1 f2 alpha rgcw res m mo r w v0 v1 v2 w Bi Bj Bk Hg Hr A0 A1 A2 A3 E R0 R1 R2 R3 R4). clear Hg Hr A0 A1 A2 A3 E R0 R1 R2 R3 R4.
  apply Qc_add.
  - apply Qc_mul; [exact Hb|]. { apply Qc_add. { apply Qc_add. { apply total2_nonneg; intros j k Ij Ik; destruct (G0 j k Ij Ik) as (Gl & Gh); apply line_nonneg; [assumption | intros i Ii; apply Hv0; assumption | exact Gl | exact Gh]. } { apply total2_nonneg; intros i k Ii Ik; destruct (G1 i k Ii Ik) as (Gl & Gh); apply line_nonneg; [assumption | intros j Ij; apply Hv1; assumption | exact Gl | exact Gh]. } } { apply total2_nonneg; intros i j Ii Ij; destruct (G2 i j Ii Ij) as (Gl & Gh); apply line_nonneg; [assumption | intros k Ik; apply Hv2; assumption | exact Gl | exact Gh]. } }
  - apply Qc_mul; [exact Ha|]. apply total3_nonneg. intros i j k Ii Ij Ik. apply Qc_sq.
Qed.

Lemma nonneg_poisson_3d i0 j0 k0 i1 j1 k1 dx beta gcw u f0 f1 f2 rgcw res (m mo : mem QcS) r w :
  i0 <= i1 -> j0 <= j1 -> k0 <= k1 -> 0 <= gcw -> 0 <= rgcw ->
  apart f0 [f1; f2; u] -> apart f1 [f2; u] -> apart f2 [u] -> apart res [f0; f1; f2; u] ->
  (m' <- cdf_3d_poisson_flux i0 j0 k0 i1 j1 k1 dx gcw u f0 f1 f2 m ;;
   cd_apply_3d_poisson_v2_apply i0 i1 j0 j1 k0 k1 beta dx f0 f1 f2 rgcw res m') = Some mo ->
  (forall i j k, i0 <= i <= i1 -> j0 <= j <= j1 -> k0 <= k <= k1 -> ((mkFa res (CELL3d i0 j0 k0 i1 j1 k1 rgcw))!(i, j, k))%F mo = Some (r i j k)) ->
  (forall i j k, i0 - 1 <= i <= i1 + 1 -> j0 - 1 <= j <= j1 + 1 -> k0 - 1 <= k <= k1 + 1 -> ((mkFa u (CELL3d i0 j0 k0 i1 j1 k1 gcw))!(i, j, k))%F m = Some (w i j k)) ->
  (0 <= beta)%Qc ->
  (forall j k, j0 <= j <= j1 -> k0 <= k <= k1 -> (w (i0 - 1)%Z j k * w i0 j k <= w i0 j k * w i0 j k /\ w (i1 + 1)%Z j k * w i1 j k <= w i1 j k * w i1 j k)%Qc) ->
  (forall i k, i0 <= i <= i1 -> k0 <= k <= k1 -> (w i (j0 - 1)%Z k * w i j0 k <= w i j0 k * w i j0 k /\ w i (j1 + 1)%Z k * w i j1 k <= w i j1 k * w i j1 k)%Qc) ->
  (forall i j, i0 <= i <= i1 -> j0 <= j <= j1 -> (w i j (k0 - 1)%Z * w i j k0 <= w i j k0 * w i j k0 /\ w i j (k1 + 1)%Z * w i j k1 <= w i j k1 * w i j k1)%Qc) ->
  (0 <= (total3 i0 j0 k0 i1 j1 k1 (fun i j k => r i j k * w i j k))%T)%Qc.
Proof.
  intros Bi Bj Bk Hg Hr A0 A1 A2 A3 E R0 R1 Hb G0 G1 G2.
  rewrite (weak_poisson_3d QcS_laws i0 j0 k0 i1 j1 k1 dx beta gcw u f0 f1 f2 rgcw res m mo r w w Bi Bj Bk Hg Hr A0 A1 A2 A3 E R0 R1). clear Hg Hr A0 A1 A2 A3 E R0 R1.
  apply Qc_mul; [exact Hb|]. { apply Qc_add. { apply Qc_add. { apply total2_nonneg; intros j k Ij Ik; destruct (G0 j k Ij Ik) as (Gl & Gh); apply line_nonneg; [assumption | intros ? ?; vm_compute; discriminate | exact Gl | exact Gh]. } { apply total2_nonneg; intros i k Ii Ik; destruct (G1 i k Ii Ik) as (Gl & Gh); apply line_nonneg; [assumption | intros ? ?; vm_compute; discriminate | exact Gl | exact Gh]. } } { apply total2_nonneg; intros i j Ii Ij; destruct (G2 i j Ii Ij) as (Gl & Gh); apply line_nonneg; [assumption | intros ? ?; vm_compute; discriminate | exact Gl | exact Gh]. } }
Qed.
