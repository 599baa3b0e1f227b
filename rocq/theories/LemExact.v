(** * The operator on polynomials *)

From Coq Require Import Field.
From Verif Require Import Base ModelBounds ModelMatrix ModelIters ModelSpan ModelProxy Spec SpecAssign FortranBase SpecKernel
  Instances LemField KernelsFlux KernelsApply LemOperator SpecPoly LemPoly.
Import ListNotations.
Open Scope Z_scope.

Section Exact.
  Context {S : Scalar} (L : field_laws S).
  Add Field SF : (s_field S L) (morphism (lit_morph S L), constants [lit_cst]).

  Lemma exact_const_v1_1d i0 i1 dx beta b0 gcw u f0 alpha agcw a rgcw res o q kappa (m mo : mem S) r c :
  i0 <= i1 + 1 -> dx 0 <> lit 0 -> 0 <= gcw -> 0 <= rgcw ->
  apart f0 [b0; a; u] -> apart res [f0; a; u] ->
  (m' <- cdf_1d_flux i0 i1 dx b0 gcw u f0 m ;;
   cd_apply_1d_diffusion_v1_apply i0 i1 alpha beta dx agcw a gcw u f0 rgcw res m') = Some mo ->
  (forall i, i0 <= i <= i1 -> ((mkFa res (CELL1d i0 i1 rgcw))!(i))%F mo = Some (r i)) ->
  (forall i, i0 - 1 <= i <= i1 + 1 -> ((mkFa u (CELL1d i0 i1 gcw))!(i))%F m = Some (cubic q (centre (o 0) (dx 0) i))) ->
  (forall i, i0 <= i <= i1 -> ((mkFa a (CELL1d i0 i1 agcw))!(i))%F m = Some (c i)) ->
  (forall i, i0 <= i <= i1 + 1 -> ((mkFa b0 (FACE1d i0 i1 0))!(i))%F m = Some (kappa)%T) ->
  forall i, i0 <= i <= i1 ->
  let x := centre (o 0) (dx 0) i in
  r i = (- beta * (kappa * (cubic_dd q x)) + alpha * (c i * cubic q x))%T.
  Proof.
    intros Bi N0 Hg Hr A0 A1 E R0 R1 R2 R3 i Ii x.
    pose proof (op_v1_1d L i0 i1 dx beta b0 gcw u f0 alpha agcw a rgcw res m mo r (fun i => cubic q (centre (o 0) (dx 0) i)) c (fun i => (kappa)%T) Bi Hg Hr A0 A1 E R0 R1 R2 R3 i Ii) as V. cbv beta in V. rewrite V. clear V A0 A1 E R0 R1 R2 R3.
    pose proof (grid_dv L (o 0) (dx 0) i (fun _ => kappa) (cubic q)) as P0. rewrite (dv_cubic L (dx 0) kappa q (centre (o 0) (dx 0) i) N0) in P0. cbv beta in P0. rewrite P0. clear P0.
    subst x. ring.
  Qed.

  Lemma exact_const_v2_1d i0 i1 dx beta b0 gcw u f0 alpha rgcw res o q kappa (m mo : mem S) r :
  i0 <= i1 + 1 -> dx 0 <> lit 0 -> 0 <= gcw -> 0 <= rgcw ->
  apart f0 [b0; u] -> apart res [f0; u] ->
  (m' <- cdf_1d_flux i0 i1 dx b0 gcw u f0 m ;;
   cd_apply_1d_diffusion_v2_apply i0 i1 alpha beta dx gcw u f0 rgcw res m') = Some mo ->
  (forall i, i0 <= i <= i1 -> ((mkFa res (CELL1d i0 i1 rgcw))!(i))%F mo = Some (r i)) ->
  (forall i, i0 - 1 <= i <= i1 + 1 -> ((mkFa u (CELL1d i0 i1 gcw))!(i))%F m = Some (cubic q (centre (o 0) (dx 0) i))) ->
  (forall i, i0 <= i <= i1 + 1 -> ((mkFa b0 (FACE1d i0 i1 0))!(i))%F m = Some (kappa)%T) ->
  forall i, i0 <= i <= i1 ->
  let x := centre (o 0) (dx 0) i in
  r i = (- beta * (kappa * (cubic_dd q x)) + alpha * cubic q x)%T.
  Proof.
    intros Bi N0 Hg Hr A0 A1 E R0 R1 R2 i Ii x.
    pose proof (op_v2_1d L i0 i1 dx beta b0 gcw u f0 alpha rgcw res m mo r (fun i => cubic q (centre (o 0) (dx 0) i)) (fun i => (kappa)%T) Bi Hg Hr A0 A1 E R0 R1 R2 i Ii) as V. cbv beta in V. rewrite V. clear V A0 A1 E R0 R1 R2.
    pose proof (grid_dv L (o 0) (dx 0) i (fun _ => kappa) (cubic q)) as P0. rewrite (dv_cubic L (dx 0) kappa q (centre (o 0) (dx 0) i) N0) in P0. cbv beta in P0. rewrite P0. clear P0.
    subst x. ring.
  Qed.

  Lemma exact_const_poisson_1d i0 i1 dx beta gcw u f0 rgcw res o q (m mo : mem S) r :
  i0 <= i1 + 1 -> dx 0 <> lit 0 -> 0 <= gcw -> 0 <= rgcw ->
  apart f0 [u] -> apart res [f0; u] ->
  (m' <- cdf_1d_poisson_flux i0 i1 dx gcw u f0 m ;;
   cd_apply_1d_poisson_v2_apply i0 i1 beta dx f0 rgcw res m') = Some mo ->
  (forall i, i0 <= i <= i1 -> ((mkFa res (CELL1d i0 i1 rgcw))!(i))%F mo = Some (r i)) ->
  (forall i, i0 - 1 <= i <= i1 + 1 -> ((mkFa u (CELL1d i0 i1 gcw))!(i))%F m = Some (cubic q (centre (o 0) (dx 0) i))) ->
  forall i, i0 <= i <= i1 ->
  let x := centre (o 0) (dx 0) i in
  r i = (- beta * ((cubic_dd q x)))%T.
  Proof.
    intros Bi N0 Hg Hr A0 A1 E R0 R1 i Ii x.
    pose proof (op_poisson_1d L i0 i1 dx beta gcw u f0 rgcw res m mo r (fun i => cubic q (centre (o 0) (dx 0) i))  Bi Hg Hr A0 A1 E R0 R1 i Ii) as V. cbv beta in V. rewrite V. clear V A0 A1 E R0 R1.
    pose proof (grid_dv1 L (o 0) (dx 0) i (cubic q)) as P0. rewrite (dv_cubic L (dx 0) (lit 1) q (centre (o 0) (dx 0) i) N0) in P0. cbv beta in P0. rewrite P0. clear P0.
    subst x. ring.
  Qed.

  Lemma exact_const_v1_2d i0 j0 i1 j1 dx beta b0 b1 gcw u f0 f1 alpha agcw a rgcw res o q kappa (m mo : mem S) r c :
  i0 <= i1 + 1 -> j0 <= j1 + 1 -> dx 0 <> lit 0 -> dx 1 <> lit 0 -> 0 <= gcw -> 0 <= rgcw ->
  apart f0 [f1; b0; b1; a; u] -> apart f1 [b0; b1; a; u] -> apart res [f0; f1; a; u] ->
  (m' <- cdf_2d_flux i0 j0 i1 j1 dx b0 b1 gcw u f0 f1 m ;;
   cd_apply_2d_diffusion_v1_apply i0 i1 j0 j1 alpha beta dx agcw a gcw u f0 f1 rgcw res m') = Some mo ->
  (forall i j, i0 <= i <= i1 -> j0 <= j <= j1 -> ((mkFa res (CELL2d i0 j0 i1 j1 rgcw))!(i, j))%F mo = Some (r i j)) ->
  (forall i j, i0 - 1 <= i <= i1 + 1 -> j0 - 1 <= j <= j1 + 1 -> ((mkFa u (CELL2d i0 j0 i1 j1 gcw))!(i, j))%F m = Some (cubic2 q (centre (o 0) (dx 0) i) (centre (o 1) (dx 1) j))) ->
  (forall i j, i0 <= i <= i1 -> j0 <= j <= j1 -> ((mkFa a (CELL2d i0 j0 i1 j1 agcw))!(i, j))%F m = Some (c i j)) ->
  (forall i j, i0 <= i <= i1 + 1 -> j0 <= j <= j1 -> ((mkFa b0 (FACE2d0 i0 j0 i1 j1 0))!(i, j))%F m = Some (kappa)%T) ->
  (forall i j, i0 <= i <= i1 -> j0 <= j <= j1 + 1 -> ((mkFa b1 (FACE2d1 i0 j0 i1 j1 0))!(j, i))%F m = Some (kappa)%T) ->
  forall i j, i0 <= i <= i1 -> j0 <= j <= j1 ->
  let x := centre (o 0) (dx 0) i in
  let y := centre (o 1) (dx 1) j in
  r i j = (- beta * (kappa * (cubic2_xx q x y + cubic2_yy q x y)) + alpha * (c i j * cubic2 q x y))%T.
  Proof.
    intros Bi Bj N0 N1 Hg Hr A0 A1 A2 E R0 R1 R2 R3 R4 i j Ii Ij x y.
    pose proof (op_v1_2d L i0 j0 i1 j1 dx beta b0 b1 gcw u f0 f1 alpha agcw a rgcw res m mo r (fun i j => cubic2 q (centre (o 0) (dx 0) i) (centre (o 1) (dx 1) j)) c (fun i j => (kappa)%T) (fun i j => (kappa)%T) Bi Bj Hg Hr A0 A1 A2 E R0 R1 R2 R3 R4 i j Ii Ij) as V. cbv beta in V. rewrite V. clear V A0 A1 A2 E R0 R1 R2 R3 R4.
    pose proof (grid_dv L (o 0) (dx 0) i (fun _ => kappa) (fun t => cubic2 q t (centre (o 1) (dx 1) j))) as P0. rewrite (dv_cubic2_0 L (dx 0) kappa q (centre (o 0) (dx 0) i) (centre (o 1) (dx 1) j) N0) in P0. cbv beta in P0. rewrite P0. clear P0.
    pose proof (grid_dv L (o 1) (dx 1) j (fun _ => kappa) (fun t => cubic2 q (centre (o 0) (dx 0) i) t)) as P1. rewrite (dv_cubic2_1 L (dx 1) kappa q (centre (o 0) (dx 0) i) (centre (o 1) (dx 1) j) N1) in P1. cbv beta in P1. rewrite P1. clear P1.
    subst x y. ring.
  Qed.

  Lemma exact_const_v2_2d i0 j0 i1 j1 dx beta b0 b1 gcw u f0 f1 alpha rgcw res o q kappa (m mo : mem S) r :
  i0 <= i1 + 1 -> j0 <= j1 + 1 -> dx 0 <> lit 0 -> dx 1 <> lit 0 -> 0 <= gcw -> 0 <= rgcw ->
  apart f0 [f1; b0; b1; u] -> apart f1 [b0; b1; u] -> apart res [f0; f1; u] ->
  (m' <- cdf_2d_flux i0 j0 i1 j1 dx b0 b1 gcw u f0 f1 m ;;
   cd_apply_2d_diffusion_v2_apply i0 i1 j0 j1 alpha beta dx gcw u f0 f1 rgcw res m') = Some mo ->
  (forall i j, i0 <= i <= i1 -> j0 <= j <= j1 -> ((mkFa res (CELL2d i0 j0 i1 j1 rgcw))!(i, j))%F mo = Some (r i j)) ->
  (forall i j, i0 - 1 <= i <= i1 + 1 -> j0 - 1 <= j <= j1 + 1 -> ((mkFa u (CELL2d i0 j0 i1 j1 gcw))!(i, j))%F m = Some (cubic2 q (centre (o 0) (dx 0) i) (centre (o 1) (dx 1) j))) ->
  (forall i j, i0 <= i <= i1 + 1 -> j0 <= j <= j1 -> ((mkFa b0 (FACE2d0 i0 j0 i1 j1 0))!(i, j))%F m = Some (kappa)%T) ->
  (forall i j, i0 <= i <= i1 -> j0 <= j <= j1 + 1 -> ((mkFa b1 (FACE2d1 i0 j0 i1 j1 0))!(j, i))%F m = Some (kappa)%T) ->
  forall i j, i0 <= i <= i1 -> j0 <= j <= j1 ->
  let x := centre (o 0) (dx 0) i in
  let y := centre (o 1) (dx 1) j in
  r i j = (- beta * (kappa * (cubic2_xx q x y + cubic2_yy q x y)) + alpha * cubic2 q x y)%T.
  Proof.
    intros Bi Bj N0 N1 Hg Hr A0 A1 A2 E R0 R1 R2 R3 i j Ii Ij x y.
    pose proof (op_v2_2d L i0 j0 i1 j1 dx beta b0 b1 gcw u f0 f1 alpha rgcw res m mo r (fun i j => cubic2 q (centre (o 0) (dx 0) i) (centre (o 1) (dx 1) j)) (fun i j => (kappa)%T) (fun i j => (kappa)%T) Bi Bj Hg Hr A0 A1 A2 E R0 R1 R2 R3 i j Ii Ij) as V. cbv beta in V. rewrite V. clear V A0 A1 A2 E R0 R1 R2 R3.
    pose proof (grid_dv L (o 0) (dx 0) i (fun _ => kappa) (fun t => cubic2 q t (centre (o 1) (dx 1) j))) as P0. rewrite (dv_cubic2_0 L (dx 0) kappa q (centre (o 0) (dx 0) i) (centre (o 1) (dx 1) j) N0) in P0. cbv beta in P0. rewrite P0. clear P0.
    pose proof (grid_dv L (o 1) (dx 1) j (fun _ => kappa) (fun t => cubic2 q (centre (o 0) (dx 0) i) t)) as P1. rewrite (dv_cubic2_1 L (dx 1) kappa q (centre (o 0) (dx 0) i) (centre (o 1) (dx 1) j) N1) in P1. cbv beta in P1. rewrite P1. clear P1.
    subst x y. ring.
  Qed.

  Lemma exact_const_poisson_2d i0 j0 i1 j1 dx beta gcw u f0 f1 rgcw res o q (m mo : mem S) r :
  i0 <= i1 + 1 -> j0 <= j1 + 1 -> dx 0 <> lit 0 -> dx 1 <> lit 0 -> 0 <= gcw -> 0 <= rgcw ->
  apart f0 [f1; u] -> apart f1 [u] -> apart res [f0; f1; u] ->
  (m' <- cdf_2d_poisson_flux i0 j0 i1 j1 dx gcw u f0 f1 m ;;
   cd_apply_2d_poisson_v2_apply i0 i1 j0 j1 beta dx f0 f1 rgcw res m') = Some mo ->
  (forall i j, i0 <= i <= i1 -> j0 <= j <= j1 -> ((mkFa res (CELL2d i0 j0 i1 j1 rgcw))!(i, j))%F mo = Some (r i j)) ->
  (forall i j, i0 - 1 <= i <= i1 + 1 -> j0 - 1 <= j <= j1 + 1 -> ((mkFa u (CELL2d i0 j0 i1 j1 gcw))!(i, j))%F m = Some (cubic2 q (centre (o 0) (dx 0) i) (centre (o 1) (dx 1) j))) ->
  forall i j, i0 <= i <= i1 -> j0 <= j <= j1 ->
  let x := centre (o 0) (dx 0) i in
  let y := centre (o 1) (dx 1) j in
  r i j = (- beta * ((cubic2_xx q x y + cubic2_yy q x y)))%T.
  Proof.
    intros Bi Bj N0 N1 Hg Hr A0 A1 A2 E R0 R1 i j Ii Ij x y.
    pose proof (op_poisson_2d L i0 j0 i1 j1 dx beta gcw u f0 f1 rgcw res m mo r (fun i j => cubic2 q (centre (o 0) (dx 0) i) (centre (o 1) (dx 1) j))  Bi Bj Hg Hr A0 A1 A2 E R0 R1 i j Ii Ij) as V. cbv beta in V. rewrite V. clear V A0 A1 A2 E R0 R1.
    pose proof (grid_dv1 L (o 0) (dx 0) i (fun t => cubic2 q t (centre (o 1) (dx 1) j))) as P0. rewrite (dv_cubic2_0 L (dx 0) (lit 1) q (centre (o 0) (dx 0) i) (centre (o 1) (dx 1) j) N0) in P0. cbv beta in P0. rewrite P0. clear P0.
    pose proof (grid_dv1 L (o 1) (dx 1) j (fun t => cubic2 q (centre (o 0) (dx 0) i) t)) as P1. rewrite (dv_cubic2_1 L (dx 1) (lit 1) q (centre (o 0) (dx 0) i) (centre (o 1) (dx 1) j) N1) in P1. cbv beta in P1. rewrite P1. clear P1.
    subst x y. ring.
  Qed.

  Lemma exact_const_v1_3d i0 j0 k0 i1 j1 k1 dx beta b0 b1 b2 gcw u f0 f1 f2 alpha agcw a rgcw res o q kappa (m mo : mem S) r c :
  i0 <= i1 + 1 -> j0 <= j1 + 1 -> k0 <= k1 + 1 -> dx 0 <> lit 0 -> dx 1 <> lit 0 -> dx 2 <> lit 0 -> 0 <= gcw -> 0 <= rgcw ->
  apart f0 [f1; f2; b0; b1; b2; a; u] -> apart f1 [f2; b0; b1; b2; a; u] -> apart f2 [b0; b1; b2; a; u] -> apart res [f0; f1; f2; a; u] ->
  (m' <- cdf_3d_flux i0 j0 k0 i1 j1 k1 dx b0 b1 b2 gcw u f0 f1 f2 m ;;
   cd_apply_3d_diffusion_v1_apply i0 i1 j0 j1 k0 k1 alpha beta dx agcw a gcw u f0 f1 f2 rgcw res m') = Some mo ->
  (forall i j k, i0 <= i <= i1 -> j0 <= j <= j1 -> k0 <= k <= k1 -> ((mkFa res (CELL3d i0 j0 k0 i1 j1 k1 rgcw))!(i, j, k))%F mo = Some (r i j k)) ->
  (forall i j k, i0 - 1 <= i <= i1 + 1 -> j0 - 1 <= j <= j1 + 1 -> k0 - 1 <= k <= k1 + 1 -> ((mkFa u (CELL3d i0 j0 k0 i1 j1 k1 gcw))!(i, j, k))%F m = Some (cubic3 q (centre (o 0) (dx 0) i) (centre (o 1) (dx 1) j) (centre (o 2) (dx 2) k))) ->
  (forall i j k, i0 <= i <= i1 -> j0 <= j <= j1 -> k0 <= k <= k1 -> ((mkFa a (CELL3d i0 j0 k0 i1 j1 k1 agcw))!(i, j, k))%F m = Some (c i j k)) ->
  (forall i j k, i0 <= i <= i1 + 1 -> j0 <= j <= j1 -> k0 <= k <= k1 -> ((mkFa b0 (FACE3d0 i0 j0 k0 i1 j1 k1 0))!(i, j, k))%F m = Some (kappa)%T) ->
  (forall i j k, i0 <= i <= i1 -> j0 <= j <= j1 + 1 -> k0 <= k <= k1 -> ((mkFa b1 (FACE3d1 i0 j0 k0 i1 j1 k1 0))!(j, k, i))%F m = Some (kappa)%T) ->
  (forall i j k, i0 <= i <= i1 -> j0 <= j <= j1 -> k0 <= k <= k1 + 1 -> ((mkFa b2 (FACE3d2 i0 j0 k0 i1 j1 k1 0))!(k, i, j))%F m = Some (kappa)%T) ->
  forall i j k, i0 <= i <= i1 -> j0 <= j <= j1 -> k0 <= k <= k1 ->
  let x := centre (o 0) (dx 0) i in
  let y := centre (o 1) (dx 1) j in
  let z := centre (o 2) (dx 2) k in
  r i j k = (- beta * (kappa * (cubic3_xx q x y z + cubic3_yy q x y z + cubic3_zz q x y z)) + alpha * (c i j k * cubic3 q x y z))%T.
  Proof.
    intros Bi Bj Bk N0 N1 N2 Hg Hr A0 A1 A2 A3 E R0 R1 R2 R3 R4 R5 i j k Ii Ij Ik x y z.
    pose proof (op_v1_3d L i0 j0 k0 i1 j1 k1 dx beta b0 b1 b2 gcw u f0 f1 f2 alpha agcw a rgcw res m mo r (fun i j k => cubic3 q (centre (o 0) (dx 0) i) (centre (o 1) (dx 1) j) (centre (o 2) (dx 2) k)) c (fun i j k => (kappa)%T) (fun i j k => (kappa)%T) (fun i j k => (kappa)%T) Bi Bj Bk Hg Hr A0 A1 A2 A3 E R0 R1 R2 R3 R4 R5 i j k Ii Ij Ik) as V. cbv beta in V. rewrite V. clear V A0 A1 A2 A3 E R0 R1 R2 R3 R4 R5.
    pose proof (grid_dv L (o 0) (dx 0) i (fun _ => kappa) (fun t => cubic3 q t (centre (o 1) (dx 1) j) (centre (o 2) (dx 2) k))) as P0. rewrite (dv_cubic3_0 L (dx 0) kappa q (centre (o 0) (dx 0) i) (centre (o 1) (dx 1) j) (centre (o 2) (dx 2) k) N0) in P0. cbv beta in P0. rewrite P0. clear P0.
    pose proof (grid_dv L (o 1) (dx 1) j (fun _ => kappa) (fun t => cubic3 q (centre (o 0) (dx 0) i) t (centre (o 2) (dx 2) k))) as P1. rewrite (dv_cubic3_1 L (dx 1) kappa q (centre (o 0) (dx 0) i) (centre (o 1) (dx 1) j) (centre (o 2) (dx 2) k) N1) in P1. cbv beta in P1. rewrite P1. clear P1.
    pose proof (grid_dv L (o 2) (dx 2) k (fun _ => kappa) (fun t => cubic3 q (centre (o 0) (dx 0) i) (centre (o 1) (dx 1) j) t)) as P2. rewrite (dv_cubic3_2 L (dx 2) kappa q (centre (o 0) (dx 0) i) (centre (o 1) (dx 1) j) (centre (o 2) (dx 2) k) N2) in P2. cbv beta in P2. rewrite P2. clear P2.
    subst x y z. ring.
  Qed.

  Lemma exact_const_v2_3d i0 j0 k0 i1 j1 k1 dx beta b0 b1 b2 gcw u f0 f1 f2 alpha rgcw res o q kappa (m mo : mem S) r :
  i0 <= i1 + 1 -> j0 <= j1 + 1 -> k0 <= k1 + 1 -> dx 0 <> lit 0 -> dx 1 <> lit 0 -> dx 2 <> lit 0 -> 0 <= gcw -> 0 <= rgcw ->
  apart f0 [f1; f2; b0; b1; b2; u] -> apart f1 [f2; b0; b1; b2; u] -> apart f2 [b0; b1; b2; u] -> apart res [f0; f1; f2; u] ->
  (m' <- cdf_3d_flux i0 j0 k0 i1 j1 k1 dx b0 b1 b2 gcw u f0 f1 f2 m ;;
   cd_apply_3d_diffusion_v2_apply i0 i1 j0 j1 k0 k1 alpha beta dx gcw u f0 f1 f2 rgcw res m') = Some mo ->
  (forall i j k, i0 <= i <= i1 -> j0 <= j <= j1 -> k0 <= k <= k1 -> ((mkFa res (CELL3d i0 j0 k0 i1 j1 k1 rgcw))!(i, j, k))%F mo = Some (r i j k)) ->
  (forall i j k, i0 - 1 <= i <= i1 + 1 -> j0 - 1 <= j <= j1 + 1 -> k0 - 1 <= k <= k1 + 1 -> ((mkFa u (CELL3d i0 j0 k0 i1 j1 k1 gcw))!(i, j, k))%F m = Some (cubic3 q (centre (o 0) (dx 0) i) (centre (o 1) (dx 1) j) (centre (o 2) (dx 2) k))) ->
  (forall i j k, i0 <= i <= i1 + 1 -> j0 <= j <= j1 -> k0 <= k <= k1 -> ((mkFa b0 (FACE3d0 i0 j0 k0 i1 j1 k1 0))!(i, j, k))%F m = Some (kappa)%T) ->
  (forall i j k, i0 <= i <= i1 -> j0 <= j <= j1 + 1 -> k0 <= k <= k1 -> ((mkFa b1 (FACE3d1 i0 j0 k0 i1 j1 k1 0))!(j, k, i))%F m = Some (kappa)%T) ->
  (forall i j k, i0 <= i <= i1 -> j0 <= j <= j1 -> k0 <= k <= k1 + 1 -> ((mkFa b2 (FACE3d2 i0 j0 k0 i1 j1 k1 0))!(k, i, j))%F m = Some (kappa)%T) ->
  forall i j k, i0 <= i <= i1 -> j0 <= j <= j1 -> k0 <= k <= k1 ->
  let x := centre (o 0) (dx 0) i in
  let y := centre (o 1) (dx 1) j in
  let z := centre (o 2) (dx 2) k in
  r i j k = (- beta * (kappa * (cubic3_xx q x y z + cubic3_yy q x y z + cubic3_zz q x y z)) + alpha * cubic3 q x y z)%T.
  Proof.
    intros Bi Bj Bk N0 N1 N2 Hg Hr A0 A1 A2 A3 E R0 R1 R2 R3 R4 i j k Ii Ij Ik x y z.
    pose proof (op_v2_3d L i0 j0 k0 i1 j1 k1 dx beta b0 b1 b2 gcw u f0 f1 f2 alpha rgcw res m mo r (fun i j k => cubic3 q (centre (o 0) (dx 0) i) (centre (o 1) (dx 1) j) (centre (o 2) (dx 2) k)) (fun i j k => (kappa)%T) (fun i j k => (kappa)%T) (fun i j k => (kappa)%T) Bi Bj Bk Hg Hr A0 A1 A2 A3 E R0 R1 R2 R3 R4 i j k Ii Ij Ik) as V. cbv beta in V. rewrite V. clear V A0 A1 A2 A3 E R0 R1 R2 R3 R4.
    pose proof (grid_dv L (o 0) (dx 0) i (fun _ => kappa) (fun t => cubic3 q t (centre (o 1) (dx 1) j) (centre (o 2) (dx 2) k))) as P0. rewrite (dv_cubic3_0 L (dx 0) kappa q (centre (o 0) (dx 0) i) (centre (o 1) (dx 1) j) (centre (o 2) (dx 2) k) N0) in P0. cbv beta in P0. rewrite P0. clear P0.
    pose proof (grid_dv L (o 1) (dx 1) j (fun _ => kappa) (fun t => cubic3 q (centre (o 0) (dx 0) i) t (centre (o 2) (dx 2) k))) as P1. rewrite (dv_cubic3_1 L (dx 1) kappa q (centre (o 0) (dx 0) i) (centre (o 1) (dx 1) j) (centre (o 2) (dx 2) k) N1) in P1. cbv beta in P1. rewrite P1. clear P1.
    pose proof (grid_dv L (o 2) (dx 2) k (fun _ => kappa) (fun t => cubic3 q (centre (o 0) (dx 0) i) (centre (o 1) (dx 1) j) t)) as P2. rewrite (dv_cubic3_2 L (dx 2) kappa q (centre (o 0) (dx 0) i) (centre (o 1) (dx 1) j) (centre (o 2) (dx 2) k) N2) in P2. cbv beta in P2. rewrite P2. clear P2.
    subst x y z. ring.
  Qed.

  Lemma exact_const_poisson_3d i0 j0 k0 i1 j1 k1 dx beta gcw u f0 f1 f2 rgcw res o q (m mo : mem S) r :
  i0 <= i1 + 1 -> j0 <= j1 + 1 -> k0 <= k1 + 1 -> dx 0 <> lit 0 -> dx 1 <> lit 0 -> dx 2 <> lit 0 -> 0 <= gcw -> 0 <= rgcw ->
  apart f0 [f1; f2; u] -> apart f1 [f2; u] -> apart f2 [u] -> apart res [f0; f1; f2; u] ->
  (m' <- cdf_3d_poisson_flux i0 j0 k0 i1 j1 k1 dx gcw u f0 f1 f2 m ;;
   cd_apply_3d_poisson_v2_apply i0 i1 j0 j1 k0 k1 beta dx f0 f1 f2 rgcw res m') = Some mo ->
  (forall i j k, i0 <= i <= i1 -> j0 <= j <= j1 -> k0 <= k <= k1 -> ((mkFa res (CELL3d i0 j0 k0 i1 j1 k1 rgcw))!(i, j, k))%F mo = Some (r i j k)) ->
  (forall i j k, i0 - 1 <= i <= i1 + 1 -> j0 - 1 <= j <= j1 + 1 -> k0 - 1 <= k <= k1 + 1 -> ((mkFa u (CELL3d i0 j0 k0 i1 j1 k1 gcw))!(i, j, k))%F m = Some (cubic3 q (centre (o 0) (dx 0) i) (centre (o 1) (dx 1) j) (centre (o 2) (dx 2) k))) ->
  forall i j k, i0 <= i <= i1 -> j0 <= j <= j1 -> k0 <= k <= k1 ->
  let x := centre (o 0) (dx 0) i in
  let y := centre (o 1) (dx 1) j in
  let z := centre (o 2) (dx 2) k in
  r i j k = (- beta * ((cubic3_xx q x y z + cubic3_yy q x y z + cubic3_zz q x y z)))%T.
  Proof.
    intros Bi Bj Bk N0 N1 N2 Hg Hr A0 A1 A2 A3 E R0 R1 i j k Ii Ij Ik x y z.
    pose proof (op_poisson_3d L i0 j0 k0 i1 j1 k1 dx beta gcw u f0 f1 f2 rgcw res m mo r (fun i j k => cubic3 q (centre (o 0) (dx 0) i) (centre (o 1) (dx 1) j) (centre (o 2) (dx 2) k))  Bi Bj Bk Hg Hr A0 A1 A2 A3 E R0 R1 i j k Ii Ij Ik) as V. cbv beta in V. rewrite V. clear V A0 A1 A2 A3 E R0 R1.
    pose proof (grid_dv1 L (o 0) (dx 0) i (fun t => cubic3 q t (centre (o 1) (dx 1) j) (centre (o 2) (dx 2) k))) as P0. rewrite (dv_cubic3_0 L (dx 0) (lit 1) q (centre (o 0) (dx 0) i) (centre (o 1) (dx 1) j) (centre (o 2) (dx 2) k) N0) in P0. cbv beta in P0. rewrite P0. clear P0.
    pose proof (grid_dv1 L (o 1) (dx 1) j (fun t => cubic3 q (centre (o 0) (dx 0) i) t (centre (o 2) (dx 2) k))) as P1. rewrite (dv_cubic3_1 L (dx 1) (lit 1) q (centre (o 0) (dx 0) i) (centre (o 1) (dx 1) j) (centre (o 2) (dx 2) k) N1) in P1. cbv beta in P1. rewrite P1. clear P1.
    pose proof (grid_dv1 L (o 2) (dx 2) k (fun t => cubic3 q (centre (o 0) (dx 0) i) (centre (o 1) (dx 1) j) t)) as P2. rewrite (dv_cubic3_2 L (dx 2) (lit 1) q (centre (o 0) (dx 0) i) (centre (o 1) (dx 1) j) (centre (o 2) (dx 2) k) N2) in P2. cbv beta in P2. rewrite P2. clear P2.
    subst x y z. ring.
  Qed.

  Lemma exact_var_v1_1d i0 i1 dx beta b0 gcw u f0 alpha agcw a rgcw res o q e0 l0 (m mo : mem S) r c :
  i0 <= i1 + 1 -> dx 0 <> lit 0 -> 0 <= gcw -> 0 <= rgcw ->
  apart f0 [b0; a; u] -> apart res [f0; a; u] ->
  (m' <- cdf_1d_flux i0 i1 dx b0 gcw u f0 m ;;
   cd_apply_1d_diffusion_v1_apply i0 i1 alpha beta dx agcw a gcw u f0 rgcw res m') = Some mo ->
  (forall i, i0 <= i <= i1 -> ((mkFa res (CELL1d i0 i1 rgcw))!(i))%F mo = Some (r i)) ->
  (forall i, i0 - 1 <= i <= i1 + 1 -> ((mkFa u (CELL1d i0 i1 gcw))!(i))%F m = Some (quad q (centre (o 0) (dx 0) i))) ->
  (forall i, i0 <= i <= i1 -> ((mkFa a (CELL1d i0 i1 agcw))!(i))%F m = Some (c i)) ->
  (forall i, i0 <= i <= i1 + 1 -> ((mkFa b0 (FACE1d i0 i1 0))!(i))%F m = Some (e0 + l0 * faceat (o 0) (dx 0) i)%T) ->
  forall i, i0 <= i <= i1 ->
  let x := centre (o 0) (dx 0) i in
  r i = (- beta * ((l0 * quad_d q x + (e0 + l0 * x) * quad_dd q x)) + alpha * (c i * quad q x))%T.
  Proof.
    intros Bi N0 Hg Hr A0 A1 E R0 R1 R2 R3 i Ii x.
    pose proof (op_v1_1d L i0 i1 dx beta b0 gcw u f0 alpha agcw a rgcw res m mo r (fun i => quad q (centre (o 0) (dx 0) i)) c (fun i => (e0 + l0 * faceat (o 0) (dx 0) i)%T) Bi Hg Hr A0 A1 E R0 R1 R2 R3 i Ii) as V. cbv beta in V. rewrite V. clear V A0 A1 E R0 R1 R2 R3.
    pose proof (grid_dv L (o 0) (dx 0) i (fun t => e0 + l0 * t)%T (quad q)) as P0. rewrite (dv_quad L (dx 0) (e0) (l0) q (centre (o 0) (dx 0) i) N0) in P0. cbv beta in P0. rewrite P0. clear P0.
    subst x. ring.
  Qed.

  Lemma exact_var_v2_1d i0 i1 dx beta b0 gcw u f0 alpha rgcw res o q e0 l0 (m mo : mem S) r :
  i0 <= i1 + 1 -> dx 0 <> lit 0 -> 0 <= gcw -> 0 <= rgcw ->
  apart f0 [b0; u] -> apart res [f0; u] ->
  (m' <- cdf_1d_flux i0 i1 dx b0 gcw u f0 m ;;
   cd_apply_1d_diffusion_v2_apply i0 i1 alpha beta dx gcw u f0 rgcw res m') = Some mo ->
  (forall i, i0 <= i <= i1 -> ((mkFa res (CELL1d i0 i1 rgcw))!(i))%F mo = Some (r i)) ->
  (forall i, i0 - 1 <= i <= i1 + 1 -> ((mkFa u (CELL1d i0 i1 gcw))!(i))%F m = Some (quad q (centre (o 0) (dx 0) i))) ->
  (forall i, i0 <= i <= i1 + 1 -> ((mkFa b0 (FACE1d i0 i1 0))!(i))%F m = Some (e0 + l0 * faceat (o 0) (dx 0) i)%T) ->
  forall i, i0 <= i <= i1 ->
  let x := centre (o 0) (dx 0) i in
  r i = (- beta * ((l0 * quad_d q x + (e0 + l0 * x) * quad_dd q x)) + alpha * quad q x)%T.
  Proof.
    intros Bi N0 Hg Hr A0 A1 E R0 R1 R2 i Ii x.
    pose proof (op_v2_1d L i0 i1 dx beta b0 gcw u f0 alpha rgcw res m mo r (fun i => quad q (centre (o 0) (dx 0) i)) (fun i => (e0 + l0 * faceat (o 0) (dx 0) i)%T) Bi Hg Hr A0 A1 E R0 R1 R2 i Ii) as V. cbv beta in V. rewrite V. clear V A0 A1 E R0 R1 R2.
    pose proof (grid_dv L (o 0) (dx 0) i (fun t => e0 + l0 * t)%T (quad q)) as P0. rewrite (dv_quad L (dx 0) (e0) (l0) q (centre (o 0) (dx 0) i) N0) in P0. cbv beta in P0. rewrite P0. clear P0.
    subst x. ring.
  Qed.

  Lemma exact_var_v1_2d i0 j0 i1 j1 dx beta b0 b1 gcw u f0 f1 alpha agcw a rgcw res o q e0 l0 e1 l1 (m mo : mem S) r c :
  i0 <= i1 + 1 -> j0 <= j1 + 1 -> dx 0 <> lit 0 -> dx 1 <> lit 0 -> 0 <= gcw -> 0 <= rgcw ->
  apart f0 [f1; b0; b1; a; u] -> apart f1 [b0; b1; a; u] -> apart res [f0; f1; a; u] ->
  (m' <- cdf_2d_flux i0 j0 i1 j1 dx b0 b1 gcw u f0 f1 m ;;
   cd_apply_2d_diffusion_v1_apply i0 i1 j0 j1 alpha beta dx agcw a gcw u f0 f1 rgcw res m') = Some mo ->
  (forall i j, i0 <= i <= i1 -> j0 <= j <= j1 -> ((mkFa res (CELL2d i0 j0 i1 j1 rgcw))!(i, j))%F mo = Some (r i j)) ->
  (forall i j, i0 - 1 <= i <= i1 + 1 -> j0 - 1 <= j <= j1 + 1 -> ((mkFa u (CELL2d i0 j0 i1 j1 gcw))!(i, j))%F m = Some (quad2 q (centre (o 0) (dx 0) i) (centre (o 1) (dx 1) j))) ->
  (forall i j, i0 <= i <= i1 -> j0 <= j <= j1 -> ((mkFa a (CELL2d i0 j0 i1 j1 agcw))!(i, j))%F m = Some (c i j)) ->
  (forall i j, i0 <= i <= i1 + 1 -> j0 <= j <= j1 -> ((mkFa b0 (FACE2d0 i0 j0 i1 j1 0))!(i, j))%F m = Some (e0 (centre (o 1) (dx 1) j) + l0 (centre (o 1) (dx 1) j) * faceat (o 0) (dx 0) i)%T) ->
  (forall i j, i0 <= i <= i1 -> j0 <= j <= j1 + 1 -> ((mkFa b1 (FACE2d1 i0 j0 i1 j1 0))!(j, i))%F m = Some (e1 (centre (o 0) (dx 0) i) + l1 (centre (o 0) (dx 0) i) * faceat (o 1) (dx 1) j)%T) ->
  forall i j, i0 <= i <= i1 -> j0 <= j <= j1 ->
  let x := centre (o 0) (dx 0) i in
  let y := centre (o 1) (dx 1) j in
  r i j = (- beta * ((l0 y * quad2_x q x y + (e0 y + l0 y * x) * quad2_xx q x y) + (l1 x * quad2_y q x y + (e1 x + l1 x * y) * quad2_yy q x y)) + alpha * (c i j * quad2 q x y))%T.
  Proof.
    intros Bi Bj N0 N1 Hg Hr A0 A1 A2 E R0 R1 R2 R3 R4 i j Ii Ij x y.
    pose proof (op_v1_2d L i0 j0 i1 j1 dx beta b0 b1 gcw u f0 f1 alpha agcw a rgcw res m mo r (fun i j => quad2 q (centre (o 0) (dx 0) i) (centre (o 1) (dx 1) j)) c (fun i j => (e0 (centre (o 1) (dx 1) j) + l0 (centre (o 1) (dx 1) j) * faceat (o 0) (dx 0) i)%T) (fun i j => (e1 (centre (o 0) (dx 0) i) + l1 (centre (o 0) (dx 0) i) * faceat (o 1) (dx 1) j)%T) Bi Bj Hg Hr A0 A1 A2 E R0 R1 R2 R3 R4 i j Ii Ij) as V. cbv beta in V. rewrite V. clear V A0 A1 A2 E R0 R1 R2 R3 R4.
    pose proof (grid_dv L (o 0) (dx 0) i (fun t => e0 (centre (o 1) (dx 1) j) + l0 (centre (o 1) (dx 1) j) * t)%T (fun t => quad2 q t (centre (o 1) (dx 1) j))) as P0. rewrite (dv_quad2_0 L (dx 0) (e0 (centre (o 1) (dx 1) j)) (l0 (centre (o 1) (dx 1) j)) q (centre (o 0) (dx 0) i) (centre (o 1) (dx 1) j) N0) in P0. cbv beta in P0. rewrite P0. clear P0.
    pose proof (grid_dv L (o 1) (dx 1) j (fun t => e1 (centre (o 0) (dx 0) i) + l1 (centre (o 0) (dx 0) i) * t)%T (fun t => quad2 q (centre (o 0) (dx 0) i) t)) as P1. rewrite (dv_quad2_1 L (dx 1) (e1 (centre (o 0) (dx 0) i)) (l1 (centre (o 0) (dx 0) i)) q (centre (o 0) (dx 0) i) (centre (o 1) (dx 1) j) N1) in P1. cbv beta in P1. rewrite P1. clear P1.
    subst x y. ring.
  Qed.

  Lemma exact_var_v2_2d i0 j0 i1 j1 dx beta b0 b1 gcw u f0 f1 alpha rgcw res o q e0 l0 e1 l1 (m mo : mem S) r :
  i0 <= i1 + 1 -> j0 <= j1 + 1 -> dx 0 <> lit 0 -> dx 1 <> lit 0 -> 0 <= gcw -> 0 <= rgcw ->
  apart f0 [f1; b0; b1; u] -> apart f1 [b0; b1; u] -> apart res [f0; f1; u] ->
  (m' <- cdf_2d_flux i0 j0 i1 j1 dx b0 b1 gcw u f0 f1 m ;;
   cd_apply_2d_diffusion_v2_apply i0 i1 j0 j1 alpha beta dx gcw u f0 f1 rgcw res m') = Some mo ->
  (forall i j, i0 <= i <= i1 -> j0 <= j <= j1 -> ((mkFa res (CELL2d i0 j0 i1 j1 rgcw))!(i, j))%F mo = Some (r i j)) ->
  (forall i j, i0 - 1 <= i <= i1 + 1 -> j0 - 1 <= j <= j1 + 1 -> ((mkFa u (CELL2d i0 j0 i1 j1 gcw))!(i, j))%F m = Some (quad2 q (centre (o 0) (dx 0) i) (centre (o 1) (dx 1) j))) ->
  (forall i j, i0 <= i <= i1 + 1 -> j0 <= j <= j1 -> ((mkFa b0 (FACE2d0 i0 j0 i1 j1 0))!(i, j))%F m = Some (e0 (centre (o 1) (dx 1) j) + l0 (centre (o 1) (dx 1) j) * faceat (o 0) (dx 0) i)%T) ->
  (forall i j, i0 <= i <= i1 -> j0 <= j <= j1 + 1 -> ((mkFa b1 (FACE2d1 i0 j0 i1 j1 0))!(j, i))%F m = Some (e1 (centre (o 0) (dx 0) i) + l1 (centre (o 0) (dx 0) i) * faceat (o 1) (dx 1) j)%T) ->
  forall i j, i0 <= i <= i1 -> j0 <= j <= j1 ->
  let x := centre (o 0) (dx 0) i in
  let y := centre (o 1) (dx 1) j in
  r i j = (- beta * ((l0 y * quad2_x q x y + (e0 y + l0 y * x) * quad2_xx q x y) + (l1 x * quad2_y q x y + (e1 x + l1 x * y) * quad2_yy q x y)) + alpha * quad2 q x y)%T.
  Proof.
    intros Bi Bj N0 N1 Hg Hr A0 A1 A2 E R0 R1 R2 R3 i j Ii Ij x y.
    pose proof (op_v2_2d L i0 j0 i1 j1 dx beta b0 b1 gcw u f0 f1 alpha rgcw res m mo r (fun i j => quad2 q (centre (o 0) (dx 0) i) (centre (o 1) (dx 1) j)) (fun i j => (e0 (centre (o 1) (dx 1) j) + l0 (centre (o 1) (dx 1) j) * faceat (o 0) (dx 0) i)%T) (fun i j => (e1 (centre (o 0) (dx 0) i) + l1 (centre (o 0) (dx 0) i) * faceat (o 1) (dx 1) j)%T) Bi Bj Hg Hr A0 A1 A2 E R0 R1 R2 R3 i j Ii Ij) as V. cbv beta in V. rewrite V. clear V A0 A1 A2 E R0 R1 R2 R3.
    pose proof (grid_dv L (o 0) (dx 0) i (fun t => e0 (centre (o 1) (dx 1) j) + l0 (centre (o 1) (dx 1) j) * t)%T (fun t => quad2 q t (centre (o 1) (dx 1) j))) as P0. rewrite (dv_quad2_0 L (dx 0) (e0 (centre (o 1) (dx 1) j)) (l0 (centre (o 1) (dx 1) j)) q (centre (o 0) (dx 0) i) (centre (o 1) (dx 1) j) N0) in P0. cbv beta in P0. rewrite P0. clear P0.
    pose proof (grid_dv L (o 1) (dx 1) j (fun t => e1 (centre (o 0) (dx 0) i) + l1 (centre (o 0) (dx 0) i) * t)%T (fun t => quad2 q (centre (o 0) (dx 0) i) t)) as P1. rewrite (dv_quad2_1 L (dx 1) (e1 (centre (o 0) (dx 0) i)) (l1 (centre (o 0) (dx 0) i)) q (centre (o 0) (dx 0) i) (centre (o 1) (dx 1) j) N1) in P1. cbv beta in P1. rewrite P1. clear P1.
    subst x y. ring.
  Qed.

  Lemma exact_var_v1_3d i0 j0 k0 i1 j1 k1 dx beta b0 b1 b2 gcw u f0 f1 f2 alpha agcw a rgcw res o q e0 l0 e1 l1 e2 l2 (m mo : mem S) r c :
  i0 <= i1 + 1 -> j0 <= j1 + 1 -> k0 <= k1 + 1 -> dx 0 <> lit 0 -> dx 1 <> lit 0 -> dx 2 <> lit 0 -> 0 <= gcw -> 0 <= rgcw ->
  apart f0 [f1; f2; b0; b1; b2; a; u] -> apart f1 [f2; b0; b1; b2; a; u] -> apart f2 [b0; b1; b2; a; u] -> apart res [f0; f1; f2; a; u] ->
  (m' <- cdf_3d_flux i0 j0 k0 i1 j1 k1 dx b0 b1 b2 gcw u f0 f1 f2 m ;;
   cd_apply_3d_diffusion_v1_apply i0 i1 j0 j1 k0 k1 alpha beta dx agcw a gcw u f0 f1 f2 rgcw res m') = Some mo ->
  (forall i j k, i0 <= i <= i1 -> j0 <= j <= j1 -> k0 <= k <= k1 -> ((mkFa res (CELL3d i0 j0 k0 i1 j1 k1 rgcw))!(i, j, k))%F mo = Some (r i j k)) ->
  (forall i j k, i0 - 1 <= i <= i1 + 1 -> j0 - 1 <= j <= j1 + 1 -> k0 - 1 <= k <= k1 + 1 -> ((mkFa u (CELL3d i0 j0 k0 i1 j1 k1 gcw))!(i, j, k))%F m = Some (quad3 q (centre (o 0) (dx 0) i) (centre (o 1) (dx 1) j) (centre (o 2) (dx 2) k))) ->
  (forall i j k, i0 <= i <= i1 -> j0 <= j <= j1 -> k0 <= k <= k1 -> ((mkFa a (CELL3d i0 j0 k0 i1 j1 k1 agcw))!(i, j, k))%F m = Some (c i j k)) ->
  (forall i j k, i0 <= i <= i1 + 1 -> j0 <= j <= j1 -> k0 <= k <= k1 -> ((mkFa b0 (FACE3d0 i0 j0 k0 i1 j1 k1 0))!(i, j, k))%F m = Some (e0 (centre (o 1) (dx 1) j) (centre (o 2) (dx 2) k) + l0 (centre (o 1) (dx 1) j) (centre (o 2) (dx 2) k) * faceat (o 0) (dx 0) i)%T) ->
  (forall i j k, i0 <= i <= i1 -> j0 <= j <= j1 + 1 -> k0 <= k <= k1 -> ((mkFa b1 (FACE3d1 i0 j0 k0 i1 j1 k1 0))!(j, k, i))%F m = Some (e1 (centre (o 0) (dx 0) i) (centre (o 2) (dx 2) k) + l1 (centre (o 0) (dx 0) i) (centre (o 2) (dx 2) k) * faceat (o 1) (dx 1) j)%T) ->
  (forall i j k, i0 <= i <= i1 -> j0 <= j <= j1 -> k0 <= k <= k1 + 1 -> ((mkFa b2 (FACE3d2 i0 j0 k0 i1 j1 k1 0))!(k, i, j))%F m = Some (e2 (centre (o 0) (dx 0) i) (centre (o 1) (dx 1) j) + l2 (centre (o 0) (dx 0) i) (centre (o 1) (dx 1) j) * faceat (o 2) (dx 2) k)%T) ->
  forall i j k, i0 <= i <= i1 -> j0 <= j <= j1 -> k0 <= k <= k1 ->
  let x := centre (o 0) (dx 0) i in
  let y := centre (o 1) (dx 1) j in
  let z := centre (o 2) (dx 2) k in
  r i j k = (- beta * ((l0 y z * quad3_x q x y z + (e0 y z + l0 y z * x) * quad3_xx q x y z) + (l1 x z * quad3_y q x y z + (e1 x z + l1 x z * y) * quad3_yy q x y z) + (l2 x y * quad3_z q x y z + (e2 x y + l2 x y * z) * quad3_zz q x y z)) + alpha * (c i j k * quad3 q x y z))%T.
  Proof.
    intros Bi Bj Bk N0 N1 N2 Hg Hr A0 A1 A2 A3 E R0 R1 R2 R3 R4 R5 i j k Ii Ij Ik x y z.
    pose proof (op_v1_3d L i0 j0 k0 i1 j1 k1 dx beta b0 b1 b2 gcw u f0 f1 f2 alpha agcw a rgcw res m mo r (fun i j k => quad3 q (centre (o 0) (dx 0) i) (centre (o 1) (dx 1) j) (centre (o 2) (dx 2) k)) c (fun i j k => (e0 (centre (o 1) (dx 1) j) (centre (o 2) (dx 2) k) + l0 (centre (o 1) (dx 1) j) (centre (o 2) (dx 2) k) * faceat (o 0) (dx 0) i)%T) (fun i j k => (e1 (centre (o 0) (dx 0) i) (centre (o 2) (dx 2) k) + l1 (centre (o 0) (dx 0) i) (centre (o 2) (dx 2) k) * faceat (o 1) (dx 1) j)%T) (fun i j k => (e2 (centre (o 0) (dx 0) i) (centre (o 1) (dx 1) j) + l2 (centre (o 0) (dx 0) i) (centre (o 1) (dx 1) j) * faceat (o 2) (dx 2) k)%T) Bi Bj Bk Hg Hr A0 A1 A2 A3 E R0 R1 R2 R3 R4 R5 i j k Ii Ij Ik) as V. cbv beta in V. rewrite V. clear V A0 A1 A2 A3 E R0 R1 R2 R3 R4 R5.
    pose proof (grid_dv L (o 0) (dx 0) i (fun t => e0 (centre (o 1) (dx 1) j) (centre (o 2) (dx 2) k) + l0 (centre (o 1) (dx 1) j) (centre (o 2) (dx 2) k) * t)%T (fun t => quad3 q t (centre (o 1) (dx 1) j) (centre (o 2) (dx 2) k))) as P0. rewrite (dv_quad3_0 L (dx 0) (e0 (centre (o 1) (dx 1) j) (centre (o 2) (dx 2) k)) (l0 (centre (o 1) (dx 1) j) (centre (o 2) (dx 2) k)) q (centre (o 0) (dx 0) i) (centre (o 1) (dx 1) j) (centre (o 2) (dx 2) k) N0) in P0. cbv beta in P0. rewrite P0. clear P0.
    pose proof (grid_dv L (o 1) (dx 1) j (fun t => e1 (centre (o 0) (dx 0) i) (centre (o 2) (dx 2) k) + l1 (centre (o 0) (dx 0) i) (centre (o 2) (dx 2) k) * t)%T (fun t => quad3 q (centre (o 0) (dx 0) i) t (centre (o 2) (dx 2) k))) as P1. rewrite (dv_quad3_1 L (dx 1) (e1 (centre (o 0) (dx 0) i) (centre (o 2) (dx 2) k)) (l1 (centre (o 0) (dx 0) i) (centre (o 2) (dx 2) k)) q (centre (o 0) (dx 0) i) (centre (o 1) (dx 1) j) (centre (o 2) (dx 2) k) N1) in P1. cbv beta in P1. rewrite P1. clear P1.
    pose proof (grid_dv L (o 2) (dx 2) k (fun t => e2 (centre (o 0) (dx 0) i) (centre (o 1) (dx 1) j) + l2 (centre (o 0) (dx 0) i) (centre (o 1) (dx 1) j) * t)%T (fun t => quad3 q (centre (o 0) (dx 0) i) (centre (o 1) (dx 1) j) t)) as P2. rewrite (dv_quad3_2 L (dx 2) (e2 (centre (o 0) (dx 0) i) (centre (o 1) (dx 1) j)) (l2 (centre (o 0) (dx 0) i) (centre (o 1) (dx 1) j)) q (centre (o 0) (dx 0) i) (centre (o 1) (dx 1) j) (centre (o 2) (dx 2) k) N2) in P2. cbv beta in P2. rewrite P2. clear P2.
    subst x y z. ring.
  Qed.

  Lemma exact_var_v2_3d i0 j0 k0 i1 j1 k1 dx beta b0 b1 b2 gcw u f0 f1 f2 alpha rgcw res o q e0 l0 e1 l1 e2 l2 (m mo : mem S) r :
  i0 <= i1 + 1 -> j0 <= j1 + 1 -> k0 <= k1 + 1 -> dx 0 <> lit 0 -> dx 1 <> lit 0 -> dx 2 <> lit 0 -> 0 <= gcw -> 0 <= rgcw ->
  apart f0 [f1; f2; b0; b1; b2; u] -> apart f1 [f2; b0; b1; b2; u] -> apart f2 [b0; b1; b2; u] -> apart res [f0; f1; f2; u] ->
  (m' <- cdf_3d_flux i0 j0 k0 i1 j1 k1 dx b0 b1 b2 gcw u f0 f1 f2 m ;;
   cd_apply_3d_diffusion_v2_apply i0 i1 j0 j1 k0 k1 alpha beta dx gcw u f0 f1 f2 rgcw res m') = Some mo ->
  (forall i j k, i0 <= i <= i1 -> j0 <= j <= j1 -> k0 <= k <= k1 -> ((mkFa res (CELL3d i0 j0 k0 i1 j1 k1 rgcw))!(i, j, k))%F mo = Some (r i j k)) ->
  (forall i j k, i0 - 1 <= i <= i1 + 1 -> j0 - 1 <= j <= j1 + 1 -> k0 - 1 <= k <= k1 + 1 -> ((mkFa u (CELL3d i0 j0 k0 i1 j1 k1 gcw))!(i, j, k))%F m = Some (quad3 q (centre (o 0) (dx 0) i) (centre (o 1) (dx 1) j) (centre (o 2) (dx 2) k))) ->
  (forall i j k, i0 <= i <= i1 + 1 -> j0 <= j <= j1 -> k0 <= k <= k1 -> ((mkFa b0 (FACE3d0 i0 j0 k0 i1 j1 k1 0))!(i, j, k))%F m = Some (e0 (centre (o 1) (dx 1) j) (centre (o 2) (dx 2) k) + l0 (centre (o 1) (dx 1) j) (centre (o 2) (dx 2) k) * faceat (o 0) (dx 0) i)%T) ->
  (forall i j k, i0 <= i <= i1 -> j0 <= j <= j1 + 1 -> k0 <= k <= k1 -> ((mkFa b1 (FACE3d1 i0 j0 k0 i1 j1 k1 0))!(j, k, i))%F m = Some (e1 (centre (o 0) (dx 0) i) (centre (o 2) (dx 2) k) + l1 (centre (o 0) (dx 0) i) (centre (o 2) (dx 2) k) * faceat (o 1) (dx 1) j)%T) ->
  (forall i j k, i0 <= i <= i1 -> j0 <= j <= j1 -> k0 <= k <= k1 + 1 -> ((mkFa b2 (FACE3d2 i0 j0 k0 i1 j1 k1 0))!(k, i, j))%F m = Some (e2 (centre (o 0) (dx 0) i) (centre (o 1) (dx 1) j) + l2 (centre (o 0) (dx 0) i) (centre (o 1) (dx 1) j) * faceat (o 2) (dx 2) k)%T) ->
  forall i j k, i0 <= i <= i1 -> j0 <= j <= j1 -> k0 <= k <= k1 ->
  let x := centre (o 0) (dx 0) i in
  let y := centre (o 1) (dx 1) j in
  let z := centre (o 2) (dx 2) k in
  r i j k = (- beta * ((l0 y z * quad3_x q x y z + (e0 y z + l0 y z * x) * quad3_xx q x y z) + (l1 x z * quad3_y q x y z + (e1 x z + l1 x z * y) * quad3_yy q x y z) + (l2 x y * quad3_z q x y z + (e2 x y + l2 x y * z) * quad3_zz q x y z)) + alpha * quad3 q x y z)%T.
  Proof.
    intros Bi Bj Bk N0 N1 N2 Hg Hr A0 A1 A2 A3 E R0 R1 R2 R3 R4 i j k Ii Ij Ik x y z.
    pose proof (op_v2_3d L i0 j0 k0 i1 j1 k1 dx beta b0 b1 b2 gcw u f0 f1 f2 alpha rgcw res m mo r (fun i j k => quad3 q (centre (o 0) (dx 0) i) (centre (o 1) (dx 1) j) (centre (o 2) (dx 2) k)) (fun i j k => (e0 (centre (o 1) (dx 1) j) (centre (o 2) (dx 2) k) + l0 (centre (o 1) (dx 1) j) (centre (o 2) (dx 2) k) * faceat (o 0) (dx 0) i)%T) (fun i j k => (e1 (centre (o 0) (dx 0) i) (centre (o 2) (dx 2) k) + l1 (centre (o 0) (dx 0) i) (centre (o 2) (dx 2) k) * faceat (o 1) (dx 1) j)%T) (fun i j k => (e2 (centre (o 0) (dx 0) i) (centre (o 1) (dx 1) j) + l2 (centre (o 0) (dx 0) i) (centre (o 1) (dx 1) j) * faceat (o 2) (dx 2) k)%T) Bi Bj Bk Hg Hr A0 A1 A2 A3 E R0 R1 R2 R3 R4 i j k Ii Ij Ik) as V. cbv beta in V. rewrite V. clear V A0 A1 A2 A3 E R0 R1 R2 R3 R4.
    pose proof (grid_dv L (o 0) (dx 0) i (fun t => e0 (centre (o 1) (dx 1) j) (centre (o 2) (dx 2) k) + l0 (centre (o 1) (dx 1) j) (centre (o 2) (dx 2) k) * t)%T (fun t => quad3 q t (centre (o 1) (dx 1) j) (centre (o 2) (dx 2) k))) as P0. rewrite (dv_quad3_0 L (dx 0) (e0 (centre (o 1) (dx 1) j) (centre (o 2) (dx 2) k)) (l0 (centre (o 1) (dx 1) j) (centre (o 2) (dx 2) k)) q (centre (o 0) (dx 0) i) (centre (o 1) (dx 1) j) (centre (o 2) (dx 2) k) N0) in P0. cbv beta in P0. rewrite P0. clear P0.
    pose proof (grid_dv L (o 1) (dx 1) j (fun t => e1 (centre (o 0) (dx 0) i) (centre (o 2) (dx 2) k) + l1 (centre (o 0) (dx 0) i) (centre (o 2) (dx 2) k) * t)%T (fun t => quad3 q (centre (o 0) (dx 0) i) t (centre (o 2) (dx 2) k))) as P1. rewrite (dv_quad3_1 L (dx 1) (e1 (centre (o 0) (dx 0) i) (centre (o 2) (dx 2) k)) (l1 (centre (o 0) (dx 0) i) (centre (o 2) (dx 2) k)) q (centre (o 0) (dx 0) i) (centre (o 1) (dx 1) j) (centre (o 2) (dx 2) k) N1) in P1. cbv beta in P1. rewrite P1. clear P1.
    pose proof (grid_dv L (o 2) (dx 2) k (fun t => e2 (centre (o 0) (dx 0) i) (centre (o 1) (dx 1) j) + l2 (centre (o 0) (dx 0) i) (centre (o 1) (dx 1) j) * t)%T (fun t => quad3 q (centre (o 0) (dx 0) i) (centre (o 1) (dx 1) j) t)) as P2. rewrite (dv_quad3_2 L (dx 2) (e2 (centre (o 0) (dx 0) i) (centre (o 1) (dx 1) j)) (l2 (centre (o 0) (dx 0) i) (centre (o 1) (dx 1) j)) q (centre (o 0) (dx 0) i) (centre (o 1) (dx 1) j) (centre (o 2) (dx 2) k) N2) in P2. cbv beta in P2. rewrite P2. clear P2.
    subst x y z. ring.
  Qed.

End Exact.
