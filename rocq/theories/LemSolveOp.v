(** * Linearity, comparison and solvability of the operator *)

From Coq Require Import Field QArith Qcanon.
From Verif Require Import Base ModelBounds ModelMatrix ModelIters ModelSpan ModelProxy Spec SpecAssign FortranBase SpecKernel
  Instances LemField KernelsFlux KernelsApply LemEnergy LemOperator SpecSolve LemSolve.
Import ListNotations.
Open Scope Z_scope.

Ltac k_near := unfold patch1, patch2, patch3, near1, near2, near3 in *; lia.

Section Linear.
  Context {S : Scalar} (L : field_laws S).
  Add Field SF : (s_field S L) (morphism (lit_morph S L), constants [lit_cst]).

  Lemma val_v1_1d i0 i1 dx beta b0 gcw u f0 alpha agcw a rgcw res (m : mem S) (r w c v0 : Z -> S) :
  applied_v1_1d i0 i1 dx beta b0 gcw u f0 alpha agcw a rgcw res m r w c v0 -> forall i, patch1 i0 i1 i ->
  r i = (- beta * ((v0 (i + 1)%Z * ((w (i + 1)%Z - w i) / dx 0) - v0 i * ((w i - w (i - 1)%Z) / dx 0)) / dx 0) + alpha * (c i * w i))%T.
  Proof.
    intros (Hg & Hr & A0 & A1 & mo & E & R0 & R1 & R2 & R3) i Ip.
    apply (op_v1_1d L i0 i1 dx beta b0 gcw u f0 alpha agcw a rgcw res m mo r w c v0 ltac:(k_near) Hg Hr A0 A1 E R0 R1 R2 R3); k_near.
  Qed.

  Lemma linear_v1_1d i0 i1 dx beta b0 gcw u f0 alpha agcw a rgcw res (m1 m2 m3 : mem S) (r1 w1 r2 w2 r3 w3 c v0 : Z -> S) x y :
  applied_v1_1d i0 i1 dx beta b0 gcw u f0 alpha agcw a rgcw res m1 r1 w1 c v0 ->
  applied_v1_1d i0 i1 dx beta b0 gcw u f0 alpha agcw a rgcw res m2 r2 w2 c v0 ->
  applied_v1_1d i0 i1 dx beta b0 gcw u f0 alpha agcw a rgcw res m3 r3 w3 c v0 ->
  (forall i, near1 i0 i1 i -> w3 i = (x * w1 i + y * w2 i)%T) ->
  forall i, patch1 i0 i1 i -> r3 i = (x * r1 i + y * r2 i)%T.
  Proof.
    intros H1 H2 H3 W i Ip.
    rewrite (val_v1_1d _ _ _ _ _ _ _ _ _ _ _ _ _ _ _ _ _ _ H1 i Ip).
    rewrite (val_v1_1d _ _ _ _ _ _ _ _ _ _ _ _ _ _ _ _ _ _ H2 i Ip).
    rewrite (val_v1_1d _ _ _ _ _ _ _ _ _ _ _ _ _ _ _ _ _ _ H3 i Ip).
    rewrite (W i ltac:(k_near)). rewrite (W (i + 1)%Z ltac:(k_near)). rewrite (W (i - 1)%Z ltac:(k_near)).
    destruct (inverse L (dx 0)) as (y0 & D0); rewrite !D0. ring.
  Qed.

  Lemma val_v2_1d i0 i1 dx beta b0 gcw u f0 alpha rgcw res (m : mem S) (r w v0 : Z -> S) :
  applied_v2_1d i0 i1 dx beta b0 gcw u f0 alpha rgcw res m r w v0 -> forall i, patch1 i0 i1 i ->
  r i = (- beta * ((v0 (i + 1)%Z * ((w (i + 1)%Z - w i) / dx 0) - v0 i * ((w i - w (i - 1)%Z) / dx 0)) / dx 0) + alpha * w i)%T.
  Proof.
    intros (Hg & Hr & A0 & A1 & mo & E & R0 & R1 & R2) i Ip.
    apply (op_v2_1d L i0 i1 dx beta b0 gcw u f0 alpha rgcw res m mo r w v0 ltac:(k_near) Hg Hr A0 A1 E R0 R1 R2); k_near.
  Qed.

  Lemma linear_v2_1d i0 i1 dx beta b0 gcw u f0 alpha rgcw res (m1 m2 m3 : mem S) (r1 w1 r2 w2 r3 w3 v0 : Z -> S) x y :
  applied_v2_1d i0 i1 dx beta b0 gcw u f0 alpha rgcw res m1 r1 w1 v0 ->
  applied_v2_1d i0 i1 dx beta b0 gcw u f0 alpha rgcw res m2 r2 w2 v0 ->
  applied_v2_1d i0 i1 dx beta b0 gcw u f0 alpha rgcw res m3 r3 w3 v0 ->
  (forall i, near1 i0 i1 i -> w3 i = (x * w1 i + y * w2 i)%T) ->
  forall i, patch1 i0 i1 i -> r3 i = (x * r1 i + y * r2 i)%T.
  Proof.
    intros H1 H2 H3 W i Ip.
    rewrite (val_v2_1d _ _ _ _ _ _ _ _ _ _ _ _ _ _ _ H1 i Ip).
    rewrite (val_v2_1d _ _ _ _ _ _ _ _ _ _ _ _ _ _ _ H2 i Ip).
    rewrite (val_v2_1d _ _ _ _ _ _ _ _ _ _ _ _ _ _ _ H3 i Ip).
    rewrite (W i ltac:(k_near)). rewrite (W (i + 1)%Z ltac:(k_near)). rewrite (W (i - 1)%Z ltac:(k_near)).
    destruct (inverse L (dx 0)) as (y0 & D0); rewrite !D0. ring.
  Qed.

  Lemma val_poisson_1d i0 i1 dx beta gcw u f0 rgcw res (m : mem S) (r w : Z -> S) :
  applied_poisson_1d i0 i1 dx beta gcw u f0 rgcw res m r w -> forall i, patch1 i0 i1 i ->
  r i = (- beta * (((w (i + 1)%Z - w i) / dx 0 - (w i - w (i - 1)%Z) / dx 0) / dx 0))%T.
  Proof.
    intros (Hg & Hr & A0 & A1 & mo & E & R0 & R1) i Ip.
    apply (op_poisson_1d L i0 i1 dx beta gcw u f0 rgcw res m mo r w ltac:(k_near) Hg Hr A0 A1 E R0 R1); k_near.
  Qed.

  Lemma linear_poisson_1d i0 i1 dx beta gcw u f0 rgcw res (m1 m2 m3 : mem S) (r1 w1 r2 w2 r3 w3 : Z -> S) x y :
  applied_poisson_1d i0 i1 dx beta gcw u f0 rgcw res m1 r1 w1 ->
  applied_poisson_1d i0 i1 dx beta gcw u f0 rgcw res m2 r2 w2 ->
  applied_poisson_1d i0 i1 dx beta gcw u f0 rgcw res m3 r3 w3 ->
  (forall i, near1 i0 i1 i -> w3 i = (x * w1 i + y * w2 i)%T) ->
  forall i, patch1 i0 i1 i -> r3 i = (x * r1 i + y * r2 i)%T.
  Proof.
    intros H1 H2 H3 W i Ip.
    rewrite (val_poisson_1d _ _ _ _ _ _ _ _ _ _ _ _  H1 i Ip).
    rewrite (val_poisson_1d _ _ _ _ _ _ _ _ _ _ _ _  H2 i Ip).
    rewrite (val_poisson_1d _ _ _ _ _ _ _ _ _ _ _ _  H3 i Ip).
    rewrite (W i ltac:(k_near)). rewrite (W (i + 1)%Z ltac:(k_near)). rewrite (W (i - 1)%Z ltac:(k_near)).
    destruct (inverse L (dx 0)) as (y0 & D0); rewrite !D0. ring.
  Qed.

  Lemma val_v1_2d i0 j0 i1 j1 dx beta b0 b1 gcw u f0 f1 alpha agcw a rgcw res (m : mem S) (r w c v0 v1 : Z -> Z -> S) :
  applied_v1_2d i0 j0 i1 j1 dx beta b0 b1 gcw u f0 f1 alpha agcw a rgcw res m r w c v0 v1 -> forall i j, patch2 i0 j0 i1 j1 i j ->
  r i j = (- beta * ((v0 (i + 1)%Z j * ((w (i + 1)%Z j - w i j) / dx 0) - v0 i j * ((w i j - w (i - 1)%Z j) / dx 0)) / dx 0 + (v1 i (j + 1)%Z * ((w i (j + 1)%Z - w i j) / dx 1) - v1 i j * ((w i j - w i (j - 1)%Z) / dx 1)) / dx 1) + alpha * (c i j * w i j))%T.
  Proof.
    intros (Hg & Hr & A0 & A1 & A2 & mo & E & R0 & R1 & R2 & R3 & R4) i j Ip.
    apply (op_v1_2d L i0 j0 i1 j1 dx beta b0 b1 gcw u f0 f1 alpha agcw a rgcw res m mo r w c v0 v1 ltac:(k_near) ltac:(k_near) Hg Hr A0 A1 A2 E R0 R1 R2 R3 R4); k_near.
  Qed.

  Lemma linear_v1_2d i0 j0 i1 j1 dx beta b0 b1 gcw u f0 f1 alpha agcw a rgcw res (m1 m2 m3 : mem S) (r1 w1 r2 w2 r3 w3 c v0 v1 : Z -> Z -> S) x y :
  applied_v1_2d i0 j0 i1 j1 dx beta b0 b1 gcw u f0 f1 alpha agcw a rgcw res m1 r1 w1 c v0 v1 ->
  applied_v1_2d i0 j0 i1 j1 dx beta b0 b1 gcw u f0 f1 alpha agcw a rgcw res m2 r2 w2 c v0 v1 ->
  applied_v1_2d i0 j0 i1 j1 dx beta b0 b1 gcw u f0 f1 alpha agcw a rgcw res m3 r3 w3 c v0 v1 ->
  (forall i j, near2 i0 j0 i1 j1 i j -> w3 i j = (x * w1 i j + y * w2 i j)%T) ->
  forall i j, patch2 i0 j0 i1 j1 i j -> r3 i j = (x * r1 i j + y * r2 i j)%T.
  Proof.
    intros H1 H2 H3 W i j Ip.
    rewrite (val_v1_2d _ _ _ _ _ _ _ _ _ _ _ _ _ _ _ _ _ _ _ _ _ _ _ H1 i j Ip).
    rewrite (val_v1_2d _ _ _ _ _ _ _ _ _ _ _ _ _ _ _ _ _ _ _ _ _ _ _ H2 i j Ip).
    rewrite (val_v1_2d _ _ _ _ _ _ _ _ _ _ _ _ _ _ _ _ _ _ _ _ _ _ _ H3 i j Ip).
    rewrite (W i j ltac:(k_near)). rewrite (W (i + 1)%Z j ltac:(k_near)). rewrite (W (i - 1)%Z j ltac:(k_near)). rewrite (W i (j + 1)%Z ltac:(k_near)). rewrite (W i (j - 1)%Z ltac:(k_near)).
    destruct (inverse L (dx 0)) as (y0 & D0); rewrite !D0. destruct (inverse L (dx 1)) as (y1 & D1); rewrite !D1. ring.
  Qed.

  Lemma val_v2_2d i0 j0 i1 j1 dx beta b0 b1 gcw u f0 f1 alpha rgcw res (m : mem S) (r w v0 v1 : Z -> Z -> S) :
  applied_v2_2d i0 j0 i1 j1 dx beta b0 b1 gcw u f0 f1 alpha rgcw res m r w v0 v1 -> forall i j, patch2 i0 j0 i1 j1 i j ->
  r i j = (- beta * ((v0 (i + 1)%Z j * ((w (i + 1)%Z j - w i j) / dx 0) - v0 i j * ((w i j - w (i - 1)%Z j) / dx 0)) / dx 0 + (v1 i (j + 1)%Z * ((w i (j + 1)%Z - w i j) / dx 1) - v1 i j * ((w i j - w i (j - 1)%Z) / dx 1)) / dx 1) + alpha * w i j)%T.
  Proof.
    intros (Hg & Hr & A0 & A1 & A2 & mo & E & R0 & R1 & R2 & R3) i j Ip.
    apply (op_v2_2d L i0 j0 i1 j1 dx beta b0 b1 gcw u f0 f1 alpha rgcw res m mo r w v0 v1 ltac:(k_near) ltac:(k_near) Hg Hr A0 A1 A2 E R0 R1 R2 R3); k_near.
  Qed.

  Lemma linear_v2_2d i0 j0 i1 j1 dx beta b0 b1 gcw u f0 f1 alpha rgcw res (m1 m2 m3 : mem S) (r1 w1 r2 w2 r3 w3 v0 v1 : Z -> Z -> S) x y :
  applied_v2_2d i0 j0 i1 j1 dx beta b0 b1 gcw u f0 f1 alpha rgcw res m1 r1 w1 v0 v1 ->
  applied_v2_2d i0 j0 i1 j1 dx beta b0 b1 gcw u f0 f1 alpha rgcw res m2 r2 w2 v0 v1 ->
  applied_v2_2d i0 j0 i1 j1 dx beta b0 b1 gcw u f0 f1 alpha rgcw res m3 r3 w3 v0 v1 ->
  (forall i j, near2 i0 j0 i1 j1 i j -> w3 i j = (x * w1 i j + y * w2 i j)%T) ->
  forall i j, patch2 i0 j0 i1 j1 i j -> r3 i j = (x * r1 i j + y * r2 i j)%T.
  Proof.
    intros H1 H2 H3 W i j Ip.
    rewrite (val_v2_2d _ _ _ _ _ _ _ _ _ _ _ _ _ _ _ _ _ _ _ _ H1 i j Ip).
    rewrite (val_v2_2d _ _ _ _ _ _ _ _ _ _ _ _ _ _ _ _ _ _ _ _ H2 i j Ip).
    rewrite (val_v2_2d _ _ _ _ _ _ _ _ _ _ _ _ _ _ _ _ _ _ _ _ H3 i j Ip).
    rewrite (W i j ltac:(k_near)). rewrite (W (i + 1)%Z j ltac:(k_near)). rewrite (W (i - 1)%Z j ltac:(k_near)). rewrite (W i (j + 1)%Z ltac:(k_near)). rewrite (W i (j - 1)%Z ltac:(k_near)).
    destruct (inverse L (dx 0)) as (y0 & D0); rewrite !D0. destruct (inverse L (dx 1)) as (y1 & D1); rewrite !D1. ring.
  Qed.

  Lemma val_poisson_2d i0 j0 i1 j1 dx beta gcw u f0 f1 rgcw res (m : mem S) (r w : Z -> Z -> S) :
  applied_poisson_2d i0 j0 i1 j1 dx beta gcw u f0 f1 rgcw res m r w -> forall i j, patch2 i0 j0 i1 j1 i j ->
  r i j = (- beta * (((w (i + 1)%Z j - w i j) / dx 0 - (w i j - w (i - 1)%Z j) / dx 0) / dx 0 + ((w i (j + 1)%Z - w i j) / dx 1 - (w i j - w i (j - 1)%Z) / dx 1) / dx 1))%T.
  Proof.
    intros (Hg & Hr & A0 & A1 & A2 & mo & E & R0 & R1) i j Ip.
    apply (op_poisson_2d L i0 j0 i1 j1 dx beta gcw u f0 f1 rgcw res m mo r w ltac:(k_near) ltac:(k_near) Hg Hr A0 A1 A2 E R0 R1); k_near.
  Qed.

  Lemma linear_poisson_2d i0 j0 i1 j1 dx beta gcw u f0 f1 rgcw res (m1 m2 m3 : mem S) (r1 w1 r2 w2 r3 w3 : Z -> Z -> S) x y :
  applied_poisson_2d i0 j0 i1 j1 dx beta gcw u f0 f1 rgcw res m1 r1 w1 ->
  applied_poisson_2d i0 j0 i1 j1 dx beta gcw u f0 f1 rgcw res m2 r2 w2 ->
  applied_poisson_2d i0 j0 i1 j1 dx beta gcw u f0 f1 rgcw res m3 r3 w3 ->
  (forall i j, near2 i0 j0 i1 j1 i j -> w3 i j = (x * w1 i j + y * w2 i j)%T) ->
  forall i j, patch2 i0 j0 i1 j1 i j -> r3 i j = (x * r1 i j + y * r2 i j)%T.
  Proof.
    intros H1 H2 H3 W i j Ip.
    rewrite (val_poisson_2d _ _ _ _ _ _ _ _ _ _ _ _ _ _ _  H1 i j Ip).
    rewrite (val_poisson_2d _ _ _ _ _ _ _ _ _ _ _ _ _ _ _  H2 i j Ip).
    rewrite (val_poisson_2d _ _ _ _ _ _ _ _ _ _ _ _ _ _ _  H3 i j Ip).
    rewrite (W i j ltac:(k_near)). rewrite (W (i + 1)%Z j ltac:(k_near)). rewrite (W (i - 1)%Z j ltac:(k_near)). rewrite (W i (j + 1)%Z ltac:(k_near)). rewrite (W i (j - 1)%Z ltac:(k_near)).
    destruct (inverse L (dx 0)) as (y0 & D0); rewrite !D0. destruct (inverse L (dx 1)) as (y1 & D1); rewrite !D1. ring.
  Qed.

  Lemma val_v1_3d i0 j0 k0 i1 j1 k1 dx beta b0 b1 b2 gcw u f0 f1 f2 alpha agcw a rgcw res (m : mem S) (r w c v0 v1 v2 : Z -> Z -> Z -> S) :
  applied_v1_3d i0 j0 k0 i1 j1 k1 dx beta b0 b1 b2 gcw u f0 f1 f2 alpha agcw a rgcw res m r w c v0 v1 v2 -> forall i j k, patch3 i0 j0 k0 i1 j1 k1 i j k ->
  r i j k = (- beta * ((v0 (i + 1)%Z j k * ((w (i + 1)%Z j k - w i j k) / dx 0) - v0 i j k * ((w i j k - w (i - 1)%Z j k) / dx 0)) / dx 0 + (v1 i (j + 1)%Z k * ((w i (j + 1)%Z k - w i j k) / dx 1) - v1 i j k * ((w i j k - w i (j - 1)%Z k) / dx 1)) / dx 1 + (v2 i j (k + 1)%Z * ((w i j (k + 1)%Z - w i j k) / dx 2) - v2 i j k * ((w i j k - w i j (k - 1)%Z) / dx 2)) / dx 2) + alpha * (c i j k * w i j k))%T.
  Proof.
    intros (Hg & Hr & A0 & A1 & A2 & A3 & mo & E & R0 & R1 & R2 & R3 & R4 & R5) i j k Ip.
    apply (op_v1_3d L i0 j0 k0 i1 j1 k1 dx beta b0 b1 b2 gcw u f0 f1 f2 alpha agcw a rgcw res m mo r w c v0 v1 v2 ltac:(k_near) ltac:(k_near) ltac:(k_near) Hg Hr A0 A1 A2 A3 E R0 R1 R2 R3 R4 R5); k_near.
  Qed.

  Lemma linear_v1_3d i0 j0 k0 i1 j1 k1 dx beta b0 b1 b2 gcw u f0 f1 f2 alpha agcw a rgcw res (m1 m2 m3 : mem S) (r1 w1 r2 w2 r3 w3 c v0 v1 v2 : Z -> Z -> Z -> S) x y :
  applied_v1_3d i0 j0 k0 i1 j1 k1 dx beta b0 b1 b2 gcw u f0 f1 f2 alpha agcw a rgcw res m1 r1 w1 c v0 v1 v2 ->
  applied_v1_3d i0 j0 k0 i1 j1 k1 dx beta b0 b1 b2 gcw u f0 f1 f2 alpha agcw a rgcw res m2 r2 w2 c v0 v1 v2 ->
  applied_v1_3d i0 j0 k0 i1 j1 k1 dx beta b0 b1 b2 gcw u f0 f1 f2 alpha agcw a rgcw res m3 r3 w3 c v0 v1 v2 ->
  (forall i j k, near3 i0 j0 k0 i1 j1 k1 i j k -> w3 i j k = (x * w1 i j k + y * w2 i j k)%T) ->
  forall i j k, patch3 i0 j0 k0 i1 j1 k1 i j k -> r3 i j k = (x * r1 i j k + y * r2 i j k)%T.
  Proof.
    intros H1 H2 H3 W i j k Ip.
    rewrite (val_v1_3d _ _ _ _ _ _ _ _ _ _ _ _ _ _ _ _ _ _ _ _ _ _ _ _ _ _ _ _ H1 i j k Ip).
    rewrite (val_v1_3d _ _ _ _ _ _ _ _ _ _ _ _ _ _ _ _ _ _ _ _ _ _ _ _ _ _ _ _ H2 i j k Ip).
    rewrite (val_v1_3d _ _ _ _ _ _ _ _ _ _ _ _ _ _ _ _ _ _ _ _ _ _ _ _ _ _ _ _ H3 i j k Ip).
    rewrite (W i j k ltac:(k_near)). rewrite (W (i + 1)%Z j k ltac:(k_near)). rewrite (W (i - 1)%Z j k ltac:(k_near)). rewrite (W i (j + 1)%Z k ltac:(k_near)). rewrite (W i (j - 1)%Z k ltac:(k_near)). rewrite (W i j (k + 1)%Z ltac:(k_near)). rewrite (W i j (k - 1)%Z ltac:(k_near)).
    destruct (inverse L (dx 0)) as (y0 & D0); rewrite !D0. destruct (inverse L (dx 1)) as (y1 & D1); rewrite !D1. destruct (inverse L (dx 2)) as (y2 & D2); rewrite !D2. ring.
  Qed.

  Lemma val_v2_3d i0 j0 k0 i1 j1 k1 dx beta b0 b1 b2 gcw u f0 f1 f2 alpha rgcw res (m : mem S) (r w v0 v1 v2 : Z -> Z -> Z -> S) :
  applied_v2_3d i0 j0 k0 i1 j1 k1 dx beta b0 b1 b2 gcw u f0 f1 f2 alpha rgcw res m r w v0 v1 v2 -> forall i j k, patch3 i0 j0 k0 i1 j1 k1 i j k ->
  r i j k = (- beta * ((v0 (i + 1)%Z j k * ((w (i + 1)%Z j k - w i j k) / dx 0) - v0 i j k * ((w i j k - w (i - 1)%Z j k) / dx 0)) / dx 0 + (v1 i (j + 1)%Z k * ((w i (j + 1)%Z k - w i j k) / dx 1) - v1 i j k * ((w i j k - w i (j - 1)%Z k) / dx 1)) / dx 1 + (v2 i j (k + 1)%Z * ((w i j (k + 1)%Z - w i j k) / dx 2) - v2 i j k * ((w i j k - w i j (k - 1)%Z) / dx 2)) / dx 2) + alpha * w i j k)%T.
  Proof.
    intros (Hg & Hr & A0 & A1 & A2 & A3 & mo & E & R0 & R1 & R2 & R3 & R4) i j k Ip.
    apply (op_v2_3d L i0 j0 k0 i1 j1 k1 dx beta b0 b1 b2 gcw u f0 f1 f2 alpha rgcw res m mo r w v0 v1 v2 ltac:(k_near) ltac:(k_near) ltac:(k_near) Hg Hr A0 A1 A2 A3 E R0 R1 R2 R3 R4); k_near.
  Qed.

  Lemma linear_v2_3d i0 j0 k0 i1 j1 k1 dx beta b0 b1 b2 gcw u f0 f1 f2 alpha rgcw res (m1 m2 m3 : mem S) (r1 w1 r2 w2 r3 w3 v0 v1 v2 : Z -> Z -> Z -> S) x y :
  applied_v2_3d i0 j0 k0 i1 j1 k1 dx beta b0 b1 b2 gcw u f0 f1 f2 alpha rgcw res m1 r1 w1 v0 v1 v2 ->
  applied_v2_3d i0 j0 k0 i1 j1 k1 dx beta b0 b1 b2 gcw u f0 f1 f2 alpha rgcw res m2 r2 w2 v0 v1 v2 ->
  applied_v2_3d i0 j0 k0 i1 j1 k1 dx beta b0 b1 b2 gcw u f0 f1 f2 alpha rgcw res m3 r3 w3 v0 v1 v2 ->
  (forall i j k, near3 i0 j0 k0 i1 j1 k1 i j k -> w3 i j k = (x * w1 i j k + y * w2 i j k)%T) ->
  forall i j k, patch3 i0 j0 k0 i1 j1 k1 i j k -> r3 i j k = (x * r1 i j k + y * r2 i j k)%T.
  Proof.
    intros H1 H2 H3 W i j k Ip.
    rewrite (val_v2_3d _ _ _ _ _ _ _ _ _ _ _ _ _ _ _ _ _ _ _ _ _ _ _ _ _ H1 i j k Ip).
    rewrite (val_v2_3d _ _ _ _ _ _ _ _ _ _ _ _ _ _ _ _ _ _ _ _ _ _ _ _ _ H2 i j k Ip).
    rewrite (val_v2_3d _ _ _ _ _ _ _ _ _ _ _ _ _ _ _ _ _ _ _ _ _ _ _ _ _ H3 i j k Ip).
    rewrite (W i j k ltac:(k_near)). rewrite (W (i + 1)%Z j k ltac:(k_near)). rewrite (W (i - 1)%Z j k ltac:(k_near)). rewrite (W i (j + 1)%Z k ltac:(k_near)). rewrite (W i (j - 1)%Z k ltac:(k_near)). rewrite (W i j (k + 1)%Z ltac:(k_near)). rewrite (W i j (k - 1)%Z ltac:(k_near)).
    destruct (inverse L (dx 0)) as (y0 & D0); rewrite !D0. destruct (inverse L (dx 1)) as (y1 & D1); rewrite !D1. destruct (inverse L (dx 2)) as (y2 & D2); rewrite !D2. ring.
  Qed.

  Lemma val_poisson_3d i0 j0 k0 i1 j1 k1 dx beta gcw u f0 f1 f2 rgcw res (m : mem S) (r w : Z -> Z -> Z -> S) :
  applied_poisson_3d i0 j0 k0 i1 j1 k1 dx beta gcw u f0 f1 f2 rgcw res m r w -> forall i j k, patch3 i0 j0 k0 i1 j1 k1 i j k ->
  r i j k = (- beta * (((w (i + 1)%Z j k - w i j k) / dx 0 - (w i j k - w (i - 1)%Z j k) / dx 0) / dx 0 + ((w i (j + 1)%Z k - w i j k) / dx 1 - (w i j k - w i (j - 1)%Z k) / dx 1) / dx 1 + ((w i j (k + 1)%Z - w i j k) / dx 2 - (w i j k - w i j (k - 1)%Z) / dx 2) / dx 2))%T.
  Proof.
    intros (Hg & Hr & A0 & A1 & A2 & A3 & mo & E & R0 & R1) i j k Ip.
    apply (op_poisson_3d L i0 j0 k0 i1 j1 k1 dx beta gcw u f0 f1 f2 rgcw res m mo r w ltac:(k_near) ltac:(k_near) ltac:(k_near) Hg Hr A0 A1 A2 A3 E R0 R1); k_near.
  Qed.

  Lemma linear_poisson_3d i0 j0 k0 i1 j1 k1 dx beta gcw u f0 f1 f2 rgcw res (m1 m2 m3 : mem S) (r1 w1 r2 w2 r3 w3 : Z -> Z -> Z -> S) x y :
  applied_poisson_3d i0 j0 k0 i1 j1 k1 dx beta gcw u f0 f1 f2 rgcw res m1 r1 w1 ->
  applied_poisson_3d i0 j0 k0 i1 j1 k1 dx beta gcw u f0 f1 f2 rgcw res m2 r2 w2 ->
  applied_poisson_3d i0 j0 k0 i1 j1 k1 dx beta gcw u f0 f1 f2 rgcw res m3 r3 w3 ->
  (forall i j k, near3 i0 j0 k0 i1 j1 k1 i j k -> w3 i j k = (x * w1 i j k + y * w2 i j k)%T) ->
  forall i j k, patch3 i0 j0 k0 i1 j1 k1 i j k -> r3 i j k = (x * r1 i j k + y * r2 i j k)%T.
  Proof.
    intros H1 H2 H3 W i j k Ip.
    rewrite (val_poisson_3d _ _ _ _ _ _ _ _ _ _ _ _ _ _ _ _ _ _  H1 i j k Ip).
    rewrite (val_poisson_3d _ _ _ _ _ _ _ _ _ _ _ _ _ _ _ _ _ _  H2 i j k Ip).
    rewrite (val_poisson_3d _ _ _ _ _ _ _ _ _ _ _ _ _ _ _ _ _ _  H3 i j k Ip).
    rewrite (W i j k ltac:(k_near)). rewrite (W (i + 1)%Z j k ltac:(k_near)). rewrite (W (i - 1)%Z j k ltac:(k_near)). rewrite (W i (j + 1)%Z k ltac:(k_near)). rewrite (W i (j - 1)%Z k ltac:(k_near)). rewrite (W i j (k + 1)%Z ltac:(k_near)). rewrite (W i j (k - 1)%Z ltac:(k_near)).
    destruct (inverse L (dx 0)) as (y0 & D0); rewrite !D0. destruct (inverse L (dx 1)) as (y1 & D1); rewrite !D1. destruct (inverse L (dx 2)) as (y2 & D2); rewrite !D2. ring.
  Qed.

End Linear.

(** ** Over the rationals *)

Lemma dec2 (p q : Z * Z) : {p = q} + {p <> q}.
Proof. decide equality; apply Z.eq_dec. Qed.
Lemma dec3 (p q : Z * Z * Z) : {p = q} + {p <> q}.
Proof. decide equality; [apply Z.eq_dec|apply dec2]. Qed.


Definition zr (lo hi : Z) : list Z := map (fun k => lo + Z.of_nat k) (seq 0 (Z.to_nat (hi - lo + 1))).
Lemma in_zr lo hi i : In i (zr lo hi) <-> lo <= i <= hi.
Proof.
  unfold zr. rewrite in_map_iff. split.
  - intros (k & <- & Hk). apply in_seq in Hk. lia.
  - intros H. exists (Z.to_nat (i - lo)). split; [lia|]. apply in_seq. lia.
Qed.
Lemma nodup_zr lo hi : NoDup (zr lo hi).
Proof. apply FinFun.Injective_map_NoDup; [intros a b H; lia|apply seq_NoDup]. Qed.
Lemma nodup_app {A} (l k : list A) : NoDup l -> NoDup k -> (forall x, In x l -> In x k -> False) -> NoDup (l ++ k).
Proof.
  intros Hl Hk H. induction Hl as [|a l Ha Hl IH]; [exact Hk|]. cbn. constructor.
  - rewrite in_app_iff. intros [C|C]; [contradiction|]. apply (H a); [now left|exact C].
  - apply IH. intros x Hx. apply H. now right.
Qed.
Lemma nodup_prod {A B} (l : list A) (k : list B) : NoDup l -> NoDup k -> NoDup (list_prod l k).
Proof.
  intros Hl Hk. induction Hl as [|a l Ha Hl IH]; [constructor|]. cbn. apply nodup_app; [|exact IH|].
  - apply FinFun.Injective_map_NoDup; [intros b c H; congruence|exact Hk].
  - intros [x y] H1 H2. apply in_map_iff in H1 as (b & [= -> ->] & _). apply in_prod_iff in H2. tauto.
Qed.
Lemma in_prod3 {A B C} (l : list A) (k : list B) (h : list C) x y z :
  In (x, y, z) (list_prod (list_prod l k) h) <-> In x l /\ In y k /\ In z h.
Proof. rewrite !in_prod_iff. tauto. Qed.

Definition cells1 i0 i1 := zr i0 i1.
Definition cells2 i0 j0 i1 j1 := list_prod (zr i0 i1) (zr j0 j1).
Definition cells3 i0 j0 k0 i1 j1 k1 := list_prod (list_prod (zr i0 i1) (zr j0 j1)) (zr k0 k1).
Lemma in_cells1 i0 i1 i : In i (cells1 i0 i1) <-> patch1 i0 i1 i.
Proof. unfold cells1. rewrite in_zr. reflexivity. Qed.
Lemma in_cells2 i0 j0 i1 j1 i j : In (i, j) (cells2 i0 j0 i1 j1) <-> patch2 i0 j0 i1 j1 i j.
Proof. unfold cells2. rewrite in_prod_iff, !in_zr. reflexivity. Qed.
Lemma in_cells3 i0 j0 k0 i1 j1 k1 i j k : In (i, j, k) (cells3 i0 j0 k0 i1 j1 k1) <-> patch3 i0 j0 k0 i1 j1 k1 i j k.
Proof. unfold cells3. rewrite in_prod3, !in_zr. reflexivity. Qed.
Lemma nodup_cells1 i0 i1 : NoDup (cells1 i0 i1).
Proof. apply nodup_zr. Qed.
Lemma nodup_cells2 i0 j0 i1 j1 : NoDup (cells2 i0 j0 i1 j1).
Proof. apply nodup_prod; apply nodup_zr. Qed.
Lemma nodup_cells3 i0 j0 k0 i1 j1 k1 : NoDup (cells3 i0 j0 k0 i1 j1 k1).
Proof. apply nodup_prod; [apply nodup_prod|]; apply nodup_zr. Qed.
Lemma patch_dec1 i0 i1 i : {patch1 i0 i1 i} + {~ patch1 i0 i1 i}.
Proof. unfold patch1. destruct (Z_le_dec i0 i), (Z_le_dec i i1); [left|right|right|right]; lia. Qed.
Lemma patch_dec2 i0 j0 i1 j1 i j : {patch2 i0 j0 i1 j1 i j} + {~ patch2 i0 j0 i1 j1 i j}.
Proof. unfold patch2. destruct (patch_dec1 i0 i1 i) as [H|H], (patch_dec1 j0 j1 j) as [G|G]; unfold patch1 in *; [left|right|right|right]; lia. Qed.
Lemma patch_dec3 i0 j0 k0 i1 j1 k1 i j k : {patch3 i0 j0 k0 i1 j1 k1 i j k} + {~ patch3 i0 j0 k0 i1 j1 k1 i j k}.
Proof. unfold patch3. destruct (patch_dec2 i0 j0 i1 j1 i j) as [H|H], (patch_dec1 k0 k1 k) as [G|G]; unfold patch1, patch2 in *; [left|right|right|right]; lia. Qed.


Definition T_v1_1d (dx : Z -> Qc) (beta alpha : Qc) (c v0 : Z -> Qc) (w : Z -> Qc) : Z -> Qc := fun i =>
  (- beta * ((v0 (i + 1)%Z * ((w (i + 1)%Z - w i) / dx 0%Z) - v0 i * ((w i - w (i - 1)%Z) / dx 0%Z)) / dx 0%Z) + alpha * (c i * w i))%Qc.

Lemma val_T_v1_1d i0 i1 (dx : Z -> Qc) (beta : Qc) b0 gcw u f0 (alpha : Qc) agcw a rgcw res (m : mem QcS) (r w c v0 : Z -> Qc) :
  applied_v1_1d (S := QcS) i0 i1 dx beta b0 gcw u f0 alpha agcw a rgcw res m r w c v0 -> forall i, patch1 i0 i1 i -> r i = T_v1_1d dx beta alpha c v0 w i.
Proof.
  intros H i Ip. etransitivity; [exact (val_v1_1d QcS_laws _ _ _ _ _ _ _ _ _ _ _ _ _ m r w _ _ H i Ip)|].
  unfold T_v1_1d. cbn -[Qcplus Qcmult Qcopp Qcminus Qcdiv Q2Qc]. unfold Qcdiv. ring.
Qed.

Lemma core_v1_1d i0 i1 (dx : Z -> Qc) (beta alpha : Qc) (c v0 : Z -> Qc) (e : Z -> Qc) :
  (0 < beta)%Qc ->
  dx 0 <> 0%Qc ->
  (0 <= alpha)%Qc ->
  (forall i, patch1 i0 i1 i -> (0 <= c i)%Qc) ->
  (forall i, i0 <= i <= i1 + 1 -> (0 < v0 i)%Qc) ->
  (forall i, patch1 i0 i1 i -> (T_v1_1d dx beta alpha c v0 e i <= 0)%Qc) ->
  (forall i, ghost1 i0 i1 i -> (e i <= 0)%Qc) ->
  forall i, patch1 i0 i1 i -> (e i <= 0)%Qc.
Proof.
  intros Hb Hh Ha Hc Hv0 Hr Hgh i Ip.
  apply (walk (cells1 i0 i1) e (fun i => i + 1) (fun i => Z.to_nat (i1 - i))) with (p := i); [clear i Ip|now apply in_cells1].
  intros i Ip Mx Pe. cbn [fst snd] in *. apply in_cells1 in Ip.
  assert (Le : forall i', near1 i0 i1 i' -> (e i' <= e i)%Qc).
  { intros i' Hn. destruct (patch_dec1 i0 i1 i') as [Y|N].
    - apply (Mx (i')). now apply in_cells1.
    - apply Qcle_trans with 0%Qc; [apply Hgh; split; assumption|now apply Qclt_le_weak]. }
  specialize (Hr i Ip). unfold T_v1_1d in Hr.
  assert (Eq : e (i + 1)%Z = e i).
  { refine (edge_term beta (dx 0) (v0 (i + 1)%Z) (v0 i) (e i) (e (i + 1)%Z) (e (i - 1)%Z) _ Hb Hh (Hv0 (i + 1)%Z ltac:(k_near)) (Qclt_le_weak _ _ (Hv0 i ltac:(k_near))) (Le (i + 1)%Z ltac:(k_near)) (Le (i - 1)%Z ltac:(k_near)) (Qc_mul _ _ Ha (Qc_mul _ _ (Hc i Ip) (Qclt_le_weak _ _ Pe))) _).
    rewrite ?Qcplus_assoc in *. exact Hr. }
  assert (In1 : patch1 i0 i1 (i + 1)).
  { destruct (patch_dec1 i0 i1 (i + 1)%Z) as [Y|N]; [exact Y|exfalso].
    apply (Qclt_not_le _ _ Pe). rewrite <- Eq. apply Hgh. split; [k_near|exact N]. }
  split; [now apply in_cells1|]. split; [exact Eq|k_near].
Qed.

Lemma lin_T_v1_1d (dx : Z -> Qc) (beta alpha : Qc) (c v0 : Z -> Qc) (x y : Qc) (w z : Z -> Qc) i :
  T_v1_1d dx beta alpha c v0 (fun i => x * w i + y * z i)%Qc i = (x * T_v1_1d dx beta alpha c v0 w i + y * T_v1_1d dx beta alpha c v0 z i)%Qc.
Proof. unfold T_v1_1d, Qcdiv. ring. Qed.

Lemma compare_v1_1d i0 i1 (dx : Z -> Qc) (beta : Qc) b0 gcw u f0 (alpha : Qc) agcw a rgcw res (m n : mem QcS) (r w s z c v0 : Z -> Qc) :
  applied_v1_1d (S := QcS) i0 i1 dx beta b0 gcw u f0 alpha agcw a rgcw res m r w c v0 ->
  applied_v1_1d (S := QcS) i0 i1 dx beta b0 gcw u f0 alpha agcw a rgcw res n s z c v0 ->
  (0 < beta)%Qc ->
  dx 0 <> 0%Qc ->
  (0 <= alpha)%Qc ->
  (forall i, patch1 i0 i1 i -> (0 <= c i)%Qc) ->
  (forall i, i0 <= i <= i1 + 1 -> (0 < v0 i)%Qc) ->
  (forall i, patch1 i0 i1 i -> (r i <= s i)%Qc) ->
  (forall i, ghost1 i0 i1 i -> (w i <= z i)%Qc) ->
  forall i, patch1 i0 i1 i -> (w i <= z i)%Qc.
Proof.
  intros H1 H2 Hb Hh Ha Hc Hv0 Hr Hgh i Ip. apply Qc_nonneg_sub.
  replace (z i - w i)%Qc with (- (1 * w i + (- (1)) * z i))%Qc by ring. apply (Qcopp_le_compat _ 0).
  revert i Ip. apply (core_v1_1d i0 i1 dx beta alpha c v0 (fun i => 1 * w i + (- (1)) * z i)%Qc Hb Hh Ha Hc Hv0).
  - intros i Ip. rewrite lin_T_v1_1d. rewrite <- (val_T_v1_1d _ _ _ _ _ _ _ _ _ _ _ _ _ _ _ _ _ _ H1 i Ip), <- (val_T_v1_1d _ _ _ _ _ _ _ _ _ _ _ _ _ _ _ _ _ _ H2 i Ip).
    pose proof (Qc_sub_nonneg _ _ (Hr i Ip)) as G. apply Qcopp_le_compat in G.
    replace (- 0)%Qc with 0%Qc in G by ring. replace (1 * r i + (- (1)) * s i)%Qc with (- (s i - r i))%Qc by ring. exact G.
  - intros i Ig. pose proof (Qc_sub_nonneg _ _ (Hgh i Ig)) as G. apply Qcopp_le_compat in G.
    replace (- 0)%Qc with 0%Qc in G by ring. replace (1 * w i + (- (1)) * z i)%Qc with (- (z i - w i))%Qc by ring. exact G.
Qed.

Lemma unique_v1_1d i0 i1 (dx : Z -> Qc) (beta : Qc) b0 gcw u f0 (alpha : Qc) agcw a rgcw res (m n : mem QcS) (r w s z c v0 : Z -> Qc) :
  applied_v1_1d (S := QcS) i0 i1 dx beta b0 gcw u f0 alpha agcw a rgcw res m r w c v0 ->
  applied_v1_1d (S := QcS) i0 i1 dx beta b0 gcw u f0 alpha agcw a rgcw res n s z c v0 ->
  (0 < beta)%Qc ->
  dx 0 <> 0%Qc ->
  (0 <= alpha)%Qc ->
  (forall i, patch1 i0 i1 i -> (0 <= c i)%Qc) ->
  (forall i, i0 <= i <= i1 + 1 -> (0 < v0 i)%Qc) ->
  (forall i, patch1 i0 i1 i -> r i = s i) ->
  (forall i, ghost1 i0 i1 i -> w i = z i) ->
  forall i, patch1 i0 i1 i -> w i = z i.
Proof.
  intros H1 H2 Hb Hh Ha Hc Hv0 Hr Hgh i Ip. apply Qcle_antisym.
  - apply (compare_v1_1d i0 i1 dx beta b0 gcw u f0 alpha agcw a rgcw res m n r w s z c v0 H1 H2 Hb Hh Ha Hc Hv0); try assumption; intros; rewrite ?Hr, ?Hgh by assumption; apply Qcle_refl.
  - apply (compare_v1_1d i0 i1 dx beta b0 gcw u f0 alpha agcw a rgcw res n m s z r w c v0 H2 H1 Hb Hh Ha Hc Hv0); try assumption; intros; rewrite ?Hr, ?Hgh by assumption; apply Qcle_refl.
Qed.

Lemma above_v1_1d i0 i1 (dx : Z -> Qc) (beta : Qc) b0 gcw u f0 (alpha : Qc) agcw a rgcw res (m : mem QcS) (r w c v0 : Z -> Qc) (B : Qc) :
  applied_v1_1d (S := QcS) i0 i1 dx beta b0 gcw u f0 alpha agcw a rgcw res m r w c v0 ->
  (0 < beta)%Qc ->
  dx 0 <> 0%Qc ->
  (0 <= alpha)%Qc ->
  (forall i, patch1 i0 i1 i -> (0 <= c i)%Qc) ->
  (forall i, i0 <= i <= i1 + 1 -> (0 < v0 i)%Qc) ->
  alpha = 0%Qc \/ (0 <= B)%Qc ->
  (forall i, patch1 i0 i1 i -> (r i <= 0)%Qc) ->
  (forall i, ghost1 i0 i1 i -> (w i <= B)%Qc) ->
  forall i, patch1 i0 i1 i -> (w i <= B)%Qc.
Proof.
  intros H1 Hb Hh Ha Hc Hv0 HB Hr Hgh i Ip. apply Qc_nonneg_sub.
  match goal with |- (0 <= ?t)%Qc => replace t with (- (1 * w i + (- (1)) * B))%Qc by ring end. apply (Qcopp_le_compat _ 0).
  revert i Ip. apply (core_v1_1d i0 i1 dx beta alpha c v0 (fun i => 1 * w i + (- (1)) * B)%Qc Hb Hh Ha Hc Hv0).
  - intros i Ip. rewrite (lin_T_v1_1d dx beta alpha c v0 1%Qc (- (1))%Qc w (fun _ => B)). rewrite <- (val_T_v1_1d _ _ _ _ _ _ _ _ _ _ _ _ _ _ _ _ _ _ H1 i Ip).
    replace (T_v1_1d dx beta alpha c v0 (fun _ => B) i) with (alpha * (c i * B))%Qc by (unfold T_v1_1d, Qcdiv; ring).
    specialize (Hr i Ip). apply Qc_nonneg_sub.
    assert (G : (0 <= 1 * (alpha * (c i * B)))%Qc).
    { destruct HB as [->|HB]; [replace (_ * _)%Qc with 0%Qc by ring; apply Qcle_refl|]. replace (_ * (alpha * (c i * B)))%Qc with (alpha * (c i * B))%Qc by ring. apply Qc_mul; [exact Ha|apply Qc_mul; [apply Hc, Ip|exact HB]]. }
    pose proof (Qc_add _ _ (Qc_sub_nonneg _ _ Hr) G) as F.
    match type of F with (0 <= ?t)%Qc => match goal with |- (0 <= ?g)%Qc => replace g with t by ring end end. exact F.
  - intros i Ig. pose proof (Qc_sub_nonneg _ _ (Hgh i Ig)) as G. apply Qc_nonneg_sub.
    match type of G with (0 <= ?t)%Qc => match goal with |- (0 <= ?g)%Qc => replace g with t by ring end end. exact G.
Qed.

Lemma below_v1_1d i0 i1 (dx : Z -> Qc) (beta : Qc) b0 gcw u f0 (alpha : Qc) agcw a rgcw res (m : mem QcS) (r w c v0 : Z -> Qc) (B : Qc) :
  applied_v1_1d (S := QcS) i0 i1 dx beta b0 gcw u f0 alpha agcw a rgcw res m r w c v0 ->
  (0 < beta)%Qc ->
  dx 0 <> 0%Qc ->
  (0 <= alpha)%Qc ->
  (forall i, patch1 i0 i1 i -> (0 <= c i)%Qc) ->
  (forall i, i0 <= i <= i1 + 1 -> (0 < v0 i)%Qc) ->
  alpha = 0%Qc \/ (B <= 0)%Qc ->
  (forall i, patch1 i0 i1 i -> (0 <= r i)%Qc) ->
  (forall i, ghost1 i0 i1 i -> (B <= w i)%Qc) ->
  forall i, patch1 i0 i1 i -> (B <= w i)%Qc.
Proof.
  intros H1 Hb Hh Ha Hc Hv0 HB Hr Hgh i Ip. apply Qc_nonneg_sub.
  match goal with |- (0 <= ?t)%Qc => replace t with (- ((- (1)) * w i + 1 * B))%Qc by ring end. apply (Qcopp_le_compat _ 0).
  revert i Ip. apply (core_v1_1d i0 i1 dx beta alpha c v0 (fun i => (- (1)) * w i + 1 * B)%Qc Hb Hh Ha Hc Hv0).
  - intros i Ip. rewrite (lin_T_v1_1d dx beta alpha c v0 (- (1))%Qc 1%Qc w (fun _ => B)). rewrite <- (val_T_v1_1d _ _ _ _ _ _ _ _ _ _ _ _ _ _ _ _ _ _ H1 i Ip).
    replace (T_v1_1d dx beta alpha c v0 (fun _ => B) i) with (alpha * (c i * B))%Qc by (unfold T_v1_1d, Qcdiv; ring).
    specialize (Hr i Ip). apply Qc_nonneg_sub.
    assert (G : (0 <= (- (1)) * (alpha * (c i * B)))%Qc).
    { destruct HB as [->|HB]; [replace (_ * _)%Qc with 0%Qc by ring; apply Qcle_refl|]. apply Qc_sub_nonneg in HB. replace (_ * (alpha * (c i * B)))%Qc with (alpha * (c i * (0 - B)))%Qc by ring. apply Qc_mul; [exact Ha|apply Qc_mul; [apply Hc, Ip|exact HB]]. }
    pose proof (Qc_add _ _ (Qc_sub_nonneg _ _ Hr) G) as F.
    match type of F with (0 <= ?t)%Qc => match goal with |- (0 <= ?g)%Qc => replace g with t by ring end end. exact F.
  - intros i Ig. pose proof (Qc_sub_nonneg _ _ (Hgh i Ig)) as G. apply Qc_nonneg_sub.
    match type of G with (0 <= ?t)%Qc => match goal with |- (0 <= ?g)%Qc => replace g with t by ring end end. exact G.
Qed.

Lemma exists_v1_1d i0 i1 (dx : Z -> Qc) (beta : Qc) b0 gcw u f0 (alpha : Qc) agcw a rgcw res (g r c v0 : Z -> Qc) :
  (0 < beta)%Qc ->
  dx 0 <> 0%Qc ->
  (0 <= alpha)%Qc ->
  (forall i, patch1 i0 i1 i -> (0 <= c i)%Qc) ->
  (forall i, i0 <= i <= i1 + 1 -> (0 < v0 i)%Qc) ->
  exists w : Z -> Qc, (forall i, ~ patch1 i0 i1 i -> w i = g i) /\
  forall (m : mem QcS) s, applied_v1_1d (S := QcS) i0 i1 dx beta b0 gcw u f0 alpha agcw a rgcw res m s w c v0 ->
  forall i, patch1 i0 i1 i -> s i = r i.
Proof.
  intros Hb Hh Ha Hc Hv0.
  destruct (@solvable (Z) Z.eq_dec (fun w => (T_v1_1d dx beta alpha c v0 (fun i => w i))) (cells1 i0 i1) (nodup_cells1 i0 i1)) with (g := g) (r := r) as (w & Hw & Tw).
  - intros x y w z i _. cbn [fst snd]. apply (lin_T_v1_1d dx beta alpha c v0 x y (fun i => w i) (fun i => z i) i).
  - intros w Out Z. assert (G : forall i, patch1 i0 i1 i -> w i = 0%Qc).
    { intros i Ip. apply Qcle_antisym.
      - revert i Ip. apply (core_v1_1d i0 i1 dx beta alpha c v0 (fun i => w i) Hb Hh Ha Hc Hv0).
        + intros i Ip. pose proof (Z i (proj2 (in_cells1 i0 i1 i) Ip)) as Zp. cbn [fst snd] in Zp. rewrite Zp. apply Qcle_refl.
        + intros i (_ & N). rewrite Out; [apply Qcle_refl|]. intros C. apply N. now apply in_cells1.
      - apply Qc_nonneg_sub. replace (w i - 0)%Qc with (- ((- (1)) * w i + 0 * w i))%Qc by ring. apply (Qcopp_le_compat _ 0).
        revert i Ip. apply (core_v1_1d i0 i1 dx beta alpha c v0 (fun i => (- (1)) * w i + 0 * w i)%Qc Hb Hh Ha Hc Hv0).
        + intros i Ip. rewrite (lin_T_v1_1d dx beta alpha c v0 (- (1))%Qc 0%Qc (fun i => w i) (fun i => w i) i). pose proof (Z i (proj2 (in_cells1 i0 i1 i) Ip)) as Zp. cbn [fst snd] in Zp. rewrite Zp. vm_compute. discriminate.
        + intros i (_ & N). rewrite Out; [vm_compute; discriminate|]. intros C. apply N. now apply in_cells1. }
    intros i Ip. apply G. now apply in_cells1.
  - intros w z i _ E. cbn [fst snd]. unfold T_v1_1d. rewrite !E. reflexivity.
  - exists (fun i => w i). split.
    + intros i N. apply (Hw i). intros C. apply N. now apply in_cells1.
    + intros m s H i Ip. rewrite (val_T_v1_1d _ _ _ _ _ _ _ _ _ _ _ _ _ _ _ _ _ _ H i Ip).
      apply (Tw i). now apply in_cells1.
Qed.

Definition T_v2_1d (dx : Z -> Qc) (beta alpha : Qc) (v0 : Z -> Qc) (w : Z -> Qc) : Z -> Qc := fun i =>
  (- beta * ((v0 (i + 1)%Z * ((w (i + 1)%Z - w i) / dx 0%Z) - v0 i * ((w i - w (i - 1)%Z) / dx 0%Z)) / dx 0%Z) + alpha * w i)%Qc.

Lemma val_T_v2_1d i0 i1 (dx : Z -> Qc) (beta : Qc) b0 gcw u f0 (alpha : Qc) rgcw res (m : mem QcS) (r w v0 : Z -> Qc) :
  applied_v2_1d (S := QcS) i0 i1 dx beta b0 gcw u f0 alpha rgcw res m r w v0 -> forall i, patch1 i0 i1 i -> r i = T_v2_1d dx beta alpha v0 w i.
Proof.
  intros H i Ip. etransitivity; [exact (val_v2_1d QcS_laws _ _ _ _ _ _ _ _ _ _ _ m r w _ H i Ip)|].
  unfold T_v2_1d. cbn -[Qcplus Qcmult Qcopp Qcminus Qcdiv Q2Qc]. unfold Qcdiv. ring.
Qed.

Lemma core_v2_1d i0 i1 (dx : Z -> Qc) (beta alpha : Qc) (v0 : Z -> Qc) (e : Z -> Qc) :
  (0 < beta)%Qc ->
  dx 0 <> 0%Qc ->
  (0 <= alpha)%Qc ->
  (forall i, i0 <= i <= i1 + 1 -> (0 < v0 i)%Qc) ->
  (forall i, patch1 i0 i1 i -> (T_v2_1d dx beta alpha v0 e i <= 0)%Qc) ->
  (forall i, ghost1 i0 i1 i -> (e i <= 0)%Qc) ->
  forall i, patch1 i0 i1 i -> (e i <= 0)%Qc.
Proof.
  intros Hb Hh Ha Hv0 Hr Hgh i Ip.
  apply (walk (cells1 i0 i1) e (fun i => i + 1) (fun i => Z.to_nat (i1 - i))) with (p := i); [clear i Ip|now apply in_cells1].
  intros i Ip Mx Pe. cbn [fst snd] in *. apply in_cells1 in Ip.
  assert (Le : forall i', near1 i0 i1 i' -> (e i' <= e i)%Qc).
  { intros i' Hn. destruct (patch_dec1 i0 i1 i') as [Y|N].
    - apply (Mx (i')). now apply in_cells1.
    - apply Qcle_trans with 0%Qc; [apply Hgh; split; assumption|now apply Qclt_le_weak]. }
  specialize (Hr i Ip). unfold T_v2_1d in Hr.
  assert (Eq : e (i + 1)%Z = e i).
  { refine (edge_term beta (dx 0) (v0 (i + 1)%Z) (v0 i) (e i) (e (i + 1)%Z) (e (i - 1)%Z) _ Hb Hh (Hv0 (i + 1)%Z ltac:(k_near)) (Qclt_le_weak _ _ (Hv0 i ltac:(k_near))) (Le (i + 1)%Z ltac:(k_near)) (Le (i - 1)%Z ltac:(k_near)) (Qc_mul _ _ Ha (Qclt_le_weak _ _ Pe)) _).
    rewrite ?Qcplus_assoc in *. exact Hr. }
  assert (In1 : patch1 i0 i1 (i + 1)).
  { destruct (patch_dec1 i0 i1 (i + 1)%Z) as [Y|N]; [exact Y|exfalso].
    apply (Qclt_not_le _ _ Pe). rewrite <- Eq. apply Hgh. split; [k_near|exact N]. }
  split; [now apply in_cells1|]. split; [exact Eq|k_near].
Qed.

Lemma lin_T_v2_1d (dx : Z -> Qc) (beta alpha : Qc) (v0 : Z -> Qc) (x y : Qc) (w z : Z -> Qc) i :
  T_v2_1d dx beta alpha v0 (fun i => x * w i + y * z i)%Qc i = (x * T_v2_1d dx beta alpha v0 w i + y * T_v2_1d dx beta alpha v0 z i)%Qc.
Proof. unfold T_v2_1d, Qcdiv. ring. Qed.

Lemma compare_v2_1d i0 i1 (dx : Z -> Qc) (beta : Qc) b0 gcw u f0 (alpha : Qc) rgcw res (m n : mem QcS) (r w s z v0 : Z -> Qc) :
  applied_v2_1d (S := QcS) i0 i1 dx beta b0 gcw u f0 alpha rgcw res m r w v0 ->
  applied_v2_1d (S := QcS) i0 i1 dx beta b0 gcw u f0 alpha rgcw res n s z v0 ->
  (0 < beta)%Qc ->
  dx 0 <> 0%Qc ->
  (0 <= alpha)%Qc ->
  (forall i, i0 <= i <= i1 + 1 -> (0 < v0 i)%Qc) ->
  (forall i, patch1 i0 i1 i -> (r i <= s i)%Qc) ->
  (forall i, ghost1 i0 i1 i -> (w i <= z i)%Qc) ->
  forall i, patch1 i0 i1 i -> (w i <= z i)%Qc.
Proof.
  intros H1 H2 Hb Hh Ha Hv0 Hr Hgh i Ip. apply Qc_nonneg_sub.
  replace (z i - w i)%Qc with (- (1 * w i + (- (1)) * z i))%Qc by ring. apply (Qcopp_le_compat _ 0).
  revert i Ip. apply (core_v2_1d i0 i1 dx beta alpha v0 (fun i => 1 * w i + (- (1)) * z i)%Qc Hb Hh Ha Hv0).
  - intros i Ip. rewrite lin_T_v2_1d. rewrite <- (val_T_v2_1d _ _ _ _ _ _ _ _ _ _ _ _ _ _ _ H1 i Ip), <- (val_T_v2_1d _ _ _ _ _ _ _ _ _ _ _ _ _ _ _ H2 i Ip).
    pose proof (Qc_sub_nonneg _ _ (Hr i Ip)) as G. apply Qcopp_le_compat in G.
    replace (- 0)%Qc with 0%Qc in G by ring. replace (1 * r i + (- (1)) * s i)%Qc with (- (s i - r i))%Qc by ring. exact G.
  - intros i Ig. pose proof (Qc_sub_nonneg _ _ (Hgh i Ig)) as G. apply Qcopp_le_compat in G.
    replace (- 0)%Qc with 0%Qc in G by ring. replace (1 * w i + (- (1)) * z i)%Qc with (- (z i - w i))%Qc by ring. exact G.
Qed.

Lemma unique_v2_1d i0 i1 (dx : Z -> Qc) (beta : Qc) b0 gcw u f0 (alpha : Qc) rgcw res (m n : mem QcS) (r w s z v0 : Z -> Qc) :
  applied_v2_1d (S := QcS) i0 i1 dx beta b0 gcw u f0 alpha rgcw res m r w v0 ->
  applied_v2_1d (S := QcS) i0 i1 dx beta b0 gcw u f0 alpha rgcw res n s z v0 ->
  (0 < beta)%Qc ->
  dx 0 <> 0%Qc ->
  (0 <= alpha)%Qc ->
  (forall i, i0 <= i <= i1 + 1 -> (0 < v0 i)%Qc) ->
  (forall i, patch1 i0 i1 i -> r i = s i) ->
  (forall i, ghost1 i0 i1 i -> w i = z i) ->
  forall i, patch1 i0 i1 i -> w i = z i.
Proof.
  intros H1 H2 Hb Hh Ha Hv0 Hr Hgh i Ip. apply Qcle_antisym.
  - apply (compare_v2_1d i0 i1 dx beta b0 gcw u f0 alpha rgcw res m n r w s z v0 H1 H2 Hb Hh Ha Hv0); try assumption; intros; rewrite ?Hr, ?Hgh by assumption; apply Qcle_refl.
  - apply (compare_v2_1d i0 i1 dx beta b0 gcw u f0 alpha rgcw res n m s z r w v0 H2 H1 Hb Hh Ha Hv0); try assumption; intros; rewrite ?Hr, ?Hgh by assumption; apply Qcle_refl.
Qed.

Lemma above_v2_1d i0 i1 (dx : Z -> Qc) (beta : Qc) b0 gcw u f0 (alpha : Qc) rgcw res (m : mem QcS) (r w v0 : Z -> Qc) (B : Qc) :
  applied_v2_1d (S := QcS) i0 i1 dx beta b0 gcw u f0 alpha rgcw res m r w v0 ->
  (0 < beta)%Qc ->
  dx 0 <> 0%Qc ->
  (0 <= alpha)%Qc ->
  (forall i, i0 <= i <= i1 + 1 -> (0 < v0 i)%Qc) ->
  alpha = 0%Qc \/ (0 <= B)%Qc ->
  (forall i, patch1 i0 i1 i -> (r i <= 0)%Qc) ->
  (forall i, ghost1 i0 i1 i -> (w i <= B)%Qc) ->
  forall i, patch1 i0 i1 i -> (w i <= B)%Qc.
Proof.
  intros H1 Hb Hh Ha Hv0 HB Hr Hgh i Ip. apply Qc_nonneg_sub.
  match goal with |- (0 <= ?t)%Qc => replace t with (- (1 * w i + (- (1)) * B))%Qc by ring end. apply (Qcopp_le_compat _ 0).
  revert i Ip. apply (core_v2_1d i0 i1 dx beta alpha v0 (fun i => 1 * w i + (- (1)) * B)%Qc Hb Hh Ha Hv0).
  - intros i Ip. rewrite (lin_T_v2_1d dx beta alpha v0 1%Qc (- (1))%Qc w (fun _ => B)). rewrite <- (val_T_v2_1d _ _ _ _ _ _ _ _ _ _ _ _ _ _ _ H1 i Ip).
    replace (T_v2_1d dx beta alpha v0 (fun _ => B) i) with (alpha * B)%Qc by (unfold T_v2_1d, Qcdiv; ring).
    specialize (Hr i Ip). apply Qc_nonneg_sub.
    assert (G : (0 <= 1 * (alpha * B))%Qc).
    { destruct HB as [->|HB]; [replace (_ * _)%Qc with 0%Qc by ring; apply Qcle_refl|]. replace (_ * (alpha * B))%Qc with (alpha * B)%Qc by ring. apply Qc_mul; assumption. }
    pose proof (Qc_add _ _ (Qc_sub_nonneg _ _ Hr) G) as F.
    match type of F with (0 <= ?t)%Qc => match goal with |- (0 <= ?g)%Qc => replace g with t by ring end end. exact F.
  - intros i Ig. pose proof (Qc_sub_nonneg _ _ (Hgh i Ig)) as G. apply Qc_nonneg_sub.
    match type of G with (0 <= ?t)%Qc => match goal with |- (0 <= ?g)%Qc => replace g with t by ring end end. exact G.
Qed.

Lemma below_v2_1d i0 i1 (dx : Z -> Qc) (beta : Qc) b0 gcw u f0 (alpha : Qc) rgcw res (m : mem QcS) (r w v0 : Z -> Qc) (B : Qc) :
  applied_v2_1d (S := QcS) i0 i1 dx beta b0 gcw u f0 alpha rgcw res m r w v0 ->
  (0 < beta)%Qc ->
  dx 0 <> 0%Qc ->
  (0 <= alpha)%Qc ->
  (forall i, i0 <= i <= i1 + 1 -> (0 < v0 i)%Qc) ->
  alpha = 0%Qc \/ (B <= 0)%Qc ->
  (forall i, patch1 i0 i1 i -> (0 <= r i)%Qc) ->
  (forall i, ghost1 i0 i1 i -> (B <= w i)%Qc) ->
  forall i, patch1 i0 i1 i -> (B <= w i)%Qc.
Proof.
  intros H1 Hb Hh Ha Hv0 HB Hr Hgh i Ip. apply Qc_nonneg_sub.
  match goal with |- (0 <= ?t)%Qc => replace t with (- ((- (1)) * w i + 1 * B))%Qc by ring end. apply (Qcopp_le_compat _ 0).
  revert i Ip. apply (core_v2_1d i0 i1 dx beta alpha v0 (fun i => (- (1)) * w i + 1 * B)%Qc Hb Hh Ha Hv0).
  - intros i Ip. rewrite (lin_T_v2_1d dx beta alpha v0 (- (1))%Qc 1%Qc w (fun _ => B)). rewrite <- (val_T_v2_1d _ _ _ _ _ _ _ _ _ _ _ _ _ _ _ H1 i Ip).
    replace (T_v2_1d dx beta alpha v0 (fun _ => B) i) with (alpha * B)%Qc by (unfold T_v2_1d, Qcdiv; ring).
    specialize (Hr i Ip). apply Qc_nonneg_sub.
    assert (G : (0 <= (- (1)) * (alpha * B))%Qc).
    { destruct HB as [->|HB]; [replace (_ * _)%Qc with 0%Qc by ring; apply Qcle_refl|]. apply Qc_sub_nonneg in HB. replace (_ * (alpha * B))%Qc with (alpha * (0 - B))%Qc by ring. apply Qc_mul; assumption. }
    pose proof (Qc_add _ _ (Qc_sub_nonneg _ _ Hr) G) as F.
    match type of F with (0 <= ?t)%Qc => match goal with |- (0 <= ?g)%Qc => replace g with t by ring end end. exact F.
  - intros i Ig. pose proof (Qc_sub_nonneg _ _ (Hgh i Ig)) as G. apply Qc_nonneg_sub.
    match type of G with (0 <= ?t)%Qc => match goal with |- (0 <= ?g)%Qc => replace g with t by ring end end. exact G.
Qed.

Lemma exists_v2_1d i0 i1 (dx : Z -> Qc) (beta : Qc) b0 gcw u f0 (alpha : Qc) rgcw res (g r v0 : Z -> Qc) :
  (0 < beta)%Qc ->
  dx 0 <> 0%Qc ->
  (0 <= alpha)%Qc ->
  (forall i, i0 <= i <= i1 + 1 -> (0 < v0 i)%Qc) ->
  exists w : Z -> Qc, (forall i, ~ patch1 i0 i1 i -> w i = g i) /\
  forall (m : mem QcS) s, applied_v2_1d (S := QcS) i0 i1 dx beta b0 gcw u f0 alpha rgcw res m s w v0 ->
  forall i, patch1 i0 i1 i -> s i = r i.
Proof.
  intros Hb Hh Ha Hv0.
  destruct (@solvable (Z) Z.eq_dec (fun w => (T_v2_1d dx beta alpha v0 (fun i => w i))) (cells1 i0 i1) (nodup_cells1 i0 i1)) with (g := g) (r := r) as (w & Hw & Tw).
  - intros x y w z i _. cbn [fst snd]. apply (lin_T_v2_1d dx beta alpha v0 x y (fun i => w i) (fun i => z i) i).
  - intros w Out Z. assert (G : forall i, patch1 i0 i1 i -> w i = 0%Qc).
    { intros i Ip. apply Qcle_antisym.
      - revert i Ip. apply (core_v2_1d i0 i1 dx beta alpha v0 (fun i => w i) Hb Hh Ha Hv0).
        + intros i Ip. pose proof (Z i (proj2 (in_cells1 i0 i1 i) Ip)) as Zp. cbn [fst snd] in Zp. rewrite Zp. apply Qcle_refl.
        + intros i (_ & N). rewrite Out; [apply Qcle_refl|]. intros C. apply N. now apply in_cells1.
      - apply Qc_nonneg_sub. replace (w i - 0)%Qc with (- ((- (1)) * w i + 0 * w i))%Qc by ring. apply (Qcopp_le_compat _ 0).
        revert i Ip. apply (core_v2_1d i0 i1 dx beta alpha v0 (fun i => (- (1)) * w i + 0 * w i)%Qc Hb Hh Ha Hv0).
        + intros i Ip. rewrite (lin_T_v2_1d dx beta alpha v0 (- (1))%Qc 0%Qc (fun i => w i) (fun i => w i) i). pose proof (Z i (proj2 (in_cells1 i0 i1 i) Ip)) as Zp. cbn [fst snd] in Zp. rewrite Zp. vm_compute. discriminate.
        + intros i (_ & N). rewrite Out; [vm_compute; discriminate|]. intros C. apply N. now apply in_cells1. }
    intros i Ip. apply G. now apply in_cells1.
  - intros w z i _ E. cbn [fst snd]. unfold T_v2_1d. rewrite !E. reflexivity.
  - exists (fun i => w i). split.
    + intros i N. apply (Hw i). intros C. apply N. now apply in_cells1.
    + intros m s H i Ip. rewrite (val_T_v2_1d _ _ _ _ _ _ _ _ _ _ _ _ _ _ _ H i Ip).
      apply (Tw i). now apply in_cells1.
Qed.

Definition T_poisson_1d (dx : Z -> Qc) (beta : Qc) (w : Z -> Qc) : Z -> Qc := fun i =>
  (- beta * ((1 * ((w (i + 1)%Z - w i) / dx 0%Z) - 1 * ((w i - w (i - 1)%Z) / dx 0%Z)) / dx 0%Z))%Qc.

Lemma val_T_poisson_1d i0 i1 (dx : Z -> Qc) (beta : Qc) gcw u f0 rgcw res (m : mem QcS) (r w : Z -> Qc) :
  applied_poisson_1d (S := QcS) i0 i1 dx beta gcw u f0 rgcw res m r w -> forall i, patch1 i0 i1 i -> r i = T_poisson_1d dx beta w i.
Proof.
  intros H i Ip. etransitivity; [exact (val_poisson_1d QcS_laws _ _ _ _ _ _ _ _ _ m r w  H i Ip)|].
  unfold T_poisson_1d. cbn -[Qcplus Qcmult Qcopp Qcminus Qcdiv Q2Qc]. unfold Qcdiv. ring.
Qed.

Lemma core_poisson_1d i0 i1 (dx : Z -> Qc) (beta : Qc) (e : Z -> Qc) :
  (0 < beta)%Qc ->
  dx 0 <> 0%Qc ->
  (forall i, patch1 i0 i1 i -> (T_poisson_1d dx beta e i <= 0)%Qc) ->
  (forall i, ghost1 i0 i1 i -> (e i <= 0)%Qc) ->
  forall i, patch1 i0 i1 i -> (e i <= 0)%Qc.
Proof.
  intros Hb Hh Hr Hgh i Ip.
  apply (walk (cells1 i0 i1) e (fun i => i + 1) (fun i => Z.to_nat (i1 - i))) with (p := i); [clear i Ip|now apply in_cells1].
  intros i Ip Mx Pe. cbn [fst snd] in *. apply in_cells1 in Ip.
  assert (Le : forall i', near1 i0 i1 i' -> (e i' <= e i)%Qc).
  { intros i' Hn. destruct (patch_dec1 i0 i1 i') as [Y|N].
    - apply (Mx (i')). now apply in_cells1.
    - apply Qcle_trans with 0%Qc; [apply Hgh; split; assumption|now apply Qclt_le_weak]. }
  specialize (Hr i Ip). unfold T_poisson_1d in Hr.
  assert (Eq : e (i + 1)%Z = e i).
  { refine (edge_term beta (dx 0) 1%Qc 1%Qc (e i) (e (i + 1)%Z) (e (i - 1)%Z) _ Hb Hh ltac:(vm_compute; first [reflexivity|discriminate]) ltac:(vm_compute; first [reflexivity|discriminate]) (Le (i + 1)%Z ltac:(k_near)) (Le (i - 1)%Z ltac:(k_near)) (Qcle_refl 0%Qc) _).
    rewrite Qcplus_0_r. exact Hr. }
  assert (In1 : patch1 i0 i1 (i + 1)).
  { destruct (patch_dec1 i0 i1 (i + 1)%Z) as [Y|N]; [exact Y|exfalso].
    apply (Qclt_not_le _ _ Pe). rewrite <- Eq. apply Hgh. split; [k_near|exact N]. }
  split; [now apply in_cells1|]. split; [exact Eq|k_near].
Qed.

Lemma lin_T_poisson_1d (dx : Z -> Qc) (beta : Qc) (x y : Qc) (w z : Z -> Qc) i :
  T_poisson_1d dx beta (fun i => x * w i + y * z i)%Qc i = (x * T_poisson_1d dx beta w i + y * T_poisson_1d dx beta z i)%Qc.
Proof. unfold T_poisson_1d, Qcdiv. ring. Qed.

Lemma compare_poisson_1d i0 i1 (dx : Z -> Qc) (beta : Qc) gcw u f0 rgcw res (m n : mem QcS) (r w s z : Z -> Qc) :
  applied_poisson_1d (S := QcS) i0 i1 dx beta gcw u f0 rgcw res m r w ->
  applied_poisson_1d (S := QcS) i0 i1 dx beta gcw u f0 rgcw res n s z ->
  (0 < beta)%Qc ->
  dx 0 <> 0%Qc ->
  (forall i, patch1 i0 i1 i -> (r i <= s i)%Qc) ->
  (forall i, ghost1 i0 i1 i -> (w i <= z i)%Qc) ->
  forall i, patch1 i0 i1 i -> (w i <= z i)%Qc.
Proof.
  intros H1 H2 Hb Hh Hr Hgh i Ip. apply Qc_nonneg_sub.
  replace (z i - w i)%Qc with (- (1 * w i + (- (1)) * z i))%Qc by ring. apply (Qcopp_le_compat _ 0).
  revert i Ip. apply (core_poisson_1d i0 i1 dx beta (fun i => 1 * w i + (- (1)) * z i)%Qc Hb Hh).
  - intros i Ip. rewrite lin_T_poisson_1d. rewrite <- (val_T_poisson_1d _ _ _ _ _ _ _ _ _ _ _ _  H1 i Ip), <- (val_T_poisson_1d _ _ _ _ _ _ _ _ _ _ _ _  H2 i Ip).
    pose proof (Qc_sub_nonneg _ _ (Hr i Ip)) as G. apply Qcopp_le_compat in G.
    replace (- 0)%Qc with 0%Qc in G by ring. replace (1 * r i + (- (1)) * s i)%Qc with (- (s i - r i))%Qc by ring. exact G.
  - intros i Ig. pose proof (Qc_sub_nonneg _ _ (Hgh i Ig)) as G. apply Qcopp_le_compat in G.
    replace (- 0)%Qc with 0%Qc in G by ring. replace (1 * w i + (- (1)) * z i)%Qc with (- (z i - w i))%Qc by ring. exact G.
Qed.

Lemma unique_poisson_1d i0 i1 (dx : Z -> Qc) (beta : Qc) gcw u f0 rgcw res (m n : mem QcS) (r w s z : Z -> Qc) :
  applied_poisson_1d (S := QcS) i0 i1 dx beta gcw u f0 rgcw res m r w ->
  applied_poisson_1d (S := QcS) i0 i1 dx beta gcw u f0 rgcw res n s z ->
  (0 < beta)%Qc ->
  dx 0 <> 0%Qc ->
  (forall i, patch1 i0 i1 i -> r i = s i) ->
  (forall i, ghost1 i0 i1 i -> w i = z i) ->
  forall i, patch1 i0 i1 i -> w i = z i.
Proof.
  intros H1 H2 Hb Hh Hr Hgh i Ip. apply Qcle_antisym.
  - apply (compare_poisson_1d i0 i1 dx beta gcw u f0 rgcw res m n r w s z  H1 H2 Hb Hh); try assumption; intros; rewrite ?Hr, ?Hgh by assumption; apply Qcle_refl.
  - apply (compare_poisson_1d i0 i1 dx beta gcw u f0 rgcw res n m s z r w  H2 H1 Hb Hh); try assumption; intros; rewrite ?Hr, ?Hgh by assumption; apply Qcle_refl.
Qed.

Lemma above_poisson_1d i0 i1 (dx : Z -> Qc) (beta : Qc) gcw u f0 rgcw res (m : mem QcS) (r w : Z -> Qc) (B : Qc) :
  applied_poisson_1d (S := QcS) i0 i1 dx beta gcw u f0 rgcw res m r w ->
  (0 < beta)%Qc ->
  dx 0 <> 0%Qc ->
  (forall i, patch1 i0 i1 i -> (r i <= 0)%Qc) ->
  (forall i, ghost1 i0 i1 i -> (w i <= B)%Qc) ->
  forall i, patch1 i0 i1 i -> (w i <= B)%Qc.
Proof.
  intros H1 Hb Hh Hr Hgh i Ip. apply Qc_nonneg_sub.
  match goal with |- (0 <= ?t)%Qc => replace t with (- (1 * w i + (- (1)) * B))%Qc by ring end. apply (Qcopp_le_compat _ 0).
  revert i Ip. apply (core_poisson_1d i0 i1 dx beta (fun i => 1 * w i + (- (1)) * B)%Qc Hb Hh).
  - intros i Ip. rewrite (lin_T_poisson_1d dx beta 1%Qc (- (1))%Qc w (fun _ => B)). rewrite <- (val_T_poisson_1d _ _ _ _ _ _ _ _ _ _ _ _  H1 i Ip).
    replace (T_poisson_1d dx beta (fun _ => B) i) with (0)%Qc by (unfold T_poisson_1d, Qcdiv; ring).
    specialize (Hr i Ip). apply Qc_nonneg_sub.
    assert (G : (0 <= 0)%Qc) by apply Qcle_refl.
    
    pose proof (Qc_add _ _ (Qc_sub_nonneg _ _ Hr) G) as F.
    match type of F with (0 <= ?t)%Qc => match goal with |- (0 <= ?g)%Qc => replace g with t by ring end end. exact F.
  - intros i Ig. pose proof (Qc_sub_nonneg _ _ (Hgh i Ig)) as G. apply Qc_nonneg_sub.
    match type of G with (0 <= ?t)%Qc => match goal with |- (0 <= ?g)%Qc => replace g with t by ring end end. exact G.
Qed.

Lemma below_poisson_1d i0 i1 (dx : Z -> Qc) (beta : Qc) gcw u f0 rgcw res (m : mem QcS) (r w : Z -> Qc) (B : Qc) :
  applied_poisson_1d (S := QcS) i0 i1 dx beta gcw u f0 rgcw res m r w ->
  (0 < beta)%Qc ->
  dx 0 <> 0%Qc ->
  (forall i, patch1 i0 i1 i -> (0 <= r i)%Qc) ->
  (forall i, ghost1 i0 i1 i -> (B <= w i)%Qc) ->
  forall i, patch1 i0 i1 i -> (B <= w i)%Qc.
Proof.
  intros H1 Hb Hh Hr Hgh i Ip. apply Qc_nonneg_sub.
  match goal with |- (0 <= ?t)%Qc => replace t with (- ((- (1)) * w i + 1 * B))%Qc by ring end. apply (Qcopp_le_compat _ 0).
  revert i Ip. apply (core_poisson_1d i0 i1 dx beta (fun i => (- (1)) * w i + 1 * B)%Qc Hb Hh).
  - intros i Ip. rewrite (lin_T_poisson_1d dx beta (- (1))%Qc 1%Qc w (fun _ => B)). rewrite <- (val_T_poisson_1d _ _ _ _ _ _ _ _ _ _ _ _  H1 i Ip).
    replace (T_poisson_1d dx beta (fun _ => B) i) with (0)%Qc by (unfold T_poisson_1d, Qcdiv; ring).
    specialize (Hr i Ip). apply Qc_nonneg_sub.
    assert (G : (0 <= 0)%Qc) by apply Qcle_refl.
    
    pose proof (Qc_add _ _ (Qc_sub_nonneg _ _ Hr) G) as F.
    match type of F with (0 <= ?t)%Qc => match goal with |- (0 <= ?g)%Qc => replace g with t by ring end end. exact F.
  - intros i Ig. pose proof (Qc_sub_nonneg _ _ (Hgh i Ig)) as G. apply Qc_nonneg_sub.
    match type of G with (0 <= ?t)%Qc => match goal with |- (0 <= ?g)%Qc => replace g with t by ring end end. exact G.
Qed.

Lemma exists_poisson_1d i0 i1 (dx : Z -> Qc) (beta : Qc) gcw u f0 rgcw res (g r : Z -> Qc) :
  (0 < beta)%Qc ->
  dx 0 <> 0%Qc ->
  exists w : Z -> Qc, (forall i, ~ patch1 i0 i1 i -> w i = g i) /\
  forall (m : mem QcS) s, applied_poisson_1d (S := QcS) i0 i1 dx beta gcw u f0 rgcw res m s w ->
  forall i, patch1 i0 i1 i -> s i = r i.
Proof.
  intros Hb Hh.
  destruct (@solvable (Z) Z.eq_dec (fun w => (T_poisson_1d dx beta (fun i => w i))) (cells1 i0 i1) (nodup_cells1 i0 i1)) with (g := g) (r := r) as (w & Hw & Tw).
  - intros x y w z i _. cbn [fst snd]. apply (lin_T_poisson_1d dx beta x y (fun i => w i) (fun i => z i) i).
  - intros w Out Z. assert (G : forall i, patch1 i0 i1 i -> w i = 0%Qc).
    { intros i Ip. apply Qcle_antisym.
      - revert i Ip. apply (core_poisson_1d i0 i1 dx beta (fun i => w i) Hb Hh).
        + intros i Ip. pose proof (Z i (proj2 (in_cells1 i0 i1 i) Ip)) as Zp. cbn [fst snd] in Zp. rewrite Zp. apply Qcle_refl.
        + intros i (_ & N). rewrite Out; [apply Qcle_refl|]. intros C. apply N. now apply in_cells1.
      - apply Qc_nonneg_sub. replace (w i - 0)%Qc with (- ((- (1)) * w i + 0 * w i))%Qc by ring. apply (Qcopp_le_compat _ 0).
        revert i Ip. apply (core_poisson_1d i0 i1 dx beta (fun i => (- (1)) * w i + 0 * w i)%Qc Hb Hh).
        + intros i Ip. rewrite (lin_T_poisson_1d dx beta (- (1))%Qc 0%Qc (fun i => w i) (fun i => w i) i). pose proof (Z i (proj2 (in_cells1 i0 i1 i) Ip)) as Zp. cbn [fst snd] in Zp. rewrite Zp. vm_compute. discriminate.
        + intros i (_ & N). rewrite Out; [vm_compute; discriminate|]. intros C. apply N. now apply in_cells1. }
    intros i Ip. apply G. now apply in_cells1.
  - intros w z i _ E. cbn [fst snd]. unfold T_poisson_1d. rewrite !E. reflexivity.
  - exists (fun i => w i). split.
    + intros i N. apply (Hw i). intros C. apply N. now apply in_cells1.
    + intros m s H i Ip. rewrite (val_T_poisson_1d _ _ _ _ _ _ _ _ _ _ _ _  H i Ip).
      apply (Tw i). now apply in_cells1.
Qed.

Definition T_v1_2d (dx : Z -> Qc) (beta alpha : Qc) (c v0 v1 : Z -> Z -> Qc) (w : Z -> Z -> Qc) : Z -> Z -> Qc := fun i j =>
  (- beta * ((v0 (i + 1)%Z j * ((w (i + 1)%Z j - w i j) / dx 0%Z) - v0 i j * ((w i j - w (i - 1)%Z j) / dx 0%Z)) / dx 0%Z) + - beta * ((v1 i (j + 1)%Z * ((w i (j + 1)%Z - w i j) / dx 1%Z) - v1 i j * ((w i j - w i (j - 1)%Z) / dx 1%Z)) / dx 1%Z) + alpha * (c i j * w i j))%Qc.

Lemma val_T_v1_2d i0 j0 i1 j1 (dx : Z -> Qc) (beta : Qc) b0 b1 gcw u f0 f1 (alpha : Qc) agcw a rgcw res (m : mem QcS) (r w c v0 v1 : Z -> Z -> Qc) :
  applied_v1_2d (S := QcS) i0 j0 i1 j1 dx beta b0 b1 gcw u f0 f1 alpha agcw a rgcw res m r w c v0 v1 -> forall i j, patch2 i0 j0 i1 j1 i j -> r i j = T_v1_2d dx beta alpha c v0 v1 w i j.
Proof.
  intros H i j Ip. etransitivity; [exact (val_v1_2d QcS_laws _ _ _ _ _ _ _ _ _ _ _ _ _ _ _ _ _ m r w _ _ _ H i j Ip)|].
  unfold T_v1_2d. cbn -[Qcplus Qcmult Qcopp Qcminus Qcdiv Q2Qc]. unfold Qcdiv. ring.
Qed.

Lemma core_v1_2d i0 j0 i1 j1 (dx : Z -> Qc) (beta alpha : Qc) (c v0 v1 : Z -> Z -> Qc) (e : Z -> Z -> Qc) :
  (0 < beta)%Qc ->
  dx 0 <> 0%Qc ->
  (0 <= alpha)%Qc ->
  (forall i j, patch2 i0 j0 i1 j1 i j -> (0 <= c i j)%Qc) ->
  (forall i j, i0 <= i <= i1 + 1 -> j0 <= j <= j1 -> (0 < v0 i j)%Qc) ->
  (forall i j, i0 <= i <= i1 -> j0 <= j <= j1 + 1 -> (0 <= v1 i j)%Qc) ->
  (forall i j, patch2 i0 j0 i1 j1 i j -> (T_v1_2d dx beta alpha c v0 v1 e i j <= 0)%Qc) ->
  (forall i j, ghost2 i0 j0 i1 j1 i j -> (e i j <= 0)%Qc) ->
  forall i j, patch2 i0 j0 i1 j1 i j -> (e i j <= 0)%Qc.
Proof.
  intros Hb Hh Ha Hc Hv0 Hv1 Hr Hgh i j Ip.
  apply (walk (cells2 i0 j0 i1 j1) (fun p : Z * Z => e (fst p) (snd p)) (fun p : Z * Z => (fst p + 1, snd p)) (fun p : Z * Z => Z.to_nat (i1 - fst p))) with (p := (i, j)); [clear i j Ip|now apply in_cells2].
  intros [i j] Ip Mx Pe. cbn [fst snd] in *. apply in_cells2 in Ip.
  assert (Le : forall i' j', near2 i0 j0 i1 j1 i' j' -> (e i' j' <= e i j)%Qc).
  { intros i' j' Hn. destruct (patch_dec2 i0 j0 i1 j1 i' j') as [Y|N].
    - apply (Mx (i', j')). now apply in_cells2.
    - apply Qcle_trans with 0%Qc; [apply Hgh; split; assumption|now apply Qclt_le_weak]. }
  specialize (Hr i j Ip). unfold T_v1_2d in Hr.
  assert (Eq : e (i + 1)%Z j = e i j).
  { refine (edge_term beta (dx 0) (v0 (i + 1)%Z j) (v0 i j) (e i j) (e (i + 1)%Z j) (e (i - 1)%Z j) _ Hb Hh (Hv0 (i + 1)%Z j ltac:(k_near) ltac:(k_near)) (Qclt_le_weak _ _ (Hv0 i j ltac:(k_near) ltac:(k_near))) (Le (i + 1)%Z j ltac:(k_near)) (Le (i - 1)%Z j ltac:(k_near)) (Qc_add _ _ (other_term beta (dx 1) (v1 i (j + 1)%Z) (v1 i j) (e i j) (e i (j + 1)%Z) (e i (j - 1)%Z) (Qclt_le_weak _ _ Hb) (Hv1 i (j + 1)%Z ltac:(k_near) ltac:(k_near)) (Hv1 i j ltac:(k_near) ltac:(k_near)) (Le i (j + 1)%Z ltac:(k_near)) (Le i (j - 1)%Z ltac:(k_near))) (Qc_mul _ _ Ha (Qc_mul _ _ (Hc i j Ip) (Qclt_le_weak _ _ Pe)))) _).
    rewrite ?Qcplus_assoc in *. exact Hr. }
  assert (In1 : patch2 i0 j0 i1 j1 (i + 1) j).
  { destruct (patch_dec2 i0 j0 i1 j1 (i + 1)%Z j) as [Y|N]; [exact Y|exfalso].
    apply (Qclt_not_le _ _ Pe). rewrite <- Eq. apply Hgh. split; [k_near|exact N]. }
  split; [now apply in_cells2|]. split; [exact Eq|k_near].
Qed.

Lemma lin_T_v1_2d (dx : Z -> Qc) (beta alpha : Qc) (c v0 v1 : Z -> Z -> Qc) (x y : Qc) (w z : Z -> Z -> Qc) i j :
  T_v1_2d dx beta alpha c v0 v1 (fun i j => x * w i j + y * z i j)%Qc i j = (x * T_v1_2d dx beta alpha c v0 v1 w i j + y * T_v1_2d dx beta alpha c v0 v1 z i j)%Qc.
Proof. unfold T_v1_2d, Qcdiv. ring. Qed.

Lemma compare_v1_2d i0 j0 i1 j1 (dx : Z -> Qc) (beta : Qc) b0 b1 gcw u f0 f1 (alpha : Qc) agcw a rgcw res (m n : mem QcS) (r w s z c v0 v1 : Z -> Z -> Qc) :
  applied_v1_2d (S := QcS) i0 j0 i1 j1 dx beta b0 b1 gcw u f0 f1 alpha agcw a rgcw res m r w c v0 v1 ->
  applied_v1_2d (S := QcS) i0 j0 i1 j1 dx beta b0 b1 gcw u f0 f1 alpha agcw a rgcw res n s z c v0 v1 ->
  (0 < beta)%Qc ->
  dx 0 <> 0%Qc ->
  (0 <= alpha)%Qc ->
  (forall i j, patch2 i0 j0 i1 j1 i j -> (0 <= c i j)%Qc) ->
  (forall i j, i0 <= i <= i1 + 1 -> j0 <= j <= j1 -> (0 < v0 i j)%Qc) ->
  (forall i j, i0 <= i <= i1 -> j0 <= j <= j1 + 1 -> (0 <= v1 i j)%Qc) ->
  (forall i j, patch2 i0 j0 i1 j1 i j -> (r i j <= s i j)%Qc) ->
  (forall i j, ghost2 i0 j0 i1 j1 i j -> (w i j <= z i j)%Qc) ->
  forall i j, patch2 i0 j0 i1 j1 i j -> (w i j <= z i j)%Qc.
Proof.
  intros H1 H2 Hb Hh Ha Hc Hv0 Hv1 Hr Hgh i j Ip. apply Qc_nonneg_sub.
  replace (z i j - w i j)%Qc with (- (1 * w i j + (- (1)) * z i j))%Qc by ring. apply (Qcopp_le_compat _ 0).
  revert i j Ip. apply (core_v1_2d i0 j0 i1 j1 dx beta alpha c v0 v1 (fun i j => 1 * w i j + (- (1)) * z i j)%Qc Hb Hh Ha Hc Hv0 Hv1).
  - intros i j Ip. rewrite lin_T_v1_2d. rewrite <- (val_T_v1_2d _ _ _ _ _ _ _ _ _ _ _ _ _ _ _ _ _ _ _ _ _ _ _ H1 i j Ip), <- (val_T_v1_2d _ _ _ _ _ _ _ _ _ _ _ _ _ _ _ _ _ _ _ _ _ _ _ H2 i j Ip).
    pose proof (Qc_sub_nonneg _ _ (Hr i j Ip)) as G. apply Qcopp_le_compat in G.
    replace (- 0)%Qc with 0%Qc in G by ring. replace (1 * r i j + (- (1)) * s i j)%Qc with (- (s i j - r i j))%Qc by ring. exact G.
  - intros i j Ig. pose proof (Qc_sub_nonneg _ _ (Hgh i j Ig)) as G. apply Qcopp_le_compat in G.
    replace (- 0)%Qc with 0%Qc in G by ring. replace (1 * w i j + (- (1)) * z i j)%Qc with (- (z i j - w i j))%Qc by ring. exact G.
Qed.

Lemma unique_v1_2d i0 j0 i1 j1 (dx : Z -> Qc) (beta : Qc) b0 b1 gcw u f0 f1 (alpha : Qc) agcw a rgcw res (m n : mem QcS) (r w s z c v0 v1 : Z -> Z -> Qc) :
  applied_v1_2d (S := QcS) i0 j0 i1 j1 dx beta b0 b1 gcw u f0 f1 alpha agcw a rgcw res m r w c v0 v1 ->
  applied_v1_2d (S := QcS) i0 j0 i1 j1 dx beta b0 b1 gcw u f0 f1 alpha agcw a rgcw res n s z c v0 v1 ->
  (0 < beta)%Qc ->
  dx 0 <> 0%Qc ->
  (0 <= alpha)%Qc ->
  (forall i j, patch2 i0 j0 i1 j1 i j -> (0 <= c i j)%Qc) ->
  (forall i j, i0 <= i <= i1 + 1 -> j0 <= j <= j1 -> (0 < v0 i j)%Qc) ->
  (forall i j, i0 <= i <= i1 -> j0 <= j <= j1 + 1 -> (0 <= v1 i j)%Qc) ->
  (forall i j, patch2 i0 j0 i1 j1 i j -> r i j = s i j) ->
  (forall i j, ghost2 i0 j0 i1 j1 i j -> w i j = z i j) ->
  forall i j, patch2 i0 j0 i1 j1 i j -> w i j = z i j.
Proof.
  intros H1 H2 Hb Hh Ha Hc Hv0 Hv1 Hr Hgh i j Ip. apply Qcle_antisym.
  - apply (compare_v1_2d i0 j0 i1 j1 dx beta b0 b1 gcw u f0 f1 alpha agcw a rgcw res m n r w s z c v0 v1 H1 H2 Hb Hh Ha Hc Hv0 Hv1); try assumption; intros; rewrite ?Hr, ?Hgh by assumption; apply Qcle_refl.
  - apply (compare_v1_2d i0 j0 i1 j1 dx beta b0 b1 gcw u f0 f1 alpha agcw a rgcw res n m s z r w c v0 v1 H2 H1 Hb Hh Ha Hc Hv0 Hv1); try assumption; intros; rewrite ?Hr, ?Hgh by assumption; apply Qcle_refl.
Qed.

Lemma above_v1_2d i0 j0 i1 j1 (dx : Z -> Qc) (beta : Qc) b0 b1 gcw u f0 f1 (alpha : Qc) agcw a rgcw res (m : mem QcS) (r w c v0 v1 : Z -> Z -> Qc) (B : Qc) :
  applied_v1_2d (S := QcS) i0 j0 i1 j1 dx beta b0 b1 gcw u f0 f1 alpha agcw a rgcw res m r w c v0 v1 ->
  (0 < beta)%Qc ->
  dx 0 <> 0%Qc ->
  (0 <= alpha)%Qc ->
  (forall i j, patch2 i0 j0 i1 j1 i j -> (0 <= c i j)%Qc) ->
  (forall i j, i0 <= i <= i1 + 1 -> j0 <= j <= j1 -> (0 < v0 i j)%Qc) ->
  (forall i j, i0 <= i <= i1 -> j0 <= j <= j1 + 1 -> (0 <= v1 i j)%Qc) ->
  alpha = 0%Qc \/ (0 <= B)%Qc ->
  (forall i j, patch2 i0 j0 i1 j1 i j -> (r i j <= 0)%Qc) ->
  (forall i j, ghost2 i0 j0 i1 j1 i j -> (w i j <= B)%Qc) ->
  forall i j, patch2 i0 j0 i1 j1 i j -> (w i j <= B)%Qc.
Proof.
  intros H1 Hb Hh Ha Hc Hv0 Hv1 HB Hr Hgh i j Ip. apply Qc_nonneg_sub.
  match goal with |- (0 <= ?t)%Qc => replace t with (- (1 * w i j + (- (1)) * B))%Qc by ring end. apply (Qcopp_le_compat _ 0).
  revert i j Ip. apply (core_v1_2d i0 j0 i1 j1 dx beta alpha c v0 v1 (fun i j => 1 * w i j + (- (1)) * B)%Qc Hb Hh Ha Hc Hv0 Hv1).
  - intros i j Ip. rewrite (lin_T_v1_2d dx beta alpha c v0 v1 1%Qc (- (1))%Qc w (fun _ _ => B)). rewrite <- (val_T_v1_2d _ _ _ _ _ _ _ _ _ _ _ _ _ _ _ _ _ _ _ _ _ _ _ H1 i j Ip).
    replace (T_v1_2d dx beta alpha c v0 v1 (fun _ _ => B) i j) with (alpha * (c i j * B))%Qc by (unfold T_v1_2d, Qcdiv; ring).
    specialize (Hr i j Ip). apply Qc_nonneg_sub.
    assert (G : (0 <= 1 * (alpha * (c i j * B)))%Qc).
    { destruct HB as [->|HB]; [replace (_ * _)%Qc with 0%Qc by ring; apply Qcle_refl|]. replace (_ * (alpha * (c i j * B)))%Qc with (alpha * (c i j * B))%Qc by ring. apply Qc_mul; [exact Ha|apply Qc_mul; [apply Hc, Ip|exact HB]]. }
    pose proof (Qc_add _ _ (Qc_sub_nonneg _ _ Hr) G) as F.
    match type of F with (0 <= ?t)%Qc => match goal with |- (0 <= ?g)%Qc => replace g with t by ring end end. exact F.
  - intros i j Ig. pose proof (Qc_sub_nonneg _ _ (Hgh i j Ig)) as G. apply Qc_nonneg_sub.
    match type of G with (0 <= ?t)%Qc => match goal with |- (0 <= ?g)%Qc => replace g with t by ring end end. exact G.
Qed.

Lemma below_v1_2d i0 j0 i1 j1 (dx : Z -> Qc) (beta : Qc) b0 b1 gcw u f0 f1 (alpha : Qc) agcw a rgcw res (m : mem QcS) (r w c v0 v1 : Z -> Z -> Qc) (B : Qc) :
  applied_v1_2d (S := QcS) i0 j0 i1 j1 dx beta b0 b1 gcw u f0 f1 alpha agcw a rgcw res m r w c v0 v1 ->
  (0 < beta)%Qc ->
  dx 0 <> 0%Qc ->
  (0 <= alpha)%Qc ->
  (forall i j, patch2 i0 j0 i1 j1 i j -> (0 <= c i j)%Qc) ->
  (forall i j, i0 <= i <= i1 + 1 -> j0 <= j <= j1 -> (0 < v0 i j)%Qc) ->
  (forall i j, i0 <= i <= i1 -> j0 <= j <= j1 + 1 -> (0 <= v1 i j)%Qc) ->
  alpha = 0%Qc \/ (B <= 0)%Qc ->
  (forall i j, patch2 i0 j0 i1 j1 i j -> (0 <= r i j)%Qc) ->
  (forall i j, ghost2 i0 j0 i1 j1 i j -> (B <= w i j)%Qc) ->
  forall i j, patch2 i0 j0 i1 j1 i j -> (B <= w i j)%Qc.
Proof.
  intros H1 Hb Hh Ha Hc Hv0 Hv1 HB Hr Hgh i j Ip. apply Qc_nonneg_sub.
  match goal with |- (0 <= ?t)%Qc => replace t with (- ((- (1)) * w i j + 1 * B))%Qc by ring end. apply (Qcopp_le_compat _ 0).
  revert i j Ip. apply (core_v1_2d i0 j0 i1 j1 dx beta alpha c v0 v1 (fun i j => (- (1)) * w i j + 1 * B)%Qc Hb Hh Ha Hc Hv0 Hv1).
  - intros i j Ip. rewrite (lin_T_v1_2d dx beta alpha c v0 v1 (- (1))%Qc 1%Qc w (fun _ _ => B)). rewrite <- (val_T_v1_2d _ _ _ _ _ _ _ _ _ _ _ _ _ _ _ _ _ _ _ _ _ _ _ H1 i j Ip).
    replace (T_v1_2d dx beta alpha c v0 v1 (fun _ _ => B) i j) with (alpha * (c i j * B))%Qc by (unfold T_v1_2d, Qcdiv; ring).
    specialize (Hr i j Ip). apply Qc_nonneg_sub.
    assert (G : (0 <= (- (1)) * (alpha * (c i j * B)))%Qc).
    { destruct HB as [->|HB]; [replace (_ * _)%Qc with 0%Qc by ring; apply Qcle_refl|]. apply Qc_sub_nonneg in HB. replace (_ * (alpha * (c i j * B)))%Qc with (alpha * (c i j * (0 - B)))%Qc by ring. apply Qc_mul; [exact Ha|apply Qc_mul; [apply Hc, Ip|exact HB]]. }
    pose proof (Qc_add _ _ (Qc_sub_nonneg _ _ Hr) G) as F.
    match type of F with (0 <= ?t)%Qc => match goal with |- (0 <= ?g)%Qc => replace g with t by ring end end. exact F.
  - intros i j Ig. pose proof (Qc_sub_nonneg _ _ (Hgh i j Ig)) as G. apply Qc_nonneg_sub.
    match type of G with (0 <= ?t)%Qc => match goal with |- (0 <= ?g)%Qc => replace g with t by ring end end. exact G.
Qed.

Lemma exists_v1_2d i0 j0 i1 j1 (dx : Z -> Qc) (beta : Qc) b0 b1 gcw u f0 f1 (alpha : Qc) agcw a rgcw res (g r c v0 v1 : Z -> Z -> Qc) :
  (0 < beta)%Qc ->
  dx 0 <> 0%Qc ->
  (0 <= alpha)%Qc ->
  (forall i j, patch2 i0 j0 i1 j1 i j -> (0 <= c i j)%Qc) ->
  (forall i j, i0 <= i <= i1 + 1 -> j0 <= j <= j1 -> (0 < v0 i j)%Qc) ->
  (forall i j, i0 <= i <= i1 -> j0 <= j <= j1 + 1 -> (0 <= v1 i j)%Qc) ->
  exists w : Z -> Z -> Qc, (forall i j, ~ patch2 i0 j0 i1 j1 i j -> w i j = g i j) /\
  forall (m : mem QcS) s, applied_v1_2d (S := QcS) i0 j0 i1 j1 dx beta b0 b1 gcw u f0 f1 alpha agcw a rgcw res m s w c v0 v1 ->
  forall i j, patch2 i0 j0 i1 j1 i j -> s i j = r i j.
Proof.
  intros Hb Hh Ha Hc Hv0 Hv1.
  destruct (@solvable (Z * Z) dec2 (fun w => (fun p : Z * Z => (T_v1_2d dx beta alpha c v0 v1 (fun i j => w (i, j))) (fst p) (snd p))) (cells2 i0 j0 i1 j1) (nodup_cells2 i0 j0 i1 j1)) with (g := (fun p : Z * Z => g (fst p) (snd p))) (r := (fun p : Z * Z => r (fst p) (snd p))) as (w & Hw & Tw).
  - intros x y w z [i j] _. cbn [fst snd]. apply (lin_T_v1_2d dx beta alpha c v0 v1 x y (fun i j => w (i, j)) (fun i j => z (i, j)) i j).
  - intros w Out Z. assert (G : forall i j, patch2 i0 j0 i1 j1 i j -> w (i, j) = 0%Qc).
    { intros i j Ip. apply Qcle_antisym.
      - revert i j Ip. apply (core_v1_2d i0 j0 i1 j1 dx beta alpha c v0 v1 (fun i j => w (i, j)) Hb Hh Ha Hc Hv0 Hv1).
        + intros i j Ip. pose proof (Z (i, j) (proj2 (in_cells2 i0 j0 i1 j1 i j) Ip)) as Zp. cbn [fst snd] in Zp. rewrite Zp. apply Qcle_refl.
        + intros i j (_ & N). rewrite Out; [apply Qcle_refl|]. intros C. apply N. now apply in_cells2.
      - apply Qc_nonneg_sub. replace (w (i, j) - 0)%Qc with (- ((- (1)) * w (i, j) + 0 * w (i, j)))%Qc by ring. apply (Qcopp_le_compat _ 0).
        revert i j Ip. apply (core_v1_2d i0 j0 i1 j1 dx beta alpha c v0 v1 (fun i j => (- (1)) * w (i, j) + 0 * w (i, j))%Qc Hb Hh Ha Hc Hv0 Hv1).
        + intros i j Ip. rewrite (lin_T_v1_2d dx beta alpha c v0 v1 (- (1))%Qc 0%Qc (fun i j => w (i, j)) (fun i j => w (i, j)) i j). pose proof (Z (i, j) (proj2 (in_cells2 i0 j0 i1 j1 i j) Ip)) as Zp. cbn [fst snd] in Zp. rewrite Zp. vm_compute. discriminate.
        + intros i j (_ & N). rewrite Out; [vm_compute; discriminate|]. intros C. apply N. now apply in_cells2. }
    intros [i j] Ip. apply G. now apply in_cells2.
  - intros w z [i j] _ E. cbn [fst snd]. unfold T_v1_2d. rewrite !E. reflexivity.
  - exists (fun i j => w (i, j)). split.
    + intros i j N. apply (Hw (i, j)). intros C. apply N. now apply in_cells2.
    + intros m s H i j Ip. rewrite (val_T_v1_2d _ _ _ _ _ _ _ _ _ _ _ _ _ _ _ _ _ _ _ _ _ _ _ H i j Ip).
      apply (Tw (i, j)). now apply in_cells2.
Qed.

Definition T_v2_2d (dx : Z -> Qc) (beta alpha : Qc) (v0 v1 : Z -> Z -> Qc) (w : Z -> Z -> Qc) : Z -> Z -> Qc := fun i j =>
  (- beta * ((v0 (i + 1)%Z j * ((w (i + 1)%Z j - w i j) / dx 0%Z) - v0 i j * ((w i j - w (i - 1)%Z j) / dx 0%Z)) / dx 0%Z) + - beta * ((v1 i (j + 1)%Z * ((w i (j + 1)%Z - w i j) / dx 1%Z) - v1 i j * ((w i j - w i (j - 1)%Z) / dx 1%Z)) / dx 1%Z) + alpha * w i j)%Qc.

Lemma val_T_v2_2d i0 j0 i1 j1 (dx : Z -> Qc) (beta : Qc) b0 b1 gcw u f0 f1 (alpha : Qc) rgcw res (m : mem QcS) (r w v0 v1 : Z -> Z -> Qc) :
  applied_v2_2d (S := QcS) i0 j0 i1 j1 dx beta b0 b1 gcw u f0 f1 alpha rgcw res m r w v0 v1 -> forall i j, patch2 i0 j0 i1 j1 i j -> r i j = T_v2_2d dx beta alpha v0 v1 w i j.
Proof.
  intros H i j Ip. etransitivity; [exact (val_v2_2d QcS_laws _ _ _ _ _ _ _ _ _ _ _ _ _ _ _ m r w _ _ H i j Ip)|].
  unfold T_v2_2d. cbn -[Qcplus Qcmult Qcopp Qcminus Qcdiv Q2Qc]. unfold Qcdiv. ring.
Qed.

Lemma core_v2_2d i0 j0 i1 j1 (dx : Z -> Qc) (beta alpha : Qc) (v0 v1 : Z -> Z -> Qc) (e : Z -> Z -> Qc) :
  (0 < beta)%Qc ->
  dx 0 <> 0%Qc ->
  (0 <= alpha)%Qc ->
  (forall i j, i0 <= i <= i1 + 1 -> j0 <= j <= j1 -> (0 < v0 i j)%Qc) ->
  (forall i j, i0 <= i <= i1 -> j0 <= j <= j1 + 1 -> (0 <= v1 i j)%Qc) ->
  (forall i j, patch2 i0 j0 i1 j1 i j -> (T_v2_2d dx beta alpha v0 v1 e i j <= 0)%Qc) ->
  (forall i j, ghost2 i0 j0 i1 j1 i j -> (e i j <= 0)%Qc) ->
  forall i j, patch2 i0 j0 i1 j1 i j -> (e i j <= 0)%Qc.
Proof.
  intros Hb Hh Ha Hv0 Hv1 Hr Hgh i j Ip.
  apply (walk (cells2 i0 j0 i1 j1) (fun p : Z * Z => e (fst p) (snd p)) (fun p : Z * Z => (fst p + 1, snd p)) (fun p : Z * Z => Z.to_nat (i1 - fst p))) with (p := (i, j)); [clear i j Ip|now apply in_cells2].
  intros [i j] Ip Mx Pe. cbn [fst snd] in *. apply in_cells2 in Ip.
  assert (Le : forall i' j', near2 i0 j0 i1 j1 i' j' -> (e i' j' <= e i j)%Qc).
  { intros i' j' Hn. destruct (patch_dec2 i0 j0 i1 j1 i' j') as [Y|N].
    - apply (Mx (i', j')). now apply in_cells2.
    - apply Qcle_trans with 0%Qc; [apply Hgh; split; assumption|now apply Qclt_le_weak]. }
  specialize (Hr i j Ip). unfold T_v2_2d in Hr.
  assert (Eq : e (i + 1)%Z j = e i j).
  { refine (edge_term beta (dx 0) (v0 (i + 1)%Z j) (v0 i j) (e i j) (e (i + 1)%Z j) (e (i - 1)%Z j) _ Hb Hh (Hv0 (i + 1)%Z j ltac:(k_near) ltac:(k_near)) (Qclt_le_weak _ _ (Hv0 i j ltac:(k_near) ltac:(k_near))) (Le (i + 1)%Z j ltac:(k_near)) (Le (i - 1)%Z j ltac:(k_near)) (Qc_add _ _ (other_term beta (dx 1) (v1 i (j + 1)%Z) (v1 i j) (e i j) (e i (j + 1)%Z) (e i (j - 1)%Z) (Qclt_le_weak _ _ Hb) (Hv1 i (j + 1)%Z ltac:(k_near) ltac:(k_near)) (Hv1 i j ltac:(k_near) ltac:(k_near)) (Le i (j + 1)%Z ltac:(k_near)) (Le i (j - 1)%Z ltac:(k_near))) (Qc_mul _ _ Ha (Qclt_le_weak _ _ Pe))) _).
    rewrite ?Qcplus_assoc in *. exact Hr. }
  assert (In1 : patch2 i0 j0 i1 j1 (i + 1) j).
  { destruct (patch_dec2 i0 j0 i1 j1 (i + 1)%Z j) as [Y|N]; [exact Y|exfalso].
    apply (Qclt_not_le _ _ Pe). rewrite <- Eq. apply Hgh. split; [k_near|exact N]. }
  split; [now apply in_cells2|]. split; [exact Eq|k_near].
Qed.

Lemma lin_T_v2_2d (dx : Z -> Qc) (beta alpha : Qc) (v0 v1 : Z -> Z -> Qc) (x y : Qc) (w z : Z -> Z -> Qc) i j :
  T_v2_2d dx beta alpha v0 v1 (fun i j => x * w i j + y * z i j)%Qc i j = (x * T_v2_2d dx beta alpha v0 v1 w i j + y * T_v2_2d dx beta alpha v0 v1 z i j)%Qc.
Proof. unfold T_v2_2d, Qcdiv. ring. Qed.

Lemma compare_v2_2d i0 j0 i1 j1 (dx : Z -> Qc) (beta : Qc) b0 b1 gcw u f0 f1 (alpha : Qc) rgcw res (m n : mem QcS) (r w s z v0 v1 : Z -> Z -> Qc) :
  applied_v2_2d (S := QcS) i0 j0 i1 j1 dx beta b0 b1 gcw u f0 f1 alpha rgcw res m r w v0 v1 ->
  applied_v2_2d (S := QcS) i0 j0 i1 j1 dx beta b0 b1 gcw u f0 f1 alpha rgcw res n s z v0 v1 ->
  (0 < beta)%Qc ->
  dx 0 <> 0%Qc ->
  (0 <= alpha)%Qc ->
  (forall i j, i0 <= i <= i1 + 1 -> j0 <= j <= j1 -> (0 < v0 i j)%Qc) ->
  (forall i j, i0 <= i <= i1 -> j0 <= j <= j1 + 1 -> (0 <= v1 i j)%Qc) ->
  (forall i j, patch2 i0 j0 i1 j1 i j -> (r i j <= s i j)%Qc) ->
  (forall i j, ghost2 i0 j0 i1 j1 i j -> (w i j <= z i j)%Qc) ->
  forall i j, patch2 i0 j0 i1 j1 i j -> (w i j <= z i j)%Qc.
Proof.
  intros H1 H2 Hb Hh Ha Hv0 Hv1 Hr Hgh i j Ip. apply Qc_nonneg_sub.
  replace (z i j - w i j)%Qc with (- (1 * w i j + (- (1)) * z i j))%Qc by ring. apply (Qcopp_le_compat _ 0).
  revert i j Ip. apply (core_v2_2d i0 j0 i1 j1 dx beta alpha v0 v1 (fun i j => 1 * w i j + (- (1)) * z i j)%Qc Hb Hh Ha Hv0 Hv1).
  - intros i j Ip. rewrite lin_T_v2_2d. rewrite <- (val_T_v2_2d _ _ _ _ _ _ _ _ _ _ _ _ _ _ _ _ _ _ _ _ H1 i j Ip), <- (val_T_v2_2d _ _ _ _ _ _ _ _ _ _ _ _ _ _ _ _ _ _ _ _ H2 i j Ip).
    pose proof (Qc_sub_nonneg _ _ (Hr i j Ip)) as G. apply Qcopp_le_compat in G.
    replace (- 0)%Qc with 0%Qc in G by ring. replace (1 * r i j + (- (1)) * s i j)%Qc with (- (s i j - r i j))%Qc by ring. exact G.
  - intros i j Ig. pose proof (Qc_sub_nonneg _ _ (Hgh i j Ig)) as G. apply Qcopp_le_compat in G.
    replace (- 0)%Qc with 0%Qc in G by ring. replace (1 * w i j + (- (1)) * z i j)%Qc with (- (z i j - w i j))%Qc by ring. exact G.
Qed.

Lemma unique_v2_2d i0 j0 i1 j1 (dx : Z -> Qc) (beta : Qc) b0 b1 gcw u f0 f1 (alpha : Qc) rgcw res (m n : mem QcS) (r w s z v0 v1 : Z -> Z -> Qc) :
  applied_v2_2d (S := QcS) i0 j0 i1 j1 dx beta b0 b1 gcw u f0 f1 alpha rgcw res m r w v0 v1 ->
  applied_v2_2d (S := QcS) i0 j0 i1 j1 dx beta b0 b1 gcw u f0 f1 alpha rgcw res n s z v0 v1 ->
  (0 < beta)%Qc ->
  dx 0 <> 0%Qc ->
  (0 <= alpha)%Qc ->
  (forall i j, i0 <= i <= i1 + 1 -> j0 <= j <= j1 -> (0 < v0 i j)%Qc) ->
  (forall i j, i0 <= i <= i1 -> j0 <= j <= j1 + 1 -> (0 <= v1 i j)%Qc) ->
  (forall i j, patch2 i0 j0 i1 j1 i j -> r i j = s i j) ->
  (forall i j, ghost2 i0 j0 i1 j1 i j -> w i j = z i j) ->
  forall i j, patch2 i0 j0 i1 j1 i j -> w i j = z i j.
Proof.
  intros H1 H2 Hb Hh Ha Hv0 Hv1 Hr Hgh i j Ip. apply Qcle_antisym.
  - apply (compare_v2_2d i0 j0 i1 j1 dx beta b0 b1 gcw u f0 f1 alpha rgcw res m n r w s z v0 v1 H1 H2 Hb Hh Ha Hv0 Hv1); try assumption; intros; rewrite ?Hr, ?Hgh by assumption; apply Qcle_refl.
  - apply (compare_v2_2d i0 j0 i1 j1 dx beta b0 b1 gcw u f0 f1 alpha rgcw res n m s z r w v0 v1 H2 H1 Hb Hh Ha Hv0 Hv1); try assumption; intros; rewrite ?Hr, ?Hgh by assumption; apply Qcle_refl.
Qed.

Lemma above_v2_2d i0 j0 i1 j1 (dx : Z -> Qc) (beta : Qc) b0 b1 gcw u f0 f1 (alpha : Qc) rgcw res (m : mem QcS) (r w v0 v1 : Z -> Z -> Qc) (B : Qc) :
  applied_v2_2d (S := QcS) i0 j0 i1 j1 dx beta b0 b1 gcw u f0 f1 alpha rgcw res m r w v0 v1 ->
  (0 < beta)%Qc ->
  dx 0 <> 0%Qc ->
  (0 <= alpha)%Qc ->
  (forall i j, i0 <= i <= i1 + 1 -> j0 <= j <= j1 -> (0 < v0 i j)%Qc) ->
  (forall i j, i0 <= i <= i1 -> j0 <= j <= j1 + 1 -> (0 <= v1 i j)%Qc) ->
  alpha = 0%Qc \/ (0 <= B)%Qc ->
  (forall i j, patch2 i0 j0 i1 j1 i j -> (r i j <= 0)%Qc) ->
  (forall i j, ghost2 i0 j0 i1 j1 i j -> (w i j <= B)%Qc) ->
  forall i j, patch2 i0 j0 i1 j1 i j -> (w i j <= B)%Qc.
Proof.
  intros H1 Hb Hh Ha Hv0 Hv1 HB Hr Hgh i j Ip. apply Qc_nonneg_sub.
  match goal with |- (0 <= ?t)%Qc => replace t with (- (1 * w i j + (- (1)) * B))%Qc by ring end. apply (Qcopp_le_compat _ 0).
  revert i j Ip. apply (core_v2_2d i0 j0 i1 j1 dx beta alpha v0 v1 (fun i j => 1 * w i j + (- (1)) * B)%Qc Hb Hh Ha Hv0 Hv1).
  - intros i j Ip. rewrite (lin_T_v2_2d dx beta alpha v0 v1 1%Qc (- (1))%Qc w (fun _ _ => B)). rewrite <- (val_T_v2_2d _ _ _ _ _ _ _ _ _ _ _ _ _ _ _ _ _ _ _ _ H1 i j Ip).
    replace (T_v2_2d dx beta alpha v0 v1 (fun _ _ => B) i j) with (alpha * B)%Qc by (unfold T_v2_2d, Qcdiv; ring).
    specialize (Hr i j Ip). apply Qc_nonneg_sub.
    assert (G : (0 <= 1 * (alpha * B))%Qc).
    { destruct HB as [->|HB]; [replace (_ * _)%Qc with 0%Qc by ring; apply Qcle_refl|]. replace (_ * (alpha * B))%Qc with (alpha * B)%Qc by ring. apply Qc_mul; assumption. }
    pose proof (Qc_add _ _ (Qc_sub_nonneg _ _ Hr) G) as F.
    match type of F with (0 <= ?t)%Qc => match goal with |- (0 <= ?g)%Qc => replace g with t by ring end end. exact F.
  - intros i j Ig. pose proof (Qc_sub_nonneg _ _ (Hgh i j Ig)) as G. apply Qc_nonneg_sub.
    match type of G with (0 <= ?t)%Qc => match goal with |- (0 <= ?g)%Qc => replace g with t by ring end end. exact G.
Qed.

Lemma below_v2_2d i0 j0 i1 j1 (dx : Z -> Qc) (beta : Qc) b0 b1 gcw u f0 f1 (alpha : Qc) rgcw res (m : mem QcS) (r w v0 v1 : Z -> Z -> Qc) (B : Qc) :
  applied_v2_2d (S := QcS) i0 j0 i1 j1 dx beta b0 b1 gcw u f0 f1 alpha rgcw res m r w v0 v1 ->
  (0 < beta)%Qc ->
  dx 0 <> 0%Qc ->
  (0 <= alpha)%Qc ->
  (forall i j, i0 <= i <= i1 + 1 -> j0 <= j <= j1 -> (0 < v0 i j)%Qc) ->
  (forall i j, i0 <= i <= i1 -> j0 <= j <= j1 + 1 -> (0 <= v1 i j)%Qc) ->
  alpha = 0%Qc \/ (B <= 0)%Qc ->
  (forall i j, patch2 i0 j0 i1 j1 i j -> (0 <= r i j)%Qc) ->
  (forall i j, ghost2 i0 j0 i1 j1 i j -> (B <= w i j)%Qc) ->
  forall i j, patch2 i0 j0 i1 j1 i j -> (B <= w i j)%Qc.
Proof.
  intros H1 Hb Hh Ha Hv0 Hv1 HB Hr Hgh i j Ip. apply Qc_nonneg_sub.
  match goal with |- (0 <= ?t)%Qc => replace t with (- ((- (1)) * w i j + 1 * B))%Qc by ring end. apply (Qcopp_le_compat _ 0).
  revert i j Ip. apply (core_v2_2d i0 j0 i1 j1 dx beta alpha v0 v1 (fun i j => (- (1)) * w i j + 1 * B)%Qc Hb Hh Ha Hv0 Hv1).
  - intros i j Ip. rewrite (lin_T_v2_2d dx beta alpha v0 v1 (- (1))%Qc 1%Qc w (fun _ _ => B)). rewrite <- (val_T_v2_2d _ _ _ _ _ _ _ _ _ _ _ _ _ _ _ _ _ _ _ _ H1 i j Ip).
    replace (T_v2_2d dx beta alpha v0 v1 (fun _ _ => B) i j) with (alpha * B)%Qc by (unfold T_v2_2d, Qcdiv; ring).
    specialize (Hr i j Ip). apply Qc_nonneg_sub.
    assert (G : (0 <= (- (1)) * (alpha * B))%Qc).
    { destruct HB as [->|HB]; [replace (_ * _)%Qc with 0%Qc by ring; apply Qcle_refl|]. apply Qc_sub_nonneg in HB. replace (_ * (alpha * B))%Qc with (alpha * (0 - B))%Qc by ring. apply Qc_mul; assumption. }
    pose proof (Qc_add _ _ (Qc_sub_nonneg _ _ Hr) G) as F.
    match type of F with (0 <= ?t)%Qc => match goal with |- (0 <= ?g)%Qc => replace g with t by ring end end. exact F.
  - intros i j Ig. pose proof (Qc_sub_nonneg _ _ (Hgh i j Ig)) as G. apply Qc_nonneg_sub.
    match type of G with (0 <= ?t)%Qc => match goal with |- (0 <= ?g)%Qc => replace g with t by ring end end. exact G.
Qed.

Lemma exists_v2_2d i0 j0 i1 j1 (dx : Z -> Qc) (beta : Qc) b0 b1 gcw u f0 f1 (alpha : Qc) rgcw res (g r v0 v1 : Z -> Z -> Qc) :
  (0 < beta)%Qc ->
  dx 0 <> 0%Qc ->
  (0 <= alpha)%Qc ->
  (forall i j, i0 <= i <= i1 + 1 -> j0 <= j <= j1 -> (0 < v0 i j)%Qc) ->
  (forall i j, i0 <= i <= i1 -> j0 <= j <= j1 + 1 -> (0 <= v1 i j)%Qc) ->
  exists w : Z -> Z -> Qc, (forall i j, ~ patch2 i0 j0 i1 j1 i j -> w i j = g i j) /\
  forall (m : mem QcS) s, applied_v2_2d (S := QcS) i0 j0 i1 j1 dx beta b0 b1 gcw u f0 f1 alpha rgcw res m s w v0 v1 ->
  forall i j, patch2 i0 j0 i1 j1 i j -> s i j = r i j.
Proof.
  intros Hb Hh Ha Hv0 Hv1.
  destruct (@solvable (Z * Z) dec2 (fun w => (fun p : Z * Z => (T_v2_2d dx beta alpha v0 v1 (fun i j => w (i, j))) (fst p) (snd p))) (cells2 i0 j0 i1 j1) (nodup_cells2 i0 j0 i1 j1)) with (g := (fun p : Z * Z => g (fst p) (snd p))) (r := (fun p : Z * Z => r (fst p) (snd p))) as (w & Hw & Tw).
  - intros x y w z [i j] _. cbn [fst snd]. apply (lin_T_v2_2d dx beta alpha v0 v1 x y (fun i j => w (i, j)) (fun i j => z (i, j)) i j).
  - intros w Out Z. assert (G : forall i j, patch2 i0 j0 i1 j1 i j -> w (i, j) = 0%Qc).
    { intros i j Ip. apply Qcle_antisym.
      - revert i j Ip. apply (core_v2_2d i0 j0 i1 j1 dx beta alpha v0 v1 (fun i j => w (i, j)) Hb Hh Ha Hv0 Hv1).
        + intros i j Ip. pose proof (Z (i, j) (proj2 (in_cells2 i0 j0 i1 j1 i j) Ip)) as Zp. cbn [fst snd] in Zp. rewrite Zp. apply Qcle_refl.
        + intros i j (_ & N). rewrite Out; [apply Qcle_refl|]. intros C. apply N. now apply in_cells2.
      - apply Qc_nonneg_sub. replace (w (i, j) - 0)%Qc with (- ((- (1)) * w (i, j) + 0 * w (i, j)))%Qc by ring. apply (Qcopp_le_compat _ 0).
        revert i j Ip. apply (core_v2_2d i0 j0 i1 j1 dx beta alpha v0 v1 (fun i j => (- (1)) * w (i, j) + 0 * w (i, j))%Qc Hb Hh Ha Hv0 Hv1).
        + intros i j Ip. rewrite (lin_T_v2_2d dx beta alpha v0 v1 (- (1))%Qc 0%Qc (fun i j => w (i, j)) (fun i j => w (i, j)) i j). pose proof (Z (i, j) (proj2 (in_cells2 i0 j0 i1 j1 i j) Ip)) as Zp. cbn [fst snd] in Zp. rewrite Zp. vm_compute. discriminate.
        + intros i j (_ & N). rewrite Out; [vm_compute; discriminate|]. intros C. apply N. now apply in_cells2. }
    intros [i j] Ip. apply G. now apply in_cells2.
  - intros w z [i j] _ E. cbn [fst snd]. unfold T_v2_2d. rewrite !E. reflexivity.
  - exists (fun i j => w (i, j)). split.
    + intros i j N. apply (Hw (i, j)). intros C. apply N. now apply in_cells2.
    + intros m s H i j Ip. rewrite (val_T_v2_2d _ _ _ _ _ _ _ _ _ _ _ _ _ _ _ _ _ _ _ _ H i j Ip).
      apply (Tw (i, j)). now apply in_cells2.
Qed.

Definition T_poisson_2d (dx : Z -> Qc) (beta : Qc) (w : Z -> Z -> Qc) : Z -> Z -> Qc := fun i j =>
  (- beta * ((1 * ((w (i + 1)%Z j - w i j) / dx 0%Z) - 1 * ((w i j - w (i - 1)%Z j) / dx 0%Z)) / dx 0%Z) + - beta * ((1 * ((w i (j + 1)%Z - w i j) / dx 1%Z) - 1 * ((w i j - w i (j - 1)%Z) / dx 1%Z)) / dx 1%Z))%Qc.

Lemma val_T_poisson_2d i0 j0 i1 j1 (dx : Z -> Qc) (beta : Qc) gcw u f0 f1 rgcw res (m : mem QcS) (r w : Z -> Z -> Qc) :
  applied_poisson_2d (S := QcS) i0 j0 i1 j1 dx beta gcw u f0 f1 rgcw res m r w -> forall i j, patch2 i0 j0 i1 j1 i j -> r i j = T_poisson_2d dx beta w i j.
Proof.
  intros H i j Ip. etransitivity; [exact (val_poisson_2d QcS_laws _ _ _ _ _ _ _ _ _ _ _ _ m r w  H i j Ip)|].
  unfold T_poisson_2d. cbn -[Qcplus Qcmult Qcopp Qcminus Qcdiv Q2Qc]. unfold Qcdiv. ring.
Qed.

Lemma core_poisson_2d i0 j0 i1 j1 (dx : Z -> Qc) (beta : Qc) (e : Z -> Z -> Qc) :
  (0 < beta)%Qc ->
  dx 0 <> 0%Qc ->
  (forall i j, patch2 i0 j0 i1 j1 i j -> (T_poisson_2d dx beta e i j <= 0)%Qc) ->
  (forall i j, ghost2 i0 j0 i1 j1 i j -> (e i j <= 0)%Qc) ->
  forall i j, patch2 i0 j0 i1 j1 i j -> (e i j <= 0)%Qc.
Proof.
  intros Hb Hh Hr Hgh i j Ip.
  apply (walk (cells2 i0 j0 i1 j1) (fun p : Z * Z => e (fst p) (snd p)) (fun p : Z * Z => (fst p + 1, snd p)) (fun p : Z * Z => Z.to_nat (i1 - fst p))) with (p := (i, j)); [clear i j Ip|now apply in_cells2].
  intros [i j] Ip Mx Pe. cbn [fst snd] in *. apply in_cells2 in Ip.
  assert (Le : forall i' j', near2 i0 j0 i1 j1 i' j' -> (e i' j' <= e i j)%Qc).
  { intros i' j' Hn. destruct (patch_dec2 i0 j0 i1 j1 i' j') as [Y|N].
    - apply (Mx (i', j')). now apply in_cells2.
    - apply Qcle_trans with 0%Qc; [apply Hgh; split; assumption|now apply Qclt_le_weak]. }
  specialize (Hr i j Ip). unfold T_poisson_2d in Hr.
  assert (Eq : e (i + 1)%Z j = e i j).
  { refine (edge_term beta (dx 0) 1%Qc 1%Qc (e i j) (e (i + 1)%Z j) (e (i - 1)%Z j) _ Hb Hh ltac:(vm_compute; first [reflexivity|discriminate]) ltac:(vm_compute; first [reflexivity|discriminate]) (Le (i + 1)%Z j ltac:(k_near)) (Le (i - 1)%Z j ltac:(k_near)) (other_term beta (dx 1) 1%Qc 1%Qc (e i j) (e i (j + 1)%Z) (e i (j - 1)%Z) (Qclt_le_weak _ _ Hb) ltac:(vm_compute; first [reflexivity|discriminate]) ltac:(vm_compute; first [reflexivity|discriminate]) (Le i (j + 1)%Z ltac:(k_near)) (Le i (j - 1)%Z ltac:(k_near))) _).
    rewrite ?Qcplus_assoc in *. exact Hr. }
  assert (In1 : patch2 i0 j0 i1 j1 (i + 1) j).
  { destruct (patch_dec2 i0 j0 i1 j1 (i + 1)%Z j) as [Y|N]; [exact Y|exfalso].
    apply (Qclt_not_le _ _ Pe). rewrite <- Eq. apply Hgh. split; [k_near|exact N]. }
  split; [now apply in_cells2|]. split; [exact Eq|k_near].
Qed.

Lemma lin_T_poisson_2d (dx : Z -> Qc) (beta : Qc) (x y : Qc) (w z : Z -> Z -> Qc) i j :
  T_poisson_2d dx beta (fun i j => x * w i j + y * z i j)%Qc i j = (x * T_poisson_2d dx beta w i j + y * T_poisson_2d dx beta z i j)%Qc.
Proof. unfold T_poisson_2d, Qcdiv. ring. Qed.

Lemma compare_poisson_2d i0 j0 i1 j1 (dx : Z -> Qc) (beta : Qc) gcw u f0 f1 rgcw res (m n : mem QcS) (r w s z : Z -> Z -> Qc) :
  applied_poisson_2d (S := QcS) i0 j0 i1 j1 dx beta gcw u f0 f1 rgcw res m r w ->
  applied_poisson_2d (S := QcS) i0 j0 i1 j1 dx beta gcw u f0 f1 rgcw res n s z ->
  (0 < beta)%Qc ->
  dx 0 <> 0%Qc ->
  (forall i j, patch2 i0 j0 i1 j1 i j -> (r i j <= s i j)%Qc) ->
  (forall i j, ghost2 i0 j0 i1 j1 i j -> (w i j <= z i j)%Qc) ->
  forall i j, patch2 i0 j0 i1 j1 i j -> (w i j <= z i j)%Qc.
Proof.
  intros H1 H2 Hb Hh Hr Hgh i j Ip. apply Qc_nonneg_sub.
  replace (z i j - w i j)%Qc with (- (1 * w i j + (- (1)) * z i j))%Qc by ring. apply (Qcopp_le_compat _ 0).
  revert i j Ip. apply (core_poisson_2d i0 j0 i1 j1 dx beta (fun i j => 1 * w i j + (- (1)) * z i j)%Qc Hb Hh).
  - intros i j Ip. rewrite lin_T_poisson_2d. rewrite <- (val_T_poisson_2d _ _ _ _ _ _ _ _ _ _ _ _ _ _ _  H1 i j Ip), <- (val_T_poisson_2d _ _ _ _ _ _ _ _ _ _ _ _ _ _ _  H2 i j Ip).
    pose proof (Qc_sub_nonneg _ _ (Hr i j Ip)) as G. apply Qcopp_le_compat in G.
    replace (- 0)%Qc with 0%Qc in G by ring. replace (1 * r i j + (- (1)) * s i j)%Qc with (- (s i j - r i j))%Qc by ring. exact G.
  - intros i j Ig. pose proof (Qc_sub_nonneg _ _ (Hgh i j Ig)) as G. apply Qcopp_le_compat in G.
    replace (- 0)%Qc with 0%Qc in G by ring. replace (1 * w i j + (- (1)) * z i j)%Qc with (- (z i j - w i j))%Qc by ring. exact G.
Qed.

Lemma unique_poisson_2d i0 j0 i1 j1 (dx : Z -> Qc) (beta : Qc) gcw u f0 f1 rgcw res (m n : mem QcS) (r w s z : Z -> Z -> Qc) :
  applied_poisson_2d (S := QcS) i0 j0 i1 j1 dx beta gcw u f0 f1 rgcw res m r w ->
  applied_poisson_2d (S := QcS) i0 j0 i1 j1 dx beta gcw u f0 f1 rgcw res n s z ->
  (0 < beta)%Qc ->
  dx 0 <> 0%Qc ->
  (forall i j, patch2 i0 j0 i1 j1 i j -> r i j = s i j) ->
  (forall i j, ghost2 i0 j0 i1 j1 i j -> w i j = z i j) ->
  forall i j, patch2 i0 j0 i1 j1 i j -> w i j = z i j.
Proof.
  intros H1 H2 Hb Hh Hr Hgh i j Ip. apply Qcle_antisym.
  - apply (compare_poisson_2d i0 j0 i1 j1 dx beta gcw u f0 f1 rgcw res m n r w s z  H1 H2 Hb Hh); try assumption; intros; rewrite ?Hr, ?Hgh by assumption; apply Qcle_refl.
  - apply (compare_poisson_2d i0 j0 i1 j1 dx beta gcw u f0 f1 rgcw res n m s z r w  H2 H1 Hb Hh); try assumption; intros; rewrite ?Hr, ?Hgh by assumption; apply Qcle_refl.
Qed.

Lemma above_poisson_2d i0 j0 i1 j1 (dx : Z -> Qc) (beta : Qc) gcw u f0 f1 rgcw res (m : mem QcS) (r w : Z -> Z -> Qc) (B : Qc) :
  applied_poisson_2d (S := QcS) i0 j0 i1 j1 dx beta gcw u f0 f1 rgcw res m r w ->
  (0 < beta)%Qc ->
  dx 0 <> 0%Qc ->
  (forall i j, patch2 i0 j0 i1 j1 i j -> (r i j <= 0)%Qc) ->
  (forall i j, ghost2 i0 j0 i1 j1 i j -> (w i j <= B)%Qc) ->
  forall i j, patch2 i0 j0 i1 j1 i j -> (w i j <= B)%Qc.
Proof.
  intros H1 Hb Hh Hr Hgh i j Ip. apply Qc_nonneg_sub.
  match goal with |- (0 <= ?t)%Qc => replace t with (- (1 * w i j + (- (1)) * B))%Qc by ring end. apply (Qcopp_le_compat _ 0).
  revert i j Ip. apply (core_poisson_2d i0 j0 i1 j1 dx beta (fun i j => 1 * w i j + (- (1)) * B)%Qc Hb Hh).
  - intros i j Ip. rewrite (lin_T_poisson_2d dx beta 1%Qc (- (1))%Qc w (fun _ _ => B)). rewrite <- (val_T_poisson_2d _ _ _ _ _ _ _ _ _ _ _ _ _ _ _  H1 i j Ip).
    replace (T_poisson_2d dx beta (fun _ _ => B) i j) with (0)%Qc by (unfold T_poisson_2d, Qcdiv; ring).
    specialize (Hr i j Ip). apply Qc_nonneg_sub.
    assert (G : (0 <= 0)%Qc) by apply Qcle_refl.
    
    pose proof (Qc_add _ _ (Qc_sub_nonneg _ _ Hr) G) as F.
    match type of F with (0 <= ?t)%Qc => match goal with |- (0 <= ?g)%Qc => replace g with t by ring end end. exact F.
  - intros i j Ig. pose proof (Qc_sub_nonneg _ _ (Hgh i j Ig)) as G. apply Qc_nonneg_sub.
    match type of G with (0 <= ?t)%Qc => match goal with |- (0 <= ?g)%Qc => replace g with t by ring end end. exact G.
Qed.

Lemma below_poisson_2d i0 j0 i1 j1 (dx : Z -> Qc) (beta : Qc) gcw u f0 f1 rgcw res (m : mem QcS) (r w : Z -> Z -> Qc) (B : Qc) :
  applied_poisson_2d (S := QcS) i0 j0 i1 j1 dx beta gcw u f0 f1 rgcw res m r w ->
  (0 < beta)%Qc ->
  dx 0 <> 0%Qc ->
  (forall i j, patch2 i0 j0 i1 j1 i j -> (0 <= r i j)%Qc) ->
  (forall i j, ghost2 i0 j0 i1 j1 i j -> (B <= w i j)%Qc) ->
  forall i j, patch2 i0 j0 i1 j1 i j -> (B <= w i j)%Qc.
Proof.
  intros H1 Hb Hh Hr Hgh i j Ip. apply Qc_nonneg_sub.
  match goal with |- (0 <= ?t)%Qc => replace t with (- ((- (1)) * w i j + 1 * B))%Qc by ring end. apply (Qcopp_le_compat _ 0).
  revert i j Ip. apply (core_poisson_2d i0 j0 i1 j1 dx beta (fun i j => (- (1)) * w i j + 1 * B)%Qc Hb Hh).
  - intros i j Ip. rewrite (lin_T_poisson_2d dx beta (- (1))%Qc 1%Qc w (fun _ _ => B)). rewrite <- (val_T_poisson_2d _ _ _ _ _ _ _ _ _ _ _ _ _ _ _  H1 i j Ip).
    replace (T_poisson_2d dx beta (fun _ _ => B) i j) with (0)%Qc by (unfold T_poisson_2d, Qcdiv; ring).
    specialize (Hr i j Ip). apply Qc_nonneg_sub.
    assert (G : (0 <= 0)%Qc) by apply Qcle_refl.
    
    pose proof (Qc_add _ _ (Qc_sub_nonneg _ _ Hr) G) as F.
    match type of F with (0 <= ?t)%Qc => match goal with |- (0 <= ?g)%Qc => replace g with t by ring end end. exact F.
  - intros i j Ig. pose proof (Qc_sub_nonneg _ _ (Hgh i j Ig)) as G. apply Qc_nonneg_sub.
    match type of G with (0 <= ?t)%Qc => match goal with |- (0 <= ?g)%Qc => replace g with t by ring end end. exact G.
Qed.

Lemma exists_poisson_2d i0 j0 i1 j1 (dx : Z -> Qc) (beta : Qc) gcw u f0 f1 rgcw res (g r : Z -> Z -> Qc) :
  (0 < beta)%Qc ->
  dx 0 <> 0%Qc ->
  exists w : Z -> Z -> Qc, (forall i j, ~ patch2 i0 j0 i1 j1 i j -> w i j = g i j) /\
  forall (m : mem QcS) s, applied_poisson_2d (S := QcS) i0 j0 i1 j1 dx beta gcw u f0 f1 rgcw res m s w ->
  forall i j, patch2 i0 j0 i1 j1 i j -> s i j = r i j.
Proof.
  intros Hb Hh.
  destruct (@solvable (Z * Z) dec2 (fun w => (fun p : Z * Z => (T_poisson_2d dx beta (fun i j => w (i, j))) (fst p) (snd p))) (cells2 i0 j0 i1 j1) (nodup_cells2 i0 j0 i1 j1)) with (g := (fun p : Z * Z => g (fst p) (snd p))) (r := (fun p : Z * Z => r (fst p) (snd p))) as (w & Hw & Tw).
  - intros x y w z [i j] _. cbn [fst snd]. apply (lin_T_poisson_2d dx beta x y (fun i j => w (i, j)) (fun i j => z (i, j)) i j).
  - intros w Out Z. assert (G : forall i j, patch2 i0 j0 i1 j1 i j -> w (i, j) = 0%Qc).
    { intros i j Ip. apply Qcle_antisym.
      - revert i j Ip. apply (core_poisson_2d i0 j0 i1 j1 dx beta (fun i j => w (i, j)) Hb Hh).
        + intros i j Ip. pose proof (Z (i, j) (proj2 (in_cells2 i0 j0 i1 j1 i j) Ip)) as Zp. cbn [fst snd] in Zp. rewrite Zp. apply Qcle_refl.
        + intros i j (_ & N). rewrite Out; [apply Qcle_refl|]. intros C. apply N. now apply in_cells2.
      - apply Qc_nonneg_sub. replace (w (i, j) - 0)%Qc with (- ((- (1)) * w (i, j) + 0 * w (i, j)))%Qc by ring. apply (Qcopp_le_compat _ 0).
        revert i j Ip. apply (core_poisson_2d i0 j0 i1 j1 dx beta (fun i j => (- (1)) * w (i, j) + 0 * w (i, j))%Qc Hb Hh).
        + intros i j Ip. rewrite (lin_T_poisson_2d dx beta (- (1))%Qc 0%Qc (fun i j => w (i, j)) (fun i j => w (i, j)) i j). pose proof (Z (i, j) (proj2 (in_cells2 i0 j0 i1 j1 i j) Ip)) as Zp. cbn [fst snd] in Zp. rewrite Zp. vm_compute. discriminate.
        + intros i j (_ & N). rewrite Out; [vm_compute; discriminate|]. intros C. apply N. now apply in_cells2. }
    intros [i j] Ip. apply G. now apply in_cells2.
  - intros w z [i j] _ E. cbn [fst snd]. unfold T_poisson_2d. rewrite !E. reflexivity.
  - exists (fun i j => w (i, j)). split.
    + intros i j N. apply (Hw (i, j)). intros C. apply N. now apply in_cells2.
    + intros m s H i j Ip. rewrite (val_T_poisson_2d _ _ _ _ _ _ _ _ _ _ _ _ _ _ _  H i j Ip).
      apply (Tw (i, j)). now apply in_cells2.
Qed.

Definition T_v1_3d (dx : Z -> Qc) (beta alpha : Qc) (c v0 v1 v2 : Z -> Z -> Z -> Qc) (w : Z -> Z -> Z -> Qc) : Z -> Z -> Z -> Qc := fun i j k =>
  (- beta * ((v0 (i + 1)%Z j k * ((w (i + 1)%Z j k - w i j k) / dx 0%Z) - v0 i j k * ((w i j k - w (i - 1)%Z j k) / dx 0%Z)) / dx 0%Z) + - beta * ((v1 i (j + 1)%Z k * ((w i (j + 1)%Z k - w i j k) / dx 1%Z) - v1 i j k * ((w i j k - w i (j - 1)%Z k) / dx 1%Z)) / dx 1%Z) + - beta * ((v2 i j (k + 1)%Z * ((w i j (k + 1)%Z - w i j k) / dx 2%Z) - v2 i j k * ((w i j k - w i j (k - 1)%Z) / dx 2%Z)) / dx 2%Z) + alpha * (c i j k * w i j k))%Qc.

Lemma val_T_v1_3d i0 j0 k0 i1 j1 k1 (dx : Z -> Qc) (beta : Qc) b0 b1 b2 gcw u f0 f1 f2 (alpha : Qc) agcw a rgcw res (m : mem QcS) (r w c v0 v1 v2 : Z -> Z -> Z -> Qc) :
  applied_v1_3d (S := QcS) i0 j0 k0 i1 j1 k1 dx beta b0 b1 b2 gcw u f0 f1 f2 alpha agcw a rgcw res m r w c v0 v1 v2 -> forall i j k, patch3 i0 j0 k0 i1 j1 k1 i j k -> r i j k = T_v1_3d dx beta alpha c v0 v1 v2 w i j k.
Proof.
  intros H i j k Ip. etransitivity; [exact (val_v1_3d QcS_laws _ _ _ _ _ _ _ _ _ _ _ _ _ _ _ _ _ _ _ _ _ m r w _ _ _ _ H i j k Ip)|].
  unfold T_v1_3d. cbn -[Qcplus Qcmult Qcopp Qcminus Qcdiv Q2Qc]. unfold Qcdiv. ring.
Qed.

Lemma core_v1_3d i0 j0 k0 i1 j1 k1 (dx : Z -> Qc) (beta alpha : Qc) (c v0 v1 v2 : Z -> Z -> Z -> Qc) (e : Z -> Z -> Z -> Qc) :
  (0 < beta)%Qc ->
  dx 0 <> 0%Qc ->
  (0 <= alpha)%Qc ->
  (forall i j k, patch3 i0 j0 k0 i1 j1 k1 i j k -> (0 <= c i j k)%Qc) ->
  (forall i j k, i0 <= i <= i1 + 1 -> j0 <= j <= j1 -> k0 <= k <= k1 -> (0 < v0 i j k)%Qc) ->
  (forall i j k, i0 <= i <= i1 -> j0 <= j <= j1 + 1 -> k0 <= k <= k1 -> (0 <= v1 i j k)%Qc) ->
  (forall i j k, i0 <= i <= i1 -> j0 <= j <= j1 -> k0 <= k <= k1 + 1 -> (0 <= v2 i j k)%Qc) ->
  (forall i j k, patch3 i0 j0 k0 i1 j1 k1 i j k -> (T_v1_3d dx beta alpha c v0 v1 v2 e i j k <= 0)%Qc) ->
  (forall i j k, ghost3 i0 j0 k0 i1 j1 k1 i j k -> (e i j k <= 0)%Qc) ->
  forall i j k, patch3 i0 j0 k0 i1 j1 k1 i j k -> (e i j k <= 0)%Qc.
Proof.
  intros Hb Hh Ha Hc Hv0 Hv1 Hv2 Hr Hgh i j k Ip.
  apply (walk (cells3 i0 j0 k0 i1 j1 k1) (fun p : Z * Z * Z => e (fst (fst p)) (snd (fst p)) (snd p)) (fun p : Z * Z * Z => (fst (fst p) + 1, snd (fst p), snd p)) (fun p : Z * Z * Z => Z.to_nat (i1 - fst (fst p)))) with (p := (i, j, k)); [clear i j k Ip|now apply in_cells3].
  intros [[i j] k] Ip Mx Pe. cbn [fst snd] in *. apply in_cells3 in Ip.
  assert (Le : forall i' j' k', near3 i0 j0 k0 i1 j1 k1 i' j' k' -> (e i' j' k' <= e i j k)%Qc).
  { intros i' j' k' Hn. destruct (patch_dec3 i0 j0 k0 i1 j1 k1 i' j' k') as [Y|N].
    - apply (Mx (i', j', k')). now apply in_cells3.
    - apply Qcle_trans with 0%Qc; [apply Hgh; split; assumption|now apply Qclt_le_weak]. }
  specialize (Hr i j k Ip). unfold T_v1_3d in Hr.
  assert (Eq : e (i + 1)%Z j k = e i j k).
  { refine (edge_term beta (dx 0) (v0 (i + 1)%Z j k) (v0 i j k) (e i j k) (e (i + 1)%Z j k) (e (i - 1)%Z j k) _ Hb Hh (Hv0 (i + 1)%Z j k ltac:(k_near) ltac:(k_near) ltac:(k_near)) (Qclt_le_weak _ _ (Hv0 i j k ltac:(k_near) ltac:(k_near) ltac:(k_near))) (Le (i + 1)%Z j k ltac:(k_near)) (Le (i - 1)%Z j k ltac:(k_near)) (Qc_add _ _ (Qc_add _ _ (other_term beta (dx 1) (v1 i (j + 1)%Z k) (v1 i j k) (e i j k) (e i (j + 1)%Z k) (e i (j - 1)%Z k) (Qclt_le_weak _ _ Hb) (Hv1 i (j + 1)%Z k ltac:(k_near) ltac:(k_near) ltac:(k_near)) (Hv1 i j k ltac:(k_near) ltac:(k_near) ltac:(k_near)) (Le i (j + 1)%Z k ltac:(k_near)) (Le i (j - 1)%Z k ltac:(k_near))) (other_term beta (dx 2) (v2 i j (k + 1)%Z) (v2 i j k) (e i j k) (e i j (k + 1)%Z) (e i j (k - 1)%Z) (Qclt_le_weak _ _ Hb) (Hv2 i j (k + 1)%Z ltac:(k_near) ltac:(k_near) ltac:(k_near)) (Hv2 i j k ltac:(k_near) ltac:(k_near) ltac:(k_near)) (Le i j (k + 1)%Z ltac:(k_near)) (Le i j (k - 1)%Z ltac:(k_near)))) (Qc_mul _ _ Ha (Qc_mul _ _ (Hc i j k Ip) (Qclt_le_weak _ _ Pe)))) _).
    rewrite ?Qcplus_assoc in *. exact Hr. }
  assert (In1 : patch3 i0 j0 k0 i1 j1 k1 (i + 1) j k).
  { destruct (patch_dec3 i0 j0 k0 i1 j1 k1 (i + 1)%Z j k) as [Y|N]; [exact Y|exfalso].
    apply (Qclt_not_le _ _ Pe). rewrite <- Eq. apply Hgh. split; [k_near|exact N]. }
  split; [now apply in_cells3|]. split; [exact Eq|k_near].
Qed.

Lemma lin_T_v1_3d (dx : Z -> Qc) (beta alpha : Qc) (c v0 v1 v2 : Z -> Z -> Z -> Qc) (x y : Qc) (w z : Z -> Z -> Z -> Qc) i j k :
  T_v1_3d dx beta alpha c v0 v1 v2 (fun i j k => x * w i j k + y * z i j k)%Qc i j k = (x * T_v1_3d dx beta alpha c v0 v1 v2 w i j k + y * T_v1_3d dx beta alpha c v0 v1 v2 z i j k)%Qc.
Proof. unfold T_v1_3d, Qcdiv. ring. Qed.

Lemma compare_v1_3d i0 j0 k0 i1 j1 k1 (dx : Z -> Qc) (beta : Qc) b0 b1 b2 gcw u f0 f1 f2 (alpha : Qc) agcw a rgcw res (m n : mem QcS) (r w s z c v0 v1 v2 : Z -> Z -> Z -> Qc) :
  applied_v1_3d (S := QcS) i0 j0 k0 i1 j1 k1 dx beta b0 b1 b2 gcw u f0 f1 f2 alpha agcw a rgcw res m r w c v0 v1 v2 ->
  applied_v1_3d (S := QcS) i0 j0 k0 i1 j1 k1 dx beta b0 b1 b2 gcw u f0 f1 f2 alpha agcw a rgcw res n s z c v0 v1 v2 ->
  (0 < beta)%Qc ->
  dx 0 <> 0%Qc ->
  (0 <= alpha)%Qc ->
  (forall i j k, patch3 i0 j0 k0 i1 j1 k1 i j k -> (0 <= c i j k)%Qc) ->
  (forall i j k, i0 <= i <= i1 + 1 -> j0 <= j <= j1 -> k0 <= k <= k1 -> (0 < v0 i j k)%Qc) ->
  (forall i j k, i0 <= i <= i1 -> j0 <= j <= j1 + 1 -> k0 <= k <= k1 -> (0 <= v1 i j k)%Qc) ->
  (forall i j k, i0 <= i <= i1 -> j0 <= j <= j1 -> k0 <= k <= k1 + 1 -> (0 <= v2 i j k)%Qc) ->
  (forall i j k, patch3 i0 j0 k0 i1 j1 k1 i j k -> (r i j k <= s i j k)%Qc) ->
  (forall i j k, ghost3 i0 j0 k0 i1 j1 k1 i j k -> (w i j k <= z i j k)%Qc) ->
  forall i j k, patch3 i0 j0 k0 i1 j1 k1 i j k -> (w i j k <= z i j k)%Qc.
Proof.
  intros H1 H2 Hb Hh Ha Hc Hv0 Hv1 Hv2 Hr Hgh i j k Ip. apply Qc_nonneg_sub.
  replace (z i j k - w i j k)%Qc with (- (1 * w i j k + (- (1)) * z i j k))%Qc by ring. apply (Qcopp_le_compat _ 0).
  revert i j k Ip. apply (core_v1_3d i0 j0 k0 i1 j1 k1 dx beta alpha c v0 v1 v2 (fun i j k => 1 * w i j k + (- (1)) * z i j k)%Qc Hb Hh Ha Hc Hv0 Hv1 Hv2).
  - intros i j k Ip. rewrite lin_T_v1_3d. rewrite <- (val_T_v1_3d _ _ _ _ _ _ _ _ _ _ _ _ _ _ _ _ _ _ _ _ _ _ _ _ _ _ _ _ H1 i j k Ip), <- (val_T_v1_3d _ _ _ _ _ _ _ _ _ _ _ _ _ _ _ _ _ _ _ _ _ _ _ _ _ _ _ _ H2 i j k Ip).
    pose proof (Qc_sub_nonneg _ _ (Hr i j k Ip)) as G. apply Qcopp_le_compat in G.
    replace (- 0)%Qc with 0%Qc in G by ring. replace (1 * r i j k + (- (1)) * s i j k)%Qc with (- (s i j k - r i j k))%Qc by ring. exact G.
  - intros i j k Ig. pose proof (Qc_sub_nonneg _ _ (Hgh i j k Ig)) as G. apply Qcopp_le_compat in G.
    replace (- 0)%Qc with 0%Qc in G by ring. replace (1 * w i j k + (- (1)) * z i j k)%Qc with (- (z i j k - w i j k))%Qc by ring. exact G.
Qed.

Lemma unique_v1_3d i0 j0 k0 i1 j1 k1 (dx : Z -> Qc) (beta : Qc) b0 b1 b2 gcw u f0 f1 f2 (alpha : Qc) agcw a rgcw res (m n : mem QcS) (r w s z c v0 v1 v2 : Z -> Z -> Z -> Qc) :
  applied_v1_3d (S := QcS) i0 j0 k0 i1 j1 k1 dx beta b0 b1 b2 gcw u f0 f1 f2 alpha agcw a rgcw res m r w c v0 v1 v2 ->
  applied_v1_3d (S := QcS) i0 j0 k0 i1 j1 k1 dx beta b0 b1 b2 gcw u f0 f1 f2 alpha agcw a rgcw res n s z c v0 v1 v2 ->
  (0 < beta)%Qc ->
  dx 0 <> 0%Qc ->
  (0 <= alpha)%Qc ->
  (forall i j k, patch3 i0 j0 k0 i1 j1 k1 i j k -> (0 <= c i j k)%Qc) ->
  (forall i j k, i0 <= i <= i1 + 1 -> j0 <= j <= j1 -> k0 <= k <= k1 -> (0 < v0 i j k)%Qc) ->
  (forall i j k, i0 <= i <= i1 -> j0 <= j <= j1 + 1 -> k0 <= k <= k1 -> (0 <= v1 i j k)%Qc) ->
  (forall i j k, i0 <= i <= i1 -> j0 <= j <= j1 -> k0 <= k <= k1 + 1 -> (0 <= v2 i j k)%Qc) ->
  (forall i j k, patch3 i0 j0 k0 i1 j1 k1 i j k -> r i j k = s i j k) ->
  (forall i j k, ghost3 i0 j0 k0 i1 j1 k1 i j k -> w i j k = z i j k) ->
  forall i j k, patch3 i0 j0 k0 i1 j1 k1 i j k -> w i j k = z i j k.
Proof.
  intros H1 H2 Hb Hh Ha Hc Hv0 Hv1 Hv2 Hr Hgh i j k Ip. apply Qcle_antisym.
  - apply (compare_v1_3d i0 j0 k0 i1 j1 k1 dx beta b0 b1 b2 gcw u f0 f1 f2 alpha agcw a rgcw res m n r w s z c v0 v1 v2 H1 H2 Hb Hh Ha Hc Hv0 Hv1 Hv2); try assumption; intros; rewrite ?Hr, ?Hgh by assumption; apply Qcle_refl.
  - apply (compare_v1_3d i0 j0 k0 i1 j1 k1 dx beta b0 b1 b2 gcw u f0 f1 f2 alpha agcw a rgcw res n m s z r w c v0 v1 v2 H2 H1 Hb Hh Ha Hc Hv0 Hv1 Hv2); try assumption; intros; rewrite ?Hr, ?Hgh by assumption; apply Qcle_refl.
Qed.

Lemma above_v1_3d i0 j0 k0 i1 j1 k1 (dx : Z -> Qc) (beta : Qc) b0 b1 b2 gcw u f0 f1 f2 (alpha : Qc) agcw a rgcw res (m : mem QcS) (r w c v0 v1 v2 : Z -> Z -> Z -> Qc) (B : Qc) :
  applied_v1_3d (S := QcS) i0 j0 k0 i1 j1 k1 dx beta b0 b1 b2 gcw u f0 f1 f2 alpha agcw a rgcw res m r w c v0 v1 v2 ->
  (0 < beta)%Qc ->
  dx 0 <> 0%Qc ->
  (0 <= alpha)%Qc ->
  (forall i j k, patch3 i0 j0 k0 i1 j1 k1 i j k -> (0 <= c i j k)%Qc) ->
  (forall i j k, i0 <= i <= i1 + 1 -> j0 <= j <= j1 -> k0 <= k <= k1 -> (0 < v0 i j k)%Qc) ->
  (forall i j k, i0 <= i <= i1 -> j0 <= j <= j1 + 1 -> k0 <= k <= k1 -> (0 <= v1 i j k)%Qc) ->
  (forall i j k, i0 <= i <= i1 -> j0 <= j <= j1 -> k0 <= k <= k1 + 1 -> (0 <= v2 i j k)%Qc) ->
  alpha = 0%Qc \/ (0 <= B)%Qc ->
  (forall i j k, patch3 i0 j0 k0 i1 j1 k1 i j k -> (r i j k <= 0)%Qc) ->
  (forall i j k, ghost3 i0 j0 k0 i1 j1 k1 i j k -> (w i j k <= B)%Qc) ->
  forall i j k, patch3 i0 j0 k0 i1 j1 k1 i j k -> (w i j k <= B)%Qc.
Proof.
  intros H1 Hb Hh Ha Hc Hv0 Hv1 Hv2 HB Hr Hgh i j k Ip. apply Qc_nonneg_sub.
  match goal with |- (0 <= ?t)%Qc => replace t with (- (1 * w i j k + (- (1)) * B))%Qc by ring end. apply (Qcopp_le_compat _ 0).
  revert i j k Ip. apply (core_v1_3d i0 j0 k0 i1 j1 k1 dx beta alpha c v0 v1 v2 (fun i j k => 1 * w i j k + (- (1)) * B)%Qc Hb Hh Ha Hc Hv0 Hv1 Hv2).
  - intros i j k Ip. rewrite (lin_T_v1_3d dx beta alpha c v0 v1 v2 1%Qc (- (1))%Qc w (fun _ _ _ => B)). rewrite <- (val_T_v1_3d _ _ _ _ _ _ _ _ _ _ _ _ _ _ _ _ _ _ _ _ _ _ _ _ _ _ _ _ H1 i j k Ip).
    replace (T_v1_3d dx beta alpha c v0 v1 v2 (fun _ _ _ => B) i j k) with (alpha * (c i j k * B))%Qc by (unfold T_v1_3d, Qcdiv; ring).
    specialize (Hr i j k Ip). apply Qc_nonneg_sub.
    assert (G : (0 <= 1 * (alpha * (c i j k * B)))%Qc).
    { destruct HB as [->|HB]; [replace (_ * _)%Qc with 0%Qc by ring; apply Qcle_refl|]. replace (_ * (alpha * (c i j k * B)))%Qc with (alpha * (c i j k * B))%Qc by ring. apply Qc_mul; [exact Ha|apply Qc_mul; [apply Hc, Ip|exact HB]]. }
    pose proof (Qc_add _ _ (Qc_sub_nonneg _ _ Hr) G) as F.
    match type of F with (0 <= ?t)%Qc => match goal with |- (0 <= ?g)%Qc => replace g with t by ring end end. exact F.
  - intros i j k Ig. pose proof (Qc_sub_nonneg _ _ (Hgh i j k Ig)) as G. apply Qc_nonneg_sub.
    match type of G with (0 <= ?t)%Qc => match goal with |- (0 <= ?g)%Qc => replace g with t by ring end end. exact G.
Qed.

Lemma below_v1_3d i0 j0 k0 i1 j1 k1 (dx : Z -> Qc) (beta : Qc) b0 b1 b2 gcw u f0 f1 f2 (alpha : Qc) agcw a rgcw res (m : mem QcS) (r w c v0 v1 v2 : Z -> Z -> Z -> Qc) (B : Qc) :
  applied_v1_3d (S := QcS) i0 j0 k0 i1 j1 k1 dx beta b0 b1 b2 gcw u f0 f1 f2 alpha agcw a rgcw res m r w c v0 v1 v2 ->
  (0 < beta)%Qc ->
  dx 0 <> 0%Qc ->
  (0 <= alpha)%Qc ->
  (forall i j k, patch3 i0 j0 k0 i1 j1 k1 i j k -> (0 <= c i j k)%Qc) ->
  (forall i j k, i0 <= i <= i1 + 1 -> j0 <= j <= j1 -> k0 <= k <= k1 -> (0 < v0 i j k)%Qc) ->
  (forall i j k, i0 <= i <= i1 -> j0 <= j <= j1 + 1 -> k0 <= k <= k1 -> (0 <= v1 i j k)%Qc) ->
  (forall i j k, i0 <= i <= i1 -> j0 <= j <= j1 -> k0 <= k <= k1 + 1 -> (0 <= v2 i j k)%Qc) ->
  alpha = 0%Qc \/ (B <= 0)%Qc ->
  (forall i j k, patch3 i0 j0 k0 i1 j1 k1 i j k -> (0 <= r i j k)%Qc) ->
  (forall i j k, ghost3 i0 j0 k0 i1 j1 k1 i j k -> (B <= w i j k)%Qc) ->
  forall i j k, patch3 i0 j0 k0 i1 j1 k1 i j k -> (B <= w i j k)%Qc.
Proof.
  intros H1 Hb Hh Ha Hc Hv0 Hv1 Hv2 HB Hr Hgh i j k Ip. apply Qc_nonneg_sub.
  match goal with |- (0 <= ?t)%Qc => replace t with (- ((- (1)) * w i j k + 1 * B))%Qc by ring end. apply (Qcopp_le_compat _ 0).
  revert i j k Ip. apply (core_v1_3d i0 j0 k0 i1 j1 k1 dx beta alpha c v0 v1 v2 (fun i j k => (- (1)) * w i j k + 1 * B)%Qc Hb Hh Ha Hc Hv0 Hv1 Hv2).
  - intros i j k Ip. rewrite (lin_T_v1_3d dx beta alpha c v0 v1 v2 (- (1))%Qc 1%Qc w (fun _ _ _ => B)). rewrite <- (val_T_v1_3d _ _ _ _ _ _ _ _ _ _ _ _ _ _ _ _ _ _ _ _ _ _ _ _ _ _ _ _ H1 i j k Ip).
    replace (T_v1_3d dx beta alpha c v0 v1 v2 (fun _ _ _ => B) i j k) with (alpha * (c i j k * B))%Qc by (unfold T_v1_3d, Qcdiv; ring).
    specialize (Hr i j k Ip). apply Qc_nonneg_sub.
    assert (G : (0 <= (- (1)) * (alpha * (c i j k * B)))%Qc).
    { destruct HB as [->|HB]; [replace (_ * _)%Qc with 0%Qc by ring; apply Qcle_refl|]. apply Qc_sub_nonneg in HB. replace (_ * (alpha * (c i j k * B)))%Qc with (alpha * (c i j k * (0 - B)))%Qc by ring. apply Qc_mul; [exact Ha|apply Qc_mul; [apply Hc, Ip|exact HB]]. }
    pose proof (Qc_add _ _ (Qc_sub_nonneg _ _ Hr) G) as F.
    match type of F with (0 <= ?t)%Qc => match goal with |- (0 <= ?g)%Qc => replace g with t by ring end end. exact F.
  - intros i j k Ig. pose proof (Qc_sub_nonneg _ _ (Hgh i j k Ig)) as G. apply Qc_nonneg_sub.
    match type of G with (0 <= ?t)%Qc => match goal with |- (0 <= ?g)%Qc => replace g with t by ring end end. exact G.
Qed.

Lemma exists_v1_3d i0 j0 k0 i1 j1 k1 (dx : Z -> Qc) (beta : Qc) b0 b1 b2 gcw u f0 f1 f2 (alpha : Qc) agcw a rgcw res (g r c v0 v1 v2 : Z -> Z -> Z -> Qc) :
  (0 < beta)%Qc ->
  dx 0 <> 0%Qc ->
  (0 <= alpha)%Qc ->
  (forall i j k, patch3 i0 j0 k0 i1 j1 k1 i j k -> (0 <= c i j k)%Qc) ->
  (forall i j k, i0 <= i <= i1 + 1 -> j0 <= j <= j1 -> k0 <= k <= k1 -> (0 < v0 i j k)%Qc) ->
  (forall i j k, i0 <= i <= i1 -> j0 <= j <= j1 + 1 -> k0 <= k <= k1 -> (0 <= v1 i j k)%Qc) ->
  (forall i j k, i0 <= i <= i1 -> j0 <= j <= j1 -> k0 <= k <= k1 + 1 -> (0 <= v2 i j k)%Qc) ->
  exists w : Z -> Z -> Z -> Qc, (forall i j k, ~ patch3 i0 j0 k0 i1 j1 k1 i j k -> w i j k = g i j k) /\
  forall (m : mem QcS) s, applied_v1_3d (S := QcS) i0 j0 k0 i1 j1 k1 dx beta b0 b1 b2 gcw u f0 f1 f2 alpha agcw a rgcw res m s w c v0 v1 v2 ->
  forall i j k, patch3 i0 j0 k0 i1 j1 k1 i j k -> s i j k = r i j k.
Proof.
  intros Hb Hh Ha Hc Hv0 Hv1 Hv2.
  destruct (@solvable (Z * Z * Z) dec3 (fun w => (fun p : Z * Z * Z => (T_v1_3d dx beta alpha c v0 v1 v2 (fun i j k => w (i, j, k))) (fst (fst p)) (snd (fst p)) (snd p))) (cells3 i0 j0 k0 i1 j1 k1) (nodup_cells3 i0 j0 k0 i1 j1 k1)) with (g := (fun p : Z * Z * Z => g (fst (fst p)) (snd (fst p)) (snd p))) (r := (fun p : Z * Z * Z => r (fst (fst p)) (snd (fst p)) (snd p))) as (w & Hw & Tw).
  - intros x y w z [[i j] k] _. cbn [fst snd]. apply (lin_T_v1_3d dx beta alpha c v0 v1 v2 x y (fun i j k => w (i, j, k)) (fun i j k => z (i, j, k)) i j k).
  - intros w Out Z. assert (G : forall i j k, patch3 i0 j0 k0 i1 j1 k1 i j k -> w (i, j, k) = 0%Qc).
    { intros i j k Ip. apply Qcle_antisym.
      - revert i j k Ip. apply (core_v1_3d i0 j0 k0 i1 j1 k1 dx beta alpha c v0 v1 v2 (fun i j k => w (i, j, k)) Hb Hh Ha Hc Hv0 Hv1 Hv2).
        + intros i j k Ip. pose proof (Z (i, j, k) (proj2 (in_cells3 i0 j0 k0 i1 j1 k1 i j k) Ip)) as Zp. cbn [fst snd] in Zp. rewrite Zp. apply Qcle_refl.
        + intros i j k (_ & N). rewrite Out; [apply Qcle_refl|]. intros C. apply N. now apply in_cells3.
      - apply Qc_nonneg_sub. replace (w (i, j, k) - 0)%Qc with (- ((- (1)) * w (i, j, k) + 0 * w (i, j, k)))%Qc by ring. apply (Qcopp_le_compat _ 0).
        revert i j k Ip. apply (core_v1_3d i0 j0 k0 i1 j1 k1 dx beta alpha c v0 v1 v2 (fun i j k => (- (1)) * w (i, j, k) + 0 * w (i, j, k))%Qc Hb Hh Ha Hc Hv0 Hv1 Hv2).
        + intros i j k Ip. rewrite (lin_T_v1_3d dx beta alpha c v0 v1 v2 (- (1))%Qc 0%Qc (fun i j k => w (i, j, k)) (fun i j k => w (i, j, k)) i j k). pose proof (Z (i, j, k) (proj2 (in_cells3 i0 j0 k0 i1 j1 k1 i j k) Ip)) as Zp. cbn [fst snd] in Zp. rewrite Zp. vm_compute. discriminate.
        + intros i j k (_ & N). rewrite Out; [vm_compute; discriminate|]. intros C. apply N. now apply in_cells3. }
    intros [[i j] k] Ip. apply G. now apply in_cells3.
  - intros w z [[i j] k] _ E. cbn [fst snd]. unfold T_v1_3d. rewrite !E. reflexivity.
  - exists (fun i j k => w (i, j, k)). split.
    + intros i j k N. apply (Hw (i, j, k)). intros C. apply N. now apply in_cells3.
    + intros m s H i j k Ip. rewrite (val_T_v1_3d _ _ _ _ _ _ _ _ _ _ _ _ _ _ _ _ _ _ _ _ _ _ _ _ _ _ _ _ H i j k Ip).
      apply (Tw (i, j, k)). now apply in_cells3.
Qed.

Definition T_v2_3d (dx : Z -> Qc) (beta alpha : Qc) (v0 v1 v2 : Z -> Z -> Z -> Qc) (w : Z -> Z -> Z -> Qc) : Z -> Z -> Z -> Qc := fun i j k =>
  (- beta * ((v0 (i + 1)%Z j k * ((w (i + 1)%Z j k - w i j k) / dx 0%Z) - v0 i j k * ((w i j k - w (i - 1)%Z j k) / dx 0%Z)) / dx 0%Z) + - beta * ((v1 i (j + 1)%Z k * ((w i (j + 1)%Z k - w i j k) / dx 1%Z) - v1 i j k * ((w i j k - w i (j - 1)%Z k) / dx 1%Z)) / dx 1%Z) + - beta * ((v2 i j (k + 1)%Z * ((w i j (k + 1)%Z - w i j k) / dx 2%Z) - v2 i j k * ((w i j k - w i j (k - 1)%Z) / dx 2%Z)) / dx 2%Z) + alpha * w i j k)%Qc.

Lemma val_T_v2_3d i0 j0 k0 i1 j1 k1 (dx : Z -> Qc) (beta : Qc) b0 b1 b2 gcw u f0 f1 f2 (alpha : Qc) rgcw res (m : mem QcS) (r w v0 v1 v2 : Z -> Z -> Z -> Qc) :
  applied_v2_3d (S := QcS) i0 j0 k0 i1 j1 k1 dx beta b0 b1 b2 gcw u f0 f1 f2 alpha rgcw res m r w v0 v1 v2 -> forall i j k, patch3 i0 j0 k0 i1 j1 k1 i j k -> r i j k = T_v2_3d dx beta alpha v0 v1 v2 w i j k.
Proof.
  intros H i j k Ip. etransitivity; [exact (val_v2_3d QcS_laws _ _ _ _ _ _ _ _ _ _ _ _ _ _ _ _ _ _ _ m r w _ _ _ H i j k Ip)|].
  unfold T_v2_3d. cbn -[Qcplus Qcmult Qcopp Qcminus Qcdiv Q2Qc]. unfold Qcdiv. ring.
Qed.

Lemma core_v2_3d i0 j0 k0 i1 j1 k1 (dx : Z -> Qc) (beta alpha : Qc) (v0 v1 v2 : Z -> Z -> Z -> Qc) (e : Z -> Z -> Z -> Qc) :
  (0 < beta)%Qc ->
  dx 0 <> 0%Qc ->
  (0 <= alpha)%Qc ->
  (forall i j k, i0 <= i <= i1 + 1 -> j0 <= j <= j1 -> k0 <= k <= k1 -> (0 < v0 i j k)%Qc) ->
  (forall i j k, i0 <= i <= i1 -> j0 <= j <= j1 + 1 -> k0 <= k <= k1 -> (0 <= v1 i j k)%Qc) ->
  (forall i j k, i0 <= i <= i1 -> j0 <= j <= j1 -> k0 <= k <= k1 + 1 -> (0 <= v2 i j k)%Qc) ->
  (forall i j k, patch3 i0 j0 k0 i1 j1 k1 i j k -> (T_v2_3d dx beta alpha v0 v1 v2 e i j k <= 0)%Qc) ->
  (forall i j k, ghost3 i0 j0 k0 i1 j1 k1 i j k -> (e i j k <= 0)%Qc) ->
  forall i j k, patch3 i0 j0 k0 i1 j1 k1 i j k -> (e i j k <= 0)%Qc.
Proof.
  intros Hb Hh Ha Hv0 Hv1 Hv2 Hr Hgh i j k Ip.
  apply (walk (cells3 i0 j0 k0 i1 j1 k1) (fun p : Z * Z * Z => e (fst (fst p)) (snd (fst p)) (snd p)) (fun p : Z * Z * Z => (fst (fst p) + 1, snd (fst p), snd p)) (fun p : Z * Z * Z => Z.to_nat (i1 - fst (fst p)))) with (p := (i, j, k)); [clear i j k Ip|now apply in_cells3].
  intros [[i j] k] Ip Mx Pe. cbn [fst snd] in *. apply in_cells3 in Ip.
  assert (Le : forall i' j' k', near3 i0 j0 k0 i1 j1 k1 i' j' k' -> (e i' j' k' <= e i j k)%Qc).
  { intros i' j' k' Hn. destruct (patch_dec3 i0 j0 k0 i1 j1 k1 i' j' k') as [Y|N].
    - apply (Mx (i', j', k')). now apply in_cells3.
    - apply Qcle_trans with 0%Qc; [apply Hgh; split; assumption|now apply Qclt_le_weak]. }
  specialize (Hr i j k Ip). unfold T_v2_3d in Hr.
  assert (Eq : e (i + 1)%Z j k = e i j k).
  { refine (edge_term beta (dx 0) (v0 (i + 1)%Z j k) (v0 i j k) (e i j k) (e (i + 1)%Z j k) (e (i - 1)%Z j k) _ Hb Hh (Hv0 (i + 1)%Z j k ltac:(k_near) ltac:(k_near) ltac:(k_near)) (Qclt_le_weak _ _ (Hv0 i j k ltac:(k_near) ltac:(k_near) ltac:(k_near))) (Le (i + 1)%Z j k ltac:(k_near)) (Le (i - 1)%Z j k ltac:(k_near)) (Qc_add _ _ (Qc_add _ _ (other_term beta (dx 1) (v1 i (j + 1)%Z k) (v1 i j k) (e i j k) (e i (j + 1)%Z k) (e i (j - 1)%Z k) (Qclt_le_weak _ _ Hb) (Hv1 i (j + 1)%Z k ltac:(k_near) ltac:(k_near) ltac:(k_near)) (Hv1 i j k ltac:(k_near) ltac:(k_near) ltac:(k_near)) (Le i (j + 1)%Z k ltac:(k_near)) (Le i (j - 1)%Z k ltac:(k_near))) (other_term beta (dx 2) (v2 i j (k + 1)%Z) (v2 i j k) (e i j k) (e i j (k + 1)%Z) (e i j (k - 1)%Z) (Qclt_le_weak _ _ Hb) (Hv2 i j (k + 1)%Z ltac:(k_near) ltac:(k_near) ltac:(k_near)) (Hv2 i j k ltac:(k_near) ltac:(k_near) ltac:(k_near)) (Le i j (k + 1)%Z ltac:(k_near)) (Le i j (k - 1)%Z ltac:(k_near)))) (Qc_mul _ _ Ha (Qclt_le_weak _ _ Pe))) _).
    rewrite ?Qcplus_assoc in *. exact Hr. }
  assert (In1 : patch3 i0 j0 k0 i1 j1 k1 (i + 1) j k).
  { destruct (patch_dec3 i0 j0 k0 i1 j1 k1 (i + 1)%Z j k) as [Y|N]; [exact Y|exfalso].
    apply (Qclt_not_le _ _ Pe). rewrite <- Eq. apply Hgh. split; [k_near|exact N]. }
  split; [now apply in_cells3|]. split; [exact Eq|k_near].
Qed.

Lemma lin_T_v2_3d (dx : Z -> Qc) (beta alpha : Qc) (v0 v1 v2 : Z -> Z -> Z -> Qc) (x y : Qc) (w z : Z -> Z -> Z -> Qc) i j k :
  T_v2_3d dx beta alpha v0 v1 v2 (fun i j k => x * w i j k + y * z i j k)%Qc i j k = (x * T_v2_3d dx beta alpha v0 v1 v2 w i j k + y * T_v2_3d dx beta alpha v0 v1 v2 z i j k)%Qc.
Proof. unfold T_v2_3d, Qcdiv. ring. Qed.

Lemma compare_v2_3d i0 j0 k0 i1 j1 k1 (dx : Z -> Qc) (beta : Qc) b0 b1 b2 gcw u f0 f1 f2 (alpha : Qc) rgcw res (m n : mem QcS) (r w s z v0 v1 v2 : Z -> Z -> Z -> Qc) :
  applied_v2_3d (S := QcS) i0 j0 k0 i1 j1 k1 dx beta b0 b1 b2 gcw u f0 f1 f2 alpha rgcw res m r w v0 v1 v2 ->
  applied_v2_3d (S := QcS) i0 j0 k0 i1 j1 k1 dx beta b0 b1 b2 gcw u f0 f1 f2 alpha rgcw res n s z v0 v1 v2 ->
  (0 < beta)%Qc ->
  dx 0 <> 0%Qc ->
  (0 <= alpha)%Qc ->
  (forall i j k, i0 <= i <= i1 + 1 -> j0 <= j <= j1 -> k0 <= k <= k1 -> (0 < v0 i j k)%Qc) ->
  (forall i j k, i0 <= i <= i1 -> j0 <= j <= j1 + 1 -> k0 <= k <= k1 -> (0 <= v1 i j k)%Qc) ->
  (forall i j k, i0 <= i <= i1 -> j0 <= j <= j1 -> k0 <= k <= k1 + 1 -> (0 <= v2 i j k)%Qc) ->
  (forall i j k, patch3 i0 j0 k0 i1 j1 k1 i j k -> (r i j k <= s i j k)%Qc) ->
  (forall i j k, ghost3 i0 j0 k0 i1 j1 k1 i j k -> (w i j k <= z i j k)%Qc) ->
  forall i j k, patch3 i0 j0 k0 i1 j1 k1 i j k -> (w i j k <= z i j k)%Qc.
Proof.
  intros H1 H2 Hb Hh Ha Hv0 Hv1 Hv2 Hr Hgh i j k Ip. apply Qc_nonneg_sub.
  replace (z i j k - w i j k)%Qc with (- (1 * w i j k + (- (1)) * z i j k))%Qc by ring. apply (Qcopp_le_compat _ 0).
  revert i j k Ip. apply (core_v2_3d i0 j0 k0 i1 j1 k1 dx beta alpha v0 v1 v2 (fun i j k => 1 * w i j k + (- (1)) * z i j k)%Qc Hb Hh Ha Hv0 Hv1 Hv2).
  - intros i j k Ip. rewrite lin_T_v2_3d. rewrite <- (val_T_v2_3d _ _ _ _ _ _ _ _ _ _ _ _ _ _ _ _ _ _ _ _ _ _ _ _ _ H1 i j k Ip), <- (val_T_v2_3d _ _ _ _ _ _ _ _ _ _ _ _ _ _ _ _ _ _ _ _ _ _ _ _ _ H2 i j k Ip).
    pose proof (Qc_sub_nonneg _ _ (Hr i j k Ip)) as G. apply Qcopp_le_compat in G.
    replace (- 0)%Qc with 0%Qc in G by ring. replace (1 * r i j k + (- (1)) * s i j k)%Qc with (- (s i j k - r i j k))%Qc by ring. exact G.
  - intros i j k Ig. pose proof (Qc_sub_nonneg _ _ (Hgh i j k Ig)) as G. apply Qcopp_le_compat in G.
    replace (- 0)%Qc with 0%Qc in G by ring. replace (1 * w i j k + (- (1)) * z i j k)%Qc with (- (z i j k - w i j k))%Qc by ring. exact G.
Qed.

Lemma unique_v2_3d i0 j0 k0 i1 j1 k1 (dx : Z -> Qc) (beta : Qc) b0 b1 b2 gcw u f0 f1 f2 (alpha : Qc) rgcw res (m n : mem QcS) (r w s z v0 v1 v2 : Z -> Z -> Z -> Qc) :
  applied_v2_3d (S := QcS) i0 j0 k0 i1 j1 k1 dx beta b0 b1 b2 gcw u f0 f1 f2 alpha rgcw res m r w v0 v1 v2 ->
  applied_v2_3d (S := QcS) i0 j0 k0 i1 j1 k1 dx beta b0 b1 b2 gcw u f0 f1 f2 alpha rgcw res n s z v0 v1 v2 ->
  (0 < beta)%Qc ->
  dx 0 <> 0%Qc ->
  (0 <= alpha)%Qc ->
  (forall i j k, i0 <= i <= i1 + 1 -> j0 <= j <= j1 -> k0 <= k <= k1 -> (0 < v0 i j k)%Qc) ->
  (forall i j k, i0 <= i <= i1 -> j0 <= j <= j1 + 1 -> k0 <= k <= k1 -> (0 <= v1 i j k)%Qc) ->
  (forall i j k, i0 <= i <= i1 -> j0 <= j <= j1 -> k0 <= k <= k1 + 1 -> (0 <= v2 i j k)%Qc) ->
  (forall i j k, patch3 i0 j0 k0 i1 j1 k1 i j k -> r i j k = s i j k) ->
  (forall i j k, ghost3 i0 j0 k0 i1 j1 k1 i j k -> w i j k = z i j k) ->
  forall i j k, patch3 i0 j0 k0 i1 j1 k1 i j k -> w i j k = z i j k.
Proof.
  intros H1 H2 Hb Hh Ha Hv0 Hv1 Hv2 Hr Hgh i j k Ip. apply Qcle_antisym.
  - apply (compare_v2_3d i0 j0 k0 i1 j1 k1 dx beta b0 b1 b2 gcw u f0 f1 f2 alpha rgcw res m n r w s z v0 v1 v2 H1 H2 Hb Hh Ha Hv0 Hv1 Hv2); try assumption; intros; rewrite ?Hr, ?Hgh by assumption; apply Qcle_refl.
  - apply (compare_v2_3d i0 j0 k0 i1 j1 k1 dx beta b0 b1 b2 gcw u f0 f1 f2 alpha rgcw res n m s z r w v0 v1 v2 H2 H1 Hb Hh Ha Hv0 Hv1 Hv2); try assumption; intros; rewrite ?Hr, ?Hgh by assumption; apply Qcle_refl.
Qed.

Lemma above_v2_3d i0 j0 k0 i1 j1 k1 (dx : Z -> Qc) (beta : Qc) b0 b1 b2 gcw u f0 f1 f2 (alpha : Qc) rgcw res (m : mem QcS) (r w v0 v1 v2 : Z -> Z -> Z -> Qc) (B : Qc) :
  applied_v2_3d (S := QcS) i0 j0 k0 i1 j1 k1 dx beta b0 b1 b2 gcw u f0 f1 f2 alpha rgcw res m r w v0 v1 v2 ->
  (0 < beta)%Qc ->
  dx 0 <> 0%Qc ->
  (0 <= alpha)%Qc ->
  (forall i j k, i0 <= i <= i1 + 1 -> j0 <= j <= j1 -> k0 <= k <= k1 -> (0 < v0 i j k)%Qc) ->
  (forall i j k, i0 <= i <= i1 -> j0 <= j <= j1 + 1 -> k0 <= k <= k1 -> (0 <= v1 i j k)%Qc) ->
  (forall i j k, i0 <= i <= i1 -> j0 <= j <= j1 -> k0 <= k <= k1 + 1 -> (0 <= v2 i j k)%Qc) ->
  alpha = 0%Qc \/ (0 <= B)%Qc ->
  (forall i j k, patch3 i0 j0 k0 i1 j1 k1 i j k -> (r i j k <= 0)%Qc) ->
  (forall i j k, ghost3 i0 j0 k0 i1 j1 k1 i j k -> (w i j k <= B)%Qc) ->
  forall i j k, patch3 i0 j0 k0 i1 j1 k1 i j k -> (w i j k <= B)%Qc.
Proof.
  intros H1 Hb Hh Ha Hv0 Hv1 Hv2 HB Hr Hgh i j k Ip. apply Qc_nonneg_sub.
  match goal with |- (0 <= ?t)%Qc => replace t with (- (1 * w i j k + (- (1)) * B))%Qc by ring end. apply (Qcopp_le_compat _ 0).
  revert i j k Ip. apply (core_v2_3d i0 j0 k0 i1 j1 k1 dx beta alpha v0 v1 v2 (fun i j k => 1 * w i j k + (- (1)) * B)%Qc Hb Hh Ha Hv0 Hv1 Hv2).
  - intros i j k Ip. rewrite (lin_T_v2_3d dx beta alpha v0 v1 v2 1%Qc (- (1))%Qc w (fun _ _ _ => B)). rewrite <- (val_T_v2_3d _ _ _ _ _ _ _ _ _ _ _ _ _ _ _ _ _ _ _ _ _ _ _ _ _ H1 i j k Ip).
    replace (T_v2_3d dx beta alpha v0 v1 v2 (fun _ _ _ => B) i j k) with (alpha * B)%Qc by (unfold T_v2_3d, Qcdiv; ring).
    specialize (Hr i j k Ip). apply Qc_nonneg_sub.
    assert (G : (0 <= 1 * (alpha * B))%Qc).
    { destruct HB as [->|HB]; [replace (_ * _)%Qc with 0%Qc by ring; apply Qcle_refl|]. replace (_ * (alpha * B))%Qc with (alpha * B)%Qc by ring. apply Qc_mul; assumption. }
    pose proof (Qc_add _ _ (Qc_sub_nonneg _ _ Hr) G) as F.
    match type of F with (0 <= ?t)%Qc => match goal with |- (0 <= ?g)%Qc => replace g with t by ring end end. exact F.
  - intros i j k Ig. pose proof (Qc_sub_nonneg _ _ (Hgh i j k Ig)) as G. apply Qc_nonneg_sub.
    match type of G with (0 <= ?t)%Qc => match goal with |- (0 <= ?g)%Qc => replace g with t by ring end end. exact G.
Qed.

Lemma below_v2_3d i0 j0 k0 i1 j1 k1 (dx : Z -> Qc) (beta : Qc) b0 b1 b2 gcw u f0 f1 f2 (alpha : Qc) rgcw res (m : mem QcS) (r w v0 v1 v2 : Z -> Z -> Z -> Qc) (B : Qc) :
  applied_v2_3d (S := QcS) i0 j0 k0 i1 j1 k1 dx beta b0 b1 b2 gcw u f0 f1 f2 alpha rgcw res m r w v0 v1 v2 ->
  (0 < beta)%Qc ->
  dx 0 <> 0%Qc ->
  (0 <= alpha)%Qc ->
  (forall i j k, i0 <= i <= i1 + 1 -> j0 <= j <= j1 -> k0 <= k <= k1 -> (0 < v0 i j k)%Qc) ->
  (forall i j k, i0 <= i <= i1 -> j0 <= j <= j1 + 1 -> k0 <= k <= k1 -> (0 <= v1 i j k)%Qc) ->
  (forall i j k, i0 <= i <= i1 -> j0 <= j <= j1 -> k0 <= k <= k1 + 1 -> (0 <= v2 i j k)%Qc) ->
  alpha = 0%Qc \/ (B <= 0)%Qc ->
  (forall i j k, patch3 i0 j0 k0 i1 j1 k1 i j k -> (0 <= r i j k)%Qc) ->
  (forall i j k, ghost3 i0 j0 k0 i1 j1 k1 i j k -> (B <= w i j k)%Qc) ->
  forall i j k, patch3 i0 j0 k0 i1 j1 k1 i j k -> (B <= w i j k)%Qc.
Proof.
  intros H1 Hb Hh Ha Hv0 Hv1 Hv2 HB Hr Hgh i j k Ip. apply Qc_nonneg_sub.
  match goal with |- (0 <= ?t)%Qc => replace t with (- ((- (1)) * w i j k + 1 * B))%Qc by ring end. apply (Qcopp_le_compat _ 0).
  revert i j k Ip. apply (core_v2_3d i0 j0 k0 i1 j1 k1 dx beta alpha v0 v1 v2 (fun i j k => (- (1)) * w i j k + 1 * B)%Qc Hb Hh Ha Hv0 Hv1 Hv2).
  - intros i j k Ip. rewrite (lin_T_v2_3d dx beta alpha v0 v1 v2 (- (1))%Qc 1%Qc w (fun _ _ _ => B)). rewrite <- (val_T_v2_3d _ _ _ _ _ _ _ _ _ _ _ _ _ _ _ _ _ _ _ _ _ _ _ _ _ H1 i j k Ip).
    replace (T_v2_3d dx beta alpha v0 v1 v2 (fun _ _ _ => B) i j k) with (alpha * B)%Qc by (unfold T_v2_3d, Qcdiv; ring).
    specialize (Hr i j k Ip). apply Qc_nonneg_sub.
    assert (G : (0 <= (- (1)) * (alpha * B))%Qc).
    { destruct HB as [->|HB]; [replace (_ * _)%Qc with 0%Qc by ring; apply Qcle_refl|]. apply Qc_sub_nonneg in HB. replace (_ * (alpha * B))%Qc with (alpha * (0 - B))%Qc by ring. apply Qc_mul; assumption. }
    pose proof (Qc_add _ _ (Qc_sub_nonneg _ _ Hr) G) as F.
    match type of F with (0 <= ?t)%Qc => match goal with |- (0 <= ?g)%Qc => replace g with t by ring end end. exact F.
  - intros i j k Ig. pose proof (Qc_sub_nonneg _ _ (Hgh i j k Ig)) as G. apply Qc_nonneg_sub.
    match type of G with (0 <= ?t)%Qc => match goal with |- (0 <= ?g)%Qc => replace g with t by ring end end. exact G.
Qed.

Lemma exists_v2_3d i0 j0 k0 i1 j1 k1 (dx : Z -> Qc) (beta : Qc) b0 b1 b2 gcw u f0 f1 f2 (alpha : Qc) rgcw res (g r v0 v1 v2 : Z -> Z -> Z -> Qc) :
  (0 < beta)%Qc ->
  dx 0 <> 0%Qc ->
  (0 <= alpha)%Qc ->
  (forall i j k, i0 <= i <= i1 + 1 -> j0 <= j <= j1 -> k0 <= k <= k1 -> (0 < v0 i j k)%Qc) ->
  (forall i j k, i0 <= i <= i1 -> j0 <= j <= j1 + 1 -> k0 <= k <= k1 -> (0 <= v1 i j k)%Qc) ->
  (forall i j k, i0 <= i <= i1 -> j0 <= j <= j1 -> k0 <= k <= k1 + 1 -> (0 <= v2 i j k)%Qc) ->
  exists w : Z -> Z -> Z -> Qc, (forall i j k, ~ patch3 i0 j0 k0 i1 j1 k1 i j k -> w i j k = g i j k) /\
  forall (m : mem QcS) s, applied_v2_3d (S := QcS) i0 j0 k0 i1 j1 k1 dx beta b0 b1 b2 gcw u f0 f1 f2 alpha rgcw res m s w v0 v1 v2 ->
  forall i j k, patch3 i0 j0 k0 i1 j1 k1 i j k -> s i j k = r i j k.
Proof.
  intros Hb Hh Ha Hv0 Hv1 Hv2.
  destruct (@solvable (Z * Z * Z) dec3 (fun w => (fun p : Z * Z * Z => (T_v2_3d dx beta alpha v0 v1 v2 (fun i j k => w (i, j, k))) (fst (fst p)) (snd (fst p)) (snd p))) (cells3 i0 j0 k0 i1 j1 k1) (nodup_cells3 i0 j0 k0 i1 j1 k1)) with (g := (fun p : Z * Z * Z => g (fst (fst p)) (snd (fst p)) (snd p))) (r := (fun p : Z * Z * Z => r (fst (fst p)) (snd (fst p)) (snd p))) as (w & Hw & Tw).
  - intros x y w z [[i j] k] _. cbn [fst snd]. apply (lin_T_v2_3d dx beta alpha v0 v1 v2 x y (fun i j k => w (i, j, k)) (fun i j k => z (i, j, k)) i j k).
  - intros w Out Z. assert (G : forall i j k, patch3 i0 j0 k0 i1 j1 k1 i j k -> w (i, j, k) = 0%Qc).
    { intros i j k Ip. apply Qcle_antisym.
      - revert i j k Ip. apply (core_v2_3d i0 j0 k0 i1 j1 k1 dx beta alpha v0 v1 v2 (fun i j k => w (i, j, k)) Hb Hh Ha Hv0 Hv1 Hv2).
        + intros i j k Ip. pose proof (Z (i, j, k) (proj2 (in_cells3 i0 j0 k0 i1 j1 k1 i j k) Ip)) as Zp. cbn [fst snd] in Zp. rewrite Zp. apply Qcle_refl.
        + intros i j k (_ & N). rewrite Out; [apply Qcle_refl|]. intros C. apply N. now apply in_cells3.
      - apply Qc_nonneg_sub. replace (w (i, j, k) - 0)%Qc with (- ((- (1)) * w (i, j, k) + 0 * w (i, j, k)))%Qc by ring. apply (Qcopp_le_compat _ 0).
        revert i j k Ip. apply (core_v2_3d i0 j0 k0 i1 j1 k1 dx beta alpha v0 v1 v2 (fun i j k => (- (1)) * w (i, j, k) + 0 * w (i, j, k))%Qc Hb Hh Ha Hv0 Hv1 Hv2).
        + intros i j k Ip. rewrite (lin_T_v2_3d dx beta alpha v0 v1 v2 (- (1))%Qc 0%Qc (fun i j k => w (i, j, k)) (fun i j k => w (i, j, k)) i j k). pose proof (Z (i, j, k) (proj2 (in_cells3 i0 j0 k0 i1 j1 k1 i j k) Ip)) as Zp. cbn [fst snd] in Zp. rewrite Zp. vm_compute. discriminate.
        + intros i j k (_ & N). rewrite Out; [vm_compute; discriminate|]. intros C. apply N. now apply in_cells3. }
    intros [[i j] k] Ip. apply G. now apply in_cells3.
  - intros w z [[i j] k] _ E. cbn [fst snd]. unfold T_v2_3d. rewrite !E. reflexivity.
  - exists (fun i j k => w (i, j, k)). split.
    + intros i j k N. apply (Hw (i, j, k)). intros C. apply N. now apply in_cells3.
    + intros m s H i j k Ip. rewrite (val_T_v2_3d _ _ _ _ _ _ _ _ _ _ _ _ _ _ _ _ _ _ _ _ _ _ _ _ _ H i j k Ip).
      apply (Tw (i, j, k)). now apply in_cells3.
Qed.

Definition T_poisson_3d (dx : Z -> Qc) (beta : Qc) (w : Z -> Z -> Z -> Qc) : Z -> Z -> Z -> Qc := fun i j k =>
  (- beta * ((1 * ((w (i + 1)%Z j k - w i j k) / dx 0%Z) - 1 * ((w i j k - w (i - 1)%Z j k) / dx 0%Z)) / dx 0%Z) + - beta * ((1 * ((w i (j + 1)%Z k - w i j k) / dx 1%Z) - 1 * ((w i j k - w i (j - 1)%Z k) / dx 1%Z)) / dx 1%Z) + - beta * ((1 * ((w i j (k + 1)%Z - w i j k) / dx 2%Z) - 1 * ((w i j k - w i j (k - 1)%Z) / dx 2%Z)) / dx 2%Z))%Qc.

Lemma val_T_poisson_3d i0 j0 k0 i1 j1 k1 (dx : Z -> Qc) (beta : Qc) gcw u f0 f1 f2 rgcw res (m : mem QcS) (r w : Z -> Z -> Z -> Qc) :
  applied_poisson_3d (S := QcS) i0 j0 k0 i1 j1 k1 dx beta gcw u f0 f1 f2 rgcw res m r w -> forall i j k, patch3 i0 j0 k0 i1 j1 k1 i j k -> r i j k = T_poisson_3d dx beta w i j k.
Proof.
  intros H i j k Ip. etransitivity; [exact (val_poisson_3d QcS_laws _ _ _ _ _ _ _ _ _ _ _ _ _ _ _ m r w  H i j k Ip)|].
  unfold T_poisson_3d. cbn -[Qcplus Qcmult Qcopp Qcminus Qcdiv Q2Qc]. unfold Qcdiv. ring.
Qed.

Lemma core_poisson_3d i0 j0 k0 i1 j1 k1 (dx : Z -> Qc) (beta : Qc) (e : Z -> Z -> Z -> Qc) :
  (0 < beta)%Qc ->
  dx 0 <> 0%Qc ->
  (forall i j k, patch3 i0 j0 k0 i1 j1 k1 i j k -> (T_poisson_3d dx beta e i j k <= 0)%Qc) ->
  (forall i j k, ghost3 i0 j0 k0 i1 j1 k1 i j k -> (e i j k <= 0)%Qc) ->
  forall i j k, patch3 i0 j0 k0 i1 j1 k1 i j k -> (e i j k <= 0)%Qc.
Proof.
  intros Hb Hh Hr Hgh i j k Ip.
  apply (walk (cells3 i0 j0 k0 i1 j1 k1) (fun p : Z * Z * Z => e (fst (fst p)) (snd (fst p)) (snd p)) (fun p : Z * Z * Z => (fst (fst p) + 1, snd (fst p), snd p)) (fun p : Z * Z * Z => Z.to_nat (i1 - fst (fst p)))) with (p := (i, j, k)); [clear i j k Ip|now apply in_cells3].
  intros [[i j] k] Ip Mx Pe. cbn [fst snd] in *. apply in_cells3 in Ip.
  assert (Le : forall i' j' k', near3 i0 j0 k0 i1 j1 k1 i' j' k' -> (e i' j' k' <= e i j k)%Qc).
  { intros i' j' k' Hn. destruct (patch_dec3 i0 j0 k0 i1 j1 k1 i' j' k') as [Y|N].
    - apply (Mx (i', j', k')). now apply in_cells3.
    - apply Qcle_trans with 0%Qc; [apply Hgh; split; assumption|now apply Qclt_le_weak]. }
  specialize (Hr i j k Ip). unfold T_poisson_3d in Hr.
  assert (Eq : e (i + 1)%Z j k = e i j k).
  { refine (edge_term beta (dx 0) 1%Qc 1%Qc (e i j k) (e (i + 1)%Z j k) (e (i - 1)%Z j k) _ Hb Hh ltac:(vm_compute; first [reflexivity|discriminate]) ltac:(vm_compute; first [reflexivity|discriminate]) (Le (i + 1)%Z j k ltac:(k_near)) (Le (i - 1)%Z j k ltac:(k_near)) (Qc_add _ _ (other_term beta (dx 1) 1%Qc 1%Qc (e i j k) (e i (j + 1)%Z k) (e i (j - 1)%Z k) (Qclt_le_weak _ _ Hb) ltac:(vm_compute; first [reflexivity|discriminate]) ltac:(vm_compute; first [reflexivity|discriminate]) (Le i (j + 1)%Z k ltac:(k_near)) (Le i (j - 1)%Z k ltac:(k_near))) (other_term beta (dx 2) 1%Qc 1%Qc (e i j k) (e i j (k + 1)%Z) (e i j (k - 1)%Z) (Qclt_le_weak _ _ Hb) ltac:(vm_compute; first [reflexivity|discriminate]) ltac:(vm_compute; first [reflexivity|discriminate]) (Le i j (k + 1)%Z ltac:(k_near)) (Le i j (k - 1)%Z ltac:(k_near)))) _).
    rewrite ?Qcplus_assoc in *. exact Hr. }
  assert (In1 : patch3 i0 j0 k0 i1 j1 k1 (i + 1) j k).
  { destruct (patch_dec3 i0 j0 k0 i1 j1 k1 (i + 1)%Z j k) as [Y|N]; [exact Y|exfalso].
    apply (Qclt_not_le _ _ Pe). rewrite <- Eq. apply Hgh. split; [k_near|exact N]. }
  split; [now apply in_cells3|]. split; [exact Eq|k_near].
Qed.

Lemma lin_T_poisson_3d (dx : Z -> Qc) (beta : Qc) (x y : Qc) (w z : Z -> Z -> Z -> Qc) i j k :
  T_poisson_3d dx beta (fun i j k => x * w i j k + y * z i j k)%Qc i j k = (x * T_poisson_3d dx beta w i j k + y * T_poisson_3d dx beta z i j k)%Qc.
Proof. unfold T_poisson_3d, Qcdiv. ring. Qed.

Lemma compare_poisson_3d i0 j0 k0 i1 j1 k1 (dx : Z -> Qc) (beta : Qc) gcw u f0 f1 f2 rgcw res (m n : mem QcS) (r w s z : Z -> Z -> Z -> Qc) :
  applied_poisson_3d (S := QcS) i0 j0 k0 i1 j1 k1 dx beta gcw u f0 f1 f2 rgcw res m r w ->
  applied_poisson_3d (S := QcS) i0 j0 k0 i1 j1 k1 dx beta gcw u f0 f1 f2 rgcw res n s z ->
  (0 < beta)%Qc ->
  dx 0 <> 0%Qc ->
  (forall i j k, patch3 i0 j0 k0 i1 j1 k1 i j k -> (r i j k <= s i j k)%Qc) ->
  (forall i j k, ghost3 i0 j0 k0 i1 j1 k1 i j k -> (w i j k <= z i j k)%Qc) ->
  forall i j k, patch3 i0 j0 k0 i1 j1 k1 i j k -> (w i j k <= z i j k)%Qc.
Proof.
  intros H1 H2 Hb Hh Hr Hgh i j k Ip. apply Qc_nonneg_sub.
  replace (z i j k - w i j k)%Qc with (- (1 * w i j k + (- (1)) * z i j k))%Qc by ring. apply (Qcopp_le_compat _ 0).
  revert i j k Ip. apply (core_poisson_3d i0 j0 k0 i1 j1 k1 dx beta (fun i j k => 1 * w i j k + (- (1)) * z i j k)%Qc Hb Hh).
  - intros i j k Ip. rewrite lin_T_poisson_3d. rewrite <- (val_T_poisson_3d _ _ _ _ _ _ _ _ _ _ _ _ _ _ _ _ _ _  H1 i j k Ip), <- (val_T_poisson_3d _ _ _ _ _ _ _ _ _ _ _ _ _ _ _ _ _ _  H2 i j k Ip).
    pose proof (Qc_sub_nonneg _ _ (Hr i j k Ip)) as G. apply Qcopp_le_compat in G.
    replace (- 0)%Qc with 0%Qc in G by ring. replace (1 * r i j k + (- (1)) * s i j k)%Qc with (- (s i j k - r i j k))%Qc by ring. exact G.
  - intros i j k Ig. pose proof (Qc_sub_nonneg _ _ (Hgh i j k Ig)) as G. apply Qcopp_le_compat in G.
    replace (- 0)%Qc with 0%Qc in G by ring. replace (1 * w i j k + (- (1)) * z i j k)%Qc with (- (z i j k - w i j k))%Qc by ring. exact G.
Qed.

Lemma unique_poisson_3d i0 j0 k0 i1 j1 k1 (dx : Z -> Qc) (beta : Qc) gcw u f0 f1 f2 rgcw res (m n : mem QcS) (r w s z : Z -> Z -> Z -> Qc) :
  applied_poisson_3d (S := QcS) i0 j0 k0 i1 j1 k1 dx beta gcw u f0 f1 f2 rgcw res m r w ->
  applied_poisson_3d (S := QcS) i0 j0 k0 i1 j1 k1 dx beta gcw u f0 f1 f2 rgcw res n s z ->
  (0 < beta)%Qc ->
  dx 0 <> 0%Qc ->
  (forall i j k, patch3 i0 j0 k0 i1 j1 k1 i j k -> r i j k = s i j k) ->
  (forall i j k, ghost3 i0 j0 k0 i1 j1 k1 i j k -> w i j k = z i j k) ->
  forall i j k, patch3 i0 j0 k0 i1 j1 k1 i j k -> w i j k = z i j k.
Proof.
  intros H1 H2 Hb Hh Hr Hgh i j k Ip. apply Qcle_antisym.
  - apply (compare_poisson_3d i0 j0 k0 i1 j1 k1 dx beta gcw u f0 f1 f2 rgcw res m n r w s z  H1 H2 Hb Hh); try assumption; intros; rewrite ?Hr, ?Hgh by assumption; apply Qcle_refl.
  - apply (compare_poisson_3d i0 j0 k0 i1 j1 k1 dx beta gcw u f0 f1 f2 rgcw res n m s z r w  H2 H1 Hb Hh); try assumption; intros; rewrite ?Hr, ?Hgh by assumption; apply Qcle_refl.
Qed.

Lemma above_poisson_3d i0 j0 k0 i1 j1 k1 (dx : Z -> Qc) (beta : Qc) gcw u f0 f1 f2 rgcw res (m : mem QcS) (r w : Z -> Z -> Z -> Qc) (B : Qc) :
  applied_poisson_3d (S := QcS) i0 j0 k0 i1 j1 k1 dx beta gcw u f0 f1 f2 rgcw res m r w ->
  (0 < beta)%Qc ->
  dx 0 <> 0%Qc ->
  (forall i j k, patch3 i0 j0 k0 i1 j1 k1 i j k -> (r i j k <= 0)%Qc) ->
  (forall i j k, ghost3 i0 j0 k0 i1 j1 k1 i j k -> (w i j k <= B)%Qc) ->
  forall i j k, patch3 i0 j0 k0 i1 j1 k1 i j k -> (w i j k <= B)%Qc.
Proof.
  intros H1 Hb Hh Hr Hgh i j k Ip. apply Qc_nonneg_sub.
  match goal with |- (0 <= ?t)%Qc => replace t with (- (1 * w i j k + (- (1)) * B))%Qc by ring end. apply (Qcopp_le_compat _ 0).
  revert i j k Ip. apply (core_poisson_3d i0 j0 k0 i1 j1 k1 dx beta (fun i j k => 1 * w i j k + (- (1)) * B)%Qc Hb Hh).
  - intros i j k Ip. rewrite (lin_T_poisson_3d dx beta 1%Qc (- (1))%Qc w (fun _ _ _ => B)). rewrite <- (val_T_poisson_3d _ _ _ _ _ _ _ _ _ _ _ _ _ _ _ _ _ _  H1 i j k Ip).
    replace (T_poisson_3d dx beta (fun _ _ _ => B) i j k) with (0)%Qc by (unfold T_poisson_3d, Qcdiv; ring).
    specialize (Hr i j k Ip). apply Qc_nonneg_sub.
    assert (G : (0 <= 0)%Qc) by apply Qcle_refl.
    
    pose proof (Qc_add _ _ (Qc_sub_nonneg _ _ Hr) G) as F.
    match type of F with (0 <= ?t)%Qc => match goal with |- (0 <= ?g)%Qc => replace g with t by ring end end. exact F.
  - intros i j k Ig. pose proof (Qc_sub_nonneg _ _ (Hgh i j k Ig)) as G. apply Qc_nonneg_sub.
    match type of G with (0 <= ?t)%Qc => match goal with |- (0 <= ?g)%Qc => replace g with t by ring end end. exact G.
Qed.

Lemma below_poisson_3d i0 j0 k0 i1 j1 k1 (dx : Z -> Qc) (beta : Qc) gcw u f0 f1 f2 rgcw res (m : mem QcS) (r w : Z -> Z -> Z -> Qc) (B : Qc) :
  applied_poisson_3d (S := QcS) i0 j0 k0 i1 j1 k1 dx beta gcw u f0 f1 f2 rgcw res m r w ->
  (0 < beta)%Qc ->
  dx 0 <> 0%Qc ->
  (forall i j k, patch3 i0 j0 k0 i1 j1 k1 i j k -> (0 <= r i j k)%Qc) ->
  (forall i j k, ghost3 i0 j0 k0 i1 j1 k1 i j k -> (B <= w i j k)%Qc) ->
  forall i j k, patch3 i0 j0 k0 i1 j1 k1 i j k -> (B <= w i j k)%Qc.
Proof.
  intros H1 Hb Hh Hr Hgh i j k Ip. apply Qc_nonneg_sub.
  match goal with |- (0 <= ?t)%Qc => replace t with (- ((- (1)) * w i j k + 1 * B))%Qc by ring end. apply (Qcopp_le_compat _ 0).
  revert i j k Ip. apply (core_poisson_3d i0 j0 k0 i1 j1 k1 dx beta (fun i j k => (- (1)) * w i j k + 1 * B)%Qc Hb Hh).
  - intros i j k Ip. rewrite (lin_T_poisson_3d dx beta (- (1))%Qc 1%Qc w (fun _ _ _ => B)). rewrite <- (val_T_poisson_3d _ _ _ _ _ _ _ _ _ _ _ _ _ _ _ _ _ _  H1 i j k Ip).
    replace (T_poisson_3d dx beta (fun _ _ _ => B) i j k) with (0)%Qc by (unfold T_poisson_3d, Qcdiv; ring).
    specialize (Hr i j k Ip). apply Qc_nonneg_sub.
    assert (G : (0 <= 0)%Qc) by apply Qcle_refl.
    
    pose proof (Qc_add _ _ (Qc_sub_nonneg _ _ Hr) G) as F.
    match type of F with (0 <= ?t)%Qc => match goal with |- (0 <= ?g)%Qc => replace g with t by ring end end. exact F.
  - intros i j k Ig. pose proof (Qc_sub_nonneg _ _ (Hgh i j k Ig)) as G. apply Qc_nonneg_sub.
    match type of G with (0 <= ?t)%Qc => match goal with |- (0 <= ?g)%Qc => replace g with t by ring end end. exact G.
Qed.

Lemma exists_poisson_3d i0 j0 k0 i1 j1 k1 (dx : Z -> Qc) (beta : Qc) gcw u f0 f1 f2 rgcw res (g r : Z -> Z -> Z -> Qc) :
  (0 < beta)%Qc ->
  dx 0 <> 0%Qc ->
  exists w : Z -> Z -> Z -> Qc, (forall i j k, ~ patch3 i0 j0 k0 i1 j1 k1 i j k -> w i j k = g i j k) /\
  forall (m : mem QcS) s, applied_poisson_3d (S := QcS) i0 j0 k0 i1 j1 k1 dx beta gcw u f0 f1 f2 rgcw res m s w ->
  forall i j k, patch3 i0 j0 k0 i1 j1 k1 i j k -> s i j k = r i j k.
Proof.
  intros Hb Hh.
  destruct (@solvable (Z * Z * Z) dec3 (fun w => (fun p : Z * Z * Z => (T_poisson_3d dx beta (fun i j k => w (i, j, k))) (fst (fst p)) (snd (fst p)) (snd p))) (cells3 i0 j0 k0 i1 j1 k1) (nodup_cells3 i0 j0 k0 i1 j1 k1)) with (g := (fun p : Z * Z * Z => g (fst (fst p)) (snd (fst p)) (snd p))) (r := (fun p : Z * Z * Z => r (fst (fst p)) (snd (fst p)) (snd p))) as (w & Hw & Tw).
  - intros x y w z [[i j] k] _. cbn [fst snd]. apply (lin_T_poisson_3d dx beta x y (fun i j k => w (i, j, k)) (fun i j k => z (i, j, k)) i j k).
  - intros w Out Z. assert (G : forall i j k, patch3 i0 j0 k0 i1 j1 k1 i j k -> w (i, j, k) = 0%Qc).
    { intros i j k Ip. apply Qcle_antisym.
      - revert i j k Ip. apply (core_poisson_3d i0 j0 k0 i1 j1 k1 dx beta (fun i j k => w (i, j, k)) Hb Hh).
        + intros i j k Ip. pose proof (Z (i, j, k) (proj2 (in_cells3 i0 j0 k0 i1 j1 k1 i j k) Ip)) as Zp. cbn [fst snd] in Zp. rewrite Zp. apply Qcle_refl.
        + intros i j k (_ & N). rewrite Out; [apply Qcle_refl|]. intros C. apply N. now apply in_cells3.
      - apply Qc_nonneg_sub. replace (w (i, j, k) - 0)%Qc with (- ((- (1)) * w (i, j, k) + 0 * w (i, j, k)))%Qc by ring. apply (Qcopp_le_compat _ 0).
        revert i j k Ip. apply (core_poisson_3d i0 j0 k0 i1 j1 k1 dx beta (fun i j k => (- (1)) * w (i, j, k) + 0 * w (i, j, k))%Qc Hb Hh).
        + intros i j k Ip. rewrite (lin_T_poisson_3d dx beta (- (1))%Qc 0%Qc (fun i j k => w (i, j, k)) (fun i j k => w (i, j, k)) i j k). pose proof (Z (i, j, k) (proj2 (in_cells3 i0 j0 k0 i1 j1 k1 i j k) Ip)) as Zp. cbn [fst snd] in Zp. rewrite Zp. vm_compute. discriminate.
        + intros i j k (_ & N). rewrite Out; [vm_compute; discriminate|]. intros C. apply N. now apply in_cells3. }
    intros [[i j] k] Ip. apply G. now apply in_cells3.
  - intros w z [[i j] k] _ E. cbn [fst snd]. unfold T_poisson_3d. rewrite !E. reflexivity.
  - exists (fun i j k => w (i, j, k)). split.
    + intros i j k N. apply (Hw (i, j, k)). intros C. apply N. now apply in_cells3.
    + intros m s H i j k Ip. rewrite (val_T_poisson_3d _ _ _ _ _ _ _ _ _ _ _ _ _ _ _ _ _ _  H i j k Ip).
      apply (Tw (i, j, k)). now apply in_cells3.
Qed.
