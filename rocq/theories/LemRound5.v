(** * Explicit rounding errors of the kernels *)

From Coq Require Import QArith Qcanon Qcabs.
From Verif Require Import Base Instances SpecRel SpecRound LemRound LemRound4 FortranBase SpecKernel LemRow KernelsFlux KernelsApply
  LemValues1 LemValues2 LemValues3.
Import ListNotations.
Open Scope Qc_scope.

Lemma load_exact rnd (m : mem (rounded rnd)) q : @load QcS (exact_mem m) q = @load (rounded rnd) m q.
Proof. reflexivity. Qed.

Lemma Qcabs_div x h : h <> 0 -> Qcabs (x / h) = Qcabs x / Qcabs h.
Proof.
  intros H. assert (Ha : Qcabs h <> 0).
  { intros E. apply H. destruct (Qclt_le_dec h 0) as [L|L].
    - rewrite Qcabs_neg in E by (apply Qclt_le_weak, L). replace h with (- - h) by ring. rewrite E. reflexivity.
    - rewrite Qcabs_pos in E by exact L. exact E. }
  assert (E : Qcabs x = Qcabs (x / h) * Qcabs h) by (rewrite <- Qcabs_Qcmult; f_equal; field; exact H).
  rewrite E. field. exact Ha.
Qed.

Section Explicit.
  Context (rnd : Qc -> Qc) (eps : Qc) (HM : std_model rnd eps).
  Local Notation flt := (rounded rnd).

  Lemma diff_approx x y h : h <> 0 -> approx rnd eps 2 (Qcabs (x - y) / Qcabs h) (rnd (rnd (x - y) / h)) ((x - y) / h).
  Proof. intros H. apply (approx_div rnd eps HM); [apply approx_sub0; exact HM|exact H]. Qed.

  Lemma flux_approx b x y h : h <> 0 ->
    Qcabs (rnd (b * rnd (rnd (x - y) / h)) - b * ((x - y) / h)) <= gamma eps 3 * Qcabs (b * ((x - y) / h)).
  Proof.
    intros H. rewrite Qcabs_Qcmult, Qcabs_div by exact H. apply (approx_err rnd eps HM).
    exact (approx_mul rnd eps HM 0 2 _ _ _ _ _ _ (approx_leaf rnd eps HM b) (diff_approx x y h H)).
  Qed.

  Lemma poisson_flux_approx x y h : h <> 0 ->
    Qcabs (rnd (rnd (x - y) / h) - (x - y) / h) <= gamma eps 2 * Qcabs ((x - y) / h).
  Proof. intros H. rewrite Qcabs_div by exact H. apply (approx_err rnd eps HM), diff_approx, H. Qed.

  (** The rounded and the exact value at one element. *)
  Ltac values G1 G2 :=
    let x := fresh "x" in let y := fresh "y" in let E1 := fresh "E" in let E2 := fresh "E" in
    let V1 := fresh "V" in let V2 := fresh "V" in
    destruct G1 as (x & E1 & V1); destruct G2 as (y & E2 & V2);
    exists x, y; split; [exact E1|]; split; [exact E2|]; clear E1 E2;
    revert V1 V2; unfold fop, fel, fsc; rewrite ?load_exact;
    repeat match goal with |- context [load ?m ?q] => destruct (load m q) as [?|]; cbn [bind]; try discriminate end;
    let V1 := fresh "V" in let V2 := fresh "V" in
    intros V1 V2; injection V1 as <-; injection V2 as <-.

  (** The same, with the values read. *)
  Ltac values2 m G1 G2 :=
    let x := fresh "x" in let y := fresh "y" in let E1 := fresh "E" in let E2 := fresh "E" in
    let V1 := fresh "V" in let V2 := fresh "V" in
    destruct G1 as (x & E1 & V1); destruct G2 as (y & E2 & V2);
    revert V1 V2; unfold fop, fel, fsc; rewrite ?load_exact;
    repeat match goal with |- context [load m ?q] =>
      lazymatch goal with |- (_ -> _ -> _) => destruct (load m q) as [?|]; cbn [bind]; try discriminate end end;
    let V1 := fresh "V" in let V2 := fresh "V" in
    intros V1 V2; injection V1 as <-; injection V2 as <-;
    repeat eexists; try exact E1; try exact E2.

  Lemma apply_approx_1 be al c w l0 r0 h0 : h0 <> 0 ->
    Qcabs (rnd (rnd (- be * rnd (rnd (r0 - l0) / h0)) + rnd (rnd (al * c) * w)) -
           (- be * ((r0 - l0) / h0) + al * c * w)) <=
    gamma eps 4 * (Qcabs be * (Qcabs (r0 - l0) / Qcabs h0) + Qcabs (al * c * w)).
  Proof.
    intros H0. apply (approx_err rnd eps HM). rewrite !Qcabs_Qcmult.
    exact (approx_add rnd eps HM 3 2 _ _ _ _ _ _
      (approx_mul rnd eps HM 0 2 _ _ _ _ _ _ (approx_neg rnd eps _ _ _ _ (approx_leaf rnd eps HM be)) (diff_approx _ _ _ H0))
      (approx_mul rnd eps HM 1 0 _ _ _ _ _ _ (approx_mul rnd eps HM 0 0 _ _ _ _ _ _ (approx_leaf rnd eps HM al) (approx_leaf rnd eps HM c)) (approx_leaf rnd eps HM w)) ltac:(discriminate)).
  Qed.

  Lemma apply_approx_2 be al c w l0 r0 l1 r1 h0 h1 : h0 <> 0 -> h1 <> 0 ->
    Qcabs (rnd (rnd (- be * rnd (rnd (rnd (r0 - l0) / h0) + rnd (rnd (r1 - l1) / h1))) + rnd (rnd (al * c) * w)) -
           (- be * ((r0 - l0) / h0 + (r1 - l1) / h1) + al * c * w)) <=
    gamma eps 5 * (Qcabs be * (Qcabs (r0 - l0) / Qcabs h0 + Qcabs (r1 - l1) / Qcabs h1) + Qcabs (al * c * w)).
  Proof.
    intros H0 H1. apply (approx_err rnd eps HM). rewrite !Qcabs_Qcmult.
    exact (approx_add rnd eps HM 4 2 _ _ _ _ _ _
      (approx_mul rnd eps HM 0 3 _ _ _ _ _ _ (approx_neg rnd eps _ _ _ _ (approx_leaf rnd eps HM be))
         (approx_add rnd eps HM 2 2 _ _ _ _ _ _ (diff_approx _ _ _ H0) (diff_approx _ _ _ H1) ltac:(discriminate)))
      (approx_mul rnd eps HM 1 0 _ _ _ _ _ _ (approx_mul rnd eps HM 0 0 _ _ _ _ _ _ (approx_leaf rnd eps HM al) (approx_leaf rnd eps HM c)) (approx_leaf rnd eps HM w)) ltac:(discriminate)).
  Qed.

  Lemma apply_approx_3 be al c w l0 r0 l1 r1 l2 r2 h0 h1 h2 : h0 <> 0 -> h1 <> 0 -> h2 <> 0 ->
    Qcabs (rnd (rnd (- be * rnd (rnd (rnd (rnd (r0 - l0) / h0) + rnd (rnd (r1 - l1) / h1)) + rnd (rnd (r2 - l2) / h2))) + rnd (rnd (al * c) * w)) -
           (- be * ((r0 - l0) / h0 + (r1 - l1) / h1 + (r2 - l2) / h2) + al * c * w)) <=
    gamma eps 6 * (Qcabs be * (Qcabs (r0 - l0) / Qcabs h0 + Qcabs (r1 - l1) / Qcabs h1 + Qcabs (r2 - l2) / Qcabs h2) + Qcabs (al * c * w)).
  Proof.
    intros H0 H1 H2. apply (approx_err rnd eps HM). rewrite !Qcabs_Qcmult.
    exact (approx_add rnd eps HM 5 2 _ _ _ _ _ _
      (approx_mul rnd eps HM 0 4 _ _ _ _ _ _ (approx_neg rnd eps _ _ _ _ (approx_leaf rnd eps HM be))
         (approx_add rnd eps HM 3 2 _ _ _ _ _ _
           (approx_add rnd eps HM 2 2 _ _ _ _ _ _ (diff_approx _ _ _ H0) (diff_approx _ _ _ H1) ltac:(discriminate))
           (diff_approx _ _ _ H2) ltac:(discriminate)))
      (approx_mul rnd eps HM 1 0 _ _ _ _ _ _ (approx_mul rnd eps HM 0 0 _ _ _ _ _ _ (approx_leaf rnd eps HM al) (approx_leaf rnd eps HM c)) (approx_leaf rnd eps HM w)) ltac:(discriminate)).
  Qed.

  Lemma flux_1d_err i0 i1 (dx : Z -> flt) b0 gcw u f0 (m m1 : mem flt) (m2 : mem QcS) :
    (i0 <= i1 + 1)%Z -> (0 <= gcw)%Z ->
    apart f0 [u; b0] -> dx 0%Z <> 0 ->
    cdf_1d_flux i0 i1 dx b0 gcw u f0 m = Some m1 ->
    @cdf_1d_flux QcS i0 i1 dx b0 gcw u f0 (exact_mem m) = Some m2 ->
    (forall i, (i0 <= i <= i1 + 1)%Z -> exists x y,
      ((mkFa f0 (FACE1d i0 i1 0))!(i))%F m1 = Some x /\ ((mkFa f0 (FACE1d i0 i1 0))!(i))%F m2 = Some y /\
      Qcabs ((x : Qc) - y) <= gamma eps 3 * Qcabs y).
  Proof.
    intros Bi Hg A0 H0 E1 E2.
    destruct (flux_1d_at i0 i1 dx b0 gcw u f0 m m1 Bi Hg A0 E1) as (G0a & _).
    destruct (@flux_1d_at QcS i0 i1 dx b0 gcw u f0 (exact_mem m) m2 Bi Hg A0 E2) as (G0b & _).
    - intros i Ii. values (G0a i Ii) (G0b i Ii). apply flux_approx, H0.
  Qed.

  Lemma flux_2d_err i0 j0 i1 j1 (dx : Z -> flt) b0 b1 gcw u f0 f1 (m m1 : mem flt) (m2 : mem QcS) :
    (i0 <= i1 + 1)%Z -> (j0 <= j1 + 1)%Z -> (0 <= gcw)%Z ->
    apart f0 [f1; u; b0; b1] -> apart f1 [u; b0; b1] -> dx 0%Z <> 0 -> dx 1%Z <> 0 ->
    cdf_2d_flux i0 j0 i1 j1 dx b0 b1 gcw u f0 f1 m = Some m1 ->
    @cdf_2d_flux QcS i0 j0 i1 j1 dx b0 b1 gcw u f0 f1 (exact_mem m) = Some m2 ->
    (forall i j, (i0 <= i <= i1 + 1)%Z -> (j0 <= j <= j1)%Z -> exists x y,
      ((mkFa f0 (FACE2d0 i0 j0 i1 j1 0))!(i, j))%F m1 = Some x /\ ((mkFa f0 (FACE2d0 i0 j0 i1 j1 0))!(i, j))%F m2 = Some y /\
      Qcabs ((x : Qc) - y) <= gamma eps 3 * Qcabs y) /\
    (forall i j, (i0 <= i <= i1)%Z -> (j0 <= j <= j1 + 1)%Z -> exists x y,
      ((mkFa f1 (FACE2d1 i0 j0 i1 j1 0))!(j, i))%F m1 = Some x /\ ((mkFa f1 (FACE2d1 i0 j0 i1 j1 0))!(j, i))%F m2 = Some y /\
      Qcabs ((x : Qc) - y) <= gamma eps 3 * Qcabs y).
  Proof.
    intros Bi Bj Hg A0 A1 H0 H1 E1 E2.
    destruct (flux_2d_at i0 j0 i1 j1 dx b0 b1 gcw u f0 f1 m m1 Bi Bj Hg A0 A1 E1) as (G0a & G1a & _).
    destruct (@flux_2d_at QcS i0 j0 i1 j1 dx b0 b1 gcw u f0 f1 (exact_mem m) m2 Bi Bj Hg A0 A1 E2) as (G0b & G1b & _).
    repeat apply conj.
    - intros i j Ii Ij. values (G0a i j Ii Ij) (G0b i j Ii Ij). apply flux_approx, H0.
    - intros i j Ii Ij. values (G1a i j Ii Ij) (G1b i j Ii Ij). apply flux_approx, H1.
  Qed.

  Lemma flux_3d_err i0 j0 k0 i1 j1 k1 (dx : Z -> flt) b0 b1 b2 gcw u f0 f1 f2 (m m1 : mem flt) (m2 : mem QcS) :
    (i0 <= i1 + 1)%Z -> (j0 <= j1 + 1)%Z -> (k0 <= k1 + 1)%Z -> (0 <= gcw)%Z ->
    apart f0 [f1; f2; u; b0; b1; b2] -> apart f1 [f2; u; b0; b1; b2] -> apart f2 [u; b0; b1; b2] -> dx 0%Z <> 0 -> dx 1%Z <> 0 -> dx 2%Z <> 0 ->
    cdf_3d_flux i0 j0 k0 i1 j1 k1 dx b0 b1 b2 gcw u f0 f1 f2 m = Some m1 ->
    @cdf_3d_flux QcS i0 j0 k0 i1 j1 k1 dx b0 b1 b2 gcw u f0 f1 f2 (exact_mem m) = Some m2 ->
    (forall i j k, (i0 <= i <= i1 + 1)%Z -> (j0 <= j <= j1)%Z -> (k0 <= k <= k1)%Z -> exists x y,
      ((mkFa f0 (FACE3d0 i0 j0 k0 i1 j1 k1 0))!(i, j, k))%F m1 = Some x /\ ((mkFa f0 (FACE3d0 i0 j0 k0 i1 j1 k1 0))!(i, j, k))%F m2 = Some y /\
      Qcabs ((x : Qc) - y) <= gamma eps 3 * Qcabs y) /\
    (forall i j k, (i0 <= i <= i1)%Z -> (j0 <= j <= j1 + 1)%Z -> (k0 <= k <= k1)%Z -> exists x y,
      ((mkFa f1 (FACE3d1 i0 j0 k0 i1 j1 k1 0))!(j, k, i))%F m1 = Some x /\ ((mkFa f1 (FACE3d1 i0 j0 k0 i1 j1 k1 0))!(j, k, i))%F m2 = Some y /\
      Qcabs ((x : Qc) - y) <= gamma eps 3 * Qcabs y) /\
    (forall i j k, (i0 <= i <= i1)%Z -> (j0 <= j <= j1)%Z -> (k0 <= k <= k1 + 1)%Z -> exists x y,
      ((mkFa f2 (FACE3d2 i0 j0 k0 i1 j1 k1 0))!(k, i, j))%F m1 = Some x /\ ((mkFa f2 (FACE3d2 i0 j0 k0 i1 j1 k1 0))!(k, i, j))%F m2 = Some y /\
      Qcabs ((x : Qc) - y) <= gamma eps 3 * Qcabs y).
  Proof.
    intros Bi Bj Bk Hg A0 A1 A2 H0 H1 H2 E1 E2.
    destruct (flux_3d_at i0 j0 k0 i1 j1 k1 dx b0 b1 b2 gcw u f0 f1 f2 m m1 Bi Bj Bk Hg A0 A1 A2 E1) as (G0a & G1a & G2a & _).
    destruct (@flux_3d_at QcS i0 j0 k0 i1 j1 k1 dx b0 b1 b2 gcw u f0 f1 f2 (exact_mem m) m2 Bi Bj Bk Hg A0 A1 A2 E2) as (G0b & G1b & G2b & _).
    repeat apply conj.
    - intros i j k Ii Ij Ik. values (G0a i j k Ii Ij Ik) (G0b i j k Ii Ij Ik). apply flux_approx, H0.
    - intros i j k Ii Ij Ik. values (G1a i j k Ii Ij Ik) (G1b i j k Ii Ij Ik). apply flux_approx, H1.
    - intros i j k Ii Ij Ik. values (G2a i j k Ii Ij Ik) (G2b i j k Ii Ij Ik). apply flux_approx, H2.
  Qed.

  Lemma poisson_flux_1d_err i0 i1 (dx : Z -> flt) gcw u f0 (m m1 : mem flt) (m2 : mem QcS) :
    (i0 <= i1 + 1)%Z -> (0 <= gcw)%Z ->
    apart f0 [u] -> dx 0%Z <> 0 ->
    cdf_1d_poisson_flux i0 i1 dx gcw u f0 m = Some m1 ->
    @cdf_1d_poisson_flux QcS i0 i1 dx gcw u f0 (exact_mem m) = Some m2 ->
    (forall i, (i0 <= i <= i1 + 1)%Z -> exists x y,
      ((mkFa f0 (FACE1d i0 i1 0))!(i))%F m1 = Some x /\ ((mkFa f0 (FACE1d i0 i1 0))!(i))%F m2 = Some y /\
      Qcabs ((x : Qc) - y) <= gamma eps 2 * Qcabs y).
  Proof.
    intros Bi Hg A0 H0 E1 E2.
    destruct (poisson_flux_1d_at i0 i1 dx gcw u f0 m m1 Bi Hg A0 E1) as (G0a & _).
    destruct (@poisson_flux_1d_at QcS i0 i1 dx gcw u f0 (exact_mem m) m2 Bi Hg A0 E2) as (G0b & _).
    - intros i Ii. values (G0a i Ii) (G0b i Ii). apply poisson_flux_approx, H0.
  Qed.

  Lemma poisson_flux_2d_err i0 j0 i1 j1 (dx : Z -> flt) gcw u f0 f1 (m m1 : mem flt) (m2 : mem QcS) :
    (i0 <= i1 + 1)%Z -> (j0 <= j1 + 1)%Z -> (0 <= gcw)%Z ->
    apart f0 [f1; u] -> apart f1 [u] -> dx 0%Z <> 0 -> dx 1%Z <> 0 ->
    cdf_2d_poisson_flux i0 j0 i1 j1 dx gcw u f0 f1 m = Some m1 ->
    @cdf_2d_poisson_flux QcS i0 j0 i1 j1 dx gcw u f0 f1 (exact_mem m) = Some m2 ->
    (forall i j, (i0 <= i <= i1 + 1)%Z -> (j0 <= j <= j1)%Z -> exists x y,
      ((mkFa f0 (FACE2d0 i0 j0 i1 j1 0))!(i, j))%F m1 = Some x /\ ((mkFa f0 (FACE2d0 i0 j0 i1 j1 0))!(i, j))%F m2 = Some y /\
      Qcabs ((x : Qc) - y) <= gamma eps 2 * Qcabs y) /\
    (forall i j, (i0 <= i <= i1)%Z -> (j0 <= j <= j1 + 1)%Z -> exists x y,
      ((mkFa f1 (FACE2d1 i0 j0 i1 j1 0))!(j, i))%F m1 = Some x /\ ((mkFa f1 (FACE2d1 i0 j0 i1 j1 0))!(j, i))%F m2 = Some y /\
      Qcabs ((x : Qc) - y) <= gamma eps 2 * Qcabs y).
  Proof.
    intros Bi Bj Hg A0 A1 H0 H1 E1 E2.
    destruct (poisson_flux_2d_at i0 j0 i1 j1 dx gcw u f0 f1 m m1 Bi Bj Hg A0 A1 E1) as (G0a & G1a & _).
    destruct (@poisson_flux_2d_at QcS i0 j0 i1 j1 dx gcw u f0 f1 (exact_mem m) m2 Bi Bj Hg A0 A1 E2) as (G0b & G1b & _).
    repeat apply conj.
    - intros i j Ii Ij. values (G0a i j Ii Ij) (G0b i j Ii Ij). apply poisson_flux_approx, H0.
    - intros i j Ii Ij. values (G1a i j Ii Ij) (G1b i j Ii Ij). apply poisson_flux_approx, H1.
  Qed.

  Lemma poisson_flux_3d_err i0 j0 k0 i1 j1 k1 (dx : Z -> flt) gcw u f0 f1 f2 (m m1 : mem flt) (m2 : mem QcS) :
    (i0 <= i1 + 1)%Z -> (j0 <= j1 + 1)%Z -> (k0 <= k1 + 1)%Z -> (0 <= gcw)%Z ->
    apart f0 [f1; f2; u] -> apart f1 [f2; u] -> apart f2 [u] -> dx 0%Z <> 0 -> dx 1%Z <> 0 -> dx 2%Z <> 0 ->
    cdf_3d_poisson_flux i0 j0 k0 i1 j1 k1 dx gcw u f0 f1 f2 m = Some m1 ->
    @cdf_3d_poisson_flux QcS i0 j0 k0 i1 j1 k1 dx gcw u f0 f1 f2 (exact_mem m) = Some m2 ->
    (forall i j k, (i0 <= i <= i1 + 1)%Z -> (j0 <= j <= j1)%Z -> (k0 <= k <= k1)%Z -> exists x y,
      ((mkFa f0 (FACE3d0 i0 j0 k0 i1 j1 k1 0))!(i, j, k))%F m1 = Some x /\ ((mkFa f0 (FACE3d0 i0 j0 k0 i1 j1 k1 0))!(i, j, k))%F m2 = Some y /\
      Qcabs ((x : Qc) - y) <= gamma eps 2 * Qcabs y) /\
    (forall i j k, (i0 <= i <= i1)%Z -> (j0 <= j <= j1 + 1)%Z -> (k0 <= k <= k1)%Z -> exists x y,
      ((mkFa f1 (FACE3d1 i0 j0 k0 i1 j1 k1 0))!(j, k, i))%F m1 = Some x /\ ((mkFa f1 (FACE3d1 i0 j0 k0 i1 j1 k1 0))!(j, k, i))%F m2 = Some y /\
      Qcabs ((x : Qc) - y) <= gamma eps 2 * Qcabs y) /\
    (forall i j k, (i0 <= i <= i1)%Z -> (j0 <= j <= j1)%Z -> (k0 <= k <= k1 + 1)%Z -> exists x y,
      ((mkFa f2 (FACE3d2 i0 j0 k0 i1 j1 k1 0))!(k, i, j))%F m1 = Some x /\ ((mkFa f2 (FACE3d2 i0 j0 k0 i1 j1 k1 0))!(k, i, j))%F m2 = Some y /\
      Qcabs ((x : Qc) - y) <= gamma eps 2 * Qcabs y).
  Proof.
    intros Bi Bj Bk Hg A0 A1 A2 H0 H1 H2 E1 E2.
    destruct (poisson_flux_3d_at i0 j0 k0 i1 j1 k1 dx gcw u f0 f1 f2 m m1 Bi Bj Bk Hg A0 A1 A2 E1) as (G0a & G1a & G2a & _).
    destruct (@poisson_flux_3d_at QcS i0 j0 k0 i1 j1 k1 dx gcw u f0 f1 f2 (exact_mem m) m2 Bi Bj Bk Hg A0 A1 A2 E2) as (G0b & G1b & G2b & _).
    repeat apply conj.
    - intros i j k Ii Ij Ik. values (G0a i j k Ii Ij Ik) (G0b i j k Ii Ij Ik). apply poisson_flux_approx, H0.
    - intros i j k Ii Ij Ik. values (G1a i j k Ii Ij Ik) (G1b i j k Ii Ij Ik). apply poisson_flux_approx, H1.
    - intros i j k Ii Ij Ik. values (G2a i j k Ii Ij Ik) (G2b i j k Ii Ij Ik). apply poisson_flux_approx, H2.
  Qed.

  Lemma v1_apply_1d_err i0 i1 (alpha beta : flt) (dx : Z -> flt) agcw a ugcw u f0 rgcw res (m m1 : mem flt) (m2 : mem QcS) :
    (i0 <= i1 + 1)%Z -> (0 <= rgcw)%Z ->
    apart res [f0; u; a] -> dx 0%Z <> 0 ->
    cd_apply_1d_diffusion_v1_apply i0 i1 alpha beta dx agcw a ugcw u f0 rgcw res m = Some m1 ->
    @cd_apply_1d_diffusion_v1_apply QcS i0 i1 alpha beta dx agcw a ugcw u f0 rgcw res (exact_mem m) = Some m2 ->
    forall i, (i0 <= i <= i1)%Z -> exists l0 r0 c w x y,
      ((mkFa f0 (FACE1d i0 i1 0))!(i))%F m = Some l0 /\ ((mkFa f0 (FACE1d i0 i1 0))!(i + 1))%F m = Some r0 /\
      ((mkFa a (CELL1d i0 i1 agcw))!(i))%F m = Some c /\ ((mkFa u (CELL1d i0 i1 ugcw))!(i))%F m = Some w /\
      ((mkFa res (CELL1d i0 i1 rgcw))!(i))%F m1 = Some x /\ ((mkFa res (CELL1d i0 i1 rgcw))!(i))%F m2 = Some y /\
      Qcabs ((x : Qc) - y) <= gamma eps 4 * (Qcabs beta * (Qcabs ((r0 : Qc) - l0) / Qcabs (dx 0%Z)) + Qcabs (alpha * c * w)).
  Proof.
    intros Bi Hg HA H0 E1 E2 i Ii.
    destruct (diffusion_v1_apply_1d_at i0 i1 alpha beta dx agcw a ugcw u f0 rgcw res m m1 Bi Hg HA E1) as [G1 _].
    destruct (@diffusion_v1_apply_1d_at QcS i0 i1 alpha beta dx agcw a ugcw u f0 rgcw res (exact_mem m) m2 Bi Hg HA E2) as [G2 _].
    values2 m (G1 i Ii) (G2 i Ii).
    apply apply_approx_1; assumption.
  Qed.

  Lemma v1_apply_2d_err i0 i1 j0 j1 (alpha beta : flt) (dx : Z -> flt) agcw a ugcw u f0 f1 rgcw res (m m1 : mem flt) (m2 : mem QcS) :
    (i0 <= i1 + 1)%Z -> (j0 <= j1 + 1)%Z -> (0 <= rgcw)%Z ->
    apart res [f0; f1; u; a] -> dx 0%Z <> 0 -> dx 1%Z <> 0 ->
    cd_apply_2d_diffusion_v1_apply i0 i1 j0 j1 alpha beta dx agcw a ugcw u f0 f1 rgcw res m = Some m1 ->
    @cd_apply_2d_diffusion_v1_apply QcS i0 i1 j0 j1 alpha beta dx agcw a ugcw u f0 f1 rgcw res (exact_mem m) = Some m2 ->
    forall i j, (i0 <= i <= i1)%Z -> (j0 <= j <= j1)%Z -> exists l0 r0 l1 r1 c w x y,
      ((mkFa f0 (FACE2d0 i0 j0 i1 j1 0))!(i, j))%F m = Some l0 /\ ((mkFa f0 (FACE2d0 i0 j0 i1 j1 0))!(i + 1, j))%F m = Some r0 /\
      ((mkFa f1 (FACE2d1 i0 j0 i1 j1 0))!(j, i))%F m = Some l1 /\ ((mkFa f1 (FACE2d1 i0 j0 i1 j1 0))!(j + 1, i))%F m = Some r1 /\
      ((mkFa a (CELL2d i0 j0 i1 j1 agcw))!(i, j))%F m = Some c /\ ((mkFa u (CELL2d i0 j0 i1 j1 ugcw))!(i, j))%F m = Some w /\
      ((mkFa res (CELL2d i0 j0 i1 j1 rgcw))!(i, j))%F m1 = Some x /\ ((mkFa res (CELL2d i0 j0 i1 j1 rgcw))!(i, j))%F m2 = Some y /\
      Qcabs ((x : Qc) - y) <= gamma eps 5 * (Qcabs beta * (Qcabs ((r0 : Qc) - l0) / Qcabs (dx 0%Z) + Qcabs ((r1 : Qc) - l1) / Qcabs (dx 1%Z)) + Qcabs (alpha * c * w)).
  Proof.
    intros Bi Bj Hg HA H0 H1 E1 E2 i j Ii Ij.
    destruct (diffusion_v1_apply_2d_at i0 i1 j0 j1 alpha beta dx agcw a ugcw u f0 f1 rgcw res m m1 Bi Bj Hg HA E1) as [G1 _].
    destruct (@diffusion_v1_apply_2d_at QcS i0 i1 j0 j1 alpha beta dx agcw a ugcw u f0 f1 rgcw res (exact_mem m) m2 Bi Bj Hg HA E2) as [G2 _].
    values2 m (G1 i j Ii Ij) (G2 i j Ii Ij).
    apply apply_approx_2; assumption.
  Qed.

  Lemma v1_apply_3d_err i0 i1 j0 j1 k0 k1 (alpha beta : flt) (dx : Z -> flt) agcw a ugcw u f0 f1 f2 rgcw res (m m1 : mem flt) (m2 : mem QcS) :
    (i0 <= i1 + 1)%Z -> (j0 <= j1 + 1)%Z -> (k0 <= k1 + 1)%Z -> (0 <= rgcw)%Z ->
    apart res [f0; f1; f2; u; a] -> dx 0%Z <> 0 -> dx 1%Z <> 0 -> dx 2%Z <> 0 ->
    cd_apply_3d_diffusion_v1_apply i0 i1 j0 j1 k0 k1 alpha beta dx agcw a ugcw u f0 f1 f2 rgcw res m = Some m1 ->
    @cd_apply_3d_diffusion_v1_apply QcS i0 i1 j0 j1 k0 k1 alpha beta dx agcw a ugcw u f0 f1 f2 rgcw res (exact_mem m) = Some m2 ->
    forall i j k, (i0 <= i <= i1)%Z -> (j0 <= j <= j1)%Z -> (k0 <= k <= k1)%Z -> exists l0 r0 l1 r1 l2 r2 c w x y,
      ((mkFa f0 (FACE3d0 i0 j0 k0 i1 j1 k1 0))!(i, j, k))%F m = Some l0 /\ ((mkFa f0 (FACE3d0 i0 j0 k0 i1 j1 k1 0))!(i + 1, j, k))%F m = Some r0 /\
      ((mkFa f1 (FACE3d1 i0 j0 k0 i1 j1 k1 0))!(j, k, i))%F m = Some l1 /\ ((mkFa f1 (FACE3d1 i0 j0 k0 i1 j1 k1 0))!(j + 1, k, i))%F m = Some r1 /\
      ((mkFa f2 (FACE3d2 i0 j0 k0 i1 j1 k1 0))!(k, i, j))%F m = Some l2 /\ ((mkFa f2 (FACE3d2 i0 j0 k0 i1 j1 k1 0))!(k + 1, i, j))%F m = Some r2 /\
      ((mkFa a (CELL3d i0 j0 k0 i1 j1 k1 agcw))!(i, j, k))%F m = Some c /\ ((mkFa u (CELL3d i0 j0 k0 i1 j1 k1 ugcw))!(i, j, k))%F m = Some w /\
      ((mkFa res (CELL3d i0 j0 k0 i1 j1 k1 rgcw))!(i, j, k))%F m1 = Some x /\ ((mkFa res (CELL3d i0 j0 k0 i1 j1 k1 rgcw))!(i, j, k))%F m2 = Some y /\
      Qcabs ((x : Qc) - y) <= gamma eps 6 * (Qcabs beta * (Qcabs ((r0 : Qc) - l0) / Qcabs (dx 0%Z) + Qcabs ((r1 : Qc) - l1) / Qcabs (dx 1%Z) + Qcabs ((r2 : Qc) - l2) / Qcabs (dx 2%Z)) + Qcabs (alpha * c * w)).
  Proof.
    intros Bi Bj Bk Hg HA H0 H1 H2 E1 E2 i j k Ii Ij Ik.
    destruct (diffusion_v1_apply_3d_at i0 i1 j0 j1 k0 k1 alpha beta dx agcw a ugcw u f0 f1 f2 rgcw res m m1 Bi Bj Bk Hg HA E1) as [G1 _].
    destruct (@diffusion_v1_apply_3d_at QcS i0 i1 j0 j1 k0 k1 alpha beta dx agcw a ugcw u f0 f1 f2 rgcw res (exact_mem m) m2 Bi Bj Bk Hg HA E2) as [G2 _].
    values2 m (G1 i j k Ii Ij Ik) (G2 i j k Ii Ij Ik).
    apply apply_approx_3; assumption.
  Qed.
End Explicit.
