(** * The boundary value problem as a quadratic form *)

From Coq Require Import Field QArith Qcanon.
From Verif Require Import Base FortranBase SpecKernel SpecBoundary SpecBCOrder SpecRow SpecEnergy SpecSolve Instances LemField LemSum LemEnergy LemSolve LemSolveOp SpecBvp LemBvp LemBvpFill LemBvpOp LemBvpAny.
Import ListNotations.
Open Scope Z_scope.

Section Generic.
  Context {S : Scalar} (L : field_laws S).
  Add Field SFo : (s_field S L) (morphism (lit_morph S L), constants [lit_cst]).

  Lemma form1 i0 i1 (beta h0 : S) (a v0 W Y : Z -> S) : i0 <= i1 ->
    total i0 i1 (fun i => (((- beta) * ((v0 (i + 1)%Z * ((W (i + 1)%Z - W i) / h0) - v0 i * ((W i - W (i - 1)%Z) / h0)) / h0)) + a i * W i) * Y i)%T =
    (beta * (SpecEnergy.line i0 i1 h0 v0 W Y) + total i0 i1 (fun i => a i * W i * Y i))%T.
  Proof.
    intros B0. transitivity (total i0 i1 (fun i => ((- beta) * (((v0 (i + 1)%Z * ((W (i + 1)%Z - W i) / h0) - v0 i * ((W i - W (i - 1)%Z) / h0)) / h0) * Y i) + a i * W i * Y i))%T); [apply total_ext; intros; ring|].
    rewrite (total_add L i0 i1 (fun i => (- beta) * (((v0 (i + 1)%Z * ((W (i + 1)%Z - W i) / h0) - v0 i * ((W i - W (i - 1)%Z) / h0)) / h0) * Y i))%T (fun i => a i * W i * Y i)%T), (total_mul L i0 i1 (- beta)%T (fun i => ((v0 (i + 1)%Z * ((W (i + 1)%Z - W i) / h0) - v0 i * ((W i - W (i - 1)%Z) / h0)) / h0) * Y i)%T), (line_parts L i0 i1 h0 v0 W Y B0).
    ring.
  Qed.

  Lemma form2 i0 j0 i1 j1 (beta h0 h1 : S) (a v0 v1 W Y : Z -> Z -> S) : i0 <= i1 -> j0 <= j1 ->
    total2 i0 j0 i1 j1 (fun i j => (((- beta) * ((v0 (i + 1)%Z j * ((W (i + 1)%Z j - W i j) / h0) - v0 i j * ((W i j - W (i - 1)%Z j) / h0)) / h0)) + ((- beta) * ((v1 i (j + 1)%Z * ((W i (j + 1)%Z - W i j) / h1) - v1 i j * ((W i j - W i (j - 1)%Z) / h1)) / h1)) + a i j * W i j) * Y i j)%T =
    (beta * (total j0 j1 (fun j => SpecEnergy.line i0 i1 h0 (fun i => v0 i j) (fun i => W i j) (fun i => Y i j)) + total i0 i1 (fun i => SpecEnergy.line j0 j1 h1 (fun j => v1 i j) (fun j => W i j) (fun j => Y i j))) + total2 i0 j0 i1 j1 (fun i j => a i j * W i j * Y i j))%T.
  Proof.
    intros B0 B1. transitivity (total2 i0 j0 i1 j1 (fun i j => ((- beta) * (((v0 (i + 1)%Z j * ((W (i + 1)%Z j - W i j) / h0) - v0 i j * ((W i j - W (i - 1)%Z j) / h0)) / h0) * Y i j) + ((- beta) * (((v1 i (j + 1)%Z * ((W i (j + 1)%Z - W i j) / h1) - v1 i j * ((W i j - W i (j - 1)%Z) / h1)) / h1) * Y i j) + a i j * W i j * Y i j)))%T); [apply total2_ext; intros; ring|].
    rewrite (total2_add L i0 j0 i1 j1 (fun i j => (- beta) * (((v0 (i + 1)%Z j * ((W (i + 1)%Z j - W i j) / h0) - v0 i j * ((W i j - W (i - 1)%Z j) / h0)) / h0) * Y i j))%T (fun i j => ((- beta) * (((v1 i (j + 1)%Z * ((W i (j + 1)%Z - W i j) / h1) - v1 i j * ((W i j - W i (j - 1)%Z) / h1)) / h1) * Y i j) + a i j * W i j * Y i j))%T), (total2_mul L i0 j0 i1 j1 (- beta)%T (fun i j => ((v0 (i + 1)%Z j * ((W (i + 1)%Z j - W i j) / h0) - v0 i j * ((W i j - W (i - 1)%Z j) / h0)) / h0) * Y i j)%T), (line_parts_2d_0 L i0 j0 i1 j1 h0 v0 W Y B0).
    rewrite (total2_add L i0 j0 i1 j1 (fun i j => (- beta) * (((v1 i (j + 1)%Z * ((W i (j + 1)%Z - W i j) / h1) - v1 i j * ((W i j - W i (j - 1)%Z) / h1)) / h1) * Y i j))%T (fun i j => a i j * W i j * Y i j)%T), (total2_mul L i0 j0 i1 j1 (- beta)%T (fun i j => ((v1 i (j + 1)%Z * ((W i (j + 1)%Z - W i j) / h1) - v1 i j * ((W i j - W i (j - 1)%Z) / h1)) / h1) * Y i j)%T), (line_parts_2d_1 L i0 j0 i1 j1 h1 v1 W Y B1).
    ring.
  Qed.

  Lemma form3 i0 j0 k0 i1 j1 k1 (beta h0 h1 h2 : S) (a v0 v1 v2 W Y : Z -> Z -> Z -> S) : i0 <= i1 -> j0 <= j1 -> k0 <= k1 ->
    total3 i0 j0 k0 i1 j1 k1 (fun i j k => (((- beta) * ((v0 (i + 1)%Z j k * ((W (i + 1)%Z j k - W i j k) / h0) - v0 i j k * ((W i j k - W (i - 1)%Z j k) / h0)) / h0)) + ((- beta) * ((v1 i (j + 1)%Z k * ((W i (j + 1)%Z k - W i j k) / h1) - v1 i j k * ((W i j k - W i (j - 1)%Z k) / h1)) / h1)) + ((- beta) * ((v2 i j (k + 1)%Z * ((W i j (k + 1)%Z - W i j k) / h2) - v2 i j k * ((W i j k - W i j (k - 1)%Z) / h2)) / h2)) + a i j k * W i j k) * Y i j k)%T =
    (beta * (total2 j0 k0 j1 k1 (fun j k => SpecEnergy.line i0 i1 h0 (fun i => v0 i j k) (fun i => W i j k) (fun i => Y i j k)) + total2 i0 k0 i1 k1 (fun i k => SpecEnergy.line j0 j1 h1 (fun j => v1 i j k) (fun j => W i j k) (fun j => Y i j k)) + total2 i0 j0 i1 j1 (fun i j => SpecEnergy.line k0 k1 h2 (fun k => v2 i j k) (fun k => W i j k) (fun k => Y i j k))) + total3 i0 j0 k0 i1 j1 k1 (fun i j k => a i j k * W i j k * Y i j k))%T.
  Proof.
    intros B0 B1 B2. transitivity (total3 i0 j0 k0 i1 j1 k1 (fun i j k => ((- beta) * (((v0 (i + 1)%Z j k * ((W (i + 1)%Z j k - W i j k) / h0) - v0 i j k * ((W i j k - W (i - 1)%Z j k) / h0)) / h0) * Y i j k) + ((- beta) * (((v1 i (j + 1)%Z k * ((W i (j + 1)%Z k - W i j k) / h1) - v1 i j k * ((W i j k - W i (j - 1)%Z k) / h1)) / h1) * Y i j k) + ((- beta) * (((v2 i j (k + 1)%Z * ((W i j (k + 1)%Z - W i j k) / h2) - v2 i j k * ((W i j k - W i j (k - 1)%Z) / h2)) / h2) * Y i j k) + a i j k * W i j k * Y i j k))))%T); [apply total3_ext; intros; ring|].
    rewrite (total3_add L i0 j0 k0 i1 j1 k1 (fun i j k => (- beta) * (((v0 (i + 1)%Z j k * ((W (i + 1)%Z j k - W i j k) / h0) - v0 i j k * ((W i j k - W (i - 1)%Z j k) / h0)) / h0) * Y i j k))%T (fun i j k => ((- beta) * (((v1 i (j + 1)%Z k * ((W i (j + 1)%Z k - W i j k) / h1) - v1 i j k * ((W i j k - W i (j - 1)%Z k) / h1)) / h1) * Y i j k) + ((- beta) * (((v2 i j (k + 1)%Z * ((W i j (k + 1)%Z - W i j k) / h2) - v2 i j k * ((W i j k - W i j (k - 1)%Z) / h2)) / h2) * Y i j k) + a i j k * W i j k * Y i j k)))%T), (total3_mul L i0 j0 k0 i1 j1 k1 (- beta)%T (fun i j k => ((v0 (i + 1)%Z j k * ((W (i + 1)%Z j k - W i j k) / h0) - v0 i j k * ((W i j k - W (i - 1)%Z j k) / h0)) / h0) * Y i j k)%T), (line_parts_3d_0 L i0 j0 k0 i1 j1 k1 h0 v0 W Y B0).
    rewrite (total3_add L i0 j0 k0 i1 j1 k1 (fun i j k => (- beta) * (((v1 i (j + 1)%Z k * ((W i (j + 1)%Z k - W i j k) / h1) - v1 i j k * ((W i j k - W i (j - 1)%Z k) / h1)) / h1) * Y i j k))%T (fun i j k => ((- beta) * (((v2 i j (k + 1)%Z * ((W i j (k + 1)%Z - W i j k) / h2) - v2 i j k * ((W i j k - W i j (k - 1)%Z) / h2)) / h2) * Y i j k) + a i j k * W i j k * Y i j k))%T), (total3_mul L i0 j0 k0 i1 j1 k1 (- beta)%T (fun i j k => ((v1 i (j + 1)%Z k * ((W i (j + 1)%Z k - W i j k) / h1) - v1 i j k * ((W i j k - W i (j - 1)%Z k) / h1)) / h1) * Y i j k)%T), (line_parts_3d_1 L i0 j0 k0 i1 j1 k1 h1 v1 W Y B1).
    rewrite (total3_add L i0 j0 k0 i1 j1 k1 (fun i j k => (- beta) * (((v2 i j (k + 1)%Z * ((W i j (k + 1)%Z - W i j k) / h2) - v2 i j k * ((W i j k - W i j (k - 1)%Z) / h2)) / h2) * Y i j k))%T (fun i j k => a i j k * W i j k * Y i j k)%T), (total3_mul L i0 j0 k0 i1 j1 k1 (- beta)%T (fun i j k => ((v2 i j (k + 1)%Z * ((W i j (k + 1)%Z - W i j k) / h2) - v2 i j k * ((W i j k - W i j (k - 1)%Z) / h2)) / h2) * Y i j k)%T), (line_parts_3d_2 L i0 j0 k0 i1 j1 k1 h2 v2 W Y B2).
    ring.
  Qed.

End Generic.

Lemma simple_ll (b : bcond QcS) : (b_kind b = 0 -> b_order b = 1) -> ll b = 0%Qc.
Proof. intros H. unfold ll. destruct (Z.eqb_spec (b_kind b) 0) as [E|]; [|reflexivity]. now rewrite (H E). Qed.

Lemma ghost_sym (g gw gz w z x y : Qc) l : l = 0%Qc -> gw = (g * w + l * x)%Qc -> gz = (g * z + l * y)%Qc -> (gw * z = gz * w)%Qc.
Proof. intros -> -> ->. ring. Qed.
Lemma ghost_sq (g gw w x : Qc) l : l = 0%Qc -> (g + l <= 1)%Qc -> gw = (g * w + l * x)%Qc -> (gw * w <= w * w)%Qc.
Proof.
  intros -> Hg ->. replace ((g * w + 0 * x) * w)%Qc with ((g + 0) * (w * w))%Qc by ring. replace (w * w)%Qc with (1 * (w * w))%Qc at 2 by ring.
  apply Qcmult_le_compat_r; [exact Hg|apply Qc_sq].
Qed.

(** A number [b] with [2 t b + t^2 c] never negative is zero. *)
Lemma no_slope (b c : Qc) : (0 <= c)%Qc -> (forall t : Qc, (0 <= (1 + 1) * t * b + t * t * c)%Qc) -> b = 0%Qc.
Proof.
  intros Hc H. assert (P : (0 < c + 1)%Qc) by (apply Qc_pos_add; [exact Hc|reflexivity]).
  assert (N : (c + 1)%Qc <> 0%Qc) by now apply Qc_ne_0.
  specialize (H (- b / (c + 1))%Qc).
  assert (Q : (0 <= - (b * b * (c + (1 + 1))))%Qc).
  { replace (- (b * b * (c + (1 + 1))))%Qc with (((1 + 1) * (- b / (c + 1)) * b + - b / (c + 1) * (- b / (c + 1)) * c) * ((c + 1) * (c + 1)))%Qc by (field; exact N).
    apply Qc_mul; [exact H|apply Qc_sq]. }
  apply Qcopp_le_compat in Q. rewrite Qcopp_involutive in Q. change (- 0)%Qc with 0%Qc in Q.
  assert (P2 : (0 < c + (1 + 1))%Qc) by (apply Qc_pos_add; [exact Hc|reflexivity]).
  destruct (Qc_eq_dec b 0) as [E|E]; [exact E|exfalso].
  assert (S2 : (0 < b * b)%Qc).
  { destruct (Qcle_lt_or_eq _ _ (Qc_sq b)) as [|Z]; [assumption|]. symmetry in Z. apply Qcmult_integral in Z. tauto. }
  exact (Qclt_not_le _ _ (Qc_pos_mul _ _ S2 P2) Q).
Qed.

Section Form1.
  Context (i0 i1 : Z) (dx : Z -> Qc) (beta : Qc) (a v0 : Z -> Qc) (bc : Z -> bcond QcS).
  Context (rob : bool) (Hb : (0 < beta)%Qc) (Hdx : forall d, 0 <= d < 1 -> (0 < dx d)%Qc).
  Context (Hv0 : forall i, i0 <= i <= i1 + 1 -> (0 < v0 i)%Qc).
  Context (Hs : forall f, 0 <= f < 2 -> sound rob (bc f)) (Ro : roomy 1 (ends1 i0) (ends1 i1) bc).
  Context (Hk : forall f, 0 <= f < 2 -> b_kind (bc f) = 0 -> b_order (bc f) = 1).

  Lemma bform1 (w z : Z -> Qc) :
    total (S := QcS) i0 i1 (fun i => op1 dx beta a v0 (ext1 i0 i1 dx v0 bc w) i * z i)%Qc =
    (beta * (SpecEnergy.line (S := QcS) i0 i1 (dx 0%Z) v0 (ext1 i0 i1 dx v0 bc w) (ext1 i0 i1 dx v0 bc z)) + total (S := QcS) i0 i1 (fun i => a i * w i * z i)%Qc)%Qc.
  Proof.
    pose proof (roomy_le 1 (ends1 i0) (ends1 i1) bc Ro 0 ltac:(lia)) as B0. change (i0 <= i1) in B0.
    transitivity (total (S := QcS) i0 i1 (fun i => op1 dx beta a v0 (ext1 i0 i1 dx v0 bc w) i * (ext1 i0 i1 dx v0 bc z) i)%Qc).
    - apply (total_ext (S := QcS)). intros i Ii. now rewrite (ext1_in i0 i1 dx a v0 bc z i ltac:(k_near)).
    - etransitivity; [exact (form1 QcS_laws i0 i1 beta (dx 0%Z) a v0 (ext1 i0 i1 dx v0 bc w) (ext1 i0 i1 dx v0 bc z) B0)|].
      apply (f_equal2 Qcplus); [reflexivity|]. apply (total_ext (S := QcS)). intros i Ii.
      rewrite !(ext1_in i0 i1 dx a v0 bc) by k_near. reflexivity.
  Qed.

  Lemma bsym1 (w z : Z -> Qc) :
    total (S := QcS) i0 i1 (fun i => op1 dx beta a v0 (ext1 i0 i1 dx v0 bc w) i * z i)%Qc = total (S := QcS) i0 i1 (fun i => op1 dx beta a v0 (ext1 i0 i1 dx v0 bc z) i * w i)%Qc.
  Proof.
    pose proof (roomy_le 1 (ends1 i0) (ends1 i1) bc Ro 0 ltac:(lia)) as B0. change (i0 <= i1) in B0.
    rewrite (bform1 w z), (bform1 z w). apply (f_equal2 Qcplus).
    - apply (f_equal (Qcmult beta)).
      apply (line_sym QcS_laws i0 i1 (dx 0%Z) v0 (ext1 i0 i1 dx v0 bc w) (ext1 i0 i1 dx v0 bc z)).
      + cbv beta. rewrite (ext1_in i0 i1 dx a v0 bc w i0 ltac:(k_near)), (ext1_in i0 i1 dx a v0 bc z i0 ltac:(k_near)). exact (ghost_sym _ _ _ _ _ _ _ _ (simple_ll _ (Hk 0 ltac:(lia))) (ext1_face0 i0 i1 dx a v0 bc w B0 ) (ext1_face0 i0 i1 dx a v0 bc z B0 )).
      + cbv beta. rewrite (ext1_in i0 i1 dx a v0 bc w i1 ltac:(k_near)), (ext1_in i0 i1 dx a v0 bc z i1 ltac:(k_near)). exact (ghost_sym _ _ _ _ _ _ _ _ (simple_ll _ (Hk 1 ltac:(lia))) (ext1_face1 i0 i1 dx a v0 bc w B0 ) (ext1_face1 i0 i1 dx a v0 bc z B0 )).
    - apply (total_ext (S := QcS)). intros i Ii. k_qc. ring.
  Qed.

  Context (Ha : forall i, patch1 i0 i1 i -> (0 <= a i)%Qc).
  Lemma bnonneg1 (w : Z -> Qc) : (0 <= total (S := QcS) i0 i1 (fun i => op1 dx beta a v0 (ext1 i0 i1 dx v0 bc w) i * w i)%Qc)%Qc.
  Proof.
    pose proof (roomy_le 1 (ends1 i0) (ends1 i1) bc Ro 0 ltac:(lia)) as B0. change (i0 <= i1) in B0.
    rewrite (bform1 w w). apply Qc_add.
    - apply Qc_mul; [now apply Qclt_le_weak|].
      apply (line_nonneg i0 i1 (dx 0%Z) v0 (ext1 i0 i1 dx v0 bc w) B0).
      + intros i Ii. apply Qclt_le_weak. exact (Hv0 i Ii).
      + cbv beta. rewrite (ext1_in i0 i1 dx a v0 bc w i0 ltac:(k_near)). apply (fun H => ghost_sq _ _ _ _ _ (simple_ll _ (Hk 0 ltac:(lia))) H (ext1_face0 i0 i1 dx a v0 bc w B0 )). apply (kl_le rob); [apply Hs; lia|apply Hdx; lia|apply Qclt_le_weak, Hv0; lia].
      + cbv beta. rewrite (ext1_in i0 i1 dx a v0 bc w i1 ltac:(k_near)). apply (fun H => ghost_sq _ _ _ _ _ (simple_ll _ (Hk 1 ltac:(lia))) H (ext1_face1 i0 i1 dx a v0 bc w B0 )). apply (kl_le rob); [apply Hs; lia|apply Hdx; lia|apply Qclt_le_weak, Hv0; lia].
    - apply total_nonneg. intros i Ii. replace (a i * w i * w i)%Qc with (a i * (w i * w i))%Qc by ring. apply Qc_mul; [apply Ha; k_near|apply Qc_sq].
  Qed.

  Lemma bform1_lin x (w z e : Z -> Qc) :
    total (S := QcS) i0 i1 (fun i => op1 dx beta a v0 (ext1 i0 i1 dx v0 bc (fun i => 1 * w i + x * z i)%Qc) i * e i)%Qc =
    (total (S := QcS) i0 i1 (fun i => op1 dx beta a v0 (ext1 i0 i1 dx v0 bc w) i * e i)%Qc + x * total (S := QcS) i0 i1 (fun i => op1 dx beta a v0 (ext1 i0 i1 dx v0 bc z) i * e i)%Qc)%Qc.
  Proof.
    transitivity (total (S := QcS) i0 i1 (fun i => op1 dx beta a v0 (ext1 i0 i1 dx v0 bc w) i * e i + x * (op1 dx beta a v0 (ext1 i0 i1 dx v0 bc z) i * e i))%Qc).
    - apply (total_ext (S := QcS)). intros i Ii. rewrite (bvp1_lin i0 i1 dx beta a v0 bc 1 x w z i) by k_near. k_qc. ring.
    - etransitivity; [exact (total_add QcS_laws i0 i1 (fun i => op1 dx beta a v0 (ext1 i0 i1 dx v0 bc w) i * e i)%Qc (fun i => x * (op1 dx beta a v0 (ext1 i0 i1 dx v0 bc z) i * e i))%Qc)|].
      apply (f_equal2 Qcplus); [reflexivity|]. exact (total_mul QcS_laws i0 i1 x (fun i => op1 dx beta a v0 (ext1 i0 i1 dx v0 bc z) i * e i)%Qc).
  Qed.

  (** The form of [w + x z]. *)
  Lemma bsquare1 x (w z : Z -> Qc) :
    (0 <= total (S := QcS) i0 i1 (fun i => op1 dx beta a v0 (ext1 i0 i1 dx v0 bc w) i * w i)%Qc + (1 + 1) * x * total (S := QcS) i0 i1 (fun i => op1 dx beta a v0 (ext1 i0 i1 dx v0 bc w) i * z i)%Qc + x * x * total (S := QcS) i0 i1 (fun i => op1 dx beta a v0 (ext1 i0 i1 dx v0 bc z) i * z i)%Qc)%Qc.
  Proof.
    pose proof (bnonneg1 (fun i => 1 * w i + x * z i)%Qc) as H.
    rewrite (bform1_lin x w z) in H. rewrite (bsym1 w (fun i => 1 * w i + x * z i)%Qc), (bsym1 z (fun i => 1 * w i + x * z i)%Qc) in H.
    rewrite !(bform1_lin x w z) in H. rewrite (bsym1 z w) in H.
    match type of H with (0 <= ?t)%Qc => match goal with |- (0 <= ?g)%Qc => replace g with t by ring end end. exact H.
  Qed.

  Lemma benergy1 (w z : Z -> Qc) :
    (total (S := QcS) i0 i1 (fun i => op1 dx beta a v0 (ext1 i0 i1 dx v0 bc w) i * w i)%Qc - (1 + 1) * total (S := QcS) i0 i1 (fun i => op1 dx beta a v0 (ext1 i0 i1 dx v0 bc w) i * w i)%Qc <=
     total (S := QcS) i0 i1 (fun i => op1 dx beta a v0 (ext1 i0 i1 dx v0 bc z) i * z i)%Qc - (1 + 1) * total (S := QcS) i0 i1 (fun i => op1 dx beta a v0 (ext1 i0 i1 dx v0 bc w) i * z i)%Qc)%Qc.
  Proof.
    pose proof (bsquare1 (- (1))%Qc w z) as H. apply Qc_nonneg_sub.
    match type of H with (0 <= ?t)%Qc => match goal with |- (0 <= ?g)%Qc => replace g with t by ring end end. exact H.
  Qed.

  (** If the form of [w] with itself vanishes, so does the operator. *)
  Lemma bnull1 (w : Z -> Qc) : total (S := QcS) i0 i1 (fun i => op1 dx beta a v0 (ext1 i0 i1 dx v0 bc w) i * w i)%Qc = 0%Qc ->
    forall i, patch1 i0 i1 i -> op1 dx beta a v0 (ext1 i0 i1 dx v0 bc w) i = 0%Qc.
  Proof.
    intros E x Ip. set (e := (fun i => if ((i =? x)%Z)%bool then 1%Qc else 0%Qc) : Z -> Qc).
    assert (Q : total (S := QcS) i0 i1 (fun i => op1 dx beta a v0 (ext1 i0 i1 dx v0 bc w) i * e i)%Qc = op1 dx beta a v0 (ext1 i0 i1 dx v0 bc w) x).
    { etransitivity; [apply (total_at QcS_laws i0 i1 (fun i => op1 dx beta a v0 (ext1 i0 i1 dx v0 bc w) i * e i)%Qc x); [clear - Ip; k_near|]|].
      - intros i Ii N. unfold e. destruct (Z.eqb_spec i x) as [Qi|Qi]; cbn [andb]; try (exfalso; clear - N Qi; tauto); rewrite lit_0; apply Qcmult_0_r.
      - cbv beta. unfold e. rewrite !Z.eqb_refl. cbn [andb]. apply Qcmult_1_r. }
    rewrite <- Q. apply (no_slope _ _ (bnonneg1 e)). intros s.
    pose proof (bsquare1 s w e) as H. rewrite E in H. match type of H with (0 <= ?t)%Qc => match goal with |- (0 <= ?g)%Qc => replace g with t by ring end end. exact H.
  Qed.

  Lemma bdefinite1 (w : Z -> Qc) : ((exists f, 0 <= f < 2 /\ b_kind (bc f) <> 1) \/ (exists i, patch1 i0 i1 i /\ (0 < a i)%Qc)) ->
    total (S := QcS) i0 i1 (fun i => op1 dx beta a v0 (ext1 i0 i1 dx v0 bc w) i * w i)%Qc = 0%Qc -> forall i, patch1 i0 i1 i -> w i = 0%Qc.
  Proof.
    intros Hd E. pose proof (bnull1 w E) as Z.
    assert (Z0 : forall i, patch1 i0 i1 i -> 0%Qc = op1 dx beta a v0 (ext1 i0 i1 dx v0 bc (fun _ => 0%Qc)) i).
    { intros i Ip. pose proof (bvp1_lin i0 i1 dx beta a v0 bc 0 0 w w i Ip) as H.
      transitivity (0 * op1 dx beta a v0 (ext1 i0 i1 dx v0 bc w) i + 0 * op1 dx beta a v0 (ext1 i0 i1 dx v0 bc w) i)%Qc; [ring|]. rewrite <- H. apply (op1_near i0 i1 dx beta a v0 bc); [exact Ip|]. intros. apply ext1_ext. intros. ring. }
    intros i Ip. apply Qcle_antisym.
    - exact (any1_compare i0 i1 dx beta a v0 bc rob Hb Hdx Ha Hv0 Hs Ro Hd w (fun _ => 0%Qc) (fun _ => 0%Qc) (fun _ => 0%Qc) (fun i Ip => eq_sym (Z i Ip)) Z0 (fun _ _ => Qcle_refl _) i Ip).
    - exact (any1_compare i0 i1 dx beta a v0 bc rob Hb Hdx Ha Hv0 Hs Ro Hd (fun _ => 0%Qc) w (fun _ => 0%Qc) (fun _ => 0%Qc) Z0 (fun i Ip => eq_sym (Z i Ip)) (fun _ _ => Qcle_refl _) i Ip).
  Qed.
End Form1.

Section Form2.
  Context (i0 j0 i1 j1 : Z) (dx : Z -> Qc) (beta : Qc) (a v0 v1 : Z -> Z -> Qc) (bc : Z -> bcond QcS).
  Context (rob : bool) (Hb : (0 < beta)%Qc) (Hdx : forall d, 0 <= d < 2 -> (0 < dx d)%Qc).
  Context (Hv0 : forall i j, i0 <= i <= i1 + 1 -> j0 <= j <= j1 -> (0 < v0 i j)%Qc).
  Context (Hv1 : forall i j, i0 <= i <= i1 -> j0 <= j <= j1 + 1 -> (0 < v1 i j)%Qc).
  Context (Hs : forall f, 0 <= f < 4 -> sound rob (bc f)) (Ro : roomy 2 (ends2 i0 j0) (ends2 i1 j1) bc).
  Context (Hk : forall f, 0 <= f < 4 -> b_kind (bc f) = 0 -> b_order (bc f) = 1).

  Lemma bform2 (w z : Z -> Z -> Qc) :
    total2 (S := QcS) i0 j0 i1 j1 (fun i j => op2 dx beta a v0 v1 (ext2 i0 j0 i1 j1 dx v0 v1 bc w) i j * z i j)%Qc =
    (beta * (total (S := QcS) j0 j1 (fun j => SpecEnergy.line (S := QcS) i0 i1 (dx 0%Z) (fun i => v0 i j) (fun i => (ext2 i0 j0 i1 j1 dx v0 v1 bc w) i j) (fun i => (ext2 i0 j0 i1 j1 dx v0 v1 bc z) i j)) + total (S := QcS) i0 i1 (fun i => SpecEnergy.line (S := QcS) j0 j1 (dx 1%Z) (fun j => v1 i j) (fun j => (ext2 i0 j0 i1 j1 dx v0 v1 bc w) i j) (fun j => (ext2 i0 j0 i1 j1 dx v0 v1 bc z) i j))) + total2 (S := QcS) i0 j0 i1 j1 (fun i j => a i j * w i j * z i j)%Qc)%Qc.
  Proof.
    pose proof (roomy_le 2 (ends2 i0 j0) (ends2 i1 j1) bc Ro 0 ltac:(lia)) as B0. change (i0 <= i1) in B0.
    pose proof (roomy_le 2 (ends2 i0 j0) (ends2 i1 j1) bc Ro 1 ltac:(lia)) as B1. change (j0 <= j1) in B1.
    transitivity (total2 (S := QcS) i0 j0 i1 j1 (fun i j => op2 dx beta a v0 v1 (ext2 i0 j0 i1 j1 dx v0 v1 bc w) i j * (ext2 i0 j0 i1 j1 dx v0 v1 bc z) i j)%Qc).
    - apply (total2_ext (S := QcS)). intros i j Ii Ij. now rewrite (ext2_in i0 j0 i1 j1 dx a v0 v1 bc z i j ltac:(k_near)).
    - etransitivity; [exact (form2 QcS_laws i0 j0 i1 j1 beta (dx 0%Z) (dx 1%Z) a v0 v1 (ext2 i0 j0 i1 j1 dx v0 v1 bc w) (ext2 i0 j0 i1 j1 dx v0 v1 bc z) B0 B1)|].
      apply (f_equal2 Qcplus); [reflexivity|]. apply (total2_ext (S := QcS)). intros i j Ii Ij.
      rewrite !(ext2_in i0 j0 i1 j1 dx a v0 v1 bc) by k_near. reflexivity.
  Qed.

  Lemma bsym2 (w z : Z -> Z -> Qc) :
    total2 (S := QcS) i0 j0 i1 j1 (fun i j => op2 dx beta a v0 v1 (ext2 i0 j0 i1 j1 dx v0 v1 bc w) i j * z i j)%Qc = total2 (S := QcS) i0 j0 i1 j1 (fun i j => op2 dx beta a v0 v1 (ext2 i0 j0 i1 j1 dx v0 v1 bc z) i j * w i j)%Qc.
  Proof.
    pose proof (roomy_le 2 (ends2 i0 j0) (ends2 i1 j1) bc Ro 0 ltac:(lia)) as B0. change (i0 <= i1) in B0.
    pose proof (roomy_le 2 (ends2 i0 j0) (ends2 i1 j1) bc Ro 1 ltac:(lia)) as B1. change (j0 <= j1) in B1.
    rewrite (bform2 w z), (bform2 z w). apply (f_equal2 Qcplus).
    - apply (f_equal (Qcmult beta)).
      apply (f_equal2 Qcplus).
      {
      apply (total_ext (S := QcS)); intros j Ij. apply (line_sym QcS_laws i0 i1 (dx 0%Z) (fun i => v0 i j) (fun i => (ext2 i0 j0 i1 j1 dx v0 v1 bc w) i j) (fun i => (ext2 i0 j0 i1 j1 dx v0 v1 bc z) i j)).
      + cbv beta. rewrite (ext2_in i0 j0 i1 j1 dx a v0 v1 bc w i0 j ltac:(k_near)), (ext2_in i0 j0 i1 j1 dx a v0 v1 bc z i0 j ltac:(k_near)). exact (ghost_sym _ _ _ _ _ _ _ _ (simple_ll _ (Hk 0 ltac:(lia))) (ext2_face0 i0 j0 i1 j1 dx a v0 v1 bc w B0 j Ij) (ext2_face0 i0 j0 i1 j1 dx a v0 v1 bc z B0 j Ij)).
      + cbv beta. rewrite (ext2_in i0 j0 i1 j1 dx a v0 v1 bc w i1 j ltac:(k_near)), (ext2_in i0 j0 i1 j1 dx a v0 v1 bc z i1 j ltac:(k_near)). exact (ghost_sym _ _ _ _ _ _ _ _ (simple_ll _ (Hk 1 ltac:(lia))) (ext2_face1 i0 j0 i1 j1 dx a v0 v1 bc w B0 j Ij) (ext2_face1 i0 j0 i1 j1 dx a v0 v1 bc z B0 j Ij)).
      }
      {
      apply (total_ext (S := QcS)); intros i Ii. apply (line_sym QcS_laws j0 j1 (dx 1%Z) (fun j => v1 i j) (fun j => (ext2 i0 j0 i1 j1 dx v0 v1 bc w) i j) (fun j => (ext2 i0 j0 i1 j1 dx v0 v1 bc z) i j)).
      + cbv beta. rewrite (ext2_in i0 j0 i1 j1 dx a v0 v1 bc w i j0 ltac:(k_near)), (ext2_in i0 j0 i1 j1 dx a v0 v1 bc z i j0 ltac:(k_near)). exact (ghost_sym _ _ _ _ _ _ _ _ (simple_ll _ (Hk 2 ltac:(lia))) (ext2_face2 i0 j0 i1 j1 dx a v0 v1 bc w B1 i Ii) (ext2_face2 i0 j0 i1 j1 dx a v0 v1 bc z B1 i Ii)).
      + cbv beta. rewrite (ext2_in i0 j0 i1 j1 dx a v0 v1 bc w i j1 ltac:(k_near)), (ext2_in i0 j0 i1 j1 dx a v0 v1 bc z i j1 ltac:(k_near)). exact (ghost_sym _ _ _ _ _ _ _ _ (simple_ll _ (Hk 3 ltac:(lia))) (ext2_face3 i0 j0 i1 j1 dx a v0 v1 bc w B1 i Ii) (ext2_face3 i0 j0 i1 j1 dx a v0 v1 bc z B1 i Ii)).
      }
    - apply (total2_ext (S := QcS)). intros i j Ii Ij. k_qc. ring.
  Qed.

  Context (Ha : forall i j, patch2 i0 j0 i1 j1 i j -> (0 <= a i j)%Qc).
  Lemma bnonneg2 (w : Z -> Z -> Qc) : (0 <= total2 (S := QcS) i0 j0 i1 j1 (fun i j => op2 dx beta a v0 v1 (ext2 i0 j0 i1 j1 dx v0 v1 bc w) i j * w i j)%Qc)%Qc.
  Proof.
    pose proof (roomy_le 2 (ends2 i0 j0) (ends2 i1 j1) bc Ro 0 ltac:(lia)) as B0. change (i0 <= i1) in B0.
    pose proof (roomy_le 2 (ends2 i0 j0) (ends2 i1 j1) bc Ro 1 ltac:(lia)) as B1. change (j0 <= j1) in B1.
    rewrite (bform2 w w). apply Qc_add.
    - apply Qc_mul; [now apply Qclt_le_weak|].
      apply Qc_add.
      {
      apply (total_nonneg); intros j Ij. apply (line_nonneg i0 i1 (dx 0%Z) (fun i => v0 i j) (fun i => (ext2 i0 j0 i1 j1 dx v0 v1 bc w) i j) B0).
      + intros i Ii. apply Qclt_le_weak. exact (Hv0 i j Ii Ij).
      + cbv beta. rewrite (ext2_in i0 j0 i1 j1 dx a v0 v1 bc w i0 j ltac:(k_near)). apply (fun H => ghost_sq _ _ _ _ _ (simple_ll _ (Hk 0 ltac:(lia))) H (ext2_face0 i0 j0 i1 j1 dx a v0 v1 bc w B0 j Ij)). apply (kl_le rob); [apply Hs; lia|apply Hdx; lia|apply Qclt_le_weak, Hv0; lia].
      + cbv beta. rewrite (ext2_in i0 j0 i1 j1 dx a v0 v1 bc w i1 j ltac:(k_near)). apply (fun H => ghost_sq _ _ _ _ _ (simple_ll _ (Hk 1 ltac:(lia))) H (ext2_face1 i0 j0 i1 j1 dx a v0 v1 bc w B0 j Ij)). apply (kl_le rob); [apply Hs; lia|apply Hdx; lia|apply Qclt_le_weak, Hv0; lia].
      }
      {
      apply (total_nonneg); intros i Ii. apply (line_nonneg j0 j1 (dx 1%Z) (fun j => v1 i j) (fun j => (ext2 i0 j0 i1 j1 dx v0 v1 bc w) i j) B1).
      + intros j Ij. apply Qclt_le_weak. exact (Hv1 i j Ii Ij).
      + cbv beta. rewrite (ext2_in i0 j0 i1 j1 dx a v0 v1 bc w i j0 ltac:(k_near)). apply (fun H => ghost_sq _ _ _ _ _ (simple_ll _ (Hk 2 ltac:(lia))) H (ext2_face2 i0 j0 i1 j1 dx a v0 v1 bc w B1 i Ii)). apply (kl_le rob); [apply Hs; lia|apply Hdx; lia|apply Qclt_le_weak, Hv1; lia].
      + cbv beta. rewrite (ext2_in i0 j0 i1 j1 dx a v0 v1 bc w i j1 ltac:(k_near)). apply (fun H => ghost_sq _ _ _ _ _ (simple_ll _ (Hk 3 ltac:(lia))) H (ext2_face3 i0 j0 i1 j1 dx a v0 v1 bc w B1 i Ii)). apply (kl_le rob); [apply Hs; lia|apply Hdx; lia|apply Qclt_le_weak, Hv1; lia].
      }
    - apply total2_nonneg. intros i j Ii Ij. replace (a i j * w i j * w i j)%Qc with (a i j * (w i j * w i j))%Qc by ring. apply Qc_mul; [apply Ha; k_near|apply Qc_sq].
  Qed.

  Lemma bform2_lin x (w z e : Z -> Z -> Qc) :
    total2 (S := QcS) i0 j0 i1 j1 (fun i j => op2 dx beta a v0 v1 (ext2 i0 j0 i1 j1 dx v0 v1 bc (fun i j => 1 * w i j + x * z i j)%Qc) i j * e i j)%Qc =
    (total2 (S := QcS) i0 j0 i1 j1 (fun i j => op2 dx beta a v0 v1 (ext2 i0 j0 i1 j1 dx v0 v1 bc w) i j * e i j)%Qc + x * total2 (S := QcS) i0 j0 i1 j1 (fun i j => op2 dx beta a v0 v1 (ext2 i0 j0 i1 j1 dx v0 v1 bc z) i j * e i j)%Qc)%Qc.
  Proof.
    transitivity (total2 (S := QcS) i0 j0 i1 j1 (fun i j => op2 dx beta a v0 v1 (ext2 i0 j0 i1 j1 dx v0 v1 bc w) i j * e i j + x * (op2 dx beta a v0 v1 (ext2 i0 j0 i1 j1 dx v0 v1 bc z) i j * e i j))%Qc).
    - apply (total2_ext (S := QcS)). intros i j Ii Ij. rewrite (bvp2_lin i0 j0 i1 j1 dx beta a v0 v1 bc 1 x w z i j) by k_near. k_qc. ring.
    - etransitivity; [exact (total2_add QcS_laws i0 j0 i1 j1 (fun i j => op2 dx beta a v0 v1 (ext2 i0 j0 i1 j1 dx v0 v1 bc w) i j * e i j)%Qc (fun i j => x * (op2 dx beta a v0 v1 (ext2 i0 j0 i1 j1 dx v0 v1 bc z) i j * e i j))%Qc)|].
      apply (f_equal2 Qcplus); [reflexivity|]. exact (total2_mul QcS_laws i0 j0 i1 j1 x (fun i j => op2 dx beta a v0 v1 (ext2 i0 j0 i1 j1 dx v0 v1 bc z) i j * e i j)%Qc).
  Qed.

  (** The form of [w + x z]. *)
  Lemma bsquare2 x (w z : Z -> Z -> Qc) :
    (0 <= total2 (S := QcS) i0 j0 i1 j1 (fun i j => op2 dx beta a v0 v1 (ext2 i0 j0 i1 j1 dx v0 v1 bc w) i j * w i j)%Qc + (1 + 1) * x * total2 (S := QcS) i0 j0 i1 j1 (fun i j => op2 dx beta a v0 v1 (ext2 i0 j0 i1 j1 dx v0 v1 bc w) i j * z i j)%Qc + x * x * total2 (S := QcS) i0 j0 i1 j1 (fun i j => op2 dx beta a v0 v1 (ext2 i0 j0 i1 j1 dx v0 v1 bc z) i j * z i j)%Qc)%Qc.
  Proof.
    pose proof (bnonneg2 (fun i j => 1 * w i j + x * z i j)%Qc) as H.
    rewrite (bform2_lin x w z) in H. rewrite (bsym2 w (fun i j => 1 * w i j + x * z i j)%Qc), (bsym2 z (fun i j => 1 * w i j + x * z i j)%Qc) in H.
    rewrite !(bform2_lin x w z) in H. rewrite (bsym2 z w) in H.
    match type of H with (0 <= ?t)%Qc => match goal with |- (0 <= ?g)%Qc => replace g with t by ring end end. exact H.
  Qed.

  Lemma benergy2 (w z : Z -> Z -> Qc) :
    (total2 (S := QcS) i0 j0 i1 j1 (fun i j => op2 dx beta a v0 v1 (ext2 i0 j0 i1 j1 dx v0 v1 bc w) i j * w i j)%Qc - (1 + 1) * total2 (S := QcS) i0 j0 i1 j1 (fun i j => op2 dx beta a v0 v1 (ext2 i0 j0 i1 j1 dx v0 v1 bc w) i j * w i j)%Qc <=
     total2 (S := QcS) i0 j0 i1 j1 (fun i j => op2 dx beta a v0 v1 (ext2 i0 j0 i1 j1 dx v0 v1 bc z) i j * z i j)%Qc - (1 + 1) * total2 (S := QcS) i0 j0 i1 j1 (fun i j => op2 dx beta a v0 v1 (ext2 i0 j0 i1 j1 dx v0 v1 bc w) i j * z i j)%Qc)%Qc.
  Proof.
    pose proof (bsquare2 (- (1))%Qc w z) as H. apply Qc_nonneg_sub.
    match type of H with (0 <= ?t)%Qc => match goal with |- (0 <= ?g)%Qc => replace g with t by ring end end. exact H.
  Qed.

  (** If the form of [w] with itself vanishes, so does the operator. *)
  Lemma bnull2 (w : Z -> Z -> Qc) : total2 (S := QcS) i0 j0 i1 j1 (fun i j => op2 dx beta a v0 v1 (ext2 i0 j0 i1 j1 dx v0 v1 bc w) i j * w i j)%Qc = 0%Qc ->
    forall i j, patch2 i0 j0 i1 j1 i j -> op2 dx beta a v0 v1 (ext2 i0 j0 i1 j1 dx v0 v1 bc w) i j = 0%Qc.
  Proof.
    intros E x y Ip. set (e := (fun i j => if ((i =? x)%Z && (j =? y)%Z)%bool then 1%Qc else 0%Qc) : Z -> Z -> Qc).
    assert (Q : total2 (S := QcS) i0 j0 i1 j1 (fun i j => op2 dx beta a v0 v1 (ext2 i0 j0 i1 j1 dx v0 v1 bc w) i j * e i j)%Qc = op2 dx beta a v0 v1 (ext2 i0 j0 i1 j1 dx v0 v1 bc w) x y).
    { etransitivity; [apply (total2_at QcS_laws i0 j0 i1 j1 (fun i j => op2 dx beta a v0 v1 (ext2 i0 j0 i1 j1 dx v0 v1 bc w) i j * e i j)%Qc x y); [clear - Ip; k_near|clear - Ip; k_near|]|].
      - intros i j Ii Ij N. unfold e. destruct (Z.eqb_spec i x) as [Qi|Qi]; destruct (Z.eqb_spec j y) as [Qj|Qj]; cbn [andb]; try (exfalso; clear - N Qi Qj; tauto); rewrite lit_0; apply Qcmult_0_r.
      - cbv beta. unfold e. rewrite !Z.eqb_refl. cbn [andb]. apply Qcmult_1_r. }
    rewrite <- Q. apply (no_slope _ _ (bnonneg2 e)). intros s.
    pose proof (bsquare2 s w e) as H. rewrite E in H. match type of H with (0 <= ?t)%Qc => match goal with |- (0 <= ?g)%Qc => replace g with t by ring end end. exact H.
  Qed.

  Lemma bdefinite2 (w : Z -> Z -> Qc) : ((exists f, 0 <= f < 4 /\ b_kind (bc f) <> 1) \/ (exists i j, patch2 i0 j0 i1 j1 i j /\ (0 < a i j)%Qc)) ->
    total2 (S := QcS) i0 j0 i1 j1 (fun i j => op2 dx beta a v0 v1 (ext2 i0 j0 i1 j1 dx v0 v1 bc w) i j * w i j)%Qc = 0%Qc -> forall i j, patch2 i0 j0 i1 j1 i j -> w i j = 0%Qc.
  Proof.
    intros Hd E. pose proof (bnull2 w E) as Z.
    assert (Z0 : forall i j, patch2 i0 j0 i1 j1 i j -> 0%Qc = op2 dx beta a v0 v1 (ext2 i0 j0 i1 j1 dx v0 v1 bc (fun _ _ => 0%Qc)) i j).
    { intros i j Ip. pose proof (bvp2_lin i0 j0 i1 j1 dx beta a v0 v1 bc 0 0 w w i j Ip) as H.
      transitivity (0 * op2 dx beta a v0 v1 (ext2 i0 j0 i1 j1 dx v0 v1 bc w) i j + 0 * op2 dx beta a v0 v1 (ext2 i0 j0 i1 j1 dx v0 v1 bc w) i j)%Qc; [ring|]. rewrite <- H. apply (op2_near i0 j0 i1 j1 dx beta a v0 v1 bc); [exact Ip|]. intros. apply ext2_ext. intros. ring. }
    intros i j Ip. apply Qcle_antisym.
    - exact (any2_compare i0 j0 i1 j1 dx beta a v0 v1 bc rob Hb Hdx Ha Hv0 Hv1 Hs Ro Hd w (fun _ _ => 0%Qc) (fun _ _ => 0%Qc) (fun _ _ => 0%Qc) (fun i j Ip => eq_sym (Z i j Ip)) Z0 (fun _ _ _ => Qcle_refl _) i j Ip).
    - exact (any2_compare i0 j0 i1 j1 dx beta a v0 v1 bc rob Hb Hdx Ha Hv0 Hv1 Hs Ro Hd (fun _ _ => 0%Qc) w (fun _ _ => 0%Qc) (fun _ _ => 0%Qc) Z0 (fun i j Ip => eq_sym (Z i j Ip)) (fun _ _ _ => Qcle_refl _) i j Ip).
  Qed.
End Form2.

Section Form3.
  Context (i0 j0 k0 i1 j1 k1 : Z) (dx : Z -> Qc) (beta : Qc) (a v0 v1 v2 : Z -> Z -> Z -> Qc) (bc : Z -> bcond QcS).
  Context (rob : bool) (Hb : (0 < beta)%Qc) (Hdx : forall d, 0 <= d < 3 -> (0 < dx d)%Qc).
  Context (Hv0 : forall i j k, i0 <= i <= i1 + 1 -> j0 <= j <= j1 -> k0 <= k <= k1 -> (0 < v0 i j k)%Qc).
  Context (Hv1 : forall i j k, i0 <= i <= i1 -> j0 <= j <= j1 + 1 -> k0 <= k <= k1 -> (0 < v1 i j k)%Qc).
  Context (Hv2 : forall i j k, i0 <= i <= i1 -> j0 <= j <= j1 -> k0 <= k <= k1 + 1 -> (0 < v2 i j k)%Qc).
  Context (Hs : forall f, 0 <= f < 6 -> sound rob (bc f)) (Ro : roomy 3 (ends3 i0 j0 k0) (ends3 i1 j1 k1) bc).
  Context (Hk : forall f, 0 <= f < 6 -> b_kind (bc f) = 0 -> b_order (bc f) = 1).

  Lemma bform3 (w z : Z -> Z -> Z -> Qc) :
    total3 (S := QcS) i0 j0 k0 i1 j1 k1 (fun i j k => op3 dx beta a v0 v1 v2 (ext3 i0 j0 k0 i1 j1 k1 dx v0 v1 v2 bc w) i j k * z i j k)%Qc =
    (beta * (total2 (S := QcS) j0 k0 j1 k1 (fun j k => SpecEnergy.line (S := QcS) i0 i1 (dx 0%Z) (fun i => v0 i j k) (fun i => (ext3 i0 j0 k0 i1 j1 k1 dx v0 v1 v2 bc w) i j k) (fun i => (ext3 i0 j0 k0 i1 j1 k1 dx v0 v1 v2 bc z) i j k)) + total2 (S := QcS) i0 k0 i1 k1 (fun i k => SpecEnergy.line (S := QcS) j0 j1 (dx 1%Z) (fun j => v1 i j k) (fun j => (ext3 i0 j0 k0 i1 j1 k1 dx v0 v1 v2 bc w) i j k) (fun j => (ext3 i0 j0 k0 i1 j1 k1 dx v0 v1 v2 bc z) i j k)) + total2 (S := QcS) i0 j0 i1 j1 (fun i j => SpecEnergy.line (S := QcS) k0 k1 (dx 2%Z) (fun k => v2 i j k) (fun k => (ext3 i0 j0 k0 i1 j1 k1 dx v0 v1 v2 bc w) i j k) (fun k => (ext3 i0 j0 k0 i1 j1 k1 dx v0 v1 v2 bc z) i j k))) + total3 (S := QcS) i0 j0 k0 i1 j1 k1 (fun i j k => a i j k * w i j k * z i j k)%Qc)%Qc.
  Proof.
    pose proof (roomy_le 3 (ends3 i0 j0 k0) (ends3 i1 j1 k1) bc Ro 0 ltac:(lia)) as B0. change (i0 <= i1) in B0.
    pose proof (roomy_le 3 (ends3 i0 j0 k0) (ends3 i1 j1 k1) bc Ro 1 ltac:(lia)) as B1. change (j0 <= j1) in B1.
    pose proof (roomy_le 3 (ends3 i0 j0 k0) (ends3 i1 j1 k1) bc Ro 2 ltac:(lia)) as B2. change (k0 <= k1) in B2.
    transitivity (total3 (S := QcS) i0 j0 k0 i1 j1 k1 (fun i j k => op3 dx beta a v0 v1 v2 (ext3 i0 j0 k0 i1 j1 k1 dx v0 v1 v2 bc w) i j k * (ext3 i0 j0 k0 i1 j1 k1 dx v0 v1 v2 bc z) i j k)%Qc).
    - apply (total3_ext (S := QcS)). intros i j k Ii Ij Ik. now rewrite (ext3_in i0 j0 k0 i1 j1 k1 dx a v0 v1 v2 bc z i j k ltac:(k_near)).
    - etransitivity; [exact (form3 QcS_laws i0 j0 k0 i1 j1 k1 beta (dx 0%Z) (dx 1%Z) (dx 2%Z) a v0 v1 v2 (ext3 i0 j0 k0 i1 j1 k1 dx v0 v1 v2 bc w) (ext3 i0 j0 k0 i1 j1 k1 dx v0 v1 v2 bc z) B0 B1 B2)|].
      apply (f_equal2 Qcplus); [reflexivity|]. apply (total3_ext (S := QcS)). intros i j k Ii Ij Ik.
      rewrite !(ext3_in i0 j0 k0 i1 j1 k1 dx a v0 v1 v2 bc) by k_near. reflexivity.
  Qed.

  Lemma bsym3 (w z : Z -> Z -> Z -> Qc) :
    total3 (S := QcS) i0 j0 k0 i1 j1 k1 (fun i j k => op3 dx beta a v0 v1 v2 (ext3 i0 j0 k0 i1 j1 k1 dx v0 v1 v2 bc w) i j k * z i j k)%Qc = total3 (S := QcS) i0 j0 k0 i1 j1 k1 (fun i j k => op3 dx beta a v0 v1 v2 (ext3 i0 j0 k0 i1 j1 k1 dx v0 v1 v2 bc z) i j k * w i j k)%Qc.
  Proof.
    pose proof (roomy_le 3 (ends3 i0 j0 k0) (ends3 i1 j1 k1) bc Ro 0 ltac:(lia)) as B0. change (i0 <= i1) in B0.
    pose proof (roomy_le 3 (ends3 i0 j0 k0) (ends3 i1 j1 k1) bc Ro 1 ltac:(lia)) as B1. change (j0 <= j1) in B1.
    pose proof (roomy_le 3 (ends3 i0 j0 k0) (ends3 i1 j1 k1) bc Ro 2 ltac:(lia)) as B2. change (k0 <= k1) in B2.
    rewrite (bform3 w z), (bform3 z w). apply (f_equal2 Qcplus).
    - apply (f_equal (Qcmult beta)).
      apply (f_equal2 Qcplus); [apply (f_equal2 Qcplus)|].
      {
      apply (total2_ext (S := QcS)); intros j k Ij Ik. apply (line_sym QcS_laws i0 i1 (dx 0%Z) (fun i => v0 i j k) (fun i => (ext3 i0 j0 k0 i1 j1 k1 dx v0 v1 v2 bc w) i j k) (fun i => (ext3 i0 j0 k0 i1 j1 k1 dx v0 v1 v2 bc z) i j k)).
      + cbv beta. rewrite (ext3_in i0 j0 k0 i1 j1 k1 dx a v0 v1 v2 bc w i0 j k ltac:(k_near)), (ext3_in i0 j0 k0 i1 j1 k1 dx a v0 v1 v2 bc z i0 j k ltac:(k_near)). exact (ghost_sym _ _ _ _ _ _ _ _ (simple_ll _ (Hk 0 ltac:(lia))) (ext3_face0 i0 j0 k0 i1 j1 k1 dx a v0 v1 v2 bc w B0 j k Ij Ik) (ext3_face0 i0 j0 k0 i1 j1 k1 dx a v0 v1 v2 bc z B0 j k Ij Ik)).
      + cbv beta. rewrite (ext3_in i0 j0 k0 i1 j1 k1 dx a v0 v1 v2 bc w i1 j k ltac:(k_near)), (ext3_in i0 j0 k0 i1 j1 k1 dx a v0 v1 v2 bc z i1 j k ltac:(k_near)). exact (ghost_sym _ _ _ _ _ _ _ _ (simple_ll _ (Hk 1 ltac:(lia))) (ext3_face1 i0 j0 k0 i1 j1 k1 dx a v0 v1 v2 bc w B0 j k Ij Ik) (ext3_face1 i0 j0 k0 i1 j1 k1 dx a v0 v1 v2 bc z B0 j k Ij Ik)).
      }
      {
      apply (total2_ext (S := QcS)); intros i k Ii Ik. apply (line_sym QcS_laws j0 j1 (dx 1%Z) (fun j => v1 i j k) (fun j => (ext3 i0 j0 k0 i1 j1 k1 dx v0 v1 v2 bc w) i j k) (fun j => (ext3 i0 j0 k0 i1 j1 k1 dx v0 v1 v2 bc z) i j k)).
      + cbv beta. rewrite (ext3_in i0 j0 k0 i1 j1 k1 dx a v0 v1 v2 bc w i j0 k ltac:(k_near)), (ext3_in i0 j0 k0 i1 j1 k1 dx a v0 v1 v2 bc z i j0 k ltac:(k_near)). exact (ghost_sym _ _ _ _ _ _ _ _ (simple_ll _ (Hk 2 ltac:(lia))) (ext3_face2 i0 j0 k0 i1 j1 k1 dx a v0 v1 v2 bc w B1 i k Ii Ik) (ext3_face2 i0 j0 k0 i1 j1 k1 dx a v0 v1 v2 bc z B1 i k Ii Ik)).
      + cbv beta. rewrite (ext3_in i0 j0 k0 i1 j1 k1 dx a v0 v1 v2 bc w i j1 k ltac:(k_near)), (ext3_in i0 j0 k0 i1 j1 k1 dx a v0 v1 v2 bc z i j1 k ltac:(k_near)). exact (ghost_sym _ _ _ _ _ _ _ _ (simple_ll _ (Hk 3 ltac:(lia))) (ext3_face3 i0 j0 k0 i1 j1 k1 dx a v0 v1 v2 bc w B1 i k Ii Ik) (ext3_face3 i0 j0 k0 i1 j1 k1 dx a v0 v1 v2 bc z B1 i k Ii Ik)).
      }
      {
      apply (total2_ext (S := QcS)); intros i j Ii Ij. apply (line_sym QcS_laws k0 k1 (dx 2%Z) (fun k => v2 i j k) (fun k => (ext3 i0 j0 k0 i1 j1 k1 dx v0 v1 v2 bc w) i j k) (fun k => (ext3 i0 j0 k0 i1 j1 k1 dx v0 v1 v2 bc z) i j k)).
      + cbv beta. rewrite (ext3_in i0 j0 k0 i1 j1 k1 dx a v0 v1 v2 bc w i j k0 ltac:(k_near)), (ext3_in i0 j0 k0 i1 j1 k1 dx a v0 v1 v2 bc z i j k0 ltac:(k_near)). exact (ghost_sym _ _ _ _ _ _ _ _ (simple_ll _ (Hk 4 ltac:(lia))) (ext3_face4 i0 j0 k0 i1 j1 k1 dx a v0 v1 v2 bc w B2 i j Ii Ij) (ext3_face4 i0 j0 k0 i1 j1 k1 dx a v0 v1 v2 bc z B2 i j Ii Ij)).
      + cbv beta. rewrite (ext3_in i0 j0 k0 i1 j1 k1 dx a v0 v1 v2 bc w i j k1 ltac:(k_near)), (ext3_in i0 j0 k0 i1 j1 k1 dx a v0 v1 v2 bc z i j k1 ltac:(k_near)). exact (ghost_sym _ _ _ _ _ _ _ _ (simple_ll _ (Hk 5 ltac:(lia))) (ext3_face5 i0 j0 k0 i1 j1 k1 dx a v0 v1 v2 bc w B2 i j Ii Ij) (ext3_face5 i0 j0 k0 i1 j1 k1 dx a v0 v1 v2 bc z B2 i j Ii Ij)).
      }
    - apply (total3_ext (S := QcS)). intros i j k Ii Ij Ik. k_qc. ring.
  Qed.

  Context (Ha : forall i j k, patch3 i0 j0 k0 i1 j1 k1 i j k -> (0 <= a i j k)%Qc).
  Lemma bnonneg3 (w : Z -> Z -> Z -> Qc) : (0 <= total3 (S := QcS) i0 j0 k0 i1 j1 k1 (fun i j k => op3 dx beta a v0 v1 v2 (ext3 i0 j0 k0 i1 j1 k1 dx v0 v1 v2 bc w) i j k * w i j k)%Qc)%Qc.
  Proof.
    pose proof (roomy_le 3 (ends3 i0 j0 k0) (ends3 i1 j1 k1) bc Ro 0 ltac:(lia)) as B0. change (i0 <= i1) in B0.
    pose proof (roomy_le 3 (ends3 i0 j0 k0) (ends3 i1 j1 k1) bc Ro 1 ltac:(lia)) as B1. change (j0 <= j1) in B1.
    pose proof (roomy_le 3 (ends3 i0 j0 k0) (ends3 i1 j1 k1) bc Ro 2 ltac:(lia)) as B2. change (k0 <= k1) in B2.
    rewrite (bform3 w w). apply Qc_add.
    - apply Qc_mul; [now apply Qclt_le_weak|].
      apply Qc_add; [apply Qc_add|].
      {
      apply (total2_nonneg); intros j k Ij Ik. apply (line_nonneg i0 i1 (dx 0%Z) (fun i => v0 i j k) (fun i => (ext3 i0 j0 k0 i1 j1 k1 dx v0 v1 v2 bc w) i j k) B0).
      + intros i Ii. apply Qclt_le_weak. exact (Hv0 i j k Ii Ij Ik).
      + cbv beta. rewrite (ext3_in i0 j0 k0 i1 j1 k1 dx a v0 v1 v2 bc w i0 j k ltac:(k_near)). apply (fun H => ghost_sq _ _ _ _ _ (simple_ll _ (Hk 0 ltac:(lia))) H (ext3_face0 i0 j0 k0 i1 j1 k1 dx a v0 v1 v2 bc w B0 j k Ij Ik)). apply (kl_le rob); [apply Hs; lia|apply Hdx; lia|apply Qclt_le_weak, Hv0; lia].
      + cbv beta. rewrite (ext3_in i0 j0 k0 i1 j1 k1 dx a v0 v1 v2 bc w i1 j k ltac:(k_near)). apply (fun H => ghost_sq _ _ _ _ _ (simple_ll _ (Hk 1 ltac:(lia))) H (ext3_face1 i0 j0 k0 i1 j1 k1 dx a v0 v1 v2 bc w B0 j k Ij Ik)). apply (kl_le rob); [apply Hs; lia|apply Hdx; lia|apply Qclt_le_weak, Hv0; lia].
      }
      {
      apply (total2_nonneg); intros i k Ii Ik. apply (line_nonneg j0 j1 (dx 1%Z) (fun j => v1 i j k) (fun j => (ext3 i0 j0 k0 i1 j1 k1 dx v0 v1 v2 bc w) i j k) B1).
      + intros j Ij. apply Qclt_le_weak. exact (Hv1 i j k Ii Ij Ik).
      + cbv beta. rewrite (ext3_in i0 j0 k0 i1 j1 k1 dx a v0 v1 v2 bc w i j0 k ltac:(k_near)). apply (fun H => ghost_sq _ _ _ _ _ (simple_ll _ (Hk 2 ltac:(lia))) H (ext3_face2 i0 j0 k0 i1 j1 k1 dx a v0 v1 v2 bc w B1 i k Ii Ik)). apply (kl_le rob); [apply Hs; lia|apply Hdx; lia|apply Qclt_le_weak, Hv1; lia].
      + cbv beta. rewrite (ext3_in i0 j0 k0 i1 j1 k1 dx a v0 v1 v2 bc w i j1 k ltac:(k_near)). apply (fun H => ghost_sq _ _ _ _ _ (simple_ll _ (Hk 3 ltac:(lia))) H (ext3_face3 i0 j0 k0 i1 j1 k1 dx a v0 v1 v2 bc w B1 i k Ii Ik)). apply (kl_le rob); [apply Hs; lia|apply Hdx; lia|apply Qclt_le_weak, Hv1; lia].
      }
      {
      apply (total2_nonneg); intros i j Ii Ij. apply (line_nonneg k0 k1 (dx 2%Z) (fun k => v2 i j k) (fun k => (ext3 i0 j0 k0 i1 j1 k1 dx v0 v1 v2 bc w) i j k) B2).
      + intros k Ik. apply Qclt_le_weak. exact (Hv2 i j k Ii Ij Ik).
      + cbv beta. rewrite (ext3_in i0 j0 k0 i1 j1 k1 dx a v0 v1 v2 bc w i j k0 ltac:(k_near)). apply (fun H => ghost_sq _ _ _ _ _ (simple_ll _ (Hk 4 ltac:(lia))) H (ext3_face4 i0 j0 k0 i1 j1 k1 dx a v0 v1 v2 bc w B2 i j Ii Ij)). apply (kl_le rob); [apply Hs; lia|apply Hdx; lia|apply Qclt_le_weak, Hv2; lia].
      + cbv beta. rewrite (ext3_in i0 j0 k0 i1 j1 k1 dx a v0 v1 v2 bc w i j k1 ltac:(k_near)). apply (fun H => ghost_sq _ _ _ _ _ (simple_ll _ (Hk 5 ltac:(lia))) H (ext3_face5 i0 j0 k0 i1 j1 k1 dx a v0 v1 v2 bc w B2 i j Ii Ij)). apply (kl_le rob); [apply Hs; lia|apply Hdx; lia|apply Qclt_le_weak, Hv2; lia].
      }
    - apply total3_nonneg. intros i j k Ii Ij Ik. replace (a i j k * w i j k * w i j k)%Qc with (a i j k * (w i j k * w i j k))%Qc by ring. apply Qc_mul; [apply Ha; k_near|apply Qc_sq].
  Qed.

  Lemma bform3_lin x (w z e : Z -> Z -> Z -> Qc) :
    total3 (S := QcS) i0 j0 k0 i1 j1 k1 (fun i j k => op3 dx beta a v0 v1 v2 (ext3 i0 j0 k0 i1 j1 k1 dx v0 v1 v2 bc (fun i j k => 1 * w i j k + x * z i j k)%Qc) i j k * e i j k)%Qc =
    (total3 (S := QcS) i0 j0 k0 i1 j1 k1 (fun i j k => op3 dx beta a v0 v1 v2 (ext3 i0 j0 k0 i1 j1 k1 dx v0 v1 v2 bc w) i j k * e i j k)%Qc + x * total3 (S := QcS) i0 j0 k0 i1 j1 k1 (fun i j k => op3 dx beta a v0 v1 v2 (ext3 i0 j0 k0 i1 j1 k1 dx v0 v1 v2 bc z) i j k * e i j k)%Qc)%Qc.
  Proof.
    transitivity (total3 (S := QcS) i0 j0 k0 i1 j1 k1 (fun i j k => op3 dx beta a v0 v1 v2 (ext3 i0 j0 k0 i1 j1 k1 dx v0 v1 v2 bc w) i j k * e i j k + x * (op3 dx beta a v0 v1 v2 (ext3 i0 j0 k0 i1 j1 k1 dx v0 v1 v2 bc z) i j k * e i j k))%Qc).
    - apply (total3_ext (S := QcS)). intros i j k Ii Ij Ik. rewrite (bvp3_lin i0 j0 k0 i1 j1 k1 dx beta a v0 v1 v2 bc 1 x w z i j k) by k_near. k_qc. ring.
    - etransitivity; [exact (total3_add QcS_laws i0 j0 k0 i1 j1 k1 (fun i j k => op3 dx beta a v0 v1 v2 (ext3 i0 j0 k0 i1 j1 k1 dx v0 v1 v2 bc w) i j k * e i j k)%Qc (fun i j k => x * (op3 dx beta a v0 v1 v2 (ext3 i0 j0 k0 i1 j1 k1 dx v0 v1 v2 bc z) i j k * e i j k))%Qc)|].
      apply (f_equal2 Qcplus); [reflexivity|]. exact (total3_mul QcS_laws i0 j0 k0 i1 j1 k1 x (fun i j k => op3 dx beta a v0 v1 v2 (ext3 i0 j0 k0 i1 j1 k1 dx v0 v1 v2 bc z) i j k * e i j k)%Qc).
  Qed.

  (** The form of [w + x z]. *)
  Lemma bsquare3 x (w z : Z -> Z -> Z -> Qc) :
    (0 <= total3 (S := QcS) i0 j0 k0 i1 j1 k1 (fun i j k => op3 dx beta a v0 v1 v2 (ext3 i0 j0 k0 i1 j1 k1 dx v0 v1 v2 bc w) i j k * w i j k)%Qc + (1 + 1) * x * total3 (S := QcS) i0 j0 k0 i1 j1 k1 (fun i j k => op3 dx beta a v0 v1 v2 (ext3 i0 j0 k0 i1 j1 k1 dx v0 v1 v2 bc w) i j k * z i j k)%Qc + x * x * total3 (S := QcS) i0 j0 k0 i1 j1 k1 (fun i j k => op3 dx beta a v0 v1 v2 (ext3 i0 j0 k0 i1 j1 k1 dx v0 v1 v2 bc z) i j k * z i j k)%Qc)%Qc.
  Proof.
    pose proof (bnonneg3 (fun i j k => 1 * w i j k + x * z i j k)%Qc) as H.
    rewrite (bform3_lin x w z) in H. rewrite (bsym3 w (fun i j k => 1 * w i j k + x * z i j k)%Qc), (bsym3 z (fun i j k => 1 * w i j k + x * z i j k)%Qc) in H.
    rewrite !(bform3_lin x w z) in H. rewrite (bsym3 z w) in H.
    match type of H with (0 <= ?t)%Qc => match goal with |- (0 <= ?g)%Qc => replace g with t by ring end end. exact H.
  Qed.

  Lemma benergy3 (w z : Z -> Z -> Z -> Qc) :
    (total3 (S := QcS) i0 j0 k0 i1 j1 k1 (fun i j k => op3 dx beta a v0 v1 v2 (ext3 i0 j0 k0 i1 j1 k1 dx v0 v1 v2 bc w) i j k * w i j k)%Qc - (1 + 1) * total3 (S := QcS) i0 j0 k0 i1 j1 k1 (fun i j k => op3 dx beta a v0 v1 v2 (ext3 i0 j0 k0 i1 j1 k1 dx v0 v1 v2 bc w) i j k * w i j k)%Qc <=
     total3 (S := QcS) i0 j0 k0 i1 j1 k1 (fun i j k => op3 dx beta a v0 v1 v2 (ext3 i0 j0 k0 i1 j1 k1 dx v0 v1 v2 bc z) i j k * z i j k)%Qc - (1 + 1) * total3 (S := QcS) i0 j0 k0 i1 j1 k1 (fun i j k => op3 dx beta a v0 v1 v2 (ext3 i0 j0 k0 i1 j1 k1 dx v0 v1 v2 bc w) i j k * z i j k)%Qc)%Qc.
  Proof.
    pose proof (bsquare3 (- (1))%Qc w z) as H. apply Qc_nonneg_sub.
    match type of H with (0 <= ?t)%Qc => match goal with |- (0 <= ?g)%Qc => replace g with t by ring end end. exact H.
  Qed.

  (** If the form of [w] with itself vanishes, so does the operator. *)
  Lemma bnull3 (w : Z -> Z -> Z -> Qc) : total3 (S := QcS) i0 j0 k0 i1 j1 k1 (fun i j k => op3 dx beta a v0 v1 v2 (ext3 i0 j0 k0 i1 j1 k1 dx v0 v1 v2 bc w) i j k * w i j k)%Qc = 0%Qc ->
    forall i j k, patch3 i0 j0 k0 i1 j1 k1 i j k -> op3 dx beta a v0 v1 v2 (ext3 i0 j0 k0 i1 j1 k1 dx v0 v1 v2 bc w) i j k = 0%Qc.
  Proof.
    intros E x y t Ip. set (e := (fun i j k => if ((i =? x)%Z && (j =? y)%Z && (k =? t)%Z)%bool then 1%Qc else 0%Qc) : Z -> Z -> Z -> Qc).
    assert (Q : total3 (S := QcS) i0 j0 k0 i1 j1 k1 (fun i j k => op3 dx beta a v0 v1 v2 (ext3 i0 j0 k0 i1 j1 k1 dx v0 v1 v2 bc w) i j k * e i j k)%Qc = op3 dx beta a v0 v1 v2 (ext3 i0 j0 k0 i1 j1 k1 dx v0 v1 v2 bc w) x y t).
    { etransitivity; [apply (total3_at QcS_laws i0 j0 k0 i1 j1 k1 (fun i j k => op3 dx beta a v0 v1 v2 (ext3 i0 j0 k0 i1 j1 k1 dx v0 v1 v2 bc w) i j k * e i j k)%Qc x y t); [clear - Ip; k_near|clear - Ip; k_near|clear - Ip; k_near|]|].
      - intros i j k Ii Ij Ik N. unfold e. destruct (Z.eqb_spec i x) as [Qi|Qi]; destruct (Z.eqb_spec j y) as [Qj|Qj]; destruct (Z.eqb_spec k t) as [Qk|Qk]; cbn [andb]; try (exfalso; clear - N Qi Qj Qk; tauto); rewrite lit_0; apply Qcmult_0_r.
      - cbv beta. unfold e. rewrite !Z.eqb_refl. cbn [andb]. apply Qcmult_1_r. }
    rewrite <- Q. apply (no_slope _ _ (bnonneg3 e)). intros s.
    pose proof (bsquare3 s w e) as H. rewrite E in H. match type of H with (0 <= ?t)%Qc => match goal with |- (0 <= ?g)%Qc => replace g with t by ring end end. exact H.
  Qed.

  Lemma bdefinite3 (w : Z -> Z -> Z -> Qc) : ((exists f, 0 <= f < 6 /\ b_kind (bc f) <> 1) \/ (exists i j k, patch3 i0 j0 k0 i1 j1 k1 i j k /\ (0 < a i j k)%Qc)) ->
    total3 (S := QcS) i0 j0 k0 i1 j1 k1 (fun i j k => op3 dx beta a v0 v1 v2 (ext3 i0 j0 k0 i1 j1 k1 dx v0 v1 v2 bc w) i j k * w i j k)%Qc = 0%Qc -> forall i j k, patch3 i0 j0 k0 i1 j1 k1 i j k -> w i j k = 0%Qc.
  Proof.
    intros Hd E. pose proof (bnull3 w E) as Z.
    assert (Z0 : forall i j k, patch3 i0 j0 k0 i1 j1 k1 i j k -> 0%Qc = op3 dx beta a v0 v1 v2 (ext3 i0 j0 k0 i1 j1 k1 dx v0 v1 v2 bc (fun _ _ _ => 0%Qc)) i j k).
    { intros i j k Ip. pose proof (bvp3_lin i0 j0 k0 i1 j1 k1 dx beta a v0 v1 v2 bc 0 0 w w i j k Ip) as H.
      transitivity (0 * op3 dx beta a v0 v1 v2 (ext3 i0 j0 k0 i1 j1 k1 dx v0 v1 v2 bc w) i j k + 0 * op3 dx beta a v0 v1 v2 (ext3 i0 j0 k0 i1 j1 k1 dx v0 v1 v2 bc w) i j k)%Qc; [ring|]. rewrite <- H. apply (op3_near i0 j0 k0 i1 j1 k1 dx beta a v0 v1 v2 bc); [exact Ip|]. intros. apply ext3_ext. intros. ring. }
    intros i j k Ip. apply Qcle_antisym.
    - exact (any3_compare i0 j0 k0 i1 j1 k1 dx beta a v0 v1 v2 bc rob Hb Hdx Ha Hv0 Hv1 Hv2 Hs Ro Hd w (fun _ _ _ => 0%Qc) (fun _ _ _ => 0%Qc) (fun _ _ _ => 0%Qc) (fun i j k Ip => eq_sym (Z i j k Ip)) Z0 (fun _ _ _ _ => Qcle_refl _) i j k Ip).
    - exact (any3_compare i0 j0 k0 i1 j1 k1 dx beta a v0 v1 v2 bc rob Hb Hdx Ha Hv0 Hv1 Hv2 Hs Ro Hd (fun _ _ _ => 0%Qc) w (fun _ _ _ => 0%Qc) (fun _ _ _ => 0%Qc) Z0 (fun i j k Ip => eq_sym (Z i j k Ip)) (fun _ _ _ _ => Qcle_refl _) i j k Ip).
  Qed.
End Form3.

