(** * Bounds for the solution of the boundary value problem *)

From Coq Require Import Field QArith Qcanon.
From Verif Require Import Base FortranBase SpecKernel SpecBoundary SpecBCOrder SpecRow SpecSolve Instances LemField LemSum LemEnergy LemSolve LemSolveOp SpecBvp SpecBound LemBvp LemBvpFill LemBvpOp LemBvpAny.
Import ListNotations.
Open Scope Z_scope.


Lemma whole_add x y : whole (x + y) = (whole x + whole y)%Qc.
Proof. apply Qc_is_canon. unfold whole, Qcplus. cbn [this Q2Qc]. rewrite !Qred_correct, inject_Z_plus. reflexivity. Qed.
Lemma whole_mul x y : whole (x * y) = (whole x * whole y)%Qc.
Proof. apply Qc_is_canon. unfold whole, Qcmult. cbn [this Q2Qc]. rewrite !Qred_correct, inject_Z_mult. reflexivity. Qed.
Lemma whole_opp x : whole (- x) = (- whole x)%Qc.
Proof. apply Qc_is_canon. unfold whole, Qcopp. cbn [this Q2Qc]. rewrite !Qred_correct, inject_Z_opp. reflexivity. Qed.
Lemma whole_le x y : x <= y -> (whole x <= whole y)%Qc.
Proof. intros H. unfold Qcle, whole. cbn [this Q2Qc]. rewrite !Qred_correct, <- Zle_Qle. exact H. Qed.
Lemma whole_lt x y : x < y -> (whole x < whole y)%Qc.
Proof. intros H. unfold Qclt, whole. cbn [this Q2Qc]. rewrite !Qred_correct, <- Zlt_Qlt. exact H. Qed.

(** The parabola through the two faces of a line of cells, with second difference -1. *)
Definition arc (lo hi : Z) (h : Qc) (i : Z) : Qc := (h * h * whole (2 * (i - lo) * (hi - i) + (hi - lo + 1)) / whole 4)%Qc.

Lemma arc_step lo hi h i : h <> 0%Qc ->
  ((1 * ((arc lo hi h (i + 1) - arc lo hi h i) / h) - 1 * ((arc lo hi h i - arc lo hi h (i - 1)) / h)) / h = - (1))%Qc.
Proof.
  intros Hh. unfold arc.
  replace (2 * (i + 1 - lo) * (hi - (i + 1)) + (hi - lo + 1)) with (- 4 + - (2 * (i - 1 - lo) * (hi - (i - 1)) + (hi - lo + 1)) + 2 * (2 * (i - lo) * (hi - i) + (hi - lo + 1))) by ring.
  generalize (2 * (i - lo) * (hi - i) + (hi - lo + 1)) (2 * (i - 1 - lo) * (hi - (i - 1)) + (hi - lo + 1)). intros p q.
  rewrite !whole_add, whole_mul, !whole_opp. replace (whole (-4)) with (- whole 4)%Qc by (apply Qc_is_canon; reflexivity).
  assert (N : whole 4 <> 0%Qc) by (intros C; apply (f_equal this) in C; discriminate).
  replace (whole 2) with (1 + 1)%Qc by (apply Qc_is_canon; reflexivity). field. split; [exact N|exact Hh].
Qed.
Lemma arc_lo lo hi h : arc lo hi h (lo - 1) = (- arc lo hi h lo)%Qc.
Proof.
  unfold arc. replace (2 * (lo - 1 - lo) * (hi - (lo - 1)) + (hi - lo + 1)) with (- (2 * (lo - lo) * (hi - lo) + (hi - lo + 1))) by ring.
  rewrite whole_opp. unfold Qcdiv. ring.
Qed.
Lemma arc_hi lo hi h : arc lo hi h (hi + 1) = (- arc lo hi h hi)%Qc.
Proof.
  unfold arc. replace (2 * (hi + 1 - lo) * (hi - (hi + 1)) + (hi - lo + 1)) with (- (2 * (hi - lo) * (hi - hi) + (hi - lo + 1))) by ring.
  rewrite whole_opp. unfold Qcdiv. ring.
Qed.
Lemma Qc_inv_pos (x : Qc) : (0 < x)%Qc -> (0 < / x)%Qc.
Proof.
  intros H. destruct (Qclt_le_dec 0 (/ x)) as [P|N]; [exact P|exfalso].
  assert (E : (x * / x = 1)%Qc) by (apply Qcmult_inv_r; now apply Qc_ne_0).
  pose proof (Qcmult_le_compat_r _ _ x N (Qclt_le_weak _ _ H)) as Q. rewrite Qcmult_comm, E in Q. replace (0 * x)%Qc with 0%Qc in Q by ring. now apply Q.
Qed.
Lemma arc_pos lo hi h i : lo <= i <= hi -> (0 <= arc lo hi h i)%Qc.
Proof.
  intros Hi. unfold arc, Qcdiv. apply Qc_mul; [apply Qc_mul; [apply Qc_sq|]|].
  - change 0%Qc with (whole 0). apply whole_le. assert (0 <= 2 * (i - lo) * (hi - i)) by (apply Z.mul_nonneg_nonneg; lia). lia.
  - apply Qclt_le_weak, Qc_inv_pos. now apply (whole_lt 0 4).
Qed.
Lemma arc_max lo hi h i : lo <= i <= hi -> (arc lo hi h i <= h * h * whole ((hi - lo + 1) * (hi - lo + 1) + 1) / whole 8)%Qc.
Proof.
  intros Hi. unfold arc, Qcdiv. replace (/ whole 4)%Qc with (whole 2 * / whole 8)%Qc by (apply Qc_is_canon; reflexivity).
  replace (h * h * whole (2 * (i - lo) * (hi - i) + (hi - lo + 1)) * (whole 2 * / whole 8))%Qc with (whole 2 * whole (2 * (i - lo) * (hi - i) + (hi - lo + 1)) * (h * h * / whole 8))%Qc by ring.
  replace (h * h * whole ((hi - lo + 1) * (hi - lo + 1) + 1) * / whole 8)%Qc with (whole ((hi - lo + 1) * (hi - lo + 1) + 1) * (h * h * / whole 8))%Qc by ring.
  apply Qcmult_le_compat_r.
  - rewrite <- whole_mul. apply whole_le. pose proof (Z.square_nonneg ((i - lo) - (hi - i))) as Sq.
    replace ((hi - lo + 1) * (hi - lo + 1) + 1) with (2 * (2 * (i - lo) * (hi - i) + (hi - lo + 1)) + (i - lo - (hi - i)) * (i - lo - (hi - i))) by ring. lia.
  - apply Qc_mul; [apply Qc_sq|apply Qclt_le_weak, Qc_inv_pos; now apply (whole_lt 0 8)].
Qed.

Lemma ghost_low (k l x : Qc) : (k + l <= 1)%Qc -> (0 <= x)%Qc -> (k * x + l * x <= x)%Qc.
Proof. intros H Hx. replace (k * x + l * x)%Qc with ((k + l) * x)%Qc by ring. replace x with (1 * x)%Qc at 2 by ring. now apply Qcmult_le_compat_r. Qed.
(** A direction in which the neighbours are not larger. *)
Lemma dip (beta h p q x up dn : Qc) : (0 < beta)%Qc -> (0 < h)%Qc -> (0 <= p)%Qc -> (0 <= q)%Qc -> (up <= x)%Qc -> (dn <= x)%Qc -> (0 <= - beta * ((p * ((up - x) / h) - q * ((x - dn) / h)) / h))%Qc.
Proof.
  intros Hb Hh Hp Hq U N. replace (- beta * ((p * ((up - x) / h) - q * ((x - dn) / h)) / h))%Qc with (beta * ((p * (x - up) + q * (x - dn)) * (/ h * / h)))%Qc by (unfold Qcdiv; ring).
  apply Qc_mul; [now apply Qclt_le_weak|]. apply Qc_mul; [|apply Qc_sq].
  apply Qc_add; apply Qc_mul; try assumption; now apply Qc_sub_nonneg.
Qed.

Section Bound1.
  Context (i0 i1 : Z) (dx : Z -> Qc) (beta : Qc) (a v0 : Z -> Qc) (bc : Z -> bcond QcS).
  Context (rob : bool) (Hb : (0 < beta)%Qc) (Hdx : forall d, 0 <= d < 1 -> (0 < dx d)%Qc).
  Context (Ha : forall i, patch1 i0 i1 i -> (0 <= a i)%Qc).
  Context (Hv0 : forall i, i0 <= i <= i1 + 1 -> (0 < v0 i)%Qc).
  Context (Hs : forall f, 0 <= f < 2 -> sound rob (bc f)) (Ro : roomy 1 (ends1 i0) (ends1 i1) bc).

  (** The operator on a constant is at least the reaction. *)
  Lemma one1 i : patch1 i0 i1 i -> (a i <= op1 dx beta a v0 (ext1 i0 i1 dx v0 bc (fun _ => 1%Qc)) i)%Qc.
  Proof.
    intros Ip.
    pose proof (roomy_le 1 (ends1 i0) (ends1 i1) bc Ro 0 ltac:(lia)) as B0. change (i0 <= i1) in B0.
    assert (Up0 : (ext1 i0 i1 dx v0 bc (fun _ => 1%Qc) (i + 1)%Z <= (fun _ => 1%Qc) i)%Qc).
    { destruct (patch_dec1 i0 i1 (i + 1)%Z) as [Y|N].
      - rewrite (ext1_in i0 i1 dx a v0 bc (fun _ => 1%Qc)) by exact Y. apply Qcle_refl.
      - assert (i = i1) as -> by (clear - Ip N; k_near). rewrite (ext1_face1 i0 i1 dx a v0 bc (fun _ => 1%Qc) B0 ).
        apply ghost_low; [apply (kl_le rob); [apply Hs; lia|apply Hdx; lia|apply Qclt_le_weak, Hv0; clear - Ip B0; k_near]|now apply Qclt_le_weak]. }
    assert (Dn0 : (ext1 i0 i1 dx v0 bc (fun _ => 1%Qc) (i - 1)%Z <= (fun _ => 1%Qc) i)%Qc).
    { destruct (patch_dec1 i0 i1 (i - 1)%Z) as [Y|N].
      - rewrite (ext1_in i0 i1 dx a v0 bc (fun _ => 1%Qc)) by exact Y. apply Qcle_refl.
      - assert (i = i0) as -> by (clear - Ip N; k_near). rewrite (ext1_face0 i0 i1 dx a v0 bc (fun _ => 1%Qc) B0 ).
        apply ghost_low; [apply (kl_le rob); [apply Hs; lia|apply Hdx; lia|apply Qclt_le_weak, Hv0; clear - Ip B0; k_near]|now apply Qclt_le_weak]. }
    pose proof (dip beta (dx 0%Z) (v0 (i + 1)%Z) (v0 i) 1 _ _ Hb (Hdx 0 ltac:(lia)) (Qclt_le_weak _ _ (Hv0 (i + 1)%Z ltac:(k_near))) (Qclt_le_weak _ _ (Hv0 i ltac:(k_near))) Up0 Dn0) as D0.
    unfold op1. rewrite (ext1_in i0 i1 dx a v0 bc (fun _ => 1%Qc) i Ip). apply Qc_nonneg_sub.
    match goal with |- (0 <= ?t + a i * 1 - a i)%Qc => replace (t + a i * 1 - a i)%Qc with t by ring end.
    repeat apply Qc_add; assumption.
  Qed.

  Context (Hh : (exists f, 0 <= f < 2 /\ b_kind (bc f) <> 1) \/ (exists i, patch1 i0 i1 i /\ (0 < a i)%Qc)).

  Lemma below1 (w z : Z -> Qc) (M : Qc) : (0 <= M)%Qc ->
    (forall i, patch1 i0 i1 i -> (op1 dx beta a v0 (ext1 i0 i1 dx v0 bc w) i - op1 dx beta a v0 (ext1 i0 i1 dx v0 bc z) i <= M * a i)%Qc) ->
    forall i, patch1 i0 i1 i -> (w i - z i <= M)%Qc.
  Proof.
    intros HM H i Ip.
    set (e := fun i => (1 * (1 * w i + (- (1)) * z i) + (- M) * 1)%Qc).
    assert (E : (e i <= 0)%Qc).
    { apply (any1 i0 i1 dx beta a v0 bc rob Hb Hdx Ha Hv0 Hs Ro Hh e); [|exact Ip]. clear i Ip. intros i Ip. unfold e.
      rewrite (bvp1_lin i0 i1 dx beta a v0 bc 1 (- M) (fun i => 1 * w i + (- (1)) * z i)%Qc (fun _ => 1%Qc) i Ip), (bvp1_lin i0 i1 dx beta a v0 bc 1 (- (1)) w z i Ip).
      pose proof (H i Ip) as G. pose proof (Qcmult_le_compat_r _ _ M (one1 i Ip) HM) as O.
      apply (proj1 (Qcle_minus_iff _ _)) in G. apply (proj1 (Qcle_minus_iff _ _)) in O. apply (proj2 (Qcle_minus_iff _ _)).
      match goal with |- (0 <= ?g)%Qc => match type of G with (0 <= ?x)%Qc => match type of O with (0 <= ?y)%Qc => replace g with (x + y)%Qc by ring end end end.
      now apply Qc_add. }
    unfold e in E. apply (proj1 (Qcle_minus_iff _ _)) in E. apply (proj2 (Qcle_minus_iff _ _)).
    match goal with |- (0 <= ?g)%Qc => match type of E with (0 <= ?x)%Qc => replace g with x by ring end end. exact E.
  Qed.
End Bound1.

Section Arc1.
  Context (i0 i1 : Z) (dx : Z -> Qc) (beta : Qc) (bc : Z -> bcond QcS).
  Context (rob : bool) (Hb : (0 < beta)%Qc) (Hdx : forall d, 0 <= d < 1 -> (0 < dx d)%Qc).
  Context (Hs : forall f, 0 <= f < 2 -> sound rob (bc f)) (Ro : roomy 1 (ends1 i0) (ends1 i1) bc).

  Lemma arc1_0 : b_kind (bc 0) = 0 -> b_order (bc 0) = 1 -> b_kind (bc 1) = 0 -> b_order (bc 1) = 1 ->
    forall i, patch1 i0 i1 i -> (beta <= op1 dx beta (fun _ => 0%Qc) (fun _ => 1%Qc) (ext1 i0 i1 dx (fun _ => 1%Qc) bc (fun i => arc i0 i1 (dx 0%Z) i)) i)%Qc.
  Proof.
    intros K0 O0 K1 O1 i Ip.
    pose proof (roomy_le 1 (ends1 i0) (ends1 i1) bc Ro 0 ltac:(lia)) as B0. change (i0 <= i1) in B0.
    assert (Up0 : ext1 i0 i1 dx (fun _ => 1%Qc) bc (fun i => arc i0 i1 (dx 0%Z) i) (i + 1)%Z = arc i0 i1 (dx 0%Z) (i + 1)).
    { destruct (patch_dec1 i0 i1 (i + 1)%Z) as [Y|N]; [now rewrite (ext1_in i0 i1 dx (fun _ => 0%Qc) (fun _ => 1%Qc) bc (fun i => arc i0 i1 (dx 0%Z) i)) by exact Y|].
      assert (i = i1) as -> by (clear - Ip N; k_near). rewrite (ext1_face1 i0 i1 dx (fun _ => 0%Qc) (fun _ => 1%Qc) bc (fun i => arc i0 i1 (dx 0%Z) i) B0 ), arc_hi. unfold kk, ll. rewrite K1, O1. cbn [Z.eqb Pos.eqb andb]. ring. }
    assert (Dn0 : ext1 i0 i1 dx (fun _ => 1%Qc) bc (fun i => arc i0 i1 (dx 0%Z) i) (i - 1)%Z = arc i0 i1 (dx 0%Z) (i - 1)).
    { destruct (patch_dec1 i0 i1 (i - 1)%Z) as [Y|N]; [now rewrite (ext1_in i0 i1 dx (fun _ => 0%Qc) (fun _ => 1%Qc) bc (fun i => arc i0 i1 (dx 0%Z) i)) by exact Y|].
      assert (i = i0) as -> by (clear - Ip N; k_near). rewrite (ext1_face0 i0 i1 dx (fun _ => 0%Qc) (fun _ => 1%Qc) bc (fun i => arc i0 i1 (dx 0%Z) i) B0 ), arc_lo. unfold kk, ll. rewrite K0, O0. cbn [Z.eqb Pos.eqb andb]. ring. }
    unfold op1. rewrite Up0, Dn0, (ext1_in i0 i1 dx (fun _ => 0%Qc) (fun _ => 1%Qc) bc (fun i => arc i0 i1 (dx 0%Z) i) i Ip).
    rewrite (arc_step i0 i1 (dx 0%Z) i (Qc_ne_0 _ (Hdx 0 ltac:(lia)))).
    apply (proj2 (Qcle_minus_iff _ _)).
    replace (- beta * - (1) + 0 * arc i0 i1 (dx 0%Z) i + - beta)%Qc with 0%Qc by ring. apply Qcle_refl.
  Qed.

  Lemma within1_0 (w z : Z -> Qc) (M : Qc) : b_kind (bc 0) = 0 -> b_order (bc 0) = 1 -> b_kind (bc 1) = 0 -> b_order (bc 1) = 1 -> (0 <= M)%Qc ->
    (forall i, patch1 i0 i1 i -> (op1 dx beta (fun _ => 0%Qc) (fun _ => 1%Qc) (ext1 i0 i1 dx (fun _ => 1%Qc) bc w) i - op1 dx beta (fun _ => 0%Qc) (fun _ => 1%Qc) (ext1 i0 i1 dx (fun _ => 1%Qc) bc z) i <= M)%Qc) ->
    forall i, patch1 i0 i1 i -> (w i - z i <= M / beta * reach (i1 - i0 + 1) (dx 0%Z))%Qc.
  Proof.
    intros K0 O0 K1 O1 HM H i Ip.
    assert (HMb : (0 <= M / beta)%Qc) by (apply Qc_mul; [exact HM|now apply Qclt_le_weak, Qc_inv_pos]).
    assert (An : exists f, 0 <= f < 2 /\ b_kind (bc f) <> 1) by (exists 0; split; [lia|rewrite K0; discriminate]).
    set (g := (fun i => arc i0 i1 (dx 0%Z) i) : Z -> Qc).
    set (e := fun i => (1 * (1 * w i + (- (1)) * z i) + (- (M / beta)) * g i)%Qc).
    assert (E : (e i <= 0)%Qc).
    { apply (any1 i0 i1 dx beta (fun _ => 0%Qc) (fun _ => 1%Qc) bc rob Hb Hdx (fun _ _ => Qcle_refl 0%Qc) (fun _ _ => eq_refl : (0 < 1)%Qc) Hs Ro (or_introl An) e); [|exact Ip]. clear i Ip. intros i Ip. unfold e.
      rewrite (bvp1_lin i0 i1 dx beta (fun _ => 0%Qc) (fun _ => 1%Qc) bc 1 (- (M / beta)) (fun i => 1 * w i + (- (1)) * z i)%Qc g i Ip), (bvp1_lin i0 i1 dx beta (fun _ => 0%Qc) (fun _ => 1%Qc) bc 1 (- (1)) w z i Ip).
      pose proof (H i Ip) as G. pose proof (Qcmult_le_compat_r _ _ (M / beta) (arc1_0 K0 O0 K1 O1 i Ip) HMb) as O. fold g in O.
      replace (beta * (M / beta))%Qc with M in O by (field; now apply Qc_ne_0).
      apply (proj1 (Qcle_minus_iff _ _)) in G. apply (proj1 (Qcle_minus_iff _ _)) in O. apply (proj2 (Qcle_minus_iff _ _)).
      match goal with |- (0 <= ?g)%Qc => match type of G with (0 <= ?x)%Qc => match type of O with (0 <= ?y)%Qc => replace g with (x + y)%Qc by ring end end end.
      now apply Qc_add. }
    apply Qcle_trans with (M / beta * g i)%Qc.
    - unfold e in E. apply (proj1 (Qcle_minus_iff _ _)) in E. apply (proj2 (Qcle_minus_iff _ _)).
      match goal with |- (0 <= ?g)%Qc => match type of E with (0 <= ?x)%Qc => replace g with x by ring end end. exact E.
    - rewrite !(Qcmult_comm (M / beta)). apply Qcmult_le_compat_r; [|exact HMb]. unfold g, reach. apply arc_max. clear - Ip. k_near.
  Qed.

End Arc1.

Section Bound2.
  Context (i0 j0 i1 j1 : Z) (dx : Z -> Qc) (beta : Qc) (a v0 v1 : Z -> Z -> Qc) (bc : Z -> bcond QcS).
  Context (rob : bool) (Hb : (0 < beta)%Qc) (Hdx : forall d, 0 <= d < 2 -> (0 < dx d)%Qc).
  Context (Ha : forall i j, patch2 i0 j0 i1 j1 i j -> (0 <= a i j)%Qc).
  Context (Hv0 : forall i j, i0 <= i <= i1 + 1 -> j0 <= j <= j1 -> (0 < v0 i j)%Qc).
  Context (Hv1 : forall i j, i0 <= i <= i1 -> j0 <= j <= j1 + 1 -> (0 < v1 i j)%Qc).
  Context (Hs : forall f, 0 <= f < 4 -> sound rob (bc f)) (Ro : roomy 2 (ends2 i0 j0) (ends2 i1 j1) bc).

  (** The operator on a constant is at least the reaction. *)
  Lemma one2 i j : patch2 i0 j0 i1 j1 i j -> (a i j <= op2 dx beta a v0 v1 (ext2 i0 j0 i1 j1 dx v0 v1 bc (fun _ _ => 1%Qc)) i j)%Qc.
  Proof.
    intros Ip.
    pose proof (roomy_le 2 (ends2 i0 j0) (ends2 i1 j1) bc Ro 0 ltac:(lia)) as B0. change (i0 <= i1) in B0.
    pose proof (roomy_le 2 (ends2 i0 j0) (ends2 i1 j1) bc Ro 1 ltac:(lia)) as B1. change (j0 <= j1) in B1.
    assert (Up0 : (ext2 i0 j0 i1 j1 dx v0 v1 bc (fun _ _ => 1%Qc) (i + 1)%Z j <= (fun _ _ => 1%Qc) i j)%Qc).
    { destruct (patch_dec2 i0 j0 i1 j1 (i + 1)%Z j) as [Y|N].
      - rewrite (ext2_in i0 j0 i1 j1 dx a v0 v1 bc (fun _ _ => 1%Qc)) by exact Y. apply Qcle_refl.
      - assert (i = i1) as -> by (clear - Ip N; k_near). rewrite (ext2_face1 i0 j0 i1 j1 dx a v0 v1 bc (fun _ _ => 1%Qc) B0 j ltac:(k_near)).
        apply ghost_low; [apply (kl_le rob); [apply Hs; lia|apply Hdx; lia|apply Qclt_le_weak, Hv0; clear - Ip B0; k_near]|now apply Qclt_le_weak]. }
    assert (Dn0 : (ext2 i0 j0 i1 j1 dx v0 v1 bc (fun _ _ => 1%Qc) (i - 1)%Z j <= (fun _ _ => 1%Qc) i j)%Qc).
    { destruct (patch_dec2 i0 j0 i1 j1 (i - 1)%Z j) as [Y|N].
      - rewrite (ext2_in i0 j0 i1 j1 dx a v0 v1 bc (fun _ _ => 1%Qc)) by exact Y. apply Qcle_refl.
      - assert (i = i0) as -> by (clear - Ip N; k_near). rewrite (ext2_face0 i0 j0 i1 j1 dx a v0 v1 bc (fun _ _ => 1%Qc) B0 j ltac:(k_near)).
        apply ghost_low; [apply (kl_le rob); [apply Hs; lia|apply Hdx; lia|apply Qclt_le_weak, Hv0; clear - Ip B0; k_near]|now apply Qclt_le_weak]. }
    assert (Up1 : (ext2 i0 j0 i1 j1 dx v0 v1 bc (fun _ _ => 1%Qc) i (j + 1)%Z <= (fun _ _ => 1%Qc) i j)%Qc).
    { destruct (patch_dec2 i0 j0 i1 j1 i (j + 1)%Z) as [Y|N].
      - rewrite (ext2_in i0 j0 i1 j1 dx a v0 v1 bc (fun _ _ => 1%Qc)) by exact Y. apply Qcle_refl.
      - assert (j = j1) as -> by (clear - Ip N; k_near). rewrite (ext2_face3 i0 j0 i1 j1 dx a v0 v1 bc (fun _ _ => 1%Qc) B1 i ltac:(k_near)).
        apply ghost_low; [apply (kl_le rob); [apply Hs; lia|apply Hdx; lia|apply Qclt_le_weak, Hv1; clear - Ip B1; k_near]|now apply Qclt_le_weak]. }
    assert (Dn1 : (ext2 i0 j0 i1 j1 dx v0 v1 bc (fun _ _ => 1%Qc) i (j - 1)%Z <= (fun _ _ => 1%Qc) i j)%Qc).
    { destruct (patch_dec2 i0 j0 i1 j1 i (j - 1)%Z) as [Y|N].
      - rewrite (ext2_in i0 j0 i1 j1 dx a v0 v1 bc (fun _ _ => 1%Qc)) by exact Y. apply Qcle_refl.
      - assert (j = j0) as -> by (clear - Ip N; k_near). rewrite (ext2_face2 i0 j0 i1 j1 dx a v0 v1 bc (fun _ _ => 1%Qc) B1 i ltac:(k_near)).
        apply ghost_low; [apply (kl_le rob); [apply Hs; lia|apply Hdx; lia|apply Qclt_le_weak, Hv1; clear - Ip B1; k_near]|now apply Qclt_le_weak]. }
    pose proof (dip beta (dx 0%Z) (v0 (i + 1)%Z j) (v0 i j) 1 _ _ Hb (Hdx 0 ltac:(lia)) (Qclt_le_weak _ _ (Hv0 (i + 1)%Z j ltac:(k_near) ltac:(k_near))) (Qclt_le_weak _ _ (Hv0 i j ltac:(k_near) ltac:(k_near))) Up0 Dn0) as D0.
    pose proof (dip beta (dx 1%Z) (v1 i (j + 1)%Z) (v1 i j) 1 _ _ Hb (Hdx 1 ltac:(lia)) (Qclt_le_weak _ _ (Hv1 i (j + 1)%Z ltac:(k_near) ltac:(k_near))) (Qclt_le_weak _ _ (Hv1 i j ltac:(k_near) ltac:(k_near))) Up1 Dn1) as D1.
    unfold op2. rewrite (ext2_in i0 j0 i1 j1 dx a v0 v1 bc (fun _ _ => 1%Qc) i j Ip). apply Qc_nonneg_sub.
    match goal with |- (0 <= ?t + a i j * 1 - a i j)%Qc => replace (t + a i j * 1 - a i j)%Qc with t by ring end.
    repeat apply Qc_add; assumption.
  Qed.

  Context (Hh : (exists f, 0 <= f < 4 /\ b_kind (bc f) <> 1) \/ (exists i j, patch2 i0 j0 i1 j1 i j /\ (0 < a i j)%Qc)).

  Lemma below2 (w z : Z -> Z -> Qc) (M : Qc) : (0 <= M)%Qc ->
    (forall i j, patch2 i0 j0 i1 j1 i j -> (op2 dx beta a v0 v1 (ext2 i0 j0 i1 j1 dx v0 v1 bc w) i j - op2 dx beta a v0 v1 (ext2 i0 j0 i1 j1 dx v0 v1 bc z) i j <= M * a i j)%Qc) ->
    forall i j, patch2 i0 j0 i1 j1 i j -> (w i j - z i j <= M)%Qc.
  Proof.
    intros HM H i j Ip.
    set (e := fun i j => (1 * (1 * w i j + (- (1)) * z i j) + (- M) * 1)%Qc).
    assert (E : (e i j <= 0)%Qc).
    { apply (any2 i0 j0 i1 j1 dx beta a v0 v1 bc rob Hb Hdx Ha Hv0 Hv1 Hs Ro Hh e); [|exact Ip]. clear i j Ip. intros i j Ip. unfold e.
      rewrite (bvp2_lin i0 j0 i1 j1 dx beta a v0 v1 bc 1 (- M) (fun i j => 1 * w i j + (- (1)) * z i j)%Qc (fun _ _ => 1%Qc) i j Ip), (bvp2_lin i0 j0 i1 j1 dx beta a v0 v1 bc 1 (- (1)) w z i j Ip).
      pose proof (H i j Ip) as G. pose proof (Qcmult_le_compat_r _ _ M (one2 i j Ip) HM) as O.
      apply (proj1 (Qcle_minus_iff _ _)) in G. apply (proj1 (Qcle_minus_iff _ _)) in O. apply (proj2 (Qcle_minus_iff _ _)).
      match goal with |- (0 <= ?g)%Qc => match type of G with (0 <= ?x)%Qc => match type of O with (0 <= ?y)%Qc => replace g with (x + y)%Qc by ring end end end.
      now apply Qc_add. }
    unfold e in E. apply (proj1 (Qcle_minus_iff _ _)) in E. apply (proj2 (Qcle_minus_iff _ _)).
    match goal with |- (0 <= ?g)%Qc => match type of E with (0 <= ?x)%Qc => replace g with x by ring end end. exact E.
  Qed.
End Bound2.

Section Arc2.
  Context (i0 j0 i1 j1 : Z) (dx : Z -> Qc) (beta : Qc) (bc : Z -> bcond QcS).
  Context (rob : bool) (Hb : (0 < beta)%Qc) (Hdx : forall d, 0 <= d < 2 -> (0 < dx d)%Qc).
  Context (Hs : forall f, 0 <= f < 4 -> sound rob (bc f)) (Ro : roomy 2 (ends2 i0 j0) (ends2 i1 j1) bc).

  Lemma arc2_0 : b_kind (bc 0) = 0 -> b_order (bc 0) = 1 -> b_kind (bc 1) = 0 -> b_order (bc 1) = 1 ->
    forall i j, patch2 i0 j0 i1 j1 i j -> (beta <= op2 dx beta (fun _ _ => 0%Qc) (fun _ _ => 1%Qc) (fun _ _ => 1%Qc) (ext2 i0 j0 i1 j1 dx (fun _ _ => 1%Qc) (fun _ _ => 1%Qc) bc (fun i _ => arc i0 i1 (dx 0%Z) i)) i j)%Qc.
  Proof.
    intros K0 O0 K1 O1 i j Ip.
    pose proof (roomy_le 2 (ends2 i0 j0) (ends2 i1 j1) bc Ro 0 ltac:(lia)) as B0. change (i0 <= i1) in B0.
    pose proof (roomy_le 2 (ends2 i0 j0) (ends2 i1 j1) bc Ro 1 ltac:(lia)) as B1. change (j0 <= j1) in B1.
    assert (Up0 : ext2 i0 j0 i1 j1 dx (fun _ _ => 1%Qc) (fun _ _ => 1%Qc) bc (fun i _ => arc i0 i1 (dx 0%Z) i) (i + 1)%Z j = arc i0 i1 (dx 0%Z) (i + 1)).
    { destruct (patch_dec2 i0 j0 i1 j1 (i + 1)%Z j) as [Y|N]; [now rewrite (ext2_in i0 j0 i1 j1 dx (fun _ _ => 0%Qc) (fun _ _ => 1%Qc) (fun _ _ => 1%Qc) bc (fun i _ => arc i0 i1 (dx 0%Z) i)) by exact Y|].
      assert (i = i1) as -> by (clear - Ip N; k_near). rewrite (ext2_face1 i0 j0 i1 j1 dx (fun _ _ => 0%Qc) (fun _ _ => 1%Qc) (fun _ _ => 1%Qc) bc (fun i _ => arc i0 i1 (dx 0%Z) i) B0 j ltac:(k_near)), arc_hi. unfold kk, ll. rewrite K1, O1. cbn [Z.eqb Pos.eqb andb]. ring. }
    assert (Dn0 : ext2 i0 j0 i1 j1 dx (fun _ _ => 1%Qc) (fun _ _ => 1%Qc) bc (fun i _ => arc i0 i1 (dx 0%Z) i) (i - 1)%Z j = arc i0 i1 (dx 0%Z) (i - 1)).
    { destruct (patch_dec2 i0 j0 i1 j1 (i - 1)%Z j) as [Y|N]; [now rewrite (ext2_in i0 j0 i1 j1 dx (fun _ _ => 0%Qc) (fun _ _ => 1%Qc) (fun _ _ => 1%Qc) bc (fun i _ => arc i0 i1 (dx 0%Z) i)) by exact Y|].
      assert (i = i0) as -> by (clear - Ip N; k_near). rewrite (ext2_face0 i0 j0 i1 j1 dx (fun _ _ => 0%Qc) (fun _ _ => 1%Qc) (fun _ _ => 1%Qc) bc (fun i _ => arc i0 i1 (dx 0%Z) i) B0 j ltac:(k_near)), arc_lo. unfold kk, ll. rewrite K0, O0. cbn [Z.eqb Pos.eqb andb]. ring. }
    assert (Up1 : (ext2 i0 j0 i1 j1 dx (fun _ _ => 1%Qc) (fun _ _ => 1%Qc) bc (fun i _ => arc i0 i1 (dx 0%Z) i) i (j + 1)%Z <= (fun i _ => arc i0 i1 (dx 0%Z) i) i j)%Qc).
    { destruct (patch_dec2 i0 j0 i1 j1 i (j + 1)%Z) as [Y|N].
      - rewrite (ext2_in i0 j0 i1 j1 dx (fun _ _ => 0%Qc) (fun _ _ => 1%Qc) (fun _ _ => 1%Qc) bc (fun i _ => arc i0 i1 (dx 0%Z) i)) by exact Y. apply Qcle_refl.
      - assert (j = j1) as -> by (clear - Ip N; k_near). rewrite (ext2_face3 i0 j0 i1 j1 dx (fun _ _ => 0%Qc) (fun _ _ => 1%Qc) (fun _ _ => 1%Qc) bc (fun i _ => arc i0 i1 (dx 0%Z) i) B1 i ltac:(k_near)).
        apply ghost_low; [apply (kl_le rob); [apply Hs; lia|apply Hdx; lia|now apply Qclt_le_weak]|apply arc_pos; clear - Ip; k_near]. }
    assert (Dn1 : (ext2 i0 j0 i1 j1 dx (fun _ _ => 1%Qc) (fun _ _ => 1%Qc) bc (fun i _ => arc i0 i1 (dx 0%Z) i) i (j - 1)%Z <= (fun i _ => arc i0 i1 (dx 0%Z) i) i j)%Qc).
    { destruct (patch_dec2 i0 j0 i1 j1 i (j - 1)%Z) as [Y|N].
      - rewrite (ext2_in i0 j0 i1 j1 dx (fun _ _ => 0%Qc) (fun _ _ => 1%Qc) (fun _ _ => 1%Qc) bc (fun i _ => arc i0 i1 (dx 0%Z) i)) by exact Y. apply Qcle_refl.
      - assert (j = j0) as -> by (clear - Ip N; k_near). rewrite (ext2_face2 i0 j0 i1 j1 dx (fun _ _ => 0%Qc) (fun _ _ => 1%Qc) (fun _ _ => 1%Qc) bc (fun i _ => arc i0 i1 (dx 0%Z) i) B1 i ltac:(k_near)).
        apply ghost_low; [apply (kl_le rob); [apply Hs; lia|apply Hdx; lia|now apply Qclt_le_weak]|apply arc_pos; clear - Ip; k_near]. }
    pose proof (dip beta (dx 1%Z) 1 1 (arc i0 i1 (dx 0%Z) i) _ _ Hb (Hdx 1 ltac:(lia)) (Qclt_le_weak 0 1 eq_refl) (Qclt_le_weak 0 1 eq_refl) Up1 Dn1) as D1.
    unfold op2. rewrite Up0, Dn0, (ext2_in i0 j0 i1 j1 dx (fun _ _ => 0%Qc) (fun _ _ => 1%Qc) (fun _ _ => 1%Qc) bc (fun i _ => arc i0 i1 (dx 0%Z) i) i j Ip).
    rewrite (arc_step i0 i1 (dx 0%Z) i (Qc_ne_0 _ (Hdx 0 ltac:(lia)))).
    apply (proj2 (Qcle_minus_iff _ _)).
    match goal with |- (0 <= ?g)%Qc => match type of D1 with (0 <= ?x1)%Qc => replace g with (x1)%Qc by ring end end. exact D1.
  Qed.

  Lemma within2_0 (w z : Z -> Z -> Qc) (M : Qc) : b_kind (bc 0) = 0 -> b_order (bc 0) = 1 -> b_kind (bc 1) = 0 -> b_order (bc 1) = 1 -> (0 <= M)%Qc ->
    (forall i j, patch2 i0 j0 i1 j1 i j -> (op2 dx beta (fun _ _ => 0%Qc) (fun _ _ => 1%Qc) (fun _ _ => 1%Qc) (ext2 i0 j0 i1 j1 dx (fun _ _ => 1%Qc) (fun _ _ => 1%Qc) bc w) i j - op2 dx beta (fun _ _ => 0%Qc) (fun _ _ => 1%Qc) (fun _ _ => 1%Qc) (ext2 i0 j0 i1 j1 dx (fun _ _ => 1%Qc) (fun _ _ => 1%Qc) bc z) i j <= M)%Qc) ->
    forall i j, patch2 i0 j0 i1 j1 i j -> (w i j - z i j <= M / beta * reach (i1 - i0 + 1) (dx 0%Z))%Qc.
  Proof.
    intros K0 O0 K1 O1 HM H i j Ip.
    assert (HMb : (0 <= M / beta)%Qc) by (apply Qc_mul; [exact HM|now apply Qclt_le_weak, Qc_inv_pos]).
    assert (An : exists f, 0 <= f < 4 /\ b_kind (bc f) <> 1) by (exists 0; split; [lia|rewrite K0; discriminate]).
    set (g := (fun i _ => arc i0 i1 (dx 0%Z) i) : Z -> Z -> Qc).
    set (e := fun i j => (1 * (1 * w i j + (- (1)) * z i j) + (- (M / beta)) * g i j)%Qc).
    assert (E : (e i j <= 0)%Qc).
    { apply (any2 i0 j0 i1 j1 dx beta (fun _ _ => 0%Qc) (fun _ _ => 1%Qc) (fun _ _ => 1%Qc) bc rob Hb Hdx (fun _ _ _ => Qcle_refl 0%Qc) (fun _ _ _ _ => eq_refl : (0 < 1)%Qc) (fun _ _ _ _ => eq_refl : (0 < 1)%Qc) Hs Ro (or_introl An) e); [|exact Ip]. clear i j Ip. intros i j Ip. unfold e.
      rewrite (bvp2_lin i0 j0 i1 j1 dx beta (fun _ _ => 0%Qc) (fun _ _ => 1%Qc) (fun _ _ => 1%Qc) bc 1 (- (M / beta)) (fun i j => 1 * w i j + (- (1)) * z i j)%Qc g i j Ip), (bvp2_lin i0 j0 i1 j1 dx beta (fun _ _ => 0%Qc) (fun _ _ => 1%Qc) (fun _ _ => 1%Qc) bc 1 (- (1)) w z i j Ip).
      pose proof (H i j Ip) as G. pose proof (Qcmult_le_compat_r _ _ (M / beta) (arc2_0 K0 O0 K1 O1 i j Ip) HMb) as O. fold g in O.
      replace (beta * (M / beta))%Qc with M in O by (field; now apply Qc_ne_0).
      apply (proj1 (Qcle_minus_iff _ _)) in G. apply (proj1 (Qcle_minus_iff _ _)) in O. apply (proj2 (Qcle_minus_iff _ _)).
      match goal with |- (0 <= ?g)%Qc => match type of G with (0 <= ?x)%Qc => match type of O with (0 <= ?y)%Qc => replace g with (x + y)%Qc by ring end end end.
      now apply Qc_add. }
    apply Qcle_trans with (M / beta * g i j)%Qc.
    - unfold e in E. apply (proj1 (Qcle_minus_iff _ _)) in E. apply (proj2 (Qcle_minus_iff _ _)).
      match goal with |- (0 <= ?g)%Qc => match type of E with (0 <= ?x)%Qc => replace g with x by ring end end. exact E.
    - rewrite !(Qcmult_comm (M / beta)). apply Qcmult_le_compat_r; [|exact HMb]. unfold g, reach. apply arc_max. clear - Ip. k_near.
  Qed.

  Lemma arc2_1 : b_kind (bc 2) = 0 -> b_order (bc 2) = 1 -> b_kind (bc 3) = 0 -> b_order (bc 3) = 1 ->
    forall i j, patch2 i0 j0 i1 j1 i j -> (beta <= op2 dx beta (fun _ _ => 0%Qc) (fun _ _ => 1%Qc) (fun _ _ => 1%Qc) (ext2 i0 j0 i1 j1 dx (fun _ _ => 1%Qc) (fun _ _ => 1%Qc) bc (fun _ j => arc j0 j1 (dx 1%Z) j)) i j)%Qc.
  Proof.
    intros K0 O0 K1 O1 i j Ip.
    pose proof (roomy_le 2 (ends2 i0 j0) (ends2 i1 j1) bc Ro 0 ltac:(lia)) as B0. change (i0 <= i1) in B0.
    pose proof (roomy_le 2 (ends2 i0 j0) (ends2 i1 j1) bc Ro 1 ltac:(lia)) as B1. change (j0 <= j1) in B1.
    assert (Up1 : ext2 i0 j0 i1 j1 dx (fun _ _ => 1%Qc) (fun _ _ => 1%Qc) bc (fun _ j => arc j0 j1 (dx 1%Z) j) i (j + 1)%Z = arc j0 j1 (dx 1%Z) (j + 1)).
    { destruct (patch_dec2 i0 j0 i1 j1 i (j + 1)%Z) as [Y|N]; [now rewrite (ext2_in i0 j0 i1 j1 dx (fun _ _ => 0%Qc) (fun _ _ => 1%Qc) (fun _ _ => 1%Qc) bc (fun _ j => arc j0 j1 (dx 1%Z) j)) by exact Y|].
      assert (j = j1) as -> by (clear - Ip N; k_near). rewrite (ext2_face3 i0 j0 i1 j1 dx (fun _ _ => 0%Qc) (fun _ _ => 1%Qc) (fun _ _ => 1%Qc) bc (fun _ j => arc j0 j1 (dx 1%Z) j) B1 i ltac:(k_near)), arc_hi. unfold kk, ll. rewrite K1, O1. cbn [Z.eqb Pos.eqb andb]. ring. }
    assert (Dn1 : ext2 i0 j0 i1 j1 dx (fun _ _ => 1%Qc) (fun _ _ => 1%Qc) bc (fun _ j => arc j0 j1 (dx 1%Z) j) i (j - 1)%Z = arc j0 j1 (dx 1%Z) (j - 1)).
    { destruct (patch_dec2 i0 j0 i1 j1 i (j - 1)%Z) as [Y|N]; [now rewrite (ext2_in i0 j0 i1 j1 dx (fun _ _ => 0%Qc) (fun _ _ => 1%Qc) (fun _ _ => 1%Qc) bc (fun _ j => arc j0 j1 (dx 1%Z) j)) by exact Y|].
      assert (j = j0) as -> by (clear - Ip N; k_near). rewrite (ext2_face2 i0 j0 i1 j1 dx (fun _ _ => 0%Qc) (fun _ _ => 1%Qc) (fun _ _ => 1%Qc) bc (fun _ j => arc j0 j1 (dx 1%Z) j) B1 i ltac:(k_near)), arc_lo. unfold kk, ll. rewrite K0, O0. cbn [Z.eqb Pos.eqb andb]. ring. }
    assert (Up0 : (ext2 i0 j0 i1 j1 dx (fun _ _ => 1%Qc) (fun _ _ => 1%Qc) bc (fun _ j => arc j0 j1 (dx 1%Z) j) (i + 1)%Z j <= (fun _ j => arc j0 j1 (dx 1%Z) j) i j)%Qc).
    { destruct (patch_dec2 i0 j0 i1 j1 (i + 1)%Z j) as [Y|N].
      - rewrite (ext2_in i0 j0 i1 j1 dx (fun _ _ => 0%Qc) (fun _ _ => 1%Qc) (fun _ _ => 1%Qc) bc (fun _ j => arc j0 j1 (dx 1%Z) j)) by exact Y. apply Qcle_refl.
      - assert (i = i1) as -> by (clear - Ip N; k_near). rewrite (ext2_face1 i0 j0 i1 j1 dx (fun _ _ => 0%Qc) (fun _ _ => 1%Qc) (fun _ _ => 1%Qc) bc (fun _ j => arc j0 j1 (dx 1%Z) j) B0 j ltac:(k_near)).
        apply ghost_low; [apply (kl_le rob); [apply Hs; lia|apply Hdx; lia|now apply Qclt_le_weak]|apply arc_pos; clear - Ip; k_near]. }
    assert (Dn0 : (ext2 i0 j0 i1 j1 dx (fun _ _ => 1%Qc) (fun _ _ => 1%Qc) bc (fun _ j => arc j0 j1 (dx 1%Z) j) (i - 1)%Z j <= (fun _ j => arc j0 j1 (dx 1%Z) j) i j)%Qc).
    { destruct (patch_dec2 i0 j0 i1 j1 (i - 1)%Z j) as [Y|N].
      - rewrite (ext2_in i0 j0 i1 j1 dx (fun _ _ => 0%Qc) (fun _ _ => 1%Qc) (fun _ _ => 1%Qc) bc (fun _ j => arc j0 j1 (dx 1%Z) j)) by exact Y. apply Qcle_refl.
      - assert (i = i0) as -> by (clear - Ip N; k_near). rewrite (ext2_face0 i0 j0 i1 j1 dx (fun _ _ => 0%Qc) (fun _ _ => 1%Qc) (fun _ _ => 1%Qc) bc (fun _ j => arc j0 j1 (dx 1%Z) j) B0 j ltac:(k_near)).
        apply ghost_low; [apply (kl_le rob); [apply Hs; lia|apply Hdx; lia|now apply Qclt_le_weak]|apply arc_pos; clear - Ip; k_near]. }
    pose proof (dip beta (dx 0%Z) 1 1 (arc j0 j1 (dx 1%Z) j) _ _ Hb (Hdx 0 ltac:(lia)) (Qclt_le_weak 0 1 eq_refl) (Qclt_le_weak 0 1 eq_refl) Up0 Dn0) as D0.
    unfold op2. rewrite Up1, Dn1, (ext2_in i0 j0 i1 j1 dx (fun _ _ => 0%Qc) (fun _ _ => 1%Qc) (fun _ _ => 1%Qc) bc (fun _ j => arc j0 j1 (dx 1%Z) j) i j Ip).
    rewrite (arc_step j0 j1 (dx 1%Z) j (Qc_ne_0 _ (Hdx 1 ltac:(lia)))).
    apply (proj2 (Qcle_minus_iff _ _)).
    match goal with |- (0 <= ?g)%Qc => match type of D0 with (0 <= ?x0)%Qc => replace g with (x0)%Qc by ring end end. exact D0.
  Qed.

  Lemma within2_1 (w z : Z -> Z -> Qc) (M : Qc) : b_kind (bc 2) = 0 -> b_order (bc 2) = 1 -> b_kind (bc 3) = 0 -> b_order (bc 3) = 1 -> (0 <= M)%Qc ->
    (forall i j, patch2 i0 j0 i1 j1 i j -> (op2 dx beta (fun _ _ => 0%Qc) (fun _ _ => 1%Qc) (fun _ _ => 1%Qc) (ext2 i0 j0 i1 j1 dx (fun _ _ => 1%Qc) (fun _ _ => 1%Qc) bc w) i j - op2 dx beta (fun _ _ => 0%Qc) (fun _ _ => 1%Qc) (fun _ _ => 1%Qc) (ext2 i0 j0 i1 j1 dx (fun _ _ => 1%Qc) (fun _ _ => 1%Qc) bc z) i j <= M)%Qc) ->
    forall i j, patch2 i0 j0 i1 j1 i j -> (w i j - z i j <= M / beta * reach (j1 - j0 + 1) (dx 1%Z))%Qc.
  Proof.
    intros K0 O0 K1 O1 HM H i j Ip.
    assert (HMb : (0 <= M / beta)%Qc) by (apply Qc_mul; [exact HM|now apply Qclt_le_weak, Qc_inv_pos]).
    assert (An : exists f, 0 <= f < 4 /\ b_kind (bc f) <> 1) by (exists 2; split; [lia|rewrite K0; discriminate]).
    set (g := (fun _ j => arc j0 j1 (dx 1%Z) j) : Z -> Z -> Qc).
    set (e := fun i j => (1 * (1 * w i j + (- (1)) * z i j) + (- (M / beta)) * g i j)%Qc).
    assert (E : (e i j <= 0)%Qc).
    { apply (any2 i0 j0 i1 j1 dx beta (fun _ _ => 0%Qc) (fun _ _ => 1%Qc) (fun _ _ => 1%Qc) bc rob Hb Hdx (fun _ _ _ => Qcle_refl 0%Qc) (fun _ _ _ _ => eq_refl : (0 < 1)%Qc) (fun _ _ _ _ => eq_refl : (0 < 1)%Qc) Hs Ro (or_introl An) e); [|exact Ip]. clear i j Ip. intros i j Ip. unfold e.
      rewrite (bvp2_lin i0 j0 i1 j1 dx beta (fun _ _ => 0%Qc) (fun _ _ => 1%Qc) (fun _ _ => 1%Qc) bc 1 (- (M / beta)) (fun i j => 1 * w i j + (- (1)) * z i j)%Qc g i j Ip), (bvp2_lin i0 j0 i1 j1 dx beta (fun _ _ => 0%Qc) (fun _ _ => 1%Qc) (fun _ _ => 1%Qc) bc 1 (- (1)) w z i j Ip).
      pose proof (H i j Ip) as G. pose proof (Qcmult_le_compat_r _ _ (M / beta) (arc2_1 K0 O0 K1 O1 i j Ip) HMb) as O. fold g in O.
      replace (beta * (M / beta))%Qc with M in O by (field; now apply Qc_ne_0).
      apply (proj1 (Qcle_minus_iff _ _)) in G. apply (proj1 (Qcle_minus_iff _ _)) in O. apply (proj2 (Qcle_minus_iff _ _)).
      match goal with |- (0 <= ?g)%Qc => match type of G with (0 <= ?x)%Qc => match type of O with (0 <= ?y)%Qc => replace g with (x + y)%Qc by ring end end end.
      now apply Qc_add. }
    apply Qcle_trans with (M / beta * g i j)%Qc.
    - unfold e in E. apply (proj1 (Qcle_minus_iff _ _)) in E. apply (proj2 (Qcle_minus_iff _ _)).
      match goal with |- (0 <= ?g)%Qc => match type of E with (0 <= ?x)%Qc => replace g with x by ring end end. exact E.
    - rewrite !(Qcmult_comm (M / beta)). apply Qcmult_le_compat_r; [|exact HMb]. unfold g, reach. apply arc_max. clear - Ip. k_near.
  Qed.

End Arc2.

Section Bound3.
  Context (i0 j0 k0 i1 j1 k1 : Z) (dx : Z -> Qc) (beta : Qc) (a v0 v1 v2 : Z -> Z -> Z -> Qc) (bc : Z -> bcond QcS).
  Context (rob : bool) (Hb : (0 < beta)%Qc) (Hdx : forall d, 0 <= d < 3 -> (0 < dx d)%Qc).
  Context (Ha : forall i j k, patch3 i0 j0 k0 i1 j1 k1 i j k -> (0 <= a i j k)%Qc).
  Context (Hv0 : forall i j k, i0 <= i <= i1 + 1 -> j0 <= j <= j1 -> k0 <= k <= k1 -> (0 < v0 i j k)%Qc).
  Context (Hv1 : forall i j k, i0 <= i <= i1 -> j0 <= j <= j1 + 1 -> k0 <= k <= k1 -> (0 < v1 i j k)%Qc).
  Context (Hv2 : forall i j k, i0 <= i <= i1 -> j0 <= j <= j1 -> k0 <= k <= k1 + 1 -> (0 < v2 i j k)%Qc).
  Context (Hs : forall f, 0 <= f < 6 -> sound rob (bc f)) (Ro : roomy 3 (ends3 i0 j0 k0) (ends3 i1 j1 k1) bc).

  (** The operator on a constant is at least the reaction. *)
  Lemma one3 i j k : patch3 i0 j0 k0 i1 j1 k1 i j k -> (a i j k <= op3 dx beta a v0 v1 v2 (ext3 i0 j0 k0 i1 j1 k1 dx v0 v1 v2 bc (fun _ _ _ => 1%Qc)) i j k)%Qc.
  Proof.
    intros Ip.
    pose proof (roomy_le 3 (ends3 i0 j0 k0) (ends3 i1 j1 k1) bc Ro 0 ltac:(lia)) as B0. change (i0 <= i1) in B0.
    pose proof (roomy_le 3 (ends3 i0 j0 k0) (ends3 i1 j1 k1) bc Ro 1 ltac:(lia)) as B1. change (j0 <= j1) in B1.
    pose proof (roomy_le 3 (ends3 i0 j0 k0) (ends3 i1 j1 k1) bc Ro 2 ltac:(lia)) as B2. change (k0 <= k1) in B2.
    assert (Up0 : (ext3 i0 j0 k0 i1 j1 k1 dx v0 v1 v2 bc (fun _ _ _ => 1%Qc) (i + 1)%Z j k <= (fun _ _ _ => 1%Qc) i j k)%Qc).
    { destruct (patch_dec3 i0 j0 k0 i1 j1 k1 (i + 1)%Z j k) as [Y|N].
      - rewrite (ext3_in i0 j0 k0 i1 j1 k1 dx a v0 v1 v2 bc (fun _ _ _ => 1%Qc)) by exact Y. apply Qcle_refl.
      - assert (i = i1) as -> by (clear - Ip N; k_near). rewrite (ext3_face1 i0 j0 k0 i1 j1 k1 dx a v0 v1 v2 bc (fun _ _ _ => 1%Qc) B0 j k ltac:(k_near) ltac:(k_near)).
        apply ghost_low; [apply (kl_le rob); [apply Hs; lia|apply Hdx; lia|apply Qclt_le_weak, Hv0; clear - Ip B0; k_near]|now apply Qclt_le_weak]. }
    assert (Dn0 : (ext3 i0 j0 k0 i1 j1 k1 dx v0 v1 v2 bc (fun _ _ _ => 1%Qc) (i - 1)%Z j k <= (fun _ _ _ => 1%Qc) i j k)%Qc).
    { destruct (patch_dec3 i0 j0 k0 i1 j1 k1 (i - 1)%Z j k) as [Y|N].
      - rewrite (ext3_in i0 j0 k0 i1 j1 k1 dx a v0 v1 v2 bc (fun _ _ _ => 1%Qc)) by exact Y. apply Qcle_refl.
      - assert (i = i0) as -> by (clear - Ip N; k_near). rewrite (ext3_face0 i0 j0 k0 i1 j1 k1 dx a v0 v1 v2 bc (fun _ _ _ => 1%Qc) B0 j k ltac:(k_near) ltac:(k_near)).
        apply ghost_low; [apply (kl_le rob); [apply Hs; lia|apply Hdx; lia|apply Qclt_le_weak, Hv0; clear - Ip B0; k_near]|now apply Qclt_le_weak]. }
    assert (Up1 : (ext3 i0 j0 k0 i1 j1 k1 dx v0 v1 v2 bc (fun _ _ _ => 1%Qc) i (j + 1)%Z k <= (fun _ _ _ => 1%Qc) i j k)%Qc).
    { destruct (patch_dec3 i0 j0 k0 i1 j1 k1 i (j + 1)%Z k) as [Y|N].
      - rewrite (ext3_in i0 j0 k0 i1 j1 k1 dx a v0 v1 v2 bc (fun _ _ _ => 1%Qc)) by exact Y. apply Qcle_refl.
      - assert (j = j1) as -> by (clear - Ip N; k_near). rewrite (ext3_face3 i0 j0 k0 i1 j1 k1 dx a v0 v1 v2 bc (fun _ _ _ => 1%Qc) B1 i k ltac:(k_near) ltac:(k_near)).
        apply ghost_low; [apply (kl_le rob); [apply Hs; lia|apply Hdx; lia|apply Qclt_le_weak, Hv1; clear - Ip B1; k_near]|now apply Qclt_le_weak]. }
    assert (Dn1 : (ext3 i0 j0 k0 i1 j1 k1 dx v0 v1 v2 bc (fun _ _ _ => 1%Qc) i (j - 1)%Z k <= (fun _ _ _ => 1%Qc) i j k)%Qc).
    { destruct (patch_dec3 i0 j0 k0 i1 j1 k1 i (j - 1)%Z k) as [Y|N].
      - rewrite (ext3_in i0 j0 k0 i1 j1 k1 dx a v0 v1 v2 bc (fun _ _ _ => 1%Qc)) by exact Y. apply Qcle_refl.
      - assert (j = j0) as -> by (clear - Ip N; k_near). rewrite (ext3_face2 i0 j0 k0 i1 j1 k1 dx a v0 v1 v2 bc (fun _ _ _ => 1%Qc) B1 i k ltac:(k_near) ltac:(k_near)).
        apply ghost_low; [apply (kl_le rob); [apply Hs; lia|apply Hdx; lia|apply Qclt_le_weak, Hv1; clear - Ip B1; k_near]|now apply Qclt_le_weak]. }
    assert (Up2 : (ext3 i0 j0 k0 i1 j1 k1 dx v0 v1 v2 bc (fun _ _ _ => 1%Qc) i j (k + 1)%Z <= (fun _ _ _ => 1%Qc) i j k)%Qc).
    { destruct (patch_dec3 i0 j0 k0 i1 j1 k1 i j (k + 1)%Z) as [Y|N].
      - rewrite (ext3_in i0 j0 k0 i1 j1 k1 dx a v0 v1 v2 bc (fun _ _ _ => 1%Qc)) by exact Y. apply Qcle_refl.
      - assert (k = k1) as -> by (clear - Ip N; k_near). rewrite (ext3_face5 i0 j0 k0 i1 j1 k1 dx a v0 v1 v2 bc (fun _ _ _ => 1%Qc) B2 i j ltac:(k_near) ltac:(k_near)).
        apply ghost_low; [apply (kl_le rob); [apply Hs; lia|apply Hdx; lia|apply Qclt_le_weak, Hv2; clear - Ip B2; k_near]|now apply Qclt_le_weak]. }
    assert (Dn2 : (ext3 i0 j0 k0 i1 j1 k1 dx v0 v1 v2 bc (fun _ _ _ => 1%Qc) i j (k - 1)%Z <= (fun _ _ _ => 1%Qc) i j k)%Qc).
    { destruct (patch_dec3 i0 j0 k0 i1 j1 k1 i j (k - 1)%Z) as [Y|N].
      - rewrite (ext3_in i0 j0 k0 i1 j1 k1 dx a v0 v1 v2 bc (fun _ _ _ => 1%Qc)) by exact Y. apply Qcle_refl.
      - assert (k = k0) as -> by (clear - Ip N; k_near). rewrite (ext3_face4 i0 j0 k0 i1 j1 k1 dx a v0 v1 v2 bc (fun _ _ _ => 1%Qc) B2 i j ltac:(k_near) ltac:(k_near)).
        apply ghost_low; [apply (kl_le rob); [apply Hs; lia|apply Hdx; lia|apply Qclt_le_weak, Hv2; clear - Ip B2; k_near]|now apply Qclt_le_weak]. }
    pose proof (dip beta (dx 0%Z) (v0 (i + 1)%Z j k) (v0 i j k) 1 _ _ Hb (Hdx 0 ltac:(lia)) (Qclt_le_weak _ _ (Hv0 (i + 1)%Z j k ltac:(k_near) ltac:(k_near) ltac:(k_near))) (Qclt_le_weak _ _ (Hv0 i j k ltac:(k_near) ltac:(k_near) ltac:(k_near))) Up0 Dn0) as D0.
    pose proof (dip beta (dx 1%Z) (v1 i (j + 1)%Z k) (v1 i j k) 1 _ _ Hb (Hdx 1 ltac:(lia)) (Qclt_le_weak _ _ (Hv1 i (j + 1)%Z k ltac:(k_near) ltac:(k_near) ltac:(k_near))) (Qclt_le_weak _ _ (Hv1 i j k ltac:(k_near) ltac:(k_near) ltac:(k_near))) Up1 Dn1) as D1.
    pose proof (dip beta (dx 2%Z) (v2 i j (k + 1)%Z) (v2 i j k) 1 _ _ Hb (Hdx 2 ltac:(lia)) (Qclt_le_weak _ _ (Hv2 i j (k + 1)%Z ltac:(k_near) ltac:(k_near) ltac:(k_near))) (Qclt_le_weak _ _ (Hv2 i j k ltac:(k_near) ltac:(k_near) ltac:(k_near))) Up2 Dn2) as D2.
    unfold op3. rewrite (ext3_in i0 j0 k0 i1 j1 k1 dx a v0 v1 v2 bc (fun _ _ _ => 1%Qc) i j k Ip). apply Qc_nonneg_sub.
    match goal with |- (0 <= ?t + a i j k * 1 - a i j k)%Qc => replace (t + a i j k * 1 - a i j k)%Qc with t by ring end.
    repeat apply Qc_add; assumption.
  Qed.

  Context (Hh : (exists f, 0 <= f < 6 /\ b_kind (bc f) <> 1) \/ (exists i j k, patch3 i0 j0 k0 i1 j1 k1 i j k /\ (0 < a i j k)%Qc)).

  Lemma below3 (w z : Z -> Z -> Z -> Qc) (M : Qc) : (0 <= M)%Qc ->
    (forall i j k, patch3 i0 j0 k0 i1 j1 k1 i j k -> (op3 dx beta a v0 v1 v2 (ext3 i0 j0 k0 i1 j1 k1 dx v0 v1 v2 bc w) i j k - op3 dx beta a v0 v1 v2 (ext3 i0 j0 k0 i1 j1 k1 dx v0 v1 v2 bc z) i j k <= M * a i j k)%Qc) ->
    forall i j k, patch3 i0 j0 k0 i1 j1 k1 i j k -> (w i j k - z i j k <= M)%Qc.
  Proof.
    intros HM H i j k Ip.
    set (e := fun i j k => (1 * (1 * w i j k + (- (1)) * z i j k) + (- M) * 1)%Qc).
    assert (E : (e i j k <= 0)%Qc).
    { apply (any3 i0 j0 k0 i1 j1 k1 dx beta a v0 v1 v2 bc rob Hb Hdx Ha Hv0 Hv1 Hv2 Hs Ro Hh e); [|exact Ip]. clear i j k Ip. intros i j k Ip. unfold e.
      rewrite (bvp3_lin i0 j0 k0 i1 j1 k1 dx beta a v0 v1 v2 bc 1 (- M) (fun i j k => 1 * w i j k + (- (1)) * z i j k)%Qc (fun _ _ _ => 1%Qc) i j k Ip), (bvp3_lin i0 j0 k0 i1 j1 k1 dx beta a v0 v1 v2 bc 1 (- (1)) w z i j k Ip).
      pose proof (H i j k Ip) as G. pose proof (Qcmult_le_compat_r _ _ M (one3 i j k Ip) HM) as O.
      apply (proj1 (Qcle_minus_iff _ _)) in G. apply (proj1 (Qcle_minus_iff _ _)) in O. apply (proj2 (Qcle_minus_iff _ _)).
      match goal with |- (0 <= ?g)%Qc => match type of G with (0 <= ?x)%Qc => match type of O with (0 <= ?y)%Qc => replace g with (x + y)%Qc by ring end end end.
      now apply Qc_add. }
    unfold e in E. apply (proj1 (Qcle_minus_iff _ _)) in E. apply (proj2 (Qcle_minus_iff _ _)).
    match goal with |- (0 <= ?g)%Qc => match type of E with (0 <= ?x)%Qc => replace g with x by ring end end. exact E.
  Qed.
End Bound3.

Section Arc3.
  Context (i0 j0 k0 i1 j1 k1 : Z) (dx : Z -> Qc) (beta : Qc) (bc : Z -> bcond QcS).
  Context (rob : bool) (Hb : (0 < beta)%Qc) (Hdx : forall d, 0 <= d < 3 -> (0 < dx d)%Qc).
  Context (Hs : forall f, 0 <= f < 6 -> sound rob (bc f)) (Ro : roomy 3 (ends3 i0 j0 k0) (ends3 i1 j1 k1) bc).

  Lemma arc3_0 : b_kind (bc 0) = 0 -> b_order (bc 0) = 1 -> b_kind (bc 1) = 0 -> b_order (bc 1) = 1 ->
    forall i j k, patch3 i0 j0 k0 i1 j1 k1 i j k -> (beta <= op3 dx beta (fun _ _ _ => 0%Qc) (fun _ _ _ => 1%Qc) (fun _ _ _ => 1%Qc) (fun _ _ _ => 1%Qc) (ext3 i0 j0 k0 i1 j1 k1 dx (fun _ _ _ => 1%Qc) (fun _ _ _ => 1%Qc) (fun _ _ _ => 1%Qc) bc (fun i _ _ => arc i0 i1 (dx 0%Z) i)) i j k)%Qc.
  Proof.
    intros K0 O0 K1 O1 i j k Ip.
    pose proof (roomy_le 3 (ends3 i0 j0 k0) (ends3 i1 j1 k1) bc Ro 0 ltac:(lia)) as B0. change (i0 <= i1) in B0.
    pose proof (roomy_le 3 (ends3 i0 j0 k0) (ends3 i1 j1 k1) bc Ro 1 ltac:(lia)) as B1. change (j0 <= j1) in B1.
    pose proof (roomy_le 3 (ends3 i0 j0 k0) (ends3 i1 j1 k1) bc Ro 2 ltac:(lia)) as B2. change (k0 <= k1) in B2.
    assert (Up0 : ext3 i0 j0 k0 i1 j1 k1 dx (fun _ _ _ => 1%Qc) (fun _ _ _ => 1%Qc) (fun _ _ _ => 1%Qc) bc (fun i _ _ => arc i0 i1 (dx 0%Z) i) (i + 1)%Z j k = arc i0 i1 (dx 0%Z) (i + 1)).
    { destruct (patch_dec3 i0 j0 k0 i1 j1 k1 (i + 1)%Z j k) as [Y|N]; [now rewrite (ext3_in i0 j0 k0 i1 j1 k1 dx (fun _ _ _ => 0%Qc) (fun _ _ _ => 1%Qc) (fun _ _ _ => 1%Qc) (fun _ _ _ => 1%Qc) bc (fun i _ _ => arc i0 i1 (dx 0%Z) i)) by exact Y|].
      assert (i = i1) as -> by (clear - Ip N; k_near). rewrite (ext3_face1 i0 j0 k0 i1 j1 k1 dx (fun _ _ _ => 0%Qc) (fun _ _ _ => 1%Qc) (fun _ _ _ => 1%Qc) (fun _ _ _ => 1%Qc) bc (fun i _ _ => arc i0 i1 (dx 0%Z) i) B0 j k ltac:(k_near) ltac:(k_near)), arc_hi. unfold kk, ll. rewrite K1, O1. cbn [Z.eqb Pos.eqb andb]. ring. }
    assert (Dn0 : ext3 i0 j0 k0 i1 j1 k1 dx (fun _ _ _ => 1%Qc) (fun _ _ _ => 1%Qc) (fun _ _ _ => 1%Qc) bc (fun i _ _ => arc i0 i1 (dx 0%Z) i) (i - 1)%Z j k = arc i0 i1 (dx 0%Z) (i - 1)).
    { destruct (patch_dec3 i0 j0 k0 i1 j1 k1 (i - 1)%Z j k) as [Y|N]; [now rewrite (ext3_in i0 j0 k0 i1 j1 k1 dx (fun _ _ _ => 0%Qc) (fun _ _ _ => 1%Qc) (fun _ _ _ => 1%Qc) (fun _ _ _ => 1%Qc) bc (fun i _ _ => arc i0 i1 (dx 0%Z) i)) by exact Y|].
      assert (i = i0) as -> by (clear - Ip N; k_near). rewrite (ext3_face0 i0 j0 k0 i1 j1 k1 dx (fun _ _ _ => 0%Qc) (fun _ _ _ => 1%Qc) (fun _ _ _ => 1%Qc) (fun _ _ _ => 1%Qc) bc (fun i _ _ => arc i0 i1 (dx 0%Z) i) B0 j k ltac:(k_near) ltac:(k_near)), arc_lo. unfold kk, ll. rewrite K0, O0. cbn [Z.eqb Pos.eqb andb]. ring. }
    assert (Up1 : (ext3 i0 j0 k0 i1 j1 k1 dx (fun _ _ _ => 1%Qc) (fun _ _ _ => 1%Qc) (fun _ _ _ => 1%Qc) bc (fun i _ _ => arc i0 i1 (dx 0%Z) i) i (j + 1)%Z k <= (fun i _ _ => arc i0 i1 (dx 0%Z) i) i j k)%Qc).
    { destruct (patch_dec3 i0 j0 k0 i1 j1 k1 i (j + 1)%Z k) as [Y|N].
      - rewrite (ext3_in i0 j0 k0 i1 j1 k1 dx (fun _ _ _ => 0%Qc) (fun _ _ _ => 1%Qc) (fun _ _ _ => 1%Qc) (fun _ _ _ => 1%Qc) bc (fun i _ _ => arc i0 i1 (dx 0%Z) i)) by exact Y. apply Qcle_refl.
      - assert (j = j1) as -> by (clear - Ip N; k_near). rewrite (ext3_face3 i0 j0 k0 i1 j1 k1 dx (fun _ _ _ => 0%Qc) (fun _ _ _ => 1%Qc) (fun _ _ _ => 1%Qc) (fun _ _ _ => 1%Qc) bc (fun i _ _ => arc i0 i1 (dx 0%Z) i) B1 i k ltac:(k_near) ltac:(k_near)).
        apply ghost_low; [apply (kl_le rob); [apply Hs; lia|apply Hdx; lia|now apply Qclt_le_weak]|apply arc_pos; clear - Ip; k_near]. }
    assert (Dn1 : (ext3 i0 j0 k0 i1 j1 k1 dx (fun _ _ _ => 1%Qc) (fun _ _ _ => 1%Qc) (fun _ _ _ => 1%Qc) bc (fun i _ _ => arc i0 i1 (dx 0%Z) i) i (j - 1)%Z k <= (fun i _ _ => arc i0 i1 (dx 0%Z) i) i j k)%Qc).
    { destruct (patch_dec3 i0 j0 k0 i1 j1 k1 i (j - 1)%Z k) as [Y|N].
      - rewrite (ext3_in i0 j0 k0 i1 j1 k1 dx (fun _ _ _ => 0%Qc) (fun _ _ _ => 1%Qc) (fun _ _ _ => 1%Qc) (fun _ _ _ => 1%Qc) bc (fun i _ _ => arc i0 i1 (dx 0%Z) i)) by exact Y. apply Qcle_refl.
      - assert (j = j0) as -> by (clear - Ip N; k_near). rewrite (ext3_face2 i0 j0 k0 i1 j1 k1 dx (fun _ _ _ => 0%Qc) (fun _ _ _ => 1%Qc) (fun _ _ _ => 1%Qc) (fun _ _ _ => 1%Qc) bc (fun i _ _ => arc i0 i1 (dx 0%Z) i) B1 i k ltac:(k_near) ltac:(k_near)).
        apply ghost_low; [apply (kl_le rob); [apply Hs; lia|apply Hdx; lia|now apply Qclt_le_weak]|apply arc_pos; clear - Ip; k_near]. }
    pose proof (dip beta (dx 1%Z) 1 1 (arc i0 i1 (dx 0%Z) i) _ _ Hb (Hdx 1 ltac:(lia)) (Qclt_le_weak 0 1 eq_refl) (Qclt_le_weak 0 1 eq_refl) Up1 Dn1) as D1.
    assert (Up2 : (ext3 i0 j0 k0 i1 j1 k1 dx (fun _ _ _ => 1%Qc) (fun _ _ _ => 1%Qc) (fun _ _ _ => 1%Qc) bc (fun i _ _ => arc i0 i1 (dx 0%Z) i) i j (k + 1)%Z <= (fun i _ _ => arc i0 i1 (dx 0%Z) i) i j k)%Qc).
    { destruct (patch_dec3 i0 j0 k0 i1 j1 k1 i j (k + 1)%Z) as [Y|N].
      - rewrite (ext3_in i0 j0 k0 i1 j1 k1 dx (fun _ _ _ => 0%Qc) (fun _ _ _ => 1%Qc) (fun _ _ _ => 1%Qc) (fun _ _ _ => 1%Qc) bc (fun i _ _ => arc i0 i1 (dx 0%Z) i)) by exact Y. apply Qcle_refl.
      - assert (k = k1) as -> by (clear - Ip N; k_near). rewrite (ext3_face5 i0 j0 k0 i1 j1 k1 dx (fun _ _ _ => 0%Qc) (fun _ _ _ => 1%Qc) (fun _ _ _ => 1%Qc) (fun _ _ _ => 1%Qc) bc (fun i _ _ => arc i0 i1 (dx 0%Z) i) B2 i j ltac:(k_near) ltac:(k_near)).
        apply ghost_low; [apply (kl_le rob); [apply Hs; lia|apply Hdx; lia|now apply Qclt_le_weak]|apply arc_pos; clear - Ip; k_near]. }
    assert (Dn2 : (ext3 i0 j0 k0 i1 j1 k1 dx (fun _ _ _ => 1%Qc) (fun _ _ _ => 1%Qc) (fun _ _ _ => 1%Qc) bc (fun i _ _ => arc i0 i1 (dx 0%Z) i) i j (k - 1)%Z <= (fun i _ _ => arc i0 i1 (dx 0%Z) i) i j k)%Qc).
    { destruct (patch_dec3 i0 j0 k0 i1 j1 k1 i j (k - 1)%Z) as [Y|N].
      - rewrite (ext3_in i0 j0 k0 i1 j1 k1 dx (fun _ _ _ => 0%Qc) (fun _ _ _ => 1%Qc) (fun _ _ _ => 1%Qc) (fun _ _ _ => 1%Qc) bc (fun i _ _ => arc i0 i1 (dx 0%Z) i)) by exact Y. apply Qcle_refl.
      - assert (k = k0) as -> by (clear - Ip N; k_near). rewrite (ext3_face4 i0 j0 k0 i1 j1 k1 dx (fun _ _ _ => 0%Qc) (fun _ _ _ => 1%Qc) (fun _ _ _ => 1%Qc) (fun _ _ _ => 1%Qc) bc (fun i _ _ => arc i0 i1 (dx 0%Z) i) B2 i j ltac:(k_near) ltac:(k_near)).
        apply ghost_low; [apply (kl_le rob); [apply Hs; lia|apply Hdx; lia|now apply Qclt_le_weak]|apply arc_pos; clear - Ip; k_near]. }
    pose proof (dip beta (dx 2%Z) 1 1 (arc i0 i1 (dx 0%Z) i) _ _ Hb (Hdx 2 ltac:(lia)) (Qclt_le_weak 0 1 eq_refl) (Qclt_le_weak 0 1 eq_refl) Up2 Dn2) as D2.
    unfold op3. rewrite Up0, Dn0, (ext3_in i0 j0 k0 i1 j1 k1 dx (fun _ _ _ => 0%Qc) (fun _ _ _ => 1%Qc) (fun _ _ _ => 1%Qc) (fun _ _ _ => 1%Qc) bc (fun i _ _ => arc i0 i1 (dx 0%Z) i) i j k Ip).
    rewrite (arc_step i0 i1 (dx 0%Z) i (Qc_ne_0 _ (Hdx 0 ltac:(lia)))).
    apply (proj2 (Qcle_minus_iff _ _)).
    match goal with |- (0 <= ?g)%Qc => match type of D1 with (0 <= ?x1)%Qc => match type of D2 with (0 <= ?x2)%Qc => replace g with (x1 + x2)%Qc by ring end end end. apply Qc_add; assumption.
  Qed.

  Lemma within3_0 (w z : Z -> Z -> Z -> Qc) (M : Qc) : b_kind (bc 0) = 0 -> b_order (bc 0) = 1 -> b_kind (bc 1) = 0 -> b_order (bc 1) = 1 -> (0 <= M)%Qc ->
    (forall i j k, patch3 i0 j0 k0 i1 j1 k1 i j k -> (op3 dx beta (fun _ _ _ => 0%Qc) (fun _ _ _ => 1%Qc) (fun _ _ _ => 1%Qc) (fun _ _ _ => 1%Qc) (ext3 i0 j0 k0 i1 j1 k1 dx (fun _ _ _ => 1%Qc) (fun _ _ _ => 1%Qc) (fun _ _ _ => 1%Qc) bc w) i j k - op3 dx beta (fun _ _ _ => 0%Qc) (fun _ _ _ => 1%Qc) (fun _ _ _ => 1%Qc) (fun _ _ _ => 1%Qc) (ext3 i0 j0 k0 i1 j1 k1 dx (fun _ _ _ => 1%Qc) (fun _ _ _ => 1%Qc) (fun _ _ _ => 1%Qc) bc z) i j k <= M)%Qc) ->
    forall i j k, patch3 i0 j0 k0 i1 j1 k1 i j k -> (w i j k - z i j k <= M / beta * reach (i1 - i0 + 1) (dx 0%Z))%Qc.
  Proof.
    intros K0 O0 K1 O1 HM H i j k Ip.
    assert (HMb : (0 <= M / beta)%Qc) by (apply Qc_mul; [exact HM|now apply Qclt_le_weak, Qc_inv_pos]).
    assert (An : exists f, 0 <= f < 6 /\ b_kind (bc f) <> 1) by (exists 0; split; [lia|rewrite K0; discriminate]).
    set (g := (fun i _ _ => arc i0 i1 (dx 0%Z) i) : Z -> Z -> Z -> Qc).
    set (e := fun i j k => (1 * (1 * w i j k + (- (1)) * z i j k) + (- (M / beta)) * g i j k)%Qc).
    assert (E : (e i j k <= 0)%Qc).
    { apply (any3 i0 j0 k0 i1 j1 k1 dx beta (fun _ _ _ => 0%Qc) (fun _ _ _ => 1%Qc) (fun _ _ _ => 1%Qc) (fun _ _ _ => 1%Qc) bc rob Hb Hdx (fun _ _ _ _ => Qcle_refl 0%Qc) (fun _ _ _ _ _ _ => eq_refl : (0 < 1)%Qc) (fun _ _ _ _ _ _ => eq_refl : (0 < 1)%Qc) (fun _ _ _ _ _ _ => eq_refl : (0 < 1)%Qc) Hs Ro (or_introl An) e); [|exact Ip]. clear i j k Ip. intros i j k Ip. unfold e.
      rewrite (bvp3_lin i0 j0 k0 i1 j1 k1 dx beta (fun _ _ _ => 0%Qc) (fun _ _ _ => 1%Qc) (fun _ _ _ => 1%Qc) (fun _ _ _ => 1%Qc) bc 1 (- (M / beta)) (fun i j k => 1 * w i j k + (- (1)) * z i j k)%Qc g i j k Ip), (bvp3_lin i0 j0 k0 i1 j1 k1 dx beta (fun _ _ _ => 0%Qc) (fun _ _ _ => 1%Qc) (fun _ _ _ => 1%Qc) (fun _ _ _ => 1%Qc) bc 1 (- (1)) w z i j k Ip).
      pose proof (H i j k Ip) as G. pose proof (Qcmult_le_compat_r _ _ (M / beta) (arc3_0 K0 O0 K1 O1 i j k Ip) HMb) as O. fold g in O.
      replace (beta * (M / beta))%Qc with M in O by (field; now apply Qc_ne_0).
      apply (proj1 (Qcle_minus_iff _ _)) in G. apply (proj1 (Qcle_minus_iff _ _)) in O. apply (proj2 (Qcle_minus_iff _ _)).
      match goal with |- (0 <= ?g)%Qc => match type of G with (0 <= ?x)%Qc => match type of O with (0 <= ?y)%Qc => replace g with (x + y)%Qc by ring end end end.
      now apply Qc_add. }
    apply Qcle_trans with (M / beta * g i j k)%Qc.
    - unfold e in E. apply (proj1 (Qcle_minus_iff _ _)) in E. apply (proj2 (Qcle_minus_iff _ _)).
      match goal with |- (0 <= ?g)%Qc => match type of E with (0 <= ?x)%Qc => replace g with x by ring end end. exact E.
    - rewrite !(Qcmult_comm (M / beta)). apply Qcmult_le_compat_r; [|exact HMb]. unfold g, reach. apply arc_max. clear - Ip. k_near.
  Qed.

  Lemma arc3_1 : b_kind (bc 2) = 0 -> b_order (bc 2) = 1 -> b_kind (bc 3) = 0 -> b_order (bc 3) = 1 ->
    forall i j k, patch3 i0 j0 k0 i1 j1 k1 i j k -> (beta <= op3 dx beta (fun _ _ _ => 0%Qc) (fun _ _ _ => 1%Qc) (fun _ _ _ => 1%Qc) (fun _ _ _ => 1%Qc) (ext3 i0 j0 k0 i1 j1 k1 dx (fun _ _ _ => 1%Qc) (fun _ _ _ => 1%Qc) (fun _ _ _ => 1%Qc) bc (fun _ j _ => arc j0 j1 (dx 1%Z) j)) i j k)%Qc.
  Proof.
    intros K0 O0 K1 O1 i j k Ip.
    pose proof (roomy_le 3 (ends3 i0 j0 k0) (ends3 i1 j1 k1) bc Ro 0 ltac:(lia)) as B0. change (i0 <= i1) in B0.
    pose proof (roomy_le 3 (ends3 i0 j0 k0) (ends3 i1 j1 k1) bc Ro 1 ltac:(lia)) as B1. change (j0 <= j1) in B1.
    pose proof (roomy_le 3 (ends3 i0 j0 k0) (ends3 i1 j1 k1) bc Ro 2 ltac:(lia)) as B2. change (k0 <= k1) in B2.
    assert (Up1 : ext3 i0 j0 k0 i1 j1 k1 dx (fun _ _ _ => 1%Qc) (fun _ _ _ => 1%Qc) (fun _ _ _ => 1%Qc) bc (fun _ j _ => arc j0 j1 (dx 1%Z) j) i (j + 1)%Z k = arc j0 j1 (dx 1%Z) (j + 1)).
    { destruct (patch_dec3 i0 j0 k0 i1 j1 k1 i (j + 1)%Z k) as [Y|N]; [now rewrite (ext3_in i0 j0 k0 i1 j1 k1 dx (fun _ _ _ => 0%Qc) (fun _ _ _ => 1%Qc) (fun _ _ _ => 1%Qc) (fun _ _ _ => 1%Qc) bc (fun _ j _ => arc j0 j1 (dx 1%Z) j)) by exact Y|].
      assert (j = j1) as -> by (clear - Ip N; k_near). rewrite (ext3_face3 i0 j0 k0 i1 j1 k1 dx (fun _ _ _ => 0%Qc) (fun _ _ _ => 1%Qc) (fun _ _ _ => 1%Qc) (fun _ _ _ => 1%Qc) bc (fun _ j _ => arc j0 j1 (dx 1%Z) j) B1 i k ltac:(k_near) ltac:(k_near)), arc_hi. unfold kk, ll. rewrite K1, O1. cbn [Z.eqb Pos.eqb andb]. ring. }
    assert (Dn1 : ext3 i0 j0 k0 i1 j1 k1 dx (fun _ _ _ => 1%Qc) (fun _ _ _ => 1%Qc) (fun _ _ _ => 1%Qc) bc (fun _ j _ => arc j0 j1 (dx 1%Z) j) i (j - 1)%Z k = arc j0 j1 (dx 1%Z) (j - 1)).
    { destruct (patch_dec3 i0 j0 k0 i1 j1 k1 i (j - 1)%Z k) as [Y|N]; [now rewrite (ext3_in i0 j0 k0 i1 j1 k1 dx (fun _ _ _ => 0%Qc) (fun _ _ _ => 1%Qc) (fun _ _ _ => 1%Qc) (fun _ _ _ => 1%Qc) bc (fun _ j _ => arc j0 j1 (dx 1%Z) j)) by exact Y|].
      assert (j = j0) as -> by (clear - Ip N; k_near). rewrite (ext3_face2 i0 j0 k0 i1 j1 k1 dx (fun _ _ _ => 0%Qc) (fun _ _ _ => 1%Qc) (fun _ _ _ => 1%Qc) (fun _ _ _ => 1%Qc) bc (fun _ j _ => arc j0 j1 (dx 1%Z) j) B1 i k ltac:(k_near) ltac:(k_near)), arc_lo. unfold kk, ll. rewrite K0, O0. cbn [Z.eqb Pos.eqb andb]. ring. }
    assert (Up0 : (ext3 i0 j0 k0 i1 j1 k1 dx (fun _ _ _ => 1%Qc) (fun _ _ _ => 1%Qc) (fun _ _ _ => 1%Qc) bc (fun _ j _ => arc j0 j1 (dx 1%Z) j) (i + 1)%Z j k <= (fun _ j _ => arc j0 j1 (dx 1%Z) j) i j k)%Qc).
    { destruct (patch_dec3 i0 j0 k0 i1 j1 k1 (i + 1)%Z j k) as [Y|N].
      - rewrite (ext3_in i0 j0 k0 i1 j1 k1 dx (fun _ _ _ => 0%Qc) (fun _ _ _ => 1%Qc) (fun _ _ _ => 1%Qc) (fun _ _ _ => 1%Qc) bc (fun _ j _ => arc j0 j1 (dx 1%Z) j)) by exact Y. apply Qcle_refl.
      - assert (i = i1) as -> by (clear - Ip N; k_near). rewrite (ext3_face1 i0 j0 k0 i1 j1 k1 dx (fun _ _ _ => 0%Qc) (fun _ _ _ => 1%Qc) (fun _ _ _ => 1%Qc) (fun _ _ _ => 1%Qc) bc (fun _ j _ => arc j0 j1 (dx 1%Z) j) B0 j k ltac:(k_near) ltac:(k_near)).
        apply ghost_low; [apply (kl_le rob); [apply Hs; lia|apply Hdx; lia|now apply Qclt_le_weak]|apply arc_pos; clear - Ip; k_near]. }
    assert (Dn0 : (ext3 i0 j0 k0 i1 j1 k1 dx (fun _ _ _ => 1%Qc) (fun _ _ _ => 1%Qc) (fun _ _ _ => 1%Qc) bc (fun _ j _ => arc j0 j1 (dx 1%Z) j) (i - 1)%Z j k <= (fun _ j _ => arc j0 j1 (dx 1%Z) j) i j k)%Qc).
    { destruct (patch_dec3 i0 j0 k0 i1 j1 k1 (i - 1)%Z j k) as [Y|N].
      - rewrite (ext3_in i0 j0 k0 i1 j1 k1 dx (fun _ _ _ => 0%Qc) (fun _ _ _ => 1%Qc) (fun _ _ _ => 1%Qc) (fun _ _ _ => 1%Qc) bc (fun _ j _ => arc j0 j1 (dx 1%Z) j)) by exact Y. apply Qcle_refl.
      - assert (i = i0) as -> by (clear - Ip N; k_near). rewrite (ext3_face0 i0 j0 k0 i1 j1 k1 dx (fun _ _ _ => 0%Qc) (fun _ _ _ => 1%Qc) (fun _ _ _ => 1%Qc) (fun _ _ _ => 1%Qc) bc (fun _ j _ => arc j0 j1 (dx 1%Z) j) B0 j k ltac:(k_near) ltac:(k_near)).
        apply ghost_low; [apply (kl_le rob); [apply Hs; lia|apply Hdx; lia|now apply Qclt_le_weak]|apply arc_pos; clear - Ip; k_near]. }
    pose proof (dip beta (dx 0%Z) 1 1 (arc j0 j1 (dx 1%Z) j) _ _ Hb (Hdx 0 ltac:(lia)) (Qclt_le_weak 0 1 eq_refl) (Qclt_le_weak 0 1 eq_refl) Up0 Dn0) as D0.
    assert (Up2 : (ext3 i0 j0 k0 i1 j1 k1 dx (fun _ _ _ => 1%Qc) (fun _ _ _ => 1%Qc) (fun _ _ _ => 1%Qc) bc (fun _ j _ => arc j0 j1 (dx 1%Z) j) i j (k + 1)%Z <= (fun _ j _ => arc j0 j1 (dx 1%Z) j) i j k)%Qc).
    { destruct (patch_dec3 i0 j0 k0 i1 j1 k1 i j (k + 1)%Z) as [Y|N].
      - rewrite (ext3_in i0 j0 k0 i1 j1 k1 dx (fun _ _ _ => 0%Qc) (fun _ _ _ => 1%Qc) (fun _ _ _ => 1%Qc) (fun _ _ _ => 1%Qc) bc (fun _ j _ => arc j0 j1 (dx 1%Z) j)) by exact Y. apply Qcle_refl.
      - assert (k = k1) as -> by (clear - Ip N; k_near). rewrite (ext3_face5 i0 j0 k0 i1 j1 k1 dx (fun _ _ _ => 0%Qc) (fun _ _ _ => 1%Qc) (fun _ _ _ => 1%Qc) (fun _ _ _ => 1%Qc) bc (fun _ j _ => arc j0 j1 (dx 1%Z) j) B2 i j ltac:(k_near) ltac:(k_near)).
        apply ghost_low; [apply (kl_le rob); [apply Hs; lia|apply Hdx; lia|now apply Qclt_le_weak]|apply arc_pos; clear - Ip; k_near]. }
    assert (Dn2 : (ext3 i0 j0 k0 i1 j1 k1 dx (fun _ _ _ => 1%Qc) (fun _ _ _ => 1%Qc) (fun _ _ _ => 1%Qc) bc (fun _ j _ => arc j0 j1 (dx 1%Z) j) i j (k - 1)%Z <= (fun _ j _ => arc j0 j1 (dx 1%Z) j) i j k)%Qc).
    { destruct (patch_dec3 i0 j0 k0 i1 j1 k1 i j (k - 1)%Z) as [Y|N].
      - rewrite (ext3_in i0 j0 k0 i1 j1 k1 dx (fun _ _ _ => 0%Qc) (fun _ _ _ => 1%Qc) (fun _ _ _ => 1%Qc) (fun _ _ _ => 1%Qc) bc (fun _ j _ => arc j0 j1 (dx 1%Z) j)) by exact Y. apply Qcle_refl.
      - assert (k = k0) as -> by (clear - Ip N; k_near). rewrite (ext3_face4 i0 j0 k0 i1 j1 k1 dx (fun _ _ _ => 0%Qc) (fun _ _ _ => 1%Qc) (fun _ _ _ => 1%Qc) (fun _ _ _ => 1%Qc) bc (fun _ j _ => arc j0 j1 (dx 1%Z) j) B2 i j ltac:(k_near) ltac:(k_near)).
        apply ghost_low; [apply (kl_le rob); [apply Hs; lia|apply Hdx; lia|now apply Qclt_le_weak]|apply arc_pos; clear - Ip; k_near]. }
    pose proof (dip beta (dx 2%Z) 1 1 (arc j0 j1 (dx 1%Z) j) _ _ Hb (Hdx 2 ltac:(lia)) (Qclt_le_weak 0 1 eq_refl) (Qclt_le_weak 0 1 eq_refl) Up2 Dn2) as D2.
    unfold op3. rewrite Up1, Dn1, (ext3_in i0 j0 k0 i1 j1 k1 dx (fun _ _ _ => 0%Qc) (fun _ _ _ => 1%Qc) (fun _ _ _ => 1%Qc) (fun _ _ _ => 1%Qc) bc (fun _ j _ => arc j0 j1 (dx 1%Z) j) i j k Ip).
    rewrite (arc_step j0 j1 (dx 1%Z) j (Qc_ne_0 _ (Hdx 1 ltac:(lia)))).
    apply (proj2 (Qcle_minus_iff _ _)).
    match goal with |- (0 <= ?g)%Qc => match type of D0 with (0 <= ?x0)%Qc => match type of D2 with (0 <= ?x2)%Qc => replace g with (x0 + x2)%Qc by ring end end end. apply Qc_add; assumption.
  Qed.

  Lemma within3_1 (w z : Z -> Z -> Z -> Qc) (M : Qc) : b_kind (bc 2) = 0 -> b_order (bc 2) = 1 -> b_kind (bc 3) = 0 -> b_order (bc 3) = 1 -> (0 <= M)%Qc ->
    (forall i j k, patch3 i0 j0 k0 i1 j1 k1 i j k -> (op3 dx beta (fun _ _ _ => 0%Qc) (fun _ _ _ => 1%Qc) (fun _ _ _ => 1%Qc) (fun _ _ _ => 1%Qc) (ext3 i0 j0 k0 i1 j1 k1 dx (fun _ _ _ => 1%Qc) (fun _ _ _ => 1%Qc) (fun _ _ _ => 1%Qc) bc w) i j k - op3 dx beta (fun _ _ _ => 0%Qc) (fun _ _ _ => 1%Qc) (fun _ _ _ => 1%Qc) (fun _ _ _ => 1%Qc) (ext3 i0 j0 k0 i1 j1 k1 dx (fun _ _ _ => 1%Qc) (fun _ _ _ => 1%Qc) (fun _ _ _ => 1%Qc) bc z) i j k <= M)%Qc) ->
    forall i j k, patch3 i0 j0 k0 i1 j1 k1 i j k -> (w i j k - z i j k <= M / beta * reach (j1 - j0 + 1) (dx 1%Z))%Qc.
  Proof.
    intros K0 O0 K1 O1 HM H i j k Ip.
    assert (HMb : (0 <= M / beta)%Qc) by (apply Qc_mul; [exact HM|now apply Qclt_le_weak, Qc_inv_pos]).
    assert (An : exists f, 0 <= f < 6 /\ b_kind (bc f) <> 1) by (exists 2; split; [lia|rewrite K0; discriminate]).
    set (g := (fun _ j _ => arc j0 j1 (dx 1%Z) j) : Z -> Z -> Z -> Qc).
    set (e := fun i j k => (1 * (1 * w i j k + (- (1)) * z i j k) + (- (M / beta)) * g i j k)%Qc).
    assert (E : (e i j k <= 0)%Qc).
    { apply (any3 i0 j0 k0 i1 j1 k1 dx beta (fun _ _ _ => 0%Qc) (fun _ _ _ => 1%Qc) (fun _ _ _ => 1%Qc) (fun _ _ _ => 1%Qc) bc rob Hb Hdx (fun _ _ _ _ => Qcle_refl 0%Qc) (fun _ _ _ _ _ _ => eq_refl : (0 < 1)%Qc) (fun _ _ _ _ _ _ => eq_refl : (0 < 1)%Qc) (fun _ _ _ _ _ _ => eq_refl : (0 < 1)%Qc) Hs Ro (or_introl An) e); [|exact Ip]. clear i j k Ip. intros i j k Ip. unfold e.
      rewrite (bvp3_lin i0 j0 k0 i1 j1 k1 dx beta (fun _ _ _ => 0%Qc) (fun _ _ _ => 1%Qc) (fun _ _ _ => 1%Qc) (fun _ _ _ => 1%Qc) bc 1 (- (M / beta)) (fun i j k => 1 * w i j k + (- (1)) * z i j k)%Qc g i j k Ip), (bvp3_lin i0 j0 k0 i1 j1 k1 dx beta (fun _ _ _ => 0%Qc) (fun _ _ _ => 1%Qc) (fun _ _ _ => 1%Qc) (fun _ _ _ => 1%Qc) bc 1 (- (1)) w z i j k Ip).
      pose proof (H i j k Ip) as G. pose proof (Qcmult_le_compat_r _ _ (M / beta) (arc3_1 K0 O0 K1 O1 i j k Ip) HMb) as O. fold g in O.
      replace (beta * (M / beta))%Qc with M in O by (field; now apply Qc_ne_0).
      apply (proj1 (Qcle_minus_iff _ _)) in G. apply (proj1 (Qcle_minus_iff _ _)) in O. apply (proj2 (Qcle_minus_iff _ _)).
      match goal with |- (0 <= ?g)%Qc => match type of G with (0 <= ?x)%Qc => match type of O with (0 <= ?y)%Qc => replace g with (x + y)%Qc by ring end end end.
      now apply Qc_add. }
    apply Qcle_trans with (M / beta * g i j k)%Qc.
    - unfold e in E. apply (proj1 (Qcle_minus_iff _ _)) in E. apply (proj2 (Qcle_minus_iff _ _)).
      match goal with |- (0 <= ?g)%Qc => match type of E with (0 <= ?x)%Qc => replace g with x by ring end end. exact E.
    - rewrite !(Qcmult_comm (M / beta)). apply Qcmult_le_compat_r; [|exact HMb]. unfold g, reach. apply arc_max. clear - Ip. k_near.
  Qed.

  Lemma arc3_2 : b_kind (bc 4) = 0 -> b_order (bc 4) = 1 -> b_kind (bc 5) = 0 -> b_order (bc 5) = 1 ->
    forall i j k, patch3 i0 j0 k0 i1 j1 k1 i j k -> (beta <= op3 dx beta (fun _ _ _ => 0%Qc) (fun _ _ _ => 1%Qc) (fun _ _ _ => 1%Qc) (fun _ _ _ => 1%Qc) (ext3 i0 j0 k0 i1 j1 k1 dx (fun _ _ _ => 1%Qc) (fun _ _ _ => 1%Qc) (fun _ _ _ => 1%Qc) bc (fun _ _ k => arc k0 k1 (dx 2%Z) k)) i j k)%Qc.
  Proof.
    intros K0 O0 K1 O1 i j k Ip.
    pose proof (roomy_le 3 (ends3 i0 j0 k0) (ends3 i1 j1 k1) bc Ro 0 ltac:(lia)) as B0. change (i0 <= i1) in B0.
    pose proof (roomy_le 3 (ends3 i0 j0 k0) (ends3 i1 j1 k1) bc Ro 1 ltac:(lia)) as B1. change (j0 <= j1) in B1.
    pose proof (roomy_le 3 (ends3 i0 j0 k0) (ends3 i1 j1 k1) bc Ro 2 ltac:(lia)) as B2. change (k0 <= k1) in B2.
    assert (Up2 : ext3 i0 j0 k0 i1 j1 k1 dx (fun _ _ _ => 1%Qc) (fun _ _ _ => 1%Qc) (fun _ _ _ => 1%Qc) bc (fun _ _ k => arc k0 k1 (dx 2%Z) k) i j (k + 1)%Z = arc k0 k1 (dx 2%Z) (k + 1)).
    { destruct (patch_dec3 i0 j0 k0 i1 j1 k1 i j (k + 1)%Z) as [Y|N]; [now rewrite (ext3_in i0 j0 k0 i1 j1 k1 dx (fun _ _ _ => 0%Qc) (fun _ _ _ => 1%Qc) (fun _ _ _ => 1%Qc) (fun _ _ _ => 1%Qc) bc (fun _ _ k => arc k0 k1 (dx 2%Z) k)) by exact Y|].
      assert (k = k1) as -> by (clear - Ip N; k_near). rewrite (ext3_face5 i0 j0 k0 i1 j1 k1 dx (fun _ _ _ => 0%Qc) (fun _ _ _ => 1%Qc) (fun _ _ _ => 1%Qc) (fun _ _ _ => 1%Qc) bc (fun _ _ k => arc k0 k1 (dx 2%Z) k) B2 i j ltac:(k_near) ltac:(k_near)), arc_hi. unfold kk, ll. rewrite K1, O1. cbn [Z.eqb Pos.eqb andb]. ring. }
    assert (Dn2 : ext3 i0 j0 k0 i1 j1 k1 dx (fun _ _ _ => 1%Qc) (fun _ _ _ => 1%Qc) (fun _ _ _ => 1%Qc) bc (fun _ _ k => arc k0 k1 (dx 2%Z) k) i j (k - 1)%Z = arc k0 k1 (dx 2%Z) (k - 1)).
    { destruct (patch_dec3 i0 j0 k0 i1 j1 k1 i j (k - 1)%Z) as [Y|N]; [now rewrite (ext3_in i0 j0 k0 i1 j1 k1 dx (fun _ _ _ => 0%Qc) (fun _ _ _ => 1%Qc) (fun _ _ _ => 1%Qc) (fun _ _ _ => 1%Qc) bc (fun _ _ k => arc k0 k1 (dx 2%Z) k)) by exact Y|].
      assert (k = k0) as -> by (clear - Ip N; k_near). rewrite (ext3_face4 i0 j0 k0 i1 j1 k1 dx (fun _ _ _ => 0%Qc) (fun _ _ _ => 1%Qc) (fun _ _ _ => 1%Qc) (fun _ _ _ => 1%Qc) bc (fun _ _ k => arc k0 k1 (dx 2%Z) k) B2 i j ltac:(k_near) ltac:(k_near)), arc_lo. unfold kk, ll. rewrite K0, O0. cbn [Z.eqb Pos.eqb andb]. ring. }
    assert (Up0 : (ext3 i0 j0 k0 i1 j1 k1 dx (fun _ _ _ => 1%Qc) (fun _ _ _ => 1%Qc) (fun _ _ _ => 1%Qc) bc (fun _ _ k => arc k0 k1 (dx 2%Z) k) (i + 1)%Z j k <= (fun _ _ k => arc k0 k1 (dx 2%Z) k) i j k)%Qc).
    { destruct (patch_dec3 i0 j0 k0 i1 j1 k1 (i + 1)%Z j k) as [Y|N].
      - rewrite (ext3_in i0 j0 k0 i1 j1 k1 dx (fun _ _ _ => 0%Qc) (fun _ _ _ => 1%Qc) (fun _ _ _ => 1%Qc) (fun _ _ _ => 1%Qc) bc (fun _ _ k => arc k0 k1 (dx 2%Z) k)) by exact Y. apply Qcle_refl.
      - assert (i = i1) as -> by (clear - Ip N; k_near). rewrite (ext3_face1 i0 j0 k0 i1 j1 k1 dx (fun _ _ _ => 0%Qc) (fun _ _ _ => 1%Qc) (fun _ _ _ => 1%Qc) (fun _ _ _ => 1%Qc) bc (fun _ _ k => arc k0 k1 (dx 2%Z) k) B0 j k ltac:(k_near) ltac:(k_near)).
        apply ghost_low; [apply (kl_le rob); [apply Hs; lia|apply Hdx; lia|now apply Qclt_le_weak]|apply arc_pos; clear - Ip; k_near]. }
    assert (Dn0 : (ext3 i0 j0 k0 i1 j1 k1 dx (fun _ _ _ => 1%Qc) (fun _ _ _ => 1%Qc) (fun _ _ _ => 1%Qc) bc (fun _ _ k => arc k0 k1 (dx 2%Z) k) (i - 1)%Z j k <= (fun _ _ k => arc k0 k1 (dx 2%Z) k) i j k)%Qc).
    { destruct (patch_dec3 i0 j0 k0 i1 j1 k1 (i - 1)%Z j k) as [Y|N].
      - rewrite (ext3_in i0 j0 k0 i1 j1 k1 dx (fun _ _ _ => 0%Qc) (fun _ _ _ => 1%Qc) (fun _ _ _ => 1%Qc) (fun _ _ _ => 1%Qc) bc (fun _ _ k => arc k0 k1 (dx 2%Z) k)) by exact Y. apply Qcle_refl.
      - assert (i = i0) as -> by (clear - Ip N; k_near). rewrite (ext3_face0 i0 j0 k0 i1 j1 k1 dx (fun _ _ _ => 0%Qc) (fun _ _ _ => 1%Qc) (fun _ _ _ => 1%Qc) (fun _ _ _ => 1%Qc) bc (fun _ _ k => arc k0 k1 (dx 2%Z) k) B0 j k ltac:(k_near) ltac:(k_near)).
        apply ghost_low; [apply (kl_le rob); [apply Hs; lia|apply Hdx; lia|now apply Qclt_le_weak]|apply arc_pos; clear - Ip; k_near]. }
    pose proof (dip beta (dx 0%Z) 1 1 (arc k0 k1 (dx 2%Z) k) _ _ Hb (Hdx 0 ltac:(lia)) (Qclt_le_weak 0 1 eq_refl) (Qclt_le_weak 0 1 eq_refl) Up0 Dn0) as D0.
    assert (Up1 : (ext3 i0 j0 k0 i1 j1 k1 dx (fun _ _ _ => 1%Qc) (fun _ _ _ => 1%Qc) (fun _ _ _ => 1%Qc) bc (fun _ _ k => arc k0 k1 (dx 2%Z) k) i (j + 1)%Z k <= (fun _ _ k => arc k0 k1 (dx 2%Z) k) i j k)%Qc).
    { destruct (patch_dec3 i0 j0 k0 i1 j1 k1 i (j + 1)%Z k) as [Y|N].
      - rewrite (ext3_in i0 j0 k0 i1 j1 k1 dx (fun _ _ _ => 0%Qc) (fun _ _ _ => 1%Qc) (fun _ _ _ => 1%Qc) (fun _ _ _ => 1%Qc) bc (fun _ _ k => arc k0 k1 (dx 2%Z) k)) by exact Y. apply Qcle_refl.
      - assert (j = j1) as -> by (clear - Ip N; k_near). rewrite (ext3_face3 i0 j0 k0 i1 j1 k1 dx (fun _ _ _ => 0%Qc) (fun _ _ _ => 1%Qc) (fun _ _ _ => 1%Qc) (fun _ _ _ => 1%Qc) bc (fun _ _ k => arc k0 k1 (dx 2%Z) k) B1 i k ltac:(k_near) ltac:(k_near)).
        apply ghost_low; [apply (kl_le rob); [apply Hs; lia|apply Hdx; lia|now apply Qclt_le_weak]|apply arc_pos; clear - Ip; k_near]. }
    assert (Dn1 : (ext3 i0 j0 k0 i1 j1 k1 dx (fun _ _ _ => 1%Qc) (fun _ _ _ => 1%Qc) (fun _ _ _ => 1%Qc) bc (fun _ _ k => arc k0 k1 (dx 2%Z) k) i (j - 1)%Z k <= (fun _ _ k => arc k0 k1 (dx 2%Z) k) i j k)%Qc).
    { destruct (patch_dec3 i0 j0 k0 i1 j1 k1 i (j - 1)%Z k) as [Y|N].
      - rewrite (ext3_in i0 j0 k0 i1 j1 k1 dx (fun _ _ _ => 0%Qc) (fun _ _ _ => 1%Qc) (fun _ _ _ => 1%Qc) (fun _ _ _ => 1%Qc) bc (fun _ _ k => arc k0 k1 (dx 2%Z) k)) by exact Y. apply Qcle_refl.
      - assert (j = j0) as -> by (clear - Ip N; k_near). rewrite (ext3_face2 i0 j0 k0 i1 j1 k1 dx (fun _ _ _ => 0%Qc) (fun _ _ _ => 1%Qc) (fun _ _ _ => 1%Qc) (fun _ _ _ => 1%Qc) bc (fun _ _ k => arc k0 k1 (dx 2%Z) k) B1 i k ltac:(k_near) ltac:(k_near)).
        apply ghost_low; [apply (kl_le rob); [apply Hs; lia|apply Hdx; lia|now apply Qclt_le_weak]|apply arc_pos; clear - Ip; k_near]. }
    pose proof (dip beta (dx 1%Z) 1 1 (arc k0 k1 (dx 2%Z) k) _ _ Hb (Hdx 1 ltac:(lia)) (Qclt_le_weak 0 1 eq_refl) (Qclt_le_weak 0 1 eq_refl) Up1 Dn1) as D1.
    unfold op3. rewrite Up2, Dn2, (ext3_in i0 j0 k0 i1 j1 k1 dx (fun _ _ _ => 0%Qc) (fun _ _ _ => 1%Qc) (fun _ _ _ => 1%Qc) (fun _ _ _ => 1%Qc) bc (fun _ _ k => arc k0 k1 (dx 2%Z) k) i j k Ip).
    rewrite (arc_step k0 k1 (dx 2%Z) k (Qc_ne_0 _ (Hdx 2 ltac:(lia)))).
    apply (proj2 (Qcle_minus_iff _ _)).
    match goal with |- (0 <= ?g)%Qc => match type of D0 with (0 <= ?x0)%Qc => match type of D1 with (0 <= ?x1)%Qc => replace g with (x0 + x1)%Qc by ring end end end. apply Qc_add; assumption.
  Qed.

  Lemma within3_2 (w z : Z -> Z -> Z -> Qc) (M : Qc) : b_kind (bc 4) = 0 -> b_order (bc 4) = 1 -> b_kind (bc 5) = 0 -> b_order (bc 5) = 1 -> (0 <= M)%Qc ->
    (forall i j k, patch3 i0 j0 k0 i1 j1 k1 i j k -> (op3 dx beta (fun _ _ _ => 0%Qc) (fun _ _ _ => 1%Qc) (fun _ _ _ => 1%Qc) (fun _ _ _ => 1%Qc) (ext3 i0 j0 k0 i1 j1 k1 dx (fun _ _ _ => 1%Qc) (fun _ _ _ => 1%Qc) (fun _ _ _ => 1%Qc) bc w) i j k - op3 dx beta (fun _ _ _ => 0%Qc) (fun _ _ _ => 1%Qc) (fun _ _ _ => 1%Qc) (fun _ _ _ => 1%Qc) (ext3 i0 j0 k0 i1 j1 k1 dx (fun _ _ _ => 1%Qc) (fun _ _ _ => 1%Qc) (fun _ _ _ => 1%Qc) bc z) i j k <= M)%Qc) ->
    forall i j k, patch3 i0 j0 k0 i1 j1 k1 i j k -> (w i j k - z i j k <= M / beta * reach (k1 - k0 + 1) (dx 2%Z))%Qc.
  Proof.
    intros K0 O0 K1 O1 HM H i j k Ip.
    assert (HMb : (0 <= M / beta)%Qc) by (apply Qc_mul; [exact HM|now apply Qclt_le_weak, Qc_inv_pos]).
    assert (An : exists f, 0 <= f < 6 /\ b_kind (bc f) <> 1) by (exists 4; split; [lia|rewrite K0; discriminate]).
    set (g := (fun _ _ k => arc k0 k1 (dx 2%Z) k) : Z -> Z -> Z -> Qc).
    set (e := fun i j k => (1 * (1 * w i j k + (- (1)) * z i j k) + (- (M / beta)) * g i j k)%Qc).
    assert (E : (e i j k <= 0)%Qc).
    { apply (any3 i0 j0 k0 i1 j1 k1 dx beta (fun _ _ _ => 0%Qc) (fun _ _ _ => 1%Qc) (fun _ _ _ => 1%Qc) (fun _ _ _ => 1%Qc) bc rob Hb Hdx (fun _ _ _ _ => Qcle_refl 0%Qc) (fun _ _ _ _ _ _ => eq_refl : (0 < 1)%Qc) (fun _ _ _ _ _ _ => eq_refl : (0 < 1)%Qc) (fun _ _ _ _ _ _ => eq_refl : (0 < 1)%Qc) Hs Ro (or_introl An) e); [|exact Ip]. clear i j k Ip. intros i j k Ip. unfold e.
      rewrite (bvp3_lin i0 j0 k0 i1 j1 k1 dx beta (fun _ _ _ => 0%Qc) (fun _ _ _ => 1%Qc) (fun _ _ _ => 1%Qc) (fun _ _ _ => 1%Qc) bc 1 (- (M / beta)) (fun i j k => 1 * w i j k + (- (1)) * z i j k)%Qc g i j k Ip), (bvp3_lin i0 j0 k0 i1 j1 k1 dx beta (fun _ _ _ => 0%Qc) (fun _ _ _ => 1%Qc) (fun _ _ _ => 1%Qc) (fun _ _ _ => 1%Qc) bc 1 (- (1)) w z i j k Ip).
      pose proof (H i j k Ip) as G. pose proof (Qcmult_le_compat_r _ _ (M / beta) (arc3_2 K0 O0 K1 O1 i j k Ip) HMb) as O. fold g in O.
      replace (beta * (M / beta))%Qc with M in O by (field; now apply Qc_ne_0).
      apply (proj1 (Qcle_minus_iff _ _)) in G. apply (proj1 (Qcle_minus_iff _ _)) in O. apply (proj2 (Qcle_minus_iff _ _)).
      match goal with |- (0 <= ?g)%Qc => match type of G with (0 <= ?x)%Qc => match type of O with (0 <= ?y)%Qc => replace g with (x + y)%Qc by ring end end end.
      now apply Qc_add. }
    apply Qcle_trans with (M / beta * g i j k)%Qc.
    - unfold e in E. apply (proj1 (Qcle_minus_iff _ _)) in E. apply (proj2 (Qcle_minus_iff _ _)).
      match goal with |- (0 <= ?g)%Qc => match type of E with (0 <= ?x)%Qc => replace g with x by ring end end. exact E.
    - rewrite !(Qcmult_comm (M / beta)). apply Qcmult_le_compat_r; [|exact HMb]. unfold g, reach. apply arc_max. clear - Ip. k_near.
  Qed.

End Arc3.

