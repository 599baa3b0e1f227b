(** * Rounding to [p] bits meets the standard model *)

From Coq Require Import QArith Qcanon Qcabs Qround Qpower Lqa.
From Verif Require Import Base Instances SpecRel SpecRound LemRel LemRound.
Import ListNotations.
Open Scope Qc_scope.

Lemma this_Q2Qc q : (this (Q2Qc q) == q)%Q.
Proof. apply Qred_correct. Qed.

Lemma pow2_pos e : 0 < pow2 e.
Proof.
  unfold Qclt, pow2. rewrite this_Q2Qc. rewrite this_Q2Qc. apply Qpower_0_lt. reflexivity.
Qed.

Lemma pow2_add a b : pow2 (a + b) = pow2 a * pow2 b.
Proof.
  apply Qc_is_canon. rewrite this_mult. unfold pow2. rewrite !this_Q2Qc. apply Qpower_plus. discriminate.
Qed.

Lemma pow2_nz e : pow2 e <> 0.
Proof. intros E. assert (H := pow2_pos e). rewrite E in H. exact (Qclt_not_eq _ _ H eq_refl). Qed.

Lemma pow2_Z k : (0 <= k)%Z -> pow2 k = Q2Qc (inject_Z (2 ^ k)).
Proof. intros H. apply Q2Qc_eq_iff. symmetry. apply (Zpower_Qpower 2 k H). Qed.

Lemma nearest_half y : Qcabs (Q2Qc (inject_Z (nearest y)) - y) <= half.
Proof.
  unfold nearest. set (n := Qfloor y).
  assert (H1 : Q2Qc (inject_Z n) <= y) by (unfold Qcle; rewrite this_Q2Qc; apply Qfloor_le).
  assert (H2 : y < Q2Qc (inject_Z (n + 1))) by (unfold Qclt; rewrite this_Q2Qc; apply Qlt_floor).
  assert (E : Q2Qc (inject_Z (n + 1)) = Q2Qc (inject_Z n) + 1).
  { apply Qc_is_canon. rewrite this_plus, !this_Q2Qc, inject_Z_plus. reflexivity. }
  assert (Hh : half + half = 1) by (apply Qc_is_canon; reflexivity).
  set (a := Q2Qc (inject_Z n)) in *.
  assert (B1 : y - a <= half -> Qcabs (a - y) <= half).
  { intros B. apply Qcabs_Qcle_condition. split; qc_lra. }
  assert (B2 : half <= y - a -> Qcabs (Q2Qc (inject_Z (n + 1)) - y) <= half).
  { intros B. rewrite E in *. apply Qcabs_Qcle_condition. split; qc_lra. }
  destruct (Qclt_le_dec (y - a) half) as [L|L]; [apply B1, Qclt_le_weak, L|].
  destruct (Qclt_le_dec half (y - a)) as [L2|L2]; [apply B2, L|].
  destruct (Z.even n); [apply B1, L2|apply B2, L].
Qed.

(** The value |n| / d is above 2^(log2 n - log2 d - 1). *)
Lemma size_low (x : Qc) : x <> 0 ->
  pow2 (Z.log2 (Z.abs (Qnum x)) - Z.log2 (Zpos (Qden x)) - 1) <= Qcabs x.
Proof.
  intros Hx. set (n := Z.abs (Qnum x)). set (d := Zpos (Qden x)).
  assert (Hn : (0 < n)%Z).
  { unfold n. assert (Qnum x <> 0%Z); [|lia]. intros E. apply Hx. apply Qc_is_canon.
    unfold Qeq. rewrite E. reflexivity. }
  assert (Hd : (0 < d)%Z) by (unfold d; lia).
  destruct (Z.log2_spec n Hn) as [A _]. destruct (Z.log2_spec d Hd) as [_ B].
  set (a := Z.log2 n) in *. set (b := Z.log2 d) in *.
  assert (Ha : (0 <= a)%Z) by apply Z.log2_nonneg. assert (Hb : (0 <= b)%Z) by apply Z.log2_nonneg.
  (* |x| d = n *)
  assert (E : Qcabs x * Q2Qc (inject_Z d) = Q2Qc (inject_Z n)).
  { apply Qc_is_canon. rewrite this_mult, !this_Q2Qc. unfold d, n. cbn [Qcabs this].
    destruct x as [[xn xd] Hc]. cbn. unfold Qeq, Qmult. cbn. lia. }
  assert (D0 : 0 < Q2Qc (inject_Z d)) by (unfold Qclt; rewrite !this_Q2Qc; unfold Qlt; cbn; lia).
  assert (Dle : Q2Qc (inject_Z d) <= pow2 (b + 1)).
  { rewrite pow2_Z by lia. unfold Qcle. rewrite !this_Q2Qc. rewrite <- Zle_Qle.
    change (b + 1)%Z with (Z.succ b). lia. }
  assert (Nle : pow2 a <= Q2Qc (inject_Z n)).
  { rewrite pow2_Z by lia. unfold Qcle. rewrite !this_Q2Qc. rewrite <- Zle_Qle. exact A. }
  apply Qcmult_lt_0_le_reg_r with (Q2Qc (inject_Z d)); [exact D0|]. rewrite E.
  apply Qcle_trans with (pow2 (a - b - 1) * pow2 (b + 1)).
  - rewrite !(Qcmult_comm (pow2 (a - b - 1))). apply Qcmult_le_compat_r; [exact Dle|].
    apply Qclt_le_weak, pow2_pos.
  - rewrite <- pow2_add. replace (a - b - 1 + (b + 1))%Z with a by lia. exact Nle.
Qed.

Lemma pow2_half p : pow2 p = pow2 (p - 1) + pow2 (p - 1).
Proof.
  replace p with (p - 1 + 1)%Z at 1 by lia. rewrite pow2_add.
  replace (pow2 1) with (1 + 1) by (apply Qc_is_canon; reflexivity). ring.
Qed.

Lemma last_place_low p x : x <> 0 -> pow2 (p - 1) * pow2 (last_place p x) <= Qcabs x.
Proof.
  intros Hx. unfold last_place. set (e := (_ - _ - p)%Z).
  destruct (Qclt_le_dec (Qcabs x / pow2 e) (pow2 p)) as [L|L].
  - rewrite <- pow2_add. unfold e.
    replace (p - 1 + (Z.log2 (Z.abs (Qnum x)) - Z.log2 (Zpos (Qden x)) - p))%Z
      with (Z.log2 (Z.abs (Qnum x)) - Z.log2 (Zpos (Qden x)) - 1)%Z by lia.
    apply size_low, Hx.
  - apply Qcle_trans with (pow2 p * pow2 e).
    + rewrite <- !pow2_add. replace (p - 1 + (e + 1))%Z with (p + e)%Z by lia. apply Qcle_refl.
    + replace (Qcabs x) with (Qcabs x / pow2 e * pow2 e) by (field; apply pow2_nz).
      apply Qcmult_le_compat_r; [exact L|apply Qclt_le_weak, pow2_pos].
Qed.

Lemma round_bits_std p : (1 <= p)%Z -> std_model (round_bits p) (pow2 (- p)).
Proof.
  intros Hp. split; [apply Qclt_le_weak, pow2_pos|]. split.
  { assert (E : pow2 0 = 1) by (apply Qc_is_canon; reflexivity).
    assert (H0 := pow2_pos (- p)). assert (Hq : 1 + 1 <= pow2 p).
    { replace (1 + 1) with (Q2Qc (inject_Z (2 ^ 1))) by (apply Qc_is_canon; reflexivity).
      rewrite pow2_Z by lia. unfold Qcle. rewrite !this_Q2Qc. rewrite <- Zle_Qle.
      apply Z.pow_le_mono_r; lia. }
    assert (M : pow2 p * pow2 (- p) = 1) by (rewrite <- pow2_add, Z.add_opp_diag_r; exact E).
    qc_nra. }
  intros x. unfold round_bits. destruct (Qc_eq_dec x 0) as [->|Hx].
  { replace (0 - 0) with 0 by ring. rewrite (Qcabs_pos 0) by apply Qcle_refl.
    rewrite Qcmult_0_r. apply Qcle_refl. }
  assert (L := last_place_low p x Hx). set (e := last_place p x) in *.
  assert (N := nearest_half (x / pow2 e)). set (z := Q2Qc (inject_Z (nearest (x / pow2 e)))) in *.
  replace (z * pow2 e - x) with ((z - x / pow2 e) * pow2 e) by (field; apply pow2_nz).
  assert (P0 := pow2_pos e).
  rewrite Qcabs_Qcmult, (Qcabs_pos (pow2 e)) by apply Qclt_le_weak, P0.
  apply Qcle_trans with (half * pow2 e).
  - apply Qcmult_le_compat_r; [exact N|apply Qclt_le_weak, P0].
  - replace half with (pow2 (- p) * pow2 (p - 1)).
    + rewrite <- Qcmult_assoc, !(Qcmult_comm (pow2 (- p))). apply Qcmult_le_compat_r; [exact L|].
      apply Qclt_le_weak, pow2_pos.
    + rewrite <- pow2_add. replace (- p + (p - 1))%Z with (-1)%Z by lia. apply Qc_is_canon. reflexivity.
Qed.
