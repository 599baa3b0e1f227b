(** * Explicit rounding errors of the flux and of the operator *)

From Coq Require Import QArith Qcanon Qcabs.
From Verif Require Import Base Instances SpecRel SpecRound LemRound.
Import ListNotations.
Open Scope Qc_scope.

Lemma Qcabs_leaf k x : b_mag (leaf_k k x) = Qcabs x.
Proof.
  unfold leaf_k, b_mag. destruct (Qclt_le_dec x 0) as [H|H]; cbn [b_pos b_neg].
  - rewrite Qcabs_neg by (apply Qclt_le_weak, H). ring.
  - rewrite Qcabs_pos by exact H. ring.
Qed.

Lemma b_rnd_leaf k x : b_rnd (leaf_k k x) = k.
Proof. unfold leaf_k. destruct (Qclt_le_dec x 0); reflexivity. Qed.

Section Approx.
  Context (rnd : Qc -> Qc) (eps : Qc) (HM : std_model rnd eps).

  (** [x] is [y] after [k] roundings of terms of the total size [M]. *)
  Definition approx (k : nat) (M x y : Qc) : Prop :=
    exists b, near rnd eps (Some b) x /\ b_val b = y /\ b_rnd b = k /\ b_mag b = M.

  Lemma approx_err k M x y : approx k M x y -> Qcabs (x - y) <= gamma eps k * M.
  Proof. intros (b & N & <- & <- & <-). exact (near_err rnd eps HM b x N). Qed.

  Lemma approx_leaf x : approx 0 (Qcabs x) x x.
  Proof.
    exists (leaf_k 0 x). split; [apply near_leaf, HM|]. split; [apply b_val_leaf|]. split; [apply b_rnd_leaf|apply Qcabs_leaf].
  Qed.

  Lemma approx_neg k M x y : approx k M x y -> approx k M (- x) (- y).
  Proof.
    intros (b & N & <- & <- & <-). eexists. split; [exact (near_neg rnd eps b x N)|].
    unfold b_val, b_mag; cbn. split; [ring|]. split; [reflexivity|ring].
  Qed.

  Lemma approx_sub0 x y : approx 1 (Qcabs (x - y)) (rnd (x - y)) (x - y).
  Proof.
    assert (N : near rnd eps (bnd_add (leaf_k 0 x) (leaf_k 0 (- y))) (rnd (x + - y))).
    { apply near_add; try apply near_leaf; exact HM. }
    unfold bnd_add in N. rewrite !b_rnd_leaf, !b_val_leaf in N.
    eexists. split; [exact N|]. split; [apply b_val_leaf|]. split; [apply b_rnd_leaf|apply Qcabs_leaf].
  Qed.

  Lemma approx_add k l M N x y z w : approx k M x y -> approx l N z w -> (k + l <> 0)%nat ->
    approx (Datatypes.S (Nat.max k l)) (M + N) (rnd (x + z)) (y + w).
  Proof.
    intros (a & Na & <- & Ka & <-) (b & Nb & <- & Kb & <-) H.
    assert (E := near_add rnd eps HM a b x z Na Nb). unfold bnd_add in E. rewrite Ka, Kb in E.
    exists (mkBnd (b_pos a + b_pos b) (b_neg a + b_neg b) (Datatypes.S (Nat.max k l))). split.
    - destruct k, l; try exact E. contradiction H. reflexivity.
    - unfold b_val, b_mag; cbn [b_pos b_neg b_rnd]. split; [ring|]. split; [reflexivity|ring].
  Qed.

  Lemma approx_mul k l M N x y z w : approx k M x y -> approx l N z w ->
    approx (Datatypes.S (k + l)) (M * N) (rnd (x * z)) (y * w).
  Proof.
    intros (a & Na & <- & <- & <-) (b & Nb & <- & <- & <-).
    assert (E := near_mul rnd eps HM a b x z Na Nb). eexists. split; [exact E|].
    unfold b_val, b_mag; cbn [b_pos b_neg b_rnd]. split; [ring|]. split; [reflexivity|ring].
  Qed.

  Lemma approx_div k M x y h : approx k M x y -> h <> 0 ->
    approx (Datatypes.S k) (M / Qcabs h) (rnd (x / h)) (y / h).
  Proof.
    intros (a & Na & <- & <- & <-) Hh.
    assert (E := near_div rnd eps HM a (leaf_k 0 h) x h Na (near_leaf rnd eps HM h)).
    unfold bnd_div, leaf_k in E. destruct (Qclt_le_dec h 0) as [Hn|Hn]; cbn [b_pos b_neg b_rnd] in E.
    - assert (Ho : - h <> 0) by (intros F; apply Hh; replace h with (- - h) by ring; rewrite F; reflexivity).
      destruct (Qc_eq_dec (- h) 0); [contradiction|]. destruct (Qc_eq_dec 0 0) as [_|F]; [|contradiction F; reflexivity].
      eexists. split; [exact E|]. rewrite Qcabs_neg by (apply Qclt_le_weak, Hn).
      unfold b_val, b_mag; cbn [b_pos b_neg b_rnd]. split; [field; split; assumption|].
      split; [rewrite Nat.add_0_r; reflexivity|field; assumption].
    - destruct (Qc_eq_dec 0 0) as [_|F]; [|contradiction F; reflexivity]. destruct (Qc_eq_dec h 0); [contradiction|].
      eexists. split; [exact E|]. rewrite Qcabs_pos by exact Hn.
      unfold b_val, b_mag; cbn [b_pos b_neg b_rnd]. split; [field; assumption|].
      split; [rewrite Nat.add_0_r; reflexivity|field; assumption].
  Qed.
End Approx.

(** The usual form of the bound. *)
Lemma power_low eps k : 0 <= eps -> eps < 1 -> 1 - Q2Qc (inject_Z (Z.of_nat k)) * eps <= (1 - eps) ^ k.
Proof.
  intros H0 H1. induction k as [|k IH].
  - cbn [Qcpower]. replace (Q2Qc (inject_Z (Z.of_nat 0))) with 0 by reflexivity.
    replace (1 - 0 * eps) with 1 by ring. apply Qcle_refl.
  - replace (Q2Qc (inject_Z (Z.of_nat (Datatypes.S k)))) with (Q2Qc (inject_Z (Z.of_nat k)) + 1).
    2:{ apply Qc_is_canon. cbn [Qcplus this Q2Qc]. rewrite !Qred_correct. rewrite Nat2Z.inj_succ.
        unfold Z.succ. rewrite inject_Z_plus. reflexivity. }
    set (n := Q2Qc (inject_Z (Z.of_nat k))) in *. cbn [Qcpower].
    assert (Hn : 0 <= n).
    { subst n. unfold Qcle. cbn [this Q2Qc]. rewrite !Qred_correct. unfold Qle. cbn. lia. }
    apply Qcle_trans with ((1 - eps) * (1 - n * eps)); [qc_nra|]. clearbody n. set (P := (1 - eps) ^ k) in *. clearbody P. qc_nra.
Qed.

Lemma gamma_le eps k : 0 <= eps -> eps < 1 -> let n := Q2Qc (inject_Z (Z.of_nat k)) in n * eps < 1 ->
  gamma eps k <= n * eps / (1 - n * eps).
Proof.
  intros H0 H1 n Hn. assert (L := power_low eps k H0 H1). fold n in L. clearbody n. unfold gamma. set (P := (1 - eps) ^ k) in *. clearbody P.
  set (d := 1 - n * eps) in *. assert (Hd : 0 < d) by (subst d; qc_lra).
  assert (Hd0 : d <> 0) by (intros E; rewrite E in Hd; exact (Qclt_not_eq _ _ Hd eq_refl)).
  assert (HP : 0 < P) by (apply Qclt_le_trans with d; assumption).
  assert (HP0 : P <> 0) by (intros E; rewrite E in HP; exact (Qclt_not_eq _ _ HP eq_refl)).
  replace (n * eps / d) with (/ d - 1) by (replace (n * eps) with (1 - d) by (subst d; ring); field; exact Hd0).
  assert (/ P <= / d).
  { apply Qcmult_lt_0_le_reg_r with (P * d); [qc_nra|].
    replace (/ P * (P * d)) with d by (field; exact HP0). replace (/ d * (P * d)) with P by (field; exact Hd0). exact L. }
  qc_lra.
Qed.
