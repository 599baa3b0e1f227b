(** * Error bounds for rounded arithmetic *)

From Coq Require Import QArith Qcanon Qcabs Qround Qpower Lqa.
From Verif Require Import Base Instances SpecRel SpecRound LemRel.
Import ListNotations.
Open Scope Qc_scope.

(** ** Inequalities over the canonical rationals *)

Lemma this_plus x y : (this (x + y) == this x + this y)%Q.
Proof. apply Qred_correct. Qed.
Lemma this_mult x y : (this (x * y) == this x * this y)%Q.
Proof. apply Qred_correct. Qed.
Lemma this_opp x : (this (- x) == - this x)%Q.
Proof. apply Qred_correct. Qed.
Lemma this_minus x y : (this (x - y) == this x - this y)%Q.
Proof. unfold Qcminus. rewrite this_plus, this_opp. reflexivity. Qed.
Lemma this_0 : (this 0 == 0)%Q.
Proof. reflexivity. Qed.
Lemma this_1 : (this 1 == 1)%Q.
Proof. reflexivity. Qed.

Lemma eq_Qeq (x y : Q) : x = y -> (x == y)%Q.
Proof. intros ->. reflexivity. Qed.

Ltac qc_to_q :=
  unfold Qcle, Qclt in *;
  repeat match goal with
  | H : @eq Qc ?x ?y |- _ => apply (f_equal this) in H; apply eq_Qeq in H
  end;
  repeat first
  [ rewrite this_plus in * | rewrite this_minus in * | rewrite this_mult in * | rewrite this_opp in *
  | rewrite this_0 in * | rewrite this_1 in * ].

Ltac qc_lra := first [apply Qc_is_canon|idtac]; qc_to_q; lra.
Ltac qc_nra := first [apply Qc_is_canon|idtac]; qc_to_q; nra.

Lemma Qcmul_nonneg x y : 0 <= x -> 0 <= y -> 0 <= x * y.
Proof. intros. qc_nra. Qed.

Lemma Qcmul_le x y a b : 0 <= x -> 0 <= a -> x <= y -> a <= b -> x * a <= y * b.
Proof. intros. apply Qcle_trans with (y * a); qc_nra. Qed.

Lemma Qcinv_pos x : 0 < x -> 0 < / x.
Proof.
  intros H. destruct (Qclt_le_dec 0 (/ x)) as [|K]; [assumption|].
  assert (E := Qcmult_inv_r x (fun e => Qclt_not_eq _ _ H (eq_sym e))). exfalso. qc_nra.
Qed.

Lemma Qc_case (x : Qc) : {x < 0} + {0 <= x}.
Proof. apply Qclt_le_dec. Qed.

Section Round.
  Context (rnd : Qc -> Qc) (eps : Qc) (HM : std_model rnd eps).
  Notation g := (1 - eps).

  Lemma g_range : 0 < g /\ g <= 1.
  Proof. destruct HM as (H1 & H2 & _). split; qc_lra. Qed.

  Lemma gp k : 0 < g ^ k /\ g ^ k <= 1.
  Proof.
    destruct g_range as [H1 H2]. induction k as [|k [I1 I2]]; cbn [Qcpower].
    - split; qc_lra.
    - split; qc_nra.
  Qed.

  Lemma gp_add k l : g ^ (k + l) = g ^ k * g ^ l.
  Proof. induction k as [|k IH]; cbn [Qcpower Nat.add]; [ring|]. rewrite IH. ring. Qed.

  Lemma gp_le k l : (k <= l)%nat -> g ^ l <= g ^ k.
  Proof.
    intros H. replace l with (k + (l - k))%nat by lia. rewrite gp_add.
    destruct (gp k), (gp (l - k)). qc_nra.
  Qed.

  (** A rounding multiplies by a factor near 1. *)
  Lemma rnd_factor x : exists t, rnd x = x * t /\ g <= t /\ t * g <= 1.
  Proof.
    destruct HM as (H1 & H2 & H). specialize (H x). destruct g_range as [G1 G2].
    destruct (Qc_eq_dec x 0) as [->|Hx].
    - exists 1. replace (eps * Qcabs 0) with 0 in H by (rewrite Qcabs_pos by apply Qcle_refl; ring).
      assert (E : Qcabs (rnd 0 - 0) = 0) by (apply Qcle_antisym; [exact H|apply Qcabs_nonneg]).
      apply Qcabs_null in E. split; [qc_lra|]. split; qc_lra.
    - exists (rnd x / x). split; [field; exact Hx|].
      assert (E : rnd x / x - 1 = (rnd x - x) * / x) by (field; exact Hx).
      assert (B : Qcabs (rnd x / x - 1) <= eps).
      { rewrite E, Qcabs_Qcmult.
        assert (Hi : Qcabs x * Qcabs (/ x) = 1).
        { rewrite <- Qcabs_Qcmult, Qcmult_inv_r by exact Hx. apply Qcabs_pos; discriminate. }
        assert (Hn := Qcabs_nonneg (/ x)).
        apply Qcle_trans with (eps * Qcabs x * Qcabs (/ x)); [apply Qcmult_le_compat_r; assumption|].
        rewrite <- Qcmult_assoc, Hi. qc_lra. }
      apply Qcabs_Qcle_condition in B. destruct B as [B1 B2]. set (t := rnd x / x) in *. clearbody t.
      split; [qc_lra|]. qc_nra.
  Qed.

  (** [p] is [P] up to [k] roundings. *)
  Definition w (k : nat) (P p : Qc) : Prop := 0 <= P /\ 0 <= p /\ P * g ^ k <= p /\ p * g ^ k <= P.

  Lemma w_0 P : 0 <= P -> w 0 P P.
  Proof. intros H. split; [exact H|]. split; [exact H|]. cbn. split; qc_lra. Qed.

  Lemma w_mono k l P p : (k <= l)%nat -> w k P p -> w l P p.
  Proof.
    intros Hk (H1 & H2 & H3 & H4). assert (Hg := gp_le _ _ Hk). destruct (gp l), (gp k).
    split; [assumption|]. split; [assumption|]. split; qc_nra.
  Qed.

  Lemma w_add k P p Q q : w k P p -> w k Q q -> w k (P + Q) (p + q).
  Proof.
    intros (H1 & H2 & H3 & H4) (K1 & K2 & K3 & K4). repeat split; qc_lra.
  Qed.

  Lemma w_mul k l P p Q q : w k P p -> w l Q q -> w (k + l) (P * Q) (p * q).
  Proof.
    intros (H1 & H2 & H3 & H4) (K1 & K2 & K3 & K4). destruct (gp k) as [A1 _], (gp l) as [A2 _].
    split; [apply Qcmul_nonneg; assumption|]. split; [apply Qcmul_nonneg; assumption|]. rewrite gp_add. split.
    - replace (P * Q * (g ^ k * g ^ l)) with ((P * g ^ k) * (Q * g ^ l)) by ring.
      apply Qcmul_le; try assumption; apply Qcmul_nonneg; try assumption; apply Qclt_le_weak; assumption.
    - replace (p * q * (g ^ k * g ^ l)) with ((p * g ^ k) * (q * g ^ l)) by ring.
      apply Qcmul_le; try assumption; apply Qcmul_nonneg; try assumption; apply Qclt_le_weak; assumption.
  Qed.

  Lemma w_inv k P p : w k P p -> P <> 0 -> w k (/ P) (/ p) /\ p <> 0.
  Proof.
    intros (H1 & H2 & H3 & H4) HP. destruct (gp k) as [A1 A2].
    assert (P0 : 0 < P) by (destruct (Qcle_lt_or_eq _ _ H1) as [|E]; [assumption|congruence]).
    assert (p0 : 0 < p) by qc_nra.
    assert (p0' : p <> 0) by (intros E; rewrite E in p0; exact (Qclt_not_eq _ _ p0 eq_refl)).
    assert (I1 := Qcinv_pos _ P0). assert (I2 := Qcinv_pos _ p0).
    assert (E1 := Qcmult_inv_r _ HP). assert (E2 := Qcmult_inv_r _ p0').
    split; [|exact p0']. split; [apply Qclt_le_weak, I1|]. split; [apply Qclt_le_weak, I2|].
    split.
    - apply Qcmult_lt_0_le_reg_r with (P * p); [qc_nra|].
      replace (/ P * g ^ k * (P * p)) with ((P * / P) * (p * g ^ k)) by ring.
      replace (/ p * (P * p)) with ((p * / p) * P) by ring. rewrite E1, E2. qc_lra.
    - apply Qcmult_lt_0_le_reg_r with (P * p); [qc_nra|].
      replace (/ p * g ^ k * (P * p)) with ((p * / p) * (P * g ^ k)) by ring.
      replace (/ P * (P * p)) with ((P * / P) * p) by ring. rewrite E1, E2. qc_lra.
  Qed.

  Lemma w_round k P p t : w k P p -> g <= t -> t * g <= 1 -> w (S k) P (p * t).
  Proof.
    intros (H1 & H2 & H3 & H4) T1 T2. destruct g_range as [G1 G2], (gp k) as [A1 A2].
    assert (T0 : 0 <= t) by qc_lra.
    split; [assumption|]. split; [apply Qcmul_nonneg; assumption|]. cbn [Qcpower]. split.
    - replace (P * (g * g ^ k)) with ((P * g ^ k) * g) by ring. apply Qcmul_le; try assumption.
      + apply Qcmul_nonneg; [assumption|apply Qclt_le_weak; assumption].
      + apply Qclt_le_weak; assumption.
    - replace (p * t * (g * g ^ k)) with ((p * g ^ k) * (t * g)) by ring.
      apply Qcle_trans with (P * 1); [|qc_lra]. apply Qcmul_le; try assumption.
      + apply Qcmul_nonneg; [assumption|apply Qclt_le_weak; assumption].
      + apply Qcmul_nonneg; [assumption|apply Qclt_le_weak; assumption].
  Qed.

  (** ** The bounds hold *)

  Definition near (b : BndS) (x : rounded rnd) : Prop :=
    match b with
    | None => True
    | Some b => exists p n, (x : Qc) = p - n /\ w (b_rnd b) (b_pos b) p /\ w (b_rnd b) (b_neg b) n
    end.

  (** Without roundings the value is the exact one. *)
  Lemma w_0_eq P p : w 0 P p -> p = P.
  Proof. intros (_ & _ & H1 & H2). cbn in *. apply Qcle_antisym; qc_lra. Qed.

  Lemma near_leaf_k k x y : (exists t, y = x * t /\ w k 1 t) -> near (Some (leaf_k k x)) y.
  Proof.
    intros (t & -> & Ht). assert (W0 : w k 0 0).
    { split; [apply Qcle_refl|]. split; [apply Qcle_refl|]. split; qc_lra. }
    unfold leaf_k. destruct (Qclt_le_dec x 0) as [H|H]; cbn.
    - exists 0, (- x * t). split; [ring|]. split; [exact W0|].
      destruct Ht as (T1 & T2 & T3 & T4). destruct (gp k). split; [qc_lra|]. split; [qc_nra|]. split; qc_nra.
    - exists (x * t), 0. split; [ring|]. split; [|exact W0].
      destruct Ht as (T1 & T2 & T3 & T4). destruct (gp k). split; [qc_lra|]. split; [qc_nra|]. split; qc_nra.
  Qed.

  Lemma near_leaf (x : Qc) : near (leaf x) x.
  Proof.
    apply near_leaf_k. exists 1. split; [cbn; ring|]. apply w_0. discriminate.
  Qed.

  (** One more rounding of a number near [mkBnd P N k]. *)
  Lemma near_round P N k p n : w k P p -> w k N n -> near (Some (mkBnd P N (S k))) (rnd (p - n)).
  Proof.
    intros Hp Hn. destruct (rnd_factor (p - n)) as (t & -> & T1 & T2). cbn.
    exists (p * t), (n * t). split; [ring|]. split; apply w_round; assumption.
  Qed.

  Lemma near_add a b x y : near (Some a) x -> near (Some b) y -> near (bnd_add a b) (rnd (x + y)).
  Proof.
    intros (p & n & -> & Hp & Hn) (q & r & -> & Hq & Hr). unfold bnd_add.
    assert (G : near (Some (mkBnd (b_pos a + b_pos b) (b_neg a + b_neg b) (S (Nat.max (b_rnd a) (b_rnd b)))))
                     (rnd (p - n + (q - r)))).
    { replace (p - n + (q - r)) with ((p + q) - (n + r)) by ring. apply near_round.
      - apply w_add; [apply w_mono with (b_rnd a)|apply w_mono with (b_rnd b)]; auto; lia.
      - apply w_add; [apply w_mono with (b_rnd a)|apply w_mono with (b_rnd b)]; auto; lia. }
    destruct (b_rnd a) as [|k] eqn:Ea, (b_rnd b) as [|l] eqn:Eb; try exact G. clear G.
    apply w_0_eq in Hp, Hn, Hq, Hr. subst. apply near_leaf_k.
    destruct (rnd_factor (b_pos a - b_neg a + (b_pos b - b_neg b))) as (t & E & T1 & T2).
    exists t. split; [exact E|]. destruct g_range. cbn.
    split; [discriminate|]. split; [qc_lra|]. cbn. split; qc_lra.
  Qed.

  Lemma near_neg b x : near (Some b) x -> near (bnd_neg b) (- x).
  Proof. intros (p & n & -> & Hp & Hn). exists n, p. split; [unfold rounded; cbn; ring|]. split; assumption. Qed.

  Lemma near_mul a b x y : near (Some a) x -> near (Some b) y -> near (bnd_mul a b) (rnd (x * y)).
  Proof.
    intros (p & n & -> & Hp & Hn) (q & r & -> & Hq & Hr). unfold bnd_mul.
    replace ((p - n) * (q - r)) with ((p * q + n * r) - (p * r + n * q)) by ring.
    apply near_round; apply w_add; apply w_mul; assumption.
  Qed.

  Lemma w_zero k p : w k 0 p -> p = 0.
  Proof.
    intros (H1 & H2 & H3 & H4). destruct (gp k) as [A _]. apply Qcle_antisym; [|exact H2].
    apply Qcmult_lt_0_le_reg_r with (g ^ k); [exact A|]. rewrite Qcmult_0_l. exact H4.
  Qed.

  Lemma near_div a b x y : near (Some a) x -> near (Some b) y -> near (bnd_div a b) (rnd (x / y)).
  Proof.
    intros (p & n & -> & Hp & Hn) (q & r & -> & Hq & Hr). unfold bnd_div, Qcdiv.
    destruct (Qc_eq_dec (b_neg b) 0) as [E|E].
    - rewrite E in Hr. apply w_zero in Hr. subst r.
      destruct (Qc_eq_dec (b_pos b) 0) as [F|F]; [exact I|].
      destruct (w_inv _ _ _ Hq F) as [Hi _].
      replace ((p - n) * / (q - 0)) with (p * / q - n * / q) by (replace (q - 0) with q by ring; ring).
      apply near_round; apply w_mul; assumption.
    - destruct (Qc_eq_dec (b_pos b) 0) as [F|F]; [|exact I].
      rewrite F in Hq. apply w_zero in Hq. subst q.
      destruct (w_inv _ _ _ Hr E) as [Hi Hr0].
      replace ((p - n) * / (0 - r)) with (n * / r - p * / r) by (field; repeat split; try exact Hr0; intros E0; apply Hr0; qc_lra).
      apply near_round; apply w_mul; assumption.
  Qed.

  Lemma near_sim : sim near.
  Proof.
    split; cbn [sadd ssub smul sdiv sneg lit BndS rounded car].
    - intros [a|] [b|] c d H K; try exact I. apply near_add; assumption.
    - intros [a|] [b|] c d H K; try exact I. cbn [on2 bind]. unfold bnd_sub.
      replace (c - d) with (c + - d) by reflexivity. apply near_add; [exact H|].
      apply near_neg in K. exact K.
    - intros [a|] [b|] c d H K; try exact I. apply near_mul; assumption.
    - intros [a|] [b|] c d H K; try exact I. apply near_div; assumption.
    - intros [a|] c H; try exact I. apply near_neg, H.
    - intros z. apply near_leaf.
  Qed.

  (** The error claimed. *)
  Lemma near_err b x : near (Some b) x -> Qcabs (x - b_val b) <= err eps b.
  Proof.
    intros (p & n & -> & (P1 & P2 & P3 & P4) & (N1 & N2 & N3 & N4)). unfold err, gamma, b_val, b_mag.
    destruct (gp (b_rnd b)) as [A1 A2]. set (G := g ^ b_rnd b) in *. clearbody G.
    assert (Gn : G <> 0) by (intros E; rewrite E in A1; exact (Qclt_not_eq _ _ A1 eq_refl)).
    assert (I1 := Qcinv_pos _ A1). assert (E1 := Qcmult_inv_r _ Gn).
    apply Qcabs_Qcle_condition. split; apply Qcmult_lt_0_le_reg_r with G; try exact A1.
    - replace (- ((/ G - 1) * (b_pos b + b_neg b)) * G)
        with (- ((G * / G - G) * (b_pos b + b_neg b))) by ring. rewrite E1.
      assert (G * (b_pos b - p) <= (1 - G) * b_pos b) by qc_nra.
      assert (G * (n - b_neg b) <= (1 - G) * b_neg b) by qc_nra. qc_nra.
    - replace ((/ G - 1) * (b_pos b + b_neg b) * G)
        with ((G * / G - G) * (b_pos b + b_neg b)) by ring. rewrite E1.
      assert (G * (p - b_pos b) <= (1 - G) * b_pos b) by qc_nra.
      assert (G * (b_neg b - n) <= (1 - G) * b_neg b) by qc_nra. qc_nra.
  Qed.
End Round.

(** ** The value of a bound is the exact result *)

Definition exactly (b : BndS) (x : QcS) : Prop :=
  match b with None => True | Some b => b_val b = x end.

Lemma b_val_leaf k x : b_val (leaf_k k x) = x.
Proof. unfold leaf_k, b_val. destruct (Qclt_le_dec x 0); cbn; ring. Qed.

Lemma exactly_sim : sim exactly.
Proof.
  assert (Hadd : forall a b, exactly (bnd_add a b) (b_val a + b_val b)).
  { intros a b. unfold bnd_add, exactly.
    destruct (b_rnd a), (b_rnd b); try (unfold b_val; cbn; ring). apply b_val_leaf. }
  split; cbn [sadd ssub smul sdiv sneg lit BndS QcS car].
  - intros [a|] [b|] c d H K; try exact I. cbn in H, K. subst. apply Hadd.
  - intros [a|] [b|] c d H K; try exact I. cbn in H, K. subst. cbn [on2 bind]. unfold bnd_sub.
    replace (b_val a - b_val b) with (b_val a + b_val (mkBnd (b_neg b) (b_pos b) (b_rnd b)))
      by (unfold b_val; cbn; ring). apply Hadd.
  - intros [a|] [b|] c d H K; try exact I. cbn in H, K. subst. cbn. unfold b_val. cbn. ring.
  - intros [a|] [b|] c d H K; try exact I. cbn in H, K. subst. cbn [on2 bind]. unfold bnd_div, b_val.
    destruct (Qc_eq_dec (b_neg b) 0) as [E|E], (Qc_eq_dec (b_pos b) 0) as [F|F]; cbn; try exact I; unfold b_val; cbn.
    + rewrite E. field. exact F.
    + rewrite F. field. repeat split; try exact E; intros G; apply E; qc_lra.
  - intros [a|] c H; try exact I. cbn in H. subst. cbn. unfold b_val. cbn. ring.
  - intros z. cbn. apply b_val_leaf.
Qed.
