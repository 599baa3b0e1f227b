(** * The boundary value problem with one anchored face, and the closed one *)

From Coq Require Import Field QArith Qcanon.
From Verif Require Import Base FortranBase SpecKernel SpecBoundary SpecBCOrder SpecRow SpecSolve Instances LemField LemSum LemEnergy LemSolve LemSolveOp SpecBvp LemBvp LemBvpFill LemBvpOp.
Import ListNotations.
Open Scope Z_scope.

Ltac k_qc := match goal with |- ?l = ?r => change (@eq Qc l r) end.

(** ** Sums *)

Section Sums.
  Context {S : Scalar} (L : field_laws S).
  Add Field SF : (s_field S L) (morphism (lit_morph S L), constants [lit_cst]).

  Lemma total_zero lo hi (f : Z -> S) : (forall i, lo <= i <= hi -> f i = lit 0) -> total lo hi f = lit 0.
  Proof.
    intros H. transitivity (total lo hi (fun i => lit 0 * f i)%T); [apply total_ext; intros i Hi; rewrite (H i Hi); ring|].
    rewrite (total_mul L). ring.
  Qed.
  Lemma total2_zero i0 j0 i1 j1 (f : Z -> Z -> S) : (forall i j, i0 <= i <= i1 -> j0 <= j <= j1 -> f i j = lit 0) -> total2 i0 j0 i1 j1 f = lit 0.
  Proof. intros H. apply total_zero. intros j Hj. apply total_zero. intros i Hi. now apply H. Qed.

  Lemma total_at lo hi (f : Z -> S) p : lo <= p <= hi -> (forall i, lo <= i <= hi -> i <> p -> f i = lit 0) -> total lo hi f = f p.
  Proof.
    remember (Z.to_nat (p - lo)) as n eqn:En. revert lo En. induction n as [|n IH]; intros lo En Hp H; rewrite (total_first lo hi f) by lia.
    - assert (p = lo) as -> by lia. rewrite (total_zero (lo + 1) hi f); [ring|]. intros i Hi. apply H; lia.
    - rewrite (H lo) by lia. rewrite (IH (lo + 1)); [ring|lia|lia|]. intros i Hi. apply H. lia.
  Qed.
  Lemma total2_at i0 j0 i1 j1 (f : Z -> Z -> S) p q : i0 <= p <= i1 -> j0 <= q <= j1 ->
    (forall i j, i0 <= i <= i1 -> j0 <= j <= j1 -> i <> p \/ j <> q -> f i j = lit 0) -> total2 i0 j0 i1 j1 f = f p q.
  Proof.
    intros Hp Hq H. unfold total2. rewrite (total_at j0 j1 (fun j => total i0 i1 (fun i => f i j)) q Hq).
    - apply (total_at i0 i1 (fun i => f i q) p); [exact Hp|]. intros i Hi N. apply H; auto.
    - intros j Hj N. apply total_zero. intros i Hi. apply H; auto.
  Qed.
  Lemma total3_at i0 j0 k0 i1 j1 k1 (f : Z -> Z -> Z -> S) p q r : i0 <= p <= i1 -> j0 <= q <= j1 -> k0 <= r <= k1 ->
    (forall i j k, i0 <= i <= i1 -> j0 <= j <= j1 -> k0 <= k <= k1 -> i <> p \/ j <> q \/ k <> r -> f i j k = lit 0) -> total3 i0 j0 k0 i1 j1 k1 f = f p q r.
  Proof.
    intros Hp Hq Hr H. unfold total3. rewrite (total_at k0 k1 (fun k => total2 i0 j0 i1 j1 (fun i j => f i j k)) r Hr).
    - apply (total2_at _ _ _ _ (fun i j => f i j r) p q); [exact Hp|exact Hq|]. intros i j Hi Hj N. apply H; tauto.
    - intros k Hk N. apply total2_zero. intros i j Hi Hj. apply H; auto.
  Qed.

  (** Differences of a function that vanishes at both ends. *)
  Lemma closed_scale (b h x : S) : x = lit 0 -> (b * (x / h))%T = lit 0.
  Proof. intros ->. rewrite (sdiv_def S L). ring. Qed.

  Lemma closed1_0 i0 i1 (b h : S) (G : Z -> S) : i0 <= i1 + 1 -> (G i0 = lit 0 /\ G (i1 + 1)%Z = lit 0) ->
    total i0 i1 (fun i => b * ((G (i + 1)%Z - G i) / h))%T = lit 0.
  Proof.
    intros B H. rewrite (total_mul L i0 i1 b), (total_div L i0 i1). apply closed_scale. rewrite (total_steps L i0 i1 G B). destruct H as [-> ->]. ring.
  Qed.

  Lemma closed2_0 i0 j0 i1 j1 (b h : S) (G : Z -> Z -> S) : i0 <= i1 + 1 -> (forall j, j0 <= j <= j1 -> G i0 j = lit 0 /\ G (i1 + 1)%Z j = lit 0) ->
    total2 i0 j0 i1 j1 (fun i j => b * ((G (i + 1)%Z j - G i j) / h))%T = lit 0.
  Proof.
    intros B H. rewrite (total2_mul L i0 j0 i1 j1 b), (total2_div L i0 j0 i1 j1). apply closed_scale. rewrite (total2_steps0 L i0 j0 i1 j1 G B). apply total_zero. intros j Hj. destruct (H j Hj) as [-> ->]. ring.
  Qed.

  Lemma closed2_1 i0 j0 i1 j1 (b h : S) (G : Z -> Z -> S) : j0 <= j1 + 1 -> (forall i, i0 <= i <= i1 -> G i j0 = lit 0 /\ G i (j1 + 1)%Z = lit 0) ->
    total2 i0 j0 i1 j1 (fun i j => b * ((G i (j + 1)%Z - G i j) / h))%T = lit 0.
  Proof.
    intros B H. rewrite (total2_mul L i0 j0 i1 j1 b), (total2_div L i0 j0 i1 j1). apply closed_scale. rewrite (total2_steps1 L i0 j0 i1 j1 G B). apply total_zero. intros i Hi. destruct (H i Hi) as [-> ->]. ring.
  Qed.

  Lemma closed3_0 i0 j0 k0 i1 j1 k1 (b h : S) (G : Z -> Z -> Z -> S) : i0 <= i1 + 1 -> (forall j k, j0 <= j <= j1 -> k0 <= k <= k1 -> G i0 j k = lit 0 /\ G (i1 + 1)%Z j k = lit 0) ->
    total3 i0 j0 k0 i1 j1 k1 (fun i j k => b * ((G (i + 1)%Z j k - G i j k) / h))%T = lit 0.
  Proof.
    intros B H. rewrite (total3_mul L i0 j0 k0 i1 j1 k1 b), (total3_div L i0 j0 k0 i1 j1 k1). apply closed_scale. rewrite (total3_steps0 L i0 j0 k0 i1 j1 k1 G B). apply total2_zero. intros j k Hj Hk. destruct (H j k Hj Hk) as [-> ->]. ring.
  Qed.

  Lemma closed3_1 i0 j0 k0 i1 j1 k1 (b h : S) (G : Z -> Z -> Z -> S) : j0 <= j1 + 1 -> (forall i k, i0 <= i <= i1 -> k0 <= k <= k1 -> G i j0 k = lit 0 /\ G i (j1 + 1)%Z k = lit 0) ->
    total3 i0 j0 k0 i1 j1 k1 (fun i j k => b * ((G i (j + 1)%Z k - G i j k) / h))%T = lit 0.
  Proof.
    intros B H. rewrite (total3_mul L i0 j0 k0 i1 j1 k1 b), (total3_div L i0 j0 k0 i1 j1 k1). apply closed_scale. rewrite (total3_steps1 L i0 j0 k0 i1 j1 k1 G B). apply total2_zero. intros i k Hi Hk. destruct (H i k Hi Hk) as [-> ->]. ring.
  Qed.

  Lemma closed3_2 i0 j0 k0 i1 j1 k1 (b h : S) (G : Z -> Z -> Z -> S) : k0 <= k1 + 1 -> (forall i j, i0 <= i <= i1 -> j0 <= j <= j1 -> G i j k0 = lit 0 /\ G i j (k1 + 1)%Z = lit 0) ->
    total3 i0 j0 k0 i1 j1 k1 (fun i j k => b * ((G i j (k + 1)%Z - G i j k) / h))%T = lit 0.
  Proof.
    intros B H. rewrite (total3_mul L i0 j0 k0 i1 j1 k1 b), (total3_div L i0 j0 k0 i1 j1 k1). apply closed_scale. rewrite (total3_steps2 L i0 j0 k0 i1 j1 k1 G B). apply total2_zero. intros i j Hi Hj. destruct (H i j Hi Hj) as [-> ->]. ring.
  Qed.

End Sums.

(** ** Cells next to each other *)

Lemma line (P : Z -> Prop) lo hi : (forall i, lo <= i <= hi -> P i -> (i + 1 <= hi -> P (i + 1)) /\ (lo <= i - 1 -> P (i - 1))) ->
  forall i i', lo <= i <= hi -> lo <= i' <= hi -> P i -> P i'.
Proof.
  intros H i i' Hi Hi'. remember (Z.to_nat (Z.abs (i' - i))) as n eqn:En. revert i Hi En. induction n as [|n IH]; intros i Hi En HP.
  - replace i' with i by lia. exact HP.
  - destruct (H i Hi HP) as [U Dn]. destruct (Z_lt_dec i i').
    + apply (IH (i + 1)); [lia|lia|apply U; lia].
    + apply (IH (i - 1)); [lia|lia|apply Dn; lia].
Qed.

Lemma perm2 (x y r : Qc) : (x + y + r <= 0 -> y + (x + r) <= 0)%Qc.
Proof. intros H. replace (y + (x + r))%Qc with (x + y + r)%Qc by ring. exact H. Qed.
Lemma perm31 (x y z r : Qc) : (x + y + z + r <= 0 -> y + (x + z + r) <= 0)%Qc.
Proof. intros H. replace (y + (x + z + r))%Qc with (x + y + z + r)%Qc by ring. exact H. Qed.
Lemma perm32 (x y z r : Qc) : (x + y + z + r <= 0 -> z + (x + y + r) <= 0)%Qc.
Proof. intros H. replace (z + (x + y + r))%Qc with (x + y + z + r)%Qc by ring. exact H. Qed.
Lemma perm20 (x y r : Qc) : (x + y + r <= 0 -> x + (y + r) <= 0)%Qc.
Proof. intros H. replace (x + (y + r))%Qc with (x + y + r)%Qc by ring. exact H. Qed.
Lemma perm30 (x y z r : Qc) : (x + y + z + r <= 0 -> x + (y + z + r) <= 0)%Qc.
Proof. intros H. replace (x + (y + z + r))%Qc with (x + y + z + r)%Qc by ring. exact H. Qed.
Lemma perm1r (x r : Qc) : (0 <= x -> x + r <= 0 -> r <= 0)%Qc.
Proof. intros H G. apply Qcle_trans with (x + r)%Qc; [|exact G]. apply Qc_nonneg_sub. replace (x + r - r)%Qc with x by ring. exact H. Qed.


Section Any1.
  Context (i0 i1 : Z) (dx : Z -> Qc) (beta : Qc) (a v0 : Z -> Qc) (bc : Z -> bcond QcS).
  Context (rob : bool) (Hb : (0 < beta)%Qc) (Hdx : forall d, 0 <= d < 1 -> (0 < dx d)%Qc).
  Context (Ha : forall i, patch1 i0 i1 i -> (0 <= a i)%Qc).
  Context (Hv0 : forall i, i0 <= i <= i1 + 1 -> (0 < v0 i)%Qc).
  Context (Hs : forall f, 0 <= f < 2 -> sound rob (bc f)) (Ro : roomy 1 (ends1 i0) (ends1 i1) bc).

  (** At a positive maximum the neighbours are as large. *)
  Lemma spread1 e : (forall i, patch1 i0 i1 i -> (op1 dx beta a v0 (ext1 i0 i1 dx v0 bc e) i <= 0)%Qc) ->
    forall i, patch1 i0 i1 i -> (forall i', patch1 i0 i1 i' -> (e i' <= e i)%Qc) -> (0 < e i)%Qc ->
      ext1 i0 i1 dx v0 bc e (i + 1)%Z = ext1 i0 i1 dx v0 bc e i /\
      ext1 i0 i1 dx v0 bc e (i - 1)%Z = ext1 i0 i1 dx v0 bc e i /\
      (a i * ext1 i0 i1 dx v0 bc e i <= 0)%Qc.
  Proof.
    intros Hr i Ip Mx Pe.
    assert (Up0 : (ext1 i0 i1 dx v0 bc e (i + 1)%Z <= ext1 i0 i1 dx v0 bc e i)%Qc).
    { destruct (patch_dec1 i0 i1 (i + 1)%Z) as [Y|N].
      - rewrite !(ext1_in i0 i1 dx a v0 bc e) by assumption. now apply Mx.
      - assert (i = i1) as -> by k_near. rewrite (ext1_face1 i0 i1 dx a v0 bc e ltac:(k_near)), (ext1_in i0 i1 dx a v0 bc e) by k_near.
      apply ghost_le; [apply (kl_le rob); [apply Hs; lia|apply Hdx; lia|apply Qclt_le_weak, Hv0; k_near]|apply ll_pos| |exact Pe].
      destruct (ll_depth (bc 1)) as [|D2]; [now left|right]. pose proof (Ro 1 ltac:(lia)) as R. rewrite D2 in R. change (1 / 2) with 0 in R. cbv [ends1 ends2 ends3] in R. cbn [Z.eqb Pos.eqb] in R. apply Mx. clear - R Ip. k_near. }
    assert (Dn0 : (ext1 i0 i1 dx v0 bc e (i - 1)%Z <= ext1 i0 i1 dx v0 bc e i)%Qc).
    { destruct (patch_dec1 i0 i1 (i - 1)%Z) as [Y|N].
      - rewrite !(ext1_in i0 i1 dx a v0 bc e) by assumption. now apply Mx.
      - assert (i = i0) as -> by k_near. rewrite (ext1_face0 i0 i1 dx a v0 bc e ltac:(k_near)), (ext1_in i0 i1 dx a v0 bc e) by k_near.
      apply ghost_le; [apply (kl_le rob); [apply Hs; lia|apply Hdx; lia|apply Qclt_le_weak, Hv0; k_near]|apply ll_pos| |exact Pe].
      destruct (ll_depth (bc 0)) as [|D2]; [now left|right]. pose proof (Ro 0 ltac:(lia)) as R. rewrite D2 in R. change (0 / 2) with 0 in R. cbv [ends1 ends2 ends3] in R. cbn [Z.eqb Pos.eqb] in R. apply Mx. clear - R Ip. k_near. }
    specialize (Hr i Ip). unfold op1 in Hr. pose proof Pe as Pe'. rewrite <- (ext1_in i0 i1 dx a v0 bc e i Ip) in Pe'.
    split; [exact (edge_term beta (dx 0) (v0 (i + 1)%Z) (v0 i) (ext1 i0 i1 dx v0 bc e i) (ext1 i0 i1 dx v0 bc e (i + 1)%Z) (ext1 i0 i1 dx v0 bc e (i - 1)%Z) _ Hb (Qc_ne_0 _ (Hdx 0 ltac:(lia))) (Hv0 (i + 1)%Z ltac:(k_near)) (Qclt_le_weak _ _ (Hv0 i ltac:(k_near))) Up0 Dn0 (Qc_mul _ _ (Ha i Ip) (Qclt_le_weak _ _ Pe')) Hr)|].
    split; [exact (down_term beta (dx 0) (v0 (i + 1)%Z) (v0 i) (ext1 i0 i1 dx v0 bc e i) (ext1 i0 i1 dx v0 bc e (i + 1)%Z) (ext1 i0 i1 dx v0 bc e (i - 1)%Z) _ Hb (Qc_ne_0 _ (Hdx 0 ltac:(lia))) (Qclt_le_weak _ _ (Hv0 (i + 1)%Z ltac:(k_near))) (Hv0 i ltac:(k_near)) Up0 Dn0 (Qc_mul _ _ (Ha i Ip) (Qclt_le_weak _ _ Pe')) Hr)|].
    exact (perm1r _ _ (other_term beta (dx 0) (v0 (i + 1)%Z) (v0 i) (ext1 i0 i1 dx v0 bc e i) (ext1 i0 i1 dx v0 bc e (i + 1)%Z) (ext1 i0 i1 dx v0 bc e (i - 1)%Z) (Qclt_le_weak _ _ Hb) (Qclt_le_weak _ _ (Hv0 (i + 1)%Z ltac:(k_near))) (Qclt_le_weak _ _ (Hv0 i ltac:(k_near))) Up0 Dn0) Hr).
  Qed.

  Lemma top1 e : (forall i, patch1 i0 i1 i -> (op1 dx beta a v0 (ext1 i0 i1 dx v0 bc e) i <= 0)%Qc) ->
    forall p0, patch1 i0 i1 p0 -> (forall i, patch1 i0 i1 i -> (e i <= e p0)%Qc) -> (0 < e p0)%Qc ->
    forall i, patch1 i0 i1 i -> e i = e p0.
  Proof.
    intros Hr p0 Ip0 Mx Pe.
    assert (Sp : forall i, patch1 i0 i1 i -> e i = e p0 -> (patch1 i0 i1 (i + 1)%Z -> e (i + 1)%Z = e p0) /\ (patch1 i0 i1 (i - 1)%Z -> e (i - 1)%Z = e p0)).
    { intros i Ip Ei. destruct (spread1 e Hr i Ip) as (Eu0 & Ed0 & Ea); [intros; rewrite Ei; now apply Mx|rewrite Ei; exact Pe|].
      split; [intros Y; rewrite <- Ei, <- (ext1_in i0 i1 dx a v0 bc e _ Y), Eu0; exact (ext1_in i0 i1 dx a v0 bc e i Ip)|]. intros Y; rewrite <- Ei, <- (ext1_in i0 i1 dx a v0 bc e _ Y), Ed0; exact (ext1_in i0 i1 dx a v0 bc e i Ip). }
    intros i Iq.
    apply (line (fun i => e i = e p0) i0 i1) with (i := p0); [|exact Ip0|exact Iq|reflexivity].
    intros t Hi Ei. destruct (Sp t Hi Ei) as (A1 & A2). split; intros; [apply A1|apply A2]; k_near.
  Qed.

  Context (Hh : (exists f, 0 <= f < 2 /\ b_kind (bc f) <> 1) \/ (exists i, patch1 i0 i1 i /\ (0 < a i)%Qc)).

  Lemma any1 e : (forall i, patch1 i0 i1 i -> (op1 dx beta a v0 (ext1 i0 i1 dx v0 bc e) i <= 0)%Qc) -> forall i, patch1 i0 i1 i -> (e i <= 0)%Qc.
  Proof.
    intros Hr i Ip0.
    destruct (list_max e (cells1 i0 i1)) as (x & Im & Mx).
    { intros C. apply in_cells1 in Ip0. rewrite C in Ip0. contradiction. }
    cbn [fst snd] in Mx. apply in_cells1 in Im.
    assert (Mx' : forall i, patch1 i0 i1 i -> (e i <= e x)%Qc).
    { intros i' I'. apply (Mx (i')). now apply in_cells1. }
    clear Mx. rename Mx' into Mx.
    apply Qcle_trans with (e x); [now apply Mx|]. destruct (Qclt_le_dec 0 (e x)) as [Pe|N]; [exfalso|exact N].
    pose proof (top1 e Hr x Im Mx Pe) as T. clear i Ip0.
    pose proof (roomy_le 1 (ends1 i0) (ends1 i1) bc Ro 0 ltac:(lia)) as B0. change (i0 <= i1) in B0.
    destruct Hh as [(f & Hf & Nk)|(i & Ip & Pa)].
    - assert (f = 0 \/ f = 1) as [->| ->] by lia.
      + assert (Ip : patch1 i0 i1 i0) by k_near. pose proof (T i0 Ip) as Te.
        destruct (spread1 e Hr i0 Ip) as (Eu0 & Ed0 & Ea); [intros; rewrite Te; now apply Mx|rewrite Te; exact Pe|].
        revert Ed0. apply Qc_lt_ne. rewrite (ext1_face0 i0 i1 dx a v0 bc e ltac:(k_near)), (ext1_in i0 i1 dx a v0 bc e i0 Ip).
        apply ghost_lt; [apply (kl_strict rob); [apply Hs; lia|apply Hdx; lia|apply Qclt_le_weak, Hv0; k_near|exact Nk]|apply ll_pos| |rewrite Te; exact Pe].
        destruct (ll_depth (bc 0)) as [|D2]; [now left|right]. pose proof (Ro 0 ltac:(lia)) as R. rewrite D2 in R. change (0 / 2) with 0 in R. cbv [ends1 ends2 ends3] in R. cbn [Z.eqb Pos.eqb] in R. rewrite Te. apply Mx. clear - R Ip. k_near.
      + assert (Ip : patch1 i0 i1 i1) by k_near. pose proof (T i1 Ip) as Te.
        destruct (spread1 e Hr i1 Ip) as (Eu0 & Ed0 & Ea); [intros; rewrite Te; now apply Mx|rewrite Te; exact Pe|].
        revert Eu0. apply Qc_lt_ne. rewrite (ext1_face1 i0 i1 dx a v0 bc e ltac:(k_near)), (ext1_in i0 i1 dx a v0 bc e i1 Ip).
        apply ghost_lt; [apply (kl_strict rob); [apply Hs; lia|apply Hdx; lia|apply Qclt_le_weak, Hv0; k_near|exact Nk]|apply ll_pos| |rewrite Te; exact Pe].
        destruct (ll_depth (bc 1)) as [|D2]; [now left|right]. pose proof (Ro 1 ltac:(lia)) as R. rewrite D2 in R. change (1 / 2) with 0 in R. cbv [ends1 ends2 ends3] in R. cbn [Z.eqb Pos.eqb] in R. rewrite Te. apply Mx. clear - R Ip. k_near.
    - destruct (spread1 e Hr i Ip) as (Eu0 & Ed0 & Ea); [intros; rewrite (T i Ip); now apply Mx|rewrite (T i Ip); exact Pe|].
      rewrite (ext1_in i0 i1 dx a v0 bc e i Ip), (T i Ip) in Ea. exact (Qclt_not_le _ _ (Qc_pos_mul _ _ Pa Pe) Ea).
  Qed.

  Lemma any1_compare (w z r s : Z -> Qc) :
    (forall i, patch1 i0 i1 i -> r i = op1 dx beta a v0 (ext1 i0 i1 dx v0 bc w) i) -> (forall i, patch1 i0 i1 i -> s i = op1 dx beta a v0 (ext1 i0 i1 dx v0 bc z) i) ->
    (forall i, patch1 i0 i1 i -> (r i <= s i)%Qc) -> forall i, patch1 i0 i1 i -> (w i <= z i)%Qc.
  Proof.
    intros Ew Ez Le i Ip. apply Qc_nonneg_sub.
    replace (z i - w i)%Qc with (- (1 * w i + (- (1)) * z i))%Qc by ring. apply (Qcopp_le_compat _ 0).
    revert i Ip. apply (any1 (fun i => 1 * w i + (- (1)) * z i)%Qc).
    intros i Ip. rewrite bvp1_lin by exact Ip. rewrite <- Ew, <- Ez by exact Ip.
    pose proof (Qc_sub_nonneg _ _ (Le i Ip)) as G. apply Qcopp_le_compat in G.
    replace (- 0)%Qc with 0%Qc in G by ring. replace (1 * r i + (- (1)) * s i)%Qc with (- (s i - r i))%Qc by ring. exact G.
  Qed.

  Lemma any1_exists (r : Z -> Qc) : exists w : Z -> Qc, forall i, patch1 i0 i1 i -> op1 dx beta a v0 (ext1 i0 i1 dx v0 bc w) i = r i.
  Proof.
    destruct (@solvable (Z) Z.eq_dec (fun w => (op1 dx beta a v0 (ext1 i0 i1 dx v0 bc (fun i => w i)))) (cells1 i0 i1) (nodup_cells1 i0 i1)) with (g := fun _ : Z => 0%Qc) (r := r) as (w & Hw & Tw).
    - intros x y w z i Ip. cbn [fst snd]. apply in_cells1 in Ip. apply (bvp1_lin i0 i1 dx beta a v0 bc x y (fun i => w i) (fun i => z i) i Ip).
    - intros w Out Z.
      assert (Zl : forall s i, patch1 i0 i1 i -> op1 dx beta a v0 (ext1 i0 i1 dx v0 bc (fun i => s * w i + 0 * w i)%Qc) i = 0%Qc).
      { intros s i Ip. rewrite (bvp1_lin i0 i1 dx beta a v0 bc s 0 (fun i => w i) (fun i => w i) i Ip).
        pose proof (Z i (proj2 (in_cells1 i0 i1 i) Ip)) as E. cbn [fst snd] in E. rewrite E. ring. }
      intros i Ip. apply in_cells1 in Ip. apply Qcle_antisym.
      + replace (w i) with (1 * w i + 0 * w i)%Qc by ring. revert i Ip. apply any1. intros i Ip. rewrite (Zl 1%Qc) by exact Ip. apply Qcle_refl.
      + replace (w i) with (- ((- (1)) * w i + 0 * w i))%Qc by ring. apply (Qcopp_le_compat _ 0). revert i Ip. apply any1. intros i Ip. rewrite (Zl (- (1))%Qc) by exact Ip. apply Qcle_refl.
    - intros w z i Ip E. cbn [fst snd]. apply in_cells1 in Ip. apply (op1_near i0 i1 dx beta a v0 bc); [exact Ip|]. intros. apply ext1_ext. intros. apply E.
    - exists (fun i => w i). intros i Ip. apply (Tw i). now apply in_cells1.
  Qed.
End Any1.


(** Neumann conditions all around and no reaction. *)
Section Closed1.
  Context (i0 i1 : Z) (dx : Z -> Qc) (beta : Qc) (a v0 : Z -> Qc) (bc : Z -> bcond QcS).
  Context (Hn : forall f, 0 <= f < 2 -> b_kind (bc f) = 1) (Ha0 : forall i, patch1 i0 i1 i -> a i = 0%Qc) (Ro : roomy 1 (ends1 i0) (ends1 i1) bc).

  Lemma closed1_sum (w : Z -> Qc) : total (S := QcS) i0 i1 (fun i => op1 dx beta a v0 (ext1 i0 i1 dx v0 bc w) i) = 0%Qc.
  Proof.
    pose proof (roomy_le 1 (ends1 i0) (ends1 i1) bc Ro 0 ltac:(lia)) as B0. change (i0 <= i1) in B0.
    set (G0 := (fun i => v0 i * ((ext1 i0 i1 dx v0 bc w i - ext1 i0 i1 dx v0 bc w (i - 1)%Z) / dx 0%Z))%Qc).
    assert (Z0 : total (S := QcS) i0 i1 (fun i => - beta * ((G0 (i + 1)%Z - G0 i) / dx 0%Z))%Qc = 0%Qc).
    { rewrite <- lit_0. apply (closed1_0 QcS_laws i0 i1 (- beta)%Qc (dx 0%Z) G0); [lia|]. rewrite lit_0. unfold G0. split.
      - rewrite (ext1_face0 i0 i1 dx a v0 bc w ltac:(k_near)), (ext1_in i0 i1 dx a v0 bc w) by k_near. unfold kk, ll. rewrite (Hn 0) by lia. cbn [Z.eqb Pos.eqb andb]. unfold Qcdiv. k_qc. ring.
      - replace (i1 + 1 - 1)%Z with i1 by lia. rewrite (ext1_face1 i0 i1 dx a v0 bc w ltac:(k_near)), (ext1_in i0 i1 dx a v0 bc w) by k_near. unfold kk, ll. rewrite (Hn 1) by lia. cbn [Z.eqb Pos.eqb andb]. unfold Qcdiv. k_qc. ring. }
    transitivity (total (S := QcS) i0 i1 (fun i => - beta * ((G0 (i + 1)%Z - G0 i) / dx 0%Z))%Qc).
    { apply (total_ext (S := QcS)). intros i Ii. unfold op1, G0. rewrite (Ha0 i) by k_near. replace (i + 1 - 1)%Z with i by lia.
      unfold Qcdiv. k_qc. ring. }
    exact Z0.
  Qed.

  Lemma closed1_const k0' i : patch1 i0 i1 i -> op1 dx beta a v0 (ext1 i0 i1 dx v0 bc (fun _ => k0')) i = 0%Qc.
  Proof.
    intros Ip. rewrite (op1_near i0 i1 dx beta a v0 bc _ (fun _ => k0') i Ip).
    - unfold op1. rewrite (Ha0 i Ip). unfold Qcdiv. ring.
    - clear Ip i. intros i In. unfold ext1, kk, ll. rewrite (Hn 0) by lia. rewrite (Hn 1) by lia. cbn [Z.eqb Pos.eqb andb].
      repeat (match goal with |- context [if ?b then _ else _] => destruct b end; [ring|]). reflexivity.
  Qed.

  Context (Hb : (0 < beta)%Qc) (Hdx : forall d, 0 <= d < 1 -> (0 < dx d)%Qc).
  Context (Hv0 : forall i, i0 <= i <= i1 + 1 -> (0 < v0 i)%Qc).

  Lemma closed1_flat e : (forall i, patch1 i0 i1 i -> op1 dx beta a v0 (ext1 i0 i1 dx v0 bc e) i = 0%Qc) -> forall i, patch1 i0 i1 i -> e i = e i0.
  Proof.
    pose proof (roomy_le 1 (ends1 i0) (ends1 i1) bc Ro 0 ltac:(lia)) as B0. change (i0 <= i1) in B0.
    intros He. destruct (list_max e (cells1 i0 i1)) as (x & Im & Mx).
    { intros C. assert (In i0 (cells1 i0 i1)) as I0 by (apply in_cells1; k_near). rewrite C in I0. contradiction. }
    cbn [fst snd] in Mx. apply in_cells1 in Im.
    assert (Mx' : forall i, patch1 i0 i1 i -> (e i <= e x)%Qc).
    { intros i' I'. apply (Mx (i')). now apply in_cells1. }
    set (g := fun i => (1 * e i + (1 - e x) * 1)%Qc).
    assert (Gt : forall i, patch1 i0 i1 i -> g i = g x).
    { refine (top1 i0 i1 dx beta a v0 bc false Hb Hdx _ Hv0 _ Ro g _ x Im _ _).
      - intros i Ip. rewrite (Ha0 i Ip). apply Qcle_refl.
      - intros f Hf. right. left. now apply Hn.
      - intros i Ip. unfold g. rewrite (bvp1_lin i0 i1 dx beta a v0 bc 1 (1 - e x) e (fun _ => 1%Qc) i Ip), (He i Ip), (closed1_const 1 i Ip).
        replace (1 * 0 + (1 - e x) * 0)%Qc with 0%Qc by ring. apply Qcle_refl.
      - intros i Ip. unfold g. apply Qcplus_le_compat; [|apply Qcle_refl]. rewrite !Qcmult_1_l. now apply Mx'.
      - unfold g. replace (1 * e x + (1 - e x) * 1)%Qc with 1%Qc by ring. reflexivity. }
    assert (Et : forall i, patch1 i0 i1 i -> e i = e x).
    { intros i Ip. specialize (Gt i Ip). unfold g in Gt. replace (e i) with (1 * e i + (1 - e x) * 1 - (1 - e x))%Qc by ring. rewrite Gt. ring. }
    intros i Ip. rewrite (Et i Ip). symmetry. apply Et. k_near.
  Qed.

  Lemma closed1_unique w z : (forall i, patch1 i0 i1 i -> op1 dx beta a v0 (ext1 i0 i1 dx v0 bc w) i = op1 dx beta a v0 (ext1 i0 i1 dx v0 bc z) i) -> exists c, forall i, patch1 i0 i1 i -> z i = (w i + c)%Qc.
  Proof.
    intros E. exists (1 * z i0 + (- (1)) * w i0)%Qc. intros i Ip.
    assert (F : forall i, patch1 i0 i1 i -> op1 dx beta a v0 (ext1 i0 i1 dx v0 bc (fun i => 1 * z i + (- (1)) * w i)%Qc) i = 0%Qc).
    { clear i Ip. intros i Ip. rewrite (bvp1_lin i0 i1 dx beta a v0 bc 1 (- (1)) z w i Ip), (E i Ip). ring. }
    pose proof (closed1_flat _ F i Ip) as G. cbv beta in G. rewrite <- G. ring.
  Qed.

  (** Drop the equation of one cell and fix the value there. *)
  Lemma closed1_exists (r : Z -> Qc) : total (S := QcS) i0 i1 r = 0%Qc -> exists w : Z -> Qc, forall i, patch1 i0 i1 i -> op1 dx beta a v0 (ext1 i0 i1 dx v0 bc w) i = r i.
  Proof.
    pose proof (roomy_le 1 (ends1 i0) (ends1 i1) bc Ro 0 ltac:(lia)) as B0. change (i0 <= i1) in B0.
    intros Sr. assert (I0 : patch1 i0 i1 i0) by k_near.
    assert (Last : forall e : Z -> Qc, total (S := QcS) i0 i1 e = 0%Qc -> (forall i, patch1 i0 i1 i -> i <> i0 -> e i = 0%Qc) -> forall i, patch1 i0 i1 i -> e i = 0%Qc).
    { intros e S0 E i Ip. destruct (Z.eq_dec i i0) as [Q|Q]; [|now apply E].
      subst i. rewrite <- S0. symmetry.
      apply (total_at QcS_laws i0 i1 e i0); [lia|]. intros i' Ii N. rewrite lit_0. apply E; [k_near|]. intros C. contradiction. }
    destruct (@solvable (Z) Z.eq_dec (fun w p => if Z.eq_dec p i0 then w i0 else (op1 dx beta a v0 (ext1 i0 i1 dx v0 bc (fun i => w i))) p) (cells1 i0 i1) (nodup_cells1 i0 i1)) with (g := fun _ : Z => 0%Qc)
      (r := fun p => if Z.eq_dec p i0 then 0%Qc else r p) as (w & Hw & Tw).
    - intros x y w z p Ip. destruct (Z.eq_dec p i0); [reflexivity|]. rename p into i. cbn [fst snd]. apply in_cells1 in Ip. apply (bvp1_lin i0 i1 dx beta a v0 bc x y (fun i => w i) (fun i => z i) i Ip).
    - intros w Out Z. assert (W0 : w i0 = 0%Qc).
      { specialize (Z i0 (proj2 (in_cells1 i0 i1 i0) I0)). destruct (Z.eq_dec i0 i0); [exact Z|contradiction]. }
      assert (E : forall i, patch1 i0 i1 i -> op1 dx beta a v0 (ext1 i0 i1 dx v0 bc (fun i => w i)) i = 0%Qc).
      { apply Last; [apply closed1_sum|]. intros i Ip Q. specialize (Z i (proj2 (in_cells1 i0 i1 i) Ip)). destruct (Z.eq_dec i i0); [contradiction|exact Z]. }
      intros i Ip. apply in_cells1 in Ip. rewrite <- W0. exact (closed1_flat (fun i => w i) E i Ip).
    - intros w z p Ip E. destruct (Z.eq_dec p i0); [apply E|]. rename p into i. cbn [fst snd]. apply in_cells1 in Ip. apply (op1_near i0 i1 dx beta a v0 bc); [exact Ip|]. intros. apply ext1_ext. intros. apply E.
    - exists (fun i => w i).
      assert (E : forall i, patch1 i0 i1 i -> (op1 dx beta a v0 (ext1 i0 i1 dx v0 bc (fun i => w i)) i + (- (1)) * r i)%Qc = 0%Qc).
      { apply Last.
        - etransitivity; [exact (total_add QcS_laws i0 i1 (fun i => op1 dx beta a v0 (ext1 i0 i1 dx v0 bc (fun i => w i)) i) (fun i => (- (1)) * r i)%Qc)|]. rewrite closed1_sum.
          etransitivity; [exact (Qcplus_0_l _)|]. etransitivity; [exact (total_mul QcS_laws i0 i1 (- (1))%Qc r)|]. rewrite Sr. exact (Qcmult_0_r _).
        - intros i Ip Q. pose proof (Tw i (proj2 (in_cells1 i0 i1 i) Ip)) as E. destruct (Z.eq_dec i i0); [contradiction|]. cbn [fst snd] in E. rewrite E. ring. }
      intros i Ip. specialize (E i Ip). replace (op1 dx beta a v0 (ext1 i0 i1 dx v0 bc (fun i => w i)) i) with (op1 dx beta a v0 (ext1 i0 i1 dx v0 bc (fun i => w i)) i + (- (1)) * r i + r i)%Qc by ring. rewrite E. ring.
  Qed.
End Closed1.


Section Any2.
  Context (i0 j0 i1 j1 : Z) (dx : Z -> Qc) (beta : Qc) (a v0 v1 : Z -> Z -> Qc) (bc : Z -> bcond QcS).
  Context (rob : bool) (Hb : (0 < beta)%Qc) (Hdx : forall d, 0 <= d < 2 -> (0 < dx d)%Qc).
  Context (Ha : forall i j, patch2 i0 j0 i1 j1 i j -> (0 <= a i j)%Qc).
  Context (Hv0 : forall i j, i0 <= i <= i1 + 1 -> j0 <= j <= j1 -> (0 < v0 i j)%Qc).
  Context (Hv1 : forall i j, i0 <= i <= i1 -> j0 <= j <= j1 + 1 -> (0 < v1 i j)%Qc).
  Context (Hs : forall f, 0 <= f < 4 -> sound rob (bc f)) (Ro : roomy 2 (ends2 i0 j0) (ends2 i1 j1) bc).

  (** At a positive maximum the neighbours are as large. *)
  Lemma spread2 e : (forall i j, patch2 i0 j0 i1 j1 i j -> (op2 dx beta a v0 v1 (ext2 i0 j0 i1 j1 dx v0 v1 bc e) i j <= 0)%Qc) ->
    forall i j, patch2 i0 j0 i1 j1 i j -> (forall i' j', patch2 i0 j0 i1 j1 i' j' -> (e i' j' <= e i j)%Qc) -> (0 < e i j)%Qc ->
      ext2 i0 j0 i1 j1 dx v0 v1 bc e (i + 1)%Z j = ext2 i0 j0 i1 j1 dx v0 v1 bc e i j /\
      ext2 i0 j0 i1 j1 dx v0 v1 bc e (i - 1)%Z j = ext2 i0 j0 i1 j1 dx v0 v1 bc e i j /\
      ext2 i0 j0 i1 j1 dx v0 v1 bc e i (j + 1)%Z = ext2 i0 j0 i1 j1 dx v0 v1 bc e i j /\
      ext2 i0 j0 i1 j1 dx v0 v1 bc e i (j - 1)%Z = ext2 i0 j0 i1 j1 dx v0 v1 bc e i j /\
      (a i j * ext2 i0 j0 i1 j1 dx v0 v1 bc e i j <= 0)%Qc.
  Proof.
    intros Hr i j Ip Mx Pe.
    assert (Up0 : (ext2 i0 j0 i1 j1 dx v0 v1 bc e (i + 1)%Z j <= ext2 i0 j0 i1 j1 dx v0 v1 bc e i j)%Qc).
    { destruct (patch_dec2 i0 j0 i1 j1 (i + 1)%Z j) as [Y|N].
      - rewrite !(ext2_in i0 j0 i1 j1 dx a v0 v1 bc e) by assumption. now apply Mx.
      - assert (i = i1) as -> by k_near. rewrite (ext2_face1 i0 j0 i1 j1 dx a v0 v1 bc e ltac:(k_near) j ltac:(k_near)), (ext2_in i0 j0 i1 j1 dx a v0 v1 bc e) by k_near.
      apply ghost_le; [apply (kl_le rob); [apply Hs; lia|apply Hdx; lia|apply Qclt_le_weak, Hv0; k_near]|apply ll_pos| |exact Pe].
      destruct (ll_depth (bc 1)) as [|D2]; [now left|right]. pose proof (Ro 1 ltac:(lia)) as R. rewrite D2 in R. change (1 / 2) with 0 in R. cbv [ends1 ends2 ends3] in R. cbn [Z.eqb Pos.eqb] in R. apply Mx. clear - R Ip. k_near. }
    assert (Dn0 : (ext2 i0 j0 i1 j1 dx v0 v1 bc e (i - 1)%Z j <= ext2 i0 j0 i1 j1 dx v0 v1 bc e i j)%Qc).
    { destruct (patch_dec2 i0 j0 i1 j1 (i - 1)%Z j) as [Y|N].
      - rewrite !(ext2_in i0 j0 i1 j1 dx a v0 v1 bc e) by assumption. now apply Mx.
      - assert (i = i0) as -> by k_near. rewrite (ext2_face0 i0 j0 i1 j1 dx a v0 v1 bc e ltac:(k_near) j ltac:(k_near)), (ext2_in i0 j0 i1 j1 dx a v0 v1 bc e) by k_near.
      apply ghost_le; [apply (kl_le rob); [apply Hs; lia|apply Hdx; lia|apply Qclt_le_weak, Hv0; k_near]|apply ll_pos| |exact Pe].
      destruct (ll_depth (bc 0)) as [|D2]; [now left|right]. pose proof (Ro 0 ltac:(lia)) as R. rewrite D2 in R. change (0 / 2) with 0 in R. cbv [ends1 ends2 ends3] in R. cbn [Z.eqb Pos.eqb] in R. apply Mx. clear - R Ip. k_near. }
    assert (Up1 : (ext2 i0 j0 i1 j1 dx v0 v1 bc e i (j + 1)%Z <= ext2 i0 j0 i1 j1 dx v0 v1 bc e i j)%Qc).
    { destruct (patch_dec2 i0 j0 i1 j1 i (j + 1)%Z) as [Y|N].
      - rewrite !(ext2_in i0 j0 i1 j1 dx a v0 v1 bc e) by assumption. now apply Mx.
      - assert (j = j1) as -> by k_near. rewrite (ext2_face3 i0 j0 i1 j1 dx a v0 v1 bc e ltac:(k_near) i ltac:(k_near)), (ext2_in i0 j0 i1 j1 dx a v0 v1 bc e) by k_near.
      apply ghost_le; [apply (kl_le rob); [apply Hs; lia|apply Hdx; lia|apply Qclt_le_weak, Hv1; k_near]|apply ll_pos| |exact Pe].
      destruct (ll_depth (bc 3)) as [|D2]; [now left|right]. pose proof (Ro 3 ltac:(lia)) as R. rewrite D2 in R. change (3 / 2) with 1 in R. cbv [ends1 ends2 ends3] in R. cbn [Z.eqb Pos.eqb] in R. apply Mx. clear - R Ip. k_near. }
    assert (Dn1 : (ext2 i0 j0 i1 j1 dx v0 v1 bc e i (j - 1)%Z <= ext2 i0 j0 i1 j1 dx v0 v1 bc e i j)%Qc).
    { destruct (patch_dec2 i0 j0 i1 j1 i (j - 1)%Z) as [Y|N].
      - rewrite !(ext2_in i0 j0 i1 j1 dx a v0 v1 bc e) by assumption. now apply Mx.
      - assert (j = j0) as -> by k_near. rewrite (ext2_face2 i0 j0 i1 j1 dx a v0 v1 bc e ltac:(k_near) i ltac:(k_near)), (ext2_in i0 j0 i1 j1 dx a v0 v1 bc e) by k_near.
      apply ghost_le; [apply (kl_le rob); [apply Hs; lia|apply Hdx; lia|apply Qclt_le_weak, Hv1; k_near]|apply ll_pos| |exact Pe].
      destruct (ll_depth (bc 2)) as [|D2]; [now left|right]. pose proof (Ro 2 ltac:(lia)) as R. rewrite D2 in R. change (2 / 2) with 1 in R. cbv [ends1 ends2 ends3] in R. cbn [Z.eqb Pos.eqb] in R. apply Mx. clear - R Ip. k_near. }
    specialize (Hr i j Ip). unfold op2 in Hr. pose proof Pe as Pe'. rewrite <- (ext2_in i0 j0 i1 j1 dx a v0 v1 bc e i j Ip) in Pe'.
    split; [exact (edge_term beta (dx 0) (v0 (i + 1)%Z j) (v0 i j) (ext2 i0 j0 i1 j1 dx v0 v1 bc e i j) (ext2 i0 j0 i1 j1 dx v0 v1 bc e (i + 1)%Z j) (ext2 i0 j0 i1 j1 dx v0 v1 bc e (i - 1)%Z j) _ Hb (Qc_ne_0 _ (Hdx 0 ltac:(lia))) (Hv0 (i + 1)%Z j ltac:(k_near) ltac:(k_near)) (Qclt_le_weak _ _ (Hv0 i j ltac:(k_near) ltac:(k_near))) Up0 Dn0 (Qc_add _ _ (other_term beta (dx 1) (v1 i (j + 1)%Z) (v1 i j) (ext2 i0 j0 i1 j1 dx v0 v1 bc e i j) (ext2 i0 j0 i1 j1 dx v0 v1 bc e i (j + 1)%Z) (ext2 i0 j0 i1 j1 dx v0 v1 bc e i (j - 1)%Z) (Qclt_le_weak _ _ Hb) (Qclt_le_weak _ _ (Hv1 i (j + 1)%Z ltac:(k_near) ltac:(k_near))) (Qclt_le_weak _ _ (Hv1 i j ltac:(k_near) ltac:(k_near))) Up1 Dn1) (Qc_mul _ _ (Ha i j Ip) (Qclt_le_weak _ _ Pe'))) (perm20 _ _ _ Hr))|].
    split; [exact (down_term beta (dx 0) (v0 (i + 1)%Z j) (v0 i j) (ext2 i0 j0 i1 j1 dx v0 v1 bc e i j) (ext2 i0 j0 i1 j1 dx v0 v1 bc e (i + 1)%Z j) (ext2 i0 j0 i1 j1 dx v0 v1 bc e (i - 1)%Z j) _ Hb (Qc_ne_0 _ (Hdx 0 ltac:(lia))) (Qclt_le_weak _ _ (Hv0 (i + 1)%Z j ltac:(k_near) ltac:(k_near))) (Hv0 i j ltac:(k_near) ltac:(k_near)) Up0 Dn0 (Qc_add _ _ (other_term beta (dx 1) (v1 i (j + 1)%Z) (v1 i j) (ext2 i0 j0 i1 j1 dx v0 v1 bc e i j) (ext2 i0 j0 i1 j1 dx v0 v1 bc e i (j + 1)%Z) (ext2 i0 j0 i1 j1 dx v0 v1 bc e i (j - 1)%Z) (Qclt_le_weak _ _ Hb) (Qclt_le_weak _ _ (Hv1 i (j + 1)%Z ltac:(k_near) ltac:(k_near))) (Qclt_le_weak _ _ (Hv1 i j ltac:(k_near) ltac:(k_near))) Up1 Dn1) (Qc_mul _ _ (Ha i j Ip) (Qclt_le_weak _ _ Pe'))) (perm20 _ _ _ Hr))|].
    split; [exact (edge_term beta (dx 1) (v1 i (j + 1)%Z) (v1 i j) (ext2 i0 j0 i1 j1 dx v0 v1 bc e i j) (ext2 i0 j0 i1 j1 dx v0 v1 bc e i (j + 1)%Z) (ext2 i0 j0 i1 j1 dx v0 v1 bc e i (j - 1)%Z) _ Hb (Qc_ne_0 _ (Hdx 1 ltac:(lia))) (Hv1 i (j + 1)%Z ltac:(k_near) ltac:(k_near)) (Qclt_le_weak _ _ (Hv1 i j ltac:(k_near) ltac:(k_near))) Up1 Dn1 (Qc_add _ _ (other_term beta (dx 0) (v0 (i + 1)%Z j) (v0 i j) (ext2 i0 j0 i1 j1 dx v0 v1 bc e i j) (ext2 i0 j0 i1 j1 dx v0 v1 bc e (i + 1)%Z j) (ext2 i0 j0 i1 j1 dx v0 v1 bc e (i - 1)%Z j) (Qclt_le_weak _ _ Hb) (Qclt_le_weak _ _ (Hv0 (i + 1)%Z j ltac:(k_near) ltac:(k_near))) (Qclt_le_weak _ _ (Hv0 i j ltac:(k_near) ltac:(k_near))) Up0 Dn0) (Qc_mul _ _ (Ha i j Ip) (Qclt_le_weak _ _ Pe'))) (perm2 _ _ _ Hr))|].
    split; [exact (down_term beta (dx 1) (v1 i (j + 1)%Z) (v1 i j) (ext2 i0 j0 i1 j1 dx v0 v1 bc e i j) (ext2 i0 j0 i1 j1 dx v0 v1 bc e i (j + 1)%Z) (ext2 i0 j0 i1 j1 dx v0 v1 bc e i (j - 1)%Z) _ Hb (Qc_ne_0 _ (Hdx 1 ltac:(lia))) (Qclt_le_weak _ _ (Hv1 i (j + 1)%Z ltac:(k_near) ltac:(k_near))) (Hv1 i j ltac:(k_near) ltac:(k_near)) Up1 Dn1 (Qc_add _ _ (other_term beta (dx 0) (v0 (i + 1)%Z j) (v0 i j) (ext2 i0 j0 i1 j1 dx v0 v1 bc e i j) (ext2 i0 j0 i1 j1 dx v0 v1 bc e (i + 1)%Z j) (ext2 i0 j0 i1 j1 dx v0 v1 bc e (i - 1)%Z j) (Qclt_le_weak _ _ Hb) (Qclt_le_weak _ _ (Hv0 (i + 1)%Z j ltac:(k_near) ltac:(k_near))) (Qclt_le_weak _ _ (Hv0 i j ltac:(k_near) ltac:(k_near))) Up0 Dn0) (Qc_mul _ _ (Ha i j Ip) (Qclt_le_weak _ _ Pe'))) (perm2 _ _ _ Hr))|].
    exact (perm1r _ _ (Qc_add _ _ (other_term beta (dx 0) (v0 (i + 1)%Z j) (v0 i j) (ext2 i0 j0 i1 j1 dx v0 v1 bc e i j) (ext2 i0 j0 i1 j1 dx v0 v1 bc e (i + 1)%Z j) (ext2 i0 j0 i1 j1 dx v0 v1 bc e (i - 1)%Z j) (Qclt_le_weak _ _ Hb) (Qclt_le_weak _ _ (Hv0 (i + 1)%Z j ltac:(k_near) ltac:(k_near))) (Qclt_le_weak _ _ (Hv0 i j ltac:(k_near) ltac:(k_near))) Up0 Dn0) (other_term beta (dx 1) (v1 i (j + 1)%Z) (v1 i j) (ext2 i0 j0 i1 j1 dx v0 v1 bc e i j) (ext2 i0 j0 i1 j1 dx v0 v1 bc e i (j + 1)%Z) (ext2 i0 j0 i1 j1 dx v0 v1 bc e i (j - 1)%Z) (Qclt_le_weak _ _ Hb) (Qclt_le_weak _ _ (Hv1 i (j + 1)%Z ltac:(k_near) ltac:(k_near))) (Qclt_le_weak _ _ (Hv1 i j ltac:(k_near) ltac:(k_near))) Up1 Dn1)) Hr).
  Qed.

  Lemma top2 e : (forall i j, patch2 i0 j0 i1 j1 i j -> (op2 dx beta a v0 v1 (ext2 i0 j0 i1 j1 dx v0 v1 bc e) i j <= 0)%Qc) ->
    forall p0 p1, patch2 i0 j0 i1 j1 p0 p1 -> (forall i j, patch2 i0 j0 i1 j1 i j -> (e i j <= e p0 p1)%Qc) -> (0 < e p0 p1)%Qc ->
    forall i j, patch2 i0 j0 i1 j1 i j -> e i j = e p0 p1.
  Proof.
    intros Hr p0 p1 Ip0 Mx Pe.
    assert (Sp : forall i j, patch2 i0 j0 i1 j1 i j -> e i j = e p0 p1 -> (patch2 i0 j0 i1 j1 (i + 1)%Z j -> e (i + 1)%Z j = e p0 p1) /\ (patch2 i0 j0 i1 j1 (i - 1)%Z j -> e (i - 1)%Z j = e p0 p1) /\ (patch2 i0 j0 i1 j1 i (j + 1)%Z -> e i (j + 1)%Z = e p0 p1) /\ (patch2 i0 j0 i1 j1 i (j - 1)%Z -> e i (j - 1)%Z = e p0 p1)).
    { intros i j Ip Ei. destruct (spread2 e Hr i j Ip) as (Eu0 & Ed0 & Eu1 & Ed1 & Ea); [intros; rewrite Ei; now apply Mx|rewrite Ei; exact Pe|].
      split; [intros Y; rewrite <- Ei, <- (ext2_in i0 j0 i1 j1 dx a v0 v1 bc e _ _ Y), Eu0; exact (ext2_in i0 j0 i1 j1 dx a v0 v1 bc e i j Ip)|]. split; [intros Y; rewrite <- Ei, <- (ext2_in i0 j0 i1 j1 dx a v0 v1 bc e _ _ Y), Ed0; exact (ext2_in i0 j0 i1 j1 dx a v0 v1 bc e i j Ip)|]. split; [intros Y; rewrite <- Ei, <- (ext2_in i0 j0 i1 j1 dx a v0 v1 bc e _ _ Y), Eu1; exact (ext2_in i0 j0 i1 j1 dx a v0 v1 bc e i j Ip)|]. intros Y; rewrite <- Ei, <- (ext2_in i0 j0 i1 j1 dx a v0 v1 bc e _ _ Y), Ed1; exact (ext2_in i0 j0 i1 j1 dx a v0 v1 bc e i j Ip). }
    intros i j Iq.
    assert (C0 : e i p1 = e p0 p1).
    { apply (line (fun t => e t p1 = e p0 p1) i0 i1) with (i := p0); [|k_near|k_near|reflexivity].
      intros t Ht Ei. destruct (Sp t p1 ltac:(k_near) Ei) as (A0 & A1 & A2 & A3). split; intros; [apply A0|apply A1]; k_near. }
    assert (C1 : e i j = e p0 p1).
    { apply (line (fun t => e i t = e p0 p1) j0 j1) with (i := p1); [|k_near|k_near|exact C0].
      intros t Ht Ei. destruct (Sp i t ltac:(k_near) Ei) as (A0 & A1 & A2 & A3). split; intros; [apply A2|apply A3]; k_near. }
    exact C1.
  Qed.

  Context (Hh : (exists f, 0 <= f < 4 /\ b_kind (bc f) <> 1) \/ (exists i j, patch2 i0 j0 i1 j1 i j /\ (0 < a i j)%Qc)).

  Lemma any2 e : (forall i j, patch2 i0 j0 i1 j1 i j -> (op2 dx beta a v0 v1 (ext2 i0 j0 i1 j1 dx v0 v1 bc e) i j <= 0)%Qc) -> forall i j, patch2 i0 j0 i1 j1 i j -> (e i j <= 0)%Qc.
  Proof.
    intros Hr i j Ip0.
    destruct (list_max (fun p : Z * Z => e (fst p) (snd p)) (cells2 i0 j0 i1 j1)) as ([x y] & Im & Mx).
    { intros C. apply in_cells2 in Ip0. rewrite C in Ip0. contradiction. }
    cbn [fst snd] in Mx. apply in_cells2 in Im.
    assert (Mx' : forall i j, patch2 i0 j0 i1 j1 i j -> (e i j <= e x y)%Qc).
    { intros i' j' I'. apply (Mx (i', j')). now apply in_cells2. }
    clear Mx. rename Mx' into Mx.
    apply Qcle_trans with (e x y); [now apply Mx|]. destruct (Qclt_le_dec 0 (e x y)) as [Pe|N]; [exfalso|exact N].
    pose proof (top2 e Hr x y Im Mx Pe) as T. clear i j Ip0.
    pose proof (roomy_le 2 (ends2 i0 j0) (ends2 i1 j1) bc Ro 0 ltac:(lia)) as B0. change (i0 <= i1) in B0. pose proof (roomy_le 2 (ends2 i0 j0) (ends2 i1 j1) bc Ro 1 ltac:(lia)) as B1. change (j0 <= j1) in B1.
    destruct Hh as [(f & Hf & Nk)|(i & j & Ip & Pa)].
    - assert (f = 0 \/ f = 1 \/ f = 2 \/ f = 3) as [->|[->|[->| ->]]] by lia.
      + assert (Ip : patch2 i0 j0 i1 j1 i0 j0) by k_near. pose proof (T i0 j0 Ip) as Te.
        destruct (spread2 e Hr i0 j0 Ip) as (Eu0 & Ed0 & Eu1 & Ed1 & Ea); [intros; rewrite Te; now apply Mx|rewrite Te; exact Pe|].
        revert Ed0. apply Qc_lt_ne. rewrite (ext2_face0 i0 j0 i1 j1 dx a v0 v1 bc e ltac:(k_near) j0 ltac:(k_near)), (ext2_in i0 j0 i1 j1 dx a v0 v1 bc e i0 j0 Ip).
        apply ghost_lt; [apply (kl_strict rob); [apply Hs; lia|apply Hdx; lia|apply Qclt_le_weak, Hv0; k_near|exact Nk]|apply ll_pos| |rewrite Te; exact Pe].
        destruct (ll_depth (bc 0)) as [|D2]; [now left|right]. pose proof (Ro 0 ltac:(lia)) as R. rewrite D2 in R. change (0 / 2) with 0 in R. cbv [ends1 ends2 ends3] in R. cbn [Z.eqb Pos.eqb] in R. rewrite Te. apply Mx. clear - R Ip. k_near.
      + assert (Ip : patch2 i0 j0 i1 j1 i1 j0) by k_near. pose proof (T i1 j0 Ip) as Te.
        destruct (spread2 e Hr i1 j0 Ip) as (Eu0 & Ed0 & Eu1 & Ed1 & Ea); [intros; rewrite Te; now apply Mx|rewrite Te; exact Pe|].
        revert Eu0. apply Qc_lt_ne. rewrite (ext2_face1 i0 j0 i1 j1 dx a v0 v1 bc e ltac:(k_near) j0 ltac:(k_near)), (ext2_in i0 j0 i1 j1 dx a v0 v1 bc e i1 j0 Ip).
        apply ghost_lt; [apply (kl_strict rob); [apply Hs; lia|apply Hdx; lia|apply Qclt_le_weak, Hv0; k_near|exact Nk]|apply ll_pos| |rewrite Te; exact Pe].
        destruct (ll_depth (bc 1)) as [|D2]; [now left|right]. pose proof (Ro 1 ltac:(lia)) as R. rewrite D2 in R. change (1 / 2) with 0 in R. cbv [ends1 ends2 ends3] in R. cbn [Z.eqb Pos.eqb] in R. rewrite Te. apply Mx. clear - R Ip. k_near.
      + assert (Ip : patch2 i0 j0 i1 j1 i0 j0) by k_near. pose proof (T i0 j0 Ip) as Te.
        destruct (spread2 e Hr i0 j0 Ip) as (Eu0 & Ed0 & Eu1 & Ed1 & Ea); [intros; rewrite Te; now apply Mx|rewrite Te; exact Pe|].
        revert Ed1. apply Qc_lt_ne. rewrite (ext2_face2 i0 j0 i1 j1 dx a v0 v1 bc e ltac:(k_near) i0 ltac:(k_near)), (ext2_in i0 j0 i1 j1 dx a v0 v1 bc e i0 j0 Ip).
        apply ghost_lt; [apply (kl_strict rob); [apply Hs; lia|apply Hdx; lia|apply Qclt_le_weak, Hv1; k_near|exact Nk]|apply ll_pos| |rewrite Te; exact Pe].
        destruct (ll_depth (bc 2)) as [|D2]; [now left|right]. pose proof (Ro 2 ltac:(lia)) as R. rewrite D2 in R. change (2 / 2) with 1 in R. cbv [ends1 ends2 ends3] in R. cbn [Z.eqb Pos.eqb] in R. rewrite Te. apply Mx. clear - R Ip. k_near.
      + assert (Ip : patch2 i0 j0 i1 j1 i0 j1) by k_near. pose proof (T i0 j1 Ip) as Te.
        destruct (spread2 e Hr i0 j1 Ip) as (Eu0 & Ed0 & Eu1 & Ed1 & Ea); [intros; rewrite Te; now apply Mx|rewrite Te; exact Pe|].
        revert Eu1. apply Qc_lt_ne. rewrite (ext2_face3 i0 j0 i1 j1 dx a v0 v1 bc e ltac:(k_near) i0 ltac:(k_near)), (ext2_in i0 j0 i1 j1 dx a v0 v1 bc e i0 j1 Ip).
        apply ghost_lt; [apply (kl_strict rob); [apply Hs; lia|apply Hdx; lia|apply Qclt_le_weak, Hv1; k_near|exact Nk]|apply ll_pos| |rewrite Te; exact Pe].
        destruct (ll_depth (bc 3)) as [|D2]; [now left|right]. pose proof (Ro 3 ltac:(lia)) as R. rewrite D2 in R. change (3 / 2) with 1 in R. cbv [ends1 ends2 ends3] in R. cbn [Z.eqb Pos.eqb] in R. rewrite Te. apply Mx. clear - R Ip. k_near.
    - destruct (spread2 e Hr i j Ip) as (Eu0 & Ed0 & Eu1 & Ed1 & Ea); [intros; rewrite (T i j Ip); now apply Mx|rewrite (T i j Ip); exact Pe|].
      rewrite (ext2_in i0 j0 i1 j1 dx a v0 v1 bc e i j Ip), (T i j Ip) in Ea. exact (Qclt_not_le _ _ (Qc_pos_mul _ _ Pa Pe) Ea).
  Qed.

  Lemma any2_compare (w z r s : Z -> Z -> Qc) :
    (forall i j, patch2 i0 j0 i1 j1 i j -> r i j = op2 dx beta a v0 v1 (ext2 i0 j0 i1 j1 dx v0 v1 bc w) i j) -> (forall i j, patch2 i0 j0 i1 j1 i j -> s i j = op2 dx beta a v0 v1 (ext2 i0 j0 i1 j1 dx v0 v1 bc z) i j) ->
    (forall i j, patch2 i0 j0 i1 j1 i j -> (r i j <= s i j)%Qc) -> forall i j, patch2 i0 j0 i1 j1 i j -> (w i j <= z i j)%Qc.
  Proof.
    intros Ew Ez Le i j Ip. apply Qc_nonneg_sub.
    replace (z i j - w i j)%Qc with (- (1 * w i j + (- (1)) * z i j))%Qc by ring. apply (Qcopp_le_compat _ 0).
    revert i j Ip. apply (any2 (fun i j => 1 * w i j + (- (1)) * z i j)%Qc).
    intros i j Ip. rewrite bvp2_lin by exact Ip. rewrite <- Ew, <- Ez by exact Ip.
    pose proof (Qc_sub_nonneg _ _ (Le i j Ip)) as G. apply Qcopp_le_compat in G.
    replace (- 0)%Qc with 0%Qc in G by ring. replace (1 * r i j + (- (1)) * s i j)%Qc with (- (s i j - r i j))%Qc by ring. exact G.
  Qed.

  Lemma any2_exists (r : Z -> Z -> Qc) : exists w : Z -> Z -> Qc, forall i j, patch2 i0 j0 i1 j1 i j -> op2 dx beta a v0 v1 (ext2 i0 j0 i1 j1 dx v0 v1 bc w) i j = r i j.
  Proof.
    destruct (@solvable (Z * Z) dec2 (fun w => (fun p : Z * Z => (op2 dx beta a v0 v1 (ext2 i0 j0 i1 j1 dx v0 v1 bc (fun i j => w (i, j)))) (fst p) (snd p))) (cells2 i0 j0 i1 j1) (nodup_cells2 i0 j0 i1 j1)) with (g := fun _ : Z * Z => 0%Qc) (r := (fun p : Z * Z => r (fst p) (snd p))) as (w & Hw & Tw).
    - intros x y w z [i j] Ip. cbn [fst snd]. apply in_cells2 in Ip. apply (bvp2_lin i0 j0 i1 j1 dx beta a v0 v1 bc x y (fun i j => w (i, j)) (fun i j => z (i, j)) i j Ip).
    - intros w Out Z.
      assert (Zl : forall s i j, patch2 i0 j0 i1 j1 i j -> op2 dx beta a v0 v1 (ext2 i0 j0 i1 j1 dx v0 v1 bc (fun i j => s * w (i, j) + 0 * w (i, j))%Qc) i j = 0%Qc).
      { intros s i j Ip. rewrite (bvp2_lin i0 j0 i1 j1 dx beta a v0 v1 bc s 0 (fun i j => w (i, j)) (fun i j => w (i, j)) i j Ip).
        pose proof (Z (i, j) (proj2 (in_cells2 i0 j0 i1 j1 i j) Ip)) as E. cbn [fst snd] in E. rewrite E. ring. }
      intros [i j] Ip. apply in_cells2 in Ip. apply Qcle_antisym.
      + replace (w (i, j)) with (1 * w (i, j) + 0 * w (i, j))%Qc by ring. revert i j Ip. apply any2. intros i j Ip. rewrite (Zl 1%Qc) by exact Ip. apply Qcle_refl.
      + replace (w (i, j)) with (- ((- (1)) * w (i, j) + 0 * w (i, j)))%Qc by ring. apply (Qcopp_le_compat _ 0). revert i j Ip. apply any2. intros i j Ip. rewrite (Zl (- (1))%Qc) by exact Ip. apply Qcle_refl.
    - intros w z [i j] Ip E. cbn [fst snd]. apply in_cells2 in Ip. apply (op2_near i0 j0 i1 j1 dx beta a v0 v1 bc); [exact Ip|]. intros. apply ext2_ext. intros. apply E.
    - exists (fun i j => w (i, j)). intros i j Ip. apply (Tw (i, j)). now apply in_cells2.
  Qed.
End Any2.


(** Neumann conditions all around and no reaction. *)
Section Closed2.
  Context (i0 j0 i1 j1 : Z) (dx : Z -> Qc) (beta : Qc) (a v0 v1 : Z -> Z -> Qc) (bc : Z -> bcond QcS).
  Context (Hn : forall f, 0 <= f < 4 -> b_kind (bc f) = 1) (Ha0 : forall i j, patch2 i0 j0 i1 j1 i j -> a i j = 0%Qc) (Ro : roomy 2 (ends2 i0 j0) (ends2 i1 j1) bc).

  Lemma closed2_sum (w : Z -> Z -> Qc) : total2 (S := QcS) i0 j0 i1 j1 (fun i j => op2 dx beta a v0 v1 (ext2 i0 j0 i1 j1 dx v0 v1 bc w) i j) = 0%Qc.
  Proof.
    pose proof (roomy_le 2 (ends2 i0 j0) (ends2 i1 j1) bc Ro 0 ltac:(lia)) as B0. change (i0 <= i1) in B0. pose proof (roomy_le 2 (ends2 i0 j0) (ends2 i1 j1) bc Ro 1 ltac:(lia)) as B1. change (j0 <= j1) in B1.
    set (G0 := (fun i j => v0 i j * ((ext2 i0 j0 i1 j1 dx v0 v1 bc w i j - ext2 i0 j0 i1 j1 dx v0 v1 bc w (i - 1)%Z j) / dx 0%Z))%Qc).
    set (G1 := (fun i j => v1 i j * ((ext2 i0 j0 i1 j1 dx v0 v1 bc w i j - ext2 i0 j0 i1 j1 dx v0 v1 bc w i (j - 1)%Z) / dx 1%Z))%Qc).
    assert (Z0 : total2 (S := QcS) i0 j0 i1 j1 (fun i j => - beta * ((G0 (i + 1)%Z j - G0 i j) / dx 0%Z))%Qc = 0%Qc).
    { rewrite <- lit_0. apply (closed2_0 QcS_laws i0 j0 i1 j1 (- beta)%Qc (dx 0%Z) G0); [lia|]. intros j Ij. rewrite lit_0. unfold G0. split.
      - rewrite (ext2_face0 i0 j0 i1 j1 dx a v0 v1 bc w ltac:(k_near) j ltac:(k_near)), (ext2_in i0 j0 i1 j1 dx a v0 v1 bc w) by k_near. unfold kk, ll. rewrite (Hn 0) by lia. cbn [Z.eqb Pos.eqb andb]. unfold Qcdiv. k_qc. ring.
      - replace (i1 + 1 - 1)%Z with i1 by lia. rewrite (ext2_face1 i0 j0 i1 j1 dx a v0 v1 bc w ltac:(k_near) j ltac:(k_near)), (ext2_in i0 j0 i1 j1 dx a v0 v1 bc w) by k_near. unfold kk, ll. rewrite (Hn 1) by lia. cbn [Z.eqb Pos.eqb andb]. unfold Qcdiv. k_qc. ring. }
    assert (Z1 : total2 (S := QcS) i0 j0 i1 j1 (fun i j => - beta * ((G1 i (j + 1)%Z - G1 i j) / dx 1%Z))%Qc = 0%Qc).
    { rewrite <- lit_0. apply (closed2_1 QcS_laws i0 j0 i1 j1 (- beta)%Qc (dx 1%Z) G1); [lia|]. intros i Ii. rewrite lit_0. unfold G1. split.
      - rewrite (ext2_face2 i0 j0 i1 j1 dx a v0 v1 bc w ltac:(k_near) i ltac:(k_near)), (ext2_in i0 j0 i1 j1 dx a v0 v1 bc w) by k_near. unfold kk, ll. rewrite (Hn 2) by lia. cbn [Z.eqb Pos.eqb andb]. unfold Qcdiv. k_qc. ring.
      - replace (j1 + 1 - 1)%Z with j1 by lia. rewrite (ext2_face3 i0 j0 i1 j1 dx a v0 v1 bc w ltac:(k_near) i ltac:(k_near)), (ext2_in i0 j0 i1 j1 dx a v0 v1 bc w) by k_near. unfold kk, ll. rewrite (Hn 3) by lia. cbn [Z.eqb Pos.eqb andb]. unfold Qcdiv. k_qc. ring. }
    transitivity (total2 (S := QcS) i0 j0 i1 j1 (fun i j => - beta * ((G0 (i + 1)%Z j - G0 i j) / dx 0%Z) + - beta * ((G1 i (j + 1)%Z - G1 i j) / dx 1%Z))%Qc).
    { apply (total2_ext (S := QcS)). intros i j Ii Ij. unfold op2, G0, G1. rewrite (Ha0 i j) by k_near. replace (i + 1 - 1)%Z with i by lia. replace (j + 1 - 1)%Z with j by lia.
      unfold Qcdiv. k_qc. ring. }
    etransitivity; [exact (total2_add QcS_laws i0 j0 i1 j1 (fun i j => - beta * ((G0 (i + 1)%Z j - G0 i j) / dx 0%Z))%Qc (fun i j => - beta * ((G1 i (j + 1)%Z - G1 i j) / dx 1%Z))%Qc)|]. rewrite Z1.
    etransitivity; [exact (Qcplus_0_r _)|].
    exact Z0.
  Qed.

  Lemma closed2_const k0' i j : patch2 i0 j0 i1 j1 i j -> op2 dx beta a v0 v1 (ext2 i0 j0 i1 j1 dx v0 v1 bc (fun _ _ => k0')) i j = 0%Qc.
  Proof.
    intros Ip. rewrite (op2_near i0 j0 i1 j1 dx beta a v0 v1 bc _ (fun _ _ => k0') i j Ip).
    - unfold op2. rewrite (Ha0 i j Ip). unfold Qcdiv. ring.
    - clear Ip i j. intros i j In. unfold ext2, kk, ll. rewrite (Hn 0) by lia. rewrite (Hn 1) by lia. rewrite (Hn 2) by lia. rewrite (Hn 3) by lia. cbn [Z.eqb Pos.eqb andb].
      repeat (match goal with |- context [if ?b then _ else _] => destruct b end; [ring|]). reflexivity.
  Qed.

  Context (Hb : (0 < beta)%Qc) (Hdx : forall d, 0 <= d < 2 -> (0 < dx d)%Qc).
  Context (Hv0 : forall i j, i0 <= i <= i1 + 1 -> j0 <= j <= j1 -> (0 < v0 i j)%Qc).
  Context (Hv1 : forall i j, i0 <= i <= i1 -> j0 <= j <= j1 + 1 -> (0 < v1 i j)%Qc).

  Lemma closed2_flat e : (forall i j, patch2 i0 j0 i1 j1 i j -> op2 dx beta a v0 v1 (ext2 i0 j0 i1 j1 dx v0 v1 bc e) i j = 0%Qc) -> forall i j, patch2 i0 j0 i1 j1 i j -> e i j = e i0 j0.
  Proof.
    pose proof (roomy_le 2 (ends2 i0 j0) (ends2 i1 j1) bc Ro 0 ltac:(lia)) as B0. change (i0 <= i1) in B0. pose proof (roomy_le 2 (ends2 i0 j0) (ends2 i1 j1) bc Ro 1 ltac:(lia)) as B1. change (j0 <= j1) in B1.
    intros He. destruct (list_max (fun p : Z * Z => e (fst p) (snd p)) (cells2 i0 j0 i1 j1)) as ([x y] & Im & Mx).
    { intros C. assert (In (i0, j0) (cells2 i0 j0 i1 j1)) as I0 by (apply in_cells2; k_near). rewrite C in I0. contradiction. }
    cbn [fst snd] in Mx. apply in_cells2 in Im.
    assert (Mx' : forall i j, patch2 i0 j0 i1 j1 i j -> (e i j <= e x y)%Qc).
    { intros i' j' I'. apply (Mx (i', j')). now apply in_cells2. }
    set (g := fun i j => (1 * e i j + (1 - e x y) * 1)%Qc).
    assert (Gt : forall i j, patch2 i0 j0 i1 j1 i j -> g i j = g x y).
    { refine (top2 i0 j0 i1 j1 dx beta a v0 v1 bc false Hb Hdx _ Hv0 Hv1 _ Ro g _ x y Im _ _).
      - intros i j Ip. rewrite (Ha0 i j Ip). apply Qcle_refl.
      - intros f Hf. right. left. now apply Hn.
      - intros i j Ip. unfold g. rewrite (bvp2_lin i0 j0 i1 j1 dx beta a v0 v1 bc 1 (1 - e x y) e (fun _ _ => 1%Qc) i j Ip), (He i j Ip), (closed2_const 1 i j Ip).
        replace (1 * 0 + (1 - e x y) * 0)%Qc with 0%Qc by ring. apply Qcle_refl.
      - intros i j Ip. unfold g. apply Qcplus_le_compat; [|apply Qcle_refl]. rewrite !Qcmult_1_l. now apply Mx'.
      - unfold g. replace (1 * e x y + (1 - e x y) * 1)%Qc with 1%Qc by ring. reflexivity. }
    assert (Et : forall i j, patch2 i0 j0 i1 j1 i j -> e i j = e x y).
    { intros i j Ip. specialize (Gt i j Ip). unfold g in Gt. replace (e i j) with (1 * e i j + (1 - e x y) * 1 - (1 - e x y))%Qc by ring. rewrite Gt. ring. }
    intros i j Ip. rewrite (Et i j Ip). symmetry. apply Et. k_near.
  Qed.

  Lemma closed2_unique w z : (forall i j, patch2 i0 j0 i1 j1 i j -> op2 dx beta a v0 v1 (ext2 i0 j0 i1 j1 dx v0 v1 bc w) i j = op2 dx beta a v0 v1 (ext2 i0 j0 i1 j1 dx v0 v1 bc z) i j) -> exists c, forall i j, patch2 i0 j0 i1 j1 i j -> z i j = (w i j + c)%Qc.
  Proof.
    intros E. exists (1 * z i0 j0 + (- (1)) * w i0 j0)%Qc. intros i j Ip.
    assert (F : forall i j, patch2 i0 j0 i1 j1 i j -> op2 dx beta a v0 v1 (ext2 i0 j0 i1 j1 dx v0 v1 bc (fun i j => 1 * z i j + (- (1)) * w i j)%Qc) i j = 0%Qc).
    { clear i j Ip. intros i j Ip. rewrite (bvp2_lin i0 j0 i1 j1 dx beta a v0 v1 bc 1 (- (1)) z w i j Ip), (E i j Ip). ring. }
    pose proof (closed2_flat _ F i j Ip) as G. cbv beta in G. rewrite <- G. ring.
  Qed.

  (** Drop the equation of one cell and fix the value there. *)
  Lemma closed2_exists (r : Z -> Z -> Qc) : total2 (S := QcS) i0 j0 i1 j1 r = 0%Qc -> exists w : Z -> Z -> Qc, forall i j, patch2 i0 j0 i1 j1 i j -> op2 dx beta a v0 v1 (ext2 i0 j0 i1 j1 dx v0 v1 bc w) i j = r i j.
  Proof.
    pose proof (roomy_le 2 (ends2 i0 j0) (ends2 i1 j1) bc Ro 0 ltac:(lia)) as B0. change (i0 <= i1) in B0. pose proof (roomy_le 2 (ends2 i0 j0) (ends2 i1 j1) bc Ro 1 ltac:(lia)) as B1. change (j0 <= j1) in B1.
    intros Sr. assert (I0 : patch2 i0 j0 i1 j1 i0 j0) by k_near.
    assert (Last : forall e : Z -> Z -> Qc, total2 (S := QcS) i0 j0 i1 j1 e = 0%Qc -> (forall i j, patch2 i0 j0 i1 j1 i j -> (i, j) <> (i0, j0) -> e i j = 0%Qc) -> forall i j, patch2 i0 j0 i1 j1 i j -> e i j = 0%Qc).
    { intros e S0 E i j Ip. destruct (dec2 (i, j) (i0, j0)) as [Q|Q]; [|now apply E].
      injection Q as -> ->. rewrite <- S0. symmetry.
      apply (total2_at QcS_laws i0 j0 i1 j1 e i0 j0); [lia|lia|]. intros i' j' Ii Ij N. rewrite lit_0. apply E; [k_near|]. intros C. injection C as -> ->; tauto. }
    destruct (@solvable (Z * Z) dec2 (fun w p => if dec2 p (i0, j0) then w (i0, j0) else (fun p : Z * Z => (op2 dx beta a v0 v1 (ext2 i0 j0 i1 j1 dx v0 v1 bc (fun i j => w (i, j)))) (fst p) (snd p)) p) (cells2 i0 j0 i1 j1) (nodup_cells2 i0 j0 i1 j1)) with (g := fun _ : Z * Z => 0%Qc)
      (r := fun p => if dec2 p (i0, j0) then 0%Qc else (fun p : Z * Z => r (fst p) (snd p)) p) as (w & Hw & Tw).
    - intros x y w z p Ip. destruct (dec2 p (i0, j0)); [reflexivity|]. destruct p as [i j]. cbn [fst snd]. apply in_cells2 in Ip. apply (bvp2_lin i0 j0 i1 j1 dx beta a v0 v1 bc x y (fun i j => w (i, j)) (fun i j => z (i, j)) i j Ip).
    - intros w Out Z. assert (W0 : w (i0, j0) = 0%Qc).
      { specialize (Z (i0, j0) (proj2 (in_cells2 i0 j0 i1 j1 i0 j0) I0)). destruct (dec2 (i0, j0) (i0, j0)); [exact Z|contradiction]. }
      assert (E : forall i j, patch2 i0 j0 i1 j1 i j -> op2 dx beta a v0 v1 (ext2 i0 j0 i1 j1 dx v0 v1 bc (fun i j => w (i, j))) i j = 0%Qc).
      { apply Last; [apply closed2_sum|]. intros i j Ip Q. specialize (Z (i, j) (proj2 (in_cells2 i0 j0 i1 j1 i j) Ip)). destruct (dec2 (i, j) (i0, j0)); [contradiction|exact Z]. }
      intros [i j] Ip. apply in_cells2 in Ip. rewrite <- W0. exact (closed2_flat (fun i j => w (i, j)) E i j Ip).
    - intros w z p Ip E. destruct (dec2 p (i0, j0)); [apply E|]. destruct p as [i j]. cbn [fst snd]. apply in_cells2 in Ip. apply (op2_near i0 j0 i1 j1 dx beta a v0 v1 bc); [exact Ip|]. intros. apply ext2_ext. intros. apply E.
    - exists (fun i j => w (i, j)).
      assert (E : forall i j, patch2 i0 j0 i1 j1 i j -> (op2 dx beta a v0 v1 (ext2 i0 j0 i1 j1 dx v0 v1 bc (fun i j => w (i, j))) i j + (- (1)) * r i j)%Qc = 0%Qc).
      { apply Last.
        - etransitivity; [exact (total2_add QcS_laws i0 j0 i1 j1 (fun i j => op2 dx beta a v0 v1 (ext2 i0 j0 i1 j1 dx v0 v1 bc (fun i j => w (i, j))) i j) (fun i j => (- (1)) * r i j)%Qc)|]. rewrite closed2_sum.
          etransitivity; [exact (Qcplus_0_l _)|]. etransitivity; [exact (total2_mul QcS_laws i0 j0 i1 j1 (- (1))%Qc r)|]. rewrite Sr. exact (Qcmult_0_r _).
        - intros i j Ip Q. pose proof (Tw (i, j) (proj2 (in_cells2 i0 j0 i1 j1 i j) Ip)) as E. destruct (dec2 (i, j) (i0, j0)); [contradiction|]. cbn [fst snd] in E. rewrite E. ring. }
      intros i j Ip. specialize (E i j Ip). replace (op2 dx beta a v0 v1 (ext2 i0 j0 i1 j1 dx v0 v1 bc (fun i j => w (i, j))) i j) with (op2 dx beta a v0 v1 (ext2 i0 j0 i1 j1 dx v0 v1 bc (fun i j => w (i, j))) i j + (- (1)) * r i j + r i j)%Qc by ring. rewrite E. ring.
  Qed.
End Closed2.


Section Any3.
  Context (i0 j0 k0 i1 j1 k1 : Z) (dx : Z -> Qc) (beta : Qc) (a v0 v1 v2 : Z -> Z -> Z -> Qc) (bc : Z -> bcond QcS).
  Context (rob : bool) (Hb : (0 < beta)%Qc) (Hdx : forall d, 0 <= d < 3 -> (0 < dx d)%Qc).
  Context (Ha : forall i j k, patch3 i0 j0 k0 i1 j1 k1 i j k -> (0 <= a i j k)%Qc).
  Context (Hv0 : forall i j k, i0 <= i <= i1 + 1 -> j0 <= j <= j1 -> k0 <= k <= k1 -> (0 < v0 i j k)%Qc).
  Context (Hv1 : forall i j k, i0 <= i <= i1 -> j0 <= j <= j1 + 1 -> k0 <= k <= k1 -> (0 < v1 i j k)%Qc).
  Context (Hv2 : forall i j k, i0 <= i <= i1 -> j0 <= j <= j1 -> k0 <= k <= k1 + 1 -> (0 < v2 i j k)%Qc).
  Context (Hs : forall f, 0 <= f < 6 -> sound rob (bc f)) (Ro : roomy 3 (ends3 i0 j0 k0) (ends3 i1 j1 k1) bc).

  (** At a positive maximum the neighbours are as large. *)
  Lemma spread3 e : (forall i j k, patch3 i0 j0 k0 i1 j1 k1 i j k -> (op3 dx beta a v0 v1 v2 (ext3 i0 j0 k0 i1 j1 k1 dx v0 v1 v2 bc e) i j k <= 0)%Qc) ->
    forall i j k, patch3 i0 j0 k0 i1 j1 k1 i j k -> (forall i' j' k', patch3 i0 j0 k0 i1 j1 k1 i' j' k' -> (e i' j' k' <= e i j k)%Qc) -> (0 < e i j k)%Qc ->
      ext3 i0 j0 k0 i1 j1 k1 dx v0 v1 v2 bc e (i + 1)%Z j k = ext3 i0 j0 k0 i1 j1 k1 dx v0 v1 v2 bc e i j k /\
      ext3 i0 j0 k0 i1 j1 k1 dx v0 v1 v2 bc e (i - 1)%Z j k = ext3 i0 j0 k0 i1 j1 k1 dx v0 v1 v2 bc e i j k /\
      ext3 i0 j0 k0 i1 j1 k1 dx v0 v1 v2 bc e i (j + 1)%Z k = ext3 i0 j0 k0 i1 j1 k1 dx v0 v1 v2 bc e i j k /\
      ext3 i0 j0 k0 i1 j1 k1 dx v0 v1 v2 bc e i (j - 1)%Z k = ext3 i0 j0 k0 i1 j1 k1 dx v0 v1 v2 bc e i j k /\
      ext3 i0 j0 k0 i1 j1 k1 dx v0 v1 v2 bc e i j (k + 1)%Z = ext3 i0 j0 k0 i1 j1 k1 dx v0 v1 v2 bc e i j k /\
      ext3 i0 j0 k0 i1 j1 k1 dx v0 v1 v2 bc e i j (k - 1)%Z = ext3 i0 j0 k0 i1 j1 k1 dx v0 v1 v2 bc e i j k /\
      (a i j k * ext3 i0 j0 k0 i1 j1 k1 dx v0 v1 v2 bc e i j k <= 0)%Qc.
  Proof.
    intros Hr i j k Ip Mx Pe.
    assert (Up0 : (ext3 i0 j0 k0 i1 j1 k1 dx v0 v1 v2 bc e (i + 1)%Z j k <= ext3 i0 j0 k0 i1 j1 k1 dx v0 v1 v2 bc e i j k)%Qc).
    { destruct (patch_dec3 i0 j0 k0 i1 j1 k1 (i + 1)%Z j k) as [Y|N].
      - rewrite !(ext3_in i0 j0 k0 i1 j1 k1 dx a v0 v1 v2 bc e) by assumption. now apply Mx.
      - assert (i = i1) as -> by k_near. rewrite (ext3_face1 i0 j0 k0 i1 j1 k1 dx a v0 v1 v2 bc e ltac:(k_near) j k ltac:(k_near) ltac:(k_near)), (ext3_in i0 j0 k0 i1 j1 k1 dx a v0 v1 v2 bc e) by k_near.
      apply ghost_le; [apply (kl_le rob); [apply Hs; lia|apply Hdx; lia|apply Qclt_le_weak, Hv0; k_near]|apply ll_pos| |exact Pe].
      destruct (ll_depth (bc 1)) as [|D2]; [now left|right]. pose proof (Ro 1 ltac:(lia)) as R. rewrite D2 in R. change (1 / 2) with 0 in R. cbv [ends1 ends2 ends3] in R. cbn [Z.eqb Pos.eqb] in R. apply Mx. clear - R Ip. k_near. }
    assert (Dn0 : (ext3 i0 j0 k0 i1 j1 k1 dx v0 v1 v2 bc e (i - 1)%Z j k <= ext3 i0 j0 k0 i1 j1 k1 dx v0 v1 v2 bc e i j k)%Qc).
    { destruct (patch_dec3 i0 j0 k0 i1 j1 k1 (i - 1)%Z j k) as [Y|N].
      - rewrite !(ext3_in i0 j0 k0 i1 j1 k1 dx a v0 v1 v2 bc e) by assumption. now apply Mx.
      - assert (i = i0) as -> by k_near. rewrite (ext3_face0 i0 j0 k0 i1 j1 k1 dx a v0 v1 v2 bc e ltac:(k_near) j k ltac:(k_near) ltac:(k_near)), (ext3_in i0 j0 k0 i1 j1 k1 dx a v0 v1 v2 bc e) by k_near.
      apply ghost_le; [apply (kl_le rob); [apply Hs; lia|apply Hdx; lia|apply Qclt_le_weak, Hv0; k_near]|apply ll_pos| |exact Pe].
      destruct (ll_depth (bc 0)) as [|D2]; [now left|right]. pose proof (Ro 0 ltac:(lia)) as R. rewrite D2 in R. change (0 / 2) with 0 in R. cbv [ends1 ends2 ends3] in R. cbn [Z.eqb Pos.eqb] in R. apply Mx. clear - R Ip. k_near. }
    assert (Up1 : (ext3 i0 j0 k0 i1 j1 k1 dx v0 v1 v2 bc e i (j + 1)%Z k <= ext3 i0 j0 k0 i1 j1 k1 dx v0 v1 v2 bc e i j k)%Qc).
    { destruct (patch_dec3 i0 j0 k0 i1 j1 k1 i (j + 1)%Z k) as [Y|N].
      - rewrite !(ext3_in i0 j0 k0 i1 j1 k1 dx a v0 v1 v2 bc e) by assumption. now apply Mx.
      - assert (j = j1) as -> by k_near. rewrite (ext3_face3 i0 j0 k0 i1 j1 k1 dx a v0 v1 v2 bc e ltac:(k_near) i k ltac:(k_near) ltac:(k_near)), (ext3_in i0 j0 k0 i1 j1 k1 dx a v0 v1 v2 bc e) by k_near.
      apply ghost_le; [apply (kl_le rob); [apply Hs; lia|apply Hdx; lia|apply Qclt_le_weak, Hv1; k_near]|apply ll_pos| |exact Pe].
      destruct (ll_depth (bc 3)) as [|D2]; [now left|right]. pose proof (Ro 3 ltac:(lia)) as R. rewrite D2 in R. change (3 / 2) with 1 in R. cbv [ends1 ends2 ends3] in R. cbn [Z.eqb Pos.eqb] in R. apply Mx. clear - R Ip. k_near. }
    assert (Dn1 : (ext3 i0 j0 k0 i1 j1 k1 dx v0 v1 v2 bc e i (j - 1)%Z k <= ext3 i0 j0 k0 i1 j1 k1 dx v0 v1 v2 bc e i j k)%Qc).
    { destruct (patch_dec3 i0 j0 k0 i1 j1 k1 i (j - 1)%Z k) as [Y|N].
      - rewrite !(ext3_in i0 j0 k0 i1 j1 k1 dx a v0 v1 v2 bc e) by assumption. now apply Mx.
      - assert (j = j0) as -> by k_near. rewrite (ext3_face2 i0 j0 k0 i1 j1 k1 dx a v0 v1 v2 bc e ltac:(k_near) i k ltac:(k_near) ltac:(k_near)), (ext3_in i0 j0 k0 i1 j1 k1 dx a v0 v1 v2 bc e) by k_near.
      apply ghost_le; [apply (kl_le rob); [apply Hs; lia|apply Hdx; lia|apply Qclt_le_weak, Hv1; k_near]|apply ll_pos| |exact Pe].
      destruct (ll_depth (bc 2)) as [|D2]; [now left|right]. pose proof (Ro 2 ltac:(lia)) as R. rewrite D2 in R. change (2 / 2) with 1 in R. cbv [ends1 ends2 ends3] in R. cbn [Z.eqb Pos.eqb] in R. apply Mx. clear - R Ip. k_near. }
    assert (Up2 : (ext3 i0 j0 k0 i1 j1 k1 dx v0 v1 v2 bc e i j (k + 1)%Z <= ext3 i0 j0 k0 i1 j1 k1 dx v0 v1 v2 bc e i j k)%Qc).
    { destruct (patch_dec3 i0 j0 k0 i1 j1 k1 i j (k + 1)%Z) as [Y|N].
      - rewrite !(ext3_in i0 j0 k0 i1 j1 k1 dx a v0 v1 v2 bc e) by assumption. now apply Mx.
      - assert (k = k1) as -> by k_near. rewrite (ext3_face5 i0 j0 k0 i1 j1 k1 dx a v0 v1 v2 bc e ltac:(k_near) i j ltac:(k_near) ltac:(k_near)), (ext3_in i0 j0 k0 i1 j1 k1 dx a v0 v1 v2 bc e) by k_near.
      apply ghost_le; [apply (kl_le rob); [apply Hs; lia|apply Hdx; lia|apply Qclt_le_weak, Hv2; k_near]|apply ll_pos| |exact Pe].
      destruct (ll_depth (bc 5)) as [|D2]; [now left|right]. pose proof (Ro 5 ltac:(lia)) as R. rewrite D2 in R. change (5 / 2) with 2 in R. cbv [ends1 ends2 ends3] in R. cbn [Z.eqb Pos.eqb] in R. apply Mx. clear - R Ip. k_near. }
    assert (Dn2 : (ext3 i0 j0 k0 i1 j1 k1 dx v0 v1 v2 bc e i j (k - 1)%Z <= ext3 i0 j0 k0 i1 j1 k1 dx v0 v1 v2 bc e i j k)%Qc).
    { destruct (patch_dec3 i0 j0 k0 i1 j1 k1 i j (k - 1)%Z) as [Y|N].
      - rewrite !(ext3_in i0 j0 k0 i1 j1 k1 dx a v0 v1 v2 bc e) by assumption. now apply Mx.
      - assert (k = k0) as -> by k_near. rewrite (ext3_face4 i0 j0 k0 i1 j1 k1 dx a v0 v1 v2 bc e ltac:(k_near) i j ltac:(k_near) ltac:(k_near)), (ext3_in i0 j0 k0 i1 j1 k1 dx a v0 v1 v2 bc e) by k_near.
      apply ghost_le; [apply (kl_le rob); [apply Hs; lia|apply Hdx; lia|apply Qclt_le_weak, Hv2; k_near]|apply ll_pos| |exact Pe].
      destruct (ll_depth (bc 4)) as [|D2]; [now left|right]. pose proof (Ro 4 ltac:(lia)) as R. rewrite D2 in R. change (4 / 2) with 2 in R. cbv [ends1 ends2 ends3] in R. cbn [Z.eqb Pos.eqb] in R. apply Mx. clear - R Ip. k_near. }
    specialize (Hr i j k Ip). unfold op3 in Hr. pose proof Pe as Pe'. rewrite <- (ext3_in i0 j0 k0 i1 j1 k1 dx a v0 v1 v2 bc e i j k Ip) in Pe'.
    split; [exact (edge_term beta (dx 0) (v0 (i + 1)%Z j k) (v0 i j k) (ext3 i0 j0 k0 i1 j1 k1 dx v0 v1 v2 bc e i j k) (ext3 i0 j0 k0 i1 j1 k1 dx v0 v1 v2 bc e (i + 1)%Z j k) (ext3 i0 j0 k0 i1 j1 k1 dx v0 v1 v2 bc e (i - 1)%Z j k) _ Hb (Qc_ne_0 _ (Hdx 0 ltac:(lia))) (Hv0 (i + 1)%Z j k ltac:(k_near) ltac:(k_near) ltac:(k_near)) (Qclt_le_weak _ _ (Hv0 i j k ltac:(k_near) ltac:(k_near) ltac:(k_near))) Up0 Dn0 (Qc_add _ _ (Qc_add _ _ (other_term beta (dx 1) (v1 i (j + 1)%Z k) (v1 i j k) (ext3 i0 j0 k0 i1 j1 k1 dx v0 v1 v2 bc e i j k) (ext3 i0 j0 k0 i1 j1 k1 dx v0 v1 v2 bc e i (j + 1)%Z k) (ext3 i0 j0 k0 i1 j1 k1 dx v0 v1 v2 bc e i (j - 1)%Z k) (Qclt_le_weak _ _ Hb) (Qclt_le_weak _ _ (Hv1 i (j + 1)%Z k ltac:(k_near) ltac:(k_near) ltac:(k_near))) (Qclt_le_weak _ _ (Hv1 i j k ltac:(k_near) ltac:(k_near) ltac:(k_near))) Up1 Dn1) (other_term beta (dx 2) (v2 i j (k + 1)%Z) (v2 i j k) (ext3 i0 j0 k0 i1 j1 k1 dx v0 v1 v2 bc e i j k) (ext3 i0 j0 k0 i1 j1 k1 dx v0 v1 v2 bc e i j (k + 1)%Z) (ext3 i0 j0 k0 i1 j1 k1 dx v0 v1 v2 bc e i j (k - 1)%Z) (Qclt_le_weak _ _ Hb) (Qclt_le_weak _ _ (Hv2 i j (k + 1)%Z ltac:(k_near) ltac:(k_near) ltac:(k_near))) (Qclt_le_weak _ _ (Hv2 i j k ltac:(k_near) ltac:(k_near) ltac:(k_near))) Up2 Dn2)) (Qc_mul _ _ (Ha i j k Ip) (Qclt_le_weak _ _ Pe'))) (perm30 _ _ _ _ Hr))|].
    split; [exact (down_term beta (dx 0) (v0 (i + 1)%Z j k) (v0 i j k) (ext3 i0 j0 k0 i1 j1 k1 dx v0 v1 v2 bc e i j k) (ext3 i0 j0 k0 i1 j1 k1 dx v0 v1 v2 bc e (i + 1)%Z j k) (ext3 i0 j0 k0 i1 j1 k1 dx v0 v1 v2 bc e (i - 1)%Z j k) _ Hb (Qc_ne_0 _ (Hdx 0 ltac:(lia))) (Qclt_le_weak _ _ (Hv0 (i + 1)%Z j k ltac:(k_near) ltac:(k_near) ltac:(k_near))) (Hv0 i j k ltac:(k_near) ltac:(k_near) ltac:(k_near)) Up0 Dn0 (Qc_add _ _ (Qc_add _ _ (other_term beta (dx 1) (v1 i (j + 1)%Z k) (v1 i j k) (ext3 i0 j0 k0 i1 j1 k1 dx v0 v1 v2 bc e i j k) (ext3 i0 j0 k0 i1 j1 k1 dx v0 v1 v2 bc e i (j + 1)%Z k) (ext3 i0 j0 k0 i1 j1 k1 dx v0 v1 v2 bc e i (j - 1)%Z k) (Qclt_le_weak _ _ Hb) (Qclt_le_weak _ _ (Hv1 i (j + 1)%Z k ltac:(k_near) ltac:(k_near) ltac:(k_near))) (Qclt_le_weak _ _ (Hv1 i j k ltac:(k_near) ltac:(k_near) ltac:(k_near))) Up1 Dn1) (other_term beta (dx 2) (v2 i j (k + 1)%Z) (v2 i j k) (ext3 i0 j0 k0 i1 j1 k1 dx v0 v1 v2 bc e i j k) (ext3 i0 j0 k0 i1 j1 k1 dx v0 v1 v2 bc e i j (k + 1)%Z) (ext3 i0 j0 k0 i1 j1 k1 dx v0 v1 v2 bc e i j (k - 1)%Z) (Qclt_le_weak _ _ Hb) (Qclt_le_weak _ _ (Hv2 i j (k + 1)%Z ltac:(k_near) ltac:(k_near) ltac:(k_near))) (Qclt_le_weak _ _ (Hv2 i j k ltac:(k_near) ltac:(k_near) ltac:(k_near))) Up2 Dn2)) (Qc_mul _ _ (Ha i j k Ip) (Qclt_le_weak _ _ Pe'))) (perm30 _ _ _ _ Hr))|].
    split; [exact (edge_term beta (dx 1) (v1 i (j + 1)%Z k) (v1 i j k) (ext3 i0 j0 k0 i1 j1 k1 dx v0 v1 v2 bc e i j k) (ext3 i0 j0 k0 i1 j1 k1 dx v0 v1 v2 bc e i (j + 1)%Z k) (ext3 i0 j0 k0 i1 j1 k1 dx v0 v1 v2 bc e i (j - 1)%Z k) _ Hb (Qc_ne_0 _ (Hdx 1 ltac:(lia))) (Hv1 i (j + 1)%Z k ltac:(k_near) ltac:(k_near) ltac:(k_near)) (Qclt_le_weak _ _ (Hv1 i j k ltac:(k_near) ltac:(k_near) ltac:(k_near))) Up1 Dn1 (Qc_add _ _ (Qc_add _ _ (other_term beta (dx 0) (v0 (i + 1)%Z j k) (v0 i j k) (ext3 i0 j0 k0 i1 j1 k1 dx v0 v1 v2 bc e i j k) (ext3 i0 j0 k0 i1 j1 k1 dx v0 v1 v2 bc e (i + 1)%Z j k) (ext3 i0 j0 k0 i1 j1 k1 dx v0 v1 v2 bc e (i - 1)%Z j k) (Qclt_le_weak _ _ Hb) (Qclt_le_weak _ _ (Hv0 (i + 1)%Z j k ltac:(k_near) ltac:(k_near) ltac:(k_near))) (Qclt_le_weak _ _ (Hv0 i j k ltac:(k_near) ltac:(k_near) ltac:(k_near))) Up0 Dn0) (other_term beta (dx 2) (v2 i j (k + 1)%Z) (v2 i j k) (ext3 i0 j0 k0 i1 j1 k1 dx v0 v1 v2 bc e i j k) (ext3 i0 j0 k0 i1 j1 k1 dx v0 v1 v2 bc e i j (k + 1)%Z) (ext3 i0 j0 k0 i1 j1 k1 dx v0 v1 v2 bc e i j (k - 1)%Z) (Qclt_le_weak _ _ Hb) (Qclt_le_weak _ _ (Hv2 i j (k + 1)%Z ltac:(k_near) ltac:(k_near) ltac:(k_near))) (Qclt_le_weak _ _ (Hv2 i j k ltac:(k_near) ltac:(k_near) ltac:(k_near))) Up2 Dn2)) (Qc_mul _ _ (Ha i j k Ip) (Qclt_le_weak _ _ Pe'))) (perm31 _ _ _ _ Hr))|].
    split; [exact (down_term beta (dx 1) (v1 i (j + 1)%Z k) (v1 i j k) (ext3 i0 j0 k0 i1 j1 k1 dx v0 v1 v2 bc e i j k) (ext3 i0 j0 k0 i1 j1 k1 dx v0 v1 v2 bc e i (j + 1)%Z k) (ext3 i0 j0 k0 i1 j1 k1 dx v0 v1 v2 bc e i (j - 1)%Z k) _ Hb (Qc_ne_0 _ (Hdx 1 ltac:(lia))) (Qclt_le_weak _ _ (Hv1 i (j + 1)%Z k ltac:(k_near) ltac:(k_near) ltac:(k_near))) (Hv1 i j k ltac:(k_near) ltac:(k_near) ltac:(k_near)) Up1 Dn1 (Qc_add _ _ (Qc_add _ _ (other_term beta (dx 0) (v0 (i + 1)%Z j k) (v0 i j k) (ext3 i0 j0 k0 i1 j1 k1 dx v0 v1 v2 bc e i j k) (ext3 i0 j0 k0 i1 j1 k1 dx v0 v1 v2 bc e (i + 1)%Z j k) (ext3 i0 j0 k0 i1 j1 k1 dx v0 v1 v2 bc e (i - 1)%Z j k) (Qclt_le_weak _ _ Hb) (Qclt_le_weak _ _ (Hv0 (i + 1)%Z j k ltac:(k_near) ltac:(k_near) ltac:(k_near))) (Qclt_le_weak _ _ (Hv0 i j k ltac:(k_near) ltac:(k_near) ltac:(k_near))) Up0 Dn0) (other_term beta (dx 2) (v2 i j (k + 1)%Z) (v2 i j k) (ext3 i0 j0 k0 i1 j1 k1 dx v0 v1 v2 bc e i j k) (ext3 i0 j0 k0 i1 j1 k1 dx v0 v1 v2 bc e i j (k + 1)%Z) (ext3 i0 j0 k0 i1 j1 k1 dx v0 v1 v2 bc e i j (k - 1)%Z) (Qclt_le_weak _ _ Hb) (Qclt_le_weak _ _ (Hv2 i j (k + 1)%Z ltac:(k_near) ltac:(k_near) ltac:(k_near))) (Qclt_le_weak _ _ (Hv2 i j k ltac:(k_near) ltac:(k_near) ltac:(k_near))) Up2 Dn2)) (Qc_mul _ _ (Ha i j k Ip) (Qclt_le_weak _ _ Pe'))) (perm31 _ _ _ _ Hr))|].
    split; [exact (edge_term beta (dx 2) (v2 i j (k + 1)%Z) (v2 i j k) (ext3 i0 j0 k0 i1 j1 k1 dx v0 v1 v2 bc e i j k) (ext3 i0 j0 k0 i1 j1 k1 dx v0 v1 v2 bc e i j (k + 1)%Z) (ext3 i0 j0 k0 i1 j1 k1 dx v0 v1 v2 bc e i j (k - 1)%Z) _ Hb (Qc_ne_0 _ (Hdx 2 ltac:(lia))) (Hv2 i j (k + 1)%Z ltac:(k_near) ltac:(k_near) ltac:(k_near)) (Qclt_le_weak _ _ (Hv2 i j k ltac:(k_near) ltac:(k_near) ltac:(k_near))) Up2 Dn2 (Qc_add _ _ (Qc_add _ _ (other_term beta (dx 0) (v0 (i + 1)%Z j k) (v0 i j k) (ext3 i0 j0 k0 i1 j1 k1 dx v0 v1 v2 bc e i j k) (ext3 i0 j0 k0 i1 j1 k1 dx v0 v1 v2 bc e (i + 1)%Z j k) (ext3 i0 j0 k0 i1 j1 k1 dx v0 v1 v2 bc e (i - 1)%Z j k) (Qclt_le_weak _ _ Hb) (Qclt_le_weak _ _ (Hv0 (i + 1)%Z j k ltac:(k_near) ltac:(k_near) ltac:(k_near))) (Qclt_le_weak _ _ (Hv0 i j k ltac:(k_near) ltac:(k_near) ltac:(k_near))) Up0 Dn0) (other_term beta (dx 1) (v1 i (j + 1)%Z k) (v1 i j k) (ext3 i0 j0 k0 i1 j1 k1 dx v0 v1 v2 bc e i j k) (ext3 i0 j0 k0 i1 j1 k1 dx v0 v1 v2 bc e i (j + 1)%Z k) (ext3 i0 j0 k0 i1 j1 k1 dx v0 v1 v2 bc e i (j - 1)%Z k) (Qclt_le_weak _ _ Hb) (Qclt_le_weak _ _ (Hv1 i (j + 1)%Z k ltac:(k_near) ltac:(k_near) ltac:(k_near))) (Qclt_le_weak _ _ (Hv1 i j k ltac:(k_near) ltac:(k_near) ltac:(k_near))) Up1 Dn1)) (Qc_mul _ _ (Ha i j k Ip) (Qclt_le_weak _ _ Pe'))) (perm32 _ _ _ _ Hr))|].
    split; [exact (down_term beta (dx 2) (v2 i j (k + 1)%Z) (v2 i j k) (ext3 i0 j0 k0 i1 j1 k1 dx v0 v1 v2 bc e i j k) (ext3 i0 j0 k0 i1 j1 k1 dx v0 v1 v2 bc e i j (k + 1)%Z) (ext3 i0 j0 k0 i1 j1 k1 dx v0 v1 v2 bc e i j (k - 1)%Z) _ Hb (Qc_ne_0 _ (Hdx 2 ltac:(lia))) (Qclt_le_weak _ _ (Hv2 i j (k + 1)%Z ltac:(k_near) ltac:(k_near) ltac:(k_near))) (Hv2 i j k ltac:(k_near) ltac:(k_near) ltac:(k_near)) Up2 Dn2 (Qc_add _ _ (Qc_add _ _ (other_term beta (dx 0) (v0 (i + 1)%Z j k) (v0 i j k) (ext3 i0 j0 k0 i1 j1 k1 dx v0 v1 v2 bc e i j k) (ext3 i0 j0 k0 i1 j1 k1 dx v0 v1 v2 bc e (i + 1)%Z j k) (ext3 i0 j0 k0 i1 j1 k1 dx v0 v1 v2 bc e (i - 1)%Z j k) (Qclt_le_weak _ _ Hb) (Qclt_le_weak _ _ (Hv0 (i + 1)%Z j k ltac:(k_near) ltac:(k_near) ltac:(k_near))) (Qclt_le_weak _ _ (Hv0 i j k ltac:(k_near) ltac:(k_near) ltac:(k_near))) Up0 Dn0) (other_term beta (dx 1) (v1 i (j + 1)%Z k) (v1 i j k) (ext3 i0 j0 k0 i1 j1 k1 dx v0 v1 v2 bc e i j k) (ext3 i0 j0 k0 i1 j1 k1 dx v0 v1 v2 bc e i (j + 1)%Z k) (ext3 i0 j0 k0 i1 j1 k1 dx v0 v1 v2 bc e i (j - 1)%Z k) (Qclt_le_weak _ _ Hb) (Qclt_le_weak _ _ (Hv1 i (j + 1)%Z k ltac:(k_near) ltac:(k_near) ltac:(k_near))) (Qclt_le_weak _ _ (Hv1 i j k ltac:(k_near) ltac:(k_near) ltac:(k_near))) Up1 Dn1)) (Qc_mul _ _ (Ha i j k Ip) (Qclt_le_weak _ _ Pe'))) (perm32 _ _ _ _ Hr))|].
    exact (perm1r _ _ (Qc_add _ _ (Qc_add _ _ (other_term beta (dx 0) (v0 (i + 1)%Z j k) (v0 i j k) (ext3 i0 j0 k0 i1 j1 k1 dx v0 v1 v2 bc e i j k) (ext3 i0 j0 k0 i1 j1 k1 dx v0 v1 v2 bc e (i + 1)%Z j k) (ext3 i0 j0 k0 i1 j1 k1 dx v0 v1 v2 bc e (i - 1)%Z j k) (Qclt_le_weak _ _ Hb) (Qclt_le_weak _ _ (Hv0 (i + 1)%Z j k ltac:(k_near) ltac:(k_near) ltac:(k_near))) (Qclt_le_weak _ _ (Hv0 i j k ltac:(k_near) ltac:(k_near) ltac:(k_near))) Up0 Dn0) (other_term beta (dx 1) (v1 i (j + 1)%Z k) (v1 i j k) (ext3 i0 j0 k0 i1 j1 k1 dx v0 v1 v2 bc e i j k) (ext3 i0 j0 k0 i1 j1 k1 dx v0 v1 v2 bc e i (j + 1)%Z k) (ext3 i0 j0 k0 i1 j1 k1 dx v0 v1 v2 bc e i (j - 1)%Z k) (Qclt_le_weak _ _ Hb) (Qclt_le_weak _ _ (Hv1 i (j + 1)%Z k ltac:(k_near) ltac:(k_near) ltac:(k_near))) (Qclt_le_weak _ _ (Hv1 i j k ltac:(k_near) ltac:(k_near) ltac:(k_near))) Up1 Dn1)) (other_term beta (dx 2) (v2 i j (k + 1)%Z) (v2 i j k) (ext3 i0 j0 k0 i1 j1 k1 dx v0 v1 v2 bc e i j k) (ext3 i0 j0 k0 i1 j1 k1 dx v0 v1 v2 bc e i j (k + 1)%Z) (ext3 i0 j0 k0 i1 j1 k1 dx v0 v1 v2 bc e i j (k - 1)%Z) (Qclt_le_weak _ _ Hb) (Qclt_le_weak _ _ (Hv2 i j (k + 1)%Z ltac:(k_near) ltac:(k_near) ltac:(k_near))) (Qclt_le_weak _ _ (Hv2 i j k ltac:(k_near) ltac:(k_near) ltac:(k_near))) Up2 Dn2)) Hr).
  Qed.

  Lemma top3 e : (forall i j k, patch3 i0 j0 k0 i1 j1 k1 i j k -> (op3 dx beta a v0 v1 v2 (ext3 i0 j0 k0 i1 j1 k1 dx v0 v1 v2 bc e) i j k <= 0)%Qc) ->
    forall p0 p1 p2, patch3 i0 j0 k0 i1 j1 k1 p0 p1 p2 -> (forall i j k, patch3 i0 j0 k0 i1 j1 k1 i j k -> (e i j k <= e p0 p1 p2)%Qc) -> (0 < e p0 p1 p2)%Qc ->
    forall i j k, patch3 i0 j0 k0 i1 j1 k1 i j k -> e i j k = e p0 p1 p2.
  Proof.
    intros Hr p0 p1 p2 Ip0 Mx Pe.
    assert (Sp : forall i j k, patch3 i0 j0 k0 i1 j1 k1 i j k -> e i j k = e p0 p1 p2 -> (patch3 i0 j0 k0 i1 j1 k1 (i + 1)%Z j k -> e (i + 1)%Z j k = e p0 p1 p2) /\ (patch3 i0 j0 k0 i1 j1 k1 (i - 1)%Z j k -> e (i - 1)%Z j k = e p0 p1 p2) /\ (patch3 i0 j0 k0 i1 j1 k1 i (j + 1)%Z k -> e i (j + 1)%Z k = e p0 p1 p2) /\ (patch3 i0 j0 k0 i1 j1 k1 i (j - 1)%Z k -> e i (j - 1)%Z k = e p0 p1 p2) /\ (patch3 i0 j0 k0 i1 j1 k1 i j (k + 1)%Z -> e i j (k + 1)%Z = e p0 p1 p2) /\ (patch3 i0 j0 k0 i1 j1 k1 i j (k - 1)%Z -> e i j (k - 1)%Z = e p0 p1 p2)).
    { intros i j k Ip Ei. destruct (spread3 e Hr i j k Ip) as (Eu0 & Ed0 & Eu1 & Ed1 & Eu2 & Ed2 & Ea); [intros; rewrite Ei; now apply Mx|rewrite Ei; exact Pe|].
      split; [intros Y; rewrite <- Ei, <- (ext3_in i0 j0 k0 i1 j1 k1 dx a v0 v1 v2 bc e _ _ _ Y), Eu0; exact (ext3_in i0 j0 k0 i1 j1 k1 dx a v0 v1 v2 bc e i j k Ip)|]. split; [intros Y; rewrite <- Ei, <- (ext3_in i0 j0 k0 i1 j1 k1 dx a v0 v1 v2 bc e _ _ _ Y), Ed0; exact (ext3_in i0 j0 k0 i1 j1 k1 dx a v0 v1 v2 bc e i j k Ip)|]. split; [intros Y; rewrite <- Ei, <- (ext3_in i0 j0 k0 i1 j1 k1 dx a v0 v1 v2 bc e _ _ _ Y), Eu1; exact (ext3_in i0 j0 k0 i1 j1 k1 dx a v0 v1 v2 bc e i j k Ip)|]. split; [intros Y; rewrite <- Ei, <- (ext3_in i0 j0 k0 i1 j1 k1 dx a v0 v1 v2 bc e _ _ _ Y), Ed1; exact (ext3_in i0 j0 k0 i1 j1 k1 dx a v0 v1 v2 bc e i j k Ip)|]. split; [intros Y; rewrite <- Ei, <- (ext3_in i0 j0 k0 i1 j1 k1 dx a v0 v1 v2 bc e _ _ _ Y), Eu2; exact (ext3_in i0 j0 k0 i1 j1 k1 dx a v0 v1 v2 bc e i j k Ip)|]. intros Y; rewrite <- Ei, <- (ext3_in i0 j0 k0 i1 j1 k1 dx a v0 v1 v2 bc e _ _ _ Y), Ed2; exact (ext3_in i0 j0 k0 i1 j1 k1 dx a v0 v1 v2 bc e i j k Ip). }
    intros i j k Iq.
    assert (C0 : e i p1 p2 = e p0 p1 p2).
    { apply (line (fun t => e t p1 p2 = e p0 p1 p2) i0 i1) with (i := p0); [|k_near|k_near|reflexivity].
      intros t Ht Ei. destruct (Sp t p1 p2 ltac:(k_near) Ei) as (A0 & A1 & A2 & A3 & A4 & A5). split; intros; [apply A0|apply A1]; k_near. }
    assert (C1 : e i j p2 = e p0 p1 p2).
    { apply (line (fun t => e i t p2 = e p0 p1 p2) j0 j1) with (i := p1); [|k_near|k_near|exact C0].
      intros t Ht Ei. destruct (Sp i t p2 ltac:(k_near) Ei) as (A0 & A1 & A2 & A3 & A4 & A5). split; intros; [apply A2|apply A3]; k_near. }
    assert (C2 : e i j k = e p0 p1 p2).
    { apply (line (fun t => e i j t = e p0 p1 p2) k0 k1) with (i := p2); [|k_near|k_near|exact C1].
      intros t Ht Ei. destruct (Sp i j t ltac:(k_near) Ei) as (A0 & A1 & A2 & A3 & A4 & A5). split; intros; [apply A4|apply A5]; k_near. }
    exact C2.
  Qed.

  Context (Hh : (exists f, 0 <= f < 6 /\ b_kind (bc f) <> 1) \/ (exists i j k, patch3 i0 j0 k0 i1 j1 k1 i j k /\ (0 < a i j k)%Qc)).

  Lemma any3 e : (forall i j k, patch3 i0 j0 k0 i1 j1 k1 i j k -> (op3 dx beta a v0 v1 v2 (ext3 i0 j0 k0 i1 j1 k1 dx v0 v1 v2 bc e) i j k <= 0)%Qc) -> forall i j k, patch3 i0 j0 k0 i1 j1 k1 i j k -> (e i j k <= 0)%Qc.
  Proof.
    intros Hr i j k Ip0.
    destruct (list_max (fun p : Z * Z * Z => e (fst (fst p)) (snd (fst p)) (snd p)) (cells3 i0 j0 k0 i1 j1 k1)) as ([[x y] z] & Im & Mx).
    { intros C. apply in_cells3 in Ip0. rewrite C in Ip0. contradiction. }
    cbn [fst snd] in Mx. apply in_cells3 in Im.
    assert (Mx' : forall i j k, patch3 i0 j0 k0 i1 j1 k1 i j k -> (e i j k <= e x y z)%Qc).
    { intros i' j' k' I'. apply (Mx (i', j', k')). now apply in_cells3. }
    clear Mx. rename Mx' into Mx.
    apply Qcle_trans with (e x y z); [now apply Mx|]. destruct (Qclt_le_dec 0 (e x y z)) as [Pe|N]; [exfalso|exact N].
    pose proof (top3 e Hr x y z Im Mx Pe) as T. clear i j k Ip0.
    pose proof (roomy_le 3 (ends3 i0 j0 k0) (ends3 i1 j1 k1) bc Ro 0 ltac:(lia)) as B0. change (i0 <= i1) in B0. pose proof (roomy_le 3 (ends3 i0 j0 k0) (ends3 i1 j1 k1) bc Ro 1 ltac:(lia)) as B1. change (j0 <= j1) in B1. pose proof (roomy_le 3 (ends3 i0 j0 k0) (ends3 i1 j1 k1) bc Ro 2 ltac:(lia)) as B2. change (k0 <= k1) in B2.
    destruct Hh as [(f & Hf & Nk)|(i & j & k & Ip & Pa)].
    - assert (f = 0 \/ f = 1 \/ f = 2 \/ f = 3 \/ f = 4 \/ f = 5) as [->|[->|[->|[->|[->| ->]]]]] by lia.
      + assert (Ip : patch3 i0 j0 k0 i1 j1 k1 i0 j0 k0) by k_near. pose proof (T i0 j0 k0 Ip) as Te.
        destruct (spread3 e Hr i0 j0 k0 Ip) as (Eu0 & Ed0 & Eu1 & Ed1 & Eu2 & Ed2 & Ea); [intros; rewrite Te; now apply Mx|rewrite Te; exact Pe|].
        revert Ed0. apply Qc_lt_ne. rewrite (ext3_face0 i0 j0 k0 i1 j1 k1 dx a v0 v1 v2 bc e ltac:(k_near) j0 k0 ltac:(k_near) ltac:(k_near)), (ext3_in i0 j0 k0 i1 j1 k1 dx a v0 v1 v2 bc e i0 j0 k0 Ip).
        apply ghost_lt; [apply (kl_strict rob); [apply Hs; lia|apply Hdx; lia|apply Qclt_le_weak, Hv0; k_near|exact Nk]|apply ll_pos| |rewrite Te; exact Pe].
        destruct (ll_depth (bc 0)) as [|D2]; [now left|right]. pose proof (Ro 0 ltac:(lia)) as R. rewrite D2 in R. change (0 / 2) with 0 in R. cbv [ends1 ends2 ends3] in R. cbn [Z.eqb Pos.eqb] in R. rewrite Te. apply Mx. clear - R Ip. k_near.
      + assert (Ip : patch3 i0 j0 k0 i1 j1 k1 i1 j0 k0) by k_near. pose proof (T i1 j0 k0 Ip) as Te.
        destruct (spread3 e Hr i1 j0 k0 Ip) as (Eu0 & Ed0 & Eu1 & Ed1 & Eu2 & Ed2 & Ea); [intros; rewrite Te; now apply Mx|rewrite Te; exact Pe|].
        revert Eu0. apply Qc_lt_ne. rewrite (ext3_face1 i0 j0 k0 i1 j1 k1 dx a v0 v1 v2 bc e ltac:(k_near) j0 k0 ltac:(k_near) ltac:(k_near)), (ext3_in i0 j0 k0 i1 j1 k1 dx a v0 v1 v2 bc e i1 j0 k0 Ip).
        apply ghost_lt; [apply (kl_strict rob); [apply Hs; lia|apply Hdx; lia|apply Qclt_le_weak, Hv0; k_near|exact Nk]|apply ll_pos| |rewrite Te; exact Pe].
        destruct (ll_depth (bc 1)) as [|D2]; [now left|right]. pose proof (Ro 1 ltac:(lia)) as R. rewrite D2 in R. change (1 / 2) with 0 in R. cbv [ends1 ends2 ends3] in R. cbn [Z.eqb Pos.eqb] in R. rewrite Te. apply Mx. clear - R Ip. k_near.
      + assert (Ip : patch3 i0 j0 k0 i1 j1 k1 i0 j0 k0) by k_near. pose proof (T i0 j0 k0 Ip) as Te.
        destruct (spread3 e Hr i0 j0 k0 Ip) as (Eu0 & Ed0 & Eu1 & Ed1 & Eu2 & Ed2 & Ea); [intros; rewrite Te; now apply Mx|rewrite Te; exact Pe|].
        revert Ed1. apply Qc_lt_ne. rewrite (ext3_face2 i0 j0 k0 i1 j1 k1 dx a v0 v1 v2 bc e ltac:(k_near) i0 k0 ltac:(k_near) ltac:(k_near)), (ext3_in i0 j0 k0 i1 j1 k1 dx a v0 v1 v2 bc e i0 j0 k0 Ip).
        apply ghost_lt; [apply (kl_strict rob); [apply Hs; lia|apply Hdx; lia|apply Qclt_le_weak, Hv1; k_near|exact Nk]|apply ll_pos| |rewrite Te; exact Pe].
        destruct (ll_depth (bc 2)) as [|D2]; [now left|right]. pose proof (Ro 2 ltac:(lia)) as R. rewrite D2 in R. change (2 / 2) with 1 in R. cbv [ends1 ends2 ends3] in R. cbn [Z.eqb Pos.eqb] in R. rewrite Te. apply Mx. clear - R Ip. k_near.
      + assert (Ip : patch3 i0 j0 k0 i1 j1 k1 i0 j1 k0) by k_near. pose proof (T i0 j1 k0 Ip) as Te.
        destruct (spread3 e Hr i0 j1 k0 Ip) as (Eu0 & Ed0 & Eu1 & Ed1 & Eu2 & Ed2 & Ea); [intros; rewrite Te; now apply Mx|rewrite Te; exact Pe|].
        revert Eu1. apply Qc_lt_ne. rewrite (ext3_face3 i0 j0 k0 i1 j1 k1 dx a v0 v1 v2 bc e ltac:(k_near) i0 k0 ltac:(k_near) ltac:(k_near)), (ext3_in i0 j0 k0 i1 j1 k1 dx a v0 v1 v2 bc e i0 j1 k0 Ip).
        apply ghost_lt; [apply (kl_strict rob); [apply Hs; lia|apply Hdx; lia|apply Qclt_le_weak, Hv1; k_near|exact Nk]|apply ll_pos| |rewrite Te; exact Pe].
        destruct (ll_depth (bc 3)) as [|D2]; [now left|right]. pose proof (Ro 3 ltac:(lia)) as R. rewrite D2 in R. change (3 / 2) with 1 in R. cbv [ends1 ends2 ends3] in R. cbn [Z.eqb Pos.eqb] in R. rewrite Te. apply Mx. clear - R Ip. k_near.
      + assert (Ip : patch3 i0 j0 k0 i1 j1 k1 i0 j0 k0) by k_near. pose proof (T i0 j0 k0 Ip) as Te.
        destruct (spread3 e Hr i0 j0 k0 Ip) as (Eu0 & Ed0 & Eu1 & Ed1 & Eu2 & Ed2 & Ea); [intros; rewrite Te; now apply Mx|rewrite Te; exact Pe|].
        revert Ed2. apply Qc_lt_ne. rewrite (ext3_face4 i0 j0 k0 i1 j1 k1 dx a v0 v1 v2 bc e ltac:(k_near) i0 j0 ltac:(k_near) ltac:(k_near)), (ext3_in i0 j0 k0 i1 j1 k1 dx a v0 v1 v2 bc e i0 j0 k0 Ip).
        apply ghost_lt; [apply (kl_strict rob); [apply Hs; lia|apply Hdx; lia|apply Qclt_le_weak, Hv2; k_near|exact Nk]|apply ll_pos| |rewrite Te; exact Pe].
        destruct (ll_depth (bc 4)) as [|D2]; [now left|right]. pose proof (Ro 4 ltac:(lia)) as R. rewrite D2 in R. change (4 / 2) with 2 in R. cbv [ends1 ends2 ends3] in R. cbn [Z.eqb Pos.eqb] in R. rewrite Te. apply Mx. clear - R Ip. k_near.
      + assert (Ip : patch3 i0 j0 k0 i1 j1 k1 i0 j0 k1) by k_near. pose proof (T i0 j0 k1 Ip) as Te.
        destruct (spread3 e Hr i0 j0 k1 Ip) as (Eu0 & Ed0 & Eu1 & Ed1 & Eu2 & Ed2 & Ea); [intros; rewrite Te; now apply Mx|rewrite Te; exact Pe|].
        revert Eu2. apply Qc_lt_ne. rewrite (ext3_face5 i0 j0 k0 i1 j1 k1 dx a v0 v1 v2 bc e ltac:(k_near) i0 j0 ltac:(k_near) ltac:(k_near)), (ext3_in i0 j0 k0 i1 j1 k1 dx a v0 v1 v2 bc e i0 j0 k1 Ip).
        apply ghost_lt; [apply (kl_strict rob); [apply Hs; lia|apply Hdx; lia|apply Qclt_le_weak, Hv2; k_near|exact Nk]|apply ll_pos| |rewrite Te; exact Pe].
        destruct (ll_depth (bc 5)) as [|D2]; [now left|right]. pose proof (Ro 5 ltac:(lia)) as R. rewrite D2 in R. change (5 / 2) with 2 in R. cbv [ends1 ends2 ends3] in R. cbn [Z.eqb Pos.eqb] in R. rewrite Te. apply Mx. clear - R Ip. k_near.
    - destruct (spread3 e Hr i j k Ip) as (Eu0 & Ed0 & Eu1 & Ed1 & Eu2 & Ed2 & Ea); [intros; rewrite (T i j k Ip); now apply Mx|rewrite (T i j k Ip); exact Pe|].
      rewrite (ext3_in i0 j0 k0 i1 j1 k1 dx a v0 v1 v2 bc e i j k Ip), (T i j k Ip) in Ea. exact (Qclt_not_le _ _ (Qc_pos_mul _ _ Pa Pe) Ea).
  Qed.

  Lemma any3_compare (w z r s : Z -> Z -> Z -> Qc) :
    (forall i j k, patch3 i0 j0 k0 i1 j1 k1 i j k -> r i j k = op3 dx beta a v0 v1 v2 (ext3 i0 j0 k0 i1 j1 k1 dx v0 v1 v2 bc w) i j k) -> (forall i j k, patch3 i0 j0 k0 i1 j1 k1 i j k -> s i j k = op3 dx beta a v0 v1 v2 (ext3 i0 j0 k0 i1 j1 k1 dx v0 v1 v2 bc z) i j k) ->
    (forall i j k, patch3 i0 j0 k0 i1 j1 k1 i j k -> (r i j k <= s i j k)%Qc) -> forall i j k, patch3 i0 j0 k0 i1 j1 k1 i j k -> (w i j k <= z i j k)%Qc.
  Proof.
    intros Ew Ez Le i j k Ip. apply Qc_nonneg_sub.
    replace (z i j k - w i j k)%Qc with (- (1 * w i j k + (- (1)) * z i j k))%Qc by ring. apply (Qcopp_le_compat _ 0).
    revert i j k Ip. apply (any3 (fun i j k => 1 * w i j k + (- (1)) * z i j k)%Qc).
    intros i j k Ip. rewrite bvp3_lin by exact Ip. rewrite <- Ew, <- Ez by exact Ip.
    pose proof (Qc_sub_nonneg _ _ (Le i j k Ip)) as G. apply Qcopp_le_compat in G.
    replace (- 0)%Qc with 0%Qc in G by ring. replace (1 * r i j k + (- (1)) * s i j k)%Qc with (- (s i j k - r i j k))%Qc by ring. exact G.
  Qed.

  Lemma any3_exists (r : Z -> Z -> Z -> Qc) : exists w : Z -> Z -> Z -> Qc, forall i j k, patch3 i0 j0 k0 i1 j1 k1 i j k -> op3 dx beta a v0 v1 v2 (ext3 i0 j0 k0 i1 j1 k1 dx v0 v1 v2 bc w) i j k = r i j k.
  Proof.
    destruct (@solvable (Z * Z * Z) dec3 (fun w => (fun p : Z * Z * Z => (op3 dx beta a v0 v1 v2 (ext3 i0 j0 k0 i1 j1 k1 dx v0 v1 v2 bc (fun i j k => w (i, j, k)))) (fst (fst p)) (snd (fst p)) (snd p))) (cells3 i0 j0 k0 i1 j1 k1) (nodup_cells3 i0 j0 k0 i1 j1 k1)) with (g := fun _ : Z * Z * Z => 0%Qc) (r := (fun p : Z * Z * Z => r (fst (fst p)) (snd (fst p)) (snd p))) as (w & Hw & Tw).
    - intros x y w z [[i j] k] Ip. cbn [fst snd]. apply in_cells3 in Ip. apply (bvp3_lin i0 j0 k0 i1 j1 k1 dx beta a v0 v1 v2 bc x y (fun i j k => w (i, j, k)) (fun i j k => z (i, j, k)) i j k Ip).
    - intros w Out Z.
      assert (Zl : forall s i j k, patch3 i0 j0 k0 i1 j1 k1 i j k -> op3 dx beta a v0 v1 v2 (ext3 i0 j0 k0 i1 j1 k1 dx v0 v1 v2 bc (fun i j k => s * w (i, j, k) + 0 * w (i, j, k))%Qc) i j k = 0%Qc).
      { intros s i j k Ip. rewrite (bvp3_lin i0 j0 k0 i1 j1 k1 dx beta a v0 v1 v2 bc s 0 (fun i j k => w (i, j, k)) (fun i j k => w (i, j, k)) i j k Ip).
        pose proof (Z (i, j, k) (proj2 (in_cells3 i0 j0 k0 i1 j1 k1 i j k) Ip)) as E. cbn [fst snd] in E. rewrite E. ring. }
      intros [[i j] k] Ip. apply in_cells3 in Ip. apply Qcle_antisym.
      + replace (w (i, j, k)) with (1 * w (i, j, k) + 0 * w (i, j, k))%Qc by ring. revert i j k Ip. apply any3. intros i j k Ip. rewrite (Zl 1%Qc) by exact Ip. apply Qcle_refl.
      + replace (w (i, j, k)) with (- ((- (1)) * w (i, j, k) + 0 * w (i, j, k)))%Qc by ring. apply (Qcopp_le_compat _ 0). revert i j k Ip. apply any3. intros i j k Ip. rewrite (Zl (- (1))%Qc) by exact Ip. apply Qcle_refl.
    - intros w z [[i j] k] Ip E. cbn [fst snd]. apply in_cells3 in Ip. apply (op3_near i0 j0 k0 i1 j1 k1 dx beta a v0 v1 v2 bc); [exact Ip|]. intros. apply ext3_ext. intros. apply E.
    - exists (fun i j k => w (i, j, k)). intros i j k Ip. apply (Tw (i, j, k)). now apply in_cells3.
  Qed.
End Any3.


(** Neumann conditions all around and no reaction. *)
Section Closed3.
  Context (i0 j0 k0 i1 j1 k1 : Z) (dx : Z -> Qc) (beta : Qc) (a v0 v1 v2 : Z -> Z -> Z -> Qc) (bc : Z -> bcond QcS).
  Context (Hn : forall f, 0 <= f < 6 -> b_kind (bc f) = 1) (Ha0 : forall i j k, patch3 i0 j0 k0 i1 j1 k1 i j k -> a i j k = 0%Qc) (Ro : roomy 3 (ends3 i0 j0 k0) (ends3 i1 j1 k1) bc).

  Lemma closed3_sum (w : Z -> Z -> Z -> Qc) : total3 (S := QcS) i0 j0 k0 i1 j1 k1 (fun i j k => op3 dx beta a v0 v1 v2 (ext3 i0 j0 k0 i1 j1 k1 dx v0 v1 v2 bc w) i j k) = 0%Qc.
  Proof.
    pose proof (roomy_le 3 (ends3 i0 j0 k0) (ends3 i1 j1 k1) bc Ro 0 ltac:(lia)) as B0. change (i0 <= i1) in B0. pose proof (roomy_le 3 (ends3 i0 j0 k0) (ends3 i1 j1 k1) bc Ro 1 ltac:(lia)) as B1. change (j0 <= j1) in B1. pose proof (roomy_le 3 (ends3 i0 j0 k0) (ends3 i1 j1 k1) bc Ro 2 ltac:(lia)) as B2. change (k0 <= k1) in B2.
    set (G0 := (fun i j k => v0 i j k * ((ext3 i0 j0 k0 i1 j1 k1 dx v0 v1 v2 bc w i j k - ext3 i0 j0 k0 i1 j1 k1 dx v0 v1 v2 bc w (i - 1)%Z j k) / dx 0%Z))%Qc).
    set (G1 := (fun i j k => v1 i j k * ((ext3 i0 j0 k0 i1 j1 k1 dx v0 v1 v2 bc w i j k - ext3 i0 j0 k0 i1 j1 k1 dx v0 v1 v2 bc w i (j - 1)%Z k) / dx 1%Z))%Qc).
    set (G2 := (fun i j k => v2 i j k * ((ext3 i0 j0 k0 i1 j1 k1 dx v0 v1 v2 bc w i j k - ext3 i0 j0 k0 i1 j1 k1 dx v0 v1 v2 bc w i j (k - 1)%Z) / dx 2%Z))%Qc).
    assert (Z0 : total3 (S := QcS) i0 j0 k0 i1 j1 k1 (fun i j k => - beta * ((G0 (i + 1)%Z j k - G0 i j k) / dx 0%Z))%Qc = 0%Qc).
    { rewrite <- lit_0. apply (closed3_0 QcS_laws i0 j0 k0 i1 j1 k1 (- beta)%Qc (dx 0%Z) G0); [lia|]. intros j k Ij Ik. rewrite lit_0. unfold G0. split.
      - rewrite (ext3_face0 i0 j0 k0 i1 j1 k1 dx a v0 v1 v2 bc w ltac:(k_near) j k ltac:(k_near) ltac:(k_near)), (ext3_in i0 j0 k0 i1 j1 k1 dx a v0 v1 v2 bc w) by k_near. unfold kk, ll. rewrite (Hn 0) by lia. cbn [Z.eqb Pos.eqb andb]. unfold Qcdiv. k_qc. ring.
      - replace (i1 + 1 - 1)%Z with i1 by lia. rewrite (ext3_face1 i0 j0 k0 i1 j1 k1 dx a v0 v1 v2 bc w ltac:(k_near) j k ltac:(k_near) ltac:(k_near)), (ext3_in i0 j0 k0 i1 j1 k1 dx a v0 v1 v2 bc w) by k_near. unfold kk, ll. rewrite (Hn 1) by lia. cbn [Z.eqb Pos.eqb andb]. unfold Qcdiv. k_qc. ring. }
    assert (Z1 : total3 (S := QcS) i0 j0 k0 i1 j1 k1 (fun i j k => - beta * ((G1 i (j + 1)%Z k - G1 i j k) / dx 1%Z))%Qc = 0%Qc).
    { rewrite <- lit_0. apply (closed3_1 QcS_laws i0 j0 k0 i1 j1 k1 (- beta)%Qc (dx 1%Z) G1); [lia|]. intros i k Ii Ik. rewrite lit_0. unfold G1. split.
      - rewrite (ext3_face2 i0 j0 k0 i1 j1 k1 dx a v0 v1 v2 bc w ltac:(k_near) i k ltac:(k_near) ltac:(k_near)), (ext3_in i0 j0 k0 i1 j1 k1 dx a v0 v1 v2 bc w) by k_near. unfold kk, ll. rewrite (Hn 2) by lia. cbn [Z.eqb Pos.eqb andb]. unfold Qcdiv. k_qc. ring.
      - replace (j1 + 1 - 1)%Z with j1 by lia. rewrite (ext3_face3 i0 j0 k0 i1 j1 k1 dx a v0 v1 v2 bc w ltac:(k_near) i k ltac:(k_near) ltac:(k_near)), (ext3_in i0 j0 k0 i1 j1 k1 dx a v0 v1 v2 bc w) by k_near. unfold kk, ll. rewrite (Hn 3) by lia. cbn [Z.eqb Pos.eqb andb]. unfold Qcdiv. k_qc. ring. }
    assert (Z2 : total3 (S := QcS) i0 j0 k0 i1 j1 k1 (fun i j k => - beta * ((G2 i j (k + 1)%Z - G2 i j k) / dx 2%Z))%Qc = 0%Qc).
    { rewrite <- lit_0. apply (closed3_2 QcS_laws i0 j0 k0 i1 j1 k1 (- beta)%Qc (dx 2%Z) G2); [lia|]. intros i j Ii Ij. rewrite lit_0. unfold G2. split.
      - rewrite (ext3_face4 i0 j0 k0 i1 j1 k1 dx a v0 v1 v2 bc w ltac:(k_near) i j ltac:(k_near) ltac:(k_near)), (ext3_in i0 j0 k0 i1 j1 k1 dx a v0 v1 v2 bc w) by k_near. unfold kk, ll. rewrite (Hn 4) by lia. cbn [Z.eqb Pos.eqb andb]. unfold Qcdiv. k_qc. ring.
      - replace (k1 + 1 - 1)%Z with k1 by lia. rewrite (ext3_face5 i0 j0 k0 i1 j1 k1 dx a v0 v1 v2 bc w ltac:(k_near) i j ltac:(k_near) ltac:(k_near)), (ext3_in i0 j0 k0 i1 j1 k1 dx a v0 v1 v2 bc w) by k_near. unfold kk, ll. rewrite (Hn 5) by lia. cbn [Z.eqb Pos.eqb andb]. unfold Qcdiv. k_qc. ring. }
    transitivity (total3 (S := QcS) i0 j0 k0 i1 j1 k1 (fun i j k => - beta * ((G0 (i + 1)%Z j k - G0 i j k) / dx 0%Z) + - beta * ((G1 i (j + 1)%Z k - G1 i j k) / dx 1%Z) + - beta * ((G2 i j (k + 1)%Z - G2 i j k) / dx 2%Z))%Qc).
    { apply (total3_ext (S := QcS)). intros i j k Ii Ij Ik. unfold op3, G0, G1, G2. rewrite (Ha0 i j k) by k_near. replace (i + 1 - 1)%Z with i by lia. replace (j + 1 - 1)%Z with j by lia. replace (k + 1 - 1)%Z with k by lia.
      unfold Qcdiv. k_qc. ring. }
    etransitivity; [exact (total3_add QcS_laws i0 j0 k0 i1 j1 k1 (fun i j k => - beta * ((G0 (i + 1)%Z j k - G0 i j k) / dx 0%Z) + - beta * ((G1 i (j + 1)%Z k - G1 i j k) / dx 1%Z))%Qc (fun i j k => - beta * ((G2 i j (k + 1)%Z - G2 i j k) / dx 2%Z))%Qc)|]. rewrite Z2.
    etransitivity; [exact (Qcplus_0_r _)|].
    etransitivity; [exact (total3_add QcS_laws i0 j0 k0 i1 j1 k1 (fun i j k => - beta * ((G0 (i + 1)%Z j k - G0 i j k) / dx 0%Z))%Qc (fun i j k => - beta * ((G1 i (j + 1)%Z k - G1 i j k) / dx 1%Z))%Qc)|]. rewrite Z1.
    etransitivity; [exact (Qcplus_0_r _)|].
    exact Z0.
  Qed.

  Lemma closed3_const k0' i j k : patch3 i0 j0 k0 i1 j1 k1 i j k -> op3 dx beta a v0 v1 v2 (ext3 i0 j0 k0 i1 j1 k1 dx v0 v1 v2 bc (fun _ _ _ => k0')) i j k = 0%Qc.
  Proof.
    intros Ip. rewrite (op3_near i0 j0 k0 i1 j1 k1 dx beta a v0 v1 v2 bc _ (fun _ _ _ => k0') i j k Ip).
    - unfold op3. rewrite (Ha0 i j k Ip). unfold Qcdiv. ring.
    - clear Ip i j k. intros i j k In. unfold ext3, kk, ll. rewrite (Hn 0) by lia. rewrite (Hn 1) by lia. rewrite (Hn 2) by lia. rewrite (Hn 3) by lia. rewrite (Hn 4) by lia. rewrite (Hn 5) by lia. cbn [Z.eqb Pos.eqb andb].
      repeat (match goal with |- context [if ?b then _ else _] => destruct b end; [ring|]). reflexivity.
  Qed.

  Context (Hb : (0 < beta)%Qc) (Hdx : forall d, 0 <= d < 3 -> (0 < dx d)%Qc).
  Context (Hv0 : forall i j k, i0 <= i <= i1 + 1 -> j0 <= j <= j1 -> k0 <= k <= k1 -> (0 < v0 i j k)%Qc).
  Context (Hv1 : forall i j k, i0 <= i <= i1 -> j0 <= j <= j1 + 1 -> k0 <= k <= k1 -> (0 < v1 i j k)%Qc).
  Context (Hv2 : forall i j k, i0 <= i <= i1 -> j0 <= j <= j1 -> k0 <= k <= k1 + 1 -> (0 < v2 i j k)%Qc).

  Lemma closed3_flat e : (forall i j k, patch3 i0 j0 k0 i1 j1 k1 i j k -> op3 dx beta a v0 v1 v2 (ext3 i0 j0 k0 i1 j1 k1 dx v0 v1 v2 bc e) i j k = 0%Qc) -> forall i j k, patch3 i0 j0 k0 i1 j1 k1 i j k -> e i j k = e i0 j0 k0.
  Proof.
    pose proof (roomy_le 3 (ends3 i0 j0 k0) (ends3 i1 j1 k1) bc Ro 0 ltac:(lia)) as B0. change (i0 <= i1) in B0. pose proof (roomy_le 3 (ends3 i0 j0 k0) (ends3 i1 j1 k1) bc Ro 1 ltac:(lia)) as B1. change (j0 <= j1) in B1. pose proof (roomy_le 3 (ends3 i0 j0 k0) (ends3 i1 j1 k1) bc Ro 2 ltac:(lia)) as B2. change (k0 <= k1) in B2.
    intros He. destruct (list_max (fun p : Z * Z * Z => e (fst (fst p)) (snd (fst p)) (snd p)) (cells3 i0 j0 k0 i1 j1 k1)) as ([[x y] z] & Im & Mx).
    { intros C. assert (In (i0, j0, k0) (cells3 i0 j0 k0 i1 j1 k1)) as I0 by (apply in_cells3; k_near). rewrite C in I0. contradiction. }
    cbn [fst snd] in Mx. apply in_cells3 in Im.
    assert (Mx' : forall i j k, patch3 i0 j0 k0 i1 j1 k1 i j k -> (e i j k <= e x y z)%Qc).
    { intros i' j' k' I'. apply (Mx (i', j', k')). now apply in_cells3. }
    set (g := fun i j k => (1 * e i j k + (1 - e x y z) * 1)%Qc).
    assert (Gt : forall i j k, patch3 i0 j0 k0 i1 j1 k1 i j k -> g i j k = g x y z).
    { refine (top3 i0 j0 k0 i1 j1 k1 dx beta a v0 v1 v2 bc false Hb Hdx _ Hv0 Hv1 Hv2 _ Ro g _ x y z Im _ _).
      - intros i j k Ip. rewrite (Ha0 i j k Ip). apply Qcle_refl.
      - intros f Hf. right. left. now apply Hn.
      - intros i j k Ip. unfold g. rewrite (bvp3_lin i0 j0 k0 i1 j1 k1 dx beta a v0 v1 v2 bc 1 (1 - e x y z) e (fun _ _ _ => 1%Qc) i j k Ip), (He i j k Ip), (closed3_const 1 i j k Ip).
        replace (1 * 0 + (1 - e x y z) * 0)%Qc with 0%Qc by ring. apply Qcle_refl.
      - intros i j k Ip. unfold g. apply Qcplus_le_compat; [|apply Qcle_refl]. rewrite !Qcmult_1_l. now apply Mx'.
      - unfold g. replace (1 * e x y z + (1 - e x y z) * 1)%Qc with 1%Qc by ring. reflexivity. }
    assert (Et : forall i j k, patch3 i0 j0 k0 i1 j1 k1 i j k -> e i j k = e x y z).
    { intros i j k Ip. specialize (Gt i j k Ip). unfold g in Gt. replace (e i j k) with (1 * e i j k + (1 - e x y z) * 1 - (1 - e x y z))%Qc by ring. rewrite Gt. ring. }
    intros i j k Ip. rewrite (Et i j k Ip). symmetry. apply Et. k_near.
  Qed.

  Lemma closed3_unique w z : (forall i j k, patch3 i0 j0 k0 i1 j1 k1 i j k -> op3 dx beta a v0 v1 v2 (ext3 i0 j0 k0 i1 j1 k1 dx v0 v1 v2 bc w) i j k = op3 dx beta a v0 v1 v2 (ext3 i0 j0 k0 i1 j1 k1 dx v0 v1 v2 bc z) i j k) -> exists c, forall i j k, patch3 i0 j0 k0 i1 j1 k1 i j k -> z i j k = (w i j k + c)%Qc.
  Proof.
    intros E. exists (1 * z i0 j0 k0 + (- (1)) * w i0 j0 k0)%Qc. intros i j k Ip.
    assert (F : forall i j k, patch3 i0 j0 k0 i1 j1 k1 i j k -> op3 dx beta a v0 v1 v2 (ext3 i0 j0 k0 i1 j1 k1 dx v0 v1 v2 bc (fun i j k => 1 * z i j k + (- (1)) * w i j k)%Qc) i j k = 0%Qc).
    { clear i j k Ip. intros i j k Ip. rewrite (bvp3_lin i0 j0 k0 i1 j1 k1 dx beta a v0 v1 v2 bc 1 (- (1)) z w i j k Ip), (E i j k Ip). ring. }
    pose proof (closed3_flat _ F i j k Ip) as G. cbv beta in G. rewrite <- G. ring.
  Qed.

  (** Drop the equation of one cell and fix the value there. *)
  Lemma closed3_exists (r : Z -> Z -> Z -> Qc) : total3 (S := QcS) i0 j0 k0 i1 j1 k1 r = 0%Qc -> exists w : Z -> Z -> Z -> Qc, forall i j k, patch3 i0 j0 k0 i1 j1 k1 i j k -> op3 dx beta a v0 v1 v2 (ext3 i0 j0 k0 i1 j1 k1 dx v0 v1 v2 bc w) i j k = r i j k.
  Proof.
    pose proof (roomy_le 3 (ends3 i0 j0 k0) (ends3 i1 j1 k1) bc Ro 0 ltac:(lia)) as B0. change (i0 <= i1) in B0. pose proof (roomy_le 3 (ends3 i0 j0 k0) (ends3 i1 j1 k1) bc Ro 1 ltac:(lia)) as B1. change (j0 <= j1) in B1. pose proof (roomy_le 3 (ends3 i0 j0 k0) (ends3 i1 j1 k1) bc Ro 2 ltac:(lia)) as B2. change (k0 <= k1) in B2.
    intros Sr. assert (I0 : patch3 i0 j0 k0 i1 j1 k1 i0 j0 k0) by k_near.
    assert (Last : forall e : Z -> Z -> Z -> Qc, total3 (S := QcS) i0 j0 k0 i1 j1 k1 e = 0%Qc -> (forall i j k, patch3 i0 j0 k0 i1 j1 k1 i j k -> (i, j, k) <> (i0, j0, k0) -> e i j k = 0%Qc) -> forall i j k, patch3 i0 j0 k0 i1 j1 k1 i j k -> e i j k = 0%Qc).
    { intros e S0 E i j k Ip. destruct (dec3 (i, j, k) (i0, j0, k0)) as [Q|Q]; [|now apply E].
      injection Q as -> -> ->. rewrite <- S0. symmetry.
      apply (total3_at QcS_laws i0 j0 k0 i1 j1 k1 e i0 j0 k0); [lia|lia|lia|]. intros i' j' k' Ii Ij Ik N. rewrite lit_0. apply E; [k_near|]. intros C. injection C as -> -> ->; tauto. }
    destruct (@solvable (Z * Z * Z) dec3 (fun w p => if dec3 p (i0, j0, k0) then w (i0, j0, k0) else (fun p : Z * Z * Z => (op3 dx beta a v0 v1 v2 (ext3 i0 j0 k0 i1 j1 k1 dx v0 v1 v2 bc (fun i j k => w (i, j, k)))) (fst (fst p)) (snd (fst p)) (snd p)) p) (cells3 i0 j0 k0 i1 j1 k1) (nodup_cells3 i0 j0 k0 i1 j1 k1)) with (g := fun _ : Z * Z * Z => 0%Qc)
      (r := fun p => if dec3 p (i0, j0, k0) then 0%Qc else (fun p : Z * Z * Z => r (fst (fst p)) (snd (fst p)) (snd p)) p) as (w & Hw & Tw).
    - intros x y w z p Ip. destruct (dec3 p (i0, j0, k0)); [reflexivity|]. destruct p as [[i j] k]. cbn [fst snd]. apply in_cells3 in Ip. apply (bvp3_lin i0 j0 k0 i1 j1 k1 dx beta a v0 v1 v2 bc x y (fun i j k => w (i, j, k)) (fun i j k => z (i, j, k)) i j k Ip).
    - intros w Out Z. assert (W0 : w (i0, j0, k0) = 0%Qc).
      { specialize (Z (i0, j0, k0) (proj2 (in_cells3 i0 j0 k0 i1 j1 k1 i0 j0 k0) I0)). destruct (dec3 (i0, j0, k0) (i0, j0, k0)); [exact Z|contradiction]. }
      assert (E : forall i j k, patch3 i0 j0 k0 i1 j1 k1 i j k -> op3 dx beta a v0 v1 v2 (ext3 i0 j0 k0 i1 j1 k1 dx v0 v1 v2 bc (fun i j k => w (i, j, k))) i j k = 0%Qc).
      { apply Last; [apply closed3_sum|]. intros i j k Ip Q. specialize (Z (i, j, k) (proj2 (in_cells3 i0 j0 k0 i1 j1 k1 i j k) Ip)). destruct (dec3 (i, j, k) (i0, j0, k0)); [contradiction|exact Z]. }
      intros [[i j] k] Ip. apply in_cells3 in Ip. rewrite <- W0. exact (closed3_flat (fun i j k => w (i, j, k)) E i j k Ip).
    - intros w z p Ip E. destruct (dec3 p (i0, j0, k0)); [apply E|]. destruct p as [[i j] k]. cbn [fst snd]. apply in_cells3 in Ip. apply (op3_near i0 j0 k0 i1 j1 k1 dx beta a v0 v1 v2 bc); [exact Ip|]. intros. apply ext3_ext. intros. apply E.
    - exists (fun i j k => w (i, j, k)).
      assert (E : forall i j k, patch3 i0 j0 k0 i1 j1 k1 i j k -> (op3 dx beta a v0 v1 v2 (ext3 i0 j0 k0 i1 j1 k1 dx v0 v1 v2 bc (fun i j k => w (i, j, k))) i j k + (- (1)) * r i j k)%Qc = 0%Qc).
      { apply Last.
        - etransitivity; [exact (total3_add QcS_laws i0 j0 k0 i1 j1 k1 (fun i j k => op3 dx beta a v0 v1 v2 (ext3 i0 j0 k0 i1 j1 k1 dx v0 v1 v2 bc (fun i j k => w (i, j, k))) i j k) (fun i j k => (- (1)) * r i j k)%Qc)|]. rewrite closed3_sum.
          etransitivity; [exact (Qcplus_0_l _)|]. etransitivity; [exact (total3_mul QcS_laws i0 j0 k0 i1 j1 k1 (- (1))%Qc r)|]. rewrite Sr. exact (Qcmult_0_r _).
        - intros i j k Ip Q. pose proof (Tw (i, j, k) (proj2 (in_cells3 i0 j0 k0 i1 j1 k1 i j k) Ip)) as E. destruct (dec3 (i, j, k) (i0, j0, k0)); [contradiction|]. cbn [fst snd] in E. rewrite E. ring. }
      intros i j k Ip. specialize (E i j k Ip). replace (op3 dx beta a v0 v1 v2 (ext3 i0 j0 k0 i1 j1 k1 dx v0 v1 v2 bc (fun i j k => w (i, j, k))) i j k) with (op3 dx beta a v0 v1 v2 (ext3 i0 j0 k0 i1 j1 k1 dx v0 v1 v2 bc (fun i j k => w (i, j, k))) i j k + (- (1)) * r i j k + r i j k)%Qc by ring. rewrite E. ring.
  Qed.
End Closed3.
