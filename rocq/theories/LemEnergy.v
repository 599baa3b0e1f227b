(** * Summation by parts *)

From Coq Require Import Field QArith Qcanon.
From Verif Require Import Base LemField SpecRow LemSum SpecEnergy Instances.
Import ListNotations.
Open Scope Z_scope.

Section Parts.
  Context {S : Scalar} (L : field_laws S).
  Add Field SF : (s_field S L) (morphism (lit_morph S L), constants [lit_cst]).

  Lemma inverse h : exists k, forall x : S, (x / h = x * k)%T.
  Proof. exists (lit 1 / h)%T. intros x. apply (sdiv_def S L). Qed.

  Lemma total_first lo hi (f : Z -> S) : lo <= hi -> total lo hi f = (f lo + total (lo + 1) hi f)%T.
  Proof.
    intros B. unfold total. replace (Z.to_nat (hi - lo + 1)) with (Datatypes.S (Z.to_nat (hi - (lo + 1) + 1))) by lia.
    rewrite <- cons_seq. cbn [fold_right]. replace (lo + Z.of_nat 0) with lo by lia. f_equal.
    rewrite <- seq_shift. generalize (seq 0 (Z.to_nat (hi - (lo + 1) + 1))). intros l.
    induction l as [|k l IH]; [reflexivity|]. cbn [map fold_right]. rewrite IH.
    now replace (lo + Z.of_nat (Datatypes.S k)) with (lo + 1 + Z.of_nat k) by lia.
  Qed.

  Lemma parts lo hi h (f z : Z -> S) : lo <= hi ->
    total lo hi (fun i => ((f (i + 1)%Z - f i) / h) * z i)%T =
    ((f (hi + 1)%Z * z hi - f lo * z lo) / h - total (lo + 1) hi (fun i => f i * ((z i - z (i - 1)%Z) / h)))%T.
  Proof.
    intros B.
    pose proof (total_steps L lo hi (fun i => f i * z (i - 1)%Z)%T ltac:(lia)) as H. cbv beta in H.
    assert (E : total lo hi (fun i => ((f (i + 1)%Z - f i) / h) * z i)%T =
      (total lo hi (fun i => (f (i + 1)%Z * z (i + 1 - 1)%Z - f i * z (i - 1)%Z) / h)
       - total lo hi (fun i => f i * ((z i - z (i - 1)%Z) / h)))%T).
    { rewrite <- (total_sub L). apply total_ext. intros i _. replace (i + 1 - 1) with i by lia.
      destruct (inverse h) as (k & D). rewrite !D. ring. }
    rewrite E, (total_div L), H. rewrite (total_first lo hi (fun i => f i * _)%T) by exact B.
    replace (hi + 1 - 1) with hi by lia. destruct (inverse h) as (k & D). rewrite !D. ring.
  Qed.

  (** The divergence of [b] times the difference of [w], against [z]. *)
  Lemma line_parts lo hi h (b w z : Z -> S) : lo <= hi ->
    total lo hi (fun i => ((b (i + 1)%Z * ((w (i + 1)%Z - w i) / h) - b i * ((w i - w (i - 1)%Z) / h)) / h) * z i)%T =
    (- line lo hi h b w z)%T.
  Proof.
    intros B. pose proof (parts lo hi h (fun i => b i * ((w i - w (i - 1)%Z) / h))%T z B) as H. cbv beta in H.
    transitivity (total lo hi (fun i => (b (i + 1)%Z * ((w (i + 1)%Z - w (i + 1 - 1)%Z) / h) - b i * ((w i - w (i - 1)%Z) / h)) / h * z i)%T).
    - apply total_ext. intros i _. now replace (i + 1 - 1) with i by lia.
    - rewrite H. unfold line. replace (hi + 1 - 1) with hi by lia. destruct (inverse h) as (k & D). rewrite !D. ring.
  Qed.

  Lemma total_neg lo hi (f : Z -> S) : total lo hi (fun i => - f i)%T = (- total lo hi f)%T.
  Proof.
    transitivity (total lo hi (fun i => lit (-1) * f i)%T); [apply total_ext; intros; ring|]. rewrite (total_mul L). ring.
  Qed.

  Lemma line_parts_2d_0 i0 j0 i1 j1 h (b w z : Z -> Z -> S) : i0 <= i1 ->
    total2 i0 j0 i1 j1 (fun i j => ((b (i + 1)%Z j * ((w (i + 1)%Z j - w i j) / h) - b i j * ((w i j - w (i - 1)%Z j) / h)) / h) * z i j)%T =
    (- total j0 j1 (fun j => line i0 i1 h (fun i => b i j) (fun i => w i j) (fun i => z i j)))%T.
  Proof.
    intros B. unfold total2. rewrite <- total_neg. apply total_ext. intros j _.
    exact (line_parts i0 i1 h (fun i => b i j) (fun i => w i j) (fun i => z i j) B).
  Qed.
  Lemma line_parts_2d_1 i0 j0 i1 j1 h (b w z : Z -> Z -> S) : j0 <= j1 ->
    total2 i0 j0 i1 j1 (fun i j => ((b i (j + 1)%Z * ((w i (j + 1)%Z - w i j) / h) - b i j * ((w i j - w i (j - 1)%Z) / h)) / h) * z i j)%T =
    (- total i0 i1 (fun i => line j0 j1 h (fun j => b i j) (fun j => w i j) (fun j => z i j)))%T.
  Proof.
    intros B. unfold total2. rewrite (total_swap L), <- total_neg. apply total_ext. intros i _.
    exact (line_parts j0 j1 h (fun j => b i j) (fun j => w i j) (fun j => z i j) B).
  Qed.
  Lemma line_parts_3d_0 i0 j0 k0 i1 j1 k1 h (b w z : Z -> Z -> Z -> S) : i0 <= i1 ->
    total3 i0 j0 k0 i1 j1 k1 (fun i j k => ((b (i + 1)%Z j k * ((w (i + 1)%Z j k - w i j k) / h) - b i j k * ((w i j k - w (i - 1)%Z j k) / h)) / h) * z i j k)%T =
    (- total2 j0 k0 j1 k1 (fun j k => line i0 i1 h (fun i => b i j k) (fun i => w i j k) (fun i => z i j k)))%T.
  Proof.
    intros B. unfold total3. transitivity (total k0 k1 (fun k => (- total j0 j1 (fun j => line i0 i1 h (fun i => b i j k) (fun i => w i j k) (fun i => z i j k)))%T)).
    - apply total_ext. intros k _. exact (line_parts_2d_0 i0 j0 i1 j1 h (fun i j => b i j k) (fun i j => w i j k) (fun i j => z i j k) B).
    - rewrite total_neg. reflexivity.
  Qed.
  Lemma line_parts_3d_1 i0 j0 k0 i1 j1 k1 h (b w z : Z -> Z -> Z -> S) : j0 <= j1 ->
    total3 i0 j0 k0 i1 j1 k1 (fun i j k => ((b i (j + 1)%Z k * ((w i (j + 1)%Z k - w i j k) / h) - b i j k * ((w i j k - w i (j - 1)%Z k) / h)) / h) * z i j k)%T =
    (- total2 i0 k0 i1 k1 (fun i k => line j0 j1 h (fun j => b i j k) (fun j => w i j k) (fun j => z i j k)))%T.
  Proof.
    intros B. unfold total3. transitivity (total k0 k1 (fun k => (- total i0 i1 (fun i => line j0 j1 h (fun j => b i j k) (fun j => w i j k) (fun j => z i j k)))%T)).
    - apply total_ext. intros k _. exact (line_parts_2d_1 i0 j0 i1 j1 h (fun i j => b i j k) (fun i j => w i j k) (fun i j => z i j k) B).
    - rewrite total_neg. reflexivity.
  Qed.
  Lemma line_parts_3d_2 i0 j0 k0 i1 j1 k1 h (b w z : Z -> Z -> Z -> S) : k0 <= k1 ->
    total3 i0 j0 k0 i1 j1 k1 (fun i j k => ((b i j (k + 1)%Z * ((w i j (k + 1)%Z - w i j k) / h) - b i j k * ((w i j k - w i j (k - 1)%Z) / h)) / h) * z i j k)%T =
    (- total2 i0 j0 i1 j1 (fun i j => line k0 k1 h (fun k => b i j k) (fun k => w i j k) (fun k => z i j k)))%T.
  Proof.
    intros B. unfold total3, total2. rewrite (total_swap L), <- total_neg. apply total_ext. intros j _.
    rewrite (total_swap L), <- total_neg. apply total_ext. intros i _.
    exact (line_parts k0 k1 h (fun k => b i j k) (fun k => w i j k) (fun k => z i j k) B).
  Qed.

  (** Equal outer values up to the boundary condition: symmetric. *)
  Lemma line_sym lo hi h (b w z : Z -> S) :
    (w (lo - 1)%Z * z lo = z (lo - 1)%Z * w lo)%T -> (w (hi + 1)%Z * z hi = z (hi + 1)%Z * w hi)%T ->
    line lo hi h b w z = line lo hi h b z w.
  Proof.
    intros Hl Hh. unfold line. f_equal.
    - apply total_ext. intros i _. ring.
    - destruct (inverse h) as (k & D). rewrite !D.
      transitivity ((b lo * k * (w lo * z lo - w (lo - 1)%Z * z lo) - b (hi + 1)%Z * k * (w (hi + 1)%Z * z hi - w hi * z hi)) * k)%T; [ring|].
      rewrite Hl, Hh. ring.
  Qed.
End Parts.

(** ** Over the rationals *)

Section Sign.
  Local Open Scope Qc_scope.

  Lemma Qc_sq (x : Qc) : 0 <= x * x.
  Proof.
    destruct (Qclt_le_dec x 0) as [N|P].
    - replace (x * x) with ((- x) * (- x)) by ring. replace 0 with (0 * (- x)) by ring.
      assert (0 <= - x). { apply Qclt_le_weak in N. apply Qcopp_le_compat in N. exact N. }
      apply Qcmult_le_compat_r; assumption.
    - replace 0 with (0 * x) by ring. apply Qcmult_le_compat_r; assumption.
  Qed.
  Lemma Qc_mul (x y : Qc) : 0 <= x -> 0 <= y -> 0 <= x * y.
  Proof. intros. replace 0 with (0 * y) by ring. now apply Qcmult_le_compat_r. Qed.
  Lemma Qc_add (x y : Qc) : 0 <= x -> 0 <= y -> 0 <= x + y.
  Proof. intros. replace 0 with (0 + 0) by ring. now apply Qcplus_le_compat. Qed.
  Lemma Qc_scale (x y z : Qc) : 0 <= x -> y <= z -> y * x <= z * x.
  Proof. intros. now apply Qcmult_le_compat_r. Qed.

  Lemma total_nonneg lo hi (f : Z -> QcS) : (forall i, (lo <= i <= hi)%Z -> 0 <= f i) -> 0 <= total lo hi f.
  Proof.
    intros H. unfold total.
    assert (G : forall l, (forall k, In k l -> (k < Z.to_nat (hi - lo + 1))%nat) ->
      0 <= fold_right (fun k s => @sadd QcS (f (lo + Z.of_nat k)%Z) s) (lit 0) l).
    { induction l as [|k l IH]; intros Hl.
      - apply Qcle_refl.
      - cbn [fold_right]. apply (Qc_add (f _)). + apply H. specialize (Hl k ltac:(now left)). lia.
        + apply IH. intros. apply Hl. now right. }
    apply G. intros k Hk. apply in_seq in Hk. lia.
  Qed.
  Lemma total2_nonneg i0 j0 i1 j1 (f : Z -> Z -> QcS) :
    (forall i j, (i0 <= i <= i1)%Z -> (j0 <= j <= j1)%Z -> 0 <= f i j) -> 0 <= total2 i0 j0 i1 j1 f.
  Proof. intros H. unfold total2. apply total_nonneg. intros. apply total_nonneg. intros. now apply H. Qed.
  Lemma total3_nonneg i0 j0 k0 i1 j1 k1 (f : Z -> Z -> Z -> QcS) :
    (forall i j k, (i0 <= i <= i1)%Z -> (j0 <= j <= j1)%Z -> (k0 <= k <= k1)%Z -> 0 <= f i j k) -> 0 <= total3 i0 j0 k0 i1 j1 k1 f.
  Proof. intros H. unfold total3. apply total_nonneg. intros. apply total2_nonneg. intros. now apply H. Qed.

  Lemma ends_nonneg (h b g x : Qc) : 0 <= b -> g * x <= x * x -> 0 <= b * ((x - g) / h) * x / h.
  Proof.
    intros Hb Hg. replace (b * ((x - g) / h) * x / h) with (b * ((x * x - g * x) * ((/ h) * (/ h)))) by (unfold Qcdiv; ring).
    apply Qc_mul; [exact Hb|]. apply Qc_mul; [|apply Qc_sq].
    apply Qcle_minus_iff in Hg. exact Hg.
  Qed.

  Lemma line_nonneg lo hi h (b w : Z -> QcS) :
    (lo <= hi)%Z ->
    (forall i, (lo <= i <= hi + 1)%Z -> 0 <= b i) ->
    w (lo - 1)%Z * w lo <= w lo * w lo -> w (hi + 1)%Z * w hi <= w hi * w hi ->
    0 <= line lo hi h b w w.
  Proof.
    intros B Hb Hl Hh. unfold line. apply Qc_add.
    - apply total_nonneg. intros i Hi. specialize (Hb i ltac:(lia)).
      change (0 <= b i * ((w i - w (i - 1)%Z) / h) * ((w i - w (i - 1)%Z) / h)).
      rewrite <- Qcmult_assoc. apply Qc_mul; [exact Hb|apply Qc_sq].
    - change (0 <= (b lo * ((w lo - w (lo - 1)%Z) / h) * w lo - b (hi + 1)%Z * ((w (hi + 1)%Z - w hi) / h) * w hi) / h).
      pose proof (ends_nonneg h (b lo) (w (lo - 1)%Z) (w lo) ltac:(apply Hb; lia) Hl) as E0.
      pose proof (ends_nonneg h (b (hi + 1)%Z) (w (hi + 1)%Z) (w hi) ltac:(apply Hb; lia) Hh) as E1.
      pose proof (Qc_add _ _ E0 E1) as E.
      match type of E with 0 <= ?x => match goal with |- 0 <= ?y => replace y with x; [exact E|] end end.
      unfold Qcdiv. ring.
  Qed.
End Sign.
