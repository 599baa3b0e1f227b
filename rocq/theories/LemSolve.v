(** * Comparison and solvability, apart from the kernels *)

From Coq Require Import QArith Qcanon Field.
From Verif Require Import Base Instances LemEnergy.
Import ListNotations.
Local Open Scope Qc_scope.

(** ** A largest value cannot be positive if it moves to the edge *)

Lemma list_max {A} (f : A -> Qc) (l : list A) : l <> [] -> exists x, In x l /\ forall y, In y l -> f y <= f x.
Proof.
  induction l as [|a l IH]; [contradiction|]. intros _. destruct l as [|b l].
  - exists a. split; [now left|]. intros y [<-|[]]. apply Qcle_refl.
  - destruct IH as (x & Hx & Mx); [discriminate|]. destruct (Qclt_le_dec (f x) (f a)) as [Hl|Hl].
    + exists a. split; [now left|]. intros y [<-|Hy]; [apply Qcle_refl|].
      apply Qcle_trans with (f x); [now apply Mx|now apply Qclt_le_weak].
    + exists x. split; [now right|]. intros y [<-|Hy]; [exact Hl|now apply Mx].
Qed.

Lemma walk {A} (l : list A) (e : A -> Qc) (nx : A -> A) (d : A -> nat) :
  (forall p, In p l -> (forall y, In y l -> e y <= e p) -> 0 < e p ->
     In (nx p) l /\ e (nx p) = e p /\ (d (nx p) < d p)%nat) ->
  forall p, In p l -> e p <= 0.
Proof.
  intros H p Hp. destruct (list_max e l) as (x & Hx & Mx); [intros ->; contradiction|].
  apply Qcle_trans with (e x); [now apply Mx|].
  destruct (Qclt_le_dec 0 (e x)) as [P|N]; [exfalso|exact N].
  remember (d x) as n eqn:En. revert x Hx Mx P En.
  induction n as [n IH] using (well_founded_induction lt_wf).
  intros x Hx Mx P ->. destruct (H x Hx Mx P) as (H1 & H2 & H3).
  apply (IH (d (nx x)) H3 (nx x) H1); [|rewrite H2; exact P|reflexivity].
  intros y Hy. rewrite H2. now apply Mx.
Qed.

Lemma Qc_sub_nonneg (x y : Qc) : x <= y -> 0 <= y - x.
Proof. intros H. apply Qcle_minus_iff in H. exact H. Qed.
Lemma Qc_nonneg_sub (x y : Qc) : 0 <= y - x -> x <= y.
Proof. intros H. apply Qcle_minus_iff. exact H. Qed.
Lemma Qc_pos_mul (x y : Qc) : 0 < x -> 0 < y -> 0 < x * y.
Proof. intros. replace 0 with (0 * y) by ring. now apply Qcmult_lt_compat_r. Qed.
Lemma Qc_sq_pos (x : Qc) : x <> 0 -> 0 < x * x.
Proof.
  intros N. destruct (Qclt_le_dec 0 (x * x)) as [P|Q]; [exact P|]. exfalso. apply N.
  assert (E : x * x = 0) by (apply Qcle_antisym; [exact Q|apply Qc_sq]).
  destruct (Qcmult_integral _ _ E); assumption.
Qed.

Lemma squeeze (k v x rest : Qc) : 0 < k -> 0 < v -> 0 <= x -> 0 <= rest -> k * (v * x) + rest <= 0 -> x = 0.
Proof.
  intros Hk Hv Hx Hr H. destruct (Qclt_le_dec 0 x) as [P|N]; [exfalso|now apply Qcle_antisym].
  assert (Q : 0 < k * (v * x)) by (apply Qc_pos_mul; [assumption|now apply Qc_pos_mul]).
  apply (Qclt_not_le _ _ Q). apply Qcle_trans with (k * (v * x) + rest); [|exact H].
  replace (k * (v * x)) with (k * (v * x) + 0) at 1 by ring. apply Qcplus_le_compat; [apply Qcle_refl|exact Hr].
Qed.

(** The operator at a cell with the largest value [e], neighbours [ep], [em]; the other
    directions and the reaction term are in [rest]. *)
Lemma edge_term (beta h vp vm e ep em rest : Qc) :
  0 < beta -> h <> 0 -> 0 < vp -> 0 <= vm -> ep <= e -> em <= e -> 0 <= rest ->
  - beta * ((vp * ((ep - e) / h) - vm * ((e - em) / h)) / h) + rest <= 0 -> ep = e.
Proof.
  intros Hb Hh Hp Hm Lp Lm Hr H.
  assert (E : e - ep = 0).
  { apply (squeeze (beta * ((/ h) * (/ h))) vp (e - ep) (beta * ((/ h) * (/ h)) * (vm * (e - em)) + rest)).
    - apply Qc_pos_mul; [exact Hb|]. apply Qc_sq_pos. intros C. apply Hh.
      assert (h * / h = 1) by (now apply Qcmult_inv_r). rewrite C in H0. rewrite Qcmult_0_r in H0. discriminate H0.
    - exact Hp.
    - now apply Qc_sub_nonneg.
    - apply Qc_add; [|exact Hr]. apply Qc_mul; [apply Qc_mul; [now apply Qclt_le_weak|apply Qc_sq]|].
      apply Qc_mul; [exact Hm|now apply Qc_sub_nonneg].
    - match goal with |- ?x <= 0 => match type of H with ?y <= 0 => replace x with y; [exact H|] end end.
      unfold Qcdiv. ring. }
  transitivity (e - (e - ep)); [ring|]. rewrite E. ring.
Qed.

Lemma other_term (beta h vp vm e ep em : Qc) :
  0 <= beta -> 0 <= vp -> 0 <= vm -> ep <= e -> em <= e ->
  0 <= - beta * ((vp * ((ep - e) / h) - vm * ((e - em) / h)) / h).
Proof.
  intros Hb Hp Hm Lp Lm.
  replace (- beta * ((vp * ((ep - e) / h) - vm * ((e - em) / h)) / h)) with
    (beta * ((/ h) * (/ h)) * (vp * (e - ep) + vm * (e - em))) by (unfold Qcdiv; ring).
  apply Qc_mul; [apply Qc_mul; [exact Hb|apply Qc_sq]|].
  apply Qc_add; apply Qc_mul; try assumption; now apply Qc_sub_nonneg.
Qed.

(** ** A square system with one solution at most has one *)

Fixpoint sum (n : nat) (f : nat -> Qc) : Qc := match n with O => 0 | S n => sum n f + f n end.

Lemma sum_ext n f g : (forall i, (i < n)%nat -> f i = g i) -> sum n f = sum n g.
Proof. induction n as [|n IH]; intros H; [reflexivity|]. cbn. rewrite IH, H; auto. Qed.
Lemma sum_add n f g : sum n (fun i => f i + g i) = sum n f + sum n g.
Proof. induction n as [|n IH]; cbn; [ring|]. rewrite IH. ring. Qed.
Lemma sum_mul n c f : sum n (fun i => c * f i) = c * sum n f.
Proof. induction n as [|n IH]; cbn; [ring|]. rewrite IH. ring. Qed.

Definition skip (p i : nat) : nat := if (i <? p)%nat then i else S i.

Lemma skip_or p i n : (p <= n)%nat -> (i < S n)%nat -> i = p \/ exists k, (k < n)%nat /\ i = skip p k.
Proof.
  intros Hp Hi. destruct (Nat.eq_dec i p) as [->|N]; [now left|right]. unfold skip.
  destruct (Nat.ltb_spec i p).
  - exists i. split; [lia|]. destruct (Nat.ltb_spec i p); lia.
  - exists (i - 1)%nat. split; [lia|]. destruct (Nat.ltb_spec (i - 1) p); lia.
Qed.
Lemma skip_lt p k n : (p <= n)%nat -> (k < n)%nat -> (skip p k < S n)%nat.
Proof. unfold skip. destruct (Nat.ltb_spec k p); lia. Qed.

Lemma find_row n (f : nat -> Qc) : (exists p, (p < n)%nat /\ f p <> 0) \/ (forall i, (i < n)%nat -> f i = 0).
Proof.
  induction n as [|n [(p & Hp & Np)|IH]].
  - right. intros i Hi. lia.
  - left. exists p. split; [lia|exact Np].
  - destruct (Qc_eq_dec (f n) 0) as [E|N].
    + right. intros i Hi. destruct (Nat.eq_dec i n) as [->|]; [exact E|apply IH; lia].
    + left. exists n. split; [lia|exact N].
Qed.

Lemma square n : forall M : nat -> nat -> Qc,
  (forall x, (forall i, (i < n)%nat -> sum n (fun j => M i j * x j) = 0) -> forall j, (j < n)%nat -> x j = 0) ->
  forall b, exists x, forall i, (i < n)%nat -> sum n (fun j => M i j * x j) = b i.
Proof.
  induction n as [|n IH]; intros M K b.
  - exists b. intros i Hi. lia.
  - destruct (find_row (S n) (fun i => M i n)) as [(p & Hp & Np)|Z].
    + set (M' := fun i j => M (skip p i) j - M (skip p i) n / M p n * M p j).
      (* the last unknown from the pivot row *)
      set (ext := fun (c : Qc) (x : nat -> Qc) j => if (j =? n)%nat then (c - sum n (fun j => M p j * x j)) / M p n else x j).
      assert (Old : forall c x i, sum n (fun j => M i j * ext c x j) = sum n (fun j => M i j * x j)).
      { intros c x i. apply sum_ext. intros j Hj. unfold ext. destruct (Nat.eqb_spec j n); [lia|reflexivity]. }
      assert (Last : forall c x, ext c x n = (c - sum n (fun j => M p j * x j)) / M p n).
      { intros c x. unfold ext. now rewrite Nat.eqb_refl. }
      assert (Pivot : forall c x, sum (S n) (fun j => M p j * ext c x j) = c).
      { intros c x. cbn [sum]. rewrite Old, Last. field. exact Np. }
      assert (Other : forall c x i, sum (S n) (fun j => M (skip p i) j * ext c x j) =
          sum n (fun j => M' i j * x j) + M (skip p i) n / M p n * c).
      { intros c x i. cbn [sum]. rewrite Old, Last.
        replace (sum n (fun j => M' i j * x j)) with
          (sum n (fun j => M (skip p i) j * x j) + (- (M (skip p i) n / M p n)) * sum n (fun j => M p j * x j)).
        - field. exact Np.
        - rewrite <- sum_mul, <- sum_add. apply sum_ext. intros j _. unfold M'. ring. }
      destruct (IH M') with (b := fun i => b (skip p i) - M (skip p i) n / M p n * b p) as (x & Hx).
      { intros x Hx j Hj.
        assert (E : ext 0 x j = 0).
        { apply (K (ext 0 x)); [|lia]. intros i Hi. destruct (skip_or p i n ltac:(lia) Hi) as [->|(k & Hk & ->)].
          - apply Pivot.
          - rewrite Other, Hx by exact Hk. ring. }
        unfold ext in E. destruct (Nat.eqb_spec j n); [lia|exact E]. }
      exists (ext (b p) x). intros i Hi. destruct (skip_or p i n ltac:(lia) Hi) as [->|(k & Hk & ->)].
      * apply Pivot.
      * rewrite Other, Hx by exact Hk. ring.
    + exfalso. specialize (K (fun j => if (j =? n)%nat then 1 else 0)).
      assert (E : (fun j => if (j =? n)%nat then 1 else 0) n = 0).
      { apply K; [|lia]. intros i Hi. cbn [sum]. rewrite Nat.eqb_refl, (Z i Hi).
        rewrite (sum_ext n _ (fun _ => 0 * 0)).
        - rewrite sum_mul. ring.
        - intros j Hj. destruct (Nat.eqb_spec j n); [lia|]. ring. }
      cbn in E. rewrite Nat.eqb_refl in E. discriminate E.
Qed.

(** ** For a linear map of grid functions *)

Section Grid.
  Context {A : Type} (dec : forall x y : A, {x = y} + {x <> y}).
  Context (T : (A -> Qc) -> A -> Qc) (l : list A).
  Context (ND : NoDup l).
  Context (lin : forall x y w z p, In p l -> T (fun q => x * w q + y * z q) p = x * T w p + y * T z p).
  Context (inj : forall w, (forall q, ~ In q l -> w q = 0) -> (forall p, In p l -> T w p = 0) -> forall p, In p l -> w p = 0).

  Definition unit (a q : A) : Qc := if dec a q then 1 else 0.

  Lemma lin_zero p : In p l -> T (fun _ => 0 * 0 + 0 * 0) p = 0.
  Proof. intros Hp. rewrite (lin 0 0 (fun _ => 0) (fun _ => 0)) by exact Hp. ring. Qed.


  Definition comb (d : A) (x : nat -> Qc) (n : nat) : A -> Qc :=
    fun q => sum n (fun j => x j * unit (nth j l d) q).

  Context (ext : forall w z p, In p l -> (forall q, w q = z q) -> T w p = T z p).

  Lemma lin_comb d x n p : In p l -> T (comb d x n) p = sum n (fun j => T (unit (nth j l d)) p * x j).
  Proof.
    intros Hp. induction n as [|n IH].
    - cbn. transitivity (T (fun _ => 0 * 0 + 0 * 0) p); [apply ext; [exact Hp|reflexivity]|now apply lin_zero].
    - transitivity (T (fun q => 1 * comb d x n q + x n * unit (nth n l d) q) p).
      + apply ext; [exact Hp|]. intros q. unfold comb. cbn [sum]. ring.
      + rewrite lin by exact Hp. rewrite IH. cbn [sum]. ring.
  Qed.

  Lemma comb_at d x k : (k < length l)%nat -> comb d x (length l) (nth k l d) = x k.
  Proof.
    intros Hk. unfold comb.
    assert (G : forall n, (n <= length l)%nat -> sum n (fun j => x j * unit (nth j l d) (nth k l d)) = if (k <? n)%nat then x k else 0).
    { induction n as [|n IH]; intros Hn; [reflexivity|]. cbn [sum]. rewrite IH by lia. unfold unit.
      destruct (dec (nth n l d) (nth k l d)) as [E|N].
      - assert (n = k) by (apply (proj1 (NoDup_nth l d) ND); [lia|exact Hk|exact E]). subst n.
        destruct (Nat.ltb_spec k k); [lia|]. destruct (Nat.ltb_spec k (S k)); [ring|lia].
      - assert (n <> k) by (intros ->; now apply N).
        destruct (Nat.ltb_spec k n), (Nat.ltb_spec k (S n)); try lia; ring. }
    rewrite G by lia. destruct (Nat.ltb_spec k (length l)); [reflexivity|lia].
  Qed.

  Lemma comb_out d x q : ~ In q l -> comb d x (length l) q = 0.
  Proof.
    intros Hq. unfold comb. rewrite (sum_ext _ _ (fun _ => 0 * 0)).
    - rewrite sum_mul. ring.
    - intros j Hj. unfold unit. destruct (dec (nth j l d) q) as [<-|]; [|ring].
      exfalso. apply Hq. now apply nth_In.
  Qed.

  (** The values [g] outside [l] and the result [r] in [l] are taken by some function. *)
  Lemma solvable (g r : A -> Qc) : exists w, (forall q, ~ In q l -> w q = g q) /\ (forall p, In p l -> T w p = r p).
  Proof.
    destruct l as [|d0 l0] eqn:El.
    { exists g. split; [reflexivity|intros p []]. }
    assert (Hd : In d0 l) by (rewrite El; now left). rewrite <- El in *. clear El l0. rename d0 into d.
    set (g0 := fun q => if in_dec dec q l then 0 else g q).
    destruct (square (length l) (fun i j => T (unit (nth j l d)) (nth i l d))) with (b := fun i => r (nth i l d) - T g0 (nth i l d)) as (x & Hx).
    { intros x Hx j Hj. rewrite <- (comb_at d x j Hj). apply inj; [intros q Hq; now apply comb_out| |now apply nth_In].
      intros p Hp. rewrite lin_comb by exact Hp. destruct (In_nth l p d Hp) as (i & Hi & <-). now apply Hx. }
    exists (fun q => 1 * comb d x (length l) q + 1 * g0 q). split.
    - intros q Hq. rewrite comb_out by exact Hq. unfold g0. destruct (in_dec dec q l); [contradiction|ring].
    - intros p Hp. rewrite lin by exact Hp. rewrite lin_comb by exact Hp. destruct (In_nth l p d Hp) as (i & Hi & <-).
      rewrite (Hx i Hi). ring.
  Qed.
End Grid.
