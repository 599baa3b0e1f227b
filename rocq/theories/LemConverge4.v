(** * The assembled matrices are diagonally dominant *)

From Coq Require Import Field QArith Qcanon Qcabs Lqa Qpower Permutation.
From Verif Require Import Base ModelBounds ModelMatrix ModelIters ModelSpan ModelProxy Spec SpecIter ModelSched
  LemBase LemDomain LemExpr LemExec SpecAssign LemAssign LemProps LemProps4 SpecWindow LemWindow LemWindow2
  FortranBase SpecKernel Instances LemField LemKernel LemKernel2 LemBC LemHomog KernelNotations
  KernelsFlux KernelsApply KernelsStencil LemStencil LemRow LemValues1 LemValues2 LemValues3
  SpecRow SpecSmooth SpecConverge LemCells LemRound LemConverge.
Import ListNotations.
Open Scope Qc_scope.

Fixpoint qsum (l : list Qc) : Qc := match l with [] => 0 | x :: l => x + qsum l end.

Lemma qsum_neg l : Forall (fun v => v <= 0) l -> 0 <= - qsum l.
Proof. induction 1; cbn [qsum]; [qc_lra|qc_lra]. Qed.

Lemma total_abs_neg (l : list Qc) : Forall (fun v => v <= 0) l ->
  total (S := QcS) 1 (Z.of_nat (length l)) (fun s => Qcabs (nth (Z.to_nat (s - 1)) l 0)) = - qsum l.
Proof.
  intros H. unfold total. replace (Z.to_nat (Z.of_nat (length l) - 1 + 1)) with (length l) by lia.
  assert (G : forall k, (forall j, (k <= j)%nat -> nth (Z.to_nat (1 + Z.of_nat j - 1)) l 0 = nth (j - k) (skipn k l) 0)).
  { intros k j Hj. replace (Z.to_nat (1 + Z.of_nat j - 1)) with j by lia. clear -Hj. revert l j Hj. induction k; intros l j Hj.
    - rewrite Nat.sub_0_r. reflexivity.
    - destruct l; cbn [skipn]; [transitivity (0 : Qc); [destruct j; reflexivity|symmetry; destruct (j - Datatypes.S k)%nat; reflexivity]|]. destruct j; [lia|]. cbn [nth]. rewrite Nat.sub_succ. apply IHk. lia. }
  enough (E : forall l' k, Forall (fun v => v <= 0) l' -> fold_right (fun j acc => sadd (s := QcS) (Qcabs (nth (j - k) l' 0)) acc) (lit 0 : QcS) (seq k (length l')) = - qsum l').
  { rewrite <- (E l 0%nat H). generalize (G 0%nat). cbn [skipn]. intros G0. clear -G0. revert G0. generalize (seq 0 (length l)). intros s G0. induction s as [|j s IH]; [reflexivity|].
    cbn [fold_right]. rewrite IH. rewrite G0 by lia. reflexivity. }
  clear. induction l' as [|v l' IH]; intros k H; [apply Qc_is_canon; reflexivity|]. inversion_clear H. cbn [length seq fold_right qsum]. rewrite Nat.sub_diag. cbn [nth].
  change (sadd (s := QcS)) with Qcplus. rewrite Qcabs_neg by assumption.
  assert (R : - v + - qsum l' = - (v + qsum l')) by ring. etransitivity; [|exact R]. apply (f_equal (Qcplus (- v))). rewrite <- (IH (Datatypes.S k)) by assumption.
  clear. assert (forall j, In j (seq (Datatypes.S k) (length l')) -> (k < j)%nat) by (intros j Hj; apply in_seq in Hj; lia).
  induction (seq (Datatypes.S k) (length l')) as [|j s IH]; [reflexivity|]. cbn [fold_right]. rewrite IH by (intros; apply H; right; assumption).
  specialize (H j (or_introl eq_refl)). destruct (j - k)%nat as [|d] eqn:Ed; [lia|]. cbn [nth]. replace (j - Datatypes.S k)%nat with d by lia. reflexivity.
Qed.

Lemma abs_pos_le x : Qcabs x = x \/ x < 0.
Proof. destruct (Qclt_le_dec x 0); [right; assumption|left; apply Qcabs_pos; assumption]. Qed.

(** A row whose entries after the first are not positive and whose sum is [e]. *)
Lemma row_signs (ms : mem QcS) st c (vs : list Qc) (a0 e K A : Qc) :
  fel st (0%Z :: c) ms = Some (a0 : QcS) -> (forall s v, nth_error vs s = Some v -> fel st ((Z.of_nat s + 1)%Z :: c) ms = Some (v : QcS)) ->
  Forall (fun v => v <= 0) vs -> a0 = e - qsum vs -> A <= e -> 0 < A -> - qsum vs <= K ->
  (exists (a0 : Qc) (cf : Z -> Qc), fel st (0%Z :: c) ms = Some (a0 : QcS) /\ a0 <> 0 /\
      (forall s, (1 <= s <= (Z.of_nat (length vs) + 1) - 1)%Z -> fel st (s :: c) ms = Some (cf s : QcS)) /\
      total (S := QcS) 1 (Z.of_nat (length vs) + 1 - 1) (fun s => Qcabs (cf s)) <= K / (K + A) * Qcabs a0) /\
  (exists (a0 : Qc) (cf : Z -> Qc), fel st (0%Z :: c) ms = Some (a0 : QcS) /\ 0 < a0 /\
      (forall s, (1 <= s <= (Z.of_nat (length vs) + 1) - 1)%Z -> fel st (s :: c) ms = Some (cf s : QcS) /\ cf s <= 0)).
Proof.
  intros H0 Hv Hneg E0 HA HA0 HK. replace (Z.of_nat (length vs) + 1 - 1)%Z with (Z.of_nat (length vs)) by lia.
  assert (Hs := qsum_neg vs Hneg). assert (P0 : 0 < a0) by (rewrite E0; qc_lra).
  assert (V : forall s, (1 <= s <= Z.of_nat (length vs))%Z -> fel st (s :: c) ms = Some (nth (Z.to_nat (s - 1)) vs 0 : QcS) /\ nth (Z.to_nat (s - 1)) vs 0 <= 0).
  { intros s Hs'. split.
    - replace s with (Z.of_nat (Z.to_nat (s - 1)) + 1)%Z at 1 by lia. apply Hv. apply nth_error_nth'. lia.
    - rewrite Forall_forall in Hneg. apply Hneg, nth_In. lia. }
  split; exists a0, (fun s => nth (Z.to_nat (s - 1)) vs 0).
  - split; [exact H0|]. split; [intros E; rewrite E in P0; qc_lra|]. split; [intros s Hs'; apply V; exact Hs'|].
    rewrite total_abs_neg by exact Hneg. rewrite Qcabs_pos by (apply Qclt_le_weak; exact P0). rewrite E0.
    set (S := - qsum vs) in * . replace (e - qsum vs) with (e + S) by (unfold S; ring).
    assert (PK : 0 < K + A) by qc_lra.
    apply Qcle_trans with ((S * (K + A)) * / (K + A)).
    { rewrite <- Qcmult_assoc, Qcmult_inv_r by (intros E; rewrite E in PK; qc_lra). rewrite Qcmult_1_r. apply Qcle_refl. }
    replace (K / (K + A) * (e + S)) with (K * (e + S) * / (K + A)) by (unfold Qcdiv; ring).
    apply Qcmult_le_compat_r; [|apply Qclt_le_weak, Qcinv_pos; exact PK].
    assert (S * A <= K * e) by (apply Qcmul_le; [exact Hs|apply Qclt_le_weak; exact HA0|exact HK|exact HA]).
    replace (S * (K + A)) with (S * K + S * A) by ring. replace (K * (e + S)) with (S * K + K * e) by ring.
    apply Qcplus_le_compat; [apply Qcle_refl|assumption].
  - split; [exact H0|]. split; [exact P0|exact V].
Qed.

(** One entry. *)
Lemma square_inv_nonneg (h : Qc) : 0 <= / (h * h).
Proof.
  destruct (Qc_eq_dec h 0) as [->|N]; [vm_compute; discriminate|].
  replace (/ (h * h)) with (/ h * / h) by (field; exact N). qc_nra.
Qed.
Lemma entry_sign (beta h b B : Qc) : 0 <= beta -> 0 <= b -> b <= B ->
  (sdiv (s := QcS) (sneg (s := QcS) beta) (smul (s := QcS) h h)) * b <= 0 /\ - ((sdiv (s := QcS) (sneg (s := QcS) beta) (smul (s := QcS) h h)) * b) <= beta / (h * h) * B.
Proof.
  intros. assert (Q := square_inv_nonneg h). change (sdiv (s := QcS) (sneg (s := QcS) beta) (smul (s := QcS) h h)) with (- beta / (h * h)). unfold Qcdiv.
  assert (0 <= beta * / (h * h)) by (apply Qcmul_nonneg; assumption).
  set (c := beta * / (h * h)) in * . replace (- beta * / (h * h)) with (- c) by (unfold c; ring). split; qc_nra.
Qed.

Lemma dominant_v1_1d : forall i0 i1 (dx : Z -> Qc) (beta : Qc) b0 (alpha : Qc) agcw a sgcw st (A B : Qc) (m ms : mem QcS),
  (i0 <= i1 + 1)%Z -> (0 <= sgcw)%Z -> apart st [b0; a] ->
  0 <= beta -> 0 < A ->
  (forall i (v : Qc), (i0 <= i <= i1 + 1)%Z ->
    fel (mkFa b0 (FACE1d i0 i1 0)) [i] m = Some (v : QcS) -> 0 <= v /\ v <= B) ->
  (forall i (v : Qc), (i0 <= i <= i1)%Z -> fel (mkFa a (CELL1d i0 i1 agcw)) [i] m = Some (v : QcS) -> A <= alpha * v) ->
  (m' <- cd_stencil_1d_offdiag i0 i1 i0 i1 (dx : Z -> QcS) (beta : QcS) b0 sgcw st m ;;
   cd_stencil_1d_v1diag i0 i1 (i0 - agcw) (i1 + agcw) (alpha : QcS) a sgcw st m') = Some ms ->
  let K := (1 + 1) * B * (beta / (dx 0%Z * dx 0%Z)) in
  dominant ms (mkFa st ((0, 2)%Z :: CELL1d i0 i1 sgcw)) 3%Z (K / (K + A)) (in_box [(i0, i1)]) /\
  z_matrix ms (mkFa st ((0, 2)%Z :: CELL1d i0 i1 sgcw)) 3%Z (in_box [(i0, i1)]).
Proof.
  intros i0 i1 dx beta b0 alpha agcw a sgcw st A B m ms. intros Hbi Hg Hap Hbeta HA Hf0 Ha Es K.
  apply bind_Some_inv in Es as (m1 & Eo1 & Ed). k_apart.
  destruct (offdiag_1d_at i0 i1 i0 i1 (dx : Z -> QcS) (beta : QcS) b0 sgcw st m m1 ltac:(k_rapart QcS_laws) ltac:(k_rapart QcS_laws) ltac:(k_rapart QcS_laws) Eo1) as (Vo & Fo).
  destruct (v1diag_1d_at QcS_laws i0 i1 (i0 - agcw) (i1 + agcw) (alpha : QcS) a sgcw st m1 ms ltac:(k_rapart QcS_laws) ltac:(k_rapart QcS_laws) ltac:(k_rapart QcS_laws) Ed) as (Vd & Fd). clear Eo1 Ed.
  assert (G : forall i, (i0 <= i <= i1)%Z ->
    exists w1 w2 e : Qc,
      fel (mkFa b0 (FACE1d i0 i1 0)) [(i)%Z] m = Some (w1 : QcS) /\ fel (mkFa b0 (FACE1d i0 i1 0)) [(i + 1)%Z] m = Some (w2 : QcS) /\
      fel (mkFa a (CELL1d i0 i1 agcw)) [i] m = Some (e : QcS) /\
      fel (mkFa st ((0, 2)%Z :: CELL1d i0 i1 sgcw)) (1%Z :: [i]) ms = Some (sdiv (s := QcS) (sneg (s := QcS) beta) (smul (s := QcS) (dx 0%Z) (dx 0%Z)) * w1 : QcS) /\ fel (mkFa st ((0, 2)%Z :: CELL1d i0 i1 sgcw)) (2%Z :: [i]) ms = Some (sdiv (s := QcS) (sneg (s := QcS) beta) (smul (s := QcS) (dx 0%Z) (dx 0%Z)) * w2 : QcS) /\
      fel (mkFa st ((0, 2)%Z :: CELL1d i0 i1 sgcw)) (0%Z :: [i]) ms = Some (alpha * e - qsum [sdiv (s := QcS) (sneg (s := QcS) beta) (smul (s := QcS) (dx 0%Z) (dx 0%Z)) * w1; sdiv (s := QcS) (sneg (s := QcS) beta) (smul (s := QcS) (dx 0%Z) (dx 0%Z)) * w2] : QcS)).
  { intros i Ii. specialize (Vo i ltac:(lia)). specialize (Vd i ltac:(lia)). subst_lets. k_open. unfold fel.
    do 3 eexists. repeat match goal with |- _ /\ _ => split end.
    all: k_close QcS_laws; try reflexivity; try eassumption.
    all: try (apply (f_equal (@Some Qc)); unfold qsum; change (sdiv (s := QcS)) with Qcdiv; unfold Qcdiv; change (sadd (s := QcS)) with Qcplus; change (smul (s := QcS)) with Qcmult; change (sneg (s := QcS)) with Qcopp; ring). }
  enough (F : forall c, in_box [(i0, i1)] c -> _ /\ _) by exact (conj (fun c Hc => proj1 (F c Hc)) (fun c Hc => proj2 (F c Hc))).
  intros c Hc. repeat match goal with H : in_box _ _ |- _ => inversion_clear H | H : Forall2 _ _ _ |- _ => inversion_clear H end. cbn [fst snd] in * .
  match goal with |- context [fel _ (_ ::  ?pi:: nil) _] => rename pi into i; idtac end.
  destruct (G i ltac:(assumption)) as (w1 & w2 & e & D1 & D2 & De & V1 & V2 & V0). clear G.
  destruct (Hf0 i w1 ltac:(lia) D1) as [P1 Q1].
  destruct (entry_sign beta (dx 0%Z) w1 B Hbeta P1 Q1) as [S1 T1].
  destruct (Hf0 (i + 1)%Z w2 ltac:(lia) D2) as [P2 Q2].
  destruct (entry_sign beta (dx 0%Z) w2 B Hbeta P2 Q2) as [S2 T2].
  apply (row_signs ms _ _ [sdiv (s := QcS) (sneg (s := QcS) beta) (smul (s := QcS) (dx 0%Z) (dx 0%Z)) * w1; sdiv (s := QcS) (sneg (s := QcS) beta) (smul (s := QcS) (dx 0%Z) (dx 0%Z)) * w2] _ (alpha * e) K A V0).
  - intros s v Hsv. repeat (destruct s as [|s]; [injection Hsv as <-; assumption|]). destruct s; discriminate.
  - repeat constructor; assumption.
  - reflexivity.
  - apply (Ha i e); assumption.
  - exact HA.
  - unfold K, qsum. clear V0 V1 V2. qc_lra.
Qed.

Lemma dominant_v2_1d : forall i0 i1 (dx : Z -> Qc) (beta : Qc) b0 (alpha : Qc) sgcw st (A B : Qc) (m ms : mem QcS),
  (i0 <= i1 + 1)%Z -> (0 <= sgcw)%Z -> apart st [b0] ->
  0 <= beta -> 0 < A ->
  (forall i (v : Qc), (i0 <= i <= i1 + 1)%Z ->
    fel (mkFa b0 (FACE1d i0 i1 0)) [i] m = Some (v : QcS) -> 0 <= v /\ v <= B) ->
  A <= alpha ->
  (m' <- cd_stencil_1d_offdiag i0 i1 i0 i1 (dx : Z -> QcS) (beta : QcS) b0 sgcw st m ;;
   cd_stencil_1d_v2diag i0 i1 (alpha : QcS) sgcw st m') = Some ms ->
  let K := (1 + 1) * B * (beta / (dx 0%Z * dx 0%Z)) in
  dominant ms (mkFa st ((0, 2)%Z :: CELL1d i0 i1 sgcw)) 3%Z (K / (K + A)) (in_box [(i0, i1)]) /\
  z_matrix ms (mkFa st ((0, 2)%Z :: CELL1d i0 i1 sgcw)) 3%Z (in_box [(i0, i1)]).
Proof.
  intros i0 i1 dx beta b0 alpha sgcw st A B m ms. intros Hbi Hg Hap Hbeta HA Hf0 Ha Es K.
  apply bind_Some_inv in Es as (m1 & Eo1 & Ed). k_apart.
  destruct (offdiag_1d_at i0 i1 i0 i1 (dx : Z -> QcS) (beta : QcS) b0 sgcw st m m1 ltac:(k_rapart QcS_laws) ltac:(k_rapart QcS_laws) ltac:(k_rapart QcS_laws) Eo1) as (Vo & Fo).
  destruct (v2diag_1d_at QcS_laws i0 i1 (alpha : QcS) sgcw st m1 ms ltac:(k_rapart QcS_laws) ltac:(k_rapart QcS_laws) Ed) as (Vd & Fd). clear Eo1 Ed.
  assert (G : forall i, (i0 <= i <= i1)%Z ->
    exists w1 w2 e : Qc,
      fel (mkFa b0 (FACE1d i0 i1 0)) [(i)%Z] m = Some (w1 : QcS) /\ fel (mkFa b0 (FACE1d i0 i1 0)) [(i + 1)%Z] m = Some (w2 : QcS) /\
      e = alpha /\
      fel (mkFa st ((0, 2)%Z :: CELL1d i0 i1 sgcw)) (1%Z :: [i]) ms = Some (sdiv (s := QcS) (sneg (s := QcS) beta) (smul (s := QcS) (dx 0%Z) (dx 0%Z)) * w1 : QcS) /\ fel (mkFa st ((0, 2)%Z :: CELL1d i0 i1 sgcw)) (2%Z :: [i]) ms = Some (sdiv (s := QcS) (sneg (s := QcS) beta) (smul (s := QcS) (dx 0%Z) (dx 0%Z)) * w2 : QcS) /\
      fel (mkFa st ((0, 2)%Z :: CELL1d i0 i1 sgcw)) (0%Z :: [i]) ms = Some (e - qsum [sdiv (s := QcS) (sneg (s := QcS) beta) (smul (s := QcS) (dx 0%Z) (dx 0%Z)) * w1; sdiv (s := QcS) (sneg (s := QcS) beta) (smul (s := QcS) (dx 0%Z) (dx 0%Z)) * w2] : QcS)).
  { intros i Ii. specialize (Vo i ltac:(lia)). specialize (Vd i ltac:(lia)). subst_lets. k_open. unfold fel.
    do 3 eexists. repeat match goal with |- _ /\ _ => split end.
    all: k_close QcS_laws; try reflexivity; try eassumption.
    all: try (apply (f_equal (@Some Qc)); unfold qsum; change (sdiv (s := QcS)) with Qcdiv; unfold Qcdiv; change (sadd (s := QcS)) with Qcplus; change (smul (s := QcS)) with Qcmult; change (sneg (s := QcS)) with Qcopp; ring). }
  enough (F : forall c, in_box [(i0, i1)] c -> _ /\ _) by exact (conj (fun c Hc => proj1 (F c Hc)) (fun c Hc => proj2 (F c Hc))).
  intros c Hc. repeat match goal with H : in_box _ _ |- _ => inversion_clear H | H : Forall2 _ _ _ |- _ => inversion_clear H end. cbn [fst snd] in * .
  match goal with |- context [fel _ (_ ::  ?pi:: nil) _] => rename pi into i; idtac end.
  destruct (G i ltac:(assumption)) as (w1 & w2 & e & D1 & D2 & De & V1 & V2 & V0). clear G.
  destruct (Hf0 i w1 ltac:(lia) D1) as [P1 Q1].
  destruct (entry_sign beta (dx 0%Z) w1 B Hbeta P1 Q1) as [S1 T1].
  destruct (Hf0 (i + 1)%Z w2 ltac:(lia) D2) as [P2 Q2].
  destruct (entry_sign beta (dx 0%Z) w2 B Hbeta P2 Q2) as [S2 T2].
  apply (row_signs ms _ _ [sdiv (s := QcS) (sneg (s := QcS) beta) (smul (s := QcS) (dx 0%Z) (dx 0%Z)) * w1; sdiv (s := QcS) (sneg (s := QcS) beta) (smul (s := QcS) (dx 0%Z) (dx 0%Z)) * w2] _ (e) K A V0).
  - intros s v Hsv. repeat (destruct s as [|s]; [injection Hsv as <-; assumption|]). destruct s; discriminate.
  - repeat constructor; assumption.
  - reflexivity.
  - rewrite De; exact Ha.
  - exact HA.
  - unfold K, qsum. clear V0 V1 V2. qc_lra.
Qed.

Lemma dominant_v1_2d : forall i0 j0 i1 j1 (dx : Z -> Qc) (beta : Qc) b0 b1 (alpha : Qc) agcw a sgcw st (A B : Qc) (m ms : mem QcS),
  (i0 <= i1 + 1)%Z -> (j0 <= j1 + 1)%Z -> (0 <= sgcw)%Z -> apart st [b0; b1; a] ->
  0 <= beta -> 0 < A ->
  (forall i j (v : Qc), (i0 <= i <= i1 + 1)%Z -> (j0 <= j <= j1)%Z ->
    fel (mkFa b0 (FACE2d0 i0 j0 i1 j1 0)) [i; j] m = Some (v : QcS) -> 0 <= v /\ v <= B) ->
  (forall i j (v : Qc), (i0 <= i <= i1)%Z -> (j0 <= j <= j1 + 1)%Z ->
    fel (mkFa b1 (FACE2d1 i0 j0 i1 j1 0)) [j; i] m = Some (v : QcS) -> 0 <= v /\ v <= B) ->
  (forall i j (v : Qc), (i0 <= i <= i1)%Z -> (j0 <= j <= j1)%Z -> fel (mkFa a (CELL2d i0 j0 i1 j1 agcw)) [i; j] m = Some (v : QcS) -> A <= alpha * v) ->
  (m' <- cd_stencil_2d_offdiag i0 j0 i1 j1 i0 j0 i1 j1 (dx : Z -> QcS) (beta : QcS) b0 b1 sgcw st m ;;
   cd_stencil_2d_v1diag i0 j0 i1 j1 (i0 - agcw) (j0 - agcw) (i1 + agcw) (j1 + agcw) (alpha : QcS) a sgcw st m') = Some ms ->
  let K := (1 + 1) * B * (beta / (dx 0%Z * dx 0%Z) + beta / (dx 1%Z * dx 1%Z)) in
  dominant ms (mkFa st ((0, 4)%Z :: CELL2d i0 j0 i1 j1 sgcw)) 5%Z (K / (K + A)) (in_box [(i0, i1); (j0, j1)]) /\
  z_matrix ms (mkFa st ((0, 4)%Z :: CELL2d i0 j0 i1 j1 sgcw)) 5%Z (in_box [(i0, i1); (j0, j1)]).
Proof.
  intros i0 j0 i1 j1 dx beta b0 b1 alpha agcw a sgcw st A B m ms. intros Hbi Hbj Hg Hap Hbeta HA Hf0 Hf1 Ha Es K.
  apply bind_Some_inv in Es as (m1 & Eo1 & Ed). k_apart.
  destruct (offdiag_2d_at i0 j0 i1 j1 i0 j0 i1 j1 (dx : Z -> QcS) (beta : QcS) b0 b1 sgcw st m m1 ltac:(k_rapart QcS_laws) ltac:(k_rapart QcS_laws) ltac:(k_rapart QcS_laws) ltac:(k_rapart QcS_laws) Eo1) as (Vo & Fo).
  destruct (v1diag_2d_at QcS_laws i0 j0 i1 j1 (i0 - agcw) (j0 - agcw) (i1 + agcw) (j1 + agcw) (alpha : QcS) a sgcw st m1 ms ltac:(k_rapart QcS_laws) ltac:(k_rapart QcS_laws) ltac:(k_rapart QcS_laws) ltac:(k_rapart QcS_laws) Ed) as (Vd & Fd). clear Eo1 Ed.
  assert (G : forall i j, (i0 <= i <= i1)%Z -> (j0 <= j <= j1)%Z ->
    exists w1 w2 w3 w4 e : Qc,
      fel (mkFa b0 (FACE2d0 i0 j0 i1 j1 0)) [(i)%Z; (j)%Z] m = Some (w1 : QcS) /\ fel (mkFa b0 (FACE2d0 i0 j0 i1 j1 0)) [(i + 1)%Z; (j)%Z] m = Some (w2 : QcS) /\ fel (mkFa b1 (FACE2d1 i0 j0 i1 j1 0)) [(j)%Z; (i)%Z] m = Some (w3 : QcS) /\ fel (mkFa b1 (FACE2d1 i0 j0 i1 j1 0)) [(j + 1)%Z; (i)%Z] m = Some (w4 : QcS) /\
      fel (mkFa a (CELL2d i0 j0 i1 j1 agcw)) [i; j] m = Some (e : QcS) /\
      fel (mkFa st ((0, 4)%Z :: CELL2d i0 j0 i1 j1 sgcw)) (1%Z :: [i; j]) ms = Some (sdiv (s := QcS) (sneg (s := QcS) beta) (smul (s := QcS) (dx 0%Z) (dx 0%Z)) * w1 : QcS) /\ fel (mkFa st ((0, 4)%Z :: CELL2d i0 j0 i1 j1 sgcw)) (2%Z :: [i; j]) ms = Some (sdiv (s := QcS) (sneg (s := QcS) beta) (smul (s := QcS) (dx 0%Z) (dx 0%Z)) * w2 : QcS) /\ fel (mkFa st ((0, 4)%Z :: CELL2d i0 j0 i1 j1 sgcw)) (3%Z :: [i; j]) ms = Some (sdiv (s := QcS) (sneg (s := QcS) beta) (smul (s := QcS) (dx 1%Z) (dx 1%Z)) * w3 : QcS) /\ fel (mkFa st ((0, 4)%Z :: CELL2d i0 j0 i1 j1 sgcw)) (4%Z :: [i; j]) ms = Some (sdiv (s := QcS) (sneg (s := QcS) beta) (smul (s := QcS) (dx 1%Z) (dx 1%Z)) * w4 : QcS) /\
      fel (mkFa st ((0, 4)%Z :: CELL2d i0 j0 i1 j1 sgcw)) (0%Z :: [i; j]) ms = Some (alpha * e - qsum [sdiv (s := QcS) (sneg (s := QcS) beta) (smul (s := QcS) (dx 0%Z) (dx 0%Z)) * w1; sdiv (s := QcS) (sneg (s := QcS) beta) (smul (s := QcS) (dx 0%Z) (dx 0%Z)) * w2; sdiv (s := QcS) (sneg (s := QcS) beta) (smul (s := QcS) (dx 1%Z) (dx 1%Z)) * w3; sdiv (s := QcS) (sneg (s := QcS) beta) (smul (s := QcS) (dx 1%Z) (dx 1%Z)) * w4] : QcS)).
  { intros i j Ii Ij. specialize (Vo i j ltac:(lia) ltac:(lia)). specialize (Vd i j ltac:(lia) ltac:(lia)). subst_lets. k_open. unfold fel.
    do 5 eexists. repeat match goal with |- _ /\ _ => split end.
    all: k_close QcS_laws; try reflexivity; try eassumption.
    all: try (apply (f_equal (@Some Qc)); unfold qsum; change (sdiv (s := QcS)) with Qcdiv; unfold Qcdiv; change (sadd (s := QcS)) with Qcplus; change (smul (s := QcS)) with Qcmult; change (sneg (s := QcS)) with Qcopp; ring). }
  enough (F : forall c, in_box [(i0, i1); (j0, j1)] c -> _ /\ _) by exact (conj (fun c Hc => proj1 (F c Hc)) (fun c Hc => proj2 (F c Hc))).
  intros c Hc. repeat match goal with H : in_box _ _ |- _ => inversion_clear H | H : Forall2 _ _ _ |- _ => inversion_clear H end. cbn [fst snd] in * .
  match goal with |- context [fel _ (_ ::  ?pi:: ?pj:: nil) _] => rename pi into i; rename pj into j; idtac end.
  destruct (G i j ltac:(assumption) ltac:(assumption)) as (w1 & w2 & w3 & w4 & e & D1 & D2 & D3 & D4 & De & V1 & V2 & V3 & V4 & V0). clear G.
  destruct (Hf0 i j w1 ltac:(lia) ltac:(lia) D1) as [P1 Q1].
  destruct (entry_sign beta (dx 0%Z) w1 B Hbeta P1 Q1) as [S1 T1].
  destruct (Hf0 (i + 1)%Z j w2 ltac:(lia) ltac:(lia) D2) as [P2 Q2].
  destruct (entry_sign beta (dx 0%Z) w2 B Hbeta P2 Q2) as [S2 T2].
  destruct (Hf1 i j w3 ltac:(lia) ltac:(lia) D3) as [P3 Q3].
  destruct (entry_sign beta (dx 1%Z) w3 B Hbeta P3 Q3) as [S3 T3].
  destruct (Hf1 i (j + 1)%Z w4 ltac:(lia) ltac:(lia) D4) as [P4 Q4].
  destruct (entry_sign beta (dx 1%Z) w4 B Hbeta P4 Q4) as [S4 T4].
  apply (row_signs ms _ _ [sdiv (s := QcS) (sneg (s := QcS) beta) (smul (s := QcS) (dx 0%Z) (dx 0%Z)) * w1; sdiv (s := QcS) (sneg (s := QcS) beta) (smul (s := QcS) (dx 0%Z) (dx 0%Z)) * w2; sdiv (s := QcS) (sneg (s := QcS) beta) (smul (s := QcS) (dx 1%Z) (dx 1%Z)) * w3; sdiv (s := QcS) (sneg (s := QcS) beta) (smul (s := QcS) (dx 1%Z) (dx 1%Z)) * w4] _ (alpha * e) K A V0).
  - intros s v Hsv. repeat (destruct s as [|s]; [injection Hsv as <-; assumption|]). destruct s; discriminate.
  - repeat constructor; assumption.
  - reflexivity.
  - apply (Ha i j e); assumption.
  - exact HA.
  - unfold K, qsum. clear V0 V1 V2 V3 V4. qc_lra.
Qed.

Lemma dominant_v2_2d : forall i0 j0 i1 j1 (dx : Z -> Qc) (beta : Qc) b0 b1 (alpha : Qc) sgcw st (A B : Qc) (m ms : mem QcS),
  (i0 <= i1 + 1)%Z -> (j0 <= j1 + 1)%Z -> (0 <= sgcw)%Z -> apart st [b0; b1] ->
  0 <= beta -> 0 < A ->
  (forall i j (v : Qc), (i0 <= i <= i1 + 1)%Z -> (j0 <= j <= j1)%Z ->
    fel (mkFa b0 (FACE2d0 i0 j0 i1 j1 0)) [i; j] m = Some (v : QcS) -> 0 <= v /\ v <= B) ->
  (forall i j (v : Qc), (i0 <= i <= i1)%Z -> (j0 <= j <= j1 + 1)%Z ->
    fel (mkFa b1 (FACE2d1 i0 j0 i1 j1 0)) [j; i] m = Some (v : QcS) -> 0 <= v /\ v <= B) ->
  A <= alpha ->
  (m' <- cd_stencil_2d_offdiag i0 j0 i1 j1 i0 j0 i1 j1 (dx : Z -> QcS) (beta : QcS) b0 b1 sgcw st m ;;
   cd_stencil_2d_v2diag i0 j0 i1 j1 (alpha : QcS) sgcw st m') = Some ms ->
  let K := (1 + 1) * B * (beta / (dx 0%Z * dx 0%Z) + beta / (dx 1%Z * dx 1%Z)) in
  dominant ms (mkFa st ((0, 4)%Z :: CELL2d i0 j0 i1 j1 sgcw)) 5%Z (K / (K + A)) (in_box [(i0, i1); (j0, j1)]) /\
  z_matrix ms (mkFa st ((0, 4)%Z :: CELL2d i0 j0 i1 j1 sgcw)) 5%Z (in_box [(i0, i1); (j0, j1)]).
Proof.
  intros i0 j0 i1 j1 dx beta b0 b1 alpha sgcw st A B m ms. intros Hbi Hbj Hg Hap Hbeta HA Hf0 Hf1 Ha Es K.
  apply bind_Some_inv in Es as (m1 & Eo1 & Ed). k_apart.
  destruct (offdiag_2d_at i0 j0 i1 j1 i0 j0 i1 j1 (dx : Z -> QcS) (beta : QcS) b0 b1 sgcw st m m1 ltac:(k_rapart QcS_laws) ltac:(k_rapart QcS_laws) ltac:(k_rapart QcS_laws) ltac:(k_rapart QcS_laws) Eo1) as (Vo & Fo).
  destruct (v2diag_2d_at QcS_laws i0 j0 i1 j1 (alpha : QcS) sgcw st m1 ms ltac:(k_rapart QcS_laws) ltac:(k_rapart QcS_laws) ltac:(k_rapart QcS_laws) Ed) as (Vd & Fd). clear Eo1 Ed.
  assert (G : forall i j, (i0 <= i <= i1)%Z -> (j0 <= j <= j1)%Z ->
    exists w1 w2 w3 w4 e : Qc,
      fel (mkFa b0 (FACE2d0 i0 j0 i1 j1 0)) [(i)%Z; (j)%Z] m = Some (w1 : QcS) /\ fel (mkFa b0 (FACE2d0 i0 j0 i1 j1 0)) [(i + 1)%Z; (j)%Z] m = Some (w2 : QcS) /\ fel (mkFa b1 (FACE2d1 i0 j0 i1 j1 0)) [(j)%Z; (i)%Z] m = Some (w3 : QcS) /\ fel (mkFa b1 (FACE2d1 i0 j0 i1 j1 0)) [(j + 1)%Z; (i)%Z] m = Some (w4 : QcS) /\
      e = alpha /\
      fel (mkFa st ((0, 4)%Z :: CELL2d i0 j0 i1 j1 sgcw)) (1%Z :: [i; j]) ms = Some (sdiv (s := QcS) (sneg (s := QcS) beta) (smul (s := QcS) (dx 0%Z) (dx 0%Z)) * w1 : QcS) /\ fel (mkFa st ((0, 4)%Z :: CELL2d i0 j0 i1 j1 sgcw)) (2%Z :: [i; j]) ms = Some (sdiv (s := QcS) (sneg (s := QcS) beta) (smul (s := QcS) (dx 0%Z) (dx 0%Z)) * w2 : QcS) /\ fel (mkFa st ((0, 4)%Z :: CELL2d i0 j0 i1 j1 sgcw)) (3%Z :: [i; j]) ms = Some (sdiv (s := QcS) (sneg (s := QcS) beta) (smul (s := QcS) (dx 1%Z) (dx 1%Z)) * w3 : QcS) /\ fel (mkFa st ((0, 4)%Z :: CELL2d i0 j0 i1 j1 sgcw)) (4%Z :: [i; j]) ms = Some (sdiv (s := QcS) (sneg (s := QcS) beta) (smul (s := QcS) (dx 1%Z) (dx 1%Z)) * w4 : QcS) /\
      fel (mkFa st ((0, 4)%Z :: CELL2d i0 j0 i1 j1 sgcw)) (0%Z :: [i; j]) ms = Some (e - qsum [sdiv (s := QcS) (sneg (s := QcS) beta) (smul (s := QcS) (dx 0%Z) (dx 0%Z)) * w1; sdiv (s := QcS) (sneg (s := QcS) beta) (smul (s := QcS) (dx 0%Z) (dx 0%Z)) * w2; sdiv (s := QcS) (sneg (s := QcS) beta) (smul (s := QcS) (dx 1%Z) (dx 1%Z)) * w3; sdiv (s := QcS) (sneg (s := QcS) beta) (smul (s := QcS) (dx 1%Z) (dx 1%Z)) * w4] : QcS)).
  { intros i j Ii Ij. specialize (Vo i j ltac:(lia) ltac:(lia)). specialize (Vd i j ltac:(lia) ltac:(lia)). subst_lets. k_open. unfold fel.
    do 5 eexists. repeat match goal with |- _ /\ _ => split end.
    all: k_close QcS_laws; try reflexivity; try eassumption.
    all: try (apply (f_equal (@Some Qc)); unfold qsum; change (sdiv (s := QcS)) with Qcdiv; unfold Qcdiv; change (sadd (s := QcS)) with Qcplus; change (smul (s := QcS)) with Qcmult; change (sneg (s := QcS)) with Qcopp; ring). }
  enough (F : forall c, in_box [(i0, i1); (j0, j1)] c -> _ /\ _) by exact (conj (fun c Hc => proj1 (F c Hc)) (fun c Hc => proj2 (F c Hc))).
  intros c Hc. repeat match goal with H : in_box _ _ |- _ => inversion_clear H | H : Forall2 _ _ _ |- _ => inversion_clear H end. cbn [fst snd] in * .
  match goal with |- context [fel _ (_ ::  ?pi:: ?pj:: nil) _] => rename pi into i; rename pj into j; idtac end.
  destruct (G i j ltac:(assumption) ltac:(assumption)) as (w1 & w2 & w3 & w4 & e & D1 & D2 & D3 & D4 & De & V1 & V2 & V3 & V4 & V0). clear G.
  destruct (Hf0 i j w1 ltac:(lia) ltac:(lia) D1) as [P1 Q1].
  destruct (entry_sign beta (dx 0%Z) w1 B Hbeta P1 Q1) as [S1 T1].
  destruct (Hf0 (i + 1)%Z j w2 ltac:(lia) ltac:(lia) D2) as [P2 Q2].
  destruct (entry_sign beta (dx 0%Z) w2 B Hbeta P2 Q2) as [S2 T2].
  destruct (Hf1 i j w3 ltac:(lia) ltac:(lia) D3) as [P3 Q3].
  destruct (entry_sign beta (dx 1%Z) w3 B Hbeta P3 Q3) as [S3 T3].
  destruct (Hf1 i (j + 1)%Z w4 ltac:(lia) ltac:(lia) D4) as [P4 Q4].
  destruct (entry_sign beta (dx 1%Z) w4 B Hbeta P4 Q4) as [S4 T4].
  apply (row_signs ms _ _ [sdiv (s := QcS) (sneg (s := QcS) beta) (smul (s := QcS) (dx 0%Z) (dx 0%Z)) * w1; sdiv (s := QcS) (sneg (s := QcS) beta) (smul (s := QcS) (dx 0%Z) (dx 0%Z)) * w2; sdiv (s := QcS) (sneg (s := QcS) beta) (smul (s := QcS) (dx 1%Z) (dx 1%Z)) * w3; sdiv (s := QcS) (sneg (s := QcS) beta) (smul (s := QcS) (dx 1%Z) (dx 1%Z)) * w4] _ (e) K A V0).
  - intros s v Hsv. repeat (destruct s as [|s]; [injection Hsv as <-; assumption|]). destruct s; discriminate.
  - repeat constructor; assumption.
  - reflexivity.
  - rewrite De; exact Ha.
  - exact HA.
  - unfold K, qsum. clear V0 V1 V2 V3 V4. qc_lra.
Qed.

Lemma dominant_v1_3d : forall i0 j0 k0 i1 j1 k1 (dx : Z -> Qc) (beta : Qc) b0 b1 b2 (alpha : Qc) agcw a sgcw st (A B : Qc) (m ms : mem QcS),
  (i0 <= i1 + 1)%Z -> (j0 <= j1 + 1)%Z -> (k0 <= k1 + 1)%Z -> (0 <= sgcw)%Z -> apart st [b0; b1; b2; a] ->
  0 <= beta -> 0 < A ->
  (forall i j k (v : Qc), (i0 <= i <= i1 + 1)%Z -> (j0 <= j <= j1)%Z -> (k0 <= k <= k1)%Z ->
    fel (mkFa b0 (FACE3d0 i0 j0 k0 i1 j1 k1 0)) [i; j; k] m = Some (v : QcS) -> 0 <= v /\ v <= B) ->
  (forall i j k (v : Qc), (i0 <= i <= i1)%Z -> (j0 <= j <= j1 + 1)%Z -> (k0 <= k <= k1)%Z ->
    fel (mkFa b1 (FACE3d1 i0 j0 k0 i1 j1 k1 0)) [j; k; i] m = Some (v : QcS) -> 0 <= v /\ v <= B) ->
  (forall i j k (v : Qc), (i0 <= i <= i1)%Z -> (j0 <= j <= j1)%Z -> (k0 <= k <= k1 + 1)%Z ->
    fel (mkFa b2 (FACE3d2 i0 j0 k0 i1 j1 k1 0)) [k; i; j] m = Some (v : QcS) -> 0 <= v /\ v <= B) ->
  (forall i j k (v : Qc), (i0 <= i <= i1)%Z -> (j0 <= j <= j1)%Z -> (k0 <= k <= k1)%Z -> fel (mkFa a (CELL3d i0 j0 k0 i1 j1 k1 agcw)) [i; j; k] m = Some (v : QcS) -> A <= alpha * v) ->
  (m' <- cd_stencil_3d_offdiag i0 j0 k0 i1 j1 k1 i0 j0 k0 i1 j1 k1 (dx : Z -> QcS) (beta : QcS) b0 b1 b2 sgcw st m ;;
   cd_stencil_3d_v1diag i0 j0 k0 i1 j1 k1 (i0 - agcw) (j0 - agcw) (k0 - agcw) (i1 + agcw) (j1 + agcw) (k1 + agcw) (alpha : QcS) a sgcw st m') = Some ms ->
  let K := (1 + 1) * B * (beta / (dx 0%Z * dx 0%Z) + beta / (dx 1%Z * dx 1%Z) + beta / (dx 2%Z * dx 2%Z)) in
  dominant ms (mkFa st ((0, 6)%Z :: CELL3d i0 j0 k0 i1 j1 k1 sgcw)) 7%Z (K / (K + A)) (in_box [(i0, i1); (j0, j1); (k0, k1)]) /\
  z_matrix ms (mkFa st ((0, 6)%Z :: CELL3d i0 j0 k0 i1 j1 k1 sgcw)) 7%Z (in_box [(i0, i1); (j0, j1); (k0, k1)]).
Proof.
  intros i0 j0 k0 i1 j1 k1 dx beta b0 b1 b2 alpha agcw a sgcw st A B m ms. intros Hbi Hbj Hbk Hg Hap Hbeta HA Hf0 Hf1 Hf2 Ha Es K.
  apply bind_Some_inv in Es as (m1 & Eo1 & Ed). k_apart.
  destruct (offdiag_3d_at i0 j0 k0 i1 j1 k1 i0 j0 k0 i1 j1 k1 (dx : Z -> QcS) (beta : QcS) b0 b1 b2 sgcw st m m1 ltac:(k_rapart QcS_laws) ltac:(k_rapart QcS_laws) ltac:(k_rapart QcS_laws) ltac:(k_rapart QcS_laws) ltac:(k_rapart QcS_laws) Eo1) as (Vo & Fo).
  destruct (v1diag_3d_at QcS_laws i0 j0 k0 i1 j1 k1 (i0 - agcw) (j0 - agcw) (k0 - agcw) (i1 + agcw) (j1 + agcw) (k1 + agcw) (alpha : QcS) a sgcw st m1 ms ltac:(k_rapart QcS_laws) ltac:(k_rapart QcS_laws) ltac:(k_rapart QcS_laws) ltac:(k_rapart QcS_laws) ltac:(k_rapart QcS_laws) Ed) as (Vd & Fd). clear Eo1 Ed.
  assert (G : forall i j k, (i0 <= i <= i1)%Z -> (j0 <= j <= j1)%Z -> (k0 <= k <= k1)%Z ->
    exists w1 w2 w3 w4 w5 w6 e : Qc,
      fel (mkFa b0 (FACE3d0 i0 j0 k0 i1 j1 k1 0)) [(i)%Z; (j)%Z; (k)%Z] m = Some (w1 : QcS) /\ fel (mkFa b0 (FACE3d0 i0 j0 k0 i1 j1 k1 0)) [(i + 1)%Z; (j)%Z; (k)%Z] m = Some (w2 : QcS) /\ fel (mkFa b1 (FACE3d1 i0 j0 k0 i1 j1 k1 0)) [(j)%Z; (k)%Z; (i)%Z] m = Some (w3 : QcS) /\ fel (mkFa b1 (FACE3d1 i0 j0 k0 i1 j1 k1 0)) [(j + 1)%Z; (k)%Z; (i)%Z] m = Some (w4 : QcS) /\ fel (mkFa b2 (FACE3d2 i0 j0 k0 i1 j1 k1 0)) [(k)%Z; (i)%Z; (j)%Z] m = Some (w5 : QcS) /\ fel (mkFa b2 (FACE3d2 i0 j0 k0 i1 j1 k1 0)) [(k + 1)%Z; (i)%Z; (j)%Z] m = Some (w6 : QcS) /\
      fel (mkFa a (CELL3d i0 j0 k0 i1 j1 k1 agcw)) [i; j; k] m = Some (e : QcS) /\
      fel (mkFa st ((0, 6)%Z :: CELL3d i0 j0 k0 i1 j1 k1 sgcw)) (1%Z :: [i; j; k]) ms = Some (sdiv (s := QcS) (sneg (s := QcS) beta) (smul (s := QcS) (dx 0%Z) (dx 0%Z)) * w1 : QcS) /\ fel (mkFa st ((0, 6)%Z :: CELL3d i0 j0 k0 i1 j1 k1 sgcw)) (2%Z :: [i; j; k]) ms = Some (sdiv (s := QcS) (sneg (s := QcS) beta) (smul (s := QcS) (dx 0%Z) (dx 0%Z)) * w2 : QcS) /\ fel (mkFa st ((0, 6)%Z :: CELL3d i0 j0 k0 i1 j1 k1 sgcw)) (3%Z :: [i; j; k]) ms = Some (sdiv (s := QcS) (sneg (s := QcS) beta) (smul (s := QcS) (dx 1%Z) (dx 1%Z)) * w3 : QcS) /\ fel (mkFa st ((0, 6)%Z :: CELL3d i0 j0 k0 i1 j1 k1 sgcw)) (4%Z :: [i; j; k]) ms = Some (sdiv (s := QcS) (sneg (s := QcS) beta) (smul (s := QcS) (dx 1%Z) (dx 1%Z)) * w4 : QcS) /\ fel (mkFa st ((0, 6)%Z :: CELL3d i0 j0 k0 i1 j1 k1 sgcw)) (5%Z :: [i; j; k]) ms = Some (sdiv (s := QcS) (sneg (s := QcS) beta) (smul (s := QcS) (dx 2%Z) (dx 2%Z)) * w5 : QcS) /\ fel (mkFa st ((0, 6)%Z :: CELL3d i0 j0 k0 i1 j1 k1 sgcw)) (6%Z :: [i; j; k]) ms = Some (sdiv (s := QcS) (sneg (s := QcS) beta) (smul (s := QcS) (dx 2%Z) (dx 2%Z)) * w6 : QcS) /\
      fel (mkFa st ((0, 6)%Z :: CELL3d i0 j0 k0 i1 j1 k1 sgcw)) (0%Z :: [i; j; k]) ms = Some (alpha * e - qsum [sdiv (s := QcS) (sneg (s := QcS) beta) (smul (s := QcS) (dx 0%Z) (dx 0%Z)) * w1; sdiv (s := QcS) (sneg (s := QcS) beta) (smul (s := QcS) (dx 0%Z) (dx 0%Z)) * w2; sdiv (s := QcS) (sneg (s := QcS) beta) (smul (s := QcS) (dx 1%Z) (dx 1%Z)) * w3; sdiv (s := QcS) (sneg (s := QcS) beta) (smul (s := QcS) (dx 1%Z) (dx 1%Z)) * w4; sdiv (s := QcS) (sneg (s := QcS) beta) (smul (s := QcS) (dx 2%Z) (dx 2%Z)) * w5; sdiv (s := QcS) (sneg (s := QcS) beta) (smul (s := QcS) (dx 2%Z) (dx 2%Z)) * w6] : QcS)).
  { intros i j k Ii Ij Ik. specialize (Vo i j k ltac:(lia) ltac:(lia) ltac:(lia)). specialize (Vd i j k ltac:(lia) ltac:(lia) ltac:(lia)). subst_lets. k_open. unfold fel.
    do 7 eexists. repeat match goal with |- _ /\ _ => split end.
    all: k_close QcS_laws; try reflexivity; try eassumption.
    all: try (apply (f_equal (@Some Qc)); unfold qsum; change (sdiv (s := QcS)) with Qcdiv; unfold Qcdiv; change (sadd (s := QcS)) with Qcplus; change (smul (s := QcS)) with Qcmult; change (sneg (s := QcS)) with Qcopp; ring). }
  enough (F : forall c, in_box [(i0, i1); (j0, j1); (k0, k1)] c -> _ /\ _) by exact (conj (fun c Hc => proj1 (F c Hc)) (fun c Hc => proj2 (F c Hc))).
  intros c Hc. repeat match goal with H : in_box _ _ |- _ => inversion_clear H | H : Forall2 _ _ _ |- _ => inversion_clear H end. cbn [fst snd] in * .
  match goal with |- context [fel _ (_ ::  ?pi:: ?pj:: ?pk:: nil) _] => rename pi into i; rename pj into j; rename pk into k; idtac end.
  destruct (G i j k ltac:(assumption) ltac:(assumption) ltac:(assumption)) as (w1 & w2 & w3 & w4 & w5 & w6 & e & D1 & D2 & D3 & D4 & D5 & D6 & De & V1 & V2 & V3 & V4 & V5 & V6 & V0). clear G.
  destruct (Hf0 i j k w1 ltac:(lia) ltac:(lia) ltac:(lia) D1) as [P1 Q1].
  destruct (entry_sign beta (dx 0%Z) w1 B Hbeta P1 Q1) as [S1 T1].
  destruct (Hf0 (i + 1)%Z j k w2 ltac:(lia) ltac:(lia) ltac:(lia) D2) as [P2 Q2].
  destruct (entry_sign beta (dx 0%Z) w2 B Hbeta P2 Q2) as [S2 T2].
  destruct (Hf1 i j k w3 ltac:(lia) ltac:(lia) ltac:(lia) D3) as [P3 Q3].
  destruct (entry_sign beta (dx 1%Z) w3 B Hbeta P3 Q3) as [S3 T3].
  destruct (Hf1 i (j + 1)%Z k w4 ltac:(lia) ltac:(lia) ltac:(lia) D4) as [P4 Q4].
  destruct (entry_sign beta (dx 1%Z) w4 B Hbeta P4 Q4) as [S4 T4].
  destruct (Hf2 i j k w5 ltac:(lia) ltac:(lia) ltac:(lia) D5) as [P5 Q5].
  destruct (entry_sign beta (dx 2%Z) w5 B Hbeta P5 Q5) as [S5 T5].
  destruct (Hf2 i j (k + 1)%Z w6 ltac:(lia) ltac:(lia) ltac:(lia) D6) as [P6 Q6].
  destruct (entry_sign beta (dx 2%Z) w6 B Hbeta P6 Q6) as [S6 T6].
  apply (row_signs ms _ _ [sdiv (s := QcS) (sneg (s := QcS) beta) (smul (s := QcS) (dx 0%Z) (dx 0%Z)) * w1; sdiv (s := QcS) (sneg (s := QcS) beta) (smul (s := QcS) (dx 0%Z) (dx 0%Z)) * w2; sdiv (s := QcS) (sneg (s := QcS) beta) (smul (s := QcS) (dx 1%Z) (dx 1%Z)) * w3; sdiv (s := QcS) (sneg (s := QcS) beta) (smul (s := QcS) (dx 1%Z) (dx 1%Z)) * w4; sdiv (s := QcS) (sneg (s := QcS) beta) (smul (s := QcS) (dx 2%Z) (dx 2%Z)) * w5; sdiv (s := QcS) (sneg (s := QcS) beta) (smul (s := QcS) (dx 2%Z) (dx 2%Z)) * w6] _ (alpha * e) K A V0).
  - intros s v Hsv. repeat (destruct s as [|s]; [injection Hsv as <-; assumption|]). destruct s; discriminate.
  - repeat constructor; assumption.
  - reflexivity.
  - apply (Ha i j k e); assumption.
  - exact HA.
  - unfold K, qsum. clear V0 V1 V2 V3 V4 V5 V6. qc_lra.
Qed.

Lemma dominant_v2_3d : forall i0 j0 k0 i1 j1 k1 (dx : Z -> Qc) (beta : Qc) b0 b1 b2 (alpha : Qc) sgcw st (A B : Qc) (m ms : mem QcS),
  (i0 <= i1 + 1)%Z -> (j0 <= j1 + 1)%Z -> (k0 <= k1 + 1)%Z -> (0 <= sgcw)%Z -> apart st [b0; b1; b2] ->
  0 <= beta -> 0 < A ->
  (forall i j k (v : Qc), (i0 <= i <= i1 + 1)%Z -> (j0 <= j <= j1)%Z -> (k0 <= k <= k1)%Z ->
    fel (mkFa b0 (FACE3d0 i0 j0 k0 i1 j1 k1 0)) [i; j; k] m = Some (v : QcS) -> 0 <= v /\ v <= B) ->
  (forall i j k (v : Qc), (i0 <= i <= i1)%Z -> (j0 <= j <= j1 + 1)%Z -> (k0 <= k <= k1)%Z ->
    fel (mkFa b1 (FACE3d1 i0 j0 k0 i1 j1 k1 0)) [j; k; i] m = Some (v : QcS) -> 0 <= v /\ v <= B) ->
  (forall i j k (v : Qc), (i0 <= i <= i1)%Z -> (j0 <= j <= j1)%Z -> (k0 <= k <= k1 + 1)%Z ->
    fel (mkFa b2 (FACE3d2 i0 j0 k0 i1 j1 k1 0)) [k; i; j] m = Some (v : QcS) -> 0 <= v /\ v <= B) ->
  A <= alpha ->
  (m' <- cd_stencil_3d_offdiag i0 j0 k0 i1 j1 k1 i0 j0 k0 i1 j1 k1 (dx : Z -> QcS) (beta : QcS) b0 b1 b2 sgcw st m ;;
   cd_stencil_3d_v2diag i0 j0 k0 i1 j1 k1 (alpha : QcS) sgcw st m') = Some ms ->
  let K := (1 + 1) * B * (beta / (dx 0%Z * dx 0%Z) + beta / (dx 1%Z * dx 1%Z) + beta / (dx 2%Z * dx 2%Z)) in
  dominant ms (mkFa st ((0, 6)%Z :: CELL3d i0 j0 k0 i1 j1 k1 sgcw)) 7%Z (K / (K + A)) (in_box [(i0, i1); (j0, j1); (k0, k1)]) /\
  z_matrix ms (mkFa st ((0, 6)%Z :: CELL3d i0 j0 k0 i1 j1 k1 sgcw)) 7%Z (in_box [(i0, i1); (j0, j1); (k0, k1)]).
Proof.
  intros i0 j0 k0 i1 j1 k1 dx beta b0 b1 b2 alpha sgcw st A B m ms. intros Hbi Hbj Hbk Hg Hap Hbeta HA Hf0 Hf1 Hf2 Ha Es K.
  apply bind_Some_inv in Es as (m1 & Eo1 & Ed). k_apart.
  destruct (offdiag_3d_at i0 j0 k0 i1 j1 k1 i0 j0 k0 i1 j1 k1 (dx : Z -> QcS) (beta : QcS) b0 b1 b2 sgcw st m m1 ltac:(k_rapart QcS_laws) ltac:(k_rapart QcS_laws) ltac:(k_rapart QcS_laws) ltac:(k_rapart QcS_laws) ltac:(k_rapart QcS_laws) Eo1) as (Vo & Fo).
  destruct (v2diag_3d_at QcS_laws i0 j0 k0 i1 j1 k1 (alpha : QcS) sgcw st m1 ms ltac:(k_rapart QcS_laws) ltac:(k_rapart QcS_laws) ltac:(k_rapart QcS_laws) ltac:(k_rapart QcS_laws) Ed) as (Vd & Fd). clear Eo1 Ed.
  assert (G : forall i j k, (i0 <= i <= i1)%Z -> (j0 <= j <= j1)%Z -> (k0 <= k <= k1)%Z ->
    exists w1 w2 w3 w4 w5 w6 e : Qc,
      fel (mkFa b0 (FACE3d0 i0 j0 k0 i1 j1 k1 0)) [(i)%Z; (j)%Z; (k)%Z] m = Some (w1 : QcS) /\ fel (mkFa b0 (FACE3d0 i0 j0 k0 i1 j1 k1 0)) [(i + 1)%Z; (j)%Z; (k)%Z] m = Some (w2 : QcS) /\ fel (mkFa b1 (FACE3d1 i0 j0 k0 i1 j1 k1 0)) [(j)%Z; (k)%Z; (i)%Z] m = Some (w3 : QcS) /\ fel (mkFa b1 (FACE3d1 i0 j0 k0 i1 j1 k1 0)) [(j + 1)%Z; (k)%Z; (i)%Z] m = Some (w4 : QcS) /\ fel (mkFa b2 (FACE3d2 i0 j0 k0 i1 j1 k1 0)) [(k)%Z; (i)%Z; (j)%Z] m = Some (w5 : QcS) /\ fel (mkFa b2 (FACE3d2 i0 j0 k0 i1 j1 k1 0)) [(k + 1)%Z; (i)%Z; (j)%Z] m = Some (w6 : QcS) /\
      e = alpha /\
      fel (mkFa st ((0, 6)%Z :: CELL3d i0 j0 k0 i1 j1 k1 sgcw)) (1%Z :: [i; j; k]) ms = Some (sdiv (s := QcS) (sneg (s := QcS) beta) (smul (s := QcS) (dx 0%Z) (dx 0%Z)) * w1 : QcS) /\ fel (mkFa st ((0, 6)%Z :: CELL3d i0 j0 k0 i1 j1 k1 sgcw)) (2%Z :: [i; j; k]) ms = Some (sdiv (s := QcS) (sneg (s := QcS) beta) (smul (s := QcS) (dx 0%Z) (dx 0%Z)) * w2 : QcS) /\ fel (mkFa st ((0, 6)%Z :: CELL3d i0 j0 k0 i1 j1 k1 sgcw)) (3%Z :: [i; j; k]) ms = Some (sdiv (s := QcS) (sneg (s := QcS) beta) (smul (s := QcS) (dx 1%Z) (dx 1%Z)) * w3 : QcS) /\ fel (mkFa st ((0, 6)%Z :: CELL3d i0 j0 k0 i1 j1 k1 sgcw)) (4%Z :: [i; j; k]) ms = Some (sdiv (s := QcS) (sneg (s := QcS) beta) (smul (s := QcS) (dx 1%Z) (dx 1%Z)) * w4 : QcS) /\ fel (mkFa st ((0, 6)%Z :: CELL3d i0 j0 k0 i1 j1 k1 sgcw)) (5%Z :: [i; j; k]) ms = Some (sdiv (s := QcS) (sneg (s := QcS) beta) (smul (s := QcS) (dx 2%Z) (dx 2%Z)) * w5 : QcS) /\ fel (mkFa st ((0, 6)%Z :: CELL3d i0 j0 k0 i1 j1 k1 sgcw)) (6%Z :: [i; j; k]) ms = Some (sdiv (s := QcS) (sneg (s := QcS) beta) (smul (s := QcS) (dx 2%Z) (dx 2%Z)) * w6 : QcS) /\
      fel (mkFa st ((0, 6)%Z :: CELL3d i0 j0 k0 i1 j1 k1 sgcw)) (0%Z :: [i; j; k]) ms = Some (e - qsum [sdiv (s := QcS) (sneg (s := QcS) beta) (smul (s := QcS) (dx 0%Z) (dx 0%Z)) * w1; sdiv (s := QcS) (sneg (s := QcS) beta) (smul (s := QcS) (dx 0%Z) (dx 0%Z)) * w2; sdiv (s := QcS) (sneg (s := QcS) beta) (smul (s := QcS) (dx 1%Z) (dx 1%Z)) * w3; sdiv (s := QcS) (sneg (s := QcS) beta) (smul (s := QcS) (dx 1%Z) (dx 1%Z)) * w4; sdiv (s := QcS) (sneg (s := QcS) beta) (smul (s := QcS) (dx 2%Z) (dx 2%Z)) * w5; sdiv (s := QcS) (sneg (s := QcS) beta) (smul (s := QcS) (dx 2%Z) (dx 2%Z)) * w6] : QcS)).
  { intros i j k Ii Ij Ik. specialize (Vo i j k ltac:(lia) ltac:(lia) ltac:(lia)). specialize (Vd i j k ltac:(lia) ltac:(lia) ltac:(lia)). subst_lets. k_open. unfold fel.
    do 7 eexists. repeat match goal with |- _ /\ _ => split end.
    all: k_close QcS_laws; try reflexivity; try eassumption.
    all: try (apply (f_equal (@Some Qc)); unfold qsum; change (sdiv (s := QcS)) with Qcdiv; unfold Qcdiv; change (sadd (s := QcS)) with Qcplus; change (smul (s := QcS)) with Qcmult; change (sneg (s := QcS)) with Qcopp; ring). }
  enough (F : forall c, in_box [(i0, i1); (j0, j1); (k0, k1)] c -> _ /\ _) by exact (conj (fun c Hc => proj1 (F c Hc)) (fun c Hc => proj2 (F c Hc))).
  intros c Hc. repeat match goal with H : in_box _ _ |- _ => inversion_clear H | H : Forall2 _ _ _ |- _ => inversion_clear H end. cbn [fst snd] in * .
  match goal with |- context [fel _ (_ ::  ?pi:: ?pj:: ?pk:: nil) _] => rename pi into i; rename pj into j; rename pk into k; idtac end.
  destruct (G i j k ltac:(assumption) ltac:(assumption) ltac:(assumption)) as (w1 & w2 & w3 & w4 & w5 & w6 & e & D1 & D2 & D3 & D4 & D5 & D6 & De & V1 & V2 & V3 & V4 & V5 & V6 & V0). clear G.
  destruct (Hf0 i j k w1 ltac:(lia) ltac:(lia) ltac:(lia) D1) as [P1 Q1].
  destruct (entry_sign beta (dx 0%Z) w1 B Hbeta P1 Q1) as [S1 T1].
  destruct (Hf0 (i + 1)%Z j k w2 ltac:(lia) ltac:(lia) ltac:(lia) D2) as [P2 Q2].
  destruct (entry_sign beta (dx 0%Z) w2 B Hbeta P2 Q2) as [S2 T2].
  destruct (Hf1 i j k w3 ltac:(lia) ltac:(lia) ltac:(lia) D3) as [P3 Q3].
  destruct (entry_sign beta (dx 1%Z) w3 B Hbeta P3 Q3) as [S3 T3].
  destruct (Hf1 i (j + 1)%Z k w4 ltac:(lia) ltac:(lia) ltac:(lia) D4) as [P4 Q4].
  destruct (entry_sign beta (dx 1%Z) w4 B Hbeta P4 Q4) as [S4 T4].
  destruct (Hf2 i j k w5 ltac:(lia) ltac:(lia) ltac:(lia) D5) as [P5 Q5].
  destruct (entry_sign beta (dx 2%Z) w5 B Hbeta P5 Q5) as [S5 T5].
  destruct (Hf2 i j (k + 1)%Z w6 ltac:(lia) ltac:(lia) ltac:(lia) D6) as [P6 Q6].
  destruct (entry_sign beta (dx 2%Z) w6 B Hbeta P6 Q6) as [S6 T6].
  apply (row_signs ms _ _ [sdiv (s := QcS) (sneg (s := QcS) beta) (smul (s := QcS) (dx 0%Z) (dx 0%Z)) * w1; sdiv (s := QcS) (sneg (s := QcS) beta) (smul (s := QcS) (dx 0%Z) (dx 0%Z)) * w2; sdiv (s := QcS) (sneg (s := QcS) beta) (smul (s := QcS) (dx 1%Z) (dx 1%Z)) * w3; sdiv (s := QcS) (sneg (s := QcS) beta) (smul (s := QcS) (dx 1%Z) (dx 1%Z)) * w4; sdiv (s := QcS) (sneg (s := QcS) beta) (smul (s := QcS) (dx 2%Z) (dx 2%Z)) * w5; sdiv (s := QcS) (sneg (s := QcS) beta) (smul (s := QcS) (dx 2%Z) (dx 2%Z)) * w6] _ (e) K A V0).
  - intros s v Hsv. repeat (destruct s as [|s]; [injection Hsv as <-; assumption|]). destruct s; discriminate.
  - repeat constructor; assumption.
  - reflexivity.
  - rewrite De; exact Ha.
  - exact HA.
  - unfold K, qsum. clear V0 V1 V2 V3 V4 V5 V6. qc_lra.
Qed.

