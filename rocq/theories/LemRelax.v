(** * Assembling and relaxing *)

From Coq Require Import Field QArith Qcanon Qcabs Permutation.
From Verif Require Import Base ModelBounds ModelMatrix ModelIters ModelSpan ModelProxy Spec SpecIter ModelSched
  LemBase LemDomain LemExpr LemExec SpecAssign LemAssign LemProps LemProps4 SpecWindow LemWindow LemWindow2
  FortranBase FortranSmooth SpecKernel Instances LemField LemKernel LemKernel2 LemBC LemHomog KernelNotations
  KernelsFlux KernelsApply KernelsStencil LemStencil LemRow LemValues1 LemValues2 LemValues3
  SpecRow SpecSmooth SpecConverge LemCells LemSmoothFinal LemSmoothRefute LemRound LemConverge LemConverge3 LemConverge4 LemConverge5 LemConvergeCase
  SpecSolve LemSolveOp SpecRelax.
Import ListNotations.
Open Scope Qc_scope.

(** A row given by the list of its entries. *)
Lemma row_of_list (m : mem QcS) tab st cols c (x : list Z -> Qc) (es : list Qc) (d : Qc) n :
  table_is m tab cols -> n = Z.of_nat (length cols) -> Forall (fun col => length col = length c) cols -> length es = length cols ->
  (forall s e, nth_error es s = Some e -> fel st (Z.of_nat s :: c) m = Some (e : QcS)) ->
  d = qsum (map (fun p => fst p * x (shifted c (snd p))) (combine es cols)) ->
  row_sum m tab st 0 0 (n - 1) c (fun c' => Some (x c' : QcS)) (d : QcS).
Proof.
  intros T -> Hl He Hf ->. exists (fun s => nth (Z.to_nat s) es 0), (fun s => x (shifted c (nth (Z.to_nat s) cols []))). split.
  - intros s Hs. split.
    + rewrite <- (Hf (Z.to_nat s) (nth (Z.to_nat s) es 0)) by (apply nth_error_nth'; lia). rewrite Z2Nat.id by lia. reflexivity.
    + eexists. split; [|reflexivity]. rewrite Forall_forall in Hl. apply (table_shifted m tab cols s _ c T); [apply nth_error_nth'; lia|lia|].
      apply Hl, nth_In. lia.
  - unfold total. replace (Z.to_nat (Z.of_nat (length cols) - 1 - 0 + 1)) with (length cols) by lia.
    assert (G : forall cols es k, length es = length cols ->
      qsum (map (fun p => fst p * x (shifted c (snd p))) (combine es cols)) =
      fold_right (fun j s => nth (j - k) es 0 * x (shifted c (nth (j - k) cols [])) + s) 0 (seq k (length cols))).
    { clear. induction cols as [|col cols IH]; intros [|e es] k He; try discriminate; [reflexivity|].
      cbn [combine map qsum length seq fold_right fst snd]. rewrite Nat.sub_diag. cbn [nth]. f_equal.
      rewrite (IH es (Datatypes.S k)) by (cbn in He; lia). clear.
      assert (H : forall j, In j (seq (Datatypes.S k) (length cols)) -> (k < j)%nat) by (intros j Hj; apply in_seq in Hj; lia).
      induction (seq (Datatypes.S k) (length cols)) as [|j s IH]; [reflexivity|]. cbn [fold_right]. rewrite IH by (intros; apply H; right; assumption).
      specialize (H j (or_introl eq_refl)). destruct (j - k)%nat as [|q] eqn:Ed; [lia|]. cbn [nth]. replace (j - Datatypes.S k)%nat with q by lia. reflexivity. }
    rewrite (G cols es 0%nat He). clear. induction (seq 0 (length cols)) as [|j s IH]; [reflexivity|].
    cbn [fold_right]. rewrite IH. rewrite Nat.sub_0_r. replace (Z.to_nat (0 + Z.of_nat j)) with j by lia. reflexivity.
Qed.

Lemma cell_bounds_1 a b g : CELL1d (a - g) (b + g) 0 = CELL1d a b g.
Proof. unfold CELL1d. rewrite ?Z.sub_0_r, ?Z.add_0_r. reflexivity. Qed.
Lemma cell_bounds_2 a b c e g : CELL2d (a - g) (b - g) (c + g) (e + g) 0 = CELL2d a b c e g.
Proof. unfold CELL2d. rewrite ?Z.sub_0_r, ?Z.add_0_r. reflexivity. Qed.
Lemma cell_bounds_3 a b c e p q g : CELL3d (a - g) (b - g) (c - g) (e + g) (p + g) (q + g) 0 = CELL3d a b c e p q g.
Proof. unfold CELL3d. rewrite ?Z.sub_0_r, ?Z.add_0_r. reflexivity. Qed.

Lemma fits_of_table (m : mem QcS) tab cols u bs g : table_is m tab cols -> (0 < length cols)%nat ->
  Forall (fun col => length col = length bs /\ Forall (fun o => (- (1) <= o <= 1)%Z) col) cols -> nth_error cols 0 = Some (repeat 0%Z (length bs)) ->
  (1 <= g)%Z -> fa_dims u = map (fun b => (fst b - g, snd b + g)%Z) bs -> forall n, n = Z.of_nat (length cols) -> fits m tab n u bs.
Proof.
  intros T Hn Hc H0 Hg Hu n ->. unfold fits. split; [lia|]. rewrite Hu. split; [|split].
  - clear -Hg. induction bs as [|b bs IH]; intros c Hc; inversion_clear Hc; constructor; [cbn [fst snd]; lia|apply IH; assumption].
  - apply (table_stays m tab cols g bs (in_box bs) T); [|auto].
    eapply Forall_impl; [|exact Hc]. intros col [Hl Ho]. split; [exact Hl|]. eapply Forall_impl; [|exact Ho]. cbn. intros. lia.
  - intros c Hc'. apply in_box_len in Hc'. apply (table_diagonal m tab cols c T). rewrite <- Hc'. exact H0.
Qed.

Ltac qc_form := unfold Qcdiv; change (sdiv (s := QcS)) with Qcdiv; unfold Qcdiv; change (sadd (s := QcS)) with Qcplus; change (ssub (s := QcS)) with Qcminus; change (smul (s := QcS)) with Qcmult; change (sneg (s := QcS)) with Qcopp; rewrite ?Qcinv_mult_distr.

Lemma solution_v1_1d : (forall i0 i1 (dx : Z -> Qc) (beta : Qc) b0 gcw u f0 (alpha : Qc) agcw a rgcw res sgcw st offset fgcw f (mx ms : mem QcS) (r w c v0 : Z -> Qc),
  i0 <= i1 + 1 ->
  applied_v1_1d (S := QcS) i0 i1 dx beta b0 gcw u f0 alpha agcw a rgcw res mx r w c v0 ->
  assembled_v1_1d i0 i1 dx beta b0 alpha agcw a sgcw st offset fgcw f ms r c v0 ->
  solution ms (mkFa offset [(0, 0); (0, 2)]) (mkFa st ((0, 2) :: CELL1d i0 i1 sgcw)) 3 (mkFa f (CELL1d i0 i1 fgcw)) (at1 w) (in_box [(i0, i1)]))%Z.
Proof.
  intros i0 i1 dx beta b0 gcw u f0 alpha agcw a rgcw res sgcw st offset fgcw f mx ms r w c v0. intros Hbi Hop (Hg & Hap & m & Hf0 & Ha & Es & HT & Hf).
  apply bind_Some_inv in Es as (m1 & Eo1 & Ed). k_apart.
  destruct (offdiag_1d_at i0 i1 i0 i1 (dx : Z -> QcS) (beta : QcS) b0 sgcw st m m1 ltac:(k_rapart QcS_laws) ltac:(k_rapart QcS_laws) ltac:(k_rapart QcS_laws) Eo1) as (Vo & Fo).
  destruct (v1diag_1d_at QcS_laws i0 i1 (i0 - agcw) (i1 + agcw) (alpha : QcS) a sgcw st m1 ms ltac:(k_rapart QcS_laws) ltac:(k_rapart QcS_laws) ltac:(k_rapart QcS_laws) Ed) as (Vd & Fd). clear Eo1 Ed.
  assert (G : forall i, (i0 <= i <= i1)%Z ->
    exists w1 w2 e : Qc,
      fel (mkFa b0 (FACE1d i0 i1 0)) [(i)%Z] m = Some (w1 : QcS) /\ fel (mkFa b0 (FACE1d i0 i1 0)) [(i + 1)%Z] m = Some (w2 : QcS) /\
      fel (mkFa a (CELL1d i0 i1 agcw)) [i] m = Some (e : QcS) /\
      fel (mkFa st ((0, 2)%Z :: CELL1d i0 i1 sgcw)) (1%Z :: [i]) ms = Some (sdiv (s := QcS) (sneg (s := QcS) beta) (smul (s := QcS) (dx 0%Z) (dx 0%Z)) * w1 : QcS) /\ fel (mkFa st ((0, 2)%Z :: CELL1d i0 i1 sgcw)) (2%Z :: [i]) ms = Some (sdiv (s := QcS) (sneg (s := QcS) beta) (smul (s := QcS) (dx 0%Z) (dx 0%Z)) * w2 : QcS) /\
      fel (mkFa st ((0, 2)%Z :: CELL1d i0 i1 sgcw)) (0%Z :: [i]) ms = Some (alpha * e - qsum [sdiv (s := QcS) (sneg (s := QcS) beta) (smul (s := QcS) (dx 0%Z) (dx 0%Z)) * w1; sdiv (s := QcS) (sneg (s := QcS) beta) (smul (s := QcS) (dx 0%Z) (dx 0%Z)) * w2] : QcS)).
  { intros i Ii. specialize (Vo i ltac:(lia)). specialize (Vd i ltac:(lia)). subst_lets. k_open. unfold fel.
    do 3 eexists. repeat match goal with |- _ /\ _ => split end.
    all: k_close QcS_laws; try reflexivity; try eassumption.
    all: try (apply (f_equal (@Some Qc)); unfold qsum; change (sdiv (s := QcS)) with Qcdiv; unfold Qcdiv; change (sadd (s := QcS)) with Qcplus; change (smul (s := QcS)) with Qcmult; change (sneg (s := QcS)) with Qcopp; ring). }
  clear Vo Vd Fo Fd. intros c' Hc. repeat match goal with H : in_box _ _ |- _ => inversion_clear H | H : Forall2 _ _ _ |- _ => inversion_clear H end. cbn [fst snd] in * .
  match goal with |- context [fel _ (?pi ::  nil) _] => rename pi into i; idtac end.
  destruct (G i ltac:(assumption)) as (w1 & w2 & e & D1 & D2 & De & V1 & V2 & V0). clear G.
  pose proof (eq_trans (eq_sym (Hf0 i ltac:(lia))) D1) as J1. injection J1 as J1. rewrite <- J1 in * . clear J1 D1.
  pose proof (eq_trans (eq_sym (Hf0 (i + 1)%Z ltac:(lia))) D2) as J2. injection J2 as J2. rewrite <- J2 in * . clear J2 D2.
  pose proof (eq_trans (eq_sym (Ha i ltac:(lia))) De) as Je. injection Je as Je. rewrite <- Je in * . clear Je De.
  exists (r i), (r i). split; [apply Hf; lia|]. split; [|reflexivity].
  match type of V0 with _ = Some ?x0 => match type of V1 with _ = Some ?x1 => idtac end end.
  eapply (row_of_list ms _ _ _ _ _ (_ :: _ :: _ :: nil)); [exact HT|reflexivity|repeat constructor|reflexivity| |].
  { intros s e1 Hsv. destruct s as [|s]; [injection Hsv as <-; exact V0|]. destruct s as [|s]; [injection Hsv as <-; exact V1|]. destruct s as [|s]; [injection Hsv as <-; exact V2|]. destruct s; discriminate. }
  rewrite (val_v1_1d QcS_laws _ _ _ _ _ _ _ _ _ _ _ _ _ _ _ _ _ _ Hop i ltac:(k_near)).
  cbn [combine map qsum shifted fst snd at1]. rewrite ?Z.add_0_r. replace (i + -1)%Z with (i - 1)%Z by lia.
  qc_form. ring.
Qed.

Lemma solution_v2_1d : (forall i0 i1 (dx : Z -> Qc) (beta : Qc) b0 gcw u f0 (alpha : Qc) rgcw res sgcw st offset fgcw f (mx ms : mem QcS) (r w v0 : Z -> Qc),
  i0 <= i1 + 1 ->
  applied_v2_1d (S := QcS) i0 i1 dx beta b0 gcw u f0 alpha rgcw res mx r w v0 ->
  assembled_v2_1d i0 i1 dx beta b0 alpha sgcw st offset fgcw f ms r v0 ->
  solution ms (mkFa offset [(0, 0); (0, 2)]) (mkFa st ((0, 2) :: CELL1d i0 i1 sgcw)) 3 (mkFa f (CELL1d i0 i1 fgcw)) (at1 w) (in_box [(i0, i1)]))%Z.
Proof.
  intros i0 i1 dx beta b0 gcw u f0 alpha rgcw res sgcw st offset fgcw f mx ms r w v0. intros Hbi Hop (Hg & Hap & m & Hf0 & Es & HT & Hf).
  apply bind_Some_inv in Es as (m1 & Eo1 & Ed). k_apart.
  destruct (offdiag_1d_at i0 i1 i0 i1 (dx : Z -> QcS) (beta : QcS) b0 sgcw st m m1 ltac:(k_rapart QcS_laws) ltac:(k_rapart QcS_laws) ltac:(k_rapart QcS_laws) Eo1) as (Vo & Fo).
  destruct (v2diag_1d_at QcS_laws i0 i1 (alpha : QcS) sgcw st m1 ms ltac:(k_rapart QcS_laws) ltac:(k_rapart QcS_laws) Ed) as (Vd & Fd). clear Eo1 Ed.
  assert (G : forall i, (i0 <= i <= i1)%Z ->
    exists w1 w2 e : Qc,
      fel (mkFa b0 (FACE1d i0 i1 0)) [(i)%Z] m = Some (w1 : QcS) /\ fel (mkFa b0 (FACE1d i0 i1 0)) [(i + 1)%Z] m = Some (w2 : QcS) /\
      e = alpha /\
      fel (mkFa st ((0, 2)%Z :: CELL1d i0 i1 sgcw)) (1%Z :: [i]) ms = Some (sdiv (s := QcS) (sneg (s := QcS) beta) (smul (s := QcS) (dx 0%Z) (dx 0%Z)) * w1 : QcS) /\ fel (mkFa st ((0, 2)%Z :: CELL1d i0 i1 sgcw)) (2%Z :: [i]) ms = Some (sdiv (s := QcS) (sneg (s := QcS) beta) (smul (s := QcS) (dx 0%Z) (dx 0%Z)) * w2 : QcS) /\
      fel (mkFa st ((0, 2)%Z :: CELL1d i0 i1 sgcw)) (0%Z :: [i]) ms = Some (e - qsum [sdiv (s := QcS) (sneg (s := QcS) beta) (smul (s := QcS) (dx 0%Z) (dx 0%Z)) * w1; sdiv (s := QcS) (sneg (s := QcS) beta) (smul (s := QcS) (dx 0%Z) (dx 0%Z)) * w2] : QcS)).
  { intros i Ii. specialize (Vo i ltac:(lia)). specialize (Vd i ltac:(lia)). subst_lets. k_open. unfold fel.
    do 3 eexists. repeat match goal with |- _ /\ _ => split end.
    all: k_close QcS_laws; try reflexivity; try eassumption.
    all: try (apply (f_equal (@Some Qc)); unfold qsum; change (sdiv (s := QcS)) with Qcdiv; unfold Qcdiv; change (sadd (s := QcS)) with Qcplus; change (smul (s := QcS)) with Qcmult; change (sneg (s := QcS)) with Qcopp; ring). }
  clear Vo Vd Fo Fd. intros c' Hc. repeat match goal with H : in_box _ _ |- _ => inversion_clear H | H : Forall2 _ _ _ |- _ => inversion_clear H end. cbn [fst snd] in * .
  match goal with |- context [fel _ (?pi ::  nil) _] => rename pi into i; idtac end.
  destruct (G i ltac:(assumption)) as (w1 & w2 & e & D1 & D2 & De & V1 & V2 & V0). clear G.
  pose proof (eq_trans (eq_sym (Hf0 i ltac:(lia))) D1) as J1. injection J1 as J1. rewrite <- J1 in * . clear J1 D1.
  pose proof (eq_trans (eq_sym (Hf0 (i + 1)%Z ltac:(lia))) D2) as J2. injection J2 as J2. rewrite <- J2 in * . clear J2 D2.
  rewrite De in V0. clear De.
  exists (r i), (r i). split; [apply Hf; lia|]. split; [|reflexivity].
  match type of V0 with _ = Some ?x0 => match type of V1 with _ = Some ?x1 => idtac end end.
  eapply (row_of_list ms _ _ _ _ _ (_ :: _ :: _ :: nil)); [exact HT|reflexivity|repeat constructor|reflexivity| |].
  { intros s e1 Hsv. destruct s as [|s]; [injection Hsv as <-; exact V0|]. destruct s as [|s]; [injection Hsv as <-; exact V1|]. destruct s as [|s]; [injection Hsv as <-; exact V2|]. destruct s; discriminate. }
  rewrite (val_v2_1d QcS_laws _ _ _ _ _ _ _ _ _ _ _ _ _ _ _ Hop i ltac:(k_near)).
  cbn [combine map qsum shifted fst snd at1]. rewrite ?Z.add_0_r. replace (i + -1)%Z with (i - 1)%Z by lia.
  qc_form. ring.
Qed.

Lemma solution_v1_2d : (forall i0 j0 i1 j1 (dx : Z -> Qc) (beta : Qc) b0 b1 gcw u f0 f1 (alpha : Qc) agcw a rgcw res sgcw st offset fgcw f (mx ms : mem QcS) (r w c v0 v1 : Z -> Z -> Qc),
  i0 <= i1 + 1 -> j0 <= j1 + 1 ->
  applied_v1_2d (S := QcS) i0 j0 i1 j1 dx beta b0 b1 gcw u f0 f1 alpha agcw a rgcw res mx r w c v0 v1 ->
  assembled_v1_2d i0 j0 i1 j1 dx beta b0 b1 alpha agcw a sgcw st offset fgcw f ms r c v0 v1 ->
  solution ms (mkFa offset [(0, 1); (0, 4)]) (mkFa st ((0, 4) :: CELL2d i0 j0 i1 j1 sgcw)) 5 (mkFa f (CELL2d i0 j0 i1 j1 fgcw)) (at2 w) (in_box [(i0, i1); (j0, j1)]))%Z.
Proof.
  intros i0 j0 i1 j1 dx beta b0 b1 gcw u f0 f1 alpha agcw a rgcw res sgcw st offset fgcw f mx ms r w c v0 v1. intros Hbi Hbj Hop (Hg & Hap & m & Hf0 & Hf1 & Ha & Es & HT & Hf).
  apply bind_Some_inv in Es as (m1 & Eo1 & Ed). k_apart.
  destruct (offdiag_2d_at i0 j0 i1 j1 i0 j0 i1 j1 (dx : Z -> QcS) (beta : QcS) b0 b1 sgcw st m m1 ltac:(k_rapart QcS_laws) ltac:(k_rapart QcS_laws) ltac:(k_rapart QcS_laws) ltac:(k_rapart QcS_laws) Eo1) as (Vo & Fo).
  destruct (v1diag_2d_at QcS_laws i0 j0 i1 j1 (i0 - agcw) (j0 - agcw) (i1 + agcw) (j1 + agcw) (alpha : QcS) a sgcw st m1 ms ltac:(k_rapart QcS_laws) ltac:(k_rapart QcS_laws) ltac:(k_rapart QcS_laws) ltac:(k_rapart QcS_laws) Ed) as (Vd & Fd). clear Eo1 Ed.
  assert (G : forall i j, (i0 <= i <= i1)%Z -> (j0 <= j <= j1)%Z ->
    exists w1 w2 w3 w4 e : Qc,
      fel (mkFa b0 (FACE2d0 i0 j0 i1 j1 0)) [(i)%Z; (j)%Z] m = Some (w1 : QcS) /\ fel (mkFa b0 (FACE2d0 i0 j0 i1 j1 0)) [(i + 1)%Z; (j)%Z] m = Some (w2 : QcS) /\ fel (mkFa b1 (FACE2d1 i0 j0 i1 j1 0)) [(j)%Z; (i)%Z] m = Some (w3 : QcS) /\ fel (mkFa b1 (FACE2d1 i0 j0 i1 j1 0)) [(j + 1)%Z; (i)%Z] m = Some (w4 : QcS) /\
      fel (mkFa a (CELL2d i0 j0 i1 j1 agcw)) [i; j] m = Some (e : QcS) /\
      fel (mkFa st ((0, 4)%Z :: CELL2d i0 j0 i1 j1 sgcw)) (1%Z :: [i; j]) ms = Some (sdiv (s := QcS) (sneg (s := QcS) beta) (smul (s := QcS) (dx 0%Z) (dx 0%Z)) * w1 : QcS) /\ fel (mkFa st ((0, 4)%Z :: CELL2d i0 j0 i1 j1 sgcw)) (2%Z :: [i; j]) ms = Some (sdiv (s := QcS) (sneg (s := QcS) beta) (smul (s := QcS) (dx 0%Z) (dx 0%Z)) * w2 : QcS) /\ fel (mkFa st ((0, 4)%Z :: CELL2d i0 j0 i1 j1 sgcw)) (3%Z :: [i; j]) ms = Some (sdiv (s := QcS) (sneg (s := QcS) beta) (smul (s := QcS) (dx 1%Z) (dx 1%Z)) * w3 : QcS) /\ fel (mkFa st ((0, 4)%Z :: CELL2d i0 j0 i1 j1 sgcw)) (4%Z :: [i; j]) ms = Some (sdiv (s := QcS) (sneg (s := QcS) beta) (smul (s := QcS) (dx 1%Z) (dx 1%Z)) * w4 : QcS) /\
      fel (mkFa st ((0, 4)%Z :: CELL2d i0 j0 i1 j1 sgcw)) (0%Z :: [i; j]) ms = Some (alpha * e - qsum [sdiv (s := QcS) (sneg (s := QcS) beta) (smul (s := QcS) (dx 0%Z) (dx 0%Z)) * w1; sdiv (s := QcS) (sneg (s := QcS) beta) (smul (s := QcS) (dx 0%Z) (dx 0%Z)) * w2; sdiv (s := QcS) (sneg (s := QcS) beta) (smul (s := QcS) (dx 1%Z) (dx 1%Z)) * w3; sdiv (s := QcS) (sneg (s := QcS) beta) (smul (s := QcS) (dx 1%Z) (dx 1%Z)) * w4] : QcS)).
  { intros i j Ii Ij. specialize (Vo i j ltac:(lia) ltac:(lia)). specialize (Vd i j ltac:(lia) ltac:(lia)). subst_lets. k_open. unfold fel.
    do 5 eexists. repeat match goal with |- _ /\ _ => split end.
    all: k_close QcS_laws; try reflexivity; try eassumption.
    all: try (apply (f_equal (@Some Qc)); unfold qsum; change (sdiv (s := QcS)) with Qcdiv; unfold Qcdiv; change (sadd (s := QcS)) with Qcplus; change (smul (s := QcS)) with Qcmult; change (sneg (s := QcS)) with Qcopp; ring). }
  clear Vo Vd Fo Fd. intros c' Hc. repeat match goal with H : in_box _ _ |- _ => inversion_clear H | H : Forall2 _ _ _ |- _ => inversion_clear H end. cbn [fst snd] in * .
  match goal with |- context [fel _ (?pi :: ?pj ::  nil) _] => rename pi into i; rename pj into j; idtac end.
  destruct (G i j ltac:(assumption) ltac:(assumption)) as (w1 & w2 & w3 & w4 & e & D1 & D2 & D3 & D4 & De & V1 & V2 & V3 & V4 & V0). clear G.
  pose proof (eq_trans (eq_sym (Hf0 i j ltac:(lia) ltac:(lia))) D1) as J1. injection J1 as J1. rewrite <- J1 in * . clear J1 D1.
  pose proof (eq_trans (eq_sym (Hf0 (i + 1)%Z j ltac:(lia) ltac:(lia))) D2) as J2. injection J2 as J2. rewrite <- J2 in * . clear J2 D2.
  pose proof (eq_trans (eq_sym (Hf1 i j ltac:(lia) ltac:(lia))) D3) as J3. injection J3 as J3. rewrite <- J3 in * . clear J3 D3.
  pose proof (eq_trans (eq_sym (Hf1 i (j + 1)%Z ltac:(lia) ltac:(lia))) D4) as J4. injection J4 as J4. rewrite <- J4 in * . clear J4 D4.
  pose proof (eq_trans (eq_sym (Ha i j ltac:(lia) ltac:(lia))) De) as Je. injection Je as Je. rewrite <- Je in * . clear Je De.
  exists (r i j), (r i j). split; [apply Hf; lia|]. split; [|reflexivity].
  match type of V0 with _ = Some ?x0 => match type of V1 with _ = Some ?x1 => idtac end end.
  eapply (row_of_list ms _ _ _ _ _ (_ :: _ :: _ :: _ :: _ :: nil)); [exact HT|reflexivity|repeat constructor|reflexivity| |].
  { intros s e1 Hsv. destruct s as [|s]; [injection Hsv as <-; exact V0|]. destruct s as [|s]; [injection Hsv as <-; exact V1|]. destruct s as [|s]; [injection Hsv as <-; exact V2|]. destruct s as [|s]; [injection Hsv as <-; exact V3|]. destruct s as [|s]; [injection Hsv as <-; exact V4|]. destruct s; discriminate. }
  rewrite (val_v1_2d QcS_laws _ _ _ _ _ _ _ _ _ _ _ _ _ _ _ _ _ _ _ _ _ _ _ Hop i j ltac:(k_near)).
  cbn [combine map qsum shifted fst snd at2]. rewrite ?Z.add_0_r. replace (i + -1)%Z with (i - 1)%Z by lia. replace (j + -1)%Z with (j - 1)%Z by lia.
  qc_form. ring.
Qed.

Lemma solution_v2_2d : (forall i0 j0 i1 j1 (dx : Z -> Qc) (beta : Qc) b0 b1 gcw u f0 f1 (alpha : Qc) rgcw res sgcw st offset fgcw f (mx ms : mem QcS) (r w v0 v1 : Z -> Z -> Qc),
  i0 <= i1 + 1 -> j0 <= j1 + 1 ->
  applied_v2_2d (S := QcS) i0 j0 i1 j1 dx beta b0 b1 gcw u f0 f1 alpha rgcw res mx r w v0 v1 ->
  assembled_v2_2d i0 j0 i1 j1 dx beta b0 b1 alpha sgcw st offset fgcw f ms r v0 v1 ->
  solution ms (mkFa offset [(0, 1); (0, 4)]) (mkFa st ((0, 4) :: CELL2d i0 j0 i1 j1 sgcw)) 5 (mkFa f (CELL2d i0 j0 i1 j1 fgcw)) (at2 w) (in_box [(i0, i1); (j0, j1)]))%Z.
Proof.
  intros i0 j0 i1 j1 dx beta b0 b1 gcw u f0 f1 alpha rgcw res sgcw st offset fgcw f mx ms r w v0 v1. intros Hbi Hbj Hop (Hg & Hap & m & Hf0 & Hf1 & Es & HT & Hf).
  apply bind_Some_inv in Es as (m1 & Eo1 & Ed). k_apart.
  destruct (offdiag_2d_at i0 j0 i1 j1 i0 j0 i1 j1 (dx : Z -> QcS) (beta : QcS) b0 b1 sgcw st m m1 ltac:(k_rapart QcS_laws) ltac:(k_rapart QcS_laws) ltac:(k_rapart QcS_laws) ltac:(k_rapart QcS_laws) Eo1) as (Vo & Fo).
  destruct (v2diag_2d_at QcS_laws i0 j0 i1 j1 (alpha : QcS) sgcw st m1 ms ltac:(k_rapart QcS_laws) ltac:(k_rapart QcS_laws) ltac:(k_rapart QcS_laws) Ed) as (Vd & Fd). clear Eo1 Ed.
  assert (G : forall i j, (i0 <= i <= i1)%Z -> (j0 <= j <= j1)%Z ->
    exists w1 w2 w3 w4 e : Qc,
      fel (mkFa b0 (FACE2d0 i0 j0 i1 j1 0)) [(i)%Z; (j)%Z] m = Some (w1 : QcS) /\ fel (mkFa b0 (FACE2d0 i0 j0 i1 j1 0)) [(i + 1)%Z; (j)%Z] m = Some (w2 : QcS) /\ fel (mkFa b1 (FACE2d1 i0 j0 i1 j1 0)) [(j)%Z; (i)%Z] m = Some (w3 : QcS) /\ fel (mkFa b1 (FACE2d1 i0 j0 i1 j1 0)) [(j + 1)%Z; (i)%Z] m = Some (w4 : QcS) /\
      e = alpha /\
      fel (mkFa st ((0, 4)%Z :: CELL2d i0 j0 i1 j1 sgcw)) (1%Z :: [i; j]) ms = Some (sdiv (s := QcS) (sneg (s := QcS) beta) (smul (s := QcS) (dx 0%Z) (dx 0%Z)) * w1 : QcS) /\ fel (mkFa st ((0, 4)%Z :: CELL2d i0 j0 i1 j1 sgcw)) (2%Z :: [i; j]) ms = Some (sdiv (s := QcS) (sneg (s := QcS) beta) (smul (s := QcS) (dx 0%Z) (dx 0%Z)) * w2 : QcS) /\ fel (mkFa st ((0, 4)%Z :: CELL2d i0 j0 i1 j1 sgcw)) (3%Z :: [i; j]) ms = Some (sdiv (s := QcS) (sneg (s := QcS) beta) (smul (s := QcS) (dx 1%Z) (dx 1%Z)) * w3 : QcS) /\ fel (mkFa st ((0, 4)%Z :: CELL2d i0 j0 i1 j1 sgcw)) (4%Z :: [i; j]) ms = Some (sdiv (s := QcS) (sneg (s := QcS) beta) (smul (s := QcS) (dx 1%Z) (dx 1%Z)) * w4 : QcS) /\
      fel (mkFa st ((0, 4)%Z :: CELL2d i0 j0 i1 j1 sgcw)) (0%Z :: [i; j]) ms = Some (e - qsum [sdiv (s := QcS) (sneg (s := QcS) beta) (smul (s := QcS) (dx 0%Z) (dx 0%Z)) * w1; sdiv (s := QcS) (sneg (s := QcS) beta) (smul (s := QcS) (dx 0%Z) (dx 0%Z)) * w2; sdiv (s := QcS) (sneg (s := QcS) beta) (smul (s := QcS) (dx 1%Z) (dx 1%Z)) * w3; sdiv (s := QcS) (sneg (s := QcS) beta) (smul (s := QcS) (dx 1%Z) (dx 1%Z)) * w4] : QcS)).
  { intros i j Ii Ij. specialize (Vo i j ltac:(lia) ltac:(lia)). specialize (Vd i j ltac:(lia) ltac:(lia)). subst_lets. k_open. unfold fel.
    do 5 eexists. repeat match goal with |- _ /\ _ => split end.
    all: k_close QcS_laws; try reflexivity; try eassumption.
    all: try (apply (f_equal (@Some Qc)); unfold qsum; change (sdiv (s := QcS)) with Qcdiv; unfold Qcdiv; change (sadd (s := QcS)) with Qcplus; change (smul (s := QcS)) with Qcmult; change (sneg (s := QcS)) with Qcopp; ring). }
  clear Vo Vd Fo Fd. intros c' Hc. repeat match goal with H : in_box _ _ |- _ => inversion_clear H | H : Forall2 _ _ _ |- _ => inversion_clear H end. cbn [fst snd] in * .
  match goal with |- context [fel _ (?pi :: ?pj ::  nil) _] => rename pi into i; rename pj into j; idtac end.
  destruct (G i j ltac:(assumption) ltac:(assumption)) as (w1 & w2 & w3 & w4 & e & D1 & D2 & D3 & D4 & De & V1 & V2 & V3 & V4 & V0). clear G.
  pose proof (eq_trans (eq_sym (Hf0 i j ltac:(lia) ltac:(lia))) D1) as J1. injection J1 as J1. rewrite <- J1 in * . clear J1 D1.
  pose proof (eq_trans (eq_sym (Hf0 (i + 1)%Z j ltac:(lia) ltac:(lia))) D2) as J2. injection J2 as J2. rewrite <- J2 in * . clear J2 D2.
  pose proof (eq_trans (eq_sym (Hf1 i j ltac:(lia) ltac:(lia))) D3) as J3. injection J3 as J3. rewrite <- J3 in * . clear J3 D3.
  pose proof (eq_trans (eq_sym (Hf1 i (j + 1)%Z ltac:(lia) ltac:(lia))) D4) as J4. injection J4 as J4. rewrite <- J4 in * . clear J4 D4.
  rewrite De in V0. clear De.
  exists (r i j), (r i j). split; [apply Hf; lia|]. split; [|reflexivity].
  match type of V0 with _ = Some ?x0 => match type of V1 with _ = Some ?x1 => idtac end end.
  eapply (row_of_list ms _ _ _ _ _ (_ :: _ :: _ :: _ :: _ :: nil)); [exact HT|reflexivity|repeat constructor|reflexivity| |].
  { intros s e1 Hsv. destruct s as [|s]; [injection Hsv as <-; exact V0|]. destruct s as [|s]; [injection Hsv as <-; exact V1|]. destruct s as [|s]; [injection Hsv as <-; exact V2|]. destruct s as [|s]; [injection Hsv as <-; exact V3|]. destruct s as [|s]; [injection Hsv as <-; exact V4|]. destruct s; discriminate. }
  rewrite (val_v2_2d QcS_laws _ _ _ _ _ _ _ _ _ _ _ _ _ _ _ _ _ _ _ _ Hop i j ltac:(k_near)).
  cbn [combine map qsum shifted fst snd at2]. rewrite ?Z.add_0_r. replace (i + -1)%Z with (i - 1)%Z by lia. replace (j + -1)%Z with (j - 1)%Z by lia.
  qc_form. ring.
Qed.

Lemma solution_v1_3d : (forall i0 j0 k0 i1 j1 k1 (dx : Z -> Qc) (beta : Qc) b0 b1 b2 gcw u f0 f1 f2 (alpha : Qc) agcw a rgcw res sgcw st offset fgcw f (mx ms : mem QcS) (r w c v0 v1 v2 : Z -> Z -> Z -> Qc),
  i0 <= i1 + 1 -> j0 <= j1 + 1 -> k0 <= k1 + 1 ->
  applied_v1_3d (S := QcS) i0 j0 k0 i1 j1 k1 dx beta b0 b1 b2 gcw u f0 f1 f2 alpha agcw a rgcw res mx r w c v0 v1 v2 ->
  assembled_v1_3d i0 j0 k0 i1 j1 k1 dx beta b0 b1 b2 alpha agcw a sgcw st offset fgcw f ms r c v0 v1 v2 ->
  solution ms (mkFa offset [(0, 2); (0, 6)]) (mkFa st ((0, 6) :: CELL3d i0 j0 k0 i1 j1 k1 sgcw)) 7 (mkFa f (CELL3d i0 j0 k0 i1 j1 k1 fgcw)) (at3 w) (in_box [(i0, i1); (j0, j1); (k0, k1)]))%Z.
Proof.
  intros i0 j0 k0 i1 j1 k1 dx beta b0 b1 b2 gcw u f0 f1 f2 alpha agcw a rgcw res sgcw st offset fgcw f mx ms r w c v0 v1 v2. intros Hbi Hbj Hbk Hop (Hg & Hap & m & Hf0 & Hf1 & Hf2 & Ha & Es & HT & Hf).
  apply bind_Some_inv in Es as (m1 & Eo1 & Ed). k_apart.
  destruct (offdiag_3d_at i0 j0 k0 i1 j1 k1 i0 j0 k0 i1 j1 k1 (dx : Z -> QcS) (beta : QcS) b0 b1 b2 sgcw st m m1 ltac:(k_rapart QcS_laws) ltac:(k_rapart QcS_laws) ltac:(k_rapart QcS_laws) ltac:(k_rapart QcS_laws) ltac:(k_rapart QcS_laws) Eo1) as (Vo & Fo).
  destruct (v1diag_3d_at QcS_laws i0 j0 k0 i1 j1 k1 (i0 - agcw) (j0 - agcw) (k0 - agcw) (i1 + agcw) (j1 + agcw) (k1 + agcw) (alpha : QcS) a sgcw st m1 ms ltac:(k_rapart QcS_laws) ltac:(k_rapart QcS_laws) ltac:(k_rapart QcS_laws) ltac:(k_rapart QcS_laws) ltac:(k_rapart QcS_laws) Ed) as (Vd & Fd). clear Eo1 Ed.
  assert (G : forall i j k, (i0 <= i <= i1)%Z -> (j0 <= j <= j1)%Z -> (k0 <= k <= k1)%Z ->
    exists w1 w2 w3 w4 w5 w6 e : Qc,
      fel (mkFa b0 (FACE3d0 i0 j0 k0 i1 j1 k1 0)) [(i)%Z; (j)%Z; (k)%Z] m = Some (w1 : QcS) /\ fel (mkFa b0 (FACE3d0 i0 j0 k0 i1 j1 k1 0)) [(i + 1)%Z; (j)%Z; (k)%Z] m = Some (w2 : QcS) /\ fel (mkFa b1 (FACE3d1 i0 j0 k0 i1 j1 k1 0)) [(j)%Z; (k)%Z; (i)%Z] m = Some (w3 : QcS) /\ fel (mkFa b1 (FACE3d1 i0 j0 k0 i1 j1 k1 0)) [(j + 1)%Z; (k)%Z; (i)%Z] m = Some (w4 : QcS) /\ fel (mkFa b2 (FACE3d2 i0 j0 k0 i1 j1 k1 0)) [(k)%Z; (i)%Z; (j)%Z] m = Some (w5 : QcS) /\ fel (mkFa b2 (FACE3d2 i0 j0 k0 i1 j1 k1 0)) [(k + 1)%Z; (i)%Z; (j)%Z] m = Some (w6 : QcS) /\
      fel (mkFa a (CELL3d i0 j0 k0 i1 j1 k1 agcw)) [i; j; k] m = Some (e : QcS) /\
      fel (mkFa st ((0, 6)%Z :: CELL3d i0 j0 k0 i1 j1 k1 sgcw)) (1%Z :: [i; j; k]) ms = Some (sdiv (s := QcS) (sneg (s := QcS) beta) (smul (s := QcS) (dx 0%Z) (dx 0%Z)) * w1 : QcS) /\ fel (mkFa st ((0, 6)%Z :: CELL3d i0 j0 k0 i1 j1 k1 sgcw)) (2%Z :: [i; j; k]) ms = Some (sdiv (s := QcS) (sneg (s := QcS) beta) (smul (s := QcS) (dx 0%Z) (dx 0%Z)) * w2 : QcS) /\ fel (mkFa st ((0, 6)%Z :: CELL3d i0 j0 k0 i1 j1 k1 sgcw)) (3%Z :: [i; j; k]) ms = Some (sdiv (s := QcS) (sneg (s := QcS) beta) (smul (s := QcS) (dx 1%Z) (dx 1%Z)) * w3 : QcS) /\ fel (mkFa st ((0, 6)%Z :: CELL3d i0 j0 k0 i1 j1 k1 sgcw)) (4%Z :: [i; j; k]) ms = Some (sdiv (s := QcS) (sneg (s := QcS) beta) (smul (s := QcS) (dx 1%Z) (dx 1%Z)) * w4 : QcS) /\ fel (mkFa st ((0, 6)%Z :: CELL3d i0 j0 k0 i1 j1 k1 sgcw)) (5%Z :: [i; j; k]) ms = Some (sdiv (s := QcS) (sneg (s := QcS) beta) (smul (s := QcS) (dx 2%Z) (dx 2%Z)) * w5 : QcS) /\ fel (mkFa st ((0, 6)%Z :: CELL3d i0 j0 k0 i1 j1 k1 sgcw)) (6%Z :: [i; j; k]) ms = Some (sdiv (s := QcS) (sneg (s := QcS) beta) (smul (s := QcS) (dx 2%Z) (dx 2%Z)) * w6 : QcS) /\
      fel (mkFa st ((0, 6)%Z :: CELL3d i0 j0 k0 i1 j1 k1 sgcw)) (0%Z :: [i; j; k]) ms = Some (alpha * e - qsum [sdiv (s := QcS) (sneg (s := QcS) beta) (smul (s := QcS) (dx 0%Z) (dx 0%Z)) * w1; sdiv (s := QcS) (sneg (s := QcS) beta) (smul (s := QcS) (dx 0%Z) (dx 0%Z)) * w2; sdiv (s := QcS) (sneg (s := QcS) beta) (smul (s := QcS) (dx 1%Z) (dx 1%Z)) * w3; sdiv (s := QcS) (sneg (s := QcS) beta) (smul (s := QcS) (dx 1%Z) (dx 1%Z)) * w4; sdiv (s := QcS) (sneg (s := QcS) beta) (smul (s := QcS) (dx 2%Z) (dx 2%Z)) * w5; sdiv (s := QcS) (sneg (s := QcS) beta) (smul (s := QcS) (dx 2%Z) (dx 2%Z)) * w6] : QcS)).
  { intros i j k Ii Ij Ik. specialize (Vo i j k ltac:(lia) ltac:(lia) ltac:(lia)). specialize (Vd i j k ltac:(lia) ltac:(lia) ltac:(lia)). subst_lets. k_open. unfold fel.
    do 7 eexists. repeat match goal with |- _ /\ _ => split end.
    all: k_close QcS_laws; try reflexivity; try eassumption.
    all: try (apply (f_equal (@Some Qc)); unfold qsum; change (sdiv (s := QcS)) with Qcdiv; unfold Qcdiv; change (sadd (s := QcS)) with Qcplus; change (smul (s := QcS)) with Qcmult; change (sneg (s := QcS)) with Qcopp; ring). }
  clear Vo Vd Fo Fd. intros c' Hc. repeat match goal with H : in_box _ _ |- _ => inversion_clear H | H : Forall2 _ _ _ |- _ => inversion_clear H end. cbn [fst snd] in * .
  match goal with |- context [fel _ (?pi :: ?pj :: ?pk ::  nil) _] => rename pi into i; rename pj into j; rename pk into k; idtac end.
  destruct (G i j k ltac:(assumption) ltac:(assumption) ltac:(assumption)) as (w1 & w2 & w3 & w4 & w5 & w6 & e & D1 & D2 & D3 & D4 & D5 & D6 & De & V1 & V2 & V3 & V4 & V5 & V6 & V0). clear G.
  pose proof (eq_trans (eq_sym (Hf0 i j k ltac:(lia) ltac:(lia) ltac:(lia))) D1) as J1. injection J1 as J1. rewrite <- J1 in * . clear J1 D1.
  pose proof (eq_trans (eq_sym (Hf0 (i + 1)%Z j k ltac:(lia) ltac:(lia) ltac:(lia))) D2) as J2. injection J2 as J2. rewrite <- J2 in * . clear J2 D2.
  pose proof (eq_trans (eq_sym (Hf1 i j k ltac:(lia) ltac:(lia) ltac:(lia))) D3) as J3. injection J3 as J3. rewrite <- J3 in * . clear J3 D3.
  pose proof (eq_trans (eq_sym (Hf1 i (j + 1)%Z k ltac:(lia) ltac:(lia) ltac:(lia))) D4) as J4. injection J4 as J4. rewrite <- J4 in * . clear J4 D4.
  pose proof (eq_trans (eq_sym (Hf2 i j k ltac:(lia) ltac:(lia) ltac:(lia))) D5) as J5. injection J5 as J5. rewrite <- J5 in * . clear J5 D5.
  pose proof (eq_trans (eq_sym (Hf2 i j (k + 1)%Z ltac:(lia) ltac:(lia) ltac:(lia))) D6) as J6. injection J6 as J6. rewrite <- J6 in * . clear J6 D6.
  pose proof (eq_trans (eq_sym (Ha i j k ltac:(lia) ltac:(lia) ltac:(lia))) De) as Je. injection Je as Je. rewrite <- Je in * . clear Je De.
  exists (r i j k), (r i j k). split; [apply Hf; lia|]. split; [|reflexivity].
  match type of V0 with _ = Some ?x0 => match type of V1 with _ = Some ?x1 => idtac end end.
  eapply (row_of_list ms _ _ _ _ _ (_ :: _ :: _ :: _ :: _ :: _ :: _ :: nil)); [exact HT|reflexivity|repeat constructor|reflexivity| |].
  { intros s e1 Hsv. destruct s as [|s]; [injection Hsv as <-; exact V0|]. destruct s as [|s]; [injection Hsv as <-; exact V1|]. destruct s as [|s]; [injection Hsv as <-; exact V2|]. destruct s as [|s]; [injection Hsv as <-; exact V3|]. destruct s as [|s]; [injection Hsv as <-; exact V4|]. destruct s as [|s]; [injection Hsv as <-; exact V5|]. destruct s as [|s]; [injection Hsv as <-; exact V6|]. destruct s; discriminate. }
  rewrite (val_v1_3d QcS_laws _ _ _ _ _ _ _ _ _ _ _ _ _ _ _ _ _ _ _ _ _ _ _ _ _ _ _ _ Hop i j k ltac:(k_near)).
  cbn [combine map qsum shifted fst snd at3]. rewrite ?Z.add_0_r. replace (i + -1)%Z with (i - 1)%Z by lia. replace (j + -1)%Z with (j - 1)%Z by lia. replace (k + -1)%Z with (k - 1)%Z by lia.
  qc_form. ring.
Qed.

Lemma solution_v2_3d : (forall i0 j0 k0 i1 j1 k1 (dx : Z -> Qc) (beta : Qc) b0 b1 b2 gcw u f0 f1 f2 (alpha : Qc) rgcw res sgcw st offset fgcw f (mx ms : mem QcS) (r w v0 v1 v2 : Z -> Z -> Z -> Qc),
  i0 <= i1 + 1 -> j0 <= j1 + 1 -> k0 <= k1 + 1 ->
  applied_v2_3d (S := QcS) i0 j0 k0 i1 j1 k1 dx beta b0 b1 b2 gcw u f0 f1 f2 alpha rgcw res mx r w v0 v1 v2 ->
  assembled_v2_3d i0 j0 k0 i1 j1 k1 dx beta b0 b1 b2 alpha sgcw st offset fgcw f ms r v0 v1 v2 ->
  solution ms (mkFa offset [(0, 2); (0, 6)]) (mkFa st ((0, 6) :: CELL3d i0 j0 k0 i1 j1 k1 sgcw)) 7 (mkFa f (CELL3d i0 j0 k0 i1 j1 k1 fgcw)) (at3 w) (in_box [(i0, i1); (j0, j1); (k0, k1)]))%Z.
Proof.
  intros i0 j0 k0 i1 j1 k1 dx beta b0 b1 b2 gcw u f0 f1 f2 alpha rgcw res sgcw st offset fgcw f mx ms r w v0 v1 v2. intros Hbi Hbj Hbk Hop (Hg & Hap & m & Hf0 & Hf1 & Hf2 & Es & HT & Hf).
  apply bind_Some_inv in Es as (m1 & Eo1 & Ed). k_apart.
  destruct (offdiag_3d_at i0 j0 k0 i1 j1 k1 i0 j0 k0 i1 j1 k1 (dx : Z -> QcS) (beta : QcS) b0 b1 b2 sgcw st m m1 ltac:(k_rapart QcS_laws) ltac:(k_rapart QcS_laws) ltac:(k_rapart QcS_laws) ltac:(k_rapart QcS_laws) ltac:(k_rapart QcS_laws) Eo1) as (Vo & Fo).
  destruct (v2diag_3d_at QcS_laws i0 j0 k0 i1 j1 k1 (alpha : QcS) sgcw st m1 ms ltac:(k_rapart QcS_laws) ltac:(k_rapart QcS_laws) ltac:(k_rapart QcS_laws) ltac:(k_rapart QcS_laws) Ed) as (Vd & Fd). clear Eo1 Ed.
  assert (G : forall i j k, (i0 <= i <= i1)%Z -> (j0 <= j <= j1)%Z -> (k0 <= k <= k1)%Z ->
    exists w1 w2 w3 w4 w5 w6 e : Qc,
      fel (mkFa b0 (FACE3d0 i0 j0 k0 i1 j1 k1 0)) [(i)%Z; (j)%Z; (k)%Z] m = Some (w1 : QcS) /\ fel (mkFa b0 (FACE3d0 i0 j0 k0 i1 j1 k1 0)) [(i + 1)%Z; (j)%Z; (k)%Z] m = Some (w2 : QcS) /\ fel (mkFa b1 (FACE3d1 i0 j0 k0 i1 j1 k1 0)) [(j)%Z; (k)%Z; (i)%Z] m = Some (w3 : QcS) /\ fel (mkFa b1 (FACE3d1 i0 j0 k0 i1 j1 k1 0)) [(j + 1)%Z; (k)%Z; (i)%Z] m = Some (w4 : QcS) /\ fel (mkFa b2 (FACE3d2 i0 j0 k0 i1 j1 k1 0)) [(k)%Z; (i)%Z; (j)%Z] m = Some (w5 : QcS) /\ fel (mkFa b2 (FACE3d2 i0 j0 k0 i1 j1 k1 0)) [(k + 1)%Z; (i)%Z; (j)%Z] m = Some (w6 : QcS) /\
      e = alpha /\
      fel (mkFa st ((0, 6)%Z :: CELL3d i0 j0 k0 i1 j1 k1 sgcw)) (1%Z :: [i; j; k]) ms = Some (sdiv (s := QcS) (sneg (s := QcS) beta) (smul (s := QcS) (dx 0%Z) (dx 0%Z)) * w1 : QcS) /\ fel (mkFa st ((0, 6)%Z :: CELL3d i0 j0 k0 i1 j1 k1 sgcw)) (2%Z :: [i; j; k]) ms = Some (sdiv (s := QcS) (sneg (s := QcS) beta) (smul (s := QcS) (dx 0%Z) (dx 0%Z)) * w2 : QcS) /\ fel (mkFa st ((0, 6)%Z :: CELL3d i0 j0 k0 i1 j1 k1 sgcw)) (3%Z :: [i; j; k]) ms = Some (sdiv (s := QcS) (sneg (s := QcS) beta) (smul (s := QcS) (dx 1%Z) (dx 1%Z)) * w3 : QcS) /\ fel (mkFa st ((0, 6)%Z :: CELL3d i0 j0 k0 i1 j1 k1 sgcw)) (4%Z :: [i; j; k]) ms = Some (sdiv (s := QcS) (sneg (s := QcS) beta) (smul (s := QcS) (dx 1%Z) (dx 1%Z)) * w4 : QcS) /\ fel (mkFa st ((0, 6)%Z :: CELL3d i0 j0 k0 i1 j1 k1 sgcw)) (5%Z :: [i; j; k]) ms = Some (sdiv (s := QcS) (sneg (s := QcS) beta) (smul (s := QcS) (dx 2%Z) (dx 2%Z)) * w5 : QcS) /\ fel (mkFa st ((0, 6)%Z :: CELL3d i0 j0 k0 i1 j1 k1 sgcw)) (6%Z :: [i; j; k]) ms = Some (sdiv (s := QcS) (sneg (s := QcS) beta) (smul (s := QcS) (dx 2%Z) (dx 2%Z)) * w6 : QcS) /\
      fel (mkFa st ((0, 6)%Z :: CELL3d i0 j0 k0 i1 j1 k1 sgcw)) (0%Z :: [i; j; k]) ms = Some (e - qsum [sdiv (s := QcS) (sneg (s := QcS) beta) (smul (s := QcS) (dx 0%Z) (dx 0%Z)) * w1; sdiv (s := QcS) (sneg (s := QcS) beta) (smul (s := QcS) (dx 0%Z) (dx 0%Z)) * w2; sdiv (s := QcS) (sneg (s := QcS) beta) (smul (s := QcS) (dx 1%Z) (dx 1%Z)) * w3; sdiv (s := QcS) (sneg (s := QcS) beta) (smul (s := QcS) (dx 1%Z) (dx 1%Z)) * w4; sdiv (s := QcS) (sneg (s := QcS) beta) (smul (s := QcS) (dx 2%Z) (dx 2%Z)) * w5; sdiv (s := QcS) (sneg (s := QcS) beta) (smul (s := QcS) (dx 2%Z) (dx 2%Z)) * w6] : QcS)).
  { intros i j k Ii Ij Ik. specialize (Vo i j k ltac:(lia) ltac:(lia) ltac:(lia)). specialize (Vd i j k ltac:(lia) ltac:(lia) ltac:(lia)). subst_lets. k_open. unfold fel.
    do 7 eexists. repeat match goal with |- _ /\ _ => split end.
    all: k_close QcS_laws; try reflexivity; try eassumption.
    all: try (apply (f_equal (@Some Qc)); unfold qsum; change (sdiv (s := QcS)) with Qcdiv; unfold Qcdiv; change (sadd (s := QcS)) with Qcplus; change (smul (s := QcS)) with Qcmult; change (sneg (s := QcS)) with Qcopp; ring). }
  clear Vo Vd Fo Fd. intros c' Hc. repeat match goal with H : in_box _ _ |- _ => inversion_clear H | H : Forall2 _ _ _ |- _ => inversion_clear H end. cbn [fst snd] in * .
  match goal with |- context [fel _ (?pi :: ?pj :: ?pk ::  nil) _] => rename pi into i; rename pj into j; rename pk into k; idtac end.
  destruct (G i j k ltac:(assumption) ltac:(assumption) ltac:(assumption)) as (w1 & w2 & w3 & w4 & w5 & w6 & e & D1 & D2 & D3 & D4 & D5 & D6 & De & V1 & V2 & V3 & V4 & V5 & V6 & V0). clear G.
  pose proof (eq_trans (eq_sym (Hf0 i j k ltac:(lia) ltac:(lia) ltac:(lia))) D1) as J1. injection J1 as J1. rewrite <- J1 in * . clear J1 D1.
  pose proof (eq_trans (eq_sym (Hf0 (i + 1)%Z j k ltac:(lia) ltac:(lia) ltac:(lia))) D2) as J2. injection J2 as J2. rewrite <- J2 in * . clear J2 D2.
  pose proof (eq_trans (eq_sym (Hf1 i j k ltac:(lia) ltac:(lia) ltac:(lia))) D3) as J3. injection J3 as J3. rewrite <- J3 in * . clear J3 D3.
  pose proof (eq_trans (eq_sym (Hf1 i (j + 1)%Z k ltac:(lia) ltac:(lia) ltac:(lia))) D4) as J4. injection J4 as J4. rewrite <- J4 in * . clear J4 D4.
  pose proof (eq_trans (eq_sym (Hf2 i j k ltac:(lia) ltac:(lia) ltac:(lia))) D5) as J5. injection J5 as J5. rewrite <- J5 in * . clear J5 D5.
  pose proof (eq_trans (eq_sym (Hf2 i j (k + 1)%Z ltac:(lia) ltac:(lia) ltac:(lia))) D6) as J6. injection J6 as J6. rewrite <- J6 in * . clear J6 D6.
  rewrite De in V0. clear De.
  exists (r i j k), (r i j k). split; [apply Hf; lia|]. split; [|reflexivity].
  match type of V0 with _ = Some ?x0 => match type of V1 with _ = Some ?x1 => idtac end end.
  eapply (row_of_list ms _ _ _ _ _ (_ :: _ :: _ :: _ :: _ :: _ :: _ :: nil)); [exact HT|reflexivity|repeat constructor|reflexivity| |].
  { intros s e1 Hsv. destruct s as [|s]; [injection Hsv as <-; exact V0|]. destruct s as [|s]; [injection Hsv as <-; exact V1|]. destruct s as [|s]; [injection Hsv as <-; exact V2|]. destruct s as [|s]; [injection Hsv as <-; exact V3|]. destruct s as [|s]; [injection Hsv as <-; exact V4|]. destruct s as [|s]; [injection Hsv as <-; exact V5|]. destruct s as [|s]; [injection Hsv as <-; exact V6|]. destruct s; discriminate. }
  rewrite (val_v2_3d QcS_laws _ _ _ _ _ _ _ _ _ _ _ _ _ _ _ _ _ _ _ _ _ _ _ _ _ Hop i j k ltac:(k_near)).
  cbn [combine map qsum shifted fst snd at3]. rewrite ?Z.add_0_r. replace (i + -1)%Z with (i - 1)%Z by lia. replace (j + -1)%Z with (j - 1)%Z by lia. replace (k + -1)%Z with (k - 1)%Z by lia.
  qc_form. ring.
Qed.
