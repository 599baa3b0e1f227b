(** * The Poisson problem: repeated sweeps

    The error is measured against the parabola that vanishes one cell outside the patch
    in the first direction. *)

From Coq Require Import Field QArith Qcanon Qcabs Lqa.
From Verif Require Import Base ModelBounds ModelMatrix ModelIters ModelSpan ModelProxy Spec SpecIter ModelSched
  LemBase LemDomain LemExpr LemExec SpecAssign LemAssign LemProps LemProps4 SpecWindow LemWindow LemWindow2
  FortranBase FortranSmooth SpecKernel Instances LemField LemKernel LemKernel2 LemBC LemHomog KernelNotations
  KernelsFlux KernelsApply KernelsStencil LemStencil LemRow LemValues1 LemValues2 LemValues3
  SpecRow SpecSmooth SpecConverge LemCells LemSmoothFinal LemSmoothRefute LemRound LemConverge LemConverge3 LemConverge4 LemConverge5
  SpecRelax LemRelax LemRelax2 SpecPoisson LemWeighted LemWeighted2 LemConvergeCase.
Import ListNotations.
Open Scope Qc_scope.

Definition zq (z : Z) : Qc := Q2Qc (inject_Z z).

Lemma zq_add a b : zq (a + b) = zq a + zq b.
Proof. apply Qc_is_canon. unfold zq, Qcplus, Q2Qc. cbn [this]. rewrite !Qred_correct, inject_Z_plus. reflexivity. Qed.
Lemma zq_mul a b : zq (a * b) = zq a * zq b.
Proof. apply Qc_is_canon. unfold zq, Qcmult, Q2Qc. cbn [this]. rewrite !Qred_correct, inject_Z_mult. reflexivity. Qed.
Lemma zq_le a b : (a <= b)%Z -> zq a <= zq b.
Proof. intros H. unfold Qcle, zq, Q2Qc. cbn [this]. rewrite !Qred_correct. rewrite <- Zle_Qle. exact H. Qed.
Lemma zq_0 : zq 0 = 0. Proof. apply Qc_is_canon. reflexivity. Qed.
Lemma zq_1 : zq 1 = 1. Proof. apply Qc_is_canon. reflexivity. Qed.

(** ** The weight *)
Definition par (a b i : Z) : Qc := if ((a - 1 <=? i) && (i <=? b + 1))%Z then zq ((i - a + 1) * (b + 1 - i)) else 0.
Definition wgt (a b : Z) (c : list Z) : Qc := match c with i :: _ => par a b i | [] => 0 end.

Lemma par_in a b i : (a - 1 <= i <= b + 1)%Z -> par a b i = zq ((i - a + 1) * (b + 1 - i)).
Proof. intros H. unfold par. destruct (Z.leb_spec (a - 1) i), (Z.leb_spec i (b + 1)); try lia. reflexivity. Qed.
Lemma par_nonneg a b i : 0 <= par a b i.
Proof.
  unfold par. destruct (Z.leb_spec (a - 1) i), (Z.leb_spec i (b + 1)); cbn [andb]; try apply Qcle_refl.
  rewrite <- zq_0. apply zq_le. apply Z.mul_nonneg_nonneg; lia.
Qed.
Lemma wgt_nonneg a b c : 0 <= wgt a b c.
Proof. destruct c; [apply Qcle_refl|apply par_nonneg]. Qed.
Lemma par_around a b i : (a <= i <= b)%Z -> par a b (i + -1) + par a b (i + 1) = par a b i + par a b i - (1 + 1).
Proof.
  intros H. rewrite !par_in by lia. rewrite <- zq_1, <- zq_add.
  replace ((i + -1 - a + 1) * (b + 1 - (i + -1)) + (i + 1 - a + 1) * (b + 1 - (i + 1)))%Z with
    ((i - a + 1) * (b + 1 - i) + (i - a + 1) * (b + 1 - i) + - (2))%Z by ring.
  rewrite !zq_add. replace (zq (- (2))) with (- (zq 1 + zq 1)) by (apply Qc_is_canon; reflexivity). ring.
Qed.
Lemma par_ge a b i : (a <= i <= b)%Z -> 1 <= par a b i.
Proof. intros H. rewrite par_in by lia. rewrite <- zq_1. apply zq_le. nia. Qed.
Lemma par_le a b i : (a <= i <= b)%Z -> Q2Qc 4 * par a b i <= cells_in a b * cells_in a b.
Proof.
  intros H. rewrite par_in by lia. change (Q2Qc 4) with (zq 4). unfold cells_in. fold (zq (b - a + 2)).
  rewrite <- !zq_mul. apply zq_le. assert (S := Z.square_nonneg ((i - a + 1) - (b + 1 - i))). lia.
Qed.
Lemma cells_in_ge a b : (a <= b)%Z -> 1 + 1 <= cells_in a b.
Proof. intros H. unfold cells_in. fold (zq (b - a + 2)). rewrite <- zq_1, <- zq_add. apply zq_le. lia. Qed.

(** ** The factor *)
Lemma inv_square_pos (h : Qc) : h <> 0 -> 0 < 1 / (h * h).
Proof.
  intros H. unfold Qcdiv. rewrite Qcmult_1_l. apply Qcinv_pos.
  destruct (Qclt_le_dec 0 h) as [P|N].
  - rewrite <- (Qcmult_0_l h). apply Qcmult_lt_compat_r; assumption.
  - assert (0 < - h). { apply Qcle_lt_or_eq in N as [N|N]; [qc_lra|contradiction]. }
    replace (h * h) with (- h * - h) by ring. rewrite <- (Qcmult_0_l (- h)). apply Qcmult_lt_compat_r; assumption.
Qed.

Section Factor.
  Context (M g rest : Qc) (HM : 1 + 1 <= M) (Hg : 0 < g) (Hr : 0 <= rest).
  Let q := 1 - Q2Qc 4 / (M * M) * (g / (g + rest)).

  Let NM : M * M <> 0.
  Proof. intros E. assert (M * M >= (1 + 1) * (1 + 1)) by qc_nra. rewrite E in H. qc_lra. Qed.
  Let PM : 0 < M * M.
  Proof. qc_nra. Qed.
  Let PG : 0 < g + rest.
  Proof. qc_lra. Qed.
  Let NG : g + rest <> 0.
  Proof. intros E. rewrite E in PG. qc_lra. Qed.

  Lemma factor_le : q <= 1.
  Proof.
    unfold q. assert (0 <= Q2Qc 4 / (M * M) * (g / (g + rest))); [|qc_lra].
    unfold Qcdiv. assert (A := Qcinv_pos _ PM). assert (B := Qcinv_pos _ PG).
    apply Qcmul_nonneg; apply Qcmul_nonneg; try (apply Qclt_le_weak; assumption). vm_compute; discriminate.
  Qed.

  Lemma factor_lt : q < 1.
  Proof.
    unfold q. assert (0 < Q2Qc 4 / (M * M) * (g / (g + rest))); [|qc_lra].
    unfold Qcdiv. assert (A := Qcinv_pos _ PM). assert (B := Qcinv_pos _ PG).
    assert (C1 : 0 < Q2Qc 4 * / (M * M)) by (rewrite <- (Qcmult_0_l (/ (M * M))); apply Qcmult_lt_compat_r; [exact A|reflexivity]).
    assert (C2 : 0 < g * / (g + rest)) by (rewrite <- (Qcmult_0_l (/ (g + rest))); apply Qcmult_lt_compat_r; assumption).
    rewrite <- (Qcmult_0_l (g * / (g + rest))). apply Qcmult_lt_compat_r; assumption.
  Qed.

  Lemma factor_nonneg : 0 <= q.
  Proof.
    assert (A := Qcinv_pos _ PM). assert (B := Qcinv_pos _ PG).
    assert (C1 : Q2Qc 4 / (M * M) <= 1).
    { unfold Qcdiv. rewrite <- (Qcmult_inv_r (M * M) NM). apply Qcmult_le_compat_r; [|apply Qclt_le_weak; exact A].
      replace (Q2Qc 4) with ((1 + 1) * (1 + 1)) by (apply Qc_is_canon; reflexivity). qc_nra. }
    assert (C2 : g / (g + rest) <= 1).
    { unfold Qcdiv. rewrite <- (Qcmult_inv_r (g + rest) NG). apply Qcmult_le_compat_r; [|apply Qclt_le_weak; exact B]. qc_lra. }
    assert (P1 : 0 <= g / (g + rest)) by (apply Qcmul_nonneg; apply Qclt_le_weak; assumption).
    unfold q. set (t1 := Q2Qc 4 / (M * M)) in * . set (t2 := g / (g + rest)) in * .
    assert (t1 * t2 <= 1 * t2) by (apply Qcmult_le_compat_r; assumption). qc_lra.
  Qed.

  Lemma factor_row beta p : 0 < beta -> Q2Qc 4 * p <= M * M ->
    beta * g * (p + p - (1 + 1)) + beta * rest * (p + p) <= q * ((1 + 1) * beta * (g + rest)) * p.
  Proof.
    intros Hb Hp. assert (A := Qcinv_pos _ PM).
    assert (C : Q2Qc 4 * p * / (M * M) <= 1).
    { rewrite <- (Qcmult_inv_r (M * M) NM). apply Qcmult_le_compat_r; [exact Hp|apply Qclt_le_weak; exact A]. }
    replace (q * ((1 + 1) * beta * (g + rest)) * p) with ((1 + 1) * beta * (g + rest) * p - (1 + 1) * (beta * g) * (Q2Qc 4 * p * / (M * M))).
    2:{ unfold q. field. split; [exact NG|]. intros E. apply NM. rewrite E. ring. }
    set (t := Q2Qc 4 * p * / (M * M)) in * .
    assert (0 < beta * g). { rewrite <- (Qcmult_0_l g). apply Qcmult_lt_compat_r; assumption. }
    assert (t * (beta * g) <= 1 * (beta * g)) by (apply Qcmult_le_compat_r; [exact C|apply Qclt_le_weak; assumption]).
    replace (beta * g * (p + p - (1 + 1)) + beta * rest * (p + p)) with ((1 + 1) * beta * (g + rest) * p - (1 + 1) * (1 * (beta * g))) by ring.
    replace ((1 + 1) * (beta * g) * t) with ((1 + 1) * (t * (beta * g))) by ring. qc_lra.
  Qed.
End Factor.

Lemma entry_abs (beta h : Qc) : 0 < beta -> Qcabs (sdiv (s := QcS) (sneg (s := QcS) beta) (smul (s := QcS) h h)) = beta * (1 / (h * h)).
Proof.
  intros H. change (Qcabs (- beta / (h * h)) = beta * (1 / (h * h))). replace (- beta / (h * h)) with (- (beta * (1 / (h * h)))) by (unfold Qcdiv; ring).
  rewrite Qcabs_opp. apply Qcabs_pos. apply Qcmul_nonneg; [apply Qclt_le_weak; exact H|]. unfold Qcdiv. rewrite Qcmult_1_l. apply square_inv_nonneg.
Qed.

Lemma double_pos (beta g rest : Qc) : 0 < beta -> 0 < g -> 0 <= rest -> 0 < (1 + 1) * beta * (g + rest).
Proof.
  intros Hb Hg Hr. assert (P1 : 0 < g + rest) by qc_lra. rewrite <- (Qcmult_0_l (g + rest)). apply Qcmult_lt_compat_r; [exact P1|]. qc_lra.
Qed.

Lemma blend_nonneg (w q : Qc) : 0 <= w -> w <= 1 -> 0 <= q -> 0 <= 1 - w + w * q.
Proof. intros H0 H1 Hq. assert (0 <= w * q) by (apply Qcmul_nonneg; assumption). qc_lra. Qed.

(** From the weighted to the plain bound. *)
Lemma weigh (m : mem QcS) u x a b E bs : 0 <= E -> (forall c, in_box bs c -> 1 <= wgt a b c) -> within m u x E (in_box bs) -> wwithin m u x (wgt a b) E (in_box bs).
Proof.
  intros HE H W c Hc. destruct (W c Hc) as (y & Ey & Hy). exists y. split; [exact Ey|]. eapply Qcle_trans; [exact Hy|].
  rewrite <- (Qcmult_1_r E) at 1. rewrite !(Qcmult_comm E). apply Qcmult_le_compat_r; [apply H; exact Hc|exact HE].
Qed.
Lemma unweigh (m : mem QcS) u x a b q n E bs : 0 <= q -> 0 <= E ->
  (forall c, in_box bs c -> Q2Qc 4 * wgt a b c <= cells_in a b * cells_in a b) -> wwithin m u x (wgt a b) (q ^ n * E) (in_box bs) ->
  within m u x (q ^ n * (cells_in a b * cells_in a b / Q2Qc 4 * E)) (in_box bs).
Proof.
  intros Hq HE H W c Hc. destruct (W c Hc) as (y & Ey & Hy). exists y. split; [exact Ey|]. eapply Qcle_trans; [exact Hy|].
  specialize (H c Hc). set (p := wgt a b c) in * . set (M := cells_in a b * cells_in a b) in * .
  assert (P := Qcpow_nonneg q n Hq). assert (PE := Qcmul_nonneg _ _ P HE).
  replace (q ^ n * (M / Q2Qc 4 * E)) with (M / Q2Qc 4 * (q ^ n * E)) by ring. rewrite (Qcmult_comm _ p).
  apply Qcmult_le_compat_r; [|exact PE]. replace p with (Q2Qc 4 * p * / Q2Qc 4) by (field; discriminate).
  apply Qcmult_le_compat_r; [exact H|vm_compute; discriminate].
Qed.

(** ** 1D *)
Lemma poisson_ready_1d : forall i0 i1 (dx : Z -> Qc) (beta : Qc) gcw u sgcw st offset fgcw f (ms : mem QcS) (w : Z -> Qc),
  (i0 <= i1)%Z -> (1 <= gcw)%Z -> 0 < beta -> dx 0%Z <> 0 ->
  poisson_system_1d i0 i1 dx beta sgcw st offset fgcw f ms w ->
  solution ms (mkFa offset [(0, 0); (0, 2)]%Z) (mkFa st ((0, 2)%Z :: CELL1d i0 i1 sgcw)) 3 (mkFa f (CELL1d i0 i1 fgcw)) (at1 w) (in_box [(i0, i1)]) /\
  fits ms (mkFa offset [(0, 0); (0, 2)]%Z) 3 (mkFa u (CELL1d i0 i1 gcw)) [(i0, i1)] /\
  wdominant ms (mkFa offset [(0, 0); (0, 2)]%Z) (mkFa st ((0, 2)%Z :: CELL1d i0 i1 sgcw)) 3 (wgt i0 i1) (poisson_rate_1d i0 i1) (in_box [(i0, i1)]) /\
  0 <= poisson_rate_1d i0 i1 /\ poisson_rate_1d i0 i1 <= 1.
Proof.
  intros i0 i1 dx beta gcw u sgcw st offset fgcw f ms w Hbi Hgcw Hbeta Hd0 (Hg & (m & Es) & HT & Hf).
  apply bind_Some_inv in Es as (m1 & Eo1 & Ed).
  destruct (poisson_offdiag_1d_at i0 i1 (dx : Z -> QcS) (beta : QcS) sgcw st m m1 ltac:(k_rapart QcS_laws) ltac:(k_rapart QcS_laws) Eo1) as (Vo & Fo).
  destruct (poisson_diag_1d_at QcS_laws i0 i1 sgcw st m1 ms ltac:(k_rapart QcS_laws) ltac:(k_rapart QcS_laws) Ed) as (Vd & Fd). clear Eo1 Ed.
  assert (G : forall i, (i0 <= i <= i1)%Z ->
    fel (mkFa st ((0, 2)%Z :: CELL1d i0 i1 sgcw)) (1%Z :: [i]) ms = Some (sdiv (s := QcS) (sneg (s := QcS) beta) (smul (s := QcS) (dx 0%Z) (dx 0%Z)) : QcS) /\ fel (mkFa st ((0, 2)%Z :: CELL1d i0 i1 sgcw)) (2%Z :: [i]) ms = Some (sdiv (s := QcS) (sneg (s := QcS) beta) (smul (s := QcS) (dx 0%Z) (dx 0%Z)) : QcS) /\
    fel (mkFa st ((0, 2)%Z :: CELL1d i0 i1 sgcw)) (0%Z :: [i]) ms = Some (- qsum [sdiv (s := QcS) (sneg (s := QcS) beta) (smul (s := QcS) (dx 0%Z) (dx 0%Z)); sdiv (s := QcS) (sneg (s := QcS) beta) (smul (s := QcS) (dx 0%Z) (dx 0%Z))] : QcS)).
  { intros i Ii. specialize (Vo i ltac:(lia)). specialize (Vd i ltac:(lia)). subst_lets. k_open. unfold fel.
    repeat match goal with |- _ /\ _ => split end.
    all: k_close QcS_laws; try reflexivity; try eassumption.
    all: try (apply (f_equal (@Some Qc)); unfold qsum; change (sdiv (s := QcS)) with Qcdiv; unfold Qcdiv; change (sadd (s := QcS)) with Qcplus; change (smul (s := QcS)) with Qcmult; change (sneg (s := QcS)) with Qcopp; ring). }
  clear Vo Vd Fo Fd.
  assert (G0 := inv_square_pos (dx 0%Z) Hd0).
  assert (HM := cells_in_ge i0 i1 Hbi).
  assert (Hrest : 0 <= 0) by apply Qcle_refl.
  assert (Rate : poisson_rate_1d i0 i1 = 1 - Q2Qc 4 / (cells_in i0 i1 * cells_in i0 i1) * ((1 / (dx 0%Z * dx 0%Z)) / ((1 / (dx 0%Z * dx 0%Z)) + 0))) by (unfold poisson_rate_1d; rewrite Qcplus_0_r; unfold Qcdiv at 3; rewrite Qcmult_inv_r by (intros E0; rewrite E0 in G0; discriminate); rewrite Qcmult_1_r; reflexivity).
  split; [|split; [|split; [|split]]].
  - intros c' Hc. repeat match goal with H : in_box _ _ |- _ => inversion_clear H | H : Forall2 _ _ _ |- _ => inversion_clear H end. cbn [fst snd] in * .
    match goal with |- context [fel _ (?pi ::  nil) _] => rename pi into i; idtac end.
    destruct (G i ltac:(assumption)) as (V1 & V2 & V0). clear G.
    exists (laplace_1d dx beta w i), (laplace_1d dx beta w i). split; [apply Hf; lia|]. split; [|reflexivity].
    eapply (row_of_list ms _ _ _ _ _ (_ :: _ :: _ :: nil)); [exact HT|reflexivity|repeat constructor|reflexivity| |].
    { intros s e1 Hsv. destruct s as [|s]; [injection Hsv as <-; exact V0|]. destruct s as [|s]; [injection Hsv as <-; exact V1|]. destruct s as [|s]; [injection Hsv as <-; exact V2|]. destruct s; discriminate. }
    cbn [combine map qsum shifted fst snd at1]. rewrite ?Z.add_0_r. replace (i + -1)%Z with (i - 1)%Z by lia.
    unfold laplace_1d. qc_form. ring.
  - apply (fits_of_table ms _ _ (mkFa u (CELL1d i0 i1 gcw)) [(i0, i1)] gcw HT (Nat.lt_0_succ _) columns_1 eq_refl Hgcw eq_refl _ eq_refl).
  - intros c' Hc. repeat match goal with H : in_box _ _ |- _ => inversion_clear H | H : Forall2 _ _ _ |- _ => inversion_clear H end. cbn [fst snd] in * .
    match goal with |- context [fel _ (_ :: ?pi ::  nil) _] => rename pi into i; idtac end.
    destruct (G i ltac:(assumption)) as (V1 & V2 & V0). clear G.
    exists (- qsum [sdiv (s := QcS) (sneg (s := QcS) beta) (smul (s := QcS) (dx 0%Z) (dx 0%Z)); sdiv (s := QcS) (sneg (s := QcS) beta) (smul (s := QcS) (dx 0%Z) (dx 0%Z))]), (fun s => nth (Z.to_nat (s - 1)) [sdiv (s := QcS) (sneg (s := QcS) beta) (smul (s := QcS) (dx 0%Z) (dx 0%Z)); sdiv (s := QcS) (sneg (s := QcS) beta) (smul (s := QcS) (dx 0%Z) (dx 0%Z))] 0), (fun s => nth (Z.to_nat (s - 1)) [wgt i0 i1 (shifted [i] ((-1)%Z :: nil)); wgt i0 i1 (shifted [i] ((1)%Z :: nil))] 0).
    split; [exact V0|].
    assert (Ea : - qsum [sdiv (s := QcS) (sneg (s := QcS) beta) (smul (s := QcS) (dx 0%Z) (dx 0%Z)); sdiv (s := QcS) (sneg (s := QcS) beta) (smul (s := QcS) (dx 0%Z) (dx 0%Z))] = (1 + 1) * beta * ((1 / (dx 0%Z * dx 0%Z)) + 0)) by (cbn [qsum]; change (sdiv (s := QcS)) with Qcdiv; change (smul (s := QcS)) with Qcmult; change (sneg (s := QcS)) with Qcopp; unfold Qcdiv; ring).
    assert (Pa := double_pos beta (1 / (dx 0%Z * dx 0%Z)) 0 Hbeta G0 Hrest).
    rewrite Ea. split; [intros E0; rewrite E0 in Pa; discriminate|]. split.
    { intros s Hss. assert (Hcase : (s = 1 \/ s = 2)%Z) by lia. destruct Hcase as [-> | ->].
      all: split; [assumption|]; eexists; (split; [eapply (table_shifted ms _ _ _ _ _ HT); [reflexivity|lia|reflexivity]|reflexivity]). }
    rewrite (Qcabs_pos (_ * _ * _)) by (apply Qclt_le_weak; exact Pa). rewrite Rate.
    change (Qcabs (sdiv (s := QcS) (sneg (s := QcS) beta) (smul (s := QcS) (dx 0%Z) (dx 0%Z))) * par i0 i1 (i + -1) + (Qcabs (sdiv (s := QcS) (sneg (s := QcS) beta) (smul (s := QcS) (dx 0%Z) (dx 0%Z))) * par i0 i1 (i + 1) + (0)) <= (1 - Q2Qc 4 / (cells_in i0 i1 * cells_in i0 i1) * ((1 / (dx 0%Z * dx 0%Z)) / ((1 / (dx 0%Z * dx 0%Z)) + 0))) * ((1 + 1) * beta * ((1 / (dx 0%Z * dx 0%Z)) + 0)) * par i0 i1 i).
    rewrite !entry_abs by exact Hbeta. rewrite ?Z.add_0_r.
    eapply Qcle_trans; [|exact (factor_row _ _ _ HM G0 Hrest beta _ Hbeta (par_le i0 i1 i ltac:(assumption)))].
    rewrite <- (par_around i0 i1 i) by assumption. match goal with |- ?a <= ?b => replace a with b by ring end. apply Qcle_refl.
  - rewrite Rate. apply factor_nonneg; assumption.
  - rewrite Rate. apply factor_le; assumption.
Qed.

Lemma poisson_gs_1d : (forall i0 i1 (dx : Z -> Qc) (beta : Qc) gcw u sgcw st offset fgcw f (ms : mem QcS) (w : Z -> Qc) (E : Qc) (n : nat) (m : mem QcS),
  i0 <= i1 -> 1 <= gcw -> fst u <> fst st -> fst u <> fst f -> fgcw = gcw ->
  (0 < beta)%Qc -> dx 0%Z <> 0%Qc ->
  poisson_system_1d i0 i1 dx beta sgcw st offset fgcw f ms w ->
  equals ms (mkFa u (CELL1d i0 i1 gcw)) (at1 w) (around (mkFa u (CELL1d i0 i1 gcw)) [(i0, i1)]) ->
  (0 <= E)%Qc -> within ms (mkFa u (CELL1d i0 i1 gcw)) (at1 w) E (in_box [(i0, i1)]) ->
  repeated n (cellgs1d i0 i1 3 offset (i0 - sgcw) (i1 + sgcw) st (i0 - fgcw) (i1 + fgcw) f (i0 - gcw) (i1 + gcw) u) ms = Some m ->
  within m (mkFa u (CELL1d i0 i1 gcw)) (at1 w) (poisson_rate_1d i0 i1 ^ n * (cells_in i0 i1 * cells_in i0 i1 / Q2Qc 4 * E))%Qc (in_box [(i0, i1)]))%Z.
Proof.
  intros i0 i1 dx beta gcw u sgcw st offset fgcw f ms w E n m Hbi Hgcw P0 P1 P2 Hbeta Hd0 Has Heq HE Hw Hrep.
  destruct (poisson_ready_1d i0 i1 dx beta gcw u sgcw st offset fgcw f ms w Hbi Hgcw Hbeta Hd0 Has) as (Sol & Fit & Dom & L0 & L1).
  assert (C := cellgs1d_wconverges i0 i1 3%Z offset (i0 - sgcw)%Z (i1 + sgcw)%Z st (i0 - fgcw)%Z (i1 + fgcw)%Z f (i0 - gcw)%Z (i1 + gcw)%Z u ms P0 P1 ltac:(rewrite P2; reflexivity)).
  rewrite !cell_bounds_1 in C.
  apply (unweigh m _ _ i0 i1); [exact L0|exact HE| |].
  { intros c Hc. inversion_clear Hc. cbn [wgt fst snd] in * . apply par_le. assumption. }
  refine (C (at1 w) (wgt i0 i1) (poisson_rate_1d i0 i1) E n m Fit (wgt_nonneg i0 i1) Dom L0 L1 Sol Heq HE _ Hrep).
  apply weigh; [exact HE| |exact Hw]. intros c Hc. inversion_clear Hc. cbn [wgt fst snd] in * . apply par_ge. assumption.
Qed.

Lemma poisson_rb_1d : (forall i0 i1 (dx : Z -> Qc) (beta : Qc) gcw u sgcw st offset fgcw f (ms : mem QcS) (w : Z -> Qc) (c1 c2 : Z) (E : Qc) (n : nat) (m : mem QcS),
  i0 <= i1 -> 1 <= gcw -> 0 <= c1 -> 0 <= c2 -> Z.odd (c1 + c2) = true -> fst u <> fst st -> fst u <> fst f ->
  (0 < beta)%Qc -> dx 0%Z <> 0%Qc ->
  poisson_system_1d i0 i1 dx beta sgcw st offset fgcw f ms w ->
  equals ms (mkFa u (CELL1d i0 i1 gcw)) (at1 w) (around (mkFa u (CELL1d i0 i1 gcw)) [(i0, i1)]) ->
  (0 <= E)%Qc -> within ms (mkFa u (CELL1d i0 i1 gcw)) (at1 w) E (in_box [(i0, i1)]) ->
  repeated n (twice (cellrbgs1d i0 i1 c1 3 offset (i0 - sgcw) (i1 + sgcw) st (i0 - fgcw) (i1 + fgcw) f (i0 - gcw) (i1 + gcw) u)
     (cellrbgs1d i0 i1 c2 3 offset (i0 - sgcw) (i1 + sgcw) st (i0 - fgcw) (i1 + fgcw) f (i0 - gcw) (i1 + gcw) u)) ms = Some m ->
  within m (mkFa u (CELL1d i0 i1 gcw)) (at1 w) (poisson_rate_1d i0 i1 ^ n * (cells_in i0 i1 * cells_in i0 i1 / Q2Qc 4 * E))%Qc (in_box [(i0, i1)]))%Z.
Proof.
  intros i0 i1 dx beta gcw u sgcw st offset fgcw f ms w c1 c2 E n m Hbi Hgcw P0 P1 P2 P3 P4 Hbeta Hd0 Has Heq HE Hw Hrep.
  destruct (poisson_ready_1d i0 i1 dx beta gcw u sgcw st offset fgcw f ms w Hbi Hgcw Hbeta Hd0 Has) as (Sol & Fit & Dom & L0 & L1).
  assert (C := cellrbgs1d_wconverges i0 i1 c1 c2 3%Z offset (i0 - sgcw)%Z (i1 + sgcw)%Z st (i0 - fgcw)%Z (i1 + fgcw)%Z f (i0 - gcw)%Z (i1 + gcw)%Z u ms P0 P1 P2 P3 P4).
  rewrite !cell_bounds_1 in C.
  apply (unweigh m _ _ i0 i1); [exact L0|exact HE| |].
  { intros c Hc. inversion_clear Hc. cbn [wgt fst snd] in * . apply par_le. assumption. }
  refine (C (at1 w) (wgt i0 i1) (poisson_rate_1d i0 i1) E n m Fit (wgt_nonneg i0 i1) Dom L0 L1 Sol Heq HE _ Hrep).
  apply weigh; [exact HE| |exact Hw]. intros c Hc. inversion_clear Hc. cbn [wgt fst snd] in * . apply par_ge. assumption.
Qed.

Lemma poisson_jac_1d : (forall i0 i1 (dx : Z -> Qc) (beta : Qc) gcw u sgcw st offset fgcw f (ms : mem QcS) (w : Z -> Qc) z (E : Qc) (n : nat) (m : mem QcS),
  i0 <= i1 -> 1 <= gcw -> fst u <> fst st -> fst u <> fst f -> fst u <> fst z -> fst z <> fst st -> fst z <> fst f ->
  (0 < beta)%Qc -> dx 0%Z <> 0%Qc ->
  poisson_system_1d i0 i1 dx beta sgcw st offset fgcw f ms w ->
  equals ms (mkFa u (CELL1d i0 i1 gcw)) (at1 w) (around (mkFa u (CELL1d i0 i1 gcw)) [(i0, i1)]) ->
  (0 <= E)%Qc -> within ms (mkFa u (CELL1d i0 i1 gcw)) (at1 w) E (in_box [(i0, i1)]) ->
  repeated n (celljacobi1d i0 i1 3 offset (i0 - sgcw) (i1 + sgcw) st (i0 - fgcw) (i1 + fgcw) f (i0 - gcw) (i1 + gcw) u z) ms = Some m ->
  within m (mkFa u (CELL1d i0 i1 gcw)) (at1 w) ((1 - Q2Qc (Qmake 2 3) + Q2Qc (Qmake 2 3) * poisson_rate_1d i0 i1) ^ n * (cells_in i0 i1 * cells_in i0 i1 / Q2Qc 4 * E))%Qc (in_box [(i0, i1)]))%Z.
Proof.
  intros i0 i1 dx beta gcw u sgcw st offset fgcw f ms w z E n m Hbi Hgcw P0 P1 P2 P3 P4 Hbeta Hd0 Has Heq HE Hw Hrep.
  destruct (poisson_ready_1d i0 i1 dx beta gcw u sgcw st offset fgcw f ms w Hbi Hgcw Hbeta Hd0 Has) as (Sol & Fit & Dom & L0 & L1).
  assert (C := celljacobi1d_wconverges i0 i1 3%Z offset (i0 - sgcw)%Z (i1 + sgcw)%Z st (i0 - fgcw)%Z (i1 + fgcw)%Z f (i0 - gcw)%Z (i1 + gcw)%Z u z ms P0 P1 P2 P3 P4).
  rewrite !cell_bounds_1 in C.
  apply (unweigh m _ _ i0 i1); [apply (blend_nonneg _ _ thirds_pos thirds_le L0)|exact HE| |].
  { intros c Hc. inversion_clear Hc. cbn [wgt fst snd] in * . apply par_le. assumption. }
  refine (C (at1 w) (wgt i0 i1) (poisson_rate_1d i0 i1) E n m Fit (wgt_nonneg i0 i1) Dom L0 L1 Sol Heq HE _ Hrep).
  apply weigh; [exact HE| |exact Hw]. intros c Hc. inversion_clear Hc. cbn [wgt fst snd] in * . apply par_ge. assumption.
Qed.

(** ** 2D *)
Lemma poisson_ready_2d : forall i0 j0 i1 j1 (dx : Z -> Qc) (beta : Qc) gcw u sgcw st offset fgcw f (ms : mem QcS) (w : Z -> Z -> Qc),
  (i0 <= i1)%Z -> (j0 <= j1)%Z -> (1 <= gcw)%Z -> 0 < beta -> dx 0%Z <> 0 -> dx 1%Z <> 0 ->
  poisson_system_2d i0 j0 i1 j1 dx beta sgcw st offset fgcw f ms w ->
  solution ms (mkFa offset [(0, 1); (0, 4)]%Z) (mkFa st ((0, 4)%Z :: CELL2d i0 j0 i1 j1 sgcw)) 5 (mkFa f (CELL2d i0 j0 i1 j1 fgcw)) (at2 w) (in_box [(i0, i1); (j0, j1)]) /\
  fits ms (mkFa offset [(0, 1); (0, 4)]%Z) 5 (mkFa u (CELL2d i0 j0 i1 j1 gcw)) [(i0, i1); (j0, j1)] /\
  wdominant ms (mkFa offset [(0, 1); (0, 4)]%Z) (mkFa st ((0, 4)%Z :: CELL2d i0 j0 i1 j1 sgcw)) 5 (wgt i0 i1) (poisson_rate_2d i0 i1 dx) (in_box [(i0, i1); (j0, j1)]) /\
  0 <= poisson_rate_2d i0 i1 dx /\ poisson_rate_2d i0 i1 dx <= 1.
Proof.
  intros i0 j0 i1 j1 dx beta gcw u sgcw st offset fgcw f ms w Hbi Hbj Hgcw Hbeta Hd0 Hd1 (Hg & (m & Es) & HT & Hf).
  apply bind_Some_inv in Es as (m1 & Eo1 & Ed).
  destruct (poisson_offdiag_2d_at i0 j0 i1 j1 (dx : Z -> QcS) (beta : QcS) sgcw st m m1 ltac:(k_rapart QcS_laws) ltac:(k_rapart QcS_laws) ltac:(k_rapart QcS_laws) Eo1) as (Vo & Fo).
  destruct (poisson_diag_2d_at QcS_laws i0 j0 i1 j1 sgcw st m1 ms ltac:(k_rapart QcS_laws) ltac:(k_rapart QcS_laws) ltac:(k_rapart QcS_laws) Ed) as (Vd & Fd). clear Eo1 Ed.
  assert (G : forall i j, (i0 <= i <= i1)%Z -> (j0 <= j <= j1)%Z ->
    fel (mkFa st ((0, 4)%Z :: CELL2d i0 j0 i1 j1 sgcw)) (1%Z :: [i; j]) ms = Some (sdiv (s := QcS) (sneg (s := QcS) beta) (smul (s := QcS) (dx 0%Z) (dx 0%Z)) : QcS) /\ fel (mkFa st ((0, 4)%Z :: CELL2d i0 j0 i1 j1 sgcw)) (2%Z :: [i; j]) ms = Some (sdiv (s := QcS) (sneg (s := QcS) beta) (smul (s := QcS) (dx 0%Z) (dx 0%Z)) : QcS) /\ fel (mkFa st ((0, 4)%Z :: CELL2d i0 j0 i1 j1 sgcw)) (3%Z :: [i; j]) ms = Some (sdiv (s := QcS) (sneg (s := QcS) beta) (smul (s := QcS) (dx 1%Z) (dx 1%Z)) : QcS) /\ fel (mkFa st ((0, 4)%Z :: CELL2d i0 j0 i1 j1 sgcw)) (4%Z :: [i; j]) ms = Some (sdiv (s := QcS) (sneg (s := QcS) beta) (smul (s := QcS) (dx 1%Z) (dx 1%Z)) : QcS) /\
    fel (mkFa st ((0, 4)%Z :: CELL2d i0 j0 i1 j1 sgcw)) (0%Z :: [i; j]) ms = Some (- qsum [sdiv (s := QcS) (sneg (s := QcS) beta) (smul (s := QcS) (dx 0%Z) (dx 0%Z)); sdiv (s := QcS) (sneg (s := QcS) beta) (smul (s := QcS) (dx 0%Z) (dx 0%Z)); sdiv (s := QcS) (sneg (s := QcS) beta) (smul (s := QcS) (dx 1%Z) (dx 1%Z)); sdiv (s := QcS) (sneg (s := QcS) beta) (smul (s := QcS) (dx 1%Z) (dx 1%Z))] : QcS)).
  { intros i j Ii Ij. specialize (Vo i j ltac:(lia) ltac:(lia)). specialize (Vd i j ltac:(lia) ltac:(lia)). subst_lets. k_open. unfold fel.
    repeat match goal with |- _ /\ _ => split end.
    all: k_close QcS_laws; try reflexivity; try eassumption.
    all: try (apply (f_equal (@Some Qc)); unfold qsum; change (sdiv (s := QcS)) with Qcdiv; unfold Qcdiv; change (sadd (s := QcS)) with Qcplus; change (smul (s := QcS)) with Qcmult; change (sneg (s := QcS)) with Qcopp; ring). }
  clear Vo Vd Fo Fd.
  assert (G0 := inv_square_pos (dx 0%Z) Hd0).
  assert (G1 := inv_square_pos (dx 1%Z) Hd1).
  assert (HM := cells_in_ge i0 i1 Hbi).
  assert (Hrest : 0 <= (1 / (dx 1%Z * dx 1%Z))) by (apply Qclt_le_weak; exact G1).
  assert (Rate : poisson_rate_2d i0 i1 dx = 1 - Q2Qc 4 / (cells_in i0 i1 * cells_in i0 i1) * ((1 / (dx 0%Z * dx 0%Z)) / ((1 / (dx 0%Z * dx 0%Z)) + (1 / (dx 1%Z * dx 1%Z))))) by (unfold poisson_rate_2d; reflexivity).
  split; [|split; [|split; [|split]]].
  - intros c' Hc. repeat match goal with H : in_box _ _ |- _ => inversion_clear H | H : Forall2 _ _ _ |- _ => inversion_clear H end. cbn [fst snd] in * .
    match goal with |- context [fel _ (?pi :: ?pj ::  nil) _] => rename pi into i; rename pj into j; idtac end.
    destruct (G i j ltac:(assumption) ltac:(assumption)) as (V1 & V2 & V3 & V4 & V0). clear G.
    exists (laplace_2d dx beta w i j), (laplace_2d dx beta w i j). split; [apply Hf; lia|]. split; [|reflexivity].
    eapply (row_of_list ms _ _ _ _ _ (_ :: _ :: _ :: _ :: _ :: nil)); [exact HT|reflexivity|repeat constructor|reflexivity| |].
    { intros s e1 Hsv. destruct s as [|s]; [injection Hsv as <-; exact V0|]. destruct s as [|s]; [injection Hsv as <-; exact V1|]. destruct s as [|s]; [injection Hsv as <-; exact V2|]. destruct s as [|s]; [injection Hsv as <-; exact V3|]. destruct s as [|s]; [injection Hsv as <-; exact V4|]. destruct s; discriminate. }
    cbn [combine map qsum shifted fst snd at2]. rewrite ?Z.add_0_r. replace (i + -1)%Z with (i - 1)%Z by lia. replace (j + -1)%Z with (j - 1)%Z by lia.
    unfold laplace_2d. qc_form. ring.
  - apply (fits_of_table ms _ _ (mkFa u (CELL2d i0 j0 i1 j1 gcw)) [(i0, i1); (j0, j1)] gcw HT (Nat.lt_0_succ _) columns_2 eq_refl Hgcw eq_refl _ eq_refl).
  - intros c' Hc. repeat match goal with H : in_box _ _ |- _ => inversion_clear H | H : Forall2 _ _ _ |- _ => inversion_clear H end. cbn [fst snd] in * .
    match goal with |- context [fel _ (_ :: ?pi :: ?pj ::  nil) _] => rename pi into i; rename pj into j; idtac end.
    destruct (G i j ltac:(assumption) ltac:(assumption)) as (V1 & V2 & V3 & V4 & V0). clear G.
    exists (- qsum [sdiv (s := QcS) (sneg (s := QcS) beta) (smul (s := QcS) (dx 0%Z) (dx 0%Z)); sdiv (s := QcS) (sneg (s := QcS) beta) (smul (s := QcS) (dx 0%Z) (dx 0%Z)); sdiv (s := QcS) (sneg (s := QcS) beta) (smul (s := QcS) (dx 1%Z) (dx 1%Z)); sdiv (s := QcS) (sneg (s := QcS) beta) (smul (s := QcS) (dx 1%Z) (dx 1%Z))]), (fun s => nth (Z.to_nat (s - 1)) [sdiv (s := QcS) (sneg (s := QcS) beta) (smul (s := QcS) (dx 0%Z) (dx 0%Z)); sdiv (s := QcS) (sneg (s := QcS) beta) (smul (s := QcS) (dx 0%Z) (dx 0%Z)); sdiv (s := QcS) (sneg (s := QcS) beta) (smul (s := QcS) (dx 1%Z) (dx 1%Z)); sdiv (s := QcS) (sneg (s := QcS) beta) (smul (s := QcS) (dx 1%Z) (dx 1%Z))] 0), (fun s => nth (Z.to_nat (s - 1)) [wgt i0 i1 (shifted [i; j] ((-1)%Z :: 0%Z :: nil)); wgt i0 i1 (shifted [i; j] ((1)%Z :: 0%Z :: nil)); wgt i0 i1 (shifted [i; j] (0%Z :: (-1)%Z :: nil)); wgt i0 i1 (shifted [i; j] (0%Z :: (1)%Z :: nil))] 0).
    split; [exact V0|].
    assert (Ea : - qsum [sdiv (s := QcS) (sneg (s := QcS) beta) (smul (s := QcS) (dx 0%Z) (dx 0%Z)); sdiv (s := QcS) (sneg (s := QcS) beta) (smul (s := QcS) (dx 0%Z) (dx 0%Z)); sdiv (s := QcS) (sneg (s := QcS) beta) (smul (s := QcS) (dx 1%Z) (dx 1%Z)); sdiv (s := QcS) (sneg (s := QcS) beta) (smul (s := QcS) (dx 1%Z) (dx 1%Z))] = (1 + 1) * beta * ((1 / (dx 0%Z * dx 0%Z)) + (1 / (dx 1%Z * dx 1%Z)))) by (cbn [qsum]; change (sdiv (s := QcS)) with Qcdiv; change (smul (s := QcS)) with Qcmult; change (sneg (s := QcS)) with Qcopp; unfold Qcdiv; ring).
    assert (Pa := double_pos beta (1 / (dx 0%Z * dx 0%Z)) (1 / (dx 1%Z * dx 1%Z)) Hbeta G0 Hrest).
    rewrite Ea. split; [intros E0; rewrite E0 in Pa; discriminate|]. split.
    { intros s Hss. assert (Hcase : (s = 1 \/ s = 2 \/ s = 3 \/ s = 4)%Z) by lia. destruct Hcase as [-> | [-> | [-> | ->]]].
      all: split; [assumption|]; eexists; (split; [eapply (table_shifted ms _ _ _ _ _ HT); [reflexivity|lia|reflexivity]|reflexivity]). }
    rewrite (Qcabs_pos (_ * _ * _)) by (apply Qclt_le_weak; exact Pa). rewrite Rate.
    change (Qcabs (sdiv (s := QcS) (sneg (s := QcS) beta) (smul (s := QcS) (dx 0%Z) (dx 0%Z))) * par i0 i1 (i + -1) + (Qcabs (sdiv (s := QcS) (sneg (s := QcS) beta) (smul (s := QcS) (dx 0%Z) (dx 0%Z))) * par i0 i1 (i + 1) + (Qcabs (sdiv (s := QcS) (sneg (s := QcS) beta) (smul (s := QcS) (dx 1%Z) (dx 1%Z))) * par i0 i1 (i + 0) + (Qcabs (sdiv (s := QcS) (sneg (s := QcS) beta) (smul (s := QcS) (dx 1%Z) (dx 1%Z))) * par i0 i1 (i + 0) + (0)))) <= (1 - Q2Qc 4 / (cells_in i0 i1 * cells_in i0 i1) * ((1 / (dx 0%Z * dx 0%Z)) / ((1 / (dx 0%Z * dx 0%Z)) + (1 / (dx 1%Z * dx 1%Z))))) * ((1 + 1) * beta * ((1 / (dx 0%Z * dx 0%Z)) + (1 / (dx 1%Z * dx 1%Z)))) * par i0 i1 i).
    rewrite !entry_abs by exact Hbeta. rewrite ?Z.add_0_r.
    eapply Qcle_trans; [|exact (factor_row _ _ _ HM G0 Hrest beta _ Hbeta (par_le i0 i1 i ltac:(assumption)))].
    rewrite <- (par_around i0 i1 i) by assumption. match goal with |- ?a <= ?b => replace a with b by ring end. apply Qcle_refl.
  - rewrite Rate. apply factor_nonneg; assumption.
  - rewrite Rate. apply factor_le; assumption.
Qed.

Lemma poisson_gs_2d : (forall i0 j0 i1 j1 (dx : Z -> Qc) (beta : Qc) gcw u sgcw st offset fgcw f (ms : mem QcS) (w : Z -> Z -> Qc) (E : Qc) (n : nat) (m : mem QcS),
  i0 <= i1 -> j0 <= j1 -> 1 <= gcw -> fst u <> fst st -> fst u <> fst f ->
  (0 < beta)%Qc -> dx 0%Z <> 0%Qc -> dx 1%Z <> 0%Qc ->
  poisson_system_2d i0 j0 i1 j1 dx beta sgcw st offset fgcw f ms w ->
  equals ms (mkFa u (CELL2d i0 j0 i1 j1 gcw)) (at2 w) (around (mkFa u (CELL2d i0 j0 i1 j1 gcw)) [(i0, i1); (j0, j1)]) ->
  (0 <= E)%Qc -> within ms (mkFa u (CELL2d i0 j0 i1 j1 gcw)) (at2 w) E (in_box [(i0, i1); (j0, j1)]) ->
  repeated n (cellgs2d i0 i1 j0 j1 5 offset (i0 - sgcw) (i1 + sgcw) (j0 - sgcw) (j1 + sgcw) st (i0 - fgcw) (i1 + fgcw) (j0 - fgcw) (j1 + fgcw) f (i0 - gcw) (i1 + gcw) (j0 - gcw) (j1 + gcw) u) ms = Some m ->
  within m (mkFa u (CELL2d i0 j0 i1 j1 gcw)) (at2 w) (poisson_rate_2d i0 i1 dx ^ n * (cells_in i0 i1 * cells_in i0 i1 / Q2Qc 4 * E))%Qc (in_box [(i0, i1); (j0, j1)]))%Z.
Proof.
  intros i0 j0 i1 j1 dx beta gcw u sgcw st offset fgcw f ms w E n m Hbi Hbj Hgcw P0 P1 Hbeta Hd0 Hd1 Has Heq HE Hw Hrep.
  destruct (poisson_ready_2d i0 j0 i1 j1 dx beta gcw u sgcw st offset fgcw f ms w Hbi Hbj Hgcw Hbeta Hd0 Hd1 Has) as (Sol & Fit & Dom & L0 & L1).
  assert (C := cellgs2d_wconverges i0 i1 j0 j1 5%Z offset (i0 - sgcw)%Z (i1 + sgcw)%Z (j0 - sgcw)%Z (j1 + sgcw)%Z st (i0 - fgcw)%Z (i1 + fgcw)%Z (j0 - fgcw)%Z (j1 + fgcw)%Z f (i0 - gcw)%Z (i1 + gcw)%Z (j0 - gcw)%Z (j1 + gcw)%Z u ms P0 P1).
  rewrite !cell_bounds_2 in C.
  apply (unweigh m _ _ i0 i1); [exact L0|exact HE| |].
  { intros c Hc. inversion_clear Hc. cbn [wgt fst snd] in * . apply par_le. assumption. }
  refine (C (at2 w) (wgt i0 i1) (poisson_rate_2d i0 i1 dx) E n m Fit (wgt_nonneg i0 i1) Dom L0 L1 Sol Heq HE _ Hrep).
  apply weigh; [exact HE| |exact Hw]. intros c Hc. inversion_clear Hc. cbn [wgt fst snd] in * . apply par_ge. assumption.
Qed.

Lemma poisson_rb_2d : (forall i0 j0 i1 j1 (dx : Z -> Qc) (beta : Qc) gcw u sgcw st offset fgcw f (ms : mem QcS) (w : Z -> Z -> Qc) (c1 c2 : Z) (E : Qc) (n : nat) (m : mem QcS),
  i0 <= i1 -> j0 <= j1 -> 1 <= gcw -> 0 <= j0 + c1 -> 0 <= j0 + c2 -> Z.odd (c1 + c2) = true -> fst u <> fst st -> fst u <> fst f ->
  (0 < beta)%Qc -> dx 0%Z <> 0%Qc -> dx 1%Z <> 0%Qc ->
  poisson_system_2d i0 j0 i1 j1 dx beta sgcw st offset fgcw f ms w ->
  equals ms (mkFa u (CELL2d i0 j0 i1 j1 gcw)) (at2 w) (around (mkFa u (CELL2d i0 j0 i1 j1 gcw)) [(i0, i1); (j0, j1)]) ->
  (0 <= E)%Qc -> within ms (mkFa u (CELL2d i0 j0 i1 j1 gcw)) (at2 w) E (in_box [(i0, i1); (j0, j1)]) ->
  repeated n (twice (cellrbgs2d i0 i1 j0 j1 c1 5 offset (i0 - sgcw) (i1 + sgcw) (j0 - sgcw) (j1 + sgcw) st (i0 - fgcw) (i1 + fgcw) (j0 - fgcw) (j1 + fgcw) f (i0 - gcw) (i1 + gcw) (j0 - gcw) (j1 + gcw) u)
     (cellrbgs2d i0 i1 j0 j1 c2 5 offset (i0 - sgcw) (i1 + sgcw) (j0 - sgcw) (j1 + sgcw) st (i0 - fgcw) (i1 + fgcw) (j0 - fgcw) (j1 + fgcw) f (i0 - gcw) (i1 + gcw) (j0 - gcw) (j1 + gcw) u)) ms = Some m ->
  within m (mkFa u (CELL2d i0 j0 i1 j1 gcw)) (at2 w) (poisson_rate_2d i0 i1 dx ^ n * (cells_in i0 i1 * cells_in i0 i1 / Q2Qc 4 * E))%Qc (in_box [(i0, i1); (j0, j1)]))%Z.
Proof.
  intros i0 j0 i1 j1 dx beta gcw u sgcw st offset fgcw f ms w c1 c2 E n m Hbi Hbj Hgcw P0 P1 P2 P3 P4 Hbeta Hd0 Hd1 Has Heq HE Hw Hrep.
  destruct (poisson_ready_2d i0 j0 i1 j1 dx beta gcw u sgcw st offset fgcw f ms w Hbi Hbj Hgcw Hbeta Hd0 Hd1 Has) as (Sol & Fit & Dom & L0 & L1).
  assert (C := cellrbgs2d_wconverges i0 i1 j0 j1 c1 c2 5%Z offset (i0 - sgcw)%Z (i1 + sgcw)%Z (j0 - sgcw)%Z (j1 + sgcw)%Z st (i0 - fgcw)%Z (i1 + fgcw)%Z (j0 - fgcw)%Z (j1 + fgcw)%Z f (i0 - gcw)%Z (i1 + gcw)%Z (j0 - gcw)%Z (j1 + gcw)%Z u ms P0 P1 P2 P3 P4).
  rewrite !cell_bounds_2 in C.
  apply (unweigh m _ _ i0 i1); [exact L0|exact HE| |].
  { intros c Hc. inversion_clear Hc. cbn [wgt fst snd] in * . apply par_le. assumption. }
  refine (C (at2 w) (wgt i0 i1) (poisson_rate_2d i0 i1 dx) E n m Fit (wgt_nonneg i0 i1) Dom L0 L1 Sol Heq HE _ Hrep).
  apply weigh; [exact HE| |exact Hw]. intros c Hc. inversion_clear Hc. cbn [wgt fst snd] in * . apply par_ge. assumption.
Qed.

Lemma poisson_fix_2d : (forall i0 j0 i1 j1 (dx : Z -> Qc) (beta : Qc) gcw u sgcw st offset fgcw f (ms : mem QcS) (w : Z -> Z -> Qc) (c1 c2 : Z) (E : Qc) (n : nat) (m : mem QcS),
  i0 <= i1 -> j0 <= j1 -> 1 <= gcw -> 0 <= j0 + c1 -> 0 <= j0 + c2 -> Z.odd (c1 + c2) = true -> fst u <> fst st -> fst u <> fst f ->
  (0 < beta)%Qc -> dx 0%Z <> 0%Qc -> dx 1%Z <> 0%Qc ->
  poisson_system_2d i0 j0 i1 j1 dx beta sgcw st offset fgcw f ms w ->
  equals ms (mkFa u (CELL2d i0 j0 i1 j1 gcw)) (at2 w) (around (mkFa u (CELL2d i0 j0 i1 j1 gcw)) [(i0, i1); (j0, j1)]) ->
  (0 <= E)%Qc -> within ms (mkFa u (CELL2d i0 j0 i1 j1 gcw)) (at2 w) E (in_box [(i0, i1); (j0, j1)]) ->
  repeated n (twice (cells5rbgs2d i0 i1 j0 j1 c1 (i0 - sgcw) (i1 + sgcw) (j0 - sgcw) (j1 + sgcw) st (i0 - fgcw) (i1 + fgcw) (j0 - fgcw) (j1 + fgcw) f (i0 - gcw) (i1 + gcw) (j0 - gcw) (j1 + gcw) u)
     (cells5rbgs2d i0 i1 j0 j1 c2 (i0 - sgcw) (i1 + sgcw) (j0 - sgcw) (j1 + sgcw) st (i0 - fgcw) (i1 + fgcw) (j0 - fgcw) (j1 + fgcw) f (i0 - gcw) (i1 + gcw) (j0 - gcw) (j1 + gcw) u)) ms = Some m ->
  within m (mkFa u (CELL2d i0 j0 i1 j1 gcw)) (at2 w) (poisson_rate_2d i0 i1 dx ^ n * (cells_in i0 i1 * cells_in i0 i1 / Q2Qc 4 * E))%Qc (in_box [(i0, i1); (j0, j1)]))%Z.
Proof.
  intros i0 j0 i1 j1 dx beta gcw u sgcw st offset fgcw f ms w c1 c2 E n m Hbi Hbj Hgcw P0 P1 P2 P3 P4 Hbeta Hd0 Hd1 Has Heq HE Hw Hrep.
  destruct (poisson_ready_2d i0 j0 i1 j1 dx beta gcw u sgcw st offset fgcw f ms w Hbi Hbj Hgcw Hbeta Hd0 Hd1 Has) as (Sol & Fit & Dom & L0 & L1).
  assert (C := cells5rbgs2d_wconverges i0 i1 j0 j1 c1 c2 offset (i0 - sgcw)%Z (i1 + sgcw)%Z (j0 - sgcw)%Z (j1 + sgcw)%Z st (i0 - fgcw)%Z (i1 + fgcw)%Z (j0 - fgcw)%Z (j1 + fgcw)%Z f (i0 - gcw)%Z (i1 + gcw)%Z (j0 - gcw)%Z (j1 + gcw)%Z u ms P0 P1 P2 P3 P4 (proj1 (proj2 (proj2 Has)))).
  rewrite !cell_bounds_2 in C.
  apply (unweigh m _ _ i0 i1); [exact L0|exact HE| |].
  { intros c Hc. inversion_clear Hc. cbn [wgt fst snd] in * . apply par_le. assumption. }
  refine (C (at2 w) (wgt i0 i1) (poisson_rate_2d i0 i1 dx) E n m Fit (wgt_nonneg i0 i1) Dom L0 L1 Sol Heq HE _ Hrep).
  apply weigh; [exact HE| |exact Hw]. intros c Hc. inversion_clear Hc. cbn [wgt fst snd] in * . apply par_ge. assumption.
Qed.

Lemma poisson_jac_2d : (forall i0 j0 i1 j1 (dx : Z -> Qc) (beta : Qc) gcw u sgcw st offset fgcw f (ms : mem QcS) (w : Z -> Z -> Qc) z (om : Qc) (E : Qc) (n : nat) (m : mem QcS),
  i0 <= i1 -> j0 <= j1 -> 1 <= gcw -> fst u <> fst st -> fst u <> fst f -> fst u <> fst z -> fst z <> fst st -> fst z <> fst f -> (0 <= om)%Qc -> (om <= 1)%Qc ->
  (0 < beta)%Qc -> dx 0%Z <> 0%Qc -> dx 1%Z <> 0%Qc ->
  poisson_system_2d i0 j0 i1 j1 dx beta sgcw st offset fgcw f ms w ->
  equals ms (mkFa u (CELL2d i0 j0 i1 j1 gcw)) (at2 w) (around (mkFa u (CELL2d i0 j0 i1 j1 gcw)) [(i0, i1); (j0, j1)]) ->
  (0 <= E)%Qc -> within ms (mkFa u (CELL2d i0 j0 i1 j1 gcw)) (at2 w) E (in_box [(i0, i1); (j0, j1)]) ->
  repeated n (celljacobi2d i0 i1 j0 j1 5 offset (i0 - sgcw) (i1 + sgcw) (j0 - sgcw) (j1 + sgcw) st (i0 - fgcw) (i1 + fgcw) (j0 - fgcw) (j1 + fgcw) f (i0 - gcw) (i1 + gcw) (j0 - gcw) (j1 + gcw) u z (om : QcS)) ms = Some m ->
  within m (mkFa u (CELL2d i0 j0 i1 j1 gcw)) (at2 w) ((1 - om + om * poisson_rate_2d i0 i1 dx) ^ n * (cells_in i0 i1 * cells_in i0 i1 / Q2Qc 4 * E))%Qc (in_box [(i0, i1); (j0, j1)]))%Z.
Proof.
  intros i0 j0 i1 j1 dx beta gcw u sgcw st offset fgcw f ms w z om E n m Hbi Hbj Hgcw P0 P1 P2 P3 P4 P5 P6 Hbeta Hd0 Hd1 Has Heq HE Hw Hrep.
  destruct (poisson_ready_2d i0 j0 i1 j1 dx beta gcw u sgcw st offset fgcw f ms w Hbi Hbj Hgcw Hbeta Hd0 Hd1 Has) as (Sol & Fit & Dom & L0 & L1).
  assert (C := celljacobi2d_wconverges i0 i1 j0 j1 5%Z offset (i0 - sgcw)%Z (i1 + sgcw)%Z (j0 - sgcw)%Z (j1 + sgcw)%Z st (i0 - fgcw)%Z (i1 + fgcw)%Z (j0 - fgcw)%Z (j1 + fgcw)%Z f (i0 - gcw)%Z (i1 + gcw)%Z (j0 - gcw)%Z (j1 + gcw)%Z u z om ms P0 P1 P2 P3 P4 P5 P6).
  rewrite !cell_bounds_2 in C.
  apply (unweigh m _ _ i0 i1); [apply (blend_nonneg _ _ P5 P6 L0)|exact HE| |].
  { intros c Hc. inversion_clear Hc. cbn [wgt fst snd] in * . apply par_le. assumption. }
  refine (C (at2 w) (wgt i0 i1) (poisson_rate_2d i0 i1 dx) E n m Fit (wgt_nonneg i0 i1) Dom L0 L1 Sol Heq HE _ Hrep).
  apply weigh; [exact HE| |exact Hw]. intros c Hc. inversion_clear Hc. cbn [wgt fst snd] in * . apply par_ge. assumption.
Qed.

(** ** 3D *)
Lemma poisson_ready_3d : forall i0 j0 k0 i1 j1 k1 (dx : Z -> Qc) (beta : Qc) gcw u sgcw st offset fgcw f (ms : mem QcS) (w : Z -> Z -> Z -> Qc),
  (i0 <= i1)%Z -> (j0 <= j1)%Z -> (k0 <= k1)%Z -> (1 <= gcw)%Z -> 0 < beta -> dx 0%Z <> 0 -> dx 1%Z <> 0 -> dx 2%Z <> 0 ->
  poisson_system_3d i0 j0 k0 i1 j1 k1 dx beta sgcw st offset fgcw f ms w ->
  solution ms (mkFa offset [(0, 2); (0, 6)]%Z) (mkFa st ((0, 6)%Z :: CELL3d i0 j0 k0 i1 j1 k1 sgcw)) 7 (mkFa f (CELL3d i0 j0 k0 i1 j1 k1 fgcw)) (at3 w) (in_box [(i0, i1); (j0, j1); (k0, k1)]) /\
  fits ms (mkFa offset [(0, 2); (0, 6)]%Z) 7 (mkFa u (CELL3d i0 j0 k0 i1 j1 k1 gcw)) [(i0, i1); (j0, j1); (k0, k1)] /\
  wdominant ms (mkFa offset [(0, 2); (0, 6)]%Z) (mkFa st ((0, 6)%Z :: CELL3d i0 j0 k0 i1 j1 k1 sgcw)) 7 (wgt i0 i1) (poisson_rate_3d i0 i1 dx) (in_box [(i0, i1); (j0, j1); (k0, k1)]) /\
  0 <= poisson_rate_3d i0 i1 dx /\ poisson_rate_3d i0 i1 dx <= 1.
Proof.
  intros i0 j0 k0 i1 j1 k1 dx beta gcw u sgcw st offset fgcw f ms w Hbi Hbj Hbk Hgcw Hbeta Hd0 Hd1 Hd2 (Hg & (m & Es) & HT & Hf).
  apply bind_Some_inv in Es as (m1 & Eo1 & Ed).
  destruct (poisson_offdiag_3d_at i0 j0 k0 i1 j1 k1 (dx : Z -> QcS) (beta : QcS) sgcw st m m1 ltac:(k_rapart QcS_laws) ltac:(k_rapart QcS_laws) ltac:(k_rapart QcS_laws) ltac:(k_rapart QcS_laws) Eo1) as (Vo & Fo).
  destruct (poisson_diag_3d_at QcS_laws i0 j0 k0 i1 j1 k1 sgcw st m1 ms ltac:(k_rapart QcS_laws) ltac:(k_rapart QcS_laws) ltac:(k_rapart QcS_laws) ltac:(k_rapart QcS_laws) Ed) as (Vd & Fd). clear Eo1 Ed.
  assert (G : forall i j k, (i0 <= i <= i1)%Z -> (j0 <= j <= j1)%Z -> (k0 <= k <= k1)%Z ->
    fel (mkFa st ((0, 6)%Z :: CELL3d i0 j0 k0 i1 j1 k1 sgcw)) (1%Z :: [i; j; k]) ms = Some (sdiv (s := QcS) (sneg (s := QcS) beta) (smul (s := QcS) (dx 0%Z) (dx 0%Z)) : QcS) /\ fel (mkFa st ((0, 6)%Z :: CELL3d i0 j0 k0 i1 j1 k1 sgcw)) (2%Z :: [i; j; k]) ms = Some (sdiv (s := QcS) (sneg (s := QcS) beta) (smul (s := QcS) (dx 0%Z) (dx 0%Z)) : QcS) /\ fel (mkFa st ((0, 6)%Z :: CELL3d i0 j0 k0 i1 j1 k1 sgcw)) (3%Z :: [i; j; k]) ms = Some (sdiv (s := QcS) (sneg (s := QcS) beta) (smul (s := QcS) (dx 1%Z) (dx 1%Z)) : QcS) /\ fel (mkFa st ((0, 6)%Z :: CELL3d i0 j0 k0 i1 j1 k1 sgcw)) (4%Z :: [i; j; k]) ms = Some (sdiv (s := QcS) (sneg (s := QcS) beta) (smul (s := QcS) (dx 1%Z) (dx 1%Z)) : QcS) /\ fel (mkFa st ((0, 6)%Z :: CELL3d i0 j0 k0 i1 j1 k1 sgcw)) (5%Z :: [i; j; k]) ms = Some (sdiv (s := QcS) (sneg (s := QcS) beta) (smul (s := QcS) (dx 2%Z) (dx 2%Z)) : QcS) /\ fel (mkFa st ((0, 6)%Z :: CELL3d i0 j0 k0 i1 j1 k1 sgcw)) (6%Z :: [i; j; k]) ms = Some (sdiv (s := QcS) (sneg (s := QcS) beta) (smul (s := QcS) (dx 2%Z) (dx 2%Z)) : QcS) /\
    fel (mkFa st ((0, 6)%Z :: CELL3d i0 j0 k0 i1 j1 k1 sgcw)) (0%Z :: [i; j; k]) ms = Some (- qsum [sdiv (s := QcS) (sneg (s := QcS) beta) (smul (s := QcS) (dx 0%Z) (dx 0%Z)); sdiv (s := QcS) (sneg (s := QcS) beta) (smul (s := QcS) (dx 0%Z) (dx 0%Z)); sdiv (s := QcS) (sneg (s := QcS) beta) (smul (s := QcS) (dx 1%Z) (dx 1%Z)); sdiv (s := QcS) (sneg (s := QcS) beta) (smul (s := QcS) (dx 1%Z) (dx 1%Z)); sdiv (s := QcS) (sneg (s := QcS) beta) (smul (s := QcS) (dx 2%Z) (dx 2%Z)); sdiv (s := QcS) (sneg (s := QcS) beta) (smul (s := QcS) (dx 2%Z) (dx 2%Z))] : QcS)).
  { intros i j k Ii Ij Ik. specialize (Vo i j k ltac:(lia) ltac:(lia) ltac:(lia)). specialize (Vd i j k ltac:(lia) ltac:(lia) ltac:(lia)). subst_lets. k_open. unfold fel.
    repeat match goal with |- _ /\ _ => split end.
    all: k_close QcS_laws; try reflexivity; try eassumption.
    all: try (apply (f_equal (@Some Qc)); unfold qsum; change (sdiv (s := QcS)) with Qcdiv; unfold Qcdiv; change (sadd (s := QcS)) with Qcplus; change (smul (s := QcS)) with Qcmult; change (sneg (s := QcS)) with Qcopp; ring). }
  clear Vo Vd Fo Fd.
  assert (G0 := inv_square_pos (dx 0%Z) Hd0).
  assert (G1 := inv_square_pos (dx 1%Z) Hd1).
  assert (G2 := inv_square_pos (dx 2%Z) Hd2).
  assert (HM := cells_in_ge i0 i1 Hbi).
  assert (Hrest : 0 <= (1 / (dx 1%Z * dx 1%Z) + 1 / (dx 2%Z * dx 2%Z))) by (apply sum_nonneg; apply Qclt_le_weak; assumption).
  assert (Rate : poisson_rate_3d i0 i1 dx = 1 - Q2Qc 4 / (cells_in i0 i1 * cells_in i0 i1) * ((1 / (dx 0%Z * dx 0%Z)) / ((1 / (dx 0%Z * dx 0%Z)) + (1 / (dx 1%Z * dx 1%Z) + 1 / (dx 2%Z * dx 2%Z))))) by (unfold poisson_rate_3d; rewrite Qcplus_assoc; reflexivity).
  split; [|split; [|split; [|split]]].
  - intros c' Hc. repeat match goal with H : in_box _ _ |- _ => inversion_clear H | H : Forall2 _ _ _ |- _ => inversion_clear H end. cbn [fst snd] in * .
    match goal with |- context [fel _ (?pi :: ?pj :: ?pk ::  nil) _] => rename pi into i; rename pj into j; rename pk into k; idtac end.
    destruct (G i j k ltac:(assumption) ltac:(assumption) ltac:(assumption)) as (V1 & V2 & V3 & V4 & V5 & V6 & V0). clear G.
    exists (laplace_3d dx beta w i j k), (laplace_3d dx beta w i j k). split; [apply Hf; lia|]. split; [|reflexivity].
    eapply (row_of_list ms _ _ _ _ _ (_ :: _ :: _ :: _ :: _ :: _ :: _ :: nil)); [exact HT|reflexivity|repeat constructor|reflexivity| |].
    { intros s e1 Hsv. destruct s as [|s]; [injection Hsv as <-; exact V0|]. destruct s as [|s]; [injection Hsv as <-; exact V1|]. destruct s as [|s]; [injection Hsv as <-; exact V2|]. destruct s as [|s]; [injection Hsv as <-; exact V3|]. destruct s as [|s]; [injection Hsv as <-; exact V4|]. destruct s as [|s]; [injection Hsv as <-; exact V5|]. destruct s as [|s]; [injection Hsv as <-; exact V6|]. destruct s; discriminate. }
    cbn [combine map qsum shifted fst snd at3]. rewrite ?Z.add_0_r. replace (i + -1)%Z with (i - 1)%Z by lia. replace (j + -1)%Z with (j - 1)%Z by lia. replace (k + -1)%Z with (k - 1)%Z by lia.
    unfold laplace_3d. qc_form. ring.
  - apply (fits_of_table ms _ _ (mkFa u (CELL3d i0 j0 k0 i1 j1 k1 gcw)) [(i0, i1); (j0, j1); (k0, k1)] gcw HT (Nat.lt_0_succ _) columns_3 eq_refl Hgcw eq_refl _ eq_refl).
  - intros c' Hc. repeat match goal with H : in_box _ _ |- _ => inversion_clear H | H : Forall2 _ _ _ |- _ => inversion_clear H end. cbn [fst snd] in * .
    match goal with |- context [fel _ (_ :: ?pi :: ?pj :: ?pk ::  nil) _] => rename pi into i; rename pj into j; rename pk into k; idtac end.
    destruct (G i j k ltac:(assumption) ltac:(assumption) ltac:(assumption)) as (V1 & V2 & V3 & V4 & V5 & V6 & V0). clear G.
    exists (- qsum [sdiv (s := QcS) (sneg (s := QcS) beta) (smul (s := QcS) (dx 0%Z) (dx 0%Z)); sdiv (s := QcS) (sneg (s := QcS) beta) (smul (s := QcS) (dx 0%Z) (dx 0%Z)); sdiv (s := QcS) (sneg (s := QcS) beta) (smul (s := QcS) (dx 1%Z) (dx 1%Z)); sdiv (s := QcS) (sneg (s := QcS) beta) (smul (s := QcS) (dx 1%Z) (dx 1%Z)); sdiv (s := QcS) (sneg (s := QcS) beta) (smul (s := QcS) (dx 2%Z) (dx 2%Z)); sdiv (s := QcS) (sneg (s := QcS) beta) (smul (s := QcS) (dx 2%Z) (dx 2%Z))]), (fun s => nth (Z.to_nat (s - 1)) [sdiv (s := QcS) (sneg (s := QcS) beta) (smul (s := QcS) (dx 0%Z) (dx 0%Z)); sdiv (s := QcS) (sneg (s := QcS) beta) (smul (s := QcS) (dx 0%Z) (dx 0%Z)); sdiv (s := QcS) (sneg (s := QcS) beta) (smul (s := QcS) (dx 1%Z) (dx 1%Z)); sdiv (s := QcS) (sneg (s := QcS) beta) (smul (s := QcS) (dx 1%Z) (dx 1%Z)); sdiv (s := QcS) (sneg (s := QcS) beta) (smul (s := QcS) (dx 2%Z) (dx 2%Z)); sdiv (s := QcS) (sneg (s := QcS) beta) (smul (s := QcS) (dx 2%Z) (dx 2%Z))] 0), (fun s => nth (Z.to_nat (s - 1)) [wgt i0 i1 (shifted [i; j; k] ((-1)%Z :: 0%Z :: 0%Z :: nil)); wgt i0 i1 (shifted [i; j; k] ((1)%Z :: 0%Z :: 0%Z :: nil)); wgt i0 i1 (shifted [i; j; k] (0%Z :: (-1)%Z :: 0%Z :: nil)); wgt i0 i1 (shifted [i; j; k] (0%Z :: (1)%Z :: 0%Z :: nil)); wgt i0 i1 (shifted [i; j; k] (0%Z :: 0%Z :: (-1)%Z :: nil)); wgt i0 i1 (shifted [i; j; k] (0%Z :: 0%Z :: (1)%Z :: nil))] 0).
    split; [exact V0|].
    assert (Ea : - qsum [sdiv (s := QcS) (sneg (s := QcS) beta) (smul (s := QcS) (dx 0%Z) (dx 0%Z)); sdiv (s := QcS) (sneg (s := QcS) beta) (smul (s := QcS) (dx 0%Z) (dx 0%Z)); sdiv (s := QcS) (sneg (s := QcS) beta) (smul (s := QcS) (dx 1%Z) (dx 1%Z)); sdiv (s := QcS) (sneg (s := QcS) beta) (smul (s := QcS) (dx 1%Z) (dx 1%Z)); sdiv (s := QcS) (sneg (s := QcS) beta) (smul (s := QcS) (dx 2%Z) (dx 2%Z)); sdiv (s := QcS) (sneg (s := QcS) beta) (smul (s := QcS) (dx 2%Z) (dx 2%Z))] = (1 + 1) * beta * ((1 / (dx 0%Z * dx 0%Z)) + (1 / (dx 1%Z * dx 1%Z) + 1 / (dx 2%Z * dx 2%Z)))) by (cbn [qsum]; change (sdiv (s := QcS)) with Qcdiv; change (smul (s := QcS)) with Qcmult; change (sneg (s := QcS)) with Qcopp; unfold Qcdiv; ring).
    assert (Pa := double_pos beta (1 / (dx 0%Z * dx 0%Z)) (1 / (dx 1%Z * dx 1%Z) + 1 / (dx 2%Z * dx 2%Z)) Hbeta G0 Hrest).
    rewrite Ea. split; [intros E0; rewrite E0 in Pa; discriminate|]. split.
    { intros s Hss. assert (Hcase : (s = 1 \/ s = 2 \/ s = 3 \/ s = 4 \/ s = 5 \/ s = 6)%Z) by lia. destruct Hcase as [-> | [-> | [-> | [-> | [-> | ->]]]]].
      all: split; [assumption|]; eexists; (split; [eapply (table_shifted ms _ _ _ _ _ HT); [reflexivity|lia|reflexivity]|reflexivity]). }
    rewrite (Qcabs_pos (_ * _ * _)) by (apply Qclt_le_weak; exact Pa). rewrite Rate.
    change (Qcabs (sdiv (s := QcS) (sneg (s := QcS) beta) (smul (s := QcS) (dx 0%Z) (dx 0%Z))) * par i0 i1 (i + -1) + (Qcabs (sdiv (s := QcS) (sneg (s := QcS) beta) (smul (s := QcS) (dx 0%Z) (dx 0%Z))) * par i0 i1 (i + 1) + (Qcabs (sdiv (s := QcS) (sneg (s := QcS) beta) (smul (s := QcS) (dx 1%Z) (dx 1%Z))) * par i0 i1 (i + 0) + (Qcabs (sdiv (s := QcS) (sneg (s := QcS) beta) (smul (s := QcS) (dx 1%Z) (dx 1%Z))) * par i0 i1 (i + 0) + (Qcabs (sdiv (s := QcS) (sneg (s := QcS) beta) (smul (s := QcS) (dx 2%Z) (dx 2%Z))) * par i0 i1 (i + 0) + (Qcabs (sdiv (s := QcS) (sneg (s := QcS) beta) (smul (s := QcS) (dx 2%Z) (dx 2%Z))) * par i0 i1 (i + 0) + (0)))))) <= (1 - Q2Qc 4 / (cells_in i0 i1 * cells_in i0 i1) * ((1 / (dx 0%Z * dx 0%Z)) / ((1 / (dx 0%Z * dx 0%Z)) + (1 / (dx 1%Z * dx 1%Z) + 1 / (dx 2%Z * dx 2%Z))))) * ((1 + 1) * beta * ((1 / (dx 0%Z * dx 0%Z)) + (1 / (dx 1%Z * dx 1%Z) + 1 / (dx 2%Z * dx 2%Z)))) * par i0 i1 i).
    rewrite !entry_abs by exact Hbeta. rewrite ?Z.add_0_r.
    eapply Qcle_trans; [|exact (factor_row _ _ _ HM G0 Hrest beta _ Hbeta (par_le i0 i1 i ltac:(assumption)))].
    rewrite <- (par_around i0 i1 i) by assumption. match goal with |- ?a <= ?b => replace a with b by ring end. apply Qcle_refl.
  - rewrite Rate. apply factor_nonneg; assumption.
  - rewrite Rate. apply factor_le; assumption.
Qed.

Lemma poisson_gs_3d : (forall i0 j0 k0 i1 j1 k1 (dx : Z -> Qc) (beta : Qc) gcw u sgcw st offset fgcw f (ms : mem QcS) (w : Z -> Z -> Z -> Qc) (E : Qc) (n : nat) (m : mem QcS),
  i0 <= i1 -> j0 <= j1 -> k0 <= k1 -> 1 <= gcw -> fst u <> fst st -> fst u <> fst f ->
  (0 < beta)%Qc -> dx 0%Z <> 0%Qc -> dx 1%Z <> 0%Qc -> dx 2%Z <> 0%Qc ->
  poisson_system_3d i0 j0 k0 i1 j1 k1 dx beta sgcw st offset fgcw f ms w ->
  equals ms (mkFa u (CELL3d i0 j0 k0 i1 j1 k1 gcw)) (at3 w) (around (mkFa u (CELL3d i0 j0 k0 i1 j1 k1 gcw)) [(i0, i1); (j0, j1); (k0, k1)]) ->
  (0 <= E)%Qc -> within ms (mkFa u (CELL3d i0 j0 k0 i1 j1 k1 gcw)) (at3 w) E (in_box [(i0, i1); (j0, j1); (k0, k1)]) ->
  repeated n (cellgs3d i0 i1 j0 j1 k0 k1 7 offset (i0 - sgcw) (i1 + sgcw) (j0 - sgcw) (j1 + sgcw) (k0 - sgcw) (k1 + sgcw) st (i0 - fgcw) (i1 + fgcw) (j0 - fgcw) (j1 + fgcw) (k0 - fgcw) (k1 + fgcw) f (i0 - gcw) (i1 + gcw) (j0 - gcw) (j1 + gcw) (k0 - gcw) (k1 + gcw) u) ms = Some m ->
  within m (mkFa u (CELL3d i0 j0 k0 i1 j1 k1 gcw)) (at3 w) (poisson_rate_3d i0 i1 dx ^ n * (cells_in i0 i1 * cells_in i0 i1 / Q2Qc 4 * E))%Qc (in_box [(i0, i1); (j0, j1); (k0, k1)]))%Z.
Proof.
  intros i0 j0 k0 i1 j1 k1 dx beta gcw u sgcw st offset fgcw f ms w E n m Hbi Hbj Hbk Hgcw P0 P1 Hbeta Hd0 Hd1 Hd2 Has Heq HE Hw Hrep.
  destruct (poisson_ready_3d i0 j0 k0 i1 j1 k1 dx beta gcw u sgcw st offset fgcw f ms w Hbi Hbj Hbk Hgcw Hbeta Hd0 Hd1 Hd2 Has) as (Sol & Fit & Dom & L0 & L1).
  assert (C := cellgs3d_wconverges i0 i1 j0 j1 k0 k1 7%Z offset (i0 - sgcw)%Z (i1 + sgcw)%Z (j0 - sgcw)%Z (j1 + sgcw)%Z (k0 - sgcw)%Z (k1 + sgcw)%Z st (i0 - fgcw)%Z (i1 + fgcw)%Z (j0 - fgcw)%Z (j1 + fgcw)%Z (k0 - fgcw)%Z (k1 + fgcw)%Z f (i0 - gcw)%Z (i1 + gcw)%Z (j0 - gcw)%Z (j1 + gcw)%Z (k0 - gcw)%Z (k1 + gcw)%Z u ms P0 P1).
  rewrite !cell_bounds_3 in C.
  apply (unweigh m _ _ i0 i1); [exact L0|exact HE| |].
  { intros c Hc. inversion_clear Hc. cbn [wgt fst snd] in * . apply par_le. assumption. }
  refine (C (at3 w) (wgt i0 i1) (poisson_rate_3d i0 i1 dx) E n m Fit (wgt_nonneg i0 i1) Dom L0 L1 Sol Heq HE _ Hrep).
  apply weigh; [exact HE| |exact Hw]. intros c Hc. inversion_clear Hc. cbn [wgt fst snd] in * . apply par_ge. assumption.
Qed.

Lemma poisson_rb_3d : (forall i0 j0 k0 i1 j1 k1 (dx : Z -> Qc) (beta : Qc) gcw u sgcw st offset fgcw f (ms : mem QcS) (w : Z -> Z -> Z -> Qc) (c1 c2 : Z) (E : Qc) (n : nat) (m : mem QcS),
  i0 <= i1 -> j0 <= j1 -> k0 <= k1 -> 1 <= gcw -> 0 <= c1 -> 0 <= c2 -> Z.odd (c1 + c2) = true -> fst u <> fst st -> fst u <> fst f ->
  (0 < beta)%Qc -> dx 0%Z <> 0%Qc -> dx 1%Z <> 0%Qc -> dx 2%Z <> 0%Qc ->
  poisson_system_3d i0 j0 k0 i1 j1 k1 dx beta sgcw st offset fgcw f ms w ->
  equals ms (mkFa u (CELL3d i0 j0 k0 i1 j1 k1 gcw)) (at3 w) (around (mkFa u (CELL3d i0 j0 k0 i1 j1 k1 gcw)) [(i0, i1); (j0, j1); (k0, k1)]) ->
  (0 <= E)%Qc -> within ms (mkFa u (CELL3d i0 j0 k0 i1 j1 k1 gcw)) (at3 w) E (in_box [(i0, i1); (j0, j1); (k0, k1)]) ->
  repeated n (twice (cellrbgs3d i0 i1 j0 j1 k0 k1 c1 7 offset (i0 - sgcw) (i1 + sgcw) (j0 - sgcw) (j1 + sgcw) (k0 - sgcw) (k1 + sgcw) st (i0 - fgcw) (i1 + fgcw) (j0 - fgcw) (j1 + fgcw) (k0 - fgcw) (k1 + fgcw) f (i0 - gcw) (i1 + gcw) (j0 - gcw) (j1 + gcw) (k0 - gcw) (k1 + gcw) u)
     (cellrbgs3d i0 i1 j0 j1 k0 k1 c2 7 offset (i0 - sgcw) (i1 + sgcw) (j0 - sgcw) (j1 + sgcw) (k0 - sgcw) (k1 + sgcw) st (i0 - fgcw) (i1 + fgcw) (j0 - fgcw) (j1 + fgcw) (k0 - fgcw) (k1 + fgcw) f (i0 - gcw) (i1 + gcw) (j0 - gcw) (j1 + gcw) (k0 - gcw) (k1 + gcw) u)) ms = Some m ->
  within m (mkFa u (CELL3d i0 j0 k0 i1 j1 k1 gcw)) (at3 w) (poisson_rate_3d i0 i1 dx ^ n * (cells_in i0 i1 * cells_in i0 i1 / Q2Qc 4 * E))%Qc (in_box [(i0, i1); (j0, j1); (k0, k1)]))%Z.
Proof.
  intros i0 j0 k0 i1 j1 k1 dx beta gcw u sgcw st offset fgcw f ms w c1 c2 E n m Hbi Hbj Hbk Hgcw P0 P1 P2 P3 P4 Hbeta Hd0 Hd1 Hd2 Has Heq HE Hw Hrep.
  destruct (poisson_ready_3d i0 j0 k0 i1 j1 k1 dx beta gcw u sgcw st offset fgcw f ms w Hbi Hbj Hbk Hgcw Hbeta Hd0 Hd1 Hd2 Has) as (Sol & Fit & Dom & L0 & L1).
  assert (C := cellrbgs3d_wconverges i0 i1 j0 j1 k0 k1 c1 c2 7%Z offset (i0 - sgcw)%Z (i1 + sgcw)%Z (j0 - sgcw)%Z (j1 + sgcw)%Z (k0 - sgcw)%Z (k1 + sgcw)%Z st (i0 - fgcw)%Z (i1 + fgcw)%Z (j0 - fgcw)%Z (j1 + fgcw)%Z (k0 - fgcw)%Z (k1 + fgcw)%Z f (i0 - gcw)%Z (i1 + gcw)%Z (j0 - gcw)%Z (j1 + gcw)%Z (k0 - gcw)%Z (k1 + gcw)%Z u ms P0 P1 P2 P3 P4).
  rewrite !cell_bounds_3 in C.
  apply (unweigh m _ _ i0 i1); [exact L0|exact HE| |].
  { intros c Hc. inversion_clear Hc. cbn [wgt fst snd] in * . apply par_le. assumption. }
  refine (C (at3 w) (wgt i0 i1) (poisson_rate_3d i0 i1 dx) E n m Fit (wgt_nonneg i0 i1) Dom L0 L1 Sol Heq HE _ Hrep).
  apply weigh; [exact HE| |exact Hw]. intros c Hc. inversion_clear Hc. cbn [wgt fst snd] in * . apply par_ge. assumption.
Qed.

Lemma poisson_fix_3d : (forall i0 j0 k0 i1 j1 k1 (dx : Z -> Qc) (beta : Qc) gcw u sgcw st offset fgcw f (ms : mem QcS) (w : Z -> Z -> Z -> Qc) (c1 c2 : Z) (E : Qc) (n : nat) (m : mem QcS),
  i0 <= i1 -> j0 <= j1 -> k0 <= k1 -> 1 <= gcw -> 0 <= c1 -> 0 <= c2 -> Z.odd (c1 + c2) = true -> fst u <> fst st -> fst u <> fst f ->
  (0 < beta)%Qc -> dx 0%Z <> 0%Qc -> dx 1%Z <> 0%Qc -> dx 2%Z <> 0%Qc ->
  poisson_system_3d i0 j0 k0 i1 j1 k1 dx beta sgcw st offset fgcw f ms w ->
  equals ms (mkFa u (CELL3d i0 j0 k0 i1 j1 k1 gcw)) (at3 w) (around (mkFa u (CELL3d i0 j0 k0 i1 j1 k1 gcw)) [(i0, i1); (j0, j1); (k0, k1)]) ->
  (0 <= E)%Qc -> within ms (mkFa u (CELL3d i0 j0 k0 i1 j1 k1 gcw)) (at3 w) E (in_box [(i0, i1); (j0, j1); (k0, k1)]) ->
  repeated n (twice (cells7rbgs3d i0 i1 j0 j1 k0 k1 c1 (i0 - sgcw) (i1 + sgcw) (j0 - sgcw) (j1 + sgcw) (k0 - sgcw) (k1 + sgcw) st (i0 - fgcw) (i1 + fgcw) (j0 - fgcw) (j1 + fgcw) (k0 - fgcw) (k1 + fgcw) f (i0 - gcw) (i1 + gcw) (j0 - gcw) (j1 + gcw) (k0 - gcw) (k1 + gcw) u)
     (cells7rbgs3d i0 i1 j0 j1 k0 k1 c2 (i0 - sgcw) (i1 + sgcw) (j0 - sgcw) (j1 + sgcw) (k0 - sgcw) (k1 + sgcw) st (i0 - fgcw) (i1 + fgcw) (j0 - fgcw) (j1 + fgcw) (k0 - fgcw) (k1 + fgcw) f (i0 - gcw) (i1 + gcw) (j0 - gcw) (j1 + gcw) (k0 - gcw) (k1 + gcw) u)) ms = Some m ->
  within m (mkFa u (CELL3d i0 j0 k0 i1 j1 k1 gcw)) (at3 w) (poisson_rate_3d i0 i1 dx ^ n * (cells_in i0 i1 * cells_in i0 i1 / Q2Qc 4 * E))%Qc (in_box [(i0, i1); (j0, j1); (k0, k1)]))%Z.
Proof.
  intros i0 j0 k0 i1 j1 k1 dx beta gcw u sgcw st offset fgcw f ms w c1 c2 E n m Hbi Hbj Hbk Hgcw P0 P1 P2 P3 P4 Hbeta Hd0 Hd1 Hd2 Has Heq HE Hw Hrep.
  destruct (poisson_ready_3d i0 j0 k0 i1 j1 k1 dx beta gcw u sgcw st offset fgcw f ms w Hbi Hbj Hbk Hgcw Hbeta Hd0 Hd1 Hd2 Has) as (Sol & Fit & Dom & L0 & L1).
  assert (C := cells7rbgs3d_wconverges i0 i1 j0 j1 k0 k1 c1 c2 offset (i0 - sgcw)%Z (i1 + sgcw)%Z (j0 - sgcw)%Z (j1 + sgcw)%Z (k0 - sgcw)%Z (k1 + sgcw)%Z st (i0 - fgcw)%Z (i1 + fgcw)%Z (j0 - fgcw)%Z (j1 + fgcw)%Z (k0 - fgcw)%Z (k1 + fgcw)%Z f (i0 - gcw)%Z (i1 + gcw)%Z (j0 - gcw)%Z (j1 + gcw)%Z (k0 - gcw)%Z (k1 + gcw)%Z u ms P0 P1 P2 P3 P4 (proj1 (proj2 (proj2 Has)))).
  rewrite !cell_bounds_3 in C.
  apply (unweigh m _ _ i0 i1); [exact L0|exact HE| |].
  { intros c Hc. inversion_clear Hc. cbn [wgt fst snd] in * . apply par_le. assumption. }
  refine (C (at3 w) (wgt i0 i1) (poisson_rate_3d i0 i1 dx) E n m Fit (wgt_nonneg i0 i1) Dom L0 L1 Sol Heq HE _ Hrep).
  apply weigh; [exact HE| |exact Hw]. intros c Hc. inversion_clear Hc. cbn [wgt fst snd] in * . apply par_ge. assumption.
Qed.

Lemma poisson_jac_3d : (forall i0 j0 k0 i1 j1 k1 (dx : Z -> Qc) (beta : Qc) gcw u sgcw st offset fgcw f (ms : mem QcS) (w : Z -> Z -> Z -> Qc) z (om : Qc) (E : Qc) (n : nat) (m : mem QcS),
  i0 <= i1 -> j0 <= j1 -> k0 <= k1 -> 1 <= gcw -> fst u <> fst st -> fst u <> fst f -> fst u <> fst z -> fst z <> fst st -> fst z <> fst f -> (0 <= om)%Qc -> (om <= 1)%Qc ->
  (0 < beta)%Qc -> dx 0%Z <> 0%Qc -> dx 1%Z <> 0%Qc -> dx 2%Z <> 0%Qc ->
  poisson_system_3d i0 j0 k0 i1 j1 k1 dx beta sgcw st offset fgcw f ms w ->
  equals ms (mkFa u (CELL3d i0 j0 k0 i1 j1 k1 gcw)) (at3 w) (around (mkFa u (CELL3d i0 j0 k0 i1 j1 k1 gcw)) [(i0, i1); (j0, j1); (k0, k1)]) ->
  (0 <= E)%Qc -> within ms (mkFa u (CELL3d i0 j0 k0 i1 j1 k1 gcw)) (at3 w) E (in_box [(i0, i1); (j0, j1); (k0, k1)]) ->
  repeated n (celljacobi3d i0 i1 j0 j1 k0 k1 7 offset (i0 - sgcw) (i1 + sgcw) (j0 - sgcw) (j1 + sgcw) (k0 - sgcw) (k1 + sgcw) st (i0 - fgcw) (i1 + fgcw) (j0 - fgcw) (j1 + fgcw) (k0 - fgcw) (k1 + fgcw) f (i0 - gcw) (i1 + gcw) (j0 - gcw) (j1 + gcw) (k0 - gcw) (k1 + gcw) u z (om : QcS)) ms = Some m ->
  within m (mkFa u (CELL3d i0 j0 k0 i1 j1 k1 gcw)) (at3 w) ((1 - om + om * poisson_rate_3d i0 i1 dx) ^ n * (cells_in i0 i1 * cells_in i0 i1 / Q2Qc 4 * E))%Qc (in_box [(i0, i1); (j0, j1); (k0, k1)]))%Z.
Proof.
  intros i0 j0 k0 i1 j1 k1 dx beta gcw u sgcw st offset fgcw f ms w z om E n m Hbi Hbj Hbk Hgcw P0 P1 P2 P3 P4 P5 P6 Hbeta Hd0 Hd1 Hd2 Has Heq HE Hw Hrep.
  destruct (poisson_ready_3d i0 j0 k0 i1 j1 k1 dx beta gcw u sgcw st offset fgcw f ms w Hbi Hbj Hbk Hgcw Hbeta Hd0 Hd1 Hd2 Has) as (Sol & Fit & Dom & L0 & L1).
  assert (C := celljacobi3d_wconverges i0 i1 j0 j1 k0 k1 7%Z offset (i0 - sgcw)%Z (i1 + sgcw)%Z (j0 - sgcw)%Z (j1 + sgcw)%Z (k0 - sgcw)%Z (k1 + sgcw)%Z st (i0 - fgcw)%Z (i1 + fgcw)%Z (j0 - fgcw)%Z (j1 + fgcw)%Z (k0 - fgcw)%Z (k1 + fgcw)%Z f (i0 - gcw)%Z (i1 + gcw)%Z (j0 - gcw)%Z (j1 + gcw)%Z (k0 - gcw)%Z (k1 + gcw)%Z u z om ms P0 P1 P2 P3 P4 P5 P6).
  rewrite !cell_bounds_3 in C.
  apply (unweigh m _ _ i0 i1); [apply (blend_nonneg _ _ P5 P6 L0)|exact HE| |].
  { intros c Hc. inversion_clear Hc. cbn [wgt fst snd] in * . apply par_le. assumption. }
  refine (C (at3 w) (wgt i0 i1) (poisson_rate_3d i0 i1 dx) E n m Fit (wgt_nonneg i0 i1) Dom L0 L1 Sol Heq HE _ Hrep).
  apply weigh; [exact HE| |exact Hw]. intros c Hc. inversion_clear Hc. cbn [wgt fst snd] in * . apply par_ge. assumption.
Qed.

(** ** The factor is below one *)
Lemma poisson_rate_bounds_1d : forall i0 i1, (i0 <= i1)%Z -> 0 <= poisson_rate_1d i0 i1 /\ poisson_rate_1d i0 i1 < 1.
Proof.
  intros i0 i1 H. assert (HM := cells_in_ge i0 i1 H).
  assert (R : poisson_rate_1d i0 i1 = 1 - Q2Qc 4 / (cells_in i0 i1 * cells_in i0 i1) * (1 / (1 + 0))).
  { unfold poisson_rate_1d. replace (1 / (1 + 0)) with 1 by (apply Qc_is_canon; reflexivity). rewrite Qcmult_1_r. reflexivity. }
  rewrite R. split; [apply factor_nonneg|apply factor_lt]; try assumption; try reflexivity; apply Qcle_refl.
Qed.
Lemma poisson_rate_bounds_2d : forall i0 i1 (dx : Z -> Qc), (i0 <= i1)%Z -> dx 0%Z <> 0 -> dx 1%Z <> 0 ->
  0 <= poisson_rate_2d i0 i1 dx /\ poisson_rate_2d i0 i1 dx < 1.
Proof.
  intros i0 i1 dx H H0 H1. assert (HM := cells_in_ge i0 i1 H). assert (G0 := inv_square_pos _ H0). assert (G1 := inv_square_pos _ H1).
  split; [apply factor_nonneg|apply factor_lt]; try assumption; apply Qclt_le_weak; exact G1.
Qed.
Lemma poisson_rate_bounds_3d : forall i0 i1 (dx : Z -> Qc), (i0 <= i1)%Z -> dx 0%Z <> 0 -> dx 1%Z <> 0 -> dx 2%Z <> 0 ->
  0 <= poisson_rate_3d i0 i1 dx /\ poisson_rate_3d i0 i1 dx < 1.
Proof.
  intros i0 i1 dx H H0 H1 H2. assert (HM := cells_in_ge i0 i1 H).
  assert (G0 := inv_square_pos _ H0). assert (G1 := inv_square_pos _ H1). assert (G2 := inv_square_pos _ H2).
  unfold poisson_rate_3d. rewrite <- Qcplus_assoc.
  split; [apply factor_nonneg|apply factor_lt]; try assumption; apply sum_nonneg; apply Qclt_le_weak; assumption.
Qed.
