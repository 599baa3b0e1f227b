(** * Bounds for the boundary value problem in memory *)

From Coq Require Import Field QArith Qcanon.
From Verif Require Import Base FortranBase SpecKernel Instances SpecBoundary SpecBCOrder SpecBCCalls SpecRow
  LemSum LemEnergy SpecSolve LemSolve LemSolveOp LemSolveMem SpecBvp SpecBound LemBvp LemBvpFill LemBvpOp LemBvpMem LemBvpAny LemBvpBound.
Import ListNotations.
Open Scope Z_scope.

Lemma flip (x y M : Qc) : (- M <= x - y -> y - x <= M)%Qc.
Proof. intros H. apply Qcopp_le_compat in H. replace (- (x - y))%Qc with (y - x)%Qc in H by ring. now rewrite Qcopp_involutive in H. Qed.
Lemma flip' (x y M : Qc) : (y - x <= M -> - M <= x - y)%Qc.
Proof. intros H. apply Qcopp_le_compat in H. now replace (- (y - x))%Qc with (x - y)%Qc in H by ring. Qed.

Lemma breact_v1_1d i0 i1 (dx : Z -> Qc) (beta : Qc) b0 gcw u f0 (alpha : Qc) agcw a rgcw res bc (m n : mem QcS) (r w s z c v0 : Z -> Qc) :
  filled_v1_1d (S := QcS) i0 i1 dx beta b0 gcw u f0 alpha agcw a rgcw res bc m r w c v0 ->
  filled_v1_1d (S := QcS) i0 i1 dx beta b0 gcw u f0 alpha agcw a rgcw res bc n s z c v0 ->
  (0 < beta)%Qc ->
  (forall d, 0 <= d < 1 -> (0 < dx d)%Qc) ->
  (0 <= alpha)%Qc ->
  (forall i, patch1 i0 i1 i -> (0 <= c i)%Qc) ->
  (forall i, i0 <= i <= i1 + 1 -> (0 < v0 i)%Qc) ->
  (forall f, 0 <= f < 2 -> sound true (bc f)) ->
  roomy 1 (ends1 i0) (ends1 i1) bc ->
  ((exists f, 0 <= f < 2 /\ b_kind (bc f) <> 1) \/ (0 < alpha)%Qc /\ (exists i, patch1 i0 i1 i /\ (0 < c i)%Qc)) ->
  forall M : Qc, (0 <= M)%Qc ->
  (forall i, patch1 i0 i1 i -> (- (M * (alpha * c i)) <= r i - s i <= M * (alpha * c i))%Qc) ->
  forall i, patch1 i0 i1 i -> (- M <= w i - z i <= M)%Qc.
Proof.
  intros F G Hb Hdx Ha Hc Hv0 Hs Ro Hd M HM Hr. 
  assert (Hh : (exists f, 0 <= f < 2 /\ b_kind (bc f) <> 1) \/ (exists i, patch1 i0 i1 i /\ (0 < (fun i => alpha * c i)%Qc i)%Qc)) by (destruct Hd as [H|(Pa & i & Ip & Pc)]; [now left|right; exists i; split; [exact Ip|now apply Qc_pos_mul]]). clear Hd.
  intros i Ip. split.
  - apply flip'. revert i Ip. apply (below1 i0 i1 dx beta (fun i => alpha * c i)%Qc v0 bc true Hb Hdx (fun i Ip => Qc_mul _ _ Ha (Hc i Ip)) Hv0 Hs Ro Hh z w M HM). intros i Ip. rewrite <- (bvp_v1_1d i0 i1 dx beta b0 gcw u f0 alpha agcw a rgcw res bc m r w c v0 F Hb Hdx Hv0 Hs Ro i Ip), <- (bvp_v1_1d i0 i1 dx beta b0 gcw u f0 alpha agcw a rgcw res bc n s z c v0 G Hb Hdx Hv0 Hs Ro i Ip). apply flip. now apply Hr.
  - revert i Ip. apply (below1 i0 i1 dx beta (fun i => alpha * c i)%Qc v0 bc true Hb Hdx (fun i Ip => Qc_mul _ _ Ha (Hc i Ip)) Hv0 Hs Ro Hh w z M HM). intros i Ip. rewrite <- (bvp_v1_1d i0 i1 dx beta b0 gcw u f0 alpha agcw a rgcw res bc m r w c v0 F Hb Hdx Hv0 Hs Ro i Ip), <- (bvp_v1_1d i0 i1 dx beta b0 gcw u f0 alpha agcw a rgcw res bc n s z c v0 G Hb Hdx Hv0 Hs Ro i Ip). now apply Hr.
Qed.

Lemma breact_v2_1d i0 i1 (dx : Z -> Qc) (beta : Qc) b0 gcw u f0 (alpha : Qc) rgcw res bc (m n : mem QcS) (r w s z v0 : Z -> Qc) :
  filled_v2_1d (S := QcS) i0 i1 dx beta b0 gcw u f0 alpha rgcw res bc m r w v0 ->
  filled_v2_1d (S := QcS) i0 i1 dx beta b0 gcw u f0 alpha rgcw res bc n s z v0 ->
  (0 < beta)%Qc ->
  (forall d, 0 <= d < 1 -> (0 < dx d)%Qc) ->
  (0 <= alpha)%Qc ->
  (forall i, i0 <= i <= i1 + 1 -> (0 < v0 i)%Qc) ->
  (forall f, 0 <= f < 2 -> sound true (bc f)) ->
  roomy 1 (ends1 i0) (ends1 i1) bc ->
  ((exists f, 0 <= f < 2 /\ b_kind (bc f) <> 1) \/ (0 < alpha)%Qc) ->
  forall M : Qc, (0 <= M)%Qc ->
  (forall i, patch1 i0 i1 i -> (- (M * alpha) <= r i - s i <= M * alpha)%Qc) ->
  forall i, patch1 i0 i1 i -> (- M <= w i - z i <= M)%Qc.
Proof.
  intros F G Hb Hdx Ha Hv0 Hs Ro Hd M HM Hr. 
  assert (Hh : (exists f, 0 <= f < 2 /\ b_kind (bc f) <> 1) \/ (exists i, patch1 i0 i1 i /\ (0 < (fun _ => alpha) i)%Qc)) by (destruct Hd as [H|H]; [now left|right; exists i0; split; [pose proof (roomy_le 1 (ends1 i0) (ends1 i1) bc Ro 0 ltac:(lia)) as B0; change (i0 <= i1) in B0; unfold patch1; lia|exact H]]). clear Hd.
  intros i Ip. split.
  - apply flip'. revert i Ip. apply (below1 i0 i1 dx beta (fun _ => alpha) v0 bc true Hb Hdx (fun _ _ => Ha) Hv0 Hs Ro Hh z w M HM). intros i Ip. rewrite <- (bvp_v2_1d i0 i1 dx beta b0 gcw u f0 alpha rgcw res bc m r w v0 F Hb Hdx Hv0 Hs Ro i Ip), <- (bvp_v2_1d i0 i1 dx beta b0 gcw u f0 alpha rgcw res bc n s z v0 G Hb Hdx Hv0 Hs Ro i Ip). apply flip. now apply Hr.
  - revert i Ip. apply (below1 i0 i1 dx beta (fun _ => alpha) v0 bc true Hb Hdx (fun _ _ => Ha) Hv0 Hs Ro Hh w z M HM). intros i Ip. rewrite <- (bvp_v2_1d i0 i1 dx beta b0 gcw u f0 alpha rgcw res bc m r w v0 F Hb Hdx Hv0 Hs Ro i Ip), <- (bvp_v2_1d i0 i1 dx beta b0 gcw u f0 alpha rgcw res bc n s z v0 G Hb Hdx Hv0 Hs Ro i Ip). now apply Hr.
Qed.

Lemma barc_poisson_1d_0 i0 i1 (dx : Z -> Qc) (beta : Qc) gcw u f0 rgcw res bc (m n : mem QcS) (r w s z : Z -> Qc) :
  filled_poisson_1d (S := QcS) i0 i1 dx beta gcw u f0 rgcw res bc m r w ->
  filled_poisson_1d (S := QcS) i0 i1 dx beta gcw u f0 rgcw res bc n s z ->
  (0 < beta)%Qc ->
  (forall d, 0 <= d < 1 -> (0 < dx d)%Qc) ->
  (forall f, 0 <= f < 2 -> sound false (bc f)) ->
  roomy 1 (ends1 i0) (ends1 i1) bc ->
  b_kind (bc 0) = 0 ->
  b_order (bc 0) = 1 ->
  b_kind (bc 1) = 0 ->
  b_order (bc 1) = 1 ->
  forall M : Qc, (0 <= M)%Qc ->
  (forall i, patch1 i0 i1 i -> (- M <= r i - s i <= M)%Qc) ->
  forall i, patch1 i0 i1 i -> (- (M / beta * reach (i1 - i0 + 1) (dx 0%Z)) <= w i - z i <= (M / beta * reach (i1 - i0 + 1) (dx 0%Z)))%Qc.
Proof.
  intros F G Hb Hdx Hs Ro K0 O0 K1 O1 M HM Hr.
  intros i Ip. split.
  - apply flip'. revert i Ip. apply (within1_0 i0 i1 dx beta bc false Hb Hdx Hs Ro z w M K0 O0 K1 O1 HM). intros i Ip. rewrite <- (bvp_poisson_1d i0 i1 dx beta gcw u f0 rgcw res bc m r w  F Hb Hdx Hs Ro i Ip), <- (bvp_poisson_1d i0 i1 dx beta gcw u f0 rgcw res bc n s z  G Hb Hdx Hs Ro i Ip). apply flip. now apply Hr.
  - revert i Ip. apply (within1_0 i0 i1 dx beta bc false Hb Hdx Hs Ro w z M K0 O0 K1 O1 HM). intros i Ip. rewrite <- (bvp_poisson_1d i0 i1 dx beta gcw u f0 rgcw res bc m r w  F Hb Hdx Hs Ro i Ip), <- (bvp_poisson_1d i0 i1 dx beta gcw u f0 rgcw res bc n s z  G Hb Hdx Hs Ro i Ip). now apply Hr.
Qed.

Lemma breact_v1_2d i0 j0 i1 j1 (dx : Z -> Qc) (beta : Qc) b0 b1 gcw u f0 f1 (alpha : Qc) agcw a rgcw res bc (m n : mem QcS) (r w s z c v0 v1 : Z -> Z -> Qc) :
  filled_v1_2d (S := QcS) i0 j0 i1 j1 dx beta b0 b1 gcw u f0 f1 alpha agcw a rgcw res bc m r w c v0 v1 ->
  filled_v1_2d (S := QcS) i0 j0 i1 j1 dx beta b0 b1 gcw u f0 f1 alpha agcw a rgcw res bc n s z c v0 v1 ->
  (0 < beta)%Qc ->
  (forall d, 0 <= d < 2 -> (0 < dx d)%Qc) ->
  (0 <= alpha)%Qc ->
  (forall i j, patch2 i0 j0 i1 j1 i j -> (0 <= c i j)%Qc) ->
  (forall i j, i0 <= i <= i1 + 1 -> j0 <= j <= j1 -> (0 < v0 i j)%Qc) ->
  (forall i j, i0 <= i <= i1 -> j0 <= j <= j1 + 1 -> (0 < v1 i j)%Qc) ->
  (forall f, 0 <= f < 4 -> sound true (bc f)) ->
  roomy 2 (ends2 i0 j0) (ends2 i1 j1) bc ->
  ((exists f, 0 <= f < 4 /\ b_kind (bc f) <> 1) \/ (0 < alpha)%Qc /\ (exists i j, patch2 i0 j0 i1 j1 i j /\ (0 < c i j)%Qc)) ->
  forall M : Qc, (0 <= M)%Qc ->
  (forall i j, patch2 i0 j0 i1 j1 i j -> (- (M * (alpha * c i j)) <= r i j - s i j <= M * (alpha * c i j))%Qc) ->
  forall i j, patch2 i0 j0 i1 j1 i j -> (- M <= w i j - z i j <= M)%Qc.
Proof.
  intros F G Hb Hdx Ha Hc Hv0 Hv1 Hs Ro Hd M HM Hr. assert (Hw1 : forall i j, i0 <= i <= i1 -> j0 <= j <= j1 + 1 -> (0 <= v1 i j)%Qc) by (intros; apply Qclt_le_weak, Hv1; assumption).
  assert (Hh : (exists f, 0 <= f < 4 /\ b_kind (bc f) <> 1) \/ (exists i j, patch2 i0 j0 i1 j1 i j /\ (0 < (fun i j => alpha * c i j)%Qc i j)%Qc)) by (destruct Hd as [H|(Pa & i & j & Ip & Pc)]; [now left|right; exists i, j; split; [exact Ip|now apply Qc_pos_mul]]). clear Hd.
  intros i j Ip. split.
  - apply flip'. revert i j Ip. apply (below2 i0 j0 i1 j1 dx beta (fun i j => alpha * c i j)%Qc v0 v1 bc true Hb Hdx (fun i j Ip => Qc_mul _ _ Ha (Hc i j Ip)) Hv0 Hv1 Hs Ro Hh z w M HM). intros i j Ip. rewrite <- (bvp_v1_2d i0 j0 i1 j1 dx beta b0 b1 gcw u f0 f1 alpha agcw a rgcw res bc m r w c v0 v1 F Hb Hdx Hv0 Hw1 Hs Ro i j Ip), <- (bvp_v1_2d i0 j0 i1 j1 dx beta b0 b1 gcw u f0 f1 alpha agcw a rgcw res bc n s z c v0 v1 G Hb Hdx Hv0 Hw1 Hs Ro i j Ip). apply flip. now apply Hr.
  - revert i j Ip. apply (below2 i0 j0 i1 j1 dx beta (fun i j => alpha * c i j)%Qc v0 v1 bc true Hb Hdx (fun i j Ip => Qc_mul _ _ Ha (Hc i j Ip)) Hv0 Hv1 Hs Ro Hh w z M HM). intros i j Ip. rewrite <- (bvp_v1_2d i0 j0 i1 j1 dx beta b0 b1 gcw u f0 f1 alpha agcw a rgcw res bc m r w c v0 v1 F Hb Hdx Hv0 Hw1 Hs Ro i j Ip), <- (bvp_v1_2d i0 j0 i1 j1 dx beta b0 b1 gcw u f0 f1 alpha agcw a rgcw res bc n s z c v0 v1 G Hb Hdx Hv0 Hw1 Hs Ro i j Ip). now apply Hr.
Qed.

Lemma breact_v2_2d i0 j0 i1 j1 (dx : Z -> Qc) (beta : Qc) b0 b1 gcw u f0 f1 (alpha : Qc) rgcw res bc (m n : mem QcS) (r w s z v0 v1 : Z -> Z -> Qc) :
  filled_v2_2d (S := QcS) i0 j0 i1 j1 dx beta b0 b1 gcw u f0 f1 alpha rgcw res bc m r w v0 v1 ->
  filled_v2_2d (S := QcS) i0 j0 i1 j1 dx beta b0 b1 gcw u f0 f1 alpha rgcw res bc n s z v0 v1 ->
  (0 < beta)%Qc ->
  (forall d, 0 <= d < 2 -> (0 < dx d)%Qc) ->
  (0 <= alpha)%Qc ->
  (forall i j, i0 <= i <= i1 + 1 -> j0 <= j <= j1 -> (0 < v0 i j)%Qc) ->
  (forall i j, i0 <= i <= i1 -> j0 <= j <= j1 + 1 -> (0 < v1 i j)%Qc) ->
  (forall f, 0 <= f < 4 -> sound true (bc f)) ->
  roomy 2 (ends2 i0 j0) (ends2 i1 j1) bc ->
  ((exists f, 0 <= f < 4 /\ b_kind (bc f) <> 1) \/ (0 < alpha)%Qc) ->
  forall M : Qc, (0 <= M)%Qc ->
  (forall i j, patch2 i0 j0 i1 j1 i j -> (- (M * alpha) <= r i j - s i j <= M * alpha)%Qc) ->
  forall i j, patch2 i0 j0 i1 j1 i j -> (- M <= w i j - z i j <= M)%Qc.
Proof.
  intros F G Hb Hdx Ha Hv0 Hv1 Hs Ro Hd M HM Hr. assert (Hw1 : forall i j, i0 <= i <= i1 -> j0 <= j <= j1 + 1 -> (0 <= v1 i j)%Qc) by (intros; apply Qclt_le_weak, Hv1; assumption).
  assert (Hh : (exists f, 0 <= f < 4 /\ b_kind (bc f) <> 1) \/ (exists i j, patch2 i0 j0 i1 j1 i j /\ (0 < (fun _ _ => alpha) i j)%Qc)) by (destruct Hd as [H|H]; [now left|right; exists i0, j0; split; [pose proof (roomy_le 2 (ends2 i0 j0) (ends2 i1 j1) bc Ro 0 ltac:(lia)) as B0; change (i0 <= i1) in B0; pose proof (roomy_le 2 (ends2 i0 j0) (ends2 i1 j1) bc Ro 1 ltac:(lia)) as B1; change (j0 <= j1) in B1; unfold patch2; lia|exact H]]). clear Hd.
  intros i j Ip. split.
  - apply flip'. revert i j Ip. apply (below2 i0 j0 i1 j1 dx beta (fun _ _ => alpha) v0 v1 bc true Hb Hdx (fun _ _ _ => Ha) Hv0 Hv1 Hs Ro Hh z w M HM). intros i j Ip. rewrite <- (bvp_v2_2d i0 j0 i1 j1 dx beta b0 b1 gcw u f0 f1 alpha rgcw res bc m r w v0 v1 F Hb Hdx Hv0 Hw1 Hs Ro i j Ip), <- (bvp_v2_2d i0 j0 i1 j1 dx beta b0 b1 gcw u f0 f1 alpha rgcw res bc n s z v0 v1 G Hb Hdx Hv0 Hw1 Hs Ro i j Ip). apply flip. now apply Hr.
  - revert i j Ip. apply (below2 i0 j0 i1 j1 dx beta (fun _ _ => alpha) v0 v1 bc true Hb Hdx (fun _ _ _ => Ha) Hv0 Hv1 Hs Ro Hh w z M HM). intros i j Ip. rewrite <- (bvp_v2_2d i0 j0 i1 j1 dx beta b0 b1 gcw u f0 f1 alpha rgcw res bc m r w v0 v1 F Hb Hdx Hv0 Hw1 Hs Ro i j Ip), <- (bvp_v2_2d i0 j0 i1 j1 dx beta b0 b1 gcw u f0 f1 alpha rgcw res bc n s z v0 v1 G Hb Hdx Hv0 Hw1 Hs Ro i j Ip). now apply Hr.
Qed.

Lemma barc_poisson_2d_0 i0 j0 i1 j1 (dx : Z -> Qc) (beta : Qc) gcw u f0 f1 rgcw res bc (m n : mem QcS) (r w s z : Z -> Z -> Qc) :
  filled_poisson_2d (S := QcS) i0 j0 i1 j1 dx beta gcw u f0 f1 rgcw res bc m r w ->
  filled_poisson_2d (S := QcS) i0 j0 i1 j1 dx beta gcw u f0 f1 rgcw res bc n s z ->
  (0 < beta)%Qc ->
  (forall d, 0 <= d < 2 -> (0 < dx d)%Qc) ->
  (forall f, 0 <= f < 4 -> sound false (bc f)) ->
  roomy 2 (ends2 i0 j0) (ends2 i1 j1) bc ->
  b_kind (bc 0) = 0 ->
  b_order (bc 0) = 1 ->
  b_kind (bc 1) = 0 ->
  b_order (bc 1) = 1 ->
  forall M : Qc, (0 <= M)%Qc ->
  (forall i j, patch2 i0 j0 i1 j1 i j -> (- M <= r i j - s i j <= M)%Qc) ->
  forall i j, patch2 i0 j0 i1 j1 i j -> (- (M / beta * reach (i1 - i0 + 1) (dx 0%Z)) <= w i j - z i j <= (M / beta * reach (i1 - i0 + 1) (dx 0%Z)))%Qc.
Proof.
  intros F G Hb Hdx Hs Ro K0 O0 K1 O1 M HM Hr.
  intros i j Ip. split.
  - apply flip'. revert i j Ip. apply (within2_0 i0 j0 i1 j1 dx beta bc false Hb Hdx Hs Ro z w M K0 O0 K1 O1 HM). intros i j Ip. rewrite <- (bvp_poisson_2d i0 j0 i1 j1 dx beta gcw u f0 f1 rgcw res bc m r w  F Hb Hdx Hs Ro i j Ip), <- (bvp_poisson_2d i0 j0 i1 j1 dx beta gcw u f0 f1 rgcw res bc n s z  G Hb Hdx Hs Ro i j Ip). apply flip. now apply Hr.
  - revert i j Ip. apply (within2_0 i0 j0 i1 j1 dx beta bc false Hb Hdx Hs Ro w z M K0 O0 K1 O1 HM). intros i j Ip. rewrite <- (bvp_poisson_2d i0 j0 i1 j1 dx beta gcw u f0 f1 rgcw res bc m r w  F Hb Hdx Hs Ro i j Ip), <- (bvp_poisson_2d i0 j0 i1 j1 dx beta gcw u f0 f1 rgcw res bc n s z  G Hb Hdx Hs Ro i j Ip). now apply Hr.
Qed.

Lemma barc_poisson_2d_1 i0 j0 i1 j1 (dx : Z -> Qc) (beta : Qc) gcw u f0 f1 rgcw res bc (m n : mem QcS) (r w s z : Z -> Z -> Qc) :
  filled_poisson_2d (S := QcS) i0 j0 i1 j1 dx beta gcw u f0 f1 rgcw res bc m r w ->
  filled_poisson_2d (S := QcS) i0 j0 i1 j1 dx beta gcw u f0 f1 rgcw res bc n s z ->
  (0 < beta)%Qc ->
  (forall d, 0 <= d < 2 -> (0 < dx d)%Qc) ->
  (forall f, 0 <= f < 4 -> sound false (bc f)) ->
  roomy 2 (ends2 i0 j0) (ends2 i1 j1) bc ->
  b_kind (bc 2) = 0 ->
  b_order (bc 2) = 1 ->
  b_kind (bc 3) = 0 ->
  b_order (bc 3) = 1 ->
  forall M : Qc, (0 <= M)%Qc ->
  (forall i j, patch2 i0 j0 i1 j1 i j -> (- M <= r i j - s i j <= M)%Qc) ->
  forall i j, patch2 i0 j0 i1 j1 i j -> (- (M / beta * reach (j1 - j0 + 1) (dx 1%Z)) <= w i j - z i j <= (M / beta * reach (j1 - j0 + 1) (dx 1%Z)))%Qc.
Proof.
  intros F G Hb Hdx Hs Ro K0 O0 K1 O1 M HM Hr.
  intros i j Ip. split.
  - apply flip'. revert i j Ip. apply (within2_1 i0 j0 i1 j1 dx beta bc false Hb Hdx Hs Ro z w M K0 O0 K1 O1 HM). intros i j Ip. rewrite <- (bvp_poisson_2d i0 j0 i1 j1 dx beta gcw u f0 f1 rgcw res bc m r w  F Hb Hdx Hs Ro i j Ip), <- (bvp_poisson_2d i0 j0 i1 j1 dx beta gcw u f0 f1 rgcw res bc n s z  G Hb Hdx Hs Ro i j Ip). apply flip. now apply Hr.
  - revert i j Ip. apply (within2_1 i0 j0 i1 j1 dx beta bc false Hb Hdx Hs Ro w z M K0 O0 K1 O1 HM). intros i j Ip. rewrite <- (bvp_poisson_2d i0 j0 i1 j1 dx beta gcw u f0 f1 rgcw res bc m r w  F Hb Hdx Hs Ro i j Ip), <- (bvp_poisson_2d i0 j0 i1 j1 dx beta gcw u f0 f1 rgcw res bc n s z  G Hb Hdx Hs Ro i j Ip). now apply Hr.
Qed.

Lemma breact_v1_3d i0 j0 k0 i1 j1 k1 (dx : Z -> Qc) (beta : Qc) b0 b1 b2 gcw u f0 f1 f2 (alpha : Qc) agcw a rgcw res bc (m n : mem QcS) (r w s z c v0 v1 v2 : Z -> Z -> Z -> Qc) :
  filled_v1_3d (S := QcS) i0 j0 k0 i1 j1 k1 dx beta b0 b1 b2 gcw u f0 f1 f2 alpha agcw a rgcw res bc m r w c v0 v1 v2 ->
  filled_v1_3d (S := QcS) i0 j0 k0 i1 j1 k1 dx beta b0 b1 b2 gcw u f0 f1 f2 alpha agcw a rgcw res bc n s z c v0 v1 v2 ->
  (0 < beta)%Qc ->
  (forall d, 0 <= d < 3 -> (0 < dx d)%Qc) ->
  (0 <= alpha)%Qc ->
  (forall i j k, patch3 i0 j0 k0 i1 j1 k1 i j k -> (0 <= c i j k)%Qc) ->
  (forall i j k, i0 <= i <= i1 + 1 -> j0 <= j <= j1 -> k0 <= k <= k1 -> (0 < v0 i j k)%Qc) ->
  (forall i j k, i0 <= i <= i1 -> j0 <= j <= j1 + 1 -> k0 <= k <= k1 -> (0 < v1 i j k)%Qc) ->
  (forall i j k, i0 <= i <= i1 -> j0 <= j <= j1 -> k0 <= k <= k1 + 1 -> (0 < v2 i j k)%Qc) ->
  (forall f, 0 <= f < 6 -> sound true (bc f)) ->
  roomy 3 (ends3 i0 j0 k0) (ends3 i1 j1 k1) bc ->
  ((exists f, 0 <= f < 6 /\ b_kind (bc f) <> 1) \/ (0 < alpha)%Qc /\ (exists i j k, patch3 i0 j0 k0 i1 j1 k1 i j k /\ (0 < c i j k)%Qc)) ->
  forall M : Qc, (0 <= M)%Qc ->
  (forall i j k, patch3 i0 j0 k0 i1 j1 k1 i j k -> (- (M * (alpha * c i j k)) <= r i j k - s i j k <= M * (alpha * c i j k))%Qc) ->
  forall i j k, patch3 i0 j0 k0 i1 j1 k1 i j k -> (- M <= w i j k - z i j k <= M)%Qc.
Proof.
  intros F G Hb Hdx Ha Hc Hv0 Hv1 Hv2 Hs Ro Hd M HM Hr. assert (Hw1 : forall i j k, i0 <= i <= i1 -> j0 <= j <= j1 + 1 -> k0 <= k <= k1 -> (0 <= v1 i j k)%Qc) by (intros; apply Qclt_le_weak, Hv1; assumption). assert (Hw2 : forall i j k, i0 <= i <= i1 -> j0 <= j <= j1 -> k0 <= k <= k1 + 1 -> (0 <= v2 i j k)%Qc) by (intros; apply Qclt_le_weak, Hv2; assumption).
  assert (Hh : (exists f, 0 <= f < 6 /\ b_kind (bc f) <> 1) \/ (exists i j k, patch3 i0 j0 k0 i1 j1 k1 i j k /\ (0 < (fun i j k => alpha * c i j k)%Qc i j k)%Qc)) by (destruct Hd as [H|(Pa & i & j & k & Ip & Pc)]; [now left|right; exists i, j, k; split; [exact Ip|now apply Qc_pos_mul]]). clear Hd.
  intros i j k Ip. split.
  - apply flip'. revert i j k Ip. apply (below3 i0 j0 k0 i1 j1 k1 dx beta (fun i j k => alpha * c i j k)%Qc v0 v1 v2 bc true Hb Hdx (fun i j k Ip => Qc_mul _ _ Ha (Hc i j k Ip)) Hv0 Hv1 Hv2 Hs Ro Hh z w M HM). intros i j k Ip. rewrite <- (bvp_v1_3d i0 j0 k0 i1 j1 k1 dx beta b0 b1 b2 gcw u f0 f1 f2 alpha agcw a rgcw res bc m r w c v0 v1 v2 F Hb Hdx Hv0 Hw1 Hw2 Hs Ro i j k Ip), <- (bvp_v1_3d i0 j0 k0 i1 j1 k1 dx beta b0 b1 b2 gcw u f0 f1 f2 alpha agcw a rgcw res bc n s z c v0 v1 v2 G Hb Hdx Hv0 Hw1 Hw2 Hs Ro i j k Ip). apply flip. now apply Hr.
  - revert i j k Ip. apply (below3 i0 j0 k0 i1 j1 k1 dx beta (fun i j k => alpha * c i j k)%Qc v0 v1 v2 bc true Hb Hdx (fun i j k Ip => Qc_mul _ _ Ha (Hc i j k Ip)) Hv0 Hv1 Hv2 Hs Ro Hh w z M HM). intros i j k Ip. rewrite <- (bvp_v1_3d i0 j0 k0 i1 j1 k1 dx beta b0 b1 b2 gcw u f0 f1 f2 alpha agcw a rgcw res bc m r w c v0 v1 v2 F Hb Hdx Hv0 Hw1 Hw2 Hs Ro i j k Ip), <- (bvp_v1_3d i0 j0 k0 i1 j1 k1 dx beta b0 b1 b2 gcw u f0 f1 f2 alpha agcw a rgcw res bc n s z c v0 v1 v2 G Hb Hdx Hv0 Hw1 Hw2 Hs Ro i j k Ip). now apply Hr.
Qed.

Lemma breact_v2_3d i0 j0 k0 i1 j1 k1 (dx : Z -> Qc) (beta : Qc) b0 b1 b2 gcw u f0 f1 f2 (alpha : Qc) rgcw res bc (m n : mem QcS) (r w s z v0 v1 v2 : Z -> Z -> Z -> Qc) :
  filled_v2_3d (S := QcS) i0 j0 k0 i1 j1 k1 dx beta b0 b1 b2 gcw u f0 f1 f2 alpha rgcw res bc m r w v0 v1 v2 ->
  filled_v2_3d (S := QcS) i0 j0 k0 i1 j1 k1 dx beta b0 b1 b2 gcw u f0 f1 f2 alpha rgcw res bc n s z v0 v1 v2 ->
  (0 < beta)%Qc ->
  (forall d, 0 <= d < 3 -> (0 < dx d)%Qc) ->
  (0 <= alpha)%Qc ->
  (forall i j k, i0 <= i <= i1 + 1 -> j0 <= j <= j1 -> k0 <= k <= k1 -> (0 < v0 i j k)%Qc) ->
  (forall i j k, i0 <= i <= i1 -> j0 <= j <= j1 + 1 -> k0 <= k <= k1 -> (0 < v1 i j k)%Qc) ->
  (forall i j k, i0 <= i <= i1 -> j0 <= j <= j1 -> k0 <= k <= k1 + 1 -> (0 < v2 i j k)%Qc) ->
  (forall f, 0 <= f < 6 -> sound true (bc f)) ->
  roomy 3 (ends3 i0 j0 k0) (ends3 i1 j1 k1) bc ->
  ((exists f, 0 <= f < 6 /\ b_kind (bc f) <> 1) \/ (0 < alpha)%Qc) ->
  forall M : Qc, (0 <= M)%Qc ->
  (forall i j k, patch3 i0 j0 k0 i1 j1 k1 i j k -> (- (M * alpha) <= r i j k - s i j k <= M * alpha)%Qc) ->
  forall i j k, patch3 i0 j0 k0 i1 j1 k1 i j k -> (- M <= w i j k - z i j k <= M)%Qc.
Proof.
  intros F G Hb Hdx Ha Hv0 Hv1 Hv2 Hs Ro Hd M HM Hr. assert (Hw1 : forall i j k, i0 <= i <= i1 -> j0 <= j <= j1 + 1 -> k0 <= k <= k1 -> (0 <= v1 i j k)%Qc) by (intros; apply Qclt_le_weak, Hv1; assumption). assert (Hw2 : forall i j k, i0 <= i <= i1 -> j0 <= j <= j1 -> k0 <= k <= k1 + 1 -> (0 <= v2 i j k)%Qc) by (intros; apply Qclt_le_weak, Hv2; assumption).
  assert (Hh : (exists f, 0 <= f < 6 /\ b_kind (bc f) <> 1) \/ (exists i j k, patch3 i0 j0 k0 i1 j1 k1 i j k /\ (0 < (fun _ _ _ => alpha) i j k)%Qc)) by (destruct Hd as [H|H]; [now left|right; exists i0, j0, k0; split; [pose proof (roomy_le 3 (ends3 i0 j0 k0) (ends3 i1 j1 k1) bc Ro 0 ltac:(lia)) as B0; change (i0 <= i1) in B0; pose proof (roomy_le 3 (ends3 i0 j0 k0) (ends3 i1 j1 k1) bc Ro 1 ltac:(lia)) as B1; change (j0 <= j1) in B1; pose proof (roomy_le 3 (ends3 i0 j0 k0) (ends3 i1 j1 k1) bc Ro 2 ltac:(lia)) as B2; change (k0 <= k1) in B2; unfold patch3; lia|exact H]]). clear Hd.
  intros i j k Ip. split.
  - apply flip'. revert i j k Ip. apply (below3 i0 j0 k0 i1 j1 k1 dx beta (fun _ _ _ => alpha) v0 v1 v2 bc true Hb Hdx (fun _ _ _ _ => Ha) Hv0 Hv1 Hv2 Hs Ro Hh z w M HM). intros i j k Ip. rewrite <- (bvp_v2_3d i0 j0 k0 i1 j1 k1 dx beta b0 b1 b2 gcw u f0 f1 f2 alpha rgcw res bc m r w v0 v1 v2 F Hb Hdx Hv0 Hw1 Hw2 Hs Ro i j k Ip), <- (bvp_v2_3d i0 j0 k0 i1 j1 k1 dx beta b0 b1 b2 gcw u f0 f1 f2 alpha rgcw res bc n s z v0 v1 v2 G Hb Hdx Hv0 Hw1 Hw2 Hs Ro i j k Ip). apply flip. now apply Hr.
  - revert i j k Ip. apply (below3 i0 j0 k0 i1 j1 k1 dx beta (fun _ _ _ => alpha) v0 v1 v2 bc true Hb Hdx (fun _ _ _ _ => Ha) Hv0 Hv1 Hv2 Hs Ro Hh w z M HM). intros i j k Ip. rewrite <- (bvp_v2_3d i0 j0 k0 i1 j1 k1 dx beta b0 b1 b2 gcw u f0 f1 f2 alpha rgcw res bc m r w v0 v1 v2 F Hb Hdx Hv0 Hw1 Hw2 Hs Ro i j k Ip), <- (bvp_v2_3d i0 j0 k0 i1 j1 k1 dx beta b0 b1 b2 gcw u f0 f1 f2 alpha rgcw res bc n s z v0 v1 v2 G Hb Hdx Hv0 Hw1 Hw2 Hs Ro i j k Ip). now apply Hr.
Qed.

Lemma barc_poisson_3d_0 i0 j0 k0 i1 j1 k1 (dx : Z -> Qc) (beta : Qc) gcw u f0 f1 f2 rgcw res bc (m n : mem QcS) (r w s z : Z -> Z -> Z -> Qc) :
  filled_poisson_3d (S := QcS) i0 j0 k0 i1 j1 k1 dx beta gcw u f0 f1 f2 rgcw res bc m r w ->
  filled_poisson_3d (S := QcS) i0 j0 k0 i1 j1 k1 dx beta gcw u f0 f1 f2 rgcw res bc n s z ->
  (0 < beta)%Qc ->
  (forall d, 0 <= d < 3 -> (0 < dx d)%Qc) ->
  (forall f, 0 <= f < 6 -> sound false (bc f)) ->
  roomy 3 (ends3 i0 j0 k0) (ends3 i1 j1 k1) bc ->
  b_kind (bc 0) = 0 ->
  b_order (bc 0) = 1 ->
  b_kind (bc 1) = 0 ->
  b_order (bc 1) = 1 ->
  forall M : Qc, (0 <= M)%Qc ->
  (forall i j k, patch3 i0 j0 k0 i1 j1 k1 i j k -> (- M <= r i j k - s i j k <= M)%Qc) ->
  forall i j k, patch3 i0 j0 k0 i1 j1 k1 i j k -> (- (M / beta * reach (i1 - i0 + 1) (dx 0%Z)) <= w i j k - z i j k <= (M / beta * reach (i1 - i0 + 1) (dx 0%Z)))%Qc.
Proof.
  intros F G Hb Hdx Hs Ro K0 O0 K1 O1 M HM Hr.
  intros i j k Ip. split.
  - apply flip'. revert i j k Ip. apply (within3_0 i0 j0 k0 i1 j1 k1 dx beta bc false Hb Hdx Hs Ro z w M K0 O0 K1 O1 HM). intros i j k Ip. rewrite <- (bvp_poisson_3d i0 j0 k0 i1 j1 k1 dx beta gcw u f0 f1 f2 rgcw res bc m r w  F Hb Hdx Hs Ro i j k Ip), <- (bvp_poisson_3d i0 j0 k0 i1 j1 k1 dx beta gcw u f0 f1 f2 rgcw res bc n s z  G Hb Hdx Hs Ro i j k Ip). apply flip. now apply Hr.
  - revert i j k Ip. apply (within3_0 i0 j0 k0 i1 j1 k1 dx beta bc false Hb Hdx Hs Ro w z M K0 O0 K1 O1 HM). intros i j k Ip. rewrite <- (bvp_poisson_3d i0 j0 k0 i1 j1 k1 dx beta gcw u f0 f1 f2 rgcw res bc m r w  F Hb Hdx Hs Ro i j k Ip), <- (bvp_poisson_3d i0 j0 k0 i1 j1 k1 dx beta gcw u f0 f1 f2 rgcw res bc n s z  G Hb Hdx Hs Ro i j k Ip). now apply Hr.
Qed.

Lemma barc_poisson_3d_1 i0 j0 k0 i1 j1 k1 (dx : Z -> Qc) (beta : Qc) gcw u f0 f1 f2 rgcw res bc (m n : mem QcS) (r w s z : Z -> Z -> Z -> Qc) :
  filled_poisson_3d (S := QcS) i0 j0 k0 i1 j1 k1 dx beta gcw u f0 f1 f2 rgcw res bc m r w ->
  filled_poisson_3d (S := QcS) i0 j0 k0 i1 j1 k1 dx beta gcw u f0 f1 f2 rgcw res bc n s z ->
  (0 < beta)%Qc ->
  (forall d, 0 <= d < 3 -> (0 < dx d)%Qc) ->
  (forall f, 0 <= f < 6 -> sound false (bc f)) ->
  roomy 3 (ends3 i0 j0 k0) (ends3 i1 j1 k1) bc ->
  b_kind (bc 2) = 0 ->
  b_order (bc 2) = 1 ->
  b_kind (bc 3) = 0 ->
  b_order (bc 3) = 1 ->
  forall M : Qc, (0 <= M)%Qc ->
  (forall i j k, patch3 i0 j0 k0 i1 j1 k1 i j k -> (- M <= r i j k - s i j k <= M)%Qc) ->
  forall i j k, patch3 i0 j0 k0 i1 j1 k1 i j k -> (- (M / beta * reach (j1 - j0 + 1) (dx 1%Z)) <= w i j k - z i j k <= (M / beta * reach (j1 - j0 + 1) (dx 1%Z)))%Qc.
Proof.
  intros F G Hb Hdx Hs Ro K0 O0 K1 O1 M HM Hr.
  intros i j k Ip. split.
  - apply flip'. revert i j k Ip. apply (within3_1 i0 j0 k0 i1 j1 k1 dx beta bc false Hb Hdx Hs Ro z w M K0 O0 K1 O1 HM). intros i j k Ip. rewrite <- (bvp_poisson_3d i0 j0 k0 i1 j1 k1 dx beta gcw u f0 f1 f2 rgcw res bc m r w  F Hb Hdx Hs Ro i j k Ip), <- (bvp_poisson_3d i0 j0 k0 i1 j1 k1 dx beta gcw u f0 f1 f2 rgcw res bc n s z  G Hb Hdx Hs Ro i j k Ip). apply flip. now apply Hr.
  - revert i j k Ip. apply (within3_1 i0 j0 k0 i1 j1 k1 dx beta bc false Hb Hdx Hs Ro w z M K0 O0 K1 O1 HM). intros i j k Ip. rewrite <- (bvp_poisson_3d i0 j0 k0 i1 j1 k1 dx beta gcw u f0 f1 f2 rgcw res bc m r w  F Hb Hdx Hs Ro i j k Ip), <- (bvp_poisson_3d i0 j0 k0 i1 j1 k1 dx beta gcw u f0 f1 f2 rgcw res bc n s z  G Hb Hdx Hs Ro i j k Ip). now apply Hr.
Qed.

Lemma barc_poisson_3d_2 i0 j0 k0 i1 j1 k1 (dx : Z -> Qc) (beta : Qc) gcw u f0 f1 f2 rgcw res bc (m n : mem QcS) (r w s z : Z -> Z -> Z -> Qc) :
  filled_poisson_3d (S := QcS) i0 j0 k0 i1 j1 k1 dx beta gcw u f0 f1 f2 rgcw res bc m r w ->
  filled_poisson_3d (S := QcS) i0 j0 k0 i1 j1 k1 dx beta gcw u f0 f1 f2 rgcw res bc n s z ->
  (0 < beta)%Qc ->
  (forall d, 0 <= d < 3 -> (0 < dx d)%Qc) ->
  (forall f, 0 <= f < 6 -> sound false (bc f)) ->
  roomy 3 (ends3 i0 j0 k0) (ends3 i1 j1 k1) bc ->
  b_kind (bc 4) = 0 ->
  b_order (bc 4) = 1 ->
  b_kind (bc 5) = 0 ->
  b_order (bc 5) = 1 ->
  forall M : Qc, (0 <= M)%Qc ->
  (forall i j k, patch3 i0 j0 k0 i1 j1 k1 i j k -> (- M <= r i j k - s i j k <= M)%Qc) ->
  forall i j k, patch3 i0 j0 k0 i1 j1 k1 i j k -> (- (M / beta * reach (k1 - k0 + 1) (dx 2%Z)) <= w i j k - z i j k <= (M / beta * reach (k1 - k0 + 1) (dx 2%Z)))%Qc.
Proof.
  intros F G Hb Hdx Hs Ro K0 O0 K1 O1 M HM Hr.
  intros i j k Ip. split.
  - apply flip'. revert i j k Ip. apply (within3_2 i0 j0 k0 i1 j1 k1 dx beta bc false Hb Hdx Hs Ro z w M K0 O0 K1 O1 HM). intros i j k Ip. rewrite <- (bvp_poisson_3d i0 j0 k0 i1 j1 k1 dx beta gcw u f0 f1 f2 rgcw res bc m r w  F Hb Hdx Hs Ro i j k Ip), <- (bvp_poisson_3d i0 j0 k0 i1 j1 k1 dx beta gcw u f0 f1 f2 rgcw res bc n s z  G Hb Hdx Hs Ro i j k Ip). apply flip. now apply Hr.
  - revert i j k Ip. apply (within3_2 i0 j0 k0 i1 j1 k1 dx beta bc false Hb Hdx Hs Ro w z M K0 O0 K1 O1 HM). intros i j k Ip. rewrite <- (bvp_poisson_3d i0 j0 k0 i1 j1 k1 dx beta gcw u f0 f1 f2 rgcw res bc m r w  F Hb Hdx Hs Ro i j k Ip), <- (bvp_poisson_3d i0 j0 k0 i1 j1 k1 dx beta gcw u f0 f1 f2 rgcw res bc n s z  G Hb Hdx Hs Ro i j k Ip). now apply Hr.
Qed.

