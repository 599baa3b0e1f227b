(** * The boundary value problem in memory as a quadratic form *)

From Coq Require Import Field QArith Qcanon.
From Verif Require Import Base FortranBase SpecKernel Instances SpecBoundary SpecBCOrder SpecBCCalls SpecRow
  LemSum LemEnergy SpecSolve LemSolve LemSolveOp LemSolveMem SpecBvp LemBvp LemBvpFill LemBvpOp LemBvpMem LemBvpAny LemBvpForm.
Import ListNotations.
Open Scope Z_scope.

Lemma form_v1_1d i0 i1 (dx : Z -> Qc) (beta : Qc) b0 gcw u f0 (alpha : Qc) agcw a rgcw res bc (m : mem QcS) (r w c v0 : Z -> Qc) (y : Z -> Qc) :
  filled_v1_1d (S := QcS) i0 i1 dx beta b0 gcw u f0 alpha agcw a rgcw res bc m r w c v0 ->
  (0 < beta)%Qc ->
  (forall d, 0 <= d < 1 -> (0 < dx d)%Qc) ->
  (forall i, i0 <= i <= i1 + 1 -> (0 < v0 i)%Qc) ->
  (forall f, 0 <= f < 2 -> sound true (bc f)) ->
  roomy 1 (ends1 i0) (ends1 i1) bc ->
  total (S := QcS) i0 i1 (fun i => r i * y i)%Qc = total (S := QcS) i0 i1 (fun i => op1 dx beta (fun i => alpha * c i)%Qc v0 (ext1 i0 i1 dx v0 bc w) i * y i)%Qc.
Proof.
  intros F Hb Hdx Hv0 Hs Ro. 
  apply (total_ext (S := QcS)). intros i Ii. now rewrite (bvp_v1_1d i0 i1 dx beta b0 gcw u f0 alpha agcw a rgcw res bc m r w c v0 F Hb Hdx Hv0 Hs Ro i ltac:(k_near)).
Qed.

Lemma fsym_v1_1d i0 i1 (dx : Z -> Qc) (beta : Qc) b0 gcw u f0 (alpha : Qc) agcw a rgcw res bc (m n : mem QcS) (r w s z c v0 : Z -> Qc) :
  filled_v1_1d (S := QcS) i0 i1 dx beta b0 gcw u f0 alpha agcw a rgcw res bc m r w c v0 ->
  filled_v1_1d (S := QcS) i0 i1 dx beta b0 gcw u f0 alpha agcw a rgcw res bc n s z c v0 ->
  (0 < beta)%Qc ->
  (forall d, 0 <= d < 1 -> (0 < dx d)%Qc) ->
  (forall i, i0 <= i <= i1 + 1 -> (0 < v0 i)%Qc) ->
  (forall f, 0 <= f < 2 -> sound true (bc f)) ->
  roomy 1 (ends1 i0) (ends1 i1) bc ->
  (forall f, 0 <= f < 2 -> b_kind (bc f) = 0 -> b_order (bc f) = 1) ->
  total (S := QcS) i0 i1 (fun i => r i * z i)%Qc =
  total (S := QcS) i0 i1 (fun i => s i * w i)%Qc.
Proof.
  intros F G Hb Hdx Hv0 Hs Ro Hk.
  rewrite (form_v1_1d i0 i1 dx beta b0 gcw u f0 alpha agcw a rgcw res bc m r w c v0 z F Hb Hdx Hv0 Hs Ro), (form_v1_1d i0 i1 dx beta b0 gcw u f0 alpha agcw a rgcw res bc n s z c v0 w G Hb Hdx Hv0 Hs Ro).
  exact (bsym1 i0 i1 dx beta (fun i => alpha * c i)%Qc v0 bc true Hdx Hv0 Hs Ro Hk w z).
Qed.

Lemma fnonneg_v1_1d i0 i1 (dx : Z -> Qc) (beta : Qc) b0 gcw u f0 (alpha : Qc) agcw a rgcw res bc (m : mem QcS) (r w c v0 : Z -> Qc) :
  filled_v1_1d (S := QcS) i0 i1 dx beta b0 gcw u f0 alpha agcw a rgcw res bc m r w c v0 ->
  (0 < beta)%Qc ->
  (forall d, 0 <= d < 1 -> (0 < dx d)%Qc) ->
  (0 <= alpha)%Qc ->
  (forall i, patch1 i0 i1 i -> (0 <= c i)%Qc) ->
  (forall i, i0 <= i <= i1 + 1 -> (0 < v0 i)%Qc) ->
  (forall f, 0 <= f < 2 -> sound true (bc f)) ->
  roomy 1 (ends1 i0) (ends1 i1) bc ->
  (forall f, 0 <= f < 2 -> b_kind (bc f) = 0 -> b_order (bc f) = 1) ->
  (0 <= total (S := QcS) i0 i1 (fun i => r i * w i)%Qc)%Qc.
Proof.
  intros F Hb Hdx Ha Hc Hv0 Hs Ro Hk.
  rewrite (form_v1_1d i0 i1 dx beta b0 gcw u f0 alpha agcw a rgcw res bc m r w c v0 w F Hb Hdx Hv0 Hs Ro).
  exact (bnonneg1 i0 i1 dx beta (fun i => alpha * c i)%Qc v0 bc true Hb Hdx Hv0 Hs Ro Hk (fun i Ip => Qc_mul _ _ Ha (Hc i Ip)) w).
Qed.

Lemma fdefinite_v1_1d i0 i1 (dx : Z -> Qc) (beta : Qc) b0 gcw u f0 (alpha : Qc) agcw a rgcw res bc (m : mem QcS) (r w c v0 : Z -> Qc) :
  filled_v1_1d (S := QcS) i0 i1 dx beta b0 gcw u f0 alpha agcw a rgcw res bc m r w c v0 ->
  (0 < beta)%Qc ->
  (forall d, 0 <= d < 1 -> (0 < dx d)%Qc) ->
  (0 <= alpha)%Qc ->
  (forall i, patch1 i0 i1 i -> (0 <= c i)%Qc) ->
  (forall i, i0 <= i <= i1 + 1 -> (0 < v0 i)%Qc) ->
  (forall f, 0 <= f < 2 -> sound true (bc f)) ->
  roomy 1 (ends1 i0) (ends1 i1) bc ->
  (forall f, 0 <= f < 2 -> b_kind (bc f) = 0 -> b_order (bc f) = 1) ->
  ((exists f, 0 <= f < 2 /\ b_kind (bc f) <> 1) \/ (0 < alpha)%Qc /\ (exists i, patch1 i0 i1 i /\ (0 < c i)%Qc)) ->
  forall i, patch1 i0 i1 i -> w i <> 0%Qc -> (0 < total (S := QcS) i0 i1 (fun i => r i * w i)%Qc)%Qc.
Proof.
  intros F Hb Hdx Ha Hc Hv0 Hs Ro Hk Hd.
  assert (Hh : (exists f, 0 <= f < 2 /\ b_kind (bc f) <> 1) \/ (exists i, patch1 i0 i1 i /\ (0 < (fun i => alpha * c i)%Qc i)%Qc)) by (destruct Hd as [H|(Pa & i & Ip & Pc)]; [now left|right; exists i; split; [exact Ip|now apply Qc_pos_mul]]). clear Hd. intros i Ip N.
  rewrite (form_v1_1d i0 i1 dx beta b0 gcw u f0 alpha agcw a rgcw res bc m r w c v0 w F Hb Hdx Hv0 Hs Ro).
  destruct (Qcle_lt_or_eq _ _ (bnonneg1 i0 i1 dx beta (fun i => alpha * c i)%Qc v0 bc true Hb Hdx Hv0 Hs Ro Hk (fun i Ip => Qc_mul _ _ Ha (Hc i Ip)) w)) as [P|E]; [exact P|].
  exfalso. apply N. exact (bdefinite1 i0 i1 dx beta (fun i => alpha * c i)%Qc v0 bc true Hb Hdx Hv0 Hs Ro Hk (fun i Ip => Qc_mul _ _ Ha (Hc i Ip)) w Hh (eq_sym E) i Ip).
Qed.

Lemma fenergy_v1_1d i0 i1 (dx : Z -> Qc) (beta : Qc) b0 gcw u f0 (alpha : Qc) agcw a rgcw res bc (m n : mem QcS) (r w s z c v0 : Z -> Qc) :
  filled_v1_1d (S := QcS) i0 i1 dx beta b0 gcw u f0 alpha agcw a rgcw res bc m r w c v0 ->
  filled_v1_1d (S := QcS) i0 i1 dx beta b0 gcw u f0 alpha agcw a rgcw res bc n s z c v0 ->
  (0 < beta)%Qc ->
  (forall d, 0 <= d < 1 -> (0 < dx d)%Qc) ->
  (0 <= alpha)%Qc ->
  (forall i, patch1 i0 i1 i -> (0 <= c i)%Qc) ->
  (forall i, i0 <= i <= i1 + 1 -> (0 < v0 i)%Qc) ->
  (forall f, 0 <= f < 2 -> sound true (bc f)) ->
  roomy 1 (ends1 i0) (ends1 i1) bc ->
  (forall f, 0 <= f < 2 -> b_kind (bc f) = 0 -> b_order (bc f) = 1) ->
  (total (S := QcS) i0 i1 (fun i => r i * w i)%Qc - (1 + 1) * total (S := QcS) i0 i1 (fun i => r i * w i)%Qc <=
   total (S := QcS) i0 i1 (fun i => s i * z i)%Qc - (1 + 1) * total (S := QcS) i0 i1 (fun i => r i * z i)%Qc)%Qc.
Proof.
  intros F G Hb Hdx Ha Hc Hv0 Hs Ro Hk.
  rewrite !(form_v1_1d i0 i1 dx beta b0 gcw u f0 alpha agcw a rgcw res bc m r w c v0 _ F Hb Hdx Hv0 Hs Ro), (form_v1_1d i0 i1 dx beta b0 gcw u f0 alpha agcw a rgcw res bc n s z c v0 z G Hb Hdx Hv0 Hs Ro).
  exact (benergy1 i0 i1 dx beta (fun i => alpha * c i)%Qc v0 bc true Hb Hdx Hv0 Hs Ro Hk (fun i Ip => Qc_mul _ _ Ha (Hc i Ip)) w z).
Qed.

Lemma form_v2_1d i0 i1 (dx : Z -> Qc) (beta : Qc) b0 gcw u f0 (alpha : Qc) rgcw res bc (m : mem QcS) (r w v0 : Z -> Qc) (y : Z -> Qc) :
  filled_v2_1d (S := QcS) i0 i1 dx beta b0 gcw u f0 alpha rgcw res bc m r w v0 ->
  (0 < beta)%Qc ->
  (forall d, 0 <= d < 1 -> (0 < dx d)%Qc) ->
  (forall i, i0 <= i <= i1 + 1 -> (0 < v0 i)%Qc) ->
  (forall f, 0 <= f < 2 -> sound true (bc f)) ->
  roomy 1 (ends1 i0) (ends1 i1) bc ->
  total (S := QcS) i0 i1 (fun i => r i * y i)%Qc = total (S := QcS) i0 i1 (fun i => op1 dx beta (fun _ => alpha) v0 (ext1 i0 i1 dx v0 bc w) i * y i)%Qc.
Proof.
  intros F Hb Hdx Hv0 Hs Ro. 
  apply (total_ext (S := QcS)). intros i Ii. now rewrite (bvp_v2_1d i0 i1 dx beta b0 gcw u f0 alpha rgcw res bc m r w v0 F Hb Hdx Hv0 Hs Ro i ltac:(k_near)).
Qed.

Lemma fsym_v2_1d i0 i1 (dx : Z -> Qc) (beta : Qc) b0 gcw u f0 (alpha : Qc) rgcw res bc (m n : mem QcS) (r w s z v0 : Z -> Qc) :
  filled_v2_1d (S := QcS) i0 i1 dx beta b0 gcw u f0 alpha rgcw res bc m r w v0 ->
  filled_v2_1d (S := QcS) i0 i1 dx beta b0 gcw u f0 alpha rgcw res bc n s z v0 ->
  (0 < beta)%Qc ->
  (forall d, 0 <= d < 1 -> (0 < dx d)%Qc) ->
  (forall i, i0 <= i <= i1 + 1 -> (0 < v0 i)%Qc) ->
  (forall f, 0 <= f < 2 -> sound true (bc f)) ->
  roomy 1 (ends1 i0) (ends1 i1) bc ->
  (forall f, 0 <= f < 2 -> b_kind (bc f) = 0 -> b_order (bc f) = 1) ->
  total (S := QcS) i0 i1 (fun i => r i * z i)%Qc =
  total (S := QcS) i0 i1 (fun i => s i * w i)%Qc.
Proof.
  intros F G Hb Hdx Hv0 Hs Ro Hk.
  rewrite (form_v2_1d i0 i1 dx beta b0 gcw u f0 alpha rgcw res bc m r w v0 z F Hb Hdx Hv0 Hs Ro), (form_v2_1d i0 i1 dx beta b0 gcw u f0 alpha rgcw res bc n s z v0 w G Hb Hdx Hv0 Hs Ro).
  exact (bsym1 i0 i1 dx beta (fun _ => alpha) v0 bc true Hdx Hv0 Hs Ro Hk w z).
Qed.

Lemma fnonneg_v2_1d i0 i1 (dx : Z -> Qc) (beta : Qc) b0 gcw u f0 (alpha : Qc) rgcw res bc (m : mem QcS) (r w v0 : Z -> Qc) :
  filled_v2_1d (S := QcS) i0 i1 dx beta b0 gcw u f0 alpha rgcw res bc m r w v0 ->
  (0 < beta)%Qc ->
  (forall d, 0 <= d < 1 -> (0 < dx d)%Qc) ->
  (0 <= alpha)%Qc ->
  (forall i, i0 <= i <= i1 + 1 -> (0 < v0 i)%Qc) ->
  (forall f, 0 <= f < 2 -> sound true (bc f)) ->
  roomy 1 (ends1 i0) (ends1 i1) bc ->
  (forall f, 0 <= f < 2 -> b_kind (bc f) = 0 -> b_order (bc f) = 1) ->
  (0 <= total (S := QcS) i0 i1 (fun i => r i * w i)%Qc)%Qc.
Proof.
  intros F Hb Hdx Ha Hv0 Hs Ro Hk.
  rewrite (form_v2_1d i0 i1 dx beta b0 gcw u f0 alpha rgcw res bc m r w v0 w F Hb Hdx Hv0 Hs Ro).
  exact (bnonneg1 i0 i1 dx beta (fun _ => alpha) v0 bc true Hb Hdx Hv0 Hs Ro Hk (fun _ _ => Ha) w).
Qed.

Lemma fdefinite_v2_1d i0 i1 (dx : Z -> Qc) (beta : Qc) b0 gcw u f0 (alpha : Qc) rgcw res bc (m : mem QcS) (r w v0 : Z -> Qc) :
  filled_v2_1d (S := QcS) i0 i1 dx beta b0 gcw u f0 alpha rgcw res bc m r w v0 ->
  (0 < beta)%Qc ->
  (forall d, 0 <= d < 1 -> (0 < dx d)%Qc) ->
  (0 <= alpha)%Qc ->
  (forall i, i0 <= i <= i1 + 1 -> (0 < v0 i)%Qc) ->
  (forall f, 0 <= f < 2 -> sound true (bc f)) ->
  roomy 1 (ends1 i0) (ends1 i1) bc ->
  (forall f, 0 <= f < 2 -> b_kind (bc f) = 0 -> b_order (bc f) = 1) ->
  ((exists f, 0 <= f < 2 /\ b_kind (bc f) <> 1) \/ (0 < alpha)%Qc) ->
  forall i, patch1 i0 i1 i -> w i <> 0%Qc -> (0 < total (S := QcS) i0 i1 (fun i => r i * w i)%Qc)%Qc.
Proof.
  intros F Hb Hdx Ha Hv0 Hs Ro Hk Hd.
  assert (Hh : (exists f, 0 <= f < 2 /\ b_kind (bc f) <> 1) \/ (exists i, patch1 i0 i1 i /\ (0 < (fun _ => alpha) i)%Qc)) by (destruct Hd as [H|H]; [now left|right; exists i0; split; [pose proof (roomy_le 1 (ends1 i0) (ends1 i1) bc Ro 0 ltac:(lia)) as B0; change (i0 <= i1) in B0; unfold patch1; lia|exact H]]). clear Hd. intros i Ip N.
  rewrite (form_v2_1d i0 i1 dx beta b0 gcw u f0 alpha rgcw res bc m r w v0 w F Hb Hdx Hv0 Hs Ro).
  destruct (Qcle_lt_or_eq _ _ (bnonneg1 i0 i1 dx beta (fun _ => alpha) v0 bc true Hb Hdx Hv0 Hs Ro Hk (fun _ _ => Ha) w)) as [P|E]; [exact P|].
  exfalso. apply N. exact (bdefinite1 i0 i1 dx beta (fun _ => alpha) v0 bc true Hb Hdx Hv0 Hs Ro Hk (fun _ _ => Ha) w Hh (eq_sym E) i Ip).
Qed.

Lemma fenergy_v2_1d i0 i1 (dx : Z -> Qc) (beta : Qc) b0 gcw u f0 (alpha : Qc) rgcw res bc (m n : mem QcS) (r w s z v0 : Z -> Qc) :
  filled_v2_1d (S := QcS) i0 i1 dx beta b0 gcw u f0 alpha rgcw res bc m r w v0 ->
  filled_v2_1d (S := QcS) i0 i1 dx beta b0 gcw u f0 alpha rgcw res bc n s z v0 ->
  (0 < beta)%Qc ->
  (forall d, 0 <= d < 1 -> (0 < dx d)%Qc) ->
  (0 <= alpha)%Qc ->
  (forall i, i0 <= i <= i1 + 1 -> (0 < v0 i)%Qc) ->
  (forall f, 0 <= f < 2 -> sound true (bc f)) ->
  roomy 1 (ends1 i0) (ends1 i1) bc ->
  (forall f, 0 <= f < 2 -> b_kind (bc f) = 0 -> b_order (bc f) = 1) ->
  (total (S := QcS) i0 i1 (fun i => r i * w i)%Qc - (1 + 1) * total (S := QcS) i0 i1 (fun i => r i * w i)%Qc <=
   total (S := QcS) i0 i1 (fun i => s i * z i)%Qc - (1 + 1) * total (S := QcS) i0 i1 (fun i => r i * z i)%Qc)%Qc.
Proof.
  intros F G Hb Hdx Ha Hv0 Hs Ro Hk.
  rewrite !(form_v2_1d i0 i1 dx beta b0 gcw u f0 alpha rgcw res bc m r w v0 _ F Hb Hdx Hv0 Hs Ro), (form_v2_1d i0 i1 dx beta b0 gcw u f0 alpha rgcw res bc n s z v0 z G Hb Hdx Hv0 Hs Ro).
  exact (benergy1 i0 i1 dx beta (fun _ => alpha) v0 bc true Hb Hdx Hv0 Hs Ro Hk (fun _ _ => Ha) w z).
Qed.

Lemma form_poisson_1d i0 i1 (dx : Z -> Qc) (beta : Qc) gcw u f0 rgcw res bc (m : mem QcS) (r w : Z -> Qc) (y : Z -> Qc) :
  filled_poisson_1d (S := QcS) i0 i1 dx beta gcw u f0 rgcw res bc m r w ->
  (0 < beta)%Qc ->
  (forall d, 0 <= d < 1 -> (0 < dx d)%Qc) ->
  (forall f, 0 <= f < 2 -> sound false (bc f)) ->
  roomy 1 (ends1 i0) (ends1 i1) bc ->
  total (S := QcS) i0 i1 (fun i => r i * y i)%Qc = total (S := QcS) i0 i1 (fun i => op1 dx beta (fun _ => 0%Qc) (fun _ => 1%Qc) (ext1 i0 i1 dx (fun _ => 1%Qc) bc w) i * y i)%Qc.
Proof.
  intros F Hb Hdx Hs Ro. 
  apply (total_ext (S := QcS)). intros i Ii. now rewrite (bvp_poisson_1d i0 i1 dx beta gcw u f0 rgcw res bc m r w  F Hb Hdx Hs Ro i ltac:(k_near)).
Qed.

Lemma fsym_poisson_1d i0 i1 (dx : Z -> Qc) (beta : Qc) gcw u f0 rgcw res bc (m n : mem QcS) (r w s z : Z -> Qc) :
  filled_poisson_1d (S := QcS) i0 i1 dx beta gcw u f0 rgcw res bc m r w ->
  filled_poisson_1d (S := QcS) i0 i1 dx beta gcw u f0 rgcw res bc n s z ->
  (0 < beta)%Qc ->
  (forall d, 0 <= d < 1 -> (0 < dx d)%Qc) ->
  (forall f, 0 <= f < 2 -> sound false (bc f)) ->
  roomy 1 (ends1 i0) (ends1 i1) bc ->
  (forall f, 0 <= f < 2 -> b_kind (bc f) = 0 -> b_order (bc f) = 1) ->
  total (S := QcS) i0 i1 (fun i => r i * z i)%Qc =
  total (S := QcS) i0 i1 (fun i => s i * w i)%Qc.
Proof.
  intros F G Hb Hdx Hs Ro Hk.
  rewrite (form_poisson_1d i0 i1 dx beta gcw u f0 rgcw res bc m r w  z F Hb Hdx Hs Ro), (form_poisson_1d i0 i1 dx beta gcw u f0 rgcw res bc n s z  w G Hb Hdx Hs Ro).
  exact (bsym1 i0 i1 dx beta (fun _ => 0%Qc) (fun _ => 1%Qc) bc false Hdx (fun _ _ => eq_refl : (0 < 1)%Qc) Hs Ro Hk w z).
Qed.

Lemma fnonneg_poisson_1d i0 i1 (dx : Z -> Qc) (beta : Qc) gcw u f0 rgcw res bc (m : mem QcS) (r w : Z -> Qc) :
  filled_poisson_1d (S := QcS) i0 i1 dx beta gcw u f0 rgcw res bc m r w ->
  (0 < beta)%Qc ->
  (forall d, 0 <= d < 1 -> (0 < dx d)%Qc) ->
  (forall f, 0 <= f < 2 -> sound false (bc f)) ->
  roomy 1 (ends1 i0) (ends1 i1) bc ->
  (forall f, 0 <= f < 2 -> b_kind (bc f) = 0 -> b_order (bc f) = 1) ->
  (0 <= total (S := QcS) i0 i1 (fun i => r i * w i)%Qc)%Qc.
Proof.
  intros F Hb Hdx Hs Ro Hk.
  rewrite (form_poisson_1d i0 i1 dx beta gcw u f0 rgcw res bc m r w  w F Hb Hdx Hs Ro).
  exact (bnonneg1 i0 i1 dx beta (fun _ => 0%Qc) (fun _ => 1%Qc) bc false Hb Hdx (fun _ _ => eq_refl : (0 < 1)%Qc) Hs Ro Hk (fun _ _ => Qcle_refl 0%Qc) w).
Qed.

Lemma fdefinite_poisson_1d i0 i1 (dx : Z -> Qc) (beta : Qc) gcw u f0 rgcw res bc (m : mem QcS) (r w : Z -> Qc) :
  filled_poisson_1d (S := QcS) i0 i1 dx beta gcw u f0 rgcw res bc m r w ->
  (0 < beta)%Qc ->
  (forall d, 0 <= d < 1 -> (0 < dx d)%Qc) ->
  (forall f, 0 <= f < 2 -> sound false (bc f)) ->
  roomy 1 (ends1 i0) (ends1 i1) bc ->
  (forall f, 0 <= f < 2 -> b_kind (bc f) = 0 -> b_order (bc f) = 1) ->
  (exists f, 0 <= f < 2 /\ b_kind (bc f) <> 1) ->
  forall i, patch1 i0 i1 i -> w i <> 0%Qc -> (0 < total (S := QcS) i0 i1 (fun i => r i * w i)%Qc)%Qc.
Proof.
  intros F Hb Hdx Hs Ro Hk Hd.
  assert (Hh : (exists f, 0 <= f < 2 /\ b_kind (bc f) <> 1) \/ (exists i, patch1 i0 i1 i /\ (0 < (fun _ => 0%Qc) i)%Qc)) by (left; exact Hd). clear Hd. intros i Ip N.
  rewrite (form_poisson_1d i0 i1 dx beta gcw u f0 rgcw res bc m r w  w F Hb Hdx Hs Ro).
  destruct (Qcle_lt_or_eq _ _ (bnonneg1 i0 i1 dx beta (fun _ => 0%Qc) (fun _ => 1%Qc) bc false Hb Hdx (fun _ _ => eq_refl : (0 < 1)%Qc) Hs Ro Hk (fun _ _ => Qcle_refl 0%Qc) w)) as [P|E]; [exact P|].
  exfalso. apply N. exact (bdefinite1 i0 i1 dx beta (fun _ => 0%Qc) (fun _ => 1%Qc) bc false Hb Hdx (fun _ _ => eq_refl : (0 < 1)%Qc) Hs Ro Hk (fun _ _ => Qcle_refl 0%Qc) w Hh (eq_sym E) i Ip).
Qed.

Lemma fenergy_poisson_1d i0 i1 (dx : Z -> Qc) (beta : Qc) gcw u f0 rgcw res bc (m n : mem QcS) (r w s z : Z -> Qc) :
  filled_poisson_1d (S := QcS) i0 i1 dx beta gcw u f0 rgcw res bc m r w ->
  filled_poisson_1d (S := QcS) i0 i1 dx beta gcw u f0 rgcw res bc n s z ->
  (0 < beta)%Qc ->
  (forall d, 0 <= d < 1 -> (0 < dx d)%Qc) ->
  (forall f, 0 <= f < 2 -> sound false (bc f)) ->
  roomy 1 (ends1 i0) (ends1 i1) bc ->
  (forall f, 0 <= f < 2 -> b_kind (bc f) = 0 -> b_order (bc f) = 1) ->
  (total (S := QcS) i0 i1 (fun i => r i * w i)%Qc - (1 + 1) * total (S := QcS) i0 i1 (fun i => r i * w i)%Qc <=
   total (S := QcS) i0 i1 (fun i => s i * z i)%Qc - (1 + 1) * total (S := QcS) i0 i1 (fun i => r i * z i)%Qc)%Qc.
Proof.
  intros F G Hb Hdx Hs Ro Hk.
  rewrite !(form_poisson_1d i0 i1 dx beta gcw u f0 rgcw res bc m r w  _ F Hb Hdx Hs Ro), (form_poisson_1d i0 i1 dx beta gcw u f0 rgcw res bc n s z  z G Hb Hdx Hs Ro).
  exact (benergy1 i0 i1 dx beta (fun _ => 0%Qc) (fun _ => 1%Qc) bc false Hb Hdx (fun _ _ => eq_refl : (0 < 1)%Qc) Hs Ro Hk (fun _ _ => Qcle_refl 0%Qc) w z).
Qed.

Lemma form_v1_2d i0 j0 i1 j1 (dx : Z -> Qc) (beta : Qc) b0 b1 gcw u f0 f1 (alpha : Qc) agcw a rgcw res bc (m : mem QcS) (r w c v0 v1 : Z -> Z -> Qc) (y : Z -> Z -> Qc) :
  filled_v1_2d (S := QcS) i0 j0 i1 j1 dx beta b0 b1 gcw u f0 f1 alpha agcw a rgcw res bc m r w c v0 v1 ->
  (0 < beta)%Qc ->
  (forall d, 0 <= d < 2 -> (0 < dx d)%Qc) ->
  (forall i j, i0 <= i <= i1 + 1 -> j0 <= j <= j1 -> (0 < v0 i j)%Qc) ->
  (forall i j, i0 <= i <= i1 -> j0 <= j <= j1 + 1 -> (0 < v1 i j)%Qc) ->
  (forall f, 0 <= f < 4 -> sound true (bc f)) ->
  roomy 2 (ends2 i0 j0) (ends2 i1 j1) bc ->
  total2 (S := QcS) i0 j0 i1 j1 (fun i j => r i j * y i j)%Qc = total2 (S := QcS) i0 j0 i1 j1 (fun i j => op2 dx beta (fun i j => alpha * c i j)%Qc v0 v1 (ext2 i0 j0 i1 j1 dx v0 v1 bc w) i j * y i j)%Qc.
Proof.
  intros F Hb Hdx Hv0 Hv1 Hs Ro. assert (Hw1 : forall i j, i0 <= i <= i1 -> j0 <= j <= j1 + 1 -> (0 <= v1 i j)%Qc) by (intros; apply Qclt_le_weak, Hv1; assumption).
  apply (total2_ext (S := QcS)). intros i j Ii Ij. now rewrite (bvp_v1_2d i0 j0 i1 j1 dx beta b0 b1 gcw u f0 f1 alpha agcw a rgcw res bc m r w c v0 v1 F Hb Hdx Hv0 Hw1 Hs Ro i j ltac:(k_near)).
Qed.

Lemma fsym_v1_2d i0 j0 i1 j1 (dx : Z -> Qc) (beta : Qc) b0 b1 gcw u f0 f1 (alpha : Qc) agcw a rgcw res bc (m n : mem QcS) (r w s z c v0 v1 : Z -> Z -> Qc) :
  filled_v1_2d (S := QcS) i0 j0 i1 j1 dx beta b0 b1 gcw u f0 f1 alpha agcw a rgcw res bc m r w c v0 v1 ->
  filled_v1_2d (S := QcS) i0 j0 i1 j1 dx beta b0 b1 gcw u f0 f1 alpha agcw a rgcw res bc n s z c v0 v1 ->
  (0 < beta)%Qc ->
  (forall d, 0 <= d < 2 -> (0 < dx d)%Qc) ->
  (forall i j, i0 <= i <= i1 + 1 -> j0 <= j <= j1 -> (0 < v0 i j)%Qc) ->
  (forall i j, i0 <= i <= i1 -> j0 <= j <= j1 + 1 -> (0 < v1 i j)%Qc) ->
  (forall f, 0 <= f < 4 -> sound true (bc f)) ->
  roomy 2 (ends2 i0 j0) (ends2 i1 j1) bc ->
  (forall f, 0 <= f < 4 -> b_kind (bc f) = 0 -> b_order (bc f) = 1) ->
  total2 (S := QcS) i0 j0 i1 j1 (fun i j => r i j * z i j)%Qc =
  total2 (S := QcS) i0 j0 i1 j1 (fun i j => s i j * w i j)%Qc.
Proof.
  intros F G Hb Hdx Hv0 Hv1 Hs Ro Hk.
  rewrite (form_v1_2d i0 j0 i1 j1 dx beta b0 b1 gcw u f0 f1 alpha agcw a rgcw res bc m r w c v0 v1 z F Hb Hdx Hv0 Hv1 Hs Ro), (form_v1_2d i0 j0 i1 j1 dx beta b0 b1 gcw u f0 f1 alpha agcw a rgcw res bc n s z c v0 v1 w G Hb Hdx Hv0 Hv1 Hs Ro).
  exact (bsym2 i0 j0 i1 j1 dx beta (fun i j => alpha * c i j)%Qc v0 v1 bc true Hdx Hv0 Hv1 Hs Ro Hk w z).
Qed.

Lemma fnonneg_v1_2d i0 j0 i1 j1 (dx : Z -> Qc) (beta : Qc) b0 b1 gcw u f0 f1 (alpha : Qc) agcw a rgcw res bc (m : mem QcS) (r w c v0 v1 : Z -> Z -> Qc) :
  filled_v1_2d (S := QcS) i0 j0 i1 j1 dx beta b0 b1 gcw u f0 f1 alpha agcw a rgcw res bc m r w c v0 v1 ->
  (0 < beta)%Qc ->
  (forall d, 0 <= d < 2 -> (0 < dx d)%Qc) ->
  (0 <= alpha)%Qc ->
  (forall i j, patch2 i0 j0 i1 j1 i j -> (0 <= c i j)%Qc) ->
  (forall i j, i0 <= i <= i1 + 1 -> j0 <= j <= j1 -> (0 < v0 i j)%Qc) ->
  (forall i j, i0 <= i <= i1 -> j0 <= j <= j1 + 1 -> (0 < v1 i j)%Qc) ->
  (forall f, 0 <= f < 4 -> sound true (bc f)) ->
  roomy 2 (ends2 i0 j0) (ends2 i1 j1) bc ->
  (forall f, 0 <= f < 4 -> b_kind (bc f) = 0 -> b_order (bc f) = 1) ->
  (0 <= total2 (S := QcS) i0 j0 i1 j1 (fun i j => r i j * w i j)%Qc)%Qc.
Proof.
  intros F Hb Hdx Ha Hc Hv0 Hv1 Hs Ro Hk.
  rewrite (form_v1_2d i0 j0 i1 j1 dx beta b0 b1 gcw u f0 f1 alpha agcw a rgcw res bc m r w c v0 v1 w F Hb Hdx Hv0 Hv1 Hs Ro).
  exact (bnonneg2 i0 j0 i1 j1 dx beta (fun i j => alpha * c i j)%Qc v0 v1 bc true Hb Hdx Hv0 Hv1 Hs Ro Hk (fun i j Ip => Qc_mul _ _ Ha (Hc i j Ip)) w).
Qed.

Lemma fdefinite_v1_2d i0 j0 i1 j1 (dx : Z -> Qc) (beta : Qc) b0 b1 gcw u f0 f1 (alpha : Qc) agcw a rgcw res bc (m : mem QcS) (r w c v0 v1 : Z -> Z -> Qc) :
  filled_v1_2d (S := QcS) i0 j0 i1 j1 dx beta b0 b1 gcw u f0 f1 alpha agcw a rgcw res bc m r w c v0 v1 ->
  (0 < beta)%Qc ->
  (forall d, 0 <= d < 2 -> (0 < dx d)%Qc) ->
  (0 <= alpha)%Qc ->
  (forall i j, patch2 i0 j0 i1 j1 i j -> (0 <= c i j)%Qc) ->
  (forall i j, i0 <= i <= i1 + 1 -> j0 <= j <= j1 -> (0 < v0 i j)%Qc) ->
  (forall i j, i0 <= i <= i1 -> j0 <= j <= j1 + 1 -> (0 < v1 i j)%Qc) ->
  (forall f, 0 <= f < 4 -> sound true (bc f)) ->
  roomy 2 (ends2 i0 j0) (ends2 i1 j1) bc ->
  (forall f, 0 <= f < 4 -> b_kind (bc f) = 0 -> b_order (bc f) = 1) ->
  ((exists f, 0 <= f < 4 /\ b_kind (bc f) <> 1) \/ (0 < alpha)%Qc /\ (exists i j, patch2 i0 j0 i1 j1 i j /\ (0 < c i j)%Qc)) ->
  forall i j, patch2 i0 j0 i1 j1 i j -> w i j <> 0%Qc -> (0 < total2 (S := QcS) i0 j0 i1 j1 (fun i j => r i j * w i j)%Qc)%Qc.
Proof.
  intros F Hb Hdx Ha Hc Hv0 Hv1 Hs Ro Hk Hd.
  assert (Hh : (exists f, 0 <= f < 4 /\ b_kind (bc f) <> 1) \/ (exists i j, patch2 i0 j0 i1 j1 i j /\ (0 < (fun i j => alpha * c i j)%Qc i j)%Qc)) by (destruct Hd as [H|(Pa & i & j & Ip & Pc)]; [now left|right; exists i, j; split; [exact Ip|now apply Qc_pos_mul]]). clear Hd. intros i j Ip N.
  rewrite (form_v1_2d i0 j0 i1 j1 dx beta b0 b1 gcw u f0 f1 alpha agcw a rgcw res bc m r w c v0 v1 w F Hb Hdx Hv0 Hv1 Hs Ro).
  destruct (Qcle_lt_or_eq _ _ (bnonneg2 i0 j0 i1 j1 dx beta (fun i j => alpha * c i j)%Qc v0 v1 bc true Hb Hdx Hv0 Hv1 Hs Ro Hk (fun i j Ip => Qc_mul _ _ Ha (Hc i j Ip)) w)) as [P|E]; [exact P|].
  exfalso. apply N. exact (bdefinite2 i0 j0 i1 j1 dx beta (fun i j => alpha * c i j)%Qc v0 v1 bc true Hb Hdx Hv0 Hv1 Hs Ro Hk (fun i j Ip => Qc_mul _ _ Ha (Hc i j Ip)) w Hh (eq_sym E) i j Ip).
Qed.

Lemma fenergy_v1_2d i0 j0 i1 j1 (dx : Z -> Qc) (beta : Qc) b0 b1 gcw u f0 f1 (alpha : Qc) agcw a rgcw res bc (m n : mem QcS) (r w s z c v0 v1 : Z -> Z -> Qc) :
  filled_v1_2d (S := QcS) i0 j0 i1 j1 dx beta b0 b1 gcw u f0 f1 alpha agcw a rgcw res bc m r w c v0 v1 ->
  filled_v1_2d (S := QcS) i0 j0 i1 j1 dx beta b0 b1 gcw u f0 f1 alpha agcw a rgcw res bc n s z c v0 v1 ->
  (0 < beta)%Qc ->
  (forall d, 0 <= d < 2 -> (0 < dx d)%Qc) ->
  (0 <= alpha)%Qc ->
  (forall i j, patch2 i0 j0 i1 j1 i j -> (0 <= c i j)%Qc) ->
  (forall i j, i0 <= i <= i1 + 1 -> j0 <= j <= j1 -> (0 < v0 i j)%Qc) ->
  (forall i j, i0 <= i <= i1 -> j0 <= j <= j1 + 1 -> (0 < v1 i j)%Qc) ->
  (forall f, 0 <= f < 4 -> sound true (bc f)) ->
  roomy 2 (ends2 i0 j0) (ends2 i1 j1) bc ->
  (forall f, 0 <= f < 4 -> b_kind (bc f) = 0 -> b_order (bc f) = 1) ->
  (total2 (S := QcS) i0 j0 i1 j1 (fun i j => r i j * w i j)%Qc - (1 + 1) * total2 (S := QcS) i0 j0 i1 j1 (fun i j => r i j * w i j)%Qc <=
   total2 (S := QcS) i0 j0 i1 j1 (fun i j => s i j * z i j)%Qc - (1 + 1) * total2 (S := QcS) i0 j0 i1 j1 (fun i j => r i j * z i j)%Qc)%Qc.
Proof.
  intros F G Hb Hdx Ha Hc Hv0 Hv1 Hs Ro Hk.
  rewrite !(form_v1_2d i0 j0 i1 j1 dx beta b0 b1 gcw u f0 f1 alpha agcw a rgcw res bc m r w c v0 v1 _ F Hb Hdx Hv0 Hv1 Hs Ro), (form_v1_2d i0 j0 i1 j1 dx beta b0 b1 gcw u f0 f1 alpha agcw a rgcw res bc n s z c v0 v1 z G Hb Hdx Hv0 Hv1 Hs Ro).
  exact (benergy2 i0 j0 i1 j1 dx beta (fun i j => alpha * c i j)%Qc v0 v1 bc true Hb Hdx Hv0 Hv1 Hs Ro Hk (fun i j Ip => Qc_mul _ _ Ha (Hc i j Ip)) w z).
Qed.

Lemma form_v2_2d i0 j0 i1 j1 (dx : Z -> Qc) (beta : Qc) b0 b1 gcw u f0 f1 (alpha : Qc) rgcw res bc (m : mem QcS) (r w v0 v1 : Z -> Z -> Qc) (y : Z -> Z -> Qc) :
  filled_v2_2d (S := QcS) i0 j0 i1 j1 dx beta b0 b1 gcw u f0 f1 alpha rgcw res bc m r w v0 v1 ->
  (0 < beta)%Qc ->
  (forall d, 0 <= d < 2 -> (0 < dx d)%Qc) ->
  (forall i j, i0 <= i <= i1 + 1 -> j0 <= j <= j1 -> (0 < v0 i j)%Qc) ->
  (forall i j, i0 <= i <= i1 -> j0 <= j <= j1 + 1 -> (0 < v1 i j)%Qc) ->
  (forall f, 0 <= f < 4 -> sound true (bc f)) ->
  roomy 2 (ends2 i0 j0) (ends2 i1 j1) bc ->
  total2 (S := QcS) i0 j0 i1 j1 (fun i j => r i j * y i j)%Qc = total2 (S := QcS) i0 j0 i1 j1 (fun i j => op2 dx beta (fun _ _ => alpha) v0 v1 (ext2 i0 j0 i1 j1 dx v0 v1 bc w) i j * y i j)%Qc.
Proof.
  intros F Hb Hdx Hv0 Hv1 Hs Ro. assert (Hw1 : forall i j, i0 <= i <= i1 -> j0 <= j <= j1 + 1 -> (0 <= v1 i j)%Qc) by (intros; apply Qclt_le_weak, Hv1; assumption).
  apply (total2_ext (S := QcS)). intros i j Ii Ij. now rewrite (bvp_v2_2d i0 j0 i1 j1 dx beta b0 b1 gcw u f0 f1 alpha rgcw res bc m r w v0 v1 F Hb Hdx Hv0 Hw1 Hs Ro i j ltac:(k_near)).
Qed.

Lemma fsym_v2_2d i0 j0 i1 j1 (dx : Z -> Qc) (beta : Qc) b0 b1 gcw u f0 f1 (alpha : Qc) rgcw res bc (m n : mem QcS) (r w s z v0 v1 : Z -> Z -> Qc) :
  filled_v2_2d (S := QcS) i0 j0 i1 j1 dx beta b0 b1 gcw u f0 f1 alpha rgcw res bc m r w v0 v1 ->
  filled_v2_2d (S := QcS) i0 j0 i1 j1 dx beta b0 b1 gcw u f0 f1 alpha rgcw res bc n s z v0 v1 ->
  (0 < beta)%Qc ->
  (forall d, 0 <= d < 2 -> (0 < dx d)%Qc) ->
  (forall i j, i0 <= i <= i1 + 1 -> j0 <= j <= j1 -> (0 < v0 i j)%Qc) ->
  (forall i j, i0 <= i <= i1 -> j0 <= j <= j1 + 1 -> (0 < v1 i j)%Qc) ->
  (forall f, 0 <= f < 4 -> sound true (bc f)) ->
  roomy 2 (ends2 i0 j0) (ends2 i1 j1) bc ->
  (forall f, 0 <= f < 4 -> b_kind (bc f) = 0 -> b_order (bc f) = 1) ->
  total2 (S := QcS) i0 j0 i1 j1 (fun i j => r i j * z i j)%Qc =
  total2 (S := QcS) i0 j0 i1 j1 (fun i j => s i j * w i j)%Qc.
Proof.
  intros F G Hb Hdx Hv0 Hv1 Hs Ro Hk.
  rewrite (form_v2_2d i0 j0 i1 j1 dx beta b0 b1 gcw u f0 f1 alpha rgcw res bc m r w v0 v1 z F Hb Hdx Hv0 Hv1 Hs Ro), (form_v2_2d i0 j0 i1 j1 dx beta b0 b1 gcw u f0 f1 alpha rgcw res bc n s z v0 v1 w G Hb Hdx Hv0 Hv1 Hs Ro).
  exact (bsym2 i0 j0 i1 j1 dx beta (fun _ _ => alpha) v0 v1 bc true Hdx Hv0 Hv1 Hs Ro Hk w z).
Qed.

Lemma fnonneg_v2_2d i0 j0 i1 j1 (dx : Z -> Qc) (beta : Qc) b0 b1 gcw u f0 f1 (alpha : Qc) rgcw res bc (m : mem QcS) (r w v0 v1 : Z -> Z -> Qc) :
  filled_v2_2d (S := QcS) i0 j0 i1 j1 dx beta b0 b1 gcw u f0 f1 alpha rgcw res bc m r w v0 v1 ->
  (0 < beta)%Qc ->
  (forall d, 0 <= d < 2 -> (0 < dx d)%Qc) ->
  (0 <= alpha)%Qc ->
  (forall i j, i0 <= i <= i1 + 1 -> j0 <= j <= j1 -> (0 < v0 i j)%Qc) ->
  (forall i j, i0 <= i <= i1 -> j0 <= j <= j1 + 1 -> (0 < v1 i j)%Qc) ->
  (forall f, 0 <= f < 4 -> sound true (bc f)) ->
  roomy 2 (ends2 i0 j0) (ends2 i1 j1) bc ->
  (forall f, 0 <= f < 4 -> b_kind (bc f) = 0 -> b_order (bc f) = 1) ->
  (0 <= total2 (S := QcS) i0 j0 i1 j1 (fun i j => r i j * w i j)%Qc)%Qc.
Proof.
  intros F Hb Hdx Ha Hv0 Hv1 Hs Ro Hk.
  rewrite (form_v2_2d i0 j0 i1 j1 dx beta b0 b1 gcw u f0 f1 alpha rgcw res bc m r w v0 v1 w F Hb Hdx Hv0 Hv1 Hs Ro).
  exact (bnonneg2 i0 j0 i1 j1 dx beta (fun _ _ => alpha) v0 v1 bc true Hb Hdx Hv0 Hv1 Hs Ro Hk (fun _ _ _ => Ha) w).
Qed.

Lemma fdefinite_v2_2d i0 j0 i1 j1 (dx : Z -> Qc) (beta : Qc) b0 b1 gcw u f0 f1 (alpha : Qc) rgcw res bc (m : mem QcS) (r w v0 v1 : Z -> Z -> Qc) :
  filled_v2_2d (S := QcS) i0 j0 i1 j1 dx beta b0 b1 gcw u f0 f1 alpha rgcw res bc m r w v0 v1 ->
  (0 < beta)%Qc ->
  (forall d, 0 <= d < 2 -> (0 < dx d)%Qc) ->
  (0 <= alpha)%Qc ->
  (forall i j, i0 <= i <= i1 + 1 -> j0 <= j <= j1 -> (0 < v0 i j)%Qc) ->
  (forall i j, i0 <= i <= i1 -> j0 <= j <= j1 + 1 -> (0 < v1 i j)%Qc) ->
  (forall f, 0 <= f < 4 -> sound true (bc f)) ->
  roomy 2 (ends2 i0 j0) (ends2 i1 j1) bc ->
  (forall f, 0 <= f < 4 -> b_kind (bc f) = 0 -> b_order (bc f) = 1) ->
  ((exists f, 0 <= f < 4 /\ b_kind (bc f) <> 1) \/ (0 < alpha)%Qc) ->
  forall i j, patch2 i0 j0 i1 j1 i j -> w i j <> 0%Qc -> (0 < total2 (S := QcS) i0 j0 i1 j1 (fun i j => r i j * w i j)%Qc)%Qc.
Proof.
  intros F Hb Hdx Ha Hv0 Hv1 Hs Ro Hk Hd.
  assert (Hh : (exists f, 0 <= f < 4 /\ b_kind (bc f) <> 1) \/ (exists i j, patch2 i0 j0 i1 j1 i j /\ (0 < (fun _ _ => alpha) i j)%Qc)) by (destruct Hd as [H|H]; [now left|right; exists i0, j0; split; [pose proof (roomy_le 2 (ends2 i0 j0) (ends2 i1 j1) bc Ro 0 ltac:(lia)) as B0; change (i0 <= i1) in B0; pose proof (roomy_le 2 (ends2 i0 j0) (ends2 i1 j1) bc Ro 1 ltac:(lia)) as B1; change (j0 <= j1) in B1; unfold patch2; lia|exact H]]). clear Hd. intros i j Ip N.
  rewrite (form_v2_2d i0 j0 i1 j1 dx beta b0 b1 gcw u f0 f1 alpha rgcw res bc m r w v0 v1 w F Hb Hdx Hv0 Hv1 Hs Ro).
  destruct (Qcle_lt_or_eq _ _ (bnonneg2 i0 j0 i1 j1 dx beta (fun _ _ => alpha) v0 v1 bc true Hb Hdx Hv0 Hv1 Hs Ro Hk (fun _ _ _ => Ha) w)) as [P|E]; [exact P|].
  exfalso. apply N. exact (bdefinite2 i0 j0 i1 j1 dx beta (fun _ _ => alpha) v0 v1 bc true Hb Hdx Hv0 Hv1 Hs Ro Hk (fun _ _ _ => Ha) w Hh (eq_sym E) i j Ip).
Qed.

Lemma fenergy_v2_2d i0 j0 i1 j1 (dx : Z -> Qc) (beta : Qc) b0 b1 gcw u f0 f1 (alpha : Qc) rgcw res bc (m n : mem QcS) (r w s z v0 v1 : Z -> Z -> Qc) :
  filled_v2_2d (S := QcS) i0 j0 i1 j1 dx beta b0 b1 gcw u f0 f1 alpha rgcw res bc m r w v0 v1 ->
  filled_v2_2d (S := QcS) i0 j0 i1 j1 dx beta b0 b1 gcw u f0 f1 alpha rgcw res bc n s z v0 v1 ->
  (0 < beta)%Qc ->
  (forall d, 0 <= d < 2 -> (0 < dx d)%Qc) ->
  (0 <= alpha)%Qc ->
  (forall i j, i0 <= i <= i1 + 1 -> j0 <= j <= j1 -> (0 < v0 i j)%Qc) ->
  (forall i j, i0 <= i <= i1 -> j0 <= j <= j1 + 1 -> (0 < v1 i j)%Qc) ->
  (forall f, 0 <= f < 4 -> sound true (bc f)) ->
  roomy 2 (ends2 i0 j0) (ends2 i1 j1) bc ->
  (forall f, 0 <= f < 4 -> b_kind (bc f) = 0 -> b_order (bc f) = 1) ->
  (total2 (S := QcS) i0 j0 i1 j1 (fun i j => r i j * w i j)%Qc - (1 + 1) * total2 (S := QcS) i0 j0 i1 j1 (fun i j => r i j * w i j)%Qc <=
   total2 (S := QcS) i0 j0 i1 j1 (fun i j => s i j * z i j)%Qc - (1 + 1) * total2 (S := QcS) i0 j0 i1 j1 (fun i j => r i j * z i j)%Qc)%Qc.
Proof.
  intros F G Hb Hdx Ha Hv0 Hv1 Hs Ro Hk.
  rewrite !(form_v2_2d i0 j0 i1 j1 dx beta b0 b1 gcw u f0 f1 alpha rgcw res bc m r w v0 v1 _ F Hb Hdx Hv0 Hv1 Hs Ro), (form_v2_2d i0 j0 i1 j1 dx beta b0 b1 gcw u f0 f1 alpha rgcw res bc n s z v0 v1 z G Hb Hdx Hv0 Hv1 Hs Ro).
  exact (benergy2 i0 j0 i1 j1 dx beta (fun _ _ => alpha) v0 v1 bc true Hb Hdx Hv0 Hv1 Hs Ro Hk (fun _ _ _ => Ha) w z).
Qed.

Lemma form_poisson_2d i0 j0 i1 j1 (dx : Z -> Qc) (beta : Qc) gcw u f0 f1 rgcw res bc (m : mem QcS) (r w : Z -> Z -> Qc) (y : Z -> Z -> Qc) :
  filled_poisson_2d (S := QcS) i0 j0 i1 j1 dx beta gcw u f0 f1 rgcw res bc m r w ->
  (0 < beta)%Qc ->
  (forall d, 0 <= d < 2 -> (0 < dx d)%Qc) ->
  (forall f, 0 <= f < 4 -> sound false (bc f)) ->
  roomy 2 (ends2 i0 j0) (ends2 i1 j1) bc ->
  total2 (S := QcS) i0 j0 i1 j1 (fun i j => r i j * y i j)%Qc = total2 (S := QcS) i0 j0 i1 j1 (fun i j => op2 dx beta (fun _ _ => 0%Qc) (fun _ _ => 1%Qc) (fun _ _ => 1%Qc) (ext2 i0 j0 i1 j1 dx (fun _ _ => 1%Qc) (fun _ _ => 1%Qc) bc w) i j * y i j)%Qc.
Proof.
  intros F Hb Hdx Hs Ro. 
  apply (total2_ext (S := QcS)). intros i j Ii Ij. now rewrite (bvp_poisson_2d i0 j0 i1 j1 dx beta gcw u f0 f1 rgcw res bc m r w  F Hb Hdx Hs Ro i j ltac:(k_near)).
Qed.

Lemma fsym_poisson_2d i0 j0 i1 j1 (dx : Z -> Qc) (beta : Qc) gcw u f0 f1 rgcw res bc (m n : mem QcS) (r w s z : Z -> Z -> Qc) :
  filled_poisson_2d (S := QcS) i0 j0 i1 j1 dx beta gcw u f0 f1 rgcw res bc m r w ->
  filled_poisson_2d (S := QcS) i0 j0 i1 j1 dx beta gcw u f0 f1 rgcw res bc n s z ->
  (0 < beta)%Qc ->
  (forall d, 0 <= d < 2 -> (0 < dx d)%Qc) ->
  (forall f, 0 <= f < 4 -> sound false (bc f)) ->
  roomy 2 (ends2 i0 j0) (ends2 i1 j1) bc ->
  (forall f, 0 <= f < 4 -> b_kind (bc f) = 0 -> b_order (bc f) = 1) ->
  total2 (S := QcS) i0 j0 i1 j1 (fun i j => r i j * z i j)%Qc =
  total2 (S := QcS) i0 j0 i1 j1 (fun i j => s i j * w i j)%Qc.
Proof.
  intros F G Hb Hdx Hs Ro Hk.
  rewrite (form_poisson_2d i0 j0 i1 j1 dx beta gcw u f0 f1 rgcw res bc m r w  z F Hb Hdx Hs Ro), (form_poisson_2d i0 j0 i1 j1 dx beta gcw u f0 f1 rgcw res bc n s z  w G Hb Hdx Hs Ro).
  exact (bsym2 i0 j0 i1 j1 dx beta (fun _ _ => 0%Qc) (fun _ _ => 1%Qc) (fun _ _ => 1%Qc) bc false Hdx (fun _ _ _ _ => eq_refl : (0 < 1)%Qc) (fun _ _ _ _ => eq_refl : (0 < 1)%Qc) Hs Ro Hk w z).
Qed.

Lemma fnonneg_poisson_2d i0 j0 i1 j1 (dx : Z -> Qc) (beta : Qc) gcw u f0 f1 rgcw res bc (m : mem QcS) (r w : Z -> Z -> Qc) :
  filled_poisson_2d (S := QcS) i0 j0 i1 j1 dx beta gcw u f0 f1 rgcw res bc m r w ->
  (0 < beta)%Qc ->
  (forall d, 0 <= d < 2 -> (0 < dx d)%Qc) ->
  (forall f, 0 <= f < 4 -> sound false (bc f)) ->
  roomy 2 (ends2 i0 j0) (ends2 i1 j1) bc ->
  (forall f, 0 <= f < 4 -> b_kind (bc f) = 0 -> b_order (bc f) = 1) ->
  (0 <= total2 (S := QcS) i0 j0 i1 j1 (fun i j => r i j * w i j)%Qc)%Qc.
Proof.
  intros F Hb Hdx Hs Ro Hk.
  rewrite (form_poisson_2d i0 j0 i1 j1 dx beta gcw u f0 f1 rgcw res bc m r w  w F Hb Hdx Hs Ro).
  exact (bnonneg2 i0 j0 i1 j1 dx beta (fun _ _ => 0%Qc) (fun _ _ => 1%Qc) (fun _ _ => 1%Qc) bc false Hb Hdx (fun _ _ _ _ => eq_refl : (0 < 1)%Qc) (fun _ _ _ _ => eq_refl : (0 < 1)%Qc) Hs Ro Hk (fun _ _ _ => Qcle_refl 0%Qc) w).
Qed.

Lemma fdefinite_poisson_2d i0 j0 i1 j1 (dx : Z -> Qc) (beta : Qc) gcw u f0 f1 rgcw res bc (m : mem QcS) (r w : Z -> Z -> Qc) :
  filled_poisson_2d (S := QcS) i0 j0 i1 j1 dx beta gcw u f0 f1 rgcw res bc m r w ->
  (0 < beta)%Qc ->
  (forall d, 0 <= d < 2 -> (0 < dx d)%Qc) ->
  (forall f, 0 <= f < 4 -> sound false (bc f)) ->
  roomy 2 (ends2 i0 j0) (ends2 i1 j1) bc ->
  (forall f, 0 <= f < 4 -> b_kind (bc f) = 0 -> b_order (bc f) = 1) ->
  (exists f, 0 <= f < 4 /\ b_kind (bc f) <> 1) ->
  forall i j, patch2 i0 j0 i1 j1 i j -> w i j <> 0%Qc -> (0 < total2 (S := QcS) i0 j0 i1 j1 (fun i j => r i j * w i j)%Qc)%Qc.
Proof.
  intros F Hb Hdx Hs Ro Hk Hd.
  assert (Hh : (exists f, 0 <= f < 4 /\ b_kind (bc f) <> 1) \/ (exists i j, patch2 i0 j0 i1 j1 i j /\ (0 < (fun _ _ => 0%Qc) i j)%Qc)) by (left; exact Hd). clear Hd. intros i j Ip N.
  rewrite (form_poisson_2d i0 j0 i1 j1 dx beta gcw u f0 f1 rgcw res bc m r w  w F Hb Hdx Hs Ro).
  destruct (Qcle_lt_or_eq _ _ (bnonneg2 i0 j0 i1 j1 dx beta (fun _ _ => 0%Qc) (fun _ _ => 1%Qc) (fun _ _ => 1%Qc) bc false Hb Hdx (fun _ _ _ _ => eq_refl : (0 < 1)%Qc) (fun _ _ _ _ => eq_refl : (0 < 1)%Qc) Hs Ro Hk (fun _ _ _ => Qcle_refl 0%Qc) w)) as [P|E]; [exact P|].
  exfalso. apply N. exact (bdefinite2 i0 j0 i1 j1 dx beta (fun _ _ => 0%Qc) (fun _ _ => 1%Qc) (fun _ _ => 1%Qc) bc false Hb Hdx (fun _ _ _ _ => eq_refl : (0 < 1)%Qc) (fun _ _ _ _ => eq_refl : (0 < 1)%Qc) Hs Ro Hk (fun _ _ _ => Qcle_refl 0%Qc) w Hh (eq_sym E) i j Ip).
Qed.

Lemma fenergy_poisson_2d i0 j0 i1 j1 (dx : Z -> Qc) (beta : Qc) gcw u f0 f1 rgcw res bc (m n : mem QcS) (r w s z : Z -> Z -> Qc) :
  filled_poisson_2d (S := QcS) i0 j0 i1 j1 dx beta gcw u f0 f1 rgcw res bc m r w ->
  filled_poisson_2d (S := QcS) i0 j0 i1 j1 dx beta gcw u f0 f1 rgcw res bc n s z ->
  (0 < beta)%Qc ->
  (forall d, 0 <= d < 2 -> (0 < dx d)%Qc) ->
  (forall f, 0 <= f < 4 -> sound false (bc f)) ->
  roomy 2 (ends2 i0 j0) (ends2 i1 j1) bc ->
  (forall f, 0 <= f < 4 -> b_kind (bc f) = 0 -> b_order (bc f) = 1) ->
  (total2 (S := QcS) i0 j0 i1 j1 (fun i j => r i j * w i j)%Qc - (1 + 1) * total2 (S := QcS) i0 j0 i1 j1 (fun i j => r i j * w i j)%Qc <=
   total2 (S := QcS) i0 j0 i1 j1 (fun i j => s i j * z i j)%Qc - (1 + 1) * total2 (S := QcS) i0 j0 i1 j1 (fun i j => r i j * z i j)%Qc)%Qc.
Proof.
  intros F G Hb Hdx Hs Ro Hk.
  rewrite !(form_poisson_2d i0 j0 i1 j1 dx beta gcw u f0 f1 rgcw res bc m r w  _ F Hb Hdx Hs Ro), (form_poisson_2d i0 j0 i1 j1 dx beta gcw u f0 f1 rgcw res bc n s z  z G Hb Hdx Hs Ro).
  exact (benergy2 i0 j0 i1 j1 dx beta (fun _ _ => 0%Qc) (fun _ _ => 1%Qc) (fun _ _ => 1%Qc) bc false Hb Hdx (fun _ _ _ _ => eq_refl : (0 < 1)%Qc) (fun _ _ _ _ => eq_refl : (0 < 1)%Qc) Hs Ro Hk (fun _ _ _ => Qcle_refl 0%Qc) w z).
Qed.

Lemma form_v1_3d i0 j0 k0 i1 j1 k1 (dx : Z -> Qc) (beta : Qc) b0 b1 b2 gcw u f0 f1 f2 (alpha : Qc) agcw a rgcw res bc (m : mem QcS) (r w c v0 v1 v2 : Z -> Z -> Z -> Qc) (y : Z -> Z -> Z -> Qc) :
  filled_v1_3d (S := QcS) i0 j0 k0 i1 j1 k1 dx beta b0 b1 b2 gcw u f0 f1 f2 alpha agcw a rgcw res bc m r w c v0 v1 v2 ->
  (0 < beta)%Qc ->
  (forall d, 0 <= d < 3 -> (0 < dx d)%Qc) ->
  (forall i j k, i0 <= i <= i1 + 1 -> j0 <= j <= j1 -> k0 <= k <= k1 -> (0 < v0 i j k)%Qc) ->
  (forall i j k, i0 <= i <= i1 -> j0 <= j <= j1 + 1 -> k0 <= k <= k1 -> (0 < v1 i j k)%Qc) ->
  (forall i j k, i0 <= i <= i1 -> j0 <= j <= j1 -> k0 <= k <= k1 + 1 -> (0 < v2 i j k)%Qc) ->
  (forall f, 0 <= f < 6 -> sound true (bc f)) ->
  roomy 3 (ends3 i0 j0 k0) (ends3 i1 j1 k1) bc ->
  total3 (S := QcS) i0 j0 k0 i1 j1 k1 (fun i j k => r i j k * y i j k)%Qc = total3 (S := QcS) i0 j0 k0 i1 j1 k1 (fun i j k => op3 dx beta (fun i j k => alpha * c i j k)%Qc v0 v1 v2 (ext3 i0 j0 k0 i1 j1 k1 dx v0 v1 v2 bc w) i j k * y i j k)%Qc.
Proof.
  intros F Hb Hdx Hv0 Hv1 Hv2 Hs Ro. assert (Hw1 : forall i j k, i0 <= i <= i1 -> j0 <= j <= j1 + 1 -> k0 <= k <= k1 -> (0 <= v1 i j k)%Qc) by (intros; apply Qclt_le_weak, Hv1; assumption). assert (Hw2 : forall i j k, i0 <= i <= i1 -> j0 <= j <= j1 -> k0 <= k <= k1 + 1 -> (0 <= v2 i j k)%Qc) by (intros; apply Qclt_le_weak, Hv2; assumption).
  apply (total3_ext (S := QcS)). intros i j k Ii Ij Ik. now rewrite (bvp_v1_3d i0 j0 k0 i1 j1 k1 dx beta b0 b1 b2 gcw u f0 f1 f2 alpha agcw a rgcw res bc m r w c v0 v1 v2 F Hb Hdx Hv0 Hw1 Hw2 Hs Ro i j k ltac:(k_near)).
Qed.

Lemma fsym_v1_3d i0 j0 k0 i1 j1 k1 (dx : Z -> Qc) (beta : Qc) b0 b1 b2 gcw u f0 f1 f2 (alpha : Qc) agcw a rgcw res bc (m n : mem QcS) (r w s z c v0 v1 v2 : Z -> Z -> Z -> Qc) :
  filled_v1_3d (S := QcS) i0 j0 k0 i1 j1 k1 dx beta b0 b1 b2 gcw u f0 f1 f2 alpha agcw a rgcw res bc m r w c v0 v1 v2 ->
  filled_v1_3d (S := QcS) i0 j0 k0 i1 j1 k1 dx beta b0 b1 b2 gcw u f0 f1 f2 alpha agcw a rgcw res bc n s z c v0 v1 v2 ->
  (0 < beta)%Qc ->
  (forall d, 0 <= d < 3 -> (0 < dx d)%Qc) ->
  (forall i j k, i0 <= i <= i1 + 1 -> j0 <= j <= j1 -> k0 <= k <= k1 -> (0 < v0 i j k)%Qc) ->
  (forall i j k, i0 <= i <= i1 -> j0 <= j <= j1 + 1 -> k0 <= k <= k1 -> (0 < v1 i j k)%Qc) ->
  (forall i j k, i0 <= i <= i1 -> j0 <= j <= j1 -> k0 <= k <= k1 + 1 -> (0 < v2 i j k)%Qc) ->
  (forall f, 0 <= f < 6 -> sound true (bc f)) ->
  roomy 3 (ends3 i0 j0 k0) (ends3 i1 j1 k1) bc ->
  (forall f, 0 <= f < 6 -> b_kind (bc f) = 0 -> b_order (bc f) = 1) ->
  total3 (S := QcS) i0 j0 k0 i1 j1 k1 (fun i j k => r i j k * z i j k)%Qc =
  total3 (S := QcS) i0 j0 k0 i1 j1 k1 (fun i j k => s i j k * w i j k)%Qc.
Proof.
  intros F G Hb Hdx Hv0 Hv1 Hv2 Hs Ro Hk.
  rewrite (form_v1_3d i0 j0 k0 i1 j1 k1 dx beta b0 b1 b2 gcw u f0 f1 f2 alpha agcw a rgcw res bc m r w c v0 v1 v2 z F Hb Hdx Hv0 Hv1 Hv2 Hs Ro), (form_v1_3d i0 j0 k0 i1 j1 k1 dx beta b0 b1 b2 gcw u f0 f1 f2 alpha agcw a rgcw res bc n s z c v0 v1 v2 w G Hb Hdx Hv0 Hv1 Hv2 Hs Ro).
  exact (bsym3 i0 j0 k0 i1 j1 k1 dx beta (fun i j k => alpha * c i j k)%Qc v0 v1 v2 bc true Hdx Hv0 Hv1 Hv2 Hs Ro Hk w z).
Qed.

Lemma fnonneg_v1_3d i0 j0 k0 i1 j1 k1 (dx : Z -> Qc) (beta : Qc) b0 b1 b2 gcw u f0 f1 f2 (alpha : Qc) agcw a rgcw res bc (m : mem QcS) (r w c v0 v1 v2 : Z -> Z -> Z -> Qc) :
  filled_v1_3d (S := QcS) i0 j0 k0 i1 j1 k1 dx beta b0 b1 b2 gcw u f0 f1 f2 alpha agcw a rgcw res bc m r w c v0 v1 v2 ->
  (0 < beta)%Qc ->
  (forall d, 0 <= d < 3 -> (0 < dx d)%Qc) ->
  (0 <= alpha)%Qc ->
  (forall i j k, patch3 i0 j0 k0 i1 j1 k1 i j k -> (0 <= c i j k)%Qc) ->
  (forall i j k, i0 <= i <= i1 + 1 -> j0 <= j <= j1 -> k0 <= k <= k1 -> (0 < v0 i j k)%Qc) ->
  (forall i j k, i0 <= i <= i1 -> j0 <= j <= j1 + 1 -> k0 <= k <= k1 -> (0 < v1 i j k)%Qc) ->
  (forall i j k, i0 <= i <= i1 -> j0 <= j <= j1 -> k0 <= k <= k1 + 1 -> (0 < v2 i j k)%Qc) ->
  (forall f, 0 <= f < 6 -> sound true (bc f)) ->
  roomy 3 (ends3 i0 j0 k0) (ends3 i1 j1 k1) bc ->
  (forall f, 0 <= f < 6 -> b_kind (bc f) = 0 -> b_order (bc f) = 1) ->
  (0 <= total3 (S := QcS) i0 j0 k0 i1 j1 k1 (fun i j k => r i j k * w i j k)%Qc)%Qc.
Proof.
  intros F Hb Hdx Ha Hc Hv0 Hv1 Hv2 Hs Ro Hk.
  rewrite (form_v1_3d i0 j0 k0 i1 j1 k1 dx beta b0 b1 b2 gcw u f0 f1 f2 alpha agcw a rgcw res bc m r w c v0 v1 v2 w F Hb Hdx Hv0 Hv1 Hv2 Hs Ro).
  exact (bnonneg3 i0 j0 k0 i1 j1 k1 dx beta (fun i j k => alpha * c i j k)%Qc v0 v1 v2 bc true Hb Hdx Hv0 Hv1 Hv2 Hs Ro Hk (fun i j k Ip => Qc_mul _ _ Ha (Hc i j k Ip)) w).
Qed.

Lemma fdefinite_v1_3d i0 j0 k0 i1 j1 k1 (dx : Z -> Qc) (beta : Qc) b0 b1 b2 gcw u f0 f1 f2 (alpha : Qc) agcw a rgcw res bc (m : mem QcS) (r w c v0 v1 v2 : Z -> Z -> Z -> Qc) :
  filled_v1_3d (S := QcS) i0 j0 k0 i1 j1 k1 dx beta b0 b1 b2 gcw u f0 f1 f2 alpha agcw a rgcw res bc m r w c v0 v1 v2 ->
  (0 < beta)%Qc ->
  (forall d, 0 <= d < 3 -> (0 < dx d)%Qc) ->
  (0 <= alpha)%Qc ->
  (forall i j k, patch3 i0 j0 k0 i1 j1 k1 i j k -> (0 <= c i j k)%Qc) ->
  (forall i j k, i0 <= i <= i1 + 1 -> j0 <= j <= j1 -> k0 <= k <= k1 -> (0 < v0 i j k)%Qc) ->
  (forall i j k, i0 <= i <= i1 -> j0 <= j <= j1 + 1 -> k0 <= k <= k1 -> (0 < v1 i j k)%Qc) ->
  (forall i j k, i0 <= i <= i1 -> j0 <= j <= j1 -> k0 <= k <= k1 + 1 -> (0 < v2 i j k)%Qc) ->
  (forall f, 0 <= f < 6 -> sound true (bc f)) ->
  roomy 3 (ends3 i0 j0 k0) (ends3 i1 j1 k1) bc ->
  (forall f, 0 <= f < 6 -> b_kind (bc f) = 0 -> b_order (bc f) = 1) ->
  ((exists f, 0 <= f < 6 /\ b_kind (bc f) <> 1) \/ (0 < alpha)%Qc /\ (exists i j k, patch3 i0 j0 k0 i1 j1 k1 i j k /\ (0 < c i j k)%Qc)) ->
  forall i j k, patch3 i0 j0 k0 i1 j1 k1 i j k -> w i j k <> 0%Qc -> (0 < total3 (S := QcS) i0 j0 k0 i1 j1 k1 (fun i j k => r i j k * w i j k)%Qc)%Qc.
Proof.
  intros F Hb Hdx Ha Hc Hv0 Hv1 Hv2 Hs Ro Hk Hd.
  assert (Hh : (exists f, 0 <= f < 6 /\ b_kind (bc f) <> 1) \/ (exists i j k, patch3 i0 j0 k0 i1 j1 k1 i j k /\ (0 < (fun i j k => alpha * c i j k)%Qc i j k)%Qc)) by (destruct Hd as [H|(Pa & i & j & k & Ip & Pc)]; [now left|right; exists i, j, k; split; [exact Ip|now apply Qc_pos_mul]]). clear Hd. intros i j k Ip N.
  rewrite (form_v1_3d i0 j0 k0 i1 j1 k1 dx beta b0 b1 b2 gcw u f0 f1 f2 alpha agcw a rgcw res bc m r w c v0 v1 v2 w F Hb Hdx Hv0 Hv1 Hv2 Hs Ro).
  destruct (Qcle_lt_or_eq _ _ (bnonneg3 i0 j0 k0 i1 j1 k1 dx beta (fun i j k => alpha * c i j k)%Qc v0 v1 v2 bc true Hb Hdx Hv0 Hv1 Hv2 Hs Ro Hk (fun i j k Ip => Qc_mul _ _ Ha (Hc i j k Ip)) w)) as [P|E]; [exact P|].
  exfalso. apply N. exact (bdefinite3 i0 j0 k0 i1 j1 k1 dx beta (fun i j k => alpha * c i j k)%Qc v0 v1 v2 bc true Hb Hdx Hv0 Hv1 Hv2 Hs Ro Hk (fun i j k Ip => Qc_mul _ _ Ha (Hc i j k Ip)) w Hh (eq_sym E) i j k Ip).
Qed.

Lemma fenergy_v1_3d i0 j0 k0 i1 j1 k1 (dx : Z -> Qc) (beta : Qc) b0 b1 b2 gcw u f0 f1 f2 (alpha : Qc) agcw a rgcw res bc (m n : mem QcS) (r w s z c v0 v1 v2 : Z -> Z -> Z -> Qc) :
  filled_v1_3d (S := QcS) i0 j0 k0 i1 j1 k1 dx beta b0 b1 b2 gcw u f0 f1 f2 alpha agcw a rgcw res bc m r w c v0 v1 v2 ->
  filled_v1_3d (S := QcS) i0 j0 k0 i1 j1 k1 dx beta b0 b1 b2 gcw u f0 f1 f2 alpha agcw a rgcw res bc n s z c v0 v1 v2 ->
  (0 < beta)%Qc ->
  (forall d, 0 <= d < 3 -> (0 < dx d)%Qc) ->
  (0 <= alpha)%Qc ->
  (forall i j k, patch3 i0 j0 k0 i1 j1 k1 i j k -> (0 <= c i j k)%Qc) ->
  (forall i j k, i0 <= i <= i1 + 1 -> j0 <= j <= j1 -> k0 <= k <= k1 -> (0 < v0 i j k)%Qc) ->
  (forall i j k, i0 <= i <= i1 -> j0 <= j <= j1 + 1 -> k0 <= k <= k1 -> (0 < v1 i j k)%Qc) ->
  (forall i j k, i0 <= i <= i1 -> j0 <= j <= j1 -> k0 <= k <= k1 + 1 -> (0 < v2 i j k)%Qc) ->
  (forall f, 0 <= f < 6 -> sound true (bc f)) ->
  roomy 3 (ends3 i0 j0 k0) (ends3 i1 j1 k1) bc ->
  (forall f, 0 <= f < 6 -> b_kind (bc f) = 0 -> b_order (bc f) = 1) ->
  (total3 (S := QcS) i0 j0 k0 i1 j1 k1 (fun i j k => r i j k * w i j k)%Qc - (1 + 1) * total3 (S := QcS) i0 j0 k0 i1 j1 k1 (fun i j k => r i j k * w i j k)%Qc <=
   total3 (S := QcS) i0 j0 k0 i1 j1 k1 (fun i j k => s i j k * z i j k)%Qc - (1 + 1) * total3 (S := QcS) i0 j0 k0 i1 j1 k1 (fun i j k => r i j k * z i j k)%Qc)%Qc.
Proof.
  intros F G Hb Hdx Ha Hc Hv0 Hv1 Hv2 Hs Ro Hk.
  rewrite !(form_v1_3d i0 j0 k0 i1 j1 k1 dx beta b0 b1 b2 gcw u f0 f1 f2 alpha agcw a rgcw res bc m r w c v0 v1 v2 _ F Hb Hdx Hv0 Hv1 Hv2 Hs Ro), (form_v1_3d i0 j0 k0 i1 j1 k1 dx beta b0 b1 b2 gcw u f0 f1 f2 alpha agcw a rgcw res bc n s z c v0 v1 v2 z G Hb Hdx Hv0 Hv1 Hv2 Hs Ro).
  exact (benergy3 i0 j0 k0 i1 j1 k1 dx beta (fun i j k => alpha * c i j k)%Qc v0 v1 v2 bc true Hb Hdx Hv0 Hv1 Hv2 Hs Ro Hk (fun i j k Ip => Qc_mul _ _ Ha (Hc i j k Ip)) w z).
Qed.

Lemma form_v2_3d i0 j0 k0 i1 j1 k1 (dx : Z -> Qc) (beta : Qc) b0 b1 b2 gcw u f0 f1 f2 (alpha : Qc) rgcw res bc (m : mem QcS) (r w v0 v1 v2 : Z -> Z -> Z -> Qc) (y : Z -> Z -> Z -> Qc) :
  filled_v2_3d (S := QcS) i0 j0 k0 i1 j1 k1 dx beta b0 b1 b2 gcw u f0 f1 f2 alpha rgcw res bc m r w v0 v1 v2 ->
  (0 < beta)%Qc ->
  (forall d, 0 <= d < 3 -> (0 < dx d)%Qc) ->
  (forall i j k, i0 <= i <= i1 + 1 -> j0 <= j <= j1 -> k0 <= k <= k1 -> (0 < v0 i j k)%Qc) ->
  (forall i j k, i0 <= i <= i1 -> j0 <= j <= j1 + 1 -> k0 <= k <= k1 -> (0 < v1 i j k)%Qc) ->
  (forall i j k, i0 <= i <= i1 -> j0 <= j <= j1 -> k0 <= k <= k1 + 1 -> (0 < v2 i j k)%Qc) ->
  (forall f, 0 <= f < 6 -> sound true (bc f)) ->
  roomy 3 (ends3 i0 j0 k0) (ends3 i1 j1 k1) bc ->
  total3 (S := QcS) i0 j0 k0 i1 j1 k1 (fun i j k => r i j k * y i j k)%Qc = total3 (S := QcS) i0 j0 k0 i1 j1 k1 (fun i j k => op3 dx beta (fun _ _ _ => alpha) v0 v1 v2 (ext3 i0 j0 k0 i1 j1 k1 dx v0 v1 v2 bc w) i j k * y i j k)%Qc.
Proof.
  intros F Hb Hdx Hv0 Hv1 Hv2 Hs Ro. assert (Hw1 : forall i j k, i0 <= i <= i1 -> j0 <= j <= j1 + 1 -> k0 <= k <= k1 -> (0 <= v1 i j k)%Qc) by (intros; apply Qclt_le_weak, Hv1; assumption). assert (Hw2 : forall i j k, i0 <= i <= i1 -> j0 <= j <= j1 -> k0 <= k <= k1 + 1 -> (0 <= v2 i j k)%Qc) by (intros; apply Qclt_le_weak, Hv2; assumption).
  apply (total3_ext (S := QcS)). intros i j k Ii Ij Ik. now rewrite (bvp_v2_3d i0 j0 k0 i1 j1 k1 dx beta b0 b1 b2 gcw u f0 f1 f2 alpha rgcw res bc m r w v0 v1 v2 F Hb Hdx Hv0 Hw1 Hw2 Hs Ro i j k ltac:(k_near)).
Qed.

Lemma fsym_v2_3d i0 j0 k0 i1 j1 k1 (dx : Z -> Qc) (beta : Qc) b0 b1 b2 gcw u f0 f1 f2 (alpha : Qc) rgcw res bc (m n : mem QcS) (r w s z v0 v1 v2 : Z -> Z -> Z -> Qc) :
  filled_v2_3d (S := QcS) i0 j0 k0 i1 j1 k1 dx beta b0 b1 b2 gcw u f0 f1 f2 alpha rgcw res bc m r w v0 v1 v2 ->
  filled_v2_3d (S := QcS) i0 j0 k0 i1 j1 k1 dx beta b0 b1 b2 gcw u f0 f1 f2 alpha rgcw res bc n s z v0 v1 v2 ->
  (0 < beta)%Qc ->
  (forall d, 0 <= d < 3 -> (0 < dx d)%Qc) ->
  (forall i j k, i0 <= i <= i1 + 1 -> j0 <= j <= j1 -> k0 <= k <= k1 -> (0 < v0 i j k)%Qc) ->
  (forall i j k, i0 <= i <= i1 -> j0 <= j <= j1 + 1 -> k0 <= k <= k1 -> (0 < v1 i j k)%Qc) ->
  (forall i j k, i0 <= i <= i1 -> j0 <= j <= j1 -> k0 <= k <= k1 + 1 -> (0 < v2 i j k)%Qc) ->
  (forall f, 0 <= f < 6 -> sound true (bc f)) ->
  roomy 3 (ends3 i0 j0 k0) (ends3 i1 j1 k1) bc ->
  (forall f, 0 <= f < 6 -> b_kind (bc f) = 0 -> b_order (bc f) = 1) ->
  total3 (S := QcS) i0 j0 k0 i1 j1 k1 (fun i j k => r i j k * z i j k)%Qc =
  total3 (S := QcS) i0 j0 k0 i1 j1 k1 (fun i j k => s i j k * w i j k)%Qc.
Proof.
  intros F G Hb Hdx Hv0 Hv1 Hv2 Hs Ro Hk.
  rewrite (form_v2_3d i0 j0 k0 i1 j1 k1 dx beta b0 b1 b2 gcw u f0 f1 f2 alpha rgcw res bc m r w v0 v1 v2 z F Hb Hdx Hv0 Hv1 Hv2 Hs Ro), (form_v2_3d i0 j0 k0 i1 j1 k1 dx beta b0 b1 b2 gcw u f0 f1 f2 alpha rgcw res bc n s z v0 v1 v2 w G Hb Hdx Hv0 Hv1 Hv2 Hs Ro).
  exact (bsym3 i0 j0 k0 i1 j1 k1 dx beta (fun _ _ _ => alpha) v0 v1 v2 bc true Hdx Hv0 Hv1 Hv2 Hs Ro Hk w z).
Qed.

Lemma fnonneg_v2_3d i0 j0 k0 i1 j1 k1 (dx : Z -> Qc) (beta : Qc) b0 b1 b2 gcw u f0 f1 f2 (alpha : Qc) rgcw res bc (m : mem QcS) (r w v0 v1 v2 : Z -> Z -> Z -> Qc) :
  filled_v2_3d (S := QcS) i0 j0 k0 i1 j1 k1 dx beta b0 b1 b2 gcw u f0 f1 f2 alpha rgcw res bc m r w v0 v1 v2 ->
  (0 < beta)%Qc ->
  (forall d, 0 <= d < 3 -> (0 < dx d)%Qc) ->
  (0 <= alpha)%Qc ->
  (forall i j k, i0 <= i <= i1 + 1 -> j0 <= j <= j1 -> k0 <= k <= k1 -> (0 < v0 i j k)%Qc) ->
  (forall i j k, i0 <= i <= i1 -> j0 <= j <= j1 + 1 -> k0 <= k <= k1 -> (0 < v1 i j k)%Qc) ->
  (forall i j k, i0 <= i <= i1 -> j0 <= j <= j1 -> k0 <= k <= k1 + 1 -> (0 < v2 i j k)%Qc) ->
  (forall f, 0 <= f < 6 -> sound true (bc f)) ->
  roomy 3 (ends3 i0 j0 k0) (ends3 i1 j1 k1) bc ->
  (forall f, 0 <= f < 6 -> b_kind (bc f) = 0 -> b_order (bc f) = 1) ->
  (0 <= total3 (S := QcS) i0 j0 k0 i1 j1 k1 (fun i j k => r i j k * w i j k)%Qc)%Qc.
Proof.
  intros F Hb Hdx Ha Hv0 Hv1 Hv2 Hs Ro Hk.
  rewrite (form_v2_3d i0 j0 k0 i1 j1 k1 dx beta b0 b1 b2 gcw u f0 f1 f2 alpha rgcw res bc m r w v0 v1 v2 w F Hb Hdx Hv0 Hv1 Hv2 Hs Ro).
  exact (bnonneg3 i0 j0 k0 i1 j1 k1 dx beta (fun _ _ _ => alpha) v0 v1 v2 bc true Hb Hdx Hv0 Hv1 Hv2 Hs Ro Hk (fun _ _ _ _ => Ha) w).
Qed.

Lemma fdefinite_v2_3d i0 j0 k0 i1 j1 k1 (dx : Z -> Qc) (beta : Qc) b0 b1 b2 gcw u f0 f1 f2 (alpha : Qc) rgcw res bc (m : mem QcS) (r w v0 v1 v2 : Z -> Z -> Z -> Qc) :
  filled_v2_3d (S := QcS) i0 j0 k0 i1 j1 k1 dx beta b0 b1 b2 gcw u f0 f1 f2 alpha rgcw res bc m r w v0 v1 v2 ->
  (0 < beta)%Qc ->
  (forall d, 0 <= d < 3 -> (0 < dx d)%Qc) ->
  (0 <= alpha)%Qc ->
  (forall i j k, i0 <= i <= i1 + 1 -> j0 <= j <= j1 -> k0 <= k <= k1 -> (0 < v0 i j k)%Qc) ->
  (forall i j k, i0 <= i <= i1 -> j0 <= j <= j1 + 1 -> k0 <= k <= k1 -> (0 < v1 i j k)%Qc) ->
  (forall i j k, i0 <= i <= i1 -> j0 <= j <= j1 -> k0 <= k <= k1 + 1 -> (0 < v2 i j k)%Qc) ->
  (forall f, 0 <= f < 6 -> sound true (bc f)) ->
  roomy 3 (ends3 i0 j0 k0) (ends3 i1 j1 k1) bc ->
  (forall f, 0 <= f < 6 -> b_kind (bc f) = 0 -> b_order (bc f) = 1) ->
  ((exists f, 0 <= f < 6 /\ b_kind (bc f) <> 1) \/ (0 < alpha)%Qc) ->
  forall i j k, patch3 i0 j0 k0 i1 j1 k1 i j k -> w i j k <> 0%Qc -> (0 < total3 (S := QcS) i0 j0 k0 i1 j1 k1 (fun i j k => r i j k * w i j k)%Qc)%Qc.
Proof.
  intros F Hb Hdx Ha Hv0 Hv1 Hv2 Hs Ro Hk Hd.
  assert (Hh : (exists f, 0 <= f < 6 /\ b_kind (bc f) <> 1) \/ (exists i j k, patch3 i0 j0 k0 i1 j1 k1 i j k /\ (0 < (fun _ _ _ => alpha) i j k)%Qc)) by (destruct Hd as [H|H]; [now left|right; exists i0, j0, k0; split; [pose proof (roomy_le 3 (ends3 i0 j0 k0) (ends3 i1 j1 k1) bc Ro 0 ltac:(lia)) as B0; change (i0 <= i1) in B0; pose proof (roomy_le 3 (ends3 i0 j0 k0) (ends3 i1 j1 k1) bc Ro 1 ltac:(lia)) as B1; change (j0 <= j1) in B1; pose proof (roomy_le 3 (ends3 i0 j0 k0) (ends3 i1 j1 k1) bc Ro 2 ltac:(lia)) as B2; change (k0 <= k1) in B2; unfold patch3; lia|exact H]]). clear Hd. intros i j k Ip N.
  rewrite (form_v2_3d i0 j0 k0 i1 j1 k1 dx beta b0 b1 b2 gcw u f0 f1 f2 alpha rgcw res bc m r w v0 v1 v2 w F Hb Hdx Hv0 Hv1 Hv2 Hs Ro).
  destruct (Qcle_lt_or_eq _ _ (bnonneg3 i0 j0 k0 i1 j1 k1 dx beta (fun _ _ _ => alpha) v0 v1 v2 bc true Hb Hdx Hv0 Hv1 Hv2 Hs Ro Hk (fun _ _ _ _ => Ha) w)) as [P|E]; [exact P|].
  exfalso. apply N. exact (bdefinite3 i0 j0 k0 i1 j1 k1 dx beta (fun _ _ _ => alpha) v0 v1 v2 bc true Hb Hdx Hv0 Hv1 Hv2 Hs Ro Hk (fun _ _ _ _ => Ha) w Hh (eq_sym E) i j k Ip).
Qed.

Lemma fenergy_v2_3d i0 j0 k0 i1 j1 k1 (dx : Z -> Qc) (beta : Qc) b0 b1 b2 gcw u f0 f1 f2 (alpha : Qc) rgcw res bc (m n : mem QcS) (r w s z v0 v1 v2 : Z -> Z -> Z -> Qc) :
  filled_v2_3d (S := QcS) i0 j0 k0 i1 j1 k1 dx beta b0 b1 b2 gcw u f0 f1 f2 alpha rgcw res bc m r w v0 v1 v2 ->
  filled_v2_3d (S := QcS) i0 j0 k0 i1 j1 k1 dx beta b0 b1 b2 gcw u f0 f1 f2 alpha rgcw res bc n s z v0 v1 v2 ->
  (0 < beta)%Qc ->
  (forall d, 0 <= d < 3 -> (0 < dx d)%Qc) ->
  (0 <= alpha)%Qc ->
  (forall i j k, i0 <= i <= i1 + 1 -> j0 <= j <= j1 -> k0 <= k <= k1 -> (0 < v0 i j k)%Qc) ->
  (forall i j k, i0 <= i <= i1 -> j0 <= j <= j1 + 1 -> k0 <= k <= k1 -> (0 < v1 i j k)%Qc) ->
  (forall i j k, i0 <= i <= i1 -> j0 <= j <= j1 -> k0 <= k <= k1 + 1 -> (0 < v2 i j k)%Qc) ->
  (forall f, 0 <= f < 6 -> sound true (bc f)) ->
  roomy 3 (ends3 i0 j0 k0) (ends3 i1 j1 k1) bc ->
  (forall f, 0 <= f < 6 -> b_kind (bc f) = 0 -> b_order (bc f) = 1) ->
  (total3 (S := QcS) i0 j0 k0 i1 j1 k1 (fun i j k => r i j k * w i j k)%Qc - (1 + 1) * total3 (S := QcS) i0 j0 k0 i1 j1 k1 (fun i j k => r i j k * w i j k)%Qc <=
   total3 (S := QcS) i0 j0 k0 i1 j1 k1 (fun i j k => s i j k * z i j k)%Qc - (1 + 1) * total3 (S := QcS) i0 j0 k0 i1 j1 k1 (fun i j k => r i j k * z i j k)%Qc)%Qc.
Proof.
  intros F G Hb Hdx Ha Hv0 Hv1 Hv2 Hs Ro Hk.
  rewrite !(form_v2_3d i0 j0 k0 i1 j1 k1 dx beta b0 b1 b2 gcw u f0 f1 f2 alpha rgcw res bc m r w v0 v1 v2 _ F Hb Hdx Hv0 Hv1 Hv2 Hs Ro), (form_v2_3d i0 j0 k0 i1 j1 k1 dx beta b0 b1 b2 gcw u f0 f1 f2 alpha rgcw res bc n s z v0 v1 v2 z G Hb Hdx Hv0 Hv1 Hv2 Hs Ro).
  exact (benergy3 i0 j0 k0 i1 j1 k1 dx beta (fun _ _ _ => alpha) v0 v1 v2 bc true Hb Hdx Hv0 Hv1 Hv2 Hs Ro Hk (fun _ _ _ _ => Ha) w z).
Qed.

Lemma form_poisson_3d i0 j0 k0 i1 j1 k1 (dx : Z -> Qc) (beta : Qc) gcw u f0 f1 f2 rgcw res bc (m : mem QcS) (r w : Z -> Z -> Z -> Qc) (y : Z -> Z -> Z -> Qc) :
  filled_poisson_3d (S := QcS) i0 j0 k0 i1 j1 k1 dx beta gcw u f0 f1 f2 rgcw res bc m r w ->
  (0 < beta)%Qc ->
  (forall d, 0 <= d < 3 -> (0 < dx d)%Qc) ->
  (forall f, 0 <= f < 6 -> sound false (bc f)) ->
  roomy 3 (ends3 i0 j0 k0) (ends3 i1 j1 k1) bc ->
  total3 (S := QcS) i0 j0 k0 i1 j1 k1 (fun i j k => r i j k * y i j k)%Qc = total3 (S := QcS) i0 j0 k0 i1 j1 k1 (fun i j k => op3 dx beta (fun _ _ _ => 0%Qc) (fun _ _ _ => 1%Qc) (fun _ _ _ => 1%Qc) (fun _ _ _ => 1%Qc) (ext3 i0 j0 k0 i1 j1 k1 dx (fun _ _ _ => 1%Qc) (fun _ _ _ => 1%Qc) (fun _ _ _ => 1%Qc) bc w) i j k * y i j k)%Qc.
Proof.
  intros F Hb Hdx Hs Ro. 
  apply (total3_ext (S := QcS)). intros i j k Ii Ij Ik. now rewrite (bvp_poisson_3d i0 j0 k0 i1 j1 k1 dx beta gcw u f0 f1 f2 rgcw res bc m r w  F Hb Hdx Hs Ro i j k ltac:(k_near)).
Qed.

Lemma fsym_poisson_3d i0 j0 k0 i1 j1 k1 (dx : Z -> Qc) (beta : Qc) gcw u f0 f1 f2 rgcw res bc (m n : mem QcS) (r w s z : Z -> Z -> Z -> Qc) :
  filled_poisson_3d (S := QcS) i0 j0 k0 i1 j1 k1 dx beta gcw u f0 f1 f2 rgcw res bc m r w ->
  filled_poisson_3d (S := QcS) i0 j0 k0 i1 j1 k1 dx beta gcw u f0 f1 f2 rgcw res bc n s z ->
  (0 < beta)%Qc ->
  (forall d, 0 <= d < 3 -> (0 < dx d)%Qc) ->
  (forall f, 0 <= f < 6 -> sound false (bc f)) ->
  roomy 3 (ends3 i0 j0 k0) (ends3 i1 j1 k1) bc ->
  (forall f, 0 <= f < 6 -> b_kind (bc f) = 0 -> b_order (bc f) = 1) ->
  total3 (S := QcS) i0 j0 k0 i1 j1 k1 (fun i j k => r i j k * z i j k)%Qc =
  total3 (S := QcS) i0 j0 k0 i1 j1 k1 (fun i j k => s i j k * w i j k)%Qc.
Proof.
  intros F G Hb Hdx Hs Ro Hk.
  rewrite (form_poisson_3d i0 j0 k0 i1 j1 k1 dx beta gcw u f0 f1 f2 rgcw res bc m r w  z F Hb Hdx Hs Ro), (form_poisson_3d i0 j0 k0 i1 j1 k1 dx beta gcw u f0 f1 f2 rgcw res bc n s z  w G Hb Hdx Hs Ro).
  exact (bsym3 i0 j0 k0 i1 j1 k1 dx beta (fun _ _ _ => 0%Qc) (fun _ _ _ => 1%Qc) (fun _ _ _ => 1%Qc) (fun _ _ _ => 1%Qc) bc false Hdx (fun _ _ _ _ _ _ => eq_refl : (0 < 1)%Qc) (fun _ _ _ _ _ _ => eq_refl : (0 < 1)%Qc) (fun _ _ _ _ _ _ => eq_refl : (0 < 1)%Qc) Hs Ro Hk w z).
Qed.

Lemma fnonneg_poisson_3d i0 j0 k0 i1 j1 k1 (dx : Z -> Qc) (beta : Qc) gcw u f0 f1 f2 rgcw res bc (m : mem QcS) (r w : Z -> Z -> Z -> Qc) :
  filled_poisson_3d (S := QcS) i0 j0 k0 i1 j1 k1 dx beta gcw u f0 f1 f2 rgcw res bc m r w ->
  (0 < beta)%Qc ->
  (forall d, 0 <= d < 3 -> (0 < dx d)%Qc) ->
  (forall f, 0 <= f < 6 -> sound false (bc f)) ->
  roomy 3 (ends3 i0 j0 k0) (ends3 i1 j1 k1) bc ->
  (forall f, 0 <= f < 6 -> b_kind (bc f) = 0 -> b_order (bc f) = 1) ->
  (0 <= total3 (S := QcS) i0 j0 k0 i1 j1 k1 (fun i j k => r i j k * w i j k)%Qc)%Qc.
Proof.
  intros F Hb Hdx Hs Ro Hk.
  rewrite (form_poisson_3d i0 j0 k0 i1 j1 k1 dx beta gcw u f0 f1 f2 rgcw res bc m r w  w F Hb Hdx Hs Ro).
  exact (bnonneg3 i0 j0 k0 i1 j1 k1 dx beta (fun _ _ _ => 0%Qc) (fun _ _ _ => 1%Qc) (fun _ _ _ => 1%Qc) (fun _ _ _ => 1%Qc) bc false Hb Hdx (fun _ _ _ _ _ _ => eq_refl : (0 < 1)%Qc) (fun _ _ _ _ _ _ => eq_refl : (0 < 1)%Qc) (fun _ _ _ _ _ _ => eq_refl : (0 < 1)%Qc) Hs Ro Hk (fun _ _ _ _ => Qcle_refl 0%Qc) w).
Qed.

Lemma fdefinite_poisson_3d i0 j0 k0 i1 j1 k1 (dx : Z -> Qc) (beta : Qc) gcw u f0 f1 f2 rgcw res bc (m : mem QcS) (r w : Z -> Z -> Z -> Qc) :
  filled_poisson_3d (S := QcS) i0 j0 k0 i1 j1 k1 dx beta gcw u f0 f1 f2 rgcw res bc m r w ->
  (0 < beta)%Qc ->
  (forall d, 0 <= d < 3 -> (0 < dx d)%Qc) ->
  (forall f, 0 <= f < 6 -> sound false (bc f)) ->
  roomy 3 (ends3 i0 j0 k0) (ends3 i1 j1 k1) bc ->
  (forall f, 0 <= f < 6 -> b_kind (bc f) = 0 -> b_order (bc f) = 1) ->
  (exists f, 0 <= f < 6 /\ b_kind (bc f) <> 1) ->
  forall i j k, patch3 i0 j0 k0 i1 j1 k1 i j k -> w i j k <> 0%Qc -> (0 < total3 (S := QcS) i0 j0 k0 i1 j1 k1 (fun i j k => r i j k * w i j k)%Qc)%Qc.
Proof.
  intros F Hb Hdx Hs Ro Hk Hd.
  assert (Hh : (exists f, 0 <= f < 6 /\ b_kind (bc f) <> 1) \/ (exists i j k, patch3 i0 j0 k0 i1 j1 k1 i j k /\ (0 < (fun _ _ _ => 0%Qc) i j k)%Qc)) by (left; exact Hd). clear Hd. intros i j k Ip N.
  rewrite (form_poisson_3d i0 j0 k0 i1 j1 k1 dx beta gcw u f0 f1 f2 rgcw res bc m r w  w F Hb Hdx Hs Ro).
  destruct (Qcle_lt_or_eq _ _ (bnonneg3 i0 j0 k0 i1 j1 k1 dx beta (fun _ _ _ => 0%Qc) (fun _ _ _ => 1%Qc) (fun _ _ _ => 1%Qc) (fun _ _ _ => 1%Qc) bc false Hb Hdx (fun _ _ _ _ _ _ => eq_refl : (0 < 1)%Qc) (fun _ _ _ _ _ _ => eq_refl : (0 < 1)%Qc) (fun _ _ _ _ _ _ => eq_refl : (0 < 1)%Qc) Hs Ro Hk (fun _ _ _ _ => Qcle_refl 0%Qc) w)) as [P|E]; [exact P|].
  exfalso. apply N. exact (bdefinite3 i0 j0 k0 i1 j1 k1 dx beta (fun _ _ _ => 0%Qc) (fun _ _ _ => 1%Qc) (fun _ _ _ => 1%Qc) (fun _ _ _ => 1%Qc) bc false Hb Hdx (fun _ _ _ _ _ _ => eq_refl : (0 < 1)%Qc) (fun _ _ _ _ _ _ => eq_refl : (0 < 1)%Qc) (fun _ _ _ _ _ _ => eq_refl : (0 < 1)%Qc) Hs Ro Hk (fun _ _ _ _ => Qcle_refl 0%Qc) w Hh (eq_sym E) i j k Ip).
Qed.

Lemma fenergy_poisson_3d i0 j0 k0 i1 j1 k1 (dx : Z -> Qc) (beta : Qc) gcw u f0 f1 f2 rgcw res bc (m n : mem QcS) (r w s z : Z -> Z -> Z -> Qc) :
  filled_poisson_3d (S := QcS) i0 j0 k0 i1 j1 k1 dx beta gcw u f0 f1 f2 rgcw res bc m r w ->
  filled_poisson_3d (S := QcS) i0 j0 k0 i1 j1 k1 dx beta gcw u f0 f1 f2 rgcw res bc n s z ->
  (0 < beta)%Qc ->
  (forall d, 0 <= d < 3 -> (0 < dx d)%Qc) ->
  (forall f, 0 <= f < 6 -> sound false (bc f)) ->
  roomy 3 (ends3 i0 j0 k0) (ends3 i1 j1 k1) bc ->
  (forall f, 0 <= f < 6 -> b_kind (bc f) = 0 -> b_order (bc f) = 1) ->
  (total3 (S := QcS) i0 j0 k0 i1 j1 k1 (fun i j k => r i j k * w i j k)%Qc - (1 + 1) * total3 (S := QcS) i0 j0 k0 i1 j1 k1 (fun i j k => r i j k * w i j k)%Qc <=
   total3 (S := QcS) i0 j0 k0 i1 j1 k1 (fun i j k => s i j k * z i j k)%Qc - (1 + 1) * total3 (S := QcS) i0 j0 k0 i1 j1 k1 (fun i j k => r i j k * z i j k)%Qc)%Qc.
Proof.
  intros F G Hb Hdx Hs Ro Hk.
  rewrite !(form_poisson_3d i0 j0 k0 i1 j1 k1 dx beta gcw u f0 f1 f2 rgcw res bc m r w  _ F Hb Hdx Hs Ro), (form_poisson_3d i0 j0 k0 i1 j1 k1 dx beta gcw u f0 f1 f2 rgcw res bc n s z  z G Hb Hdx Hs Ro).
  exact (benergy3 i0 j0 k0 i1 j1 k1 dx beta (fun _ _ _ => 0%Qc) (fun _ _ _ => 1%Qc) (fun _ _ _ => 1%Qc) (fun _ _ _ => 1%Qc) bc false Hb Hdx (fun _ _ _ _ _ _ => eq_refl : (0 < 1)%Qc) (fun _ _ _ _ _ _ => eq_refl : (0 < 1)%Qc) (fun _ _ _ _ _ _ => eq_refl : (0 < 1)%Qc) Hs Ro Hk (fun _ _ _ _ => Qcle_refl 0%Qc) w z).
Qed.

