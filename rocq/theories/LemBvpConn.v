(** * The connected and the closed problem in memory *)

From Coq Require Import Field QArith Qcanon.
From Verif Require Import Base FortranBase SpecKernel Instances SpecBoundary SpecBCOrder SpecBCCalls SpecRow
  LemSum LemEnergy SpecSolve LemSolve LemSolveOp LemSolveMem SpecBvp LemBvp LemBvpFill LemBvpOp LemBvpMem LemBvpAny.
Import ListNotations.
Open Scope Z_scope.

Lemma closed_roomy n lo hi (bc : Z -> bcond QcS) : (forall d, 0 <= d < Z.of_nat n -> lo d <= hi d) -> (forall f, 0 <= f < 2 * Z.of_nat n -> b_kind (bc f) = 1) -> roomy n lo hi bc.
Proof.
  intros Hl Hk f Hf. unfold depth. rewrite (Hk f Hf). cbn [Z.eqb Pos.eqb andb negb].
  assert (0 <= f / 2 < Z.of_nat n) as Hd by (split; [apply Z.div_pos; lia|apply Z.div_lt_upper_bound; lia]). specialize (Hl _ Hd). lia.
Qed.

Lemma acompare_v1_1d i0 i1 (dx : Z -> Qc) (beta : Qc) b0 gcw u f0 (alpha : Qc) agcw a rgcw res bc (m n : mem QcS) (r w s z c v0 : Z -> Qc) :
  filled_v1_1d (S := QcS) i0 i1 dx beta b0 gcw u f0 alpha agcw a rgcw res bc m r w c v0 ->
  filled_v1_1d (S := QcS) i0 i1 dx beta b0 gcw u f0 alpha agcw a rgcw res bc n s z c v0 ->
  (0 < beta)%Qc ->
  (forall d, 0 <= d < 1 -> (0 < dx d)%Qc) ->
  (0 <= alpha)%Qc ->
  (forall i, patch1 i0 i1 i -> (0 <= c i)%Qc) ->
  (forall i, i0 <= i <= i1 + 1 -> (0 < v0 i)%Qc) ->
  (forall f, 0 <= f < 2 -> sound true (bc f)) ->
  roomy 1 (ends1 i0) (ends1 i1) bc ->
  ((exists f, 0 <= f < 2 /\ b_kind (bc f) <> 1) \/ (0 < alpha)%Qc /\ (exists i, patch1 i0 i1 i /\ (0 < c i)%Qc)) ->
  (forall i, patch1 i0 i1 i -> (r i <= s i)%Qc) ->
  forall i, patch1 i0 i1 i -> (w i <= z i)%Qc.
Proof.
  intros F G Hb Hdx Ha Hc Hv0 Hs Ro Hd Le. 
  assert (Hh : (exists f, 0 <= f < 2 /\ b_kind (bc f) <> 1) \/ (exists i, patch1 i0 i1 i /\ (0 < (fun i => alpha * c i)%Qc i)%Qc)) by (destruct Hd as [H|(Pa & i & Ip & Pc)]; [now left|right; exists i; split; [exact Ip|now apply Qc_pos_mul]]).
  apply (any1_compare i0 i1 dx beta (fun i => alpha * c i)%Qc v0 bc true Hb Hdx (fun i Ip => Qc_mul _ _ Ha (Hc i Ip)) Hv0 Hs Ro Hh w z r s).
  - exact (bvp_v1_1d i0 i1 dx beta b0 gcw u f0 alpha agcw a rgcw res bc m r w c v0 F Hb Hdx Hv0 Hs Ro).
  - exact (bvp_v1_1d i0 i1 dx beta b0 gcw u f0 alpha agcw a rgcw res bc n s z c v0 G Hb Hdx Hv0 Hs Ro).
  - exact Le.
Qed.

Lemma asolve_v1_1d i0 i1 (dx : Z -> Qc) (beta : Qc) b0 gcw u f0 (alpha : Qc) agcw a rgcw res bc (m : mem QcS) (r w c v0 f : Z -> Qc) :
  filled_v1_1d (S := QcS) i0 i1 dx beta b0 gcw u f0 alpha agcw a rgcw res bc m r w c v0 ->
  (0 < beta)%Qc ->
  (forall d, 0 <= d < 1 -> (0 < dx d)%Qc) ->
  (0 <= alpha)%Qc ->
  (forall i, patch1 i0 i1 i -> (0 <= c i)%Qc) ->
  (forall i, i0 <= i <= i1 + 1 -> (0 < v0 i)%Qc) ->
  (forall f, 0 <= f < 2 -> sound true (bc f)) ->
  roomy 1 (ends1 i0) (ends1 i1) bc ->
  ((exists f, 0 <= f < 2 /\ b_kind (bc f) <> 1) \/ (0 < alpha)%Qc /\ (exists i, patch1 i0 i1 i /\ (0 < c i)%Qc)) ->
  exists (n : mem QcS) (z : Z -> Qc), filled_v1_1d (S := QcS) i0 i1 dx beta b0 gcw u f0 alpha agcw a rgcw res bc n f z c v0 /\
    shape n = shape m /\ ints n = ints m /\
    (forall p, (forall i, patch1 i0 i1 i -> faddr (mkFa u (CELL1d i0 i1 gcw)) [i] <> p) -> load n p = load m p).
Proof.
  intros F Hb Hdx Ha Hc Hv0 Hs Ro Hd. 
  assert (Hh : (exists f, 0 <= f < 2 /\ b_kind (bc f) <> 1) \/ (exists i, patch1 i0 i1 i /\ (0 < (fun i => alpha * c i)%Qc i)%Qc)) by (destruct Hd as [H|(Pa & i & Ip & Pc)]; [now left|right; exists i; split; [exact Ip|now apply Qc_pos_mul]]).
  destruct (any1_exists i0 i1 dx beta (fun i => alpha * c i)%Qc v0 bc true Hb Hdx (fun i Ip => Qc_mul _ _ Ha (Hc i Ip)) Hv0 Hs Ro Hh f) as (z & Hz).
  destruct (bplace_v1_1d i0 i1 dx beta b0 gcw u f0 alpha agcw a rgcw res bc m r w c v0 f z F Hb Hdx Hv0 Hs Ro Hz) as (n & H). exists n, z. exact H.
Qed.

Lemma csum_v1_1d i0 i1 (dx : Z -> Qc) (beta : Qc) b0 gcw u f0 (alpha : Qc) agcw a rgcw res bc (m : mem QcS) (r w c v0 : Z -> Qc) :
  filled_v1_1d (S := QcS) i0 i1 dx beta b0 gcw u f0 alpha agcw a rgcw res bc m r w c v0 ->
  (0 < beta)%Qc ->
  (forall d, 0 <= d < 1 -> (0 < dx d)%Qc) ->
  (alpha = 0%Qc \/ forall i, patch1 i0 i1 i -> c i = 0%Qc) ->
  (forall i, i0 <= i <= i1 + 1 -> (0 < v0 i)%Qc) ->
  (forall f, 0 <= f < 2 -> b_kind (bc f) = 1) ->
  i0 <= i1 ->
  total (S := QcS) i0 i1 r = 0%Qc.
Proof.
  intros F Hb Hdx Ha0 Hv0 Hn B0.
  
  assert (Ro : roomy 1 (ends1 i0) (ends1 i1) bc).
  { apply closed_roomy; [|exact Hn]. intros e He. assert (e = 0) as -> by lia; [exact B0]. }
  assert (Hs : forall f, 0 <= f < 2 -> sound true (bc f)) by (intros e He; right; left; now apply Hn).
  rewrite <- (closed1_sum i0 i1 dx beta (fun i => alpha * c i)%Qc v0 bc Hn (fun i Ip => match Ha0 with or_introl E => eq_trans (f_equal (fun t => t * c i)%Qc E) (Qcmult_0_l _) | or_intror E => eq_trans (f_equal (fun t => alpha * t)%Qc (E i Ip)) (Qcmult_0_r _) end) Ro w).
  apply (total_ext (S := QcS)). intros i Ii.
  exact (bvp_v1_1d i0 i1 dx beta b0 gcw u f0 alpha agcw a rgcw res bc m r w c v0 F Hb Hdx Hv0 Hs Ro i ltac:(k_near)).
Qed.

Lemma cunique_v1_1d i0 i1 (dx : Z -> Qc) (beta : Qc) b0 gcw u f0 (alpha : Qc) agcw a rgcw res bc (m n : mem QcS) (r w s z c v0 : Z -> Qc) :
  filled_v1_1d (S := QcS) i0 i1 dx beta b0 gcw u f0 alpha agcw a rgcw res bc m r w c v0 ->
  filled_v1_1d (S := QcS) i0 i1 dx beta b0 gcw u f0 alpha agcw a rgcw res bc n s z c v0 ->
  (0 < beta)%Qc ->
  (forall d, 0 <= d < 1 -> (0 < dx d)%Qc) ->
  (alpha = 0%Qc \/ forall i, patch1 i0 i1 i -> c i = 0%Qc) ->
  (forall i, i0 <= i <= i1 + 1 -> (0 < v0 i)%Qc) ->
  (forall f, 0 <= f < 2 -> b_kind (bc f) = 1) ->
  i0 <= i1 ->
  (forall i, patch1 i0 i1 i -> r i = s i) ->
  exists t : Qc, forall i, patch1 i0 i1 i -> z i = (w i + t)%Qc.
Proof.
  intros F G Hb Hdx Ha0 Hv0 Hn B0 Eq.
  
  assert (Ro : roomy 1 (ends1 i0) (ends1 i1) bc).
  { apply closed_roomy; [|exact Hn]. intros e He. assert (e = 0) as -> by lia; [exact B0]. }
  assert (Hs : forall f, 0 <= f < 2 -> sound true (bc f)) by (intros e He; right; left; now apply Hn).
  apply (closed1_unique i0 i1 dx beta (fun i => alpha * c i)%Qc v0 bc Hn (fun i Ip => match Ha0 with or_introl E => eq_trans (f_equal (fun t => t * c i)%Qc E) (Qcmult_0_l _) | or_intror E => eq_trans (f_equal (fun t => alpha * t)%Qc (E i Ip)) (Qcmult_0_r _) end) Ro Hb Hdx Hv0 w z).
  intros i Ip. rewrite <- (bvp_v1_1d i0 i1 dx beta b0 gcw u f0 alpha agcw a rgcw res bc m r w c v0 F Hb Hdx Hv0 Hs Ro i Ip).
  rewrite <- (bvp_v1_1d i0 i1 dx beta b0 gcw u f0 alpha agcw a rgcw res bc n s z c v0 G Hb Hdx Hv0 Hs Ro i Ip). exact (Eq i Ip).
Qed.

Lemma csolve_v1_1d i0 i1 (dx : Z -> Qc) (beta : Qc) b0 gcw u f0 (alpha : Qc) agcw a rgcw res bc (m : mem QcS) (r w c v0 f : Z -> Qc) :
  filled_v1_1d (S := QcS) i0 i1 dx beta b0 gcw u f0 alpha agcw a rgcw res bc m r w c v0 ->
  (0 < beta)%Qc ->
  (forall d, 0 <= d < 1 -> (0 < dx d)%Qc) ->
  (alpha = 0%Qc \/ forall i, patch1 i0 i1 i -> c i = 0%Qc) ->
  (forall i, i0 <= i <= i1 + 1 -> (0 < v0 i)%Qc) ->
  (forall f, 0 <= f < 2 -> b_kind (bc f) = 1) ->
  i0 <= i1 ->
  total (S := QcS) i0 i1 f = 0%Qc ->
  forall x (g : Qc), patch1 i0 i1 x ->
  exists (n : mem QcS) (z : Z -> Qc), filled_v1_1d (S := QcS) i0 i1 dx beta b0 gcw u f0 alpha agcw a rgcw res bc n f z c v0 /\ z x = g /\
    shape n = shape m /\ ints n = ints m /\
    (forall p, (forall i, patch1 i0 i1 i -> faddr (mkFa u (CELL1d i0 i1 gcw)) [i] <> p) -> load n p = load m p).
Proof.
  intros F Hb Hdx Ha0 Hv0 Hn B0 Sf x g Ig.
  
  assert (Ro : roomy 1 (ends1 i0) (ends1 i1) bc).
  { apply closed_roomy; [|exact Hn]. intros e He. assert (e = 0) as -> by lia; [exact B0]. }
  assert (Hs : forall f, 0 <= f < 2 -> sound true (bc f)) by (intros e He; right; left; now apply Hn).
  destruct (closed1_exists i0 i1 dx beta (fun i => alpha * c i)%Qc v0 bc Hn (fun i Ip => match Ha0 with or_introl E => eq_trans (f_equal (fun t => t * c i)%Qc E) (Qcmult_0_l _) | or_intror E => eq_trans (f_equal (fun t => alpha * t)%Qc (E i Ip)) (Qcmult_0_r _) end) Ro Hb Hdx Hv0 f Sf) as (z & Hz).
  set (z' := fun i => (1 * z i + (g - z x) * 1)%Qc).
  assert (Hz' : forall i, patch1 i0 i1 i -> op1 dx beta (fun i => alpha * c i)%Qc v0 (ext1 i0 i1 dx v0 bc z') i = f i).
  { intros i Ip. unfold z'. rewrite (bvp1_lin i0 i1 dx beta (fun i => alpha * c i)%Qc v0 bc 1 (g - z x) z (fun _ => 1%Qc) i Ip), (Hz i Ip).
    rewrite (closed1_const i0 i1 dx beta (fun i => alpha * c i)%Qc v0 bc Hn (fun i Ip => match Ha0 with or_introl E => eq_trans (f_equal (fun t => t * c i)%Qc E) (Qcmult_0_l _) | or_intror E => eq_trans (f_equal (fun t => alpha * t)%Qc (E i Ip)) (Qcmult_0_r _) end) 1 i Ip). ring. }
  destruct (bplace_v1_1d i0 i1 dx beta b0 gcw u f0 alpha agcw a rgcw res bc m r w c v0 f z' F Hb Hdx Hv0 Hs Ro Hz') as (n & H1 & H2). exists n, z'.
  split; [exact H1|]. split; [unfold z'; ring|exact H2].
Qed.

Lemma acompare_v2_1d i0 i1 (dx : Z -> Qc) (beta : Qc) b0 gcw u f0 (alpha : Qc) rgcw res bc (m n : mem QcS) (r w s z v0 : Z -> Qc) :
  filled_v2_1d (S := QcS) i0 i1 dx beta b0 gcw u f0 alpha rgcw res bc m r w v0 ->
  filled_v2_1d (S := QcS) i0 i1 dx beta b0 gcw u f0 alpha rgcw res bc n s z v0 ->
  (0 < beta)%Qc ->
  (forall d, 0 <= d < 1 -> (0 < dx d)%Qc) ->
  (0 <= alpha)%Qc ->
  (forall i, i0 <= i <= i1 + 1 -> (0 < v0 i)%Qc) ->
  (forall f, 0 <= f < 2 -> sound true (bc f)) ->
  roomy 1 (ends1 i0) (ends1 i1) bc ->
  ((exists f, 0 <= f < 2 /\ b_kind (bc f) <> 1) \/ (0 < alpha)%Qc) ->
  (forall i, patch1 i0 i1 i -> (r i <= s i)%Qc) ->
  forall i, patch1 i0 i1 i -> (w i <= z i)%Qc.
Proof.
  intros F G Hb Hdx Ha Hv0 Hs Ro Hd Le. 
  assert (Hh : (exists f, 0 <= f < 2 /\ b_kind (bc f) <> 1) \/ (exists i, patch1 i0 i1 i /\ (0 < (fun _ => alpha) i)%Qc)) by (destruct Hd as [H|H]; [now left|right; exists i0; split; [pose proof (roomy_le 1 (ends1 i0) (ends1 i1) bc Ro 0 ltac:(lia)) as B0; change (i0 <= i1) in B0; unfold patch1; lia|exact H]]).
  apply (any1_compare i0 i1 dx beta (fun _ => alpha) v0 bc true Hb Hdx (fun _ _ => Ha) Hv0 Hs Ro Hh w z r s).
  - exact (bvp_v2_1d i0 i1 dx beta b0 gcw u f0 alpha rgcw res bc m r w v0 F Hb Hdx Hv0 Hs Ro).
  - exact (bvp_v2_1d i0 i1 dx beta b0 gcw u f0 alpha rgcw res bc n s z v0 G Hb Hdx Hv0 Hs Ro).
  - exact Le.
Qed.

Lemma asolve_v2_1d i0 i1 (dx : Z -> Qc) (beta : Qc) b0 gcw u f0 (alpha : Qc) rgcw res bc (m : mem QcS) (r w v0 f : Z -> Qc) :
  filled_v2_1d (S := QcS) i0 i1 dx beta b0 gcw u f0 alpha rgcw res bc m r w v0 ->
  (0 < beta)%Qc ->
  (forall d, 0 <= d < 1 -> (0 < dx d)%Qc) ->
  (0 <= alpha)%Qc ->
  (forall i, i0 <= i <= i1 + 1 -> (0 < v0 i)%Qc) ->
  (forall f, 0 <= f < 2 -> sound true (bc f)) ->
  roomy 1 (ends1 i0) (ends1 i1) bc ->
  ((exists f, 0 <= f < 2 /\ b_kind (bc f) <> 1) \/ (0 < alpha)%Qc) ->
  exists (n : mem QcS) (z : Z -> Qc), filled_v2_1d (S := QcS) i0 i1 dx beta b0 gcw u f0 alpha rgcw res bc n f z v0 /\
    shape n = shape m /\ ints n = ints m /\
    (forall p, (forall i, patch1 i0 i1 i -> faddr (mkFa u (CELL1d i0 i1 gcw)) [i] <> p) -> load n p = load m p).
Proof.
  intros F Hb Hdx Ha Hv0 Hs Ro Hd. 
  assert (Hh : (exists f, 0 <= f < 2 /\ b_kind (bc f) <> 1) \/ (exists i, patch1 i0 i1 i /\ (0 < (fun _ => alpha) i)%Qc)) by (destruct Hd as [H|H]; [now left|right; exists i0; split; [pose proof (roomy_le 1 (ends1 i0) (ends1 i1) bc Ro 0 ltac:(lia)) as B0; change (i0 <= i1) in B0; unfold patch1; lia|exact H]]).
  destruct (any1_exists i0 i1 dx beta (fun _ => alpha) v0 bc true Hb Hdx (fun _ _ => Ha) Hv0 Hs Ro Hh f) as (z & Hz).
  destruct (bplace_v2_1d i0 i1 dx beta b0 gcw u f0 alpha rgcw res bc m r w v0 f z F Hb Hdx Hv0 Hs Ro Hz) as (n & H). exists n, z. exact H.
Qed.

Lemma csum_v2_1d i0 i1 (dx : Z -> Qc) (beta : Qc) b0 gcw u f0 (alpha : Qc) rgcw res bc (m : mem QcS) (r w v0 : Z -> Qc) :
  filled_v2_1d (S := QcS) i0 i1 dx beta b0 gcw u f0 alpha rgcw res bc m r w v0 ->
  (0 < beta)%Qc ->
  (forall d, 0 <= d < 1 -> (0 < dx d)%Qc) ->
  alpha = 0%Qc ->
  (forall i, i0 <= i <= i1 + 1 -> (0 < v0 i)%Qc) ->
  (forall f, 0 <= f < 2 -> b_kind (bc f) = 1) ->
  i0 <= i1 ->
  total (S := QcS) i0 i1 r = 0%Qc.
Proof.
  intros F Hb Hdx Ha0 Hv0 Hn B0.
  
  assert (Ro : roomy 1 (ends1 i0) (ends1 i1) bc).
  { apply closed_roomy; [|exact Hn]. intros e He. assert (e = 0) as -> by lia; [exact B0]. }
  assert (Hs : forall f, 0 <= f < 2 -> sound true (bc f)) by (intros e He; right; left; now apply Hn).
  rewrite <- (closed1_sum i0 i1 dx beta (fun _ => alpha) v0 bc Hn (fun _ _ => Ha0) Ro w).
  apply (total_ext (S := QcS)). intros i Ii.
  exact (bvp_v2_1d i0 i1 dx beta b0 gcw u f0 alpha rgcw res bc m r w v0 F Hb Hdx Hv0 Hs Ro i ltac:(k_near)).
Qed.

Lemma cunique_v2_1d i0 i1 (dx : Z -> Qc) (beta : Qc) b0 gcw u f0 (alpha : Qc) rgcw res bc (m n : mem QcS) (r w s z v0 : Z -> Qc) :
  filled_v2_1d (S := QcS) i0 i1 dx beta b0 gcw u f0 alpha rgcw res bc m r w v0 ->
  filled_v2_1d (S := QcS) i0 i1 dx beta b0 gcw u f0 alpha rgcw res bc n s z v0 ->
  (0 < beta)%Qc ->
  (forall d, 0 <= d < 1 -> (0 < dx d)%Qc) ->
  alpha = 0%Qc ->
  (forall i, i0 <= i <= i1 + 1 -> (0 < v0 i)%Qc) ->
  (forall f, 0 <= f < 2 -> b_kind (bc f) = 1) ->
  i0 <= i1 ->
  (forall i, patch1 i0 i1 i -> r i = s i) ->
  exists t : Qc, forall i, patch1 i0 i1 i -> z i = (w i + t)%Qc.
Proof.
  intros F G Hb Hdx Ha0 Hv0 Hn B0 Eq.
  
  assert (Ro : roomy 1 (ends1 i0) (ends1 i1) bc).
  { apply closed_roomy; [|exact Hn]. intros e He. assert (e = 0) as -> by lia; [exact B0]. }
  assert (Hs : forall f, 0 <= f < 2 -> sound true (bc f)) by (intros e He; right; left; now apply Hn).
  apply (closed1_unique i0 i1 dx beta (fun _ => alpha) v0 bc Hn (fun _ _ => Ha0) Ro Hb Hdx Hv0 w z).
  intros i Ip. rewrite <- (bvp_v2_1d i0 i1 dx beta b0 gcw u f0 alpha rgcw res bc m r w v0 F Hb Hdx Hv0 Hs Ro i Ip).
  rewrite <- (bvp_v2_1d i0 i1 dx beta b0 gcw u f0 alpha rgcw res bc n s z v0 G Hb Hdx Hv0 Hs Ro i Ip). exact (Eq i Ip).
Qed.

Lemma csolve_v2_1d i0 i1 (dx : Z -> Qc) (beta : Qc) b0 gcw u f0 (alpha : Qc) rgcw res bc (m : mem QcS) (r w v0 f : Z -> Qc) :
  filled_v2_1d (S := QcS) i0 i1 dx beta b0 gcw u f0 alpha rgcw res bc m r w v0 ->
  (0 < beta)%Qc ->
  (forall d, 0 <= d < 1 -> (0 < dx d)%Qc) ->
  alpha = 0%Qc ->
  (forall i, i0 <= i <= i1 + 1 -> (0 < v0 i)%Qc) ->
  (forall f, 0 <= f < 2 -> b_kind (bc f) = 1) ->
  i0 <= i1 ->
  total (S := QcS) i0 i1 f = 0%Qc ->
  forall x (g : Qc), patch1 i0 i1 x ->
  exists (n : mem QcS) (z : Z -> Qc), filled_v2_1d (S := QcS) i0 i1 dx beta b0 gcw u f0 alpha rgcw res bc n f z v0 /\ z x = g /\
    shape n = shape m /\ ints n = ints m /\
    (forall p, (forall i, patch1 i0 i1 i -> faddr (mkFa u (CELL1d i0 i1 gcw)) [i] <> p) -> load n p = load m p).
Proof.
  intros F Hb Hdx Ha0 Hv0 Hn B0 Sf x g Ig.
  
  assert (Ro : roomy 1 (ends1 i0) (ends1 i1) bc).
  { apply closed_roomy; [|exact Hn]. intros e He. assert (e = 0) as -> by lia; [exact B0]. }
  assert (Hs : forall f, 0 <= f < 2 -> sound true (bc f)) by (intros e He; right; left; now apply Hn).
  destruct (closed1_exists i0 i1 dx beta (fun _ => alpha) v0 bc Hn (fun _ _ => Ha0) Ro Hb Hdx Hv0 f Sf) as (z & Hz).
  set (z' := fun i => (1 * z i + (g - z x) * 1)%Qc).
  assert (Hz' : forall i, patch1 i0 i1 i -> op1 dx beta (fun _ => alpha) v0 (ext1 i0 i1 dx v0 bc z') i = f i).
  { intros i Ip. unfold z'. rewrite (bvp1_lin i0 i1 dx beta (fun _ => alpha) v0 bc 1 (g - z x) z (fun _ => 1%Qc) i Ip), (Hz i Ip).
    rewrite (closed1_const i0 i1 dx beta (fun _ => alpha) v0 bc Hn (fun _ _ => Ha0) 1 i Ip). ring. }
  destruct (bplace_v2_1d i0 i1 dx beta b0 gcw u f0 alpha rgcw res bc m r w v0 f z' F Hb Hdx Hv0 Hs Ro Hz') as (n & H1 & H2). exists n, z'.
  split; [exact H1|]. split; [unfold z'; ring|exact H2].
Qed.

Lemma acompare_poisson_1d i0 i1 (dx : Z -> Qc) (beta : Qc) gcw u f0 rgcw res bc (m n : mem QcS) (r w s z : Z -> Qc) :
  filled_poisson_1d (S := QcS) i0 i1 dx beta gcw u f0 rgcw res bc m r w ->
  filled_poisson_1d (S := QcS) i0 i1 dx beta gcw u f0 rgcw res bc n s z ->
  (0 < beta)%Qc ->
  (forall d, 0 <= d < 1 -> (0 < dx d)%Qc) ->
  (forall f, 0 <= f < 2 -> sound false (bc f)) ->
  roomy 1 (ends1 i0) (ends1 i1) bc ->
  (exists f, 0 <= f < 2 /\ b_kind (bc f) <> 1) ->
  (forall i, patch1 i0 i1 i -> (r i <= s i)%Qc) ->
  forall i, patch1 i0 i1 i -> (w i <= z i)%Qc.
Proof.
  intros F G Hb Hdx Hs Ro Hd Le. 
  assert (Hh : (exists f, 0 <= f < 2 /\ b_kind (bc f) <> 1) \/ (exists i, patch1 i0 i1 i /\ (0 < (fun _ => 0%Qc) i)%Qc)) by (left; exact Hd).
  apply (any1_compare i0 i1 dx beta (fun _ => 0%Qc) (fun _ => 1%Qc) bc false Hb Hdx (fun _ _ => Qcle_refl 0%Qc) (fun _ _ => eq_refl : (0 < 1)%Qc) Hs Ro Hh w z r s).
  - exact (bvp_poisson_1d i0 i1 dx beta gcw u f0 rgcw res bc m r w  F Hb Hdx Hs Ro).
  - exact (bvp_poisson_1d i0 i1 dx beta gcw u f0 rgcw res bc n s z  G Hb Hdx Hs Ro).
  - exact Le.
Qed.

Lemma asolve_poisson_1d i0 i1 (dx : Z -> Qc) (beta : Qc) gcw u f0 rgcw res bc (m : mem QcS) (r w f : Z -> Qc) :
  filled_poisson_1d (S := QcS) i0 i1 dx beta gcw u f0 rgcw res bc m r w ->
  (0 < beta)%Qc ->
  (forall d, 0 <= d < 1 -> (0 < dx d)%Qc) ->
  (forall f, 0 <= f < 2 -> sound false (bc f)) ->
  roomy 1 (ends1 i0) (ends1 i1) bc ->
  (exists f, 0 <= f < 2 /\ b_kind (bc f) <> 1) ->
  exists (n : mem QcS) (z : Z -> Qc), filled_poisson_1d (S := QcS) i0 i1 dx beta gcw u f0 rgcw res bc n f z /\
    shape n = shape m /\ ints n = ints m /\
    (forall p, (forall i, patch1 i0 i1 i -> faddr (mkFa u (CELL1d i0 i1 gcw)) [i] <> p) -> load n p = load m p).
Proof.
  intros F Hb Hdx Hs Ro Hd. 
  assert (Hh : (exists f, 0 <= f < 2 /\ b_kind (bc f) <> 1) \/ (exists i, patch1 i0 i1 i /\ (0 < (fun _ => 0%Qc) i)%Qc)) by (left; exact Hd).
  destruct (any1_exists i0 i1 dx beta (fun _ => 0%Qc) (fun _ => 1%Qc) bc false Hb Hdx (fun _ _ => Qcle_refl 0%Qc) (fun _ _ => eq_refl : (0 < 1)%Qc) Hs Ro Hh f) as (z & Hz).
  destruct (bplace_poisson_1d i0 i1 dx beta gcw u f0 rgcw res bc m r w  f z F Hb Hdx Hs Ro Hz) as (n & H). exists n, z. exact H.
Qed.

Lemma csum_poisson_1d i0 i1 (dx : Z -> Qc) (beta : Qc) gcw u f0 rgcw res bc (m : mem QcS) (r w : Z -> Qc) :
  filled_poisson_1d (S := QcS) i0 i1 dx beta gcw u f0 rgcw res bc m r w ->
  (0 < beta)%Qc ->
  (forall d, 0 <= d < 1 -> (0 < dx d)%Qc) ->
  (forall f, 0 <= f < 2 -> b_kind (bc f) = 1) ->
  i0 <= i1 ->
  total (S := QcS) i0 i1 r = 0%Qc.
Proof.
  intros F Hb Hdx Hn B0.
  
  assert (Ro : roomy 1 (ends1 i0) (ends1 i1) bc).
  { apply closed_roomy; [|exact Hn]. intros e He. assert (e = 0) as -> by lia; [exact B0]. }
  assert (Hs : forall f, 0 <= f < 2 -> sound false (bc f)) by (intros e He; right; left; now apply Hn).
  rewrite <- (closed1_sum i0 i1 dx beta (fun _ => 0%Qc) (fun _ => 1%Qc) bc Hn (fun _ _ => eq_refl) Ro w).
  apply (total_ext (S := QcS)). intros i Ii.
  exact (bvp_poisson_1d i0 i1 dx beta gcw u f0 rgcw res bc m r w  F Hb Hdx Hs Ro i ltac:(k_near)).
Qed.

Lemma cunique_poisson_1d i0 i1 (dx : Z -> Qc) (beta : Qc) gcw u f0 rgcw res bc (m n : mem QcS) (r w s z : Z -> Qc) :
  filled_poisson_1d (S := QcS) i0 i1 dx beta gcw u f0 rgcw res bc m r w ->
  filled_poisson_1d (S := QcS) i0 i1 dx beta gcw u f0 rgcw res bc n s z ->
  (0 < beta)%Qc ->
  (forall d, 0 <= d < 1 -> (0 < dx d)%Qc) ->
  (forall f, 0 <= f < 2 -> b_kind (bc f) = 1) ->
  i0 <= i1 ->
  (forall i, patch1 i0 i1 i -> r i = s i) ->
  exists t : Qc, forall i, patch1 i0 i1 i -> z i = (w i + t)%Qc.
Proof.
  intros F G Hb Hdx Hn B0 Eq.
  
  assert (Ro : roomy 1 (ends1 i0) (ends1 i1) bc).
  { apply closed_roomy; [|exact Hn]. intros e He. assert (e = 0) as -> by lia; [exact B0]. }
  assert (Hs : forall f, 0 <= f < 2 -> sound false (bc f)) by (intros e He; right; left; now apply Hn).
  apply (closed1_unique i0 i1 dx beta (fun _ => 0%Qc) (fun _ => 1%Qc) bc Hn (fun _ _ => eq_refl) Ro Hb Hdx (fun _ _ => eq_refl : (0 < 1)%Qc) w z).
  intros i Ip. rewrite <- (bvp_poisson_1d i0 i1 dx beta gcw u f0 rgcw res bc m r w  F Hb Hdx Hs Ro i Ip).
  rewrite <- (bvp_poisson_1d i0 i1 dx beta gcw u f0 rgcw res bc n s z  G Hb Hdx Hs Ro i Ip). exact (Eq i Ip).
Qed.

Lemma csolve_poisson_1d i0 i1 (dx : Z -> Qc) (beta : Qc) gcw u f0 rgcw res bc (m : mem QcS) (r w f : Z -> Qc) :
  filled_poisson_1d (S := QcS) i0 i1 dx beta gcw u f0 rgcw res bc m r w ->
  (0 < beta)%Qc ->
  (forall d, 0 <= d < 1 -> (0 < dx d)%Qc) ->
  (forall f, 0 <= f < 2 -> b_kind (bc f) = 1) ->
  i0 <= i1 ->
  total (S := QcS) i0 i1 f = 0%Qc ->
  forall x (g : Qc), patch1 i0 i1 x ->
  exists (n : mem QcS) (z : Z -> Qc), filled_poisson_1d (S := QcS) i0 i1 dx beta gcw u f0 rgcw res bc n f z /\ z x = g /\
    shape n = shape m /\ ints n = ints m /\
    (forall p, (forall i, patch1 i0 i1 i -> faddr (mkFa u (CELL1d i0 i1 gcw)) [i] <> p) -> load n p = load m p).
Proof.
  intros F Hb Hdx Hn B0 Sf x g Ig.
  
  assert (Ro : roomy 1 (ends1 i0) (ends1 i1) bc).
  { apply closed_roomy; [|exact Hn]. intros e He. assert (e = 0) as -> by lia; [exact B0]. }
  assert (Hs : forall f, 0 <= f < 2 -> sound false (bc f)) by (intros e He; right; left; now apply Hn).
  destruct (closed1_exists i0 i1 dx beta (fun _ => 0%Qc) (fun _ => 1%Qc) bc Hn (fun _ _ => eq_refl) Ro Hb Hdx (fun _ _ => eq_refl : (0 < 1)%Qc) f Sf) as (z & Hz).
  set (z' := fun i => (1 * z i + (g - z x) * 1)%Qc).
  assert (Hz' : forall i, patch1 i0 i1 i -> op1 dx beta (fun _ => 0%Qc) (fun _ => 1%Qc) (ext1 i0 i1 dx (fun _ => 1%Qc) bc z') i = f i).
  { intros i Ip. unfold z'. rewrite (bvp1_lin i0 i1 dx beta (fun _ => 0%Qc) (fun _ => 1%Qc) bc 1 (g - z x) z (fun _ => 1%Qc) i Ip), (Hz i Ip).
    rewrite (closed1_const i0 i1 dx beta (fun _ => 0%Qc) (fun _ => 1%Qc) bc Hn (fun _ _ => eq_refl) 1 i Ip). ring. }
  destruct (bplace_poisson_1d i0 i1 dx beta gcw u f0 rgcw res bc m r w  f z' F Hb Hdx Hs Ro Hz') as (n & H1 & H2). exists n, z'.
  split; [exact H1|]. split; [unfold z'; ring|exact H2].
Qed.

Lemma acompare_v1_2d i0 j0 i1 j1 (dx : Z -> Qc) (beta : Qc) b0 b1 gcw u f0 f1 (alpha : Qc) agcw a rgcw res bc (m n : mem QcS) (r w s z c v0 v1 : Z -> Z -> Qc) :
  filled_v1_2d (S := QcS) i0 j0 i1 j1 dx beta b0 b1 gcw u f0 f1 alpha agcw a rgcw res bc m r w c v0 v1 ->
  filled_v1_2d (S := QcS) i0 j0 i1 j1 dx beta b0 b1 gcw u f0 f1 alpha agcw a rgcw res bc n s z c v0 v1 ->
  (0 < beta)%Qc ->
  (forall d, 0 <= d < 2 -> (0 < dx d)%Qc) ->
  (0 <= alpha)%Qc ->
  (forall i j, patch2 i0 j0 i1 j1 i j -> (0 <= c i j)%Qc) ->
  (forall i j, i0 <= i <= i1 + 1 -> j0 <= j <= j1 -> (0 < v0 i j)%Qc) ->
  (forall i j, i0 <= i <= i1 -> j0 <= j <= j1 + 1 -> (0 < v1 i j)%Qc) ->
  (forall f, 0 <= f < 4 -> sound true (bc f)) ->
  roomy 2 (ends2 i0 j0) (ends2 i1 j1) bc ->
  ((exists f, 0 <= f < 4 /\ b_kind (bc f) <> 1) \/ (0 < alpha)%Qc /\ (exists i j, patch2 i0 j0 i1 j1 i j /\ (0 < c i j)%Qc)) ->
  (forall i j, patch2 i0 j0 i1 j1 i j -> (r i j <= s i j)%Qc) ->
  forall i j, patch2 i0 j0 i1 j1 i j -> (w i j <= z i j)%Qc.
Proof.
  intros F G Hb Hdx Ha Hc Hv0 Hv1 Hs Ro Hd Le. assert (Hw1 : forall i j, i0 <= i <= i1 -> j0 <= j <= j1 + 1 -> (0 <= v1 i j)%Qc) by (intros; apply Qclt_le_weak, Hv1; assumption).
  assert (Hh : (exists f, 0 <= f < 4 /\ b_kind (bc f) <> 1) \/ (exists i j, patch2 i0 j0 i1 j1 i j /\ (0 < (fun i j => alpha * c i j)%Qc i j)%Qc)) by (destruct Hd as [H|(Pa & i & j & Ip & Pc)]; [now left|right; exists i, j; split; [exact Ip|now apply Qc_pos_mul]]).
  apply (any2_compare i0 j0 i1 j1 dx beta (fun i j => alpha * c i j)%Qc v0 v1 bc true Hb Hdx (fun i j Ip => Qc_mul _ _ Ha (Hc i j Ip)) Hv0 Hv1 Hs Ro Hh w z r s).
  - exact (bvp_v1_2d i0 j0 i1 j1 dx beta b0 b1 gcw u f0 f1 alpha agcw a rgcw res bc m r w c v0 v1 F Hb Hdx Hv0 Hw1 Hs Ro).
  - exact (bvp_v1_2d i0 j0 i1 j1 dx beta b0 b1 gcw u f0 f1 alpha agcw a rgcw res bc n s z c v0 v1 G Hb Hdx Hv0 Hw1 Hs Ro).
  - exact Le.
Qed.

Lemma asolve_v1_2d i0 j0 i1 j1 (dx : Z -> Qc) (beta : Qc) b0 b1 gcw u f0 f1 (alpha : Qc) agcw a rgcw res bc (m : mem QcS) (r w c v0 v1 f : Z -> Z -> Qc) :
  filled_v1_2d (S := QcS) i0 j0 i1 j1 dx beta b0 b1 gcw u f0 f1 alpha agcw a rgcw res bc m r w c v0 v1 ->
  (0 < beta)%Qc ->
  (forall d, 0 <= d < 2 -> (0 < dx d)%Qc) ->
  (0 <= alpha)%Qc ->
  (forall i j, patch2 i0 j0 i1 j1 i j -> (0 <= c i j)%Qc) ->
  (forall i j, i0 <= i <= i1 + 1 -> j0 <= j <= j1 -> (0 < v0 i j)%Qc) ->
  (forall i j, i0 <= i <= i1 -> j0 <= j <= j1 + 1 -> (0 < v1 i j)%Qc) ->
  (forall f, 0 <= f < 4 -> sound true (bc f)) ->
  roomy 2 (ends2 i0 j0) (ends2 i1 j1) bc ->
  ((exists f, 0 <= f < 4 /\ b_kind (bc f) <> 1) \/ (0 < alpha)%Qc /\ (exists i j, patch2 i0 j0 i1 j1 i j /\ (0 < c i j)%Qc)) ->
  exists (n : mem QcS) (z : Z -> Z -> Qc), filled_v1_2d (S := QcS) i0 j0 i1 j1 dx beta b0 b1 gcw u f0 f1 alpha agcw a rgcw res bc n f z c v0 v1 /\
    shape n = shape m /\ ints n = ints m /\
    (forall p, (forall i j, patch2 i0 j0 i1 j1 i j -> faddr (mkFa u (CELL2d i0 j0 i1 j1 gcw)) [i; j] <> p) -> load n p = load m p).
Proof.
  intros F Hb Hdx Ha Hc Hv0 Hv1 Hs Ro Hd. assert (Hw1 : forall i j, i0 <= i <= i1 -> j0 <= j <= j1 + 1 -> (0 <= v1 i j)%Qc) by (intros; apply Qclt_le_weak, Hv1; assumption).
  assert (Hh : (exists f, 0 <= f < 4 /\ b_kind (bc f) <> 1) \/ (exists i j, patch2 i0 j0 i1 j1 i j /\ (0 < (fun i j => alpha * c i j)%Qc i j)%Qc)) by (destruct Hd as [H|(Pa & i & j & Ip & Pc)]; [now left|right; exists i, j; split; [exact Ip|now apply Qc_pos_mul]]).
  destruct (any2_exists i0 j0 i1 j1 dx beta (fun i j => alpha * c i j)%Qc v0 v1 bc true Hb Hdx (fun i j Ip => Qc_mul _ _ Ha (Hc i j Ip)) Hv0 Hv1 Hs Ro Hh f) as (z & Hz).
  destruct (bplace_v1_2d i0 j0 i1 j1 dx beta b0 b1 gcw u f0 f1 alpha agcw a rgcw res bc m r w c v0 v1 f z F Hb Hdx Hv0 Hw1 Hs Ro Hz) as (n & H). exists n, z. exact H.
Qed.

Lemma csum_v1_2d i0 j0 i1 j1 (dx : Z -> Qc) (beta : Qc) b0 b1 gcw u f0 f1 (alpha : Qc) agcw a rgcw res bc (m : mem QcS) (r w c v0 v1 : Z -> Z -> Qc) :
  filled_v1_2d (S := QcS) i0 j0 i1 j1 dx beta b0 b1 gcw u f0 f1 alpha agcw a rgcw res bc m r w c v0 v1 ->
  (0 < beta)%Qc ->
  (forall d, 0 <= d < 2 -> (0 < dx d)%Qc) ->
  (alpha = 0%Qc \/ forall i j, patch2 i0 j0 i1 j1 i j -> c i j = 0%Qc) ->
  (forall i j, i0 <= i <= i1 + 1 -> j0 <= j <= j1 -> (0 < v0 i j)%Qc) ->
  (forall i j, i0 <= i <= i1 -> j0 <= j <= j1 + 1 -> (0 < v1 i j)%Qc) ->
  (forall f, 0 <= f < 4 -> b_kind (bc f) = 1) ->
  i0 <= i1 ->
  j0 <= j1 ->
  total2 (S := QcS) i0 j0 i1 j1 r = 0%Qc.
Proof.
  intros F Hb Hdx Ha0 Hv0 Hv1 Hn B0 B1.
  assert (Hw1 : forall i j, i0 <= i <= i1 -> j0 <= j <= j1 + 1 -> (0 <= v1 i j)%Qc) by (intros; apply Qclt_le_weak, Hv1; assumption).
  assert (Ro : roomy 2 (ends2 i0 j0) (ends2 i1 j1) bc).
  { apply closed_roomy; [|exact Hn]. intros e He. assert (e = 0 \/ e = 1) as [->| ->] by lia; [exact B0|exact B1]. }
  assert (Hs : forall f, 0 <= f < 4 -> sound true (bc f)) by (intros e He; right; left; now apply Hn).
  rewrite <- (closed2_sum i0 j0 i1 j1 dx beta (fun i j => alpha * c i j)%Qc v0 v1 bc Hn (fun i j Ip => match Ha0 with or_introl E => eq_trans (f_equal (fun t => t * c i j)%Qc E) (Qcmult_0_l _) | or_intror E => eq_trans (f_equal (fun t => alpha * t)%Qc (E i j Ip)) (Qcmult_0_r _) end) Ro w).
  apply (total2_ext (S := QcS)). intros i j Ii Ij.
  exact (bvp_v1_2d i0 j0 i1 j1 dx beta b0 b1 gcw u f0 f1 alpha agcw a rgcw res bc m r w c v0 v1 F Hb Hdx Hv0 Hw1 Hs Ro i j ltac:(k_near)).
Qed.

Lemma cunique_v1_2d i0 j0 i1 j1 (dx : Z -> Qc) (beta : Qc) b0 b1 gcw u f0 f1 (alpha : Qc) agcw a rgcw res bc (m n : mem QcS) (r w s z c v0 v1 : Z -> Z -> Qc) :
  filled_v1_2d (S := QcS) i0 j0 i1 j1 dx beta b0 b1 gcw u f0 f1 alpha agcw a rgcw res bc m r w c v0 v1 ->
  filled_v1_2d (S := QcS) i0 j0 i1 j1 dx beta b0 b1 gcw u f0 f1 alpha agcw a rgcw res bc n s z c v0 v1 ->
  (0 < beta)%Qc ->
  (forall d, 0 <= d < 2 -> (0 < dx d)%Qc) ->
  (alpha = 0%Qc \/ forall i j, patch2 i0 j0 i1 j1 i j -> c i j = 0%Qc) ->
  (forall i j, i0 <= i <= i1 + 1 -> j0 <= j <= j1 -> (0 < v0 i j)%Qc) ->
  (forall i j, i0 <= i <= i1 -> j0 <= j <= j1 + 1 -> (0 < v1 i j)%Qc) ->
  (forall f, 0 <= f < 4 -> b_kind (bc f) = 1) ->
  i0 <= i1 ->
  j0 <= j1 ->
  (forall i j, patch2 i0 j0 i1 j1 i j -> r i j = s i j) ->
  exists t : Qc, forall i j, patch2 i0 j0 i1 j1 i j -> z i j = (w i j + t)%Qc.
Proof.
  intros F G Hb Hdx Ha0 Hv0 Hv1 Hn B0 B1 Eq.
  assert (Hw1 : forall i j, i0 <= i <= i1 -> j0 <= j <= j1 + 1 -> (0 <= v1 i j)%Qc) by (intros; apply Qclt_le_weak, Hv1; assumption).
  assert (Ro : roomy 2 (ends2 i0 j0) (ends2 i1 j1) bc).
  { apply closed_roomy; [|exact Hn]. intros e He. assert (e = 0 \/ e = 1) as [->| ->] by lia; [exact B0|exact B1]. }
  assert (Hs : forall f, 0 <= f < 4 -> sound true (bc f)) by (intros e He; right; left; now apply Hn).
  apply (closed2_unique i0 j0 i1 j1 dx beta (fun i j => alpha * c i j)%Qc v0 v1 bc Hn (fun i j Ip => match Ha0 with or_introl E => eq_trans (f_equal (fun t => t * c i j)%Qc E) (Qcmult_0_l _) | or_intror E => eq_trans (f_equal (fun t => alpha * t)%Qc (E i j Ip)) (Qcmult_0_r _) end) Ro Hb Hdx Hv0 Hv1 w z).
  intros i j Ip. rewrite <- (bvp_v1_2d i0 j0 i1 j1 dx beta b0 b1 gcw u f0 f1 alpha agcw a rgcw res bc m r w c v0 v1 F Hb Hdx Hv0 Hw1 Hs Ro i j Ip).
  rewrite <- (bvp_v1_2d i0 j0 i1 j1 dx beta b0 b1 gcw u f0 f1 alpha agcw a rgcw res bc n s z c v0 v1 G Hb Hdx Hv0 Hw1 Hs Ro i j Ip). exact (Eq i j Ip).
Qed.

Lemma csolve_v1_2d i0 j0 i1 j1 (dx : Z -> Qc) (beta : Qc) b0 b1 gcw u f0 f1 (alpha : Qc) agcw a rgcw res bc (m : mem QcS) (r w c v0 v1 f : Z -> Z -> Qc) :
  filled_v1_2d (S := QcS) i0 j0 i1 j1 dx beta b0 b1 gcw u f0 f1 alpha agcw a rgcw res bc m r w c v0 v1 ->
  (0 < beta)%Qc ->
  (forall d, 0 <= d < 2 -> (0 < dx d)%Qc) ->
  (alpha = 0%Qc \/ forall i j, patch2 i0 j0 i1 j1 i j -> c i j = 0%Qc) ->
  (forall i j, i0 <= i <= i1 + 1 -> j0 <= j <= j1 -> (0 < v0 i j)%Qc) ->
  (forall i j, i0 <= i <= i1 -> j0 <= j <= j1 + 1 -> (0 < v1 i j)%Qc) ->
  (forall f, 0 <= f < 4 -> b_kind (bc f) = 1) ->
  i0 <= i1 ->
  j0 <= j1 ->
  total2 (S := QcS) i0 j0 i1 j1 f = 0%Qc ->
  forall x y (g : Qc), patch2 i0 j0 i1 j1 x y ->
  exists (n : mem QcS) (z : Z -> Z -> Qc), filled_v1_2d (S := QcS) i0 j0 i1 j1 dx beta b0 b1 gcw u f0 f1 alpha agcw a rgcw res bc n f z c v0 v1 /\ z x y = g /\
    shape n = shape m /\ ints n = ints m /\
    (forall p, (forall i j, patch2 i0 j0 i1 j1 i j -> faddr (mkFa u (CELL2d i0 j0 i1 j1 gcw)) [i; j] <> p) -> load n p = load m p).
Proof.
  intros F Hb Hdx Ha0 Hv0 Hv1 Hn B0 B1 Sf x y g Ig.
  assert (Hw1 : forall i j, i0 <= i <= i1 -> j0 <= j <= j1 + 1 -> (0 <= v1 i j)%Qc) by (intros; apply Qclt_le_weak, Hv1; assumption).
  assert (Ro : roomy 2 (ends2 i0 j0) (ends2 i1 j1) bc).
  { apply closed_roomy; [|exact Hn]. intros e He. assert (e = 0 \/ e = 1) as [->| ->] by lia; [exact B0|exact B1]. }
  assert (Hs : forall f, 0 <= f < 4 -> sound true (bc f)) by (intros e He; right; left; now apply Hn).
  destruct (closed2_exists i0 j0 i1 j1 dx beta (fun i j => alpha * c i j)%Qc v0 v1 bc Hn (fun i j Ip => match Ha0 with or_introl E => eq_trans (f_equal (fun t => t * c i j)%Qc E) (Qcmult_0_l _) | or_intror E => eq_trans (f_equal (fun t => alpha * t)%Qc (E i j Ip)) (Qcmult_0_r _) end) Ro Hb Hdx Hv0 Hv1 f Sf) as (z & Hz).
  set (z' := fun i j => (1 * z i j + (g - z x y) * 1)%Qc).
  assert (Hz' : forall i j, patch2 i0 j0 i1 j1 i j -> op2 dx beta (fun i j => alpha * c i j)%Qc v0 v1 (ext2 i0 j0 i1 j1 dx v0 v1 bc z') i j = f i j).
  { intros i j Ip. unfold z'. rewrite (bvp2_lin i0 j0 i1 j1 dx beta (fun i j => alpha * c i j)%Qc v0 v1 bc 1 (g - z x y) z (fun _ _ => 1%Qc) i j Ip), (Hz i j Ip).
    rewrite (closed2_const i0 j0 i1 j1 dx beta (fun i j => alpha * c i j)%Qc v0 v1 bc Hn (fun i j Ip => match Ha0 with or_introl E => eq_trans (f_equal (fun t => t * c i j)%Qc E) (Qcmult_0_l _) | or_intror E => eq_trans (f_equal (fun t => alpha * t)%Qc (E i j Ip)) (Qcmult_0_r _) end) 1 i j Ip). ring. }
  destruct (bplace_v1_2d i0 j0 i1 j1 dx beta b0 b1 gcw u f0 f1 alpha agcw a rgcw res bc m r w c v0 v1 f z' F Hb Hdx Hv0 Hw1 Hs Ro Hz') as (n & H1 & H2). exists n, z'.
  split; [exact H1|]. split; [unfold z'; ring|exact H2].
Qed.

Lemma acompare_v2_2d i0 j0 i1 j1 (dx : Z -> Qc) (beta : Qc) b0 b1 gcw u f0 f1 (alpha : Qc) rgcw res bc (m n : mem QcS) (r w s z v0 v1 : Z -> Z -> Qc) :
  filled_v2_2d (S := QcS) i0 j0 i1 j1 dx beta b0 b1 gcw u f0 f1 alpha rgcw res bc m r w v0 v1 ->
  filled_v2_2d (S := QcS) i0 j0 i1 j1 dx beta b0 b1 gcw u f0 f1 alpha rgcw res bc n s z v0 v1 ->
  (0 < beta)%Qc ->
  (forall d, 0 <= d < 2 -> (0 < dx d)%Qc) ->
  (0 <= alpha)%Qc ->
  (forall i j, i0 <= i <= i1 + 1 -> j0 <= j <= j1 -> (0 < v0 i j)%Qc) ->
  (forall i j, i0 <= i <= i1 -> j0 <= j <= j1 + 1 -> (0 < v1 i j)%Qc) ->
  (forall f, 0 <= f < 4 -> sound true (bc f)) ->
  roomy 2 (ends2 i0 j0) (ends2 i1 j1) bc ->
  ((exists f, 0 <= f < 4 /\ b_kind (bc f) <> 1) \/ (0 < alpha)%Qc) ->
  (forall i j, patch2 i0 j0 i1 j1 i j -> (r i j <= s i j)%Qc) ->
  forall i j, patch2 i0 j0 i1 j1 i j -> (w i j <= z i j)%Qc.
Proof.
  intros F G Hb Hdx Ha Hv0 Hv1 Hs Ro Hd Le. assert (Hw1 : forall i j, i0 <= i <= i1 -> j0 <= j <= j1 + 1 -> (0 <= v1 i j)%Qc) by (intros; apply Qclt_le_weak, Hv1; assumption).
  assert (Hh : (exists f, 0 <= f < 4 /\ b_kind (bc f) <> 1) \/ (exists i j, patch2 i0 j0 i1 j1 i j /\ (0 < (fun _ _ => alpha) i j)%Qc)) by (destruct Hd as [H|H]; [now left|right; exists i0, j0; split; [pose proof (roomy_le 2 (ends2 i0 j0) (ends2 i1 j1) bc Ro 0 ltac:(lia)) as B0; change (i0 <= i1) in B0; pose proof (roomy_le 2 (ends2 i0 j0) (ends2 i1 j1) bc Ro 1 ltac:(lia)) as B1; change (j0 <= j1) in B1; unfold patch2; lia|exact H]]).
  apply (any2_compare i0 j0 i1 j1 dx beta (fun _ _ => alpha) v0 v1 bc true Hb Hdx (fun _ _ _ => Ha) Hv0 Hv1 Hs Ro Hh w z r s).
  - exact (bvp_v2_2d i0 j0 i1 j1 dx beta b0 b1 gcw u f0 f1 alpha rgcw res bc m r w v0 v1 F Hb Hdx Hv0 Hw1 Hs Ro).
  - exact (bvp_v2_2d i0 j0 i1 j1 dx beta b0 b1 gcw u f0 f1 alpha rgcw res bc n s z v0 v1 G Hb Hdx Hv0 Hw1 Hs Ro).
  - exact Le.
Qed.

Lemma asolve_v2_2d i0 j0 i1 j1 (dx : Z -> Qc) (beta : Qc) b0 b1 gcw u f0 f1 (alpha : Qc) rgcw res bc (m : mem QcS) (r w v0 v1 f : Z -> Z -> Qc) :
  filled_v2_2d (S := QcS) i0 j0 i1 j1 dx beta b0 b1 gcw u f0 f1 alpha rgcw res bc m r w v0 v1 ->
  (0 < beta)%Qc ->
  (forall d, 0 <= d < 2 -> (0 < dx d)%Qc) ->
  (0 <= alpha)%Qc ->
  (forall i j, i0 <= i <= i1 + 1 -> j0 <= j <= j1 -> (0 < v0 i j)%Qc) ->
  (forall i j, i0 <= i <= i1 -> j0 <= j <= j1 + 1 -> (0 < v1 i j)%Qc) ->
  (forall f, 0 <= f < 4 -> sound true (bc f)) ->
  roomy 2 (ends2 i0 j0) (ends2 i1 j1) bc ->
  ((exists f, 0 <= f < 4 /\ b_kind (bc f) <> 1) \/ (0 < alpha)%Qc) ->
  exists (n : mem QcS) (z : Z -> Z -> Qc), filled_v2_2d (S := QcS) i0 j0 i1 j1 dx beta b0 b1 gcw u f0 f1 alpha rgcw res bc n f z v0 v1 /\
    shape n = shape m /\ ints n = ints m /\
    (forall p, (forall i j, patch2 i0 j0 i1 j1 i j -> faddr (mkFa u (CELL2d i0 j0 i1 j1 gcw)) [i; j] <> p) -> load n p = load m p).
Proof.
  intros F Hb Hdx Ha Hv0 Hv1 Hs Ro Hd. assert (Hw1 : forall i j, i0 <= i <= i1 -> j0 <= j <= j1 + 1 -> (0 <= v1 i j)%Qc) by (intros; apply Qclt_le_weak, Hv1; assumption).
  assert (Hh : (exists f, 0 <= f < 4 /\ b_kind (bc f) <> 1) \/ (exists i j, patch2 i0 j0 i1 j1 i j /\ (0 < (fun _ _ => alpha) i j)%Qc)) by (destruct Hd as [H|H]; [now left|right; exists i0, j0; split; [pose proof (roomy_le 2 (ends2 i0 j0) (ends2 i1 j1) bc Ro 0 ltac:(lia)) as B0; change (i0 <= i1) in B0; pose proof (roomy_le 2 (ends2 i0 j0) (ends2 i1 j1) bc Ro 1 ltac:(lia)) as B1; change (j0 <= j1) in B1; unfold patch2; lia|exact H]]).
  destruct (any2_exists i0 j0 i1 j1 dx beta (fun _ _ => alpha) v0 v1 bc true Hb Hdx (fun _ _ _ => Ha) Hv0 Hv1 Hs Ro Hh f) as (z & Hz).
  destruct (bplace_v2_2d i0 j0 i1 j1 dx beta b0 b1 gcw u f0 f1 alpha rgcw res bc m r w v0 v1 f z F Hb Hdx Hv0 Hw1 Hs Ro Hz) as (n & H). exists n, z. exact H.
Qed.

Lemma csum_v2_2d i0 j0 i1 j1 (dx : Z -> Qc) (beta : Qc) b0 b1 gcw u f0 f1 (alpha : Qc) rgcw res bc (m : mem QcS) (r w v0 v1 : Z -> Z -> Qc) :
  filled_v2_2d (S := QcS) i0 j0 i1 j1 dx beta b0 b1 gcw u f0 f1 alpha rgcw res bc m r w v0 v1 ->
  (0 < beta)%Qc ->
  (forall d, 0 <= d < 2 -> (0 < dx d)%Qc) ->
  alpha = 0%Qc ->
  (forall i j, i0 <= i <= i1 + 1 -> j0 <= j <= j1 -> (0 < v0 i j)%Qc) ->
  (forall i j, i0 <= i <= i1 -> j0 <= j <= j1 + 1 -> (0 < v1 i j)%Qc) ->
  (forall f, 0 <= f < 4 -> b_kind (bc f) = 1) ->
  i0 <= i1 ->
  j0 <= j1 ->
  total2 (S := QcS) i0 j0 i1 j1 r = 0%Qc.
Proof.
  intros F Hb Hdx Ha0 Hv0 Hv1 Hn B0 B1.
  assert (Hw1 : forall i j, i0 <= i <= i1 -> j0 <= j <= j1 + 1 -> (0 <= v1 i j)%Qc) by (intros; apply Qclt_le_weak, Hv1; assumption).
  assert (Ro : roomy 2 (ends2 i0 j0) (ends2 i1 j1) bc).
  { apply closed_roomy; [|exact Hn]. intros e He. assert (e = 0 \/ e = 1) as [->| ->] by lia; [exact B0|exact B1]. }
  assert (Hs : forall f, 0 <= f < 4 -> sound true (bc f)) by (intros e He; right; left; now apply Hn).
  rewrite <- (closed2_sum i0 j0 i1 j1 dx beta (fun _ _ => alpha) v0 v1 bc Hn (fun _ _ _ => Ha0) Ro w).
  apply (total2_ext (S := QcS)). intros i j Ii Ij.
  exact (bvp_v2_2d i0 j0 i1 j1 dx beta b0 b1 gcw u f0 f1 alpha rgcw res bc m r w v0 v1 F Hb Hdx Hv0 Hw1 Hs Ro i j ltac:(k_near)).
Qed.

Lemma cunique_v2_2d i0 j0 i1 j1 (dx : Z -> Qc) (beta : Qc) b0 b1 gcw u f0 f1 (alpha : Qc) rgcw res bc (m n : mem QcS) (r w s z v0 v1 : Z -> Z -> Qc) :
  filled_v2_2d (S := QcS) i0 j0 i1 j1 dx beta b0 b1 gcw u f0 f1 alpha rgcw res bc m r w v0 v1 ->
  filled_v2_2d (S := QcS) i0 j0 i1 j1 dx beta b0 b1 gcw u f0 f1 alpha rgcw res bc n s z v0 v1 ->
  (0 < beta)%Qc ->
  (forall d, 0 <= d < 2 -> (0 < dx d)%Qc) ->
  alpha = 0%Qc ->
  (forall i j, i0 <= i <= i1 + 1 -> j0 <= j <= j1 -> (0 < v0 i j)%Qc) ->
  (forall i j, i0 <= i <= i1 -> j0 <= j <= j1 + 1 -> (0 < v1 i j)%Qc) ->
  (forall f, 0 <= f < 4 -> b_kind (bc f) = 1) ->
  i0 <= i1 ->
  j0 <= j1 ->
  (forall i j, patch2 i0 j0 i1 j1 i j -> r i j = s i j) ->
  exists t : Qc, forall i j, patch2 i0 j0 i1 j1 i j -> z i j = (w i j + t)%Qc.
Proof.
  intros F G Hb Hdx Ha0 Hv0 Hv1 Hn B0 B1 Eq.
  assert (Hw1 : forall i j, i0 <= i <= i1 -> j0 <= j <= j1 + 1 -> (0 <= v1 i j)%Qc) by (intros; apply Qclt_le_weak, Hv1; assumption).
  assert (Ro : roomy 2 (ends2 i0 j0) (ends2 i1 j1) bc).
  { apply closed_roomy; [|exact Hn]. intros e He. assert (e = 0 \/ e = 1) as [->| ->] by lia; [exact B0|exact B1]. }
  assert (Hs : forall f, 0 <= f < 4 -> sound true (bc f)) by (intros e He; right; left; now apply Hn).
  apply (closed2_unique i0 j0 i1 j1 dx beta (fun _ _ => alpha) v0 v1 bc Hn (fun _ _ _ => Ha0) Ro Hb Hdx Hv0 Hv1 w z).
  intros i j Ip. rewrite <- (bvp_v2_2d i0 j0 i1 j1 dx beta b0 b1 gcw u f0 f1 alpha rgcw res bc m r w v0 v1 F Hb Hdx Hv0 Hw1 Hs Ro i j Ip).
  rewrite <- (bvp_v2_2d i0 j0 i1 j1 dx beta b0 b1 gcw u f0 f1 alpha rgcw res bc n s z v0 v1 G Hb Hdx Hv0 Hw1 Hs Ro i j Ip). exact (Eq i j Ip).
Qed.

Lemma csolve_v2_2d i0 j0 i1 j1 (dx : Z -> Qc) (beta : Qc) b0 b1 gcw u f0 f1 (alpha : Qc) rgcw res bc (m : mem QcS) (r w v0 v1 f : Z -> Z -> Qc) :
  filled_v2_2d (S := QcS) i0 j0 i1 j1 dx beta b0 b1 gcw u f0 f1 alpha rgcw res bc m r w v0 v1 ->
  (0 < beta)%Qc ->
  (forall d, 0 <= d < 2 -> (0 < dx d)%Qc) ->
  alpha = 0%Qc ->
  (forall i j, i0 <= i <= i1 + 1 -> j0 <= j <= j1 -> (0 < v0 i j)%Qc) ->
  (forall i j, i0 <= i <= i1 -> j0 <= j <= j1 + 1 -> (0 < v1 i j)%Qc) ->
  (forall f, 0 <= f < 4 -> b_kind (bc f) = 1) ->
  i0 <= i1 ->
  j0 <= j1 ->
  total2 (S := QcS) i0 j0 i1 j1 f = 0%Qc ->
  forall x y (g : Qc), patch2 i0 j0 i1 j1 x y ->
  exists (n : mem QcS) (z : Z -> Z -> Qc), filled_v2_2d (S := QcS) i0 j0 i1 j1 dx beta b0 b1 gcw u f0 f1 alpha rgcw res bc n f z v0 v1 /\ z x y = g /\
    shape n = shape m /\ ints n = ints m /\
    (forall p, (forall i j, patch2 i0 j0 i1 j1 i j -> faddr (mkFa u (CELL2d i0 j0 i1 j1 gcw)) [i; j] <> p) -> load n p = load m p).
Proof.
  intros F Hb Hdx Ha0 Hv0 Hv1 Hn B0 B1 Sf x y g Ig.
  assert (Hw1 : forall i j, i0 <= i <= i1 -> j0 <= j <= j1 + 1 -> (0 <= v1 i j)%Qc) by (intros; apply Qclt_le_weak, Hv1; assumption).
  assert (Ro : roomy 2 (ends2 i0 j0) (ends2 i1 j1) bc).
  { apply closed_roomy; [|exact Hn]. intros e He. assert (e = 0 \/ e = 1) as [->| ->] by lia; [exact B0|exact B1]. }
  assert (Hs : forall f, 0 <= f < 4 -> sound true (bc f)) by (intros e He; right; left; now apply Hn).
  destruct (closed2_exists i0 j0 i1 j1 dx beta (fun _ _ => alpha) v0 v1 bc Hn (fun _ _ _ => Ha0) Ro Hb Hdx Hv0 Hv1 f Sf) as (z & Hz).
  set (z' := fun i j => (1 * z i j + (g - z x y) * 1)%Qc).
  assert (Hz' : forall i j, patch2 i0 j0 i1 j1 i j -> op2 dx beta (fun _ _ => alpha) v0 v1 (ext2 i0 j0 i1 j1 dx v0 v1 bc z') i j = f i j).
  { intros i j Ip. unfold z'. rewrite (bvp2_lin i0 j0 i1 j1 dx beta (fun _ _ => alpha) v0 v1 bc 1 (g - z x y) z (fun _ _ => 1%Qc) i j Ip), (Hz i j Ip).
    rewrite (closed2_const i0 j0 i1 j1 dx beta (fun _ _ => alpha) v0 v1 bc Hn (fun _ _ _ => Ha0) 1 i j Ip). ring. }
  destruct (bplace_v2_2d i0 j0 i1 j1 dx beta b0 b1 gcw u f0 f1 alpha rgcw res bc m r w v0 v1 f z' F Hb Hdx Hv0 Hw1 Hs Ro Hz') as (n & H1 & H2). exists n, z'.
  split; [exact H1|]. split; [unfold z'; ring|exact H2].
Qed.

Lemma acompare_poisson_2d i0 j0 i1 j1 (dx : Z -> Qc) (beta : Qc) gcw u f0 f1 rgcw res bc (m n : mem QcS) (r w s z : Z -> Z -> Qc) :
  filled_poisson_2d (S := QcS) i0 j0 i1 j1 dx beta gcw u f0 f1 rgcw res bc m r w ->
  filled_poisson_2d (S := QcS) i0 j0 i1 j1 dx beta gcw u f0 f1 rgcw res bc n s z ->
  (0 < beta)%Qc ->
  (forall d, 0 <= d < 2 -> (0 < dx d)%Qc) ->
  (forall f, 0 <= f < 4 -> sound false (bc f)) ->
  roomy 2 (ends2 i0 j0) (ends2 i1 j1) bc ->
  (exists f, 0 <= f < 4 /\ b_kind (bc f) <> 1) ->
  (forall i j, patch2 i0 j0 i1 j1 i j -> (r i j <= s i j)%Qc) ->
  forall i j, patch2 i0 j0 i1 j1 i j -> (w i j <= z i j)%Qc.
Proof.
  intros F G Hb Hdx Hs Ro Hd Le. 
  assert (Hh : (exists f, 0 <= f < 4 /\ b_kind (bc f) <> 1) \/ (exists i j, patch2 i0 j0 i1 j1 i j /\ (0 < (fun _ _ => 0%Qc) i j)%Qc)) by (left; exact Hd).
  apply (any2_compare i0 j0 i1 j1 dx beta (fun _ _ => 0%Qc) (fun _ _ => 1%Qc) (fun _ _ => 1%Qc) bc false Hb Hdx (fun _ _ _ => Qcle_refl 0%Qc) (fun _ _ _ _ => eq_refl : (0 < 1)%Qc) (fun _ _ _ _ => eq_refl : (0 < 1)%Qc) Hs Ro Hh w z r s).
  - exact (bvp_poisson_2d i0 j0 i1 j1 dx beta gcw u f0 f1 rgcw res bc m r w  F Hb Hdx Hs Ro).
  - exact (bvp_poisson_2d i0 j0 i1 j1 dx beta gcw u f0 f1 rgcw res bc n s z  G Hb Hdx Hs Ro).
  - exact Le.
Qed.

Lemma asolve_poisson_2d i0 j0 i1 j1 (dx : Z -> Qc) (beta : Qc) gcw u f0 f1 rgcw res bc (m : mem QcS) (r w f : Z -> Z -> Qc) :
  filled_poisson_2d (S := QcS) i0 j0 i1 j1 dx beta gcw u f0 f1 rgcw res bc m r w ->
  (0 < beta)%Qc ->
  (forall d, 0 <= d < 2 -> (0 < dx d)%Qc) ->
  (forall f, 0 <= f < 4 -> sound false (bc f)) ->
  roomy 2 (ends2 i0 j0) (ends2 i1 j1) bc ->
  (exists f, 0 <= f < 4 /\ b_kind (bc f) <> 1) ->
  exists (n : mem QcS) (z : Z -> Z -> Qc), filled_poisson_2d (S := QcS) i0 j0 i1 j1 dx beta gcw u f0 f1 rgcw res bc n f z /\
    shape n = shape m /\ ints n = ints m /\
    (forall p, (forall i j, patch2 i0 j0 i1 j1 i j -> faddr (mkFa u (CELL2d i0 j0 i1 j1 gcw)) [i; j] <> p) -> load n p = load m p).
Proof.
  intros F Hb Hdx Hs Ro Hd. 
  assert (Hh : (exists f, 0 <= f < 4 /\ b_kind (bc f) <> 1) \/ (exists i j, patch2 i0 j0 i1 j1 i j /\ (0 < (fun _ _ => 0%Qc) i j)%Qc)) by (left; exact Hd).
  destruct (any2_exists i0 j0 i1 j1 dx beta (fun _ _ => 0%Qc) (fun _ _ => 1%Qc) (fun _ _ => 1%Qc) bc false Hb Hdx (fun _ _ _ => Qcle_refl 0%Qc) (fun _ _ _ _ => eq_refl : (0 < 1)%Qc) (fun _ _ _ _ => eq_refl : (0 < 1)%Qc) Hs Ro Hh f) as (z & Hz).
  destruct (bplace_poisson_2d i0 j0 i1 j1 dx beta gcw u f0 f1 rgcw res bc m r w  f z F Hb Hdx Hs Ro Hz) as (n & H). exists n, z. exact H.
Qed.

Lemma csum_poisson_2d i0 j0 i1 j1 (dx : Z -> Qc) (beta : Qc) gcw u f0 f1 rgcw res bc (m : mem QcS) (r w : Z -> Z -> Qc) :
  filled_poisson_2d (S := QcS) i0 j0 i1 j1 dx beta gcw u f0 f1 rgcw res bc m r w ->
  (0 < beta)%Qc ->
  (forall d, 0 <= d < 2 -> (0 < dx d)%Qc) ->
  (forall f, 0 <= f < 4 -> b_kind (bc f) = 1) ->
  i0 <= i1 ->
  j0 <= j1 ->
  total2 (S := QcS) i0 j0 i1 j1 r = 0%Qc.
Proof.
  intros F Hb Hdx Hn B0 B1.
  
  assert (Ro : roomy 2 (ends2 i0 j0) (ends2 i1 j1) bc).
  { apply closed_roomy; [|exact Hn]. intros e He. assert (e = 0 \/ e = 1) as [->| ->] by lia; [exact B0|exact B1]. }
  assert (Hs : forall f, 0 <= f < 4 -> sound false (bc f)) by (intros e He; right; left; now apply Hn).
  rewrite <- (closed2_sum i0 j0 i1 j1 dx beta (fun _ _ => 0%Qc) (fun _ _ => 1%Qc) (fun _ _ => 1%Qc) bc Hn (fun _ _ _ => eq_refl) Ro w).
  apply (total2_ext (S := QcS)). intros i j Ii Ij.
  exact (bvp_poisson_2d i0 j0 i1 j1 dx beta gcw u f0 f1 rgcw res bc m r w  F Hb Hdx Hs Ro i j ltac:(k_near)).
Qed.

Lemma cunique_poisson_2d i0 j0 i1 j1 (dx : Z -> Qc) (beta : Qc) gcw u f0 f1 rgcw res bc (m n : mem QcS) (r w s z : Z -> Z -> Qc) :
  filled_poisson_2d (S := QcS) i0 j0 i1 j1 dx beta gcw u f0 f1 rgcw res bc m r w ->
  filled_poisson_2d (S := QcS) i0 j0 i1 j1 dx beta gcw u f0 f1 rgcw res bc n s z ->
  (0 < beta)%Qc ->
  (forall d, 0 <= d < 2 -> (0 < dx d)%Qc) ->
  (forall f, 0 <= f < 4 -> b_kind (bc f) = 1) ->
  i0 <= i1 ->
  j0 <= j1 ->
  (forall i j, patch2 i0 j0 i1 j1 i j -> r i j = s i j) ->
  exists t : Qc, forall i j, patch2 i0 j0 i1 j1 i j -> z i j = (w i j + t)%Qc.
Proof.
  intros F G Hb Hdx Hn B0 B1 Eq.
  
  assert (Ro : roomy 2 (ends2 i0 j0) (ends2 i1 j1) bc).
  { apply closed_roomy; [|exact Hn]. intros e He. assert (e = 0 \/ e = 1) as [->| ->] by lia; [exact B0|exact B1]. }
  assert (Hs : forall f, 0 <= f < 4 -> sound false (bc f)) by (intros e He; right; left; now apply Hn).
  apply (closed2_unique i0 j0 i1 j1 dx beta (fun _ _ => 0%Qc) (fun _ _ => 1%Qc) (fun _ _ => 1%Qc) bc Hn (fun _ _ _ => eq_refl) Ro Hb Hdx (fun _ _ _ _ => eq_refl : (0 < 1)%Qc) (fun _ _ _ _ => eq_refl : (0 < 1)%Qc) w z).
  intros i j Ip. rewrite <- (bvp_poisson_2d i0 j0 i1 j1 dx beta gcw u f0 f1 rgcw res bc m r w  F Hb Hdx Hs Ro i j Ip).
  rewrite <- (bvp_poisson_2d i0 j0 i1 j1 dx beta gcw u f0 f1 rgcw res bc n s z  G Hb Hdx Hs Ro i j Ip). exact (Eq i j Ip).
Qed.

Lemma csolve_poisson_2d i0 j0 i1 j1 (dx : Z -> Qc) (beta : Qc) gcw u f0 f1 rgcw res bc (m : mem QcS) (r w f : Z -> Z -> Qc) :
  filled_poisson_2d (S := QcS) i0 j0 i1 j1 dx beta gcw u f0 f1 rgcw res bc m r w ->
  (0 < beta)%Qc ->
  (forall d, 0 <= d < 2 -> (0 < dx d)%Qc) ->
  (forall f, 0 <= f < 4 -> b_kind (bc f) = 1) ->
  i0 <= i1 ->
  j0 <= j1 ->
  total2 (S := QcS) i0 j0 i1 j1 f = 0%Qc ->
  forall x y (g : Qc), patch2 i0 j0 i1 j1 x y ->
  exists (n : mem QcS) (z : Z -> Z -> Qc), filled_poisson_2d (S := QcS) i0 j0 i1 j1 dx beta gcw u f0 f1 rgcw res bc n f z /\ z x y = g /\
    shape n = shape m /\ ints n = ints m /\
    (forall p, (forall i j, patch2 i0 j0 i1 j1 i j -> faddr (mkFa u (CELL2d i0 j0 i1 j1 gcw)) [i; j] <> p) -> load n p = load m p).
Proof.
  intros F Hb Hdx Hn B0 B1 Sf x y g Ig.
  
  assert (Ro : roomy 2 (ends2 i0 j0) (ends2 i1 j1) bc).
  { apply closed_roomy; [|exact Hn]. intros e He. assert (e = 0 \/ e = 1) as [->| ->] by lia; [exact B0|exact B1]. }
  assert (Hs : forall f, 0 <= f < 4 -> sound false (bc f)) by (intros e He; right; left; now apply Hn).
  destruct (closed2_exists i0 j0 i1 j1 dx beta (fun _ _ => 0%Qc) (fun _ _ => 1%Qc) (fun _ _ => 1%Qc) bc Hn (fun _ _ _ => eq_refl) Ro Hb Hdx (fun _ _ _ _ => eq_refl : (0 < 1)%Qc) (fun _ _ _ _ => eq_refl : (0 < 1)%Qc) f Sf) as (z & Hz).
  set (z' := fun i j => (1 * z i j + (g - z x y) * 1)%Qc).
  assert (Hz' : forall i j, patch2 i0 j0 i1 j1 i j -> op2 dx beta (fun _ _ => 0%Qc) (fun _ _ => 1%Qc) (fun _ _ => 1%Qc) (ext2 i0 j0 i1 j1 dx (fun _ _ => 1%Qc) (fun _ _ => 1%Qc) bc z') i j = f i j).
  { intros i j Ip. unfold z'. rewrite (bvp2_lin i0 j0 i1 j1 dx beta (fun _ _ => 0%Qc) (fun _ _ => 1%Qc) (fun _ _ => 1%Qc) bc 1 (g - z x y) z (fun _ _ => 1%Qc) i j Ip), (Hz i j Ip).
    rewrite (closed2_const i0 j0 i1 j1 dx beta (fun _ _ => 0%Qc) (fun _ _ => 1%Qc) (fun _ _ => 1%Qc) bc Hn (fun _ _ _ => eq_refl) 1 i j Ip). ring. }
  destruct (bplace_poisson_2d i0 j0 i1 j1 dx beta gcw u f0 f1 rgcw res bc m r w  f z' F Hb Hdx Hs Ro Hz') as (n & H1 & H2). exists n, z'.
  split; [exact H1|]. split; [unfold z'; ring|exact H2].
Qed.

Lemma acompare_v1_3d i0 j0 k0 i1 j1 k1 (dx : Z -> Qc) (beta : Qc) b0 b1 b2 gcw u f0 f1 f2 (alpha : Qc) agcw a rgcw res bc (m n : mem QcS) (r w s z c v0 v1 v2 : Z -> Z -> Z -> Qc) :
  filled_v1_3d (S := QcS) i0 j0 k0 i1 j1 k1 dx beta b0 b1 b2 gcw u f0 f1 f2 alpha agcw a rgcw res bc m r w c v0 v1 v2 ->
  filled_v1_3d (S := QcS) i0 j0 k0 i1 j1 k1 dx beta b0 b1 b2 gcw u f0 f1 f2 alpha agcw a rgcw res bc n s z c v0 v1 v2 ->
  (0 < beta)%Qc ->
  (forall d, 0 <= d < 3 -> (0 < dx d)%Qc) ->
  (0 <= alpha)%Qc ->
  (forall i j k, patch3 i0 j0 k0 i1 j1 k1 i j k -> (0 <= c i j k)%Qc) ->
  (forall i j k, i0 <= i <= i1 + 1 -> j0 <= j <= j1 -> k0 <= k <= k1 -> (0 < v0 i j k)%Qc) ->
  (forall i j k, i0 <= i <= i1 -> j0 <= j <= j1 + 1 -> k0 <= k <= k1 -> (0 < v1 i j k)%Qc) ->
  (forall i j k, i0 <= i <= i1 -> j0 <= j <= j1 -> k0 <= k <= k1 + 1 -> (0 < v2 i j k)%Qc) ->
  (forall f, 0 <= f < 6 -> sound true (bc f)) ->
  roomy 3 (ends3 i0 j0 k0) (ends3 i1 j1 k1) bc ->
  ((exists f, 0 <= f < 6 /\ b_kind (bc f) <> 1) \/ (0 < alpha)%Qc /\ (exists i j k, patch3 i0 j0 k0 i1 j1 k1 i j k /\ (0 < c i j k)%Qc)) ->
  (forall i j k, patch3 i0 j0 k0 i1 j1 k1 i j k -> (r i j k <= s i j k)%Qc) ->
  forall i j k, patch3 i0 j0 k0 i1 j1 k1 i j k -> (w i j k <= z i j k)%Qc.
Proof.
  intros F G Hb Hdx Ha Hc Hv0 Hv1 Hv2 Hs Ro Hd Le. assert (Hw1 : forall i j k, i0 <= i <= i1 -> j0 <= j <= j1 + 1 -> k0 <= k <= k1 -> (0 <= v1 i j k)%Qc) by (intros; apply Qclt_le_weak, Hv1; assumption). assert (Hw2 : forall i j k, i0 <= i <= i1 -> j0 <= j <= j1 -> k0 <= k <= k1 + 1 -> (0 <= v2 i j k)%Qc) by (intros; apply Qclt_le_weak, Hv2; assumption).
  assert (Hh : (exists f, 0 <= f < 6 /\ b_kind (bc f) <> 1) \/ (exists i j k, patch3 i0 j0 k0 i1 j1 k1 i j k /\ (0 < (fun i j k => alpha * c i j k)%Qc i j k)%Qc)) by (destruct Hd as [H|(Pa & i & j & k & Ip & Pc)]; [now left|right; exists i, j, k; split; [exact Ip|now apply Qc_pos_mul]]).
  apply (any3_compare i0 j0 k0 i1 j1 k1 dx beta (fun i j k => alpha * c i j k)%Qc v0 v1 v2 bc true Hb Hdx (fun i j k Ip => Qc_mul _ _ Ha (Hc i j k Ip)) Hv0 Hv1 Hv2 Hs Ro Hh w z r s).
  - exact (bvp_v1_3d i0 j0 k0 i1 j1 k1 dx beta b0 b1 b2 gcw u f0 f1 f2 alpha agcw a rgcw res bc m r w c v0 v1 v2 F Hb Hdx Hv0 Hw1 Hw2 Hs Ro).
  - exact (bvp_v1_3d i0 j0 k0 i1 j1 k1 dx beta b0 b1 b2 gcw u f0 f1 f2 alpha agcw a rgcw res bc n s z c v0 v1 v2 G Hb Hdx Hv0 Hw1 Hw2 Hs Ro).
  - exact Le.
Qed.

Lemma asolve_v1_3d i0 j0 k0 i1 j1 k1 (dx : Z -> Qc) (beta : Qc) b0 b1 b2 gcw u f0 f1 f2 (alpha : Qc) agcw a rgcw res bc (m : mem QcS) (r w c v0 v1 v2 f : Z -> Z -> Z -> Qc) :
  filled_v1_3d (S := QcS) i0 j0 k0 i1 j1 k1 dx beta b0 b1 b2 gcw u f0 f1 f2 alpha agcw a rgcw res bc m r w c v0 v1 v2 ->
  (0 < beta)%Qc ->
  (forall d, 0 <= d < 3 -> (0 < dx d)%Qc) ->
  (0 <= alpha)%Qc ->
  (forall i j k, patch3 i0 j0 k0 i1 j1 k1 i j k -> (0 <= c i j k)%Qc) ->
  (forall i j k, i0 <= i <= i1 + 1 -> j0 <= j <= j1 -> k0 <= k <= k1 -> (0 < v0 i j k)%Qc) ->
  (forall i j k, i0 <= i <= i1 -> j0 <= j <= j1 + 1 -> k0 <= k <= k1 -> (0 < v1 i j k)%Qc) ->
  (forall i j k, i0 <= i <= i1 -> j0 <= j <= j1 -> k0 <= k <= k1 + 1 -> (0 < v2 i j k)%Qc) ->
  (forall f, 0 <= f < 6 -> sound true (bc f)) ->
  roomy 3 (ends3 i0 j0 k0) (ends3 i1 j1 k1) bc ->
  ((exists f, 0 <= f < 6 /\ b_kind (bc f) <> 1) \/ (0 < alpha)%Qc /\ (exists i j k, patch3 i0 j0 k0 i1 j1 k1 i j k /\ (0 < c i j k)%Qc)) ->
  exists (n : mem QcS) (z : Z -> Z -> Z -> Qc), filled_v1_3d (S := QcS) i0 j0 k0 i1 j1 k1 dx beta b0 b1 b2 gcw u f0 f1 f2 alpha agcw a rgcw res bc n f z c v0 v1 v2 /\
    shape n = shape m /\ ints n = ints m /\
    (forall p, (forall i j k, patch3 i0 j0 k0 i1 j1 k1 i j k -> faddr (mkFa u (CELL3d i0 j0 k0 i1 j1 k1 gcw)) [i; j; k] <> p) -> load n p = load m p).
Proof.
  intros F Hb Hdx Ha Hc Hv0 Hv1 Hv2 Hs Ro Hd. assert (Hw1 : forall i j k, i0 <= i <= i1 -> j0 <= j <= j1 + 1 -> k0 <= k <= k1 -> (0 <= v1 i j k)%Qc) by (intros; apply Qclt_le_weak, Hv1; assumption). assert (Hw2 : forall i j k, i0 <= i <= i1 -> j0 <= j <= j1 -> k0 <= k <= k1 + 1 -> (0 <= v2 i j k)%Qc) by (intros; apply Qclt_le_weak, Hv2; assumption).
  assert (Hh : (exists f, 0 <= f < 6 /\ b_kind (bc f) <> 1) \/ (exists i j k, patch3 i0 j0 k0 i1 j1 k1 i j k /\ (0 < (fun i j k => alpha * c i j k)%Qc i j k)%Qc)) by (destruct Hd as [H|(Pa & i & j & k & Ip & Pc)]; [now left|right; exists i, j, k; split; [exact Ip|now apply Qc_pos_mul]]).
  destruct (any3_exists i0 j0 k0 i1 j1 k1 dx beta (fun i j k => alpha * c i j k)%Qc v0 v1 v2 bc true Hb Hdx (fun i j k Ip => Qc_mul _ _ Ha (Hc i j k Ip)) Hv0 Hv1 Hv2 Hs Ro Hh f) as (z & Hz).
  destruct (bplace_v1_3d i0 j0 k0 i1 j1 k1 dx beta b0 b1 b2 gcw u f0 f1 f2 alpha agcw a rgcw res bc m r w c v0 v1 v2 f z F Hb Hdx Hv0 Hw1 Hw2 Hs Ro Hz) as (n & H). exists n, z. exact H.
Qed.

Lemma csum_v1_3d i0 j0 k0 i1 j1 k1 (dx : Z -> Qc) (beta : Qc) b0 b1 b2 gcw u f0 f1 f2 (alpha : Qc) agcw a rgcw res bc (m : mem QcS) (r w c v0 v1 v2 : Z -> Z -> Z -> Qc) :
  filled_v1_3d (S := QcS) i0 j0 k0 i1 j1 k1 dx beta b0 b1 b2 gcw u f0 f1 f2 alpha agcw a rgcw res bc m r w c v0 v1 v2 ->
  (0 < beta)%Qc ->
  (forall d, 0 <= d < 3 -> (0 < dx d)%Qc) ->
  (alpha = 0%Qc \/ forall i j k, patch3 i0 j0 k0 i1 j1 k1 i j k -> c i j k = 0%Qc) ->
  (forall i j k, i0 <= i <= i1 + 1 -> j0 <= j <= j1 -> k0 <= k <= k1 -> (0 < v0 i j k)%Qc) ->
  (forall i j k, i0 <= i <= i1 -> j0 <= j <= j1 + 1 -> k0 <= k <= k1 -> (0 < v1 i j k)%Qc) ->
  (forall i j k, i0 <= i <= i1 -> j0 <= j <= j1 -> k0 <= k <= k1 + 1 -> (0 < v2 i j k)%Qc) ->
  (forall f, 0 <= f < 6 -> b_kind (bc f) = 1) ->
  i0 <= i1 ->
  j0 <= j1 ->
  k0 <= k1 ->
  total3 (S := QcS) i0 j0 k0 i1 j1 k1 r = 0%Qc.
Proof.
  intros F Hb Hdx Ha0 Hv0 Hv1 Hv2 Hn B0 B1 B2.
  assert (Hw1 : forall i j k, i0 <= i <= i1 -> j0 <= j <= j1 + 1 -> k0 <= k <= k1 -> (0 <= v1 i j k)%Qc) by (intros; apply Qclt_le_weak, Hv1; assumption). assert (Hw2 : forall i j k, i0 <= i <= i1 -> j0 <= j <= j1 -> k0 <= k <= k1 + 1 -> (0 <= v2 i j k)%Qc) by (intros; apply Qclt_le_weak, Hv2; assumption).
  assert (Ro : roomy 3 (ends3 i0 j0 k0) (ends3 i1 j1 k1) bc).
  { apply closed_roomy; [|exact Hn]. intros e He. assert (e = 0 \/ e = 1 \/ e = 2) as [->|[->| ->]] by lia; [exact B0|exact B1|exact B2]. }
  assert (Hs : forall f, 0 <= f < 6 -> sound true (bc f)) by (intros e He; right; left; now apply Hn).
  rewrite <- (closed3_sum i0 j0 k0 i1 j1 k1 dx beta (fun i j k => alpha * c i j k)%Qc v0 v1 v2 bc Hn (fun i j k Ip => match Ha0 with or_introl E => eq_trans (f_equal (fun t => t * c i j k)%Qc E) (Qcmult_0_l _) | or_intror E => eq_trans (f_equal (fun t => alpha * t)%Qc (E i j k Ip)) (Qcmult_0_r _) end) Ro w).
  apply (total3_ext (S := QcS)). intros i j k Ii Ij Ik.
  exact (bvp_v1_3d i0 j0 k0 i1 j1 k1 dx beta b0 b1 b2 gcw u f0 f1 f2 alpha agcw a rgcw res bc m r w c v0 v1 v2 F Hb Hdx Hv0 Hw1 Hw2 Hs Ro i j k ltac:(k_near)).
Qed.

Lemma cunique_v1_3d i0 j0 k0 i1 j1 k1 (dx : Z -> Qc) (beta : Qc) b0 b1 b2 gcw u f0 f1 f2 (alpha : Qc) agcw a rgcw res bc (m n : mem QcS) (r w s z c v0 v1 v2 : Z -> Z -> Z -> Qc) :
  filled_v1_3d (S := QcS) i0 j0 k0 i1 j1 k1 dx beta b0 b1 b2 gcw u f0 f1 f2 alpha agcw a rgcw res bc m r w c v0 v1 v2 ->
  filled_v1_3d (S := QcS) i0 j0 k0 i1 j1 k1 dx beta b0 b1 b2 gcw u f0 f1 f2 alpha agcw a rgcw res bc n s z c v0 v1 v2 ->
  (0 < beta)%Qc ->
  (forall d, 0 <= d < 3 -> (0 < dx d)%Qc) ->
  (alpha = 0%Qc \/ forall i j k, patch3 i0 j0 k0 i1 j1 k1 i j k -> c i j k = 0%Qc) ->
  (forall i j k, i0 <= i <= i1 + 1 -> j0 <= j <= j1 -> k0 <= k <= k1 -> (0 < v0 i j k)%Qc) ->
  (forall i j k, i0 <= i <= i1 -> j0 <= j <= j1 + 1 -> k0 <= k <= k1 -> (0 < v1 i j k)%Qc) ->
  (forall i j k, i0 <= i <= i1 -> j0 <= j <= j1 -> k0 <= k <= k1 + 1 -> (0 < v2 i j k)%Qc) ->
  (forall f, 0 <= f < 6 -> b_kind (bc f) = 1) ->
  i0 <= i1 ->
  j0 <= j1 ->
  k0 <= k1 ->
  (forall i j k, patch3 i0 j0 k0 i1 j1 k1 i j k -> r i j k = s i j k) ->
  exists t : Qc, forall i j k, patch3 i0 j0 k0 i1 j1 k1 i j k -> z i j k = (w i j k + t)%Qc.
Proof.
  intros F G Hb Hdx Ha0 Hv0 Hv1 Hv2 Hn B0 B1 B2 Eq.
  assert (Hw1 : forall i j k, i0 <= i <= i1 -> j0 <= j <= j1 + 1 -> k0 <= k <= k1 -> (0 <= v1 i j k)%Qc) by (intros; apply Qclt_le_weak, Hv1; assumption). assert (Hw2 : forall i j k, i0 <= i <= i1 -> j0 <= j <= j1 -> k0 <= k <= k1 + 1 -> (0 <= v2 i j k)%Qc) by (intros; apply Qclt_le_weak, Hv2; assumption).
  assert (Ro : roomy 3 (ends3 i0 j0 k0) (ends3 i1 j1 k1) bc).
  { apply closed_roomy; [|exact Hn]. intros e He. assert (e = 0 \/ e = 1 \/ e = 2) as [->|[->| ->]] by lia; [exact B0|exact B1|exact B2]. }
  assert (Hs : forall f, 0 <= f < 6 -> sound true (bc f)) by (intros e He; right; left; now apply Hn).
  apply (closed3_unique i0 j0 k0 i1 j1 k1 dx beta (fun i j k => alpha * c i j k)%Qc v0 v1 v2 bc Hn (fun i j k Ip => match Ha0 with or_introl E => eq_trans (f_equal (fun t => t * c i j k)%Qc E) (Qcmult_0_l _) | or_intror E => eq_trans (f_equal (fun t => alpha * t)%Qc (E i j k Ip)) (Qcmult_0_r _) end) Ro Hb Hdx Hv0 Hv1 Hv2 w z).
  intros i j k Ip. rewrite <- (bvp_v1_3d i0 j0 k0 i1 j1 k1 dx beta b0 b1 b2 gcw u f0 f1 f2 alpha agcw a rgcw res bc m r w c v0 v1 v2 F Hb Hdx Hv0 Hw1 Hw2 Hs Ro i j k Ip).
  rewrite <- (bvp_v1_3d i0 j0 k0 i1 j1 k1 dx beta b0 b1 b2 gcw u f0 f1 f2 alpha agcw a rgcw res bc n s z c v0 v1 v2 G Hb Hdx Hv0 Hw1 Hw2 Hs Ro i j k Ip). exact (Eq i j k Ip).
Qed.

Lemma csolve_v1_3d i0 j0 k0 i1 j1 k1 (dx : Z -> Qc) (beta : Qc) b0 b1 b2 gcw u f0 f1 f2 (alpha : Qc) agcw a rgcw res bc (m : mem QcS) (r w c v0 v1 v2 f : Z -> Z -> Z -> Qc) :
  filled_v1_3d (S := QcS) i0 j0 k0 i1 j1 k1 dx beta b0 b1 b2 gcw u f0 f1 f2 alpha agcw a rgcw res bc m r w c v0 v1 v2 ->
  (0 < beta)%Qc ->
  (forall d, 0 <= d < 3 -> (0 < dx d)%Qc) ->
  (alpha = 0%Qc \/ forall i j k, patch3 i0 j0 k0 i1 j1 k1 i j k -> c i j k = 0%Qc) ->
  (forall i j k, i0 <= i <= i1 + 1 -> j0 <= j <= j1 -> k0 <= k <= k1 -> (0 < v0 i j k)%Qc) ->
  (forall i j k, i0 <= i <= i1 -> j0 <= j <= j1 + 1 -> k0 <= k <= k1 -> (0 < v1 i j k)%Qc) ->
  (forall i j k, i0 <= i <= i1 -> j0 <= j <= j1 -> k0 <= k <= k1 + 1 -> (0 < v2 i j k)%Qc) ->
  (forall f, 0 <= f < 6 -> b_kind (bc f) = 1) ->
  i0 <= i1 ->
  j0 <= j1 ->
  k0 <= k1 ->
  total3 (S := QcS) i0 j0 k0 i1 j1 k1 f = 0%Qc ->
  forall x y t (g : Qc), patch3 i0 j0 k0 i1 j1 k1 x y t ->
  exists (n : mem QcS) (z : Z -> Z -> Z -> Qc), filled_v1_3d (S := QcS) i0 j0 k0 i1 j1 k1 dx beta b0 b1 b2 gcw u f0 f1 f2 alpha agcw a rgcw res bc n f z c v0 v1 v2 /\ z x y t = g /\
    shape n = shape m /\ ints n = ints m /\
    (forall p, (forall i j k, patch3 i0 j0 k0 i1 j1 k1 i j k -> faddr (mkFa u (CELL3d i0 j0 k0 i1 j1 k1 gcw)) [i; j; k] <> p) -> load n p = load m p).
Proof.
  intros F Hb Hdx Ha0 Hv0 Hv1 Hv2 Hn B0 B1 B2 Sf x y t g Ig.
  assert (Hw1 : forall i j k, i0 <= i <= i1 -> j0 <= j <= j1 + 1 -> k0 <= k <= k1 -> (0 <= v1 i j k)%Qc) by (intros; apply Qclt_le_weak, Hv1; assumption). assert (Hw2 : forall i j k, i0 <= i <= i1 -> j0 <= j <= j1 -> k0 <= k <= k1 + 1 -> (0 <= v2 i j k)%Qc) by (intros; apply Qclt_le_weak, Hv2; assumption).
  assert (Ro : roomy 3 (ends3 i0 j0 k0) (ends3 i1 j1 k1) bc).
  { apply closed_roomy; [|exact Hn]. intros e He. assert (e = 0 \/ e = 1 \/ e = 2) as [->|[->| ->]] by lia; [exact B0|exact B1|exact B2]. }
  assert (Hs : forall f, 0 <= f < 6 -> sound true (bc f)) by (intros e He; right; left; now apply Hn).
  destruct (closed3_exists i0 j0 k0 i1 j1 k1 dx beta (fun i j k => alpha * c i j k)%Qc v0 v1 v2 bc Hn (fun i j k Ip => match Ha0 with or_introl E => eq_trans (f_equal (fun t => t * c i j k)%Qc E) (Qcmult_0_l _) | or_intror E => eq_trans (f_equal (fun t => alpha * t)%Qc (E i j k Ip)) (Qcmult_0_r _) end) Ro Hb Hdx Hv0 Hv1 Hv2 f Sf) as (z & Hz).
  set (z' := fun i j k => (1 * z i j k + (g - z x y t) * 1)%Qc).
  assert (Hz' : forall i j k, patch3 i0 j0 k0 i1 j1 k1 i j k -> op3 dx beta (fun i j k => alpha * c i j k)%Qc v0 v1 v2 (ext3 i0 j0 k0 i1 j1 k1 dx v0 v1 v2 bc z') i j k = f i j k).
  { intros i j k Ip. unfold z'. rewrite (bvp3_lin i0 j0 k0 i1 j1 k1 dx beta (fun i j k => alpha * c i j k)%Qc v0 v1 v2 bc 1 (g - z x y t) z (fun _ _ _ => 1%Qc) i j k Ip), (Hz i j k Ip).
    rewrite (closed3_const i0 j0 k0 i1 j1 k1 dx beta (fun i j k => alpha * c i j k)%Qc v0 v1 v2 bc Hn (fun i j k Ip => match Ha0 with or_introl E => eq_trans (f_equal (fun t => t * c i j k)%Qc E) (Qcmult_0_l _) | or_intror E => eq_trans (f_equal (fun t => alpha * t)%Qc (E i j k Ip)) (Qcmult_0_r _) end) 1 i j k Ip). ring. }
  destruct (bplace_v1_3d i0 j0 k0 i1 j1 k1 dx beta b0 b1 b2 gcw u f0 f1 f2 alpha agcw a rgcw res bc m r w c v0 v1 v2 f z' F Hb Hdx Hv0 Hw1 Hw2 Hs Ro Hz') as (n & H1 & H2). exists n, z'.
  split; [exact H1|]. split; [unfold z'; ring|exact H2].
Qed.

Lemma acompare_v2_3d i0 j0 k0 i1 j1 k1 (dx : Z -> Qc) (beta : Qc) b0 b1 b2 gcw u f0 f1 f2 (alpha : Qc) rgcw res bc (m n : mem QcS) (r w s z v0 v1 v2 : Z -> Z -> Z -> Qc) :
  filled_v2_3d (S := QcS) i0 j0 k0 i1 j1 k1 dx beta b0 b1 b2 gcw u f0 f1 f2 alpha rgcw res bc m r w v0 v1 v2 ->
  filled_v2_3d (S := QcS) i0 j0 k0 i1 j1 k1 dx beta b0 b1 b2 gcw u f0 f1 f2 alpha rgcw res bc n s z v0 v1 v2 ->
  (0 < beta)%Qc ->
  (forall d, 0 <= d < 3 -> (0 < dx d)%Qc) ->
  (0 <= alpha)%Qc ->
  (forall i j k, i0 <= i <= i1 + 1 -> j0 <= j <= j1 -> k0 <= k <= k1 -> (0 < v0 i j k)%Qc) ->
  (forall i j k, i0 <= i <= i1 -> j0 <= j <= j1 + 1 -> k0 <= k <= k1 -> (0 < v1 i j k)%Qc) ->
  (forall i j k, i0 <= i <= i1 -> j0 <= j <= j1 -> k0 <= k <= k1 + 1 -> (0 < v2 i j k)%Qc) ->
  (forall f, 0 <= f < 6 -> sound true (bc f)) ->
  roomy 3 (ends3 i0 j0 k0) (ends3 i1 j1 k1) bc ->
  ((exists f, 0 <= f < 6 /\ b_kind (bc f) <> 1) \/ (0 < alpha)%Qc) ->
  (forall i j k, patch3 i0 j0 k0 i1 j1 k1 i j k -> (r i j k <= s i j k)%Qc) ->
  forall i j k, patch3 i0 j0 k0 i1 j1 k1 i j k -> (w i j k <= z i j k)%Qc.
Proof.
  intros F G Hb Hdx Ha Hv0 Hv1 Hv2 Hs Ro Hd Le. assert (Hw1 : forall i j k, i0 <= i <= i1 -> j0 <= j <= j1 + 1 -> k0 <= k <= k1 -> (0 <= v1 i j k)%Qc) by (intros; apply Qclt_le_weak, Hv1; assumption). assert (Hw2 : forall i j k, i0 <= i <= i1 -> j0 <= j <= j1 -> k0 <= k <= k1 + 1 -> (0 <= v2 i j k)%Qc) by (intros; apply Qclt_le_weak, Hv2; assumption).
  assert (Hh : (exists f, 0 <= f < 6 /\ b_kind (bc f) <> 1) \/ (exists i j k, patch3 i0 j0 k0 i1 j1 k1 i j k /\ (0 < (fun _ _ _ => alpha) i j k)%Qc)) by (destruct Hd as [H|H]; [now left|right; exists i0, j0, k0; split; [pose proof (roomy_le 3 (ends3 i0 j0 k0) (ends3 i1 j1 k1) bc Ro 0 ltac:(lia)) as B0; change (i0 <= i1) in B0; pose proof (roomy_le 3 (ends3 i0 j0 k0) (ends3 i1 j1 k1) bc Ro 1 ltac:(lia)) as B1; change (j0 <= j1) in B1; pose proof (roomy_le 3 (ends3 i0 j0 k0) (ends3 i1 j1 k1) bc Ro 2 ltac:(lia)) as B2; change (k0 <= k1) in B2; unfold patch3; lia|exact H]]).
  apply (any3_compare i0 j0 k0 i1 j1 k1 dx beta (fun _ _ _ => alpha) v0 v1 v2 bc true Hb Hdx (fun _ _ _ _ => Ha) Hv0 Hv1 Hv2 Hs Ro Hh w z r s).
  - exact (bvp_v2_3d i0 j0 k0 i1 j1 k1 dx beta b0 b1 b2 gcw u f0 f1 f2 alpha rgcw res bc m r w v0 v1 v2 F Hb Hdx Hv0 Hw1 Hw2 Hs Ro).
  - exact (bvp_v2_3d i0 j0 k0 i1 j1 k1 dx beta b0 b1 b2 gcw u f0 f1 f2 alpha rgcw res bc n s z v0 v1 v2 G Hb Hdx Hv0 Hw1 Hw2 Hs Ro).
  - exact Le.
Qed.

Lemma asolve_v2_3d i0 j0 k0 i1 j1 k1 (dx : Z -> Qc) (beta : Qc) b0 b1 b2 gcw u f0 f1 f2 (alpha : Qc) rgcw res bc (m : mem QcS) (r w v0 v1 v2 f : Z -> Z -> Z -> Qc) :
  filled_v2_3d (S := QcS) i0 j0 k0 i1 j1 k1 dx beta b0 b1 b2 gcw u f0 f1 f2 alpha rgcw res bc m r w v0 v1 v2 ->
  (0 < beta)%Qc ->
  (forall d, 0 <= d < 3 -> (0 < dx d)%Qc) ->
  (0 <= alpha)%Qc ->
  (forall i j k, i0 <= i <= i1 + 1 -> j0 <= j <= j1 -> k0 <= k <= k1 -> (0 < v0 i j k)%Qc) ->
  (forall i j k, i0 <= i <= i1 -> j0 <= j <= j1 + 1 -> k0 <= k <= k1 -> (0 < v1 i j k)%Qc) ->
  (forall i j k, i0 <= i <= i1 -> j0 <= j <= j1 -> k0 <= k <= k1 + 1 -> (0 < v2 i j k)%Qc) ->
  (forall f, 0 <= f < 6 -> sound true (bc f)) ->
  roomy 3 (ends3 i0 j0 k0) (ends3 i1 j1 k1) bc ->
  ((exists f, 0 <= f < 6 /\ b_kind (bc f) <> 1) \/ (0 < alpha)%Qc) ->
  exists (n : mem QcS) (z : Z -> Z -> Z -> Qc), filled_v2_3d (S := QcS) i0 j0 k0 i1 j1 k1 dx beta b0 b1 b2 gcw u f0 f1 f2 alpha rgcw res bc n f z v0 v1 v2 /\
    shape n = shape m /\ ints n = ints m /\
    (forall p, (forall i j k, patch3 i0 j0 k0 i1 j1 k1 i j k -> faddr (mkFa u (CELL3d i0 j0 k0 i1 j1 k1 gcw)) [i; j; k] <> p) -> load n p = load m p).
Proof.
  intros F Hb Hdx Ha Hv0 Hv1 Hv2 Hs Ro Hd. assert (Hw1 : forall i j k, i0 <= i <= i1 -> j0 <= j <= j1 + 1 -> k0 <= k <= k1 -> (0 <= v1 i j k)%Qc) by (intros; apply Qclt_le_weak, Hv1; assumption). assert (Hw2 : forall i j k, i0 <= i <= i1 -> j0 <= j <= j1 -> k0 <= k <= k1 + 1 -> (0 <= v2 i j k)%Qc) by (intros; apply Qclt_le_weak, Hv2; assumption).
  assert (Hh : (exists f, 0 <= f < 6 /\ b_kind (bc f) <> 1) \/ (exists i j k, patch3 i0 j0 k0 i1 j1 k1 i j k /\ (0 < (fun _ _ _ => alpha) i j k)%Qc)) by (destruct Hd as [H|H]; [now left|right; exists i0, j0, k0; split; [pose proof (roomy_le 3 (ends3 i0 j0 k0) (ends3 i1 j1 k1) bc Ro 0 ltac:(lia)) as B0; change (i0 <= i1) in B0; pose proof (roomy_le 3 (ends3 i0 j0 k0) (ends3 i1 j1 k1) bc Ro 1 ltac:(lia)) as B1; change (j0 <= j1) in B1; pose proof (roomy_le 3 (ends3 i0 j0 k0) (ends3 i1 j1 k1) bc Ro 2 ltac:(lia)) as B2; change (k0 <= k1) in B2; unfold patch3; lia|exact H]]).
  destruct (any3_exists i0 j0 k0 i1 j1 k1 dx beta (fun _ _ _ => alpha) v0 v1 v2 bc true Hb Hdx (fun _ _ _ _ => Ha) Hv0 Hv1 Hv2 Hs Ro Hh f) as (z & Hz).
  destruct (bplace_v2_3d i0 j0 k0 i1 j1 k1 dx beta b0 b1 b2 gcw u f0 f1 f2 alpha rgcw res bc m r w v0 v1 v2 f z F Hb Hdx Hv0 Hw1 Hw2 Hs Ro Hz) as (n & H). exists n, z. exact H.
Qed.

Lemma csum_v2_3d i0 j0 k0 i1 j1 k1 (dx : Z -> Qc) (beta : Qc) b0 b1 b2 gcw u f0 f1 f2 (alpha : Qc) rgcw res bc (m : mem QcS) (r w v0 v1 v2 : Z -> Z -> Z -> Qc) :
  filled_v2_3d (S := QcS) i0 j0 k0 i1 j1 k1 dx beta b0 b1 b2 gcw u f0 f1 f2 alpha rgcw res bc m r w v0 v1 v2 ->
  (0 < beta)%Qc ->
  (forall d, 0 <= d < 3 -> (0 < dx d)%Qc) ->
  alpha = 0%Qc ->
  (forall i j k, i0 <= i <= i1 + 1 -> j0 <= j <= j1 -> k0 <= k <= k1 -> (0 < v0 i j k)%Qc) ->
  (forall i j k, i0 <= i <= i1 -> j0 <= j <= j1 + 1 -> k0 <= k <= k1 -> (0 < v1 i j k)%Qc) ->
  (forall i j k, i0 <= i <= i1 -> j0 <= j <= j1 -> k0 <= k <= k1 + 1 -> (0 < v2 i j k)%Qc) ->
  (forall f, 0 <= f < 6 -> b_kind (bc f) = 1) ->
  i0 <= i1 ->
  j0 <= j1 ->
  k0 <= k1 ->
  total3 (S := QcS) i0 j0 k0 i1 j1 k1 r = 0%Qc.
Proof.
  intros F Hb Hdx Ha0 Hv0 Hv1 Hv2 Hn B0 B1 B2.
  assert (Hw1 : forall i j k, i0 <= i <= i1 -> j0 <= j <= j1 + 1 -> k0 <= k <= k1 -> (0 <= v1 i j k)%Qc) by (intros; apply Qclt_le_weak, Hv1; assumption). assert (Hw2 : forall i j k, i0 <= i <= i1 -> j0 <= j <= j1 -> k0 <= k <= k1 + 1 -> (0 <= v2 i j k)%Qc) by (intros; apply Qclt_le_weak, Hv2; assumption).
  assert (Ro : roomy 3 (ends3 i0 j0 k0) (ends3 i1 j1 k1) bc).
  { apply closed_roomy; [|exact Hn]. intros e He. assert (e = 0 \/ e = 1 \/ e = 2) as [->|[->| ->]] by lia; [exact B0|exact B1|exact B2]. }
  assert (Hs : forall f, 0 <= f < 6 -> sound true (bc f)) by (intros e He; right; left; now apply Hn).
  rewrite <- (closed3_sum i0 j0 k0 i1 j1 k1 dx beta (fun _ _ _ => alpha) v0 v1 v2 bc Hn (fun _ _ _ _ => Ha0) Ro w).
  apply (total3_ext (S := QcS)). intros i j k Ii Ij Ik.
  exact (bvp_v2_3d i0 j0 k0 i1 j1 k1 dx beta b0 b1 b2 gcw u f0 f1 f2 alpha rgcw res bc m r w v0 v1 v2 F Hb Hdx Hv0 Hw1 Hw2 Hs Ro i j k ltac:(k_near)).
Qed.

Lemma cunique_v2_3d i0 j0 k0 i1 j1 k1 (dx : Z -> Qc) (beta : Qc) b0 b1 b2 gcw u f0 f1 f2 (alpha : Qc) rgcw res bc (m n : mem QcS) (r w s z v0 v1 v2 : Z -> Z -> Z -> Qc) :
  filled_v2_3d (S := QcS) i0 j0 k0 i1 j1 k1 dx beta b0 b1 b2 gcw u f0 f1 f2 alpha rgcw res bc m r w v0 v1 v2 ->
  filled_v2_3d (S := QcS) i0 j0 k0 i1 j1 k1 dx beta b0 b1 b2 gcw u f0 f1 f2 alpha rgcw res bc n s z v0 v1 v2 ->
  (0 < beta)%Qc ->
  (forall d, 0 <= d < 3 -> (0 < dx d)%Qc) ->
  alpha = 0%Qc ->
  (forall i j k, i0 <= i <= i1 + 1 -> j0 <= j <= j1 -> k0 <= k <= k1 -> (0 < v0 i j k)%Qc) ->
  (forall i j k, i0 <= i <= i1 -> j0 <= j <= j1 + 1 -> k0 <= k <= k1 -> (0 < v1 i j k)%Qc) ->
  (forall i j k, i0 <= i <= i1 -> j0 <= j <= j1 -> k0 <= k <= k1 + 1 -> (0 < v2 i j k)%Qc) ->
  (forall f, 0 <= f < 6 -> b_kind (bc f) = 1) ->
  i0 <= i1 ->
  j0 <= j1 ->
  k0 <= k1 ->
  (forall i j k, patch3 i0 j0 k0 i1 j1 k1 i j k -> r i j k = s i j k) ->
  exists t : Qc, forall i j k, patch3 i0 j0 k0 i1 j1 k1 i j k -> z i j k = (w i j k + t)%Qc.
Proof.
  intros F G Hb Hdx Ha0 Hv0 Hv1 Hv2 Hn B0 B1 B2 Eq.
  assert (Hw1 : forall i j k, i0 <= i <= i1 -> j0 <= j <= j1 + 1 -> k0 <= k <= k1 -> (0 <= v1 i j k)%Qc) by (intros; apply Qclt_le_weak, Hv1; assumption). assert (Hw2 : forall i j k, i0 <= i <= i1 -> j0 <= j <= j1 -> k0 <= k <= k1 + 1 -> (0 <= v2 i j k)%Qc) by (intros; apply Qclt_le_weak, Hv2; assumption).
  assert (Ro : roomy 3 (ends3 i0 j0 k0) (ends3 i1 j1 k1) bc).
  { apply closed_roomy; [|exact Hn]. intros e He. assert (e = 0 \/ e = 1 \/ e = 2) as [->|[->| ->]] by lia; [exact B0|exact B1|exact B2]. }
  assert (Hs : forall f, 0 <= f < 6 -> sound true (bc f)) by (intros e He; right; left; now apply Hn).
  apply (closed3_unique i0 j0 k0 i1 j1 k1 dx beta (fun _ _ _ => alpha) v0 v1 v2 bc Hn (fun _ _ _ _ => Ha0) Ro Hb Hdx Hv0 Hv1 Hv2 w z).
  intros i j k Ip. rewrite <- (bvp_v2_3d i0 j0 k0 i1 j1 k1 dx beta b0 b1 b2 gcw u f0 f1 f2 alpha rgcw res bc m r w v0 v1 v2 F Hb Hdx Hv0 Hw1 Hw2 Hs Ro i j k Ip).
  rewrite <- (bvp_v2_3d i0 j0 k0 i1 j1 k1 dx beta b0 b1 b2 gcw u f0 f1 f2 alpha rgcw res bc n s z v0 v1 v2 G Hb Hdx Hv0 Hw1 Hw2 Hs Ro i j k Ip). exact (Eq i j k Ip).
Qed.

Lemma csolve_v2_3d i0 j0 k0 i1 j1 k1 (dx : Z -> Qc) (beta : Qc) b0 b1 b2 gcw u f0 f1 f2 (alpha : Qc) rgcw res bc (m : mem QcS) (r w v0 v1 v2 f : Z -> Z -> Z -> Qc) :
  filled_v2_3d (S := QcS) i0 j0 k0 i1 j1 k1 dx beta b0 b1 b2 gcw u f0 f1 f2 alpha rgcw res bc m r w v0 v1 v2 ->
  (0 < beta)%Qc ->
  (forall d, 0 <= d < 3 -> (0 < dx d)%Qc) ->
  alpha = 0%Qc ->
  (forall i j k, i0 <= i <= i1 + 1 -> j0 <= j <= j1 -> k0 <= k <= k1 -> (0 < v0 i j k)%Qc) ->
  (forall i j k, i0 <= i <= i1 -> j0 <= j <= j1 + 1 -> k0 <= k <= k1 -> (0 < v1 i j k)%Qc) ->
  (forall i j k, i0 <= i <= i1 -> j0 <= j <= j1 -> k0 <= k <= k1 + 1 -> (0 < v2 i j k)%Qc) ->
  (forall f, 0 <= f < 6 -> b_kind (bc f) = 1) ->
  i0 <= i1 ->
  j0 <= j1 ->
  k0 <= k1 ->
  total3 (S := QcS) i0 j0 k0 i1 j1 k1 f = 0%Qc ->
  forall x y t (g : Qc), patch3 i0 j0 k0 i1 j1 k1 x y t ->
  exists (n : mem QcS) (z : Z -> Z -> Z -> Qc), filled_v2_3d (S := QcS) i0 j0 k0 i1 j1 k1 dx beta b0 b1 b2 gcw u f0 f1 f2 alpha rgcw res bc n f z v0 v1 v2 /\ z x y t = g /\
    shape n = shape m /\ ints n = ints m /\
    (forall p, (forall i j k, patch3 i0 j0 k0 i1 j1 k1 i j k -> faddr (mkFa u (CELL3d i0 j0 k0 i1 j1 k1 gcw)) [i; j; k] <> p) -> load n p = load m p).
Proof.
  intros F Hb Hdx Ha0 Hv0 Hv1 Hv2 Hn B0 B1 B2 Sf x y t g Ig.
  assert (Hw1 : forall i j k, i0 <= i <= i1 -> j0 <= j <= j1 + 1 -> k0 <= k <= k1 -> (0 <= v1 i j k)%Qc) by (intros; apply Qclt_le_weak, Hv1; assumption). assert (Hw2 : forall i j k, i0 <= i <= i1 -> j0 <= j <= j1 -> k0 <= k <= k1 + 1 -> (0 <= v2 i j k)%Qc) by (intros; apply Qclt_le_weak, Hv2; assumption).
  assert (Ro : roomy 3 (ends3 i0 j0 k0) (ends3 i1 j1 k1) bc).
  { apply closed_roomy; [|exact Hn]. intros e He. assert (e = 0 \/ e = 1 \/ e = 2) as [->|[->| ->]] by lia; [exact B0|exact B1|exact B2]. }
  assert (Hs : forall f, 0 <= f < 6 -> sound true (bc f)) by (intros e He; right; left; now apply Hn).
  destruct (closed3_exists i0 j0 k0 i1 j1 k1 dx beta (fun _ _ _ => alpha) v0 v1 v2 bc Hn (fun _ _ _ _ => Ha0) Ro Hb Hdx Hv0 Hv1 Hv2 f Sf) as (z & Hz).
  set (z' := fun i j k => (1 * z i j k + (g - z x y t) * 1)%Qc).
  assert (Hz' : forall i j k, patch3 i0 j0 k0 i1 j1 k1 i j k -> op3 dx beta (fun _ _ _ => alpha) v0 v1 v2 (ext3 i0 j0 k0 i1 j1 k1 dx v0 v1 v2 bc z') i j k = f i j k).
  { intros i j k Ip. unfold z'. rewrite (bvp3_lin i0 j0 k0 i1 j1 k1 dx beta (fun _ _ _ => alpha) v0 v1 v2 bc 1 (g - z x y t) z (fun _ _ _ => 1%Qc) i j k Ip), (Hz i j k Ip).
    rewrite (closed3_const i0 j0 k0 i1 j1 k1 dx beta (fun _ _ _ => alpha) v0 v1 v2 bc Hn (fun _ _ _ _ => Ha0) 1 i j k Ip). ring. }
  destruct (bplace_v2_3d i0 j0 k0 i1 j1 k1 dx beta b0 b1 b2 gcw u f0 f1 f2 alpha rgcw res bc m r w v0 v1 v2 f z' F Hb Hdx Hv0 Hw1 Hw2 Hs Ro Hz') as (n & H1 & H2). exists n, z'.
  split; [exact H1|]. split; [unfold z'; ring|exact H2].
Qed.

Lemma acompare_poisson_3d i0 j0 k0 i1 j1 k1 (dx : Z -> Qc) (beta : Qc) gcw u f0 f1 f2 rgcw res bc (m n : mem QcS) (r w s z : Z -> Z -> Z -> Qc) :
  filled_poisson_3d (S := QcS) i0 j0 k0 i1 j1 k1 dx beta gcw u f0 f1 f2 rgcw res bc m r w ->
  filled_poisson_3d (S := QcS) i0 j0 k0 i1 j1 k1 dx beta gcw u f0 f1 f2 rgcw res bc n s z ->
  (0 < beta)%Qc ->
  (forall d, 0 <= d < 3 -> (0 < dx d)%Qc) ->
  (forall f, 0 <= f < 6 -> sound false (bc f)) ->
  roomy 3 (ends3 i0 j0 k0) (ends3 i1 j1 k1) bc ->
  (exists f, 0 <= f < 6 /\ b_kind (bc f) <> 1) ->
  (forall i j k, patch3 i0 j0 k0 i1 j1 k1 i j k -> (r i j k <= s i j k)%Qc) ->
  forall i j k, patch3 i0 j0 k0 i1 j1 k1 i j k -> (w i j k <= z i j k)%Qc.
Proof.
  intros F G Hb Hdx Hs Ro Hd Le. 
  assert (Hh : (exists f, 0 <= f < 6 /\ b_kind (bc f) <> 1) \/ (exists i j k, patch3 i0 j0 k0 i1 j1 k1 i j k /\ (0 < (fun _ _ _ => 0%Qc) i j k)%Qc)) by (left; exact Hd).
  apply (any3_compare i0 j0 k0 i1 j1 k1 dx beta (fun _ _ _ => 0%Qc) (fun _ _ _ => 1%Qc) (fun _ _ _ => 1%Qc) (fun _ _ _ => 1%Qc) bc false Hb Hdx (fun _ _ _ _ => Qcle_refl 0%Qc) (fun _ _ _ _ _ _ => eq_refl : (0 < 1)%Qc) (fun _ _ _ _ _ _ => eq_refl : (0 < 1)%Qc) (fun _ _ _ _ _ _ => eq_refl : (0 < 1)%Qc) Hs Ro Hh w z r s).
  - exact (bvp_poisson_3d i0 j0 k0 i1 j1 k1 dx beta gcw u f0 f1 f2 rgcw res bc m r w  F Hb Hdx Hs Ro).
  - exact (bvp_poisson_3d i0 j0 k0 i1 j1 k1 dx beta gcw u f0 f1 f2 rgcw res bc n s z  G Hb Hdx Hs Ro).
  - exact Le.
Qed.

Lemma asolve_poisson_3d i0 j0 k0 i1 j1 k1 (dx : Z -> Qc) (beta : Qc) gcw u f0 f1 f2 rgcw res bc (m : mem QcS) (r w f : Z -> Z -> Z -> Qc) :
  filled_poisson_3d (S := QcS) i0 j0 k0 i1 j1 k1 dx beta gcw u f0 f1 f2 rgcw res bc m r w ->
  (0 < beta)%Qc ->
  (forall d, 0 <= d < 3 -> (0 < dx d)%Qc) ->
  (forall f, 0 <= f < 6 -> sound false (bc f)) ->
  roomy 3 (ends3 i0 j0 k0) (ends3 i1 j1 k1) bc ->
  (exists f, 0 <= f < 6 /\ b_kind (bc f) <> 1) ->
  exists (n : mem QcS) (z : Z -> Z -> Z -> Qc), filled_poisson_3d (S := QcS) i0 j0 k0 i1 j1 k1 dx beta gcw u f0 f1 f2 rgcw res bc n f z /\
    shape n = shape m /\ ints n = ints m /\
    (forall p, (forall i j k, patch3 i0 j0 k0 i1 j1 k1 i j k -> faddr (mkFa u (CELL3d i0 j0 k0 i1 j1 k1 gcw)) [i; j; k] <> p) -> load n p = load m p).
Proof.
  intros F Hb Hdx Hs Ro Hd. 
  assert (Hh : (exists f, 0 <= f < 6 /\ b_kind (bc f) <> 1) \/ (exists i j k, patch3 i0 j0 k0 i1 j1 k1 i j k /\ (0 < (fun _ _ _ => 0%Qc) i j k)%Qc)) by (left; exact Hd).
  destruct (any3_exists i0 j0 k0 i1 j1 k1 dx beta (fun _ _ _ => 0%Qc) (fun _ _ _ => 1%Qc) (fun _ _ _ => 1%Qc) (fun _ _ _ => 1%Qc) bc false Hb Hdx (fun _ _ _ _ => Qcle_refl 0%Qc) (fun _ _ _ _ _ _ => eq_refl : (0 < 1)%Qc) (fun _ _ _ _ _ _ => eq_refl : (0 < 1)%Qc) (fun _ _ _ _ _ _ => eq_refl : (0 < 1)%Qc) Hs Ro Hh f) as (z & Hz).
  destruct (bplace_poisson_3d i0 j0 k0 i1 j1 k1 dx beta gcw u f0 f1 f2 rgcw res bc m r w  f z F Hb Hdx Hs Ro Hz) as (n & H). exists n, z. exact H.
Qed.

Lemma csum_poisson_3d i0 j0 k0 i1 j1 k1 (dx : Z -> Qc) (beta : Qc) gcw u f0 f1 f2 rgcw res bc (m : mem QcS) (r w : Z -> Z -> Z -> Qc) :
  filled_poisson_3d (S := QcS) i0 j0 k0 i1 j1 k1 dx beta gcw u f0 f1 f2 rgcw res bc m r w ->
  (0 < beta)%Qc ->
  (forall d, 0 <= d < 3 -> (0 < dx d)%Qc) ->
  (forall f, 0 <= f < 6 -> b_kind (bc f) = 1) ->
  i0 <= i1 ->
  j0 <= j1 ->
  k0 <= k1 ->
  total3 (S := QcS) i0 j0 k0 i1 j1 k1 r = 0%Qc.
Proof.
  intros F Hb Hdx Hn B0 B1 B2.
  
  assert (Ro : roomy 3 (ends3 i0 j0 k0) (ends3 i1 j1 k1) bc).
  { apply closed_roomy; [|exact Hn]. intros e He. assert (e = 0 \/ e = 1 \/ e = 2) as [->|[->| ->]] by lia; [exact B0|exact B1|exact B2]. }
  assert (Hs : forall f, 0 <= f < 6 -> sound false (bc f)) by (intros e He; right; left; now apply Hn).
  rewrite <- (closed3_sum i0 j0 k0 i1 j1 k1 dx beta (fun _ _ _ => 0%Qc) (fun _ _ _ => 1%Qc) (fun _ _ _ => 1%Qc) (fun _ _ _ => 1%Qc) bc Hn (fun _ _ _ _ => eq_refl) Ro w).
  apply (total3_ext (S := QcS)). intros i j k Ii Ij Ik.
  exact (bvp_poisson_3d i0 j0 k0 i1 j1 k1 dx beta gcw u f0 f1 f2 rgcw res bc m r w  F Hb Hdx Hs Ro i j k ltac:(k_near)).
Qed.

Lemma cunique_poisson_3d i0 j0 k0 i1 j1 k1 (dx : Z -> Qc) (beta : Qc) gcw u f0 f1 f2 rgcw res bc (m n : mem QcS) (r w s z : Z -> Z -> Z -> Qc) :
  filled_poisson_3d (S := QcS) i0 j0 k0 i1 j1 k1 dx beta gcw u f0 f1 f2 rgcw res bc m r w ->
  filled_poisson_3d (S := QcS) i0 j0 k0 i1 j1 k1 dx beta gcw u f0 f1 f2 rgcw res bc n s z ->
  (0 < beta)%Qc ->
  (forall d, 0 <= d < 3 -> (0 < dx d)%Qc) ->
  (forall f, 0 <= f < 6 -> b_kind (bc f) = 1) ->
  i0 <= i1 ->
  j0 <= j1 ->
  k0 <= k1 ->
  (forall i j k, patch3 i0 j0 k0 i1 j1 k1 i j k -> r i j k = s i j k) ->
  exists t : Qc, forall i j k, patch3 i0 j0 k0 i1 j1 k1 i j k -> z i j k = (w i j k + t)%Qc.
Proof.
  intros F G Hb Hdx Hn B0 B1 B2 Eq.
  
  assert (Ro : roomy 3 (ends3 i0 j0 k0) (ends3 i1 j1 k1) bc).
  { apply closed_roomy; [|exact Hn]. intros e He. assert (e = 0 \/ e = 1 \/ e = 2) as [->|[->| ->]] by lia; [exact B0|exact B1|exact B2]. }
  assert (Hs : forall f, 0 <= f < 6 -> sound false (bc f)) by (intros e He; right; left; now apply Hn).
  apply (closed3_unique i0 j0 k0 i1 j1 k1 dx beta (fun _ _ _ => 0%Qc) (fun _ _ _ => 1%Qc) (fun _ _ _ => 1%Qc) (fun _ _ _ => 1%Qc) bc Hn (fun _ _ _ _ => eq_refl) Ro Hb Hdx (fun _ _ _ _ _ _ => eq_refl : (0 < 1)%Qc) (fun _ _ _ _ _ _ => eq_refl : (0 < 1)%Qc) (fun _ _ _ _ _ _ => eq_refl : (0 < 1)%Qc) w z).
  intros i j k Ip. rewrite <- (bvp_poisson_3d i0 j0 k0 i1 j1 k1 dx beta gcw u f0 f1 f2 rgcw res bc m r w  F Hb Hdx Hs Ro i j k Ip).
  rewrite <- (bvp_poisson_3d i0 j0 k0 i1 j1 k1 dx beta gcw u f0 f1 f2 rgcw res bc n s z  G Hb Hdx Hs Ro i j k Ip). exact (Eq i j k Ip).
Qed.

Lemma csolve_poisson_3d i0 j0 k0 i1 j1 k1 (dx : Z -> Qc) (beta : Qc) gcw u f0 f1 f2 rgcw res bc (m : mem QcS) (r w f : Z -> Z -> Z -> Qc) :
  filled_poisson_3d (S := QcS) i0 j0 k0 i1 j1 k1 dx beta gcw u f0 f1 f2 rgcw res bc m r w ->
  (0 < beta)%Qc ->
  (forall d, 0 <= d < 3 -> (0 < dx d)%Qc) ->
  (forall f, 0 <= f < 6 -> b_kind (bc f) = 1) ->
  i0 <= i1 ->
  j0 <= j1 ->
  k0 <= k1 ->
  total3 (S := QcS) i0 j0 k0 i1 j1 k1 f = 0%Qc ->
  forall x y t (g : Qc), patch3 i0 j0 k0 i1 j1 k1 x y t ->
  exists (n : mem QcS) (z : Z -> Z -> Z -> Qc), filled_poisson_3d (S := QcS) i0 j0 k0 i1 j1 k1 dx beta gcw u f0 f1 f2 rgcw res bc n f z /\ z x y t = g /\
    shape n = shape m /\ ints n = ints m /\
    (forall p, (forall i j k, patch3 i0 j0 k0 i1 j1 k1 i j k -> faddr (mkFa u (CELL3d i0 j0 k0 i1 j1 k1 gcw)) [i; j; k] <> p) -> load n p = load m p).
Proof.
  intros F Hb Hdx Hn B0 B1 B2 Sf x y t g Ig.
  
  assert (Ro : roomy 3 (ends3 i0 j0 k0) (ends3 i1 j1 k1) bc).
  { apply closed_roomy; [|exact Hn]. intros e He. assert (e = 0 \/ e = 1 \/ e = 2) as [->|[->| ->]] by lia; [exact B0|exact B1|exact B2]. }
  assert (Hs : forall f, 0 <= f < 6 -> sound false (bc f)) by (intros e He; right; left; now apply Hn).
  destruct (closed3_exists i0 j0 k0 i1 j1 k1 dx beta (fun _ _ _ => 0%Qc) (fun _ _ _ => 1%Qc) (fun _ _ _ => 1%Qc) (fun _ _ _ => 1%Qc) bc Hn (fun _ _ _ _ => eq_refl) Ro Hb Hdx (fun _ _ _ _ _ _ => eq_refl : (0 < 1)%Qc) (fun _ _ _ _ _ _ => eq_refl : (0 < 1)%Qc) (fun _ _ _ _ _ _ => eq_refl : (0 < 1)%Qc) f Sf) as (z & Hz).
  set (z' := fun i j k => (1 * z i j k + (g - z x y t) * 1)%Qc).
  assert (Hz' : forall i j k, patch3 i0 j0 k0 i1 j1 k1 i j k -> op3 dx beta (fun _ _ _ => 0%Qc) (fun _ _ _ => 1%Qc) (fun _ _ _ => 1%Qc) (fun _ _ _ => 1%Qc) (ext3 i0 j0 k0 i1 j1 k1 dx (fun _ _ _ => 1%Qc) (fun _ _ _ => 1%Qc) (fun _ _ _ => 1%Qc) bc z') i j k = f i j k).
  { intros i j k Ip. unfold z'. rewrite (bvp3_lin i0 j0 k0 i1 j1 k1 dx beta (fun _ _ _ => 0%Qc) (fun _ _ _ => 1%Qc) (fun _ _ _ => 1%Qc) (fun _ _ _ => 1%Qc) bc 1 (g - z x y t) z (fun _ _ _ => 1%Qc) i j k Ip), (Hz i j k Ip).
    rewrite (closed3_const i0 j0 k0 i1 j1 k1 dx beta (fun _ _ _ => 0%Qc) (fun _ _ _ => 1%Qc) (fun _ _ _ => 1%Qc) (fun _ _ _ => 1%Qc) bc Hn (fun _ _ _ _ => eq_refl) 1 i j k Ip). ring. }
  destruct (bplace_poisson_3d i0 j0 k0 i1 j1 k1 dx beta gcw u f0 f1 f2 rgcw res bc m r w  f z' F Hb Hdx Hs Ro Hz') as (n & H1 & H2). exists n, z'.
  split; [exact H1|]. split; [unfold z'; ring|exact H2].
Qed.

