(** * Assembling and relaxing: repeated sweeps *)

From Coq Require Import QArith Qcanon Qcabs.
From Verif Require Import Base FortranBase FortranSmooth SpecKernel SpecAssign Instances KernelsFlux KernelsApply KernelsStencil
  SpecRow SpecSmooth SpecConverge LemSmoothFinal LemRound LemConverge LemConverge3 LemConverge4 LemConverge5 SpecSolve SpecRelax LemRelax.
Import ListNotations.
Open Scope Qc_scope.

Lemma diffusion_nonneg (beta h : Qc) : 0 <= beta -> 0 <= beta / (h * h).
Proof. intros. unfold Qcdiv. apply Qcmul_nonneg; [assumption|apply square_inv_nonneg]. Qed.

Lemma sum_nonneg (a b : Qc) : 0 <= a -> 0 <= b -> 0 <= a + b.
Proof. intros. rewrite <- (Qcplus_0_l 0). apply Qcplus_le_compat; assumption. Qed.


Lemma columns_1 : Forall (fun col => length col = 1%nat /\ Forall (fun o => (- (1) <= o <= 1)%Z) col) ((0 :: nil) :: ((-1) :: nil) :: (1 :: nil) :: nil)%Z.
Proof. repeat constructor; cbn; lia. Qed.
Lemma diffusion_sum_1 (dx : Z -> Qc) (beta B : Qc) : 0 <= beta -> 0 <= B -> 0 <= (1 + 1) * B * (beta / (dx 0%Z * dx 0%Z)).
Proof. intros Hb HB. apply Qcmul_nonneg; [apply Qcmul_nonneg; [vm_compute; discriminate|exact HB]|]. apply diffusion_nonneg; exact Hb. Qed.

Lemma ready_v1_1d : (forall i0 i1 (dx : Z -> Qc) (beta : Qc) b0 gcw u f0 (alpha : Qc) agcw a rgcw res sgcw st offset fgcw f (mx ms : mem QcS) (r w c v0 : Z -> Qc) (A B : Qc),
  i0 <= i1 + 1 -> 1 <= gcw ->
  (0 <= beta)%Qc -> (0 < A)%Qc -> (0 <= B)%Qc ->
  (forall i, i0 <= i <= i1 + 1 -> (0 <= v0 i)%Qc /\ (v0 i <= B)%Qc) ->
  (forall i, i0 <= i <= i1 -> (A <= alpha * c i)%Qc) ->
  applied_v1_1d (S := QcS) i0 i1 dx beta b0 gcw u f0 alpha agcw a rgcw res mx r w c v0 ->
  assembled_v1_1d i0 i1 dx beta b0 alpha agcw a sgcw st offset fgcw f ms r c v0 ->
  let K := ((1 + 1) * B * (beta / (dx 0%Z * dx 0%Z)))%Qc in
  solution ms (mkFa offset [(0, 0); (0, 2)]) (mkFa st ((0, 2) :: CELL1d i0 i1 sgcw)) 3 (mkFa f (CELL1d i0 i1 fgcw)) (at1 w) (in_box [(i0, i1)]) /\ fits ms (mkFa offset [(0, 0); (0, 2)]) 3 (mkFa u (CELL1d i0 i1 gcw)) [(i0, i1)] /\ dominant ms (mkFa st ((0, 2) :: CELL1d i0 i1 sgcw)) 3 (K / (K + A))%Qc (in_box [(i0, i1)]) /\ (0 <= K / (K + A))%Qc /\ (K / (K + A) <= 1)%Qc)%Z.
Proof.
  intros i0 i1 dx beta b0 gcw u f0 alpha agcw a rgcw res sgcw st offset fgcw f mx ms r w c v0 A B.
  intros Hbi Hgcw Hbeta HA HB Q0 Ha Hop Has K.
  split; [exact (solution_v1_1d i0 i1 dx beta b0 gcw u f0 alpha agcw a rgcw res sgcw st offset fgcw f mx ms r w c v0 Hbi Hop Has)|]. clear Hop.
  destruct Has as (Hg & Hap & m0 & R0 & Ra & Es & HT & _).
  split; [apply (fits_of_table ms _ _ (mkFa u (CELL1d i0 i1 gcw)) [(i0, i1)] gcw HT (Nat.lt_0_succ _) columns_1 eq_refl Hgcw eq_refl _ eq_refl)|]. clear HT.
  split; [apply (dominant_v1_1d i0 i1 dx beta b0 alpha agcw a sgcw st A B m0 ms Hbi Hg Hap Hbeta HA)|].
  { intros i v Ii Ev. rewrite (R0 i Ii) in Ev. injection Ev as <-. exact (Q0 i Ii). }
  { intros i v Ii Ev. rewrite (Ra i Ii) in Ev. injection Ev as <-. exact (Ha i Ii). }
  { exact Es. }
  destruct (ratio_below_one K A (diffusion_sum_1 dx beta B Hbeta HB) HA) as [L0 L1]. split; [exact L0|apply Qclt_le_weak; exact L1].
Qed.

Lemma relax_gs_v1_1d : (forall i0 i1 (dx : Z -> Qc) (beta : Qc) b0 gcw u f0 (alpha : Qc) agcw a rgcw res sgcw st offset fgcw f (mx ms : mem QcS) (r w c v0 : Z -> Qc) (A B E : Qc) (n : nat) (m : mem QcS),
  i0 <= i1 + 1 -> 1 <= gcw -> fst u <> fst st -> fst u <> fst f -> fgcw = gcw ->
  (0 <= beta)%Qc -> (0 < A)%Qc -> (0 <= B)%Qc ->
  (forall i, i0 <= i <= i1 + 1 -> (0 <= v0 i)%Qc /\ (v0 i <= B)%Qc) ->
  (forall i, i0 <= i <= i1 -> (A <= alpha * c i)%Qc) ->
  applied_v1_1d (S := QcS) i0 i1 dx beta b0 gcw u f0 alpha agcw a rgcw res mx r w c v0 ->
  assembled_v1_1d i0 i1 dx beta b0 alpha agcw a sgcw st offset fgcw f ms r c v0 ->
  equals ms (mkFa u (CELL1d i0 i1 gcw)) (at1 w) (around (mkFa u (CELL1d i0 i1 gcw)) [(i0, i1)]) ->
  (0 <= E)%Qc -> within ms (mkFa u (CELL1d i0 i1 gcw)) (at1 w) E (in_box [(i0, i1)]) ->
  repeated n (cellgs1d i0 i1 3 offset (i0 - sgcw) (i1 + sgcw) st (i0 - fgcw) (i1 + fgcw) f (i0 - gcw) (i1 + gcw) u) ms = Some m ->
  let K := ((1 + 1) * B * (beta / (dx 0%Z * dx 0%Z)))%Qc in
  within m (mkFa u (CELL1d i0 i1 gcw)) (at1 w) ((K / (K + A)) ^ n * E)%Qc (in_box [(i0, i1)]))%Z.
Proof.
  intros i0 i1 dx beta b0 gcw u f0 alpha agcw a rgcw res sgcw st offset fgcw f mx ms r w c v0 A B E n m.
  intros Hbi Hgcw P0 P1 P2 Hbeta HA HB Q0 Ha Hop Has Heq HE Hw Hrep K.
  destruct (ready_v1_1d i0 i1 dx beta b0 gcw u f0 alpha agcw a rgcw res sgcw st offset fgcw f mx ms r w c v0 A B Hbi Hgcw Hbeta HA HB Q0 Ha Hop Has) as (Sol & Fit & Dom & L0 & L1).
  assert (C := cellgs1d_converges i0 i1 3%Z offset (i0 - sgcw)%Z (i1 + sgcw)%Z st (i0 - fgcw)%Z (i1 + fgcw)%Z f (i0 - gcw)%Z (i1 + gcw)%Z u ms P0 P1 ltac:(rewrite P2; reflexivity)).
  rewrite !cell_bounds_1 in C.
  exact (C (at1 w) (K / (K + A)) E n m Fit Dom L0 L1 Sol Heq HE Hw Hrep).
Qed.

Lemma relax_rb_v1_1d : (forall i0 i1 (dx : Z -> Qc) (beta : Qc) b0 gcw u f0 (alpha : Qc) agcw a rgcw res sgcw st offset fgcw f (mx ms : mem QcS) (r w c v0 : Z -> Qc) (c1 c2 : Z) (A B E : Qc) (n : nat) (m : mem QcS),
  i0 <= i1 + 1 -> 1 <= gcw -> 0 <= c1 -> 0 <= c2 -> Z.odd (c1 + c2) = true -> fst u <> fst st -> fst u <> fst f ->
  (0 <= beta)%Qc -> (0 < A)%Qc -> (0 <= B)%Qc ->
  (forall i, i0 <= i <= i1 + 1 -> (0 <= v0 i)%Qc /\ (v0 i <= B)%Qc) ->
  (forall i, i0 <= i <= i1 -> (A <= alpha * c i)%Qc) ->
  applied_v1_1d (S := QcS) i0 i1 dx beta b0 gcw u f0 alpha agcw a rgcw res mx r w c v0 ->
  assembled_v1_1d i0 i1 dx beta b0 alpha agcw a sgcw st offset fgcw f ms r c v0 ->
  equals ms (mkFa u (CELL1d i0 i1 gcw)) (at1 w) (around (mkFa u (CELL1d i0 i1 gcw)) [(i0, i1)]) ->
  (0 <= E)%Qc -> within ms (mkFa u (CELL1d i0 i1 gcw)) (at1 w) E (in_box [(i0, i1)]) ->
  repeated n (twice (cellrbgs1d i0 i1 c1 3 offset (i0 - sgcw) (i1 + sgcw) st (i0 - fgcw) (i1 + fgcw) f (i0 - gcw) (i1 + gcw) u)
     (cellrbgs1d i0 i1 c2 3 offset (i0 - sgcw) (i1 + sgcw) st (i0 - fgcw) (i1 + fgcw) f (i0 - gcw) (i1 + gcw) u)) ms = Some m ->
  let K := ((1 + 1) * B * (beta / (dx 0%Z * dx 0%Z)))%Qc in
  within m (mkFa u (CELL1d i0 i1 gcw)) (at1 w) ((K / (K + A)) ^ n * E)%Qc (in_box [(i0, i1)]))%Z.
Proof.
  intros i0 i1 dx beta b0 gcw u f0 alpha agcw a rgcw res sgcw st offset fgcw f mx ms r w c v0 c1 c2 A B E n m.
  intros Hbi Hgcw P0 P1 P2 P3 P4 Hbeta HA HB Q0 Ha Hop Has Heq HE Hw Hrep K.
  destruct (ready_v1_1d i0 i1 dx beta b0 gcw u f0 alpha agcw a rgcw res sgcw st offset fgcw f mx ms r w c v0 A B Hbi Hgcw Hbeta HA HB Q0 Ha Hop Has) as (Sol & Fit & Dom & L0 & L1).
  assert (C := cellrbgs1d_converges i0 i1 c1 c2 3%Z offset (i0 - sgcw)%Z (i1 + sgcw)%Z st (i0 - fgcw)%Z (i1 + fgcw)%Z f (i0 - gcw)%Z (i1 + gcw)%Z u ms P0 P1 P2 P3 P4).
  rewrite !cell_bounds_1 in C.
  exact (C (at1 w) (K / (K + A)) E n m Fit Dom L0 L1 Sol Heq HE Hw Hrep).
Qed.

Lemma relax_jac_v1_1d : (forall i0 i1 (dx : Z -> Qc) (beta : Qc) b0 gcw u f0 (alpha : Qc) agcw a rgcw res sgcw st offset fgcw f (mx ms : mem QcS) (r w c v0 : Z -> Qc) z (A B E : Qc) (n : nat) (m : mem QcS),
  i0 <= i1 + 1 -> 1 <= gcw -> fst u <> fst st -> fst u <> fst f -> fst u <> fst z -> fst z <> fst st -> fst z <> fst f ->
  (0 <= beta)%Qc -> (0 < A)%Qc -> (0 <= B)%Qc ->
  (forall i, i0 <= i <= i1 + 1 -> (0 <= v0 i)%Qc /\ (v0 i <= B)%Qc) ->
  (forall i, i0 <= i <= i1 -> (A <= alpha * c i)%Qc) ->
  applied_v1_1d (S := QcS) i0 i1 dx beta b0 gcw u f0 alpha agcw a rgcw res mx r w c v0 ->
  assembled_v1_1d i0 i1 dx beta b0 alpha agcw a sgcw st offset fgcw f ms r c v0 ->
  equals ms (mkFa u (CELL1d i0 i1 gcw)) (at1 w) (around (mkFa u (CELL1d i0 i1 gcw)) [(i0, i1)]) ->
  (0 <= E)%Qc -> within ms (mkFa u (CELL1d i0 i1 gcw)) (at1 w) E (in_box [(i0, i1)]) ->
  repeated n (celljacobi1d i0 i1 3 offset (i0 - sgcw) (i1 + sgcw) st (i0 - fgcw) (i1 + fgcw) f (i0 - gcw) (i1 + gcw) u z) ms = Some m ->
  let K := ((1 + 1) * B * (beta / (dx 0%Z * dx 0%Z)))%Qc in
  within m (mkFa u (CELL1d i0 i1 gcw)) (at1 w) ((1 - Q2Qc (Qmake 2 3) + Q2Qc (Qmake 2 3) * (K / (K + A))) ^ n * E)%Qc (in_box [(i0, i1)]))%Z.
Proof.
  intros i0 i1 dx beta b0 gcw u f0 alpha agcw a rgcw res sgcw st offset fgcw f mx ms r w c v0 z A B E n m.
  intros Hbi Hgcw P0 P1 P2 P3 P4 Hbeta HA HB Q0 Ha Hop Has Heq HE Hw Hrep K.
  destruct (ready_v1_1d i0 i1 dx beta b0 gcw u f0 alpha agcw a rgcw res sgcw st offset fgcw f mx ms r w c v0 A B Hbi Hgcw Hbeta HA HB Q0 Ha Hop Has) as (Sol & Fit & Dom & L0 & L1).
  assert (C := celljacobi1d_converges i0 i1 3%Z offset (i0 - sgcw)%Z (i1 + sgcw)%Z st (i0 - fgcw)%Z (i1 + fgcw)%Z f (i0 - gcw)%Z (i1 + gcw)%Z u z ms P0 P1 P2 P3 P4).
  rewrite !cell_bounds_1 in C.
  exact (C (at1 w) (K / (K + A)) E n m Fit Dom L0 L1 Sol Heq HE Hw Hrep).
Qed.

Lemma ready_v2_1d : (forall i0 i1 (dx : Z -> Qc) (beta : Qc) b0 gcw u f0 (alpha : Qc) rgcw res sgcw st offset fgcw f (mx ms : mem QcS) (r w v0 : Z -> Qc) (A B : Qc),
  i0 <= i1 + 1 -> 1 <= gcw ->
  (0 <= beta)%Qc -> (0 < A)%Qc -> (0 <= B)%Qc ->
  (forall i, i0 <= i <= i1 + 1 -> (0 <= v0 i)%Qc /\ (v0 i <= B)%Qc) ->
  (A <= alpha)%Qc ->
  applied_v2_1d (S := QcS) i0 i1 dx beta b0 gcw u f0 alpha rgcw res mx r w v0 ->
  assembled_v2_1d i0 i1 dx beta b0 alpha sgcw st offset fgcw f ms r v0 ->
  let K := ((1 + 1) * B * (beta / (dx 0%Z * dx 0%Z)))%Qc in
  solution ms (mkFa offset [(0, 0); (0, 2)]) (mkFa st ((0, 2) :: CELL1d i0 i1 sgcw)) 3 (mkFa f (CELL1d i0 i1 fgcw)) (at1 w) (in_box [(i0, i1)]) /\ fits ms (mkFa offset [(0, 0); (0, 2)]) 3 (mkFa u (CELL1d i0 i1 gcw)) [(i0, i1)] /\ dominant ms (mkFa st ((0, 2) :: CELL1d i0 i1 sgcw)) 3 (K / (K + A))%Qc (in_box [(i0, i1)]) /\ (0 <= K / (K + A))%Qc /\ (K / (K + A) <= 1)%Qc)%Z.
Proof.
  intros i0 i1 dx beta b0 gcw u f0 alpha rgcw res sgcw st offset fgcw f mx ms r w v0 A B.
  intros Hbi Hgcw Hbeta HA HB Q0 Ha Hop Has K.
  split; [exact (solution_v2_1d i0 i1 dx beta b0 gcw u f0 alpha rgcw res sgcw st offset fgcw f mx ms r w v0 Hbi Hop Has)|]. clear Hop.
  destruct Has as (Hg & Hap & m0 & R0 & Es & HT & _).
  split; [apply (fits_of_table ms _ _ (mkFa u (CELL1d i0 i1 gcw)) [(i0, i1)] gcw HT (Nat.lt_0_succ _) columns_1 eq_refl Hgcw eq_refl _ eq_refl)|]. clear HT.
  split; [apply (dominant_v2_1d i0 i1 dx beta b0 alpha sgcw st A B m0 ms Hbi Hg Hap Hbeta HA)|].
  { intros i v Ii Ev. rewrite (R0 i Ii) in Ev. injection Ev as <-. exact (Q0 i Ii). }
  { exact Ha. }
  { exact Es. }
  destruct (ratio_below_one K A (diffusion_sum_1 dx beta B Hbeta HB) HA) as [L0 L1]. split; [exact L0|apply Qclt_le_weak; exact L1].
Qed.

Lemma relax_gs_v2_1d : (forall i0 i1 (dx : Z -> Qc) (beta : Qc) b0 gcw u f0 (alpha : Qc) rgcw res sgcw st offset fgcw f (mx ms : mem QcS) (r w v0 : Z -> Qc) (A B E : Qc) (n : nat) (m : mem QcS),
  i0 <= i1 + 1 -> 1 <= gcw -> fst u <> fst st -> fst u <> fst f -> fgcw = gcw ->
  (0 <= beta)%Qc -> (0 < A)%Qc -> (0 <= B)%Qc ->
  (forall i, i0 <= i <= i1 + 1 -> (0 <= v0 i)%Qc /\ (v0 i <= B)%Qc) ->
  (A <= alpha)%Qc ->
  applied_v2_1d (S := QcS) i0 i1 dx beta b0 gcw u f0 alpha rgcw res mx r w v0 ->
  assembled_v2_1d i0 i1 dx beta b0 alpha sgcw st offset fgcw f ms r v0 ->
  equals ms (mkFa u (CELL1d i0 i1 gcw)) (at1 w) (around (mkFa u (CELL1d i0 i1 gcw)) [(i0, i1)]) ->
  (0 <= E)%Qc -> within ms (mkFa u (CELL1d i0 i1 gcw)) (at1 w) E (in_box [(i0, i1)]) ->
  repeated n (cellgs1d i0 i1 3 offset (i0 - sgcw) (i1 + sgcw) st (i0 - fgcw) (i1 + fgcw) f (i0 - gcw) (i1 + gcw) u) ms = Some m ->
  let K := ((1 + 1) * B * (beta / (dx 0%Z * dx 0%Z)))%Qc in
  within m (mkFa u (CELL1d i0 i1 gcw)) (at1 w) ((K / (K + A)) ^ n * E)%Qc (in_box [(i0, i1)]))%Z.
Proof.
  intros i0 i1 dx beta b0 gcw u f0 alpha rgcw res sgcw st offset fgcw f mx ms r w v0 A B E n m.
  intros Hbi Hgcw P0 P1 P2 Hbeta HA HB Q0 Ha Hop Has Heq HE Hw Hrep K.
  destruct (ready_v2_1d i0 i1 dx beta b0 gcw u f0 alpha rgcw res sgcw st offset fgcw f mx ms r w v0 A B Hbi Hgcw Hbeta HA HB Q0 Ha Hop Has) as (Sol & Fit & Dom & L0 & L1).
  assert (C := cellgs1d_converges i0 i1 3%Z offset (i0 - sgcw)%Z (i1 + sgcw)%Z st (i0 - fgcw)%Z (i1 + fgcw)%Z f (i0 - gcw)%Z (i1 + gcw)%Z u ms P0 P1 ltac:(rewrite P2; reflexivity)).
  rewrite !cell_bounds_1 in C.
  exact (C (at1 w) (K / (K + A)) E n m Fit Dom L0 L1 Sol Heq HE Hw Hrep).
Qed.

Lemma relax_rb_v2_1d : (forall i0 i1 (dx : Z -> Qc) (beta : Qc) b0 gcw u f0 (alpha : Qc) rgcw res sgcw st offset fgcw f (mx ms : mem QcS) (r w v0 : Z -> Qc) (c1 c2 : Z) (A B E : Qc) (n : nat) (m : mem QcS),
  i0 <= i1 + 1 -> 1 <= gcw -> 0 <= c1 -> 0 <= c2 -> Z.odd (c1 + c2) = true -> fst u <> fst st -> fst u <> fst f ->
  (0 <= beta)%Qc -> (0 < A)%Qc -> (0 <= B)%Qc ->
  (forall i, i0 <= i <= i1 + 1 -> (0 <= v0 i)%Qc /\ (v0 i <= B)%Qc) ->
  (A <= alpha)%Qc ->
  applied_v2_1d (S := QcS) i0 i1 dx beta b0 gcw u f0 alpha rgcw res mx r w v0 ->
  assembled_v2_1d i0 i1 dx beta b0 alpha sgcw st offset fgcw f ms r v0 ->
  equals ms (mkFa u (CELL1d i0 i1 gcw)) (at1 w) (around (mkFa u (CELL1d i0 i1 gcw)) [(i0, i1)]) ->
  (0 <= E)%Qc -> within ms (mkFa u (CELL1d i0 i1 gcw)) (at1 w) E (in_box [(i0, i1)]) ->
  repeated n (twice (cellrbgs1d i0 i1 c1 3 offset (i0 - sgcw) (i1 + sgcw) st (i0 - fgcw) (i1 + fgcw) f (i0 - gcw) (i1 + gcw) u)
     (cellrbgs1d i0 i1 c2 3 offset (i0 - sgcw) (i1 + sgcw) st (i0 - fgcw) (i1 + fgcw) f (i0 - gcw) (i1 + gcw) u)) ms = Some m ->
  let K := ((1 + 1) * B * (beta / (dx 0%Z * dx 0%Z)))%Qc in
  within m (mkFa u (CELL1d i0 i1 gcw)) (at1 w) ((K / (K + A)) ^ n * E)%Qc (in_box [(i0, i1)]))%Z.
Proof.
  intros i0 i1 dx beta b0 gcw u f0 alpha rgcw res sgcw st offset fgcw f mx ms r w v0 c1 c2 A B E n m.
  intros Hbi Hgcw P0 P1 P2 P3 P4 Hbeta HA HB Q0 Ha Hop Has Heq HE Hw Hrep K.
  destruct (ready_v2_1d i0 i1 dx beta b0 gcw u f0 alpha rgcw res sgcw st offset fgcw f mx ms r w v0 A B Hbi Hgcw Hbeta HA HB Q0 Ha Hop Has) as (Sol & Fit & Dom & L0 & L1).
  assert (C := cellrbgs1d_converges i0 i1 c1 c2 3%Z offset (i0 - sgcw)%Z (i1 + sgcw)%Z st (i0 - fgcw)%Z (i1 + fgcw)%Z f (i0 - gcw)%Z (i1 + gcw)%Z u ms P0 P1 P2 P3 P4).
  rewrite !cell_bounds_1 in C.
  exact (C (at1 w) (K / (K + A)) E n m Fit Dom L0 L1 Sol Heq HE Hw Hrep).
Qed.

Lemma relax_jac_v2_1d : (forall i0 i1 (dx : Z -> Qc) (beta : Qc) b0 gcw u f0 (alpha : Qc) rgcw res sgcw st offset fgcw f (mx ms : mem QcS) (r w v0 : Z -> Qc) z (A B E : Qc) (n : nat) (m : mem QcS),
  i0 <= i1 + 1 -> 1 <= gcw -> fst u <> fst st -> fst u <> fst f -> fst u <> fst z -> fst z <> fst st -> fst z <> fst f ->
  (0 <= beta)%Qc -> (0 < A)%Qc -> (0 <= B)%Qc ->
  (forall i, i0 <= i <= i1 + 1 -> (0 <= v0 i)%Qc /\ (v0 i <= B)%Qc) ->
  (A <= alpha)%Qc ->
  applied_v2_1d (S := QcS) i0 i1 dx beta b0 gcw u f0 alpha rgcw res mx r w v0 ->
  assembled_v2_1d i0 i1 dx beta b0 alpha sgcw st offset fgcw f ms r v0 ->
  equals ms (mkFa u (CELL1d i0 i1 gcw)) (at1 w) (around (mkFa u (CELL1d i0 i1 gcw)) [(i0, i1)]) ->
  (0 <= E)%Qc -> within ms (mkFa u (CELL1d i0 i1 gcw)) (at1 w) E (in_box [(i0, i1)]) ->
  repeated n (celljacobi1d i0 i1 3 offset (i0 - sgcw) (i1 + sgcw) st (i0 - fgcw) (i1 + fgcw) f (i0 - gcw) (i1 + gcw) u z) ms = Some m ->
  let K := ((1 + 1) * B * (beta / (dx 0%Z * dx 0%Z)))%Qc in
  within m (mkFa u (CELL1d i0 i1 gcw)) (at1 w) ((1 - Q2Qc (Qmake 2 3) + Q2Qc (Qmake 2 3) * (K / (K + A))) ^ n * E)%Qc (in_box [(i0, i1)]))%Z.
Proof.
  intros i0 i1 dx beta b0 gcw u f0 alpha rgcw res sgcw st offset fgcw f mx ms r w v0 z A B E n m.
  intros Hbi Hgcw P0 P1 P2 P3 P4 Hbeta HA HB Q0 Ha Hop Has Heq HE Hw Hrep K.
  destruct (ready_v2_1d i0 i1 dx beta b0 gcw u f0 alpha rgcw res sgcw st offset fgcw f mx ms r w v0 A B Hbi Hgcw Hbeta HA HB Q0 Ha Hop Has) as (Sol & Fit & Dom & L0 & L1).
  assert (C := celljacobi1d_converges i0 i1 3%Z offset (i0 - sgcw)%Z (i1 + sgcw)%Z st (i0 - fgcw)%Z (i1 + fgcw)%Z f (i0 - gcw)%Z (i1 + gcw)%Z u z ms P0 P1 P2 P3 P4).
  rewrite !cell_bounds_1 in C.
  exact (C (at1 w) (K / (K + A)) E n m Fit Dom L0 L1 Sol Heq HE Hw Hrep).
Qed.

Lemma columns_2 : Forall (fun col => length col = 2%nat /\ Forall (fun o => (- (1) <= o <= 1)%Z) col) ((0 :: 0 :: nil) :: ((-1) :: 0 :: nil) :: (1 :: 0 :: nil) :: (0 :: (-1) :: nil) :: (0 :: 1 :: nil) :: nil)%Z.
Proof. repeat constructor; cbn; lia. Qed.
Lemma diffusion_sum_2 (dx : Z -> Qc) (beta B : Qc) : 0 <= beta -> 0 <= B -> 0 <= (1 + 1) * B * (beta / (dx 0%Z * dx 0%Z) + beta / (dx 1%Z * dx 1%Z)).
Proof. intros Hb HB. apply Qcmul_nonneg; [apply Qcmul_nonneg; [vm_compute; discriminate|exact HB]|]. apply sum_nonneg; apply diffusion_nonneg; exact Hb. Qed.

Lemma ready_v1_2d : (forall i0 j0 i1 j1 (dx : Z -> Qc) (beta : Qc) b0 b1 gcw u f0 f1 (alpha : Qc) agcw a rgcw res sgcw st offset fgcw f (mx ms : mem QcS) (r w c v0 v1 : Z -> Z -> Qc) (A B : Qc),
  i0 <= i1 + 1 -> j0 <= j1 + 1 -> 1 <= gcw ->
  (0 <= beta)%Qc -> (0 < A)%Qc -> (0 <= B)%Qc ->
  (forall i j, i0 <= i <= i1 + 1 -> j0 <= j <= j1 -> (0 <= v0 i j)%Qc /\ (v0 i j <= B)%Qc) ->
  (forall i j, i0 <= i <= i1 -> j0 <= j <= j1 + 1 -> (0 <= v1 i j)%Qc /\ (v1 i j <= B)%Qc) ->
  (forall i j, i0 <= i <= i1 -> j0 <= j <= j1 -> (A <= alpha * c i j)%Qc) ->
  applied_v1_2d (S := QcS) i0 j0 i1 j1 dx beta b0 b1 gcw u f0 f1 alpha agcw a rgcw res mx r w c v0 v1 ->
  assembled_v1_2d i0 j0 i1 j1 dx beta b0 b1 alpha agcw a sgcw st offset fgcw f ms r c v0 v1 ->
  let K := ((1 + 1) * B * (beta / (dx 0%Z * dx 0%Z) + beta / (dx 1%Z * dx 1%Z)))%Qc in
  solution ms (mkFa offset [(0, 1); (0, 4)]) (mkFa st ((0, 4) :: CELL2d i0 j0 i1 j1 sgcw)) 5 (mkFa f (CELL2d i0 j0 i1 j1 fgcw)) (at2 w) (in_box [(i0, i1); (j0, j1)]) /\ fits ms (mkFa offset [(0, 1); (0, 4)]) 5 (mkFa u (CELL2d i0 j0 i1 j1 gcw)) [(i0, i1); (j0, j1)] /\ dominant ms (mkFa st ((0, 4) :: CELL2d i0 j0 i1 j1 sgcw)) 5 (K / (K + A))%Qc (in_box [(i0, i1); (j0, j1)]) /\ (0 <= K / (K + A))%Qc /\ (K / (K + A) <= 1)%Qc)%Z.
Proof.
  intros i0 j0 i1 j1 dx beta b0 b1 gcw u f0 f1 alpha agcw a rgcw res sgcw st offset fgcw f mx ms r w c v0 v1 A B.
  intros Hbi Hbj Hgcw Hbeta HA HB Q0 Q1 Ha Hop Has K.
  split; [exact (solution_v1_2d i0 j0 i1 j1 dx beta b0 b1 gcw u f0 f1 alpha agcw a rgcw res sgcw st offset fgcw f mx ms r w c v0 v1 Hbi Hbj Hop Has)|]. clear Hop.
  destruct Has as (Hg & Hap & m0 & R0 & R1 & Ra & Es & HT & _).
  split; [apply (fits_of_table ms _ _ (mkFa u (CELL2d i0 j0 i1 j1 gcw)) [(i0, i1); (j0, j1)] gcw HT (Nat.lt_0_succ _) columns_2 eq_refl Hgcw eq_refl _ eq_refl)|]. clear HT.
  split; [apply (dominant_v1_2d i0 j0 i1 j1 dx beta b0 b1 alpha agcw a sgcw st A B m0 ms Hbi Hbj Hg Hap Hbeta HA)|].
  { intros i j v Ii Ij Ev. rewrite (R0 i j Ii Ij) in Ev. injection Ev as <-. exact (Q0 i j Ii Ij). }
  { intros i j v Ii Ij Ev. rewrite (R1 i j Ii Ij) in Ev. injection Ev as <-. exact (Q1 i j Ii Ij). }
  { intros i j v Ii Ij Ev. rewrite (Ra i j Ii Ij) in Ev. injection Ev as <-. exact (Ha i j Ii Ij). }
  { exact Es. }
  destruct (ratio_below_one K A (diffusion_sum_2 dx beta B Hbeta HB) HA) as [L0 L1]. split; [exact L0|apply Qclt_le_weak; exact L1].
Qed.

Lemma relax_gs_v1_2d : (forall i0 j0 i1 j1 (dx : Z -> Qc) (beta : Qc) b0 b1 gcw u f0 f1 (alpha : Qc) agcw a rgcw res sgcw st offset fgcw f (mx ms : mem QcS) (r w c v0 v1 : Z -> Z -> Qc) (A B E : Qc) (n : nat) (m : mem QcS),
  i0 <= i1 + 1 -> j0 <= j1 + 1 -> 1 <= gcw -> fst u <> fst st -> fst u <> fst f ->
  (0 <= beta)%Qc -> (0 < A)%Qc -> (0 <= B)%Qc ->
  (forall i j, i0 <= i <= i1 + 1 -> j0 <= j <= j1 -> (0 <= v0 i j)%Qc /\ (v0 i j <= B)%Qc) ->
  (forall i j, i0 <= i <= i1 -> j0 <= j <= j1 + 1 -> (0 <= v1 i j)%Qc /\ (v1 i j <= B)%Qc) ->
  (forall i j, i0 <= i <= i1 -> j0 <= j <= j1 -> (A <= alpha * c i j)%Qc) ->
  applied_v1_2d (S := QcS) i0 j0 i1 j1 dx beta b0 b1 gcw u f0 f1 alpha agcw a rgcw res mx r w c v0 v1 ->
  assembled_v1_2d i0 j0 i1 j1 dx beta b0 b1 alpha agcw a sgcw st offset fgcw f ms r c v0 v1 ->
  equals ms (mkFa u (CELL2d i0 j0 i1 j1 gcw)) (at2 w) (around (mkFa u (CELL2d i0 j0 i1 j1 gcw)) [(i0, i1); (j0, j1)]) ->
  (0 <= E)%Qc -> within ms (mkFa u (CELL2d i0 j0 i1 j1 gcw)) (at2 w) E (in_box [(i0, i1); (j0, j1)]) ->
  repeated n (cellgs2d i0 i1 j0 j1 5 offset (i0 - sgcw) (i1 + sgcw) (j0 - sgcw) (j1 + sgcw) st (i0 - fgcw) (i1 + fgcw) (j0 - fgcw) (j1 + fgcw) f (i0 - gcw) (i1 + gcw) (j0 - gcw) (j1 + gcw) u) ms = Some m ->
  let K := ((1 + 1) * B * (beta / (dx 0%Z * dx 0%Z) + beta / (dx 1%Z * dx 1%Z)))%Qc in
  within m (mkFa u (CELL2d i0 j0 i1 j1 gcw)) (at2 w) ((K / (K + A)) ^ n * E)%Qc (in_box [(i0, i1); (j0, j1)]))%Z.
Proof.
  intros i0 j0 i1 j1 dx beta b0 b1 gcw u f0 f1 alpha agcw a rgcw res sgcw st offset fgcw f mx ms r w c v0 v1 A B E n m.
  intros Hbi Hbj Hgcw P0 P1 Hbeta HA HB Q0 Q1 Ha Hop Has Heq HE Hw Hrep K.
  destruct (ready_v1_2d i0 j0 i1 j1 dx beta b0 b1 gcw u f0 f1 alpha agcw a rgcw res sgcw st offset fgcw f mx ms r w c v0 v1 A B Hbi Hbj Hgcw Hbeta HA HB Q0 Q1 Ha Hop Has) as (Sol & Fit & Dom & L0 & L1).
  assert (C := cellgs2d_converges i0 i1 j0 j1 5%Z offset (i0 - sgcw)%Z (i1 + sgcw)%Z (j0 - sgcw)%Z (j1 + sgcw)%Z st (i0 - fgcw)%Z (i1 + fgcw)%Z (j0 - fgcw)%Z (j1 + fgcw)%Z f (i0 - gcw)%Z (i1 + gcw)%Z (j0 - gcw)%Z (j1 + gcw)%Z u ms P0 P1).
  rewrite !cell_bounds_2 in C.
  exact (C (at2 w) (K / (K + A)) E n m Fit Dom L0 L1 Sol Heq HE Hw Hrep).
Qed.

Lemma relax_rb_v1_2d : (forall i0 j0 i1 j1 (dx : Z -> Qc) (beta : Qc) b0 b1 gcw u f0 f1 (alpha : Qc) agcw a rgcw res sgcw st offset fgcw f (mx ms : mem QcS) (r w c v0 v1 : Z -> Z -> Qc) (c1 c2 : Z) (A B E : Qc) (n : nat) (m : mem QcS),
  i0 <= i1 + 1 -> j0 <= j1 + 1 -> 1 <= gcw -> 0 <= j0 + c1 -> 0 <= j0 + c2 -> Z.odd (c1 + c2) = true -> fst u <> fst st -> fst u <> fst f ->
  (0 <= beta)%Qc -> (0 < A)%Qc -> (0 <= B)%Qc ->
  (forall i j, i0 <= i <= i1 + 1 -> j0 <= j <= j1 -> (0 <= v0 i j)%Qc /\ (v0 i j <= B)%Qc) ->
  (forall i j, i0 <= i <= i1 -> j0 <= j <= j1 + 1 -> (0 <= v1 i j)%Qc /\ (v1 i j <= B)%Qc) ->
  (forall i j, i0 <= i <= i1 -> j0 <= j <= j1 -> (A <= alpha * c i j)%Qc) ->
  applied_v1_2d (S := QcS) i0 j0 i1 j1 dx beta b0 b1 gcw u f0 f1 alpha agcw a rgcw res mx r w c v0 v1 ->
  assembled_v1_2d i0 j0 i1 j1 dx beta b0 b1 alpha agcw a sgcw st offset fgcw f ms r c v0 v1 ->
  equals ms (mkFa u (CELL2d i0 j0 i1 j1 gcw)) (at2 w) (around (mkFa u (CELL2d i0 j0 i1 j1 gcw)) [(i0, i1); (j0, j1)]) ->
  (0 <= E)%Qc -> within ms (mkFa u (CELL2d i0 j0 i1 j1 gcw)) (at2 w) E (in_box [(i0, i1); (j0, j1)]) ->
  repeated n (twice (cellrbgs2d i0 i1 j0 j1 c1 5 offset (i0 - sgcw) (i1 + sgcw) (j0 - sgcw) (j1 + sgcw) st (i0 - fgcw) (i1 + fgcw) (j0 - fgcw) (j1 + fgcw) f (i0 - gcw) (i1 + gcw) (j0 - gcw) (j1 + gcw) u)
     (cellrbgs2d i0 i1 j0 j1 c2 5 offset (i0 - sgcw) (i1 + sgcw) (j0 - sgcw) (j1 + sgcw) st (i0 - fgcw) (i1 + fgcw) (j0 - fgcw) (j1 + fgcw) f (i0 - gcw) (i1 + gcw) (j0 - gcw) (j1 + gcw) u)) ms = Some m ->
  let K := ((1 + 1) * B * (beta / (dx 0%Z * dx 0%Z) + beta / (dx 1%Z * dx 1%Z)))%Qc in
  within m (mkFa u (CELL2d i0 j0 i1 j1 gcw)) (at2 w) ((K / (K + A)) ^ n * E)%Qc (in_box [(i0, i1); (j0, j1)]))%Z.
Proof.
  intros i0 j0 i1 j1 dx beta b0 b1 gcw u f0 f1 alpha agcw a rgcw res sgcw st offset fgcw f mx ms r w c v0 v1 c1 c2 A B E n m.
  intros Hbi Hbj Hgcw P0 P1 P2 P3 P4 Hbeta HA HB Q0 Q1 Ha Hop Has Heq HE Hw Hrep K.
  destruct (ready_v1_2d i0 j0 i1 j1 dx beta b0 b1 gcw u f0 f1 alpha agcw a rgcw res sgcw st offset fgcw f mx ms r w c v0 v1 A B Hbi Hbj Hgcw Hbeta HA HB Q0 Q1 Ha Hop Has) as (Sol & Fit & Dom & L0 & L1).
  assert (C := cellrbgs2d_converges i0 i1 j0 j1 c1 c2 5%Z offset (i0 - sgcw)%Z (i1 + sgcw)%Z (j0 - sgcw)%Z (j1 + sgcw)%Z st (i0 - fgcw)%Z (i1 + fgcw)%Z (j0 - fgcw)%Z (j1 + fgcw)%Z f (i0 - gcw)%Z (i1 + gcw)%Z (j0 - gcw)%Z (j1 + gcw)%Z u ms P0 P1 P2 P3 P4).
  rewrite !cell_bounds_2 in C.
  exact (C (at2 w) (K / (K + A)) E n m Fit Dom L0 L1 Sol Heq HE Hw Hrep).
Qed.

Lemma relax_fix_v1_2d : (forall i0 j0 i1 j1 (dx : Z -> Qc) (beta : Qc) b0 b1 gcw u f0 f1 (alpha : Qc) agcw a rgcw res sgcw st offset fgcw f (mx ms : mem QcS) (r w c v0 v1 : Z -> Z -> Qc) (c1 c2 : Z) (A B E : Qc) (n : nat) (m : mem QcS),
  i0 <= i1 + 1 -> j0 <= j1 + 1 -> 1 <= gcw -> 0 <= j0 + c1 -> 0 <= j0 + c2 -> Z.odd (c1 + c2) = true -> fst u <> fst st -> fst u <> fst f ->
  (0 <= beta)%Qc -> (0 < A)%Qc -> (0 <= B)%Qc ->
  (forall i j, i0 <= i <= i1 + 1 -> j0 <= j <= j1 -> (0 <= v0 i j)%Qc /\ (v0 i j <= B)%Qc) ->
  (forall i j, i0 <= i <= i1 -> j0 <= j <= j1 + 1 -> (0 <= v1 i j)%Qc /\ (v1 i j <= B)%Qc) ->
  (forall i j, i0 <= i <= i1 -> j0 <= j <= j1 -> (A <= alpha * c i j)%Qc) ->
  applied_v1_2d (S := QcS) i0 j0 i1 j1 dx beta b0 b1 gcw u f0 f1 alpha agcw a rgcw res mx r w c v0 v1 ->
  assembled_v1_2d i0 j0 i1 j1 dx beta b0 b1 alpha agcw a sgcw st offset fgcw f ms r c v0 v1 ->
  equals ms (mkFa u (CELL2d i0 j0 i1 j1 gcw)) (at2 w) (around (mkFa u (CELL2d i0 j0 i1 j1 gcw)) [(i0, i1); (j0, j1)]) ->
  (0 <= E)%Qc -> within ms (mkFa u (CELL2d i0 j0 i1 j1 gcw)) (at2 w) E (in_box [(i0, i1); (j0, j1)]) ->
  repeated n (twice (cells5rbgs2d i0 i1 j0 j1 c1 (i0 - sgcw) (i1 + sgcw) (j0 - sgcw) (j1 + sgcw) st (i0 - fgcw) (i1 + fgcw) (j0 - fgcw) (j1 + fgcw) f (i0 - gcw) (i1 + gcw) (j0 - gcw) (j1 + gcw) u)
     (cells5rbgs2d i0 i1 j0 j1 c2 (i0 - sgcw) (i1 + sgcw) (j0 - sgcw) (j1 + sgcw) st (i0 - fgcw) (i1 + fgcw) (j0 - fgcw) (j1 + fgcw) f (i0 - gcw) (i1 + gcw) (j0 - gcw) (j1 + gcw) u)) ms = Some m ->
  let K := ((1 + 1) * B * (beta / (dx 0%Z * dx 0%Z) + beta / (dx 1%Z * dx 1%Z)))%Qc in
  within m (mkFa u (CELL2d i0 j0 i1 j1 gcw)) (at2 w) ((K / (K + A)) ^ n * E)%Qc (in_box [(i0, i1); (j0, j1)]))%Z.
Proof.
  intros i0 j0 i1 j1 dx beta b0 b1 gcw u f0 f1 alpha agcw a rgcw res sgcw st offset fgcw f mx ms r w c v0 v1 c1 c2 A B E n m.
  intros Hbi Hbj Hgcw P0 P1 P2 P3 P4 Hbeta HA HB Q0 Q1 Ha Hop Has Heq HE Hw Hrep K.
  destruct (ready_v1_2d i0 j0 i1 j1 dx beta b0 b1 gcw u f0 f1 alpha agcw a rgcw res sgcw st offset fgcw f mx ms r w c v0 v1 A B Hbi Hbj Hgcw Hbeta HA HB Q0 Q1 Ha Hop Has) as (Sol & Fit & Dom & L0 & L1).
  assert (C := cells5rbgs2d_converges i0 i1 j0 j1 c1 c2 offset (i0 - sgcw)%Z (i1 + sgcw)%Z (j0 - sgcw)%Z (j1 + sgcw)%Z st (i0 - fgcw)%Z (i1 + fgcw)%Z (j0 - fgcw)%Z (j1 + fgcw)%Z f (i0 - gcw)%Z (i1 + gcw)%Z (j0 - gcw)%Z (j1 + gcw)%Z u ms P0 P1 P2 P3 P4 ltac:(destruct Has as (_ & _ & m0 & Has); decompose [and] Has; assumption)).
  rewrite !cell_bounds_2 in C.
  exact (C (at2 w) (K / (K + A)) E n m Fit Dom L0 L1 Sol Heq HE Hw Hrep).
Qed.

Lemma relax_jac_v1_2d : (forall i0 j0 i1 j1 (dx : Z -> Qc) (beta : Qc) b0 b1 gcw u f0 f1 (alpha : Qc) agcw a rgcw res sgcw st offset fgcw f (mx ms : mem QcS) (r w c v0 v1 : Z -> Z -> Qc) z (om : Qc) (A B E : Qc) (n : nat) (m : mem QcS),
  i0 <= i1 + 1 -> j0 <= j1 + 1 -> 1 <= gcw -> fst u <> fst st -> fst u <> fst f -> fst u <> fst z -> fst z <> fst st -> fst z <> fst f -> (0 <= om)%Qc -> (om <= 1)%Qc ->
  (0 <= beta)%Qc -> (0 < A)%Qc -> (0 <= B)%Qc ->
  (forall i j, i0 <= i <= i1 + 1 -> j0 <= j <= j1 -> (0 <= v0 i j)%Qc /\ (v0 i j <= B)%Qc) ->
  (forall i j, i0 <= i <= i1 -> j0 <= j <= j1 + 1 -> (0 <= v1 i j)%Qc /\ (v1 i j <= B)%Qc) ->
  (forall i j, i0 <= i <= i1 -> j0 <= j <= j1 -> (A <= alpha * c i j)%Qc) ->
  applied_v1_2d (S := QcS) i0 j0 i1 j1 dx beta b0 b1 gcw u f0 f1 alpha agcw a rgcw res mx r w c v0 v1 ->
  assembled_v1_2d i0 j0 i1 j1 dx beta b0 b1 alpha agcw a sgcw st offset fgcw f ms r c v0 v1 ->
  equals ms (mkFa u (CELL2d i0 j0 i1 j1 gcw)) (at2 w) (around (mkFa u (CELL2d i0 j0 i1 j1 gcw)) [(i0, i1); (j0, j1)]) ->
  (0 <= E)%Qc -> within ms (mkFa u (CELL2d i0 j0 i1 j1 gcw)) (at2 w) E (in_box [(i0, i1); (j0, j1)]) ->
  repeated n (celljacobi2d i0 i1 j0 j1 5 offset (i0 - sgcw) (i1 + sgcw) (j0 - sgcw) (j1 + sgcw) st (i0 - fgcw) (i1 + fgcw) (j0 - fgcw) (j1 + fgcw) f (i0 - gcw) (i1 + gcw) (j0 - gcw) (j1 + gcw) u z (om : QcS)) ms = Some m ->
  let K := ((1 + 1) * B * (beta / (dx 0%Z * dx 0%Z) + beta / (dx 1%Z * dx 1%Z)))%Qc in
  within m (mkFa u (CELL2d i0 j0 i1 j1 gcw)) (at2 w) ((1 - om + om * (K / (K + A))) ^ n * E)%Qc (in_box [(i0, i1); (j0, j1)]))%Z.
Proof.
  intros i0 j0 i1 j1 dx beta b0 b1 gcw u f0 f1 alpha agcw a rgcw res sgcw st offset fgcw f mx ms r w c v0 v1 z om A B E n m.
  intros Hbi Hbj Hgcw P0 P1 P2 P3 P4 P5 P6 Hbeta HA HB Q0 Q1 Ha Hop Has Heq HE Hw Hrep K.
  destruct (ready_v1_2d i0 j0 i1 j1 dx beta b0 b1 gcw u f0 f1 alpha agcw a rgcw res sgcw st offset fgcw f mx ms r w c v0 v1 A B Hbi Hbj Hgcw Hbeta HA HB Q0 Q1 Ha Hop Has) as (Sol & Fit & Dom & L0 & L1).
  assert (C := celljacobi2d_converges i0 i1 j0 j1 5%Z offset (i0 - sgcw)%Z (i1 + sgcw)%Z (j0 - sgcw)%Z (j1 + sgcw)%Z st (i0 - fgcw)%Z (i1 + fgcw)%Z (j0 - fgcw)%Z (j1 + fgcw)%Z f (i0 - gcw)%Z (i1 + gcw)%Z (j0 - gcw)%Z (j1 + gcw)%Z u z om ms P0 P1 P2 P3 P4 P5 P6).
  rewrite !cell_bounds_2 in C.
  exact (C (at2 w) (K / (K + A)) E n m Fit Dom L0 L1 Sol Heq HE Hw Hrep).
Qed.

Lemma ready_v2_2d : (forall i0 j0 i1 j1 (dx : Z -> Qc) (beta : Qc) b0 b1 gcw u f0 f1 (alpha : Qc) rgcw res sgcw st offset fgcw f (mx ms : mem QcS) (r w v0 v1 : Z -> Z -> Qc) (A B : Qc),
  i0 <= i1 + 1 -> j0 <= j1 + 1 -> 1 <= gcw ->
  (0 <= beta)%Qc -> (0 < A)%Qc -> (0 <= B)%Qc ->
  (forall i j, i0 <= i <= i1 + 1 -> j0 <= j <= j1 -> (0 <= v0 i j)%Qc /\ (v0 i j <= B)%Qc) ->
  (forall i j, i0 <= i <= i1 -> j0 <= j <= j1 + 1 -> (0 <= v1 i j)%Qc /\ (v1 i j <= B)%Qc) ->
  (A <= alpha)%Qc ->
  applied_v2_2d (S := QcS) i0 j0 i1 j1 dx beta b0 b1 gcw u f0 f1 alpha rgcw res mx r w v0 v1 ->
  assembled_v2_2d i0 j0 i1 j1 dx beta b0 b1 alpha sgcw st offset fgcw f ms r v0 v1 ->
  let K := ((1 + 1) * B * (beta / (dx 0%Z * dx 0%Z) + beta / (dx 1%Z * dx 1%Z)))%Qc in
  solution ms (mkFa offset [(0, 1); (0, 4)]) (mkFa st ((0, 4) :: CELL2d i0 j0 i1 j1 sgcw)) 5 (mkFa f (CELL2d i0 j0 i1 j1 fgcw)) (at2 w) (in_box [(i0, i1); (j0, j1)]) /\ fits ms (mkFa offset [(0, 1); (0, 4)]) 5 (mkFa u (CELL2d i0 j0 i1 j1 gcw)) [(i0, i1); (j0, j1)] /\ dominant ms (mkFa st ((0, 4) :: CELL2d i0 j0 i1 j1 sgcw)) 5 (K / (K + A))%Qc (in_box [(i0, i1); (j0, j1)]) /\ (0 <= K / (K + A))%Qc /\ (K / (K + A) <= 1)%Qc)%Z.
Proof.
  intros i0 j0 i1 j1 dx beta b0 b1 gcw u f0 f1 alpha rgcw res sgcw st offset fgcw f mx ms r w v0 v1 A B.
  intros Hbi Hbj Hgcw Hbeta HA HB Q0 Q1 Ha Hop Has K.
  split; [exact (solution_v2_2d i0 j0 i1 j1 dx beta b0 b1 gcw u f0 f1 alpha rgcw res sgcw st offset fgcw f mx ms r w v0 v1 Hbi Hbj Hop Has)|]. clear Hop.
  destruct Has as (Hg & Hap & m0 & R0 & R1 & Es & HT & _).
  split; [apply (fits_of_table ms _ _ (mkFa u (CELL2d i0 j0 i1 j1 gcw)) [(i0, i1); (j0, j1)] gcw HT (Nat.lt_0_succ _) columns_2 eq_refl Hgcw eq_refl _ eq_refl)|]. clear HT.
  split; [apply (dominant_v2_2d i0 j0 i1 j1 dx beta b0 b1 alpha sgcw st A B m0 ms Hbi Hbj Hg Hap Hbeta HA)|].
  { intros i j v Ii Ij Ev. rewrite (R0 i j Ii Ij) in Ev. injection Ev as <-. exact (Q0 i j Ii Ij). }
  { intros i j v Ii Ij Ev. rewrite (R1 i j Ii Ij) in Ev. injection Ev as <-. exact (Q1 i j Ii Ij). }
  { exact Ha. }
  { exact Es. }
  destruct (ratio_below_one K A (diffusion_sum_2 dx beta B Hbeta HB) HA) as [L0 L1]. split; [exact L0|apply Qclt_le_weak; exact L1].
Qed.

Lemma relax_gs_v2_2d : (forall i0 j0 i1 j1 (dx : Z -> Qc) (beta : Qc) b0 b1 gcw u f0 f1 (alpha : Qc) rgcw res sgcw st offset fgcw f (mx ms : mem QcS) (r w v0 v1 : Z -> Z -> Qc) (A B E : Qc) (n : nat) (m : mem QcS),
  i0 <= i1 + 1 -> j0 <= j1 + 1 -> 1 <= gcw -> fst u <> fst st -> fst u <> fst f ->
  (0 <= beta)%Qc -> (0 < A)%Qc -> (0 <= B)%Qc ->
  (forall i j, i0 <= i <= i1 + 1 -> j0 <= j <= j1 -> (0 <= v0 i j)%Qc /\ (v0 i j <= B)%Qc) ->
  (forall i j, i0 <= i <= i1 -> j0 <= j <= j1 + 1 -> (0 <= v1 i j)%Qc /\ (v1 i j <= B)%Qc) ->
  (A <= alpha)%Qc ->
  applied_v2_2d (S := QcS) i0 j0 i1 j1 dx beta b0 b1 gcw u f0 f1 alpha rgcw res mx r w v0 v1 ->
  assembled_v2_2d i0 j0 i1 j1 dx beta b0 b1 alpha sgcw st offset fgcw f ms r v0 v1 ->
  equals ms (mkFa u (CELL2d i0 j0 i1 j1 gcw)) (at2 w) (around (mkFa u (CELL2d i0 j0 i1 j1 gcw)) [(i0, i1); (j0, j1)]) ->
  (0 <= E)%Qc -> within ms (mkFa u (CELL2d i0 j0 i1 j1 gcw)) (at2 w) E (in_box [(i0, i1); (j0, j1)]) ->
  repeated n (cellgs2d i0 i1 j0 j1 5 offset (i0 - sgcw) (i1 + sgcw) (j0 - sgcw) (j1 + sgcw) st (i0 - fgcw) (i1 + fgcw) (j0 - fgcw) (j1 + fgcw) f (i0 - gcw) (i1 + gcw) (j0 - gcw) (j1 + gcw) u) ms = Some m ->
  let K := ((1 + 1) * B * (beta / (dx 0%Z * dx 0%Z) + beta / (dx 1%Z * dx 1%Z)))%Qc in
  within m (mkFa u (CELL2d i0 j0 i1 j1 gcw)) (at2 w) ((K / (K + A)) ^ n * E)%Qc (in_box [(i0, i1); (j0, j1)]))%Z.
Proof.
  intros i0 j0 i1 j1 dx beta b0 b1 gcw u f0 f1 alpha rgcw res sgcw st offset fgcw f mx ms r w v0 v1 A B E n m.
  intros Hbi Hbj Hgcw P0 P1 Hbeta HA HB Q0 Q1 Ha Hop Has Heq HE Hw Hrep K.
  destruct (ready_v2_2d i0 j0 i1 j1 dx beta b0 b1 gcw u f0 f1 alpha rgcw res sgcw st offset fgcw f mx ms r w v0 v1 A B Hbi Hbj Hgcw Hbeta HA HB Q0 Q1 Ha Hop Has) as (Sol & Fit & Dom & L0 & L1).
  assert (C := cellgs2d_converges i0 i1 j0 j1 5%Z offset (i0 - sgcw)%Z (i1 + sgcw)%Z (j0 - sgcw)%Z (j1 + sgcw)%Z st (i0 - fgcw)%Z (i1 + fgcw)%Z (j0 - fgcw)%Z (j1 + fgcw)%Z f (i0 - gcw)%Z (i1 + gcw)%Z (j0 - gcw)%Z (j1 + gcw)%Z u ms P0 P1).
  rewrite !cell_bounds_2 in C.
  exact (C (at2 w) (K / (K + A)) E n m Fit Dom L0 L1 Sol Heq HE Hw Hrep).
Qed.

Lemma relax_rb_v2_2d : (forall i0 j0 i1 j1 (dx : Z -> Qc) (beta : Qc) b0 b1 gcw u f0 f1 (alpha : Qc) rgcw res sgcw st offset fgcw f (mx ms : mem QcS) (r w v0 v1 : Z -> Z -> Qc) (c1 c2 : Z) (A B E : Qc) (n : nat) (m : mem QcS),
  i0 <= i1 + 1 -> j0 <= j1 + 1 -> 1 <= gcw -> 0 <= j0 + c1 -> 0 <= j0 + c2 -> Z.odd (c1 + c2) = true -> fst u <> fst st -> fst u <> fst f ->
  (0 <= beta)%Qc -> (0 < A)%Qc -> (0 <= B)%Qc ->
  (forall i j, i0 <= i <= i1 + 1 -> j0 <= j <= j1 -> (0 <= v0 i j)%Qc /\ (v0 i j <= B)%Qc) ->
  (forall i j, i0 <= i <= i1 -> j0 <= j <= j1 + 1 -> (0 <= v1 i j)%Qc /\ (v1 i j <= B)%Qc) ->
  (A <= alpha)%Qc ->
  applied_v2_2d (S := QcS) i0 j0 i1 j1 dx beta b0 b1 gcw u f0 f1 alpha rgcw res mx r w v0 v1 ->
  assembled_v2_2d i0 j0 i1 j1 dx beta b0 b1 alpha sgcw st offset fgcw f ms r v0 v1 ->
  equals ms (mkFa u (CELL2d i0 j0 i1 j1 gcw)) (at2 w) (around (mkFa u (CELL2d i0 j0 i1 j1 gcw)) [(i0, i1); (j0, j1)]) ->
  (0 <= E)%Qc -> within ms (mkFa u (CELL2d i0 j0 i1 j1 gcw)) (at2 w) E (in_box [(i0, i1); (j0, j1)]) ->
  repeated n (twice (cellrbgs2d i0 i1 j0 j1 c1 5 offset (i0 - sgcw) (i1 + sgcw) (j0 - sgcw) (j1 + sgcw) st (i0 - fgcw) (i1 + fgcw) (j0 - fgcw) (j1 + fgcw) f (i0 - gcw) (i1 + gcw) (j0 - gcw) (j1 + gcw) u)
     (cellrbgs2d i0 i1 j0 j1 c2 5 offset (i0 - sgcw) (i1 + sgcw) (j0 - sgcw) (j1 + sgcw) st (i0 - fgcw) (i1 + fgcw) (j0 - fgcw) (j1 + fgcw) f (i0 - gcw) (i1 + gcw) (j0 - gcw) (j1 + gcw) u)) ms = Some m ->
  let K := ((1 + 1) * B * (beta / (dx 0%Z * dx 0%Z) + beta / (dx 1%Z * dx 1%Z)))%Qc in
  within m (mkFa u (CELL2d i0 j0 i1 j1 gcw)) (at2 w) ((K / (K + A)) ^ n * E)%Qc (in_box [(i0, i1); (j0, j1)]))%Z.
Proof.
  intros i0 j0 i1 j1 dx beta b0 b1 gcw u f0 f1 alpha rgcw res sgcw st offset fgcw f mx ms r w v0 v1 c1 c2 A B E n m.
  intros Hbi Hbj Hgcw P0 P1 P2 P3 P4 Hbeta HA HB Q0 Q1 Ha Hop Has Heq HE Hw Hrep K.
  destruct (ready_v2_2d i0 j0 i1 j1 dx beta b0 b1 gcw u f0 f1 alpha rgcw res sgcw st offset fgcw f mx ms r w v0 v1 A B Hbi Hbj Hgcw Hbeta HA HB Q0 Q1 Ha Hop Has) as (Sol & Fit & Dom & L0 & L1).
  assert (C := cellrbgs2d_converges i0 i1 j0 j1 c1 c2 5%Z offset (i0 - sgcw)%Z (i1 + sgcw)%Z (j0 - sgcw)%Z (j1 + sgcw)%Z st (i0 - fgcw)%Z (i1 + fgcw)%Z (j0 - fgcw)%Z (j1 + fgcw)%Z f (i0 - gcw)%Z (i1 + gcw)%Z (j0 - gcw)%Z (j1 + gcw)%Z u ms P0 P1 P2 P3 P4).
  rewrite !cell_bounds_2 in C.
  exact (C (at2 w) (K / (K + A)) E n m Fit Dom L0 L1 Sol Heq HE Hw Hrep).
Qed.

Lemma relax_fix_v2_2d : (forall i0 j0 i1 j1 (dx : Z -> Qc) (beta : Qc) b0 b1 gcw u f0 f1 (alpha : Qc) rgcw res sgcw st offset fgcw f (mx ms : mem QcS) (r w v0 v1 : Z -> Z -> Qc) (c1 c2 : Z) (A B E : Qc) (n : nat) (m : mem QcS),
  i0 <= i1 + 1 -> j0 <= j1 + 1 -> 1 <= gcw -> 0 <= j0 + c1 -> 0 <= j0 + c2 -> Z.odd (c1 + c2) = true -> fst u <> fst st -> fst u <> fst f ->
  (0 <= beta)%Qc -> (0 < A)%Qc -> (0 <= B)%Qc ->
  (forall i j, i0 <= i <= i1 + 1 -> j0 <= j <= j1 -> (0 <= v0 i j)%Qc /\ (v0 i j <= B)%Qc) ->
  (forall i j, i0 <= i <= i1 -> j0 <= j <= j1 + 1 -> (0 <= v1 i j)%Qc /\ (v1 i j <= B)%Qc) ->
  (A <= alpha)%Qc ->
  applied_v2_2d (S := QcS) i0 j0 i1 j1 dx beta b0 b1 gcw u f0 f1 alpha rgcw res mx r w v0 v1 ->
  assembled_v2_2d i0 j0 i1 j1 dx beta b0 b1 alpha sgcw st offset fgcw f ms r v0 v1 ->
  equals ms (mkFa u (CELL2d i0 j0 i1 j1 gcw)) (at2 w) (around (mkFa u (CELL2d i0 j0 i1 j1 gcw)) [(i0, i1); (j0, j1)]) ->
  (0 <= E)%Qc -> within ms (mkFa u (CELL2d i0 j0 i1 j1 gcw)) (at2 w) E (in_box [(i0, i1); (j0, j1)]) ->
  repeated n (twice (cells5rbgs2d i0 i1 j0 j1 c1 (i0 - sgcw) (i1 + sgcw) (j0 - sgcw) (j1 + sgcw) st (i0 - fgcw) (i1 + fgcw) (j0 - fgcw) (j1 + fgcw) f (i0 - gcw) (i1 + gcw) (j0 - gcw) (j1 + gcw) u)
     (cells5rbgs2d i0 i1 j0 j1 c2 (i0 - sgcw) (i1 + sgcw) (j0 - sgcw) (j1 + sgcw) st (i0 - fgcw) (i1 + fgcw) (j0 - fgcw) (j1 + fgcw) f (i0 - gcw) (i1 + gcw) (j0 - gcw) (j1 + gcw) u)) ms = Some m ->
  let K := ((1 + 1) * B * (beta / (dx 0%Z * dx 0%Z) + beta / (dx 1%Z * dx 1%Z)))%Qc in
  within m (mkFa u (CELL2d i0 j0 i1 j1 gcw)) (at2 w) ((K / (K + A)) ^ n * E)%Qc (in_box [(i0, i1); (j0, j1)]))%Z.
Proof.
  intros i0 j0 i1 j1 dx beta b0 b1 gcw u f0 f1 alpha rgcw res sgcw st offset fgcw f mx ms r w v0 v1 c1 c2 A B E n m.
  intros Hbi Hbj Hgcw P0 P1 P2 P3 P4 Hbeta HA HB Q0 Q1 Ha Hop Has Heq HE Hw Hrep K.
  destruct (ready_v2_2d i0 j0 i1 j1 dx beta b0 b1 gcw u f0 f1 alpha rgcw res sgcw st offset fgcw f mx ms r w v0 v1 A B Hbi Hbj Hgcw Hbeta HA HB Q0 Q1 Ha Hop Has) as (Sol & Fit & Dom & L0 & L1).
  assert (C := cells5rbgs2d_converges i0 i1 j0 j1 c1 c2 offset (i0 - sgcw)%Z (i1 + sgcw)%Z (j0 - sgcw)%Z (j1 + sgcw)%Z st (i0 - fgcw)%Z (i1 + fgcw)%Z (j0 - fgcw)%Z (j1 + fgcw)%Z f (i0 - gcw)%Z (i1 + gcw)%Z (j0 - gcw)%Z (j1 + gcw)%Z u ms P0 P1 P2 P3 P4 ltac:(destruct Has as (_ & _ & m0 & Has); decompose [and] Has; assumption)).
  rewrite !cell_bounds_2 in C.
  exact (C (at2 w) (K / (K + A)) E n m Fit Dom L0 L1 Sol Heq HE Hw Hrep).
Qed.

Lemma relax_jac_v2_2d : (forall i0 j0 i1 j1 (dx : Z -> Qc) (beta : Qc) b0 b1 gcw u f0 f1 (alpha : Qc) rgcw res sgcw st offset fgcw f (mx ms : mem QcS) (r w v0 v1 : Z -> Z -> Qc) z (om : Qc) (A B E : Qc) (n : nat) (m : mem QcS),
  i0 <= i1 + 1 -> j0 <= j1 + 1 -> 1 <= gcw -> fst u <> fst st -> fst u <> fst f -> fst u <> fst z -> fst z <> fst st -> fst z <> fst f -> (0 <= om)%Qc -> (om <= 1)%Qc ->
  (0 <= beta)%Qc -> (0 < A)%Qc -> (0 <= B)%Qc ->
  (forall i j, i0 <= i <= i1 + 1 -> j0 <= j <= j1 -> (0 <= v0 i j)%Qc /\ (v0 i j <= B)%Qc) ->
  (forall i j, i0 <= i <= i1 -> j0 <= j <= j1 + 1 -> (0 <= v1 i j)%Qc /\ (v1 i j <= B)%Qc) ->
  (A <= alpha)%Qc ->
  applied_v2_2d (S := QcS) i0 j0 i1 j1 dx beta b0 b1 gcw u f0 f1 alpha rgcw res mx r w v0 v1 ->
  assembled_v2_2d i0 j0 i1 j1 dx beta b0 b1 alpha sgcw st offset fgcw f ms r v0 v1 ->
  equals ms (mkFa u (CELL2d i0 j0 i1 j1 gcw)) (at2 w) (around (mkFa u (CELL2d i0 j0 i1 j1 gcw)) [(i0, i1); (j0, j1)]) ->
  (0 <= E)%Qc -> within ms (mkFa u (CELL2d i0 j0 i1 j1 gcw)) (at2 w) E (in_box [(i0, i1); (j0, j1)]) ->
  repeated n (celljacobi2d i0 i1 j0 j1 5 offset (i0 - sgcw) (i1 + sgcw) (j0 - sgcw) (j1 + sgcw) st (i0 - fgcw) (i1 + fgcw) (j0 - fgcw) (j1 + fgcw) f (i0 - gcw) (i1 + gcw) (j0 - gcw) (j1 + gcw) u z (om : QcS)) ms = Some m ->
  let K := ((1 + 1) * B * (beta / (dx 0%Z * dx 0%Z) + beta / (dx 1%Z * dx 1%Z)))%Qc in
  within m (mkFa u (CELL2d i0 j0 i1 j1 gcw)) (at2 w) ((1 - om + om * (K / (K + A))) ^ n * E)%Qc (in_box [(i0, i1); (j0, j1)]))%Z.
Proof.
  intros i0 j0 i1 j1 dx beta b0 b1 gcw u f0 f1 alpha rgcw res sgcw st offset fgcw f mx ms r w v0 v1 z om A B E n m.
  intros Hbi Hbj Hgcw P0 P1 P2 P3 P4 P5 P6 Hbeta HA HB Q0 Q1 Ha Hop Has Heq HE Hw Hrep K.
  destruct (ready_v2_2d i0 j0 i1 j1 dx beta b0 b1 gcw u f0 f1 alpha rgcw res sgcw st offset fgcw f mx ms r w v0 v1 A B Hbi Hbj Hgcw Hbeta HA HB Q0 Q1 Ha Hop Has) as (Sol & Fit & Dom & L0 & L1).
  assert (C := celljacobi2d_converges i0 i1 j0 j1 5%Z offset (i0 - sgcw)%Z (i1 + sgcw)%Z (j0 - sgcw)%Z (j1 + sgcw)%Z st (i0 - fgcw)%Z (i1 + fgcw)%Z (j0 - fgcw)%Z (j1 + fgcw)%Z f (i0 - gcw)%Z (i1 + gcw)%Z (j0 - gcw)%Z (j1 + gcw)%Z u z om ms P0 P1 P2 P3 P4 P5 P6).
  rewrite !cell_bounds_2 in C.
  exact (C (at2 w) (K / (K + A)) E n m Fit Dom L0 L1 Sol Heq HE Hw Hrep).
Qed.

Lemma columns_3 : Forall (fun col => length col = 3%nat /\ Forall (fun o => (- (1) <= o <= 1)%Z) col) ((0 :: 0 :: 0 :: nil) :: ((-1) :: 0 :: 0 :: nil) :: (1 :: 0 :: 0 :: nil) :: (0 :: (-1) :: 0 :: nil) :: (0 :: 1 :: 0 :: nil) :: (0 :: 0 :: (-1) :: nil) :: (0 :: 0 :: 1 :: nil) :: nil)%Z.
Proof. repeat constructor; cbn; lia. Qed.
Lemma diffusion_sum_3 (dx : Z -> Qc) (beta B : Qc) : 0 <= beta -> 0 <= B -> 0 <= (1 + 1) * B * (beta / (dx 0%Z * dx 0%Z) + beta / (dx 1%Z * dx 1%Z) + beta / (dx 2%Z * dx 2%Z)).
Proof. intros Hb HB. apply Qcmul_nonneg; [apply Qcmul_nonneg; [vm_compute; discriminate|exact HB]|]. apply sum_nonneg; [apply sum_nonneg|]; apply diffusion_nonneg; exact Hb. Qed.

Lemma ready_v1_3d : (forall i0 j0 k0 i1 j1 k1 (dx : Z -> Qc) (beta : Qc) b0 b1 b2 gcw u f0 f1 f2 (alpha : Qc) agcw a rgcw res sgcw st offset fgcw f (mx ms : mem QcS) (r w c v0 v1 v2 : Z -> Z -> Z -> Qc) (A B : Qc),
  i0 <= i1 + 1 -> j0 <= j1 + 1 -> k0 <= k1 + 1 -> 1 <= gcw ->
  (0 <= beta)%Qc -> (0 < A)%Qc -> (0 <= B)%Qc ->
  (forall i j k, i0 <= i <= i1 + 1 -> j0 <= j <= j1 -> k0 <= k <= k1 -> (0 <= v0 i j k)%Qc /\ (v0 i j k <= B)%Qc) ->
  (forall i j k, i0 <= i <= i1 -> j0 <= j <= j1 + 1 -> k0 <= k <= k1 -> (0 <= v1 i j k)%Qc /\ (v1 i j k <= B)%Qc) ->
  (forall i j k, i0 <= i <= i1 -> j0 <= j <= j1 -> k0 <= k <= k1 + 1 -> (0 <= v2 i j k)%Qc /\ (v2 i j k <= B)%Qc) ->
  (forall i j k, i0 <= i <= i1 -> j0 <= j <= j1 -> k0 <= k <= k1 -> (A <= alpha * c i j k)%Qc) ->
  applied_v1_3d (S := QcS) i0 j0 k0 i1 j1 k1 dx beta b0 b1 b2 gcw u f0 f1 f2 alpha agcw a rgcw res mx r w c v0 v1 v2 ->
  assembled_v1_3d i0 j0 k0 i1 j1 k1 dx beta b0 b1 b2 alpha agcw a sgcw st offset fgcw f ms r c v0 v1 v2 ->
  let K := ((1 + 1) * B * (beta / (dx 0%Z * dx 0%Z) + beta / (dx 1%Z * dx 1%Z) + beta / (dx 2%Z * dx 2%Z)))%Qc in
  solution ms (mkFa offset [(0, 2); (0, 6)]) (mkFa st ((0, 6) :: CELL3d i0 j0 k0 i1 j1 k1 sgcw)) 7 (mkFa f (CELL3d i0 j0 k0 i1 j1 k1 fgcw)) (at3 w) (in_box [(i0, i1); (j0, j1); (k0, k1)]) /\ fits ms (mkFa offset [(0, 2); (0, 6)]) 7 (mkFa u (CELL3d i0 j0 k0 i1 j1 k1 gcw)) [(i0, i1); (j0, j1); (k0, k1)] /\ dominant ms (mkFa st ((0, 6) :: CELL3d i0 j0 k0 i1 j1 k1 sgcw)) 7 (K / (K + A))%Qc (in_box [(i0, i1); (j0, j1); (k0, k1)]) /\ (0 <= K / (K + A))%Qc /\ (K / (K + A) <= 1)%Qc)%Z.
Proof.
  intros i0 j0 k0 i1 j1 k1 dx beta b0 b1 b2 gcw u f0 f1 f2 alpha agcw a rgcw res sgcw st offset fgcw f mx ms r w c v0 v1 v2 A B.
  intros Hbi Hbj Hbk Hgcw Hbeta HA HB Q0 Q1 Q2 Ha Hop Has K.
  split; [exact (solution_v1_3d i0 j0 k0 i1 j1 k1 dx beta b0 b1 b2 gcw u f0 f1 f2 alpha agcw a rgcw res sgcw st offset fgcw f mx ms r w c v0 v1 v2 Hbi Hbj Hbk Hop Has)|]. clear Hop.
  destruct Has as (Hg & Hap & m0 & R0 & R1 & R2 & Ra & Es & HT & _).
  split; [apply (fits_of_table ms _ _ (mkFa u (CELL3d i0 j0 k0 i1 j1 k1 gcw)) [(i0, i1); (j0, j1); (k0, k1)] gcw HT (Nat.lt_0_succ _) columns_3 eq_refl Hgcw eq_refl _ eq_refl)|]. clear HT.
  split; [apply (dominant_v1_3d i0 j0 k0 i1 j1 k1 dx beta b0 b1 b2 alpha agcw a sgcw st A B m0 ms Hbi Hbj Hbk Hg Hap Hbeta HA)|].
  { intros i j k v Ii Ij Ik Ev. rewrite (R0 i j k Ii Ij Ik) in Ev. injection Ev as <-. exact (Q0 i j k Ii Ij Ik). }
  { intros i j k v Ii Ij Ik Ev. rewrite (R1 i j k Ii Ij Ik) in Ev. injection Ev as <-. exact (Q1 i j k Ii Ij Ik). }
  { intros i j k v Ii Ij Ik Ev. rewrite (R2 i j k Ii Ij Ik) in Ev. injection Ev as <-. exact (Q2 i j k Ii Ij Ik). }
  { intros i j k v Ii Ij Ik Ev. rewrite (Ra i j k Ii Ij Ik) in Ev. injection Ev as <-. exact (Ha i j k Ii Ij Ik). }
  { exact Es. }
  destruct (ratio_below_one K A (diffusion_sum_3 dx beta B Hbeta HB) HA) as [L0 L1]. split; [exact L0|apply Qclt_le_weak; exact L1].
Qed.

Lemma relax_gs_v1_3d : (forall i0 j0 k0 i1 j1 k1 (dx : Z -> Qc) (beta : Qc) b0 b1 b2 gcw u f0 f1 f2 (alpha : Qc) agcw a rgcw res sgcw st offset fgcw f (mx ms : mem QcS) (r w c v0 v1 v2 : Z -> Z -> Z -> Qc) (A B E : Qc) (n : nat) (m : mem QcS),
  i0 <= i1 + 1 -> j0 <= j1 + 1 -> k0 <= k1 + 1 -> 1 <= gcw -> fst u <> fst st -> fst u <> fst f ->
  (0 <= beta)%Qc -> (0 < A)%Qc -> (0 <= B)%Qc ->
  (forall i j k, i0 <= i <= i1 + 1 -> j0 <= j <= j1 -> k0 <= k <= k1 -> (0 <= v0 i j k)%Qc /\ (v0 i j k <= B)%Qc) ->
  (forall i j k, i0 <= i <= i1 -> j0 <= j <= j1 + 1 -> k0 <= k <= k1 -> (0 <= v1 i j k)%Qc /\ (v1 i j k <= B)%Qc) ->
  (forall i j k, i0 <= i <= i1 -> j0 <= j <= j1 -> k0 <= k <= k1 + 1 -> (0 <= v2 i j k)%Qc /\ (v2 i j k <= B)%Qc) ->
  (forall i j k, i0 <= i <= i1 -> j0 <= j <= j1 -> k0 <= k <= k1 -> (A <= alpha * c i j k)%Qc) ->
  applied_v1_3d (S := QcS) i0 j0 k0 i1 j1 k1 dx beta b0 b1 b2 gcw u f0 f1 f2 alpha agcw a rgcw res mx r w c v0 v1 v2 ->
  assembled_v1_3d i0 j0 k0 i1 j1 k1 dx beta b0 b1 b2 alpha agcw a sgcw st offset fgcw f ms r c v0 v1 v2 ->
  equals ms (mkFa u (CELL3d i0 j0 k0 i1 j1 k1 gcw)) (at3 w) (around (mkFa u (CELL3d i0 j0 k0 i1 j1 k1 gcw)) [(i0, i1); (j0, j1); (k0, k1)]) ->
  (0 <= E)%Qc -> within ms (mkFa u (CELL3d i0 j0 k0 i1 j1 k1 gcw)) (at3 w) E (in_box [(i0, i1); (j0, j1); (k0, k1)]) ->
  repeated n (cellgs3d i0 i1 j0 j1 k0 k1 7 offset (i0 - sgcw) (i1 + sgcw) (j0 - sgcw) (j1 + sgcw) (k0 - sgcw) (k1 + sgcw) st (i0 - fgcw) (i1 + fgcw) (j0 - fgcw) (j1 + fgcw) (k0 - fgcw) (k1 + fgcw) f (i0 - gcw) (i1 + gcw) (j0 - gcw) (j1 + gcw) (k0 - gcw) (k1 + gcw) u) ms = Some m ->
  let K := ((1 + 1) * B * (beta / (dx 0%Z * dx 0%Z) + beta / (dx 1%Z * dx 1%Z) + beta / (dx 2%Z * dx 2%Z)))%Qc in
  within m (mkFa u (CELL3d i0 j0 k0 i1 j1 k1 gcw)) (at3 w) ((K / (K + A)) ^ n * E)%Qc (in_box [(i0, i1); (j0, j1); (k0, k1)]))%Z.
Proof.
  intros i0 j0 k0 i1 j1 k1 dx beta b0 b1 b2 gcw u f0 f1 f2 alpha agcw a rgcw res sgcw st offset fgcw f mx ms r w c v0 v1 v2 A B E n m.
  intros Hbi Hbj Hbk Hgcw P0 P1 Hbeta HA HB Q0 Q1 Q2 Ha Hop Has Heq HE Hw Hrep K.
  destruct (ready_v1_3d i0 j0 k0 i1 j1 k1 dx beta b0 b1 b2 gcw u f0 f1 f2 alpha agcw a rgcw res sgcw st offset fgcw f mx ms r w c v0 v1 v2 A B Hbi Hbj Hbk Hgcw Hbeta HA HB Q0 Q1 Q2 Ha Hop Has) as (Sol & Fit & Dom & L0 & L1).
  assert (C := cellgs3d_converges i0 i1 j0 j1 k0 k1 7%Z offset (i0 - sgcw)%Z (i1 + sgcw)%Z (j0 - sgcw)%Z (j1 + sgcw)%Z (k0 - sgcw)%Z (k1 + sgcw)%Z st (i0 - fgcw)%Z (i1 + fgcw)%Z (j0 - fgcw)%Z (j1 + fgcw)%Z (k0 - fgcw)%Z (k1 + fgcw)%Z f (i0 - gcw)%Z (i1 + gcw)%Z (j0 - gcw)%Z (j1 + gcw)%Z (k0 - gcw)%Z (k1 + gcw)%Z u ms P0 P1).
  rewrite !cell_bounds_3 in C.
  exact (C (at3 w) (K / (K + A)) E n m Fit Dom L0 L1 Sol Heq HE Hw Hrep).
Qed.

Lemma relax_rb_v1_3d : (forall i0 j0 k0 i1 j1 k1 (dx : Z -> Qc) (beta : Qc) b0 b1 b2 gcw u f0 f1 f2 (alpha : Qc) agcw a rgcw res sgcw st offset fgcw f (mx ms : mem QcS) (r w c v0 v1 v2 : Z -> Z -> Z -> Qc) (c1 c2 : Z) (A B E : Qc) (n : nat) (m : mem QcS),
  i0 <= i1 + 1 -> j0 <= j1 + 1 -> k0 <= k1 + 1 -> 1 <= gcw -> 0 <= c1 -> 0 <= c2 -> Z.odd (c1 + c2) = true -> fst u <> fst st -> fst u <> fst f ->
  (0 <= beta)%Qc -> (0 < A)%Qc -> (0 <= B)%Qc ->
  (forall i j k, i0 <= i <= i1 + 1 -> j0 <= j <= j1 -> k0 <= k <= k1 -> (0 <= v0 i j k)%Qc /\ (v0 i j k <= B)%Qc) ->
  (forall i j k, i0 <= i <= i1 -> j0 <= j <= j1 + 1 -> k0 <= k <= k1 -> (0 <= v1 i j k)%Qc /\ (v1 i j k <= B)%Qc) ->
  (forall i j k, i0 <= i <= i1 -> j0 <= j <= j1 -> k0 <= k <= k1 + 1 -> (0 <= v2 i j k)%Qc /\ (v2 i j k <= B)%Qc) ->
  (forall i j k, i0 <= i <= i1 -> j0 <= j <= j1 -> k0 <= k <= k1 -> (A <= alpha * c i j k)%Qc) ->
  applied_v1_3d (S := QcS) i0 j0 k0 i1 j1 k1 dx beta b0 b1 b2 gcw u f0 f1 f2 alpha agcw a rgcw res mx r w c v0 v1 v2 ->
  assembled_v1_3d i0 j0 k0 i1 j1 k1 dx beta b0 b1 b2 alpha agcw a sgcw st offset fgcw f ms r c v0 v1 v2 ->
  equals ms (mkFa u (CELL3d i0 j0 k0 i1 j1 k1 gcw)) (at3 w) (around (mkFa u (CELL3d i0 j0 k0 i1 j1 k1 gcw)) [(i0, i1); (j0, j1); (k0, k1)]) ->
  (0 <= E)%Qc -> within ms (mkFa u (CELL3d i0 j0 k0 i1 j1 k1 gcw)) (at3 w) E (in_box [(i0, i1); (j0, j1); (k0, k1)]) ->
  repeated n (twice (cellrbgs3d i0 i1 j0 j1 k0 k1 c1 7 offset (i0 - sgcw) (i1 + sgcw) (j0 - sgcw) (j1 + sgcw) (k0 - sgcw) (k1 + sgcw) st (i0 - fgcw) (i1 + fgcw) (j0 - fgcw) (j1 + fgcw) (k0 - fgcw) (k1 + fgcw) f (i0 - gcw) (i1 + gcw) (j0 - gcw) (j1 + gcw) (k0 - gcw) (k1 + gcw) u)
     (cellrbgs3d i0 i1 j0 j1 k0 k1 c2 7 offset (i0 - sgcw) (i1 + sgcw) (j0 - sgcw) (j1 + sgcw) (k0 - sgcw) (k1 + sgcw) st (i0 - fgcw) (i1 + fgcw) (j0 - fgcw) (j1 + fgcw) (k0 - fgcw) (k1 + fgcw) f (i0 - gcw) (i1 + gcw) (j0 - gcw) (j1 + gcw) (k0 - gcw) (k1 + gcw) u)) ms = Some m ->
  let K := ((1 + 1) * B * (beta / (dx 0%Z * dx 0%Z) + beta / (dx 1%Z * dx 1%Z) + beta / (dx 2%Z * dx 2%Z)))%Qc in
  within m (mkFa u (CELL3d i0 j0 k0 i1 j1 k1 gcw)) (at3 w) ((K / (K + A)) ^ n * E)%Qc (in_box [(i0, i1); (j0, j1); (k0, k1)]))%Z.
Proof.
  intros i0 j0 k0 i1 j1 k1 dx beta b0 b1 b2 gcw u f0 f1 f2 alpha agcw a rgcw res sgcw st offset fgcw f mx ms r w c v0 v1 v2 c1 c2 A B E n m.
  intros Hbi Hbj Hbk Hgcw P0 P1 P2 P3 P4 Hbeta HA HB Q0 Q1 Q2 Ha Hop Has Heq HE Hw Hrep K.
  destruct (ready_v1_3d i0 j0 k0 i1 j1 k1 dx beta b0 b1 b2 gcw u f0 f1 f2 alpha agcw a rgcw res sgcw st offset fgcw f mx ms r w c v0 v1 v2 A B Hbi Hbj Hbk Hgcw Hbeta HA HB Q0 Q1 Q2 Ha Hop Has) as (Sol & Fit & Dom & L0 & L1).
  assert (C := cellrbgs3d_converges i0 i1 j0 j1 k0 k1 c1 c2 7%Z offset (i0 - sgcw)%Z (i1 + sgcw)%Z (j0 - sgcw)%Z (j1 + sgcw)%Z (k0 - sgcw)%Z (k1 + sgcw)%Z st (i0 - fgcw)%Z (i1 + fgcw)%Z (j0 - fgcw)%Z (j1 + fgcw)%Z (k0 - fgcw)%Z (k1 + fgcw)%Z f (i0 - gcw)%Z (i1 + gcw)%Z (j0 - gcw)%Z (j1 + gcw)%Z (k0 - gcw)%Z (k1 + gcw)%Z u ms P0 P1 P2 P3 P4).
  rewrite !cell_bounds_3 in C.
  exact (C (at3 w) (K / (K + A)) E n m Fit Dom L0 L1 Sol Heq HE Hw Hrep).
Qed.

Lemma relax_fix_v1_3d : (forall i0 j0 k0 i1 j1 k1 (dx : Z -> Qc) (beta : Qc) b0 b1 b2 gcw u f0 f1 f2 (alpha : Qc) agcw a rgcw res sgcw st offset fgcw f (mx ms : mem QcS) (r w c v0 v1 v2 : Z -> Z -> Z -> Qc) (c1 c2 : Z) (A B E : Qc) (n : nat) (m : mem QcS),
  i0 <= i1 + 1 -> j0 <= j1 + 1 -> k0 <= k1 + 1 -> 1 <= gcw -> 0 <= c1 -> 0 <= c2 -> Z.odd (c1 + c2) = true -> fst u <> fst st -> fst u <> fst f ->
  (0 <= beta)%Qc -> (0 < A)%Qc -> (0 <= B)%Qc ->
  (forall i j k, i0 <= i <= i1 + 1 -> j0 <= j <= j1 -> k0 <= k <= k1 -> (0 <= v0 i j k)%Qc /\ (v0 i j k <= B)%Qc) ->
  (forall i j k, i0 <= i <= i1 -> j0 <= j <= j1 + 1 -> k0 <= k <= k1 -> (0 <= v1 i j k)%Qc /\ (v1 i j k <= B)%Qc) ->
  (forall i j k, i0 <= i <= i1 -> j0 <= j <= j1 -> k0 <= k <= k1 + 1 -> (0 <= v2 i j k)%Qc /\ (v2 i j k <= B)%Qc) ->
  (forall i j k, i0 <= i <= i1 -> j0 <= j <= j1 -> k0 <= k <= k1 -> (A <= alpha * c i j k)%Qc) ->
  applied_v1_3d (S := QcS) i0 j0 k0 i1 j1 k1 dx beta b0 b1 b2 gcw u f0 f1 f2 alpha agcw a rgcw res mx r w c v0 v1 v2 ->
  assembled_v1_3d i0 j0 k0 i1 j1 k1 dx beta b0 b1 b2 alpha agcw a sgcw st offset fgcw f ms r c v0 v1 v2 ->
  equals ms (mkFa u (CELL3d i0 j0 k0 i1 j1 k1 gcw)) (at3 w) (around (mkFa u (CELL3d i0 j0 k0 i1 j1 k1 gcw)) [(i0, i1); (j0, j1); (k0, k1)]) ->
  (0 <= E)%Qc -> within ms (mkFa u (CELL3d i0 j0 k0 i1 j1 k1 gcw)) (at3 w) E (in_box [(i0, i1); (j0, j1); (k0, k1)]) ->
  repeated n (twice (cells7rbgs3d i0 i1 j0 j1 k0 k1 c1 (i0 - sgcw) (i1 + sgcw) (j0 - sgcw) (j1 + sgcw) (k0 - sgcw) (k1 + sgcw) st (i0 - fgcw) (i1 + fgcw) (j0 - fgcw) (j1 + fgcw) (k0 - fgcw) (k1 + fgcw) f (i0 - gcw) (i1 + gcw) (j0 - gcw) (j1 + gcw) (k0 - gcw) (k1 + gcw) u)
     (cells7rbgs3d i0 i1 j0 j1 k0 k1 c2 (i0 - sgcw) (i1 + sgcw) (j0 - sgcw) (j1 + sgcw) (k0 - sgcw) (k1 + sgcw) st (i0 - fgcw) (i1 + fgcw) (j0 - fgcw) (j1 + fgcw) (k0 - fgcw) (k1 + fgcw) f (i0 - gcw) (i1 + gcw) (j0 - gcw) (j1 + gcw) (k0 - gcw) (k1 + gcw) u)) ms = Some m ->
  let K := ((1 + 1) * B * (beta / (dx 0%Z * dx 0%Z) + beta / (dx 1%Z * dx 1%Z) + beta / (dx 2%Z * dx 2%Z)))%Qc in
  within m (mkFa u (CELL3d i0 j0 k0 i1 j1 k1 gcw)) (at3 w) ((K / (K + A)) ^ n * E)%Qc (in_box [(i0, i1); (j0, j1); (k0, k1)]))%Z.
Proof.
  intros i0 j0 k0 i1 j1 k1 dx beta b0 b1 b2 gcw u f0 f1 f2 alpha agcw a rgcw res sgcw st offset fgcw f mx ms r w c v0 v1 v2 c1 c2 A B E n m.
  intros Hbi Hbj Hbk Hgcw P0 P1 P2 P3 P4 Hbeta HA HB Q0 Q1 Q2 Ha Hop Has Heq HE Hw Hrep K.
  destruct (ready_v1_3d i0 j0 k0 i1 j1 k1 dx beta b0 b1 b2 gcw u f0 f1 f2 alpha agcw a rgcw res sgcw st offset fgcw f mx ms r w c v0 v1 v2 A B Hbi Hbj Hbk Hgcw Hbeta HA HB Q0 Q1 Q2 Ha Hop Has) as (Sol & Fit & Dom & L0 & L1).
  assert (C := cells7rbgs3d_converges i0 i1 j0 j1 k0 k1 c1 c2 offset (i0 - sgcw)%Z (i1 + sgcw)%Z (j0 - sgcw)%Z (j1 + sgcw)%Z (k0 - sgcw)%Z (k1 + sgcw)%Z st (i0 - fgcw)%Z (i1 + fgcw)%Z (j0 - fgcw)%Z (j1 + fgcw)%Z (k0 - fgcw)%Z (k1 + fgcw)%Z f (i0 - gcw)%Z (i1 + gcw)%Z (j0 - gcw)%Z (j1 + gcw)%Z (k0 - gcw)%Z (k1 + gcw)%Z u ms P0 P1 P2 P3 P4 ltac:(destruct Has as (_ & _ & m0 & Has); decompose [and] Has; assumption)).
  rewrite !cell_bounds_3 in C.
  exact (C (at3 w) (K / (K + A)) E n m Fit Dom L0 L1 Sol Heq HE Hw Hrep).
Qed.

Lemma relax_jac_v1_3d : (forall i0 j0 k0 i1 j1 k1 (dx : Z -> Qc) (beta : Qc) b0 b1 b2 gcw u f0 f1 f2 (alpha : Qc) agcw a rgcw res sgcw st offset fgcw f (mx ms : mem QcS) (r w c v0 v1 v2 : Z -> Z -> Z -> Qc) z (om : Qc) (A B E : Qc) (n : nat) (m : mem QcS),
  i0 <= i1 + 1 -> j0 <= j1 + 1 -> k0 <= k1 + 1 -> 1 <= gcw -> fst u <> fst st -> fst u <> fst f -> fst u <> fst z -> fst z <> fst st -> fst z <> fst f -> (0 <= om)%Qc -> (om <= 1)%Qc ->
  (0 <= beta)%Qc -> (0 < A)%Qc -> (0 <= B)%Qc ->
  (forall i j k, i0 <= i <= i1 + 1 -> j0 <= j <= j1 -> k0 <= k <= k1 -> (0 <= v0 i j k)%Qc /\ (v0 i j k <= B)%Qc) ->
  (forall i j k, i0 <= i <= i1 -> j0 <= j <= j1 + 1 -> k0 <= k <= k1 -> (0 <= v1 i j k)%Qc /\ (v1 i j k <= B)%Qc) ->
  (forall i j k, i0 <= i <= i1 -> j0 <= j <= j1 -> k0 <= k <= k1 + 1 -> (0 <= v2 i j k)%Qc /\ (v2 i j k <= B)%Qc) ->
  (forall i j k, i0 <= i <= i1 -> j0 <= j <= j1 -> k0 <= k <= k1 -> (A <= alpha * c i j k)%Qc) ->
  applied_v1_3d (S := QcS) i0 j0 k0 i1 j1 k1 dx beta b0 b1 b2 gcw u f0 f1 f2 alpha agcw a rgcw res mx r w c v0 v1 v2 ->
  assembled_v1_3d i0 j0 k0 i1 j1 k1 dx beta b0 b1 b2 alpha agcw a sgcw st offset fgcw f ms r c v0 v1 v2 ->
  equals ms (mkFa u (CELL3d i0 j0 k0 i1 j1 k1 gcw)) (at3 w) (around (mkFa u (CELL3d i0 j0 k0 i1 j1 k1 gcw)) [(i0, i1); (j0, j1); (k0, k1)]) ->
  (0 <= E)%Qc -> within ms (mkFa u (CELL3d i0 j0 k0 i1 j1 k1 gcw)) (at3 w) E (in_box [(i0, i1); (j0, j1); (k0, k1)]) ->
  repeated n (celljacobi3d i0 i1 j0 j1 k0 k1 7 offset (i0 - sgcw) (i1 + sgcw) (j0 - sgcw) (j1 + sgcw) (k0 - sgcw) (k1 + sgcw) st (i0 - fgcw) (i1 + fgcw) (j0 - fgcw) (j1 + fgcw) (k0 - fgcw) (k1 + fgcw) f (i0 - gcw) (i1 + gcw) (j0 - gcw) (j1 + gcw) (k0 - gcw) (k1 + gcw) u z (om : QcS)) ms = Some m ->
  let K := ((1 + 1) * B * (beta / (dx 0%Z * dx 0%Z) + beta / (dx 1%Z * dx 1%Z) + beta / (dx 2%Z * dx 2%Z)))%Qc in
  within m (mkFa u (CELL3d i0 j0 k0 i1 j1 k1 gcw)) (at3 w) ((1 - om + om * (K / (K + A))) ^ n * E)%Qc (in_box [(i0, i1); (j0, j1); (k0, k1)]))%Z.
Proof.
  intros i0 j0 k0 i1 j1 k1 dx beta b0 b1 b2 gcw u f0 f1 f2 alpha agcw a rgcw res sgcw st offset fgcw f mx ms r w c v0 v1 v2 z om A B E n m.
  intros Hbi Hbj Hbk Hgcw P0 P1 P2 P3 P4 P5 P6 Hbeta HA HB Q0 Q1 Q2 Ha Hop Has Heq HE Hw Hrep K.
  destruct (ready_v1_3d i0 j0 k0 i1 j1 k1 dx beta b0 b1 b2 gcw u f0 f1 f2 alpha agcw a rgcw res sgcw st offset fgcw f mx ms r w c v0 v1 v2 A B Hbi Hbj Hbk Hgcw Hbeta HA HB Q0 Q1 Q2 Ha Hop Has) as (Sol & Fit & Dom & L0 & L1).
  assert (C := celljacobi3d_converges i0 i1 j0 j1 k0 k1 7%Z offset (i0 - sgcw)%Z (i1 + sgcw)%Z (j0 - sgcw)%Z (j1 + sgcw)%Z (k0 - sgcw)%Z (k1 + sgcw)%Z st (i0 - fgcw)%Z (i1 + fgcw)%Z (j0 - fgcw)%Z (j1 + fgcw)%Z (k0 - fgcw)%Z (k1 + fgcw)%Z f (i0 - gcw)%Z (i1 + gcw)%Z (j0 - gcw)%Z (j1 + gcw)%Z (k0 - gcw)%Z (k1 + gcw)%Z u z om ms P0 P1 P2 P3 P4 P5 P6).
  rewrite !cell_bounds_3 in C.
  exact (C (at3 w) (K / (K + A)) E n m Fit Dom L0 L1 Sol Heq HE Hw Hrep).
Qed.

Lemma ready_v2_3d : (forall i0 j0 k0 i1 j1 k1 (dx : Z -> Qc) (beta : Qc) b0 b1 b2 gcw u f0 f1 f2 (alpha : Qc) rgcw res sgcw st offset fgcw f (mx ms : mem QcS) (r w v0 v1 v2 : Z -> Z -> Z -> Qc) (A B : Qc),
  i0 <= i1 + 1 -> j0 <= j1 + 1 -> k0 <= k1 + 1 -> 1 <= gcw ->
  (0 <= beta)%Qc -> (0 < A)%Qc -> (0 <= B)%Qc ->
  (forall i j k, i0 <= i <= i1 + 1 -> j0 <= j <= j1 -> k0 <= k <= k1 -> (0 <= v0 i j k)%Qc /\ (v0 i j k <= B)%Qc) ->
  (forall i j k, i0 <= i <= i1 -> j0 <= j <= j1 + 1 -> k0 <= k <= k1 -> (0 <= v1 i j k)%Qc /\ (v1 i j k <= B)%Qc) ->
  (forall i j k, i0 <= i <= i1 -> j0 <= j <= j1 -> k0 <= k <= k1 + 1 -> (0 <= v2 i j k)%Qc /\ (v2 i j k <= B)%Qc) ->
  (A <= alpha)%Qc ->
  applied_v2_3d (S := QcS) i0 j0 k0 i1 j1 k1 dx beta b0 b1 b2 gcw u f0 f1 f2 alpha rgcw res mx r w v0 v1 v2 ->
  assembled_v2_3d i0 j0 k0 i1 j1 k1 dx beta b0 b1 b2 alpha sgcw st offset fgcw f ms r v0 v1 v2 ->
  let K := ((1 + 1) * B * (beta / (dx 0%Z * dx 0%Z) + beta / (dx 1%Z * dx 1%Z) + beta / (dx 2%Z * dx 2%Z)))%Qc in
  solution ms (mkFa offset [(0, 2); (0, 6)]) (mkFa st ((0, 6) :: CELL3d i0 j0 k0 i1 j1 k1 sgcw)) 7 (mkFa f (CELL3d i0 j0 k0 i1 j1 k1 fgcw)) (at3 w) (in_box [(i0, i1); (j0, j1); (k0, k1)]) /\ fits ms (mkFa offset [(0, 2); (0, 6)]) 7 (mkFa u (CELL3d i0 j0 k0 i1 j1 k1 gcw)) [(i0, i1); (j0, j1); (k0, k1)] /\ dominant ms (mkFa st ((0, 6) :: CELL3d i0 j0 k0 i1 j1 k1 sgcw)) 7 (K / (K + A))%Qc (in_box [(i0, i1); (j0, j1); (k0, k1)]) /\ (0 <= K / (K + A))%Qc /\ (K / (K + A) <= 1)%Qc)%Z.
Proof.
  intros i0 j0 k0 i1 j1 k1 dx beta b0 b1 b2 gcw u f0 f1 f2 alpha rgcw res sgcw st offset fgcw f mx ms r w v0 v1 v2 A B.
  intros Hbi Hbj Hbk Hgcw Hbeta HA HB Q0 Q1 Q2 Ha Hop Has K.
  split; [exact (solution_v2_3d i0 j0 k0 i1 j1 k1 dx beta b0 b1 b2 gcw u f0 f1 f2 alpha rgcw res sgcw st offset fgcw f mx ms r w v0 v1 v2 Hbi Hbj Hbk Hop Has)|]. clear Hop.
  destruct Has as (Hg & Hap & m0 & R0 & R1 & R2 & Es & HT & _).
  split; [apply (fits_of_table ms _ _ (mkFa u (CELL3d i0 j0 k0 i1 j1 k1 gcw)) [(i0, i1); (j0, j1); (k0, k1)] gcw HT (Nat.lt_0_succ _) columns_3 eq_refl Hgcw eq_refl _ eq_refl)|]. clear HT.
  split; [apply (dominant_v2_3d i0 j0 k0 i1 j1 k1 dx beta b0 b1 b2 alpha sgcw st A B m0 ms Hbi Hbj Hbk Hg Hap Hbeta HA)|].
  { intros i j k v Ii Ij Ik Ev. rewrite (R0 i j k Ii Ij Ik) in Ev. injection Ev as <-. exact (Q0 i j k Ii Ij Ik). }
  { intros i j k v Ii Ij Ik Ev. rewrite (R1 i j k Ii Ij Ik) in Ev. injection Ev as <-. exact (Q1 i j k Ii Ij Ik). }
  { intros i j k v Ii Ij Ik Ev. rewrite (R2 i j k Ii Ij Ik) in Ev. injection Ev as <-. exact (Q2 i j k Ii Ij Ik). }
  { exact Ha. }
  { exact Es. }
  destruct (ratio_below_one K A (diffusion_sum_3 dx beta B Hbeta HB) HA) as [L0 L1]. split; [exact L0|apply Qclt_le_weak; exact L1].
Qed.

Lemma relax_gs_v2_3d : (forall i0 j0 k0 i1 j1 k1 (dx : Z -> Qc) (beta : Qc) b0 b1 b2 gcw u f0 f1 f2 (alpha : Qc) rgcw res sgcw st offset fgcw f (mx ms : mem QcS) (r w v0 v1 v2 : Z -> Z -> Z -> Qc) (A B E : Qc) (n : nat) (m : mem QcS),
  i0 <= i1 + 1 -> j0 <= j1 + 1 -> k0 <= k1 + 1 -> 1 <= gcw -> fst u <> fst st -> fst u <> fst f ->
  (0 <= beta)%Qc -> (0 < A)%Qc -> (0 <= B)%Qc ->
  (forall i j k, i0 <= i <= i1 + 1 -> j0 <= j <= j1 -> k0 <= k <= k1 -> (0 <= v0 i j k)%Qc /\ (v0 i j k <= B)%Qc) ->
  (forall i j k, i0 <= i <= i1 -> j0 <= j <= j1 + 1 -> k0 <= k <= k1 -> (0 <= v1 i j k)%Qc /\ (v1 i j k <= B)%Qc) ->
  (forall i j k, i0 <= i <= i1 -> j0 <= j <= j1 -> k0 <= k <= k1 + 1 -> (0 <= v2 i j k)%Qc /\ (v2 i j k <= B)%Qc) ->
  (A <= alpha)%Qc ->
  applied_v2_3d (S := QcS) i0 j0 k0 i1 j1 k1 dx beta b0 b1 b2 gcw u f0 f1 f2 alpha rgcw res mx r w v0 v1 v2 ->
  assembled_v2_3d i0 j0 k0 i1 j1 k1 dx beta b0 b1 b2 alpha sgcw st offset fgcw f ms r v0 v1 v2 ->
  equals ms (mkFa u (CELL3d i0 j0 k0 i1 j1 k1 gcw)) (at3 w) (around (mkFa u (CELL3d i0 j0 k0 i1 j1 k1 gcw)) [(i0, i1); (j0, j1); (k0, k1)]) ->
  (0 <= E)%Qc -> within ms (mkFa u (CELL3d i0 j0 k0 i1 j1 k1 gcw)) (at3 w) E (in_box [(i0, i1); (j0, j1); (k0, k1)]) ->
  repeated n (cellgs3d i0 i1 j0 j1 k0 k1 7 offset (i0 - sgcw) (i1 + sgcw) (j0 - sgcw) (j1 + sgcw) (k0 - sgcw) (k1 + sgcw) st (i0 - fgcw) (i1 + fgcw) (j0 - fgcw) (j1 + fgcw) (k0 - fgcw) (k1 + fgcw) f (i0 - gcw) (i1 + gcw) (j0 - gcw) (j1 + gcw) (k0 - gcw) (k1 + gcw) u) ms = Some m ->
  let K := ((1 + 1) * B * (beta / (dx 0%Z * dx 0%Z) + beta / (dx 1%Z * dx 1%Z) + beta / (dx 2%Z * dx 2%Z)))%Qc in
  within m (mkFa u (CELL3d i0 j0 k0 i1 j1 k1 gcw)) (at3 w) ((K / (K + A)) ^ n * E)%Qc (in_box [(i0, i1); (j0, j1); (k0, k1)]))%Z.
Proof.
  intros i0 j0 k0 i1 j1 k1 dx beta b0 b1 b2 gcw u f0 f1 f2 alpha rgcw res sgcw st offset fgcw f mx ms r w v0 v1 v2 A B E n m.
  intros Hbi Hbj Hbk Hgcw P0 P1 Hbeta HA HB Q0 Q1 Q2 Ha Hop Has Heq HE Hw Hrep K.
  destruct (ready_v2_3d i0 j0 k0 i1 j1 k1 dx beta b0 b1 b2 gcw u f0 f1 f2 alpha rgcw res sgcw st offset fgcw f mx ms r w v0 v1 v2 A B Hbi Hbj Hbk Hgcw Hbeta HA HB Q0 Q1 Q2 Ha Hop Has) as (Sol & Fit & Dom & L0 & L1).
  assert (C := cellgs3d_converges i0 i1 j0 j1 k0 k1 7%Z offset (i0 - sgcw)%Z (i1 + sgcw)%Z (j0 - sgcw)%Z (j1 + sgcw)%Z (k0 - sgcw)%Z (k1 + sgcw)%Z st (i0 - fgcw)%Z (i1 + fgcw)%Z (j0 - fgcw)%Z (j1 + fgcw)%Z (k0 - fgcw)%Z (k1 + fgcw)%Z f (i0 - gcw)%Z (i1 + gcw)%Z (j0 - gcw)%Z (j1 + gcw)%Z (k0 - gcw)%Z (k1 + gcw)%Z u ms P0 P1).
  rewrite !cell_bounds_3 in C.
  exact (C (at3 w) (K / (K + A)) E n m Fit Dom L0 L1 Sol Heq HE Hw Hrep).
Qed.

Lemma relax_rb_v2_3d : (forall i0 j0 k0 i1 j1 k1 (dx : Z -> Qc) (beta : Qc) b0 b1 b2 gcw u f0 f1 f2 (alpha : Qc) rgcw res sgcw st offset fgcw f (mx ms : mem QcS) (r w v0 v1 v2 : Z -> Z -> Z -> Qc) (c1 c2 : Z) (A B E : Qc) (n : nat) (m : mem QcS),
  i0 <= i1 + 1 -> j0 <= j1 + 1 -> k0 <= k1 + 1 -> 1 <= gcw -> 0 <= c1 -> 0 <= c2 -> Z.odd (c1 + c2) = true -> fst u <> fst st -> fst u <> fst f ->
  (0 <= beta)%Qc -> (0 < A)%Qc -> (0 <= B)%Qc ->
  (forall i j k, i0 <= i <= i1 + 1 -> j0 <= j <= j1 -> k0 <= k <= k1 -> (0 <= v0 i j k)%Qc /\ (v0 i j k <= B)%Qc) ->
  (forall i j k, i0 <= i <= i1 -> j0 <= j <= j1 + 1 -> k0 <= k <= k1 -> (0 <= v1 i j k)%Qc /\ (v1 i j k <= B)%Qc) ->
  (forall i j k, i0 <= i <= i1 -> j0 <= j <= j1 -> k0 <= k <= k1 + 1 -> (0 <= v2 i j k)%Qc /\ (v2 i j k <= B)%Qc) ->
  (A <= alpha)%Qc ->
  applied_v2_3d (S := QcS) i0 j0 k0 i1 j1 k1 dx beta b0 b1 b2 gcw u f0 f1 f2 alpha rgcw res mx r w v0 v1 v2 ->
  assembled_v2_3d i0 j0 k0 i1 j1 k1 dx beta b0 b1 b2 alpha sgcw st offset fgcw f ms r v0 v1 v2 ->
  equals ms (mkFa u (CELL3d i0 j0 k0 i1 j1 k1 gcw)) (at3 w) (around (mkFa u (CELL3d i0 j0 k0 i1 j1 k1 gcw)) [(i0, i1); (j0, j1); (k0, k1)]) ->
  (0 <= E)%Qc -> within ms (mkFa u (CELL3d i0 j0 k0 i1 j1 k1 gcw)) (at3 w) E (in_box [(i0, i1); (j0, j1); (k0, k1)]) ->
  repeated n (twice (cellrbgs3d i0 i1 j0 j1 k0 k1 c1 7 offset (i0 - sgcw) (i1 + sgcw) (j0 - sgcw) (j1 + sgcw) (k0 - sgcw) (k1 + sgcw) st (i0 - fgcw) (i1 + fgcw) (j0 - fgcw) (j1 + fgcw) (k0 - fgcw) (k1 + fgcw) f (i0 - gcw) (i1 + gcw) (j0 - gcw) (j1 + gcw) (k0 - gcw) (k1 + gcw) u)
     (cellrbgs3d i0 i1 j0 j1 k0 k1 c2 7 offset (i0 - sgcw) (i1 + sgcw) (j0 - sgcw) (j1 + sgcw) (k0 - sgcw) (k1 + sgcw) st (i0 - fgcw) (i1 + fgcw) (j0 - fgcw) (j1 + fgcw) (k0 - fgcw) (k1 + fgcw) f (i0 - gcw) (i1 + gcw) (j0 - gcw) (j1 + gcw) (k0 - gcw) (k1 + gcw) u)) ms = Some m ->
  let K := ((1 + 1) * B * (beta / (dx 0%Z * dx 0%Z) + beta / (dx 1%Z * dx 1%Z) + beta / (dx 2%Z * dx 2%Z)))%Qc in
  within m (mkFa u (CELL3d i0 j0 k0 i1 j1 k1 gcw)) (at3 w) ((K / (K + A)) ^ n * E)%Qc (in_box [(i0, i1); (j0, j1); (k0, k1)]))%Z.
Proof.
  intros i0 j0 k0 i1 j1 k1 dx beta b0 b1 b2 gcw u f0 f1 f2 alpha rgcw res sgcw st offset fgcw f mx ms r w v0 v1 v2 c1 c2 A B E n m.
  intros Hbi Hbj Hbk Hgcw P0 P1 P2 P3 P4 Hbeta HA HB Q0 Q1 Q2 Ha Hop Has Heq HE Hw Hrep K.
  destruct (ready_v2_3d i0 j0 k0 i1 j1 k1 dx beta b0 b1 b2 gcw u f0 f1 f2 alpha rgcw res sgcw st offset fgcw f mx ms r w v0 v1 v2 A B Hbi Hbj Hbk Hgcw Hbeta HA HB Q0 Q1 Q2 Ha Hop Has) as (Sol & Fit & Dom & L0 & L1).
  assert (C := cellrbgs3d_converges i0 i1 j0 j1 k0 k1 c1 c2 7%Z offset (i0 - sgcw)%Z (i1 + sgcw)%Z (j0 - sgcw)%Z (j1 + sgcw)%Z (k0 - sgcw)%Z (k1 + sgcw)%Z st (i0 - fgcw)%Z (i1 + fgcw)%Z (j0 - fgcw)%Z (j1 + fgcw)%Z (k0 - fgcw)%Z (k1 + fgcw)%Z f (i0 - gcw)%Z (i1 + gcw)%Z (j0 - gcw)%Z (j1 + gcw)%Z (k0 - gcw)%Z (k1 + gcw)%Z u ms P0 P1 P2 P3 P4).
  rewrite !cell_bounds_3 in C.
  exact (C (at3 w) (K / (K + A)) E n m Fit Dom L0 L1 Sol Heq HE Hw Hrep).
Qed.

Lemma relax_fix_v2_3d : (forall i0 j0 k0 i1 j1 k1 (dx : Z -> Qc) (beta : Qc) b0 b1 b2 gcw u f0 f1 f2 (alpha : Qc) rgcw res sgcw st offset fgcw f (mx ms : mem QcS) (r w v0 v1 v2 : Z -> Z -> Z -> Qc) (c1 c2 : Z) (A B E : Qc) (n : nat) (m : mem QcS),
  i0 <= i1 + 1 -> j0 <= j1 + 1 -> k0 <= k1 + 1 -> 1 <= gcw -> 0 <= c1 -> 0 <= c2 -> Z.odd (c1 + c2) = true -> fst u <> fst st -> fst u <> fst f ->
  (0 <= beta)%Qc -> (0 < A)%Qc -> (0 <= B)%Qc ->
  (forall i j k, i0 <= i <= i1 + 1 -> j0 <= j <= j1 -> k0 <= k <= k1 -> (0 <= v0 i j k)%Qc /\ (v0 i j k <= B)%Qc) ->
  (forall i j k, i0 <= i <= i1 -> j0 <= j <= j1 + 1 -> k0 <= k <= k1 -> (0 <= v1 i j k)%Qc /\ (v1 i j k <= B)%Qc) ->
  (forall i j k, i0 <= i <= i1 -> j0 <= j <= j1 -> k0 <= k <= k1 + 1 -> (0 <= v2 i j k)%Qc /\ (v2 i j k <= B)%Qc) ->
  (A <= alpha)%Qc ->
  applied_v2_3d (S := QcS) i0 j0 k0 i1 j1 k1 dx beta b0 b1 b2 gcw u f0 f1 f2 alpha rgcw res mx r w v0 v1 v2 ->
  assembled_v2_3d i0 j0 k0 i1 j1 k1 dx beta b0 b1 b2 alpha sgcw st offset fgcw f ms r v0 v1 v2 ->
  equals ms (mkFa u (CELL3d i0 j0 k0 i1 j1 k1 gcw)) (at3 w) (around (mkFa u (CELL3d i0 j0 k0 i1 j1 k1 gcw)) [(i0, i1); (j0, j1); (k0, k1)]) ->
  (0 <= E)%Qc -> within ms (mkFa u (CELL3d i0 j0 k0 i1 j1 k1 gcw)) (at3 w) E (in_box [(i0, i1); (j0, j1); (k0, k1)]) ->
  repeated n (twice (cells7rbgs3d i0 i1 j0 j1 k0 k1 c1 (i0 - sgcw) (i1 + sgcw) (j0 - sgcw) (j1 + sgcw) (k0 - sgcw) (k1 + sgcw) st (i0 - fgcw) (i1 + fgcw) (j0 - fgcw) (j1 + fgcw) (k0 - fgcw) (k1 + fgcw) f (i0 - gcw) (i1 + gcw) (j0 - gcw) (j1 + gcw) (k0 - gcw) (k1 + gcw) u)
     (cells7rbgs3d i0 i1 j0 j1 k0 k1 c2 (i0 - sgcw) (i1 + sgcw) (j0 - sgcw) (j1 + sgcw) (k0 - sgcw) (k1 + sgcw) st (i0 - fgcw) (i1 + fgcw) (j0 - fgcw) (j1 + fgcw) (k0 - fgcw) (k1 + fgcw) f (i0 - gcw) (i1 + gcw) (j0 - gcw) (j1 + gcw) (k0 - gcw) (k1 + gcw) u)) ms = Some m ->
  let K := ((1 + 1) * B * (beta / (dx 0%Z * dx 0%Z) + beta / (dx 1%Z * dx 1%Z) + beta / (dx 2%Z * dx 2%Z)))%Qc in
  within m (mkFa u (CELL3d i0 j0 k0 i1 j1 k1 gcw)) (at3 w) ((K / (K + A)) ^ n * E)%Qc (in_box [(i0, i1); (j0, j1); (k0, k1)]))%Z.
Proof.
  intros i0 j0 k0 i1 j1 k1 dx beta b0 b1 b2 gcw u f0 f1 f2 alpha rgcw res sgcw st offset fgcw f mx ms r w v0 v1 v2 c1 c2 A B E n m.
  intros Hbi Hbj Hbk Hgcw P0 P1 P2 P3 P4 Hbeta HA HB Q0 Q1 Q2 Ha Hop Has Heq HE Hw Hrep K.
  destruct (ready_v2_3d i0 j0 k0 i1 j1 k1 dx beta b0 b1 b2 gcw u f0 f1 f2 alpha rgcw res sgcw st offset fgcw f mx ms r w v0 v1 v2 A B Hbi Hbj Hbk Hgcw Hbeta HA HB Q0 Q1 Q2 Ha Hop Has) as (Sol & Fit & Dom & L0 & L1).
  assert (C := cells7rbgs3d_converges i0 i1 j0 j1 k0 k1 c1 c2 offset (i0 - sgcw)%Z (i1 + sgcw)%Z (j0 - sgcw)%Z (j1 + sgcw)%Z (k0 - sgcw)%Z (k1 + sgcw)%Z st (i0 - fgcw)%Z (i1 + fgcw)%Z (j0 - fgcw)%Z (j1 + fgcw)%Z (k0 - fgcw)%Z (k1 + fgcw)%Z f (i0 - gcw)%Z (i1 + gcw)%Z (j0 - gcw)%Z (j1 + gcw)%Z (k0 - gcw)%Z (k1 + gcw)%Z u ms P0 P1 P2 P3 P4 ltac:(destruct Has as (_ & _ & m0 & Has); decompose [and] Has; assumption)).
  rewrite !cell_bounds_3 in C.
  exact (C (at3 w) (K / (K + A)) E n m Fit Dom L0 L1 Sol Heq HE Hw Hrep).
Qed.

Lemma relax_jac_v2_3d : (forall i0 j0 k0 i1 j1 k1 (dx : Z -> Qc) (beta : Qc) b0 b1 b2 gcw u f0 f1 f2 (alpha : Qc) rgcw res sgcw st offset fgcw f (mx ms : mem QcS) (r w v0 v1 v2 : Z -> Z -> Z -> Qc) z (om : Qc) (A B E : Qc) (n : nat) (m : mem QcS),
  i0 <= i1 + 1 -> j0 <= j1 + 1 -> k0 <= k1 + 1 -> 1 <= gcw -> fst u <> fst st -> fst u <> fst f -> fst u <> fst z -> fst z <> fst st -> fst z <> fst f -> (0 <= om)%Qc -> (om <= 1)%Qc ->
  (0 <= beta)%Qc -> (0 < A)%Qc -> (0 <= B)%Qc ->
  (forall i j k, i0 <= i <= i1 + 1 -> j0 <= j <= j1 -> k0 <= k <= k1 -> (0 <= v0 i j k)%Qc /\ (v0 i j k <= B)%Qc) ->
  (forall i j k, i0 <= i <= i1 -> j0 <= j <= j1 + 1 -> k0 <= k <= k1 -> (0 <= v1 i j k)%Qc /\ (v1 i j k <= B)%Qc) ->
  (forall i j k, i0 <= i <= i1 -> j0 <= j <= j1 -> k0 <= k <= k1 + 1 -> (0 <= v2 i j k)%Qc /\ (v2 i j k <= B)%Qc) ->
  (A <= alpha)%Qc ->
  applied_v2_3d (S := QcS) i0 j0 k0 i1 j1 k1 dx beta b0 b1 b2 gcw u f0 f1 f2 alpha rgcw res mx r w v0 v1 v2 ->
  assembled_v2_3d i0 j0 k0 i1 j1 k1 dx beta b0 b1 b2 alpha sgcw st offset fgcw f ms r v0 v1 v2 ->
  equals ms (mkFa u (CELL3d i0 j0 k0 i1 j1 k1 gcw)) (at3 w) (around (mkFa u (CELL3d i0 j0 k0 i1 j1 k1 gcw)) [(i0, i1); (j0, j1); (k0, k1)]) ->
  (0 <= E)%Qc -> within ms (mkFa u (CELL3d i0 j0 k0 i1 j1 k1 gcw)) (at3 w) E (in_box [(i0, i1); (j0, j1); (k0, k1)]) ->
  repeated n (celljacobi3d i0 i1 j0 j1 k0 k1 7 offset (i0 - sgcw) (i1 + sgcw) (j0 - sgcw) (j1 + sgcw) (k0 - sgcw) (k1 + sgcw) st (i0 - fgcw) (i1 + fgcw) (j0 - fgcw) (j1 + fgcw) (k0 - fgcw) (k1 + fgcw) f (i0 - gcw) (i1 + gcw) (j0 - gcw) (j1 + gcw) (k0 - gcw) (k1 + gcw) u z (om : QcS)) ms = Some m ->
  let K := ((1 + 1) * B * (beta / (dx 0%Z * dx 0%Z) + beta / (dx 1%Z * dx 1%Z) + beta / (dx 2%Z * dx 2%Z)))%Qc in
  within m (mkFa u (CELL3d i0 j0 k0 i1 j1 k1 gcw)) (at3 w) ((1 - om + om * (K / (K + A))) ^ n * E)%Qc (in_box [(i0, i1); (j0, j1); (k0, k1)]))%Z.
Proof.
  intros i0 j0 k0 i1 j1 k1 dx beta b0 b1 b2 gcw u f0 f1 f2 alpha rgcw res sgcw st offset fgcw f mx ms r w v0 v1 v2 z om A B E n m.
  intros Hbi Hbj Hbk Hgcw P0 P1 P2 P3 P4 P5 P6 Hbeta HA HB Q0 Q1 Q2 Ha Hop Has Heq HE Hw Hrep K.
  destruct (ready_v2_3d i0 j0 k0 i1 j1 k1 dx beta b0 b1 b2 gcw u f0 f1 f2 alpha rgcw res sgcw st offset fgcw f mx ms r w v0 v1 v2 A B Hbi Hbj Hbk Hgcw Hbeta HA HB Q0 Q1 Q2 Ha Hop Has) as (Sol & Fit & Dom & L0 & L1).
  assert (C := celljacobi3d_converges i0 i1 j0 j1 k0 k1 7%Z offset (i0 - sgcw)%Z (i1 + sgcw)%Z (j0 - sgcw)%Z (j1 + sgcw)%Z (k0 - sgcw)%Z (k1 + sgcw)%Z st (i0 - fgcw)%Z (i1 + fgcw)%Z (j0 - fgcw)%Z (j1 + fgcw)%Z (k0 - fgcw)%Z (k1 + fgcw)%Z f (i0 - gcw)%Z (i1 + gcw)%Z (j0 - gcw)%Z (j1 + gcw)%Z (k0 - gcw)%Z (k1 + gcw)%Z u z om ms P0 P1 P2 P3 P4 P5 P6).
  rewrite !cell_bounds_3 in C.
  exact (C (at3 w) (K / (K + A)) E n m Fit Dom L0 L1 Sol Heq HE Hw Hrep).
Qed.
