(** * Solutions in memory *)

From Coq Require Import Field QArith Qcanon.
From Verif Require Import Base LemBase ModelBounds ModelMatrix ModelIters ModelSpan ModelProxy Spec SpecAssign FortranBase SpecKernel
  Instances LemField KernelsFlux KernelsApply LemFortran SpecRel SpecPrograms SpecRound LemRound3 SpecSolve LemSolve LemSolveOp.
Import ListNotations.
Open Scope Z_scope.

(** Storing a value in every element of a list of different ones. *)
Lemma fill {S : Scalar} {A} (l : list A) (ad : A -> ptr) (f : A -> S) (m : mem S) :
  NoDup l -> (forall x y, In x l -> In y l -> ad x = ad y -> x = y) ->
  (forall x, In x l -> exists v, load m (ad x) = Some v) ->
  exists n, shape n = shape m /\ ints n = ints m /\ (forall x, In x l -> load n (ad x) = Some (f x)) /\
    (forall p, (forall x, In x l -> ad x <> p) -> load n p = load m p).
Proof.
  intros Hn. revert m. induction Hn as [|x l Hx Hn IH]; intros m Inj Ld.
  - exists m. repeat split; intros; contradiction.
  - destruct (proj1 (store_Some m (ad x) (f x)) (Ld x (or_introl eq_refl))) as (m1 & E).
    destruct (IH m1) as (n & H1 & H2 & H3 & H4).
    { intros y z Hy Hz. apply Inj; now right. }
    { intros y Hy. rewrite (load_store _ _ _ _ _ E). destruct (ptr_dec _ _); [eauto|]. apply Ld. now right. }
    assert (O : forall y, In y l -> ad y <> ad x).
    { intros y Hy C. apply Inj in C; [subst y; contradiction|now right|now left]. }
    exists n. split; [rewrite H1; exact (store_shape _ _ _ _ E)|]. split; [rewrite H2; exact (store_ints _ _ _ _ E)|]. split.
    + intros y [<-|Hy]; [|now apply H3]. rewrite H4 by exact O. rewrite (load_store _ _ _ _ _ E).
      destruct (ptr_dec _ _); [reflexivity|contradiction].
    + intros p Hp. rewrite H4 by (intros y Hy; apply Hp; now right). rewrite (load_store _ _ _ _ _ E).
      destruct (ptr_dec _ _) as [C|]; [|reflexivity]. exfalso. apply (Hp x); [now left|]. now rewrite C.
Qed.

(** A kernel that completes does so on any memory of the same shape. *)
Lemma completes (K : prog) (p p' : Z -> QcS) (m n m' : mem QcS) : kernel K -> shape m = shape n -> ints m = ints n ->
  K QcS p m = Some m' -> exists n', K QcS p' n = Some n' /\ shape m' = shape n' /\ ints m' = ints n'.
Proof.
  intros HK Hs Hi E. pose proof (kernel_oblivious K HK QcS QcS p p' m n Hs Hi) as O. unfold elementwise in O.
  rewrite E in O. destruct (K QcS p' n) as [n'|]; [|contradiction]. exists n'. tauto.
Qed.

Definition params (dx : Z -> Qc) (alpha beta : Qc) : Z -> QcS := fun d => if d =? 3 then alpha else if d =? 4 then beta else dx d.
Definition value (m : mem QcS) (p : ptr) : Qc := match load m p with Some x => x | None => 0%Qc end.

Lemma other_array (p q : ptr) ds ds' is is' : fst q <> fst p -> faddr (mkFa p ds) is <> faddr (mkFa q ds') is'.
Proof. intros H C. apply H. apply (f_equal fst) in C. cbn in C. congruence. Qed.

Ltac k_range := repeat constructor; cbn [fst snd]; unfold patch1, patch2, patch3 in *; lia.

Lemma solve_v1_1d i0 i1 (dx : Z -> Qc) (beta : Qc) b0 gcw u f0 (alpha : Qc) agcw a rgcw res (m : mem QcS) (r w c v0 f : Z -> Qc) :
  applied_v1_1d (S := QcS) i0 i1 dx beta b0 gcw u f0 alpha agcw a rgcw res m r w c v0 ->
  1 <= gcw ->
  apart u [b0; a] ->
  (0 < beta)%Qc ->
  dx 0 <> 0%Qc ->
  (0 <= alpha)%Qc ->
  (forall i, patch1 i0 i1 i -> (0 <= c i)%Qc) ->
  (forall i, i0 <= i <= i1 + 1 -> (0 < v0 i)%Qc) ->
  exists (n : mem QcS) (z : Z -> Qc), applied_v1_1d (S := QcS) i0 i1 dx beta b0 gcw u f0 alpha agcw a rgcw res n f z c v0 /\
    (forall i, ~ patch1 i0 i1 i -> z i = w i) /\
    shape n = shape m /\ ints n = ints m /\
    (forall p, (forall i, patch1 i0 i1 i -> faddr (mkFa u (CELL1d i0 i1 gcw)) [i] <> p) -> load n p = load m p).
Proof.
  intros Ap G1 Au Hb Hh Ha Hc Hv0.
  destruct (exists_v1_1d i0 i1 dx beta b0 gcw u f0 alpha agcw a rgcw res w f c v0 Hb Hh Ha Hc Hv0) as (z & Hz & Hs).
  destruct Ap as (Hg & Hr & A0 & A1 & mo & E & R0 & R1 & R2 & R3).
  destruct (fill (S := QcS) (cells1 i0 i1) (fun i => faddr (mkFa u (CELL1d i0 i1 gcw)) [i]) z m (nodup_cells1 i0 i1)) as (n & Sn & In' & Ln & Fn).
  { intros i i' H H' Eq. cbn [fst snd] in Eq. apply in_cells1 in H, H'.
    apply faddr_inj in Eq; [congruence| |]; k_range. }
  { intros i H. apply in_cells1 in H. cbn [fst snd]. exists (w i). apply (R1 i); k_near. }
  assert (Fp : forall p, (forall i, patch1 i0 i1 i -> faddr (mkFa u (CELL1d i0 i1 gcw)) [i] <> p) -> load n p = load m p).
  { intros p Hp. apply Fn. intros i H. apply in_cells1 in H. now apply Hp. }
  assert (Fo : forall p ds is, fst p <> fst u -> load n (faddr (mkFa p ds) is) = load m (faddr (mkFa p ds) is)).
  { intros p ds is Hp. apply Fp. intros i _. apply other_array. exact Hp. }
  apply bind_Some_inv in E as (m1 & E1 & E2).
  destruct (completes _ dx dx m n m1 (L_cdf_1d_flux _ _ _ _ _ _) (eq_sym Sn) (eq_sym In') E1) as (n1 & F1 & S1 & I1).
  destruct (completes _ (params dx alpha beta) (params dx alpha beta) m1 n1 mo (L_cd_apply_1d_diffusion_v1_apply _ _ _ _ _ _ _ _ _) S1 I1 E2) as (no & F2 & S2 & I2).
  assert (An : forall s, (forall i, patch1 i0 i1 i -> fel (mkFa res (CELL1d i0 i1 rgcw)) [i] no = Some (s i : QcS)) -> applied_v1_1d (S := QcS) i0 i1 dx beta b0 gcw u f0 alpha agcw a rgcw res n s z c v0).
  { intros s Hss. split; [assumption|]. split; [assumption|]. split; [assumption|]. split; [assumption|]. exists no.
    split; [rewrite F1; exact F2|]. split; [intros; apply Hss; k_near|].
    split.
    - intros i Ii. destruct (patch_dec1 i0 i1 i) as [Y|N].
      + apply (Ln i). now apply in_cells1.
      + rewrite (Hz i N), <- (R1 i Ii). apply Fp. intros i' H Eq. apply N.
        apply faddr_inj in Eq; [|k_range|k_range]. injection Eq as <-. exact H.
    - split; [intros i Ii; rewrite <- (R2 i Ii); apply Fo; apply (proj1 (Forall_forall _ _) Au); cbn; tauto|].
      intros i Ii; rewrite <- (R3 i Ii); apply Fo; apply (proj1 (Forall_forall _ _) Au); cbn; tauto. }
  exists n, z. split; [|split; [exact Hz|split; [exact Sn|split; [exact In'|exact Fp]]]].
  apply An. intros i Ip.
  assert (Rd : forall i, patch1 i0 i1 i -> fel (mkFa res (CELL1d i0 i1 rgcw)) [i] no = Some (value no (faddr (mkFa res (CELL1d i0 i1 rgcw)) [i]) : QcS)).
  { clear i Ip. intros i Ip. destruct (shape_loads mo no (faddr (mkFa res (CELL1d i0 i1 rgcw)) [i]) (r i) S2) as (y & Ey); [apply (R0 i); k_near|].
    unfold fel, value. rewrite Ey. reflexivity. }
  rewrite (Rd i Ip). f_equal.
  exact (Hs n (fun i => value no (faddr (mkFa res (CELL1d i0 i1 rgcw)) [i])) (An _ Rd) i Ip).
Qed.

Lemma solve_v2_1d i0 i1 (dx : Z -> Qc) (beta : Qc) b0 gcw u f0 (alpha : Qc) rgcw res (m : mem QcS) (r w v0 f : Z -> Qc) :
  applied_v2_1d (S := QcS) i0 i1 dx beta b0 gcw u f0 alpha rgcw res m r w v0 ->
  1 <= gcw ->
  apart u [b0] ->
  (0 < beta)%Qc ->
  dx 0 <> 0%Qc ->
  (0 <= alpha)%Qc ->
  (forall i, i0 <= i <= i1 + 1 -> (0 < v0 i)%Qc) ->
  exists (n : mem QcS) (z : Z -> Qc), applied_v2_1d (S := QcS) i0 i1 dx beta b0 gcw u f0 alpha rgcw res n f z v0 /\
    (forall i, ~ patch1 i0 i1 i -> z i = w i) /\
    shape n = shape m /\ ints n = ints m /\
    (forall p, (forall i, patch1 i0 i1 i -> faddr (mkFa u (CELL1d i0 i1 gcw)) [i] <> p) -> load n p = load m p).
Proof.
  intros Ap G1 Au Hb Hh Ha Hv0.
  destruct (exists_v2_1d i0 i1 dx beta b0 gcw u f0 alpha rgcw res w f v0 Hb Hh Ha Hv0) as (z & Hz & Hs).
  destruct Ap as (Hg & Hr & A0 & A1 & mo & E & R0 & R1 & R2).
  destruct (fill (S := QcS) (cells1 i0 i1) (fun i => faddr (mkFa u (CELL1d i0 i1 gcw)) [i]) z m (nodup_cells1 i0 i1)) as (n & Sn & In' & Ln & Fn).
  { intros i i' H H' Eq. cbn [fst snd] in Eq. apply in_cells1 in H, H'.
    apply faddr_inj in Eq; [congruence| |]; k_range. }
  { intros i H. apply in_cells1 in H. cbn [fst snd]. exists (w i). apply (R1 i); k_near. }
  assert (Fp : forall p, (forall i, patch1 i0 i1 i -> faddr (mkFa u (CELL1d i0 i1 gcw)) [i] <> p) -> load n p = load m p).
  { intros p Hp. apply Fn. intros i H. apply in_cells1 in H. now apply Hp. }
  assert (Fo : forall p ds is, fst p <> fst u -> load n (faddr (mkFa p ds) is) = load m (faddr (mkFa p ds) is)).
  { intros p ds is Hp. apply Fp. intros i _. apply other_array. exact Hp. }
  apply bind_Some_inv in E as (m1 & E1 & E2).
  destruct (completes _ dx dx m n m1 (L_cdf_1d_flux _ _ _ _ _ _) (eq_sym Sn) (eq_sym In') E1) as (n1 & F1 & S1 & I1).
  destruct (completes _ (params dx alpha beta) (params dx alpha beta) m1 n1 mo (L_cd_apply_1d_diffusion_v2_apply _ _ _ _ _ _ _) S1 I1 E2) as (no & F2 & S2 & I2).
  assert (An : forall s, (forall i, patch1 i0 i1 i -> fel (mkFa res (CELL1d i0 i1 rgcw)) [i] no = Some (s i : QcS)) -> applied_v2_1d (S := QcS) i0 i1 dx beta b0 gcw u f0 alpha rgcw res n s z v0).
  { intros s Hss. split; [assumption|]. split; [assumption|]. split; [assumption|]. split; [assumption|]. exists no.
    split; [rewrite F1; exact F2|]. split; [intros; apply Hss; k_near|].
    split.
    - intros i Ii. destruct (patch_dec1 i0 i1 i) as [Y|N].
      + apply (Ln i). now apply in_cells1.
      + rewrite (Hz i N), <- (R1 i Ii). apply Fp. intros i' H Eq. apply N.
        apply faddr_inj in Eq; [|k_range|k_range]. injection Eq as <-. exact H.
    - intros i Ii; rewrite <- (R2 i Ii); apply Fo; apply (proj1 (Forall_forall _ _) Au); cbn; tauto. }
  exists n, z. split; [|split; [exact Hz|split; [exact Sn|split; [exact In'|exact Fp]]]].
  apply An. intros i Ip.
  assert (Rd : forall i, patch1 i0 i1 i -> fel (mkFa res (CELL1d i0 i1 rgcw)) [i] no = Some (value no (faddr (mkFa res (CELL1d i0 i1 rgcw)) [i]) : QcS)).
  { clear i Ip. intros i Ip. destruct (shape_loads mo no (faddr (mkFa res (CELL1d i0 i1 rgcw)) [i]) (r i) S2) as (y & Ey); [apply (R0 i); k_near|].
    unfold fel, value. rewrite Ey. reflexivity. }
  rewrite (Rd i Ip). f_equal.
  exact (Hs n (fun i => value no (faddr (mkFa res (CELL1d i0 i1 rgcw)) [i])) (An _ Rd) i Ip).
Qed.

Lemma solve_poisson_1d i0 i1 (dx : Z -> Qc) (beta : Qc) gcw u f0 rgcw res (m : mem QcS) (r w f : Z -> Qc) :
  applied_poisson_1d (S := QcS) i0 i1 dx beta gcw u f0 rgcw res m r w ->
  1 <= gcw ->
  (0 < beta)%Qc ->
  dx 0 <> 0%Qc ->
  exists (n : mem QcS) (z : Z -> Qc), applied_poisson_1d (S := QcS) i0 i1 dx beta gcw u f0 rgcw res n f z /\
    (forall i, ~ patch1 i0 i1 i -> z i = w i) /\
    shape n = shape m /\ ints n = ints m /\
    (forall p, (forall i, patch1 i0 i1 i -> faddr (mkFa u (CELL1d i0 i1 gcw)) [i] <> p) -> load n p = load m p).
Proof.
  intros Ap G1 Hb Hh.
  destruct (exists_poisson_1d i0 i1 dx beta gcw u f0 rgcw res w f  Hb Hh) as (z & Hz & Hs).
  destruct Ap as (Hg & Hr & A0 & A1 & mo & E & R0 & R1).
  destruct (fill (S := QcS) (cells1 i0 i1) (fun i => faddr (mkFa u (CELL1d i0 i1 gcw)) [i]) z m (nodup_cells1 i0 i1)) as (n & Sn & In' & Ln & Fn).
  { intros i i' H H' Eq. cbn [fst snd] in Eq. apply in_cells1 in H, H'.
    apply faddr_inj in Eq; [congruence| |]; k_range. }
  { intros i H. apply in_cells1 in H. cbn [fst snd]. exists (w i). apply (R1 i); k_near. }
  assert (Fp : forall p, (forall i, patch1 i0 i1 i -> faddr (mkFa u (CELL1d i0 i1 gcw)) [i] <> p) -> load n p = load m p).
  { intros p Hp. apply Fn. intros i H. apply in_cells1 in H. now apply Hp. }
  assert (Fo : forall p ds is, fst p <> fst u -> load n (faddr (mkFa p ds) is) = load m (faddr (mkFa p ds) is)).
  { intros p ds is Hp. apply Fp. intros i _. apply other_array. exact Hp. }
  apply bind_Some_inv in E as (m1 & E1 & E2).
  destruct (completes _ dx dx m n m1 (L_cdf_1d_poisson_flux _ _ _ _ _) (eq_sym Sn) (eq_sym In') E1) as (n1 & F1 & S1 & I1).
  destruct (completes _ (params dx 0%Qc beta) (params dx 0%Qc beta) m1 n1 mo (L_cd_apply_1d_poisson_v2_apply _ _ _ _ _) S1 I1 E2) as (no & F2 & S2 & I2).
  assert (An : forall s, (forall i, patch1 i0 i1 i -> fel (mkFa res (CELL1d i0 i1 rgcw)) [i] no = Some (s i : QcS)) -> applied_poisson_1d (S := QcS) i0 i1 dx beta gcw u f0 rgcw res n s z).
  { intros s Hss. split; [assumption|]. split; [assumption|]. split; [assumption|]. split; [assumption|]. exists no.
    split; [rewrite F1; exact F2|]. split; [intros; apply Hss; k_near|].
    intros i Ii. destruct (patch_dec1 i0 i1 i) as [Y|N].
    + apply (Ln i). now apply in_cells1.
    + rewrite (Hz i N), <- (R1 i Ii). apply Fp. intros i' H Eq. apply N.
        apply faddr_inj in Eq; [|k_range|k_range]. injection Eq as <-. exact H.
 }
  exists n, z. split; [|split; [exact Hz|split; [exact Sn|split; [exact In'|exact Fp]]]].
  apply An. intros i Ip.
  assert (Rd : forall i, patch1 i0 i1 i -> fel (mkFa res (CELL1d i0 i1 rgcw)) [i] no = Some (value no (faddr (mkFa res (CELL1d i0 i1 rgcw)) [i]) : QcS)).
  { clear i Ip. intros i Ip. destruct (shape_loads mo no (faddr (mkFa res (CELL1d i0 i1 rgcw)) [i]) (r i) S2) as (y & Ey); [apply (R0 i); k_near|].
    unfold fel, value. rewrite Ey. reflexivity. }
  rewrite (Rd i Ip). f_equal.
  exact (Hs n (fun i => value no (faddr (mkFa res (CELL1d i0 i1 rgcw)) [i])) (An _ Rd) i Ip).
Qed.

Lemma solve_v1_2d i0 j0 i1 j1 (dx : Z -> Qc) (beta : Qc) b0 b1 gcw u f0 f1 (alpha : Qc) agcw a rgcw res (m : mem QcS) (r w c v0 v1 f : Z -> Z -> Qc) :
  applied_v1_2d (S := QcS) i0 j0 i1 j1 dx beta b0 b1 gcw u f0 f1 alpha agcw a rgcw res m r w c v0 v1 ->
  1 <= gcw ->
  apart u [b0; b1; a] ->
  (0 < beta)%Qc ->
  dx 0 <> 0%Qc ->
  (0 <= alpha)%Qc ->
  (forall i j, patch2 i0 j0 i1 j1 i j -> (0 <= c i j)%Qc) ->
  (forall i j, i0 <= i <= i1 + 1 -> j0 <= j <= j1 -> (0 < v0 i j)%Qc) ->
  (forall i j, i0 <= i <= i1 -> j0 <= j <= j1 + 1 -> (0 <= v1 i j)%Qc) ->
  exists (n : mem QcS) (z : Z -> Z -> Qc), applied_v1_2d (S := QcS) i0 j0 i1 j1 dx beta b0 b1 gcw u f0 f1 alpha agcw a rgcw res n f z c v0 v1 /\
    (forall i j, ~ patch2 i0 j0 i1 j1 i j -> z i j = w i j) /\
    shape n = shape m /\ ints n = ints m /\
    (forall p, (forall i j, patch2 i0 j0 i1 j1 i j -> faddr (mkFa u (CELL2d i0 j0 i1 j1 gcw)) [i; j] <> p) -> load n p = load m p).
Proof.
  intros Ap G1 Au Hb Hh Ha Hc Hv0 Hv1.
  destruct (exists_v1_2d i0 j0 i1 j1 dx beta b0 b1 gcw u f0 f1 alpha agcw a rgcw res w f c v0 v1 Hb Hh Ha Hc Hv0 Hv1) as (z & Hz & Hs).
  destruct Ap as (Hg & Hr & A0 & A1 & A2 & mo & E & R0 & R1 & R2 & R3 & R4).
  destruct (fill (S := QcS) (cells2 i0 j0 i1 j1) (fun p : Z * Z => faddr (mkFa u (CELL2d i0 j0 i1 j1 gcw)) [fst p; snd p]) (fun p : Z * Z => z (fst p) (snd p)) m (nodup_cells2 i0 j0 i1 j1)) as (n & Sn & In' & Ln & Fn).
  { intros [i j] [i' j'] H H' Eq. cbn [fst snd] in Eq. apply in_cells2 in H, H'.
    apply faddr_inj in Eq; [congruence| |]; k_range. }
  { intros [i j] H. apply in_cells2 in H. cbn [fst snd]. exists (w i j). apply (R1 i j); k_near. }
  assert (Fp : forall p, (forall i j, patch2 i0 j0 i1 j1 i j -> faddr (mkFa u (CELL2d i0 j0 i1 j1 gcw)) [i; j] <> p) -> load n p = load m p).
  { intros p Hp. apply Fn. intros [i j] H. apply in_cells2 in H. now apply Hp. }
  assert (Fo : forall p ds is, fst p <> fst u -> load n (faddr (mkFa p ds) is) = load m (faddr (mkFa p ds) is)).
  { intros p ds is Hp. apply Fp. intros i j _. apply other_array. exact Hp. }
  apply bind_Some_inv in E as (m1 & E1 & E2).
  destruct (completes _ dx dx m n m1 (L_cdf_2d_flux _ _ _ _ _ _ _ _ _ _) (eq_sym Sn) (eq_sym In') E1) as (n1 & F1 & S1 & I1).
  destruct (completes _ (params dx alpha beta) (params dx alpha beta) m1 n1 mo (L_cd_apply_2d_diffusion_v1_apply _ _ _ _ _ _ _ _ _ _ _ _) S1 I1 E2) as (no & F2 & S2 & I2).
  assert (An : forall s, (forall i j, patch2 i0 j0 i1 j1 i j -> fel (mkFa res (CELL2d i0 j0 i1 j1 rgcw)) [i; j] no = Some (s i j : QcS)) -> applied_v1_2d (S := QcS) i0 j0 i1 j1 dx beta b0 b1 gcw u f0 f1 alpha agcw a rgcw res n s z c v0 v1).
  { intros s Hss. split; [assumption|]. split; [assumption|]. split; [assumption|]. split; [assumption|]. split; [assumption|]. exists no.
    split; [rewrite F1; exact F2|]. split; [intros; apply Hss; k_near|].
    split.
    - intros i j Ii Ij. destruct (patch_dec2 i0 j0 i1 j1 i j) as [Y|N].
      + apply (Ln (i, j)). now apply in_cells2.
      + rewrite (Hz i j N), <- (R1 i j Ii Ij). apply Fp. intros i' j' H Eq. apply N.
        apply faddr_inj in Eq; [|k_range|k_range]. injection Eq as <- <-. exact H.
    - split; [intros i j Ii Ij; rewrite <- (R2 i j Ii Ij); apply Fo; apply (proj1 (Forall_forall _ _) Au); cbn; tauto|].
      split; [intros i j Ii Ij; rewrite <- (R3 i j Ii Ij); apply Fo; apply (proj1 (Forall_forall _ _) Au); cbn; tauto|].
      intros i j Ii Ij; rewrite <- (R4 i j Ii Ij); apply Fo; apply (proj1 (Forall_forall _ _) Au); cbn; tauto. }
  exists n, z. split; [|split; [exact Hz|split; [exact Sn|split; [exact In'|exact Fp]]]].
  apply An. intros i j Ip.
  assert (Rd : forall i j, patch2 i0 j0 i1 j1 i j -> fel (mkFa res (CELL2d i0 j0 i1 j1 rgcw)) [i; j] no = Some (value no (faddr (mkFa res (CELL2d i0 j0 i1 j1 rgcw)) [i; j]) : QcS)).
  { clear i j Ip. intros i j Ip. destruct (shape_loads mo no (faddr (mkFa res (CELL2d i0 j0 i1 j1 rgcw)) [i; j]) (r i j) S2) as (y & Ey); [apply (R0 i j); k_near|].
    unfold fel, value. rewrite Ey. reflexivity. }
  rewrite (Rd i j Ip). f_equal.
  exact (Hs n (fun i j => value no (faddr (mkFa res (CELL2d i0 j0 i1 j1 rgcw)) [i; j])) (An _ Rd) i j Ip).
Qed.

Lemma solve_v2_2d i0 j0 i1 j1 (dx : Z -> Qc) (beta : Qc) b0 b1 gcw u f0 f1 (alpha : Qc) rgcw res (m : mem QcS) (r w v0 v1 f : Z -> Z -> Qc) :
  applied_v2_2d (S := QcS) i0 j0 i1 j1 dx beta b0 b1 gcw u f0 f1 alpha rgcw res m r w v0 v1 ->
  1 <= gcw ->
  apart u [b0; b1] ->
  (0 < beta)%Qc ->
  dx 0 <> 0%Qc ->
  (0 <= alpha)%Qc ->
  (forall i j, i0 <= i <= i1 + 1 -> j0 <= j <= j1 -> (0 < v0 i j)%Qc) ->
  (forall i j, i0 <= i <= i1 -> j0 <= j <= j1 + 1 -> (0 <= v1 i j)%Qc) ->
  exists (n : mem QcS) (z : Z -> Z -> Qc), applied_v2_2d (S := QcS) i0 j0 i1 j1 dx beta b0 b1 gcw u f0 f1 alpha rgcw res n f z v0 v1 /\
    (forall i j, ~ patch2 i0 j0 i1 j1 i j -> z i j = w i j) /\
    shape n = shape m /\ ints n = ints m /\
    (forall p, (forall i j, patch2 i0 j0 i1 j1 i j -> faddr (mkFa u (CELL2d i0 j0 i1 j1 gcw)) [i; j] <> p) -> load n p = load m p).
Proof.
  intros Ap G1 Au Hb Hh Ha Hv0 Hv1.
  destruct (exists_v2_2d i0 j0 i1 j1 dx beta b0 b1 gcw u f0 f1 alpha rgcw res w f v0 v1 Hb Hh Ha Hv0 Hv1) as (z & Hz & Hs).
  destruct Ap as (Hg & Hr & A0 & A1 & A2 & mo & E & R0 & R1 & R2 & R3).
  destruct (fill (S := QcS) (cells2 i0 j0 i1 j1) (fun p : Z * Z => faddr (mkFa u (CELL2d i0 j0 i1 j1 gcw)) [fst p; snd p]) (fun p : Z * Z => z (fst p) (snd p)) m (nodup_cells2 i0 j0 i1 j1)) as (n & Sn & In' & Ln & Fn).
  { intros [i j] [i' j'] H H' Eq. cbn [fst snd] in Eq. apply in_cells2 in H, H'.
    apply faddr_inj in Eq; [congruence| |]; k_range. }
  { intros [i j] H. apply in_cells2 in H. cbn [fst snd]. exists (w i j). apply (R1 i j); k_near. }
  assert (Fp : forall p, (forall i j, patch2 i0 j0 i1 j1 i j -> faddr (mkFa u (CELL2d i0 j0 i1 j1 gcw)) [i; j] <> p) -> load n p = load m p).
  { intros p Hp. apply Fn. intros [i j] H. apply in_cells2 in H. now apply Hp. }
  assert (Fo : forall p ds is, fst p <> fst u -> load n (faddr (mkFa p ds) is) = load m (faddr (mkFa p ds) is)).
  { intros p ds is Hp. apply Fp. intros i j _. apply other_array. exact Hp. }
  apply bind_Some_inv in E as (m1 & E1 & E2).
  destruct (completes _ dx dx m n m1 (L_cdf_2d_flux _ _ _ _ _ _ _ _ _ _) (eq_sym Sn) (eq_sym In') E1) as (n1 & F1 & S1 & I1).
  destruct (completes _ (params dx alpha beta) (params dx alpha beta) m1 n1 mo (L_cd_apply_2d_diffusion_v2_apply _ _ _ _ _ _ _ _ _ _) S1 I1 E2) as (no & F2 & S2 & I2).
  assert (An : forall s, (forall i j, patch2 i0 j0 i1 j1 i j -> fel (mkFa res (CELL2d i0 j0 i1 j1 rgcw)) [i; j] no = Some (s i j : QcS)) -> applied_v2_2d (S := QcS) i0 j0 i1 j1 dx beta b0 b1 gcw u f0 f1 alpha rgcw res n s z v0 v1).
  { intros s Hss. split; [assumption|]. split; [assumption|]. split; [assumption|]. split; [assumption|]. split; [assumption|]. exists no.
    split; [rewrite F1; exact F2|]. split; [intros; apply Hss; k_near|].
    split.
    - intros i j Ii Ij. destruct (patch_dec2 i0 j0 i1 j1 i j) as [Y|N].
      + apply (Ln (i, j)). now apply in_cells2.
      + rewrite (Hz i j N), <- (R1 i j Ii Ij). apply Fp. intros i' j' H Eq. apply N.
        apply faddr_inj in Eq; [|k_range|k_range]. injection Eq as <- <-. exact H.
    - split; [intros i j Ii Ij; rewrite <- (R2 i j Ii Ij); apply Fo; apply (proj1 (Forall_forall _ _) Au); cbn; tauto|].
      intros i j Ii Ij; rewrite <- (R3 i j Ii Ij); apply Fo; apply (proj1 (Forall_forall _ _) Au); cbn; tauto. }
  exists n, z. split; [|split; [exact Hz|split; [exact Sn|split; [exact In'|exact Fp]]]].
  apply An. intros i j Ip.
  assert (Rd : forall i j, patch2 i0 j0 i1 j1 i j -> fel (mkFa res (CELL2d i0 j0 i1 j1 rgcw)) [i; j] no = Some (value no (faddr (mkFa res (CELL2d i0 j0 i1 j1 rgcw)) [i; j]) : QcS)).
  { clear i j Ip. intros i j Ip. destruct (shape_loads mo no (faddr (mkFa res (CELL2d i0 j0 i1 j1 rgcw)) [i; j]) (r i j) S2) as (y & Ey); [apply (R0 i j); k_near|].
    unfold fel, value. rewrite Ey. reflexivity. }
  rewrite (Rd i j Ip). f_equal.
  exact (Hs n (fun i j => value no (faddr (mkFa res (CELL2d i0 j0 i1 j1 rgcw)) [i; j])) (An _ Rd) i j Ip).
Qed.

Lemma solve_poisson_2d i0 j0 i1 j1 (dx : Z -> Qc) (beta : Qc) gcw u f0 f1 rgcw res (m : mem QcS) (r w f : Z -> Z -> Qc) :
  applied_poisson_2d (S := QcS) i0 j0 i1 j1 dx beta gcw u f0 f1 rgcw res m r w ->
  1 <= gcw ->
  (0 < beta)%Qc ->
  dx 0 <> 0%Qc ->
  exists (n : mem QcS) (z : Z -> Z -> Qc), applied_poisson_2d (S := QcS) i0 j0 i1 j1 dx beta gcw u f0 f1 rgcw res n f z /\
    (forall i j, ~ patch2 i0 j0 i1 j1 i j -> z i j = w i j) /\
    shape n = shape m /\ ints n = ints m /\
    (forall p, (forall i j, patch2 i0 j0 i1 j1 i j -> faddr (mkFa u (CELL2d i0 j0 i1 j1 gcw)) [i; j] <> p) -> load n p = load m p).
Proof.
  intros Ap G1 Hb Hh.
  destruct (exists_poisson_2d i0 j0 i1 j1 dx beta gcw u f0 f1 rgcw res w f  Hb Hh) as (z & Hz & Hs).
  destruct Ap as (Hg & Hr & A0 & A1 & A2 & mo & E & R0 & R1).
  destruct (fill (S := QcS) (cells2 i0 j0 i1 j1) (fun p : Z * Z => faddr (mkFa u (CELL2d i0 j0 i1 j1 gcw)) [fst p; snd p]) (fun p : Z * Z => z (fst p) (snd p)) m (nodup_cells2 i0 j0 i1 j1)) as (n & Sn & In' & Ln & Fn).
  { intros [i j] [i' j'] H H' Eq. cbn [fst snd] in Eq. apply in_cells2 in H, H'.
    apply faddr_inj in Eq; [congruence| |]; k_range. }
  { intros [i j] H. apply in_cells2 in H. cbn [fst snd]. exists (w i j). apply (R1 i j); k_near. }
  assert (Fp : forall p, (forall i j, patch2 i0 j0 i1 j1 i j -> faddr (mkFa u (CELL2d i0 j0 i1 j1 gcw)) [i; j] <> p) -> load n p = load m p).
  { intros p Hp. apply Fn. intros [i j] H. apply in_cells2 in H. now apply Hp. }
  assert (Fo : forall p ds is, fst p <> fst u -> load n (faddr (mkFa p ds) is) = load m (faddr (mkFa p ds) is)).
  { intros p ds is Hp. apply Fp. intros i j _. apply other_array. exact Hp. }
  apply bind_Some_inv in E as (m1 & E1 & E2).
  destruct (completes _ dx dx m n m1 (L_cdf_2d_poisson_flux _ _ _ _ _ _ _ _) (eq_sym Sn) (eq_sym In') E1) as (n1 & F1 & S1 & I1).
  destruct (completes _ (params dx 0%Qc beta) (params dx 0%Qc beta) m1 n1 mo (L_cd_apply_2d_poisson_v2_apply _ _ _ _ _ _ _ _) S1 I1 E2) as (no & F2 & S2 & I2).
  assert (An : forall s, (forall i j, patch2 i0 j0 i1 j1 i j -> fel (mkFa res (CELL2d i0 j0 i1 j1 rgcw)) [i; j] no = Some (s i j : QcS)) -> applied_poisson_2d (S := QcS) i0 j0 i1 j1 dx beta gcw u f0 f1 rgcw res n s z).
  { intros s Hss. split; [assumption|]. split; [assumption|]. split; [assumption|]. split; [assumption|]. split; [assumption|]. exists no.
    split; [rewrite F1; exact F2|]. split; [intros; apply Hss; k_near|].
    intros i j Ii Ij. destruct (patch_dec2 i0 j0 i1 j1 i j) as [Y|N].
    + apply (Ln (i, j)). now apply in_cells2.
    + rewrite (Hz i j N), <- (R1 i j Ii Ij). apply Fp. intros i' j' H Eq. apply N.
        apply faddr_inj in Eq; [|k_range|k_range]. injection Eq as <- <-. exact H.
 }
  exists n, z. split; [|split; [exact Hz|split; [exact Sn|split; [exact In'|exact Fp]]]].
  apply An. intros i j Ip.
  assert (Rd : forall i j, patch2 i0 j0 i1 j1 i j -> fel (mkFa res (CELL2d i0 j0 i1 j1 rgcw)) [i; j] no = Some (value no (faddr (mkFa res (CELL2d i0 j0 i1 j1 rgcw)) [i; j]) : QcS)).
  { clear i j Ip. intros i j Ip. destruct (shape_loads mo no (faddr (mkFa res (CELL2d i0 j0 i1 j1 rgcw)) [i; j]) (r i j) S2) as (y & Ey); [apply (R0 i j); k_near|].
    unfold fel, value. rewrite Ey. reflexivity. }
  rewrite (Rd i j Ip). f_equal.
  exact (Hs n (fun i j => value no (faddr (mkFa res (CELL2d i0 j0 i1 j1 rgcw)) [i; j])) (An _ Rd) i j Ip).
Qed.

Lemma solve_v1_3d i0 j0 k0 i1 j1 k1 (dx : Z -> Qc) (beta : Qc) b0 b1 b2 gcw u f0 f1 f2 (alpha : Qc) agcw a rgcw res (m : mem QcS) (r w c v0 v1 v2 f : Z -> Z -> Z -> Qc) :
  applied_v1_3d (S := QcS) i0 j0 k0 i1 j1 k1 dx beta b0 b1 b2 gcw u f0 f1 f2 alpha agcw a rgcw res m r w c v0 v1 v2 ->
  1 <= gcw ->
  apart u [b0; b1; b2; a] ->
  (0 < beta)%Qc ->
  dx 0 <> 0%Qc ->
  (0 <= alpha)%Qc ->
  (forall i j k, patch3 i0 j0 k0 i1 j1 k1 i j k -> (0 <= c i j k)%Qc) ->
  (forall i j k, i0 <= i <= i1 + 1 -> j0 <= j <= j1 -> k0 <= k <= k1 -> (0 < v0 i j k)%Qc) ->
  (forall i j k, i0 <= i <= i1 -> j0 <= j <= j1 + 1 -> k0 <= k <= k1 -> (0 <= v1 i j k)%Qc) ->
  (forall i j k, i0 <= i <= i1 -> j0 <= j <= j1 -> k0 <= k <= k1 + 1 -> (0 <= v2 i j k)%Qc) ->
  exists (n : mem QcS) (z : Z -> Z -> Z -> Qc), applied_v1_3d (S := QcS) i0 j0 k0 i1 j1 k1 dx beta b0 b1 b2 gcw u f0 f1 f2 alpha agcw a rgcw res n f z c v0 v1 v2 /\
    (forall i j k, ~ patch3 i0 j0 k0 i1 j1 k1 i j k -> z i j k = w i j k) /\
    shape n = shape m /\ ints n = ints m /\
    (forall p, (forall i j k, patch3 i0 j0 k0 i1 j1 k1 i j k -> faddr (mkFa u (CELL3d i0 j0 k0 i1 j1 k1 gcw)) [i; j; k] <> p) -> load n p = load m p).
Proof.
  intros Ap G1 Au Hb Hh Ha Hc Hv0 Hv1 Hv2.
  destruct (exists_v1_3d i0 j0 k0 i1 j1 k1 dx beta b0 b1 b2 gcw u f0 f1 f2 alpha agcw a rgcw res w f c v0 v1 v2 Hb Hh Ha Hc Hv0 Hv1 Hv2) as (z & Hz & Hs).
  destruct Ap as (Hg & Hr & A0 & A1 & A2 & A3 & mo & E & R0 & R1 & R2 & R3 & R4 & R5).
  destruct (fill (S := QcS) (cells3 i0 j0 k0 i1 j1 k1) (fun p : Z * Z * Z => faddr (mkFa u (CELL3d i0 j0 k0 i1 j1 k1 gcw)) [fst (fst p); snd (fst p); snd p]) (fun p : Z * Z * Z => z (fst (fst p)) (snd (fst p)) (snd p)) m (nodup_cells3 i0 j0 k0 i1 j1 k1)) as (n & Sn & In' & Ln & Fn).
  { intros [[i j] k] [[i' j'] k'] H H' Eq. cbn [fst snd] in Eq. apply in_cells3 in H, H'.
    apply faddr_inj in Eq; [congruence| |]; k_range. }
  { intros [[i j] k] H. apply in_cells3 in H. cbn [fst snd]. exists (w i j k). apply (R1 i j k); k_near. }
  assert (Fp : forall p, (forall i j k, patch3 i0 j0 k0 i1 j1 k1 i j k -> faddr (mkFa u (CELL3d i0 j0 k0 i1 j1 k1 gcw)) [i; j; k] <> p) -> load n p = load m p).
  { intros p Hp. apply Fn. intros [[i j] k] H. apply in_cells3 in H. now apply Hp. }
  assert (Fo : forall p ds is, fst p <> fst u -> load n (faddr (mkFa p ds) is) = load m (faddr (mkFa p ds) is)).
  { intros p ds is Hp. apply Fp. intros i j k _. apply other_array. exact Hp. }
  apply bind_Some_inv in E as (m1 & E1 & E2).
  destruct (completes _ dx dx m n m1 (L_cdf_3d_flux _ _ _ _ _ _ _ _ _ _ _ _ _ _) (eq_sym Sn) (eq_sym In') E1) as (n1 & F1 & S1 & I1).
  destruct (completes _ (params dx alpha beta) (params dx alpha beta) m1 n1 mo (L_cd_apply_3d_diffusion_v1_apply _ _ _ _ _ _ _ _ _ _ _ _ _ _ _) S1 I1 E2) as (no & F2 & S2 & I2).
  assert (An : forall s, (forall i j k, patch3 i0 j0 k0 i1 j1 k1 i j k -> fel (mkFa res (CELL3d i0 j0 k0 i1 j1 k1 rgcw)) [i; j; k] no = Some (s i j k : QcS)) -> applied_v1_3d (S := QcS) i0 j0 k0 i1 j1 k1 dx beta b0 b1 b2 gcw u f0 f1 f2 alpha agcw a rgcw res n s z c v0 v1 v2).
  { intros s Hss. split; [assumption|]. split; [assumption|]. split; [assumption|]. split; [assumption|]. split; [assumption|]. split; [assumption|]. exists no.
    split; [rewrite F1; exact F2|]. split; [intros; apply Hss; k_near|].
    split.
    - intros i j k Ii Ij Ik. destruct (patch_dec3 i0 j0 k0 i1 j1 k1 i j k) as [Y|N].
      + apply (Ln (i, j, k)). now apply in_cells3.
      + rewrite (Hz i j k N), <- (R1 i j k Ii Ij Ik). apply Fp. intros i' j' k' H Eq. apply N.
        apply faddr_inj in Eq; [|k_range|k_range]. injection Eq as <- <- <-. exact H.
    - split; [intros i j k Ii Ij Ik; rewrite <- (R2 i j k Ii Ij Ik); apply Fo; apply (proj1 (Forall_forall _ _) Au); cbn; tauto|].
      split; [intros i j k Ii Ij Ik; rewrite <- (R3 i j k Ii Ij Ik); apply Fo; apply (proj1 (Forall_forall _ _) Au); cbn; tauto|].
      split; [intros i j k Ii Ij Ik; rewrite <- (R4 i j k Ii Ij Ik); apply Fo; apply (proj1 (Forall_forall _ _) Au); cbn; tauto|].
      intros i j k Ii Ij Ik; rewrite <- (R5 i j k Ii Ij Ik); apply Fo; apply (proj1 (Forall_forall _ _) Au); cbn; tauto. }
  exists n, z. split; [|split; [exact Hz|split; [exact Sn|split; [exact In'|exact Fp]]]].
  apply An. intros i j k Ip.
  assert (Rd : forall i j k, patch3 i0 j0 k0 i1 j1 k1 i j k -> fel (mkFa res (CELL3d i0 j0 k0 i1 j1 k1 rgcw)) [i; j; k] no = Some (value no (faddr (mkFa res (CELL3d i0 j0 k0 i1 j1 k1 rgcw)) [i; j; k]) : QcS)).
  { clear i j k Ip. intros i j k Ip. destruct (shape_loads mo no (faddr (mkFa res (CELL3d i0 j0 k0 i1 j1 k1 rgcw)) [i; j; k]) (r i j k) S2) as (y & Ey); [apply (R0 i j k); k_near|].
    unfold fel, value. rewrite Ey. reflexivity. }
  rewrite (Rd i j k Ip). f_equal.
  exact (Hs n (fun i j k => value no (faddr (mkFa res (CELL3d i0 j0 k0 i1 j1 k1 rgcw)) [i; j; k])) (An _ Rd) i j k Ip).
Qed.

Lemma solve_v2_3d i0 j0 k0 i1 j1 k1 (dx : Z -> Qc) (beta : Qc) b0 b1 b2 gcw u f0 f1 f2 (alpha : Qc) rgcw res (m : mem QcS) (r w v0 v1 v2 f : Z -> Z -> Z -> Qc) :
  applied_v2_3d (S := QcS) i0 j0 k0 i1 j1 k1 dx beta b0 b1 b2 gcw u f0 f1 f2 alpha rgcw res m r w v0 v1 v2 ->
  1 <= gcw ->
  apart u [b0; b1; b2] ->
  (0 < beta)%Qc ->
  dx 0 <> 0%Qc ->
  (0 <= alpha)%Qc ->
  (forall i j k, i0 <= i <= i1 + 1 -> j0 <= j <= j1 -> k0 <= k <= k1 -> (0 < v0 i j k)%Qc) ->
  (forall i j k, i0 <= i <= i1 -> j0 <= j <= j1 + 1 -> k0 <= k <= k1 -> (0 <= v1 i j k)%Qc) ->
  (forall i j k, i0 <= i <= i1 -> j0 <= j <= j1 -> k0 <= k <= k1 + 1 -> (0 <= v2 i j k)%Qc) ->
  exists (n : mem QcS) (z : Z -> Z -> Z -> Qc), applied_v2_3d (S := QcS) i0 j0 k0 i1 j1 k1 dx beta b0 b1 b2 gcw u f0 f1 f2 alpha rgcw res n f z v0 v1 v2 /\
    (forall i j k, ~ patch3 i0 j0 k0 i1 j1 k1 i j k -> z i j k = w i j k) /\
    shape n = shape m /\ ints n = ints m /\
    (forall p, (forall i j k, patch3 i0 j0 k0 i1 j1 k1 i j k -> faddr (mkFa u (CELL3d i0 j0 k0 i1 j1 k1 gcw)) [i; j; k] <> p) -> load n p = load m p).
Proof.
  intros Ap G1 Au Hb Hh Ha Hv0 Hv1 Hv2.
  destruct (exists_v2_3d i0 j0 k0 i1 j1 k1 dx beta b0 b1 b2 gcw u f0 f1 f2 alpha rgcw res w f v0 v1 v2 Hb Hh Ha Hv0 Hv1 Hv2) as (z & Hz & Hs).
  destruct Ap as (Hg & Hr & A0 & A1 & A2 & A3 & mo & E & R0 & R1 & R2 & R3 & R4).
  destruct (fill (S := QcS) (cells3 i0 j0 k0 i1 j1 k1) (fun p : Z * Z * Z => faddr (mkFa u (CELL3d i0 j0 k0 i1 j1 k1 gcw)) [fst (fst p); snd (fst p); snd p]) (fun p : Z * Z * Z => z (fst (fst p)) (snd (fst p)) (snd p)) m (nodup_cells3 i0 j0 k0 i1 j1 k1)) as (n & Sn & In' & Ln & Fn).
  { intros [[i j] k] [[i' j'] k'] H H' Eq. cbn [fst snd] in Eq. apply in_cells3 in H, H'.
    apply faddr_inj in Eq; [congruence| |]; k_range. }
  { intros [[i j] k] H. apply in_cells3 in H. cbn [fst snd]. exists (w i j k). apply (R1 i j k); k_near. }
  assert (Fp : forall p, (forall i j k, patch3 i0 j0 k0 i1 j1 k1 i j k -> faddr (mkFa u (CELL3d i0 j0 k0 i1 j1 k1 gcw)) [i; j; k] <> p) -> load n p = load m p).
  { intros p Hp. apply Fn. intros [[i j] k] H. apply in_cells3 in H. now apply Hp. }
  assert (Fo : forall p ds is, fst p <> fst u -> load n (faddr (mkFa p ds) is) = load m (faddr (mkFa p ds) is)).
  { intros p ds is Hp. apply Fp. intros i j k _. apply other_array. exact Hp. }
  apply bind_Some_inv in E as (m1 & E1 & E2).
  destruct (completes _ dx dx m n m1 (L_cdf_3d_flux _ _ _ _ _ _ _ _ _ _ _ _ _ _) (eq_sym Sn) (eq_sym In') E1) as (n1 & F1 & S1 & I1).
  destruct (completes _ (params dx alpha beta) (params dx alpha beta) m1 n1 mo (L_cd_apply_3d_diffusion_v2_apply _ _ _ _ _ _ _ _ _ _ _ _ _) S1 I1 E2) as (no & F2 & S2 & I2).
  assert (An : forall s, (forall i j k, patch3 i0 j0 k0 i1 j1 k1 i j k -> fel (mkFa res (CELL3d i0 j0 k0 i1 j1 k1 rgcw)) [i; j; k] no = Some (s i j k : QcS)) -> applied_v2_3d (S := QcS) i0 j0 k0 i1 j1 k1 dx beta b0 b1 b2 gcw u f0 f1 f2 alpha rgcw res n s z v0 v1 v2).
  { intros s Hss. split; [assumption|]. split; [assumption|]. split; [assumption|]. split; [assumption|]. split; [assumption|]. split; [assumption|]. exists no.
    split; [rewrite F1; exact F2|]. split; [intros; apply Hss; k_near|].
    split.
    - intros i j k Ii Ij Ik. destruct (patch_dec3 i0 j0 k0 i1 j1 k1 i j k) as [Y|N].
      + apply (Ln (i, j, k)). now apply in_cells3.
      + rewrite (Hz i j k N), <- (R1 i j k Ii Ij Ik). apply Fp. intros i' j' k' H Eq. apply N.
        apply faddr_inj in Eq; [|k_range|k_range]. injection Eq as <- <- <-. exact H.
    - split; [intros i j k Ii Ij Ik; rewrite <- (R2 i j k Ii Ij Ik); apply Fo; apply (proj1 (Forall_forall _ _) Au); cbn; tauto|].
      split; [intros i j k Ii Ij Ik; rewrite <- (R3 i j k Ii Ij Ik); apply Fo; apply (proj1 (Forall_forall _ _) Au); cbn; tauto|].
      intros i j k Ii Ij Ik; rewrite <- (R4 i j k Ii Ij Ik); apply Fo; apply (proj1 (Forall_forall _ _) Au); cbn; tauto. }
  exists n, z. split; [|split; [exact Hz|split; [exact Sn|split; [exact In'|exact Fp]]]].
  apply An. intros i j k Ip.
  assert (Rd : forall i j k, patch3 i0 j0 k0 i1 j1 k1 i j k -> fel (mkFa res (CELL3d i0 j0 k0 i1 j1 k1 rgcw)) [i; j; k] no = Some (value no (faddr (mkFa res (CELL3d i0 j0 k0 i1 j1 k1 rgcw)) [i; j; k]) : QcS)).
  { clear i j k Ip. intros i j k Ip. destruct (shape_loads mo no (faddr (mkFa res (CELL3d i0 j0 k0 i1 j1 k1 rgcw)) [i; j; k]) (r i j k) S2) as (y & Ey); [apply (R0 i j k); k_near|].
    unfold fel, value. rewrite Ey. reflexivity. }
  rewrite (Rd i j k Ip). f_equal.
  exact (Hs n (fun i j k => value no (faddr (mkFa res (CELL3d i0 j0 k0 i1 j1 k1 rgcw)) [i; j; k])) (An _ Rd) i j k Ip).
Qed.

Lemma solve_poisson_3d i0 j0 k0 i1 j1 k1 (dx : Z -> Qc) (beta : Qc) gcw u f0 f1 f2 rgcw res (m : mem QcS) (r w f : Z -> Z -> Z -> Qc) :
  applied_poisson_3d (S := QcS) i0 j0 k0 i1 j1 k1 dx beta gcw u f0 f1 f2 rgcw res m r w ->
  1 <= gcw ->
  (0 < beta)%Qc ->
  dx 0 <> 0%Qc ->
  exists (n : mem QcS) (z : Z -> Z -> Z -> Qc), applied_poisson_3d (S := QcS) i0 j0 k0 i1 j1 k1 dx beta gcw u f0 f1 f2 rgcw res n f z /\
    (forall i j k, ~ patch3 i0 j0 k0 i1 j1 k1 i j k -> z i j k = w i j k) /\
    shape n = shape m /\ ints n = ints m /\
    (forall p, (forall i j k, patch3 i0 j0 k0 i1 j1 k1 i j k -> faddr (mkFa u (CELL3d i0 j0 k0 i1 j1 k1 gcw)) [i; j; k] <> p) -> load n p = load m p).
Proof.
  intros Ap G1 Hb Hh.
  destruct (exists_poisson_3d i0 j0 k0 i1 j1 k1 dx beta gcw u f0 f1 f2 rgcw res w f  Hb Hh) as (z & Hz & Hs).
  destruct Ap as (Hg & Hr & A0 & A1 & A2 & A3 & mo & E & R0 & R1).
  destruct (fill (S := QcS) (cells3 i0 j0 k0 i1 j1 k1) (fun p : Z * Z * Z => faddr (mkFa u (CELL3d i0 j0 k0 i1 j1 k1 gcw)) [fst (fst p); snd (fst p); snd p]) (fun p : Z * Z * Z => z (fst (fst p)) (snd (fst p)) (snd p)) m (nodup_cells3 i0 j0 k0 i1 j1 k1)) as (n & Sn & In' & Ln & Fn).
  { intros [[i j] k] [[i' j'] k'] H H' Eq. cbn [fst snd] in Eq. apply in_cells3 in H, H'.
    apply faddr_inj in Eq; [congruence| |]; k_range. }
  { intros [[i j] k] H. apply in_cells3 in H. cbn [fst snd]. exists (w i j k). apply (R1 i j k); k_near. }
  assert (Fp : forall p, (forall i j k, patch3 i0 j0 k0 i1 j1 k1 i j k -> faddr (mkFa u (CELL3d i0 j0 k0 i1 j1 k1 gcw)) [i; j; k] <> p) -> load n p = load m p).
  { intros p Hp. apply Fn. intros [[i j] k] H. apply in_cells3 in H. now apply Hp. }
  assert (Fo : forall p ds is, fst p <> fst u -> load n (faddr (mkFa p ds) is) = load m (faddr (mkFa p ds) is)).
  { intros p ds is Hp. apply Fp. intros i j k _. apply other_array. exact Hp. }
  apply bind_Some_inv in E as (m1 & E1 & E2).
  destruct (completes _ dx dx m n m1 (L_cdf_3d_poisson_flux _ _ _ _ _ _ _ _ _ _ _) (eq_sym Sn) (eq_sym In') E1) as (n1 & F1 & S1 & I1).
  destruct (completes _ (params dx 0%Qc beta) (params dx 0%Qc beta) m1 n1 mo (L_cd_apply_3d_poisson_v2_apply _ _ _ _ _ _ _ _ _ _ _) S1 I1 E2) as (no & F2 & S2 & I2).
  assert (An : forall s, (forall i j k, patch3 i0 j0 k0 i1 j1 k1 i j k -> fel (mkFa res (CELL3d i0 j0 k0 i1 j1 k1 rgcw)) [i; j; k] no = Some (s i j k : QcS)) -> applied_poisson_3d (S := QcS) i0 j0 k0 i1 j1 k1 dx beta gcw u f0 f1 f2 rgcw res n s z).
  { intros s Hss. split; [assumption|]. split; [assumption|]. split; [assumption|]. split; [assumption|]. split; [assumption|]. split; [assumption|]. exists no.
    split; [rewrite F1; exact F2|]. split; [intros; apply Hss; k_near|].
    intros i j k Ii Ij Ik. destruct (patch_dec3 i0 j0 k0 i1 j1 k1 i j k) as [Y|N].
    + apply (Ln (i, j, k)). now apply in_cells3.
    + rewrite (Hz i j k N), <- (R1 i j k Ii Ij Ik). apply Fp. intros i' j' k' H Eq. apply N.
        apply faddr_inj in Eq; [|k_range|k_range]. injection Eq as <- <- <-. exact H.
 }
  exists n, z. split; [|split; [exact Hz|split; [exact Sn|split; [exact In'|exact Fp]]]].
  apply An. intros i j k Ip.
  assert (Rd : forall i j k, patch3 i0 j0 k0 i1 j1 k1 i j k -> fel (mkFa res (CELL3d i0 j0 k0 i1 j1 k1 rgcw)) [i; j; k] no = Some (value no (faddr (mkFa res (CELL3d i0 j0 k0 i1 j1 k1 rgcw)) [i; j; k]) : QcS)).
  { clear i j k Ip. intros i j k Ip. destruct (shape_loads mo no (faddr (mkFa res (CELL3d i0 j0 k0 i1 j1 k1 rgcw)) [i; j; k]) (r i j k) S2) as (y & Ey); [apply (R0 i j k); k_near|].
    unfold fel, value. rewrite Ey. reflexivity. }
  rewrite (Rd i j k Ip). f_equal.
  exact (Hs n (fun i j k => value no (faddr (mkFa res (CELL3d i0 j0 k0 i1 j1 k1 rgcw)) [i; j; k])) (An _ Rd) i j k Ip).
Qed.
