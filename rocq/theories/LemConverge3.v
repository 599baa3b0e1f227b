(** * The point smoothers one by one *)

From Coq Require Import Field QArith Qcanon Qcabs Lqa.
From Verif Require Import Base FortranBase FortranSmooth Instances SpecRow SpecSmooth SpecConverge LemBase LemKernel LemFortran LemStencil LemSmooth LemCells
  LemSmoothers LemJacobi LemFixedStencil LemSmoothFinal LemRound LemConverge LemConverge2.
Import ListNotations.
Open Scope Z_scope.

Lemma table_ints (m m1 : mem QcS) tab cols : ints m1 = ints m -> table_is m tab cols -> table_is m1 tab cols.
Proof. intros E T. unfold table_is, loadi in *. rewrite E. exact T. Qed.

Lemma thirds_pos : (0 <= Q2Qc (Qmake 2 3))%Qc.
Proof. vm_compute. discriminate. Qed.
Lemma thirds_le : (Q2Qc (Qmake 2 3) <= 1)%Qc.
Proof. vm_compute. discriminate. Qed.

Lemma cellgs1d_converges : forall lo0 hi0 n offset slo0 shi0 st flo0 fhi0 f ulo0 uhi0 u (m : mem QcS),
  fst u <> fst st -> fst u <> fst f -> flo0 = ulo0 ->
  converges m
    (cellgs1d lo0 hi0 n offset slo0 shi0 st flo0 fhi0 f ulo0 uhi0 u)
    (mkFa offset [(0, 0); (0, n - 1)]) (mkFa st ((0, n - 1) :: CELL1d slo0 shi0 0)) n
    (mkFa f (CELL1d flo0 fhi0 0)) (mkFa u (CELL1d ulo0 uhi0 0)) [(lo0, hi0)] (fun q => q).
Proof.
  intros lo0 hi0 n offset slo0 shi0 st flo0 fhi0 f ulo0 uhi0 u m Hs Hf H0. intros x q E k m' Hfit.
  refine (whole_converges (mkFa offset [(0, 0); (0, n - 1)]) (mkFa st ((0, n - 1) :: CELL1d slo0 shi0 0)) (mkFa f (CELL1d flo0 fhi0 0)) (mkFa u (CELL1d ulo0 uhi0 0)) n [(lo0, hi0)] Hs Hf (ints m) _ _ m eq_refl x q E k m' Hfit).
  intros m1 m2 _ St E1. destruct Hfit as (_ & Hb & _ & _).
  exact (cellgs1d_swept QcS_laws lo0 hi0 n offset slo0 shi0 st flo0 fhi0 f ulo0 uhi0 u m1 m2 Hs Hf Hb St H0 E1).
Qed.

Lemma cellgs1d_keeps_bounds : forall lo0 hi0 n offset slo0 shi0 st flo0 fhi0 f ulo0 uhi0 u (m : mem QcS),
  fst u <> fst st -> fst u <> fst f -> flo0 = ulo0 ->
  keeps_bounds m
    (cellgs1d lo0 hi0 n offset slo0 shi0 st flo0 fhi0 f ulo0 uhi0 u)
    (mkFa offset [(0, 0); (0, n - 1)]) (mkFa st ((0, n - 1) :: CELL1d slo0 shi0 0)) n
    (mkFa f (CELL1d flo0 fhi0 0)) (mkFa u (CELL1d ulo0 uhi0 0)) [(lo0, hi0)].
Proof.
  intros lo0 hi0 n offset slo0 shi0 st flo0 fhi0 f ulo0 uhi0 u m Hs Hf H0. intros x1 x2 k m' Hfit.
  refine (whole_bounded (mkFa offset [(0, 0); (0, n - 1)]) (mkFa st ((0, n - 1) :: CELL1d slo0 shi0 0)) (mkFa f (CELL1d flo0 fhi0 0)) (mkFa u (CELL1d ulo0 uhi0 0)) n [(lo0, hi0)] Hs Hf (ints m) _ _ m eq_refl x1 x2 k m' Hfit).
  intros m1 m2 _ St E1. destruct Hfit as (_ & Hb & _ & _).
  exact (cellgs1d_swept QcS_laws lo0 hi0 n offset slo0 shi0 st flo0 fhi0 f ulo0 uhi0 u m1 m2 Hs Hf Hb St H0 E1).
Qed.

Lemma cellgs2d_converges : forall lo0 hi0 lo1 hi1 n offset slo0 shi0 slo1 shi1 st flo0 fhi0 flo1 fhi1 f ulo0 uhi0 ulo1 uhi1 u (m : mem QcS),
  fst u <> fst st -> fst u <> fst f ->
  converges m
    (cellgs2d lo0 hi0 lo1 hi1 n offset slo0 shi0 slo1 shi1 st flo0 fhi0 flo1 fhi1 f ulo0 uhi0 ulo1 uhi1 u)
    (mkFa offset [(0, 1); (0, n - 1)]) (mkFa st ((0, n - 1) :: CELL2d slo0 slo1 shi0 shi1 0)) n
    (mkFa f (CELL2d flo0 flo1 fhi0 fhi1 0)) (mkFa u (CELL2d ulo0 ulo1 uhi0 uhi1 0)) [(lo0, hi0); (lo1, hi1)] (fun q => q).
Proof.
  intros lo0 hi0 lo1 hi1 n offset slo0 shi0 slo1 shi1 st flo0 fhi0 flo1 fhi1 f ulo0 uhi0 ulo1 uhi1 u m Hs Hf. intros x q E k m' Hfit.
  refine (whole_converges (mkFa offset [(0, 1); (0, n - 1)]) (mkFa st ((0, n - 1) :: CELL2d slo0 slo1 shi0 shi1 0)) (mkFa f (CELL2d flo0 flo1 fhi0 fhi1 0)) (mkFa u (CELL2d ulo0 ulo1 uhi0 uhi1 0)) n [(lo0, hi0); (lo1, hi1)] Hs Hf (ints m) _ _ m eq_refl x q E k m' Hfit).
  intros m1 m2 _ St E1. destruct Hfit as (_ & Hb & _ & _).
  exact (cellgs2d_swept QcS_laws lo0 hi0 lo1 hi1 n offset slo0 shi0 slo1 shi1 st flo0 fhi0 flo1 fhi1 f ulo0 uhi0 ulo1 uhi1 u m1 m2 Hs Hf Hb St E1).
Qed.

Lemma cellgs2d_keeps_bounds : forall lo0 hi0 lo1 hi1 n offset slo0 shi0 slo1 shi1 st flo0 fhi0 flo1 fhi1 f ulo0 uhi0 ulo1 uhi1 u (m : mem QcS),
  fst u <> fst st -> fst u <> fst f ->
  keeps_bounds m
    (cellgs2d lo0 hi0 lo1 hi1 n offset slo0 shi0 slo1 shi1 st flo0 fhi0 flo1 fhi1 f ulo0 uhi0 ulo1 uhi1 u)
    (mkFa offset [(0, 1); (0, n - 1)]) (mkFa st ((0, n - 1) :: CELL2d slo0 slo1 shi0 shi1 0)) n
    (mkFa f (CELL2d flo0 flo1 fhi0 fhi1 0)) (mkFa u (CELL2d ulo0 ulo1 uhi0 uhi1 0)) [(lo0, hi0); (lo1, hi1)].
Proof.
  intros lo0 hi0 lo1 hi1 n offset slo0 shi0 slo1 shi1 st flo0 fhi0 flo1 fhi1 f ulo0 uhi0 ulo1 uhi1 u m Hs Hf. intros x1 x2 k m' Hfit.
  refine (whole_bounded (mkFa offset [(0, 1); (0, n - 1)]) (mkFa st ((0, n - 1) :: CELL2d slo0 slo1 shi0 shi1 0)) (mkFa f (CELL2d flo0 flo1 fhi0 fhi1 0)) (mkFa u (CELL2d ulo0 ulo1 uhi0 uhi1 0)) n [(lo0, hi0); (lo1, hi1)] Hs Hf (ints m) _ _ m eq_refl x1 x2 k m' Hfit).
  intros m1 m2 _ St E1. destruct Hfit as (_ & Hb & _ & _).
  exact (cellgs2d_swept QcS_laws lo0 hi0 lo1 hi1 n offset slo0 shi0 slo1 shi1 st flo0 fhi0 flo1 fhi1 f ulo0 uhi0 ulo1 uhi1 u m1 m2 Hs Hf Hb St E1).
Qed.

Lemma cellgs3d_converges : forall lo0 hi0 lo1 hi1 lo2 hi2 n offset slo0 shi0 slo1 shi1 slo2 shi2 st flo0 fhi0 flo1 fhi1 flo2 fhi2 f ulo0 uhi0 ulo1 uhi1 ulo2 uhi2 u (m : mem QcS),
  fst u <> fst st -> fst u <> fst f ->
  converges m
    (cellgs3d lo0 hi0 lo1 hi1 lo2 hi2 n offset slo0 shi0 slo1 shi1 slo2 shi2 st flo0 fhi0 flo1 fhi1 flo2 fhi2 f ulo0 uhi0 ulo1 uhi1 ulo2 uhi2 u)
    (mkFa offset [(0, 2); (0, n - 1)]) (mkFa st ((0, n - 1) :: CELL3d slo0 slo1 slo2 shi0 shi1 shi2 0)) n
    (mkFa f (CELL3d flo0 flo1 flo2 fhi0 fhi1 fhi2 0)) (mkFa u (CELL3d ulo0 ulo1 ulo2 uhi0 uhi1 uhi2 0)) [(lo0, hi0); (lo1, hi1); (lo2, hi2)] (fun q => q).
Proof.
  intros lo0 hi0 lo1 hi1 lo2 hi2 n offset slo0 shi0 slo1 shi1 slo2 shi2 st flo0 fhi0 flo1 fhi1 flo2 fhi2 f ulo0 uhi0 ulo1 uhi1 ulo2 uhi2 u m Hs Hf. intros x q E k m' Hfit.
  refine (whole_converges (mkFa offset [(0, 2); (0, n - 1)]) (mkFa st ((0, n - 1) :: CELL3d slo0 slo1 slo2 shi0 shi1 shi2 0)) (mkFa f (CELL3d flo0 flo1 flo2 fhi0 fhi1 fhi2 0)) (mkFa u (CELL3d ulo0 ulo1 ulo2 uhi0 uhi1 uhi2 0)) n [(lo0, hi0); (lo1, hi1); (lo2, hi2)] Hs Hf (ints m) _ _ m eq_refl x q E k m' Hfit).
  intros m1 m2 _ St E1. destruct Hfit as (_ & Hb & _ & _).
  exact (cellgs3d_swept QcS_laws lo0 hi0 lo1 hi1 lo2 hi2 n offset slo0 shi0 slo1 shi1 slo2 shi2 st flo0 fhi0 flo1 fhi1 flo2 fhi2 f ulo0 uhi0 ulo1 uhi1 ulo2 uhi2 u m1 m2 Hs Hf Hb St E1).
Qed.

Lemma cellgs3d_keeps_bounds : forall lo0 hi0 lo1 hi1 lo2 hi2 n offset slo0 shi0 slo1 shi1 slo2 shi2 st flo0 fhi0 flo1 fhi1 flo2 fhi2 f ulo0 uhi0 ulo1 uhi1 ulo2 uhi2 u (m : mem QcS),
  fst u <> fst st -> fst u <> fst f ->
  keeps_bounds m
    (cellgs3d lo0 hi0 lo1 hi1 lo2 hi2 n offset slo0 shi0 slo1 shi1 slo2 shi2 st flo0 fhi0 flo1 fhi1 flo2 fhi2 f ulo0 uhi0 ulo1 uhi1 ulo2 uhi2 u)
    (mkFa offset [(0, 2); (0, n - 1)]) (mkFa st ((0, n - 1) :: CELL3d slo0 slo1 slo2 shi0 shi1 shi2 0)) n
    (mkFa f (CELL3d flo0 flo1 flo2 fhi0 fhi1 fhi2 0)) (mkFa u (CELL3d ulo0 ulo1 ulo2 uhi0 uhi1 uhi2 0)) [(lo0, hi0); (lo1, hi1); (lo2, hi2)].
Proof.
  intros lo0 hi0 lo1 hi1 lo2 hi2 n offset slo0 shi0 slo1 shi1 slo2 shi2 st flo0 fhi0 flo1 fhi1 flo2 fhi2 f ulo0 uhi0 ulo1 uhi1 ulo2 uhi2 u m Hs Hf. intros x1 x2 k m' Hfit.
  refine (whole_bounded (mkFa offset [(0, 2); (0, n - 1)]) (mkFa st ((0, n - 1) :: CELL3d slo0 slo1 slo2 shi0 shi1 shi2 0)) (mkFa f (CELL3d flo0 flo1 flo2 fhi0 fhi1 fhi2 0)) (mkFa u (CELL3d ulo0 ulo1 ulo2 uhi0 uhi1 uhi2 0)) n [(lo0, hi0); (lo1, hi1); (lo2, hi2)] Hs Hf (ints m) _ _ m eq_refl x1 x2 k m' Hfit).
  intros m1 m2 _ St E1. destruct Hfit as (_ & Hb & _ & _).
  exact (cellgs3d_swept QcS_laws lo0 hi0 lo1 hi1 lo2 hi2 n offset slo0 shi0 slo1 shi1 slo2 shi2 st flo0 fhi0 flo1 fhi1 flo2 fhi2 f ulo0 uhi0 ulo1 uhi1 ulo2 uhi2 u m1 m2 Hs Hf Hb St E1).
Qed.

Lemma cellrbgs1d_converges : forall lo0 hi0 c1 c2 n offset slo0 shi0 st flo0 fhi0 f ulo0 uhi0 u (m : mem QcS),
  0 <= c1 -> 0 <= c2 -> Z.odd (c1 + c2) = true -> fst u <> fst st -> fst u <> fst f ->
  converges m
    (twice (cellrbgs1d lo0 hi0 c1 n offset slo0 shi0 st flo0 fhi0 f ulo0 uhi0 u)
       (cellrbgs1d lo0 hi0 c2 n offset slo0 shi0 st flo0 fhi0 f ulo0 uhi0 u))
    (mkFa offset [(0, 0); (0, n - 1)]) (mkFa st ((0, n - 1) :: CELL1d slo0 shi0 0)) n
    (mkFa f (CELL1d flo0 fhi0 0)) (mkFa u (CELL1d ulo0 uhi0 0)) [(lo0, hi0)] (fun q => q).
Proof.
  intros lo0 hi0 c1 c2 n offset slo0 shi0 st flo0 fhi0 f ulo0 uhi0 u m H1 H2 Ho Hs Hf. intros x q E k m' Hfit.
  refine (colours_converge (mkFa offset [(0, 0); (0, n - 1)]) (mkFa st ((0, n - 1) :: CELL1d slo0 shi0 0)) (mkFa f (CELL1d flo0 fhi0 0)) (mkFa u (CELL1d ulo0 uhi0 0)) n [(lo0, hi0)] Hs Hf (ints m) _ _ c1 c2 Ho _ _ m eq_refl x q E k m' Hfit); destruct Hfit as (_ & Hb & _ & _).
  - intros m1 m2 _ St E1. exact (cellrbgs1d_swept QcS_laws lo0 hi0 c1 n offset slo0 shi0 st flo0 fhi0 f ulo0 uhi0 u m1 m2 H1 Hs Hf (fun c H => Hb c (proj1 H)) (sub_stays _ _ _ _ _ _ _ (fun c H => proj1 H) St) E1).
  - intros m1 m2 _ St E1. exact (cellrbgs1d_swept QcS_laws lo0 hi0 c2 n offset slo0 shi0 st flo0 fhi0 f ulo0 uhi0 u m1 m2 H2 Hs Hf (fun c H => Hb c (proj1 H)) (sub_stays _ _ _ _ _ _ _ (fun c H => proj1 H) St) E1).
Qed.

Lemma cellrbgs1d_keeps_bounds : forall lo0 hi0 c1 c2 n offset slo0 shi0 st flo0 fhi0 f ulo0 uhi0 u (m : mem QcS),
  0 <= c1 -> 0 <= c2 -> fst u <> fst st -> fst u <> fst f ->
  keeps_bounds m
    (twice (cellrbgs1d lo0 hi0 c1 n offset slo0 shi0 st flo0 fhi0 f ulo0 uhi0 u)
       (cellrbgs1d lo0 hi0 c2 n offset slo0 shi0 st flo0 fhi0 f ulo0 uhi0 u))
    (mkFa offset [(0, 0); (0, n - 1)]) (mkFa st ((0, n - 1) :: CELL1d slo0 shi0 0)) n
    (mkFa f (CELL1d flo0 fhi0 0)) (mkFa u (CELL1d ulo0 uhi0 0)) [(lo0, hi0)].
Proof.
  intros lo0 hi0 c1 c2 n offset slo0 shi0 st flo0 fhi0 f ulo0 uhi0 u m H1 H2 Hs Hf. intros x1 x2 k m' Hfit.
  refine (colours_bounded (mkFa offset [(0, 0); (0, n - 1)]) (mkFa st ((0, n - 1) :: CELL1d slo0 shi0 0)) (mkFa f (CELL1d flo0 fhi0 0)) (mkFa u (CELL1d ulo0 uhi0 0)) n [(lo0, hi0)] Hs Hf (ints m) _ _ c1 c2 _ _ m eq_refl x1 x2 k m' Hfit); destruct Hfit as (_ & Hb & _ & _).
  - intros m1 m2 _ St E1. exact (cellrbgs1d_swept QcS_laws lo0 hi0 c1 n offset slo0 shi0 st flo0 fhi0 f ulo0 uhi0 u m1 m2 H1 Hs Hf (fun c H => Hb c (proj1 H)) (sub_stays _ _ _ _ _ _ _ (fun c H => proj1 H) St) E1).
  - intros m1 m2 _ St E1. exact (cellrbgs1d_swept QcS_laws lo0 hi0 c2 n offset slo0 shi0 st flo0 fhi0 f ulo0 uhi0 u m1 m2 H2 Hs Hf (fun c H => Hb c (proj1 H)) (sub_stays _ _ _ _ _ _ _ (fun c H => proj1 H) St) E1).
Qed.

Lemma cellrbgs2d_converges : forall lo0 hi0 lo1 hi1 c1 c2 n offset slo0 shi0 slo1 shi1 st flo0 fhi0 flo1 fhi1 f ulo0 uhi0 ulo1 uhi1 u (m : mem QcS),
  0 <= lo1 + c1 -> 0 <= lo1 + c2 -> Z.odd (c1 + c2) = true -> fst u <> fst st -> fst u <> fst f ->
  converges m
    (twice (cellrbgs2d lo0 hi0 lo1 hi1 c1 n offset slo0 shi0 slo1 shi1 st flo0 fhi0 flo1 fhi1 f ulo0 uhi0 ulo1 uhi1 u)
       (cellrbgs2d lo0 hi0 lo1 hi1 c2 n offset slo0 shi0 slo1 shi1 st flo0 fhi0 flo1 fhi1 f ulo0 uhi0 ulo1 uhi1 u))
    (mkFa offset [(0, 1); (0, n - 1)]) (mkFa st ((0, n - 1) :: CELL2d slo0 slo1 shi0 shi1 0)) n
    (mkFa f (CELL2d flo0 flo1 fhi0 fhi1 0)) (mkFa u (CELL2d ulo0 ulo1 uhi0 uhi1 0)) [(lo0, hi0); (lo1, hi1)] (fun q => q).
Proof.
  intros lo0 hi0 lo1 hi1 c1 c2 n offset slo0 shi0 slo1 shi1 st flo0 fhi0 flo1 fhi1 f ulo0 uhi0 ulo1 uhi1 u m H1 H2 Ho Hs Hf. intros x q E k m' Hfit.
  refine (colours_converge (mkFa offset [(0, 1); (0, n - 1)]) (mkFa st ((0, n - 1) :: CELL2d slo0 slo1 shi0 shi1 0)) (mkFa f (CELL2d flo0 flo1 fhi0 fhi1 0)) (mkFa u (CELL2d ulo0 ulo1 uhi0 uhi1 0)) n [(lo0, hi0); (lo1, hi1)] Hs Hf (ints m) _ _ c1 c2 Ho _ _ m eq_refl x q E k m' Hfit); destruct Hfit as (_ & Hb & _ & _).
  - intros m1 m2 _ St E1. exact (cellrbgs2d_swept QcS_laws lo0 hi0 lo1 hi1 c1 n offset slo0 shi0 slo1 shi1 st flo0 fhi0 flo1 fhi1 f ulo0 uhi0 ulo1 uhi1 u m1 m2 H1 Hs Hf (fun c H => Hb c (proj1 H)) (sub_stays _ _ _ _ _ _ _ (fun c H => proj1 H) St) E1).
  - intros m1 m2 _ St E1. exact (cellrbgs2d_swept QcS_laws lo0 hi0 lo1 hi1 c2 n offset slo0 shi0 slo1 shi1 st flo0 fhi0 flo1 fhi1 f ulo0 uhi0 ulo1 uhi1 u m1 m2 H2 Hs Hf (fun c H => Hb c (proj1 H)) (sub_stays _ _ _ _ _ _ _ (fun c H => proj1 H) St) E1).
Qed.

Lemma cellrbgs2d_keeps_bounds : forall lo0 hi0 lo1 hi1 c1 c2 n offset slo0 shi0 slo1 shi1 st flo0 fhi0 flo1 fhi1 f ulo0 uhi0 ulo1 uhi1 u (m : mem QcS),
  0 <= lo1 + c1 -> 0 <= lo1 + c2 -> fst u <> fst st -> fst u <> fst f ->
  keeps_bounds m
    (twice (cellrbgs2d lo0 hi0 lo1 hi1 c1 n offset slo0 shi0 slo1 shi1 st flo0 fhi0 flo1 fhi1 f ulo0 uhi0 ulo1 uhi1 u)
       (cellrbgs2d lo0 hi0 lo1 hi1 c2 n offset slo0 shi0 slo1 shi1 st flo0 fhi0 flo1 fhi1 f ulo0 uhi0 ulo1 uhi1 u))
    (mkFa offset [(0, 1); (0, n - 1)]) (mkFa st ((0, n - 1) :: CELL2d slo0 slo1 shi0 shi1 0)) n
    (mkFa f (CELL2d flo0 flo1 fhi0 fhi1 0)) (mkFa u (CELL2d ulo0 ulo1 uhi0 uhi1 0)) [(lo0, hi0); (lo1, hi1)].
Proof.
  intros lo0 hi0 lo1 hi1 c1 c2 n offset slo0 shi0 slo1 shi1 st flo0 fhi0 flo1 fhi1 f ulo0 uhi0 ulo1 uhi1 u m H1 H2 Hs Hf. intros x1 x2 k m' Hfit.
  refine (colours_bounded (mkFa offset [(0, 1); (0, n - 1)]) (mkFa st ((0, n - 1) :: CELL2d slo0 slo1 shi0 shi1 0)) (mkFa f (CELL2d flo0 flo1 fhi0 fhi1 0)) (mkFa u (CELL2d ulo0 ulo1 uhi0 uhi1 0)) n [(lo0, hi0); (lo1, hi1)] Hs Hf (ints m) _ _ c1 c2 _ _ m eq_refl x1 x2 k m' Hfit); destruct Hfit as (_ & Hb & _ & _).
  - intros m1 m2 _ St E1. exact (cellrbgs2d_swept QcS_laws lo0 hi0 lo1 hi1 c1 n offset slo0 shi0 slo1 shi1 st flo0 fhi0 flo1 fhi1 f ulo0 uhi0 ulo1 uhi1 u m1 m2 H1 Hs Hf (fun c H => Hb c (proj1 H)) (sub_stays _ _ _ _ _ _ _ (fun c H => proj1 H) St) E1).
  - intros m1 m2 _ St E1. exact (cellrbgs2d_swept QcS_laws lo0 hi0 lo1 hi1 c2 n offset slo0 shi0 slo1 shi1 st flo0 fhi0 flo1 fhi1 f ulo0 uhi0 ulo1 uhi1 u m1 m2 H2 Hs Hf (fun c H => Hb c (proj1 H)) (sub_stays _ _ _ _ _ _ _ (fun c H => proj1 H) St) E1).
Qed.

Lemma cellrbgs3d_converges : forall lo0 hi0 lo1 hi1 lo2 hi2 c1 c2 n offset slo0 shi0 slo1 shi1 slo2 shi2 st flo0 fhi0 flo1 fhi1 flo2 fhi2 f ulo0 uhi0 ulo1 uhi1 ulo2 uhi2 u (m : mem QcS),
  0 <= c1 -> 0 <= c2 -> Z.odd (c1 + c2) = true -> fst u <> fst st -> fst u <> fst f ->
  converges m
    (twice (cellrbgs3d lo0 hi0 lo1 hi1 lo2 hi2 c1 n offset slo0 shi0 slo1 shi1 slo2 shi2 st flo0 fhi0 flo1 fhi1 flo2 fhi2 f ulo0 uhi0 ulo1 uhi1 ulo2 uhi2 u)
       (cellrbgs3d lo0 hi0 lo1 hi1 lo2 hi2 c2 n offset slo0 shi0 slo1 shi1 slo2 shi2 st flo0 fhi0 flo1 fhi1 flo2 fhi2 f ulo0 uhi0 ulo1 uhi1 ulo2 uhi2 u))
    (mkFa offset [(0, 2); (0, n - 1)]) (mkFa st ((0, n - 1) :: CELL3d slo0 slo1 slo2 shi0 shi1 shi2 0)) n
    (mkFa f (CELL3d flo0 flo1 flo2 fhi0 fhi1 fhi2 0)) (mkFa u (CELL3d ulo0 ulo1 ulo2 uhi0 uhi1 uhi2 0)) [(lo0, hi0); (lo1, hi1); (lo2, hi2)] (fun q => q).
Proof.
  intros lo0 hi0 lo1 hi1 lo2 hi2 c1 c2 n offset slo0 shi0 slo1 shi1 slo2 shi2 st flo0 fhi0 flo1 fhi1 flo2 fhi2 f ulo0 uhi0 ulo1 uhi1 ulo2 uhi2 u m H1 H2 Ho Hs Hf. intros x q E k m' Hfit.
  refine (colours_converge (mkFa offset [(0, 2); (0, n - 1)]) (mkFa st ((0, n - 1) :: CELL3d slo0 slo1 slo2 shi0 shi1 shi2 0)) (mkFa f (CELL3d flo0 flo1 flo2 fhi0 fhi1 fhi2 0)) (mkFa u (CELL3d ulo0 ulo1 ulo2 uhi0 uhi1 uhi2 0)) n [(lo0, hi0); (lo1, hi1); (lo2, hi2)] Hs Hf (ints m) _ _ c1 c2 Ho _ _ m eq_refl x q E k m' Hfit); destruct Hfit as (_ & Hb & _ & _).
  - intros m1 m2 _ St E1. exact (cellrbgs3d_swept QcS_laws lo0 hi0 lo1 hi1 lo2 hi2 c1 n offset slo0 shi0 slo1 shi1 slo2 shi2 st flo0 fhi0 flo1 fhi1 flo2 fhi2 f ulo0 uhi0 ulo1 uhi1 ulo2 uhi2 u m1 m2 H1 Hs Hf (fun c H => Hb c (proj1 H)) (sub_stays _ _ _ _ _ _ _ (fun c H => proj1 H) St) E1).
  - intros m1 m2 _ St E1. exact (cellrbgs3d_swept QcS_laws lo0 hi0 lo1 hi1 lo2 hi2 c2 n offset slo0 shi0 slo1 shi1 slo2 shi2 st flo0 fhi0 flo1 fhi1 flo2 fhi2 f ulo0 uhi0 ulo1 uhi1 ulo2 uhi2 u m1 m2 H2 Hs Hf (fun c H => Hb c (proj1 H)) (sub_stays _ _ _ _ _ _ _ (fun c H => proj1 H) St) E1).
Qed.

Lemma cellrbgs3d_keeps_bounds : forall lo0 hi0 lo1 hi1 lo2 hi2 c1 c2 n offset slo0 shi0 slo1 shi1 slo2 shi2 st flo0 fhi0 flo1 fhi1 flo2 fhi2 f ulo0 uhi0 ulo1 uhi1 ulo2 uhi2 u (m : mem QcS),
  0 <= c1 -> 0 <= c2 -> fst u <> fst st -> fst u <> fst f ->
  keeps_bounds m
    (twice (cellrbgs3d lo0 hi0 lo1 hi1 lo2 hi2 c1 n offset slo0 shi0 slo1 shi1 slo2 shi2 st flo0 fhi0 flo1 fhi1 flo2 fhi2 f ulo0 uhi0 ulo1 uhi1 ulo2 uhi2 u)
       (cellrbgs3d lo0 hi0 lo1 hi1 lo2 hi2 c2 n offset slo0 shi0 slo1 shi1 slo2 shi2 st flo0 fhi0 flo1 fhi1 flo2 fhi2 f ulo0 uhi0 ulo1 uhi1 ulo2 uhi2 u))
    (mkFa offset [(0, 2); (0, n - 1)]) (mkFa st ((0, n - 1) :: CELL3d slo0 slo1 slo2 shi0 shi1 shi2 0)) n
    (mkFa f (CELL3d flo0 flo1 flo2 fhi0 fhi1 fhi2 0)) (mkFa u (CELL3d ulo0 ulo1 ulo2 uhi0 uhi1 uhi2 0)) [(lo0, hi0); (lo1, hi1); (lo2, hi2)].
Proof.
  intros lo0 hi0 lo1 hi1 lo2 hi2 c1 c2 n offset slo0 shi0 slo1 shi1 slo2 shi2 st flo0 fhi0 flo1 fhi1 flo2 fhi2 f ulo0 uhi0 ulo1 uhi1 ulo2 uhi2 u m H1 H2 Hs Hf. intros x1 x2 k m' Hfit.
  refine (colours_bounded (mkFa offset [(0, 2); (0, n - 1)]) (mkFa st ((0, n - 1) :: CELL3d slo0 slo1 slo2 shi0 shi1 shi2 0)) (mkFa f (CELL3d flo0 flo1 flo2 fhi0 fhi1 fhi2 0)) (mkFa u (CELL3d ulo0 ulo1 ulo2 uhi0 uhi1 uhi2 0)) n [(lo0, hi0); (lo1, hi1); (lo2, hi2)] Hs Hf (ints m) _ _ c1 c2 _ _ m eq_refl x1 x2 k m' Hfit); destruct Hfit as (_ & Hb & _ & _).
  - intros m1 m2 _ St E1. exact (cellrbgs3d_swept QcS_laws lo0 hi0 lo1 hi1 lo2 hi2 c1 n offset slo0 shi0 slo1 shi1 slo2 shi2 st flo0 fhi0 flo1 fhi1 flo2 fhi2 f ulo0 uhi0 ulo1 uhi1 ulo2 uhi2 u m1 m2 H1 Hs Hf (fun c H => Hb c (proj1 H)) (sub_stays _ _ _ _ _ _ _ (fun c H => proj1 H) St) E1).
  - intros m1 m2 _ St E1. exact (cellrbgs3d_swept QcS_laws lo0 hi0 lo1 hi1 lo2 hi2 c2 n offset slo0 shi0 slo1 shi1 slo2 shi2 st flo0 fhi0 flo1 fhi1 flo2 fhi2 f ulo0 uhi0 ulo1 uhi1 ulo2 uhi2 u m1 m2 H2 Hs Hf (fun c H => Hb c (proj1 H)) (sub_stays _ _ _ _ _ _ _ (fun c H => proj1 H) St) E1).
Qed.

Lemma cells5rbgs2d_converges : forall lo0 hi0 lo1 hi1 c1 c2 offset slo0 shi0 slo1 shi1 st flo0 fhi0 flo1 fhi1 f ulo0 uhi0 ulo1 uhi1 u (m : mem QcS),
  0 <= lo1 + c1 -> 0 <= lo1 + c2 -> Z.odd (c1 + c2) = true -> fst u <> fst st -> fst u <> fst f ->
  table_is m (mkFa offset [(0, 1); (0, 4)]) [[0; 0]; [-1; 0]; [1; 0]; [0; -1]; [0; 1]] ->
  converges m
    (twice (cells5rbgs2d lo0 hi0 lo1 hi1 c1 slo0 shi0 slo1 shi1 st flo0 fhi0 flo1 fhi1 f ulo0 uhi0 ulo1 uhi1 u)
       (cells5rbgs2d lo0 hi0 lo1 hi1 c2 slo0 shi0 slo1 shi1 st flo0 fhi0 flo1 fhi1 f ulo0 uhi0 ulo1 uhi1 u))
    (mkFa offset [(0, 1); (0, 4)]) (mkFa st ((0, 4) :: CELL2d slo0 slo1 shi0 shi1 0)) 5
    (mkFa f (CELL2d flo0 flo1 fhi0 fhi1 0)) (mkFa u (CELL2d ulo0 ulo1 uhi0 uhi1 0)) [(lo0, hi0); (lo1, hi1)] (fun q => q).
Proof.
  intros lo0 hi0 lo1 hi1 c1 c2 offset slo0 shi0 slo1 shi1 st flo0 fhi0 flo1 fhi1 f ulo0 uhi0 ulo1 uhi1 u m H1 H2 Ho Hs Hf Ht. intros x q E k m' Hfit.
  refine (colours_converge (mkFa offset [(0, 1); (0, 4)]) (mkFa st ((0, 4) :: CELL2d slo0 slo1 shi0 shi1 0)) (mkFa f (CELL2d flo0 flo1 fhi0 fhi1 0)) (mkFa u (CELL2d ulo0 ulo1 uhi0 uhi1 0)) 5 [(lo0, hi0); (lo1, hi1)] Hs Hf (ints m) _ _ c1 c2 Ho _ _ m eq_refl x q E k m' Hfit); destruct Hfit as (_ & Hb & _ & _).
  - intros m1 m2 I1 St E1. rewrite (cells5rbgs2d_table lo0 hi0 lo1 hi1 c1 offset slo0 shi0 slo1 shi1 st flo0 fhi0 flo1 fhi1 f ulo0 uhi0 ulo1 uhi1 u m1 (table_ints m m1 _ _ I1 Ht)) in E1.
    exact (cellrbgs2d_swept QcS_laws lo0 hi0 lo1 hi1 c1 5 offset slo0 shi0 slo1 shi1 st flo0 fhi0 flo1 fhi1 f ulo0 uhi0 ulo1 uhi1 u m1 m2 H1 Hs Hf (fun c H => Hb c (proj1 H)) (sub_stays _ _ _ _ _ _ _ (fun c H => proj1 H) St) E1).
  - intros m1 m2 I1 St E1. rewrite (cells5rbgs2d_table lo0 hi0 lo1 hi1 c2 offset slo0 shi0 slo1 shi1 st flo0 fhi0 flo1 fhi1 f ulo0 uhi0 ulo1 uhi1 u m1 (table_ints m m1 _ _ I1 Ht)) in E1.
    exact (cellrbgs2d_swept QcS_laws lo0 hi0 lo1 hi1 c2 5 offset slo0 shi0 slo1 shi1 st flo0 fhi0 flo1 fhi1 f ulo0 uhi0 ulo1 uhi1 u m1 m2 H2 Hs Hf (fun c H => Hb c (proj1 H)) (sub_stays _ _ _ _ _ _ _ (fun c H => proj1 H) St) E1).
Qed.

Lemma cells5rbgs2d_keeps_bounds : forall lo0 hi0 lo1 hi1 c1 c2 offset slo0 shi0 slo1 shi1 st flo0 fhi0 flo1 fhi1 f ulo0 uhi0 ulo1 uhi1 u (m : mem QcS),
  0 <= lo1 + c1 -> 0 <= lo1 + c2 -> fst u <> fst st -> fst u <> fst f ->
  table_is m (mkFa offset [(0, 1); (0, 4)]) [[0; 0]; [-1; 0]; [1; 0]; [0; -1]; [0; 1]] ->
  keeps_bounds m
    (twice (cells5rbgs2d lo0 hi0 lo1 hi1 c1 slo0 shi0 slo1 shi1 st flo0 fhi0 flo1 fhi1 f ulo0 uhi0 ulo1 uhi1 u)
       (cells5rbgs2d lo0 hi0 lo1 hi1 c2 slo0 shi0 slo1 shi1 st flo0 fhi0 flo1 fhi1 f ulo0 uhi0 ulo1 uhi1 u))
    (mkFa offset [(0, 1); (0, 4)]) (mkFa st ((0, 4) :: CELL2d slo0 slo1 shi0 shi1 0)) 5
    (mkFa f (CELL2d flo0 flo1 fhi0 fhi1 0)) (mkFa u (CELL2d ulo0 ulo1 uhi0 uhi1 0)) [(lo0, hi0); (lo1, hi1)].
Proof.
  intros lo0 hi0 lo1 hi1 c1 c2 offset slo0 shi0 slo1 shi1 st flo0 fhi0 flo1 fhi1 f ulo0 uhi0 ulo1 uhi1 u m H1 H2 Hs Hf Ht. intros x1 x2 k m' Hfit.
  refine (colours_bounded (mkFa offset [(0, 1); (0, 4)]) (mkFa st ((0, 4) :: CELL2d slo0 slo1 shi0 shi1 0)) (mkFa f (CELL2d flo0 flo1 fhi0 fhi1 0)) (mkFa u (CELL2d ulo0 ulo1 uhi0 uhi1 0)) 5 [(lo0, hi0); (lo1, hi1)] Hs Hf (ints m) _ _ c1 c2 _ _ m eq_refl x1 x2 k m' Hfit); destruct Hfit as (_ & Hb & _ & _).
  - intros m1 m2 I1 St E1. rewrite (cells5rbgs2d_table lo0 hi0 lo1 hi1 c1 offset slo0 shi0 slo1 shi1 st flo0 fhi0 flo1 fhi1 f ulo0 uhi0 ulo1 uhi1 u m1 (table_ints m m1 _ _ I1 Ht)) in E1.
    exact (cellrbgs2d_swept QcS_laws lo0 hi0 lo1 hi1 c1 5 offset slo0 shi0 slo1 shi1 st flo0 fhi0 flo1 fhi1 f ulo0 uhi0 ulo1 uhi1 u m1 m2 H1 Hs Hf (fun c H => Hb c (proj1 H)) (sub_stays _ _ _ _ _ _ _ (fun c H => proj1 H) St) E1).
  - intros m1 m2 I1 St E1. rewrite (cells5rbgs2d_table lo0 hi0 lo1 hi1 c2 offset slo0 shi0 slo1 shi1 st flo0 fhi0 flo1 fhi1 f ulo0 uhi0 ulo1 uhi1 u m1 (table_ints m m1 _ _ I1 Ht)) in E1.
    exact (cellrbgs2d_swept QcS_laws lo0 hi0 lo1 hi1 c2 5 offset slo0 shi0 slo1 shi1 st flo0 fhi0 flo1 fhi1 f ulo0 uhi0 ulo1 uhi1 u m1 m2 H2 Hs Hf (fun c H => Hb c (proj1 H)) (sub_stays _ _ _ _ _ _ _ (fun c H => proj1 H) St) E1).
Qed.

Lemma cells9rbgs2d_converges : forall lo0 hi0 lo1 hi1 c1 c2 offset slo0 shi0 slo1 shi1 st flo0 fhi0 flo1 fhi1 f ulo0 uhi0 ulo1 uhi1 u (m : mem QcS),
  0 <= lo1 + c1 -> 0 <= lo1 + c2 -> Z.odd (c1 + c2) = true -> fst u <> fst st -> fst u <> fst f ->
  table_is m (mkFa offset [(0, 1); (0, 8)]) [[0; 0]; [-1; 0]; [1; 0]; [0; -1]; [0; 1]; [-1; -1]; [1; -1]; [-1; 1]; [1; 1]] ->
  converges m
    (twice (cells9rbgs2d lo0 hi0 lo1 hi1 c1 slo0 shi0 slo1 shi1 st flo0 fhi0 flo1 fhi1 f ulo0 uhi0 ulo1 uhi1 u)
       (cells9rbgs2d lo0 hi0 lo1 hi1 c2 slo0 shi0 slo1 shi1 st flo0 fhi0 flo1 fhi1 f ulo0 uhi0 ulo1 uhi1 u))
    (mkFa offset [(0, 1); (0, 8)]) (mkFa st ((0, 8) :: CELL2d slo0 slo1 shi0 shi1 0)) 9
    (mkFa f (CELL2d flo0 flo1 fhi0 fhi1 0)) (mkFa u (CELL2d ulo0 ulo1 uhi0 uhi1 0)) [(lo0, hi0); (lo1, hi1)] (fun q => q).
Proof.
  intros lo0 hi0 lo1 hi1 c1 c2 offset slo0 shi0 slo1 shi1 st flo0 fhi0 flo1 fhi1 f ulo0 uhi0 ulo1 uhi1 u m H1 H2 Ho Hs Hf Ht. intros x q E k m' Hfit.
  refine (colours_converge (mkFa offset [(0, 1); (0, 8)]) (mkFa st ((0, 8) :: CELL2d slo0 slo1 shi0 shi1 0)) (mkFa f (CELL2d flo0 flo1 fhi0 fhi1 0)) (mkFa u (CELL2d ulo0 ulo1 uhi0 uhi1 0)) 9 [(lo0, hi0); (lo1, hi1)] Hs Hf (ints m) _ _ c1 c2 Ho _ _ m eq_refl x q E k m' Hfit); destruct Hfit as (_ & Hb & _ & _).
  - intros m1 m2 I1 St E1. rewrite (cells9rbgs2d_table lo0 hi0 lo1 hi1 c1 offset slo0 shi0 slo1 shi1 st flo0 fhi0 flo1 fhi1 f ulo0 uhi0 ulo1 uhi1 u m1 (table_ints m m1 _ _ I1 Ht)) in E1.
    exact (cellrbgs2d_swept QcS_laws lo0 hi0 lo1 hi1 c1 9 offset slo0 shi0 slo1 shi1 st flo0 fhi0 flo1 fhi1 f ulo0 uhi0 ulo1 uhi1 u m1 m2 H1 Hs Hf (fun c H => Hb c (proj1 H)) (sub_stays _ _ _ _ _ _ _ (fun c H => proj1 H) St) E1).
  - intros m1 m2 I1 St E1. rewrite (cells9rbgs2d_table lo0 hi0 lo1 hi1 c2 offset slo0 shi0 slo1 shi1 st flo0 fhi0 flo1 fhi1 f ulo0 uhi0 ulo1 uhi1 u m1 (table_ints m m1 _ _ I1 Ht)) in E1.
    exact (cellrbgs2d_swept QcS_laws lo0 hi0 lo1 hi1 c2 9 offset slo0 shi0 slo1 shi1 st flo0 fhi0 flo1 fhi1 f ulo0 uhi0 ulo1 uhi1 u m1 m2 H2 Hs Hf (fun c H => Hb c (proj1 H)) (sub_stays _ _ _ _ _ _ _ (fun c H => proj1 H) St) E1).
Qed.

Lemma cells9rbgs2d_keeps_bounds : forall lo0 hi0 lo1 hi1 c1 c2 offset slo0 shi0 slo1 shi1 st flo0 fhi0 flo1 fhi1 f ulo0 uhi0 ulo1 uhi1 u (m : mem QcS),
  0 <= lo1 + c1 -> 0 <= lo1 + c2 -> fst u <> fst st -> fst u <> fst f ->
  table_is m (mkFa offset [(0, 1); (0, 8)]) [[0; 0]; [-1; 0]; [1; 0]; [0; -1]; [0; 1]; [-1; -1]; [1; -1]; [-1; 1]; [1; 1]] ->
  keeps_bounds m
    (twice (cells9rbgs2d lo0 hi0 lo1 hi1 c1 slo0 shi0 slo1 shi1 st flo0 fhi0 flo1 fhi1 f ulo0 uhi0 ulo1 uhi1 u)
       (cells9rbgs2d lo0 hi0 lo1 hi1 c2 slo0 shi0 slo1 shi1 st flo0 fhi0 flo1 fhi1 f ulo0 uhi0 ulo1 uhi1 u))
    (mkFa offset [(0, 1); (0, 8)]) (mkFa st ((0, 8) :: CELL2d slo0 slo1 shi0 shi1 0)) 9
    (mkFa f (CELL2d flo0 flo1 fhi0 fhi1 0)) (mkFa u (CELL2d ulo0 ulo1 uhi0 uhi1 0)) [(lo0, hi0); (lo1, hi1)].
Proof.
  intros lo0 hi0 lo1 hi1 c1 c2 offset slo0 shi0 slo1 shi1 st flo0 fhi0 flo1 fhi1 f ulo0 uhi0 ulo1 uhi1 u m H1 H2 Hs Hf Ht. intros x1 x2 k m' Hfit.
  refine (colours_bounded (mkFa offset [(0, 1); (0, 8)]) (mkFa st ((0, 8) :: CELL2d slo0 slo1 shi0 shi1 0)) (mkFa f (CELL2d flo0 flo1 fhi0 fhi1 0)) (mkFa u (CELL2d ulo0 ulo1 uhi0 uhi1 0)) 9 [(lo0, hi0); (lo1, hi1)] Hs Hf (ints m) _ _ c1 c2 _ _ m eq_refl x1 x2 k m' Hfit); destruct Hfit as (_ & Hb & _ & _).
  - intros m1 m2 I1 St E1. rewrite (cells9rbgs2d_table lo0 hi0 lo1 hi1 c1 offset slo0 shi0 slo1 shi1 st flo0 fhi0 flo1 fhi1 f ulo0 uhi0 ulo1 uhi1 u m1 (table_ints m m1 _ _ I1 Ht)) in E1.
    exact (cellrbgs2d_swept QcS_laws lo0 hi0 lo1 hi1 c1 9 offset slo0 shi0 slo1 shi1 st flo0 fhi0 flo1 fhi1 f ulo0 uhi0 ulo1 uhi1 u m1 m2 H1 Hs Hf (fun c H => Hb c (proj1 H)) (sub_stays _ _ _ _ _ _ _ (fun c H => proj1 H) St) E1).
  - intros m1 m2 I1 St E1. rewrite (cells9rbgs2d_table lo0 hi0 lo1 hi1 c2 offset slo0 shi0 slo1 shi1 st flo0 fhi0 flo1 fhi1 f ulo0 uhi0 ulo1 uhi1 u m1 (table_ints m m1 _ _ I1 Ht)) in E1.
    exact (cellrbgs2d_swept QcS_laws lo0 hi0 lo1 hi1 c2 9 offset slo0 shi0 slo1 shi1 st flo0 fhi0 flo1 fhi1 f ulo0 uhi0 ulo1 uhi1 u m1 m2 H2 Hs Hf (fun c H => Hb c (proj1 H)) (sub_stays _ _ _ _ _ _ _ (fun c H => proj1 H) St) E1).
Qed.

Lemma cells7rbgs3d_converges : forall lo0 hi0 lo1 hi1 lo2 hi2 c1 c2 offset slo0 shi0 slo1 shi1 slo2 shi2 st flo0 fhi0 flo1 fhi1 flo2 fhi2 f ulo0 uhi0 ulo1 uhi1 ulo2 uhi2 u (m : mem QcS),
  0 <= c1 -> 0 <= c2 -> Z.odd (c1 + c2) = true -> fst u <> fst st -> fst u <> fst f ->
  table_is m (mkFa offset [(0, 2); (0, 6)]) [[0; 0; 0]; [-1; 0; 0]; [1; 0; 0]; [0; -1; 0]; [0; 1; 0]; [0; 0; -1]; [0; 0; 1]] ->
  converges m
    (twice (cells7rbgs3d lo0 hi0 lo1 hi1 lo2 hi2 c1 slo0 shi0 slo1 shi1 slo2 shi2 st flo0 fhi0 flo1 fhi1 flo2 fhi2 f ulo0 uhi0 ulo1 uhi1 ulo2 uhi2 u)
       (cells7rbgs3d lo0 hi0 lo1 hi1 lo2 hi2 c2 slo0 shi0 slo1 shi1 slo2 shi2 st flo0 fhi0 flo1 fhi1 flo2 fhi2 f ulo0 uhi0 ulo1 uhi1 ulo2 uhi2 u))
    (mkFa offset [(0, 2); (0, 6)]) (mkFa st ((0, 6) :: CELL3d slo0 slo1 slo2 shi0 shi1 shi2 0)) 7
    (mkFa f (CELL3d flo0 flo1 flo2 fhi0 fhi1 fhi2 0)) (mkFa u (CELL3d ulo0 ulo1 ulo2 uhi0 uhi1 uhi2 0)) [(lo0, hi0); (lo1, hi1); (lo2, hi2)] (fun q => q).
Proof.
  intros lo0 hi0 lo1 hi1 lo2 hi2 c1 c2 offset slo0 shi0 slo1 shi1 slo2 shi2 st flo0 fhi0 flo1 fhi1 flo2 fhi2 f ulo0 uhi0 ulo1 uhi1 ulo2 uhi2 u m H1 H2 Ho Hs Hf Ht. intros x q E k m' Hfit.
  refine (colours_converge (mkFa offset [(0, 2); (0, 6)]) (mkFa st ((0, 6) :: CELL3d slo0 slo1 slo2 shi0 shi1 shi2 0)) (mkFa f (CELL3d flo0 flo1 flo2 fhi0 fhi1 fhi2 0)) (mkFa u (CELL3d ulo0 ulo1 ulo2 uhi0 uhi1 uhi2 0)) 7 [(lo0, hi0); (lo1, hi1); (lo2, hi2)] Hs Hf (ints m) _ _ c1 c2 Ho _ _ m eq_refl x q E k m' Hfit); destruct Hfit as (_ & Hb & _ & _).
  - intros m1 m2 I1 St E1. rewrite (cells7rbgs3d_table lo0 hi0 lo1 hi1 lo2 hi2 c1 offset slo0 shi0 slo1 shi1 slo2 shi2 st flo0 fhi0 flo1 fhi1 flo2 fhi2 f ulo0 uhi0 ulo1 uhi1 ulo2 uhi2 u m1 Hs (table_ints m m1 _ _ I1 Ht)) in E1.
    exact (cellrbgs3d_swept QcS_laws lo0 hi0 lo1 hi1 lo2 hi2 c1 7 offset slo0 shi0 slo1 shi1 slo2 shi2 st flo0 fhi0 flo1 fhi1 flo2 fhi2 f ulo0 uhi0 ulo1 uhi1 ulo2 uhi2 u m1 m2 H1 Hs Hf (fun c H => Hb c (proj1 H)) (sub_stays _ _ _ _ _ _ _ (fun c H => proj1 H) St) E1).
  - intros m1 m2 I1 St E1. rewrite (cells7rbgs3d_table lo0 hi0 lo1 hi1 lo2 hi2 c2 offset slo0 shi0 slo1 shi1 slo2 shi2 st flo0 fhi0 flo1 fhi1 flo2 fhi2 f ulo0 uhi0 ulo1 uhi1 ulo2 uhi2 u m1 Hs (table_ints m m1 _ _ I1 Ht)) in E1.
    exact (cellrbgs3d_swept QcS_laws lo0 hi0 lo1 hi1 lo2 hi2 c2 7 offset slo0 shi0 slo1 shi1 slo2 shi2 st flo0 fhi0 flo1 fhi1 flo2 fhi2 f ulo0 uhi0 ulo1 uhi1 ulo2 uhi2 u m1 m2 H2 Hs Hf (fun c H => Hb c (proj1 H)) (sub_stays _ _ _ _ _ _ _ (fun c H => proj1 H) St) E1).
Qed.

Lemma cells7rbgs3d_keeps_bounds : forall lo0 hi0 lo1 hi1 lo2 hi2 c1 c2 offset slo0 shi0 slo1 shi1 slo2 shi2 st flo0 fhi0 flo1 fhi1 flo2 fhi2 f ulo0 uhi0 ulo1 uhi1 ulo2 uhi2 u (m : mem QcS),
  0 <= c1 -> 0 <= c2 -> fst u <> fst st -> fst u <> fst f ->
  table_is m (mkFa offset [(0, 2); (0, 6)]) [[0; 0; 0]; [-1; 0; 0]; [1; 0; 0]; [0; -1; 0]; [0; 1; 0]; [0; 0; -1]; [0; 0; 1]] ->
  keeps_bounds m
    (twice (cells7rbgs3d lo0 hi0 lo1 hi1 lo2 hi2 c1 slo0 shi0 slo1 shi1 slo2 shi2 st flo0 fhi0 flo1 fhi1 flo2 fhi2 f ulo0 uhi0 ulo1 uhi1 ulo2 uhi2 u)
       (cells7rbgs3d lo0 hi0 lo1 hi1 lo2 hi2 c2 slo0 shi0 slo1 shi1 slo2 shi2 st flo0 fhi0 flo1 fhi1 flo2 fhi2 f ulo0 uhi0 ulo1 uhi1 ulo2 uhi2 u))
    (mkFa offset [(0, 2); (0, 6)]) (mkFa st ((0, 6) :: CELL3d slo0 slo1 slo2 shi0 shi1 shi2 0)) 7
    (mkFa f (CELL3d flo0 flo1 flo2 fhi0 fhi1 fhi2 0)) (mkFa u (CELL3d ulo0 ulo1 ulo2 uhi0 uhi1 uhi2 0)) [(lo0, hi0); (lo1, hi1); (lo2, hi2)].
Proof.
  intros lo0 hi0 lo1 hi1 lo2 hi2 c1 c2 offset slo0 shi0 slo1 shi1 slo2 shi2 st flo0 fhi0 flo1 fhi1 flo2 fhi2 f ulo0 uhi0 ulo1 uhi1 ulo2 uhi2 u m H1 H2 Hs Hf Ht. intros x1 x2 k m' Hfit.
  refine (colours_bounded (mkFa offset [(0, 2); (0, 6)]) (mkFa st ((0, 6) :: CELL3d slo0 slo1 slo2 shi0 shi1 shi2 0)) (mkFa f (CELL3d flo0 flo1 flo2 fhi0 fhi1 fhi2 0)) (mkFa u (CELL3d ulo0 ulo1 ulo2 uhi0 uhi1 uhi2 0)) 7 [(lo0, hi0); (lo1, hi1); (lo2, hi2)] Hs Hf (ints m) _ _ c1 c2 _ _ m eq_refl x1 x2 k m' Hfit); destruct Hfit as (_ & Hb & _ & _).
  - intros m1 m2 I1 St E1. rewrite (cells7rbgs3d_table lo0 hi0 lo1 hi1 lo2 hi2 c1 offset slo0 shi0 slo1 shi1 slo2 shi2 st flo0 fhi0 flo1 fhi1 flo2 fhi2 f ulo0 uhi0 ulo1 uhi1 ulo2 uhi2 u m1 Hs (table_ints m m1 _ _ I1 Ht)) in E1.
    exact (cellrbgs3d_swept QcS_laws lo0 hi0 lo1 hi1 lo2 hi2 c1 7 offset slo0 shi0 slo1 shi1 slo2 shi2 st flo0 fhi0 flo1 fhi1 flo2 fhi2 f ulo0 uhi0 ulo1 uhi1 ulo2 uhi2 u m1 m2 H1 Hs Hf (fun c H => Hb c (proj1 H)) (sub_stays _ _ _ _ _ _ _ (fun c H => proj1 H) St) E1).
  - intros m1 m2 I1 St E1. rewrite (cells7rbgs3d_table lo0 hi0 lo1 hi1 lo2 hi2 c2 offset slo0 shi0 slo1 shi1 slo2 shi2 st flo0 fhi0 flo1 fhi1 flo2 fhi2 f ulo0 uhi0 ulo1 uhi1 ulo2 uhi2 u m1 Hs (table_ints m m1 _ _ I1 Ht)) in E1.
    exact (cellrbgs3d_swept QcS_laws lo0 hi0 lo1 hi1 lo2 hi2 c2 7 offset slo0 shi0 slo1 shi1 slo2 shi2 st flo0 fhi0 flo1 fhi1 flo2 fhi2 f ulo0 uhi0 ulo1 uhi1 ulo2 uhi2 u m1 m2 H2 Hs Hf (fun c H => Hb c (proj1 H)) (sub_stays _ _ _ _ _ _ _ (fun c H => proj1 H) St) E1).
Qed.

Lemma celljacobi1d_converges : forall lo0 hi0 n offset slo0 shi0 st flo0 fhi0 f ulo0 uhi0 u r (m : mem QcS),
  fst u <> fst st -> fst u <> fst f -> fst u <> fst r -> fst r <> fst st -> fst r <> fst f ->
  converges m
    (celljacobi1d lo0 hi0 n offset slo0 shi0 st flo0 fhi0 f ulo0 uhi0 u r)
    (mkFa offset [(0, 0); (0, n - 1)]) (mkFa st ((0, n - 1) :: CELL1d slo0 shi0 0)) n
    (mkFa f (CELL1d flo0 fhi0 0)) (mkFa u (CELL1d ulo0 uhi0 0)) [(lo0, hi0)] (fun q => (1 - Q2Qc (Qmake 2 3) + Q2Qc (Qmake 2 3) * q)%Qc).
Proof.
  intros lo0 hi0 n offset slo0 shi0 st flo0 fhi0 f ulo0 uhi0 u r m Hs Hf Hur Hrs Hrf. intros x q E k m' Hfit.
  refine (jacobi_converges (mkFa offset [(0, 0); (0, n - 1)]) (mkFa st ((0, n - 1) :: CELL1d slo0 shi0 0)) (mkFa f (CELL1d flo0 fhi0 0)) (mkFa u (CELL1d ulo0 uhi0 0)) n [(lo0, hi0)] Hs Hf (mkFa r (CELL1d lo0 hi0 0)) (Q2Qc (Qmake 2 3)) _ Hur Hrs Hrf _ m thirds_pos thirds_le x q E k m' Hfit).
  intros m1 m2 E1. destruct Hfit as (_ & Hb & _ & _).
  assert (G := celljacobi1d_relaxed QcS_laws lo0 hi0 n offset slo0 shi0 st flo0 fhi0 f ulo0 uhi0 u r m1 m2 Hur Hrs Hrf Hb E1).
  replace (Q2Qc (Qmake 2 3)) with (lit 2 / lit 3 : QcS)%T by (apply Qc_is_canon; reflexivity). exact G.
Qed.

Lemma celljacobi1d_keeps_bounds : forall lo0 hi0 n offset slo0 shi0 st flo0 fhi0 f ulo0 uhi0 u r (m : mem QcS),
  fst u <> fst st -> fst u <> fst f -> fst u <> fst r -> fst r <> fst st -> fst r <> fst f ->
  keeps_bounds m
    (celljacobi1d lo0 hi0 n offset slo0 shi0 st flo0 fhi0 f ulo0 uhi0 u r)
    (mkFa offset [(0, 0); (0, n - 1)]) (mkFa st ((0, n - 1) :: CELL1d slo0 shi0 0)) n
    (mkFa f (CELL1d flo0 fhi0 0)) (mkFa u (CELL1d ulo0 uhi0 0)) [(lo0, hi0)].
Proof.
  intros lo0 hi0 n offset slo0 shi0 st flo0 fhi0 f ulo0 uhi0 u r m Hs Hf Hur Hrs Hrf. intros x1 x2 k m' Hfit.
  refine (jacobi_bounded (mkFa offset [(0, 0); (0, n - 1)]) (mkFa st ((0, n - 1) :: CELL1d slo0 shi0 0)) (mkFa f (CELL1d flo0 fhi0 0)) (mkFa u (CELL1d ulo0 uhi0 0)) n [(lo0, hi0)] Hs Hf (mkFa r (CELL1d lo0 hi0 0)) (Q2Qc (Qmake 2 3)) _ Hur Hrs Hrf _ m thirds_pos thirds_le x1 x2 k m' Hfit).
  intros m1 m2 E1. destruct Hfit as (_ & Hb & _ & _).
  assert (G := celljacobi1d_relaxed QcS_laws lo0 hi0 n offset slo0 shi0 st flo0 fhi0 f ulo0 uhi0 u r m1 m2 Hur Hrs Hrf Hb E1).
  replace (Q2Qc (Qmake 2 3)) with (lit 2 / lit 3 : QcS)%T by (apply Qc_is_canon; reflexivity). exact G.
Qed.

Lemma celljacobi2d_converges : forall lo0 hi0 lo1 hi1 n offset slo0 shi0 slo1 shi1 st flo0 fhi0 flo1 fhi1 f ulo0 uhi0 ulo1 uhi1 u r (w : Qc) (m : mem QcS),
  fst u <> fst st -> fst u <> fst f -> fst u <> fst r -> fst r <> fst st -> fst r <> fst f -> (0 <= w)%Qc -> (w <= 1)%Qc ->
  converges m
    (celljacobi2d lo0 hi0 lo1 hi1 n offset slo0 shi0 slo1 shi1 st flo0 fhi0 flo1 fhi1 f ulo0 uhi0 ulo1 uhi1 u r (w : QcS))
    (mkFa offset [(0, 1); (0, n - 1)]) (mkFa st ((0, n - 1) :: CELL2d slo0 slo1 shi0 shi1 0)) n
    (mkFa f (CELL2d flo0 flo1 fhi0 fhi1 0)) (mkFa u (CELL2d ulo0 ulo1 uhi0 uhi1 0)) [(lo0, hi0); (lo1, hi1)] (fun q => (1 - w + w * q)%Qc).
Proof.
  intros lo0 hi0 lo1 hi1 n offset slo0 shi0 slo1 shi1 st flo0 fhi0 flo1 fhi1 f ulo0 uhi0 ulo1 uhi1 u r w m Hs Hf Hur Hrs Hrf W0 W1. intros x q E k m' Hfit.
  refine (jacobi_converges (mkFa offset [(0, 1); (0, n - 1)]) (mkFa st ((0, n - 1) :: CELL2d slo0 slo1 shi0 shi1 0)) (mkFa f (CELL2d flo0 flo1 fhi0 fhi1 0)) (mkFa u (CELL2d ulo0 ulo1 uhi0 uhi1 0)) n [(lo0, hi0); (lo1, hi1)] Hs Hf (mkFa r (CELL2d lo0 lo1 hi0 hi1 0)) w _ Hur Hrs Hrf _ m W0 W1 x q E k m' Hfit).
  intros m1 m2 E1. destruct Hfit as (_ & Hb & _ & _).
  exact (celljacobi2d_relaxed QcS_laws lo0 hi0 lo1 hi1 n offset slo0 shi0 slo1 shi1 st flo0 fhi0 flo1 fhi1 f ulo0 uhi0 ulo1 uhi1 u r w m1 m2 Hur Hrs Hrf Hb E1).
Qed.

Lemma celljacobi2d_keeps_bounds : forall lo0 hi0 lo1 hi1 n offset slo0 shi0 slo1 shi1 st flo0 fhi0 flo1 fhi1 f ulo0 uhi0 ulo1 uhi1 u r (w : Qc) (m : mem QcS),
  fst u <> fst st -> fst u <> fst f -> fst u <> fst r -> fst r <> fst st -> fst r <> fst f -> (0 <= w)%Qc -> (w <= 1)%Qc ->
  keeps_bounds m
    (celljacobi2d lo0 hi0 lo1 hi1 n offset slo0 shi0 slo1 shi1 st flo0 fhi0 flo1 fhi1 f ulo0 uhi0 ulo1 uhi1 u r (w : QcS))
    (mkFa offset [(0, 1); (0, n - 1)]) (mkFa st ((0, n - 1) :: CELL2d slo0 slo1 shi0 shi1 0)) n
    (mkFa f (CELL2d flo0 flo1 fhi0 fhi1 0)) (mkFa u (CELL2d ulo0 ulo1 uhi0 uhi1 0)) [(lo0, hi0); (lo1, hi1)].
Proof.
  intros lo0 hi0 lo1 hi1 n offset slo0 shi0 slo1 shi1 st flo0 fhi0 flo1 fhi1 f ulo0 uhi0 ulo1 uhi1 u r w m Hs Hf Hur Hrs Hrf W0 W1. intros x1 x2 k m' Hfit.
  refine (jacobi_bounded (mkFa offset [(0, 1); (0, n - 1)]) (mkFa st ((0, n - 1) :: CELL2d slo0 slo1 shi0 shi1 0)) (mkFa f (CELL2d flo0 flo1 fhi0 fhi1 0)) (mkFa u (CELL2d ulo0 ulo1 uhi0 uhi1 0)) n [(lo0, hi0); (lo1, hi1)] Hs Hf (mkFa r (CELL2d lo0 lo1 hi0 hi1 0)) w _ Hur Hrs Hrf _ m W0 W1 x1 x2 k m' Hfit).
  intros m1 m2 E1. destruct Hfit as (_ & Hb & _ & _).
  exact (celljacobi2d_relaxed QcS_laws lo0 hi0 lo1 hi1 n offset slo0 shi0 slo1 shi1 st flo0 fhi0 flo1 fhi1 f ulo0 uhi0 ulo1 uhi1 u r w m1 m2 Hur Hrs Hrf Hb E1).
Qed.

Lemma celljacobi3d_converges : forall lo0 hi0 lo1 hi1 lo2 hi2 n offset slo0 shi0 slo1 shi1 slo2 shi2 st flo0 fhi0 flo1 fhi1 flo2 fhi2 f ulo0 uhi0 ulo1 uhi1 ulo2 uhi2 u r (w : Qc) (m : mem QcS),
  fst u <> fst st -> fst u <> fst f -> fst u <> fst r -> fst r <> fst st -> fst r <> fst f -> (0 <= w)%Qc -> (w <= 1)%Qc ->
  converges m
    (celljacobi3d lo0 hi0 lo1 hi1 lo2 hi2 n offset slo0 shi0 slo1 shi1 slo2 shi2 st flo0 fhi0 flo1 fhi1 flo2 fhi2 f ulo0 uhi0 ulo1 uhi1 ulo2 uhi2 u r (w : QcS))
    (mkFa offset [(0, 2); (0, n - 1)]) (mkFa st ((0, n - 1) :: CELL3d slo0 slo1 slo2 shi0 shi1 shi2 0)) n
    (mkFa f (CELL3d flo0 flo1 flo2 fhi0 fhi1 fhi2 0)) (mkFa u (CELL3d ulo0 ulo1 ulo2 uhi0 uhi1 uhi2 0)) [(lo0, hi0); (lo1, hi1); (lo2, hi2)] (fun q => (1 - w + w * q)%Qc).
Proof.
  intros lo0 hi0 lo1 hi1 lo2 hi2 n offset slo0 shi0 slo1 shi1 slo2 shi2 st flo0 fhi0 flo1 fhi1 flo2 fhi2 f ulo0 uhi0 ulo1 uhi1 ulo2 uhi2 u r w m Hs Hf Hur Hrs Hrf W0 W1. intros x q E k m' Hfit.
  refine (jacobi_converges (mkFa offset [(0, 2); (0, n - 1)]) (mkFa st ((0, n - 1) :: CELL3d slo0 slo1 slo2 shi0 shi1 shi2 0)) (mkFa f (CELL3d flo0 flo1 flo2 fhi0 fhi1 fhi2 0)) (mkFa u (CELL3d ulo0 ulo1 ulo2 uhi0 uhi1 uhi2 0)) n [(lo0, hi0); (lo1, hi1); (lo2, hi2)] Hs Hf (mkFa r (CELL3d lo0 lo1 lo2 hi0 hi1 hi2 0)) w _ Hur Hrs Hrf _ m W0 W1 x q E k m' Hfit).
  intros m1 m2 E1. destruct Hfit as (_ & Hb & _ & _).
  exact (celljacobi3d_relaxed QcS_laws lo0 hi0 lo1 hi1 lo2 hi2 n offset slo0 shi0 slo1 shi1 slo2 shi2 st flo0 fhi0 flo1 fhi1 flo2 fhi2 f ulo0 uhi0 ulo1 uhi1 ulo2 uhi2 u r w m1 m2 Hur Hrs Hrf Hb E1).
Qed.

Lemma celljacobi3d_keeps_bounds : forall lo0 hi0 lo1 hi1 lo2 hi2 n offset slo0 shi0 slo1 shi1 slo2 shi2 st flo0 fhi0 flo1 fhi1 flo2 fhi2 f ulo0 uhi0 ulo1 uhi1 ulo2 uhi2 u r (w : Qc) (m : mem QcS),
  fst u <> fst st -> fst u <> fst f -> fst u <> fst r -> fst r <> fst st -> fst r <> fst f -> (0 <= w)%Qc -> (w <= 1)%Qc ->
  keeps_bounds m
    (celljacobi3d lo0 hi0 lo1 hi1 lo2 hi2 n offset slo0 shi0 slo1 shi1 slo2 shi2 st flo0 fhi0 flo1 fhi1 flo2 fhi2 f ulo0 uhi0 ulo1 uhi1 ulo2 uhi2 u r (w : QcS))
    (mkFa offset [(0, 2); (0, n - 1)]) (mkFa st ((0, n - 1) :: CELL3d slo0 slo1 slo2 shi0 shi1 shi2 0)) n
    (mkFa f (CELL3d flo0 flo1 flo2 fhi0 fhi1 fhi2 0)) (mkFa u (CELL3d ulo0 ulo1 ulo2 uhi0 uhi1 uhi2 0)) [(lo0, hi0); (lo1, hi1); (lo2, hi2)].
Proof.
  intros lo0 hi0 lo1 hi1 lo2 hi2 n offset slo0 shi0 slo1 shi1 slo2 shi2 st flo0 fhi0 flo1 fhi1 flo2 fhi2 f ulo0 uhi0 ulo1 uhi1 ulo2 uhi2 u r w m Hs Hf Hur Hrs Hrf W0 W1. intros x1 x2 k m' Hfit.
  refine (jacobi_bounded (mkFa offset [(0, 2); (0, n - 1)]) (mkFa st ((0, n - 1) :: CELL3d slo0 slo1 slo2 shi0 shi1 shi2 0)) (mkFa f (CELL3d flo0 flo1 flo2 fhi0 fhi1 fhi2 0)) (mkFa u (CELL3d ulo0 ulo1 ulo2 uhi0 uhi1 uhi2 0)) n [(lo0, hi0); (lo1, hi1); (lo2, hi2)] Hs Hf (mkFa r (CELL3d lo0 lo1 lo2 hi0 hi1 hi2 0)) w _ Hur Hrs Hrf _ m W0 W1 x1 x2 k m' Hfit).
  intros m1 m2 E1. destruct Hfit as (_ & Hb & _ & _).
  exact (celljacobi3d_relaxed QcS_laws lo0 hi0 lo1 hi1 lo2 hi2 n offset slo0 shi0 slo1 shi1 slo2 shi2 st flo0 fhi0 flo1 fhi1 flo2 fhi2 f ulo0 uhi0 ulo1 uhi1 ulo2 uhi2 u r w m1 m2 Hur Hrs Hrf Hb E1).
Qed.
