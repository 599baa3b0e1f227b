(** * Solutions of the boundary value problem in memory *)

From Coq Require Import Field QArith Qcanon.
From Verif Require Import Base LemBase ModelBounds ModelMatrix ModelIters ModelSpan ModelProxy Spec SpecAssign FortranBase SpecKernel
  Instances LemField KernelsFlux KernelsApply KernelsBC LemFortran SpecRel SpecPrograms SpecRound LemRound3 SpecBoundary SpecBCOrder SpecBCCalls
  LemEnergy SpecSolve LemSolve LemSolveOp LemSolveMem SpecBvp LemBvp LemBvpFill LemBvpOp.
Import ListNotations.
Open Scope Z_scope.

Lemma apart_in u l p : apart u l -> In p l -> fst p <> fst u.
Proof. intros H. exact (proj1 (Forall_forall _ _) H p). Qed.
Lemma apart_incl u l k : apart u l -> incl k l -> apart u k.
Proof. intros H I. apply Forall_forall. intros p Hp. exact (apart_in u l p H (I p Hp)). Qed.
Lemma Some_eq (x y : Qc) : Some (x : QcS) = Some (y : QcS) -> x = y.
Proof. intros H. now injection H. Qed.

(** Calls that complete do so on any memory of the same shape. *)
Lemma completes_calls (K : bcall QcS -> mem QcS -> option (mem QcS)) :
  (forall c m n m', shape m = shape n -> ints m = ints n -> K c m = Some m' -> exists n', K c n = Some n' /\ shape m' = shape n' /\ ints m' = ints n') ->
  forall cs m n m', shape m = shape n -> ints m = ints n -> forM cs K m = Some m' -> exists n', forM cs K n = Some n' /\ shape m' = shape n' /\ ints m' = ints n'.
Proof.
  intros H. induction cs as [|c cs IH]; intros m n m' Hs Hi E; cbn [forM] in *.
  - injection E as <-. exists n. auto.
  - apply bind_Some_inv in E as (m1 & E1 & E2). destruct (H c m n m1 Hs Hi E1) as (n1 & F1 & S1 & I1).
    rewrite F1. cbn [bind]. exact (IH m1 n1 m' S1 I1 E2).
Qed.

Lemma completes_set_bc_1d i0 i1 (dx : Z -> Qc) (b0 : ptr) gcw u cs (m n m' : mem QcS) : shape m = shape n -> ints m = ints n ->
  forM cs (call_set_bc_1d (S := QcS) (ends1 i0) (ends1 i1) dx 0 b0 gcw u) m = Some m' -> exists n', forM cs (call_set_bc_1d (S := QcS) (ends1 i0) (ends1 i1) dx 0 b0 gcw u) n = Some n' /\ shape m' = shape n' /\ ints m' = ints n'.
Proof.
  apply completes_calls. clear. intros c m n m' Hs Hi E.
  exact (completes _ (params dx (c_alpha c) (c_beta c)) (params dx (c_alpha c) (c_beta c)) m n m' (L_cd_1d_set_bc _ _ _ _ _ _ _ _ _ _ _) Hs Hi E).
Qed.

Lemma near_set_bc_1d i0 i1 (dx : Z -> Qc) (b0 : ptr) gcw u bc (m m1 : mem QcS) (w w1 : Z -> Qc) (v0 : Z -> Qc) :
  1 <= gcw -> apart u [b0] -> roomy 1 (ends1 i0) (ends1 i1) bc -> (forall f, 0 <= f < 2 -> sound true (bc f)) -> (forall d, 0 <= d < 1 -> (0 < dx d)%Qc) ->
  (forall i, i0 <= i <= i1 + 1 -> (0 < v0 i)%Qc) ->
  (forall i, i0 <= i <= i1 -> ((mkFa u (CELL1d i0 i1 gcw))!(i))%F m = Some (w i : QcS)) ->
  forM (face_calls 1 (ends1 i0) (ends1 i1) bc) (call_set_bc_1d (S := QcS) (ends1 i0) (ends1 i1) dx 0 b0 gcw u) m = Some m1 ->
  (forall i, i0 - 1 <= i <= i1 + 1 -> ((mkFa u (CELL1d i0 i1 gcw))!(i))%F m1 = Some (w1 i : QcS)) ->
  (forall i, i0 <= i <= i1 + 1 -> ((mkFa b0 (FACE1d i0 i1 0))!(i))%F m1 = Some (v0 i : QcS)) ->
  forall i, near1 i0 i1 i -> w1 i = ext1 i0 i1 dx v0 bc w i.
Proof.
  intros Hg Ap Ro Hs Hdx Hv0 Rw E Ru Rb0.
  destruct (kept_set_bc_1d (ends1 i0) (ends1 i1) dx b0 gcw u bc m m1 Hg Ap Ro E) as (_ & _ & Km & Om).
  pose proof (roomy_le 1 (ends1 i0) (ends1 i1) bc Ro 0 ltac:(lia)) as B0. change (i0 <= i1) in B0.
  assert (HW : forall q, inside 1 (ends1 i0) (ends1 i1) q -> fel (mkFa u (CELL1d i0 i1 gcw)) (map q [0]) m = Some (w (q 0) : QcS)).
  { intros q Hq. apply Rw; [exact (Hq 0 ltac:(lia))]. }
  assert (F0 : w1 (i0 - 1)%Z = ext1 i0 i1 dx v0 bc w (i0 - 1)%Z).
  { rewrite (ext1_face0 i0 i1 dx (fun _ => 1%Qc) v0 bc w ltac:(lia)).
    assert (Co : coef1 (mkFa b0 (FACE1d i0 i1 0)) 0 (ends1 (i0 - 1)%Z) m = Some (v0 i0 : QcS)).
    { unfold coef1. replace (face_index 0 (ends1 (i0 - 1)%Z)) with i0 by (change (face_index 0 (ends1 (i0 - 1)%Z)) with ((i0 - 1)%Z + 1); lia).
      rewrite <- (Rb0 i0 ltac:(lia)). unfold fel. symmetry. apply Om. cbn. apply (apart_in u _ b0 Ap). cbn. tauto. }
    assert (Fc : facing 1 (ends1 i0) (ends1 i1) 0 (ends1 (i0 - 1)%Z)).
    { intros e He. assert (e = 0) as -> by lia; [change ((i0 - 1)%Z = i0 - 1)]; lia. }
    pose proof (value_set_bc_1d (ends1 i0) (ends1 i1) dx b0 gcw u bc m m1 (fun q => w (q 0)) Hg Ap Ro Hs Hdx HW E 0 (ends1 (i0 - 1)%Z) (v0 i0) ltac:(lia) Fc Co (Qclt_le_weak _ _ (Hv0 i0 ltac:(lia)))) as V.
    cbv beta in V. revert V.
    replace (inward 0 1 (ends1 (i0 - 1)%Z) 0) with i0 by (change (inward 0 1 (ends1 (i0 - 1)%Z) 0) with ((i0 - 1)%Z + 1); lia). 
    replace (inward 0 2 (ends1 (i0 - 1)%Z) 0) with (i0 + 1)%Z by (change (inward 0 2 (ends1 (i0 - 1)%Z) 0) with ((i0 - 1)%Z + 2); lia). 
    intros V. apply Some_eq. rewrite <- (Ru (i0 - 1)%Z ltac:(lia)). exact V. }
  assert (F1 : w1 (i1 + 1)%Z = ext1 i0 i1 dx v0 bc w (i1 + 1)%Z).
  { rewrite (ext1_face1 i0 i1 dx (fun _ => 1%Qc) v0 bc w ltac:(lia)).
    assert (Co : coef1 (mkFa b0 (FACE1d i0 i1 0)) 1 (ends1 (i1 + 1)%Z) m = Some (v0 (i1 + 1)%Z : QcS)).
    { unfold coef1. replace (face_index 1 (ends1 (i1 + 1)%Z)) with (i1 + 1)%Z by (change (face_index 1 (ends1 (i1 + 1)%Z)) with ((i1 + 1)%Z + 0); lia).
      rewrite <- (Rb0 (i1 + 1)%Z ltac:(lia)). unfold fel. symmetry. apply Om. cbn. apply (apart_in u _ b0 Ap). cbn. tauto. }
    assert (Fc : facing 1 (ends1 i0) (ends1 i1) 1 (ends1 (i1 + 1)%Z)).
    { intros e He. assert (e = 0) as -> by lia; [change ((i1 + 1)%Z = i1 + 1)]; lia. }
    pose proof (value_set_bc_1d (ends1 i0) (ends1 i1) dx b0 gcw u bc m m1 (fun q => w (q 0)) Hg Ap Ro Hs Hdx HW E 1 (ends1 (i1 + 1)%Z) (v0 (i1 + 1)%Z) ltac:(lia) Fc Co (Qclt_le_weak _ _ (Hv0 (i1 + 1)%Z ltac:(lia)))) as V.
    cbv beta in V. revert V.
    replace (inward 1 1 (ends1 (i1 + 1)%Z) 0) with i1 by (change (inward 1 1 (ends1 (i1 + 1)%Z) 0) with ((i1 + 1)%Z - 1); lia). 
    replace (inward 1 2 (ends1 (i1 + 1)%Z) 0) with (i1 - 1)%Z by (change (inward 1 2 (ends1 (i1 + 1)%Z) 0) with ((i1 + 1)%Z - 2); lia). 
    intros V. apply Some_eq. rewrite <- (Ru (i1 + 1)%Z ltac:(lia)). exact V. }
  intros i In. destruct (patch_dec1 i0 i1 i) as [Ip|N].
  { rewrite (ext1_in i0 i1 dx (fun _ => 1%Qc) v0 bc w i Ip). apply Some_eq. rewrite <- (Ru i ltac:(k_near)), <- (Rw i ltac:(k_near)).
    apply (Km (ends1 i)). intros e He. assert (e = 0) as -> by lia; [change (i0 <= i <= i1)]; k_near. }
  destruct (Z_lt_dec i i0) as [L|?]; [replace i with (i0 - 1)%Z by (unfold near1 in In; lia); apply F0; unfold near1 in In; lia|].
  destruct (Z_lt_dec i1 i) as [L|?]; [replace i with (i1 + 1)%Z by (unfold near1 in In; lia); apply F1; unfold near1 in In; lia|].
  exfalso. apply N. k_near.
Qed.

Lemma completes_set_poisson_bc_1d i0 i1 (dx : Z -> Qc) gcw u cs (m n m' : mem QcS) : shape m = shape n -> ints m = ints n ->
  forM cs (call_set_poisson_bc_1d (S := QcS) (ends1 i0) (ends1 i1) dx gcw u) m = Some m' -> exists n', forM cs (call_set_poisson_bc_1d (S := QcS) (ends1 i0) (ends1 i1) dx gcw u) n = Some n' /\ shape m' = shape n' /\ ints m' = ints n'.
Proof.
  apply completes_calls. clear. intros c m n m' Hs Hi E.
  exact (completes _ (params dx (c_alpha c) (c_beta c)) (params dx (c_alpha c) (c_beta c)) m n m' (L_cd_1d_set_poisson_bc _ _ _ _ _ _ _ _ _) Hs Hi E).
Qed.

Lemma near_set_poisson_bc_1d i0 i1 (dx : Z -> Qc) gcw u bc (m m1 : mem QcS) (w w1 : Z -> Qc) :
  1 <= gcw -> roomy 1 (ends1 i0) (ends1 i1) bc -> (forall f, 0 <= f < 2 -> sound false (bc f)) -> (forall d, 0 <= d < 1 -> (0 < dx d)%Qc) ->

  (forall i, i0 <= i <= i1 -> ((mkFa u (CELL1d i0 i1 gcw))!(i))%F m = Some (w i : QcS)) ->
  forM (face_calls 1 (ends1 i0) (ends1 i1) bc) (call_set_poisson_bc_1d (S := QcS) (ends1 i0) (ends1 i1) dx gcw u) m = Some m1 ->
  (forall i, i0 - 1 <= i <= i1 + 1 -> ((mkFa u (CELL1d i0 i1 gcw))!(i))%F m1 = Some (w1 i : QcS)) ->

  forall i, near1 i0 i1 i -> w1 i = ext1 i0 i1 dx (fun _ => 1%Qc) bc w i.
Proof.
  intros Hg Ro Hs Hdx  Rw E Ru .
  destruct (kept_set_poisson_bc_1d (ends1 i0) (ends1 i1) dx  gcw u bc m m1 Hg Ro E) as (_ & _ & Km & Om).
  pose proof (roomy_le 1 (ends1 i0) (ends1 i1) bc Ro 0 ltac:(lia)) as B0. change (i0 <= i1) in B0.
  assert (HW : forall q, inside 1 (ends1 i0) (ends1 i1) q -> fel (mkFa u (CELL1d i0 i1 gcw)) (map q [0]) m = Some (w (q 0) : QcS)).
  { intros q Hq. apply Rw; [exact (Hq 0 ltac:(lia))]. }
  assert (F0 : w1 (i0 - 1)%Z = ext1 i0 i1 dx (fun _ => 1%Qc) bc w (i0 - 1)%Z).
  { rewrite (ext1_face0 i0 i1 dx (fun _ => 1%Qc) (fun _ => 1%Qc) bc w ltac:(lia)).
    assert (Fc : facing 1 (ends1 i0) (ends1 i1) 0 (ends1 (i0 - 1)%Z)).
    { intros e He. assert (e = 0) as -> by lia; [change ((i0 - 1)%Z = i0 - 1)]; lia. }
    pose proof (value_set_poisson_bc_1d (ends1 i0) (ends1 i1) dx  gcw u bc m m1 (fun q => w (q 0)) Hg Ro Hs Hdx HW E 0 (ends1 (i0 - 1)%Z) 1%Qc ltac:(lia) Fc ltac:(discriminate)) as V.
    cbv beta in V. revert V.
    replace (inward 0 1 (ends1 (i0 - 1)%Z) 0) with i0 by (change (inward 0 1 (ends1 (i0 - 1)%Z) 0) with ((i0 - 1)%Z + 1); lia). 
    replace (inward 0 2 (ends1 (i0 - 1)%Z) 0) with (i0 + 1)%Z by (change (inward 0 2 (ends1 (i0 - 1)%Z) 0) with ((i0 - 1)%Z + 2); lia). 
    intros V. apply Some_eq. rewrite <- (Ru (i0 - 1)%Z ltac:(lia)). exact V. }
  assert (F1 : w1 (i1 + 1)%Z = ext1 i0 i1 dx (fun _ => 1%Qc) bc w (i1 + 1)%Z).
  { rewrite (ext1_face1 i0 i1 dx (fun _ => 1%Qc) (fun _ => 1%Qc) bc w ltac:(lia)).
    assert (Fc : facing 1 (ends1 i0) (ends1 i1) 1 (ends1 (i1 + 1)%Z)).
    { intros e He. assert (e = 0) as -> by lia; [change ((i1 + 1)%Z = i1 + 1)]; lia. }
    pose proof (value_set_poisson_bc_1d (ends1 i0) (ends1 i1) dx  gcw u bc m m1 (fun q => w (q 0)) Hg Ro Hs Hdx HW E 1 (ends1 (i1 + 1)%Z) 1%Qc ltac:(lia) Fc ltac:(discriminate)) as V.
    cbv beta in V. revert V.
    replace (inward 1 1 (ends1 (i1 + 1)%Z) 0) with i1 by (change (inward 1 1 (ends1 (i1 + 1)%Z) 0) with ((i1 + 1)%Z - 1); lia). 
    replace (inward 1 2 (ends1 (i1 + 1)%Z) 0) with (i1 - 1)%Z by (change (inward 1 2 (ends1 (i1 + 1)%Z) 0) with ((i1 + 1)%Z - 2); lia). 
    intros V. apply Some_eq. rewrite <- (Ru (i1 + 1)%Z ltac:(lia)). exact V. }
  intros i In. destruct (patch_dec1 i0 i1 i) as [Ip|N].
  { rewrite (ext1_in i0 i1 dx (fun _ => 1%Qc) (fun _ => 1%Qc) bc w i Ip). apply Some_eq. rewrite <- (Ru i ltac:(k_near)), <- (Rw i ltac:(k_near)).
    apply (Km (ends1 i)). intros e He. assert (e = 0) as -> by lia; [change (i0 <= i <= i1)]; k_near. }
  destruct (Z_lt_dec i i0) as [L|?]; [replace i with (i0 - 1)%Z by (unfold near1 in In; lia); apply F0; unfold near1 in In; lia|].
  destruct (Z_lt_dec i1 i) as [L|?]; [replace i with (i1 + 1)%Z by (unfold near1 in In; lia); apply F1; unfold near1 in In; lia|].
  exfalso. apply N. k_near.
Qed.

Lemma completes_set_bc_2d i0 j0 i1 j1 (dx : Z -> Qc) (b0 b1 : ptr) gcw u cs (m n m' : mem QcS) : shape m = shape n -> ints m = ints n ->
  forM cs (call_set_bc_2d (S := QcS) (ends2 i0 j0) (ends2 i1 j1) dx 0 b0 b1 gcw u) m = Some m' -> exists n', forM cs (call_set_bc_2d (S := QcS) (ends2 i0 j0) (ends2 i1 j1) dx 0 b0 b1 gcw u) n = Some n' /\ shape m' = shape n' /\ ints m' = ints n'.
Proof.
  apply completes_calls. clear. intros c m n m' Hs Hi E.
  exact (completes _ (params dx (c_alpha c) (c_beta c)) (params dx (c_alpha c) (c_beta c)) m n m' (L_cd_2d_set_bc _ _ _ _ _ _ _ _ _ _ _ _ _ _ _) Hs Hi E).
Qed.

Lemma near_set_bc_2d i0 j0 i1 j1 (dx : Z -> Qc) (b0 b1 : ptr) gcw u bc (m m1 : mem QcS) (w w1 : Z -> Z -> Qc) (v0 v1 : Z -> Z -> Qc) :
  1 <= gcw -> apart u [b0; b1] -> roomy 2 (ends2 i0 j0) (ends2 i1 j1) bc -> (forall f, 0 <= f < 4 -> sound true (bc f)) -> (forall d, 0 <= d < 2 -> (0 < dx d)%Qc) ->
  (forall i j, i0 <= i <= i1 + 1 -> j0 <= j <= j1 -> (0 < v0 i j)%Qc) ->
  (forall i j, i0 <= i <= i1 -> j0 <= j <= j1 + 1 -> (0 <= v1 i j)%Qc) ->
  (forall i j, i0 <= i <= i1 -> j0 <= j <= j1 -> ((mkFa u (CELL2d i0 j0 i1 j1 gcw))!(i, j))%F m = Some (w i j : QcS)) ->
  forM (face_calls 2 (ends2 i0 j0) (ends2 i1 j1) bc) (call_set_bc_2d (S := QcS) (ends2 i0 j0) (ends2 i1 j1) dx 0 b0 b1 gcw u) m = Some m1 ->
  (forall i j, i0 - 1 <= i <= i1 + 1 -> j0 - 1 <= j <= j1 + 1 -> ((mkFa u (CELL2d i0 j0 i1 j1 gcw))!(i, j))%F m1 = Some (w1 i j : QcS)) ->
  (forall i j, i0 <= i <= i1 + 1 -> j0 <= j <= j1 -> ((mkFa b0 (FACE2d0 i0 j0 i1 j1 0))!(i, j))%F m1 = Some (v0 i j : QcS)) ->
  (forall i j, i0 <= i <= i1 -> j0 <= j <= j1 + 1 -> ((mkFa b1 (FACE2d1 i0 j0 i1 j1 0))!(j, i))%F m1 = Some (v1 i j : QcS)) ->
  forall i j, near2 i0 j0 i1 j1 i j -> w1 i j = ext2 i0 j0 i1 j1 dx v0 v1 bc w i j.
Proof.
  intros Hg Ap Ro Hs Hdx Hv0 Hv1 Rw E Ru Rb0 Rb1.
  destruct (kept_set_bc_2d (ends2 i0 j0) (ends2 i1 j1) dx b0 b1 gcw u bc m m1 Hg Ap Ro E) as (_ & _ & Km & Om).
  pose proof (roomy_le 2 (ends2 i0 j0) (ends2 i1 j1) bc Ro 0 ltac:(lia)) as B0. change (i0 <= i1) in B0. pose proof (roomy_le 2 (ends2 i0 j0) (ends2 i1 j1) bc Ro 1 ltac:(lia)) as B1. change (j0 <= j1) in B1.
  assert (HW : forall q, inside 2 (ends2 i0 j0) (ends2 i1 j1) q -> fel (mkFa u (CELL2d i0 j0 i1 j1 gcw)) (map q [0; 1]) m = Some (w (q 0) (q 1) : QcS)).
  { intros q Hq. apply Rw; [exact (Hq 0 ltac:(lia))|exact (Hq 1 ltac:(lia))]. }
  assert (F0 : forall j, j0 <= j <= j1 -> w1 (i0 - 1)%Z j = ext2 i0 j0 i1 j1 dx v0 v1 bc w (i0 - 1)%Z j).
  { intros j Ij. rewrite (ext2_face0 i0 j0 i1 j1 dx (fun _ _ => 1%Qc) v0 v1 bc w ltac:(lia) j ltac:(lia)).
    assert (Co : coef2 (mkFa b0 (FACE2d0 i0 j0 i1 j1 0)) (mkFa b1 (FACE2d1 i0 j0 i1 j1 0)) 0 (ends2 (i0 - 1)%Z j) m = Some (v0 i0 j : QcS)).
    { unfold coef2, dir. change (0 / 2 =? 0) with true. cbv iota. replace (face_index 0 (ends2 (i0 - 1)%Z j)) with i0 by (change (face_index 0 (ends2 (i0 - 1)%Z j)) with ((i0 - 1)%Z + 1); lia).
      rewrite <- (Rb0 i0 j ltac:(lia) ltac:(lia)). unfold fel. symmetry. apply Om. cbn. apply (apart_in u _ b0 Ap). cbn. tauto. }
    assert (Fc : facing 2 (ends2 i0 j0) (ends2 i1 j1) 0 (ends2 (i0 - 1)%Z j)).
    { intros e He. assert (e = 0 \/ e = 1) as [->| ->] by lia; [change ((i0 - 1)%Z = i0 - 1)|change (j0 <= j <= j1)]; lia. }
    pose proof (value_set_bc_2d (ends2 i0 j0) (ends2 i1 j1) dx b0 b1 gcw u bc m m1 (fun q => w (q 0) (q 1)) Hg Ap Ro Hs Hdx HW E 0 (ends2 (i0 - 1)%Z j) (v0 i0 j) ltac:(lia) Fc Co (Qclt_le_weak _ _ (Hv0 i0 j ltac:(lia) ltac:(lia)))) as V.
    cbv beta in V. revert V.
    replace (inward 0 1 (ends2 (i0 - 1)%Z j) 0) with i0 by (change (inward 0 1 (ends2 (i0 - 1)%Z j) 0) with ((i0 - 1)%Z + 1); lia). change (inward 0 1 (ends2 (i0 - 1)%Z j) 1) with j.
    replace (inward 0 2 (ends2 (i0 - 1)%Z j) 0) with (i0 + 1)%Z by (change (inward 0 2 (ends2 (i0 - 1)%Z j) 0) with ((i0 - 1)%Z + 2); lia). change (inward 0 2 (ends2 (i0 - 1)%Z j) 1) with j.
    intros V. apply Some_eq. rewrite <- (Ru (i0 - 1)%Z j ltac:(lia) ltac:(lia)). exact V. }
  assert (F1 : forall j, j0 <= j <= j1 -> w1 (i1 + 1)%Z j = ext2 i0 j0 i1 j1 dx v0 v1 bc w (i1 + 1)%Z j).
  { intros j Ij. rewrite (ext2_face1 i0 j0 i1 j1 dx (fun _ _ => 1%Qc) v0 v1 bc w ltac:(lia) j ltac:(lia)).
    assert (Co : coef2 (mkFa b0 (FACE2d0 i0 j0 i1 j1 0)) (mkFa b1 (FACE2d1 i0 j0 i1 j1 0)) 1 (ends2 (i1 + 1)%Z j) m = Some (v0 (i1 + 1)%Z j : QcS)).
    { unfold coef2, dir. change (1 / 2 =? 0) with true. cbv iota. replace (face_index 1 (ends2 (i1 + 1)%Z j)) with (i1 + 1)%Z by (change (face_index 1 (ends2 (i1 + 1)%Z j)) with ((i1 + 1)%Z + 0); lia).
      rewrite <- (Rb0 (i1 + 1)%Z j ltac:(lia) ltac:(lia)). unfold fel. symmetry. apply Om. cbn. apply (apart_in u _ b0 Ap). cbn. tauto. }
    assert (Fc : facing 2 (ends2 i0 j0) (ends2 i1 j1) 1 (ends2 (i1 + 1)%Z j)).
    { intros e He. assert (e = 0 \/ e = 1) as [->| ->] by lia; [change ((i1 + 1)%Z = i1 + 1)|change (j0 <= j <= j1)]; lia. }
    pose proof (value_set_bc_2d (ends2 i0 j0) (ends2 i1 j1) dx b0 b1 gcw u bc m m1 (fun q => w (q 0) (q 1)) Hg Ap Ro Hs Hdx HW E 1 (ends2 (i1 + 1)%Z j) (v0 (i1 + 1)%Z j) ltac:(lia) Fc Co (Qclt_le_weak _ _ (Hv0 (i1 + 1)%Z j ltac:(lia) ltac:(lia)))) as V.
    cbv beta in V. revert V.
    replace (inward 1 1 (ends2 (i1 + 1)%Z j) 0) with i1 by (change (inward 1 1 (ends2 (i1 + 1)%Z j) 0) with ((i1 + 1)%Z - 1); lia). change (inward 1 1 (ends2 (i1 + 1)%Z j) 1) with j.
    replace (inward 1 2 (ends2 (i1 + 1)%Z j) 0) with (i1 - 1)%Z by (change (inward 1 2 (ends2 (i1 + 1)%Z j) 0) with ((i1 + 1)%Z - 2); lia). change (inward 1 2 (ends2 (i1 + 1)%Z j) 1) with j.
    intros V. apply Some_eq. rewrite <- (Ru (i1 + 1)%Z j ltac:(lia) ltac:(lia)). exact V. }
  assert (F2 : forall i, i0 <= i <= i1 -> w1 i (j0 - 1)%Z = ext2 i0 j0 i1 j1 dx v0 v1 bc w i (j0 - 1)%Z).
  { intros i Ii. rewrite (ext2_face2 i0 j0 i1 j1 dx (fun _ _ => 1%Qc) v0 v1 bc w ltac:(lia) i ltac:(lia)).
    assert (Co : coef2 (mkFa b0 (FACE2d0 i0 j0 i1 j1 0)) (mkFa b1 (FACE2d1 i0 j0 i1 j1 0)) 2 (ends2 i (j0 - 1)%Z) m = Some (v1 i j0 : QcS)).
    { unfold coef2, dir. change (2 / 2 =? 0) with false. cbv iota. replace (face_index 2 (ends2 i (j0 - 1)%Z)) with j0 by (change (face_index 2 (ends2 i (j0 - 1)%Z)) with ((j0 - 1)%Z + 1); lia).
      rewrite <- (Rb1 i j0 ltac:(lia) ltac:(lia)). unfold fel. symmetry. apply Om. cbn. apply (apart_in u _ b1 Ap). cbn. tauto. }
    assert (Fc : facing 2 (ends2 i0 j0) (ends2 i1 j1) 2 (ends2 i (j0 - 1)%Z)).
    { intros e He. assert (e = 0 \/ e = 1) as [->| ->] by lia; [change (i0 <= i <= i1)|change ((j0 - 1)%Z = j0 - 1)]; lia. }
    pose proof (value_set_bc_2d (ends2 i0 j0) (ends2 i1 j1) dx b0 b1 gcw u bc m m1 (fun q => w (q 0) (q 1)) Hg Ap Ro Hs Hdx HW E 2 (ends2 i (j0 - 1)%Z) (v1 i j0) ltac:(lia) Fc Co (Hv1 i j0 ltac:(lia) ltac:(lia))) as V.
    cbv beta in V. revert V.
    replace (inward 2 1 (ends2 i (j0 - 1)%Z) 1) with j0 by (change (inward 2 1 (ends2 i (j0 - 1)%Z) 1) with ((j0 - 1)%Z + 1); lia). change (inward 2 1 (ends2 i (j0 - 1)%Z) 0) with i.
    replace (inward 2 2 (ends2 i (j0 - 1)%Z) 1) with (j0 + 1)%Z by (change (inward 2 2 (ends2 i (j0 - 1)%Z) 1) with ((j0 - 1)%Z + 2); lia). change (inward 2 2 (ends2 i (j0 - 1)%Z) 0) with i.
    intros V. apply Some_eq. rewrite <- (Ru i (j0 - 1)%Z ltac:(lia) ltac:(lia)). exact V. }
  assert (F3 : forall i, i0 <= i <= i1 -> w1 i (j1 + 1)%Z = ext2 i0 j0 i1 j1 dx v0 v1 bc w i (j1 + 1)%Z).
  { intros i Ii. rewrite (ext2_face3 i0 j0 i1 j1 dx (fun _ _ => 1%Qc) v0 v1 bc w ltac:(lia) i ltac:(lia)).
    assert (Co : coef2 (mkFa b0 (FACE2d0 i0 j0 i1 j1 0)) (mkFa b1 (FACE2d1 i0 j0 i1 j1 0)) 3 (ends2 i (j1 + 1)%Z) m = Some (v1 i (j1 + 1)%Z : QcS)).
    { unfold coef2, dir. change (3 / 2 =? 0) with false. cbv iota. replace (face_index 3 (ends2 i (j1 + 1)%Z)) with (j1 + 1)%Z by (change (face_index 3 (ends2 i (j1 + 1)%Z)) with ((j1 + 1)%Z + 0); lia).
      rewrite <- (Rb1 i (j1 + 1)%Z ltac:(lia) ltac:(lia)). unfold fel. symmetry. apply Om. cbn. apply (apart_in u _ b1 Ap). cbn. tauto. }
    assert (Fc : facing 2 (ends2 i0 j0) (ends2 i1 j1) 3 (ends2 i (j1 + 1)%Z)).
    { intros e He. assert (e = 0 \/ e = 1) as [->| ->] by lia; [change (i0 <= i <= i1)|change ((j1 + 1)%Z = j1 + 1)]; lia. }
    pose proof (value_set_bc_2d (ends2 i0 j0) (ends2 i1 j1) dx b0 b1 gcw u bc m m1 (fun q => w (q 0) (q 1)) Hg Ap Ro Hs Hdx HW E 3 (ends2 i (j1 + 1)%Z) (v1 i (j1 + 1)%Z) ltac:(lia) Fc Co (Hv1 i (j1 + 1)%Z ltac:(lia) ltac:(lia))) as V.
    cbv beta in V. revert V.
    replace (inward 3 1 (ends2 i (j1 + 1)%Z) 1) with j1 by (change (inward 3 1 (ends2 i (j1 + 1)%Z) 1) with ((j1 + 1)%Z - 1); lia). change (inward 3 1 (ends2 i (j1 + 1)%Z) 0) with i.
    replace (inward 3 2 (ends2 i (j1 + 1)%Z) 1) with (j1 - 1)%Z by (change (inward 3 2 (ends2 i (j1 + 1)%Z) 1) with ((j1 + 1)%Z - 2); lia). change (inward 3 2 (ends2 i (j1 + 1)%Z) 0) with i.
    intros V. apply Some_eq. rewrite <- (Ru i (j1 + 1)%Z ltac:(lia) ltac:(lia)). exact V. }
  intros i j In. destruct (patch_dec2 i0 j0 i1 j1 i j) as [Ip|N].
  { rewrite (ext2_in i0 j0 i1 j1 dx (fun _ _ => 1%Qc) v0 v1 bc w i j Ip). apply Some_eq. rewrite <- (Ru i j ltac:(k_near) ltac:(k_near)), <- (Rw i j ltac:(k_near) ltac:(k_near)).
    apply (Km (ends2 i j)). intros e He. assert (e = 0 \/ e = 1) as [->| ->] by lia; [change (i0 <= i <= i1)|change (j0 <= j <= j1)]; k_near. }
  destruct (Z_lt_dec i i0) as [L|?]; [replace i with (i0 - 1)%Z by (unfold near2 in In; lia); apply F0; unfold near2 in In; lia|].
  destruct (Z_lt_dec i1 i) as [L|?]; [replace i with (i1 + 1)%Z by (unfold near2 in In; lia); apply F1; unfold near2 in In; lia|].
  destruct (Z_lt_dec j j0) as [L|?]; [replace j with (j0 - 1)%Z by (unfold near2 in In; lia); apply F2; unfold near2 in In; lia|].
  destruct (Z_lt_dec j1 j) as [L|?]; [replace j with (j1 + 1)%Z by (unfold near2 in In; lia); apply F3; unfold near2 in In; lia|].
  exfalso. apply N. k_near.
Qed.

Lemma completes_set_poisson_bc_2d i0 j0 i1 j1 (dx : Z -> Qc) gcw u cs (m n m' : mem QcS) : shape m = shape n -> ints m = ints n ->
  forM cs (call_set_poisson_bc_2d (S := QcS) (ends2 i0 j0) (ends2 i1 j1) dx gcw u) m = Some m' -> exists n', forM cs (call_set_poisson_bc_2d (S := QcS) (ends2 i0 j0) (ends2 i1 j1) dx gcw u) n = Some n' /\ shape m' = shape n' /\ ints m' = ints n'.
Proof.
  apply completes_calls. clear. intros c m n m' Hs Hi E.
  exact (completes _ (params dx (c_alpha c) (c_beta c)) (params dx (c_alpha c) (c_beta c)) m n m' (L_cd_2d_set_poisson_bc _ _ _ _ _ _ _ _ _ _ _ _) Hs Hi E).
Qed.

Lemma near_set_poisson_bc_2d i0 j0 i1 j1 (dx : Z -> Qc) gcw u bc (m m1 : mem QcS) (w w1 : Z -> Z -> Qc) :
  1 <= gcw -> roomy 2 (ends2 i0 j0) (ends2 i1 j1) bc -> (forall f, 0 <= f < 4 -> sound false (bc f)) -> (forall d, 0 <= d < 2 -> (0 < dx d)%Qc) ->

  (forall i j, i0 <= i <= i1 -> j0 <= j <= j1 -> ((mkFa u (CELL2d i0 j0 i1 j1 gcw))!(i, j))%F m = Some (w i j : QcS)) ->
  forM (face_calls 2 (ends2 i0 j0) (ends2 i1 j1) bc) (call_set_poisson_bc_2d (S := QcS) (ends2 i0 j0) (ends2 i1 j1) dx gcw u) m = Some m1 ->
  (forall i j, i0 - 1 <= i <= i1 + 1 -> j0 - 1 <= j <= j1 + 1 -> ((mkFa u (CELL2d i0 j0 i1 j1 gcw))!(i, j))%F m1 = Some (w1 i j : QcS)) ->

  forall i j, near2 i0 j0 i1 j1 i j -> w1 i j = ext2 i0 j0 i1 j1 dx (fun _ _ => 1%Qc) (fun _ _ => 1%Qc) bc w i j.
Proof.
  intros Hg Ro Hs Hdx  Rw E Ru .
  destruct (kept_set_poisson_bc_2d (ends2 i0 j0) (ends2 i1 j1) dx  gcw u bc m m1 Hg Ro E) as (_ & _ & Km & Om).
  pose proof (roomy_le 2 (ends2 i0 j0) (ends2 i1 j1) bc Ro 0 ltac:(lia)) as B0. change (i0 <= i1) in B0. pose proof (roomy_le 2 (ends2 i0 j0) (ends2 i1 j1) bc Ro 1 ltac:(lia)) as B1. change (j0 <= j1) in B1.
  assert (HW : forall q, inside 2 (ends2 i0 j0) (ends2 i1 j1) q -> fel (mkFa u (CELL2d i0 j0 i1 j1 gcw)) (map q [0; 1]) m = Some (w (q 0) (q 1) : QcS)).
  { intros q Hq. apply Rw; [exact (Hq 0 ltac:(lia))|exact (Hq 1 ltac:(lia))]. }
  assert (F0 : forall j, j0 <= j <= j1 -> w1 (i0 - 1)%Z j = ext2 i0 j0 i1 j1 dx (fun _ _ => 1%Qc) (fun _ _ => 1%Qc) bc w (i0 - 1)%Z j).
  { intros j Ij. rewrite (ext2_face0 i0 j0 i1 j1 dx (fun _ _ => 1%Qc) (fun _ _ => 1%Qc) (fun _ _ => 1%Qc) bc w ltac:(lia) j ltac:(lia)).
    assert (Fc : facing 2 (ends2 i0 j0) (ends2 i1 j1) 0 (ends2 (i0 - 1)%Z j)).
    { intros e He. assert (e = 0 \/ e = 1) as [->| ->] by lia; [change ((i0 - 1)%Z = i0 - 1)|change (j0 <= j <= j1)]; lia. }
    pose proof (value_set_poisson_bc_2d (ends2 i0 j0) (ends2 i1 j1) dx  gcw u bc m m1 (fun q => w (q 0) (q 1)) Hg Ro Hs Hdx HW E 0 (ends2 (i0 - 1)%Z j) 1%Qc ltac:(lia) Fc ltac:(discriminate)) as V.
    cbv beta in V. revert V.
    replace (inward 0 1 (ends2 (i0 - 1)%Z j) 0) with i0 by (change (inward 0 1 (ends2 (i0 - 1)%Z j) 0) with ((i0 - 1)%Z + 1); lia). change (inward 0 1 (ends2 (i0 - 1)%Z j) 1) with j.
    replace (inward 0 2 (ends2 (i0 - 1)%Z j) 0) with (i0 + 1)%Z by (change (inward 0 2 (ends2 (i0 - 1)%Z j) 0) with ((i0 - 1)%Z + 2); lia). change (inward 0 2 (ends2 (i0 - 1)%Z j) 1) with j.
    intros V. apply Some_eq. rewrite <- (Ru (i0 - 1)%Z j ltac:(lia) ltac:(lia)). exact V. }
  assert (F1 : forall j, j0 <= j <= j1 -> w1 (i1 + 1)%Z j = ext2 i0 j0 i1 j1 dx (fun _ _ => 1%Qc) (fun _ _ => 1%Qc) bc w (i1 + 1)%Z j).
  { intros j Ij. rewrite (ext2_face1 i0 j0 i1 j1 dx (fun _ _ => 1%Qc) (fun _ _ => 1%Qc) (fun _ _ => 1%Qc) bc w ltac:(lia) j ltac:(lia)).
    assert (Fc : facing 2 (ends2 i0 j0) (ends2 i1 j1) 1 (ends2 (i1 + 1)%Z j)).
    { intros e He. assert (e = 0 \/ e = 1) as [->| ->] by lia; [change ((i1 + 1)%Z = i1 + 1)|change (j0 <= j <= j1)]; lia. }
    pose proof (value_set_poisson_bc_2d (ends2 i0 j0) (ends2 i1 j1) dx  gcw u bc m m1 (fun q => w (q 0) (q 1)) Hg Ro Hs Hdx HW E 1 (ends2 (i1 + 1)%Z j) 1%Qc ltac:(lia) Fc ltac:(discriminate)) as V.
    cbv beta in V. revert V.
    replace (inward 1 1 (ends2 (i1 + 1)%Z j) 0) with i1 by (change (inward 1 1 (ends2 (i1 + 1)%Z j) 0) with ((i1 + 1)%Z - 1); lia). change (inward 1 1 (ends2 (i1 + 1)%Z j) 1) with j.
    replace (inward 1 2 (ends2 (i1 + 1)%Z j) 0) with (i1 - 1)%Z by (change (inward 1 2 (ends2 (i1 + 1)%Z j) 0) with ((i1 + 1)%Z - 2); lia). change (inward 1 2 (ends2 (i1 + 1)%Z j) 1) with j.
    intros V. apply Some_eq. rewrite <- (Ru (i1 + 1)%Z j ltac:(lia) ltac:(lia)). exact V. }
  assert (F2 : forall i, i0 <= i <= i1 -> w1 i (j0 - 1)%Z = ext2 i0 j0 i1 j1 dx (fun _ _ => 1%Qc) (fun _ _ => 1%Qc) bc w i (j0 - 1)%Z).
  { intros i Ii. rewrite (ext2_face2 i0 j0 i1 j1 dx (fun _ _ => 1%Qc) (fun _ _ => 1%Qc) (fun _ _ => 1%Qc) bc w ltac:(lia) i ltac:(lia)).
    assert (Fc : facing 2 (ends2 i0 j0) (ends2 i1 j1) 2 (ends2 i (j0 - 1)%Z)).
    { intros e He. assert (e = 0 \/ e = 1) as [->| ->] by lia; [change (i0 <= i <= i1)|change ((j0 - 1)%Z = j0 - 1)]; lia. }
    pose proof (value_set_poisson_bc_2d (ends2 i0 j0) (ends2 i1 j1) dx  gcw u bc m m1 (fun q => w (q 0) (q 1)) Hg Ro Hs Hdx HW E 2 (ends2 i (j0 - 1)%Z) 1%Qc ltac:(lia) Fc ltac:(discriminate)) as V.
    cbv beta in V. revert V.
    replace (inward 2 1 (ends2 i (j0 - 1)%Z) 1) with j0 by (change (inward 2 1 (ends2 i (j0 - 1)%Z) 1) with ((j0 - 1)%Z + 1); lia). change (inward 2 1 (ends2 i (j0 - 1)%Z) 0) with i.
    replace (inward 2 2 (ends2 i (j0 - 1)%Z) 1) with (j0 + 1)%Z by (change (inward 2 2 (ends2 i (j0 - 1)%Z) 1) with ((j0 - 1)%Z + 2); lia). change (inward 2 2 (ends2 i (j0 - 1)%Z) 0) with i.
    intros V. apply Some_eq. rewrite <- (Ru i (j0 - 1)%Z ltac:(lia) ltac:(lia)). exact V. }
  assert (F3 : forall i, i0 <= i <= i1 -> w1 i (j1 + 1)%Z = ext2 i0 j0 i1 j1 dx (fun _ _ => 1%Qc) (fun _ _ => 1%Qc) bc w i (j1 + 1)%Z).
  { intros i Ii. rewrite (ext2_face3 i0 j0 i1 j1 dx (fun _ _ => 1%Qc) (fun _ _ => 1%Qc) (fun _ _ => 1%Qc) bc w ltac:(lia) i ltac:(lia)).
    assert (Fc : facing 2 (ends2 i0 j0) (ends2 i1 j1) 3 (ends2 i (j1 + 1)%Z)).
    { intros e He. assert (e = 0 \/ e = 1) as [->| ->] by lia; [change (i0 <= i <= i1)|change ((j1 + 1)%Z = j1 + 1)]; lia. }
    pose proof (value_set_poisson_bc_2d (ends2 i0 j0) (ends2 i1 j1) dx  gcw u bc m m1 (fun q => w (q 0) (q 1)) Hg Ro Hs Hdx HW E 3 (ends2 i (j1 + 1)%Z) 1%Qc ltac:(lia) Fc ltac:(discriminate)) as V.
    cbv beta in V. revert V.
    replace (inward 3 1 (ends2 i (j1 + 1)%Z) 1) with j1 by (change (inward 3 1 (ends2 i (j1 + 1)%Z) 1) with ((j1 + 1)%Z - 1); lia). change (inward 3 1 (ends2 i (j1 + 1)%Z) 0) with i.
    replace (inward 3 2 (ends2 i (j1 + 1)%Z) 1) with (j1 - 1)%Z by (change (inward 3 2 (ends2 i (j1 + 1)%Z) 1) with ((j1 + 1)%Z - 2); lia). change (inward 3 2 (ends2 i (j1 + 1)%Z) 0) with i.
    intros V. apply Some_eq. rewrite <- (Ru i (j1 + 1)%Z ltac:(lia) ltac:(lia)). exact V. }
  intros i j In. destruct (patch_dec2 i0 j0 i1 j1 i j) as [Ip|N].
  { rewrite (ext2_in i0 j0 i1 j1 dx (fun _ _ => 1%Qc) (fun _ _ => 1%Qc) (fun _ _ => 1%Qc) bc w i j Ip). apply Some_eq. rewrite <- (Ru i j ltac:(k_near) ltac:(k_near)), <- (Rw i j ltac:(k_near) ltac:(k_near)).
    apply (Km (ends2 i j)). intros e He. assert (e = 0 \/ e = 1) as [->| ->] by lia; [change (i0 <= i <= i1)|change (j0 <= j <= j1)]; k_near. }
  destruct (Z_lt_dec i i0) as [L|?]; [replace i with (i0 - 1)%Z by (unfold near2 in In; lia); apply F0; unfold near2 in In; lia|].
  destruct (Z_lt_dec i1 i) as [L|?]; [replace i with (i1 + 1)%Z by (unfold near2 in In; lia); apply F1; unfold near2 in In; lia|].
  destruct (Z_lt_dec j j0) as [L|?]; [replace j with (j0 - 1)%Z by (unfold near2 in In; lia); apply F2; unfold near2 in In; lia|].
  destruct (Z_lt_dec j1 j) as [L|?]; [replace j with (j1 + 1)%Z by (unfold near2 in In; lia); apply F3; unfold near2 in In; lia|].
  exfalso. apply N. k_near.
Qed.

Lemma completes_set_bc_3d i0 j0 k0 i1 j1 k1 (dx : Z -> Qc) (b0 b1 b2 : ptr) gcw u cs (m n m' : mem QcS) : shape m = shape n -> ints m = ints n ->
  forM cs (call_set_bc_3d (S := QcS) (ends3 i0 j0 k0) (ends3 i1 j1 k1) dx 0 b0 b1 b2 gcw u) m = Some m' -> exists n', forM cs (call_set_bc_3d (S := QcS) (ends3 i0 j0 k0) (ends3 i1 j1 k1) dx 0 b0 b1 b2 gcw u) n = Some n' /\ shape m' = shape n' /\ ints m' = ints n'.
Proof.
  apply completes_calls. clear. intros c m n m' Hs Hi E.
  exact (completes _ (params dx (c_alpha c) (c_beta c)) (params dx (c_alpha c) (c_beta c)) m n m' (L_cd_3d_set_bc _ _ _ _ _ _ _ _ _ _ _ _ _ _ _ _ _ _) Hs Hi E).
Qed.

Lemma near_set_bc_3d i0 j0 k0 i1 j1 k1 (dx : Z -> Qc) (b0 b1 b2 : ptr) gcw u bc (m m1 : mem QcS) (w w1 : Z -> Z -> Z -> Qc) (v0 v1 v2 : Z -> Z -> Z -> Qc) :
  1 <= gcw -> apart u [b0; b1; b2] -> roomy 3 (ends3 i0 j0 k0) (ends3 i1 j1 k1) bc -> (forall f, 0 <= f < 6 -> sound true (bc f)) -> (forall d, 0 <= d < 3 -> (0 < dx d)%Qc) ->
  (forall i j k, i0 <= i <= i1 + 1 -> j0 <= j <= j1 -> k0 <= k <= k1 -> (0 < v0 i j k)%Qc) ->
  (forall i j k, i0 <= i <= i1 -> j0 <= j <= j1 + 1 -> k0 <= k <= k1 -> (0 <= v1 i j k)%Qc) ->
  (forall i j k, i0 <= i <= i1 -> j0 <= j <= j1 -> k0 <= k <= k1 + 1 -> (0 <= v2 i j k)%Qc) ->
  (forall i j k, i0 <= i <= i1 -> j0 <= j <= j1 -> k0 <= k <= k1 -> ((mkFa u (CELL3d i0 j0 k0 i1 j1 k1 gcw))!(i, j, k))%F m = Some (w i j k : QcS)) ->
  forM (face_calls 3 (ends3 i0 j0 k0) (ends3 i1 j1 k1) bc) (call_set_bc_3d (S := QcS) (ends3 i0 j0 k0) (ends3 i1 j1 k1) dx 0 b0 b1 b2 gcw u) m = Some m1 ->
  (forall i j k, i0 - 1 <= i <= i1 + 1 -> j0 - 1 <= j <= j1 + 1 -> k0 - 1 <= k <= k1 + 1 -> ((mkFa u (CELL3d i0 j0 k0 i1 j1 k1 gcw))!(i, j, k))%F m1 = Some (w1 i j k : QcS)) ->
  (forall i j k, i0 <= i <= i1 + 1 -> j0 <= j <= j1 -> k0 <= k <= k1 -> ((mkFa b0 (FACE3d0 i0 j0 k0 i1 j1 k1 0))!(i, j, k))%F m1 = Some (v0 i j k : QcS)) ->
  (forall i j k, i0 <= i <= i1 -> j0 <= j <= j1 + 1 -> k0 <= k <= k1 -> ((mkFa b1 (FACE3d1 i0 j0 k0 i1 j1 k1 0))!(j, k, i))%F m1 = Some (v1 i j k : QcS)) ->
  (forall i j k, i0 <= i <= i1 -> j0 <= j <= j1 -> k0 <= k <= k1 + 1 -> ((mkFa b2 (FACE3d2 i0 j0 k0 i1 j1 k1 0))!(k, i, j))%F m1 = Some (v2 i j k : QcS)) ->
  forall i j k, near3 i0 j0 k0 i1 j1 k1 i j k -> w1 i j k = ext3 i0 j0 k0 i1 j1 k1 dx v0 v1 v2 bc w i j k.
Proof.
  intros Hg Ap Ro Hs Hdx Hv0 Hv1 Hv2 Rw E Ru Rb0 Rb1 Rb2.
  destruct (kept_set_bc_3d (ends3 i0 j0 k0) (ends3 i1 j1 k1) dx b0 b1 b2 gcw u bc m m1 Hg Ap Ro E) as (_ & _ & Km & Om).
  pose proof (roomy_le 3 (ends3 i0 j0 k0) (ends3 i1 j1 k1) bc Ro 0 ltac:(lia)) as B0. change (i0 <= i1) in B0. pose proof (roomy_le 3 (ends3 i0 j0 k0) (ends3 i1 j1 k1) bc Ro 1 ltac:(lia)) as B1. change (j0 <= j1) in B1. pose proof (roomy_le 3 (ends3 i0 j0 k0) (ends3 i1 j1 k1) bc Ro 2 ltac:(lia)) as B2. change (k0 <= k1) in B2.
  assert (HW : forall q, inside 3 (ends3 i0 j0 k0) (ends3 i1 j1 k1) q -> fel (mkFa u (CELL3d i0 j0 k0 i1 j1 k1 gcw)) (map q [0; 1; 2]) m = Some (w (q 0) (q 1) (q 2) : QcS)).
  { intros q Hq. apply Rw; [exact (Hq 0 ltac:(lia))|exact (Hq 1 ltac:(lia))|exact (Hq 2 ltac:(lia))]. }
  assert (F0 : forall j k, j0 <= j <= j1 -> k0 <= k <= k1 -> w1 (i0 - 1)%Z j k = ext3 i0 j0 k0 i1 j1 k1 dx v0 v1 v2 bc w (i0 - 1)%Z j k).
  { intros j k Ij Ik. rewrite (ext3_face0 i0 j0 k0 i1 j1 k1 dx (fun _ _ _ => 1%Qc) v0 v1 v2 bc w ltac:(lia) j k ltac:(lia) ltac:(lia)).
    assert (Co : coef3 (mkFa b0 (FACE3d0 i0 j0 k0 i1 j1 k1 0)) (mkFa b1 (FACE3d1 i0 j0 k0 i1 j1 k1 0)) (mkFa b2 (FACE3d2 i0 j0 k0 i1 j1 k1 0)) 0 (ends3 (i0 - 1)%Z j k) m = Some (v0 i0 j k : QcS)).
    { unfold coef3, dir. change (0 / 2 =? 0) with true. cbv iota. replace (face_index 0 (ends3 (i0 - 1)%Z j k)) with i0 by (change (face_index 0 (ends3 (i0 - 1)%Z j k)) with ((i0 - 1)%Z + 1); lia).
      rewrite <- (Rb0 i0 j k ltac:(lia) ltac:(lia) ltac:(lia)). unfold fel. symmetry. apply Om. cbn. apply (apart_in u _ b0 Ap). cbn. tauto. }
    assert (Fc : facing 3 (ends3 i0 j0 k0) (ends3 i1 j1 k1) 0 (ends3 (i0 - 1)%Z j k)).
    { intros e He. assert (e = 0 \/ e = 1 \/ e = 2) as [->|[->| ->]] by lia; [change ((i0 - 1)%Z = i0 - 1)|change (j0 <= j <= j1)|change (k0 <= k <= k1)]; lia. }
    pose proof (value_set_bc_3d (ends3 i0 j0 k0) (ends3 i1 j1 k1) dx b0 b1 b2 gcw u bc m m1 (fun q => w (q 0) (q 1) (q 2)) Hg Ap Ro Hs Hdx HW E 0 (ends3 (i0 - 1)%Z j k) (v0 i0 j k) ltac:(lia) Fc Co (Qclt_le_weak _ _ (Hv0 i0 j k ltac:(lia) ltac:(lia) ltac:(lia)))) as V.
    cbv beta in V. revert V.
    replace (inward 0 1 (ends3 (i0 - 1)%Z j k) 0) with i0 by (change (inward 0 1 (ends3 (i0 - 1)%Z j k) 0) with ((i0 - 1)%Z + 1); lia). change (inward 0 1 (ends3 (i0 - 1)%Z j k) 1) with j. change (inward 0 1 (ends3 (i0 - 1)%Z j k) 2) with k.
    replace (inward 0 2 (ends3 (i0 - 1)%Z j k) 0) with (i0 + 1)%Z by (change (inward 0 2 (ends3 (i0 - 1)%Z j k) 0) with ((i0 - 1)%Z + 2); lia). change (inward 0 2 (ends3 (i0 - 1)%Z j k) 1) with j. change (inward 0 2 (ends3 (i0 - 1)%Z j k) 2) with k.
    intros V. apply Some_eq. rewrite <- (Ru (i0 - 1)%Z j k ltac:(lia) ltac:(lia) ltac:(lia)). exact V. }
  assert (F1 : forall j k, j0 <= j <= j1 -> k0 <= k <= k1 -> w1 (i1 + 1)%Z j k = ext3 i0 j0 k0 i1 j1 k1 dx v0 v1 v2 bc w (i1 + 1)%Z j k).
  { intros j k Ij Ik. rewrite (ext3_face1 i0 j0 k0 i1 j1 k1 dx (fun _ _ _ => 1%Qc) v0 v1 v2 bc w ltac:(lia) j k ltac:(lia) ltac:(lia)).
    assert (Co : coef3 (mkFa b0 (FACE3d0 i0 j0 k0 i1 j1 k1 0)) (mkFa b1 (FACE3d1 i0 j0 k0 i1 j1 k1 0)) (mkFa b2 (FACE3d2 i0 j0 k0 i1 j1 k1 0)) 1 (ends3 (i1 + 1)%Z j k) m = Some (v0 (i1 + 1)%Z j k : QcS)).
    { unfold coef3, dir. change (1 / 2 =? 0) with true. cbv iota. replace (face_index 1 (ends3 (i1 + 1)%Z j k)) with (i1 + 1)%Z by (change (face_index 1 (ends3 (i1 + 1)%Z j k)) with ((i1 + 1)%Z + 0); lia).
      rewrite <- (Rb0 (i1 + 1)%Z j k ltac:(lia) ltac:(lia) ltac:(lia)). unfold fel. symmetry. apply Om. cbn. apply (apart_in u _ b0 Ap). cbn. tauto. }
    assert (Fc : facing 3 (ends3 i0 j0 k0) (ends3 i1 j1 k1) 1 (ends3 (i1 + 1)%Z j k)).
    { intros e He. assert (e = 0 \/ e = 1 \/ e = 2) as [->|[->| ->]] by lia; [change ((i1 + 1)%Z = i1 + 1)|change (j0 <= j <= j1)|change (k0 <= k <= k1)]; lia. }
    pose proof (value_set_bc_3d (ends3 i0 j0 k0) (ends3 i1 j1 k1) dx b0 b1 b2 gcw u bc m m1 (fun q => w (q 0) (q 1) (q 2)) Hg Ap Ro Hs Hdx HW E 1 (ends3 (i1 + 1)%Z j k) (v0 (i1 + 1)%Z j k) ltac:(lia) Fc Co (Qclt_le_weak _ _ (Hv0 (i1 + 1)%Z j k ltac:(lia) ltac:(lia) ltac:(lia)))) as V.
    cbv beta in V. revert V.
    replace (inward 1 1 (ends3 (i1 + 1)%Z j k) 0) with i1 by (change (inward 1 1 (ends3 (i1 + 1)%Z j k) 0) with ((i1 + 1)%Z - 1); lia). change (inward 1 1 (ends3 (i1 + 1)%Z j k) 1) with j. change (inward 1 1 (ends3 (i1 + 1)%Z j k) 2) with k.
    replace (inward 1 2 (ends3 (i1 + 1)%Z j k) 0) with (i1 - 1)%Z by (change (inward 1 2 (ends3 (i1 + 1)%Z j k) 0) with ((i1 + 1)%Z - 2); lia). change (inward 1 2 (ends3 (i1 + 1)%Z j k) 1) with j. change (inward 1 2 (ends3 (i1 + 1)%Z j k) 2) with k.
    intros V. apply Some_eq. rewrite <- (Ru (i1 + 1)%Z j k ltac:(lia) ltac:(lia) ltac:(lia)). exact V. }
  assert (F2 : forall i k, i0 <= i <= i1 -> k0 <= k <= k1 -> w1 i (j0 - 1)%Z k = ext3 i0 j0 k0 i1 j1 k1 dx v0 v1 v2 bc w i (j0 - 1)%Z k).
  { intros i k Ii Ik. rewrite (ext3_face2 i0 j0 k0 i1 j1 k1 dx (fun _ _ _ => 1%Qc) v0 v1 v2 bc w ltac:(lia) i k ltac:(lia) ltac:(lia)).
    assert (Co : coef3 (mkFa b0 (FACE3d0 i0 j0 k0 i1 j1 k1 0)) (mkFa b1 (FACE3d1 i0 j0 k0 i1 j1 k1 0)) (mkFa b2 (FACE3d2 i0 j0 k0 i1 j1 k1 0)) 2 (ends3 i (j0 - 1)%Z k) m = Some (v1 i j0 k : QcS)).
    { unfold coef3, dir. change (2 / 2 =? 0) with false. change (2 / 2 =? 1) with true. cbv iota. replace (face_index 2 (ends3 i (j0 - 1)%Z k)) with j0 by (change (face_index 2 (ends3 i (j0 - 1)%Z k)) with ((j0 - 1)%Z + 1); lia).
      rewrite <- (Rb1 i j0 k ltac:(lia) ltac:(lia) ltac:(lia)). unfold fel. symmetry. apply Om. cbn. apply (apart_in u _ b1 Ap). cbn. tauto. }
    assert (Fc : facing 3 (ends3 i0 j0 k0) (ends3 i1 j1 k1) 2 (ends3 i (j0 - 1)%Z k)).
    { intros e He. assert (e = 0 \/ e = 1 \/ e = 2) as [->|[->| ->]] by lia; [change (i0 <= i <= i1)|change ((j0 - 1)%Z = j0 - 1)|change (k0 <= k <= k1)]; lia. }
    pose proof (value_set_bc_3d (ends3 i0 j0 k0) (ends3 i1 j1 k1) dx b0 b1 b2 gcw u bc m m1 (fun q => w (q 0) (q 1) (q 2)) Hg Ap Ro Hs Hdx HW E 2 (ends3 i (j0 - 1)%Z k) (v1 i j0 k) ltac:(lia) Fc Co (Hv1 i j0 k ltac:(lia) ltac:(lia) ltac:(lia))) as V.
    cbv beta in V. revert V.
    replace (inward 2 1 (ends3 i (j0 - 1)%Z k) 1) with j0 by (change (inward 2 1 (ends3 i (j0 - 1)%Z k) 1) with ((j0 - 1)%Z + 1); lia). change (inward 2 1 (ends3 i (j0 - 1)%Z k) 0) with i. change (inward 2 1 (ends3 i (j0 - 1)%Z k) 2) with k.
    replace (inward 2 2 (ends3 i (j0 - 1)%Z k) 1) with (j0 + 1)%Z by (change (inward 2 2 (ends3 i (j0 - 1)%Z k) 1) with ((j0 - 1)%Z + 2); lia). change (inward 2 2 (ends3 i (j0 - 1)%Z k) 0) with i. change (inward 2 2 (ends3 i (j0 - 1)%Z k) 2) with k.
    intros V. apply Some_eq. rewrite <- (Ru i (j0 - 1)%Z k ltac:(lia) ltac:(lia) ltac:(lia)). exact V. }
  assert (F3 : forall i k, i0 <= i <= i1 -> k0 <= k <= k1 -> w1 i (j1 + 1)%Z k = ext3 i0 j0 k0 i1 j1 k1 dx v0 v1 v2 bc w i (j1 + 1)%Z k).
  { intros i k Ii Ik. rewrite (ext3_face3 i0 j0 k0 i1 j1 k1 dx (fun _ _ _ => 1%Qc) v0 v1 v2 bc w ltac:(lia) i k ltac:(lia) ltac:(lia)).
    assert (Co : coef3 (mkFa b0 (FACE3d0 i0 j0 k0 i1 j1 k1 0)) (mkFa b1 (FACE3d1 i0 j0 k0 i1 j1 k1 0)) (mkFa b2 (FACE3d2 i0 j0 k0 i1 j1 k1 0)) 3 (ends3 i (j1 + 1)%Z k) m = Some (v1 i (j1 + 1)%Z k : QcS)).
    { unfold coef3, dir. change (3 / 2 =? 0) with false. change (3 / 2 =? 1) with true. cbv iota. replace (face_index 3 (ends3 i (j1 + 1)%Z k)) with (j1 + 1)%Z by (change (face_index 3 (ends3 i (j1 + 1)%Z k)) with ((j1 + 1)%Z + 0); lia).
      rewrite <- (Rb1 i (j1 + 1)%Z k ltac:(lia) ltac:(lia) ltac:(lia)). unfold fel. symmetry. apply Om. cbn. apply (apart_in u _ b1 Ap). cbn. tauto. }
    assert (Fc : facing 3 (ends3 i0 j0 k0) (ends3 i1 j1 k1) 3 (ends3 i (j1 + 1)%Z k)).
    { intros e He. assert (e = 0 \/ e = 1 \/ e = 2) as [->|[->| ->]] by lia; [change (i0 <= i <= i1)|change ((j1 + 1)%Z = j1 + 1)|change (k0 <= k <= k1)]; lia. }
    pose proof (value_set_bc_3d (ends3 i0 j0 k0) (ends3 i1 j1 k1) dx b0 b1 b2 gcw u bc m m1 (fun q => w (q 0) (q 1) (q 2)) Hg Ap Ro Hs Hdx HW E 3 (ends3 i (j1 + 1)%Z k) (v1 i (j1 + 1)%Z k) ltac:(lia) Fc Co (Hv1 i (j1 + 1)%Z k ltac:(lia) ltac:(lia) ltac:(lia))) as V.
    cbv beta in V. revert V.
    replace (inward 3 1 (ends3 i (j1 + 1)%Z k) 1) with j1 by (change (inward 3 1 (ends3 i (j1 + 1)%Z k) 1) with ((j1 + 1)%Z - 1); lia). change (inward 3 1 (ends3 i (j1 + 1)%Z k) 0) with i. change (inward 3 1 (ends3 i (j1 + 1)%Z k) 2) with k.
    replace (inward 3 2 (ends3 i (j1 + 1)%Z k) 1) with (j1 - 1)%Z by (change (inward 3 2 (ends3 i (j1 + 1)%Z k) 1) with ((j1 + 1)%Z - 2); lia). change (inward 3 2 (ends3 i (j1 + 1)%Z k) 0) with i. change (inward 3 2 (ends3 i (j1 + 1)%Z k) 2) with k.
    intros V. apply Some_eq. rewrite <- (Ru i (j1 + 1)%Z k ltac:(lia) ltac:(lia) ltac:(lia)). exact V. }
  assert (F4 : forall i j, i0 <= i <= i1 -> j0 <= j <= j1 -> w1 i j (k0 - 1)%Z = ext3 i0 j0 k0 i1 j1 k1 dx v0 v1 v2 bc w i j (k0 - 1)%Z).
  { intros i j Ii Ij. rewrite (ext3_face4 i0 j0 k0 i1 j1 k1 dx (fun _ _ _ => 1%Qc) v0 v1 v2 bc w ltac:(lia) i j ltac:(lia) ltac:(lia)).
    assert (Co : coef3 (mkFa b0 (FACE3d0 i0 j0 k0 i1 j1 k1 0)) (mkFa b1 (FACE3d1 i0 j0 k0 i1 j1 k1 0)) (mkFa b2 (FACE3d2 i0 j0 k0 i1 j1 k1 0)) 4 (ends3 i j (k0 - 1)%Z) m = Some (v2 i j k0 : QcS)).
    { unfold coef3, dir. change (4 / 2 =? 0) with false. change (4 / 2 =? 1) with false. cbv iota. replace (face_index 4 (ends3 i j (k0 - 1)%Z)) with k0 by (change (face_index 4 (ends3 i j (k0 - 1)%Z)) with ((k0 - 1)%Z + 1); lia).
      rewrite <- (Rb2 i j k0 ltac:(lia) ltac:(lia) ltac:(lia)). unfold fel. symmetry. apply Om. cbn. apply (apart_in u _ b2 Ap). cbn. tauto. }
    assert (Fc : facing 3 (ends3 i0 j0 k0) (ends3 i1 j1 k1) 4 (ends3 i j (k0 - 1)%Z)).
    { intros e He. assert (e = 0 \/ e = 1 \/ e = 2) as [->|[->| ->]] by lia; [change (i0 <= i <= i1)|change (j0 <= j <= j1)|change ((k0 - 1)%Z = k0 - 1)]; lia. }
    pose proof (value_set_bc_3d (ends3 i0 j0 k0) (ends3 i1 j1 k1) dx b0 b1 b2 gcw u bc m m1 (fun q => w (q 0) (q 1) (q 2)) Hg Ap Ro Hs Hdx HW E 4 (ends3 i j (k0 - 1)%Z) (v2 i j k0) ltac:(lia) Fc Co (Hv2 i j k0 ltac:(lia) ltac:(lia) ltac:(lia))) as V.
    cbv beta in V. revert V.
    replace (inward 4 1 (ends3 i j (k0 - 1)%Z) 2) with k0 by (change (inward 4 1 (ends3 i j (k0 - 1)%Z) 2) with ((k0 - 1)%Z + 1); lia). change (inward 4 1 (ends3 i j (k0 - 1)%Z) 0) with i. change (inward 4 1 (ends3 i j (k0 - 1)%Z) 1) with j.
    replace (inward 4 2 (ends3 i j (k0 - 1)%Z) 2) with (k0 + 1)%Z by (change (inward 4 2 (ends3 i j (k0 - 1)%Z) 2) with ((k0 - 1)%Z + 2); lia). change (inward 4 2 (ends3 i j (k0 - 1)%Z) 0) with i. change (inward 4 2 (ends3 i j (k0 - 1)%Z) 1) with j.
    intros V. apply Some_eq. rewrite <- (Ru i j (k0 - 1)%Z ltac:(lia) ltac:(lia) ltac:(lia)). exact V. }
  assert (F5 : forall i j, i0 <= i <= i1 -> j0 <= j <= j1 -> w1 i j (k1 + 1)%Z = ext3 i0 j0 k0 i1 j1 k1 dx v0 v1 v2 bc w i j (k1 + 1)%Z).
  { intros i j Ii Ij. rewrite (ext3_face5 i0 j0 k0 i1 j1 k1 dx (fun _ _ _ => 1%Qc) v0 v1 v2 bc w ltac:(lia) i j ltac:(lia) ltac:(lia)).
    assert (Co : coef3 (mkFa b0 (FACE3d0 i0 j0 k0 i1 j1 k1 0)) (mkFa b1 (FACE3d1 i0 j0 k0 i1 j1 k1 0)) (mkFa b2 (FACE3d2 i0 j0 k0 i1 j1 k1 0)) 5 (ends3 i j (k1 + 1)%Z) m = Some (v2 i j (k1 + 1)%Z : QcS)).
    { unfold coef3, dir. change (5 / 2 =? 0) with false. change (5 / 2 =? 1) with false. cbv iota. replace (face_index 5 (ends3 i j (k1 + 1)%Z)) with (k1 + 1)%Z by (change (face_index 5 (ends3 i j (k1 + 1)%Z)) with ((k1 + 1)%Z + 0); lia).
      rewrite <- (Rb2 i j (k1 + 1)%Z ltac:(lia) ltac:(lia) ltac:(lia)). unfold fel. symmetry. apply Om. cbn. apply (apart_in u _ b2 Ap). cbn. tauto. }
    assert (Fc : facing 3 (ends3 i0 j0 k0) (ends3 i1 j1 k1) 5 (ends3 i j (k1 + 1)%Z)).
    { intros e He. assert (e = 0 \/ e = 1 \/ e = 2) as [->|[->| ->]] by lia; [change (i0 <= i <= i1)|change (j0 <= j <= j1)|change ((k1 + 1)%Z = k1 + 1)]; lia. }
    pose proof (value_set_bc_3d (ends3 i0 j0 k0) (ends3 i1 j1 k1) dx b0 b1 b2 gcw u bc m m1 (fun q => w (q 0) (q 1) (q 2)) Hg Ap Ro Hs Hdx HW E 5 (ends3 i j (k1 + 1)%Z) (v2 i j (k1 + 1)%Z) ltac:(lia) Fc Co (Hv2 i j (k1 + 1)%Z ltac:(lia) ltac:(lia) ltac:(lia))) as V.
    cbv beta in V. revert V.
    replace (inward 5 1 (ends3 i j (k1 + 1)%Z) 2) with k1 by (change (inward 5 1 (ends3 i j (k1 + 1)%Z) 2) with ((k1 + 1)%Z - 1); lia). change (inward 5 1 (ends3 i j (k1 + 1)%Z) 0) with i. change (inward 5 1 (ends3 i j (k1 + 1)%Z) 1) with j.
    replace (inward 5 2 (ends3 i j (k1 + 1)%Z) 2) with (k1 - 1)%Z by (change (inward 5 2 (ends3 i j (k1 + 1)%Z) 2) with ((k1 + 1)%Z - 2); lia). change (inward 5 2 (ends3 i j (k1 + 1)%Z) 0) with i. change (inward 5 2 (ends3 i j (k1 + 1)%Z) 1) with j.
    intros V. apply Some_eq. rewrite <- (Ru i j (k1 + 1)%Z ltac:(lia) ltac:(lia) ltac:(lia)). exact V. }
  intros i j k In. destruct (patch_dec3 i0 j0 k0 i1 j1 k1 i j k) as [Ip|N].
  { rewrite (ext3_in i0 j0 k0 i1 j1 k1 dx (fun _ _ _ => 1%Qc) v0 v1 v2 bc w i j k Ip). apply Some_eq. rewrite <- (Ru i j k ltac:(k_near) ltac:(k_near) ltac:(k_near)), <- (Rw i j k ltac:(k_near) ltac:(k_near) ltac:(k_near)).
    apply (Km (ends3 i j k)). intros e He. assert (e = 0 \/ e = 1 \/ e = 2) as [->|[->| ->]] by lia; [change (i0 <= i <= i1)|change (j0 <= j <= j1)|change (k0 <= k <= k1)]; k_near. }
  destruct (Z_lt_dec i i0) as [L|?]; [replace i with (i0 - 1)%Z by (unfold near3 in In; lia); apply F0; unfold near3 in In; lia|].
  destruct (Z_lt_dec i1 i) as [L|?]; [replace i with (i1 + 1)%Z by (unfold near3 in In; lia); apply F1; unfold near3 in In; lia|].
  destruct (Z_lt_dec j j0) as [L|?]; [replace j with (j0 - 1)%Z by (unfold near3 in In; lia); apply F2; unfold near3 in In; lia|].
  destruct (Z_lt_dec j1 j) as [L|?]; [replace j with (j1 + 1)%Z by (unfold near3 in In; lia); apply F3; unfold near3 in In; lia|].
  destruct (Z_lt_dec k k0) as [L|?]; [replace k with (k0 - 1)%Z by (unfold near3 in In; lia); apply F4; unfold near3 in In; lia|].
  destruct (Z_lt_dec k1 k) as [L|?]; [replace k with (k1 + 1)%Z by (unfold near3 in In; lia); apply F5; unfold near3 in In; lia|].
  exfalso. apply N. k_near.
Qed.

Lemma completes_set_poisson_bc_3d i0 j0 k0 i1 j1 k1 (dx : Z -> Qc) gcw u cs (m n m' : mem QcS) : shape m = shape n -> ints m = ints n ->
  forM cs (call_set_poisson_bc_3d (S := QcS) (ends3 i0 j0 k0) (ends3 i1 j1 k1) dx gcw u) m = Some m' -> exists n', forM cs (call_set_poisson_bc_3d (S := QcS) (ends3 i0 j0 k0) (ends3 i1 j1 k1) dx gcw u) n = Some n' /\ shape m' = shape n' /\ ints m' = ints n'.
Proof.
  apply completes_calls. clear. intros c m n m' Hs Hi E.
  exact (completes _ (params dx (c_alpha c) (c_beta c)) (params dx (c_alpha c) (c_beta c)) m n m' (L_cd_3d_set_poisson_bc _ _ _ _ _ _ _ _ _ _ _ _ _ _) Hs Hi E).
Qed.

Lemma near_set_poisson_bc_3d i0 j0 k0 i1 j1 k1 (dx : Z -> Qc) gcw u bc (m m1 : mem QcS) (w w1 : Z -> Z -> Z -> Qc) :
  1 <= gcw -> roomy 3 (ends3 i0 j0 k0) (ends3 i1 j1 k1) bc -> (forall f, 0 <= f < 6 -> sound false (bc f)) -> (forall d, 0 <= d < 3 -> (0 < dx d)%Qc) ->

  (forall i j k, i0 <= i <= i1 -> j0 <= j <= j1 -> k0 <= k <= k1 -> ((mkFa u (CELL3d i0 j0 k0 i1 j1 k1 gcw))!(i, j, k))%F m = Some (w i j k : QcS)) ->
  forM (face_calls 3 (ends3 i0 j0 k0) (ends3 i1 j1 k1) bc) (call_set_poisson_bc_3d (S := QcS) (ends3 i0 j0 k0) (ends3 i1 j1 k1) dx gcw u) m = Some m1 ->
  (forall i j k, i0 - 1 <= i <= i1 + 1 -> j0 - 1 <= j <= j1 + 1 -> k0 - 1 <= k <= k1 + 1 -> ((mkFa u (CELL3d i0 j0 k0 i1 j1 k1 gcw))!(i, j, k))%F m1 = Some (w1 i j k : QcS)) ->

  forall i j k, near3 i0 j0 k0 i1 j1 k1 i j k -> w1 i j k = ext3 i0 j0 k0 i1 j1 k1 dx (fun _ _ _ => 1%Qc) (fun _ _ _ => 1%Qc) (fun _ _ _ => 1%Qc) bc w i j k.
Proof.
  intros Hg Ro Hs Hdx  Rw E Ru .
  destruct (kept_set_poisson_bc_3d (ends3 i0 j0 k0) (ends3 i1 j1 k1) dx  gcw u bc m m1 Hg Ro E) as (_ & _ & Km & Om).
  pose proof (roomy_le 3 (ends3 i0 j0 k0) (ends3 i1 j1 k1) bc Ro 0 ltac:(lia)) as B0. change (i0 <= i1) in B0. pose proof (roomy_le 3 (ends3 i0 j0 k0) (ends3 i1 j1 k1) bc Ro 1 ltac:(lia)) as B1. change (j0 <= j1) in B1. pose proof (roomy_le 3 (ends3 i0 j0 k0) (ends3 i1 j1 k1) bc Ro 2 ltac:(lia)) as B2. change (k0 <= k1) in B2.
  assert (HW : forall q, inside 3 (ends3 i0 j0 k0) (ends3 i1 j1 k1) q -> fel (mkFa u (CELL3d i0 j0 k0 i1 j1 k1 gcw)) (map q [0; 1; 2]) m = Some (w (q 0) (q 1) (q 2) : QcS)).
  { intros q Hq. apply Rw; [exact (Hq 0 ltac:(lia))|exact (Hq 1 ltac:(lia))|exact (Hq 2 ltac:(lia))]. }
  assert (F0 : forall j k, j0 <= j <= j1 -> k0 <= k <= k1 -> w1 (i0 - 1)%Z j k = ext3 i0 j0 k0 i1 j1 k1 dx (fun _ _ _ => 1%Qc) (fun _ _ _ => 1%Qc) (fun _ _ _ => 1%Qc) bc w (i0 - 1)%Z j k).
  { intros j k Ij Ik. rewrite (ext3_face0 i0 j0 k0 i1 j1 k1 dx (fun _ _ _ => 1%Qc) (fun _ _ _ => 1%Qc) (fun _ _ _ => 1%Qc) (fun _ _ _ => 1%Qc) bc w ltac:(lia) j k ltac:(lia) ltac:(lia)).
    assert (Fc : facing 3 (ends3 i0 j0 k0) (ends3 i1 j1 k1) 0 (ends3 (i0 - 1)%Z j k)).
    { intros e He. assert (e = 0 \/ e = 1 \/ e = 2) as [->|[->| ->]] by lia; [change ((i0 - 1)%Z = i0 - 1)|change (j0 <= j <= j1)|change (k0 <= k <= k1)]; lia. }
    pose proof (value_set_poisson_bc_3d (ends3 i0 j0 k0) (ends3 i1 j1 k1) dx  gcw u bc m m1 (fun q => w (q 0) (q 1) (q 2)) Hg Ro Hs Hdx HW E 0 (ends3 (i0 - 1)%Z j k) 1%Qc ltac:(lia) Fc ltac:(discriminate)) as V.
    cbv beta in V. revert V.
    replace (inward 0 1 (ends3 (i0 - 1)%Z j k) 0) with i0 by (change (inward 0 1 (ends3 (i0 - 1)%Z j k) 0) with ((i0 - 1)%Z + 1); lia). change (inward 0 1 (ends3 (i0 - 1)%Z j k) 1) with j. change (inward 0 1 (ends3 (i0 - 1)%Z j k) 2) with k.
    replace (inward 0 2 (ends3 (i0 - 1)%Z j k) 0) with (i0 + 1)%Z by (change (inward 0 2 (ends3 (i0 - 1)%Z j k) 0) with ((i0 - 1)%Z + 2); lia). change (inward 0 2 (ends3 (i0 - 1)%Z j k) 1) with j. change (inward 0 2 (ends3 (i0 - 1)%Z j k) 2) with k.
    intros V. apply Some_eq. rewrite <- (Ru (i0 - 1)%Z j k ltac:(lia) ltac:(lia) ltac:(lia)). exact V. }
  assert (F1 : forall j k, j0 <= j <= j1 -> k0 <= k <= k1 -> w1 (i1 + 1)%Z j k = ext3 i0 j0 k0 i1 j1 k1 dx (fun _ _ _ => 1%Qc) (fun _ _ _ => 1%Qc) (fun _ _ _ => 1%Qc) bc w (i1 + 1)%Z j k).
  { intros j k Ij Ik. rewrite (ext3_face1 i0 j0 k0 i1 j1 k1 dx (fun _ _ _ => 1%Qc) (fun _ _ _ => 1%Qc) (fun _ _ _ => 1%Qc) (fun _ _ _ => 1%Qc) bc w ltac:(lia) j k ltac:(lia) ltac:(lia)).
    assert (Fc : facing 3 (ends3 i0 j0 k0) (ends3 i1 j1 k1) 1 (ends3 (i1 + 1)%Z j k)).
    { intros e He. assert (e = 0 \/ e = 1 \/ e = 2) as [->|[->| ->]] by lia; [change ((i1 + 1)%Z = i1 + 1)|change (j0 <= j <= j1)|change (k0 <= k <= k1)]; lia. }
    pose proof (value_set_poisson_bc_3d (ends3 i0 j0 k0) (ends3 i1 j1 k1) dx  gcw u bc m m1 (fun q => w (q 0) (q 1) (q 2)) Hg Ro Hs Hdx HW E 1 (ends3 (i1 + 1)%Z j k) 1%Qc ltac:(lia) Fc ltac:(discriminate)) as V.
    cbv beta in V. revert V.
    replace (inward 1 1 (ends3 (i1 + 1)%Z j k) 0) with i1 by (change (inward 1 1 (ends3 (i1 + 1)%Z j k) 0) with ((i1 + 1)%Z - 1); lia). change (inward 1 1 (ends3 (i1 + 1)%Z j k) 1) with j. change (inward 1 1 (ends3 (i1 + 1)%Z j k) 2) with k.
    replace (inward 1 2 (ends3 (i1 + 1)%Z j k) 0) with (i1 - 1)%Z by (change (inward 1 2 (ends3 (i1 + 1)%Z j k) 0) with ((i1 + 1)%Z - 2); lia). change (inward 1 2 (ends3 (i1 + 1)%Z j k) 1) with j. change (inward 1 2 (ends3 (i1 + 1)%Z j k) 2) with k.
    intros V. apply Some_eq. rewrite <- (Ru (i1 + 1)%Z j k ltac:(lia) ltac:(lia) ltac:(lia)). exact V. }
  assert (F2 : forall i k, i0 <= i <= i1 -> k0 <= k <= k1 -> w1 i (j0 - 1)%Z k = ext3 i0 j0 k0 i1 j1 k1 dx (fun _ _ _ => 1%Qc) (fun _ _ _ => 1%Qc) (fun _ _ _ => 1%Qc) bc w i (j0 - 1)%Z k).
  { intros i k Ii Ik. rewrite (ext3_face2 i0 j0 k0 i1 j1 k1 dx (fun _ _ _ => 1%Qc) (fun _ _ _ => 1%Qc) (fun _ _ _ => 1%Qc) (fun _ _ _ => 1%Qc) bc w ltac:(lia) i k ltac:(lia) ltac:(lia)).
    assert (Fc : facing 3 (ends3 i0 j0 k0) (ends3 i1 j1 k1) 2 (ends3 i (j0 - 1)%Z k)).
    { intros e He. assert (e = 0 \/ e = 1 \/ e = 2) as [->|[->| ->]] by lia; [change (i0 <= i <= i1)|change ((j0 - 1)%Z = j0 - 1)|change (k0 <= k <= k1)]; lia. }
    pose proof (value_set_poisson_bc_3d (ends3 i0 j0 k0) (ends3 i1 j1 k1) dx  gcw u bc m m1 (fun q => w (q 0) (q 1) (q 2)) Hg Ro Hs Hdx HW E 2 (ends3 i (j0 - 1)%Z k) 1%Qc ltac:(lia) Fc ltac:(discriminate)) as V.
    cbv beta in V. revert V.
    replace (inward 2 1 (ends3 i (j0 - 1)%Z k) 1) with j0 by (change (inward 2 1 (ends3 i (j0 - 1)%Z k) 1) with ((j0 - 1)%Z + 1); lia). change (inward 2 1 (ends3 i (j0 - 1)%Z k) 0) with i. change (inward 2 1 (ends3 i (j0 - 1)%Z k) 2) with k.
    replace (inward 2 2 (ends3 i (j0 - 1)%Z k) 1) with (j0 + 1)%Z by (change (inward 2 2 (ends3 i (j0 - 1)%Z k) 1) with ((j0 - 1)%Z + 2); lia). change (inward 2 2 (ends3 i (j0 - 1)%Z k) 0) with i. change (inward 2 2 (ends3 i (j0 - 1)%Z k) 2) with k.
    intros V. apply Some_eq. rewrite <- (Ru i (j0 - 1)%Z k ltac:(lia) ltac:(lia) ltac:(lia)). exact V. }
  assert (F3 : forall i k, i0 <= i <= i1 -> k0 <= k <= k1 -> w1 i (j1 + 1)%Z k = ext3 i0 j0 k0 i1 j1 k1 dx (fun _ _ _ => 1%Qc) (fun _ _ _ => 1%Qc) (fun _ _ _ => 1%Qc) bc w i (j1 + 1)%Z k).
  { intros i k Ii Ik. rewrite (ext3_face3 i0 j0 k0 i1 j1 k1 dx (fun _ _ _ => 1%Qc) (fun _ _ _ => 1%Qc) (fun _ _ _ => 1%Qc) (fun _ _ _ => 1%Qc) bc w ltac:(lia) i k ltac:(lia) ltac:(lia)).
    assert (Fc : facing 3 (ends3 i0 j0 k0) (ends3 i1 j1 k1) 3 (ends3 i (j1 + 1)%Z k)).
    { intros e He. assert (e = 0 \/ e = 1 \/ e = 2) as [->|[->| ->]] by lia; [change (i0 <= i <= i1)|change ((j1 + 1)%Z = j1 + 1)|change (k0 <= k <= k1)]; lia. }
    pose proof (value_set_poisson_bc_3d (ends3 i0 j0 k0) (ends3 i1 j1 k1) dx  gcw u bc m m1 (fun q => w (q 0) (q 1) (q 2)) Hg Ro Hs Hdx HW E 3 (ends3 i (j1 + 1)%Z k) 1%Qc ltac:(lia) Fc ltac:(discriminate)) as V.
    cbv beta in V. revert V.
    replace (inward 3 1 (ends3 i (j1 + 1)%Z k) 1) with j1 by (change (inward 3 1 (ends3 i (j1 + 1)%Z k) 1) with ((j1 + 1)%Z - 1); lia). change (inward 3 1 (ends3 i (j1 + 1)%Z k) 0) with i. change (inward 3 1 (ends3 i (j1 + 1)%Z k) 2) with k.
    replace (inward 3 2 (ends3 i (j1 + 1)%Z k) 1) with (j1 - 1)%Z by (change (inward 3 2 (ends3 i (j1 + 1)%Z k) 1) with ((j1 + 1)%Z - 2); lia). change (inward 3 2 (ends3 i (j1 + 1)%Z k) 0) with i. change (inward 3 2 (ends3 i (j1 + 1)%Z k) 2) with k.
    intros V. apply Some_eq. rewrite <- (Ru i (j1 + 1)%Z k ltac:(lia) ltac:(lia) ltac:(lia)). exact V. }
  assert (F4 : forall i j, i0 <= i <= i1 -> j0 <= j <= j1 -> w1 i j (k0 - 1)%Z = ext3 i0 j0 k0 i1 j1 k1 dx (fun _ _ _ => 1%Qc) (fun _ _ _ => 1%Qc) (fun _ _ _ => 1%Qc) bc w i j (k0 - 1)%Z).
  { intros i j Ii Ij. rewrite (ext3_face4 i0 j0 k0 i1 j1 k1 dx (fun _ _ _ => 1%Qc) (fun _ _ _ => 1%Qc) (fun _ _ _ => 1%Qc) (fun _ _ _ => 1%Qc) bc w ltac:(lia) i j ltac:(lia) ltac:(lia)).
    assert (Fc : facing 3 (ends3 i0 j0 k0) (ends3 i1 j1 k1) 4 (ends3 i j (k0 - 1)%Z)).
    { intros e He. assert (e = 0 \/ e = 1 \/ e = 2) as [->|[->| ->]] by lia; [change (i0 <= i <= i1)|change (j0 <= j <= j1)|change ((k0 - 1)%Z = k0 - 1)]; lia. }
    pose proof (value_set_poisson_bc_3d (ends3 i0 j0 k0) (ends3 i1 j1 k1) dx  gcw u bc m m1 (fun q => w (q 0) (q 1) (q 2)) Hg Ro Hs Hdx HW E 4 (ends3 i j (k0 - 1)%Z) 1%Qc ltac:(lia) Fc ltac:(discriminate)) as V.
    cbv beta in V. revert V.
    replace (inward 4 1 (ends3 i j (k0 - 1)%Z) 2) with k0 by (change (inward 4 1 (ends3 i j (k0 - 1)%Z) 2) with ((k0 - 1)%Z + 1); lia). change (inward 4 1 (ends3 i j (k0 - 1)%Z) 0) with i. change (inward 4 1 (ends3 i j (k0 - 1)%Z) 1) with j.
    replace (inward 4 2 (ends3 i j (k0 - 1)%Z) 2) with (k0 + 1)%Z by (change (inward 4 2 (ends3 i j (k0 - 1)%Z) 2) with ((k0 - 1)%Z + 2); lia). change (inward 4 2 (ends3 i j (k0 - 1)%Z) 0) with i. change (inward 4 2 (ends3 i j (k0 - 1)%Z) 1) with j.
    intros V. apply Some_eq. rewrite <- (Ru i j (k0 - 1)%Z ltac:(lia) ltac:(lia) ltac:(lia)). exact V. }
  assert (F5 : forall i j, i0 <= i <= i1 -> j0 <= j <= j1 -> w1 i j (k1 + 1)%Z = ext3 i0 j0 k0 i1 j1 k1 dx (fun _ _ _ => 1%Qc) (fun _ _ _ => 1%Qc) (fun _ _ _ => 1%Qc) bc w i j (k1 + 1)%Z).
  { intros i j Ii Ij. rewrite (ext3_face5 i0 j0 k0 i1 j1 k1 dx (fun _ _ _ => 1%Qc) (fun _ _ _ => 1%Qc) (fun _ _ _ => 1%Qc) (fun _ _ _ => 1%Qc) bc w ltac:(lia) i j ltac:(lia) ltac:(lia)).
    assert (Fc : facing 3 (ends3 i0 j0 k0) (ends3 i1 j1 k1) 5 (ends3 i j (k1 + 1)%Z)).
    { intros e He. assert (e = 0 \/ e = 1 \/ e = 2) as [->|[->| ->]] by lia; [change (i0 <= i <= i1)|change (j0 <= j <= j1)|change ((k1 + 1)%Z = k1 + 1)]; lia. }
    pose proof (value_set_poisson_bc_3d (ends3 i0 j0 k0) (ends3 i1 j1 k1) dx  gcw u bc m m1 (fun q => w (q 0) (q 1) (q 2)) Hg Ro Hs Hdx HW E 5 (ends3 i j (k1 + 1)%Z) 1%Qc ltac:(lia) Fc ltac:(discriminate)) as V.
    cbv beta in V. revert V.
    replace (inward 5 1 (ends3 i j (k1 + 1)%Z) 2) with k1 by (change (inward 5 1 (ends3 i j (k1 + 1)%Z) 2) with ((k1 + 1)%Z - 1); lia). change (inward 5 1 (ends3 i j (k1 + 1)%Z) 0) with i. change (inward 5 1 (ends3 i j (k1 + 1)%Z) 1) with j.
    replace (inward 5 2 (ends3 i j (k1 + 1)%Z) 2) with (k1 - 1)%Z by (change (inward 5 2 (ends3 i j (k1 + 1)%Z) 2) with ((k1 + 1)%Z - 2); lia). change (inward 5 2 (ends3 i j (k1 + 1)%Z) 0) with i. change (inward 5 2 (ends3 i j (k1 + 1)%Z) 1) with j.
    intros V. apply Some_eq. rewrite <- (Ru i j (k1 + 1)%Z ltac:(lia) ltac:(lia) ltac:(lia)). exact V. }
  intros i j k In. destruct (patch_dec3 i0 j0 k0 i1 j1 k1 i j k) as [Ip|N].
  { rewrite (ext3_in i0 j0 k0 i1 j1 k1 dx (fun _ _ _ => 1%Qc) (fun _ _ _ => 1%Qc) (fun _ _ _ => 1%Qc) (fun _ _ _ => 1%Qc) bc w i j k Ip). apply Some_eq. rewrite <- (Ru i j k ltac:(k_near) ltac:(k_near) ltac:(k_near)), <- (Rw i j k ltac:(k_near) ltac:(k_near) ltac:(k_near)).
    apply (Km (ends3 i j k)). intros e He. assert (e = 0 \/ e = 1 \/ e = 2) as [->|[->| ->]] by lia; [change (i0 <= i <= i1)|change (j0 <= j <= j1)|change (k0 <= k <= k1)]; k_near. }
  destruct (Z_lt_dec i i0) as [L|?]; [replace i with (i0 - 1)%Z by (unfold near3 in In; lia); apply F0; unfold near3 in In; lia|].
  destruct (Z_lt_dec i1 i) as [L|?]; [replace i with (i1 + 1)%Z by (unfold near3 in In; lia); apply F1; unfold near3 in In; lia|].
  destruct (Z_lt_dec j j0) as [L|?]; [replace j with (j0 - 1)%Z by (unfold near3 in In; lia); apply F2; unfold near3 in In; lia|].
  destruct (Z_lt_dec j1 j) as [L|?]; [replace j with (j1 + 1)%Z by (unfold near3 in In; lia); apply F3; unfold near3 in In; lia|].
  destruct (Z_lt_dec k k0) as [L|?]; [replace k with (k0 - 1)%Z by (unfold near3 in In; lia); apply F4; unfold near3 in In; lia|].
  destruct (Z_lt_dec k1 k) as [L|?]; [replace k with (k1 + 1)%Z by (unfold near3 in In; lia); apply F5; unfold near3 in In; lia|].
  exfalso. apply N. k_near.
Qed.

Lemma bvp_v1_1d i0 i1 (dx : Z -> Qc) (beta : Qc) b0 gcw u f0 (alpha : Qc) agcw a rgcw res bc (m : mem QcS) (r w c v0 : Z -> Qc) :
  filled_v1_1d (S := QcS) i0 i1 dx beta b0 gcw u f0 alpha agcw a rgcw res bc m r w c v0 ->
  (0 < beta)%Qc ->
  (forall d, 0 <= d < 1 -> (0 < dx d)%Qc) ->
  (forall i, i0 <= i <= i1 + 1 -> (0 < v0 i)%Qc) ->
  (forall f, 0 <= f < 2 -> sound true (bc f)) ->
  roomy 1 (ends1 i0) (ends1 i1) bc ->
  forall i, patch1 i0 i1 i -> r i = op1 dx beta (fun i => alpha * c i)%Qc v0 (ext1 i0 i1 dx v0 bc w) i.
Proof.
  intros (Hg & Ap & Hw & m1 & w1 & E & A) Hb Hdx Hv0 Hs Ro i Ip.
  rewrite (val_T_v1_1d _ _ _ _ _ _ _ _ _ _ _ _ _ _ _ _ _ _ A i Ip).
  transitivity (op1 dx beta (fun i => alpha * c i)%Qc v0 w1 i); [unfold T_v1_1d, op1; ring|].
  apply (op1_near i0 i1 dx beta (fun i => alpha * c i)%Qc v0 bc w1 _ i Ip).
  destruct A as (Hg0 & Hr & A0 & A1 & mo & Er & R0 & R1 & R2 & R3).
  exact (near_set_bc_1d i0 i1 dx b0 gcw u bc m m1 w w1 v0 Hg (apart_incl u [b0; a] [b0] Ap ltac:(intros p Hp; cbn in Hp |- *; tauto)) Ro Hs Hdx Hv0 Hw E R1 R3).
Qed.

Lemma bcompare_v1_1d i0 i1 (dx : Z -> Qc) (beta : Qc) b0 gcw u f0 (alpha : Qc) agcw a rgcw res bc (m n : mem QcS) (r w s z c v0 : Z -> Qc) :
  filled_v1_1d (S := QcS) i0 i1 dx beta b0 gcw u f0 alpha agcw a rgcw res bc m r w c v0 ->
  filled_v1_1d (S := QcS) i0 i1 dx beta b0 gcw u f0 alpha agcw a rgcw res bc n s z c v0 ->
  (0 < beta)%Qc ->
  (forall d, 0 <= d < 1 -> (0 < dx d)%Qc) ->
  (0 <= alpha)%Qc ->
  (forall i, patch1 i0 i1 i -> (0 <= c i)%Qc) ->
  (forall i, i0 <= i <= i1 + 1 -> (0 < v0 i)%Qc) ->
  (forall f, 0 <= f < 2 -> sound true (bc f)) ->
  roomy 1 (ends1 i0) (ends1 i1) bc ->
  (b_kind (bc 0) <> 1 \/ b_kind (bc 1) <> 1 \/ ((0 < alpha)%Qc /\ forall i, patch1 i0 i1 i -> (0 < c i)%Qc)) ->
  (forall i, patch1 i0 i1 i -> (r i <= s i)%Qc) ->
  forall i, patch1 i0 i1 i -> (w i <= z i)%Qc.
Proof.
  intros F G Hb Hdx Ha Hc Hv0 Hs Ro Hd Le.
  assert (Hh : b_kind (bc 0) <> 1 \/ b_kind (bc 1) <> 1 \/ (forall i, patch1 i0 i1 i -> (0 < (fun i => alpha * c i)%Qc i)%Qc)) by (destruct Hd as [H|[H|[Pa Pc]]]; [now left|right; now left|right; right; intros i Ip; apply Qc_pos_mul; [exact Pa|exact (Pc i Ip)]]).
  apply (bvp1_compare i0 i1 dx beta (fun i => alpha * c i)%Qc v0 bc true Hb Hdx (fun i Ip => Qc_mul _ _ Ha (Hc i Ip)) Hv0 Hs Ro Hh w z r s).
  - exact (bvp_v1_1d i0 i1 dx beta b0 gcw u f0 alpha agcw a rgcw res bc m r w c v0 F Hb Hdx Hv0 Hs Ro).
  - exact (bvp_v1_1d i0 i1 dx beta b0 gcw u f0 alpha agcw a rgcw res bc n s z c v0 G Hb Hdx Hv0 Hs Ro).
  - exact Le.
Qed.

Lemma bunique_v1_1d i0 i1 (dx : Z -> Qc) (beta : Qc) b0 gcw u f0 (alpha : Qc) agcw a rgcw res bc (m n : mem QcS) (r w s z c v0 : Z -> Qc) :
  filled_v1_1d (S := QcS) i0 i1 dx beta b0 gcw u f0 alpha agcw a rgcw res bc m r w c v0 ->
  filled_v1_1d (S := QcS) i0 i1 dx beta b0 gcw u f0 alpha agcw a rgcw res bc n s z c v0 ->
  (0 < beta)%Qc ->
  (forall d, 0 <= d < 1 -> (0 < dx d)%Qc) ->
  (0 <= alpha)%Qc ->
  (forall i, patch1 i0 i1 i -> (0 <= c i)%Qc) ->
  (forall i, i0 <= i <= i1 + 1 -> (0 < v0 i)%Qc) ->
  (forall f, 0 <= f < 2 -> sound true (bc f)) ->
  roomy 1 (ends1 i0) (ends1 i1) bc ->
  (b_kind (bc 0) <> 1 \/ b_kind (bc 1) <> 1 \/ ((0 < alpha)%Qc /\ forall i, patch1 i0 i1 i -> (0 < c i)%Qc)) ->
  (forall i, patch1 i0 i1 i -> r i = s i) ->
  forall i, patch1 i0 i1 i -> w i = z i.
Proof.
  intros F G Hb Hdx Ha Hc Hv0 Hs Ro Hd Eq i Ip. apply Qcle_antisym.
  - apply (bcompare_v1_1d i0 i1 dx beta b0 gcw u f0 alpha agcw a rgcw res bc m n r w s z c v0 F G Hb Hdx Ha Hc Hv0 Hs Ro Hd); [|exact Ip]. intros. rewrite Eq by assumption. apply Qcle_refl.
  - apply (bcompare_v1_1d i0 i1 dx beta b0 gcw u f0 alpha agcw a rgcw res bc n m s z r w c v0 G F Hb Hdx Ha Hc Hv0 Hs Ro Hd); [|exact Ip]. intros. rewrite Eq by assumption. apply Qcle_refl.
Qed.

Lemma bplace_v1_1d i0 i1 (dx : Z -> Qc) (beta : Qc) b0 gcw u f0 (alpha : Qc) agcw a rgcw res bc (m : mem QcS) (r w c v0 f : Z -> Qc) (z : Z -> Qc) :
  filled_v1_1d (S := QcS) i0 i1 dx beta b0 gcw u f0 alpha agcw a rgcw res bc m r w c v0 ->
  (0 < beta)%Qc ->
  (forall d, 0 <= d < 1 -> (0 < dx d)%Qc) ->
  (forall i, i0 <= i <= i1 + 1 -> (0 < v0 i)%Qc) ->
  (forall f, 0 <= f < 2 -> sound true (bc f)) ->
  roomy 1 (ends1 i0) (ends1 i1) bc ->
  (forall i, patch1 i0 i1 i -> op1 dx beta (fun i => alpha * c i)%Qc v0 (ext1 i0 i1 dx v0 bc z) i = f i) ->
  exists (n : mem QcS), filled_v1_1d (S := QcS) i0 i1 dx beta b0 gcw u f0 alpha agcw a rgcw res bc n f z c v0 /\
    shape n = shape m /\ ints n = ints m /\
    (forall p, (forall i, patch1 i0 i1 i -> faddr (mkFa u (CELL1d i0 i1 gcw)) [i] <> p) -> load n p = load m p).
Proof.
  intros F Hb Hdx Hv0 Hs Ro Hz.
  destruct F as (Hg & Ap & Hw & m1 & w1 & E & A).
  pose proof A as (Hg0 & Hr & A0 & A1 & mo & Er & R0 & R1 & R2 & R3).
  destruct (fill (S := QcS) (cells1 i0 i1) (fun i => faddr (mkFa u (CELL1d i0 i1 gcw)) [i]) z m (nodup_cells1 i0 i1)) as (n & Sn & In' & Ln & Fn).
  { intros i i' H H' Eq. cbn [fst snd] in Eq. apply in_cells1 in H, H'.
    apply faddr_inj in Eq; [congruence| |]; k_range. }
  { intros i H. apply in_cells1 in H. cbn [fst snd]. exists (w i). apply (Hw i); k_near. }
  assert (Fp : forall p, (forall i, patch1 i0 i1 i -> faddr (mkFa u (CELL1d i0 i1 gcw)) [i] <> p) -> load n p = load m p).
  { intros p Hp. apply Fn. intros i H. apply in_cells1 in H. now apply Hp. }
  destruct (completes_set_bc_1d i0 i1 dx b0 gcw u _ m n m1 (eq_sym Sn) (eq_sym In') E) as (n1 & E' & S1 & I1).
  apply bind_Some_inv in Er as (m2 & E1 & E2).
  destruct (completes _ dx dx m1 n1 m2 (L_cdf_1d_flux _ _ _ _ _ _) S1 I1 E1) as (n2 & F1 & S2 & I2).
  destruct (completes _ (params dx alpha beta) (params dx alpha beta) m2 n2 mo (L_cd_apply_1d_diffusion_v1_apply _ _ _ _ _ _ _ _ _) S2 I2 E2) as (no & F2 & S3 & I3).
  destruct (kept_set_bc_1d (ends1 i0) (ends1 i1) dx b0 gcw u bc m m1 Hg (apart_incl u [b0; a] [b0] Ap ltac:(intros p Hp; cbn in Hp |- *; tauto)) Ro E) as (_ & _ & _ & Om).
  destruct (kept_set_bc_1d (ends1 i0) (ends1 i1) dx b0 gcw u bc n n1 Hg (apart_incl u [b0; a] [b0] Ap ltac:(intros p Hp; cbn in Hp |- *; tauto)) Ro E') as (_ & _ & _ & On).
  assert (Fo : forall p ds is, fst p <> fst u -> load n1 (faddr (mkFa p ds) is) = load m1 (faddr (mkFa p ds) is)).
  { intros p ds is Hp. rewrite On, Om by exact Hp. apply Fp. intros i _. apply other_array. exact Hp. }
  assert (An : forall s, (forall i, patch1 i0 i1 i -> fel (mkFa res (CELL1d i0 i1 rgcw)) [i] no = Some (s i : QcS)) -> filled_v1_1d (S := QcS) i0 i1 dx beta b0 gcw u f0 alpha agcw a rgcw res bc n s z c v0).
  { intros s Hss. split; [exact Hg|]. split; [exact Ap|]. split; [intros i Ii; apply (Ln i); apply in_cells1; k_near|].
    exists n1, (fun i => value n1 (faddr (mkFa u (CELL1d i0 i1 gcw)) [i])). split; [exact E'|].
    split; [assumption|]. split; [assumption|]. split; [assumption|]. split; [assumption|]. exists no.
    split; [rewrite F1; exact F2|]. split; [intros; apply Hss; k_near|].
    split; [intros i Ii; destruct (shape_loads m1 n1 (faddr (mkFa u (CELL1d i0 i1 gcw)) [i]) (w1 i) S1) as (y & Ey); [apply (R1 i); assumption|]; unfold fel, value; rewrite Ey; reflexivity|].
    split; [intros i Ii; rewrite <- (R2 i Ii); apply Fo, (apart_in u _ _ Ap); cbn; tauto|].
    intros i Ii; rewrite <- (R3 i Ii); apply Fo, (apart_in u _ _ Ap); cbn; tauto. }
  exists n. split; [|split; [exact Sn|split; [exact In'|exact Fp]]].
  apply An. intros i Ip.
  assert (Rd : forall i, patch1 i0 i1 i -> fel (mkFa res (CELL1d i0 i1 rgcw)) [i] no = Some (value no (faddr (mkFa res (CELL1d i0 i1 rgcw)) [i]) : QcS)).
  { clear i Ip. intros i Ip. destruct (shape_loads mo no (faddr (mkFa res (CELL1d i0 i1 rgcw)) [i]) (r i) S3) as (y & Ey); [apply (R0 i); k_near|].
    unfold fel, value. rewrite Ey. reflexivity. }
  rewrite (Rd i Ip). f_equal.
  etransitivity; [exact (bvp_v1_1d i0 i1 dx beta b0 gcw u f0 alpha agcw a rgcw res bc n (fun i => value no (faddr (mkFa res (CELL1d i0 i1 rgcw)) [i])) z c v0 (An _ Rd) Hb Hdx Hv0 Hs Ro i Ip)|].
  exact (Hz i Ip).
Qed.

Lemma bsolve_v1_1d i0 i1 (dx : Z -> Qc) (beta : Qc) b0 gcw u f0 (alpha : Qc) agcw a rgcw res bc (m : mem QcS) (r w c v0 f : Z -> Qc) :
  filled_v1_1d (S := QcS) i0 i1 dx beta b0 gcw u f0 alpha agcw a rgcw res bc m r w c v0 ->
  (0 < beta)%Qc ->
  (forall d, 0 <= d < 1 -> (0 < dx d)%Qc) ->
  (0 <= alpha)%Qc ->
  (forall i, patch1 i0 i1 i -> (0 <= c i)%Qc) ->
  (forall i, i0 <= i <= i1 + 1 -> (0 < v0 i)%Qc) ->
  (forall f, 0 <= f < 2 -> sound true (bc f)) ->
  roomy 1 (ends1 i0) (ends1 i1) bc ->
  (b_kind (bc 0) <> 1 \/ b_kind (bc 1) <> 1 \/ ((0 < alpha)%Qc /\ forall i, patch1 i0 i1 i -> (0 < c i)%Qc)) ->
  exists (n : mem QcS) (z : Z -> Qc), filled_v1_1d (S := QcS) i0 i1 dx beta b0 gcw u f0 alpha agcw a rgcw res bc n f z c v0 /\
    shape n = shape m /\ ints n = ints m /\
    (forall p, (forall i, patch1 i0 i1 i -> faddr (mkFa u (CELL1d i0 i1 gcw)) [i] <> p) -> load n p = load m p).
Proof.
  intros F Hb Hdx Ha Hc Hv0 Hs Ro Hd.
  assert (Hh : b_kind (bc 0) <> 1 \/ b_kind (bc 1) <> 1 \/ (forall i, patch1 i0 i1 i -> (0 < (fun i => alpha * c i)%Qc i)%Qc)) by (destruct Hd as [H|[H|[Pa Pc]]]; [now left|right; now left|right; right; intros i Ip; apply Qc_pos_mul; [exact Pa|exact (Pc i Ip)]]).
  destruct (bvp1_exists i0 i1 dx beta (fun i => alpha * c i)%Qc v0 bc true Hb Hdx (fun i Ip => Qc_mul _ _ Ha (Hc i Ip)) Hv0 Hs Ro Hh f) as (z & Hz).
  destruct (bplace_v1_1d i0 i1 dx beta b0 gcw u f0 alpha agcw a rgcw res bc m r w c v0 f z F Hb Hdx Hv0 Hs Ro Hz) as (n & H). exists n, z. exact H.
Qed.

Lemma bvp_v2_1d i0 i1 (dx : Z -> Qc) (beta : Qc) b0 gcw u f0 (alpha : Qc) rgcw res bc (m : mem QcS) (r w v0 : Z -> Qc) :
  filled_v2_1d (S := QcS) i0 i1 dx beta b0 gcw u f0 alpha rgcw res bc m r w v0 ->
  (0 < beta)%Qc ->
  (forall d, 0 <= d < 1 -> (0 < dx d)%Qc) ->
  (forall i, i0 <= i <= i1 + 1 -> (0 < v0 i)%Qc) ->
  (forall f, 0 <= f < 2 -> sound true (bc f)) ->
  roomy 1 (ends1 i0) (ends1 i1) bc ->
  forall i, patch1 i0 i1 i -> r i = op1 dx beta (fun _ => alpha) v0 (ext1 i0 i1 dx v0 bc w) i.
Proof.
  intros (Hg & Ap & Hw & m1 & w1 & E & A) Hb Hdx Hv0 Hs Ro i Ip.
  rewrite (val_T_v2_1d _ _ _ _ _ _ _ _ _ _ _ _ _ _ _ A i Ip).
  transitivity (op1 dx beta (fun _ => alpha) v0 w1 i); [unfold T_v2_1d, op1; ring|].
  apply (op1_near i0 i1 dx beta (fun _ => alpha) v0 bc w1 _ i Ip).
  destruct A as (Hg0 & Hr & A0 & A1 & mo & Er & R0 & R1 & R2).
  exact (near_set_bc_1d i0 i1 dx b0 gcw u bc m m1 w w1 v0 Hg (apart_incl u [b0] [b0] Ap ltac:(intros p Hp; cbn in Hp |- *; tauto)) Ro Hs Hdx Hv0 Hw E R1 R2).
Qed.

Lemma bcompare_v2_1d i0 i1 (dx : Z -> Qc) (beta : Qc) b0 gcw u f0 (alpha : Qc) rgcw res bc (m n : mem QcS) (r w s z v0 : Z -> Qc) :
  filled_v2_1d (S := QcS) i0 i1 dx beta b0 gcw u f0 alpha rgcw res bc m r w v0 ->
  filled_v2_1d (S := QcS) i0 i1 dx beta b0 gcw u f0 alpha rgcw res bc n s z v0 ->
  (0 < beta)%Qc ->
  (forall d, 0 <= d < 1 -> (0 < dx d)%Qc) ->
  (0 <= alpha)%Qc ->
  (forall i, i0 <= i <= i1 + 1 -> (0 < v0 i)%Qc) ->
  (forall f, 0 <= f < 2 -> sound true (bc f)) ->
  roomy 1 (ends1 i0) (ends1 i1) bc ->
  (b_kind (bc 0) <> 1 \/ b_kind (bc 1) <> 1 \/ (0 < alpha)%Qc) ->
  (forall i, patch1 i0 i1 i -> (r i <= s i)%Qc) ->
  forall i, patch1 i0 i1 i -> (w i <= z i)%Qc.
Proof.
  intros F G Hb Hdx Ha Hv0 Hs Ro Hd Le.
  assert (Hh : b_kind (bc 0) <> 1 \/ b_kind (bc 1) <> 1 \/ (forall i, patch1 i0 i1 i -> (0 < (fun _ => alpha) i)%Qc)) by (destruct Hd as [H|[H|H]]; [now left|right; now left|right; right; intros; exact H]).
  apply (bvp1_compare i0 i1 dx beta (fun _ => alpha) v0 bc true Hb Hdx (fun _ _ => Ha) Hv0 Hs Ro Hh w z r s).
  - exact (bvp_v2_1d i0 i1 dx beta b0 gcw u f0 alpha rgcw res bc m r w v0 F Hb Hdx Hv0 Hs Ro).
  - exact (bvp_v2_1d i0 i1 dx beta b0 gcw u f0 alpha rgcw res bc n s z v0 G Hb Hdx Hv0 Hs Ro).
  - exact Le.
Qed.

Lemma bunique_v2_1d i0 i1 (dx : Z -> Qc) (beta : Qc) b0 gcw u f0 (alpha : Qc) rgcw res bc (m n : mem QcS) (r w s z v0 : Z -> Qc) :
  filled_v2_1d (S := QcS) i0 i1 dx beta b0 gcw u f0 alpha rgcw res bc m r w v0 ->
  filled_v2_1d (S := QcS) i0 i1 dx beta b0 gcw u f0 alpha rgcw res bc n s z v0 ->
  (0 < beta)%Qc ->
  (forall d, 0 <= d < 1 -> (0 < dx d)%Qc) ->
  (0 <= alpha)%Qc ->
  (forall i, i0 <= i <= i1 + 1 -> (0 < v0 i)%Qc) ->
  (forall f, 0 <= f < 2 -> sound true (bc f)) ->
  roomy 1 (ends1 i0) (ends1 i1) bc ->
  (b_kind (bc 0) <> 1 \/ b_kind (bc 1) <> 1 \/ (0 < alpha)%Qc) ->
  (forall i, patch1 i0 i1 i -> r i = s i) ->
  forall i, patch1 i0 i1 i -> w i = z i.
Proof.
  intros F G Hb Hdx Ha Hv0 Hs Ro Hd Eq i Ip. apply Qcle_antisym.
  - apply (bcompare_v2_1d i0 i1 dx beta b0 gcw u f0 alpha rgcw res bc m n r w s z v0 F G Hb Hdx Ha Hv0 Hs Ro Hd); [|exact Ip]. intros. rewrite Eq by assumption. apply Qcle_refl.
  - apply (bcompare_v2_1d i0 i1 dx beta b0 gcw u f0 alpha rgcw res bc n m s z r w v0 G F Hb Hdx Ha Hv0 Hs Ro Hd); [|exact Ip]. intros. rewrite Eq by assumption. apply Qcle_refl.
Qed.

Lemma bplace_v2_1d i0 i1 (dx : Z -> Qc) (beta : Qc) b0 gcw u f0 (alpha : Qc) rgcw res bc (m : mem QcS) (r w v0 f : Z -> Qc) (z : Z -> Qc) :
  filled_v2_1d (S := QcS) i0 i1 dx beta b0 gcw u f0 alpha rgcw res bc m r w v0 ->
  (0 < beta)%Qc ->
  (forall d, 0 <= d < 1 -> (0 < dx d)%Qc) ->
  (forall i, i0 <= i <= i1 + 1 -> (0 < v0 i)%Qc) ->
  (forall f, 0 <= f < 2 -> sound true (bc f)) ->
  roomy 1 (ends1 i0) (ends1 i1) bc ->
  (forall i, patch1 i0 i1 i -> op1 dx beta (fun _ => alpha) v0 (ext1 i0 i1 dx v0 bc z) i = f i) ->
  exists (n : mem QcS), filled_v2_1d (S := QcS) i0 i1 dx beta b0 gcw u f0 alpha rgcw res bc n f z v0 /\
    shape n = shape m /\ ints n = ints m /\
    (forall p, (forall i, patch1 i0 i1 i -> faddr (mkFa u (CELL1d i0 i1 gcw)) [i] <> p) -> load n p = load m p).
Proof.
  intros F Hb Hdx Hv0 Hs Ro Hz.
  destruct F as (Hg & Ap & Hw & m1 & w1 & E & A).
  pose proof A as (Hg0 & Hr & A0 & A1 & mo & Er & R0 & R1 & R2).
  destruct (fill (S := QcS) (cells1 i0 i1) (fun i => faddr (mkFa u (CELL1d i0 i1 gcw)) [i]) z m (nodup_cells1 i0 i1)) as (n & Sn & In' & Ln & Fn).
  { intros i i' H H' Eq. cbn [fst snd] in Eq. apply in_cells1 in H, H'.
    apply faddr_inj in Eq; [congruence| |]; k_range. }
  { intros i H. apply in_cells1 in H. cbn [fst snd]. exists (w i). apply (Hw i); k_near. }
  assert (Fp : forall p, (forall i, patch1 i0 i1 i -> faddr (mkFa u (CELL1d i0 i1 gcw)) [i] <> p) -> load n p = load m p).
  { intros p Hp. apply Fn. intros i H. apply in_cells1 in H. now apply Hp. }
  destruct (completes_set_bc_1d i0 i1 dx b0 gcw u _ m n m1 (eq_sym Sn) (eq_sym In') E) as (n1 & E' & S1 & I1).
  apply bind_Some_inv in Er as (m2 & E1 & E2).
  destruct (completes _ dx dx m1 n1 m2 (L_cdf_1d_flux _ _ _ _ _ _) S1 I1 E1) as (n2 & F1 & S2 & I2).
  destruct (completes _ (params dx alpha beta) (params dx alpha beta) m2 n2 mo (L_cd_apply_1d_diffusion_v2_apply _ _ _ _ _ _ _) S2 I2 E2) as (no & F2 & S3 & I3).
  destruct (kept_set_bc_1d (ends1 i0) (ends1 i1) dx b0 gcw u bc m m1 Hg (apart_incl u [b0] [b0] Ap ltac:(intros p Hp; cbn in Hp |- *; tauto)) Ro E) as (_ & _ & _ & Om).
  destruct (kept_set_bc_1d (ends1 i0) (ends1 i1) dx b0 gcw u bc n n1 Hg (apart_incl u [b0] [b0] Ap ltac:(intros p Hp; cbn in Hp |- *; tauto)) Ro E') as (_ & _ & _ & On).
  assert (Fo : forall p ds is, fst p <> fst u -> load n1 (faddr (mkFa p ds) is) = load m1 (faddr (mkFa p ds) is)).
  { intros p ds is Hp. rewrite On, Om by exact Hp. apply Fp. intros i _. apply other_array. exact Hp. }
  assert (An : forall s, (forall i, patch1 i0 i1 i -> fel (mkFa res (CELL1d i0 i1 rgcw)) [i] no = Some (s i : QcS)) -> filled_v2_1d (S := QcS) i0 i1 dx beta b0 gcw u f0 alpha rgcw res bc n s z v0).
  { intros s Hss. split; [exact Hg|]. split; [exact Ap|]. split; [intros i Ii; apply (Ln i); apply in_cells1; k_near|].
    exists n1, (fun i => value n1 (faddr (mkFa u (CELL1d i0 i1 gcw)) [i])). split; [exact E'|].
    split; [assumption|]. split; [assumption|]. split; [assumption|]. split; [assumption|]. exists no.
    split; [rewrite F1; exact F2|]. split; [intros; apply Hss; k_near|].
    split; [intros i Ii; destruct (shape_loads m1 n1 (faddr (mkFa u (CELL1d i0 i1 gcw)) [i]) (w1 i) S1) as (y & Ey); [apply (R1 i); assumption|]; unfold fel, value; rewrite Ey; reflexivity|].
    intros i Ii; rewrite <- (R2 i Ii); apply Fo, (apart_in u _ _ Ap); cbn; tauto. }
  exists n. split; [|split; [exact Sn|split; [exact In'|exact Fp]]].
  apply An. intros i Ip.
  assert (Rd : forall i, patch1 i0 i1 i -> fel (mkFa res (CELL1d i0 i1 rgcw)) [i] no = Some (value no (faddr (mkFa res (CELL1d i0 i1 rgcw)) [i]) : QcS)).
  { clear i Ip. intros i Ip. destruct (shape_loads mo no (faddr (mkFa res (CELL1d i0 i1 rgcw)) [i]) (r i) S3) as (y & Ey); [apply (R0 i); k_near|].
    unfold fel, value. rewrite Ey. reflexivity. }
  rewrite (Rd i Ip). f_equal.
  etransitivity; [exact (bvp_v2_1d i0 i1 dx beta b0 gcw u f0 alpha rgcw res bc n (fun i => value no (faddr (mkFa res (CELL1d i0 i1 rgcw)) [i])) z v0 (An _ Rd) Hb Hdx Hv0 Hs Ro i Ip)|].
  exact (Hz i Ip).
Qed.

Lemma bsolve_v2_1d i0 i1 (dx : Z -> Qc) (beta : Qc) b0 gcw u f0 (alpha : Qc) rgcw res bc (m : mem QcS) (r w v0 f : Z -> Qc) :
  filled_v2_1d (S := QcS) i0 i1 dx beta b0 gcw u f0 alpha rgcw res bc m r w v0 ->
  (0 < beta)%Qc ->
  (forall d, 0 <= d < 1 -> (0 < dx d)%Qc) ->
  (0 <= alpha)%Qc ->
  (forall i, i0 <= i <= i1 + 1 -> (0 < v0 i)%Qc) ->
  (forall f, 0 <= f < 2 -> sound true (bc f)) ->
  roomy 1 (ends1 i0) (ends1 i1) bc ->
  (b_kind (bc 0) <> 1 \/ b_kind (bc 1) <> 1 \/ (0 < alpha)%Qc) ->
  exists (n : mem QcS) (z : Z -> Qc), filled_v2_1d (S := QcS) i0 i1 dx beta b0 gcw u f0 alpha rgcw res bc n f z v0 /\
    shape n = shape m /\ ints n = ints m /\
    (forall p, (forall i, patch1 i0 i1 i -> faddr (mkFa u (CELL1d i0 i1 gcw)) [i] <> p) -> load n p = load m p).
Proof.
  intros F Hb Hdx Ha Hv0 Hs Ro Hd.
  assert (Hh : b_kind (bc 0) <> 1 \/ b_kind (bc 1) <> 1 \/ (forall i, patch1 i0 i1 i -> (0 < (fun _ => alpha) i)%Qc)) by (destruct Hd as [H|[H|H]]; [now left|right; now left|right; right; intros; exact H]).
  destruct (bvp1_exists i0 i1 dx beta (fun _ => alpha) v0 bc true Hb Hdx (fun _ _ => Ha) Hv0 Hs Ro Hh f) as (z & Hz).
  destruct (bplace_v2_1d i0 i1 dx beta b0 gcw u f0 alpha rgcw res bc m r w v0 f z F Hb Hdx Hv0 Hs Ro Hz) as (n & H). exists n, z. exact H.
Qed.

Lemma bvp_poisson_1d i0 i1 (dx : Z -> Qc) (beta : Qc) gcw u f0 rgcw res bc (m : mem QcS) (r w : Z -> Qc) :
  filled_poisson_1d (S := QcS) i0 i1 dx beta gcw u f0 rgcw res bc m r w ->
  (0 < beta)%Qc ->
  (forall d, 0 <= d < 1 -> (0 < dx d)%Qc) ->
  (forall f, 0 <= f < 2 -> sound false (bc f)) ->
  roomy 1 (ends1 i0) (ends1 i1) bc ->
  forall i, patch1 i0 i1 i -> r i = op1 dx beta (fun _ => 0%Qc) (fun _ => 1%Qc) (ext1 i0 i1 dx (fun _ => 1%Qc) bc w) i.
Proof.
  intros (Hg & Hw & m1 & w1 & E & A) Hb Hdx Hs Ro i Ip.
  rewrite (val_T_poisson_1d _ _ _ _ _ _ _ _ _ _ _ _  A i Ip).
  transitivity (op1 dx beta (fun _ => 0%Qc) (fun _ => 1%Qc) w1 i); [unfold T_poisson_1d, op1; ring|].
  apply (op1_near i0 i1 dx beta (fun _ => 0%Qc) (fun _ => 1%Qc) bc w1 _ i Ip).
  destruct A as (Hg0 & Hr & A0 & A1 & mo & Er & R0 & R1).
  exact (near_set_poisson_bc_1d i0 i1 dx  gcw u bc m m1 w w1  Hg Ro Hs Hdx  Hw E R1 ).
Qed.

Lemma bcompare_poisson_1d i0 i1 (dx : Z -> Qc) (beta : Qc) gcw u f0 rgcw res bc (m n : mem QcS) (r w s z : Z -> Qc) :
  filled_poisson_1d (S := QcS) i0 i1 dx beta gcw u f0 rgcw res bc m r w ->
  filled_poisson_1d (S := QcS) i0 i1 dx beta gcw u f0 rgcw res bc n s z ->
  (0 < beta)%Qc ->
  (forall d, 0 <= d < 1 -> (0 < dx d)%Qc) ->
  (forall f, 0 <= f < 2 -> sound false (bc f)) ->
  roomy 1 (ends1 i0) (ends1 i1) bc ->
  (b_kind (bc 0) <> 1 \/ b_kind (bc 1) <> 1) ->
  (forall i, patch1 i0 i1 i -> (r i <= s i)%Qc) ->
  forall i, patch1 i0 i1 i -> (w i <= z i)%Qc.
Proof.
  intros F G Hb Hdx Hs Ro Hd Le.
  assert (Hh : b_kind (bc 0) <> 1 \/ b_kind (bc 1) <> 1 \/ (forall i, patch1 i0 i1 i -> (0 < (fun _ => 0%Qc) i)%Qc)) by (destruct Hd as [H|H]; [now left|right; now left]).
  apply (bvp1_compare i0 i1 dx beta (fun _ => 0%Qc) (fun _ => 1%Qc) bc false Hb Hdx (fun _ _ => Qcle_refl 0%Qc) (fun _ _ => eq_refl : (0 < 1)%Qc) Hs Ro Hh w z r s).
  - exact (bvp_poisson_1d i0 i1 dx beta gcw u f0 rgcw res bc m r w  F Hb Hdx Hs Ro).
  - exact (bvp_poisson_1d i0 i1 dx beta gcw u f0 rgcw res bc n s z  G Hb Hdx Hs Ro).
  - exact Le.
Qed.

Lemma bunique_poisson_1d i0 i1 (dx : Z -> Qc) (beta : Qc) gcw u f0 rgcw res bc (m n : mem QcS) (r w s z : Z -> Qc) :
  filled_poisson_1d (S := QcS) i0 i1 dx beta gcw u f0 rgcw res bc m r w ->
  filled_poisson_1d (S := QcS) i0 i1 dx beta gcw u f0 rgcw res bc n s z ->
  (0 < beta)%Qc ->
  (forall d, 0 <= d < 1 -> (0 < dx d)%Qc) ->
  (forall f, 0 <= f < 2 -> sound false (bc f)) ->
  roomy 1 (ends1 i0) (ends1 i1) bc ->
  (b_kind (bc 0) <> 1 \/ b_kind (bc 1) <> 1) ->
  (forall i, patch1 i0 i1 i -> r i = s i) ->
  forall i, patch1 i0 i1 i -> w i = z i.
Proof.
  intros F G Hb Hdx Hs Ro Hd Eq i Ip. apply Qcle_antisym.
  - apply (bcompare_poisson_1d i0 i1 dx beta gcw u f0 rgcw res bc m n r w s z  F G Hb Hdx Hs Ro Hd); [|exact Ip]. intros. rewrite Eq by assumption. apply Qcle_refl.
  - apply (bcompare_poisson_1d i0 i1 dx beta gcw u f0 rgcw res bc n m s z r w  G F Hb Hdx Hs Ro Hd); [|exact Ip]. intros. rewrite Eq by assumption. apply Qcle_refl.
Qed.

Lemma bplace_poisson_1d i0 i1 (dx : Z -> Qc) (beta : Qc) gcw u f0 rgcw res bc (m : mem QcS) (r w f : Z -> Qc) (z : Z -> Qc) :
  filled_poisson_1d (S := QcS) i0 i1 dx beta gcw u f0 rgcw res bc m r w ->
  (0 < beta)%Qc ->
  (forall d, 0 <= d < 1 -> (0 < dx d)%Qc) ->
  (forall f, 0 <= f < 2 -> sound false (bc f)) ->
  roomy 1 (ends1 i0) (ends1 i1) bc ->
  (forall i, patch1 i0 i1 i -> op1 dx beta (fun _ => 0%Qc) (fun _ => 1%Qc) (ext1 i0 i1 dx (fun _ => 1%Qc) bc z) i = f i) ->
  exists (n : mem QcS), filled_poisson_1d (S := QcS) i0 i1 dx beta gcw u f0 rgcw res bc n f z /\
    shape n = shape m /\ ints n = ints m /\
    (forall p, (forall i, patch1 i0 i1 i -> faddr (mkFa u (CELL1d i0 i1 gcw)) [i] <> p) -> load n p = load m p).
Proof.
  intros F Hb Hdx Hs Ro Hz.
  destruct F as (Hg & Hw & m1 & w1 & E & A).
  pose proof A as (Hg0 & Hr & A0 & A1 & mo & Er & R0 & R1).
  destruct (fill (S := QcS) (cells1 i0 i1) (fun i => faddr (mkFa u (CELL1d i0 i1 gcw)) [i]) z m (nodup_cells1 i0 i1)) as (n & Sn & In' & Ln & Fn).
  { intros i i' H H' Eq. cbn [fst snd] in Eq. apply in_cells1 in H, H'.
    apply faddr_inj in Eq; [congruence| |]; k_range. }
  { intros i H. apply in_cells1 in H. cbn [fst snd]. exists (w i). apply (Hw i); k_near. }
  assert (Fp : forall p, (forall i, patch1 i0 i1 i -> faddr (mkFa u (CELL1d i0 i1 gcw)) [i] <> p) -> load n p = load m p).
  { intros p Hp. apply Fn. intros i H. apply in_cells1 in H. now apply Hp. }
  destruct (completes_set_poisson_bc_1d i0 i1 dx  gcw u _ m n m1 (eq_sym Sn) (eq_sym In') E) as (n1 & E' & S1 & I1).
  apply bind_Some_inv in Er as (m2 & E1 & E2).
  destruct (completes _ dx dx m1 n1 m2 (L_cdf_1d_poisson_flux _ _ _ _ _) S1 I1 E1) as (n2 & F1 & S2 & I2).
  destruct (completes _ (params dx 0%Qc beta) (params dx 0%Qc beta) m2 n2 mo (L_cd_apply_1d_poisson_v2_apply _ _ _ _ _) S2 I2 E2) as (no & F2 & S3 & I3).
  destruct (kept_set_poisson_bc_1d (ends1 i0) (ends1 i1) dx  gcw u bc m m1 Hg Ro E) as (_ & _ & _ & Om).
  destruct (kept_set_poisson_bc_1d (ends1 i0) (ends1 i1) dx  gcw u bc n n1 Hg Ro E') as (_ & _ & _ & On).
  assert (Fo : forall p ds is, fst p <> fst u -> load n1 (faddr (mkFa p ds) is) = load m1 (faddr (mkFa p ds) is)).
  { intros p ds is Hp. rewrite On, Om by exact Hp. apply Fp. intros i _. apply other_array. exact Hp. }
  assert (An : forall s, (forall i, patch1 i0 i1 i -> fel (mkFa res (CELL1d i0 i1 rgcw)) [i] no = Some (s i : QcS)) -> filled_poisson_1d (S := QcS) i0 i1 dx beta gcw u f0 rgcw res bc n s z).
  { intros s Hss. split; [exact Hg|]. split; [intros i Ii; apply (Ln i); apply in_cells1; k_near|].
    exists n1, (fun i => value n1 (faddr (mkFa u (CELL1d i0 i1 gcw)) [i])). split; [exact E'|].
    split; [assumption|]. split; [assumption|]. split; [assumption|]. split; [assumption|]. exists no.
    split; [rewrite F1; exact F2|]. split; [intros; apply Hss; k_near|].
    intros i Ii; destruct (shape_loads m1 n1 (faddr (mkFa u (CELL1d i0 i1 gcw)) [i]) (w1 i) S1) as (y & Ey); [apply (R1 i); assumption|]; unfold fel, value; rewrite Ey; reflexivity.
 }
  exists n. split; [|split; [exact Sn|split; [exact In'|exact Fp]]].
  apply An. intros i Ip.
  assert (Rd : forall i, patch1 i0 i1 i -> fel (mkFa res (CELL1d i0 i1 rgcw)) [i] no = Some (value no (faddr (mkFa res (CELL1d i0 i1 rgcw)) [i]) : QcS)).
  { clear i Ip. intros i Ip. destruct (shape_loads mo no (faddr (mkFa res (CELL1d i0 i1 rgcw)) [i]) (r i) S3) as (y & Ey); [apply (R0 i); k_near|].
    unfold fel, value. rewrite Ey. reflexivity. }
  rewrite (Rd i Ip). f_equal.
  etransitivity; [exact (bvp_poisson_1d i0 i1 dx beta gcw u f0 rgcw res bc n (fun i => value no (faddr (mkFa res (CELL1d i0 i1 rgcw)) [i])) z  (An _ Rd) Hb Hdx Hs Ro i Ip)|].
  exact (Hz i Ip).
Qed.

Lemma bsolve_poisson_1d i0 i1 (dx : Z -> Qc) (beta : Qc) gcw u f0 rgcw res bc (m : mem QcS) (r w f : Z -> Qc) :
  filled_poisson_1d (S := QcS) i0 i1 dx beta gcw u f0 rgcw res bc m r w ->
  (0 < beta)%Qc ->
  (forall d, 0 <= d < 1 -> (0 < dx d)%Qc) ->
  (forall f, 0 <= f < 2 -> sound false (bc f)) ->
  roomy 1 (ends1 i0) (ends1 i1) bc ->
  (b_kind (bc 0) <> 1 \/ b_kind (bc 1) <> 1) ->
  exists (n : mem QcS) (z : Z -> Qc), filled_poisson_1d (S := QcS) i0 i1 dx beta gcw u f0 rgcw res bc n f z /\
    shape n = shape m /\ ints n = ints m /\
    (forall p, (forall i, patch1 i0 i1 i -> faddr (mkFa u (CELL1d i0 i1 gcw)) [i] <> p) -> load n p = load m p).
Proof.
  intros F Hb Hdx Hs Ro Hd.
  assert (Hh : b_kind (bc 0) <> 1 \/ b_kind (bc 1) <> 1 \/ (forall i, patch1 i0 i1 i -> (0 < (fun _ => 0%Qc) i)%Qc)) by (destruct Hd as [H|H]; [now left|right; now left]).
  destruct (bvp1_exists i0 i1 dx beta (fun _ => 0%Qc) (fun _ => 1%Qc) bc false Hb Hdx (fun _ _ => Qcle_refl 0%Qc) (fun _ _ => eq_refl : (0 < 1)%Qc) Hs Ro Hh f) as (z & Hz).
  destruct (bplace_poisson_1d i0 i1 dx beta gcw u f0 rgcw res bc m r w  f z F Hb Hdx Hs Ro Hz) as (n & H). exists n, z. exact H.
Qed.

Lemma bvp_v1_2d i0 j0 i1 j1 (dx : Z -> Qc) (beta : Qc) b0 b1 gcw u f0 f1 (alpha : Qc) agcw a rgcw res bc (m : mem QcS) (r w c v0 v1 : Z -> Z -> Qc) :
  filled_v1_2d (S := QcS) i0 j0 i1 j1 dx beta b0 b1 gcw u f0 f1 alpha agcw a rgcw res bc m r w c v0 v1 ->
  (0 < beta)%Qc ->
  (forall d, 0 <= d < 2 -> (0 < dx d)%Qc) ->
  (forall i j, i0 <= i <= i1 + 1 -> j0 <= j <= j1 -> (0 < v0 i j)%Qc) ->
  (forall i j, i0 <= i <= i1 -> j0 <= j <= j1 + 1 -> (0 <= v1 i j)%Qc) ->
  (forall f, 0 <= f < 4 -> sound true (bc f)) ->
  roomy 2 (ends2 i0 j0) (ends2 i1 j1) bc ->
  forall i j, patch2 i0 j0 i1 j1 i j -> r i j = op2 dx beta (fun i j => alpha * c i j)%Qc v0 v1 (ext2 i0 j0 i1 j1 dx v0 v1 bc w) i j.
Proof.
  intros (Hg & Ap & Hw & m1 & w1 & E & A) Hb Hdx Hv0 Hv1 Hs Ro i j Ip.
  rewrite (val_T_v1_2d _ _ _ _ _ _ _ _ _ _ _ _ _ _ _ _ _ _ _ _ _ _ _ A i j Ip).
  transitivity (op2 dx beta (fun i j => alpha * c i j)%Qc v0 v1 w1 i j); [unfold T_v1_2d, op2; ring|].
  apply (op2_near i0 j0 i1 j1 dx beta (fun i j => alpha * c i j)%Qc v0 v1 bc w1 _ i j Ip).
  destruct A as (Hg0 & Hr & A0 & A1 & A2 & mo & Er & R0 & R1 & R2 & R3 & R4).
  exact (near_set_bc_2d i0 j0 i1 j1 dx b0 b1 gcw u bc m m1 w w1 v0 v1 Hg (apart_incl u [b0; b1; a] [b0; b1] Ap ltac:(intros p Hp; cbn in Hp |- *; tauto)) Ro Hs Hdx Hv0 Hv1 Hw E R1 R3 R4).
Qed.

Lemma bcompare_v1_2d i0 j0 i1 j1 (dx : Z -> Qc) (beta : Qc) b0 b1 gcw u f0 f1 (alpha : Qc) agcw a rgcw res bc (m n : mem QcS) (r w s z c v0 v1 : Z -> Z -> Qc) :
  filled_v1_2d (S := QcS) i0 j0 i1 j1 dx beta b0 b1 gcw u f0 f1 alpha agcw a rgcw res bc m r w c v0 v1 ->
  filled_v1_2d (S := QcS) i0 j0 i1 j1 dx beta b0 b1 gcw u f0 f1 alpha agcw a rgcw res bc n s z c v0 v1 ->
  (0 < beta)%Qc ->
  (forall d, 0 <= d < 2 -> (0 < dx d)%Qc) ->
  (0 <= alpha)%Qc ->
  (forall i j, patch2 i0 j0 i1 j1 i j -> (0 <= c i j)%Qc) ->
  (forall i j, i0 <= i <= i1 + 1 -> j0 <= j <= j1 -> (0 < v0 i j)%Qc) ->
  (forall i j, i0 <= i <= i1 -> j0 <= j <= j1 + 1 -> (0 <= v1 i j)%Qc) ->
  (forall f, 0 <= f < 4 -> sound true (bc f)) ->
  roomy 2 (ends2 i0 j0) (ends2 i1 j1) bc ->
  (b_kind (bc 0) <> 1 \/ b_kind (bc 1) <> 1 \/ ((0 < alpha)%Qc /\ forall i j, patch2 i0 j0 i1 j1 i j -> (0 < c i j)%Qc)) ->
  (forall i j, patch2 i0 j0 i1 j1 i j -> (r i j <= s i j)%Qc) ->
  forall i j, patch2 i0 j0 i1 j1 i j -> (w i j <= z i j)%Qc.
Proof.
  intros F G Hb Hdx Ha Hc Hv0 Hv1 Hs Ro Hd Le.
  assert (Hh : b_kind (bc 0) <> 1 \/ b_kind (bc 1) <> 1 \/ (forall i j, patch2 i0 j0 i1 j1 i j -> (0 < (fun i j => alpha * c i j)%Qc i j)%Qc)) by (destruct Hd as [H|[H|[Pa Pc]]]; [now left|right; now left|right; right; intros i j Ip; apply Qc_pos_mul; [exact Pa|exact (Pc i j Ip)]]).
  apply (bvp2_compare i0 j0 i1 j1 dx beta (fun i j => alpha * c i j)%Qc v0 v1 bc true Hb Hdx (fun i j Ip => Qc_mul _ _ Ha (Hc i j Ip)) Hv0 Hv1 Hs Ro Hh w z r s).
  - exact (bvp_v1_2d i0 j0 i1 j1 dx beta b0 b1 gcw u f0 f1 alpha agcw a rgcw res bc m r w c v0 v1 F Hb Hdx Hv0 Hv1 Hs Ro).
  - exact (bvp_v1_2d i0 j0 i1 j1 dx beta b0 b1 gcw u f0 f1 alpha agcw a rgcw res bc n s z c v0 v1 G Hb Hdx Hv0 Hv1 Hs Ro).
  - exact Le.
Qed.

Lemma bunique_v1_2d i0 j0 i1 j1 (dx : Z -> Qc) (beta : Qc) b0 b1 gcw u f0 f1 (alpha : Qc) agcw a rgcw res bc (m n : mem QcS) (r w s z c v0 v1 : Z -> Z -> Qc) :
  filled_v1_2d (S := QcS) i0 j0 i1 j1 dx beta b0 b1 gcw u f0 f1 alpha agcw a rgcw res bc m r w c v0 v1 ->
  filled_v1_2d (S := QcS) i0 j0 i1 j1 dx beta b0 b1 gcw u f0 f1 alpha agcw a rgcw res bc n s z c v0 v1 ->
  (0 < beta)%Qc ->
  (forall d, 0 <= d < 2 -> (0 < dx d)%Qc) ->
  (0 <= alpha)%Qc ->
  (forall i j, patch2 i0 j0 i1 j1 i j -> (0 <= c i j)%Qc) ->
  (forall i j, i0 <= i <= i1 + 1 -> j0 <= j <= j1 -> (0 < v0 i j)%Qc) ->
  (forall i j, i0 <= i <= i1 -> j0 <= j <= j1 + 1 -> (0 <= v1 i j)%Qc) ->
  (forall f, 0 <= f < 4 -> sound true (bc f)) ->
  roomy 2 (ends2 i0 j0) (ends2 i1 j1) bc ->
  (b_kind (bc 0) <> 1 \/ b_kind (bc 1) <> 1 \/ ((0 < alpha)%Qc /\ forall i j, patch2 i0 j0 i1 j1 i j -> (0 < c i j)%Qc)) ->
  (forall i j, patch2 i0 j0 i1 j1 i j -> r i j = s i j) ->
  forall i j, patch2 i0 j0 i1 j1 i j -> w i j = z i j.
Proof.
  intros F G Hb Hdx Ha Hc Hv0 Hv1 Hs Ro Hd Eq i j Ip. apply Qcle_antisym.
  - apply (bcompare_v1_2d i0 j0 i1 j1 dx beta b0 b1 gcw u f0 f1 alpha agcw a rgcw res bc m n r w s z c v0 v1 F G Hb Hdx Ha Hc Hv0 Hv1 Hs Ro Hd); [|exact Ip]. intros. rewrite Eq by assumption. apply Qcle_refl.
  - apply (bcompare_v1_2d i0 j0 i1 j1 dx beta b0 b1 gcw u f0 f1 alpha agcw a rgcw res bc n m s z r w c v0 v1 G F Hb Hdx Ha Hc Hv0 Hv1 Hs Ro Hd); [|exact Ip]. intros. rewrite Eq by assumption. apply Qcle_refl.
Qed.

Lemma bplace_v1_2d i0 j0 i1 j1 (dx : Z -> Qc) (beta : Qc) b0 b1 gcw u f0 f1 (alpha : Qc) agcw a rgcw res bc (m : mem QcS) (r w c v0 v1 f : Z -> Z -> Qc) (z : Z -> Z -> Qc) :
  filled_v1_2d (S := QcS) i0 j0 i1 j1 dx beta b0 b1 gcw u f0 f1 alpha agcw a rgcw res bc m r w c v0 v1 ->
  (0 < beta)%Qc ->
  (forall d, 0 <= d < 2 -> (0 < dx d)%Qc) ->
  (forall i j, i0 <= i <= i1 + 1 -> j0 <= j <= j1 -> (0 < v0 i j)%Qc) ->
  (forall i j, i0 <= i <= i1 -> j0 <= j <= j1 + 1 -> (0 <= v1 i j)%Qc) ->
  (forall f, 0 <= f < 4 -> sound true (bc f)) ->
  roomy 2 (ends2 i0 j0) (ends2 i1 j1) bc ->
  (forall i j, patch2 i0 j0 i1 j1 i j -> op2 dx beta (fun i j => alpha * c i j)%Qc v0 v1 (ext2 i0 j0 i1 j1 dx v0 v1 bc z) i j = f i j) ->
  exists (n : mem QcS), filled_v1_2d (S := QcS) i0 j0 i1 j1 dx beta b0 b1 gcw u f0 f1 alpha agcw a rgcw res bc n f z c v0 v1 /\
    shape n = shape m /\ ints n = ints m /\
    (forall p, (forall i j, patch2 i0 j0 i1 j1 i j -> faddr (mkFa u (CELL2d i0 j0 i1 j1 gcw)) [i; j] <> p) -> load n p = load m p).
Proof.
  intros F Hb Hdx Hv0 Hv1 Hs Ro Hz.
  destruct F as (Hg & Ap & Hw & m1 & w1 & E & A).
  pose proof A as (Hg0 & Hr & A0 & A1 & A2 & mo & Er & R0 & R1 & R2 & R3 & R4).
  destruct (fill (S := QcS) (cells2 i0 j0 i1 j1) (fun p : Z * Z => faddr (mkFa u (CELL2d i0 j0 i1 j1 gcw)) [fst p; snd p]) (fun p : Z * Z => z (fst p) (snd p)) m (nodup_cells2 i0 j0 i1 j1)) as (n & Sn & In' & Ln & Fn).
  { intros [i j] [i' j'] H H' Eq. cbn [fst snd] in Eq. apply in_cells2 in H, H'.
    apply faddr_inj in Eq; [congruence| |]; k_range. }
  { intros [i j] H. apply in_cells2 in H. cbn [fst snd]. exists (w i j). apply (Hw i j); k_near. }
  assert (Fp : forall p, (forall i j, patch2 i0 j0 i1 j1 i j -> faddr (mkFa u (CELL2d i0 j0 i1 j1 gcw)) [i; j] <> p) -> load n p = load m p).
  { intros p Hp. apply Fn. intros [i j] H. apply in_cells2 in H. now apply Hp. }
  destruct (completes_set_bc_2d i0 j0 i1 j1 dx b0 b1 gcw u _ m n m1 (eq_sym Sn) (eq_sym In') E) as (n1 & E' & S1 & I1).
  apply bind_Some_inv in Er as (m2 & E1 & E2).
  destruct (completes _ dx dx m1 n1 m2 (L_cdf_2d_flux _ _ _ _ _ _ _ _ _ _) S1 I1 E1) as (n2 & F1 & S2 & I2).
  destruct (completes _ (params dx alpha beta) (params dx alpha beta) m2 n2 mo (L_cd_apply_2d_diffusion_v1_apply _ _ _ _ _ _ _ _ _ _ _ _) S2 I2 E2) as (no & F2 & S3 & I3).
  destruct (kept_set_bc_2d (ends2 i0 j0) (ends2 i1 j1) dx b0 b1 gcw u bc m m1 Hg (apart_incl u [b0; b1; a] [b0; b1] Ap ltac:(intros p Hp; cbn in Hp |- *; tauto)) Ro E) as (_ & _ & _ & Om).
  destruct (kept_set_bc_2d (ends2 i0 j0) (ends2 i1 j1) dx b0 b1 gcw u bc n n1 Hg (apart_incl u [b0; b1; a] [b0; b1] Ap ltac:(intros p Hp; cbn in Hp |- *; tauto)) Ro E') as (_ & _ & _ & On).
  assert (Fo : forall p ds is, fst p <> fst u -> load n1 (faddr (mkFa p ds) is) = load m1 (faddr (mkFa p ds) is)).
  { intros p ds is Hp. rewrite On, Om by exact Hp. apply Fp. intros i j _. apply other_array. exact Hp. }
  assert (An : forall s, (forall i j, patch2 i0 j0 i1 j1 i j -> fel (mkFa res (CELL2d i0 j0 i1 j1 rgcw)) [i; j] no = Some (s i j : QcS)) -> filled_v1_2d (S := QcS) i0 j0 i1 j1 dx beta b0 b1 gcw u f0 f1 alpha agcw a rgcw res bc n s z c v0 v1).
  { intros s Hss. split; [exact Hg|]. split; [exact Ap|]. split; [intros i j Ii Ij; apply (Ln (i, j)); apply in_cells2; k_near|].
    exists n1, (fun i j => value n1 (faddr (mkFa u (CELL2d i0 j0 i1 j1 gcw)) [i; j])). split; [exact E'|].
    split; [assumption|]. split; [assumption|]. split; [assumption|]. split; [assumption|]. split; [assumption|]. exists no.
    split; [rewrite F1; exact F2|]. split; [intros; apply Hss; k_near|].
    split; [intros i j Ii Ij; destruct (shape_loads m1 n1 (faddr (mkFa u (CELL2d i0 j0 i1 j1 gcw)) [i; j]) (w1 i j) S1) as (y & Ey); [apply (R1 i j); assumption|]; unfold fel, value; rewrite Ey; reflexivity|].
    split; [intros i j Ii Ij; rewrite <- (R2 i j Ii Ij); apply Fo, (apart_in u _ _ Ap); cbn; tauto|].
    split; [intros i j Ii Ij; rewrite <- (R3 i j Ii Ij); apply Fo, (apart_in u _ _ Ap); cbn; tauto|].
    intros i j Ii Ij; rewrite <- (R4 i j Ii Ij); apply Fo, (apart_in u _ _ Ap); cbn; tauto. }
  exists n. split; [|split; [exact Sn|split; [exact In'|exact Fp]]].
  apply An. intros i j Ip.
  assert (Rd : forall i j, patch2 i0 j0 i1 j1 i j -> fel (mkFa res (CELL2d i0 j0 i1 j1 rgcw)) [i; j] no = Some (value no (faddr (mkFa res (CELL2d i0 j0 i1 j1 rgcw)) [i; j]) : QcS)).
  { clear i j Ip. intros i j Ip. destruct (shape_loads mo no (faddr (mkFa res (CELL2d i0 j0 i1 j1 rgcw)) [i; j]) (r i j) S3) as (y & Ey); [apply (R0 i j); k_near|].
    unfold fel, value. rewrite Ey. reflexivity. }
  rewrite (Rd i j Ip). f_equal.
  etransitivity; [exact (bvp_v1_2d i0 j0 i1 j1 dx beta b0 b1 gcw u f0 f1 alpha agcw a rgcw res bc n (fun i j => value no (faddr (mkFa res (CELL2d i0 j0 i1 j1 rgcw)) [i; j])) z c v0 v1 (An _ Rd) Hb Hdx Hv0 Hv1 Hs Ro i j Ip)|].
  exact (Hz i j Ip).
Qed.

Lemma bsolve_v1_2d i0 j0 i1 j1 (dx : Z -> Qc) (beta : Qc) b0 b1 gcw u f0 f1 (alpha : Qc) agcw a rgcw res bc (m : mem QcS) (r w c v0 v1 f : Z -> Z -> Qc) :
  filled_v1_2d (S := QcS) i0 j0 i1 j1 dx beta b0 b1 gcw u f0 f1 alpha agcw a rgcw res bc m r w c v0 v1 ->
  (0 < beta)%Qc ->
  (forall d, 0 <= d < 2 -> (0 < dx d)%Qc) ->
  (0 <= alpha)%Qc ->
  (forall i j, patch2 i0 j0 i1 j1 i j -> (0 <= c i j)%Qc) ->
  (forall i j, i0 <= i <= i1 + 1 -> j0 <= j <= j1 -> (0 < v0 i j)%Qc) ->
  (forall i j, i0 <= i <= i1 -> j0 <= j <= j1 + 1 -> (0 <= v1 i j)%Qc) ->
  (forall f, 0 <= f < 4 -> sound true (bc f)) ->
  roomy 2 (ends2 i0 j0) (ends2 i1 j1) bc ->
  (b_kind (bc 0) <> 1 \/ b_kind (bc 1) <> 1 \/ ((0 < alpha)%Qc /\ forall i j, patch2 i0 j0 i1 j1 i j -> (0 < c i j)%Qc)) ->
  exists (n : mem QcS) (z : Z -> Z -> Qc), filled_v1_2d (S := QcS) i0 j0 i1 j1 dx beta b0 b1 gcw u f0 f1 alpha agcw a rgcw res bc n f z c v0 v1 /\
    shape n = shape m /\ ints n = ints m /\
    (forall p, (forall i j, patch2 i0 j0 i1 j1 i j -> faddr (mkFa u (CELL2d i0 j0 i1 j1 gcw)) [i; j] <> p) -> load n p = load m p).
Proof.
  intros F Hb Hdx Ha Hc Hv0 Hv1 Hs Ro Hd.
  assert (Hh : b_kind (bc 0) <> 1 \/ b_kind (bc 1) <> 1 \/ (forall i j, patch2 i0 j0 i1 j1 i j -> (0 < (fun i j => alpha * c i j)%Qc i j)%Qc)) by (destruct Hd as [H|[H|[Pa Pc]]]; [now left|right; now left|right; right; intros i j Ip; apply Qc_pos_mul; [exact Pa|exact (Pc i j Ip)]]).
  destruct (bvp2_exists i0 j0 i1 j1 dx beta (fun i j => alpha * c i j)%Qc v0 v1 bc true Hb Hdx (fun i j Ip => Qc_mul _ _ Ha (Hc i j Ip)) Hv0 Hv1 Hs Ro Hh f) as (z & Hz).
  destruct (bplace_v1_2d i0 j0 i1 j1 dx beta b0 b1 gcw u f0 f1 alpha agcw a rgcw res bc m r w c v0 v1 f z F Hb Hdx Hv0 Hv1 Hs Ro Hz) as (n & H). exists n, z. exact H.
Qed.

Lemma bvp_v2_2d i0 j0 i1 j1 (dx : Z -> Qc) (beta : Qc) b0 b1 gcw u f0 f1 (alpha : Qc) rgcw res bc (m : mem QcS) (r w v0 v1 : Z -> Z -> Qc) :
  filled_v2_2d (S := QcS) i0 j0 i1 j1 dx beta b0 b1 gcw u f0 f1 alpha rgcw res bc m r w v0 v1 ->
  (0 < beta)%Qc ->
  (forall d, 0 <= d < 2 -> (0 < dx d)%Qc) ->
  (forall i j, i0 <= i <= i1 + 1 -> j0 <= j <= j1 -> (0 < v0 i j)%Qc) ->
  (forall i j, i0 <= i <= i1 -> j0 <= j <= j1 + 1 -> (0 <= v1 i j)%Qc) ->
  (forall f, 0 <= f < 4 -> sound true (bc f)) ->
  roomy 2 (ends2 i0 j0) (ends2 i1 j1) bc ->
  forall i j, patch2 i0 j0 i1 j1 i j -> r i j = op2 dx beta (fun _ _ => alpha) v0 v1 (ext2 i0 j0 i1 j1 dx v0 v1 bc w) i j.
Proof.
  intros (Hg & Ap & Hw & m1 & w1 & E & A) Hb Hdx Hv0 Hv1 Hs Ro i j Ip.
  rewrite (val_T_v2_2d _ _ _ _ _ _ _ _ _ _ _ _ _ _ _ _ _ _ _ _ A i j Ip).
  transitivity (op2 dx beta (fun _ _ => alpha) v0 v1 w1 i j); [unfold T_v2_2d, op2; ring|].
  apply (op2_near i0 j0 i1 j1 dx beta (fun _ _ => alpha) v0 v1 bc w1 _ i j Ip).
  destruct A as (Hg0 & Hr & A0 & A1 & A2 & mo & Er & R0 & R1 & R2 & R3).
  exact (near_set_bc_2d i0 j0 i1 j1 dx b0 b1 gcw u bc m m1 w w1 v0 v1 Hg (apart_incl u [b0; b1] [b0; b1] Ap ltac:(intros p Hp; cbn in Hp |- *; tauto)) Ro Hs Hdx Hv0 Hv1 Hw E R1 R2 R3).
Qed.

Lemma bcompare_v2_2d i0 j0 i1 j1 (dx : Z -> Qc) (beta : Qc) b0 b1 gcw u f0 f1 (alpha : Qc) rgcw res bc (m n : mem QcS) (r w s z v0 v1 : Z -> Z -> Qc) :
  filled_v2_2d (S := QcS) i0 j0 i1 j1 dx beta b0 b1 gcw u f0 f1 alpha rgcw res bc m r w v0 v1 ->
  filled_v2_2d (S := QcS) i0 j0 i1 j1 dx beta b0 b1 gcw u f0 f1 alpha rgcw res bc n s z v0 v1 ->
  (0 < beta)%Qc ->
  (forall d, 0 <= d < 2 -> (0 < dx d)%Qc) ->
  (0 <= alpha)%Qc ->
  (forall i j, i0 <= i <= i1 + 1 -> j0 <= j <= j1 -> (0 < v0 i j)%Qc) ->
  (forall i j, i0 <= i <= i1 -> j0 <= j <= j1 + 1 -> (0 <= v1 i j)%Qc) ->
  (forall f, 0 <= f < 4 -> sound true (bc f)) ->
  roomy 2 (ends2 i0 j0) (ends2 i1 j1) bc ->
  (b_kind (bc 0) <> 1 \/ b_kind (bc 1) <> 1 \/ (0 < alpha)%Qc) ->
  (forall i j, patch2 i0 j0 i1 j1 i j -> (r i j <= s i j)%Qc) ->
  forall i j, patch2 i0 j0 i1 j1 i j -> (w i j <= z i j)%Qc.
Proof.
  intros F G Hb Hdx Ha Hv0 Hv1 Hs Ro Hd Le.
  assert (Hh : b_kind (bc 0) <> 1 \/ b_kind (bc 1) <> 1 \/ (forall i j, patch2 i0 j0 i1 j1 i j -> (0 < (fun _ _ => alpha) i j)%Qc)) by (destruct Hd as [H|[H|H]]; [now left|right; now left|right; right; intros; exact H]).
  apply (bvp2_compare i0 j0 i1 j1 dx beta (fun _ _ => alpha) v0 v1 bc true Hb Hdx (fun _ _ _ => Ha) Hv0 Hv1 Hs Ro Hh w z r s).
  - exact (bvp_v2_2d i0 j0 i1 j1 dx beta b0 b1 gcw u f0 f1 alpha rgcw res bc m r w v0 v1 F Hb Hdx Hv0 Hv1 Hs Ro).
  - exact (bvp_v2_2d i0 j0 i1 j1 dx beta b0 b1 gcw u f0 f1 alpha rgcw res bc n s z v0 v1 G Hb Hdx Hv0 Hv1 Hs Ro).
  - exact Le.
Qed.

Lemma bunique_v2_2d i0 j0 i1 j1 (dx : Z -> Qc) (beta : Qc) b0 b1 gcw u f0 f1 (alpha : Qc) rgcw res bc (m n : mem QcS) (r w s z v0 v1 : Z -> Z -> Qc) :
  filled_v2_2d (S := QcS) i0 j0 i1 j1 dx beta b0 b1 gcw u f0 f1 alpha rgcw res bc m r w v0 v1 ->
  filled_v2_2d (S := QcS) i0 j0 i1 j1 dx beta b0 b1 gcw u f0 f1 alpha rgcw res bc n s z v0 v1 ->
  (0 < beta)%Qc ->
  (forall d, 0 <= d < 2 -> (0 < dx d)%Qc) ->
  (0 <= alpha)%Qc ->
  (forall i j, i0 <= i <= i1 + 1 -> j0 <= j <= j1 -> (0 < v0 i j)%Qc) ->
  (forall i j, i0 <= i <= i1 -> j0 <= j <= j1 + 1 -> (0 <= v1 i j)%Qc) ->
  (forall f, 0 <= f < 4 -> sound true (bc f)) ->
  roomy 2 (ends2 i0 j0) (ends2 i1 j1) bc ->
  (b_kind (bc 0) <> 1 \/ b_kind (bc 1) <> 1 \/ (0 < alpha)%Qc) ->
  (forall i j, patch2 i0 j0 i1 j1 i j -> r i j = s i j) ->
  forall i j, patch2 i0 j0 i1 j1 i j -> w i j = z i j.
Proof.
  intros F G Hb Hdx Ha Hv0 Hv1 Hs Ro Hd Eq i j Ip. apply Qcle_antisym.
  - apply (bcompare_v2_2d i0 j0 i1 j1 dx beta b0 b1 gcw u f0 f1 alpha rgcw res bc m n r w s z v0 v1 F G Hb Hdx Ha Hv0 Hv1 Hs Ro Hd); [|exact Ip]. intros. rewrite Eq by assumption. apply Qcle_refl.
  - apply (bcompare_v2_2d i0 j0 i1 j1 dx beta b0 b1 gcw u f0 f1 alpha rgcw res bc n m s z r w v0 v1 G F Hb Hdx Ha Hv0 Hv1 Hs Ro Hd); [|exact Ip]. intros. rewrite Eq by assumption. apply Qcle_refl.
Qed.

Lemma bplace_v2_2d i0 j0 i1 j1 (dx : Z -> Qc) (beta : Qc) b0 b1 gcw u f0 f1 (alpha : Qc) rgcw res bc (m : mem QcS) (r w v0 v1 f : Z -> Z -> Qc) (z : Z -> Z -> Qc) :
  filled_v2_2d (S := QcS) i0 j0 i1 j1 dx beta b0 b1 gcw u f0 f1 alpha rgcw res bc m r w v0 v1 ->
  (0 < beta)%Qc ->
  (forall d, 0 <= d < 2 -> (0 < dx d)%Qc) ->
  (forall i j, i0 <= i <= i1 + 1 -> j0 <= j <= j1 -> (0 < v0 i j)%Qc) ->
  (forall i j, i0 <= i <= i1 -> j0 <= j <= j1 + 1 -> (0 <= v1 i j)%Qc) ->
  (forall f, 0 <= f < 4 -> sound true (bc f)) ->
  roomy 2 (ends2 i0 j0) (ends2 i1 j1) bc ->
  (forall i j, patch2 i0 j0 i1 j1 i j -> op2 dx beta (fun _ _ => alpha) v0 v1 (ext2 i0 j0 i1 j1 dx v0 v1 bc z) i j = f i j) ->
  exists (n : mem QcS), filled_v2_2d (S := QcS) i0 j0 i1 j1 dx beta b0 b1 gcw u f0 f1 alpha rgcw res bc n f z v0 v1 /\
    shape n = shape m /\ ints n = ints m /\
    (forall p, (forall i j, patch2 i0 j0 i1 j1 i j -> faddr (mkFa u (CELL2d i0 j0 i1 j1 gcw)) [i; j] <> p) -> load n p = load m p).
Proof.
  intros F Hb Hdx Hv0 Hv1 Hs Ro Hz.
  destruct F as (Hg & Ap & Hw & m1 & w1 & E & A).
  pose proof A as (Hg0 & Hr & A0 & A1 & A2 & mo & Er & R0 & R1 & R2 & R3).
  destruct (fill (S := QcS) (cells2 i0 j0 i1 j1) (fun p : Z * Z => faddr (mkFa u (CELL2d i0 j0 i1 j1 gcw)) [fst p; snd p]) (fun p : Z * Z => z (fst p) (snd p)) m (nodup_cells2 i0 j0 i1 j1)) as (n & Sn & In' & Ln & Fn).
  { intros [i j] [i' j'] H H' Eq. cbn [fst snd] in Eq. apply in_cells2 in H, H'.
    apply faddr_inj in Eq; [congruence| |]; k_range. }
  { intros [i j] H. apply in_cells2 in H. cbn [fst snd]. exists (w i j). apply (Hw i j); k_near. }
  assert (Fp : forall p, (forall i j, patch2 i0 j0 i1 j1 i j -> faddr (mkFa u (CELL2d i0 j0 i1 j1 gcw)) [i; j] <> p) -> load n p = load m p).
  { intros p Hp. apply Fn. intros [i j] H. apply in_cells2 in H. now apply Hp. }
  destruct (completes_set_bc_2d i0 j0 i1 j1 dx b0 b1 gcw u _ m n m1 (eq_sym Sn) (eq_sym In') E) as (n1 & E' & S1 & I1).
  apply bind_Some_inv in Er as (m2 & E1 & E2).
  destruct (completes _ dx dx m1 n1 m2 (L_cdf_2d_flux _ _ _ _ _ _ _ _ _ _) S1 I1 E1) as (n2 & F1 & S2 & I2).
  destruct (completes _ (params dx alpha beta) (params dx alpha beta) m2 n2 mo (L_cd_apply_2d_diffusion_v2_apply _ _ _ _ _ _ _ _ _ _) S2 I2 E2) as (no & F2 & S3 & I3).
  destruct (kept_set_bc_2d (ends2 i0 j0) (ends2 i1 j1) dx b0 b1 gcw u bc m m1 Hg (apart_incl u [b0; b1] [b0; b1] Ap ltac:(intros p Hp; cbn in Hp |- *; tauto)) Ro E) as (_ & _ & _ & Om).
  destruct (kept_set_bc_2d (ends2 i0 j0) (ends2 i1 j1) dx b0 b1 gcw u bc n n1 Hg (apart_incl u [b0; b1] [b0; b1] Ap ltac:(intros p Hp; cbn in Hp |- *; tauto)) Ro E') as (_ & _ & _ & On).
  assert (Fo : forall p ds is, fst p <> fst u -> load n1 (faddr (mkFa p ds) is) = load m1 (faddr (mkFa p ds) is)).
  { intros p ds is Hp. rewrite On, Om by exact Hp. apply Fp. intros i j _. apply other_array. exact Hp. }
  assert (An : forall s, (forall i j, patch2 i0 j0 i1 j1 i j -> fel (mkFa res (CELL2d i0 j0 i1 j1 rgcw)) [i; j] no = Some (s i j : QcS)) -> filled_v2_2d (S := QcS) i0 j0 i1 j1 dx beta b0 b1 gcw u f0 f1 alpha rgcw res bc n s z v0 v1).
  { intros s Hss. split; [exact Hg|]. split; [exact Ap|]. split; [intros i j Ii Ij; apply (Ln (i, j)); apply in_cells2; k_near|].
    exists n1, (fun i j => value n1 (faddr (mkFa u (CELL2d i0 j0 i1 j1 gcw)) [i; j])). split; [exact E'|].
    split; [assumption|]. split; [assumption|]. split; [assumption|]. split; [assumption|]. split; [assumption|]. exists no.
    split; [rewrite F1; exact F2|]. split; [intros; apply Hss; k_near|].
    split; [intros i j Ii Ij; destruct (shape_loads m1 n1 (faddr (mkFa u (CELL2d i0 j0 i1 j1 gcw)) [i; j]) (w1 i j) S1) as (y & Ey); [apply (R1 i j); assumption|]; unfold fel, value; rewrite Ey; reflexivity|].
    split; [intros i j Ii Ij; rewrite <- (R2 i j Ii Ij); apply Fo, (apart_in u _ _ Ap); cbn; tauto|].
    intros i j Ii Ij; rewrite <- (R3 i j Ii Ij); apply Fo, (apart_in u _ _ Ap); cbn; tauto. }
  exists n. split; [|split; [exact Sn|split; [exact In'|exact Fp]]].
  apply An. intros i j Ip.
  assert (Rd : forall i j, patch2 i0 j0 i1 j1 i j -> fel (mkFa res (CELL2d i0 j0 i1 j1 rgcw)) [i; j] no = Some (value no (faddr (mkFa res (CELL2d i0 j0 i1 j1 rgcw)) [i; j]) : QcS)).
  { clear i j Ip. intros i j Ip. destruct (shape_loads mo no (faddr (mkFa res (CELL2d i0 j0 i1 j1 rgcw)) [i; j]) (r i j) S3) as (y & Ey); [apply (R0 i j); k_near|].
    unfold fel, value. rewrite Ey. reflexivity. }
  rewrite (Rd i j Ip). f_equal.
  etransitivity; [exact (bvp_v2_2d i0 j0 i1 j1 dx beta b0 b1 gcw u f0 f1 alpha rgcw res bc n (fun i j => value no (faddr (mkFa res (CELL2d i0 j0 i1 j1 rgcw)) [i; j])) z v0 v1 (An _ Rd) Hb Hdx Hv0 Hv1 Hs Ro i j Ip)|].
  exact (Hz i j Ip).
Qed.

Lemma bsolve_v2_2d i0 j0 i1 j1 (dx : Z -> Qc) (beta : Qc) b0 b1 gcw u f0 f1 (alpha : Qc) rgcw res bc (m : mem QcS) (r w v0 v1 f : Z -> Z -> Qc) :
  filled_v2_2d (S := QcS) i0 j0 i1 j1 dx beta b0 b1 gcw u f0 f1 alpha rgcw res bc m r w v0 v1 ->
  (0 < beta)%Qc ->
  (forall d, 0 <= d < 2 -> (0 < dx d)%Qc) ->
  (0 <= alpha)%Qc ->
  (forall i j, i0 <= i <= i1 + 1 -> j0 <= j <= j1 -> (0 < v0 i j)%Qc) ->
  (forall i j, i0 <= i <= i1 -> j0 <= j <= j1 + 1 -> (0 <= v1 i j)%Qc) ->
  (forall f, 0 <= f < 4 -> sound true (bc f)) ->
  roomy 2 (ends2 i0 j0) (ends2 i1 j1) bc ->
  (b_kind (bc 0) <> 1 \/ b_kind (bc 1) <> 1 \/ (0 < alpha)%Qc) ->
  exists (n : mem QcS) (z : Z -> Z -> Qc), filled_v2_2d (S := QcS) i0 j0 i1 j1 dx beta b0 b1 gcw u f0 f1 alpha rgcw res bc n f z v0 v1 /\
    shape n = shape m /\ ints n = ints m /\
    (forall p, (forall i j, patch2 i0 j0 i1 j1 i j -> faddr (mkFa u (CELL2d i0 j0 i1 j1 gcw)) [i; j] <> p) -> load n p = load m p).
Proof.
  intros F Hb Hdx Ha Hv0 Hv1 Hs Ro Hd.
  assert (Hh : b_kind (bc 0) <> 1 \/ b_kind (bc 1) <> 1 \/ (forall i j, patch2 i0 j0 i1 j1 i j -> (0 < (fun _ _ => alpha) i j)%Qc)) by (destruct Hd as [H|[H|H]]; [now left|right; now left|right; right; intros; exact H]).
  destruct (bvp2_exists i0 j0 i1 j1 dx beta (fun _ _ => alpha) v0 v1 bc true Hb Hdx (fun _ _ _ => Ha) Hv0 Hv1 Hs Ro Hh f) as (z & Hz).
  destruct (bplace_v2_2d i0 j0 i1 j1 dx beta b0 b1 gcw u f0 f1 alpha rgcw res bc m r w v0 v1 f z F Hb Hdx Hv0 Hv1 Hs Ro Hz) as (n & H). exists n, z. exact H.
Qed.

Lemma bvp_poisson_2d i0 j0 i1 j1 (dx : Z -> Qc) (beta : Qc) gcw u f0 f1 rgcw res bc (m : mem QcS) (r w : Z -> Z -> Qc) :
  filled_poisson_2d (S := QcS) i0 j0 i1 j1 dx beta gcw u f0 f1 rgcw res bc m r w ->
  (0 < beta)%Qc ->
  (forall d, 0 <= d < 2 -> (0 < dx d)%Qc) ->
  (forall f, 0 <= f < 4 -> sound false (bc f)) ->
  roomy 2 (ends2 i0 j0) (ends2 i1 j1) bc ->
  forall i j, patch2 i0 j0 i1 j1 i j -> r i j = op2 dx beta (fun _ _ => 0%Qc) (fun _ _ => 1%Qc) (fun _ _ => 1%Qc) (ext2 i0 j0 i1 j1 dx (fun _ _ => 1%Qc) (fun _ _ => 1%Qc) bc w) i j.
Proof.
  intros (Hg & Hw & m1 & w1 & E & A) Hb Hdx Hs Ro i j Ip.
  rewrite (val_T_poisson_2d _ _ _ _ _ _ _ _ _ _ _ _ _ _ _  A i j Ip).
  transitivity (op2 dx beta (fun _ _ => 0%Qc) (fun _ _ => 1%Qc) (fun _ _ => 1%Qc) w1 i j); [unfold T_poisson_2d, op2; ring|].
  apply (op2_near i0 j0 i1 j1 dx beta (fun _ _ => 0%Qc) (fun _ _ => 1%Qc) (fun _ _ => 1%Qc) bc w1 _ i j Ip).
  destruct A as (Hg0 & Hr & A0 & A1 & A2 & mo & Er & R0 & R1).
  exact (near_set_poisson_bc_2d i0 j0 i1 j1 dx  gcw u bc m m1 w w1  Hg Ro Hs Hdx  Hw E R1 ).
Qed.

Lemma bcompare_poisson_2d i0 j0 i1 j1 (dx : Z -> Qc) (beta : Qc) gcw u f0 f1 rgcw res bc (m n : mem QcS) (r w s z : Z -> Z -> Qc) :
  filled_poisson_2d (S := QcS) i0 j0 i1 j1 dx beta gcw u f0 f1 rgcw res bc m r w ->
  filled_poisson_2d (S := QcS) i0 j0 i1 j1 dx beta gcw u f0 f1 rgcw res bc n s z ->
  (0 < beta)%Qc ->
  (forall d, 0 <= d < 2 -> (0 < dx d)%Qc) ->
  (forall f, 0 <= f < 4 -> sound false (bc f)) ->
  roomy 2 (ends2 i0 j0) (ends2 i1 j1) bc ->
  (b_kind (bc 0) <> 1 \/ b_kind (bc 1) <> 1) ->
  (forall i j, patch2 i0 j0 i1 j1 i j -> (r i j <= s i j)%Qc) ->
  forall i j, patch2 i0 j0 i1 j1 i j -> (w i j <= z i j)%Qc.
Proof.
  intros F G Hb Hdx Hs Ro Hd Le.
  assert (Hh : b_kind (bc 0) <> 1 \/ b_kind (bc 1) <> 1 \/ (forall i j, patch2 i0 j0 i1 j1 i j -> (0 < (fun _ _ => 0%Qc) i j)%Qc)) by (destruct Hd as [H|H]; [now left|right; now left]).
  apply (bvp2_compare i0 j0 i1 j1 dx beta (fun _ _ => 0%Qc) (fun _ _ => 1%Qc) (fun _ _ => 1%Qc) bc false Hb Hdx (fun _ _ _ => Qcle_refl 0%Qc) (fun _ _ _ _ => eq_refl : (0 < 1)%Qc) (fun _ _ _ _ => Qclt_le_weak _ _ (eq_refl : (0 < 1)%Qc)) Hs Ro Hh w z r s).
  - exact (bvp_poisson_2d i0 j0 i1 j1 dx beta gcw u f0 f1 rgcw res bc m r w  F Hb Hdx Hs Ro).
  - exact (bvp_poisson_2d i0 j0 i1 j1 dx beta gcw u f0 f1 rgcw res bc n s z  G Hb Hdx Hs Ro).
  - exact Le.
Qed.

Lemma bunique_poisson_2d i0 j0 i1 j1 (dx : Z -> Qc) (beta : Qc) gcw u f0 f1 rgcw res bc (m n : mem QcS) (r w s z : Z -> Z -> Qc) :
  filled_poisson_2d (S := QcS) i0 j0 i1 j1 dx beta gcw u f0 f1 rgcw res bc m r w ->
  filled_poisson_2d (S := QcS) i0 j0 i1 j1 dx beta gcw u f0 f1 rgcw res bc n s z ->
  (0 < beta)%Qc ->
  (forall d, 0 <= d < 2 -> (0 < dx d)%Qc) ->
  (forall f, 0 <= f < 4 -> sound false (bc f)) ->
  roomy 2 (ends2 i0 j0) (ends2 i1 j1) bc ->
  (b_kind (bc 0) <> 1 \/ b_kind (bc 1) <> 1) ->
  (forall i j, patch2 i0 j0 i1 j1 i j -> r i j = s i j) ->
  forall i j, patch2 i0 j0 i1 j1 i j -> w i j = z i j.
Proof.
  intros F G Hb Hdx Hs Ro Hd Eq i j Ip. apply Qcle_antisym.
  - apply (bcompare_poisson_2d i0 j0 i1 j1 dx beta gcw u f0 f1 rgcw res bc m n r w s z  F G Hb Hdx Hs Ro Hd); [|exact Ip]. intros. rewrite Eq by assumption. apply Qcle_refl.
  - apply (bcompare_poisson_2d i0 j0 i1 j1 dx beta gcw u f0 f1 rgcw res bc n m s z r w  G F Hb Hdx Hs Ro Hd); [|exact Ip]. intros. rewrite Eq by assumption. apply Qcle_refl.
Qed.

Lemma bplace_poisson_2d i0 j0 i1 j1 (dx : Z -> Qc) (beta : Qc) gcw u f0 f1 rgcw res bc (m : mem QcS) (r w f : Z -> Z -> Qc) (z : Z -> Z -> Qc) :
  filled_poisson_2d (S := QcS) i0 j0 i1 j1 dx beta gcw u f0 f1 rgcw res bc m r w ->
  (0 < beta)%Qc ->
  (forall d, 0 <= d < 2 -> (0 < dx d)%Qc) ->
  (forall f, 0 <= f < 4 -> sound false (bc f)) ->
  roomy 2 (ends2 i0 j0) (ends2 i1 j1) bc ->
  (forall i j, patch2 i0 j0 i1 j1 i j -> op2 dx beta (fun _ _ => 0%Qc) (fun _ _ => 1%Qc) (fun _ _ => 1%Qc) (ext2 i0 j0 i1 j1 dx (fun _ _ => 1%Qc) (fun _ _ => 1%Qc) bc z) i j = f i j) ->
  exists (n : mem QcS), filled_poisson_2d (S := QcS) i0 j0 i1 j1 dx beta gcw u f0 f1 rgcw res bc n f z /\
    shape n = shape m /\ ints n = ints m /\
    (forall p, (forall i j, patch2 i0 j0 i1 j1 i j -> faddr (mkFa u (CELL2d i0 j0 i1 j1 gcw)) [i; j] <> p) -> load n p = load m p).
Proof.
  intros F Hb Hdx Hs Ro Hz.
  destruct F as (Hg & Hw & m1 & w1 & E & A).
  pose proof A as (Hg0 & Hr & A0 & A1 & A2 & mo & Er & R0 & R1).
  destruct (fill (S := QcS) (cells2 i0 j0 i1 j1) (fun p : Z * Z => faddr (mkFa u (CELL2d i0 j0 i1 j1 gcw)) [fst p; snd p]) (fun p : Z * Z => z (fst p) (snd p)) m (nodup_cells2 i0 j0 i1 j1)) as (n & Sn & In' & Ln & Fn).
  { intros [i j] [i' j'] H H' Eq. cbn [fst snd] in Eq. apply in_cells2 in H, H'.
    apply faddr_inj in Eq; [congruence| |]; k_range. }
  { intros [i j] H. apply in_cells2 in H. cbn [fst snd]. exists (w i j). apply (Hw i j); k_near. }
  assert (Fp : forall p, (forall i j, patch2 i0 j0 i1 j1 i j -> faddr (mkFa u (CELL2d i0 j0 i1 j1 gcw)) [i; j] <> p) -> load n p = load m p).
  { intros p Hp. apply Fn. intros [i j] H. apply in_cells2 in H. now apply Hp. }
  destruct (completes_set_poisson_bc_2d i0 j0 i1 j1 dx  gcw u _ m n m1 (eq_sym Sn) (eq_sym In') E) as (n1 & E' & S1 & I1).
  apply bind_Some_inv in Er as (m2 & E1 & E2).
  destruct (completes _ dx dx m1 n1 m2 (L_cdf_2d_poisson_flux _ _ _ _ _ _ _ _) S1 I1 E1) as (n2 & F1 & S2 & I2).
  destruct (completes _ (params dx 0%Qc beta) (params dx 0%Qc beta) m2 n2 mo (L_cd_apply_2d_poisson_v2_apply _ _ _ _ _ _ _ _) S2 I2 E2) as (no & F2 & S3 & I3).
  destruct (kept_set_poisson_bc_2d (ends2 i0 j0) (ends2 i1 j1) dx  gcw u bc m m1 Hg Ro E) as (_ & _ & _ & Om).
  destruct (kept_set_poisson_bc_2d (ends2 i0 j0) (ends2 i1 j1) dx  gcw u bc n n1 Hg Ro E') as (_ & _ & _ & On).
  assert (Fo : forall p ds is, fst p <> fst u -> load n1 (faddr (mkFa p ds) is) = load m1 (faddr (mkFa p ds) is)).
  { intros p ds is Hp. rewrite On, Om by exact Hp. apply Fp. intros i j _. apply other_array. exact Hp. }
  assert (An : forall s, (forall i j, patch2 i0 j0 i1 j1 i j -> fel (mkFa res (CELL2d i0 j0 i1 j1 rgcw)) [i; j] no = Some (s i j : QcS)) -> filled_poisson_2d (S := QcS) i0 j0 i1 j1 dx beta gcw u f0 f1 rgcw res bc n s z).
  { intros s Hss. split; [exact Hg|]. split; [intros i j Ii Ij; apply (Ln (i, j)); apply in_cells2; k_near|].
    exists n1, (fun i j => value n1 (faddr (mkFa u (CELL2d i0 j0 i1 j1 gcw)) [i; j])). split; [exact E'|].
    split; [assumption|]. split; [assumption|]. split; [assumption|]. split; [assumption|]. split; [assumption|]. exists no.
    split; [rewrite F1; exact F2|]. split; [intros; apply Hss; k_near|].
    intros i j Ii Ij; destruct (shape_loads m1 n1 (faddr (mkFa u (CELL2d i0 j0 i1 j1 gcw)) [i; j]) (w1 i j) S1) as (y & Ey); [apply (R1 i j); assumption|]; unfold fel, value; rewrite Ey; reflexivity.
 }
  exists n. split; [|split; [exact Sn|split; [exact In'|exact Fp]]].
  apply An. intros i j Ip.
  assert (Rd : forall i j, patch2 i0 j0 i1 j1 i j -> fel (mkFa res (CELL2d i0 j0 i1 j1 rgcw)) [i; j] no = Some (value no (faddr (mkFa res (CELL2d i0 j0 i1 j1 rgcw)) [i; j]) : QcS)).
  { clear i j Ip. intros i j Ip. destruct (shape_loads mo no (faddr (mkFa res (CELL2d i0 j0 i1 j1 rgcw)) [i; j]) (r i j) S3) as (y & Ey); [apply (R0 i j); k_near|].
    unfold fel, value. rewrite Ey. reflexivity. }
  rewrite (Rd i j Ip). f_equal.
  etransitivity; [exact (bvp_poisson_2d i0 j0 i1 j1 dx beta gcw u f0 f1 rgcw res bc n (fun i j => value no (faddr (mkFa res (CELL2d i0 j0 i1 j1 rgcw)) [i; j])) z  (An _ Rd) Hb Hdx Hs Ro i j Ip)|].
  exact (Hz i j Ip).
Qed.

Lemma bsolve_poisson_2d i0 j0 i1 j1 (dx : Z -> Qc) (beta : Qc) gcw u f0 f1 rgcw res bc (m : mem QcS) (r w f : Z -> Z -> Qc) :
  filled_poisson_2d (S := QcS) i0 j0 i1 j1 dx beta gcw u f0 f1 rgcw res bc m r w ->
  (0 < beta)%Qc ->
  (forall d, 0 <= d < 2 -> (0 < dx d)%Qc) ->
  (forall f, 0 <= f < 4 -> sound false (bc f)) ->
  roomy 2 (ends2 i0 j0) (ends2 i1 j1) bc ->
  (b_kind (bc 0) <> 1 \/ b_kind (bc 1) <> 1) ->
  exists (n : mem QcS) (z : Z -> Z -> Qc), filled_poisson_2d (S := QcS) i0 j0 i1 j1 dx beta gcw u f0 f1 rgcw res bc n f z /\
    shape n = shape m /\ ints n = ints m /\
    (forall p, (forall i j, patch2 i0 j0 i1 j1 i j -> faddr (mkFa u (CELL2d i0 j0 i1 j1 gcw)) [i; j] <> p) -> load n p = load m p).
Proof.
  intros F Hb Hdx Hs Ro Hd.
  assert (Hh : b_kind (bc 0) <> 1 \/ b_kind (bc 1) <> 1 \/ (forall i j, patch2 i0 j0 i1 j1 i j -> (0 < (fun _ _ => 0%Qc) i j)%Qc)) by (destruct Hd as [H|H]; [now left|right; now left]).
  destruct (bvp2_exists i0 j0 i1 j1 dx beta (fun _ _ => 0%Qc) (fun _ _ => 1%Qc) (fun _ _ => 1%Qc) bc false Hb Hdx (fun _ _ _ => Qcle_refl 0%Qc) (fun _ _ _ _ => eq_refl : (0 < 1)%Qc) (fun _ _ _ _ => Qclt_le_weak _ _ (eq_refl : (0 < 1)%Qc)) Hs Ro Hh f) as (z & Hz).
  destruct (bplace_poisson_2d i0 j0 i1 j1 dx beta gcw u f0 f1 rgcw res bc m r w  f z F Hb Hdx Hs Ro Hz) as (n & H). exists n, z. exact H.
Qed.

Lemma bvp_v1_3d i0 j0 k0 i1 j1 k1 (dx : Z -> Qc) (beta : Qc) b0 b1 b2 gcw u f0 f1 f2 (alpha : Qc) agcw a rgcw res bc (m : mem QcS) (r w c v0 v1 v2 : Z -> Z -> Z -> Qc) :
  filled_v1_3d (S := QcS) i0 j0 k0 i1 j1 k1 dx beta b0 b1 b2 gcw u f0 f1 f2 alpha agcw a rgcw res bc m r w c v0 v1 v2 ->
  (0 < beta)%Qc ->
  (forall d, 0 <= d < 3 -> (0 < dx d)%Qc) ->
  (forall i j k, i0 <= i <= i1 + 1 -> j0 <= j <= j1 -> k0 <= k <= k1 -> (0 < v0 i j k)%Qc) ->
  (forall i j k, i0 <= i <= i1 -> j0 <= j <= j1 + 1 -> k0 <= k <= k1 -> (0 <= v1 i j k)%Qc) ->
  (forall i j k, i0 <= i <= i1 -> j0 <= j <= j1 -> k0 <= k <= k1 + 1 -> (0 <= v2 i j k)%Qc) ->
  (forall f, 0 <= f < 6 -> sound true (bc f)) ->
  roomy 3 (ends3 i0 j0 k0) (ends3 i1 j1 k1) bc ->
  forall i j k, patch3 i0 j0 k0 i1 j1 k1 i j k -> r i j k = op3 dx beta (fun i j k => alpha * c i j k)%Qc v0 v1 v2 (ext3 i0 j0 k0 i1 j1 k1 dx v0 v1 v2 bc w) i j k.
Proof.
  intros (Hg & Ap & Hw & m1 & w1 & E & A) Hb Hdx Hv0 Hv1 Hv2 Hs Ro i j k Ip.
  rewrite (val_T_v1_3d _ _ _ _ _ _ _ _ _ _ _ _ _ _ _ _ _ _ _ _ _ _ _ _ _ _ _ _ A i j k Ip).
  transitivity (op3 dx beta (fun i j k => alpha * c i j k)%Qc v0 v1 v2 w1 i j k); [unfold T_v1_3d, op3; ring|].
  apply (op3_near i0 j0 k0 i1 j1 k1 dx beta (fun i j k => alpha * c i j k)%Qc v0 v1 v2 bc w1 _ i j k Ip).
  destruct A as (Hg0 & Hr & A0 & A1 & A2 & A3 & mo & Er & R0 & R1 & R2 & R3 & R4 & R5).
  exact (near_set_bc_3d i0 j0 k0 i1 j1 k1 dx b0 b1 b2 gcw u bc m m1 w w1 v0 v1 v2 Hg (apart_incl u [b0; b1; b2; a] [b0; b1; b2] Ap ltac:(intros p Hp; cbn in Hp |- *; tauto)) Ro Hs Hdx Hv0 Hv1 Hv2 Hw E R1 R3 R4 R5).
Qed.

Lemma bcompare_v1_3d i0 j0 k0 i1 j1 k1 (dx : Z -> Qc) (beta : Qc) b0 b1 b2 gcw u f0 f1 f2 (alpha : Qc) agcw a rgcw res bc (m n : mem QcS) (r w s z c v0 v1 v2 : Z -> Z -> Z -> Qc) :
  filled_v1_3d (S := QcS) i0 j0 k0 i1 j1 k1 dx beta b0 b1 b2 gcw u f0 f1 f2 alpha agcw a rgcw res bc m r w c v0 v1 v2 ->
  filled_v1_3d (S := QcS) i0 j0 k0 i1 j1 k1 dx beta b0 b1 b2 gcw u f0 f1 f2 alpha agcw a rgcw res bc n s z c v0 v1 v2 ->
  (0 < beta)%Qc ->
  (forall d, 0 <= d < 3 -> (0 < dx d)%Qc) ->
  (0 <= alpha)%Qc ->
  (forall i j k, patch3 i0 j0 k0 i1 j1 k1 i j k -> (0 <= c i j k)%Qc) ->
  (forall i j k, i0 <= i <= i1 + 1 -> j0 <= j <= j1 -> k0 <= k <= k1 -> (0 < v0 i j k)%Qc) ->
  (forall i j k, i0 <= i <= i1 -> j0 <= j <= j1 + 1 -> k0 <= k <= k1 -> (0 <= v1 i j k)%Qc) ->
  (forall i j k, i0 <= i <= i1 -> j0 <= j <= j1 -> k0 <= k <= k1 + 1 -> (0 <= v2 i j k)%Qc) ->
  (forall f, 0 <= f < 6 -> sound true (bc f)) ->
  roomy 3 (ends3 i0 j0 k0) (ends3 i1 j1 k1) bc ->
  (b_kind (bc 0) <> 1 \/ b_kind (bc 1) <> 1 \/ ((0 < alpha)%Qc /\ forall i j k, patch3 i0 j0 k0 i1 j1 k1 i j k -> (0 < c i j k)%Qc)) ->
  (forall i j k, patch3 i0 j0 k0 i1 j1 k1 i j k -> (r i j k <= s i j k)%Qc) ->
  forall i j k, patch3 i0 j0 k0 i1 j1 k1 i j k -> (w i j k <= z i j k)%Qc.
Proof.
  intros F G Hb Hdx Ha Hc Hv0 Hv1 Hv2 Hs Ro Hd Le.
  assert (Hh : b_kind (bc 0) <> 1 \/ b_kind (bc 1) <> 1 \/ (forall i j k, patch3 i0 j0 k0 i1 j1 k1 i j k -> (0 < (fun i j k => alpha * c i j k)%Qc i j k)%Qc)) by (destruct Hd as [H|[H|[Pa Pc]]]; [now left|right; now left|right; right; intros i j k Ip; apply Qc_pos_mul; [exact Pa|exact (Pc i j k Ip)]]).
  apply (bvp3_compare i0 j0 k0 i1 j1 k1 dx beta (fun i j k => alpha * c i j k)%Qc v0 v1 v2 bc true Hb Hdx (fun i j k Ip => Qc_mul _ _ Ha (Hc i j k Ip)) Hv0 Hv1 Hv2 Hs Ro Hh w z r s).
  - exact (bvp_v1_3d i0 j0 k0 i1 j1 k1 dx beta b0 b1 b2 gcw u f0 f1 f2 alpha agcw a rgcw res bc m r w c v0 v1 v2 F Hb Hdx Hv0 Hv1 Hv2 Hs Ro).
  - exact (bvp_v1_3d i0 j0 k0 i1 j1 k1 dx beta b0 b1 b2 gcw u f0 f1 f2 alpha agcw a rgcw res bc n s z c v0 v1 v2 G Hb Hdx Hv0 Hv1 Hv2 Hs Ro).
  - exact Le.
Qed.

Lemma bunique_v1_3d i0 j0 k0 i1 j1 k1 (dx : Z -> Qc) (beta : Qc) b0 b1 b2 gcw u f0 f1 f2 (alpha : Qc) agcw a rgcw res bc (m n : mem QcS) (r w s z c v0 v1 v2 : Z -> Z -> Z -> Qc) :
  filled_v1_3d (S := QcS) i0 j0 k0 i1 j1 k1 dx beta b0 b1 b2 gcw u f0 f1 f2 alpha agcw a rgcw res bc m r w c v0 v1 v2 ->
  filled_v1_3d (S := QcS) i0 j0 k0 i1 j1 k1 dx beta b0 b1 b2 gcw u f0 f1 f2 alpha agcw a rgcw res bc n s z c v0 v1 v2 ->
  (0 < beta)%Qc ->
  (forall d, 0 <= d < 3 -> (0 < dx d)%Qc) ->
  (0 <= alpha)%Qc ->
  (forall i j k, patch3 i0 j0 k0 i1 j1 k1 i j k -> (0 <= c i j k)%Qc) ->
  (forall i j k, i0 <= i <= i1 + 1 -> j0 <= j <= j1 -> k0 <= k <= k1 -> (0 < v0 i j k)%Qc) ->
  (forall i j k, i0 <= i <= i1 -> j0 <= j <= j1 + 1 -> k0 <= k <= k1 -> (0 <= v1 i j k)%Qc) ->
  (forall i j k, i0 <= i <= i1 -> j0 <= j <= j1 -> k0 <= k <= k1 + 1 -> (0 <= v2 i j k)%Qc) ->
  (forall f, 0 <= f < 6 -> sound true (bc f)) ->
  roomy 3 (ends3 i0 j0 k0) (ends3 i1 j1 k1) bc ->
  (b_kind (bc 0) <> 1 \/ b_kind (bc 1) <> 1 \/ ((0 < alpha)%Qc /\ forall i j k, patch3 i0 j0 k0 i1 j1 k1 i j k -> (0 < c i j k)%Qc)) ->
  (forall i j k, patch3 i0 j0 k0 i1 j1 k1 i j k -> r i j k = s i j k) ->
  forall i j k, patch3 i0 j0 k0 i1 j1 k1 i j k -> w i j k = z i j k.
Proof.
  intros F G Hb Hdx Ha Hc Hv0 Hv1 Hv2 Hs Ro Hd Eq i j k Ip. apply Qcle_antisym.
  - apply (bcompare_v1_3d i0 j0 k0 i1 j1 k1 dx beta b0 b1 b2 gcw u f0 f1 f2 alpha agcw a rgcw res bc m n r w s z c v0 v1 v2 F G Hb Hdx Ha Hc Hv0 Hv1 Hv2 Hs Ro Hd); [|exact Ip]. intros. rewrite Eq by assumption. apply Qcle_refl.
  - apply (bcompare_v1_3d i0 j0 k0 i1 j1 k1 dx beta b0 b1 b2 gcw u f0 f1 f2 alpha agcw a rgcw res bc n m s z r w c v0 v1 v2 G F Hb Hdx Ha Hc Hv0 Hv1 Hv2 Hs Ro Hd); [|exact Ip]. intros. rewrite Eq by assumption. apply Qcle_refl.
Qed.

Lemma bplace_v1_3d i0 j0 k0 i1 j1 k1 (dx : Z -> Qc) (beta : Qc) b0 b1 b2 gcw u f0 f1 f2 (alpha : Qc) agcw a rgcw res bc (m : mem QcS) (r w c v0 v1 v2 f : Z -> Z -> Z -> Qc) (z : Z -> Z -> Z -> Qc) :
  filled_v1_3d (S := QcS) i0 j0 k0 i1 j1 k1 dx beta b0 b1 b2 gcw u f0 f1 f2 alpha agcw a rgcw res bc m r w c v0 v1 v2 ->
  (0 < beta)%Qc ->
  (forall d, 0 <= d < 3 -> (0 < dx d)%Qc) ->
  (forall i j k, i0 <= i <= i1 + 1 -> j0 <= j <= j1 -> k0 <= k <= k1 -> (0 < v0 i j k)%Qc) ->
  (forall i j k, i0 <= i <= i1 -> j0 <= j <= j1 + 1 -> k0 <= k <= k1 -> (0 <= v1 i j k)%Qc) ->
  (forall i j k, i0 <= i <= i1 -> j0 <= j <= j1 -> k0 <= k <= k1 + 1 -> (0 <= v2 i j k)%Qc) ->
  (forall f, 0 <= f < 6 -> sound true (bc f)) ->
  roomy 3 (ends3 i0 j0 k0) (ends3 i1 j1 k1) bc ->
  (forall i j k, patch3 i0 j0 k0 i1 j1 k1 i j k -> op3 dx beta (fun i j k => alpha * c i j k)%Qc v0 v1 v2 (ext3 i0 j0 k0 i1 j1 k1 dx v0 v1 v2 bc z) i j k = f i j k) ->
  exists (n : mem QcS), filled_v1_3d (S := QcS) i0 j0 k0 i1 j1 k1 dx beta b0 b1 b2 gcw u f0 f1 f2 alpha agcw a rgcw res bc n f z c v0 v1 v2 /\
    shape n = shape m /\ ints n = ints m /\
    (forall p, (forall i j k, patch3 i0 j0 k0 i1 j1 k1 i j k -> faddr (mkFa u (CELL3d i0 j0 k0 i1 j1 k1 gcw)) [i; j; k] <> p) -> load n p = load m p).
Proof.
  intros F Hb Hdx Hv0 Hv1 Hv2 Hs Ro Hz.
  destruct F as (Hg & Ap & Hw & m1 & w1 & E & A).
  pose proof A as (Hg0 & Hr & A0 & A1 & A2 & A3 & mo & Er & R0 & R1 & R2 & R3 & R4 & R5).
  destruct (fill (S := QcS) (cells3 i0 j0 k0 i1 j1 k1) (fun p : Z * Z * Z => faddr (mkFa u (CELL3d i0 j0 k0 i1 j1 k1 gcw)) [fst (fst p); snd (fst p); snd p]) (fun p : Z * Z * Z => z (fst (fst p)) (snd (fst p)) (snd p)) m (nodup_cells3 i0 j0 k0 i1 j1 k1)) as (n & Sn & In' & Ln & Fn).
  { intros [[i j] k] [[i' j'] k'] H H' Eq. cbn [fst snd] in Eq. apply in_cells3 in H, H'.
    apply faddr_inj in Eq; [congruence| |]; k_range. }
  { intros [[i j] k] H. apply in_cells3 in H. cbn [fst snd]. exists (w i j k). apply (Hw i j k); k_near. }
  assert (Fp : forall p, (forall i j k, patch3 i0 j0 k0 i1 j1 k1 i j k -> faddr (mkFa u (CELL3d i0 j0 k0 i1 j1 k1 gcw)) [i; j; k] <> p) -> load n p = load m p).
  { intros p Hp. apply Fn. intros [[i j] k] H. apply in_cells3 in H. now apply Hp. }
  destruct (completes_set_bc_3d i0 j0 k0 i1 j1 k1 dx b0 b1 b2 gcw u _ m n m1 (eq_sym Sn) (eq_sym In') E) as (n1 & E' & S1 & I1).
  apply bind_Some_inv in Er as (m2 & E1 & E2).
  destruct (completes _ dx dx m1 n1 m2 (L_cdf_3d_flux _ _ _ _ _ _ _ _ _ _ _ _ _ _) S1 I1 E1) as (n2 & F1 & S2 & I2).
  destruct (completes _ (params dx alpha beta) (params dx alpha beta) m2 n2 mo (L_cd_apply_3d_diffusion_v1_apply _ _ _ _ _ _ _ _ _ _ _ _ _ _ _) S2 I2 E2) as (no & F2 & S3 & I3).
  destruct (kept_set_bc_3d (ends3 i0 j0 k0) (ends3 i1 j1 k1) dx b0 b1 b2 gcw u bc m m1 Hg (apart_incl u [b0; b1; b2; a] [b0; b1; b2] Ap ltac:(intros p Hp; cbn in Hp |- *; tauto)) Ro E) as (_ & _ & _ & Om).
  destruct (kept_set_bc_3d (ends3 i0 j0 k0) (ends3 i1 j1 k1) dx b0 b1 b2 gcw u bc n n1 Hg (apart_incl u [b0; b1; b2; a] [b0; b1; b2] Ap ltac:(intros p Hp; cbn in Hp |- *; tauto)) Ro E') as (_ & _ & _ & On).
  assert (Fo : forall p ds is, fst p <> fst u -> load n1 (faddr (mkFa p ds) is) = load m1 (faddr (mkFa p ds) is)).
  { intros p ds is Hp. rewrite On, Om by exact Hp. apply Fp. intros i j k _. apply other_array. exact Hp. }
  assert (An : forall s, (forall i j k, patch3 i0 j0 k0 i1 j1 k1 i j k -> fel (mkFa res (CELL3d i0 j0 k0 i1 j1 k1 rgcw)) [i; j; k] no = Some (s i j k : QcS)) -> filled_v1_3d (S := QcS) i0 j0 k0 i1 j1 k1 dx beta b0 b1 b2 gcw u f0 f1 f2 alpha agcw a rgcw res bc n s z c v0 v1 v2).
  { intros s Hss. split; [exact Hg|]. split; [exact Ap|]. split; [intros i j k Ii Ij Ik; apply (Ln (i, j, k)); apply in_cells3; k_near|].
    exists n1, (fun i j k => value n1 (faddr (mkFa u (CELL3d i0 j0 k0 i1 j1 k1 gcw)) [i; j; k])). split; [exact E'|].
    split; [assumption|]. split; [assumption|]. split; [assumption|]. split; [assumption|]. split; [assumption|]. split; [assumption|]. exists no.
    split; [rewrite F1; exact F2|]. split; [intros; apply Hss; k_near|].
    split; [intros i j k Ii Ij Ik; destruct (shape_loads m1 n1 (faddr (mkFa u (CELL3d i0 j0 k0 i1 j1 k1 gcw)) [i; j; k]) (w1 i j k) S1) as (y & Ey); [apply (R1 i j k); assumption|]; unfold fel, value; rewrite Ey; reflexivity|].
    split; [intros i j k Ii Ij Ik; rewrite <- (R2 i j k Ii Ij Ik); apply Fo, (apart_in u _ _ Ap); cbn; tauto|].
    split; [intros i j k Ii Ij Ik; rewrite <- (R3 i j k Ii Ij Ik); apply Fo, (apart_in u _ _ Ap); cbn; tauto|].
    split; [intros i j k Ii Ij Ik; rewrite <- (R4 i j k Ii Ij Ik); apply Fo, (apart_in u _ _ Ap); cbn; tauto|].
    intros i j k Ii Ij Ik; rewrite <- (R5 i j k Ii Ij Ik); apply Fo, (apart_in u _ _ Ap); cbn; tauto. }
  exists n. split; [|split; [exact Sn|split; [exact In'|exact Fp]]].
  apply An. intros i j k Ip.
  assert (Rd : forall i j k, patch3 i0 j0 k0 i1 j1 k1 i j k -> fel (mkFa res (CELL3d i0 j0 k0 i1 j1 k1 rgcw)) [i; j; k] no = Some (value no (faddr (mkFa res (CELL3d i0 j0 k0 i1 j1 k1 rgcw)) [i; j; k]) : QcS)).
  { clear i j k Ip. intros i j k Ip. destruct (shape_loads mo no (faddr (mkFa res (CELL3d i0 j0 k0 i1 j1 k1 rgcw)) [i; j; k]) (r i j k) S3) as (y & Ey); [apply (R0 i j k); k_near|].
    unfold fel, value. rewrite Ey. reflexivity. }
  rewrite (Rd i j k Ip). f_equal.
  etransitivity; [exact (bvp_v1_3d i0 j0 k0 i1 j1 k1 dx beta b0 b1 b2 gcw u f0 f1 f2 alpha agcw a rgcw res bc n (fun i j k => value no (faddr (mkFa res (CELL3d i0 j0 k0 i1 j1 k1 rgcw)) [i; j; k])) z c v0 v1 v2 (An _ Rd) Hb Hdx Hv0 Hv1 Hv2 Hs Ro i j k Ip)|].
  exact (Hz i j k Ip).
Qed.

Lemma bsolve_v1_3d i0 j0 k0 i1 j1 k1 (dx : Z -> Qc) (beta : Qc) b0 b1 b2 gcw u f0 f1 f2 (alpha : Qc) agcw a rgcw res bc (m : mem QcS) (r w c v0 v1 v2 f : Z -> Z -> Z -> Qc) :
  filled_v1_3d (S := QcS) i0 j0 k0 i1 j1 k1 dx beta b0 b1 b2 gcw u f0 f1 f2 alpha agcw a rgcw res bc m r w c v0 v1 v2 ->
  (0 < beta)%Qc ->
  (forall d, 0 <= d < 3 -> (0 < dx d)%Qc) ->
  (0 <= alpha)%Qc ->
  (forall i j k, patch3 i0 j0 k0 i1 j1 k1 i j k -> (0 <= c i j k)%Qc) ->
  (forall i j k, i0 <= i <= i1 + 1 -> j0 <= j <= j1 -> k0 <= k <= k1 -> (0 < v0 i j k)%Qc) ->
  (forall i j k, i0 <= i <= i1 -> j0 <= j <= j1 + 1 -> k0 <= k <= k1 -> (0 <= v1 i j k)%Qc) ->
  (forall i j k, i0 <= i <= i1 -> j0 <= j <= j1 -> k0 <= k <= k1 + 1 -> (0 <= v2 i j k)%Qc) ->
  (forall f, 0 <= f < 6 -> sound true (bc f)) ->
  roomy 3 (ends3 i0 j0 k0) (ends3 i1 j1 k1) bc ->
  (b_kind (bc 0) <> 1 \/ b_kind (bc 1) <> 1 \/ ((0 < alpha)%Qc /\ forall i j k, patch3 i0 j0 k0 i1 j1 k1 i j k -> (0 < c i j k)%Qc)) ->
  exists (n : mem QcS) (z : Z -> Z -> Z -> Qc), filled_v1_3d (S := QcS) i0 j0 k0 i1 j1 k1 dx beta b0 b1 b2 gcw u f0 f1 f2 alpha agcw a rgcw res bc n f z c v0 v1 v2 /\
    shape n = shape m /\ ints n = ints m /\
    (forall p, (forall i j k, patch3 i0 j0 k0 i1 j1 k1 i j k -> faddr (mkFa u (CELL3d i0 j0 k0 i1 j1 k1 gcw)) [i; j; k] <> p) -> load n p = load m p).
Proof.
  intros F Hb Hdx Ha Hc Hv0 Hv1 Hv2 Hs Ro Hd.
  assert (Hh : b_kind (bc 0) <> 1 \/ b_kind (bc 1) <> 1 \/ (forall i j k, patch3 i0 j0 k0 i1 j1 k1 i j k -> (0 < (fun i j k => alpha * c i j k)%Qc i j k)%Qc)) by (destruct Hd as [H|[H|[Pa Pc]]]; [now left|right; now left|right; right; intros i j k Ip; apply Qc_pos_mul; [exact Pa|exact (Pc i j k Ip)]]).
  destruct (bvp3_exists i0 j0 k0 i1 j1 k1 dx beta (fun i j k => alpha * c i j k)%Qc v0 v1 v2 bc true Hb Hdx (fun i j k Ip => Qc_mul _ _ Ha (Hc i j k Ip)) Hv0 Hv1 Hv2 Hs Ro Hh f) as (z & Hz).
  destruct (bplace_v1_3d i0 j0 k0 i1 j1 k1 dx beta b0 b1 b2 gcw u f0 f1 f2 alpha agcw a rgcw res bc m r w c v0 v1 v2 f z F Hb Hdx Hv0 Hv1 Hv2 Hs Ro Hz) as (n & H). exists n, z. exact H.
Qed.

Lemma bvp_v2_3d i0 j0 k0 i1 j1 k1 (dx : Z -> Qc) (beta : Qc) b0 b1 b2 gcw u f0 f1 f2 (alpha : Qc) rgcw res bc (m : mem QcS) (r w v0 v1 v2 : Z -> Z -> Z -> Qc) :
  filled_v2_3d (S := QcS) i0 j0 k0 i1 j1 k1 dx beta b0 b1 b2 gcw u f0 f1 f2 alpha rgcw res bc m r w v0 v1 v2 ->
  (0 < beta)%Qc ->
  (forall d, 0 <= d < 3 -> (0 < dx d)%Qc) ->
  (forall i j k, i0 <= i <= i1 + 1 -> j0 <= j <= j1 -> k0 <= k <= k1 -> (0 < v0 i j k)%Qc) ->
  (forall i j k, i0 <= i <= i1 -> j0 <= j <= j1 + 1 -> k0 <= k <= k1 -> (0 <= v1 i j k)%Qc) ->
  (forall i j k, i0 <= i <= i1 -> j0 <= j <= j1 -> k0 <= k <= k1 + 1 -> (0 <= v2 i j k)%Qc) ->
  (forall f, 0 <= f < 6 -> sound true (bc f)) ->
  roomy 3 (ends3 i0 j0 k0) (ends3 i1 j1 k1) bc ->
  forall i j k, patch3 i0 j0 k0 i1 j1 k1 i j k -> r i j k = op3 dx beta (fun _ _ _ => alpha) v0 v1 v2 (ext3 i0 j0 k0 i1 j1 k1 dx v0 v1 v2 bc w) i j k.
Proof.
  intros (Hg & Ap & Hw & m1 & w1 & E & A) Hb Hdx Hv0 Hv1 Hv2 Hs Ro i j k Ip.
  rewrite (val_T_v2_3d _ _ _ _ _ _ _ _ _ _ _ _ _ _ _ _ _ _ _ _ _ _ _ _ _ A i j k Ip).
  transitivity (op3 dx beta (fun _ _ _ => alpha) v0 v1 v2 w1 i j k); [unfold T_v2_3d, op3; ring|].
  apply (op3_near i0 j0 k0 i1 j1 k1 dx beta (fun _ _ _ => alpha) v0 v1 v2 bc w1 _ i j k Ip).
  destruct A as (Hg0 & Hr & A0 & A1 & A2 & A3 & mo & Er & R0 & R1 & R2 & R3 & R4).
  exact (near_set_bc_3d i0 j0 k0 i1 j1 k1 dx b0 b1 b2 gcw u bc m m1 w w1 v0 v1 v2 Hg (apart_incl u [b0; b1; b2] [b0; b1; b2] Ap ltac:(intros p Hp; cbn in Hp |- *; tauto)) Ro Hs Hdx Hv0 Hv1 Hv2 Hw E R1 R2 R3 R4).
Qed.

Lemma bcompare_v2_3d i0 j0 k0 i1 j1 k1 (dx : Z -> Qc) (beta : Qc) b0 b1 b2 gcw u f0 f1 f2 (alpha : Qc) rgcw res bc (m n : mem QcS) (r w s z v0 v1 v2 : Z -> Z -> Z -> Qc) :
  filled_v2_3d (S := QcS) i0 j0 k0 i1 j1 k1 dx beta b0 b1 b2 gcw u f0 f1 f2 alpha rgcw res bc m r w v0 v1 v2 ->
  filled_v2_3d (S := QcS) i0 j0 k0 i1 j1 k1 dx beta b0 b1 b2 gcw u f0 f1 f2 alpha rgcw res bc n s z v0 v1 v2 ->
  (0 < beta)%Qc ->
  (forall d, 0 <= d < 3 -> (0 < dx d)%Qc) ->
  (0 <= alpha)%Qc ->
  (forall i j k, i0 <= i <= i1 + 1 -> j0 <= j <= j1 -> k0 <= k <= k1 -> (0 < v0 i j k)%Qc) ->
  (forall i j k, i0 <= i <= i1 -> j0 <= j <= j1 + 1 -> k0 <= k <= k1 -> (0 <= v1 i j k)%Qc) ->
  (forall i j k, i0 <= i <= i1 -> j0 <= j <= j1 -> k0 <= k <= k1 + 1 -> (0 <= v2 i j k)%Qc) ->
  (forall f, 0 <= f < 6 -> sound true (bc f)) ->
  roomy 3 (ends3 i0 j0 k0) (ends3 i1 j1 k1) bc ->
  (b_kind (bc 0) <> 1 \/ b_kind (bc 1) <> 1 \/ (0 < alpha)%Qc) ->
  (forall i j k, patch3 i0 j0 k0 i1 j1 k1 i j k -> (r i j k <= s i j k)%Qc) ->
  forall i j k, patch3 i0 j0 k0 i1 j1 k1 i j k -> (w i j k <= z i j k)%Qc.
Proof.
  intros F G Hb Hdx Ha Hv0 Hv1 Hv2 Hs Ro Hd Le.
  assert (Hh : b_kind (bc 0) <> 1 \/ b_kind (bc 1) <> 1 \/ (forall i j k, patch3 i0 j0 k0 i1 j1 k1 i j k -> (0 < (fun _ _ _ => alpha) i j k)%Qc)) by (destruct Hd as [H|[H|H]]; [now left|right; now left|right; right; intros; exact H]).
  apply (bvp3_compare i0 j0 k0 i1 j1 k1 dx beta (fun _ _ _ => alpha) v0 v1 v2 bc true Hb Hdx (fun _ _ _ _ => Ha) Hv0 Hv1 Hv2 Hs Ro Hh w z r s).
  - exact (bvp_v2_3d i0 j0 k0 i1 j1 k1 dx beta b0 b1 b2 gcw u f0 f1 f2 alpha rgcw res bc m r w v0 v1 v2 F Hb Hdx Hv0 Hv1 Hv2 Hs Ro).
  - exact (bvp_v2_3d i0 j0 k0 i1 j1 k1 dx beta b0 b1 b2 gcw u f0 f1 f2 alpha rgcw res bc n s z v0 v1 v2 G Hb Hdx Hv0 Hv1 Hv2 Hs Ro).
  - exact Le.
Qed.

Lemma bunique_v2_3d i0 j0 k0 i1 j1 k1 (dx : Z -> Qc) (beta : Qc) b0 b1 b2 gcw u f0 f1 f2 (alpha : Qc) rgcw res bc (m n : mem QcS) (r w s z v0 v1 v2 : Z -> Z -> Z -> Qc) :
  filled_v2_3d (S := QcS) i0 j0 k0 i1 j1 k1 dx beta b0 b1 b2 gcw u f0 f1 f2 alpha rgcw res bc m r w v0 v1 v2 ->
  filled_v2_3d (S := QcS) i0 j0 k0 i1 j1 k1 dx beta b0 b1 b2 gcw u f0 f1 f2 alpha rgcw res bc n s z v0 v1 v2 ->
  (0 < beta)%Qc ->
  (forall d, 0 <= d < 3 -> (0 < dx d)%Qc) ->
  (0 <= alpha)%Qc ->
  (forall i j k, i0 <= i <= i1 + 1 -> j0 <= j <= j1 -> k0 <= k <= k1 -> (0 < v0 i j k)%Qc) ->
  (forall i j k, i0 <= i <= i1 -> j0 <= j <= j1 + 1 -> k0 <= k <= k1 -> (0 <= v1 i j k)%Qc) ->
  (forall i j k, i0 <= i <= i1 -> j0 <= j <= j1 -> k0 <= k <= k1 + 1 -> (0 <= v2 i j k)%Qc) ->
  (forall f, 0 <= f < 6 -> sound true (bc f)) ->
  roomy 3 (ends3 i0 j0 k0) (ends3 i1 j1 k1) bc ->
  (b_kind (bc 0) <> 1 \/ b_kind (bc 1) <> 1 \/ (0 < alpha)%Qc) ->
  (forall i j k, patch3 i0 j0 k0 i1 j1 k1 i j k -> r i j k = s i j k) ->
  forall i j k, patch3 i0 j0 k0 i1 j1 k1 i j k -> w i j k = z i j k.
Proof.
  intros F G Hb Hdx Ha Hv0 Hv1 Hv2 Hs Ro Hd Eq i j k Ip. apply Qcle_antisym.
  - apply (bcompare_v2_3d i0 j0 k0 i1 j1 k1 dx beta b0 b1 b2 gcw u f0 f1 f2 alpha rgcw res bc m n r w s z v0 v1 v2 F G Hb Hdx Ha Hv0 Hv1 Hv2 Hs Ro Hd); [|exact Ip]. intros. rewrite Eq by assumption. apply Qcle_refl.
  - apply (bcompare_v2_3d i0 j0 k0 i1 j1 k1 dx beta b0 b1 b2 gcw u f0 f1 f2 alpha rgcw res bc n m s z r w v0 v1 v2 G F Hb Hdx Ha Hv0 Hv1 Hv2 Hs Ro Hd); [|exact Ip]. intros. rewrite Eq by assumption. apply Qcle_refl.
Qed.

Lemma bplace_v2_3d i0 j0 k0 i1 j1 k1 (dx : Z -> Qc) (beta : Qc) b0 b1 b2 gcw u f0 f1 f2 (alpha : Qc) rgcw res bc (m : mem QcS) (r w v0 v1 v2 f : Z -> Z -> Z -> Qc) (z : Z -> Z -> Z -> Qc) :
  filled_v2_3d (S := QcS) i0 j0 k0 i1 j1 k1 dx beta b0 b1 b2 gcw u f0 f1 f2 alpha rgcw res bc m r w v0 v1 v2 ->
  (0 < beta)%Qc ->
  (forall d, 0 <= d < 3 -> (0 < dx d)%Qc) ->
  (forall i j k, i0 <= i <= i1 + 1 -> j0 <= j <= j1 -> k0 <= k <= k1 -> (0 < v0 i j k)%Qc) ->
  (forall i j k, i0 <= i <= i1 -> j0 <= j <= j1 + 1 -> k0 <= k <= k1 -> (0 <= v1 i j k)%Qc) ->
  (forall i j k, i0 <= i <= i1 -> j0 <= j <= j1 -> k0 <= k <= k1 + 1 -> (0 <= v2 i j k)%Qc) ->
  (forall f, 0 <= f < 6 -> sound true (bc f)) ->
  roomy 3 (ends3 i0 j0 k0) (ends3 i1 j1 k1) bc ->
  (forall i j k, patch3 i0 j0 k0 i1 j1 k1 i j k -> op3 dx beta (fun _ _ _ => alpha) v0 v1 v2 (ext3 i0 j0 k0 i1 j1 k1 dx v0 v1 v2 bc z) i j k = f i j k) ->
  exists (n : mem QcS), filled_v2_3d (S := QcS) i0 j0 k0 i1 j1 k1 dx beta b0 b1 b2 gcw u f0 f1 f2 alpha rgcw res bc n f z v0 v1 v2 /\
    shape n = shape m /\ ints n = ints m /\
    (forall p, (forall i j k, patch3 i0 j0 k0 i1 j1 k1 i j k -> faddr (mkFa u (CELL3d i0 j0 k0 i1 j1 k1 gcw)) [i; j; k] <> p) -> load n p = load m p).
Proof.
  intros F Hb Hdx Hv0 Hv1 Hv2 Hs Ro Hz.
  destruct F as (Hg & Ap & Hw & m1 & w1 & E & A).
  pose proof A as (Hg0 & Hr & A0 & A1 & A2 & A3 & mo & Er & R0 & R1 & R2 & R3 & R4).
  destruct (fill (S := QcS) (cells3 i0 j0 k0 i1 j1 k1) (fun p : Z * Z * Z => faddr (mkFa u (CELL3d i0 j0 k0 i1 j1 k1 gcw)) [fst (fst p); snd (fst p); snd p]) (fun p : Z * Z * Z => z (fst (fst p)) (snd (fst p)) (snd p)) m (nodup_cells3 i0 j0 k0 i1 j1 k1)) as (n & Sn & In' & Ln & Fn).
  { intros [[i j] k] [[i' j'] k'] H H' Eq. cbn [fst snd] in Eq. apply in_cells3 in H, H'.
    apply faddr_inj in Eq; [congruence| |]; k_range. }
  { intros [[i j] k] H. apply in_cells3 in H. cbn [fst snd]. exists (w i j k). apply (Hw i j k); k_near. }
  assert (Fp : forall p, (forall i j k, patch3 i0 j0 k0 i1 j1 k1 i j k -> faddr (mkFa u (CELL3d i0 j0 k0 i1 j1 k1 gcw)) [i; j; k] <> p) -> load n p = load m p).
  { intros p Hp. apply Fn. intros [[i j] k] H. apply in_cells3 in H. now apply Hp. }
  destruct (completes_set_bc_3d i0 j0 k0 i1 j1 k1 dx b0 b1 b2 gcw u _ m n m1 (eq_sym Sn) (eq_sym In') E) as (n1 & E' & S1 & I1).
  apply bind_Some_inv in Er as (m2 & E1 & E2).
  destruct (completes _ dx dx m1 n1 m2 (L_cdf_3d_flux _ _ _ _ _ _ _ _ _ _ _ _ _ _) S1 I1 E1) as (n2 & F1 & S2 & I2).
  destruct (completes _ (params dx alpha beta) (params dx alpha beta) m2 n2 mo (L_cd_apply_3d_diffusion_v2_apply _ _ _ _ _ _ _ _ _ _ _ _ _) S2 I2 E2) as (no & F2 & S3 & I3).
  destruct (kept_set_bc_3d (ends3 i0 j0 k0) (ends3 i1 j1 k1) dx b0 b1 b2 gcw u bc m m1 Hg (apart_incl u [b0; b1; b2] [b0; b1; b2] Ap ltac:(intros p Hp; cbn in Hp |- *; tauto)) Ro E) as (_ & _ & _ & Om).
  destruct (kept_set_bc_3d (ends3 i0 j0 k0) (ends3 i1 j1 k1) dx b0 b1 b2 gcw u bc n n1 Hg (apart_incl u [b0; b1; b2] [b0; b1; b2] Ap ltac:(intros p Hp; cbn in Hp |- *; tauto)) Ro E') as (_ & _ & _ & On).
  assert (Fo : forall p ds is, fst p <> fst u -> load n1 (faddr (mkFa p ds) is) = load m1 (faddr (mkFa p ds) is)).
  { intros p ds is Hp. rewrite On, Om by exact Hp. apply Fp. intros i j k _. apply other_array. exact Hp. }
  assert (An : forall s, (forall i j k, patch3 i0 j0 k0 i1 j1 k1 i j k -> fel (mkFa res (CELL3d i0 j0 k0 i1 j1 k1 rgcw)) [i; j; k] no = Some (s i j k : QcS)) -> filled_v2_3d (S := QcS) i0 j0 k0 i1 j1 k1 dx beta b0 b1 b2 gcw u f0 f1 f2 alpha rgcw res bc n s z v0 v1 v2).
  { intros s Hss. split; [exact Hg|]. split; [exact Ap|]. split; [intros i j k Ii Ij Ik; apply (Ln (i, j, k)); apply in_cells3; k_near|].
    exists n1, (fun i j k => value n1 (faddr (mkFa u (CELL3d i0 j0 k0 i1 j1 k1 gcw)) [i; j; k])). split; [exact E'|].
    split; [assumption|]. split; [assumption|]. split; [assumption|]. split; [assumption|]. split; [assumption|]. split; [assumption|]. exists no.
    split; [rewrite F1; exact F2|]. split; [intros; apply Hss; k_near|].
    split; [intros i j k Ii Ij Ik; destruct (shape_loads m1 n1 (faddr (mkFa u (CELL3d i0 j0 k0 i1 j1 k1 gcw)) [i; j; k]) (w1 i j k) S1) as (y & Ey); [apply (R1 i j k); assumption|]; unfold fel, value; rewrite Ey; reflexivity|].
    split; [intros i j k Ii Ij Ik; rewrite <- (R2 i j k Ii Ij Ik); apply Fo, (apart_in u _ _ Ap); cbn; tauto|].
    split; [intros i j k Ii Ij Ik; rewrite <- (R3 i j k Ii Ij Ik); apply Fo, (apart_in u _ _ Ap); cbn; tauto|].
    intros i j k Ii Ij Ik; rewrite <- (R4 i j k Ii Ij Ik); apply Fo, (apart_in u _ _ Ap); cbn; tauto. }
  exists n. split; [|split; [exact Sn|split; [exact In'|exact Fp]]].
  apply An. intros i j k Ip.
  assert (Rd : forall i j k, patch3 i0 j0 k0 i1 j1 k1 i j k -> fel (mkFa res (CELL3d i0 j0 k0 i1 j1 k1 rgcw)) [i; j; k] no = Some (value no (faddr (mkFa res (CELL3d i0 j0 k0 i1 j1 k1 rgcw)) [i; j; k]) : QcS)).
  { clear i j k Ip. intros i j k Ip. destruct (shape_loads mo no (faddr (mkFa res (CELL3d i0 j0 k0 i1 j1 k1 rgcw)) [i; j; k]) (r i j k) S3) as (y & Ey); [apply (R0 i j k); k_near|].
    unfold fel, value. rewrite Ey. reflexivity. }
  rewrite (Rd i j k Ip). f_equal.
  etransitivity; [exact (bvp_v2_3d i0 j0 k0 i1 j1 k1 dx beta b0 b1 b2 gcw u f0 f1 f2 alpha rgcw res bc n (fun i j k => value no (faddr (mkFa res (CELL3d i0 j0 k0 i1 j1 k1 rgcw)) [i; j; k])) z v0 v1 v2 (An _ Rd) Hb Hdx Hv0 Hv1 Hv2 Hs Ro i j k Ip)|].
  exact (Hz i j k Ip).
Qed.

Lemma bsolve_v2_3d i0 j0 k0 i1 j1 k1 (dx : Z -> Qc) (beta : Qc) b0 b1 b2 gcw u f0 f1 f2 (alpha : Qc) rgcw res bc (m : mem QcS) (r w v0 v1 v2 f : Z -> Z -> Z -> Qc) :
  filled_v2_3d (S := QcS) i0 j0 k0 i1 j1 k1 dx beta b0 b1 b2 gcw u f0 f1 f2 alpha rgcw res bc m r w v0 v1 v2 ->
  (0 < beta)%Qc ->
  (forall d, 0 <= d < 3 -> (0 < dx d)%Qc) ->
  (0 <= alpha)%Qc ->
  (forall i j k, i0 <= i <= i1 + 1 -> j0 <= j <= j1 -> k0 <= k <= k1 -> (0 < v0 i j k)%Qc) ->
  (forall i j k, i0 <= i <= i1 -> j0 <= j <= j1 + 1 -> k0 <= k <= k1 -> (0 <= v1 i j k)%Qc) ->
  (forall i j k, i0 <= i <= i1 -> j0 <= j <= j1 -> k0 <= k <= k1 + 1 -> (0 <= v2 i j k)%Qc) ->
  (forall f, 0 <= f < 6 -> sound true (bc f)) ->
  roomy 3 (ends3 i0 j0 k0) (ends3 i1 j1 k1) bc ->
  (b_kind (bc 0) <> 1 \/ b_kind (bc 1) <> 1 \/ (0 < alpha)%Qc) ->
  exists (n : mem QcS) (z : Z -> Z -> Z -> Qc), filled_v2_3d (S := QcS) i0 j0 k0 i1 j1 k1 dx beta b0 b1 b2 gcw u f0 f1 f2 alpha rgcw res bc n f z v0 v1 v2 /\
    shape n = shape m /\ ints n = ints m /\
    (forall p, (forall i j k, patch3 i0 j0 k0 i1 j1 k1 i j k -> faddr (mkFa u (CELL3d i0 j0 k0 i1 j1 k1 gcw)) [i; j; k] <> p) -> load n p = load m p).
Proof.
  intros F Hb Hdx Ha Hv0 Hv1 Hv2 Hs Ro Hd.
  assert (Hh : b_kind (bc 0) <> 1 \/ b_kind (bc 1) <> 1 \/ (forall i j k, patch3 i0 j0 k0 i1 j1 k1 i j k -> (0 < (fun _ _ _ => alpha) i j k)%Qc)) by (destruct Hd as [H|[H|H]]; [now left|right; now left|right; right; intros; exact H]).
  destruct (bvp3_exists i0 j0 k0 i1 j1 k1 dx beta (fun _ _ _ => alpha) v0 v1 v2 bc true Hb Hdx (fun _ _ _ _ => Ha) Hv0 Hv1 Hv2 Hs Ro Hh f) as (z & Hz).
  destruct (bplace_v2_3d i0 j0 k0 i1 j1 k1 dx beta b0 b1 b2 gcw u f0 f1 f2 alpha rgcw res bc m r w v0 v1 v2 f z F Hb Hdx Hv0 Hv1 Hv2 Hs Ro Hz) as (n & H). exists n, z. exact H.
Qed.

Lemma bvp_poisson_3d i0 j0 k0 i1 j1 k1 (dx : Z -> Qc) (beta : Qc) gcw u f0 f1 f2 rgcw res bc (m : mem QcS) (r w : Z -> Z -> Z -> Qc) :
  filled_poisson_3d (S := QcS) i0 j0 k0 i1 j1 k1 dx beta gcw u f0 f1 f2 rgcw res bc m r w ->
  (0 < beta)%Qc ->
  (forall d, 0 <= d < 3 -> (0 < dx d)%Qc) ->
  (forall f, 0 <= f < 6 -> sound false (bc f)) ->
  roomy 3 (ends3 i0 j0 k0) (ends3 i1 j1 k1) bc ->
  forall i j k, patch3 i0 j0 k0 i1 j1 k1 i j k -> r i j k = op3 dx beta (fun _ _ _ => 0%Qc) (fun _ _ _ => 1%Qc) (fun _ _ _ => 1%Qc) (fun _ _ _ => 1%Qc) (ext3 i0 j0 k0 i1 j1 k1 dx (fun _ _ _ => 1%Qc) (fun _ _ _ => 1%Qc) (fun _ _ _ => 1%Qc) bc w) i j k.
Proof.
  intros (Hg & Hw & m1 & w1 & E & A) Hb Hdx Hs Ro i j k Ip.
  rewrite (val_T_poisson_3d _ _ _ _ _ _ _ _ _ _ _ _ _ _ _ _ _ _  A i j k Ip).
  transitivity (op3 dx beta (fun _ _ _ => 0%Qc) (fun _ _ _ => 1%Qc) (fun _ _ _ => 1%Qc) (fun _ _ _ => 1%Qc) w1 i j k); [unfold T_poisson_3d, op3; ring|].
  apply (op3_near i0 j0 k0 i1 j1 k1 dx beta (fun _ _ _ => 0%Qc) (fun _ _ _ => 1%Qc) (fun _ _ _ => 1%Qc) (fun _ _ _ => 1%Qc) bc w1 _ i j k Ip).
  destruct A as (Hg0 & Hr & A0 & A1 & A2 & A3 & mo & Er & R0 & R1).
  exact (near_set_poisson_bc_3d i0 j0 k0 i1 j1 k1 dx  gcw u bc m m1 w w1  Hg Ro Hs Hdx  Hw E R1 ).
Qed.

Lemma bcompare_poisson_3d i0 j0 k0 i1 j1 k1 (dx : Z -> Qc) (beta : Qc) gcw u f0 f1 f2 rgcw res bc (m n : mem QcS) (r w s z : Z -> Z -> Z -> Qc) :
  filled_poisson_3d (S := QcS) i0 j0 k0 i1 j1 k1 dx beta gcw u f0 f1 f2 rgcw res bc m r w ->
  filled_poisson_3d (S := QcS) i0 j0 k0 i1 j1 k1 dx beta gcw u f0 f1 f2 rgcw res bc n s z ->
  (0 < beta)%Qc ->
  (forall d, 0 <= d < 3 -> (0 < dx d)%Qc) ->
  (forall f, 0 <= f < 6 -> sound false (bc f)) ->
  roomy 3 (ends3 i0 j0 k0) (ends3 i1 j1 k1) bc ->
  (b_kind (bc 0) <> 1 \/ b_kind (bc 1) <> 1) ->
  (forall i j k, patch3 i0 j0 k0 i1 j1 k1 i j k -> (r i j k <= s i j k)%Qc) ->
  forall i j k, patch3 i0 j0 k0 i1 j1 k1 i j k -> (w i j k <= z i j k)%Qc.
Proof.
  intros F G Hb Hdx Hs Ro Hd Le.
  assert (Hh : b_kind (bc 0) <> 1 \/ b_kind (bc 1) <> 1 \/ (forall i j k, patch3 i0 j0 k0 i1 j1 k1 i j k -> (0 < (fun _ _ _ => 0%Qc) i j k)%Qc)) by (destruct Hd as [H|H]; [now left|right; now left]).
  apply (bvp3_compare i0 j0 k0 i1 j1 k1 dx beta (fun _ _ _ => 0%Qc) (fun _ _ _ => 1%Qc) (fun _ _ _ => 1%Qc) (fun _ _ _ => 1%Qc) bc false Hb Hdx (fun _ _ _ _ => Qcle_refl 0%Qc) (fun _ _ _ _ _ _ => eq_refl : (0 < 1)%Qc) (fun _ _ _ _ _ _ => Qclt_le_weak _ _ (eq_refl : (0 < 1)%Qc)) (fun _ _ _ _ _ _ => Qclt_le_weak _ _ (eq_refl : (0 < 1)%Qc)) Hs Ro Hh w z r s).
  - exact (bvp_poisson_3d i0 j0 k0 i1 j1 k1 dx beta gcw u f0 f1 f2 rgcw res bc m r w  F Hb Hdx Hs Ro).
  - exact (bvp_poisson_3d i0 j0 k0 i1 j1 k1 dx beta gcw u f0 f1 f2 rgcw res bc n s z  G Hb Hdx Hs Ro).
  - exact Le.
Qed.

Lemma bunique_poisson_3d i0 j0 k0 i1 j1 k1 (dx : Z -> Qc) (beta : Qc) gcw u f0 f1 f2 rgcw res bc (m n : mem QcS) (r w s z : Z -> Z -> Z -> Qc) :
  filled_poisson_3d (S := QcS) i0 j0 k0 i1 j1 k1 dx beta gcw u f0 f1 f2 rgcw res bc m r w ->
  filled_poisson_3d (S := QcS) i0 j0 k0 i1 j1 k1 dx beta gcw u f0 f1 f2 rgcw res bc n s z ->
  (0 < beta)%Qc ->
  (forall d, 0 <= d < 3 -> (0 < dx d)%Qc) ->
  (forall f, 0 <= f < 6 -> sound false (bc f)) ->
  roomy 3 (ends3 i0 j0 k0) (ends3 i1 j1 k1) bc ->
  (b_kind (bc 0) <> 1 \/ b_kind (bc 1) <> 1) ->
  (forall i j k, patch3 i0 j0 k0 i1 j1 k1 i j k -> r i j k = s i j k) ->
  forall i j k, patch3 i0 j0 k0 i1 j1 k1 i j k -> w i j k = z i j k.
Proof.
  intros F G Hb Hdx Hs Ro Hd Eq i j k Ip. apply Qcle_antisym.
  - apply (bcompare_poisson_3d i0 j0 k0 i1 j1 k1 dx beta gcw u f0 f1 f2 rgcw res bc m n r w s z  F G Hb Hdx Hs Ro Hd); [|exact Ip]. intros. rewrite Eq by assumption. apply Qcle_refl.
  - apply (bcompare_poisson_3d i0 j0 k0 i1 j1 k1 dx beta gcw u f0 f1 f2 rgcw res bc n m s z r w  G F Hb Hdx Hs Ro Hd); [|exact Ip]. intros. rewrite Eq by assumption. apply Qcle_refl.
Qed.

Lemma bplace_poisson_3d i0 j0 k0 i1 j1 k1 (dx : Z -> Qc) (beta : Qc) gcw u f0 f1 f2 rgcw res bc (m : mem QcS) (r w f : Z -> Z -> Z -> Qc) (z : Z -> Z -> Z -> Qc) :
  filled_poisson_3d (S := QcS) i0 j0 k0 i1 j1 k1 dx beta gcw u f0 f1 f2 rgcw res bc m r w ->
  (0 < beta)%Qc ->
  (forall d, 0 <= d < 3 -> (0 < dx d)%Qc) ->
  (forall f, 0 <= f < 6 -> sound false (bc f)) ->
  roomy 3 (ends3 i0 j0 k0) (ends3 i1 j1 k1) bc ->
  (forall i j k, patch3 i0 j0 k0 i1 j1 k1 i j k -> op3 dx beta (fun _ _ _ => 0%Qc) (fun _ _ _ => 1%Qc) (fun _ _ _ => 1%Qc) (fun _ _ _ => 1%Qc) (ext3 i0 j0 k0 i1 j1 k1 dx (fun _ _ _ => 1%Qc) (fun _ _ _ => 1%Qc) (fun _ _ _ => 1%Qc) bc z) i j k = f i j k) ->
  exists (n : mem QcS), filled_poisson_3d (S := QcS) i0 j0 k0 i1 j1 k1 dx beta gcw u f0 f1 f2 rgcw res bc n f z /\
    shape n = shape m /\ ints n = ints m /\
    (forall p, (forall i j k, patch3 i0 j0 k0 i1 j1 k1 i j k -> faddr (mkFa u (CELL3d i0 j0 k0 i1 j1 k1 gcw)) [i; j; k] <> p) -> load n p = load m p).
Proof.
  intros F Hb Hdx Hs Ro Hz.
  destruct F as (Hg & Hw & m1 & w1 & E & A).
  pose proof A as (Hg0 & Hr & A0 & A1 & A2 & A3 & mo & Er & R0 & R1).
  destruct (fill (S := QcS) (cells3 i0 j0 k0 i1 j1 k1) (fun p : Z * Z * Z => faddr (mkFa u (CELL3d i0 j0 k0 i1 j1 k1 gcw)) [fst (fst p); snd (fst p); snd p]) (fun p : Z * Z * Z => z (fst (fst p)) (snd (fst p)) (snd p)) m (nodup_cells3 i0 j0 k0 i1 j1 k1)) as (n & Sn & In' & Ln & Fn).
  { intros [[i j] k] [[i' j'] k'] H H' Eq. cbn [fst snd] in Eq. apply in_cells3 in H, H'.
    apply faddr_inj in Eq; [congruence| |]; k_range. }
  { intros [[i j] k] H. apply in_cells3 in H. cbn [fst snd]. exists (w i j k). apply (Hw i j k); k_near. }
  assert (Fp : forall p, (forall i j k, patch3 i0 j0 k0 i1 j1 k1 i j k -> faddr (mkFa u (CELL3d i0 j0 k0 i1 j1 k1 gcw)) [i; j; k] <> p) -> load n p = load m p).
  { intros p Hp. apply Fn. intros [[i j] k] H. apply in_cells3 in H. now apply Hp. }
  destruct (completes_set_poisson_bc_3d i0 j0 k0 i1 j1 k1 dx  gcw u _ m n m1 (eq_sym Sn) (eq_sym In') E) as (n1 & E' & S1 & I1).
  apply bind_Some_inv in Er as (m2 & E1 & E2).
  destruct (completes _ dx dx m1 n1 m2 (L_cdf_3d_poisson_flux _ _ _ _ _ _ _ _ _ _ _) S1 I1 E1) as (n2 & F1 & S2 & I2).
  destruct (completes _ (params dx 0%Qc beta) (params dx 0%Qc beta) m2 n2 mo (L_cd_apply_3d_poisson_v2_apply _ _ _ _ _ _ _ _ _ _ _) S2 I2 E2) as (no & F2 & S3 & I3).
  destruct (kept_set_poisson_bc_3d (ends3 i0 j0 k0) (ends3 i1 j1 k1) dx  gcw u bc m m1 Hg Ro E) as (_ & _ & _ & Om).
  destruct (kept_set_poisson_bc_3d (ends3 i0 j0 k0) (ends3 i1 j1 k1) dx  gcw u bc n n1 Hg Ro E') as (_ & _ & _ & On).
  assert (Fo : forall p ds is, fst p <> fst u -> load n1 (faddr (mkFa p ds) is) = load m1 (faddr (mkFa p ds) is)).
  { intros p ds is Hp. rewrite On, Om by exact Hp. apply Fp. intros i j k _. apply other_array. exact Hp. }
  assert (An : forall s, (forall i j k, patch3 i0 j0 k0 i1 j1 k1 i j k -> fel (mkFa res (CELL3d i0 j0 k0 i1 j1 k1 rgcw)) [i; j; k] no = Some (s i j k : QcS)) -> filled_poisson_3d (S := QcS) i0 j0 k0 i1 j1 k1 dx beta gcw u f0 f1 f2 rgcw res bc n s z).
  { intros s Hss. split; [exact Hg|]. split; [intros i j k Ii Ij Ik; apply (Ln (i, j, k)); apply in_cells3; k_near|].
    exists n1, (fun i j k => value n1 (faddr (mkFa u (CELL3d i0 j0 k0 i1 j1 k1 gcw)) [i; j; k])). split; [exact E'|].
    split; [assumption|]. split; [assumption|]. split; [assumption|]. split; [assumption|]. split; [assumption|]. split; [assumption|]. exists no.
    split; [rewrite F1; exact F2|]. split; [intros; apply Hss; k_near|].
    intros i j k Ii Ij Ik; destruct (shape_loads m1 n1 (faddr (mkFa u (CELL3d i0 j0 k0 i1 j1 k1 gcw)) [i; j; k]) (w1 i j k) S1) as (y & Ey); [apply (R1 i j k); assumption|]; unfold fel, value; rewrite Ey; reflexivity.
 }
  exists n. split; [|split; [exact Sn|split; [exact In'|exact Fp]]].
  apply An. intros i j k Ip.
  assert (Rd : forall i j k, patch3 i0 j0 k0 i1 j1 k1 i j k -> fel (mkFa res (CELL3d i0 j0 k0 i1 j1 k1 rgcw)) [i; j; k] no = Some (value no (faddr (mkFa res (CELL3d i0 j0 k0 i1 j1 k1 rgcw)) [i; j; k]) : QcS)).
  { clear i j k Ip. intros i j k Ip. destruct (shape_loads mo no (faddr (mkFa res (CELL3d i0 j0 k0 i1 j1 k1 rgcw)) [i; j; k]) (r i j k) S3) as (y & Ey); [apply (R0 i j k); k_near|].
    unfold fel, value. rewrite Ey. reflexivity. }
  rewrite (Rd i j k Ip). f_equal.
  etransitivity; [exact (bvp_poisson_3d i0 j0 k0 i1 j1 k1 dx beta gcw u f0 f1 f2 rgcw res bc n (fun i j k => value no (faddr (mkFa res (CELL3d i0 j0 k0 i1 j1 k1 rgcw)) [i; j; k])) z  (An _ Rd) Hb Hdx Hs Ro i j k Ip)|].
  exact (Hz i j k Ip).
Qed.

Lemma bsolve_poisson_3d i0 j0 k0 i1 j1 k1 (dx : Z -> Qc) (beta : Qc) gcw u f0 f1 f2 rgcw res bc (m : mem QcS) (r w f : Z -> Z -> Z -> Qc) :
  filled_poisson_3d (S := QcS) i0 j0 k0 i1 j1 k1 dx beta gcw u f0 f1 f2 rgcw res bc m r w ->
  (0 < beta)%Qc ->
  (forall d, 0 <= d < 3 -> (0 < dx d)%Qc) ->
  (forall f, 0 <= f < 6 -> sound false (bc f)) ->
  roomy 3 (ends3 i0 j0 k0) (ends3 i1 j1 k1) bc ->
  (b_kind (bc 0) <> 1 \/ b_kind (bc 1) <> 1) ->
  exists (n : mem QcS) (z : Z -> Z -> Z -> Qc), filled_poisson_3d (S := QcS) i0 j0 k0 i1 j1 k1 dx beta gcw u f0 f1 f2 rgcw res bc n f z /\
    shape n = shape m /\ ints n = ints m /\
    (forall p, (forall i j k, patch3 i0 j0 k0 i1 j1 k1 i j k -> faddr (mkFa u (CELL3d i0 j0 k0 i1 j1 k1 gcw)) [i; j; k] <> p) -> load n p = load m p).
Proof.
  intros F Hb Hdx Hs Ro Hd.
  assert (Hh : b_kind (bc 0) <> 1 \/ b_kind (bc 1) <> 1 \/ (forall i j k, patch3 i0 j0 k0 i1 j1 k1 i j k -> (0 < (fun _ _ _ => 0%Qc) i j k)%Qc)) by (destruct Hd as [H|H]; [now left|right; now left]).
  destruct (bvp3_exists i0 j0 k0 i1 j1 k1 dx beta (fun _ _ _ => 0%Qc) (fun _ _ _ => 1%Qc) (fun _ _ _ => 1%Qc) (fun _ _ _ => 1%Qc) bc false Hb Hdx (fun _ _ _ _ => Qcle_refl 0%Qc) (fun _ _ _ _ _ _ => eq_refl : (0 < 1)%Qc) (fun _ _ _ _ _ _ => Qclt_le_weak _ _ (eq_refl : (0 < 1)%Qc)) (fun _ _ _ _ _ _ => Qclt_le_weak _ _ (eq_refl : (0 < 1)%Qc)) Hs Ro Hh f) as (z & Hz).
  destruct (bplace_poisson_3d i0 j0 k0 i1 j1 k1 dx beta gcw u f0 f1 f2 rgcw res bc m r w  f z F Hb Hdx Hs Ro Hz) as (n & H). exists n, z. exact H.
Qed.
