(** * Convergence in a weighted norm

    When the rows are only weakly dominant the largest error need not go down, but the
    error divided by a suitable positive function of the cell does. *)

From Coq Require Import Field QArith Qcanon Qcabs Lqa Qpower.
From Verif Require Import Base FortranBase FortranSmooth Instances SpecRow SpecSmooth SpecConverge LemBase LemKernel LemFortran LemStencil LemSmooth LemCells
  LemSmoothers LemJacobi LemFixedStencil LemSmoothFinal LemRound LemConverge LemConverge2 LemConverge3.
Import ListNotations.
Open Scope Qc_scope.

Section Weighted.
  Notation mem := (mem QcS).

  (** At the cells of [P] the values of [u] are within [E] times the weight of [x]. *)
  Definition wwithin (m : mem) (u : farray) (x p : list Z -> Qc) (E : Qc) (P : list Z -> Prop) : Prop :=
    forall c, P c -> exists y : Qc, fel u c m = Some (y : QcS) /\ Qcabs (y - x c) <= E * p c.

  (** Dominance with weights. *)
  Definition wdominant (m : mem) (tab st : farray) (n : Z) (p : list Z -> Qc) (q : Qc) (visited : list Z -> Prop) : Prop :=
    forall c, visited c -> exists (a0 : Qc) (cf z : Z -> Qc),
      fel st (0%Z :: c) m = Some (a0 : QcS) /\ a0 <> 0 /\
      (forall s, (1 <= s <= n - 1)%Z -> fel st (s :: c) m = Some (cf s : QcS) /\ exists c', displaced_cell m tab 0 s c c' /\ z s = p c') /\
      total (S := QcS) 1 (n - 1) (fun s => Qcabs (cf s) * z s) <= q * Qcabs a0 * p c.

  Definition wconverges (m : mem) (P : mem -> option mem) (tab st : farray) (n : Z) (f u : farray) (bs : list (Z * Z)) (rate : Qc -> Qc) : Prop :=
    forall (x p : list Z -> Qc) (q E : Qc) (k : nat) (m' : mem),
    fits m tab n u bs -> (forall c, 0 <= p c) -> wdominant m tab st n p q (in_box bs) -> 0 <= q -> q <= 1 ->
    solution m tab st n f x (in_box bs) -> equals m u x (around u bs) ->
    0 <= E -> wwithin m u x p E (in_box bs) ->
    repeated k P m = Some m' -> wwithin m' u x p (rate q ^ k * E) (in_box bs).
End Weighted.

Lemma total_change_w (cf y x z : Z -> Qc) E lo hi : (forall s, (lo <= s <= hi)%Z -> Qcabs (y s - x s) <= E * z s) ->
  Qcabs (total (S := QcS) lo hi (fun s => cf s * y s) - total (S := QcS) lo hi (fun s => cf s * x s))
    <= E * total (S := QcS) lo hi (fun s => Qcabs (cf s) * z s).
Proof.
  intros H. unfold total.
  assert (forall k, In k (seq 0 (Z.to_nat (hi - lo + 1))) -> (lo <= lo + Z.of_nat k <= hi)%Z) as Hk.
  { intros k Hk. apply in_seq in Hk. lia. }
  revert Hk. generalize (seq 0 (Z.to_nat (hi - lo + 1))). intros l. induction l as [|k l IH]; intros Hk; cbn [fold_right].
  - change (Qcabs (0 - 0) <= E * 0). replace (E * 0) with 0 by ring. replace (0 - 0) with 0 by ring.
    rewrite Qcabs_pos by apply Qcle_refl. apply Qcle_refl.
  - specialize (IH (fun k' Hk' => Hk k' (or_intror Hk'))). specialize (H _ (Hk k (or_introl eq_refl))).
    change (sadd (s := QcS)) with Qcplus in *. change (@lit QcS 0) with 0 in *. change (car QcS) with Qc in *.
    set (s := (lo + Z.of_nat k)%Z) in *.
    match goal with |- Qcabs (?a + ?b - (?c + ?d)) <= _ => replace (a + b - (c + d)) with (cf s * (y s - x s) + (b - d)) by ring end.
    eapply Qcle_trans; [apply Qcabs_triangle|]. rewrite Qcabs_Qcmult, Qcmult_plus_distr_r.
    apply Qcplus_le_compat; [|exact IH]. replace (E * (Qcabs (cf s) * z s)) with (E * z s * Qcabs (cf s)) by ring.
    rewrite (Qcmult_comm (Qcabs (cf s))). apply Qcmult_le_compat_r; [exact H|apply Qcabs_nonneg].
Qed.

(** The change of one value. *)
Lemma value_change (a0 xc ty tz ta q E pc : Qc) : a0 <> 0 -> 0 <= E -> Qcabs (ty - tz) <= E * ta -> ta <= q * Qcabs a0 * pc ->
  Qcabs ((- (ty - tz)) * / a0) <= q * E * pc.
Proof.
  intros Na HE C Hle. rewrite Qcabs_Qcmult, Qcabs_opp.
  assert (Hi : Qcabs a0 * Qcabs (/ a0) = 1).
  { rewrite <- Qcabs_Qcmult, Qcmult_inv_r by exact Na. apply Qcabs_pos. discriminate. }
  assert (P := Qcabs_nonneg (/ a0)).
  apply Qcle_trans with (E * ta * Qcabs (/ a0)); [apply Qcmult_le_compat_r; assumption|].
  apply Qcle_trans with (E * (q * Qcabs a0 * pc) * Qcabs (/ a0)).
  - apply Qcmult_le_compat_r; [|exact P]. rewrite !(Qcmult_comm E). apply Qcmult_le_compat_r; assumption.
  - replace (E * (q * Qcabs a0 * pc) * Qcabs (/ a0)) with (E * q * pc * (Qcabs a0 * Qcabs (/ a0))) by ring. rewrite Hi.
    replace (E * q * pc * 1) with (q * E * pc) by ring. apply Qcle_refl.
Qed.

(** The row of a cell: the solution, the values [y] used, and the weights. *)
Lemma weighted_row (m : mem QcS) tab st n f x p q visited c (a0 b d : Qc) (cf y : Z -> Qc) (val : list Z -> option Qc) E :
  (1 <= n)%Z -> diagonal_first m tab visited -> wdominant m tab st n p q visited -> solution m tab st n f x visited -> visited c ->
  fel st (0%Z :: c) m = Some (a0 : QcS) -> fel f c m = Some (b : QcS) ->
  (forall s, (1 <= s <= n - 1)%Z -> fel st (s :: c) m = Some (cf s : QcS) /\ exists c', displaced_cell m tab 0 s c c' /\ val c' = Some (y s)) ->
  (forall s c', (1 <= s <= n - 1)%Z -> displaced_cell m tab 0 s c c' -> exists y' : Qc, val c' = Some y' /\ Qcabs (y' - x c') <= E * p c') ->
  exists tz ta : Qc, a0 <> 0 /\ b = a0 * x c + tz /\ ta <= q * Qcabs a0 * p c /\
    Qcabs (total (S := QcS) 1 (n - 1) (fun s => cf s * y s) - tz) <= E * ta.
Proof.
  intros Hn Hdf Hdom Hsol Hv Ea Eb Hs Hval.
  destruct (Hsol c Hv) as (b' & d' & Eb' & Hr & Edb). assert (b' = b) by congruence. subst b' d'.
  apply row_sum_first in Hr; [|lia].
  destruct Hr as (cf0 & x0 & d' & (E0 & c0 & D0 & V0) & (cf1 & z1 & Hr & ->) & Eb1).
  assert (cf0 = a0) by congruence. subst cf0.
  rewrite (displaced_cell_fun _ _ _ _ _ _ _ D0 (Hdf c Hv)) in V0. injection V0 as V0. subst x0.
  destruct (Hdom c Hv) as (a0' & cf2 & w & Ea' & Na & Hw & Hle). assert (a0' = a0) by congruence. subst a0'.
  assert (T : total (S := QcS) 1 (n - 1) (fun s => Qcabs (cf2 s) * w s) = total (S := QcS) 1 (n - 1) (fun s => Qcabs (cf s) * w s)).
  { apply total_ext_q. intros s Hss. destruct (Hs s Hss) as [E1 _], (Hw s Hss) as [E2 _]. assert (cf2 s = cf s) by congruence. congruence. }
  rewrite T in Hle.
  assert (T1 : total (S := QcS) 1 (n - 1) (fun s => smul (s := QcS) (cf1 s) (z1 s)) = total (S := QcS) 1 (n - 1) (fun s => cf s * z1 s)).
  { apply total_ext_q. intros s Hss. destruct (Hs s Hss) as [E1 _]. destruct (Hr s ltac:(lia)) as [E2 _]. assert (cf1 s = cf s) as -> by congruence. reflexivity. }
  exists (total (S := QcS) 1 (n - 1) (fun s => cf s * z1 s)), (total (S := QcS) 1 (n - 1) (fun s => Qcabs (cf s) * w s)).
  split; [exact Na|]. split; [rewrite <- T1; exact Eb1|]. split; [exact Hle|].
  apply total_change_w. intros s Hss.
  destruct (Hs s Hss) as (_ & c1 & D1 & Ey). destruct (Hr s ltac:(lia)) as (_ & c2 & D2 & Ez). destruct (Hw s Hss) as (_ & c3 & D3 & ->).
  assert (c2 = c1) by (eapply displaced_cell_fun; eassumption). assert (c3 = c1) by (eapply displaced_cell_fun; eassumption). subst c2 c3.
  injection Ez as <-. destruct (Hval s c1 Hss D1) as (y' & Ey' & Hy'). assert (y' = y s) by congruence. subst. exact Hy'.
Qed.

Section Sweep.
  Notation mem := (mem QcS).
  Context (tab st f u : farray) (n : Z) (x p : list Z -> Qc) (visited : list Z -> Prop).
  Context (Hn : (1 <= n)%Z) (Hdec : forall c, visited c \/ ~ visited c)
    (Hin : forall c, visited c -> in_box (fa_dims u) c) (Hp : forall c, 0 <= p c).

  Lemma swept_wwithin (m m' : mem) q E :
    swept m m' tab st n f u visited -> stays m tab 1 (n - 1) (fa_dims u) visited -> diagonal_first m tab visited ->
    wdominant m tab st n p q visited -> solution m tab st n f x visited -> 0 <= q -> q <= 1 -> 0 <= E ->
    wwithin m u x p E (in_box (fa_dims u)) ->
    wwithin m' u x p (q * E) visited /\ wwithin m' u x p E (in_box (fa_dims u)).
  Proof.
    intros Hsw Hst Hdf Hdom Hsol Hq0 Hq1 HE Hw.
    assert (HqE : q * E <= E) by qc_nra.
    assert (K : forall c, in_box (fa_dims u) c -> (visited c -> exists y : Qc, fel u c m' = Some (y : QcS) /\ Qcabs (y - x c) <= q * E * p c) /\
      exists y : Qc, fel u c m' = Some (y : QcS) /\ Qcabs (y - x c) <= E * p c).
    { apply box_before_ind. intros c Hc IH.
      assert (V : visited c -> exists y : Qc, fel u c m' = Some (y : QcS) /\ Qcabs (y - x c) <= q * E * p c).
      { intros Hv. destruct Hsw as (Hsw & _ & _). destruct (Hsw c Hv) as (b & a0 & d & Eb & Ea & (cf & y & Hr & ->) & Eu).
        eexists. split; [exact Eu|].
        destruct (weighted_row m tab st n f x p q visited c a0 b 0 cf y (fun c' => fel u c' (if before c' c then m' else m)) E Hn Hdf Hdom Hsol Hv Ea Eb Hr) as (tz & ta & Na & Eb1 & Hta & C).
        { intros s c' Hss D. assert (Hc' := Hst c s c' Hv Hss D). destruct (before c' c) eqn:B; [apply IH|apply Hw]; assumption. }
        set (ty := total (S := QcS) 1 (n - 1) (fun s => cf s * y s)) in *.
        change (Qcabs ((b - ty) / a0 - x c) <= q * E * p c). rewrite Eb1.
        replace ((a0 * x c + tz - ty) / a0 - x c) with ((- (ty - tz)) * / a0) by (field; exact Na).
        apply (value_change a0 (x c) ty tz ta); assumption. }
      split; [exact V|]. destruct (Hdec c) as [Hv|Nv].
      - destruct (V Hv) as (y & Ey & Hy). exists y. split; [exact Ey|]. apply Qcle_trans with (q * E * p c); [exact Hy|].
        apply Qcmult_le_compat_r; [exact HqE|apply Hp].
      - rewrite (swept_elsewhere tab st f u n visited Hin m m' c Hsw Hc Nv). apply Hw. exact Hc. }
    split; intros c Hc; [apply K; [apply Hin|]|apply K]; exact Hc.
  Qed.
End Sweep.

Section Relax.
  Notation mem := (mem QcS).
  Context (tab st f u r : farray) (n : Z) (x p : list Z -> Qc) (bs : list (Z * Z)) (w : Qc).
  Context (Hn : (1 <= n)%Z) (Hin : forall c, in_box bs c -> in_box (fa_dims u) c) (Hur : fst (fa_ptr u) <> fst (fa_ptr r)).

  Lemma relaxed_wwithin (m m' : mem) q E :
    relaxed m m' tab st n (w : QcS) f u r bs -> stays m tab 1 (n - 1) (fa_dims u) (in_box bs) -> diagonal_first m tab (in_box bs) ->
    wdominant m tab st n p q (in_box bs) -> solution m tab st n f x (in_box bs) -> 0 <= w -> w <= 1 -> 0 <= q -> 0 <= E ->
    wwithin m u x p E (in_box (fa_dims u)) -> wwithin m' u x p ((1 - w + w * q) * E) (in_box bs).
  Proof.
    intros (Hre & _ & _) Hst Hdf Hdom Hsol Hw0 Hw1 Hq0 HE Hw c Hc.
    destruct (Hre c Hc) as (b & a0 & d & v & Eb & Ea & Ev & Hr & Eu).
    apply row_sum_first in Hr; [|lia].
    destruct Hr as (cf0 & x0 & d' & (E0 & c0 & D & V0) & (cf & y & Hr & ->) & ->).
    rewrite (displaced_cell_fun _ _ _ _ _ _ _ D (Hdf c Hc)) in V0.
    assert (cf0 = a0) by congruence. assert (x0 = v) by congruence. subst cf0 x0.
    eexists. split; [exact Eu|].
    destruct (weighted_row m tab st n f x p q (in_box bs) c a0 b 0 cf y (fun c' => fel u c' m) E Hn Hdf Hdom Hsol Hc Ea Eb) as (tz & ta & Na & Eb1 & Hta & C).
    { intros s Hss. apply Hr. lia. }
    { intros s c' Hss D'. apply Hw. exact (Hst c s c' Hc Hss D'). }
    destruct (Hw c (Hin c Hc)) as (v' & Ev' & Hv). assert (v' = v) by congruence. subst v'.
    match goal with |- Qcabs (sadd v (smul w (sdiv (ssub b (sadd _ ?t)) _)) - _) <= _ =>
      change (t : Qc) with (total (S := QcS) 1 (n - 1) (fun s => cf s * y s)) | _ => idtac end.
    set (ty := total (S := QcS) 1 (n - 1) (fun s => cf s * y s)) in *.
    change (Qcabs (v + w * ((b - (a0 * v + ty)) / a0) - x c) <= (1 - w + w * q) * E * p c). rewrite Eb1.
    replace (v + w * ((a0 * x c + tz - (a0 * v + ty)) / a0) - x c) with ((1 - w) * (v - x c) + w * ((- (ty - tz)) * / a0)) by (field; exact Na).
    assert (B := value_change a0 (x c) ty tz ta q E (p c) Na HE C Hta).
    eapply Qcle_trans; [apply Qcabs_triangle|]. rewrite (Qcabs_Qcmult (1 - w)), (Qcabs_Qcmult w).
    rewrite (Qcabs_pos w) by exact Hw0. rewrite (Qcabs_pos (1 - w)) by qc_lra.
    apply Qcle_trans with ((1 - w) * (E * p c) + w * (q * E * p c)).
    - apply Qcplus_le_compat.
      + rewrite (Qcmult_comm (1 - w) (Qcabs _)), (Qcmult_comm (1 - w) (E * p c)). apply Qcmult_le_compat_r; [exact Hv|qc_lra].
      + rewrite (Qcmult_comm w (Qcabs _)), (Qcmult_comm w (q * E * p c)). apply Qcmult_le_compat_r; assumption.
    - replace ((1 - w) * (E * p c) + w * (q * E * p c)) with ((1 - w + w * q) * E * p c) by ring. apply Qcle_refl.
  Qed.
End Relax.

Section Repeat.
  Notation mem := (mem QcS).

  Lemma same_wdominant (m m' : mem) tab st f n p visited q : same_system m m' st f -> wdominant m tab st n p q visited -> wdominant m' tab st n p q visited.
  Proof.
    intros (I & E & _) H c Hc. destruct (H c Hc) as (a0 & cf & z & A & B & C & D). exists a0, cf, z.
    rewrite E. repeat (split; [assumption|]). split; [|exact D]. intros s Hs. rewrite E. destruct (C s Hs) as (C1 & c' & C2 & C3).
    split; [exact C1|]. exists c'. split; [|exact C3]. apply (same_displaced m' m); [symmetry; exact I|exact C2].
  Qed.

  Lemma repeated_wwithin (P : mem -> option mem) (st f u : farray) x p bs q E k m m' :
    0 <= q -> 0 <= E -> (forall c, 0 <= p c) ->
    (forall c, in_box bs c -> in_box (fa_dims u) c) ->
    (forall m1 m2 E', same_system m m1 st f -> 0 <= E' -> wwithin m1 u x p E' (in_box (fa_dims u)) -> P m1 = Some m2 ->
       same_system m1 m2 st f /\ wwithin m2 u x p (q * E') (in_box bs) /\
       (forall c, in_box (fa_dims u) c -> ~ in_box bs c -> fel u c m2 = fel u c m1)) ->
    equals m u x (around u bs) ->
    wwithin m u x p E (in_box bs) ->
    repeated k P m = Some m' -> wwithin m' u x p (q ^ k * E) (in_box bs).
  Proof.
    intros Hq HE Hp Hb Hstep Hg Hw Er.
    refine (proj1 (proj2 (repeated_inv (fun k m1 => same_system m m1 st f /\ wwithin m1 u x p (q ^ k * E) (in_box bs) /\
      equals m1 u x (around u bs)) P k m m' _ _ Er))).
    - intros j m1 m2 (Hs & Hw1 & Hg1) E1.
      assert (HE' : 0 <= q ^ j * E) by (apply Qcmul_nonneg; [apply Qcpow_nonneg|]; assumption).
      destruct (Hstep m1 m2 (q ^ j * E) Hs HE') as (S1 & W1 & F1).
      + intros c Hc. destruct (in_box_dec bs c) as [Hi|Ni]; [apply Hw1; exact Hi|].
        exists (x c). split; [apply Hg1; split; assumption|]. replace (x c - x c) with 0 by ring. rewrite Qcabs_pos by apply Qcle_refl.
        apply Qcmul_nonneg; [exact HE'|apply Hp].
      + exact E1.
      + split; [apply (same_trans _ m1); assumption|]. split.
        * rewrite Qcpow_S, <- Qcmult_assoc. exact W1.
        * intros c [Hc Nc]. rewrite F1 by assumption. apply Hg1. split; assumption.
    - split; [apply same_refl|]. split; [|exact Hg]. replace (q ^ 0 * E) with E by (cbn; ring). exact Hw.
  Qed.
End Repeat.

Section Any.
  Notation mem := (mem QcS).
  Context (tab st f u : farray) (n : Z) (bs : list (Z * Z)).
  Context (Hs : fst (fa_ptr u) <> fst (fa_ptr st)) (Hf : fst (fa_ptr u) <> fst (fa_ptr f)).

  Lemma whole_wconverges (iv : list (list Z)) (P : mem -> option mem)
    (HP : forall m1 m2, ints m1 = iv -> stays m1 tab 1 (n - 1) (fa_dims u) (in_box bs) -> P m1 = Some m2 -> swept m1 m2 tab st n f u (in_box bs))
    (m : mem) : ints m = iv -> wconverges m P tab st n f u bs (fun q => q).
  Proof.
    intros Hi x p q E k m' (Hn & Hb & Hst & Hd) Hp Hdom Hq0 Hq1 Hsol Hg HE Hw Er.
    apply (repeated_wwithin P st f u x p bs q E k m m'); try assumption.
    intros m1 m2 E' Hsame HE' Hw1 E1.
    assert (Hst1 := same_stays m m1 tab st f (in_box bs) Hsame _ _ _ Hst).
    assert (Hsw := HP m1 m2 ltac:(rewrite (proj1 Hsame); exact Hi) Hst1 E1).
    split; [apply (swept_same m1 m2 tab st n f u (in_box bs)); assumption|]. split.
    - apply (swept_wwithin tab st f u n x p (in_box bs) Hn (in_box_dec bs) Hb Hp m1 m2 q E' Hsw Hst1); try assumption.
      + apply (same_diagonal m m1 tab st f (in_box bs) Hsame Hd).
      + apply (same_wdominant m m1 tab st f n p (in_box bs) q Hsame Hdom).
      + apply (same_row m m1 tab st f n (in_box bs) Hsame _ x Hsol).
    - intros c Hc Nc. apply (swept_elsewhere tab st f u n (in_box bs) Hb m1 m2 c Hsw Hc Nc).
  Qed.

  Lemma colours_wconverge (iv : list (list Z)) (P1 P2 : mem -> option mem) (c1 c2 : Z) (Hc : Z.odd (c1 + c2) = true)
    (HP1 : forall m1 m2, ints m1 = iv -> stays m1 tab 1 (n - 1) (fa_dims u) (in_box bs) -> P1 m1 = Some m2 -> swept m1 m2 tab st n f u (coloured bs c1))
    (HP2 : forall m1 m2, ints m1 = iv -> stays m1 tab 1 (n - 1) (fa_dims u) (in_box bs) -> P2 m1 = Some m2 -> swept m1 m2 tab st n f u (coloured bs c2))
    (m : mem) : ints m = iv -> wconverges m (twice P1 P2) tab st n f u bs (fun q => q).
  Proof.
    assert (v1 : forall c, coloured bs c1 c -> in_box bs c) by (intros c H; exact (proj1 H)).
    assert (v2 : forall c, coloured bs c2 c -> in_box bs c) by (intros c H; exact (proj1 H)).
    intros Hi x p q E k m' (Hn & Hb & Hst & Hd) Hp Hdom Hq0 Hq1 Hsol Hg HE Hw Er.
    apply (repeated_wwithin (twice P1 P2) st f u x p bs q E k m m'); try assumption.
    intros m1 m2 E' Hsame HE' Hw1 E1. unfold twice in E1. apply bind_Some_inv in E1 as (ma & Ea & Eb).
    assert (Hst1 := same_stays m m1 tab st f (in_box bs) Hsame _ _ _ Hst).
    assert (Sw1 := HP1 m1 ma ltac:(rewrite (proj1 Hsame); exact Hi) Hst1 Ea).
    assert (Sa : same_system m1 ma st f) by (apply (swept_same m1 ma tab st n f u (coloured bs c1)); assumption).
    assert (Hsa := same_trans _ _ _ _ _ Hsame Sa).
    assert (Hsta := same_stays m ma tab st f (in_box bs) Hsa _ _ _ Hst).
    assert (Sw2 := HP2 ma m2 ltac:(rewrite (proj1 Hsa); exact Hi) Hsta Eb).
    assert (Sb : same_system ma m2 st f) by (apply (swept_same ma m2 tab st n f u (coloured bs c2)); assumption).
    destruct (swept_wwithin tab st f u n x p (coloured bs c1) Hn (coloured_dec bs c1) (fun c H => Hb c (v1 c H)) Hp m1 ma q E' Sw1) as [W1 W1']; try assumption.
    { apply (sub_stays _ _ _ _ _ _ _ v1 Hst1). }
    { apply (sub_diag _ _ _ _ v1). apply (same_diagonal m m1 tab st f (in_box bs) Hsame Hd). }
    { intros c Hcc. apply (same_wdominant m m1 tab st f n p (in_box bs) q Hsame Hdom). apply v1. exact Hcc. }
    { apply (sub_row _ _ _ _ _ _ _ _ _ v1). apply (same_row m m1 tab st f n (in_box bs) Hsame _ x Hsol). }
    destruct (swept_wwithin tab st f u n x p (coloured bs c2) Hn (coloured_dec bs c2) (fun c H => Hb c (v2 c H)) Hp ma m2 q E' Sw2) as [W2 W2']; try assumption.
    { apply (sub_stays _ _ _ _ _ _ _ v2 Hsta). }
    { apply (sub_diag _ _ _ _ v2). apply (same_diagonal m ma tab st f (in_box bs) Hsa Hd). }
    { intros c Hcc. apply (same_wdominant m ma tab st f n p (in_box bs) q Hsa Hdom). apply v2. exact Hcc. }
    { apply (sub_row _ _ _ _ _ _ _ _ _ v2). apply (same_row m ma tab st f n (in_box bs) Hsa _ x Hsol). }
    split; [apply (same_trans m1 ma); assumption|]. split.
    - intros c Hj. destruct (colours_cover st f u bs Hs Hf c1 c2 Hc c Hj) as [[K1 K2]|K2]; [|apply W2; exact K2].
      rewrite (swept_elsewhere tab st f u n (coloured bs c2) (fun c H => Hb c (v2 c H)) ma m2 c Sw2 (Hb c Hj) K2). apply W1. exact K1.
    - intros c Hj Ni.
      rewrite (swept_elsewhere tab st f u n (coloured bs c2) (fun c H => Hb c (v2 c H)) ma m2 c Sw2 Hj (fun K => Ni (proj1 K))).
      apply (swept_elsewhere tab st f u n (coloured bs c1) (fun c H => Hb c (v1 c H)) m1 ma c Sw1 Hj (fun K => Ni (proj1 K))).
  Qed.

  Lemma jacobi_wconverges (r : farray) (w : Qc) (P : mem -> option mem)
    (Hur : fst (fa_ptr u) <> fst (fa_ptr r)) (Hrs : fst (fa_ptr r) <> fst (fa_ptr st)) (Hrf : fst (fa_ptr r) <> fst (fa_ptr f))
    (HP : forall m1 m2, P m1 = Some m2 -> relaxed m1 m2 tab st n (w : QcS) f u r bs)
    (m : mem) : 0 <= w -> w <= 1 -> wconverges m P tab st n f u bs (fun q => 1 - w + w * q).
  Proof.
    intros Hw0 Hw1 x p q E k m' (Hn & Hb & Hst & Hd) Hp Hdom Hq0 Hq1 Hsol Hg HE Hw Er.
    apply (repeated_wwithin P st f u x p bs (1 - w + w * q) E k m m'); try assumption; [qc_nra|].
    intros m1 m2 E' Hsame HE' Hw' E1.
    assert (Hst1 := same_stays m m1 tab st f (in_box bs) Hsame _ _ _ Hst).
    assert (Hre := HP m1 m2 E1).
    split; [apply (relaxed_same m1 m2 tab st n (w : QcS) f u r bs); assumption|]. split.
    - apply (relaxed_wwithin tab st f u r n x p bs w Hn Hb Hur m1 m2 q E' Hre Hst1); try assumption.
      + apply (same_diagonal m m1 tab st f (in_box bs) Hsame Hd).
      + apply (same_wdominant m m1 tab st f n p (in_box bs) q Hsame Hdom).
      + apply (same_row m m1 tab st f n (in_box bs) Hsame _ x Hsol).
    - intros c Hc Nc. apply (relaxed_elsewhere tab st f u r n bs w Hb Hur m1 m2 c Hre Hc Nc).
  Qed.
End Any.
