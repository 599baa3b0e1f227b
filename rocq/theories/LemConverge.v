(** * Convergence of repeated sweeps *)

From Coq Require Import Field QArith Qcanon Qcabs Lqa.
From Verif Require Import Base FortranBase Instances SpecRow SpecSmooth SpecConverge LemBase LemKernel LemFortran LemStencil LemSmooth LemCells
  LemSmoothFinal LemRound.
Import ListNotations.
Open Scope Z_scope.

(** ** Cells in the order of the loops *)

Lemma box_before_ind bs (P : list Z -> Prop) :
  (forall c, in_box bs c -> (forall c', in_box bs c' -> before c' c = true -> P c') -> P c) ->
  forall c, in_box bs c -> P c.
Proof.
  intros H.
  assert (K : forall l, in_order l -> (forall c, In c l -> in_box bs c) -> (forall c, in_box bs c -> ~ In c l -> P c) -> forall c, in_box bs c -> P c).
  { induction l as [|a l IH]; intros Ho Hin Hd c Hc; [apply Hd; auto|].
    apply in_order_inv in Ho as [Ha Ho].
    apply IH; auto; [intros; apply Hin; right; assumption|].
    intros b Hb Nb. destruct (list_eq_dec Z.eq_dec a b) as [<-|N].
    - apply H; [exact Hb|]. intros c' Hc' B. apply Hd; [exact Hc'|]. intros [->|I]; [rewrite before_irrefl in B; discriminate|].
      apply Ha, before_asym in I. congruence.
    - apply Hd; [exact Hb|]. intros [->|I]; [exact (N eq_refl)|exact (Nb I)]. }
  apply (K (box_cells bs)); [apply box_in_order|apply box_cells_in|].
  intros c Hc Nc. exfalso. apply Nc. apply box_cells_in. exact Hc.
Qed.

Lemma in_box_dec bs c : in_box bs c \/ ~ in_box bs c.
Proof.
  revert c. induction bs as [|b bs IH]; intros [|i c].
  - left. constructor.
  - right. intros H. inversion H.
  - right. intros H. inversion H.
  - destruct (IH c) as [H|H]; [|right; intros K; inversion K; auto].
    destruct (Z_le_dec (fst b) i), (Z_le_dec i (snd b)); [left; constructor; auto; lia|right; intros K; inversion K; lia..].
Qed.

Lemma coloured_dec bs color c : coloured bs color c \/ ~ coloured bs color c.
Proof.
  unfold coloured. destruct (in_box_dec bs c); [|tauto]. destruct (Z.even _); [left|right]; [tauto|]. intros [_ H0]. discriminate.
Qed.

(** ** Sums *)
Open Scope Qc_scope.

Lemma total_ind2 (R : Qc -> Qc -> Prop) (f g : Z -> Qc) lo hi :
  R 0 0 -> (forall s a b, (lo <= s <= hi)%Z -> R a b -> R (f s + a) (g s + b)) ->
  R (total (S := QcS) lo hi f) (total (S := QcS) lo hi g).
Proof.
  intros H0 H. unfold total.
  assert (forall k, In k (seq 0 (Z.to_nat (hi - lo + 1))) -> (lo <= lo + Z.of_nat k <= hi)%Z) as Hk.
  { intros k Hk. apply in_seq in Hk. lia. }
  revert Hk. generalize (seq 0 (Z.to_nat (hi - lo + 1))). intros l. induction l as [|k l IH]; intros Hk; cbn [fold_right].
  - exact H0.
  - apply H; [apply Hk; left; reflexivity|]. apply IH. intros k' Hk'. apply Hk. right. exact Hk'.
Qed.

Lemma total_ext_q (f g : Z -> Qc) lo hi : (forall s, (lo <= s <= hi)%Z -> f s = g s) ->
  total (S := QcS) lo hi f = total (S := QcS) lo hi g.
Proof. intros H. apply (total_ind2 eq); [reflexivity|]. intros s a b Hs ->. f_equal. apply H. exact Hs. Qed.

Lemma abs_le x a : Qcabs x <= a <-> - a <= x /\ x <= a.
Proof. apply Qcabs_Qcle_condition. Qed.

(** A weighted sum changes by at most the weights times the change of the values. *)
Lemma total_change (cf y x : Z -> Qc) E lo hi : (forall s, (lo <= s <= hi)%Z -> Qcabs (y s - x s) <= E) ->
  Qcabs (total (S := QcS) lo hi (fun s => cf s * y s) - total (S := QcS) lo hi (fun s => cf s * x s))
    <= E * total (S := QcS) lo hi (fun s => Qcabs (cf s)).
Proof.
  intros H. unfold total.
  assert (forall k, In k (seq 0 (Z.to_nat (hi - lo + 1))) -> (lo <= lo + Z.of_nat k <= hi)%Z) as Hk.
  { intros k Hk. apply in_seq in Hk. lia. }
  revert Hk. generalize (seq 0 (Z.to_nat (hi - lo + 1))). intros l. induction l as [|k l IH]; intros Hk; cbn [fold_right].
  - change (Qcabs (0 - 0) <= E * 0). replace (E * 0) with 0 by ring. replace (0 - 0) with 0 by ring.
    rewrite Qcabs_pos by apply Qcle_refl. apply Qcle_refl.
  - specialize (IH (fun k' Hk' => Hk k' (or_intror Hk'))). specialize (H _ (Hk k (or_introl eq_refl))).
    change (sadd (s := QcS)) with Qcplus in *. change (@lit QcS 0) with 0 in *. change (car QcS) with Qc in *.
    set (s := (lo + Z.of_nat k)%Z) in *.
    match goal with |- Qcabs (?a + ?b - (?c + ?d)) <= _ => replace (a + b - (c + d)) with (cf s * (y s - x s) + (b - d)) by ring end.
    eapply Qcle_trans; [apply Qcabs_triangle|]. rewrite Qcabs_Qcmult, Qcmult_plus_distr_r.
    apply Qcplus_le_compat; [|exact IH]. rewrite (Qcmult_comm E). rewrite (Qcmult_comm (Qcabs (cf s))), (Qcmult_comm (Qcabs (cf s))).
    apply Qcmult_le_compat_r; [exact H|apply Qcabs_nonneg].
Qed.

(** With weights that are not positive a sum decreases when the values grow. *)
Lemma total_antitone (cf y x : Z -> Qc) lo hi : (forall s, (lo <= s <= hi)%Z -> cf s <= 0 /\ y s <= x s) ->
  total (S := QcS) lo hi (fun s => cf s * x s) <= total (S := QcS) lo hi (fun s => cf s * y s).
Proof.
  intros H. apply (total_ind2 Qcle); [apply Qcle_refl|]. intros s a b Hs Hab. destruct (H s Hs).
  apply Qcplus_le_compat; [|exact Hab]. qc_nra.
Qed.

Section Row.
  Notation mem := (mem QcS).
  Context (tab st : farray) (n : Z) (x : list Z -> Qc) (visited : list Z -> Prop) (Hn : (1 <= n)%Z).

  (** The row of a cell applied to [x]. *)
  Lemma row_of_x (m : mem) c (a0 d : Qc) (cf z : Z -> Qc) :
    diagonal_first m tab visited -> visited c -> fel st (0%Z :: c) m = Some (a0 : QcS) ->
    (forall s, (1 <= s <= n - 1)%Z -> fel st (s :: c) m = Some (cf s : QcS) /\ exists c', displaced_cell m tab 0 s c c' /\ z s = x c') ->
    row_sum m tab st 0 0 (n - 1) c (fun c' => Some (x c' : QcS)) (d : QcS) ->
    d = a0 * x c + total (S := QcS) 1 (n - 1) (fun s => cf s * z s).
  Proof.
    intros Hd Hc Ha Hs Hr. apply row_sum_first in Hr; [|lia].
    destruct Hr as (cf0 & x0 & d' & (E0 & c' & D & V) & Hr & ->).
    rewrite (displaced_cell_fun _ _ _ _ _ _ _ D (Hd c Hc)) in V. injection V as <-.
    assert (cf0 = a0) by congruence. subst cf0. change (a0 * x c + d' = a0 * x c + total (S := QcS) 1 (n - 1) (fun s => cf s * z s)).
    f_equal. apply (row_sum_fun m tab st 0 1 (n - 1) c (fun c' => Some (x c' : QcS))); [exact Hr|].
    exists cf, z. split; [|reflexivity]. intros s Hs'. destruct (Hs s Hs') as (E & c1 & D1 & E1). split; [exact E|].
    exists c1. split; [exact D1|]. rewrite E1. reflexivity.
  Qed.

End Row.

(** ** One sweep *)
Section Sweep.
  Notation mem := (mem QcS).
  Context (tab st f u : farray) (n : Z) (x : list Z -> Qc) (visited : list Z -> Prop).
  Context (Hn : (1 <= n)%Z) (Hdec : forall c, visited c \/ ~ visited c)
    (Hin : forall c, visited c -> in_box (fa_dims u) c).

  (** A cell that is not visited keeps its value. *)
  Lemma swept_elsewhere (m m' : mem) c : swept m m' tab st n f u visited ->
    in_box (fa_dims u) c -> ~ visited c -> fel u c m' = fel u c m.
  Proof.
    intros (_ & F & _) Hc Nv. unfold fel. apply F. intros c' Hv E. apply Nv. destruct u as [p ds].
    apply faddr_inj in E; [congruence| |exact Hc]. apply Hin. exact Hv.
  Qed.

  (** The new value of a cell. *)
  Lemma swept_value (m m' : mem) c : swept m m' tab st n f u visited -> stays m tab 1 (n - 1) (fa_dims u) visited -> visited c ->
    exists (a0 b : Qc) (cf y z : Z -> Qc),
      fel st (0%Z :: c) m = Some (a0 : QcS) /\ fel f c m = Some (b : QcS) /\
      (forall s, (1 <= s <= n - 1)%Z -> fel st (s :: c) m = Some (cf s : QcS) /\ exists c', displaced_cell m tab 0 s c c' /\ z s = x c') /\
      (forall s, (1 <= s <= n - 1)%Z -> exists c', in_box (fa_dims u) c' /\ z s = x c' /\
         fel u c' (if before c' c then m' else m) = Some (y s : QcS)) /\
      fel u c m' = Some ((b - total (S := QcS) 1 (n - 1) (fun s => cf s * y s)) / a0 : QcS).
  Proof.
    intros (V & _ & _) Hst Hc. destruct (V c Hc) as (b & a0 & d & Eb & Ea & (cf & y & Hr & ->) & Eu).
    assert (Hz : forall s, (1 <= s <= n - 1)%Z -> exists c', displaced_cell m tab 0 s c c' /\ fel u c' (if before c' c then m' else m) = Some (y s)).
    { intros s Hs. apply Hr. exact Hs. }
    assert (exists z : Z -> Qc, forall s, (1 <= s <= n - 1)%Z -> exists c', displaced_cell m tab 0 s c c' /\ z s = x c' /\
      fel u c' (if before c' c then m' else m) = Some (y s)) as [z Hz'].
    { clear -Hz. assert (forall k, exists z : Z -> Qc, forall s, (1 <= s <= n - 1)%Z -> (s <= Z.of_nat k)%Z ->
        exists c', displaced_cell m tab 0 s c c' /\ z s = x c' /\ fel u c' (if before c' c then m' else m) = Some (y s)) as K.
      { induction k as [|k [z IH]]; [exists (fun _ => 0); intros; lia|].
        destruct (Z_le_dec (Z.of_nat (Datatypes.S k)) (n - 1)) as [Hk|Hk].
        - destruct (Hz (Z.of_nat (Datatypes.S k)) ltac:(lia)) as (c' & D & E).
          exists (fun s => if (s =? Z.of_nat (Datatypes.S k))%Z then x c' else z s). intros s Hs Hs'.
          destruct (Z.eqb_spec s (Z.of_nat (Datatypes.S k))) as [->|N]; [exists c'; auto|]. apply IH; lia.
        - exists z. intros s Hs Hs'. apply IH; lia. }
      destruct (K (Z.to_nat n)) as [z Hz']. exists z. intros s Hs. apply Hz'; lia. }
    exists a0, b, cf, y, z. split; [exact Ea|]. split; [exact Eb|]. split; [|split].
    - intros s Hs. split; [apply Hr; exact Hs|]. destruct (Hz' s Hs) as (c' & D & E & _). exists c'. auto.
    - intros s Hs. destruct (Hz' s Hs) as (c' & D & E & F). exists c'. split; [exact (Hst c s c' Hc Hs D)|]. auto.
    - exact Eu.
  Qed.

  (** The error after a sweep. *)
  Lemma swept_within (m m' : mem) q E :
    swept m m' tab st n f u visited -> stays m tab 1 (n - 1) (fa_dims u) visited -> diagonal_first m tab visited ->
    dominant m st n q visited -> solution m tab st n f x visited -> 0 <= q -> q <= 1 -> 0 <= E ->
    within m u x E (in_box (fa_dims u)) ->
    within m' u x (q * E) visited /\ within m' u x E (in_box (fa_dims u)).
  Proof.
    intros Hsw Hst Hdf Hdom Hsol Hq0 Hq1 HE Hw.
    assert (HqE : q * E <= E) by qc_nra.
    assert (K : forall c, in_box (fa_dims u) c -> (visited c -> exists y : Qc, fel u c m' = Some (y : QcS) /\ Qcabs (y - x c) <= q * E) /\
      exists y : Qc, fel u c m' = Some (y : QcS) /\ Qcabs (y - x c) <= E).
    { apply box_before_ind. intros c Hc IH.
      assert (V : visited c -> exists y : Qc, fel u c m' = Some (y : QcS) /\ Qcabs (y - x c) <= q * E).
      { intros Hv. destruct (swept_value m m' c Hsw Hst Hv) as (a0 & b & cf & y & z & Ea & Eb & Hs & Hy & Eu).
        eexists. split; [exact Eu|].
        destruct (Hsol c Hv) as (b' & d & Eb' & Hr & ->). assert (b' = b) by congruence. subst b'.
        rewrite (row_of_x tab st n x visited Hn m c a0 b cf z Hdf Hv Ea Hs Hr) in *.
        destruct (Hdom c Hv) as (a0' & cf' & Ea' & Na & Hs' & Hle). assert (a0' = a0) by congruence. subst a0'.
        assert (T : total (S := QcS) 1 (n - 1) (fun s => Qcabs (cf s)) = total (S := QcS) 1 (n - 1) (fun s => Qcabs (cf' s))).
        { apply total_ext_q. intros s Hss. destruct (Hs s Hss) as [E1 _]. specialize (Hs' s Hss). congruence. }
        rewrite <- T in Hle.
        assert (C := total_change cf y z E 1 (n - 1)). lapply C; [clear C; intros C|].
        2:{ intros s Hss. destruct (Hy s Hss) as (c' & Hc' & -> & Ey). destruct (before c' c) eqn:B.
            - destruct (IH c' Hc' B) as [_ (y' & Ey' & Hy')]. assert (y' = y s) by congruence. subst. exact Hy'.
            - destruct (Hw c' Hc') as (y' & Ey' & Hy'). assert (y' = y s) by congruence. subst. exact Hy'. }
        set (ty := total (S := QcS) 1 (n - 1) (fun s => cf s * y s)) in *.
        set (tz := total (S := QcS) 1 (n - 1) (fun s => cf s * z s)) in *.
        set (ta := total (S := QcS) 1 (n - 1) (fun s => Qcabs (cf s))) in *.
        change (Qcabs ((a0 * x c + tz - ty) / a0 - x c) <= q * E).
        replace ((a0 * x c + tz - ty) / a0 - x c) with ((tz - ty) * / a0) by (field; exact Na).
        rewrite Qcabs_Qcmult. replace (tz - ty) with (- (ty - tz)) by ring. rewrite Qcabs_opp.
        assert (Hi : Qcabs a0 * Qcabs (/ a0) = 1).
        { rewrite <- Qcabs_Qcmult, Qcmult_inv_r by exact Na. apply Qcabs_pos. discriminate. }
        assert (P := Qcabs_nonneg (/ a0)).
        apply Qcle_trans with (E * ta * Qcabs (/ a0)); [apply Qcmult_le_compat_r; assumption|].
        apply Qcle_trans with (E * (q * Qcabs a0) * Qcabs (/ a0)).
        - apply Qcmult_le_compat_r; [|exact P]. rewrite !(Qcmult_comm E). apply Qcmult_le_compat_r; assumption.
        - replace (E * (q * Qcabs a0) * Qcabs (/ a0)) with (E * q * (Qcabs a0 * Qcabs (/ a0))) by ring. rewrite Hi.
          replace (E * q * 1) with (q * E) by ring. apply Qcle_refl. }
      split; [exact V|]. destruct (Hdec c) as [Hv|Nv].
      - destruct (V Hv) as (y & Ey & Hy). exists y. split; [exact Ey|]. apply Qcle_trans with (q * E); assumption.
      - rewrite (swept_elsewhere m m' c Hsw Hc Nv). apply Hw. exact Hc. }
    split; intros c Hc; [apply K; [apply Hin|]|apply K]; exact Hc.
  Qed.

  (** Bounds after a sweep. *)
  Lemma swept_at_most (m m' : mem) :
    swept m m' tab st n f u visited -> stays m tab 1 (n - 1) (fa_dims u) visited -> diagonal_first m tab visited ->
    z_matrix m st n visited -> supersolution m tab st n f x visited ->
    at_most m u x (in_box (fa_dims u)) -> at_most m' u x (in_box (fa_dims u)).
  Proof.
    intros Hsw Hst Hdf Hz Hsup Hw. unfold at_most.
    apply (box_before_ind (fa_dims u) (fun c => exists y : Qc, fel u c m' = Some (y : QcS) /\ y <= x c)). intros c Hc IH.
    destruct (Hdec c) as [Hv|Nv]; [|rewrite (swept_elsewhere m m' c Hsw Hc Nv); apply Hw; exact Hc].
    destruct (swept_value m m' c Hsw Hst Hv) as (a0 & b & cf & y & z & Ea & Eb & Hs & Hy & Eu).
    eexists. split; [exact Eu|].
    destruct (Hsup c Hv) as (b' & d & Eb' & Hr & Hle). assert (b' = b) by congruence. subst b'.
    rewrite (row_of_x tab st n x visited Hn m c a0 d cf z Hdf Hv Ea Hs Hr) in *.
    destruct (Hz c Hv) as (a0' & cf' & Ea' & Pa & Hs'). assert (a0' = a0) by congruence. subst a0'.
    assert (C := total_antitone cf y z 1 (n - 1)). lapply C; [clear C; intros C|].
    2:{ intros s Hss. split; [destruct (Hs s Hss) as [E1 _], (Hs' s Hss) as [E2 Hn']; assert (cf' s = cf s) by congruence; congruence|].
        destruct (Hy s Hss) as (c' & Hc' & -> & Ey). destruct (before c' c) eqn:B.
        - destruct (IH c' Hc' B) as (y' & Ey' & Hy'). assert (y' = y s) by congruence. subst. exact Hy'.
        - destruct (Hw c' Hc') as (y' & Ey' & Hy'). assert (y' = y s) by congruence. subst. exact Hy'. }
    set (ty := total (S := QcS) 1 (n - 1) (fun s => cf s * y s)) in *.
    set (tz := total (S := QcS) 1 (n - 1) (fun s => cf s * z s)) in *.
    change ((b - ty) * / a0 <= x c).
    assert (P := Qcinv_pos a0 Pa). assert (N : a0 <> 0) by (intros ->; exact (Qclt_not_eq _ _ Pa eq_refl)).
    replace (x c) with (a0 * x c * / a0) by (field; exact N).
    apply Qcmult_le_compat_r; [qc_lra|apply Qclt_le_weak; exact P].
  Qed.

  Lemma swept_at_least (m m' : mem) :
    swept m m' tab st n f u visited -> stays m tab 1 (n - 1) (fa_dims u) visited -> diagonal_first m tab visited ->
    z_matrix m st n visited -> subsolution m tab st n f x visited ->
    at_least m u x (in_box (fa_dims u)) -> at_least m' u x (in_box (fa_dims u)).
  Proof.
    intros Hsw Hst Hdf Hz Hsup Hw. unfold at_least.
    apply (box_before_ind (fa_dims u) (fun c => exists y : Qc, fel u c m' = Some (y : QcS) /\ x c <= y)). intros c Hc IH.
    destruct (Hdec c) as [Hv|Nv]; [|rewrite (swept_elsewhere m m' c Hsw Hc Nv); apply Hw; exact Hc].
    destruct (swept_value m m' c Hsw Hst Hv) as (a0 & b & cf & y & z & Ea & Eb & Hs & Hy & Eu).
    eexists. split; [exact Eu|].
    destruct (Hsup c Hv) as (b' & d & Eb' & Hr & Hle). assert (b' = b) by congruence. subst b'.
    rewrite (row_of_x tab st n x visited Hn m c a0 d cf z Hdf Hv Ea Hs Hr) in *.
    destruct (Hz c Hv) as (a0' & cf' & Ea' & Pa & Hs'). assert (a0' = a0) by congruence. subst a0'.
    assert (C := total_antitone cf z y 1 (n - 1)). lapply C; [clear C; intros C|].
    2:{ intros s Hss. split; [destruct (Hs s Hss) as [E1 _], (Hs' s Hss) as [E2 Hn']; assert (cf' s = cf s) by congruence; congruence|].
        destruct (Hy s Hss) as (c' & Hc' & -> & Ey). destruct (before c' c) eqn:B.
        - destruct (IH c' Hc' B) as (y' & Ey' & Hy'). assert (y' = y s) by congruence. subst. exact Hy'.
        - destruct (Hw c' Hc') as (y' & Ey' & Hy'). assert (y' = y s) by congruence. subst. exact Hy'. }
    set (ty := total (S := QcS) 1 (n - 1) (fun s => cf s * y s)) in *.
    set (tz := total (S := QcS) 1 (n - 1) (fun s => cf s * z s)) in *.
    change (x c <= (b - ty) * / a0).
    assert (P := Qcinv_pos a0 Pa). assert (N : a0 <> 0) by (intros ->; exact (Qclt_not_eq _ _ Pa eq_refl)).
    replace (x c) with (a0 * x c * / a0) by (field; exact N).
    apply Qcmult_le_compat_r; [qc_lra|apply Qclt_le_weak; exact P].
  Qed.
End Sweep.

(** ** One relaxation of all cells *)
Section Relax.
  Notation mem := (mem QcS).
  Context (tab st f u r : farray) (n : Z) (x : list Z -> Qc) (bs : list (Z * Z)) (w : Qc).
  Context (Hn : (1 <= n)%Z) (Hin : forall c, in_box bs c -> in_box (fa_dims u) c) (Hur : fst (fa_ptr u) <> fst (fa_ptr r)).

  Lemma relaxed_elsewhere (m m' : mem) c : relaxed m m' tab st n (w : QcS) f u r bs ->
    in_box (fa_dims u) c -> ~ in_box bs c -> fel u c m' = fel u c m.
  Proof.
    intros (_ & F & _) Hc Nv. unfold fel. apply F. intros c' Hv. split.
    - intros E. apply Nv. destruct u as [p ds]. apply faddr_inj in E; [congruence| |exact Hc]. apply Hin. exact Hv.
    - intros E. apply Hur. apply (f_equal fst) in E. unfold faddr, padd in E. cbn in E. congruence.
  Qed.

  Lemma relaxed_value (m m' : mem) c : relaxed m m' tab st n (w : QcS) f u r bs -> stays m tab 1 (n - 1) (fa_dims u) (in_box bs) ->
    diagonal_first m tab (in_box bs) -> in_box bs c ->
    exists (a0 b v : Qc) (cf y z : Z -> Qc),
      fel st (0%Z :: c) m = Some (a0 : QcS) /\ fel f c m = Some (b : QcS) /\ fel u c m = Some (v : QcS) /\
      (forall s, (1 <= s <= n - 1)%Z -> fel st (s :: c) m = Some (cf s : QcS) /\ exists c', displaced_cell m tab 0 s c c' /\ z s = x c') /\
      (forall s, (1 <= s <= n - 1)%Z -> exists c', in_box (fa_dims u) c' /\ z s = x c' /\ fel u c' m = Some (y s : QcS)) /\
      fel u c m' = Some (v + w * ((b - (a0 * v + total (S := QcS) 1 (n - 1) (fun s => cf s * y s))) / a0) : QcS).
  Proof.
    intros (V & _ & _) Hst Hd Hc. destruct (V c Hc) as (b & a0 & d & v & Eb & Ea & Ev & Hr & Eu).
    apply row_sum_first in Hr; [|lia].
    destruct Hr as (cf0 & x0 & d' & (E0 & c0 & D & V0) & (cf & y & Hr & ->) & ->).
    rewrite (displaced_cell_fun _ _ _ _ _ _ _ D (Hd c Hc)) in V0.
    assert (cf0 = a0) by congruence. assert (x0 = v) by congruence. subst cf0 x0.
    assert (Hz : forall s, (1 <= s <= n - 1)%Z -> exists c', displaced_cell m tab 0 s c c' /\ fel u c' m = Some (y s)).
    { intros s Hs. apply Hr. lia. }
    assert (exists z : Z -> Qc, forall s, (1 <= s <= n - 1)%Z -> exists c', displaced_cell m tab 0 s c c' /\ z s = x c' /\ fel u c' m = Some (y s)) as [z Hz'].
    { clear -Hz. assert (forall k, exists z : Z -> Qc, forall s, (1 <= s <= n - 1)%Z -> (s <= Z.of_nat k)%Z ->
        exists c', displaced_cell m tab 0 s c c' /\ z s = x c' /\ fel u c' m = Some (y s)) as K.
      { induction k as [|k [z IH]]; [exists (fun _ => 0); intros; lia|].
        destruct (Z_le_dec (Z.of_nat (Datatypes.S k)) (n - 1)) as [Hk|Hk].
        - destruct (Hz (Z.of_nat (Datatypes.S k)) ltac:(lia)) as (c' & D & E).
          exists (fun s => if (s =? Z.of_nat (Datatypes.S k))%Z then x c' else z s). intros s Hs Hs'.
          destruct (Z.eqb_spec s (Z.of_nat (Datatypes.S k))) as [->|N]; [exists c'; auto|]. apply IH; lia.
        - exists z. intros s Hs Hs'. apply IH; lia. }
      destruct (K (Z.to_nat n)) as [z Hz']. exists z. intros s Hs. apply Hz'; lia. }
    exists a0, b, v, cf, y, z. repeat (split; [assumption|]). split; [|split].
    - intros s Hs. split; [apply Hr; lia|]. destruct (Hz' s Hs) as (c' & D1 & E & _). exists c'. auto.
    - intros s Hs. destruct (Hz' s Hs) as (c' & D1 & E & F). exists c'. split; [exact (Hst c s c' Hc Hs D1)|]. auto.
    - exact Eu.
  Qed.

  Lemma relaxed_within (m m' : mem) q E :
    relaxed m m' tab st n (w : QcS) f u r bs -> stays m tab 1 (n - 1) (fa_dims u) (in_box bs) -> diagonal_first m tab (in_box bs) ->
    dominant m st n q (in_box bs) -> solution m tab st n f x (in_box bs) -> 0 <= w -> w <= 1 -> 0 <= q -> 0 <= E ->
    within m u x E (in_box (fa_dims u)) -> within m' u x ((1 - w + w * q) * E) (in_box bs).
  Proof.
    intros Hre Hst Hdf Hdom Hsol Hw0 Hw1 Hq0 HE Hw c Hc.
    destruct (relaxed_value m m' c Hre Hst Hdf Hc) as (a0 & b & v & cf & y & z & Ea & Eb & Ev & Hs & Hy & Eu).
    eexists. split; [exact Eu|].
    destruct (Hsol c Hc) as (b' & d & Eb' & Hr & ->). assert (b' = b) by congruence. subst b'.
    rewrite (row_of_x tab st n x (in_box bs) Hn m c a0 b cf z Hdf Hc Ea Hs Hr) in *.
    destruct (Hdom c Hc) as (a0' & cf' & Ea' & Na & Hs' & Hle). assert (a0' = a0) by congruence. subst a0'.
    assert (T : total (S := QcS) 1 (n - 1) (fun s => Qcabs (cf s)) = total (S := QcS) 1 (n - 1) (fun s => Qcabs (cf' s))).
    { apply total_ext_q. intros s Hss. destruct (Hs s Hss) as [E1 _]. specialize (Hs' s Hss). congruence. }
    rewrite <- T in Hle.
    assert (C := total_change cf y z E 1 (n - 1)). lapply C; [clear C; intros C|].
    2:{ intros s Hss. destruct (Hy s Hss) as (c' & Hc' & -> & Ey).
        destruct (Hw c' Hc') as (y' & Ey' & Hy'). assert (y' = y s) by congruence. subst. exact Hy'. }
    destruct (Hw c (Hin c Hc)) as (v' & Ev' & Hv). assert (v' = v) by congruence. subst v'.
    set (ty := total (S := QcS) 1 (n - 1) (fun s => cf s * y s)) in *.
    set (tz := total (S := QcS) 1 (n - 1) (fun s => cf s * z s)) in *.
    set (ta := total (S := QcS) 1 (n - 1) (fun s => Qcabs (cf s))) in *.
    change (Qcabs (v + w * ((a0 * x c + tz - (a0 * v + ty)) / a0) - x c) <= (1 - w + w * q) * E).
    replace (v + w * ((a0 * x c + tz - (a0 * v + ty)) / a0) - x c) with ((1 - w) * (v - x c) + w * ((- (ty - tz)) * / a0)) by (field; exact Na).
    eapply Qcle_trans; [apply Qcabs_triangle|]. rewrite !Qcabs_Qcmult, Qcabs_opp.
    rewrite (Qcabs_pos w) by exact Hw0. rewrite (Qcabs_pos (1 - w)) by qc_lra.
    assert (Hi : Qcabs a0 * Qcabs (/ a0) = 1).
    { rewrite <- Qcabs_Qcmult, Qcmult_inv_r by exact Na. apply Qcabs_pos. discriminate. }
    assert (P := Qcabs_nonneg (/ a0)).
    assert (B : Qcabs (ty - tz) * Qcabs (/ a0) <= q * E).
    { apply Qcle_trans with (E * ta * Qcabs (/ a0)); [apply Qcmult_le_compat_r; assumption|].
      apply Qcle_trans with (E * (q * Qcabs a0) * Qcabs (/ a0)).
      - apply Qcmult_le_compat_r; [|exact P]. rewrite !(Qcmult_comm E). apply Qcmult_le_compat_r; assumption.
      - replace (E * (q * Qcabs a0) * Qcabs (/ a0)) with (E * q * (Qcabs a0 * Qcabs (/ a0))) by ring. rewrite Hi.
        replace (E * q * 1) with (q * E) by ring. apply Qcle_refl. }
    apply Qcle_trans with ((1 - w) * E + w * (q * E)).
    - apply Qcplus_le_compat.
      + rewrite (Qcmult_comm (1 - w) (Qcabs _)), (Qcmult_comm (1 - w) E). apply Qcmult_le_compat_r; [exact Hv|qc_lra].
      + rewrite (Qcmult_comm w (Qcabs _ * _)), (Qcmult_comm w (q * E)). apply Qcmult_le_compat_r; assumption.
    - replace ((1 - w) * E + w * (q * E)) with ((1 - w + w * q) * E) by ring. apply Qcle_refl.
  Qed.

  Lemma relaxed_at_most (m m' : mem) :
    relaxed m m' tab st n (w : QcS) f u r bs -> stays m tab 1 (n - 1) (fa_dims u) (in_box bs) -> diagonal_first m tab (in_box bs) ->
    z_matrix m st n (in_box bs) -> supersolution m tab st n f x (in_box bs) -> 0 <= w -> w <= 1 ->
    at_most m u x (in_box (fa_dims u)) -> at_most m' u x (in_box (fa_dims u)).
  Proof.
    intros Hre Hst Hdf Hz Hsup Hw0 Hw1 Hw c0 Hc0. destruct (in_box_dec bs c0) as [Hc|Nc].
    2:{ rewrite (relaxed_elsewhere m m' c0 Hre Hc0 Nc). apply Hw. exact Hc0. }
    destruct (relaxed_value m m' c0 Hre Hst Hdf Hc) as (a0 & b & v & cf & y & z & Ea & Eb & Ev & Hs & Hy & Eu).
    eexists. split; [exact Eu|].
    destruct (Hsup c0 Hc) as (b' & d & Eb' & Hr & Hle). assert (b' = b) by congruence. subst b'.
    rewrite (row_of_x tab st n x (in_box bs) Hn m c0 a0 d cf z Hdf Hc Ea Hs Hr) in *.
    destruct (Hz c0 Hc) as (a0' & cf' & Ea' & Pa & Hs'). assert (a0' = a0) by congruence. subst a0'.
    assert (C := total_antitone cf y z 1 (n - 1)). lapply C; [clear C; intros C|].
    2:{ intros s Hss. split; [destruct (Hs s Hss) as [E1 _], (Hs' s Hss) as [E2 Hn']; assert (cf' s = cf s) by congruence; congruence|].
        destruct (Hy s Hss) as (c' & Hc' & -> & Ey). destruct (Hw c' Hc') as (y' & Ey' & Hy'). assert (y' = y s) by congruence. subst. exact Hy'. }
    destruct (Hw c0 Hc0) as (v' & Ev' & Hv). assert (v' = v) by congruence. subst v'.
    set (ty := total (S := QcS) 1 (n - 1) (fun s => cf s * y s)) in *.
    set (tz := total (S := QcS) 1 (n - 1) (fun s => cf s * z s)) in *.
    assert (P := Qcinv_pos a0 Pa). assert (N : a0 <> 0) by (intros ->; exact (Qclt_not_eq _ _ Pa eq_refl)).
    assert (G : (b - ty) * / a0 <= x c0).
    { replace (x c0) with (a0 * x c0 * / a0) by (field; exact N).
      apply Qcmult_le_compat_r; [qc_lra|apply Qclt_le_weak; exact P]. }
    change (v + w * ((b - (a0 * v + ty)) / a0) <= x c0).
    replace (v + w * ((b - (a0 * v + ty)) / a0)) with ((1 - w) * v + w * ((b - ty) * / a0)) by (field; exact N).
    set (g := (b - ty) * / a0) in *. clearbody g. qc_nra.
  Qed.

  Lemma relaxed_at_least (m m' : mem) :
    relaxed m m' tab st n (w : QcS) f u r bs -> stays m tab 1 (n - 1) (fa_dims u) (in_box bs) -> diagonal_first m tab (in_box bs) ->
    z_matrix m st n (in_box bs) -> subsolution m tab st n f x (in_box bs) -> 0 <= w -> w <= 1 ->
    at_least m u x (in_box (fa_dims u)) -> at_least m' u x (in_box (fa_dims u)).
  Proof.
    intros Hre Hst Hdf Hz Hsup Hw0 Hw1 Hw c0 Hc0. destruct (in_box_dec bs c0) as [Hc|Nc].
    2:{ rewrite (relaxed_elsewhere m m' c0 Hre Hc0 Nc). apply Hw. exact Hc0. }
    destruct (relaxed_value m m' c0 Hre Hst Hdf Hc) as (a0 & b & v & cf & y & z & Ea & Eb & Ev & Hs & Hy & Eu).
    eexists. split; [exact Eu|].
    destruct (Hsup c0 Hc) as (b' & d & Eb' & Hr & Hle). assert (b' = b) by congruence. subst b'.
    rewrite (row_of_x tab st n x (in_box bs) Hn m c0 a0 d cf z Hdf Hc Ea Hs Hr) in *.
    destruct (Hz c0 Hc) as (a0' & cf' & Ea' & Pa & Hs'). assert (a0' = a0) by congruence. subst a0'.
    assert (C := total_antitone cf z y 1 (n - 1)). lapply C; [clear C; intros C|].
    2:{ intros s Hss. split; [destruct (Hs s Hss) as [E1 _], (Hs' s Hss) as [E2 Hn']; assert (cf' s = cf s) by congruence; congruence|].
        destruct (Hy s Hss) as (c' & Hc' & -> & Ey). destruct (Hw c' Hc') as (y' & Ey' & Hy'). assert (y' = y s) by congruence. subst. exact Hy'. }
    destruct (Hw c0 Hc0) as (v' & Ev' & Hv). assert (v' = v) by congruence. subst v'.
    set (ty := total (S := QcS) 1 (n - 1) (fun s => cf s * y s)) in *.
    set (tz := total (S := QcS) 1 (n - 1) (fun s => cf s * z s)) in *.
    assert (P := Qcinv_pos a0 Pa). assert (N : a0 <> 0) by (intros ->; exact (Qclt_not_eq _ _ Pa eq_refl)).
    assert (G : x c0 <= (b - ty) * / a0).
    { replace (x c0) with (a0 * x c0 * / a0) by (field; exact N).
      apply Qcmult_le_compat_r; [qc_lra|apply Qclt_le_weak; exact P]. }
    change (x c0 <= v + w * ((b - (a0 * v + ty)) / a0)).
    replace (v + w * ((b - (a0 * v + ty)) / a0)) with ((1 - w) * v + w * ((b - ty) * / a0)) by (field; exact N).
    set (g := (b - ty) * / a0) in *. clearbody g. qc_nra.
  Qed.
End Relax.

(** ** The system is not changed *)
Section System.
  Notation mem := (mem QcS).

  Definition same_system (m m' : mem) (st f : farray) : Prop :=
    ints m' = ints m /\ (forall is, fel st is m' = fel st is m) /\ (forall is, fel f is m' = fel f is m).

  Lemma same_refl m st f : same_system m m st f.
  Proof. repeat split. Qed.
  Lemma same_trans m1 m2 m3 st f : same_system m1 m2 st f -> same_system m2 m3 st f -> same_system m1 m3 st f.
  Proof. intros (A & B & C) (A' & B' & C'). split; [congruence|]. split; intros is; [rewrite B', B|rewrite C', C]; reflexivity. Qed.

  Lemma swept_same (m m' : mem) tab st n f u visited : fst (fa_ptr u) <> fst (fa_ptr st) -> fst (fa_ptr u) <> fst (fa_ptr f) ->
    swept m m' tab st n f u visited -> same_system m m' st f.
  Proof.
    intros Hs Hf (_ & F & I). split; [exact I|]. split; intros is; unfold fel; apply F; intros c _ E;
      apply (f_equal fst) in E; unfold faddr, padd in E; cbn in E; congruence.
  Qed.

  Lemma relaxed_same (m m' : mem) tab st n w f u r bs : fst (fa_ptr u) <> fst (fa_ptr st) -> fst (fa_ptr u) <> fst (fa_ptr f) ->
    fst (fa_ptr r) <> fst (fa_ptr st) -> fst (fa_ptr r) <> fst (fa_ptr f) ->
    relaxed m m' tab st n w f u r bs -> same_system m m' st f.
  Proof.
    intros Hs Hf Hs' Hf' (_ & F & I). split; [exact I|]. split; intros is; unfold fel; apply F; intros c _; split; intros E;
      apply (f_equal fst) in E; unfold faddr, padd in E; cbn in E; congruence.
  Qed.

  Lemma same_displaced (m m' : mem) tab s c c' : ints m' = ints m -> displaced_cell m' tab 0 s c c' -> displaced_cell m tab 0 s c c'.
  Proof. intros I [L H]. split; [exact L|]. intros k Hk. specialize (H k Hk). unfold loadi in *. rewrite I in H. exact H. Qed.

  Section Moved.
    Context (m m' : mem) (tab st f : farray) (n : Z) (visited : list Z -> Prop) (Hm : same_system m m' st f).

    Lemma same_stays lo hi bs : stays m tab lo hi bs visited -> stays m' tab lo hi bs visited.
    Proof. intros H c s c' Hc Hs D. apply (H c s c' Hc Hs). apply (same_displaced m m'); [apply Hm|exact D]. Qed.
    Lemma same_diagonal : diagonal_first m tab visited -> diagonal_first m' tab visited.
    Proof. intros H c Hc. apply (same_displaced m' m); [symmetry; apply Hm|]. apply H. exact Hc. Qed.
    Lemma same_dominant q : dominant m st n q visited -> dominant m' st n q visited.
    Proof.
      destruct Hm as (_ & E & _). intros H c Hc. destruct (H c Hc) as (a0 & cf & A & B & C & D). exists a0, cf.
      rewrite E. repeat (split; [assumption|]). split; [|exact D]. intros s Hs. rewrite E. apply C. exact Hs.
    Qed.
    Lemma same_z_matrix : z_matrix m st n visited -> z_matrix m' st n visited.
    Proof.
      destruct Hm as (_ & E & _). intros H c Hc. destruct (H c Hc) as (a0 & cf & A & B & C). exists a0, cf.
      rewrite E. repeat (split; [assumption|]). intros s Hs. rewrite E. apply C. exact Hs.
    Qed.
    Lemma same_row rel x : row_is rel m tab st n f x visited -> row_is rel m' tab st n f x visited.
    Proof.
      destruct Hm as (I & E & F). intros H c Hc. destruct (H c Hc) as (b & d & A & B & C). exists b, d.
      rewrite F. split; [exact A|]. split; [|exact C]. refine (row_sum_ext m m' tab st 0 0 (n - 1) c _ _ d I _ _ B); [intros; apply E|reflexivity].
    Qed.
  End Moved.

  (** *** Repetition *)
  Lemma repeated_inv {M} (I : nat -> M -> Prop) (s : M -> option M) k m m' :
    (forall j m1 m2, I j m1 -> s m1 = Some m2 -> I (Datatypes.S j) m2) -> I O m -> repeated k s m = Some m' -> I k m'.
  Proof.
    intros H. assert (K : forall k j m, I j m -> repeated k s m = Some m' -> I (j + k)%nat m').
    { clear m k. induction k as [|k IH]; intros j m Hm E; cbn [repeated] in E.
      - injection E as <-. rewrite Nat.add_0_r. exact Hm.
      - apply bind_Some_inv in E as (m1 & E1 & E). apply (H j) in E1; [|exact Hm]. replace (j + Datatypes.S k)%nat with (Datatypes.S j + k)%nat by lia.
        apply (IH _ m1); assumption. }
    intros Hm E. exact (K k O m Hm E).
  Qed.

  Lemma Qcpow_S q k : q ^ Datatypes.S k = q * q ^ k.
  Proof. reflexivity. Qed.
  Lemma Qcpow_nonneg q k : 0 <= q -> 0 <= q ^ k.
  Proof. intros H. induction k as [|k IH]; [discriminate|]. rewrite Qcpow_S. apply Qcmul_nonneg; assumption. Qed.

  (** A step that multiplies the error by [q]. *)
  Lemma repeated_within (P : mem -> option mem) (st f u : farray) x bs q E k m m' :
    0 <= q -> 0 <= E ->
    (forall c, in_box bs c -> in_box (fa_dims u) c) ->
    (forall m1 m2 E', same_system m m1 st f -> 0 <= E' -> within m1 u x E' (in_box (fa_dims u)) -> P m1 = Some m2 ->
       same_system m1 m2 st f /\ within m2 u x (q * E') (in_box bs) /\
       (forall c, in_box (fa_dims u) c -> ~ in_box bs c -> fel u c m2 = fel u c m1)) ->
    equals m u x (around u bs) ->
    within m u x E (in_box bs) ->
    repeated k P m = Some m' -> within m' u x (q ^ k * E) (in_box bs).
  Proof.
    intros Hq HE Hb Hstep Hg Hw Er.
    refine (proj1 (proj2 (repeated_inv (fun k m1 => same_system m m1 st f /\ within m1 u x (q ^ k * E) (in_box bs) /\
      equals m1 u x (around u bs)) P k m m' _ _ Er))).
    - intros j m1 m2 (Hs & Hw1 & Hg1) E1.
      assert (HE' : 0 <= q ^ j * E) by (apply Qcmul_nonneg; [apply Qcpow_nonneg|]; assumption).
      destruct (Hstep m1 m2 (q ^ j * E) Hs HE') as (S1 & W1 & F1).
      + intros c Hc. destruct (in_box_dec bs c) as [Hi|Ni]; [apply Hw1; exact Hi|].
        exists (x c). split; [apply Hg1; split; assumption|]. replace (x c - x c) with 0 by ring. rewrite Qcabs_pos by apply Qcle_refl. exact HE'.
      + exact E1.
      + split; [apply (same_trans _ m1); assumption|]. split.
        * rewrite Qcpow_S, <- Qcmult_assoc. exact W1.
        * intros c [Hc Nc]. rewrite F1 by assumption. apply Hg1. split; assumption.
    - split; [apply same_refl|]. split; [|exact Hg]. replace (q ^ 0 * E) with E by (cbn; ring). exact Hw.
  Qed.
End System.
