(** * Powers get small, constants as bounds *)

From Coq Require Import Field QArith Qcanon Qcabs Lqa Qpower.
From Verif Require Import Base FortranBase Instances SpecRow SpecSmooth SpecConverge LemBase LemSum LemCells LemRound LemConverge.
Import ListNotations.
Open Scope Qc_scope.

(** A constant [M] is a supersolution when every right-hand side is at most [M] times the sum of
    its row, a subsolution when it is at least that. *)
Lemma constant_row (m : mem QcS) tab st n c (t M : Qc) :
  row_sum m tab st 0 0 (n - 1) c (fun _ => Some (1 : QcS)) (t : QcS) -> row_sum m tab st 0 0 (n - 1) c (fun _ => Some (M : QcS)) (M * t : QcS).
Proof.
  intros (cf & x & H & E). exists cf, (fun _ => M : QcS). split.
  - intros s Hs. destruct (H s Hs) as (A & c' & D & _). split; [exact A|]. exists c'. split; [exact D|reflexivity].
  - rewrite E. rewrite <- (total_mul QcS_laws 0 (n - 1) (M : QcS)). apply (total_ext_q _ _ 0 (n - 1)). intros s Hs. destruct (H s Hs) as (_ & c' & _ & X). injection X as <-.
    change (M * (cf s * 1) = cf s * M). ring.
Qed.

Lemma constant_super (m : mem QcS) tab st n f (M : Qc) (visited : list Z -> Prop) :
  (forall c, visited c -> exists b t : Qc, fel f c m = Some (b : QcS) /\ row_sum m tab st 0 0 (n - 1) c (fun _ => Some (1 : QcS)) (t : QcS) /\ b <= M * t) ->
  supersolution m tab st n f (fun _ => M) visited.
Proof. intros H c Hc. destruct (H c Hc) as (b & t & F & R & K). exists b, (M * t). split; [exact F|]. split; [apply constant_row; exact R|exact K]. Qed.

Lemma constant_sub (m : mem QcS) tab st n f (M : Qc) (visited : list Z -> Prop) :
  (forall c, visited c -> exists b t : Qc, fel f c m = Some (b : QcS) /\ row_sum m tab st 0 0 (n - 1) c (fun _ => Some (1 : QcS)) (t : QcS) /\ M * t <= b) ->
  subsolution m tab st n f (fun _ => M) visited.
Proof. intros H c Hc. destruct (H c Hc) as (b & t & F & R & K). exists b, (M * t). split; [exact F|]. split; [apply constant_row; exact R|exact K]. Qed.

(** ** Powers get small *)

Lemma pow_bound (q : Qc) (k : nat) : 0 <= q -> q <= 1 -> q ^ k * (1 + Q2Qc (inject_Z (Z.of_nat k)) * (1 - q)) <= 1.
Proof.
  intros H0 H1. induction k as [|k IH].
  - replace (Q2Qc (inject_Z (Z.of_nat 0))) with 0 by (apply Qc_is_canon; reflexivity). cbn [Qcpower]. qc_lra.
  - replace (Q2Qc (inject_Z (Z.of_nat (Datatypes.S k)))) with (Q2Qc (inject_Z (Z.of_nat k)) + 1).
    2:{ apply Qc_is_canon. rewrite this_plus. cbn [this Q2Qc]. rewrite !Qred_correct. rewrite Nat2Z.inj_succ. unfold Z.succ. rewrite inject_Z_plus. reflexivity. }
    assert (P := Qcpow_nonneg q k H0). cbn [Qcpower].
    assert (N : 0 <= Q2Qc (inject_Z (Z.of_nat k))).
    { unfold Qcle. cbn [this Q2Qc]. rewrite !Qred_correct. change (0 <= inject_Z (Z.of_nat k))%Q. unfold Qle, inject_Z. cbn. lia. }
    set (z := Q2Qc (inject_Z (Z.of_nat k))) in * . set (p := q ^ k) in * .
    eapply Qcle_trans; [|exact IH].
    replace (q * p * (1 + (z + 1) * (1 - q))) with (p * (q * (1 + (z + 1) * (1 - q)))) by ring.
    assert (q * (1 + (z + 1) * (1 - q)) <= 1 + z * (1 - q)) as G.
    { assert (0 <= z * (1 - q)) by (apply Qcmul_nonneg; [exact N|qc_lra]). set (y := z * (1 - q)) in * .
      replace (q * (1 + (z + 1) * (1 - q))) with (q + q * y + q * (1 - q)) by (unfold y; ring). qc_nra. }
    rewrite (Qcmult_comm p), (Qcmult_comm p). apply Qcmult_le_compat_r; assumption.
Qed.

Lemma powers_small (q E eps : Qc) : 0 <= q -> q < 1 -> 0 <= E -> 0 < eps -> exists k, q ^ k * E <= eps.
Proof.
  intros H0 H1 HE He. set (d := eps * (1 - q)).
  assert (Hd : 0 < d) by (unfold d; qc_nra).
  destruct (Qarchimedean (this E / this d)) as [p Hp].
  exists (Pos.to_nat p).
  assert (B := pow_bound q (Pos.to_nat p) H0 (Qclt_le_weak _ _ H1)). assert (P := Qcpow_nonneg q (Pos.to_nat p) H0).
  rewrite positive_nat_Z in B. set (z := Q2Qc (inject_Z (Z.pos p))) in * .
  assert (Hz : E <= z * d).
  { unfold Qcle. rewrite this_mult. unfold z. cbn [this Q2Qc]. rewrite Qred_correct.
    assert (D : (0 < this d)%Q) by exact Hd.
    assert (this E == (this E / this d) * this d)%Q as -> by (field; intros K; rewrite K in D; apply (Qlt_irrefl 0); exact D).
    apply Qmult_le_compat_r; [apply Qlt_le_weak; exact Hp|apply Qlt_le_weak; exact D]. }
  set (w := q ^ Pos.to_nat p) in * .
  apply Qcle_trans with (w * (z * d)); [rewrite (Qcmult_comm w), (Qcmult_comm w); apply Qcmult_le_compat_r; assumption|].
  unfold d. replace (w * (z * (eps * (1 - q)))) with ((w * (1 + z * (1 - q))) * eps - w * eps) by ring.
  assert (0 <= w * eps) by (apply Qcmul_nonneg; [exact P|apply Qclt_le_weak; exact He]).
  assert (w * (1 + z * (1 - q)) * eps <= 1 * eps) by (apply Qcmult_le_compat_r; [exact B|apply Qclt_le_weak; exact He]).
  qc_lra.
Qed.

Lemma ratio_below_one (K A : Qc) : 0 <= K -> 0 < A -> 0 <= K / (K + A) /\ K / (K + A) < 1.
Proof.
  intros HK HA. assert (P : 0 < K + A) by qc_lra. assert (I := Qcinv_pos _ P). unfold Qcdiv. split; [apply Qcmul_nonneg; [exact HK|apply Qclt_le_weak; exact I]|].
  assert (E : (K + A) * / (K + A) = 1) by (apply Qcmult_inv_r; intros N; rewrite N in P; qc_lra).
  set (i := / (K + A)) in * . qc_nra.
Qed.

(** ** At most one solution *)
Section Unique.
  Context (m : mem QcS) (tab st : farray) (n : Z) (f u : farray) (bs : list (Z * Z)) (x y : list Z -> Qc) (q : Qc).
  Context (Hfit : fits m tab n u bs) (Hdom : dominant m st n q (in_box bs)) (Hq0 : 0 <= q)
    (Hx : solution m tab st n f x (in_box bs)) (Hy : solution m tab st n f y (in_box bs))
    (Hxy : forall c, around u bs c -> x c = y c).

  Lemma unique_step E : 0 <= E -> (forall c, in_box bs c -> Qcabs (x c - y c) <= E) -> forall c, in_box bs c -> Qcabs (x c - y c) <= q * E.
  Proof.
    intros HE HB c Hc. destruct Hfit as (Hn & Hb & Hst & Hd).
    destruct (Hx c Hc) as (b & d & Eb & R & ->). destruct (Hy c Hc) as (b' & d & Eb' & R' & ->). assert (b' = b) by congruence. subst b'.
    apply row_sum_first in R; [|lia]. apply row_sum_first in R'; [|lia].
    destruct R as (a0 & x0 & dx & (A & cx & Dx & Vx) & (cf & z & Hz & ->) & Ex).
    destruct R' as (a0' & y0 & dy & (A' & cy & Dy & Vy) & (cf' & z' & Hz' & ->) & Ey).
    assert (a0' = a0) by congruence. subst a0'.
    rewrite (displaced_cell_fun _ _ _ _ _ _ _ Dx (Hd c Hc)) in Vx. rewrite (displaced_cell_fun _ _ _ _ _ _ _ Dy (Hd c Hc)) in Vy.
    injection Vx as <-. injection Vy as <-.
    destruct (Hdom c Hc) as (a1 & cg & A1 & Na & Hg & Hle). assert (a1 = a0) by congruence. subst a1.
    assert (T : total (S := QcS) 1 (n - 1) (fun s => Qcabs (cg s)) = total (S := QcS) 1 (n - 1) (fun s => Qcabs (cf s))).
    { apply total_ext_q. intros s Hs. destruct (Hz s Hs) as [E1 _]. specialize (Hg s Hs). congruence. }
    rewrite T in Hle.
    assert (T' : total (S := QcS) 1 (n - 1) (fun s => cf' s * z' s) = total (S := QcS) 1 (n - 1) (fun s => cf s * z' s)).
    { apply total_ext_q. intros s Hs. destruct (Hz s Hs) as [E1 _], (Hz' s Hs) as [E2 _]. assert (cf s = cf' s) by congruence. congruence. }
    assert (C := total_change cf z z' E 1 (n - 1)). lapply C; [clear C; intros C|].
    2:{ intros s Hs. destruct (Hz s Hs) as (_ & c1 & D1 & V1), (Hz' s Hs) as (_ & c2 & D2 & V2).
        rewrite (displaced_cell_fun _ _ _ _ _ _ _ D2 D1) in V2. injection V1 as <-. injection V2 as <-.
        assert (B := Hst c s c1 Hc Hs D1). destruct (in_box_dec bs c1) as [K|K]; [apply HB; exact K|].
        rewrite (Hxy c1 (conj B K)). replace (y c1 - y c1) with 0 by ring. rewrite Qcabs_pos by apply Qcle_refl. exact HE. }
    change (@smul QcS) with Qcmult in * . change (@sadd QcS) with Qcplus in * .
    set (tx := total (S := QcS) 1 (n - 1) (fun s => cf s * z s)) in * .
    set (ty := total (S := QcS) 1 (n - 1) (fun s => cf s * z' s)) in * .
    set (ta := total (S := QcS) 1 (n - 1) (fun s => Qcabs (cf s))) in * .
    assert (D : a0 * (x c - y c) = - (tx - ty)).
    { transitivity ((a0 * x c + tx) - (a0 * y c + ty) - (tx - ty)); [ring|].
      assert (Q1 : a0 * x c + tx = b) by (symmetry; exact Ex). assert (Q2 : a0 * y c + ty = b) by (transitivity (a0 * y c + total (S := QcS) 1 (n - 1) (fun s => cf' s * z' s)); [apply (f_equal (Qcplus (a0 * y c))); symmetry; exact T'|symmetry; exact Ey]). rewrite Q1, Q2. ring. }
    assert (Hi : Qcabs a0 * Qcabs (/ a0) = 1).
    { rewrite <- Qcabs_Qcmult, Qcmult_inv_r by exact Na. apply Qcabs_pos. discriminate. }
    assert (P := Qcabs_nonneg (/ a0)).
    replace (x c - y c) with (a0 * (x c - y c) * / a0) by (field; exact Na). rewrite D, Qcabs_Qcmult, Qcabs_opp.
    apply Qcle_trans with (E * ta * Qcabs (/ a0)); [apply Qcmult_le_compat_r; assumption|].
    apply Qcle_trans with (E * (q * Qcabs a0) * Qcabs (/ a0)).
    - apply Qcmult_le_compat_r; [|exact P]. rewrite !(Qcmult_comm E). apply Qcmult_le_compat_r; assumption.
    - replace (E * (q * Qcabs a0) * Qcabs (/ a0)) with (E * q * (Qcabs a0 * Qcabs (/ a0))) by ring. rewrite Hi.
      replace (E * q * 1) with (q * E) by ring. apply Qcle_refl.
  Qed.

  Lemma unique_powers E k : 0 <= E -> (forall c, in_box bs c -> Qcabs (x c - y c) <= E) -> forall c, in_box bs c -> Qcabs (x c - y c) <= q ^ k * E.
  Proof.
    intros HE HB. induction k as [|k IH].
    - intros c Hc. cbn [Qcpower]. replace (1 * E) with E by ring. apply HB. exact Hc.
    - intros c Hc. cbn [Qcpower]. rewrite <- Qcmult_assoc. apply unique_step; [|exact IH|exact Hc].
      apply Qcmul_nonneg; [apply Qcpow_nonneg; exact Hq0|exact HE].
  Qed.

  Lemma bound_exists (g : list Z -> Qc) (l : list (list Z)) : exists E, 0 <= E /\ forall c, In c l -> g c <= E.
  Proof.
    induction l as [|c l (E & HE & H)]; [exists 0; split; [apply Qcle_refl|intros c []]|].
    destruct (Qclt_le_dec (g c) E) as [K|K].
    - exists E. split; [exact HE|]. intros c' [<-|I]; [apply Qclt_le_weak; exact K|apply H; exact I].
    - exists (g c). split; [apply Qcle_trans with E; assumption|]. intros c' [<-|I]; [apply Qcle_refl|]. apply Qcle_trans with E; [apply H; exact I|exact K].
  Qed.

  Lemma solution_unique : q < 1 -> forall c, in_box bs c -> x c = y c.
  Proof.
    intros Hq1 c Hc. destruct (bound_exists (fun c => Qcabs (x c - y c)) (box_cells bs)) as (E & HE & HB).
    assert (HB' : forall c, in_box bs c -> Qcabs (x c - y c) <= E) by (intros c' Hc'; apply HB, box_cells_in; exact Hc').
    destruct (Qclt_le_dec 0 (Qcabs (x c - y c))) as [K|K].
    - exfalso. set (a := Qcabs (x c - y c)) in * .
      destruct (powers_small q E (a * Q2Qc (Qmake 1 2)) Hq0 Hq1 HE) as [k Hk].
      { apply Qclt_le_trans with (a * Q2Qc (Qmake 1 2)); [|apply Qcle_refl]. assert (0 < Q2Qc (Qmake 1 2)) by (vm_compute; reflexivity). qc_nra. }
      assert (G := unique_powers E k HE HB' c Hc). fold a in G.
      assert (L : a <= a * Q2Qc (Qmake 1 2)) by (eapply Qcle_trans; eassumption).
      replace (a * Q2Qc (Qmake 1 2)) with (a - a * Q2Qc (Qmake 1 2)) in L.
      2:{ transitivity (a * (1 - Q2Qc (Qmake 1 2))); [ring|]. apply (f_equal (Qcmult a)). apply Qc_is_canon. reflexivity. }
      assert (0 < Q2Qc (Qmake 1 2)) by (vm_compute; reflexivity). qc_nra.
    - apply abs_le in K. destruct K. qc_lra.
  Qed.
End Unique.
