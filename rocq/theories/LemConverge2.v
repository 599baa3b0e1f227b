(** * Convergence and bounds for the point smoothers *)

From Coq Require Import Field QArith Qcanon Qcabs Lqa Qpower.
From Verif Require Import Base FortranBase FortranSmooth Instances SpecRow SpecSmooth SpecConverge LemBase LemKernel LemFortran LemStencil LemSmooth LemCells
  LemSmoothers LemJacobi LemFixedStencil LemSmoothFinal LemRound LemConverge.
Import ListNotations.
Open Scope Z_scope.

Section Any.
  Notation mem := (mem QcS).
  Context (tab st f u : farray) (n : Z) (bs : list (Z * Z)).

  Lemma sub_stays (m : mem) lo hi b (v : list Z -> Prop) : (forall c, v c -> in_box bs c) -> stays m tab lo hi b (in_box bs) -> stays m tab lo hi b v.
  Proof. intros H S c s c' Hc. apply S. apply H. exact Hc. Qed.
  Lemma sub_dominant (m : mem) q (v : list Z -> Prop) : (forall c, v c -> in_box bs c) -> dominant m st n q (in_box bs) -> dominant m st n q v.
  Proof. intros H S c Hc. apply S. apply H. exact Hc. Qed.
  Lemma sub_z (m : mem) (v : list Z -> Prop) : (forall c, v c -> in_box bs c) -> z_matrix m st n (in_box bs) -> z_matrix m st n v.
  Proof. intros H S c Hc. apply S. apply H. exact Hc. Qed.
  Lemma sub_row R x (m : mem) (v : list Z -> Prop) : (forall c, v c -> in_box bs c) -> row_is R m tab st n f x (in_box bs) -> row_is R m tab st n f x v.
  Proof. intros H S c Hc. apply S. apply H. exact Hc. Qed.
  Lemma sub_diag (m : mem) (v : list Z -> Prop) : (forall c, v c -> in_box bs c) -> diagonal_first m tab (in_box bs) -> diagonal_first m tab v.
  Proof. intros H S c Hc. apply S. apply H. exact Hc. Qed.

  Context (Hs : fst (fa_ptr u) <> fst (fa_ptr st)) (Hf : fst (fa_ptr u) <> fst (fa_ptr f)).

  (** ** Sweeps over the whole patch *)
  Section Whole.
    Context (iv : list (list Z)) (P : mem -> option mem).
    Context (HP : forall m1 m2, ints m1 = iv -> stays m1 tab 1 (n - 1) (fa_dims u) (in_box bs) -> P m1 = Some m2 -> swept m1 m2 tab st n f u (in_box bs)).

    Lemma whole_converges (m : mem) : ints m = iv -> converges m P tab st n f u bs (fun q => q).
    Proof.
      intros Hi x q E k m' (Hn & Hb & Hst & Hd) Hdom Hq0 Hq1 Hsol Hg HE Hw Er.
      apply (repeated_within P st f u x bs q E k m m'); try assumption.
      intros m1 m2 E' Hsame HE' Hw1 E1.
      assert (Hst1 := same_stays m m1 tab st f (in_box bs) Hsame _ _ _ Hst).
      assert (Hsw := HP m1 m2 ltac:(rewrite (proj1 Hsame); exact Hi) Hst1 E1).
      split; [apply (swept_same m1 m2 tab st n f u (in_box bs)); assumption|]. split.
      - apply (swept_within tab st f u n x (in_box bs) Hn (in_box_dec bs) Hb m1 m2 q E' Hsw Hst1); try assumption.
        + apply (same_diagonal m m1 tab st f (in_box bs) Hsame Hd).
        + apply (same_dominant m m1 st f n (in_box bs) Hsame q Hdom).
        + apply (same_row m m1 tab st f n (in_box bs) Hsame _ x Hsol).
      - intros c Hc Nc. apply (swept_elsewhere tab st f u n (in_box bs) Hb m1 m2 c Hsw Hc Nc).
    Qed.

    Lemma whole_bounded (m : mem) : ints m = iv -> keeps_bounds m P tab st n f u bs.
    Proof.
      intros Hi x1 x2 k m' (Hn & Hb & Hst & Hd) Hz H1 H2 L1 L2 Er.
      refine (proj2 (repeated_inv (fun _ m1 => same_system m m1 st f /\ at_least m1 u x1 (in_box (fa_dims u)) /\ at_most m1 u x2 (in_box (fa_dims u))) P k m m' _ _ Er)).
      - intros _ m1 m2 (Hsame & A1 & A2) E1.
        assert (Hst1 := same_stays m m1 tab st f (in_box bs) Hsame _ _ _ Hst).
        assert (Hsw := HP m1 m2 ltac:(rewrite (proj1 Hsame); exact Hi) Hst1 E1).
        assert (Hd1 := same_diagonal m m1 tab st f (in_box bs) Hsame Hd).
        assert (Hz1 := same_z_matrix m m1 st f n (in_box bs) Hsame Hz).
        split; [apply (same_trans m m1); [exact Hsame|]; apply (swept_same m1 m2 tab st n f u (in_box bs)); assumption|]. split.
        + apply (swept_at_least tab st f u n x1 (in_box bs) Hn (in_box_dec bs) Hb m1 m2 Hsw Hst1 Hd1 Hz1); [|exact A1].
          apply (same_row m m1 tab st f n (in_box bs) Hsame _ x1 H1).
        + apply (swept_at_most tab st f u n x2 (in_box bs) Hn (in_box_dec bs) Hb m1 m2 Hsw Hst1 Hd1 Hz1); [|exact A2].
          apply (same_row m m1 tab st f n (in_box bs) Hsame _ x2 H2).
      - split; [apply same_refl|]. split; assumption.
    Qed.
  End Whole.

  (** ** Two colours one after the other *)
  Section Colours.
    Context (iv : list (list Z)) (P1 P2 : mem -> option mem) (c1 c2 : Z) (Hc : Z.odd (c1 + c2) = true).
    Context (HP1 : forall m1 m2, ints m1 = iv -> stays m1 tab 1 (n - 1) (fa_dims u) (in_box bs) -> P1 m1 = Some m2 -> swept m1 m2 tab st n f u (coloured bs c1)).
    Context (HP2 : forall m1 m2, ints m1 = iv -> stays m1 tab 1 (n - 1) (fa_dims u) (in_box bs) -> P2 m1 = Some m2 -> swept m1 m2 tab st n f u (coloured bs c2)).

    Lemma colours_cover c : in_box bs c -> (coloured bs c1 c /\ ~ coloured bs c2 c) \/ coloured bs c2 c.
    Proof.
      intros H. unfold coloured. set (s := fold_right Z.add 0 c - _).
      rewrite <- Z.negb_even in Hc. apply negb_true_iff in Hc.
      destruct (Z.even (s + c2)) eqn:E2; [right; auto|]. left. split; [split; [exact H|]|intros [_ K]; discriminate].
      replace (s + c1) with ((s + c2) + (c1 + c2) - 2 * c2) by lia. rewrite Z.even_sub, Z.even_add, Z.even_mul, E2, Hc. reflexivity.
    Qed.

    Let v1 c : coloured bs c1 c -> in_box bs c := fun H => proj1 H.
    Let v2 c : coloured bs c2 c -> in_box bs c := fun H => proj1 H.

    Lemma colours_converge (m : mem) : ints m = iv -> converges m (twice P1 P2) tab st n f u bs (fun q => q).
    Proof.
      intros Hi x q E k m' (Hn & Hb & Hst & Hd) Hdom Hq0 Hq1 Hsol Hg HE Hw Er.
      apply (repeated_within (twice P1 P2) st f u x bs q E k m m'); try assumption.
      intros m1 m2 E' Hsame HE' Hw1 E1. unfold twice in E1. apply bind_Some_inv in E1 as (ma & Ea & Eb).
      assert (Hst1 := same_stays m m1 tab st f (in_box bs) Hsame _ _ _ Hst).
      assert (Sw1 := HP1 m1 ma ltac:(rewrite (proj1 Hsame); exact Hi) Hst1 Ea).
      assert (Sa : same_system m1 ma st f) by (apply (swept_same m1 ma tab st n f u (coloured bs c1)); assumption).
      assert (Hsa := same_trans _ _ _ _ _ Hsame Sa).
      assert (Hsta := same_stays m ma tab st f (in_box bs) Hsa _ _ _ Hst).
      assert (Sw2 := HP2 ma m2 ltac:(rewrite (proj1 Hsa); exact Hi) Hsta Eb).
      assert (Sb : same_system ma m2 st f) by (apply (swept_same ma m2 tab st n f u (coloured bs c2)); assumption).
      destruct (swept_within tab st f u n x (coloured bs c1) Hn (coloured_dec bs c1) (fun c H => Hb c (v1 c H)) m1 ma q E' Sw1) as [W1 W1']; try assumption.
      { apply (sub_stays _ _ _ _ _ v1 Hst1). }
      { apply (sub_diag _ _ v1). apply (same_diagonal m m1 tab st f (in_box bs) Hsame Hd). }
      { apply (sub_dominant _ _ _ v1). apply (same_dominant m m1 st f n (in_box bs) Hsame q Hdom). }
      { apply (sub_row _ _ _ _ v1). apply (same_row m m1 tab st f n (in_box bs) Hsame _ x Hsol). }
      destruct (swept_within tab st f u n x (coloured bs c2) Hn (coloured_dec bs c2) (fun c H => Hb c (v2 c H)) ma m2 q E' Sw2) as [W2 W2']; try assumption.
      { apply (sub_stays _ _ _ _ _ v2 Hsta). }
      { apply (sub_diag _ _ v2). apply (same_diagonal m ma tab st f (in_box bs) Hsa Hd). }
      { apply (sub_dominant _ _ _ v2). apply (same_dominant m ma st f n (in_box bs) Hsa q Hdom). }
      { apply (sub_row _ _ _ _ v2). apply (same_row m ma tab st f n (in_box bs) Hsa _ x Hsol). }
      split; [apply (same_trans m1 ma); assumption|]. split.
      - intros c Hj. destruct (colours_cover c Hj) as [[K1 K2]|K2]; [|apply W2; exact K2].
        rewrite (swept_elsewhere tab st f u n (coloured bs c2) (fun c H => Hb c (v2 c H)) ma m2 c Sw2 (Hb c Hj) K2). apply W1. exact K1.
      - intros c Hj Ni.
        rewrite (swept_elsewhere tab st f u n (coloured bs c2) (fun c H => Hb c (v2 c H)) ma m2 c Sw2 Hj (fun K => Ni (proj1 K))).
        apply (swept_elsewhere tab st f u n (coloured bs c1) (fun c H => Hb c (v1 c H)) m1 ma c Sw1 Hj (fun K => Ni (proj1 K))).
    Qed.

    Lemma colours_bounded (m : mem) : ints m = iv -> keeps_bounds m (twice P1 P2) tab st n f u bs.
    Proof.
      intros Hi x1 x2 k m' (Hn & Hb & Hst & Hd) Hz H1 H2 L1 L2 Er.
      refine (proj2 (repeated_inv (fun _ m1 => same_system m m1 st f /\ at_least m1 u x1 (in_box (fa_dims u)) /\ at_most m1 u x2 (in_box (fa_dims u))) (twice P1 P2) k m m' _ _ Er)).
      - assert (G : forall P c0, (forall m1 m2, ints m1 = iv -> stays m1 tab 1 (n - 1) (fa_dims u) (in_box bs) -> P m1 = Some m2 -> swept m1 m2 tab st n f u (coloured bs c0)) ->
          forall m1 m2, same_system m m1 st f -> at_least m1 u x1 (in_box (fa_dims u)) -> at_most m1 u x2 (in_box (fa_dims u)) -> P m1 = Some m2 ->
          same_system m m2 st f /\ at_least m2 u x1 (in_box (fa_dims u)) /\ at_most m2 u x2 (in_box (fa_dims u))).
        { intros P c0 HP m1 m2 Hsame A1 A2 E1.
          assert (v0 : forall c, coloured bs c0 c -> in_box bs c) by (intros c [K _]; exact K).
          assert (Hst1 := same_stays m m1 tab st f (in_box bs) Hsame _ _ _ Hst).
          assert (Hsw := HP m1 m2 ltac:(rewrite (proj1 Hsame); exact Hi) Hst1 E1).
          assert (Hd1 := same_diagonal m m1 tab st f (in_box bs) Hsame Hd).
          assert (Hz1 := same_z_matrix m m1 st f n (in_box bs) Hsame Hz).
          split; [apply (same_trans m m1); [exact Hsame|]; apply (swept_same m1 m2 tab st n f u (coloured bs c0)); assumption|]. split.
          + apply (swept_at_least tab st f u n x1 (coloured bs c0) Hn (coloured_dec bs c0) (fun c H => Hb c (v0 c H)) m1 m2 Hsw
              (sub_stays _ _ _ _ _ v0 Hst1) (sub_diag _ _ v0 Hd1) (sub_z _ _ v0 Hz1)); [|exact A1].
            apply (sub_row _ _ _ _ v0), (same_row m m1 tab st f n (in_box bs) Hsame _ x1 H1).
          + apply (swept_at_most tab st f u n x2 (coloured bs c0) Hn (coloured_dec bs c0) (fun c H => Hb c (v0 c H)) m1 m2 Hsw
              (sub_stays _ _ _ _ _ v0 Hst1) (sub_diag _ _ v0 Hd1) (sub_z _ _ v0 Hz1)); [|exact A2].
            apply (sub_row _ _ _ _ v0), (same_row m m1 tab st f n (in_box bs) Hsame _ x2 H2). }
        intros _ m1 m2 (Hsame & A1 & A2) E1. unfold twice in E1. apply bind_Some_inv in E1 as (ma & Ea & Eb).
        destruct (G P1 c1 HP1 m1 ma Hsame A1 A2 Ea) as (Sa & B1 & B2). exact (G P2 c2 HP2 ma m2 Sa B1 B2 Eb).
      - split; [apply same_refl|]. split; assumption.
    Qed.
  End Colours.

  (** ** Jacobi *)
  Section Jacobi.
    Context (r : farray) (w : Qc) (P : mem -> option mem).
    Context (Hur : fst (fa_ptr u) <> fst (fa_ptr r)) (Hrs : fst (fa_ptr r) <> fst (fa_ptr st)) (Hrf : fst (fa_ptr r) <> fst (fa_ptr f)).
    Context (HP : forall m1 m2, P m1 = Some m2 -> relaxed m1 m2 tab st n (w : QcS) f u r bs).

    Lemma jacobi_converges (m : mem) : (0 <= w)%Qc -> (w <= 1)%Qc -> converges m P tab st n f u bs (fun q => (1 - w + w * q)%Qc).
    Proof.
      intros Hw0 Hw1 x q E k m' (Hn & Hb & Hst & Hd) Hdom Hq0 Hq1 Hsol Hg HE Hw Er.
      apply (repeated_within P st f u x bs (1 - w + w * q)%Qc E k m m'); try assumption; [qc_nra|].
      intros m1 m2 E' Hsame HE' Hw' E1.
      assert (Hst1 := same_stays m m1 tab st f (in_box bs) Hsame _ _ _ Hst).
      assert (Hre := HP m1 m2 E1).
      split; [apply (relaxed_same m1 m2 tab st n (w : QcS) f u r bs); assumption|]. split.
      - apply (relaxed_within tab st f u r n x bs w Hn Hb Hur m1 m2 q E' Hre Hst1); try assumption.
        + apply (same_diagonal m m1 tab st f (in_box bs) Hsame Hd).
        + apply (same_dominant m m1 st f n (in_box bs) Hsame q Hdom).
        + apply (same_row m m1 tab st f n (in_box bs) Hsame _ x Hsol).
      - intros c Hc Nc. apply (relaxed_elsewhere tab st f u r n bs w Hb Hur m1 m2 c Hre Hc Nc).
    Qed.

    Lemma jacobi_bounded (m : mem) : (0 <= w)%Qc -> (w <= 1)%Qc -> keeps_bounds m P tab st n f u bs.
    Proof.
      intros Hw0 Hw1 x1 x2 k m' (Hn & Hb & Hst & Hd) Hz H1 H2 L1 L2 Er.
      refine (proj2 (repeated_inv (fun _ m1 => same_system m m1 st f /\ at_least m1 u x1 (in_box (fa_dims u)) /\ at_most m1 u x2 (in_box (fa_dims u))) P k m m' _ _ Er)).
      - intros _ m1 m2 (Hsame & A1 & A2) E1.
        assert (Hst1 := same_stays m m1 tab st f (in_box bs) Hsame _ _ _ Hst).
        assert (Hre := HP m1 m2 E1).
        assert (Hd1 := same_diagonal m m1 tab st f (in_box bs) Hsame Hd).
        assert (Hz1 := same_z_matrix m m1 st f n (in_box bs) Hsame Hz).
        split; [apply (same_trans m m1); [exact Hsame|]; apply (relaxed_same m1 m2 tab st n (w : QcS) f u r bs); assumption|]. split.
        + apply (relaxed_at_least tab st f u r n x1 bs w Hn Hb Hur m1 m2 Hre Hst1 Hd1 Hz1); try assumption.
          apply (same_row m m1 tab st f n (in_box bs) Hsame _ x1 H1).
        + apply (relaxed_at_most tab st f u r n x2 bs w Hn Hb Hur m1 m2 Hre Hst1 Hd1 Hz1); try assumption.
          apply (same_row m m1 tab st f n (in_box bs) Hsame _ x2 H2).
      - split; [apply same_refl|]. split; assumption.
    Qed.
  End Jacobi.
End Any.
