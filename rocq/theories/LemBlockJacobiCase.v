(** * A case for block Jacobi *)

From Coq Require Import QArith Qcanon.
From Verif Require Import Base FortranBase FortranLoops FortranSmooth FortranBlock Instances SpecRow SpecSmooth SpecBlock SpecBlockJacobi
  LemBase LemSmooth LemNodeRefute LemSmoothFinal LemSmoothRefute LemBlockCase LemDense.
Import ListNotations.
Open Scope Z_scope.

(** Cramer's rule for two equations. *)
Definition cramer2 : lapack QcS := {|
  la_pivots := unit;
  la_getrf := fun _ A => (A, tt);
  la_getrs := fun _ F _ b j =>
    let det := (F 0 0 * F 1 1 - F 0 1 * F 1 0)%T in
    if j =? 0 then ((b 0 * F 1 1 - b 1 * F 0 1) / det)%T else ((F 0 0 * b 1 - F 1 0 * b 0) / det)%T
|}.

Lemma total_two (f : Z -> QcS) : total 0 (2 - 1) f = (f 0 + f 1)%T.
Proof. unfold total. change (Z.to_nat (2 - 1 - 0 + 1)) with 2%nat. cbn [seq fold_right]. change (0 + Z.of_nat 0) with 0. change (0 + Z.of_nat 1) with 1. change (lit 0 : QcS) with (Q2Qc 0). apply (f_equal (Qcplus (f 0))). apply Qcplus_0_r. Qed.

Lemma cramer2_correct : solver_correct cramer2 2.
Proof.
  intros A F b NS HF i Hi. rewrite total_two. cbn [cramer2 la_getrf la_getrs fst snd] in *.
  change (0 =? 0) with true. change (1 =? 0) with false. cbv iota.
  rewrite !HF by lia. set (a := A 0 0). set (b' := A 0 1). set (c := A 1 0). set (d := A 1 1).
  assert (D : (a * d - b' * c)%Qc <> Q2Qc 0).
  { intros D. assert (K : forall x y : Qc, (a * x + b' * y)%Qc = Q2Qc 0 -> (c * x + d * y)%Qc = Q2Qc 0 -> x = Q2Qc 0 /\ y = Q2Qc 0).
    { intros x y H1 H2. pose proof (NS (fun j => if j =? 0 then x else y)) as N. split.
      - apply (N ltac:(intros j Hj; rewrite total_two; change (0 =? 0) with true; change (1 =? 0) with false; cbv iota; assert (j = 0 \/ j = 1) as [-> | ->] by lia; assumption) 0). lia.
      - apply (N ltac:(intros j Hj; rewrite total_two; change (0 =? 0) with true; change (1 =? 0) with false; cbv iota; assert (j = 0 \/ j = 1) as [-> | ->] by lia; assumption) 1). lia. }
    destruct (K d (- c)%Qc) as [D1 D2]; [rewrite <- D; ring|ring|].
    destruct (K b' (- a)%Qc) as [D3 D4]; [ring|replace (c * b' + d * - a)%Qc with (- (a * d - b' * c))%Qc by ring; rewrite D; reflexivity|].
    assert (a = Q2Qc 0) as A0 by (rewrite <- (Qcopp_involutive a), D4; reflexivity).
    assert (c = Q2Qc 0) as C0 by (rewrite <- (Qcopp_involutive c), D2; reflexivity).
    destruct (K (Q2Qc 1) (Q2Qc 1)) as [X _]; [rewrite A0, D3; ring|rewrite C0, D1; ring|]. discriminate X. }
  assert (i = 0 \/ i = 1) as [-> | ->] by lia.
  all: set (e := b 0); set (g := b 1).
  - change ((a * ((e * d - g * b') / (a * d - b' * c)) + b' * ((a * g - c * e) / (a * d - b' * c)))%Qc = e). field. exact D.
  - change ((c * ((e * d - g * b') / (a * d - b' * c)) + d * ((a * g - c * e) / (a * d - b' * c)))%Qc = g). field. exact D.
Qed.

(** ** A line of four cells, blocks of two *)

(** The stencil 4, -1, -1 in the first direction and a far column behind the table. *)
Definition cols_line : list (list Z) := [[0; 0; 0]; [1; 0; 0]; [-1; 0; 0]; [9; 0; 0]].

Definition line_mem : mem QcS :=
  mkMem [List.concat (repeat [lit 4 : QcS; lit (-1); lit (-1)] 4); map (fun i => lit (3 * Z.of_nat i + 1) : QcS) (seq 0 4); map (fun i => lit (Z.of_nat i * Z.of_nat i) : QcS) (seq 0 6);
         repeat (lit 0 : QcS) 4; repeat (lit 7 : QcS) 4; repeat (lit 7 : QcS) 2; repeat (lit 7 : QcS) 2; repeat (lit 7 : QcS) 6]
        [List.concat cols_line; [0; 2]; [0]; [0]].

Definition line_call : mem QcS -> option (mem QcS) :=
  cellblockjacobi3d cramer2 0 3 0 0 0 0 3 (p 0) (p 0) 0 3 0 0 0 0 (p 1) (-1) 4 0 0 0 0 (p 2) (p 1) 2 2 (p 2) 1 1 (p 3) 1 1 (p 3) (p 4) (p 5) (p 6) (p 7) (lit 4 / lit 5 : QcS)%T.

Definition line_tab := mkFa (p 0) [(0, 2); (0, 3 - 1)].
Definition line_st := mkFa (p 0) ((0, 3 - 1) :: CELL3d 0 0 0 3 0 0 0).
Definition line_first (c0 : list Z) : Prop := exists i j k, c0 = [i; j; k] /\ starts (0 + 0) (0 + 2) 2 i /\ starts (0 + 0) (0 + 0) 1 j /\ starts (0 + 0) (0 + 0) 1 k.

Lemma line_table : table_is line_mem line_tab cols_line.
Proof.
  intros s col Es n o En.
  do 4 (destruct s as [|s]; [injection Es as <-; do 3 (destruct n as [|n]; [injection En as <-; vm_compute; reflexivity|]); destruct n; discriminate|]). destruct s; discriminate.
Qed.

Lemma line_corner c0 : line_first c0 -> c0 = [0; 0; 0] \/ c0 = [2; 0; 0].
Proof.
  intros (i & j & k & -> & (a & Ha & -> & La) & (b & Hb & -> & Lb) & (c & Hc & -> & Lc)).
  assert (b = 0) as -> by lia. assert (c = 0) as -> by lia. assert (a = 0 \/ a = 1) as [-> | ->] by lia; [left|right]; reflexivity.
Qed.

Lemma line_row i val (v : QcS) : 0 <= i <= 3 -> row_sum line_mem line_tab line_st 0 0 (3 - 1) [i; 0; 0] val v ->
  exists x0 x1 x2 : Qc, val [i; 0; 0] = Some x0 /\ val [i + 1; 0; 0] = Some x1 /\ val [i - 1; 0; 0] = Some x2 /\ v = (Q2Qc 4 * x0 - x1 - x2)%Qc.
Proof.
  intros Hi (cf & x & H & ->).
  assert (G : forall s o, 0 <= s <= 2 -> nth_error cols_line (Z.to_nat s) = Some [o; 0; 0] -> fel line_st [s; i; 0; 0] line_mem = Some (cf s) /\ val [i + o; 0; 0] = Some (x s)).
  { intros s o Hs Eo. destruct (H s ltac:(lia)) as (E1 & c' & D & E2). split; [exact E1|].
    apply (table_displaced line_mem line_tab cols_line s [o; 0; 0] [i; 0; 0] c' line_table Eo ltac:(lia) eq_refl) in D. destruct D as [Dl D].
    destruct c' as [|a [|b [|c [|? ?]]]]; try discriminate. pose proof (D 0%nat ltac:(cbn; lia)) as D0. pose proof (D 1%nat ltac:(cbn; lia)) as D1. pose proof (D 2%nat ltac:(cbn; lia)) as D2.
    cbn in D0, D1, D2. subst a b c. replace (i + o) with (i + o) by ring. exact E2. }
  destruct (G 0 0 ltac:(lia) eq_refl) as [C0 X0]. destruct (G 1 1 ltac:(lia) eq_refl) as [C1 X1]. destruct (G 2 (-1) ltac:(lia) eq_refl) as [C2 X2].
  exists (x 0), (x 1), (x 2). rewrite Z.add_0_r in X0. split; [exact X0|]. split; [exact X1|]. split; [exact X2|].
  assert (cf 0 = Q2Qc 4 /\ cf 1 = Q2Qc (-1) /\ cf 2 = Q2Qc (-1)) as (K0 & K1 & K2).
  { assert (i = 0 \/ i = 1 \/ i = 2 \/ i = 3) as [-> | [-> | [-> | ->]]] by lia; vm_compute in C0, C1, C2; injection C0 as <-; injection C1 as <-; injection C2 as <-; repeat split; apply Qc_is_canon; reflexivity. }
  unfold total. change (Z.to_nat (3 - 1 - 0 + 1)) with 3%nat. cbn [seq fold_right]. change (0 + Z.of_nat 0) with 0. change (0 + Z.of_nat 1) with 1. change (0 + Z.of_nat 2) with 2.
  rewrite K0, K1, K2. generalize (x 0), (x 1), (x 2). intros x0 x1 x2.
  change ((Q2Qc 4 * x0 + (Q2Qc (-1) * x1 + (Q2Qc (-1) * x2 + Q2Qc 0)))%Qc = (Q2Qc 4 * x0 - x1 - x2)%Qc). replace (Q2Qc (-1)) with (- (1))%Qc by (apply Qc_is_canon; reflexivity). ring.
Qed.

Lemma line_regular c0 : line_first c0 -> regular_block line_mem line_tab line_st 3 (block_at c0 [2; 1; 1]).
Proof.
  intros F z Hz. assert (exists i, c0 = [i; 0; 0] /\ (i = 0 \/ i = 2)) as (i & -> & Hi) by (destruct (line_corner c0 F); eauto).
  assert (B : forall a, in_box (block_at [i; 0; 0] [2; 1; 1]) [a; 0; 0] <-> a = i \/ a = i + 1).
  { intros a. cbn. split.
    - intros H. inversion_clear H as [|? ? ? ? H1 H2]. cbn in H1. lia.
    - intros H. repeat constructor; cbn; lia. }
  pose proof (Hz [i; 0; 0] ltac:(apply B; auto)) as R0. pose proof (Hz [i + 1; 0; 0] ltac:(apply B; auto)) as R1.
  apply line_row in R0; [|lia]. apply line_row in R1; [|lia].
  destruct R0 as (x0 & x1 & x2 & E0 & E1 & E2 & V0), R1 as (y0 & y1 & y2 & F0 & F1 & F2 & V1).
  assert (I : forall a, inside (block_at [i; 0; 0] [2; 1; 1]) [a; 0; 0] = ((i <=? a) && (a <=? i + 1))%bool).
  { intros a. apply eq_true_iff_eq. rewrite inside_spec, B, andb_true_iff, !Z.leb_le. lia. }
  rewrite I in *. assert (forall a b, (a <=? b) = true <-> a <= b) by apply Z.leb_le.
  replace ((i <=? i) && (i <=? i + 1))%bool with true in E0 by (symmetry; apply andb_true_iff; rewrite !Z.leb_le; lia).
  replace ((i <=? i + 1) && (i + 1 <=? i + 1))%bool with true in E1, F0 by (symmetry; apply andb_true_iff; rewrite !Z.leb_le; lia).
  replace ((i <=? i - 1) && (i - 1 <=? i + 1))%bool with false in E2 by (symmetry; apply andb_false_iff; rewrite !Z.leb_gt; lia).
  replace ((i <=? i + 1 + 1) && (i + 1 + 1 <=? i + 1))%bool with false in F1 by (symmetry; apply andb_false_iff; rewrite !Z.leb_gt; lia).
  replace (i + 1 - 1) with i in F2 by ring. replace ((i <=? i) && (i <=? i + 1))%bool with true in F2 by (symmetry; apply andb_true_iff; rewrite !Z.leb_le; lia).
  injection E0 as <-. injection E1 as <-. injection E2 as <-. injection F0 as <-. injection F1 as <-. injection F2 as <-.
  set (a := z [i; 0; 0]) in *. set (b := z [i + 1; 0; 0]) in *. change (Q2Qc 0 = Q2Qc 4 * a - b - Q2Qc 0)%Qc in V0. change (Q2Qc 0 = Q2Qc 4 * b - Q2Qc 0 - a)%Qc in V1.
  assert (Fifteen : Q2Qc 15 <> Q2Qc 0) by discriminate.
  assert (Ha : (Q2Qc 15 * a)%Qc = Q2Qc 0).
  { transitivity (Q2Qc 4 * (Q2Qc 4 * a - b - Q2Qc 0) + (Q2Qc 4 * b - Q2Qc 0 - a))%Qc; [|rewrite <- V0, <- V1; ring].
    replace (Q2Qc 15) with (Q2Qc 4 * Q2Qc 4 - 1)%Qc by (apply Qc_is_canon; reflexivity). ring. }
  assert (Hb : (Q2Qc 15 * b)%Qc = Q2Qc 0).
  { transitivity (Q2Qc 4 * (Q2Qc 4 * b - Q2Qc 0 - a) + (Q2Qc 4 * a - b - Q2Qc 0))%Qc; [|rewrite <- V0, <- V1; ring].
    replace (Q2Qc 15) with (Q2Qc 4 * Q2Qc 4 - 1)%Qc by (apply Qc_is_canon; reflexivity). ring. }
  intros c Hc. pose proof Hc as Hc'. inversion_clear Hc' as [|? c1 ? ? H1 H2]. cbn in H1. inversion_clear H2 as [|? c2 ? ? H3 H4]. cbn in H3. inversion_clear H4 as [|? c3 ? ? H5 H6]. cbn in H5. inversion H6; subst.
  assert (c2 = 0) as -> by lia. assert (c3 = 0) as -> by lia. assert (c1 = i \/ c1 = i + 1) as [-> | ->] by lia.
  - apply Qcmult_integral in Ha as [K|K]; [contradiction|exact K].
  - apply Qcmult_integral in Hb as [K|K]; [contradiction|exact K].
Qed.

Lemma line_inside c0 c : line_first c0 -> in_box (block_at c0 [2; 1; 1]) c -> in_box [(0, 3); (0, 0); (0, 0)] c /\ in_box (CELL3d (-1) 0 0 4 0 0 0) c.
Proof.
  intros F Hc. assert (exists i, c0 = [i; 0; 0] /\ (i = 0 \/ i = 2)) as (i & -> & Hi) by (destruct (line_corner c0 F); eauto).
  inversion_clear Hc as [|? c1 ? ? H1 H2]. cbn in H1. inversion_clear H2 as [|? c2 ? ? H3 H4]. cbn in H3. inversion_clear H4 as [|? c3 ? ? H5 H6]. cbn in H5. inversion H6; subst.
  split; (constructor; [cbn; lia|]; constructor; [cbn; lia|]; constructor; [cbn; lia|constructor]).
Qed.
