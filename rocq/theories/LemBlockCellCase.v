(** * A case with two unknowns per cell *)

From Coq Require Import QArith Qcanon.
From Verif Require Import Base FortranBase FortranLoops FortranBlock FortranBlockCell Instances SpecRow SpecSmooth SpecBlockJacobi SpecBlockCell
  LemBase LemCells LemNodeRefute LemBlockJacobiCase LemExtrapCase LemBlockCell2.
Import ListNotations.
Open Scope Z_scope.

(** Two cells in the first direction.  The diagonal entry is [2 1; 1 3], the other one
    leads to the next cell and is minus the identity. *)
Definition pair_mem : mem QcS :=
  mkMem [map (fun z => lit z : QcS) ([2; -1; 1; 0; 1; 0; 3; -1] ++ [2; -1; 1; 0; 1; 0; 3; -1]); map (fun z => lit z : QcS) [1; 6; 7; 5];
         repeat (lit 7 : QcS) 34 ++ map (fun z => lit z : QcS) [1; 2; 3; 1; 0; 1] ++ repeat (lit 7 : QcS) 32; repeat (lit 0 : QcS) 4; repeat (lit 0 : QcS) 4]
        [[0; 0; 0; 1; 0; 0]].

Definition pair_call : mem QcS -> option (mem QcS) := ccellblkjacobi3d cramer2 0 1 0 0 0 0 2 (p 0) (p 0) 2 0 (p 1) 1 (p 2) 0 (p 3) (p 4).
Definition pair_tab := mkFa (p 0) [(1, 3); (1, 2)].
Definition pair_st := mkFa (p 0) ((1, 2) :: (1, 2 * 2) :: CELL3d 0 0 0 1 0 0 0).
Definition pair_f := mkFa (p 1) ((1, 2) :: CELL3d 0 0 0 1 0 0 0).
Definition pair_u := mkFa (p 2) ((1, 2) :: CELL3d 0 0 0 1 0 0 1).
Definition pair_r := mkFa (p 3) ((1, 2) :: CELL3d 0 0 0 1 0 0 0).
Definition pair_box := [(0, 1); (0, 0); (0, 0)].

Definition holds (a : farray) (is : list Z) (m : mem QcS) (x : QcS) : bool := match fel a is m with Some v => Qc_eq_bool v x | None => false end.
Lemma holds_eq a is m x : holds a is m x = true -> fel a is m = Some x.
Proof. unfold holds. destruct (fel _ _ _) as [v|]; [|discriminate]. intros H. apply Qc_eq_bool_correct in H. congruence. Qed.

Lemma pair_cells c : in_box pair_box c -> c = [0; 0; 0] \/ c = [1; 0; 0].
Proof. intros H. apply box_cells_in in H. vm_compute in H. destruct H as [<-|[<-|[]]]; auto. Qed.

Lemma pair_led s c : in_box pair_box c -> s = 1 \/ s = 2 -> displaced_cell pair_mem pair_tab 1 s c [nth 0 c 0 + (s - 1); 0; 0].
Proof.
  intros Hc Hs. destruct (pair_cells c Hc) as [-> | ->], Hs as [-> | ->]; (split; [reflexivity|]); intros [|[|[|n]]] Hn; try (cbn in Hn; lia); vm_compute; reflexivity.
Qed.

Lemma pair_stays c s c' : in_box pair_box c -> 2 <= s <= 2 -> displaced_cell pair_mem pair_tab 1 s c c' -> in_box (CELL3d 0 0 0 1 0 0 1) c'.
Proof.
  intros Hc Hs D. assert (s = 2) as -> by lia. rewrite (displaced_cell_fun _ _ _ _ _ _ _ D (pair_led 2 c Hc (or_intror eq_refl))).
  destruct (pair_cells c Hc) as [-> | ->]; repeat constructor; cbn; lia.
Qed.

Lemma total_two1 (f : Z -> QcS) : total 1 2 f = (f 1 + f 2)%T.
Proof. unfold total. change (Z.to_nat (2 - 1 + 1)) with 2%nat. cbn [seq fold_right]. change (1 + Z.of_nat 0) with 1. change (1 + Z.of_nat 1) with 2. change (lit 0 : QcS) with (Q2Qc 0). apply (f_equal (Qcplus (f 1))). apply Qcplus_0_r. Qed.

Definition pair_entry (s a b : Z) : QcS := lit (nth (Z.to_nat (s - 1 + 2 * (a - 1 + 2 * (b - 1)))) [2; -1; 1; 0; 1; 0; 3; -1] 0).
Lemma pair_entry_is c s a b : in_box pair_box c -> s = 1 \/ s = 2 -> a = 1 \/ a = 2 -> b = 1 \/ b = 2 -> entry pair_st 2 s c a b pair_mem = Some (pair_entry s a b).
Proof.
  intros Hc Hs Ha Hb. destruct (pair_cells c Hc) as [-> | ->], Hs as [-> | ->], Ha as [-> | ->], Hb as [-> | ->]; apply holds_eq; vm_compute; reflexivity.
Qed.

Lemma pair_regular c : in_box pair_box c -> regular_entry pair_mem pair_st 2 c.
Proof.
  intros Hc z Hz.
  assert (E : forall a, a = 1 \/ a = 2 -> (pair_entry 1 a 1 * z 1 + pair_entry 1 a 2 * z 2)%T = lit 0).
  { intros a Ha. destruct (Hz a ltac:(lia)) as (D & HD & T). rewrite total_two1 in T. rewrite <- T.
    pose proof (HD 1 ltac:(lia)) as H1. pose proof (HD 2 ltac:(lia)) as H2. rewrite (pair_entry_is c 1 a 1) in H1 by auto. rewrite (pair_entry_is c 1 a 2) in H2 by auto.
    injection H1 as <-. injection H2 as <-. reflexivity. }
  pose proof (E 1 (or_introl eq_refl)) as E1. pose proof (E 2 (or_intror eq_refl)) as E2. set (x := z 1 : Qc) in *. set (y := z 2 : Qc) in *.
  change (Q2Qc 2 * x + Q2Qc 1 * y = Q2Qc 0)%Qc in E1. change (Q2Qc 1 * x + Q2Qc 3 * y = Q2Qc 0)%Qc in E2.
  assert (Y : (Q2Qc 5 * y)%Qc = Q2Qc 0).
  { transitivity (Q2Qc 2 * (Q2Qc 1 * x + Q2Qc 3 * y) - (Q2Qc 2 * x + Q2Qc 1 * y))%Qc; [|rewrite E1, E2; ring].
    replace (Q2Qc 5) with (Q2Qc 2 * Q2Qc 3 - 1)%Qc by (apply Qc_is_canon; reflexivity). replace (Q2Qc 1) with 1%Qc by reflexivity. ring. }
  apply Qcmult_integral in Y as [Y|Y]; [discriminate Y|].
  assert (X : x = Q2Qc 0). { transitivity (Q2Qc 1 * x + Q2Qc 3 * y)%Qc; [rewrite Y; replace (Q2Qc 1) with 1%Qc by reflexivity; ring|exact E2]. }
  intros a Ha. assert (a = 1 \/ a = 2) as [-> | ->] by lia; assumption.
Qed.

Lemma pair_runs : pair_call pair_mem = Some (out (pair_call pair_mem)).
Proof. apply out_some. vm_compute. reflexivity. Qed.

Lemma pair_distinct : NoDup [fst (p 2); fst (p 3); fst (p 4)] /\ ~ In (fst (p 1)) [fst (p 2); fst (p 3); fst (p 4)] /\ ~ In (fst (p 0)) [fst (p 2); fst (p 3); fst (p 4)].
Proof. cbn. split; [repeat constructor; cbn; lia|lia]. Qed.

(** [u] solves the equations of both cells. *)
Lemma pair_solves c : in_box pair_box c -> block_solves pair_mem pair_tab pair_st 2 2 pair_f pair_u c.
Proof.
  intros Hc a Ha. exists (total 1 2 (fun s => total 1 2 (fun b => pair_entry s a b * fval pair_u [b; (nth 0 c 0 + (s - 1))%Z; 0; 0] pair_mem)))%T.
  assert (Ha' : a = 1 \/ a = 2) by lia. split.
  - destruct (pair_cells c Hc) as [-> | ->], Ha' as [-> | ->]; apply holds_eq; vm_compute; reflexivity.
  - exists (fun s b => pair_entry s a b), (fun s b => fval pair_u [b; nth 0 c 0 + (s - 1); 0; 0] pair_mem). split; [|split; [|reflexivity]].
    + intros s b Hs Hb. apply pair_entry_is; [exact Hc|lia|lia|lia].
    + intros s Hs. exists [nth 0 c 0 + (s - 1); 0; 0]. split; [apply pair_led; [exact Hc|lia]|]. intros b Hb.
      assert (s = 1 \/ s = 2) as [-> | ->] by lia; assert (b = 1 \/ b = 2) as [-> | ->] by lia; destruct (pair_cells c Hc) as [-> | ->]; apply holds_eq; vm_compute; reflexivity.
Qed.

Lemma pair_after c s c' : in_box pair_box c -> 2 <= s <= 2 -> displaced_cell pair_mem pair_tab 1 s c c' -> before c' c = false.
Proof.
  intros Hc Hs D. assert (s = 2) as -> by lia. rewrite (displaced_cell_fun _ _ _ _ _ _ _ D (pair_led 2 c Hc (or_intror eq_refl))).
  destruct (pair_cells c Hc) as [-> | ->]; reflexivity.
Qed.

(** The same matrix, [u] zero on the patch, [f] such that cell 0 stays as it is. *)
Definition zero_mem : mem QcS :=
  mkMem [map (fun z => lit z : QcS) ([2; -1; 1; 0; 1; 0; 3; -1] ++ [2; -1; 1; 0; 1; 0; 3; -1]); map (fun z => lit z : QcS) [0; 0; 7; 5];
         repeat (lit 7 : QcS) 34 ++ map (fun z => lit z : QcS) [0; 0; 0; 0; 0; 1] ++ repeat (lit 7 : QcS) 32; repeat (lit 0 : QcS) 4; repeat (lit 0 : QcS) 4]
        [[0; 0; 0; 1; 0; 0]].

Lemma zero_displaced s c c' : displaced_cell zero_mem pair_tab 1 s c c' -> displaced_cell pair_mem pair_tab 1 s c c'.
Proof. exact (fun H => H). Qed.

Lemma zero_regular c : in_box pair_box c -> regular_entry zero_mem pair_st 2 c.
Proof. exact (pair_regular c). Qed.

Lemma zero_runs :
  block_swept zero_mem (out (pair_call zero_mem)) pair_tab pair_st 2 2 pair_f pair_u pair_r (fst (p 4)) pair_box /\
  fel pair_u [1; 0; 0; 0] zero_mem = Some (lit 0 : QcS) /\ fel pair_u [2; 0; 0; 0] zero_mem = Some (lit 0 : QcS) /\
  (forall b, 1 <= b <= 2 -> fel pair_u [b; 0; 0; 0] (out (pair_call zero_mem)) = fel pair_u [b; 0; 0; 0] zero_mem) /\
  fel pair_u [1; 1; 0; 0] (out (pair_call zero_mem)) = Some (lit 3 : QcS).
Proof.
  destruct pair_distinct as (D1 & D2 & D3). split; [|split; [|split; [|split]]].
  - apply (@block_jacobi_swept QcS QcS_laws cramer2 0 1 0 0 0 0 2 (p 0) (p 0) 2 0 (p 1) 1 (p 2) 0 (p 3) (p 4) zero_mem _ D1 D2 D3 ltac:(lia) ltac:(lia)).
    + intros c s c' Hc Hs D. exact (pair_stays c s c' Hc Hs D).
    + exact cramer2_correct.
    + exact zero_regular.
    + apply out_some. vm_compute. reflexivity.
  - apply holds_eq. vm_compute. reflexivity.
  - apply holds_eq. vm_compute. reflexivity.
  - intros b Hb. assert (fel pair_u [b; 0; 0; 0] zero_mem = Some (lit 0 : QcS)) as -> by (assert (b = 1 \/ b = 2) as [-> | ->] by lia; apply holds_eq; vm_compute; reflexivity).
    assert (b = 1 \/ b = 2) as [-> | ->] by lia; apply holds_eq; vm_compute; reflexivity.
  - apply holds_eq. vm_compute. reflexivity.
Qed.

Definition keeps_solution : Prop := forall (la : lapack QcS) lo0 hi0 lo1 hi1 lo2 hi2 size offset st ndof fgcw f ugcw u rgcw r block (m m' : mem QcS),
    let bs := [(lo0, hi0); (lo1, hi1); (lo2, hi2)] in
    let tab := mkFa offset [(1, 3); (1, size)] in
    let sta := mkFa st ((1, size) :: (1, ndof * ndof) :: CELL3d lo0 lo1 lo2 hi0 hi1 hi2 0) in
    let fa := mkFa f ((1, ndof) :: CELL3d lo0 lo1 lo2 hi0 hi1 hi2 fgcw) in
    let ua := mkFa u ((1, ndof) :: CELL3d lo0 lo1 lo2 hi0 hi1 hi2 ugcw) in
    NoDup [fst u; fst r; fst block] -> ~ In (fst f) [fst u; fst r; fst block] -> ~ In (fst st) [fst u; fst r; fst block] ->
    0 <= ugcw -> 0 <= rgcw ->
    (forall c s c', in_box bs c -> 2 <= s <= size -> displaced_cell m tab 1 s c c' -> in_box (CELL3d lo0 lo1 lo2 hi0 hi1 hi2 ugcw) c') ->
    solver_correct la ndof -> (forall c, in_box bs c -> regular_entry m sta ndof c) ->
    (forall c, in_box bs c -> block_solves m tab sta size ndof fa ua c) ->
    ccellblkjacobi3d la lo0 hi0 lo1 hi1 lo2 hi2 size offset st ndof fgcw f ugcw u rgcw r block m = Some m' ->
    forall c a, in_box bs c -> 1 <= a <= ndof -> fel ua (a :: c) m' = fel ua (a :: c) m.

Lemma solution_lost : ~ keeps_solution.
Proof.
  intros K. destruct pair_distinct as (D1 & D2 & D3).
  specialize (K cramer2 0 1 0 0 0 0 2 (p 0) (p 0) 2 0 (p 1) 1 (p 2) 0 (p 3) (p 4) pair_mem _ D1 D2 D3 ltac:(lia) ltac:(lia) pair_stays cramer2_correct pair_regular pair_solves pair_runs [0; 0; 0] 1).
  assert (E0 : fel pair_u [1; 0; 0; 0] pair_mem = Some (lit 1 : QcS)) by (apply holds_eq; vm_compute; reflexivity).
  assert (E : fel pair_u [1; 0; 0; 0] (out (pair_call pair_mem)) = Some (lit 2 : QcS)) by (apply holds_eq; vm_compute; reflexivity).
  specialize (K ltac:(repeat constructor; cbn; lia) ltac:(lia)). pose proof (eq_trans (eq_sym E) (eq_trans K E0)) as H. injection H as H. discriminate H.
Qed.
