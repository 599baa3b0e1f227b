(** * Properties: relaxation with several unknowns per cell *)

From Coq Require Import QArith Qcanon.
From Verif Require Import Base FortranBase FortranBlock FortranBlockCell Instances SpecRow SpecSmooth SpecBlockJacobi SpecBlockCell
  LemNodeRefute LemBlockJacobiCase LemExtrapCase LemBlockCell2 LemBlockCellCase.
Import ListNotations.
Open Scope Z_scope.

(** ** C69: what [ccellblkjacobi3d] leaves *)

(** In every cell of the patch the change solves the system of the diagonal entry for
    [f] minus the other entries times [u], new at the cells visited before. *)
Theorem C69_swept : forall (S : Scalar) (L : field_laws S) (la : lapack S) lo0 hi0 lo1 hi1 lo2 hi2 size offset st ndof fgcw f ugcw u rgcw r block (m m' : mem S),
  let bs := [(lo0, hi0); (lo1, hi1); (lo2, hi2)] in
  let tab := mkFa offset [(1, 3); (1, size)] in
  let sta := mkFa st ((1, size) :: (1, ndof * ndof) :: CELL3d lo0 lo1 lo2 hi0 hi1 hi2 0) in
  let fa := mkFa f ((1, ndof) :: CELL3d lo0 lo1 lo2 hi0 hi1 hi2 fgcw) in
  let ua := mkFa u ((1, ndof) :: CELL3d lo0 lo1 lo2 hi0 hi1 hi2 ugcw) in
  let ra := mkFa r ((1, ndof) :: CELL3d lo0 lo1 lo2 hi0 hi1 hi2 rgcw) in
  NoDup [fst u; fst r; fst block] -> ~ In (fst f) [fst u; fst r; fst block] -> ~ In (fst st) [fst u; fst r; fst block] ->
  0 <= ugcw -> 0 <= rgcw ->
  (forall c s c', in_box bs c -> 2 <= s <= size -> displaced_cell m tab 1 s c c' -> in_box (CELL3d lo0 lo1 lo2 hi0 hi1 hi2 ugcw) c') ->
  solver_correct la ndof -> (forall c, in_box bs c -> regular_entry m sta ndof c) ->
  ccellblkjacobi3d la lo0 hi0 lo1 hi1 lo2 hi2 size offset st ndof fgcw f ugcw u rgcw r block m = Some m' ->
  block_swept m m' tab sta size ndof fa ua ra (fst block) bs.
Proof. exact @block_jacobi_swept. Qed.
Print Assumptions C69_swept.

Example C69_swept_case :
  NoDup [fst (p 2); fst (p 3); fst (p 4)] /\ ~ In (fst (p 1)) [fst (p 2); fst (p 3); fst (p 4)] /\ ~ In (fst (p 0)) [fst (p 2); fst (p 3); fst (p 4)] /\
  (forall c s c', in_box pair_box c -> 2 <= s <= 2 -> displaced_cell pair_mem pair_tab 1 s c c' -> in_box (CELL3d 0 0 0 1 0 0 1) c') /\
  solver_correct cramer2 2 /\ (forall c, in_box pair_box c -> regular_entry pair_mem pair_st 2 c) /\ exists m', pair_call pair_mem = Some m'.
Proof.
  destruct pair_distinct as (D1 & D2 & D3). split; [exact D1|]. split; [exact D2|]. split; [exact D3|]. split; [exact pair_stays|].
  split; [exact cramer2_correct|]. split; [exact pair_regular|]. exists (out (pair_call pair_mem)). exact pair_runs.
Qed.

(** The diagonal entry times the old values is not taken off: a cell whose equations
    hold, and which reads no new values, gets twice its values. *)
Theorem C69_doubles : forall (S : Scalar) (L : field_laws S) (m m' : mem S) tab st n ndof f u r local bs c,
  block_swept m m' tab st n ndof f u r local bs -> in_box bs c -> regular_entry m st ndof c -> 1 <= n ->
  displaced_cell m tab 1 1 c c -> (forall s c', 2 <= s <= n -> displaced_cell m tab 1 s c c' -> before c' c = false) ->
  block_solves m tab st n ndof f u c ->
  forall a, 1 <= a <= ndof -> exists x, fel u (a :: c) m = Some x /\ fel u (a :: c) m' = Some (x + x)%T.
Proof. exact @doubles. Qed.
Print Assumptions C69_doubles.

Example C69_doubles_case : forall c, in_box pair_box c ->
  block_swept pair_mem (out (pair_call pair_mem)) pair_tab pair_st 2 2 pair_f pair_u pair_r (fst (p 4)) pair_box /\
  regular_entry pair_mem pair_st 2 c /\ displaced_cell pair_mem pair_tab 1 1 c c /\
  (forall s c', 2 <= s <= 2 -> displaced_cell pair_mem pair_tab 1 s c c' -> before c' c = false) /\
  block_solves pair_mem pair_tab pair_st 2 2 pair_f pair_u c.
Proof.
  intros c Hc. destruct pair_distinct as (D1 & D2 & D3). split.
  - apply (@block_jacobi_swept QcS QcS_laws cramer2 0 1 0 0 0 0 2 (p 0) (p 0) 2 0 (p 1) 1 (p 2) 0 (p 3) (p 4) pair_mem _ D1 D2 D3 ltac:(lia) ltac:(lia) pair_stays cramer2_correct pair_regular pair_runs).
  - split; [exact (pair_regular c Hc)|]. split; [|split; [intros s c'; exact (pair_after c s c' Hc)|exact (pair_solves c Hc)]].
    pose proof (pair_led 1 c Hc (or_introl eq_refl)) as D. destruct (pair_cells c Hc) as [-> | ->]; exact D.
Qed.

(** So a solution is not kept. *)
Theorem C69_solution_refuted : ~ (forall (la : lapack QcS) lo0 hi0 lo1 hi1 lo2 hi2 size offset st ndof fgcw f ugcw u rgcw r block (m m' : mem QcS),
  let bs := [(lo0, hi0); (lo1, hi1); (lo2, hi2)] in
  let tab := mkFa offset [(1, 3); (1, size)] in
  let sta := mkFa st ((1, size) :: (1, ndof * ndof) :: CELL3d lo0 lo1 lo2 hi0 hi1 hi2 0) in
  let fa := mkFa f ((1, ndof) :: CELL3d lo0 lo1 lo2 hi0 hi1 hi2 fgcw) in
  let ua := mkFa u ((1, ndof) :: CELL3d lo0 lo1 lo2 hi0 hi1 hi2 ugcw) in
  NoDup [fst u; fst r; fst block] -> ~ In (fst f) [fst u; fst r; fst block] -> ~ In (fst st) [fst u; fst r; fst block] ->
  0 <= ugcw -> 0 <= rgcw ->
  (forall c s c', in_box bs c -> 2 <= s <= size -> displaced_cell m tab 1 s c c' -> in_box (CELL3d lo0 lo1 lo2 hi0 hi1 hi2 ugcw) c') ->
  solver_correct la ndof -> (forall c, in_box bs c -> regular_entry m sta ndof c) ->
  (forall c, in_box bs c -> block_solves m tab sta size ndof fa ua c) ->
  ccellblkjacobi3d la lo0 hi0 lo1 hi1 lo2 hi2 size offset st ndof fgcw f ugcw u rgcw r block m = Some m' ->
  forall c a, in_box bs c -> 1 <= a <= ndof -> fel ua (a :: c) m' = fel ua (a :: c) m).
Proof. exact solution_lost. Qed.
Print Assumptions C69_solution_refuted.

(** What is left unchanged solves the equations without their diagonal entries. *)
Theorem C69_unchanged : forall (S : Scalar) (L : field_laws S) (m m' : mem S) tab st n ndof f u r local bs,
  block_swept m m' tab st n ndof f u r local bs -> forall c a, in_box bs c ->
  (forall b, 1 <= b <= ndof -> fel u (b :: c) m' = fel u (b :: c) m) -> 1 <= a <= ndof ->
  exists b, fel f (a :: c) m = Some b /\ block_row m tab st ndof 2 n c a (fun b c' => fel u (b :: c') (if before c' c then m' else m)) b.
Proof. exact @unchanged. Qed.
Print Assumptions C69_unchanged.

(** From zero in a cell, its equations hold afterwards with the values used: one step of
    block Gauss-Seidel. *)
Theorem C69_from_zero : forall (S : Scalar) (L : field_laws S) (m m' : mem S) tab st n ndof f u r local bs,
  block_swept m m' tab st n ndof f u r local bs -> forall c a, in_box bs c ->
  (forall b, 1 <= b <= ndof -> fel u (b :: c) m = Some (lit 0)) -> 1 <= a <= ndof ->
  exists b d (D x : Z -> S), fel f (a :: c) m = Some b /\
    block_row m tab st ndof 2 n c a (fun b c' => fel u (b :: c') (if before c' c then m' else m)) d /\
    (forall b, 1 <= b <= ndof -> entry st ndof 1 c a b m = Some (D b) /\ fel u (b :: c) m' = Some (x b)) /\
    (total 1 ndof (fun b => D b * x b) + d)%T = b.
Proof. exact @from_zero. Qed.
Print Assumptions C69_from_zero.

(** A case for the last two: zero data, zero values. *)
Example C69_zero_case :
  block_swept zero_mem (out (pair_call zero_mem)) pair_tab pair_st 2 2 pair_f pair_u pair_r (fst (p 4)) pair_box /\
  fel pair_u [1; 0; 0; 0] zero_mem = Some (lit 0 : QcS) /\ fel pair_u [2; 0; 0; 0] zero_mem = Some (lit 0 : QcS) /\
  (forall b, 1 <= b <= 2 -> fel pair_u [b; 0; 0; 0] (out (pair_call zero_mem)) = fel pair_u [b; 0; 0; 0] zero_mem) /\
  fel pair_u [1; 1; 0; 0] (out (pair_call zero_mem)) = Some (lit 3 : QcS).
Proof. exact zero_runs. Qed.
