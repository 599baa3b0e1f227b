(** * Property C46: ghost values continue the solutions of the boundary condition *)

From Coq Require Import QArith Qcanon.
From Verif Require Import Base FortranBase SpecKernel SpecBoundary Instances KernelsBC LemBoundary LemBoundary3.
Import ListNotations.
Open Scope Z_scope.

(** Throughout: [q] is a ghost cell the launch covers, the first cells of the patch
    beside it hold the values of a polynomial that satisfies the condition, and
    afterwards the ghost cell holds the value of the same polynomial. *)

(** In [C46_set_bc_*] and [C46_set_poisson_bc_*] the second order Robin condition
    is restricted to beta = 1; see the refuted theorem below. *)
Theorem C46_set_bc_1d : forall (S : Scalar), field_laws S -> forall lo hi dx dgcw d0 ugcw u bLo bHi exOrder face btype alpha beta (m m' : mem S) q cs dv,
  let ua := mkFa u (CELL1d (lo 0) (hi 0) ugcw) in
  let da0 := mkFa d0 (FACE1d (lo 0) (hi 0) dgcw) in
  let h := dx (dir face) in
  0 <= face < 2 -> 0 <= ugcw -> apart u [d0] ->
  ghost_cell 1 face lo hi bLo bHi q ->
  in_array 1 ugcw lo hi q -> in_array 1 ugcw lo hi (inward face (depth btype exOrder) q) ->
  satisfies_bc btype alpha beta dv cs -> order_covers btype exOrder cs -> robin_solvable btype exOrder alpha beta dv h ->
  (btype = 4 -> coef1 da0 face q m = Some dv) ->
  (btype = 4 -> exOrder = 2 -> beta = lit 1) ->
  (forall k, 1 <= k <= depth btype exOrder ->
     fel ua (map (inward face k q) [0]) m = Some (peval cs (centre_x k h))) ->
  cd_1d_set_bc (lo 0) (hi 0) dx dgcw d0 ugcw u bLo bHi exOrder face btype alpha beta m = Some m' ->
  fel ua (map q [0]) m' = Some (peval cs (ghost_x h)).
Proof. exact @cd_1d_set_bc_exact. Qed.
Print Assumptions C46_set_bc_1d.

Theorem C46_set_bc_2d : forall (S : Scalar), field_laws S -> forall lo hi dx dgcw d0 d1 ugcw u bLo bHi exOrder face btype alpha beta (m m' : mem S) q cs dv,
  let ua := mkFa u (CELL2d (lo 0) (lo 1) (hi 0) (hi 1) ugcw) in
  let da0 := mkFa d0 (FACE2d0 (lo 0) (lo 1) (hi 0) (hi 1) dgcw) in
  let da1 := mkFa d1 (FACE2d1 (lo 0) (lo 1) (hi 0) (hi 1) dgcw) in
  let h := dx (dir face) in
  0 <= face < 4 -> 0 <= ugcw -> apart u [d0; d1] ->
  ghost_cell 2 face lo hi bLo bHi q ->
  in_array 2 ugcw lo hi q -> in_array 2 ugcw lo hi (inward face (depth btype exOrder) q) ->
  satisfies_bc btype alpha beta dv cs -> order_covers btype exOrder cs -> robin_solvable btype exOrder alpha beta dv h ->
  (btype = 4 -> coef2 da0 da1 face q m = Some dv) ->
  (btype = 4 -> exOrder = 2 -> beta = lit 1) ->
  (forall k, 1 <= k <= depth btype exOrder ->
     fel ua (map (inward face k q) [0; 1]) m = Some (peval cs (centre_x k h))) ->
  cd_2d_set_bc (lo 0) (hi 0) (lo 1) (hi 1) dx dgcw d0 d1 ugcw u bLo bHi exOrder face 1 btype alpha beta m = Some m' ->
  fel ua (map q [0; 1]) m' = Some (peval cs (ghost_x h)).
Proof. exact @cd_2d_set_bc_exact. Qed.
Print Assumptions C46_set_bc_2d.

Theorem C46_set_bc_3d : forall (S : Scalar), field_laws S -> forall lo hi dx dgcw d0 d1 d2 ugcw u bLo bHi exOrder face btype alpha beta (m m' : mem S) q cs dv,
  let ua := mkFa u (CELL3d (lo 0) (lo 1) (lo 2) (hi 0) (hi 1) (hi 2) ugcw) in
  let da0 := mkFa d0 (FACE3d0 (lo 0) (lo 1) (lo 2) (hi 0) (hi 1) (hi 2) dgcw) in
  let da1 := mkFa d1 (FACE3d1 (lo 0) (lo 1) (lo 2) (hi 0) (hi 1) (hi 2) dgcw) in
  let da2 := mkFa d2 (FACE3d2 (lo 0) (lo 1) (lo 2) (hi 0) (hi 1) (hi 2) dgcw) in
  let h := dx (dir face) in
  0 <= face < 6 -> 0 <= ugcw -> apart u [d0; d1; d2] ->
  ghost_cell 3 face lo hi bLo bHi q ->
  in_array 3 ugcw lo hi q -> in_array 3 ugcw lo hi (inward face (depth btype exOrder) q) ->
  satisfies_bc btype alpha beta dv cs -> order_covers btype exOrder cs -> robin_solvable btype exOrder alpha beta dv h ->
  (btype = 4 -> coef3 da0 da1 da2 face q m = Some dv) ->
  (btype = 4 -> exOrder = 2 -> beta = lit 1) ->
  (forall k, 1 <= k <= depth btype exOrder ->
     fel ua (map (inward face k q) [0; 1; 2]) m = Some (peval cs (centre_x k h))) ->
  cd_3d_set_bc (lo 0) (hi 0) (lo 1) (hi 1) (lo 2) (hi 2) dx dgcw d0 d1 d2 ugcw u bLo bHi exOrder face 1 btype alpha beta m = Some m' ->
  fel ua (map q [0; 1; 2]) m' = Some (peval cs (ghost_x h)).
Proof. exact @cd_3d_set_bc_exact. Qed.
Print Assumptions C46_set_bc_3d.

(** The 1D Poisson kernel has a Robin condition of its own, slope = value / 2,
    whatever the coefficients passed; see the refuted theorem below. *)
Theorem C46_set_poisson_bc_1d : forall (S : Scalar), field_laws S -> forall lo hi dx ugcw u bLo bHi exOrder face btype alpha beta (m m' : mem S) q cs,
  let ua := mkFa u (CELL1d (lo 0) (hi 0) ugcw) in
  let h := dx (dir face) in
  0 <= face < 2 -> 0 <= ugcw ->
  ghost_cell 1 face lo hi bLo bHi q ->
  in_array 1 ugcw lo hi q -> in_array 1 ugcw lo hi (inward face (depth btype exOrder) q) ->
  satisfies_bc btype (lit 2) (lit 1) (lit 1) cs -> order_covers btype exOrder cs -> robin_solvable btype exOrder (lit 2) (lit 1) (lit 1) h ->
  (forall k, 1 <= k <= depth btype exOrder ->
     fel ua (map (inward face k q) [0]) m = Some (peval cs (centre_x k h))) ->
  cd_1d_set_poisson_bc (lo 0) (hi 0) dx ugcw u bLo bHi exOrder face btype alpha beta m = Some m' ->
  fel ua (map q [0]) m' = Some (peval cs (ghost_x h)).
Proof. exact @cd_1d_set_poisson_bc_exact. Qed.
Print Assumptions C46_set_poisson_bc_1d.

Theorem C46_set_poisson_bc_2d : forall (S : Scalar), field_laws S -> forall lo hi dx ugcw u bLo bHi exOrder face btype alpha beta (m m' : mem S) q cs,
  let ua := mkFa u (CELL2d (lo 0) (lo 1) (hi 0) (hi 1) ugcw) in
  let h := dx (dir face) in
  0 <= face < 4 -> 0 <= ugcw ->
  ghost_cell 2 face lo hi bLo bHi q ->
  in_array 2 ugcw lo hi q -> in_array 2 ugcw lo hi (inward face (depth btype exOrder) q) ->
  satisfies_bc btype alpha beta (lit 1) cs -> order_covers btype exOrder cs -> robin_solvable btype exOrder alpha beta (lit 1) h ->
  (btype = 4 -> exOrder = 2 -> beta = lit 1) ->
  (btype = 4 -> face < 2) ->
  (forall k, 1 <= k <= depth btype exOrder ->
     fel ua (map (inward face k q) [0; 1]) m = Some (peval cs (centre_x k h))) ->
  cd_2d_set_poisson_bc (lo 0) (hi 0) (lo 1) (hi 1) dx ugcw u bLo bHi exOrder face 1 btype alpha beta m = Some m' ->
  fel ua (map q [0; 1]) m' = Some (peval cs (ghost_x h)).
Proof. exact @cd_2d_set_poisson_bc_exact. Qed.
Print Assumptions C46_set_poisson_bc_2d.

Theorem C46_set_poisson_bc_3d : forall (S : Scalar), field_laws S -> forall lo hi dx ugcw u bLo bHi exOrder face btype alpha beta (m m' : mem S) q cs,
  let ua := mkFa u (CELL3d (lo 0) (lo 1) (lo 2) (hi 0) (hi 1) (hi 2) ugcw) in
  let h := dx (dir face) in
  0 <= face < 6 -> 0 <= ugcw ->
  ghost_cell 3 face lo hi bLo bHi q ->
  in_array 3 ugcw lo hi q -> in_array 3 ugcw lo hi (inward face (depth btype exOrder) q) ->
  satisfies_bc btype alpha beta (lit 1) cs -> order_covers btype exOrder cs -> robin_solvable btype exOrder alpha beta (lit 1) h ->
  (btype = 4 -> exOrder = 2 -> beta = lit 1) ->
  (forall k, 1 <= k <= depth btype exOrder ->
     fel ua (map (inward face k q) [0; 1; 2]) m = Some (peval cs (centre_x k h))) ->
  cd_3d_set_poisson_bc (lo 0) (hi 0) (lo 1) (hi 1) (lo 2) (hi 2) dx ugcw u bLo bHi exOrder face 1 btype alpha beta m = Some m' ->
  fel ua (map q [0; 1; 2]) m' = Some (peval cs (ghost_x h)).
Proof. exact @cd_3d_set_poisson_bc_exact. Qed.
Print Assumptions C46_set_poisson_bc_3d.

(** The extrapolation to a zero boundary value, orders 1 to 4. *)
Theorem C46_set_homogenous_bc_2d : forall (S : Scalar), field_laws S -> forall lo hi face bLo bHi exOrder u (m m' : mem S) q cs h,
  let ua := mkFa u (CELL2d (lo 0) (lo 1) (hi 0) (hi 1) 1) in
  0 <= face < 4 -> 1 <= exOrder <= 4 ->
  rim_cell 2 face lo hi bLo bHi q -> in_array 2 1 lo hi (inward face exOrder q) ->
  value_at_face cs = lit 0 -> degree_le exOrder cs ->
  (forall k, 1 <= k <= exOrder -> fel ua (map (inward face k q) [0; 1]) m = Some (peval cs (centre_x k h))) ->
  cd_2d_set_homogenous_bc (lo 0) (lo 1) (hi 0) (hi 1) face bLo bHi exOrder u m = Some m' ->
  fel ua (map q [0; 1]) m' = Some (peval cs (ghost_x h)).
Proof. exact @cd_2d_set_homogenous_bc_exact. Qed.
Print Assumptions C46_set_homogenous_bc_2d.

(** ** Refuted *)

(** The value at a Fortran element afterwards, as a rational. *)
Definition ex_el (r : option (mem QcS)) (a : farray) (idx : list Z) : option Q :=
  m <- r ;; x <- fel a idx m ;; Some (this x).

(** 1D memory: the coefficient is 1 on every face, u is a patch 0..2 with one ghost
    cell on each side whose first cells hold [x] and [y]. *)
Definition ex_line (x y : QcS) : mem QcS := mkMem (S := QcS) [[lit 1; lit 1; lit 1; lit 1]; [lit 0; x; y; lit 0; lit 0]] [].

(** The second order Robin formula lacks a factor beta in the second term (the
    Fortran too): the line 1 + 2x satisfies 1 * slope = 2 * value, but is not
    continued. *)
Theorem C46_robin_order_2_refuted :
  let cs : list QcS := [lit 1; lit 2] in
  let h : QcS := lit 1 in
  let m := ex_line (peval cs (centre_x 1 h)) (peval cs (centre_x 2 h)) in
  let ua := mkFa (1%nat, 0) (CELL1d 0 2 1) in
  satisfies_bc 4 (lit 1) (lit 2) (lit 1) cs /\ order_covers 4 2 cs /\ robin_solvable 4 2 (lit 1) (lit 2) (lit 1) h /\
  this (peval cs (ghost_x h)) = 0%Q /\
  ex_el (cd_1d_set_bc 0 2 (fun _ => h) 0 (0%nat, 0) 1 (1%nat, 0) (fun _ => -1) (fun _ => -1) 2 0 4 (lit 1) (lit 2) m) ua [-1]
    = Some (Qmake (-2) 7).
Proof.
  cbv zeta. split; [right; right; split; [reflexivity|apply Qc_is_canon; reflexivity]|].
  split; [cbn; split; [right; reflexivity|unfold degree_le; cbn; lia]|].
  split; [intros _; split; intros H; [discriminate H|]; intro C; apply (f_equal this) in C; vm_compute in C; discriminate C|].
  split; vm_compute; reflexivity.
Qed.
Print Assumptions C46_robin_order_2_refuted.

(** The 1D Poisson Robin condition ignores alpha and beta: 1 + x satisfies
    slope = value, the ghost value 1/2 is not what the kernel stores. *)
Theorem C46_poisson_robin_1d_refuted :
  let cs : list QcS := [lit 1; lit 1] in
  let h : QcS := lit 1 in
  let m := ex_line (peval cs (centre_x 1 h)) (peval cs (centre_x 2 h)) in
  let ua := mkFa (1%nat, 0) (CELL1d 0 2 1) in
  satisfies_bc 4 (lit 1) (lit 1) (lit 1) cs /\ order_covers 4 1 cs /\ robin_solvable 4 1 (lit 1) (lit 1) (lit 1) h /\
  this (peval cs (ghost_x h)) = Qmake 1 2 /\
  ex_el (cd_1d_set_poisson_bc 0 2 (fun _ => h) 1 (1%nat, 0) (fun _ => -1) (fun _ => -1) 1 0 4 (lit 1) (lit 1) m) ua [-1]
    = Some (Qmake 9 10).
Proof.
  cbv zeta. split; [right; right; split; [reflexivity|apply Qc_is_canon; reflexivity]|].
  split; [cbn; split; [left; reflexivity|unfold degree_le; cbn; lia]|].
  split; [intros _; split; intros H; [|discriminate H]; intro C; apply (f_equal this) in C; vm_compute in C; discriminate C|].
  split; vm_compute; reflexivity.
Qed.
Print Assumptions C46_poisson_robin_1d_refuted.

(** ** A case that meets the hypotheses

    Above the patch 0..1 x 0..2 with h = 2, alpha = 2, d = 3, beta = 1: the parabola
    6 + x + 5 x^2, 12 and 54 at the first centres, 10 at the ghost centre. *)
Definition ex_rows : mem QcS :=
  mkMem (S := QcS) [repeat (lit 3) 20; repeat (lit 3) 20;
    map (fun k => if (k / 4 =? 3)%nat then lit 12 else if (k / 4 =? 2)%nat then lit 54 else lit 7) (seq 0 20)] [].

Example C46_example :
  let q : Z -> Z := fun d => if d =? 0 then 1 else 3 in
  let b : Z -> Z := fun d => if d =? 0 then 1 else 3 in
  let lo : Z -> Z := fun _ => 0 in
  let hi : Z -> Z := fun d => if d =? 0 then 1 else 2 in
  let cs : list QcS := [lit 6; lit 1; lit 5] in
  let h : QcS := lit 2 in
  let ua := mkFa (2%nat, 0) (CELL2d 0 0 1 2 1) in
  let da0 := mkFa (0%nat, 0) (FACE2d0 0 0 1 2 0) in
  let da1 := mkFa (1%nat, 0) (FACE2d1 0 0 1 2 0) in
  ghost_cell 2 3 lo hi b b q /\ in_array 2 1 lo hi q /\ in_array 2 1 lo hi (inward 3 (depth 4 2) q) /\
  satisfies_bc 4 (lit 2) (lit 1) (lit 3) cs /\ order_covers 4 2 cs /\ robin_solvable 4 2 (lit 2) (lit 1) (lit 3) h /\
  coef2 da0 da1 3 q ex_rows = Some (lit 3) /\
  (forall k, 1 <= k <= depth 4 2 -> fel ua (map (inward 3 k q) [0; 1]) ex_rows = Some (peval cs (centre_x k h))) /\
  this (peval cs (ghost_x h)) = 10%Q /\
  ex_el (cd_2d_set_bc 0 1 0 2 (fun _ => h) 0 (0%nat, 0) (1%nat, 0) 1 (2%nat, 0) b b 2 3 1 4 (lit 2) (lit 1) ex_rows) ua [1; 3]
    = Some 10%Q.
Proof.
  cbv zeta. split; [intros d Hd; assert (d = 0 \/ d = 1) as [->| ->] by lia; cbn; lia|].
  split; [intros d Hd; assert (d = 0 \/ d = 1) as [->| ->] by lia; cbn; lia|].
  split; [intros d Hd; assert (d = 0 \/ d = 1) as [->| ->] by lia; cbn; lia|].
  split; [right; right; split; [reflexivity|apply Qc_is_canon; reflexivity]|].
  split; [cbn; split; [right; reflexivity|unfold degree_le; cbn; lia]|].
  split; [intros _; split; intros H; [discriminate H|]; intro C; apply (f_equal this) in C; vm_compute in C; discriminate C|].
  split; [reflexivity|].
  split; [intros k Hk; change (depth 4 2) with 2 in Hk; assert (k = 1 \/ k = 2) as [->| ->] by lia;
      [transitivity (Some (lit 12 : QcS))|transitivity (Some (lit 54 : QcS))];
      [reflexivity|f_equal; apply Qc_is_canon; reflexivity|reflexivity|f_equal; apply Qc_is_canon; reflexivity]|].
  split; vm_compute; reflexivity.
Qed.
