(** * Relaxing the assembled Poisson problem (C79)

    [poisson_system_…], [poisson_rate_…], [cells_in] are in SpecPoisson, [at1], [at2],
    [at3] in SpecRelax, [equals], [around], [within], [repeated] in SpecConverge.  The
    examples are on the arrays of LemPoissonCase. *)

From Coq Require Import QArith Qcanon Qcabs.
From Verif Require Import Base FortranBase FortranSmooth SpecKernel Instances KernelsStencil SpecRow SpecSmooth SpecConverge SpecSolve
  LemSolve LemSolveOp LemSolveMem LemSolveCase SpecRelax LemRelaxCase SpecPoisson LemPoisson LemPoissonCase.
Import ListNotations.
Open Scope Z_scope.

(** The factor is below one. *)
Theorem C79_rate_1d : forall i0 i1, i0 <= i1 -> (0 <= poisson_rate_1d i0 i1)%Qc /\ (poisson_rate_1d i0 i1 < 1)%Qc.
Proof. exact @poisson_rate_bounds_1d. Qed.
Print Assumptions C79_rate_1d.

(** Gauss-Seidel. *)
Theorem C79_cellgs_1d : forall i0 i1 (dx : Z -> Qc) (beta : Qc) gcw u sgcw st offset fgcw f (ms : mem QcS) (w : Z -> Qc) (E : Qc) (n : nat) (m : mem QcS),
  i0 <= i1 -> 1 <= gcw -> fst u <> fst st -> fst u <> fst f -> fgcw = gcw ->
  (0 < beta)%Qc -> dx 0%Z <> 0%Qc ->
  poisson_system_1d i0 i1 dx beta sgcw st offset fgcw f ms w ->
  equals ms (mkFa u (CELL1d i0 i1 gcw)) (at1 w) (around (mkFa u (CELL1d i0 i1 gcw)) [(i0, i1)]) ->
  (0 <= E)%Qc -> within ms (mkFa u (CELL1d i0 i1 gcw)) (at1 w) E (in_box [(i0, i1)]) ->
  repeated n (cellgs1d i0 i1 3 offset (i0 - sgcw) (i1 + sgcw) st (i0 - fgcw) (i1 + fgcw) f (i0 - gcw) (i1 + gcw) u) ms = Some m ->
  within m (mkFa u (CELL1d i0 i1 gcw)) (at1 w) (poisson_rate_1d i0 i1 ^ n * (cells_in i0 i1 * cells_in i0 i1 / Q2Qc 4 * E))%Qc (in_box [(i0, i1)]).
Proof. exact @poisson_gs_1d. Qed.
Print Assumptions C79_cellgs_1d.

(** Red-black Gauss-Seidel. *)
Theorem C79_cellrbgs_1d : forall i0 i1 (dx : Z -> Qc) (beta : Qc) gcw u sgcw st offset fgcw f (ms : mem QcS) (w : Z -> Qc) (c1 c2 : Z) (E : Qc) (n : nat) (m : mem QcS),
  i0 <= i1 -> 1 <= gcw -> 0 <= c1 -> 0 <= c2 -> Z.odd (c1 + c2) = true -> fst u <> fst st -> fst u <> fst f ->
  (0 < beta)%Qc -> dx 0%Z <> 0%Qc ->
  poisson_system_1d i0 i1 dx beta sgcw st offset fgcw f ms w ->
  equals ms (mkFa u (CELL1d i0 i1 gcw)) (at1 w) (around (mkFa u (CELL1d i0 i1 gcw)) [(i0, i1)]) ->
  (0 <= E)%Qc -> within ms (mkFa u (CELL1d i0 i1 gcw)) (at1 w) E (in_box [(i0, i1)]) ->
  repeated n (twice (cellrbgs1d i0 i1 c1 3 offset (i0 - sgcw) (i1 + sgcw) st (i0 - fgcw) (i1 + fgcw) f (i0 - gcw) (i1 + gcw) u)
     (cellrbgs1d i0 i1 c2 3 offset (i0 - sgcw) (i1 + sgcw) st (i0 - fgcw) (i1 + fgcw) f (i0 - gcw) (i1 + gcw) u)) ms = Some m ->
  within m (mkFa u (CELL1d i0 i1 gcw)) (at1 w) (poisson_rate_1d i0 i1 ^ n * (cells_in i0 i1 * cells_in i0 i1 / Q2Qc 4 * E))%Qc (in_box [(i0, i1)]).
Proof. exact @poisson_rb_1d. Qed.
Print Assumptions C79_cellrbgs_1d.

(** Jacobi; [z] is the storage of the local array. *)
Theorem C79_celljacobi_1d : forall i0 i1 (dx : Z -> Qc) (beta : Qc) gcw u sgcw st offset fgcw f (ms : mem QcS) (w : Z -> Qc) z (E : Qc) (n : nat) (m : mem QcS),
  i0 <= i1 -> 1 <= gcw -> fst u <> fst st -> fst u <> fst f -> fst u <> fst z -> fst z <> fst st -> fst z <> fst f ->
  (0 < beta)%Qc -> dx 0%Z <> 0%Qc ->
  poisson_system_1d i0 i1 dx beta sgcw st offset fgcw f ms w ->
  equals ms (mkFa u (CELL1d i0 i1 gcw)) (at1 w) (around (mkFa u (CELL1d i0 i1 gcw)) [(i0, i1)]) ->
  (0 <= E)%Qc -> within ms (mkFa u (CELL1d i0 i1 gcw)) (at1 w) E (in_box [(i0, i1)]) ->
  repeated n (celljacobi1d i0 i1 3 offset (i0 - sgcw) (i1 + sgcw) st (i0 - fgcw) (i1 + fgcw) f (i0 - gcw) (i1 + gcw) u z) ms = Some m ->
  within m (mkFa u (CELL1d i0 i1 gcw)) (at1 w) ((1 - Q2Qc (Qmake 2 3) + Q2Qc (Qmake 2 3) * poisson_rate_1d i0 i1) ^ n * (cells_in i0 i1 * cells_in i0 i1 / Q2Qc 4 * E))%Qc (in_box [(i0, i1)]).
Proof. exact @poisson_jac_1d. Qed.
Print Assumptions C79_celljacobi_1d.

Example C79_case_1d :
  (0 < ex_q 2)%Qc /\
  ex_h 0 <> 0%Qc /\
  poisson_system_1d 0 1 ex_h (ex_q 2) 0 (10%nat, 0) (0%nat, 0) 1 (11%nat, 0) (out pxo_1d) (w_v2_1d ex_any) /\
  equals (out pxo_1d) (mkFa (4%nat, 0) (CELL1d 0 1 1)) (at1 (w_v2_1d ex_any)) (around (mkFa (4%nat, 0) (CELL1d 0 1 1)) [(0, 1)]) /\
  within (out pxo_1d) (mkFa (4%nat, 0) (CELL1d 0 1 1)) (at1 (w_v2_1d ex_any)) (ex_q 3) (in_box [(0, 1)]) /\
  (exists m, repeated 2 (cellgs1d 0 1 3 (0%nat, 0) (0 - 0) (1 + 0) (10%nat, 0) (0 - 1) (1 + 1) (11%nat, 0) (0 - 1) (1 + 1) (4%nat, 0)) (out pxo_1d) = Some m) /\
  (exists m, repeated 2 (twice (cellrbgs1d 0 1 0 3 (0%nat, 0) (0 - 0) (1 + 0) (10%nat, 0) (0 - 1) (1 + 1) (11%nat, 0) (0 - 1) (1 + 1) (4%nat, 0))
     (cellrbgs1d 0 1 1 3 (0%nat, 0) (0 - 0) (1 + 0) (10%nat, 0) (0 - 1) (1 + 1) (11%nat, 0) (0 - 1) (1 + 1) (4%nat, 0))) (out pxo_1d) = Some m) /\
  (exists m, repeated 2 (celljacobi1d 0 1 3 (0%nat, 0) (0 - 0) (1 + 0) (10%nat, 0) (0 - 1) (1 + 1) (11%nat, 0) (0 - 1) (1 + 1) (4%nat, 0) (12%nat, 0)) (out pxo_1d) = Some m).
Proof. exact px_case_1d. Qed.

(** The factor is below one. *)
Theorem C79_rate_2d : forall i0 i1 (dx : Z -> Qc), i0 <= i1 -> dx 0%Z <> 0%Qc -> dx 1%Z <> 0%Qc ->
  (0 <= poisson_rate_2d i0 i1 dx)%Qc /\ (poisson_rate_2d i0 i1 dx < 1)%Qc.
Proof. exact @poisson_rate_bounds_2d. Qed.
Print Assumptions C79_rate_2d.

(** Gauss-Seidel. *)
Theorem C79_cellgs_2d : forall i0 j0 i1 j1 (dx : Z -> Qc) (beta : Qc) gcw u sgcw st offset fgcw f (ms : mem QcS) (w : Z -> Z -> Qc) (E : Qc) (n : nat) (m : mem QcS),
  i0 <= i1 -> j0 <= j1 -> 1 <= gcw -> fst u <> fst st -> fst u <> fst f ->
  (0 < beta)%Qc -> dx 0%Z <> 0%Qc -> dx 1%Z <> 0%Qc ->
  poisson_system_2d i0 j0 i1 j1 dx beta sgcw st offset fgcw f ms w ->
  equals ms (mkFa u (CELL2d i0 j0 i1 j1 gcw)) (at2 w) (around (mkFa u (CELL2d i0 j0 i1 j1 gcw)) [(i0, i1); (j0, j1)]) ->
  (0 <= E)%Qc -> within ms (mkFa u (CELL2d i0 j0 i1 j1 gcw)) (at2 w) E (in_box [(i0, i1); (j0, j1)]) ->
  repeated n (cellgs2d i0 i1 j0 j1 5 offset (i0 - sgcw) (i1 + sgcw) (j0 - sgcw) (j1 + sgcw) st (i0 - fgcw) (i1 + fgcw) (j0 - fgcw) (j1 + fgcw) f (i0 - gcw) (i1 + gcw) (j0 - gcw) (j1 + gcw) u) ms = Some m ->
  within m (mkFa u (CELL2d i0 j0 i1 j1 gcw)) (at2 w) (poisson_rate_2d i0 i1 dx ^ n * (cells_in i0 i1 * cells_in i0 i1 / Q2Qc 4 * E))%Qc (in_box [(i0, i1); (j0, j1)]).
Proof. exact @poisson_gs_2d. Qed.
Print Assumptions C79_cellgs_2d.

(** Red-black Gauss-Seidel. *)
Theorem C79_cellrbgs_2d : forall i0 j0 i1 j1 (dx : Z -> Qc) (beta : Qc) gcw u sgcw st offset fgcw f (ms : mem QcS) (w : Z -> Z -> Qc) (c1 c2 : Z) (E : Qc) (n : nat) (m : mem QcS),
  i0 <= i1 -> j0 <= j1 -> 1 <= gcw -> 0 <= j0 + c1 -> 0 <= j0 + c2 -> Z.odd (c1 + c2) = true -> fst u <> fst st -> fst u <> fst f ->
  (0 < beta)%Qc -> dx 0%Z <> 0%Qc -> dx 1%Z <> 0%Qc ->
  poisson_system_2d i0 j0 i1 j1 dx beta sgcw st offset fgcw f ms w ->
  equals ms (mkFa u (CELL2d i0 j0 i1 j1 gcw)) (at2 w) (around (mkFa u (CELL2d i0 j0 i1 j1 gcw)) [(i0, i1); (j0, j1)]) ->
  (0 <= E)%Qc -> within ms (mkFa u (CELL2d i0 j0 i1 j1 gcw)) (at2 w) E (in_box [(i0, i1); (j0, j1)]) ->
  repeated n (twice (cellrbgs2d i0 i1 j0 j1 c1 5 offset (i0 - sgcw) (i1 + sgcw) (j0 - sgcw) (j1 + sgcw) st (i0 - fgcw) (i1 + fgcw) (j0 - fgcw) (j1 + fgcw) f (i0 - gcw) (i1 + gcw) (j0 - gcw) (j1 + gcw) u)
     (cellrbgs2d i0 i1 j0 j1 c2 5 offset (i0 - sgcw) (i1 + sgcw) (j0 - sgcw) (j1 + sgcw) st (i0 - fgcw) (i1 + fgcw) (j0 - fgcw) (j1 + fgcw) f (i0 - gcw) (i1 + gcw) (j0 - gcw) (j1 + gcw) u)) ms = Some m ->
  within m (mkFa u (CELL2d i0 j0 i1 j1 gcw)) (at2 w) (poisson_rate_2d i0 i1 dx ^ n * (cells_in i0 i1 * cells_in i0 i1 / Q2Qc 4 * E))%Qc (in_box [(i0, i1); (j0, j1)]).
Proof. exact @poisson_rb_2d. Qed.
Print Assumptions C79_cellrbgs_2d.

(** Red-black Gauss-Seidel for a fixed stencil. *)
Theorem C79_cells5rbgs_2d : forall i0 j0 i1 j1 (dx : Z -> Qc) (beta : Qc) gcw u sgcw st offset fgcw f (ms : mem QcS) (w : Z -> Z -> Qc) (c1 c2 : Z) (E : Qc) (n : nat) (m : mem QcS),
  i0 <= i1 -> j0 <= j1 -> 1 <= gcw -> 0 <= j0 + c1 -> 0 <= j0 + c2 -> Z.odd (c1 + c2) = true -> fst u <> fst st -> fst u <> fst f ->
  (0 < beta)%Qc -> dx 0%Z <> 0%Qc -> dx 1%Z <> 0%Qc ->
  poisson_system_2d i0 j0 i1 j1 dx beta sgcw st offset fgcw f ms w ->
  equals ms (mkFa u (CELL2d i0 j0 i1 j1 gcw)) (at2 w) (around (mkFa u (CELL2d i0 j0 i1 j1 gcw)) [(i0, i1); (j0, j1)]) ->
  (0 <= E)%Qc -> within ms (mkFa u (CELL2d i0 j0 i1 j1 gcw)) (at2 w) E (in_box [(i0, i1); (j0, j1)]) ->
  repeated n (twice (cells5rbgs2d i0 i1 j0 j1 c1 (i0 - sgcw) (i1 + sgcw) (j0 - sgcw) (j1 + sgcw) st (i0 - fgcw) (i1 + fgcw) (j0 - fgcw) (j1 + fgcw) f (i0 - gcw) (i1 + gcw) (j0 - gcw) (j1 + gcw) u)
     (cells5rbgs2d i0 i1 j0 j1 c2 (i0 - sgcw) (i1 + sgcw) (j0 - sgcw) (j1 + sgcw) st (i0 - fgcw) (i1 + fgcw) (j0 - fgcw) (j1 + fgcw) f (i0 - gcw) (i1 + gcw) (j0 - gcw) (j1 + gcw) u)) ms = Some m ->
  within m (mkFa u (CELL2d i0 j0 i1 j1 gcw)) (at2 w) (poisson_rate_2d i0 i1 dx ^ n * (cells_in i0 i1 * cells_in i0 i1 / Q2Qc 4 * E))%Qc (in_box [(i0, i1); (j0, j1)]).
Proof. exact @poisson_fix_2d. Qed.
Print Assumptions C79_cells5rbgs_2d.

(** Jacobi; [z] is the storage of the local array, [om] the weight. *)
Theorem C79_celljacobi_2d : forall i0 j0 i1 j1 (dx : Z -> Qc) (beta : Qc) gcw u sgcw st offset fgcw f (ms : mem QcS) (w : Z -> Z -> Qc) z (om : Qc) (E : Qc) (n : nat) (m : mem QcS),
  i0 <= i1 -> j0 <= j1 -> 1 <= gcw -> fst u <> fst st -> fst u <> fst f -> fst u <> fst z -> fst z <> fst st -> fst z <> fst f -> (0 <= om)%Qc -> (om <= 1)%Qc ->
  (0 < beta)%Qc -> dx 0%Z <> 0%Qc -> dx 1%Z <> 0%Qc ->
  poisson_system_2d i0 j0 i1 j1 dx beta sgcw st offset fgcw f ms w ->
  equals ms (mkFa u (CELL2d i0 j0 i1 j1 gcw)) (at2 w) (around (mkFa u (CELL2d i0 j0 i1 j1 gcw)) [(i0, i1); (j0, j1)]) ->
  (0 <= E)%Qc -> within ms (mkFa u (CELL2d i0 j0 i1 j1 gcw)) (at2 w) E (in_box [(i0, i1); (j0, j1)]) ->
  repeated n (celljacobi2d i0 i1 j0 j1 5 offset (i0 - sgcw) (i1 + sgcw) (j0 - sgcw) (j1 + sgcw) st (i0 - fgcw) (i1 + fgcw) (j0 - fgcw) (j1 + fgcw) f (i0 - gcw) (i1 + gcw) (j0 - gcw) (j1 + gcw) u z (om : QcS)) ms = Some m ->
  within m (mkFa u (CELL2d i0 j0 i1 j1 gcw)) (at2 w) ((1 - om + om * poisson_rate_2d i0 i1 dx) ^ n * (cells_in i0 i1 * cells_in i0 i1 / Q2Qc 4 * E))%Qc (in_box [(i0, i1); (j0, j1)]).
Proof. exact @poisson_jac_2d. Qed.
Print Assumptions C79_celljacobi_2d.

Example C79_case_2d :
  (0 < ex_q 2)%Qc /\
  ex_h 0 <> 0%Qc /\
  ex_h 1 <> 0%Qc /\
  poisson_system_2d 0 0 1 1 ex_h (ex_q 2) 0 (10%nat, 0) (0%nat, 0) 1 (11%nat, 0) (out pxo_2d) (w_v2_2d ex_any) /\
  equals (out pxo_2d) (mkFa (4%nat, 0) (CELL2d 0 0 1 1 1)) (at2 (w_v2_2d ex_any)) (around (mkFa (4%nat, 0) (CELL2d 0 0 1 1 1)) [(0, 1); (0, 1)]) /\
  within (out pxo_2d) (mkFa (4%nat, 0) (CELL2d 0 0 1 1 1)) (at2 (w_v2_2d ex_any)) (ex_q 3) (in_box [(0, 1); (0, 1)]) /\
  (exists m, repeated 2 (cellgs2d 0 1 0 1 5 (0%nat, 0) (0 - 0) (1 + 0) (0 - 0) (1 + 0) (10%nat, 0) (0 - 1) (1 + 1) (0 - 1) (1 + 1) (11%nat, 0) (0 - 1) (1 + 1) (0 - 1) (1 + 1) (4%nat, 0)) (out pxo_2d) = Some m) /\
  (exists m, repeated 2 (twice (cellrbgs2d 0 1 0 1 0 5 (0%nat, 0) (0 - 0) (1 + 0) (0 - 0) (1 + 0) (10%nat, 0) (0 - 1) (1 + 1) (0 - 1) (1 + 1) (11%nat, 0) (0 - 1) (1 + 1) (0 - 1) (1 + 1) (4%nat, 0))
     (cellrbgs2d 0 1 0 1 1 5 (0%nat, 0) (0 - 0) (1 + 0) (0 - 0) (1 + 0) (10%nat, 0) (0 - 1) (1 + 1) (0 - 1) (1 + 1) (11%nat, 0) (0 - 1) (1 + 1) (0 - 1) (1 + 1) (4%nat, 0))) (out pxo_2d) = Some m) /\
  (exists m, repeated 2 (twice (cells5rbgs2d 0 1 0 1 0 (0 - 0) (1 + 0) (0 - 0) (1 + 0) (10%nat, 0) (0 - 1) (1 + 1) (0 - 1) (1 + 1) (11%nat, 0) (0 - 1) (1 + 1) (0 - 1) (1 + 1) (4%nat, 0))
     (cells5rbgs2d 0 1 0 1 1 (0 - 0) (1 + 0) (0 - 0) (1 + 0) (10%nat, 0) (0 - 1) (1 + 1) (0 - 1) (1 + 1) (11%nat, 0) (0 - 1) (1 + 1) (0 - 1) (1 + 1) (4%nat, 0))) (out pxo_2d) = Some m) /\
  (exists m, repeated 2 (celljacobi2d 0 1 0 1 5 (0%nat, 0) (0 - 0) (1 + 0) (0 - 0) (1 + 0) (10%nat, 0) (0 - 1) (1 + 1) (0 - 1) (1 + 1) (11%nat, 0) (0 - 1) (1 + 1) (0 - 1) (1 + 1) (4%nat, 0) (12%nat, 0) (ex_q 1 : QcS)) (out pxo_2d) = Some m).
Proof. exact px_case_2d. Qed.

(** The factor is below one. *)
Theorem C79_rate_3d : forall i0 i1 (dx : Z -> Qc), i0 <= i1 -> dx 0%Z <> 0%Qc -> dx 1%Z <> 0%Qc -> dx 2%Z <> 0%Qc ->
  (0 <= poisson_rate_3d i0 i1 dx)%Qc /\ (poisson_rate_3d i0 i1 dx < 1)%Qc.
Proof. exact @poisson_rate_bounds_3d. Qed.
Print Assumptions C79_rate_3d.

(** Gauss-Seidel. *)
Theorem C79_cellgs_3d : forall i0 j0 k0 i1 j1 k1 (dx : Z -> Qc) (beta : Qc) gcw u sgcw st offset fgcw f (ms : mem QcS) (w : Z -> Z -> Z -> Qc) (E : Qc) (n : nat) (m : mem QcS),
  i0 <= i1 -> j0 <= j1 -> k0 <= k1 -> 1 <= gcw -> fst u <> fst st -> fst u <> fst f ->
  (0 < beta)%Qc -> dx 0%Z <> 0%Qc -> dx 1%Z <> 0%Qc -> dx 2%Z <> 0%Qc ->
  poisson_system_3d i0 j0 k0 i1 j1 k1 dx beta sgcw st offset fgcw f ms w ->
  equals ms (mkFa u (CELL3d i0 j0 k0 i1 j1 k1 gcw)) (at3 w) (around (mkFa u (CELL3d i0 j0 k0 i1 j1 k1 gcw)) [(i0, i1); (j0, j1); (k0, k1)]) ->
  (0 <= E)%Qc -> within ms (mkFa u (CELL3d i0 j0 k0 i1 j1 k1 gcw)) (at3 w) E (in_box [(i0, i1); (j0, j1); (k0, k1)]) ->
  repeated n (cellgs3d i0 i1 j0 j1 k0 k1 7 offset (i0 - sgcw) (i1 + sgcw) (j0 - sgcw) (j1 + sgcw) (k0 - sgcw) (k1 + sgcw) st (i0 - fgcw) (i1 + fgcw) (j0 - fgcw) (j1 + fgcw) (k0 - fgcw) (k1 + fgcw) f (i0 - gcw) (i1 + gcw) (j0 - gcw) (j1 + gcw) (k0 - gcw) (k1 + gcw) u) ms = Some m ->
  within m (mkFa u (CELL3d i0 j0 k0 i1 j1 k1 gcw)) (at3 w) (poisson_rate_3d i0 i1 dx ^ n * (cells_in i0 i1 * cells_in i0 i1 / Q2Qc 4 * E))%Qc (in_box [(i0, i1); (j0, j1); (k0, k1)]).
Proof. exact @poisson_gs_3d. Qed.
Print Assumptions C79_cellgs_3d.

(** Red-black Gauss-Seidel. *)
Theorem C79_cellrbgs_3d : forall i0 j0 k0 i1 j1 k1 (dx : Z -> Qc) (beta : Qc) gcw u sgcw st offset fgcw f (ms : mem QcS) (w : Z -> Z -> Z -> Qc) (c1 c2 : Z) (E : Qc) (n : nat) (m : mem QcS),
  i0 <= i1 -> j0 <= j1 -> k0 <= k1 -> 1 <= gcw -> 0 <= c1 -> 0 <= c2 -> Z.odd (c1 + c2) = true -> fst u <> fst st -> fst u <> fst f ->
  (0 < beta)%Qc -> dx 0%Z <> 0%Qc -> dx 1%Z <> 0%Qc -> dx 2%Z <> 0%Qc ->
  poisson_system_3d i0 j0 k0 i1 j1 k1 dx beta sgcw st offset fgcw f ms w ->
  equals ms (mkFa u (CELL3d i0 j0 k0 i1 j1 k1 gcw)) (at3 w) (around (mkFa u (CELL3d i0 j0 k0 i1 j1 k1 gcw)) [(i0, i1); (j0, j1); (k0, k1)]) ->
  (0 <= E)%Qc -> within ms (mkFa u (CELL3d i0 j0 k0 i1 j1 k1 gcw)) (at3 w) E (in_box [(i0, i1); (j0, j1); (k0, k1)]) ->
  repeated n (twice (cellrbgs3d i0 i1 j0 j1 k0 k1 c1 7 offset (i0 - sgcw) (i1 + sgcw) (j0 - sgcw) (j1 + sgcw) (k0 - sgcw) (k1 + sgcw) st (i0 - fgcw) (i1 + fgcw) (j0 - fgcw) (j1 + fgcw) (k0 - fgcw) (k1 + fgcw) f (i0 - gcw) (i1 + gcw) (j0 - gcw) (j1 + gcw) (k0 - gcw) (k1 + gcw) u)
     (cellrbgs3d i0 i1 j0 j1 k0 k1 c2 7 offset (i0 - sgcw) (i1 + sgcw) (j0 - sgcw) (j1 + sgcw) (k0 - sgcw) (k1 + sgcw) st (i0 - fgcw) (i1 + fgcw) (j0 - fgcw) (j1 + fgcw) (k0 - fgcw) (k1 + fgcw) f (i0 - gcw) (i1 + gcw) (j0 - gcw) (j1 + gcw) (k0 - gcw) (k1 + gcw) u)) ms = Some m ->
  within m (mkFa u (CELL3d i0 j0 k0 i1 j1 k1 gcw)) (at3 w) (poisson_rate_3d i0 i1 dx ^ n * (cells_in i0 i1 * cells_in i0 i1 / Q2Qc 4 * E))%Qc (in_box [(i0, i1); (j0, j1); (k0, k1)]).
Proof. exact @poisson_rb_3d. Qed.
Print Assumptions C79_cellrbgs_3d.

(** Red-black Gauss-Seidel for a fixed stencil. *)
Theorem C79_cells7rbgs_3d : forall i0 j0 k0 i1 j1 k1 (dx : Z -> Qc) (beta : Qc) gcw u sgcw st offset fgcw f (ms : mem QcS) (w : Z -> Z -> Z -> Qc) (c1 c2 : Z) (E : Qc) (n : nat) (m : mem QcS),
  i0 <= i1 -> j0 <= j1 -> k0 <= k1 -> 1 <= gcw -> 0 <= c1 -> 0 <= c2 -> Z.odd (c1 + c2) = true -> fst u <> fst st -> fst u <> fst f ->
  (0 < beta)%Qc -> dx 0%Z <> 0%Qc -> dx 1%Z <> 0%Qc -> dx 2%Z <> 0%Qc ->
  poisson_system_3d i0 j0 k0 i1 j1 k1 dx beta sgcw st offset fgcw f ms w ->
  equals ms (mkFa u (CELL3d i0 j0 k0 i1 j1 k1 gcw)) (at3 w) (around (mkFa u (CELL3d i0 j0 k0 i1 j1 k1 gcw)) [(i0, i1); (j0, j1); (k0, k1)]) ->
  (0 <= E)%Qc -> within ms (mkFa u (CELL3d i0 j0 k0 i1 j1 k1 gcw)) (at3 w) E (in_box [(i0, i1); (j0, j1); (k0, k1)]) ->
  repeated n (twice (cells7rbgs3d i0 i1 j0 j1 k0 k1 c1 (i0 - sgcw) (i1 + sgcw) (j0 - sgcw) (j1 + sgcw) (k0 - sgcw) (k1 + sgcw) st (i0 - fgcw) (i1 + fgcw) (j0 - fgcw) (j1 + fgcw) (k0 - fgcw) (k1 + fgcw) f (i0 - gcw) (i1 + gcw) (j0 - gcw) (j1 + gcw) (k0 - gcw) (k1 + gcw) u)
     (cells7rbgs3d i0 i1 j0 j1 k0 k1 c2 (i0 - sgcw) (i1 + sgcw) (j0 - sgcw) (j1 + sgcw) (k0 - sgcw) (k1 + sgcw) st (i0 - fgcw) (i1 + fgcw) (j0 - fgcw) (j1 + fgcw) (k0 - fgcw) (k1 + fgcw) f (i0 - gcw) (i1 + gcw) (j0 - gcw) (j1 + gcw) (k0 - gcw) (k1 + gcw) u)) ms = Some m ->
  within m (mkFa u (CELL3d i0 j0 k0 i1 j1 k1 gcw)) (at3 w) (poisson_rate_3d i0 i1 dx ^ n * (cells_in i0 i1 * cells_in i0 i1 / Q2Qc 4 * E))%Qc (in_box [(i0, i1); (j0, j1); (k0, k1)]).
Proof. exact @poisson_fix_3d. Qed.
Print Assumptions C79_cells7rbgs_3d.

(** Jacobi; [z] is the storage of the local array, [om] the weight. *)
Theorem C79_celljacobi_3d : forall i0 j0 k0 i1 j1 k1 (dx : Z -> Qc) (beta : Qc) gcw u sgcw st offset fgcw f (ms : mem QcS) (w : Z -> Z -> Z -> Qc) z (om : Qc) (E : Qc) (n : nat) (m : mem QcS),
  i0 <= i1 -> j0 <= j1 -> k0 <= k1 -> 1 <= gcw -> fst u <> fst st -> fst u <> fst f -> fst u <> fst z -> fst z <> fst st -> fst z <> fst f -> (0 <= om)%Qc -> (om <= 1)%Qc ->
  (0 < beta)%Qc -> dx 0%Z <> 0%Qc -> dx 1%Z <> 0%Qc -> dx 2%Z <> 0%Qc ->
  poisson_system_3d i0 j0 k0 i1 j1 k1 dx beta sgcw st offset fgcw f ms w ->
  equals ms (mkFa u (CELL3d i0 j0 k0 i1 j1 k1 gcw)) (at3 w) (around (mkFa u (CELL3d i0 j0 k0 i1 j1 k1 gcw)) [(i0, i1); (j0, j1); (k0, k1)]) ->
  (0 <= E)%Qc -> within ms (mkFa u (CELL3d i0 j0 k0 i1 j1 k1 gcw)) (at3 w) E (in_box [(i0, i1); (j0, j1); (k0, k1)]) ->
  repeated n (celljacobi3d i0 i1 j0 j1 k0 k1 7 offset (i0 - sgcw) (i1 + sgcw) (j0 - sgcw) (j1 + sgcw) (k0 - sgcw) (k1 + sgcw) st (i0 - fgcw) (i1 + fgcw) (j0 - fgcw) (j1 + fgcw) (k0 - fgcw) (k1 + fgcw) f (i0 - gcw) (i1 + gcw) (j0 - gcw) (j1 + gcw) (k0 - gcw) (k1 + gcw) u z (om : QcS)) ms = Some m ->
  within m (mkFa u (CELL3d i0 j0 k0 i1 j1 k1 gcw)) (at3 w) ((1 - om + om * poisson_rate_3d i0 i1 dx) ^ n * (cells_in i0 i1 * cells_in i0 i1 / Q2Qc 4 * E))%Qc (in_box [(i0, i1); (j0, j1); (k0, k1)]).
Proof. exact @poisson_jac_3d. Qed.
Print Assumptions C79_celljacobi_3d.

Example C79_case_3d :
  (0 < ex_q 2)%Qc /\
  ex_h 0 <> 0%Qc /\
  ex_h 1 <> 0%Qc /\
  ex_h 2 <> 0%Qc /\
  poisson_system_3d 0 0 0 1 1 0 ex_h (ex_q 2) 0 (10%nat, 0) (0%nat, 0) 1 (11%nat, 0) (out pxo_3d) (w_v2_3d ex_any) /\
  equals (out pxo_3d) (mkFa (4%nat, 0) (CELL3d 0 0 0 1 1 0 1)) (at3 (w_v2_3d ex_any)) (around (mkFa (4%nat, 0) (CELL3d 0 0 0 1 1 0 1)) [(0, 1); (0, 1); (0, 0)]) /\
  within (out pxo_3d) (mkFa (4%nat, 0) (CELL3d 0 0 0 1 1 0 1)) (at3 (w_v2_3d ex_any)) (ex_q 3) (in_box [(0, 1); (0, 1); (0, 0)]) /\
  (exists m, repeated 2 (cellgs3d 0 1 0 1 0 0 7 (0%nat, 0) (0 - 0) (1 + 0) (0 - 0) (1 + 0) (0 - 0) (0 + 0) (10%nat, 0) (0 - 1) (1 + 1) (0 - 1) (1 + 1) (0 - 1) (0 + 1) (11%nat, 0) (0 - 1) (1 + 1) (0 - 1) (1 + 1) (0 - 1) (0 + 1) (4%nat, 0)) (out pxo_3d) = Some m) /\
  (exists m, repeated 2 (twice (cellrbgs3d 0 1 0 1 0 0 0 7 (0%nat, 0) (0 - 0) (1 + 0) (0 - 0) (1 + 0) (0 - 0) (0 + 0) (10%nat, 0) (0 - 1) (1 + 1) (0 - 1) (1 + 1) (0 - 1) (0 + 1) (11%nat, 0) (0 - 1) (1 + 1) (0 - 1) (1 + 1) (0 - 1) (0 + 1) (4%nat, 0))
     (cellrbgs3d 0 1 0 1 0 0 1 7 (0%nat, 0) (0 - 0) (1 + 0) (0 - 0) (1 + 0) (0 - 0) (0 + 0) (10%nat, 0) (0 - 1) (1 + 1) (0 - 1) (1 + 1) (0 - 1) (0 + 1) (11%nat, 0) (0 - 1) (1 + 1) (0 - 1) (1 + 1) (0 - 1) (0 + 1) (4%nat, 0))) (out pxo_3d) = Some m) /\
  (exists m, repeated 2 (twice (cells7rbgs3d 0 1 0 1 0 0 0 (0 - 0) (1 + 0) (0 - 0) (1 + 0) (0 - 0) (0 + 0) (10%nat, 0) (0 - 1) (1 + 1) (0 - 1) (1 + 1) (0 - 1) (0 + 1) (11%nat, 0) (0 - 1) (1 + 1) (0 - 1) (1 + 1) (0 - 1) (0 + 1) (4%nat, 0))
     (cells7rbgs3d 0 1 0 1 0 0 1 (0 - 0) (1 + 0) (0 - 0) (1 + 0) (0 - 0) (0 + 0) (10%nat, 0) (0 - 1) (1 + 1) (0 - 1) (1 + 1) (0 - 1) (0 + 1) (11%nat, 0) (0 - 1) (1 + 1) (0 - 1) (1 + 1) (0 - 1) (0 + 1) (4%nat, 0))) (out pxo_3d) = Some m) /\
  (exists m, repeated 2 (celljacobi3d 0 1 0 1 0 0 7 (0%nat, 0) (0 - 0) (1 + 0) (0 - 0) (1 + 0) (0 - 0) (0 + 0) (10%nat, 0) (0 - 1) (1 + 1) (0 - 1) (1 + 1) (0 - 1) (0 + 1) (11%nat, 0) (0 - 1) (1 + 1) (0 - 1) (1 + 1) (0 - 1) (0 + 1) (4%nat, 0) (12%nat, 0) (ex_q 1 : QcS)) (out pxo_3d) = Some m).
Proof. exact px_case_3d. Qed.
