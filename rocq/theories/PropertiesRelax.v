(** * Assembling and relaxing solves the discrete problem (C78)

    [applied_…] is in SpecSolve, [assembled_…] in SpecRelax, [equals], [around],
    [within], [repeated] in SpecConverge.  The examples are on the arrays of
    LemRelaxCase. *)

From Coq Require Import QArith Qcanon Qcabs.
From Verif Require Import Base FortranBase FortranSmooth SpecKernel Instances KernelsStencil SpecRow SpecSmooth SpecConverge SpecSolve
  LemSolve LemSolveOp LemSolveMem LemSolveCase SpecRelax LemRelax LemRelax2 LemRelaxCase.
Import ListNotations.
Open Scope Z_scope.

(** What the operator kernel maps to the right-hand side solves the assembled system. *)
Theorem C78_solution_v1_1d : forall i0 i1 (dx : Z -> Qc) (beta : Qc) b0 gcw u f0 (alpha : Qc) agcw a rgcw res sgcw st offset fgcw f (mx ms : mem QcS) (r w c v0 : Z -> Qc),
  i0 <= i1 + 1 ->
  applied_v1_1d (S := QcS) i0 i1 dx beta b0 gcw u f0 alpha agcw a rgcw res mx r w c v0 ->
  assembled_v1_1d i0 i1 dx beta b0 alpha agcw a sgcw st offset fgcw f ms r c v0 ->
  solution ms (mkFa offset [(0, 0); (0, 2)]) (mkFa st ((0, 2) :: CELL1d i0 i1 sgcw)) 3 (mkFa f (CELL1d i0 i1 fgcw)) (at1 w) (in_box [(i0, i1)]).
Proof. exact @solution_v1_1d. Qed.
Print Assumptions C78_solution_v1_1d.

(** Gauss-Seidel. *)
Theorem C78_cellgs_v1_1d : forall i0 i1 (dx : Z -> Qc) (beta : Qc) b0 gcw u f0 (alpha : Qc) agcw a rgcw res sgcw st offset fgcw f (mx ms : mem QcS) (r w c v0 : Z -> Qc) (A B E : Qc) (n : nat) (m : mem QcS),
  i0 <= i1 + 1 -> 1 <= gcw -> fst u <> fst st -> fst u <> fst f -> fgcw = gcw ->
  (0 <= beta)%Qc -> (0 < A)%Qc -> (0 <= B)%Qc ->
  (forall i, i0 <= i <= i1 + 1 -> (0 <= v0 i)%Qc /\ (v0 i <= B)%Qc) ->
  (forall i, i0 <= i <= i1 -> (A <= alpha * c i)%Qc) ->
  applied_v1_1d (S := QcS) i0 i1 dx beta b0 gcw u f0 alpha agcw a rgcw res mx r w c v0 ->
  assembled_v1_1d i0 i1 dx beta b0 alpha agcw a sgcw st offset fgcw f ms r c v0 ->
  equals ms (mkFa u (CELL1d i0 i1 gcw)) (at1 w) (around (mkFa u (CELL1d i0 i1 gcw)) [(i0, i1)]) ->
  (0 <= E)%Qc -> within ms (mkFa u (CELL1d i0 i1 gcw)) (at1 w) E (in_box [(i0, i1)]) ->
  repeated n (cellgs1d i0 i1 3 offset (i0 - sgcw) (i1 + sgcw) st (i0 - fgcw) (i1 + fgcw) f (i0 - gcw) (i1 + gcw) u) ms = Some m ->
  let K := ((1 + 1) * B * (beta / (dx 0%Z * dx 0%Z)))%Qc in
  within m (mkFa u (CELL1d i0 i1 gcw)) (at1 w) ((K / (K + A)) ^ n * E)%Qc (in_box [(i0, i1)]).
Proof. exact @relax_gs_v1_1d. Qed.
Print Assumptions C78_cellgs_v1_1d.

(** Red-black Gauss-Seidel. *)
Theorem C78_cellrbgs_v1_1d : forall i0 i1 (dx : Z -> Qc) (beta : Qc) b0 gcw u f0 (alpha : Qc) agcw a rgcw res sgcw st offset fgcw f (mx ms : mem QcS) (r w c v0 : Z -> Qc) (c1 c2 : Z) (A B E : Qc) (n : nat) (m : mem QcS),
  i0 <= i1 + 1 -> 1 <= gcw -> 0 <= c1 -> 0 <= c2 -> Z.odd (c1 + c2) = true -> fst u <> fst st -> fst u <> fst f ->
  (0 <= beta)%Qc -> (0 < A)%Qc -> (0 <= B)%Qc ->
  (forall i, i0 <= i <= i1 + 1 -> (0 <= v0 i)%Qc /\ (v0 i <= B)%Qc) ->
  (forall i, i0 <= i <= i1 -> (A <= alpha * c i)%Qc) ->
  applied_v1_1d (S := QcS) i0 i1 dx beta b0 gcw u f0 alpha agcw a rgcw res mx r w c v0 ->
  assembled_v1_1d i0 i1 dx beta b0 alpha agcw a sgcw st offset fgcw f ms r c v0 ->
  equals ms (mkFa u (CELL1d i0 i1 gcw)) (at1 w) (around (mkFa u (CELL1d i0 i1 gcw)) [(i0, i1)]) ->
  (0 <= E)%Qc -> within ms (mkFa u (CELL1d i0 i1 gcw)) (at1 w) E (in_box [(i0, i1)]) ->
  repeated n (twice (cellrbgs1d i0 i1 c1 3 offset (i0 - sgcw) (i1 + sgcw) st (i0 - fgcw) (i1 + fgcw) f (i0 - gcw) (i1 + gcw) u)
     (cellrbgs1d i0 i1 c2 3 offset (i0 - sgcw) (i1 + sgcw) st (i0 - fgcw) (i1 + fgcw) f (i0 - gcw) (i1 + gcw) u)) ms = Some m ->
  let K := ((1 + 1) * B * (beta / (dx 0%Z * dx 0%Z)))%Qc in
  within m (mkFa u (CELL1d i0 i1 gcw)) (at1 w) ((K / (K + A)) ^ n * E)%Qc (in_box [(i0, i1)]).
Proof. exact @relax_rb_v1_1d. Qed.
Print Assumptions C78_cellrbgs_v1_1d.

(** Jacobi; [z] is the storage of the local array. *)
Theorem C78_celljacobi_v1_1d : forall i0 i1 (dx : Z -> Qc) (beta : Qc) b0 gcw u f0 (alpha : Qc) agcw a rgcw res sgcw st offset fgcw f (mx ms : mem QcS) (r w c v0 : Z -> Qc) z (A B E : Qc) (n : nat) (m : mem QcS),
  i0 <= i1 + 1 -> 1 <= gcw -> fst u <> fst st -> fst u <> fst f -> fst u <> fst z -> fst z <> fst st -> fst z <> fst f ->
  (0 <= beta)%Qc -> (0 < A)%Qc -> (0 <= B)%Qc ->
  (forall i, i0 <= i <= i1 + 1 -> (0 <= v0 i)%Qc /\ (v0 i <= B)%Qc) ->
  (forall i, i0 <= i <= i1 -> (A <= alpha * c i)%Qc) ->
  applied_v1_1d (S := QcS) i0 i1 dx beta b0 gcw u f0 alpha agcw a rgcw res mx r w c v0 ->
  assembled_v1_1d i0 i1 dx beta b0 alpha agcw a sgcw st offset fgcw f ms r c v0 ->
  equals ms (mkFa u (CELL1d i0 i1 gcw)) (at1 w) (around (mkFa u (CELL1d i0 i1 gcw)) [(i0, i1)]) ->
  (0 <= E)%Qc -> within ms (mkFa u (CELL1d i0 i1 gcw)) (at1 w) E (in_box [(i0, i1)]) ->
  repeated n (celljacobi1d i0 i1 3 offset (i0 - sgcw) (i1 + sgcw) st (i0 - fgcw) (i1 + fgcw) f (i0 - gcw) (i1 + gcw) u z) ms = Some m ->
  let K := ((1 + 1) * B * (beta / (dx 0%Z * dx 0%Z)))%Qc in
  within m (mkFa u (CELL1d i0 i1 gcw)) (at1 w) ((1 - Q2Qc (Qmake 2 3) + Q2Qc (Qmake 2 3) * (K / (K + A))) ^ n * E)%Qc (in_box [(i0, i1)]).
Proof. exact @relax_jac_v1_1d. Qed.
Print Assumptions C78_celljacobi_v1_1d.

Example C78_case_v1_1d :
  is_v1_1d ex_any /\
  assembled_v1_1d 0 1 ex_h (ex_q 2) (0%nat, 0) (ex_q 3) 0 (3%nat, 0) 0 (10%nat, 0) (0%nat, 0) 1 (11%nat, 0) (out rxo_v1_1d) (r_v1_1d ex_any) c_v1_1d v0_v1_1d /\
  (forall i, 0 <= i <= 1 + 1 -> (0 <= v0_v1_1d i)%Qc /\ (v0_v1_1d i <= ex_q 2)%Qc) /\
  (forall i, 0 <= i <= 1 -> (ex_q 3 <= ex_q 3 * c_v1_1d i)%Qc) /\
  equals (out rxo_v1_1d) (mkFa (4%nat, 0) (CELL1d 0 1 1)) (at1 (w_v1_1d ex_any)) (around (mkFa (4%nat, 0) (CELL1d 0 1 1)) [(0, 1)]) /\
  within (out rxo_v1_1d) (mkFa (4%nat, 0) (CELL1d 0 1 1)) (at1 (w_v1_1d ex_any)) (ex_q 3) (in_box [(0, 1)]) /\
  (exists m, repeated 2 (cellgs1d 0 1 3 (0%nat, 0) (0 - 0) (1 + 0) (10%nat, 0) (0 - 1) (1 + 1) (11%nat, 0) (0 - 1) (1 + 1) (4%nat, 0)) (out rxo_v1_1d) = Some m) /\
  (exists m, repeated 2 (twice (cellrbgs1d 0 1 0 3 (0%nat, 0) (0 - 0) (1 + 0) (10%nat, 0) (0 - 1) (1 + 1) (11%nat, 0) (0 - 1) (1 + 1) (4%nat, 0))
     (cellrbgs1d 0 1 1 3 (0%nat, 0) (0 - 0) (1 + 0) (10%nat, 0) (0 - 1) (1 + 1) (11%nat, 0) (0 - 1) (1 + 1) (4%nat, 0))) (out rxo_v1_1d) = Some m) /\
  (exists m, repeated 2 (celljacobi1d 0 1 3 (0%nat, 0) (0 - 0) (1 + 0) (10%nat, 0) (0 - 1) (1 + 1) (11%nat, 0) (0 - 1) (1 + 1) (4%nat, 0) (12%nat, 0)) (out rxo_v1_1d) = Some m).
Proof. exact rx_case_v1_1d. Qed.

(** What the operator kernel maps to the right-hand side solves the assembled system. *)
Theorem C78_solution_v2_1d : forall i0 i1 (dx : Z -> Qc) (beta : Qc) b0 gcw u f0 (alpha : Qc) rgcw res sgcw st offset fgcw f (mx ms : mem QcS) (r w v0 : Z -> Qc),
  i0 <= i1 + 1 ->
  applied_v2_1d (S := QcS) i0 i1 dx beta b0 gcw u f0 alpha rgcw res mx r w v0 ->
  assembled_v2_1d i0 i1 dx beta b0 alpha sgcw st offset fgcw f ms r v0 ->
  solution ms (mkFa offset [(0, 0); (0, 2)]) (mkFa st ((0, 2) :: CELL1d i0 i1 sgcw)) 3 (mkFa f (CELL1d i0 i1 fgcw)) (at1 w) (in_box [(i0, i1)]).
Proof. exact @solution_v2_1d. Qed.
Print Assumptions C78_solution_v2_1d.

(** Gauss-Seidel. *)
Theorem C78_cellgs_v2_1d : forall i0 i1 (dx : Z -> Qc) (beta : Qc) b0 gcw u f0 (alpha : Qc) rgcw res sgcw st offset fgcw f (mx ms : mem QcS) (r w v0 : Z -> Qc) (A B E : Qc) (n : nat) (m : mem QcS),
  i0 <= i1 + 1 -> 1 <= gcw -> fst u <> fst st -> fst u <> fst f -> fgcw = gcw ->
  (0 <= beta)%Qc -> (0 < A)%Qc -> (0 <= B)%Qc ->
  (forall i, i0 <= i <= i1 + 1 -> (0 <= v0 i)%Qc /\ (v0 i <= B)%Qc) ->
  (A <= alpha)%Qc ->
  applied_v2_1d (S := QcS) i0 i1 dx beta b0 gcw u f0 alpha rgcw res mx r w v0 ->
  assembled_v2_1d i0 i1 dx beta b0 alpha sgcw st offset fgcw f ms r v0 ->
  equals ms (mkFa u (CELL1d i0 i1 gcw)) (at1 w) (around (mkFa u (CELL1d i0 i1 gcw)) [(i0, i1)]) ->
  (0 <= E)%Qc -> within ms (mkFa u (CELL1d i0 i1 gcw)) (at1 w) E (in_box [(i0, i1)]) ->
  repeated n (cellgs1d i0 i1 3 offset (i0 - sgcw) (i1 + sgcw) st (i0 - fgcw) (i1 + fgcw) f (i0 - gcw) (i1 + gcw) u) ms = Some m ->
  let K := ((1 + 1) * B * (beta / (dx 0%Z * dx 0%Z)))%Qc in
  within m (mkFa u (CELL1d i0 i1 gcw)) (at1 w) ((K / (K + A)) ^ n * E)%Qc (in_box [(i0, i1)]).
Proof. exact @relax_gs_v2_1d. Qed.
Print Assumptions C78_cellgs_v2_1d.

(** Red-black Gauss-Seidel. *)
Theorem C78_cellrbgs_v2_1d : forall i0 i1 (dx : Z -> Qc) (beta : Qc) b0 gcw u f0 (alpha : Qc) rgcw res sgcw st offset fgcw f (mx ms : mem QcS) (r w v0 : Z -> Qc) (c1 c2 : Z) (A B E : Qc) (n : nat) (m : mem QcS),
  i0 <= i1 + 1 -> 1 <= gcw -> 0 <= c1 -> 0 <= c2 -> Z.odd (c1 + c2) = true -> fst u <> fst st -> fst u <> fst f ->
  (0 <= beta)%Qc -> (0 < A)%Qc -> (0 <= B)%Qc ->
  (forall i, i0 <= i <= i1 + 1 -> (0 <= v0 i)%Qc /\ (v0 i <= B)%Qc) ->
  (A <= alpha)%Qc ->
  applied_v2_1d (S := QcS) i0 i1 dx beta b0 gcw u f0 alpha rgcw res mx r w v0 ->
  assembled_v2_1d i0 i1 dx beta b0 alpha sgcw st offset fgcw f ms r v0 ->
  equals ms (mkFa u (CELL1d i0 i1 gcw)) (at1 w) (around (mkFa u (CELL1d i0 i1 gcw)) [(i0, i1)]) ->
  (0 <= E)%Qc -> within ms (mkFa u (CELL1d i0 i1 gcw)) (at1 w) E (in_box [(i0, i1)]) ->
  repeated n (twice (cellrbgs1d i0 i1 c1 3 offset (i0 - sgcw) (i1 + sgcw) st (i0 - fgcw) (i1 + fgcw) f (i0 - gcw) (i1 + gcw) u)
     (cellrbgs1d i0 i1 c2 3 offset (i0 - sgcw) (i1 + sgcw) st (i0 - fgcw) (i1 + fgcw) f (i0 - gcw) (i1 + gcw) u)) ms = Some m ->
  let K := ((1 + 1) * B * (beta / (dx 0%Z * dx 0%Z)))%Qc in
  within m (mkFa u (CELL1d i0 i1 gcw)) (at1 w) ((K / (K + A)) ^ n * E)%Qc (in_box [(i0, i1)]).
Proof. exact @relax_rb_v2_1d. Qed.
Print Assumptions C78_cellrbgs_v2_1d.

(** Jacobi; [z] is the storage of the local array. *)
Theorem C78_celljacobi_v2_1d : forall i0 i1 (dx : Z -> Qc) (beta : Qc) b0 gcw u f0 (alpha : Qc) rgcw res sgcw st offset fgcw f (mx ms : mem QcS) (r w v0 : Z -> Qc) z (A B E : Qc) (n : nat) (m : mem QcS),
  i0 <= i1 + 1 -> 1 <= gcw -> fst u <> fst st -> fst u <> fst f -> fst u <> fst z -> fst z <> fst st -> fst z <> fst f ->
  (0 <= beta)%Qc -> (0 < A)%Qc -> (0 <= B)%Qc ->
  (forall i, i0 <= i <= i1 + 1 -> (0 <= v0 i)%Qc /\ (v0 i <= B)%Qc) ->
  (A <= alpha)%Qc ->
  applied_v2_1d (S := QcS) i0 i1 dx beta b0 gcw u f0 alpha rgcw res mx r w v0 ->
  assembled_v2_1d i0 i1 dx beta b0 alpha sgcw st offset fgcw f ms r v0 ->
  equals ms (mkFa u (CELL1d i0 i1 gcw)) (at1 w) (around (mkFa u (CELL1d i0 i1 gcw)) [(i0, i1)]) ->
  (0 <= E)%Qc -> within ms (mkFa u (CELL1d i0 i1 gcw)) (at1 w) E (in_box [(i0, i1)]) ->
  repeated n (celljacobi1d i0 i1 3 offset (i0 - sgcw) (i1 + sgcw) st (i0 - fgcw) (i1 + fgcw) f (i0 - gcw) (i1 + gcw) u z) ms = Some m ->
  let K := ((1 + 1) * B * (beta / (dx 0%Z * dx 0%Z)))%Qc in
  within m (mkFa u (CELL1d i0 i1 gcw)) (at1 w) ((1 - Q2Qc (Qmake 2 3) + Q2Qc (Qmake 2 3) * (K / (K + A))) ^ n * E)%Qc (in_box [(i0, i1)]).
Proof. exact @relax_jac_v2_1d. Qed.
Print Assumptions C78_celljacobi_v2_1d.

Example C78_case_v2_1d :
  is_v2_1d ex_any /\
  assembled_v2_1d 0 1 ex_h (ex_q 2) (0%nat, 0) (ex_q 3) 0 (10%nat, 0) (0%nat, 0) 1 (11%nat, 0) (out rxo_v2_1d) (r_v2_1d ex_any) v0_v2_1d /\
  (forall i, 0 <= i <= 1 + 1 -> (0 <= v0_v2_1d i)%Qc /\ (v0_v2_1d i <= ex_q 2)%Qc) /\
  (ex_q 3 <= ex_q 3)%Qc /\
  equals (out rxo_v2_1d) (mkFa (4%nat, 0) (CELL1d 0 1 1)) (at1 (w_v2_1d ex_any)) (around (mkFa (4%nat, 0) (CELL1d 0 1 1)) [(0, 1)]) /\
  within (out rxo_v2_1d) (mkFa (4%nat, 0) (CELL1d 0 1 1)) (at1 (w_v2_1d ex_any)) (ex_q 3) (in_box [(0, 1)]) /\
  (exists m, repeated 2 (cellgs1d 0 1 3 (0%nat, 0) (0 - 0) (1 + 0) (10%nat, 0) (0 - 1) (1 + 1) (11%nat, 0) (0 - 1) (1 + 1) (4%nat, 0)) (out rxo_v2_1d) = Some m) /\
  (exists m, repeated 2 (twice (cellrbgs1d 0 1 0 3 (0%nat, 0) (0 - 0) (1 + 0) (10%nat, 0) (0 - 1) (1 + 1) (11%nat, 0) (0 - 1) (1 + 1) (4%nat, 0))
     (cellrbgs1d 0 1 1 3 (0%nat, 0) (0 - 0) (1 + 0) (10%nat, 0) (0 - 1) (1 + 1) (11%nat, 0) (0 - 1) (1 + 1) (4%nat, 0))) (out rxo_v2_1d) = Some m) /\
  (exists m, repeated 2 (celljacobi1d 0 1 3 (0%nat, 0) (0 - 0) (1 + 0) (10%nat, 0) (0 - 1) (1 + 1) (11%nat, 0) (0 - 1) (1 + 1) (4%nat, 0) (12%nat, 0)) (out rxo_v2_1d) = Some m).
Proof. exact rx_case_v2_1d. Qed.

(** What the operator kernel maps to the right-hand side solves the assembled system. *)
Theorem C78_solution_v1_2d : forall i0 j0 i1 j1 (dx : Z -> Qc) (beta : Qc) b0 b1 gcw u f0 f1 (alpha : Qc) agcw a rgcw res sgcw st offset fgcw f (mx ms : mem QcS) (r w c v0 v1 : Z -> Z -> Qc),
  i0 <= i1 + 1 -> j0 <= j1 + 1 ->
  applied_v1_2d (S := QcS) i0 j0 i1 j1 dx beta b0 b1 gcw u f0 f1 alpha agcw a rgcw res mx r w c v0 v1 ->
  assembled_v1_2d i0 j0 i1 j1 dx beta b0 b1 alpha agcw a sgcw st offset fgcw f ms r c v0 v1 ->
  solution ms (mkFa offset [(0, 1); (0, 4)]) (mkFa st ((0, 4) :: CELL2d i0 j0 i1 j1 sgcw)) 5 (mkFa f (CELL2d i0 j0 i1 j1 fgcw)) (at2 w) (in_box [(i0, i1); (j0, j1)]).
Proof. exact @solution_v1_2d. Qed.
Print Assumptions C78_solution_v1_2d.

(** Gauss-Seidel. *)
Theorem C78_cellgs_v1_2d : forall i0 j0 i1 j1 (dx : Z -> Qc) (beta : Qc) b0 b1 gcw u f0 f1 (alpha : Qc) agcw a rgcw res sgcw st offset fgcw f (mx ms : mem QcS) (r w c v0 v1 : Z -> Z -> Qc) (A B E : Qc) (n : nat) (m : mem QcS),
  i0 <= i1 + 1 -> j0 <= j1 + 1 -> 1 <= gcw -> fst u <> fst st -> fst u <> fst f ->
  (0 <= beta)%Qc -> (0 < A)%Qc -> (0 <= B)%Qc ->
  (forall i j, i0 <= i <= i1 + 1 -> j0 <= j <= j1 -> (0 <= v0 i j)%Qc /\ (v0 i j <= B)%Qc) ->
  (forall i j, i0 <= i <= i1 -> j0 <= j <= j1 + 1 -> (0 <= v1 i j)%Qc /\ (v1 i j <= B)%Qc) ->
  (forall i j, i0 <= i <= i1 -> j0 <= j <= j1 -> (A <= alpha * c i j)%Qc) ->
  applied_v1_2d (S := QcS) i0 j0 i1 j1 dx beta b0 b1 gcw u f0 f1 alpha agcw a rgcw res mx r w c v0 v1 ->
  assembled_v1_2d i0 j0 i1 j1 dx beta b0 b1 alpha agcw a sgcw st offset fgcw f ms r c v0 v1 ->
  equals ms (mkFa u (CELL2d i0 j0 i1 j1 gcw)) (at2 w) (around (mkFa u (CELL2d i0 j0 i1 j1 gcw)) [(i0, i1); (j0, j1)]) ->
  (0 <= E)%Qc -> within ms (mkFa u (CELL2d i0 j0 i1 j1 gcw)) (at2 w) E (in_box [(i0, i1); (j0, j1)]) ->
  repeated n (cellgs2d i0 i1 j0 j1 5 offset (i0 - sgcw) (i1 + sgcw) (j0 - sgcw) (j1 + sgcw) st (i0 - fgcw) (i1 + fgcw) (j0 - fgcw) (j1 + fgcw) f (i0 - gcw) (i1 + gcw) (j0 - gcw) (j1 + gcw) u) ms = Some m ->
  let K := ((1 + 1) * B * (beta / (dx 0%Z * dx 0%Z) + beta / (dx 1%Z * dx 1%Z)))%Qc in
  within m (mkFa u (CELL2d i0 j0 i1 j1 gcw)) (at2 w) ((K / (K + A)) ^ n * E)%Qc (in_box [(i0, i1); (j0, j1)]).
Proof. exact @relax_gs_v1_2d. Qed.
Print Assumptions C78_cellgs_v1_2d.

(** Red-black Gauss-Seidel. *)
Theorem C78_cellrbgs_v1_2d : forall i0 j0 i1 j1 (dx : Z -> Qc) (beta : Qc) b0 b1 gcw u f0 f1 (alpha : Qc) agcw a rgcw res sgcw st offset fgcw f (mx ms : mem QcS) (r w c v0 v1 : Z -> Z -> Qc) (c1 c2 : Z) (A B E : Qc) (n : nat) (m : mem QcS),
  i0 <= i1 + 1 -> j0 <= j1 + 1 -> 1 <= gcw -> 0 <= j0 + c1 -> 0 <= j0 + c2 -> Z.odd (c1 + c2) = true -> fst u <> fst st -> fst u <> fst f ->
  (0 <= beta)%Qc -> (0 < A)%Qc -> (0 <= B)%Qc ->
  (forall i j, i0 <= i <= i1 + 1 -> j0 <= j <= j1 -> (0 <= v0 i j)%Qc /\ (v0 i j <= B)%Qc) ->
  (forall i j, i0 <= i <= i1 -> j0 <= j <= j1 + 1 -> (0 <= v1 i j)%Qc /\ (v1 i j <= B)%Qc) ->
  (forall i j, i0 <= i <= i1 -> j0 <= j <= j1 -> (A <= alpha * c i j)%Qc) ->
  applied_v1_2d (S := QcS) i0 j0 i1 j1 dx beta b0 b1 gcw u f0 f1 alpha agcw a rgcw res mx r w c v0 v1 ->
  assembled_v1_2d i0 j0 i1 j1 dx beta b0 b1 alpha agcw a sgcw st offset fgcw f ms r c v0 v1 ->
  equals ms (mkFa u (CELL2d i0 j0 i1 j1 gcw)) (at2 w) (around (mkFa u (CELL2d i0 j0 i1 j1 gcw)) [(i0, i1); (j0, j1)]) ->
  (0 <= E)%Qc -> within ms (mkFa u (CELL2d i0 j0 i1 j1 gcw)) (at2 w) E (in_box [(i0, i1); (j0, j1)]) ->
  repeated n (twice (cellrbgs2d i0 i1 j0 j1 c1 5 offset (i0 - sgcw) (i1 + sgcw) (j0 - sgcw) (j1 + sgcw) st (i0 - fgcw) (i1 + fgcw) (j0 - fgcw) (j1 + fgcw) f (i0 - gcw) (i1 + gcw) (j0 - gcw) (j1 + gcw) u)
     (cellrbgs2d i0 i1 j0 j1 c2 5 offset (i0 - sgcw) (i1 + sgcw) (j0 - sgcw) (j1 + sgcw) st (i0 - fgcw) (i1 + fgcw) (j0 - fgcw) (j1 + fgcw) f (i0 - gcw) (i1 + gcw) (j0 - gcw) (j1 + gcw) u)) ms = Some m ->
  let K := ((1 + 1) * B * (beta / (dx 0%Z * dx 0%Z) + beta / (dx 1%Z * dx 1%Z)))%Qc in
  within m (mkFa u (CELL2d i0 j0 i1 j1 gcw)) (at2 w) ((K / (K + A)) ^ n * E)%Qc (in_box [(i0, i1); (j0, j1)]).
Proof. exact @relax_rb_v1_2d. Qed.
Print Assumptions C78_cellrbgs_v1_2d.

(** Red-black Gauss-Seidel for a fixed stencil. *)
Theorem C78_cells5rbgs_v1_2d : forall i0 j0 i1 j1 (dx : Z -> Qc) (beta : Qc) b0 b1 gcw u f0 f1 (alpha : Qc) agcw a rgcw res sgcw st offset fgcw f (mx ms : mem QcS) (r w c v0 v1 : Z -> Z -> Qc) (c1 c2 : Z) (A B E : Qc) (n : nat) (m : mem QcS),
  i0 <= i1 + 1 -> j0 <= j1 + 1 -> 1 <= gcw -> 0 <= j0 + c1 -> 0 <= j0 + c2 -> Z.odd (c1 + c2) = true -> fst u <> fst st -> fst u <> fst f ->
  (0 <= beta)%Qc -> (0 < A)%Qc -> (0 <= B)%Qc ->
  (forall i j, i0 <= i <= i1 + 1 -> j0 <= j <= j1 -> (0 <= v0 i j)%Qc /\ (v0 i j <= B)%Qc) ->
  (forall i j, i0 <= i <= i1 -> j0 <= j <= j1 + 1 -> (0 <= v1 i j)%Qc /\ (v1 i j <= B)%Qc) ->
  (forall i j, i0 <= i <= i1 -> j0 <= j <= j1 -> (A <= alpha * c i j)%Qc) ->
  applied_v1_2d (S := QcS) i0 j0 i1 j1 dx beta b0 b1 gcw u f0 f1 alpha agcw a rgcw res mx r w c v0 v1 ->
  assembled_v1_2d i0 j0 i1 j1 dx beta b0 b1 alpha agcw a sgcw st offset fgcw f ms r c v0 v1 ->
  equals ms (mkFa u (CELL2d i0 j0 i1 j1 gcw)) (at2 w) (around (mkFa u (CELL2d i0 j0 i1 j1 gcw)) [(i0, i1); (j0, j1)]) ->
  (0 <= E)%Qc -> within ms (mkFa u (CELL2d i0 j0 i1 j1 gcw)) (at2 w) E (in_box [(i0, i1); (j0, j1)]) ->
  repeated n (twice (cells5rbgs2d i0 i1 j0 j1 c1 (i0 - sgcw) (i1 + sgcw) (j0 - sgcw) (j1 + sgcw) st (i0 - fgcw) (i1 + fgcw) (j0 - fgcw) (j1 + fgcw) f (i0 - gcw) (i1 + gcw) (j0 - gcw) (j1 + gcw) u)
     (cells5rbgs2d i0 i1 j0 j1 c2 (i0 - sgcw) (i1 + sgcw) (j0 - sgcw) (j1 + sgcw) st (i0 - fgcw) (i1 + fgcw) (j0 - fgcw) (j1 + fgcw) f (i0 - gcw) (i1 + gcw) (j0 - gcw) (j1 + gcw) u)) ms = Some m ->
  let K := ((1 + 1) * B * (beta / (dx 0%Z * dx 0%Z) + beta / (dx 1%Z * dx 1%Z)))%Qc in
  within m (mkFa u (CELL2d i0 j0 i1 j1 gcw)) (at2 w) ((K / (K + A)) ^ n * E)%Qc (in_box [(i0, i1); (j0, j1)]).
Proof. exact @relax_fix_v1_2d. Qed.
Print Assumptions C78_cells5rbgs_v1_2d.

(** Jacobi; [z] is the storage of the local array, [om] the weight. *)
Theorem C78_celljacobi_v1_2d : forall i0 j0 i1 j1 (dx : Z -> Qc) (beta : Qc) b0 b1 gcw u f0 f1 (alpha : Qc) agcw a rgcw res sgcw st offset fgcw f (mx ms : mem QcS) (r w c v0 v1 : Z -> Z -> Qc) z (om : Qc) (A B E : Qc) (n : nat) (m : mem QcS),
  i0 <= i1 + 1 -> j0 <= j1 + 1 -> 1 <= gcw -> fst u <> fst st -> fst u <> fst f -> fst u <> fst z -> fst z <> fst st -> fst z <> fst f -> (0 <= om)%Qc -> (om <= 1)%Qc ->
  (0 <= beta)%Qc -> (0 < A)%Qc -> (0 <= B)%Qc ->
  (forall i j, i0 <= i <= i1 + 1 -> j0 <= j <= j1 -> (0 <= v0 i j)%Qc /\ (v0 i j <= B)%Qc) ->
  (forall i j, i0 <= i <= i1 -> j0 <= j <= j1 + 1 -> (0 <= v1 i j)%Qc /\ (v1 i j <= B)%Qc) ->
  (forall i j, i0 <= i <= i1 -> j0 <= j <= j1 -> (A <= alpha * c i j)%Qc) ->
  applied_v1_2d (S := QcS) i0 j0 i1 j1 dx beta b0 b1 gcw u f0 f1 alpha agcw a rgcw res mx r w c v0 v1 ->
  assembled_v1_2d i0 j0 i1 j1 dx beta b0 b1 alpha agcw a sgcw st offset fgcw f ms r c v0 v1 ->
  equals ms (mkFa u (CELL2d i0 j0 i1 j1 gcw)) (at2 w) (around (mkFa u (CELL2d i0 j0 i1 j1 gcw)) [(i0, i1); (j0, j1)]) ->
  (0 <= E)%Qc -> within ms (mkFa u (CELL2d i0 j0 i1 j1 gcw)) (at2 w) E (in_box [(i0, i1); (j0, j1)]) ->
  repeated n (celljacobi2d i0 i1 j0 j1 5 offset (i0 - sgcw) (i1 + sgcw) (j0 - sgcw) (j1 + sgcw) st (i0 - fgcw) (i1 + fgcw) (j0 - fgcw) (j1 + fgcw) f (i0 - gcw) (i1 + gcw) (j0 - gcw) (j1 + gcw) u z (om : QcS)) ms = Some m ->
  let K := ((1 + 1) * B * (beta / (dx 0%Z * dx 0%Z) + beta / (dx 1%Z * dx 1%Z)))%Qc in
  within m (mkFa u (CELL2d i0 j0 i1 j1 gcw)) (at2 w) ((1 - om + om * (K / (K + A))) ^ n * E)%Qc (in_box [(i0, i1); (j0, j1)]).
Proof. exact @relax_jac_v1_2d. Qed.
Print Assumptions C78_celljacobi_v1_2d.

Example C78_case_v1_2d :
  is_v1_2d ex_any /\
  assembled_v1_2d 0 0 1 1 ex_h (ex_q 2) (0%nat, 0) (1%nat, 0) (ex_q 3) 0 (3%nat, 0) 0 (10%nat, 0) (0%nat, 0) 1 (11%nat, 0) (out rxo_v1_2d) (r_v1_2d ex_any) c_v1_2d v0_v1_2d v1_v1_2d /\
  (forall i j, 0 <= i <= 1 + 1 -> 0 <= j <= 1 -> (0 <= v0_v1_2d i j)%Qc /\ (v0_v1_2d i j <= ex_q 2)%Qc) /\
  (forall i j, 0 <= i <= 1 -> 0 <= j <= 1 + 1 -> (0 <= v1_v1_2d i j)%Qc /\ (v1_v1_2d i j <= ex_q 2)%Qc) /\
  (forall i j, 0 <= i <= 1 -> 0 <= j <= 1 -> (ex_q 3 <= ex_q 3 * c_v1_2d i j)%Qc) /\
  equals (out rxo_v1_2d) (mkFa (4%nat, 0) (CELL2d 0 0 1 1 1)) (at2 (w_v1_2d ex_any)) (around (mkFa (4%nat, 0) (CELL2d 0 0 1 1 1)) [(0, 1); (0, 1)]) /\
  within (out rxo_v1_2d) (mkFa (4%nat, 0) (CELL2d 0 0 1 1 1)) (at2 (w_v1_2d ex_any)) (ex_q 3) (in_box [(0, 1); (0, 1)]) /\
  (exists m, repeated 2 (cellgs2d 0 1 0 1 5 (0%nat, 0) (0 - 0) (1 + 0) (0 - 0) (1 + 0) (10%nat, 0) (0 - 1) (1 + 1) (0 - 1) (1 + 1) (11%nat, 0) (0 - 1) (1 + 1) (0 - 1) (1 + 1) (4%nat, 0)) (out rxo_v1_2d) = Some m) /\
  (exists m, repeated 2 (twice (cellrbgs2d 0 1 0 1 0 5 (0%nat, 0) (0 - 0) (1 + 0) (0 - 0) (1 + 0) (10%nat, 0) (0 - 1) (1 + 1) (0 - 1) (1 + 1) (11%nat, 0) (0 - 1) (1 + 1) (0 - 1) (1 + 1) (4%nat, 0))
     (cellrbgs2d 0 1 0 1 1 5 (0%nat, 0) (0 - 0) (1 + 0) (0 - 0) (1 + 0) (10%nat, 0) (0 - 1) (1 + 1) (0 - 1) (1 + 1) (11%nat, 0) (0 - 1) (1 + 1) (0 - 1) (1 + 1) (4%nat, 0))) (out rxo_v1_2d) = Some m) /\
  (exists m, repeated 2 (twice (cells5rbgs2d 0 1 0 1 0 (0 - 0) (1 + 0) (0 - 0) (1 + 0) (10%nat, 0) (0 - 1) (1 + 1) (0 - 1) (1 + 1) (11%nat, 0) (0 - 1) (1 + 1) (0 - 1) (1 + 1) (4%nat, 0))
     (cells5rbgs2d 0 1 0 1 1 (0 - 0) (1 + 0) (0 - 0) (1 + 0) (10%nat, 0) (0 - 1) (1 + 1) (0 - 1) (1 + 1) (11%nat, 0) (0 - 1) (1 + 1) (0 - 1) (1 + 1) (4%nat, 0))) (out rxo_v1_2d) = Some m) /\
  (exists m, repeated 2 (celljacobi2d 0 1 0 1 5 (0%nat, 0) (0 - 0) (1 + 0) (0 - 0) (1 + 0) (10%nat, 0) (0 - 1) (1 + 1) (0 - 1) (1 + 1) (11%nat, 0) (0 - 1) (1 + 1) (0 - 1) (1 + 1) (4%nat, 0) (12%nat, 0) (ex_q 1 : QcS)) (out rxo_v1_2d) = Some m).
Proof. exact rx_case_v1_2d. Qed.

(** What the operator kernel maps to the right-hand side solves the assembled system. *)
Theorem C78_solution_v2_2d : forall i0 j0 i1 j1 (dx : Z -> Qc) (beta : Qc) b0 b1 gcw u f0 f1 (alpha : Qc) rgcw res sgcw st offset fgcw f (mx ms : mem QcS) (r w v0 v1 : Z -> Z -> Qc),
  i0 <= i1 + 1 -> j0 <= j1 + 1 ->
  applied_v2_2d (S := QcS) i0 j0 i1 j1 dx beta b0 b1 gcw u f0 f1 alpha rgcw res mx r w v0 v1 ->
  assembled_v2_2d i0 j0 i1 j1 dx beta b0 b1 alpha sgcw st offset fgcw f ms r v0 v1 ->
  solution ms (mkFa offset [(0, 1); (0, 4)]) (mkFa st ((0, 4) :: CELL2d i0 j0 i1 j1 sgcw)) 5 (mkFa f (CELL2d i0 j0 i1 j1 fgcw)) (at2 w) (in_box [(i0, i1); (j0, j1)]).
Proof. exact @solution_v2_2d. Qed.
Print Assumptions C78_solution_v2_2d.

(** Gauss-Seidel. *)
Theorem C78_cellgs_v2_2d : forall i0 j0 i1 j1 (dx : Z -> Qc) (beta : Qc) b0 b1 gcw u f0 f1 (alpha : Qc) rgcw res sgcw st offset fgcw f (mx ms : mem QcS) (r w v0 v1 : Z -> Z -> Qc) (A B E : Qc) (n : nat) (m : mem QcS),
  i0 <= i1 + 1 -> j0 <= j1 + 1 -> 1 <= gcw -> fst u <> fst st -> fst u <> fst f ->
  (0 <= beta)%Qc -> (0 < A)%Qc -> (0 <= B)%Qc ->
  (forall i j, i0 <= i <= i1 + 1 -> j0 <= j <= j1 -> (0 <= v0 i j)%Qc /\ (v0 i j <= B)%Qc) ->
  (forall i j, i0 <= i <= i1 -> j0 <= j <= j1 + 1 -> (0 <= v1 i j)%Qc /\ (v1 i j <= B)%Qc) ->
  (A <= alpha)%Qc ->
  applied_v2_2d (S := QcS) i0 j0 i1 j1 dx beta b0 b1 gcw u f0 f1 alpha rgcw res mx r w v0 v1 ->
  assembled_v2_2d i0 j0 i1 j1 dx beta b0 b1 alpha sgcw st offset fgcw f ms r v0 v1 ->
  equals ms (mkFa u (CELL2d i0 j0 i1 j1 gcw)) (at2 w) (around (mkFa u (CELL2d i0 j0 i1 j1 gcw)) [(i0, i1); (j0, j1)]) ->
  (0 <= E)%Qc -> within ms (mkFa u (CELL2d i0 j0 i1 j1 gcw)) (at2 w) E (in_box [(i0, i1); (j0, j1)]) ->
  repeated n (cellgs2d i0 i1 j0 j1 5 offset (i0 - sgcw) (i1 + sgcw) (j0 - sgcw) (j1 + sgcw) st (i0 - fgcw) (i1 + fgcw) (j0 - fgcw) (j1 + fgcw) f (i0 - gcw) (i1 + gcw) (j0 - gcw) (j1 + gcw) u) ms = Some m ->
  let K := ((1 + 1) * B * (beta / (dx 0%Z * dx 0%Z) + beta / (dx 1%Z * dx 1%Z)))%Qc in
  within m (mkFa u (CELL2d i0 j0 i1 j1 gcw)) (at2 w) ((K / (K + A)) ^ n * E)%Qc (in_box [(i0, i1); (j0, j1)]).
Proof. exact @relax_gs_v2_2d. Qed.
Print Assumptions C78_cellgs_v2_2d.

(** Red-black Gauss-Seidel. *)
Theorem C78_cellrbgs_v2_2d : forall i0 j0 i1 j1 (dx : Z -> Qc) (beta : Qc) b0 b1 gcw u f0 f1 (alpha : Qc) rgcw res sgcw st offset fgcw f (mx ms : mem QcS) (r w v0 v1 : Z -> Z -> Qc) (c1 c2 : Z) (A B E : Qc) (n : nat) (m : mem QcS),
  i0 <= i1 + 1 -> j0 <= j1 + 1 -> 1 <= gcw -> 0 <= j0 + c1 -> 0 <= j0 + c2 -> Z.odd (c1 + c2) = true -> fst u <> fst st -> fst u <> fst f ->
  (0 <= beta)%Qc -> (0 < A)%Qc -> (0 <= B)%Qc ->
  (forall i j, i0 <= i <= i1 + 1 -> j0 <= j <= j1 -> (0 <= v0 i j)%Qc /\ (v0 i j <= B)%Qc) ->
  (forall i j, i0 <= i <= i1 -> j0 <= j <= j1 + 1 -> (0 <= v1 i j)%Qc /\ (v1 i j <= B)%Qc) ->
  (A <= alpha)%Qc ->
  applied_v2_2d (S := QcS) i0 j0 i1 j1 dx beta b0 b1 gcw u f0 f1 alpha rgcw res mx r w v0 v1 ->
  assembled_v2_2d i0 j0 i1 j1 dx beta b0 b1 alpha sgcw st offset fgcw f ms r v0 v1 ->
  equals ms (mkFa u (CELL2d i0 j0 i1 j1 gcw)) (at2 w) (around (mkFa u (CELL2d i0 j0 i1 j1 gcw)) [(i0, i1); (j0, j1)]) ->
  (0 <= E)%Qc -> within ms (mkFa u (CELL2d i0 j0 i1 j1 gcw)) (at2 w) E (in_box [(i0, i1); (j0, j1)]) ->
  repeated n (twice (cellrbgs2d i0 i1 j0 j1 c1 5 offset (i0 - sgcw) (i1 + sgcw) (j0 - sgcw) (j1 + sgcw) st (i0 - fgcw) (i1 + fgcw) (j0 - fgcw) (j1 + fgcw) f (i0 - gcw) (i1 + gcw) (j0 - gcw) (j1 + gcw) u)
     (cellrbgs2d i0 i1 j0 j1 c2 5 offset (i0 - sgcw) (i1 + sgcw) (j0 - sgcw) (j1 + sgcw) st (i0 - fgcw) (i1 + fgcw) (j0 - fgcw) (j1 + fgcw) f (i0 - gcw) (i1 + gcw) (j0 - gcw) (j1 + gcw) u)) ms = Some m ->
  let K := ((1 + 1) * B * (beta / (dx 0%Z * dx 0%Z) + beta / (dx 1%Z * dx 1%Z)))%Qc in
  within m (mkFa u (CELL2d i0 j0 i1 j1 gcw)) (at2 w) ((K / (K + A)) ^ n * E)%Qc (in_box [(i0, i1); (j0, j1)]).
Proof. exact @relax_rb_v2_2d. Qed.
Print Assumptions C78_cellrbgs_v2_2d.

(** Red-black Gauss-Seidel for a fixed stencil. *)
Theorem C78_cells5rbgs_v2_2d : forall i0 j0 i1 j1 (dx : Z -> Qc) (beta : Qc) b0 b1 gcw u f0 f1 (alpha : Qc) rgcw res sgcw st offset fgcw f (mx ms : mem QcS) (r w v0 v1 : Z -> Z -> Qc) (c1 c2 : Z) (A B E : Qc) (n : nat) (m : mem QcS),
  i0 <= i1 + 1 -> j0 <= j1 + 1 -> 1 <= gcw -> 0 <= j0 + c1 -> 0 <= j0 + c2 -> Z.odd (c1 + c2) = true -> fst u <> fst st -> fst u <> fst f ->
  (0 <= beta)%Qc -> (0 < A)%Qc -> (0 <= B)%Qc ->
  (forall i j, i0 <= i <= i1 + 1 -> j0 <= j <= j1 -> (0 <= v0 i j)%Qc /\ (v0 i j <= B)%Qc) ->
  (forall i j, i0 <= i <= i1 -> j0 <= j <= j1 + 1 -> (0 <= v1 i j)%Qc /\ (v1 i j <= B)%Qc) ->
  (A <= alpha)%Qc ->
  applied_v2_2d (S := QcS) i0 j0 i1 j1 dx beta b0 b1 gcw u f0 f1 alpha rgcw res mx r w v0 v1 ->
  assembled_v2_2d i0 j0 i1 j1 dx beta b0 b1 alpha sgcw st offset fgcw f ms r v0 v1 ->
  equals ms (mkFa u (CELL2d i0 j0 i1 j1 gcw)) (at2 w) (around (mkFa u (CELL2d i0 j0 i1 j1 gcw)) [(i0, i1); (j0, j1)]) ->
  (0 <= E)%Qc -> within ms (mkFa u (CELL2d i0 j0 i1 j1 gcw)) (at2 w) E (in_box [(i0, i1); (j0, j1)]) ->
  repeated n (twice (cells5rbgs2d i0 i1 j0 j1 c1 (i0 - sgcw) (i1 + sgcw) (j0 - sgcw) (j1 + sgcw) st (i0 - fgcw) (i1 + fgcw) (j0 - fgcw) (j1 + fgcw) f (i0 - gcw) (i1 + gcw) (j0 - gcw) (j1 + gcw) u)
     (cells5rbgs2d i0 i1 j0 j1 c2 (i0 - sgcw) (i1 + sgcw) (j0 - sgcw) (j1 + sgcw) st (i0 - fgcw) (i1 + fgcw) (j0 - fgcw) (j1 + fgcw) f (i0 - gcw) (i1 + gcw) (j0 - gcw) (j1 + gcw) u)) ms = Some m ->
  let K := ((1 + 1) * B * (beta / (dx 0%Z * dx 0%Z) + beta / (dx 1%Z * dx 1%Z)))%Qc in
  within m (mkFa u (CELL2d i0 j0 i1 j1 gcw)) (at2 w) ((K / (K + A)) ^ n * E)%Qc (in_box [(i0, i1); (j0, j1)]).
Proof. exact @relax_fix_v2_2d. Qed.
Print Assumptions C78_cells5rbgs_v2_2d.

(** Jacobi; [z] is the storage of the local array, [om] the weight. *)
Theorem C78_celljacobi_v2_2d : forall i0 j0 i1 j1 (dx : Z -> Qc) (beta : Qc) b0 b1 gcw u f0 f1 (alpha : Qc) rgcw res sgcw st offset fgcw f (mx ms : mem QcS) (r w v0 v1 : Z -> Z -> Qc) z (om : Qc) (A B E : Qc) (n : nat) (m : mem QcS),
  i0 <= i1 + 1 -> j0 <= j1 + 1 -> 1 <= gcw -> fst u <> fst st -> fst u <> fst f -> fst u <> fst z -> fst z <> fst st -> fst z <> fst f -> (0 <= om)%Qc -> (om <= 1)%Qc ->
  (0 <= beta)%Qc -> (0 < A)%Qc -> (0 <= B)%Qc ->
  (forall i j, i0 <= i <= i1 + 1 -> j0 <= j <= j1 -> (0 <= v0 i j)%Qc /\ (v0 i j <= B)%Qc) ->
  (forall i j, i0 <= i <= i1 -> j0 <= j <= j1 + 1 -> (0 <= v1 i j)%Qc /\ (v1 i j <= B)%Qc) ->
  (A <= alpha)%Qc ->
  applied_v2_2d (S := QcS) i0 j0 i1 j1 dx beta b0 b1 gcw u f0 f1 alpha rgcw res mx r w v0 v1 ->
  assembled_v2_2d i0 j0 i1 j1 dx beta b0 b1 alpha sgcw st offset fgcw f ms r v0 v1 ->
  equals ms (mkFa u (CELL2d i0 j0 i1 j1 gcw)) (at2 w) (around (mkFa u (CELL2d i0 j0 i1 j1 gcw)) [(i0, i1); (j0, j1)]) ->
  (0 <= E)%Qc -> within ms (mkFa u (CELL2d i0 j0 i1 j1 gcw)) (at2 w) E (in_box [(i0, i1); (j0, j1)]) ->
  repeated n (celljacobi2d i0 i1 j0 j1 5 offset (i0 - sgcw) (i1 + sgcw) (j0 - sgcw) (j1 + sgcw) st (i0 - fgcw) (i1 + fgcw) (j0 - fgcw) (j1 + fgcw) f (i0 - gcw) (i1 + gcw) (j0 - gcw) (j1 + gcw) u z (om : QcS)) ms = Some m ->
  let K := ((1 + 1) * B * (beta / (dx 0%Z * dx 0%Z) + beta / (dx 1%Z * dx 1%Z)))%Qc in
  within m (mkFa u (CELL2d i0 j0 i1 j1 gcw)) (at2 w) ((1 - om + om * (K / (K + A))) ^ n * E)%Qc (in_box [(i0, i1); (j0, j1)]).
Proof. exact @relax_jac_v2_2d. Qed.
Print Assumptions C78_celljacobi_v2_2d.

Example C78_case_v2_2d :
  is_v2_2d ex_any /\
  assembled_v2_2d 0 0 1 1 ex_h (ex_q 2) (0%nat, 0) (1%nat, 0) (ex_q 3) 0 (10%nat, 0) (0%nat, 0) 1 (11%nat, 0) (out rxo_v2_2d) (r_v2_2d ex_any) v0_v2_2d v1_v2_2d /\
  (forall i j, 0 <= i <= 1 + 1 -> 0 <= j <= 1 -> (0 <= v0_v2_2d i j)%Qc /\ (v0_v2_2d i j <= ex_q 2)%Qc) /\
  (forall i j, 0 <= i <= 1 -> 0 <= j <= 1 + 1 -> (0 <= v1_v2_2d i j)%Qc /\ (v1_v2_2d i j <= ex_q 2)%Qc) /\
  (ex_q 3 <= ex_q 3)%Qc /\
  equals (out rxo_v2_2d) (mkFa (4%nat, 0) (CELL2d 0 0 1 1 1)) (at2 (w_v2_2d ex_any)) (around (mkFa (4%nat, 0) (CELL2d 0 0 1 1 1)) [(0, 1); (0, 1)]) /\
  within (out rxo_v2_2d) (mkFa (4%nat, 0) (CELL2d 0 0 1 1 1)) (at2 (w_v2_2d ex_any)) (ex_q 3) (in_box [(0, 1); (0, 1)]) /\
  (exists m, repeated 2 (cellgs2d 0 1 0 1 5 (0%nat, 0) (0 - 0) (1 + 0) (0 - 0) (1 + 0) (10%nat, 0) (0 - 1) (1 + 1) (0 - 1) (1 + 1) (11%nat, 0) (0 - 1) (1 + 1) (0 - 1) (1 + 1) (4%nat, 0)) (out rxo_v2_2d) = Some m) /\
  (exists m, repeated 2 (twice (cellrbgs2d 0 1 0 1 0 5 (0%nat, 0) (0 - 0) (1 + 0) (0 - 0) (1 + 0) (10%nat, 0) (0 - 1) (1 + 1) (0 - 1) (1 + 1) (11%nat, 0) (0 - 1) (1 + 1) (0 - 1) (1 + 1) (4%nat, 0))
     (cellrbgs2d 0 1 0 1 1 5 (0%nat, 0) (0 - 0) (1 + 0) (0 - 0) (1 + 0) (10%nat, 0) (0 - 1) (1 + 1) (0 - 1) (1 + 1) (11%nat, 0) (0 - 1) (1 + 1) (0 - 1) (1 + 1) (4%nat, 0))) (out rxo_v2_2d) = Some m) /\
  (exists m, repeated 2 (twice (cells5rbgs2d 0 1 0 1 0 (0 - 0) (1 + 0) (0 - 0) (1 + 0) (10%nat, 0) (0 - 1) (1 + 1) (0 - 1) (1 + 1) (11%nat, 0) (0 - 1) (1 + 1) (0 - 1) (1 + 1) (4%nat, 0))
     (cells5rbgs2d 0 1 0 1 1 (0 - 0) (1 + 0) (0 - 0) (1 + 0) (10%nat, 0) (0 - 1) (1 + 1) (0 - 1) (1 + 1) (11%nat, 0) (0 - 1) (1 + 1) (0 - 1) (1 + 1) (4%nat, 0))) (out rxo_v2_2d) = Some m) /\
  (exists m, repeated 2 (celljacobi2d 0 1 0 1 5 (0%nat, 0) (0 - 0) (1 + 0) (0 - 0) (1 + 0) (10%nat, 0) (0 - 1) (1 + 1) (0 - 1) (1 + 1) (11%nat, 0) (0 - 1) (1 + 1) (0 - 1) (1 + 1) (4%nat, 0) (12%nat, 0) (ex_q 1 : QcS)) (out rxo_v2_2d) = Some m).
Proof. exact rx_case_v2_2d. Qed.

(** What the operator kernel maps to the right-hand side solves the assembled system. *)
Theorem C78_solution_v1_3d : forall i0 j0 k0 i1 j1 k1 (dx : Z -> Qc) (beta : Qc) b0 b1 b2 gcw u f0 f1 f2 (alpha : Qc) agcw a rgcw res sgcw st offset fgcw f (mx ms : mem QcS) (r w c v0 v1 v2 : Z -> Z -> Z -> Qc),
  i0 <= i1 + 1 -> j0 <= j1 + 1 -> k0 <= k1 + 1 ->
  applied_v1_3d (S := QcS) i0 j0 k0 i1 j1 k1 dx beta b0 b1 b2 gcw u f0 f1 f2 alpha agcw a rgcw res mx r w c v0 v1 v2 ->
  assembled_v1_3d i0 j0 k0 i1 j1 k1 dx beta b0 b1 b2 alpha agcw a sgcw st offset fgcw f ms r c v0 v1 v2 ->
  solution ms (mkFa offset [(0, 2); (0, 6)]) (mkFa st ((0, 6) :: CELL3d i0 j0 k0 i1 j1 k1 sgcw)) 7 (mkFa f (CELL3d i0 j0 k0 i1 j1 k1 fgcw)) (at3 w) (in_box [(i0, i1); (j0, j1); (k0, k1)]).
Proof. exact @solution_v1_3d. Qed.
Print Assumptions C78_solution_v1_3d.

(** Gauss-Seidel. *)
Theorem C78_cellgs_v1_3d : forall i0 j0 k0 i1 j1 k1 (dx : Z -> Qc) (beta : Qc) b0 b1 b2 gcw u f0 f1 f2 (alpha : Qc) agcw a rgcw res sgcw st offset fgcw f (mx ms : mem QcS) (r w c v0 v1 v2 : Z -> Z -> Z -> Qc) (A B E : Qc) (n : nat) (m : mem QcS),
  i0 <= i1 + 1 -> j0 <= j1 + 1 -> k0 <= k1 + 1 -> 1 <= gcw -> fst u <> fst st -> fst u <> fst f ->
  (0 <= beta)%Qc -> (0 < A)%Qc -> (0 <= B)%Qc ->
  (forall i j k, i0 <= i <= i1 + 1 -> j0 <= j <= j1 -> k0 <= k <= k1 -> (0 <= v0 i j k)%Qc /\ (v0 i j k <= B)%Qc) ->
  (forall i j k, i0 <= i <= i1 -> j0 <= j <= j1 + 1 -> k0 <= k <= k1 -> (0 <= v1 i j k)%Qc /\ (v1 i j k <= B)%Qc) ->
  (forall i j k, i0 <= i <= i1 -> j0 <= j <= j1 -> k0 <= k <= k1 + 1 -> (0 <= v2 i j k)%Qc /\ (v2 i j k <= B)%Qc) ->
  (forall i j k, i0 <= i <= i1 -> j0 <= j <= j1 -> k0 <= k <= k1 -> (A <= alpha * c i j k)%Qc) ->
  applied_v1_3d (S := QcS) i0 j0 k0 i1 j1 k1 dx beta b0 b1 b2 gcw u f0 f1 f2 alpha agcw a rgcw res mx r w c v0 v1 v2 ->
  assembled_v1_3d i0 j0 k0 i1 j1 k1 dx beta b0 b1 b2 alpha agcw a sgcw st offset fgcw f ms r c v0 v1 v2 ->
  equals ms (mkFa u (CELL3d i0 j0 k0 i1 j1 k1 gcw)) (at3 w) (around (mkFa u (CELL3d i0 j0 k0 i1 j1 k1 gcw)) [(i0, i1); (j0, j1); (k0, k1)]) ->
  (0 <= E)%Qc -> within ms (mkFa u (CELL3d i0 j0 k0 i1 j1 k1 gcw)) (at3 w) E (in_box [(i0, i1); (j0, j1); (k0, k1)]) ->
  repeated n (cellgs3d i0 i1 j0 j1 k0 k1 7 offset (i0 - sgcw) (i1 + sgcw) (j0 - sgcw) (j1 + sgcw) (k0 - sgcw) (k1 + sgcw) st (i0 - fgcw) (i1 + fgcw) (j0 - fgcw) (j1 + fgcw) (k0 - fgcw) (k1 + fgcw) f (i0 - gcw) (i1 + gcw) (j0 - gcw) (j1 + gcw) (k0 - gcw) (k1 + gcw) u) ms = Some m ->
  let K := ((1 + 1) * B * (beta / (dx 0%Z * dx 0%Z) + beta / (dx 1%Z * dx 1%Z) + beta / (dx 2%Z * dx 2%Z)))%Qc in
  within m (mkFa u (CELL3d i0 j0 k0 i1 j1 k1 gcw)) (at3 w) ((K / (K + A)) ^ n * E)%Qc (in_box [(i0, i1); (j0, j1); (k0, k1)]).
Proof. exact @relax_gs_v1_3d. Qed.
Print Assumptions C78_cellgs_v1_3d.

(** Red-black Gauss-Seidel. *)
Theorem C78_cellrbgs_v1_3d : forall i0 j0 k0 i1 j1 k1 (dx : Z -> Qc) (beta : Qc) b0 b1 b2 gcw u f0 f1 f2 (alpha : Qc) agcw a rgcw res sgcw st offset fgcw f (mx ms : mem QcS) (r w c v0 v1 v2 : Z -> Z -> Z -> Qc) (c1 c2 : Z) (A B E : Qc) (n : nat) (m : mem QcS),
  i0 <= i1 + 1 -> j0 <= j1 + 1 -> k0 <= k1 + 1 -> 1 <= gcw -> 0 <= c1 -> 0 <= c2 -> Z.odd (c1 + c2) = true -> fst u <> fst st -> fst u <> fst f ->
  (0 <= beta)%Qc -> (0 < A)%Qc -> (0 <= B)%Qc ->
  (forall i j k, i0 <= i <= i1 + 1 -> j0 <= j <= j1 -> k0 <= k <= k1 -> (0 <= v0 i j k)%Qc /\ (v0 i j k <= B)%Qc) ->
  (forall i j k, i0 <= i <= i1 -> j0 <= j <= j1 + 1 -> k0 <= k <= k1 -> (0 <= v1 i j k)%Qc /\ (v1 i j k <= B)%Qc) ->
  (forall i j k, i0 <= i <= i1 -> j0 <= j <= j1 -> k0 <= k <= k1 + 1 -> (0 <= v2 i j k)%Qc /\ (v2 i j k <= B)%Qc) ->
  (forall i j k, i0 <= i <= i1 -> j0 <= j <= j1 -> k0 <= k <= k1 -> (A <= alpha * c i j k)%Qc) ->
  applied_v1_3d (S := QcS) i0 j0 k0 i1 j1 k1 dx beta b0 b1 b2 gcw u f0 f1 f2 alpha agcw a rgcw res mx r w c v0 v1 v2 ->
  assembled_v1_3d i0 j0 k0 i1 j1 k1 dx beta b0 b1 b2 alpha agcw a sgcw st offset fgcw f ms r c v0 v1 v2 ->
  equals ms (mkFa u (CELL3d i0 j0 k0 i1 j1 k1 gcw)) (at3 w) (around (mkFa u (CELL3d i0 j0 k0 i1 j1 k1 gcw)) [(i0, i1); (j0, j1); (k0, k1)]) ->
  (0 <= E)%Qc -> within ms (mkFa u (CELL3d i0 j0 k0 i1 j1 k1 gcw)) (at3 w) E (in_box [(i0, i1); (j0, j1); (k0, k1)]) ->
  repeated n (twice (cellrbgs3d i0 i1 j0 j1 k0 k1 c1 7 offset (i0 - sgcw) (i1 + sgcw) (j0 - sgcw) (j1 + sgcw) (k0 - sgcw) (k1 + sgcw) st (i0 - fgcw) (i1 + fgcw) (j0 - fgcw) (j1 + fgcw) (k0 - fgcw) (k1 + fgcw) f (i0 - gcw) (i1 + gcw) (j0 - gcw) (j1 + gcw) (k0 - gcw) (k1 + gcw) u)
     (cellrbgs3d i0 i1 j0 j1 k0 k1 c2 7 offset (i0 - sgcw) (i1 + sgcw) (j0 - sgcw) (j1 + sgcw) (k0 - sgcw) (k1 + sgcw) st (i0 - fgcw) (i1 + fgcw) (j0 - fgcw) (j1 + fgcw) (k0 - fgcw) (k1 + fgcw) f (i0 - gcw) (i1 + gcw) (j0 - gcw) (j1 + gcw) (k0 - gcw) (k1 + gcw) u)) ms = Some m ->
  let K := ((1 + 1) * B * (beta / (dx 0%Z * dx 0%Z) + beta / (dx 1%Z * dx 1%Z) + beta / (dx 2%Z * dx 2%Z)))%Qc in
  within m (mkFa u (CELL3d i0 j0 k0 i1 j1 k1 gcw)) (at3 w) ((K / (K + A)) ^ n * E)%Qc (in_box [(i0, i1); (j0, j1); (k0, k1)]).
Proof. exact @relax_rb_v1_3d. Qed.
Print Assumptions C78_cellrbgs_v1_3d.

(** Red-black Gauss-Seidel for a fixed stencil. *)
Theorem C78_cells7rbgs_v1_3d : forall i0 j0 k0 i1 j1 k1 (dx : Z -> Qc) (beta : Qc) b0 b1 b2 gcw u f0 f1 f2 (alpha : Qc) agcw a rgcw res sgcw st offset fgcw f (mx ms : mem QcS) (r w c v0 v1 v2 : Z -> Z -> Z -> Qc) (c1 c2 : Z) (A B E : Qc) (n : nat) (m : mem QcS),
  i0 <= i1 + 1 -> j0 <= j1 + 1 -> k0 <= k1 + 1 -> 1 <= gcw -> 0 <= c1 -> 0 <= c2 -> Z.odd (c1 + c2) = true -> fst u <> fst st -> fst u <> fst f ->
  (0 <= beta)%Qc -> (0 < A)%Qc -> (0 <= B)%Qc ->
  (forall i j k, i0 <= i <= i1 + 1 -> j0 <= j <= j1 -> k0 <= k <= k1 -> (0 <= v0 i j k)%Qc /\ (v0 i j k <= B)%Qc) ->
  (forall i j k, i0 <= i <= i1 -> j0 <= j <= j1 + 1 -> k0 <= k <= k1 -> (0 <= v1 i j k)%Qc /\ (v1 i j k <= B)%Qc) ->
  (forall i j k, i0 <= i <= i1 -> j0 <= j <= j1 -> k0 <= k <= k1 + 1 -> (0 <= v2 i j k)%Qc /\ (v2 i j k <= B)%Qc) ->
  (forall i j k, i0 <= i <= i1 -> j0 <= j <= j1 -> k0 <= k <= k1 -> (A <= alpha * c i j k)%Qc) ->
  applied_v1_3d (S := QcS) i0 j0 k0 i1 j1 k1 dx beta b0 b1 b2 gcw u f0 f1 f2 alpha agcw a rgcw res mx r w c v0 v1 v2 ->
  assembled_v1_3d i0 j0 k0 i1 j1 k1 dx beta b0 b1 b2 alpha agcw a sgcw st offset fgcw f ms r c v0 v1 v2 ->
  equals ms (mkFa u (CELL3d i0 j0 k0 i1 j1 k1 gcw)) (at3 w) (around (mkFa u (CELL3d i0 j0 k0 i1 j1 k1 gcw)) [(i0, i1); (j0, j1); (k0, k1)]) ->
  (0 <= E)%Qc -> within ms (mkFa u (CELL3d i0 j0 k0 i1 j1 k1 gcw)) (at3 w) E (in_box [(i0, i1); (j0, j1); (k0, k1)]) ->
  repeated n (twice (cells7rbgs3d i0 i1 j0 j1 k0 k1 c1 (i0 - sgcw) (i1 + sgcw) (j0 - sgcw) (j1 + sgcw) (k0 - sgcw) (k1 + sgcw) st (i0 - fgcw) (i1 + fgcw) (j0 - fgcw) (j1 + fgcw) (k0 - fgcw) (k1 + fgcw) f (i0 - gcw) (i1 + gcw) (j0 - gcw) (j1 + gcw) (k0 - gcw) (k1 + gcw) u)
     (cells7rbgs3d i0 i1 j0 j1 k0 k1 c2 (i0 - sgcw) (i1 + sgcw) (j0 - sgcw) (j1 + sgcw) (k0 - sgcw) (k1 + sgcw) st (i0 - fgcw) (i1 + fgcw) (j0 - fgcw) (j1 + fgcw) (k0 - fgcw) (k1 + fgcw) f (i0 - gcw) (i1 + gcw) (j0 - gcw) (j1 + gcw) (k0 - gcw) (k1 + gcw) u)) ms = Some m ->
  let K := ((1 + 1) * B * (beta / (dx 0%Z * dx 0%Z) + beta / (dx 1%Z * dx 1%Z) + beta / (dx 2%Z * dx 2%Z)))%Qc in
  within m (mkFa u (CELL3d i0 j0 k0 i1 j1 k1 gcw)) (at3 w) ((K / (K + A)) ^ n * E)%Qc (in_box [(i0, i1); (j0, j1); (k0, k1)]).
Proof. exact @relax_fix_v1_3d. Qed.
Print Assumptions C78_cells7rbgs_v1_3d.

(** Jacobi; [z] is the storage of the local array, [om] the weight. *)
Theorem C78_celljacobi_v1_3d : forall i0 j0 k0 i1 j1 k1 (dx : Z -> Qc) (beta : Qc) b0 b1 b2 gcw u f0 f1 f2 (alpha : Qc) agcw a rgcw res sgcw st offset fgcw f (mx ms : mem QcS) (r w c v0 v1 v2 : Z -> Z -> Z -> Qc) z (om : Qc) (A B E : Qc) (n : nat) (m : mem QcS),
  i0 <= i1 + 1 -> j0 <= j1 + 1 -> k0 <= k1 + 1 -> 1 <= gcw -> fst u <> fst st -> fst u <> fst f -> fst u <> fst z -> fst z <> fst st -> fst z <> fst f -> (0 <= om)%Qc -> (om <= 1)%Qc ->
  (0 <= beta)%Qc -> (0 < A)%Qc -> (0 <= B)%Qc ->
  (forall i j k, i0 <= i <= i1 + 1 -> j0 <= j <= j1 -> k0 <= k <= k1 -> (0 <= v0 i j k)%Qc /\ (v0 i j k <= B)%Qc) ->
  (forall i j k, i0 <= i <= i1 -> j0 <= j <= j1 + 1 -> k0 <= k <= k1 -> (0 <= v1 i j k)%Qc /\ (v1 i j k <= B)%Qc) ->
  (forall i j k, i0 <= i <= i1 -> j0 <= j <= j1 -> k0 <= k <= k1 + 1 -> (0 <= v2 i j k)%Qc /\ (v2 i j k <= B)%Qc) ->
  (forall i j k, i0 <= i <= i1 -> j0 <= j <= j1 -> k0 <= k <= k1 -> (A <= alpha * c i j k)%Qc) ->
  applied_v1_3d (S := QcS) i0 j0 k0 i1 j1 k1 dx beta b0 b1 b2 gcw u f0 f1 f2 alpha agcw a rgcw res mx r w c v0 v1 v2 ->
  assembled_v1_3d i0 j0 k0 i1 j1 k1 dx beta b0 b1 b2 alpha agcw a sgcw st offset fgcw f ms r c v0 v1 v2 ->
  equals ms (mkFa u (CELL3d i0 j0 k0 i1 j1 k1 gcw)) (at3 w) (around (mkFa u (CELL3d i0 j0 k0 i1 j1 k1 gcw)) [(i0, i1); (j0, j1); (k0, k1)]) ->
  (0 <= E)%Qc -> within ms (mkFa u (CELL3d i0 j0 k0 i1 j1 k1 gcw)) (at3 w) E (in_box [(i0, i1); (j0, j1); (k0, k1)]) ->
  repeated n (celljacobi3d i0 i1 j0 j1 k0 k1 7 offset (i0 - sgcw) (i1 + sgcw) (j0 - sgcw) (j1 + sgcw) (k0 - sgcw) (k1 + sgcw) st (i0 - fgcw) (i1 + fgcw) (j0 - fgcw) (j1 + fgcw) (k0 - fgcw) (k1 + fgcw) f (i0 - gcw) (i1 + gcw) (j0 - gcw) (j1 + gcw) (k0 - gcw) (k1 + gcw) u z (om : QcS)) ms = Some m ->
  let K := ((1 + 1) * B * (beta / (dx 0%Z * dx 0%Z) + beta / (dx 1%Z * dx 1%Z) + beta / (dx 2%Z * dx 2%Z)))%Qc in
  within m (mkFa u (CELL3d i0 j0 k0 i1 j1 k1 gcw)) (at3 w) ((1 - om + om * (K / (K + A))) ^ n * E)%Qc (in_box [(i0, i1); (j0, j1); (k0, k1)]).
Proof. exact @relax_jac_v1_3d. Qed.
Print Assumptions C78_celljacobi_v1_3d.

Example C78_case_v1_3d :
  is_v1_3d ex_any /\
  assembled_v1_3d 0 0 0 1 1 0 ex_h (ex_q 2) (0%nat, 0) (1%nat, 0) (2%nat, 0) (ex_q 3) 0 (3%nat, 0) 0 (10%nat, 0) (0%nat, 0) 1 (11%nat, 0) (out rxo_v1_3d) (r_v1_3d ex_any) c_v1_3d v0_v1_3d v1_v1_3d v2_v1_3d /\
  (forall i j k, 0 <= i <= 1 + 1 -> 0 <= j <= 1 -> 0 <= k <= 0 -> (0 <= v0_v1_3d i j k)%Qc /\ (v0_v1_3d i j k <= ex_q 2)%Qc) /\
  (forall i j k, 0 <= i <= 1 -> 0 <= j <= 1 + 1 -> 0 <= k <= 0 -> (0 <= v1_v1_3d i j k)%Qc /\ (v1_v1_3d i j k <= ex_q 2)%Qc) /\
  (forall i j k, 0 <= i <= 1 -> 0 <= j <= 1 -> 0 <= k <= 0 + 1 -> (0 <= v2_v1_3d i j k)%Qc /\ (v2_v1_3d i j k <= ex_q 2)%Qc) /\
  (forall i j k, 0 <= i <= 1 -> 0 <= j <= 1 -> 0 <= k <= 0 -> (ex_q 3 <= ex_q 3 * c_v1_3d i j k)%Qc) /\
  equals (out rxo_v1_3d) (mkFa (4%nat, 0) (CELL3d 0 0 0 1 1 0 1)) (at3 (w_v1_3d ex_any)) (around (mkFa (4%nat, 0) (CELL3d 0 0 0 1 1 0 1)) [(0, 1); (0, 1); (0, 0)]) /\
  within (out rxo_v1_3d) (mkFa (4%nat, 0) (CELL3d 0 0 0 1 1 0 1)) (at3 (w_v1_3d ex_any)) (ex_q 3) (in_box [(0, 1); (0, 1); (0, 0)]) /\
  (exists m, repeated 2 (cellgs3d 0 1 0 1 0 0 7 (0%nat, 0) (0 - 0) (1 + 0) (0 - 0) (1 + 0) (0 - 0) (0 + 0) (10%nat, 0) (0 - 1) (1 + 1) (0 - 1) (1 + 1) (0 - 1) (0 + 1) (11%nat, 0) (0 - 1) (1 + 1) (0 - 1) (1 + 1) (0 - 1) (0 + 1) (4%nat, 0)) (out rxo_v1_3d) = Some m) /\
  (exists m, repeated 2 (twice (cellrbgs3d 0 1 0 1 0 0 0 7 (0%nat, 0) (0 - 0) (1 + 0) (0 - 0) (1 + 0) (0 - 0) (0 + 0) (10%nat, 0) (0 - 1) (1 + 1) (0 - 1) (1 + 1) (0 - 1) (0 + 1) (11%nat, 0) (0 - 1) (1 + 1) (0 - 1) (1 + 1) (0 - 1) (0 + 1) (4%nat, 0))
     (cellrbgs3d 0 1 0 1 0 0 1 7 (0%nat, 0) (0 - 0) (1 + 0) (0 - 0) (1 + 0) (0 - 0) (0 + 0) (10%nat, 0) (0 - 1) (1 + 1) (0 - 1) (1 + 1) (0 - 1) (0 + 1) (11%nat, 0) (0 - 1) (1 + 1) (0 - 1) (1 + 1) (0 - 1) (0 + 1) (4%nat, 0))) (out rxo_v1_3d) = Some m) /\
  (exists m, repeated 2 (twice (cells7rbgs3d 0 1 0 1 0 0 0 (0 - 0) (1 + 0) (0 - 0) (1 + 0) (0 - 0) (0 + 0) (10%nat, 0) (0 - 1) (1 + 1) (0 - 1) (1 + 1) (0 - 1) (0 + 1) (11%nat, 0) (0 - 1) (1 + 1) (0 - 1) (1 + 1) (0 - 1) (0 + 1) (4%nat, 0))
     (cells7rbgs3d 0 1 0 1 0 0 1 (0 - 0) (1 + 0) (0 - 0) (1 + 0) (0 - 0) (0 + 0) (10%nat, 0) (0 - 1) (1 + 1) (0 - 1) (1 + 1) (0 - 1) (0 + 1) (11%nat, 0) (0 - 1) (1 + 1) (0 - 1) (1 + 1) (0 - 1) (0 + 1) (4%nat, 0))) (out rxo_v1_3d) = Some m) /\
  (exists m, repeated 2 (celljacobi3d 0 1 0 1 0 0 7 (0%nat, 0) (0 - 0) (1 + 0) (0 - 0) (1 + 0) (0 - 0) (0 + 0) (10%nat, 0) (0 - 1) (1 + 1) (0 - 1) (1 + 1) (0 - 1) (0 + 1) (11%nat, 0) (0 - 1) (1 + 1) (0 - 1) (1 + 1) (0 - 1) (0 + 1) (4%nat, 0) (12%nat, 0) (ex_q 1 : QcS)) (out rxo_v1_3d) = Some m).
Proof. exact rx_case_v1_3d. Qed.

(** What the operator kernel maps to the right-hand side solves the assembled system. *)
Theorem C78_solution_v2_3d : forall i0 j0 k0 i1 j1 k1 (dx : Z -> Qc) (beta : Qc) b0 b1 b2 gcw u f0 f1 f2 (alpha : Qc) rgcw res sgcw st offset fgcw f (mx ms : mem QcS) (r w v0 v1 v2 : Z -> Z -> Z -> Qc),
  i0 <= i1 + 1 -> j0 <= j1 + 1 -> k0 <= k1 + 1 ->
  applied_v2_3d (S := QcS) i0 j0 k0 i1 j1 k1 dx beta b0 b1 b2 gcw u f0 f1 f2 alpha rgcw res mx r w v0 v1 v2 ->
  assembled_v2_3d i0 j0 k0 i1 j1 k1 dx beta b0 b1 b2 alpha sgcw st offset fgcw f ms r v0 v1 v2 ->
  solution ms (mkFa offset [(0, 2); (0, 6)]) (mkFa st ((0, 6) :: CELL3d i0 j0 k0 i1 j1 k1 sgcw)) 7 (mkFa f (CELL3d i0 j0 k0 i1 j1 k1 fgcw)) (at3 w) (in_box [(i0, i1); (j0, j1); (k0, k1)]).
Proof. exact @solution_v2_3d. Qed.
Print Assumptions C78_solution_v2_3d.

(** Gauss-Seidel. *)
Theorem C78_cellgs_v2_3d : forall i0 j0 k0 i1 j1 k1 (dx : Z -> Qc) (beta : Qc) b0 b1 b2 gcw u f0 f1 f2 (alpha : Qc) rgcw res sgcw st offset fgcw f (mx ms : mem QcS) (r w v0 v1 v2 : Z -> Z -> Z -> Qc) (A B E : Qc) (n : nat) (m : mem QcS),
  i0 <= i1 + 1 -> j0 <= j1 + 1 -> k0 <= k1 + 1 -> 1 <= gcw -> fst u <> fst st -> fst u <> fst f ->
  (0 <= beta)%Qc -> (0 < A)%Qc -> (0 <= B)%Qc ->
  (forall i j k, i0 <= i <= i1 + 1 -> j0 <= j <= j1 -> k0 <= k <= k1 -> (0 <= v0 i j k)%Qc /\ (v0 i j k <= B)%Qc) ->
  (forall i j k, i0 <= i <= i1 -> j0 <= j <= j1 + 1 -> k0 <= k <= k1 -> (0 <= v1 i j k)%Qc /\ (v1 i j k <= B)%Qc) ->
  (forall i j k, i0 <= i <= i1 -> j0 <= j <= j1 -> k0 <= k <= k1 + 1 -> (0 <= v2 i j k)%Qc /\ (v2 i j k <= B)%Qc) ->
  (A <= alpha)%Qc ->
  applied_v2_3d (S := QcS) i0 j0 k0 i1 j1 k1 dx beta b0 b1 b2 gcw u f0 f1 f2 alpha rgcw res mx r w v0 v1 v2 ->
  assembled_v2_3d i0 j0 k0 i1 j1 k1 dx beta b0 b1 b2 alpha sgcw st offset fgcw f ms r v0 v1 v2 ->
  equals ms (mkFa u (CELL3d i0 j0 k0 i1 j1 k1 gcw)) (at3 w) (around (mkFa u (CELL3d i0 j0 k0 i1 j1 k1 gcw)) [(i0, i1); (j0, j1); (k0, k1)]) ->
  (0 <= E)%Qc -> within ms (mkFa u (CELL3d i0 j0 k0 i1 j1 k1 gcw)) (at3 w) E (in_box [(i0, i1); (j0, j1); (k0, k1)]) ->
  repeated n (cellgs3d i0 i1 j0 j1 k0 k1 7 offset (i0 - sgcw) (i1 + sgcw) (j0 - sgcw) (j1 + sgcw) (k0 - sgcw) (k1 + sgcw) st (i0 - fgcw) (i1 + fgcw) (j0 - fgcw) (j1 + fgcw) (k0 - fgcw) (k1 + fgcw) f (i0 - gcw) (i1 + gcw) (j0 - gcw) (j1 + gcw) (k0 - gcw) (k1 + gcw) u) ms = Some m ->
  let K := ((1 + 1) * B * (beta / (dx 0%Z * dx 0%Z) + beta / (dx 1%Z * dx 1%Z) + beta / (dx 2%Z * dx 2%Z)))%Qc in
  within m (mkFa u (CELL3d i0 j0 k0 i1 j1 k1 gcw)) (at3 w) ((K / (K + A)) ^ n * E)%Qc (in_box [(i0, i1); (j0, j1); (k0, k1)]).
Proof. exact @relax_gs_v2_3d. Qed.
Print Assumptions C78_cellgs_v2_3d.

(** Red-black Gauss-Seidel. *)
Theorem C78_cellrbgs_v2_3d : forall i0 j0 k0 i1 j1 k1 (dx : Z -> Qc) (beta : Qc) b0 b1 b2 gcw u f0 f1 f2 (alpha : Qc) rgcw res sgcw st offset fgcw f (mx ms : mem QcS) (r w v0 v1 v2 : Z -> Z -> Z -> Qc) (c1 c2 : Z) (A B E : Qc) (n : nat) (m : mem QcS),
  i0 <= i1 + 1 -> j0 <= j1 + 1 -> k0 <= k1 + 1 -> 1 <= gcw -> 0 <= c1 -> 0 <= c2 -> Z.odd (c1 + c2) = true -> fst u <> fst st -> fst u <> fst f ->
  (0 <= beta)%Qc -> (0 < A)%Qc -> (0 <= B)%Qc ->
  (forall i j k, i0 <= i <= i1 + 1 -> j0 <= j <= j1 -> k0 <= k <= k1 -> (0 <= v0 i j k)%Qc /\ (v0 i j k <= B)%Qc) ->
  (forall i j k, i0 <= i <= i1 -> j0 <= j <= j1 + 1 -> k0 <= k <= k1 -> (0 <= v1 i j k)%Qc /\ (v1 i j k <= B)%Qc) ->
  (forall i j k, i0 <= i <= i1 -> j0 <= j <= j1 -> k0 <= k <= k1 + 1 -> (0 <= v2 i j k)%Qc /\ (v2 i j k <= B)%Qc) ->
  (A <= alpha)%Qc ->
  applied_v2_3d (S := QcS) i0 j0 k0 i1 j1 k1 dx beta b0 b1 b2 gcw u f0 f1 f2 alpha rgcw res mx r w v0 v1 v2 ->
  assembled_v2_3d i0 j0 k0 i1 j1 k1 dx beta b0 b1 b2 alpha sgcw st offset fgcw f ms r v0 v1 v2 ->
  equals ms (mkFa u (CELL3d i0 j0 k0 i1 j1 k1 gcw)) (at3 w) (around (mkFa u (CELL3d i0 j0 k0 i1 j1 k1 gcw)) [(i0, i1); (j0, j1); (k0, k1)]) ->
  (0 <= E)%Qc -> within ms (mkFa u (CELL3d i0 j0 k0 i1 j1 k1 gcw)) (at3 w) E (in_box [(i0, i1); (j0, j1); (k0, k1)]) ->
  repeated n (twice (cellrbgs3d i0 i1 j0 j1 k0 k1 c1 7 offset (i0 - sgcw) (i1 + sgcw) (j0 - sgcw) (j1 + sgcw) (k0 - sgcw) (k1 + sgcw) st (i0 - fgcw) (i1 + fgcw) (j0 - fgcw) (j1 + fgcw) (k0 - fgcw) (k1 + fgcw) f (i0 - gcw) (i1 + gcw) (j0 - gcw) (j1 + gcw) (k0 - gcw) (k1 + gcw) u)
     (cellrbgs3d i0 i1 j0 j1 k0 k1 c2 7 offset (i0 - sgcw) (i1 + sgcw) (j0 - sgcw) (j1 + sgcw) (k0 - sgcw) (k1 + sgcw) st (i0 - fgcw) (i1 + fgcw) (j0 - fgcw) (j1 + fgcw) (k0 - fgcw) (k1 + fgcw) f (i0 - gcw) (i1 + gcw) (j0 - gcw) (j1 + gcw) (k0 - gcw) (k1 + gcw) u)) ms = Some m ->
  let K := ((1 + 1) * B * (beta / (dx 0%Z * dx 0%Z) + beta / (dx 1%Z * dx 1%Z) + beta / (dx 2%Z * dx 2%Z)))%Qc in
  within m (mkFa u (CELL3d i0 j0 k0 i1 j1 k1 gcw)) (at3 w) ((K / (K + A)) ^ n * E)%Qc (in_box [(i0, i1); (j0, j1); (k0, k1)]).
Proof. exact @relax_rb_v2_3d. Qed.
Print Assumptions C78_cellrbgs_v2_3d.

(** Red-black Gauss-Seidel for a fixed stencil. *)
Theorem C78_cells7rbgs_v2_3d : forall i0 j0 k0 i1 j1 k1 (dx : Z -> Qc) (beta : Qc) b0 b1 b2 gcw u f0 f1 f2 (alpha : Qc) rgcw res sgcw st offset fgcw f (mx ms : mem QcS) (r w v0 v1 v2 : Z -> Z -> Z -> Qc) (c1 c2 : Z) (A B E : Qc) (n : nat) (m : mem QcS),
  i0 <= i1 + 1 -> j0 <= j1 + 1 -> k0 <= k1 + 1 -> 1 <= gcw -> 0 <= c1 -> 0 <= c2 -> Z.odd (c1 + c2) = true -> fst u <> fst st -> fst u <> fst f ->
  (0 <= beta)%Qc -> (0 < A)%Qc -> (0 <= B)%Qc ->
  (forall i j k, i0 <= i <= i1 + 1 -> j0 <= j <= j1 -> k0 <= k <= k1 -> (0 <= v0 i j k)%Qc /\ (v0 i j k <= B)%Qc) ->
  (forall i j k, i0 <= i <= i1 -> j0 <= j <= j1 + 1 -> k0 <= k <= k1 -> (0 <= v1 i j k)%Qc /\ (v1 i j k <= B)%Qc) ->
  (forall i j k, i0 <= i <= i1 -> j0 <= j <= j1 -> k0 <= k <= k1 + 1 -> (0 <= v2 i j k)%Qc /\ (v2 i j k <= B)%Qc) ->
  (A <= alpha)%Qc ->
  applied_v2_3d (S := QcS) i0 j0 k0 i1 j1 k1 dx beta b0 b1 b2 gcw u f0 f1 f2 alpha rgcw res mx r w v0 v1 v2 ->
  assembled_v2_3d i0 j0 k0 i1 j1 k1 dx beta b0 b1 b2 alpha sgcw st offset fgcw f ms r v0 v1 v2 ->
  equals ms (mkFa u (CELL3d i0 j0 k0 i1 j1 k1 gcw)) (at3 w) (around (mkFa u (CELL3d i0 j0 k0 i1 j1 k1 gcw)) [(i0, i1); (j0, j1); (k0, k1)]) ->
  (0 <= E)%Qc -> within ms (mkFa u (CELL3d i0 j0 k0 i1 j1 k1 gcw)) (at3 w) E (in_box [(i0, i1); (j0, j1); (k0, k1)]) ->
  repeated n (twice (cells7rbgs3d i0 i1 j0 j1 k0 k1 c1 (i0 - sgcw) (i1 + sgcw) (j0 - sgcw) (j1 + sgcw) (k0 - sgcw) (k1 + sgcw) st (i0 - fgcw) (i1 + fgcw) (j0 - fgcw) (j1 + fgcw) (k0 - fgcw) (k1 + fgcw) f (i0 - gcw) (i1 + gcw) (j0 - gcw) (j1 + gcw) (k0 - gcw) (k1 + gcw) u)
     (cells7rbgs3d i0 i1 j0 j1 k0 k1 c2 (i0 - sgcw) (i1 + sgcw) (j0 - sgcw) (j1 + sgcw) (k0 - sgcw) (k1 + sgcw) st (i0 - fgcw) (i1 + fgcw) (j0 - fgcw) (j1 + fgcw) (k0 - fgcw) (k1 + fgcw) f (i0 - gcw) (i1 + gcw) (j0 - gcw) (j1 + gcw) (k0 - gcw) (k1 + gcw) u)) ms = Some m ->
  let K := ((1 + 1) * B * (beta / (dx 0%Z * dx 0%Z) + beta / (dx 1%Z * dx 1%Z) + beta / (dx 2%Z * dx 2%Z)))%Qc in
  within m (mkFa u (CELL3d i0 j0 k0 i1 j1 k1 gcw)) (at3 w) ((K / (K + A)) ^ n * E)%Qc (in_box [(i0, i1); (j0, j1); (k0, k1)]).
Proof. exact @relax_fix_v2_3d. Qed.
Print Assumptions C78_cells7rbgs_v2_3d.

(** Jacobi; [z] is the storage of the local array, [om] the weight. *)
Theorem C78_celljacobi_v2_3d : forall i0 j0 k0 i1 j1 k1 (dx : Z -> Qc) (beta : Qc) b0 b1 b2 gcw u f0 f1 f2 (alpha : Qc) rgcw res sgcw st offset fgcw f (mx ms : mem QcS) (r w v0 v1 v2 : Z -> Z -> Z -> Qc) z (om : Qc) (A B E : Qc) (n : nat) (m : mem QcS),
  i0 <= i1 + 1 -> j0 <= j1 + 1 -> k0 <= k1 + 1 -> 1 <= gcw -> fst u <> fst st -> fst u <> fst f -> fst u <> fst z -> fst z <> fst st -> fst z <> fst f -> (0 <= om)%Qc -> (om <= 1)%Qc ->
  (0 <= beta)%Qc -> (0 < A)%Qc -> (0 <= B)%Qc ->
  (forall i j k, i0 <= i <= i1 + 1 -> j0 <= j <= j1 -> k0 <= k <= k1 -> (0 <= v0 i j k)%Qc /\ (v0 i j k <= B)%Qc) ->
  (forall i j k, i0 <= i <= i1 -> j0 <= j <= j1 + 1 -> k0 <= k <= k1 -> (0 <= v1 i j k)%Qc /\ (v1 i j k <= B)%Qc) ->
  (forall i j k, i0 <= i <= i1 -> j0 <= j <= j1 -> k0 <= k <= k1 + 1 -> (0 <= v2 i j k)%Qc /\ (v2 i j k <= B)%Qc) ->
  (A <= alpha)%Qc ->
  applied_v2_3d (S := QcS) i0 j0 k0 i1 j1 k1 dx beta b0 b1 b2 gcw u f0 f1 f2 alpha rgcw res mx r w v0 v1 v2 ->
  assembled_v2_3d i0 j0 k0 i1 j1 k1 dx beta b0 b1 b2 alpha sgcw st offset fgcw f ms r v0 v1 v2 ->
  equals ms (mkFa u (CELL3d i0 j0 k0 i1 j1 k1 gcw)) (at3 w) (around (mkFa u (CELL3d i0 j0 k0 i1 j1 k1 gcw)) [(i0, i1); (j0, j1); (k0, k1)]) ->
  (0 <= E)%Qc -> within ms (mkFa u (CELL3d i0 j0 k0 i1 j1 k1 gcw)) (at3 w) E (in_box [(i0, i1); (j0, j1); (k0, k1)]) ->
  repeated n (celljacobi3d i0 i1 j0 j1 k0 k1 7 offset (i0 - sgcw) (i1 + sgcw) (j0 - sgcw) (j1 + sgcw) (k0 - sgcw) (k1 + sgcw) st (i0 - fgcw) (i1 + fgcw) (j0 - fgcw) (j1 + fgcw) (k0 - fgcw) (k1 + fgcw) f (i0 - gcw) (i1 + gcw) (j0 - gcw) (j1 + gcw) (k0 - gcw) (k1 + gcw) u z (om : QcS)) ms = Some m ->
  let K := ((1 + 1) * B * (beta / (dx 0%Z * dx 0%Z) + beta / (dx 1%Z * dx 1%Z) + beta / (dx 2%Z * dx 2%Z)))%Qc in
  within m (mkFa u (CELL3d i0 j0 k0 i1 j1 k1 gcw)) (at3 w) ((1 - om + om * (K / (K + A))) ^ n * E)%Qc (in_box [(i0, i1); (j0, j1); (k0, k1)]).
Proof. exact @relax_jac_v2_3d. Qed.
Print Assumptions C78_celljacobi_v2_3d.

Example C78_case_v2_3d :
  is_v2_3d ex_any /\
  assembled_v2_3d 0 0 0 1 1 0 ex_h (ex_q 2) (0%nat, 0) (1%nat, 0) (2%nat, 0) (ex_q 3) 0 (10%nat, 0) (0%nat, 0) 1 (11%nat, 0) (out rxo_v2_3d) (r_v2_3d ex_any) v0_v2_3d v1_v2_3d v2_v2_3d /\
  (forall i j k, 0 <= i <= 1 + 1 -> 0 <= j <= 1 -> 0 <= k <= 0 -> (0 <= v0_v2_3d i j k)%Qc /\ (v0_v2_3d i j k <= ex_q 2)%Qc) /\
  (forall i j k, 0 <= i <= 1 -> 0 <= j <= 1 + 1 -> 0 <= k <= 0 -> (0 <= v1_v2_3d i j k)%Qc /\ (v1_v2_3d i j k <= ex_q 2)%Qc) /\
  (forall i j k, 0 <= i <= 1 -> 0 <= j <= 1 -> 0 <= k <= 0 + 1 -> (0 <= v2_v2_3d i j k)%Qc /\ (v2_v2_3d i j k <= ex_q 2)%Qc) /\
  (ex_q 3 <= ex_q 3)%Qc /\
  equals (out rxo_v2_3d) (mkFa (4%nat, 0) (CELL3d 0 0 0 1 1 0 1)) (at3 (w_v2_3d ex_any)) (around (mkFa (4%nat, 0) (CELL3d 0 0 0 1 1 0 1)) [(0, 1); (0, 1); (0, 0)]) /\
  within (out rxo_v2_3d) (mkFa (4%nat, 0) (CELL3d 0 0 0 1 1 0 1)) (at3 (w_v2_3d ex_any)) (ex_q 3) (in_box [(0, 1); (0, 1); (0, 0)]) /\
  (exists m, repeated 2 (cellgs3d 0 1 0 1 0 0 7 (0%nat, 0) (0 - 0) (1 + 0) (0 - 0) (1 + 0) (0 - 0) (0 + 0) (10%nat, 0) (0 - 1) (1 + 1) (0 - 1) (1 + 1) (0 - 1) (0 + 1) (11%nat, 0) (0 - 1) (1 + 1) (0 - 1) (1 + 1) (0 - 1) (0 + 1) (4%nat, 0)) (out rxo_v2_3d) = Some m) /\
  (exists m, repeated 2 (twice (cellrbgs3d 0 1 0 1 0 0 0 7 (0%nat, 0) (0 - 0) (1 + 0) (0 - 0) (1 + 0) (0 - 0) (0 + 0) (10%nat, 0) (0 - 1) (1 + 1) (0 - 1) (1 + 1) (0 - 1) (0 + 1) (11%nat, 0) (0 - 1) (1 + 1) (0 - 1) (1 + 1) (0 - 1) (0 + 1) (4%nat, 0))
     (cellrbgs3d 0 1 0 1 0 0 1 7 (0%nat, 0) (0 - 0) (1 + 0) (0 - 0) (1 + 0) (0 - 0) (0 + 0) (10%nat, 0) (0 - 1) (1 + 1) (0 - 1) (1 + 1) (0 - 1) (0 + 1) (11%nat, 0) (0 - 1) (1 + 1) (0 - 1) (1 + 1) (0 - 1) (0 + 1) (4%nat, 0))) (out rxo_v2_3d) = Some m) /\
  (exists m, repeated 2 (twice (cells7rbgs3d 0 1 0 1 0 0 0 (0 - 0) (1 + 0) (0 - 0) (1 + 0) (0 - 0) (0 + 0) (10%nat, 0) (0 - 1) (1 + 1) (0 - 1) (1 + 1) (0 - 1) (0 + 1) (11%nat, 0) (0 - 1) (1 + 1) (0 - 1) (1 + 1) (0 - 1) (0 + 1) (4%nat, 0))
     (cells7rbgs3d 0 1 0 1 0 0 1 (0 - 0) (1 + 0) (0 - 0) (1 + 0) (0 - 0) (0 + 0) (10%nat, 0) (0 - 1) (1 + 1) (0 - 1) (1 + 1) (0 - 1) (0 + 1) (11%nat, 0) (0 - 1) (1 + 1) (0 - 1) (1 + 1) (0 - 1) (0 + 1) (4%nat, 0))) (out rxo_v2_3d) = Some m) /\
  (exists m, repeated 2 (celljacobi3d 0 1 0 1 0 0 7 (0%nat, 0) (0 - 0) (1 + 0) (0 - 0) (1 + 0) (0 - 0) (0 + 0) (10%nat, 0) (0 - 1) (1 + 1) (0 - 1) (1 + 1) (0 - 1) (0 + 1) (11%nat, 0) (0 - 1) (1 + 1) (0 - 1) (1 + 1) (0 - 1) (0 + 1) (4%nat, 0) (12%nat, 0) (ex_q 1 : QcS)) (out rxo_v2_3d) = Some m).
Proof. exact rx_case_v2_3d. Qed.
