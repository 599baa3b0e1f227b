(** * Properties: repeated sweeps of the point smoothers over the rational numbers *)

From Coq Require Import QArith Qcanon Qcabs.
From Verif Require Import Base SpecKernel FortranBase FortranSmooth KernelsStencil Instances SpecRow SpecSmooth SpecConverge
  LemNodeRefute LemSmoothRefute LemConverge3 LemConverge4 LemConverge5 LemConvergeCase.
Import ListNotations.
Open Scope Z_scope.

(** ** C66: the error goes down by a fixed factor with every sweep *)

(** Gauss-Seidel.  The factor is the ratio of the rows. *)
Theorem C66_cellgs1d : forall lo0 hi0 n offset slo0 shi0 st flo0 fhi0 f ulo0 uhi0 u (m : mem QcS),
  fst u <> fst st -> fst u <> fst f -> flo0 = ulo0 ->
  converges m
    (cellgs1d lo0 hi0 n offset slo0 shi0 st flo0 fhi0 f ulo0 uhi0 u)
    (mkFa offset [(0, 0); (0, n - 1)]) (mkFa st ((0, n - 1) :: CELL1d slo0 shi0 0)) n
    (mkFa f (CELL1d flo0 fhi0 0)) (mkFa u (CELL1d ulo0 uhi0 0)) [(lo0, hi0)] (fun q => q).
Proof. exact @cellgs1d_converges. Qed.
Print Assumptions C66_cellgs1d.

Theorem C66_cellgs2d : forall lo0 hi0 lo1 hi1 n offset slo0 shi0 slo1 shi1 st flo0 fhi0 flo1 fhi1 f ulo0 uhi0 ulo1 uhi1 u (m : mem QcS),
  fst u <> fst st -> fst u <> fst f ->
  converges m
    (cellgs2d lo0 hi0 lo1 hi1 n offset slo0 shi0 slo1 shi1 st flo0 fhi0 flo1 fhi1 f ulo0 uhi0 ulo1 uhi1 u)
    (mkFa offset [(0, 1); (0, n - 1)]) (mkFa st ((0, n - 1) :: CELL2d slo0 slo1 shi0 shi1 0)) n
    (mkFa f (CELL2d flo0 flo1 fhi0 fhi1 0)) (mkFa u (CELL2d ulo0 ulo1 uhi0 uhi1 0)) [(lo0, hi0); (lo1, hi1)] (fun q => q).
Proof. exact @cellgs2d_converges. Qed.
Print Assumptions C66_cellgs2d.

Theorem C66_cellgs3d : forall lo0 hi0 lo1 hi1 lo2 hi2 n offset slo0 shi0 slo1 shi1 slo2 shi2 st flo0 fhi0 flo1 fhi1 flo2 fhi2 f ulo0 uhi0 ulo1 uhi1 ulo2 uhi2 u (m : mem QcS),
  fst u <> fst st -> fst u <> fst f ->
  converges m
    (cellgs3d lo0 hi0 lo1 hi1 lo2 hi2 n offset slo0 shi0 slo1 shi1 slo2 shi2 st flo0 fhi0 flo1 fhi1 flo2 fhi2 f ulo0 uhi0 ulo1 uhi1 ulo2 uhi2 u)
    (mkFa offset [(0, 2); (0, n - 1)]) (mkFa st ((0, n - 1) :: CELL3d slo0 slo1 slo2 shi0 shi1 shi2 0)) n
    (mkFa f (CELL3d flo0 flo1 flo2 fhi0 fhi1 fhi2 0)) (mkFa u (CELL3d ulo0 ulo1 ulo2 uhi0 uhi1 uhi2 0)) [(lo0, hi0); (lo1, hi1); (lo2, hi2)] (fun q => q).
Proof. exact @cellgs3d_converges. Qed.
Print Assumptions C66_cellgs3d.

(** Red-black Gauss-Seidel: one colour, then the other one. *)
Theorem C66_cellrbgs1d : forall lo0 hi0 c1 c2 n offset slo0 shi0 st flo0 fhi0 f ulo0 uhi0 u (m : mem QcS),
  0 <= c1 -> 0 <= c2 -> Z.odd (c1 + c2) = true -> fst u <> fst st -> fst u <> fst f ->
  converges m
    (twice (cellrbgs1d lo0 hi0 c1 n offset slo0 shi0 st flo0 fhi0 f ulo0 uhi0 u)
       (cellrbgs1d lo0 hi0 c2 n offset slo0 shi0 st flo0 fhi0 f ulo0 uhi0 u))
    (mkFa offset [(0, 0); (0, n - 1)]) (mkFa st ((0, n - 1) :: CELL1d slo0 shi0 0)) n
    (mkFa f (CELL1d flo0 fhi0 0)) (mkFa u (CELL1d ulo0 uhi0 0)) [(lo0, hi0)] (fun q => q).
Proof. exact @cellrbgs1d_converges. Qed.
Print Assumptions C66_cellrbgs1d.

Theorem C66_cellrbgs2d : forall lo0 hi0 lo1 hi1 c1 c2 n offset slo0 shi0 slo1 shi1 st flo0 fhi0 flo1 fhi1 f ulo0 uhi0 ulo1 uhi1 u (m : mem QcS),
  0 <= lo1 + c1 -> 0 <= lo1 + c2 -> Z.odd (c1 + c2) = true -> fst u <> fst st -> fst u <> fst f ->
  converges m
    (twice (cellrbgs2d lo0 hi0 lo1 hi1 c1 n offset slo0 shi0 slo1 shi1 st flo0 fhi0 flo1 fhi1 f ulo0 uhi0 ulo1 uhi1 u)
       (cellrbgs2d lo0 hi0 lo1 hi1 c2 n offset slo0 shi0 slo1 shi1 st flo0 fhi0 flo1 fhi1 f ulo0 uhi0 ulo1 uhi1 u))
    (mkFa offset [(0, 1); (0, n - 1)]) (mkFa st ((0, n - 1) :: CELL2d slo0 slo1 shi0 shi1 0)) n
    (mkFa f (CELL2d flo0 flo1 fhi0 fhi1 0)) (mkFa u (CELL2d ulo0 ulo1 uhi0 uhi1 0)) [(lo0, hi0); (lo1, hi1)] (fun q => q).
Proof. exact @cellrbgs2d_converges. Qed.
Print Assumptions C66_cellrbgs2d.

Theorem C66_cellrbgs3d : forall lo0 hi0 lo1 hi1 lo2 hi2 c1 c2 n offset slo0 shi0 slo1 shi1 slo2 shi2 st flo0 fhi0 flo1 fhi1 flo2 fhi2 f ulo0 uhi0 ulo1 uhi1 ulo2 uhi2 u (m : mem QcS),
  0 <= c1 -> 0 <= c2 -> Z.odd (c1 + c2) = true -> fst u <> fst st -> fst u <> fst f ->
  converges m
    (twice (cellrbgs3d lo0 hi0 lo1 hi1 lo2 hi2 c1 n offset slo0 shi0 slo1 shi1 slo2 shi2 st flo0 fhi0 flo1 fhi1 flo2 fhi2 f ulo0 uhi0 ulo1 uhi1 ulo2 uhi2 u)
       (cellrbgs3d lo0 hi0 lo1 hi1 lo2 hi2 c2 n offset slo0 shi0 slo1 shi1 slo2 shi2 st flo0 fhi0 flo1 fhi1 flo2 fhi2 f ulo0 uhi0 ulo1 uhi1 ulo2 uhi2 u))
    (mkFa offset [(0, 2); (0, n - 1)]) (mkFa st ((0, n - 1) :: CELL3d slo0 slo1 slo2 shi0 shi1 shi2 0)) n
    (mkFa f (CELL3d flo0 flo1 flo2 fhi0 fhi1 fhi2 0)) (mkFa u (CELL3d ulo0 ulo1 ulo2 uhi0 uhi1 uhi2 0)) [(lo0, hi0); (lo1, hi1); (lo2, hi2)] (fun q => q).
Proof. exact @cellrbgs3d_converges. Qed.
Print Assumptions C66_cellrbgs3d.

(** The subroutines for a fixed stencil have no table; the hypotheses use one in memory. *)
Theorem C66_cells5rbgs2d : forall lo0 hi0 lo1 hi1 c1 c2 offset slo0 shi0 slo1 shi1 st flo0 fhi0 flo1 fhi1 f ulo0 uhi0 ulo1 uhi1 u (m : mem QcS),
  0 <= lo1 + c1 -> 0 <= lo1 + c2 -> Z.odd (c1 + c2) = true -> fst u <> fst st -> fst u <> fst f ->
  table_is m (mkFa offset [(0, 1); (0, 4)]) [[0; 0]; [-1; 0]; [1; 0]; [0; -1]; [0; 1]] ->
  converges m
    (twice (cells5rbgs2d lo0 hi0 lo1 hi1 c1 slo0 shi0 slo1 shi1 st flo0 fhi0 flo1 fhi1 f ulo0 uhi0 ulo1 uhi1 u)
       (cells5rbgs2d lo0 hi0 lo1 hi1 c2 slo0 shi0 slo1 shi1 st flo0 fhi0 flo1 fhi1 f ulo0 uhi0 ulo1 uhi1 u))
    (mkFa offset [(0, 1); (0, 4)]) (mkFa st ((0, 4) :: CELL2d slo0 slo1 shi0 shi1 0)) 5
    (mkFa f (CELL2d flo0 flo1 fhi0 fhi1 0)) (mkFa u (CELL2d ulo0 ulo1 uhi0 uhi1 0)) [(lo0, hi0); (lo1, hi1)] (fun q => q).
Proof. exact @cells5rbgs2d_converges. Qed.
Print Assumptions C66_cells5rbgs2d.

Theorem C66_cells9rbgs2d : forall lo0 hi0 lo1 hi1 c1 c2 offset slo0 shi0 slo1 shi1 st flo0 fhi0 flo1 fhi1 f ulo0 uhi0 ulo1 uhi1 u (m : mem QcS),
  0 <= lo1 + c1 -> 0 <= lo1 + c2 -> Z.odd (c1 + c2) = true -> fst u <> fst st -> fst u <> fst f ->
  table_is m (mkFa offset [(0, 1); (0, 8)]) [[0; 0]; [-1; 0]; [1; 0]; [0; -1]; [0; 1]; [-1; -1]; [1; -1]; [-1; 1]; [1; 1]] ->
  converges m
    (twice (cells9rbgs2d lo0 hi0 lo1 hi1 c1 slo0 shi0 slo1 shi1 st flo0 fhi0 flo1 fhi1 f ulo0 uhi0 ulo1 uhi1 u)
       (cells9rbgs2d lo0 hi0 lo1 hi1 c2 slo0 shi0 slo1 shi1 st flo0 fhi0 flo1 fhi1 f ulo0 uhi0 ulo1 uhi1 u))
    (mkFa offset [(0, 1); (0, 8)]) (mkFa st ((0, 8) :: CELL2d slo0 slo1 shi0 shi1 0)) 9
    (mkFa f (CELL2d flo0 flo1 fhi0 fhi1 0)) (mkFa u (CELL2d ulo0 ulo1 uhi0 uhi1 0)) [(lo0, hi0); (lo1, hi1)] (fun q => q).
Proof. exact @cells9rbgs2d_converges. Qed.
Print Assumptions C66_cells9rbgs2d.

Theorem C66_cells7rbgs3d : forall lo0 hi0 lo1 hi1 lo2 hi2 c1 c2 offset slo0 shi0 slo1 shi1 slo2 shi2 st flo0 fhi0 flo1 fhi1 flo2 fhi2 f ulo0 uhi0 ulo1 uhi1 ulo2 uhi2 u (m : mem QcS),
  0 <= c1 -> 0 <= c2 -> Z.odd (c1 + c2) = true -> fst u <> fst st -> fst u <> fst f ->
  table_is m (mkFa offset [(0, 2); (0, 6)]) [[0; 0; 0]; [-1; 0; 0]; [1; 0; 0]; [0; -1; 0]; [0; 1; 0]; [0; 0; -1]; [0; 0; 1]] ->
  converges m
    (twice (cells7rbgs3d lo0 hi0 lo1 hi1 lo2 hi2 c1 slo0 shi0 slo1 shi1 slo2 shi2 st flo0 fhi0 flo1 fhi1 flo2 fhi2 f ulo0 uhi0 ulo1 uhi1 ulo2 uhi2 u)
       (cells7rbgs3d lo0 hi0 lo1 hi1 lo2 hi2 c2 slo0 shi0 slo1 shi1 slo2 shi2 st flo0 fhi0 flo1 fhi1 flo2 fhi2 f ulo0 uhi0 ulo1 uhi1 ulo2 uhi2 u))
    (mkFa offset [(0, 2); (0, 6)]) (mkFa st ((0, 6) :: CELL3d slo0 slo1 slo2 shi0 shi1 shi2 0)) 7
    (mkFa f (CELL3d flo0 flo1 flo2 fhi0 fhi1 fhi2 0)) (mkFa u (CELL3d ulo0 ulo1 ulo2 uhi0 uhi1 uhi2 0)) [(lo0, hi0); (lo1, hi1); (lo2, hi2)] (fun q => q).
Proof. exact @cells7rbgs3d_converges. Qed.
Print Assumptions C66_cells7rbgs3d.

(** Jacobi.  [r] is the storage of the local array, [w] the weight. *)
Theorem C66_celljacobi1d : forall lo0 hi0 n offset slo0 shi0 st flo0 fhi0 f ulo0 uhi0 u r (m : mem QcS),
  fst u <> fst st -> fst u <> fst f -> fst u <> fst r -> fst r <> fst st -> fst r <> fst f ->
  converges m
    (celljacobi1d lo0 hi0 n offset slo0 shi0 st flo0 fhi0 f ulo0 uhi0 u r)
    (mkFa offset [(0, 0); (0, n - 1)]) (mkFa st ((0, n - 1) :: CELL1d slo0 shi0 0)) n
    (mkFa f (CELL1d flo0 fhi0 0)) (mkFa u (CELL1d ulo0 uhi0 0)) [(lo0, hi0)] (fun q => (1 - Q2Qc (Qmake 2 3) + Q2Qc (Qmake 2 3) * q)%Qc).
Proof. exact @celljacobi1d_converges. Qed.
Print Assumptions C66_celljacobi1d.

Theorem C66_celljacobi2d : forall lo0 hi0 lo1 hi1 n offset slo0 shi0 slo1 shi1 st flo0 fhi0 flo1 fhi1 f ulo0 uhi0 ulo1 uhi1 u r (w : Qc) (m : mem QcS),
  fst u <> fst st -> fst u <> fst f -> fst u <> fst r -> fst r <> fst st -> fst r <> fst f -> (0 <= w)%Qc -> (w <= 1)%Qc ->
  converges m
    (celljacobi2d lo0 hi0 lo1 hi1 n offset slo0 shi0 slo1 shi1 st flo0 fhi0 flo1 fhi1 f ulo0 uhi0 ulo1 uhi1 u r (w : QcS))
    (mkFa offset [(0, 1); (0, n - 1)]) (mkFa st ((0, n - 1) :: CELL2d slo0 slo1 shi0 shi1 0)) n
    (mkFa f (CELL2d flo0 flo1 fhi0 fhi1 0)) (mkFa u (CELL2d ulo0 ulo1 uhi0 uhi1 0)) [(lo0, hi0); (lo1, hi1)] (fun q => (1 - w + w * q)%Qc).
Proof. exact @celljacobi2d_converges. Qed.
Print Assumptions C66_celljacobi2d.

Theorem C66_celljacobi3d : forall lo0 hi0 lo1 hi1 lo2 hi2 n offset slo0 shi0 slo1 shi1 slo2 shi2 st flo0 fhi0 flo1 fhi1 flo2 fhi2 f ulo0 uhi0 ulo1 uhi1 ulo2 uhi2 u r (w : Qc) (m : mem QcS),
  fst u <> fst st -> fst u <> fst f -> fst u <> fst r -> fst r <> fst st -> fst r <> fst f -> (0 <= w)%Qc -> (w <= 1)%Qc ->
  converges m
    (celljacobi3d lo0 hi0 lo1 hi1 lo2 hi2 n offset slo0 shi0 slo1 shi1 slo2 shi2 st flo0 fhi0 flo1 fhi1 flo2 fhi2 f ulo0 uhi0 ulo1 uhi1 ulo2 uhi2 u r (w : QcS))
    (mkFa offset [(0, 2); (0, n - 1)]) (mkFa st ((0, n - 1) :: CELL3d slo0 slo1 slo2 shi0 shi1 shi2 0)) n
    (mkFa f (CELL3d flo0 flo1 flo2 fhi0 fhi1 fhi2 0)) (mkFa u (CELL3d ulo0 ulo1 ulo2 uhi0 uhi1 uhi2 0)) [(lo0, hi0); (lo1, hi1); (lo2, hi2)] (fun q => (1 - w + w * q)%Qc).
Proof. exact @celljacobi3d_converges. Qed.
Print Assumptions C66_celljacobi3d.

(** A factor below 1 makes any error as small as wanted. *)
Theorem C66_small : forall q E eps : Qc, (0 <= q)%Qc -> (q < 1)%Qc -> (0 <= E)%Qc -> (0 < eps)%Qc -> exists k, (q ^ k * E <= eps)%Qc.
Proof. exact @powers_small. Qed.
Print Assumptions C66_small.

(** There is only one solution with given values around the patch. *)
Theorem C66_unique : forall (m : mem QcS) (tab st : farray) (n : Z) (f u : farray) (bs : list (Z * Z)) (x y : list Z -> Qc) (q : Qc),
  fits m tab n u bs -> dominant m st n q (in_box bs) -> (0 <= q)%Qc ->
  solution m tab st n f x (in_box bs) -> solution m tab st n f y (in_box bs) ->
  (forall c, around u bs c -> x c = y c) -> (q < 1)%Qc -> forall c, in_box bs c -> x c = y c.
Proof. exact @solution_unique. Qed.
Print Assumptions C66_unique.

(** ** The assembled matrices are of this kind *)

(** With face coefficients between 0 and [B], [beta >= 0] and [alpha a >= A > 0] the matrix the
    kernels assemble is diagonally dominant with the ratio [K / (K + A)], where [K] bounds the sum of the
    off-diagonal entries; its entries have the signs of [z_matrix]. *)
Theorem C66_assembled_v1_1d : (forall i0 i1 (dx : Z -> Qc) (beta : Qc) b0 (alpha : Qc) agcw a sgcw st (A B : Qc) (m ms : mem QcS),
  (i0 <= i1 + 1)%Z -> (0 <= sgcw)%Z -> apart st [b0; a] ->
  0 <= beta -> 0 < A ->
  (forall i (v : Qc), (i0 <= i <= i1 + 1)%Z ->
    fel (mkFa b0 (FACE1d i0 i1 0)) [i] m = Some (v : QcS) -> 0 <= v /\ v <= B) ->
  (forall i (v : Qc), (i0 <= i <= i1)%Z -> fel (mkFa a (CELL1d i0 i1 agcw)) [i] m = Some (v : QcS) -> A <= alpha * v) ->
  (m' <- cd_stencil_1d_offdiag i0 i1 i0 i1 (dx : Z -> QcS) (beta : QcS) b0 sgcw st m ;;
   cd_stencil_1d_v1diag i0 i1 (i0 - agcw) (i1 + agcw) (alpha : QcS) a sgcw st m') = Some ms ->
  let K := (1 + 1) * B * (beta / (dx 0%Z * dx 0%Z)) in
  dominant ms (mkFa st ((0, 2)%Z :: CELL1d i0 i1 sgcw)) 3%Z (K / (K + A)) (in_box [(i0, i1)]) /\
  z_matrix ms (mkFa st ((0, 2)%Z :: CELL1d i0 i1 sgcw)) 3%Z (in_box [(i0, i1)]))%Qc.
Proof. exact @dominant_v1_1d. Qed.
Print Assumptions C66_assembled_v1_1d.

Theorem C66_assembled_v2_1d : (forall i0 i1 (dx : Z -> Qc) (beta : Qc) b0 (alpha : Qc) sgcw st (A B : Qc) (m ms : mem QcS),
  (i0 <= i1 + 1)%Z -> (0 <= sgcw)%Z -> apart st [b0] ->
  0 <= beta -> 0 < A ->
  (forall i (v : Qc), (i0 <= i <= i1 + 1)%Z ->
    fel (mkFa b0 (FACE1d i0 i1 0)) [i] m = Some (v : QcS) -> 0 <= v /\ v <= B) ->
  A <= alpha ->
  (m' <- cd_stencil_1d_offdiag i0 i1 i0 i1 (dx : Z -> QcS) (beta : QcS) b0 sgcw st m ;;
   cd_stencil_1d_v2diag i0 i1 (alpha : QcS) sgcw st m') = Some ms ->
  let K := (1 + 1) * B * (beta / (dx 0%Z * dx 0%Z)) in
  dominant ms (mkFa st ((0, 2)%Z :: CELL1d i0 i1 sgcw)) 3%Z (K / (K + A)) (in_box [(i0, i1)]) /\
  z_matrix ms (mkFa st ((0, 2)%Z :: CELL1d i0 i1 sgcw)) 3%Z (in_box [(i0, i1)]))%Qc.
Proof. exact @dominant_v2_1d. Qed.
Print Assumptions C66_assembled_v2_1d.

Theorem C66_assembled_v1_2d : (forall i0 j0 i1 j1 (dx : Z -> Qc) (beta : Qc) b0 b1 (alpha : Qc) agcw a sgcw st (A B : Qc) (m ms : mem QcS),
  (i0 <= i1 + 1)%Z -> (j0 <= j1 + 1)%Z -> (0 <= sgcw)%Z -> apart st [b0; b1; a] ->
  0 <= beta -> 0 < A ->
  (forall i j (v : Qc), (i0 <= i <= i1 + 1)%Z -> (j0 <= j <= j1)%Z ->
    fel (mkFa b0 (FACE2d0 i0 j0 i1 j1 0)) [i; j] m = Some (v : QcS) -> 0 <= v /\ v <= B) ->
  (forall i j (v : Qc), (i0 <= i <= i1)%Z -> (j0 <= j <= j1 + 1)%Z ->
    fel (mkFa b1 (FACE2d1 i0 j0 i1 j1 0)) [j; i] m = Some (v : QcS) -> 0 <= v /\ v <= B) ->
  (forall i j (v : Qc), (i0 <= i <= i1)%Z -> (j0 <= j <= j1)%Z -> fel (mkFa a (CELL2d i0 j0 i1 j1 agcw)) [i; j] m = Some (v : QcS) -> A <= alpha * v) ->
  (m' <- cd_stencil_2d_offdiag i0 j0 i1 j1 i0 j0 i1 j1 (dx : Z -> QcS) (beta : QcS) b0 b1 sgcw st m ;;
   cd_stencil_2d_v1diag i0 j0 i1 j1 (i0 - agcw) (j0 - agcw) (i1 + agcw) (j1 + agcw) (alpha : QcS) a sgcw st m') = Some ms ->
  let K := (1 + 1) * B * (beta / (dx 0%Z * dx 0%Z) + beta / (dx 1%Z * dx 1%Z)) in
  dominant ms (mkFa st ((0, 4)%Z :: CELL2d i0 j0 i1 j1 sgcw)) 5%Z (K / (K + A)) (in_box [(i0, i1); (j0, j1)]) /\
  z_matrix ms (mkFa st ((0, 4)%Z :: CELL2d i0 j0 i1 j1 sgcw)) 5%Z (in_box [(i0, i1); (j0, j1)]))%Qc.
Proof. exact @dominant_v1_2d. Qed.
Print Assumptions C66_assembled_v1_2d.

Theorem C66_assembled_v2_2d : (forall i0 j0 i1 j1 (dx : Z -> Qc) (beta : Qc) b0 b1 (alpha : Qc) sgcw st (A B : Qc) (m ms : mem QcS),
  (i0 <= i1 + 1)%Z -> (j0 <= j1 + 1)%Z -> (0 <= sgcw)%Z -> apart st [b0; b1] ->
  0 <= beta -> 0 < A ->
  (forall i j (v : Qc), (i0 <= i <= i1 + 1)%Z -> (j0 <= j <= j1)%Z ->
    fel (mkFa b0 (FACE2d0 i0 j0 i1 j1 0)) [i; j] m = Some (v : QcS) -> 0 <= v /\ v <= B) ->
  (forall i j (v : Qc), (i0 <= i <= i1)%Z -> (j0 <= j <= j1 + 1)%Z ->
    fel (mkFa b1 (FACE2d1 i0 j0 i1 j1 0)) [j; i] m = Some (v : QcS) -> 0 <= v /\ v <= B) ->
  A <= alpha ->
  (m' <- cd_stencil_2d_offdiag i0 j0 i1 j1 i0 j0 i1 j1 (dx : Z -> QcS) (beta : QcS) b0 b1 sgcw st m ;;
   cd_stencil_2d_v2diag i0 j0 i1 j1 (alpha : QcS) sgcw st m') = Some ms ->
  let K := (1 + 1) * B * (beta / (dx 0%Z * dx 0%Z) + beta / (dx 1%Z * dx 1%Z)) in
  dominant ms (mkFa st ((0, 4)%Z :: CELL2d i0 j0 i1 j1 sgcw)) 5%Z (K / (K + A)) (in_box [(i0, i1); (j0, j1)]) /\
  z_matrix ms (mkFa st ((0, 4)%Z :: CELL2d i0 j0 i1 j1 sgcw)) 5%Z (in_box [(i0, i1); (j0, j1)]))%Qc.
Proof. exact @dominant_v2_2d. Qed.
Print Assumptions C66_assembled_v2_2d.

Theorem C66_assembled_v1_3d : (forall i0 j0 k0 i1 j1 k1 (dx : Z -> Qc) (beta : Qc) b0 b1 b2 (alpha : Qc) agcw a sgcw st (A B : Qc) (m ms : mem QcS),
  (i0 <= i1 + 1)%Z -> (j0 <= j1 + 1)%Z -> (k0 <= k1 + 1)%Z -> (0 <= sgcw)%Z -> apart st [b0; b1; b2; a] ->
  0 <= beta -> 0 < A ->
  (forall i j k (v : Qc), (i0 <= i <= i1 + 1)%Z -> (j0 <= j <= j1)%Z -> (k0 <= k <= k1)%Z ->
    fel (mkFa b0 (FACE3d0 i0 j0 k0 i1 j1 k1 0)) [i; j; k] m = Some (v : QcS) -> 0 <= v /\ v <= B) ->
  (forall i j k (v : Qc), (i0 <= i <= i1)%Z -> (j0 <= j <= j1 + 1)%Z -> (k0 <= k <= k1)%Z ->
    fel (mkFa b1 (FACE3d1 i0 j0 k0 i1 j1 k1 0)) [j; k; i] m = Some (v : QcS) -> 0 <= v /\ v <= B) ->
  (forall i j k (v : Qc), (i0 <= i <= i1)%Z -> (j0 <= j <= j1)%Z -> (k0 <= k <= k1 + 1)%Z ->
    fel (mkFa b2 (FACE3d2 i0 j0 k0 i1 j1 k1 0)) [k; i; j] m = Some (v : QcS) -> 0 <= v /\ v <= B) ->
  (forall i j k (v : Qc), (i0 <= i <= i1)%Z -> (j0 <= j <= j1)%Z -> (k0 <= k <= k1)%Z -> fel (mkFa a (CELL3d i0 j0 k0 i1 j1 k1 agcw)) [i; j; k] m = Some (v : QcS) -> A <= alpha * v) ->
  (m' <- cd_stencil_3d_offdiag i0 j0 k0 i1 j1 k1 i0 j0 k0 i1 j1 k1 (dx : Z -> QcS) (beta : QcS) b0 b1 b2 sgcw st m ;;
   cd_stencil_3d_v1diag i0 j0 k0 i1 j1 k1 (i0 - agcw) (j0 - agcw) (k0 - agcw) (i1 + agcw) (j1 + agcw) (k1 + agcw) (alpha : QcS) a sgcw st m') = Some ms ->
  let K := (1 + 1) * B * (beta / (dx 0%Z * dx 0%Z) + beta / (dx 1%Z * dx 1%Z) + beta / (dx 2%Z * dx 2%Z)) in
  dominant ms (mkFa st ((0, 6)%Z :: CELL3d i0 j0 k0 i1 j1 k1 sgcw)) 7%Z (K / (K + A)) (in_box [(i0, i1); (j0, j1); (k0, k1)]) /\
  z_matrix ms (mkFa st ((0, 6)%Z :: CELL3d i0 j0 k0 i1 j1 k1 sgcw)) 7%Z (in_box [(i0, i1); (j0, j1); (k0, k1)]))%Qc.
Proof. exact @dominant_v1_3d. Qed.
Print Assumptions C66_assembled_v1_3d.

Theorem C66_assembled_v2_3d : (forall i0 j0 k0 i1 j1 k1 (dx : Z -> Qc) (beta : Qc) b0 b1 b2 (alpha : Qc) sgcw st (A B : Qc) (m ms : mem QcS),
  (i0 <= i1 + 1)%Z -> (j0 <= j1 + 1)%Z -> (k0 <= k1 + 1)%Z -> (0 <= sgcw)%Z -> apart st [b0; b1; b2] ->
  0 <= beta -> 0 < A ->
  (forall i j k (v : Qc), (i0 <= i <= i1 + 1)%Z -> (j0 <= j <= j1)%Z -> (k0 <= k <= k1)%Z ->
    fel (mkFa b0 (FACE3d0 i0 j0 k0 i1 j1 k1 0)) [i; j; k] m = Some (v : QcS) -> 0 <= v /\ v <= B) ->
  (forall i j k (v : Qc), (i0 <= i <= i1)%Z -> (j0 <= j <= j1 + 1)%Z -> (k0 <= k <= k1)%Z ->
    fel (mkFa b1 (FACE3d1 i0 j0 k0 i1 j1 k1 0)) [j; k; i] m = Some (v : QcS) -> 0 <= v /\ v <= B) ->
  (forall i j k (v : Qc), (i0 <= i <= i1)%Z -> (j0 <= j <= j1)%Z -> (k0 <= k <= k1 + 1)%Z ->
    fel (mkFa b2 (FACE3d2 i0 j0 k0 i1 j1 k1 0)) [k; i; j] m = Some (v : QcS) -> 0 <= v /\ v <= B) ->
  A <= alpha ->
  (m' <- cd_stencil_3d_offdiag i0 j0 k0 i1 j1 k1 i0 j0 k0 i1 j1 k1 (dx : Z -> QcS) (beta : QcS) b0 b1 b2 sgcw st m ;;
   cd_stencil_3d_v2diag i0 j0 k0 i1 j1 k1 (alpha : QcS) sgcw st m') = Some ms ->
  let K := (1 + 1) * B * (beta / (dx 0%Z * dx 0%Z) + beta / (dx 1%Z * dx 1%Z) + beta / (dx 2%Z * dx 2%Z)) in
  dominant ms (mkFa st ((0, 6)%Z :: CELL3d i0 j0 k0 i1 j1 k1 sgcw)) 7%Z (K / (K + A)) (in_box [(i0, i1); (j0, j1); (k0, k1)]) /\
  z_matrix ms (mkFa st ((0, 6)%Z :: CELL3d i0 j0 k0 i1 j1 k1 sgcw)) 7%Z (in_box [(i0, i1); (j0, j1); (k0, k1)]))%Qc.
Proof. exact @dominant_v2_3d. Qed.
Print Assumptions C66_assembled_v2_3d.

(** The ratio is below 1. *)
Theorem C66_ratio : forall K A : Qc, (0 <= K)%Qc -> (0 < A)%Qc -> (0 <= K / (K + A))%Qc /\ (K / (K + A) < 1)%Qc.
Proof. exact @ratio_below_one. Qed.
Print Assumptions C66_ratio.

(** ** C67: between a subsolution and a supersolution *)

Theorem C67_cellgs1d : forall lo0 hi0 n offset slo0 shi0 st flo0 fhi0 f ulo0 uhi0 u (m : mem QcS),
  fst u <> fst st -> fst u <> fst f -> flo0 = ulo0 ->
  keeps_bounds m
    (cellgs1d lo0 hi0 n offset slo0 shi0 st flo0 fhi0 f ulo0 uhi0 u)
    (mkFa offset [(0, 0); (0, n - 1)]) (mkFa st ((0, n - 1) :: CELL1d slo0 shi0 0)) n
    (mkFa f (CELL1d flo0 fhi0 0)) (mkFa u (CELL1d ulo0 uhi0 0)) [(lo0, hi0)].
Proof. exact @cellgs1d_keeps_bounds. Qed.
Print Assumptions C67_cellgs1d.

Theorem C67_cellgs2d : forall lo0 hi0 lo1 hi1 n offset slo0 shi0 slo1 shi1 st flo0 fhi0 flo1 fhi1 f ulo0 uhi0 ulo1 uhi1 u (m : mem QcS),
  fst u <> fst st -> fst u <> fst f ->
  keeps_bounds m
    (cellgs2d lo0 hi0 lo1 hi1 n offset slo0 shi0 slo1 shi1 st flo0 fhi0 flo1 fhi1 f ulo0 uhi0 ulo1 uhi1 u)
    (mkFa offset [(0, 1); (0, n - 1)]) (mkFa st ((0, n - 1) :: CELL2d slo0 slo1 shi0 shi1 0)) n
    (mkFa f (CELL2d flo0 flo1 fhi0 fhi1 0)) (mkFa u (CELL2d ulo0 ulo1 uhi0 uhi1 0)) [(lo0, hi0); (lo1, hi1)].
Proof. exact @cellgs2d_keeps_bounds. Qed.
Print Assumptions C67_cellgs2d.

Theorem C67_cellgs3d : forall lo0 hi0 lo1 hi1 lo2 hi2 n offset slo0 shi0 slo1 shi1 slo2 shi2 st flo0 fhi0 flo1 fhi1 flo2 fhi2 f ulo0 uhi0 ulo1 uhi1 ulo2 uhi2 u (m : mem QcS),
  fst u <> fst st -> fst u <> fst f ->
  keeps_bounds m
    (cellgs3d lo0 hi0 lo1 hi1 lo2 hi2 n offset slo0 shi0 slo1 shi1 slo2 shi2 st flo0 fhi0 flo1 fhi1 flo2 fhi2 f ulo0 uhi0 ulo1 uhi1 ulo2 uhi2 u)
    (mkFa offset [(0, 2); (0, n - 1)]) (mkFa st ((0, n - 1) :: CELL3d slo0 slo1 slo2 shi0 shi1 shi2 0)) n
    (mkFa f (CELL3d flo0 flo1 flo2 fhi0 fhi1 fhi2 0)) (mkFa u (CELL3d ulo0 ulo1 ulo2 uhi0 uhi1 uhi2 0)) [(lo0, hi0); (lo1, hi1); (lo2, hi2)].
Proof. exact @cellgs3d_keeps_bounds. Qed.
Print Assumptions C67_cellgs3d.

Theorem C67_cellrbgs1d : forall lo0 hi0 c1 c2 n offset slo0 shi0 st flo0 fhi0 f ulo0 uhi0 u (m : mem QcS),
  0 <= c1 -> 0 <= c2 -> fst u <> fst st -> fst u <> fst f ->
  keeps_bounds m
    (twice (cellrbgs1d lo0 hi0 c1 n offset slo0 shi0 st flo0 fhi0 f ulo0 uhi0 u)
       (cellrbgs1d lo0 hi0 c2 n offset slo0 shi0 st flo0 fhi0 f ulo0 uhi0 u))
    (mkFa offset [(0, 0); (0, n - 1)]) (mkFa st ((0, n - 1) :: CELL1d slo0 shi0 0)) n
    (mkFa f (CELL1d flo0 fhi0 0)) (mkFa u (CELL1d ulo0 uhi0 0)) [(lo0, hi0)].
Proof. exact @cellrbgs1d_keeps_bounds. Qed.
Print Assumptions C67_cellrbgs1d.

Theorem C67_cellrbgs2d : forall lo0 hi0 lo1 hi1 c1 c2 n offset slo0 shi0 slo1 shi1 st flo0 fhi0 flo1 fhi1 f ulo0 uhi0 ulo1 uhi1 u (m : mem QcS),
  0 <= lo1 + c1 -> 0 <= lo1 + c2 -> fst u <> fst st -> fst u <> fst f ->
  keeps_bounds m
    (twice (cellrbgs2d lo0 hi0 lo1 hi1 c1 n offset slo0 shi0 slo1 shi1 st flo0 fhi0 flo1 fhi1 f ulo0 uhi0 ulo1 uhi1 u)
       (cellrbgs2d lo0 hi0 lo1 hi1 c2 n offset slo0 shi0 slo1 shi1 st flo0 fhi0 flo1 fhi1 f ulo0 uhi0 ulo1 uhi1 u))
    (mkFa offset [(0, 1); (0, n - 1)]) (mkFa st ((0, n - 1) :: CELL2d slo0 slo1 shi0 shi1 0)) n
    (mkFa f (CELL2d flo0 flo1 fhi0 fhi1 0)) (mkFa u (CELL2d ulo0 ulo1 uhi0 uhi1 0)) [(lo0, hi0); (lo1, hi1)].
Proof. exact @cellrbgs2d_keeps_bounds. Qed.
Print Assumptions C67_cellrbgs2d.

Theorem C67_cellrbgs3d : forall lo0 hi0 lo1 hi1 lo2 hi2 c1 c2 n offset slo0 shi0 slo1 shi1 slo2 shi2 st flo0 fhi0 flo1 fhi1 flo2 fhi2 f ulo0 uhi0 ulo1 uhi1 ulo2 uhi2 u (m : mem QcS),
  0 <= c1 -> 0 <= c2 -> fst u <> fst st -> fst u <> fst f ->
  keeps_bounds m
    (twice (cellrbgs3d lo0 hi0 lo1 hi1 lo2 hi2 c1 n offset slo0 shi0 slo1 shi1 slo2 shi2 st flo0 fhi0 flo1 fhi1 flo2 fhi2 f ulo0 uhi0 ulo1 uhi1 ulo2 uhi2 u)
       (cellrbgs3d lo0 hi0 lo1 hi1 lo2 hi2 c2 n offset slo0 shi0 slo1 shi1 slo2 shi2 st flo0 fhi0 flo1 fhi1 flo2 fhi2 f ulo0 uhi0 ulo1 uhi1 ulo2 uhi2 u))
    (mkFa offset [(0, 2); (0, n - 1)]) (mkFa st ((0, n - 1) :: CELL3d slo0 slo1 slo2 shi0 shi1 shi2 0)) n
    (mkFa f (CELL3d flo0 flo1 flo2 fhi0 fhi1 fhi2 0)) (mkFa u (CELL3d ulo0 ulo1 ulo2 uhi0 uhi1 uhi2 0)) [(lo0, hi0); (lo1, hi1); (lo2, hi2)].
Proof. exact @cellrbgs3d_keeps_bounds. Qed.
Print Assumptions C67_cellrbgs3d.

Theorem C67_cells5rbgs2d : forall lo0 hi0 lo1 hi1 c1 c2 offset slo0 shi0 slo1 shi1 st flo0 fhi0 flo1 fhi1 f ulo0 uhi0 ulo1 uhi1 u (m : mem QcS),
  0 <= lo1 + c1 -> 0 <= lo1 + c2 -> fst u <> fst st -> fst u <> fst f ->
  table_is m (mkFa offset [(0, 1); (0, 4)]) [[0; 0]; [-1; 0]; [1; 0]; [0; -1]; [0; 1]] ->
  keeps_bounds m
    (twice (cells5rbgs2d lo0 hi0 lo1 hi1 c1 slo0 shi0 slo1 shi1 st flo0 fhi0 flo1 fhi1 f ulo0 uhi0 ulo1 uhi1 u)
       (cells5rbgs2d lo0 hi0 lo1 hi1 c2 slo0 shi0 slo1 shi1 st flo0 fhi0 flo1 fhi1 f ulo0 uhi0 ulo1 uhi1 u))
    (mkFa offset [(0, 1); (0, 4)]) (mkFa st ((0, 4) :: CELL2d slo0 slo1 shi0 shi1 0)) 5
    (mkFa f (CELL2d flo0 flo1 fhi0 fhi1 0)) (mkFa u (CELL2d ulo0 ulo1 uhi0 uhi1 0)) [(lo0, hi0); (lo1, hi1)].
Proof. exact @cells5rbgs2d_keeps_bounds. Qed.
Print Assumptions C67_cells5rbgs2d.

Theorem C67_cells9rbgs2d : forall lo0 hi0 lo1 hi1 c1 c2 offset slo0 shi0 slo1 shi1 st flo0 fhi0 flo1 fhi1 f ulo0 uhi0 ulo1 uhi1 u (m : mem QcS),
  0 <= lo1 + c1 -> 0 <= lo1 + c2 -> fst u <> fst st -> fst u <> fst f ->
  table_is m (mkFa offset [(0, 1); (0, 8)]) [[0; 0]; [-1; 0]; [1; 0]; [0; -1]; [0; 1]; [-1; -1]; [1; -1]; [-1; 1]; [1; 1]] ->
  keeps_bounds m
    (twice (cells9rbgs2d lo0 hi0 lo1 hi1 c1 slo0 shi0 slo1 shi1 st flo0 fhi0 flo1 fhi1 f ulo0 uhi0 ulo1 uhi1 u)
       (cells9rbgs2d lo0 hi0 lo1 hi1 c2 slo0 shi0 slo1 shi1 st flo0 fhi0 flo1 fhi1 f ulo0 uhi0 ulo1 uhi1 u))
    (mkFa offset [(0, 1); (0, 8)]) (mkFa st ((0, 8) :: CELL2d slo0 slo1 shi0 shi1 0)) 9
    (mkFa f (CELL2d flo0 flo1 fhi0 fhi1 0)) (mkFa u (CELL2d ulo0 ulo1 uhi0 uhi1 0)) [(lo0, hi0); (lo1, hi1)].
Proof. exact @cells9rbgs2d_keeps_bounds. Qed.
Print Assumptions C67_cells9rbgs2d.

Theorem C67_cells7rbgs3d : forall lo0 hi0 lo1 hi1 lo2 hi2 c1 c2 offset slo0 shi0 slo1 shi1 slo2 shi2 st flo0 fhi0 flo1 fhi1 flo2 fhi2 f ulo0 uhi0 ulo1 uhi1 ulo2 uhi2 u (m : mem QcS),
  0 <= c1 -> 0 <= c2 -> fst u <> fst st -> fst u <> fst f ->
  table_is m (mkFa offset [(0, 2); (0, 6)]) [[0; 0; 0]; [-1; 0; 0]; [1; 0; 0]; [0; -1; 0]; [0; 1; 0]; [0; 0; -1]; [0; 0; 1]] ->
  keeps_bounds m
    (twice (cells7rbgs3d lo0 hi0 lo1 hi1 lo2 hi2 c1 slo0 shi0 slo1 shi1 slo2 shi2 st flo0 fhi0 flo1 fhi1 flo2 fhi2 f ulo0 uhi0 ulo1 uhi1 ulo2 uhi2 u)
       (cells7rbgs3d lo0 hi0 lo1 hi1 lo2 hi2 c2 slo0 shi0 slo1 shi1 slo2 shi2 st flo0 fhi0 flo1 fhi1 flo2 fhi2 f ulo0 uhi0 ulo1 uhi1 ulo2 uhi2 u))
    (mkFa offset [(0, 2); (0, 6)]) (mkFa st ((0, 6) :: CELL3d slo0 slo1 slo2 shi0 shi1 shi2 0)) 7
    (mkFa f (CELL3d flo0 flo1 flo2 fhi0 fhi1 fhi2 0)) (mkFa u (CELL3d ulo0 ulo1 ulo2 uhi0 uhi1 uhi2 0)) [(lo0, hi0); (lo1, hi1); (lo2, hi2)].
Proof. exact @cells7rbgs3d_keeps_bounds. Qed.
Print Assumptions C67_cells7rbgs3d.

Theorem C67_celljacobi1d : forall lo0 hi0 n offset slo0 shi0 st flo0 fhi0 f ulo0 uhi0 u r (m : mem QcS),
  fst u <> fst st -> fst u <> fst f -> fst u <> fst r -> fst r <> fst st -> fst r <> fst f ->
  keeps_bounds m
    (celljacobi1d lo0 hi0 n offset slo0 shi0 st flo0 fhi0 f ulo0 uhi0 u r)
    (mkFa offset [(0, 0); (0, n - 1)]) (mkFa st ((0, n - 1) :: CELL1d slo0 shi0 0)) n
    (mkFa f (CELL1d flo0 fhi0 0)) (mkFa u (CELL1d ulo0 uhi0 0)) [(lo0, hi0)].
Proof. exact @celljacobi1d_keeps_bounds. Qed.
Print Assumptions C67_celljacobi1d.

Theorem C67_celljacobi2d : forall lo0 hi0 lo1 hi1 n offset slo0 shi0 slo1 shi1 st flo0 fhi0 flo1 fhi1 f ulo0 uhi0 ulo1 uhi1 u r (w : Qc) (m : mem QcS),
  fst u <> fst st -> fst u <> fst f -> fst u <> fst r -> fst r <> fst st -> fst r <> fst f -> (0 <= w)%Qc -> (w <= 1)%Qc ->
  keeps_bounds m
    (celljacobi2d lo0 hi0 lo1 hi1 n offset slo0 shi0 slo1 shi1 st flo0 fhi0 flo1 fhi1 f ulo0 uhi0 ulo1 uhi1 u r (w : QcS))
    (mkFa offset [(0, 1); (0, n - 1)]) (mkFa st ((0, n - 1) :: CELL2d slo0 slo1 shi0 shi1 0)) n
    (mkFa f (CELL2d flo0 flo1 fhi0 fhi1 0)) (mkFa u (CELL2d ulo0 ulo1 uhi0 uhi1 0)) [(lo0, hi0); (lo1, hi1)].
Proof. exact @celljacobi2d_keeps_bounds. Qed.
Print Assumptions C67_celljacobi2d.

Theorem C67_celljacobi3d : forall lo0 hi0 lo1 hi1 lo2 hi2 n offset slo0 shi0 slo1 shi1 slo2 shi2 st flo0 fhi0 flo1 fhi1 flo2 fhi2 f ulo0 uhi0 ulo1 uhi1 ulo2 uhi2 u r (w : Qc) (m : mem QcS),
  fst u <> fst st -> fst u <> fst f -> fst u <> fst r -> fst r <> fst st -> fst r <> fst f -> (0 <= w)%Qc -> (w <= 1)%Qc ->
  keeps_bounds m
    (celljacobi3d lo0 hi0 lo1 hi1 lo2 hi2 n offset slo0 shi0 slo1 shi1 slo2 shi2 st flo0 fhi0 flo1 fhi1 flo2 fhi2 f ulo0 uhi0 ulo1 uhi1 ulo2 uhi2 u r (w : QcS))
    (mkFa offset [(0, 2); (0, n - 1)]) (mkFa st ((0, n - 1) :: CELL3d slo0 slo1 slo2 shi0 shi1 shi2 0)) n
    (mkFa f (CELL3d flo0 flo1 flo2 fhi0 fhi1 fhi2 0)) (mkFa u (CELL3d ulo0 ulo1 ulo2 uhi0 uhi1 uhi2 0)) [(lo0, hi0); (lo1, hi1); (lo2, hi2)].
Proof. exact @celljacobi3d_keeps_bounds. Qed.
Print Assumptions C67_celljacobi3d.

(** A constant is a supersolution (subsolution) when every right-hand side is at most (at least)
    the constant times the sum of its row. *)
Theorem C67_constant_above : forall (m : mem QcS) tab st n f (M : Qc) (visited : list Z -> Prop),
  (forall c, visited c -> exists b t : Qc, fel f c m = Some (b : QcS) /\ row_sum m tab st 0 0 (n - 1) c (fun _ => Some (1%Qc : QcS)) (t : QcS) /\ (b <= M * t)%Qc) ->
  supersolution m tab st n f (fun _ => M) visited.
Proof. exact @constant_super. Qed.
Print Assumptions C67_constant_above.

Theorem C67_constant_below : forall (m : mem QcS) tab st n f (M : Qc) (visited : list Z -> Prop),
  (forall c, visited c -> exists b t : Qc, fel f c m = Some (b : QcS) /\ row_sum m tab st 0 0 (n - 1) c (fun _ => Some (1%Qc : QcS)) (t : QcS) /\ (M * t <= b)%Qc) ->
  subsolution m tab st n f (fun _ => M) visited.
Proof. exact @constant_sub. Qed.
Print Assumptions C67_constant_below.

(** ** A case *)

(** The patch 0..1 in every direction with one layer of ghost cells.  All hypotheses of [converges]
    with [x] = 1, [q] = 1/2, [E] = 1 and of [keeps_bounds] with the bounds 0 and 1 hold; the sweeps
    succeed, and three of them change the values but do not reach the solution. *)
Definition moves (s : mem QcS -> option (mem QcS)) (m : mem QcS) : bool :=
  match repeated 3 s m with
  | Some m1 => negb (forallb (fun q => Qeq_bool (fst q) (snd q)) (combine (map this (nth 2 (cells m1) [])) (map this (nth 2 (cells m) [])))) &&
      negb (forallb (fun q => Qeq_bool (this q) 1) (nth 2 (cells m1) []))
  | None => false
  end.

Example C66_C67_case_1d :
  dsys_ok (dsys cols1 inner1) (mkFa (p 0) [(0, 0); (0, 3 - 1)]) (mkFa (p 0) ((0, 3 - 1) :: CELL1d 0 1 0)) 3
    (mkFa (p 1) (CELL1d (-1) 2 0)) (mkFa (p 2) (CELL1d (-1) 2 0)) [(0, 1)] /\
  moves (cellgs1d 0 1 3 (p 0) 0 1 (p 0) (-1) 2 (p 1) (-1) 2 (p 2)) (dsys cols1 inner1) = true /\
  moves (twice (cellrbgs1d 0 1 0 3 (p 0) 0 1 (p 0) (-1) 2 (p 1) (-1) 2 (p 2)) (cellrbgs1d 0 1 1 3 (p 0) 0 1 (p 0) (-1) 2 (p 1) (-1) 2 (p 2))) (dsys cols1 inner1) = true /\
  moves (celljacobi1d 0 1 3 (p 0) 0 1 (p 0) (-1) 2 (p 1) (-1) 2 (p 2) (p 3)) (dsys cols1 inner1) = true.
Proof. split; [exact dsys1_ok|]. repeat split; vm_compute; reflexivity. Qed.

Example C66_C67_case_2d :
  dsys_ok (dsys cols2 inner2) (mkFa (p 0) [(0, 1); (0, 5 - 1)]) (mkFa (p 0) ((0, 5 - 1) :: CELL2d 0 0 1 1 0)) 5
    (mkFa (p 1) (CELL2d 0 0 1 1 0)) (mkFa (p 2) (CELL2d (-1) (-1) 2 2 0)) [(0, 1); (0, 1)] /\
  moves (cellgs2d 0 1 0 1 5 (p 0) 0 1 0 1 (p 0) 0 1 0 1 (p 1) (-1) 2 (-1) 2 (p 2)) (dsys cols2 inner2) = true /\
  moves (twice (cellrbgs2d 0 1 0 1 0 5 (p 0) 0 1 0 1 (p 0) 0 1 0 1 (p 1) (-1) 2 (-1) 2 (p 2))
               (cellrbgs2d 0 1 0 1 1 5 (p 0) 0 1 0 1 (p 0) 0 1 0 1 (p 1) (-1) 2 (-1) 2 (p 2))) (dsys cols2 inner2) = true /\
  moves (twice (cells5rbgs2d 0 1 0 1 0 0 1 0 1 (p 0) 0 1 0 1 (p 1) (-1) 2 (-1) 2 (p 2))
               (cells5rbgs2d 0 1 0 1 1 0 1 0 1 (p 0) 0 1 0 1 (p 1) (-1) 2 (-1) 2 (p 2))) (dsys cols2 inner2) = true /\
  moves (celljacobi2d 0 1 0 1 5 (p 0) 0 1 0 1 (p 0) 0 1 0 1 (p 1) (-1) 2 (-1) 2 (p 2) (p 3) (Q2Qc (Qmake 4 5) : QcS)) (dsys cols2 inner2) = true.
Proof. split; [exact dsys2_ok|]. repeat split; vm_compute; reflexivity. Qed.

Example C66_C67_case_3d :
  dsys_ok (dsys cols3 inner3) (mkFa (p 0) [(0, 2); (0, 7 - 1)]) (mkFa (p 0) ((0, 7 - 1) :: CELL3d 0 0 0 1 1 1 0)) 7
    (mkFa (p 1) (CELL3d 0 0 0 1 1 1 0)) (mkFa (p 2) (CELL3d (-1) (-1) (-1) 2 2 2 0)) [(0, 1); (0, 1); (0, 1)] /\
  moves (cellgs3d 0 1 0 1 0 1 7 (p 0) 0 1 0 1 0 1 (p 0) 0 1 0 1 0 1 (p 1) (-1) 2 (-1) 2 (-1) 2 (p 2)) (dsys cols3 inner3) = true /\
  moves (twice (cells7rbgs3d 0 1 0 1 0 1 0 0 1 0 1 0 1 (p 0) 0 1 0 1 0 1 (p 1) (-1) 2 (-1) 2 (-1) 2 (p 2))
               (cells7rbgs3d 0 1 0 1 0 1 1 0 1 0 1 0 1 (p 0) 0 1 0 1 0 1 (p 1) (-1) 2 (-1) 2 (-1) 2 (p 2))) (dsys cols3 inner3) = true /\
  moves (celljacobi3d 0 1 0 1 0 1 7 (p 0) 0 1 0 1 0 1 (p 0) 0 1 0 1 0 1 (p 1) (-1) 2 (-1) 2 (-1) 2 (p 2) (p 3) (Q2Qc (Qmake 4 5) : QcS)) (dsys cols3 inner3) = true.
Proof. split; [exact dsys3_ok|]. repeat split; vm_compute; reflexivity. Qed.

(** A matrix the kernels assemble, with coefficients that vary: [b] = 1, 2, 3, ..., [a] = 1, [alpha] = 2,
    [beta] = 1, [h] = 1/2.  The bounds of [C66_assembled_v1_1d] hold with [B] = 3 and [A] = 2. *)
Definition asm_mem : mem QcS := mkMem [repeat (lit 0 : QcS) 6; map (fun i => lit (Z.of_nat i) : QcS) [1; 2; 3]%nat; repeat (lit 1 : QcS) 2] [].
Definition asm (m : mem QcS) : option (mem QcS) :=
  m' <- cd_stencil_1d_offdiag 0 1 0 1 (fun _ => Q2Qc (Qmake 1 2) : QcS) (1%Qc : QcS) (p 1) 0 (p 0) m ;;
  cd_stencil_1d_v1diag 0 1 (0 - 0) (1 + 0) (lit 2 : QcS) (p 2) 0 (p 0) m'.

Example C66_assembled_case :
  (forall i (v : Qc), 0 <= i <= 1 + 1 -> fel (mkFa (p 1) (FACE1d 0 1 0)) [i] asm_mem = Some (v : QcS) -> (0 <= v)%Qc /\ (v <= Q2Qc (inject_Z 3))%Qc) /\
  (forall i (v : Qc), 0 <= i <= 1 -> fel (mkFa (p 2) (CELL1d 0 1 0)) [i] asm_mem = Some (v : QcS) -> (Q2Qc (inject_Z 2) <= (lit 2 : QcS) * v)%Qc) /\
  match asm asm_mem with Some m => map this (nth 0 (cells m) []) = [Qmake 14 1; Qmake (-4) 1; Qmake (-8) 1; Qmake 22 1; Qmake (-8) 1; Qmake (-12) 1] | None => False end.
Proof.
  split; [|split; [|vm_compute; reflexivity]].
  - intros i v Hi E. assert (D : i = 0 \/ i = 1 \/ i = 2) by lia. destruct D as [->|[->| ->]]; vm_compute in E; injection E as <-; split; vm_compute; discriminate.
  - intros i v Hi E. assert (D : i = 0 \/ i = 1) by lia. destruct D as [->| ->]; vm_compute in E; injection E as <-; vm_compute; discriminate.
Qed.
