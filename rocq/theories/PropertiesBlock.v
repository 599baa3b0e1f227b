(** * Property C56: block relaxation *)

From Coq Require Import Qcanon.
From Verif Require Import Base FortranBase FortranSmooth Instances SpecSmooth SpecBlock LemNodeRefute LemBlock LemMatrixBlock LemSmoothFinal LemSmoothRefute LemBlockCase.
Import ListNotations.
Open Scope Z_scope.

(** [corrected1], [corrected2] and [matrix_made] are in SpecBlock.  [f] holds the
    residual; the change of the unknowns solves the system of the cell for the
    weighted residual. *)

Theorem C56_cellblock1x1jacobi1d : forall (S : Scalar) (L : field_laws S) lo0 hi0 st fgcw f ugcw u (m m' : mem S),
  0 <= ugcw -> fst u <> fst st -> fst u <> fst f ->
  cellblock1x1jacobi1d lo0 hi0 st fgcw f ugcw u m = Some m' ->
  corrected1 m m' (mkFa st (CELL1d lo0 hi0 0)) (lit 2 / lit 3)%T (mkFa f (CELL1d lo0 hi0 fgcw)) (mkFa u (CELL1d lo0 hi0 ugcw)) [(lo0, hi0)].
Proof. exact @cellblock1x1jacobi1d_corrected. Qed.
Print Assumptions C56_cellblock1x1jacobi1d.

Theorem C56_cellblock1x1jacobi2d : forall (S : Scalar) (L : field_laws S) lo0 hi0 lo1 hi1 st fgcw f ugcw u (w : S) (m m' : mem S),
  0 <= ugcw -> fst u <> fst st -> fst u <> fst f ->
  cellblock1x1jacobi2d lo0 hi0 lo1 hi1 st fgcw f ugcw u w m = Some m' ->
  corrected1 m m' (mkFa st (CELL2d lo0 lo1 hi0 hi1 0)) w (mkFa f (CELL2d lo0 lo1 hi0 hi1 fgcw)) (mkFa u (CELL2d lo0 lo1 hi0 hi1 ugcw)) [(lo0, hi0); (lo1, hi1)].
Proof. exact @cellblock1x1jacobi2d_corrected. Qed.
Print Assumptions C56_cellblock1x1jacobi2d.

Theorem C56_cellblock2x2jacobi1d : forall (S : Scalar) (L : field_laws S) lo0 hi0 a fgcw f0 f1 ugcw u0 u1 (m m' : mem S),
  0 <= ugcw -> fst u0 <> fst u1 -> (forall k, k = fst u0 \/ k = fst u1 -> k <> fst a /\ k <> fst f0 /\ k <> fst f1) ->
  cellblock2x2jacobi1d lo0 hi0 a fgcw f0 f1 ugcw u0 u1 m = Some m' ->
  corrected2 m m' (mkFa a ((0, 3) :: CELL1d lo0 hi0 0)) (lit 2 / lit 3)%T (mkFa f0 (CELL1d lo0 hi0 fgcw)) (mkFa f1 (CELL1d lo0 hi0 fgcw))
    (mkFa u0 (CELL1d lo0 hi0 ugcw)) (mkFa u1 (CELL1d lo0 hi0 ugcw)) [(lo0, hi0)].
Proof. exact @cellblock2x2jacobi1d_corrected. Qed.
Print Assumptions C56_cellblock2x2jacobi1d.

Theorem C56_cellblock2x2jacobi2d : forall (S : Scalar) (L : field_laws S) lo0 hi0 lo1 hi1 a fgcw f0 f1 ugcw u0 u1 (w : S) (m m' : mem S),
  0 <= ugcw -> fst u0 <> fst u1 -> (forall k, k = fst u0 \/ k = fst u1 -> k <> fst a /\ k <> fst f0 /\ k <> fst f1) ->
  cellblock2x2jacobi2d lo0 hi0 lo1 hi1 a fgcw f0 f1 ugcw u0 u1 w m = Some m' ->
  corrected2 m m' (mkFa a ((0, 3) :: CELL2d lo0 lo1 hi0 hi1 0)) w (mkFa f0 (CELL2d lo0 lo1 hi0 hi1 fgcw)) (mkFa f1 (CELL2d lo0 lo1 hi0 hi1 fgcw))
    (mkFa u0 (CELL2d lo0 lo1 hi0 hi1 ugcw)) (mkFa u1 (CELL2d lo0 lo1 hi0 hi1 ugcw)) [(lo0, hi0); (lo1, hi1)].
Proof. exact @cellblock2x2jacobi2d_corrected. Qed.
Print Assumptions C56_cellblock2x2jacobi2d.

(** ** The dense matrix of a block *)

(** The loop over the columns goes one too far; the theorem asks that the column after
    the last leads out of the block. *)
Theorem C56_creatematrix : forall (S : Scalar) A n st offset bx by_ bz (m m' : mem S),
  fst A <> fst st -> 1 <= n ->
  columns_distinct m (mkFa offset [(0, 2); (0, n - 1)]) n [(0, bx - 1); (0, by_ - 1); (0, bz - 1)] ->
  leads_out m (mkFa offset [(0, 2); (0, n - 1)]) n [(0, bx - 1); (0, by_ - 1); (0, bz - 1)] ->
  creatematrix A n st offset bx by_ bz m = Some m' ->
  matrix_made m m' (mkFa offset [(0, 2); (0, n - 1)]) (mkFa st [(0, n - 1); (0, bx - 1); (0, by_ - 1); (0, bz - 1)]) n
    (mkFa A [(0, bx * by_ * bz - 1); (0, bx * by_ * bz - 1)]) bx by_ [(0, bx - 1); (0, by_ - 1); (0, bz - 1)].
Proof. exact @creatematrix_made. Qed.
Print Assumptions C56_creatematrix.

(** When the table ends after its [n] columns, as declared, the subroutine reads
    behind it, for every block. *)
Theorem C56_creatematrix_refuted : forall (S : Scalar) A n st offset bx by_ bz (m : mem S) tab,
  nth_error (ints m) (fst offset) = Some tab -> Z.of_nat (length tab) = snd offset + 3 * n ->
  1 <= n -> 1 <= bx -> 1 <= by_ -> 1 <= bz ->
  creatematrix A n st offset bx by_ bz m = None.
Proof. exact @creatematrix_none. Qed.
Print Assumptions C56_creatematrix_refuted.

(** ** Cases *)

(** Three cells (two by two in the plane), unequal data, matrices of determinant -2:
    the calls succeed and change the unknowns. *)
Example C56_case_cells : field_laws QcS /\
  moved_at (cellblock1x1jacobi1d 0 2 (p 0) 0 (p 1) 1 (p 2)) 2 2 block_mem = true /\
  moved_at (cellblock1x1jacobi2d 0 1 0 1 (p 0) 0 (p 1) 1 (p 2) (lit 4 / lit 5 : QcS)%T) 2 6 block_mem = true /\
  moved_at (cellblock2x2jacobi1d 0 2 (p 0) 0 (p 1) (p 2) 1 (p 3) (p 4)) 3 2 block_mem = true /\
  moved_at (cellblock2x2jacobi1d 0 2 (p 0) 0 (p 1) (p 2) 1 (p 3) (p 4)) 4 2 block_mem = true /\
  moved_at (cellblock2x2jacobi2d 0 1 0 1 (p 0) 0 (p 1) (p 2) 1 (p 3) (p 4) (lit 4 / lit 5 : QcS)%T) 3 6 block_mem = true /\
  moved_at (cellblock2x2jacobi2d 0 1 0 1 (p 0) 0 (p 1) (p 2) 1 (p 3) (p 4) (lit 4 / lit 5 : QcS)%T) 4 6 block_mem = true.
Proof. split; [exact QcS_laws|]. repeat split; vm_compute; reflexivity. Qed.

(** The seven entry table with a far column behind it, blocks of two by two by one: the
    hypotheses hold, the call succeeds and the diagonal and a neighbour are set. *)
Example C56_case_matrix :
  columns_distinct (sys cols_far (lit 0) rampc) (mkFa (p 0) [(0, 2); (0, 7 - 1)]) 7 [(0, 2 - 1); (0, 2 - 1); (0, 1 - 1)] /\
  leads_out (sys cols_far (lit 0) rampc) (mkFa (p 0) [(0, 2); (0, 7 - 1)]) 7 [(0, 2 - 1); (0, 2 - 1); (0, 1 - 1)] /\
  moved_at (creatematrix (p 1) 7 (p 0) (p 0) 2 2 1) 1 0 (sys cols_far (lit 0) rampc) = true /\
  moved_at (creatematrix (p 1) 7 (p 0) (p 0) 2 2 1) 1 4 (sys cols_far (lit 0) rampc) = true /\
  eqQ (match creatematrix (p 1) 7 (p 0) (p 0) 2 2 1 (sys cols_far (lit 0) rampc) with Some m' => load m' (1%nat, 12) | None => None end) (Some (lit 0)) = true.
Proof.
  split; [|split; [|repeat split; vm_compute; reflexivity]].
  - apply (table_columns _ _ cols_far _ _ far_table); [|repeat constructor|reflexivity|vm_compute; discriminate].
    repeat constructor; cbn; intuition discriminate.
  - apply (table_leads_out _ _ cols_far 7 _ [9; 0; 0] far_table); [reflexivity|lia|reflexivity|]. exists 0%nat. cbn. lia.
Qed.
