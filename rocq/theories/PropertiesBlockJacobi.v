(** * Property C58: block Jacobi with a dense solver *)

From Coq Require Import Qcanon.
From Verif Require Import Base FortranBase FortranBlock Instances SpecSmooth SpecBlock SpecBlockJacobi LemNodeRefute LemBlockCase LemBlockJacobi LemBlockJacobi2 LemBlockJacobiCase.
Import ListNotations.
Open Scope Z_scope.

(** [solver_correct], [starts], [block_at], [regular_block] and [block_relaxed] are in
    SpecBlockJacobi, [columns_distinct] and [leads_out] in SpecBlock.  The blocks begin
    every [bx], [by_], [bz] cells from the first to the last displacement of each
    direction; they lie in the patch and in [u]; the rows of each block, restricted to
    it, are regular; the local arrays do not overlap each other or the arguments. *)
Theorem C58_cellblockjacobi3d : forall (S : Scalar) (L : field_laws S) (la : lapack S) lo0 hi0 lo1 hi1 lo2 hi2 n offset st flo0 fhi0 flo1 fhi1 flo2 fhi2 f ulo0 uhi0 ulo1 uhi1 ulo2 uhi2 u
    dispX numX bx dispY numY by_ dispZ numZ bz r A br x bst (w : S) dx0 dx1 dy0 dy1 dz0 dz1 (m m' : mem S),
  let tab := mkFa offset [(0, 2); (0, n - 1)] in
  let ST := mkFa st ((0, n - 1) :: CELL3d lo0 lo1 lo2 hi0 hi1 hi2 0) in
  let U := mkFa u (CELL3d ulo0 ulo1 ulo2 uhi0 uhi1 uhi2 0) in
  let first := fun c0 => exists i j k, c0 = [i; j; k] /\ starts (lo0 + dx0) (lo0 + dx1) bx i /\ starts (lo1 + dy0) (lo1 + dy1) by_ j /\ starts (lo2 + dz0) (lo2 + dz1) bz k in
  1 <= n -> 1 <= bx -> 1 <= by_ -> 1 <= bz ->
  NoDup [fst A; fst br; fst x; fst bst; fst u; fst r] ->
  ~ In (fst st) [fst A; fst br; fst x; fst bst; fst u; fst r] -> ~ In (fst f) [fst A; fst br; fst x; fst bst; fst u; fst r] ->
  loadi m (faddr (mkFa dispX [(0, numX - 1)]) [0]) = Some dx0 -> loadi m (faddr (mkFa dispX [(0, numX - 1)]) [numX - 1]) = Some dx1 ->
  loadi m (faddr (mkFa dispY [(0, numY - 1)]) [0]) = Some dy0 -> loadi m (faddr (mkFa dispY [(0, numY - 1)]) [numY - 1]) = Some dy1 ->
  loadi m (faddr (mkFa dispZ [(0, numZ - 1)]) [0]) = Some dz0 -> loadi m (faddr (mkFa dispZ [(0, numZ - 1)]) [numZ - 1]) = Some dz1 ->
  columns_distinct m tab n [(0, bx - 1); (0, by_ - 1); (0, bz - 1)] ->
  leads_out m tab n [(0, bx - 1); (0, by_ - 1); (0, bz - 1)] ->
  (forall c0 c, first c0 -> in_box (block_at c0 [bx; by_; bz]) c -> in_box [(lo0, hi0); (lo1, hi1); (lo2, hi2)] c /\ in_box (fa_dims U) c) ->
  solver_correct la (bx * by_ * bz) ->
  (forall c0, first c0 -> regular_block m tab ST n (block_at c0 [bx; by_; bz])) ->
  cellblockjacobi3d la lo0 hi0 lo1 hi1 lo2 hi2 n offset st flo0 fhi0 flo1 fhi1 flo2 fhi2 f ulo0 uhi0 ulo1 uhi1 ulo2 uhi2 u
    dispX numX bx dispY numY by_ dispZ numZ bz r A br x bst w m = Some m' ->
  block_relaxed m m' tab ST n w (mkFa f (CELL3d flo0 flo1 flo2 fhi0 fhi1 fhi2 0)) U [fst r; fst A; fst br; fst x; fst bst] first [bx; by_; bz].
Proof. exact @cellblockjacobi3d_relaxed. Qed.
Print Assumptions C58_cellblockjacobi3d.

(** When the table ends after its [n] columns, as declared, the subroutine reads behind
    it as soon as there is a block. *)
Theorem C58_cellblockjacobi3d_refuted : forall (S : Scalar) (la : lapack S) lo0 hi0 lo1 hi1 lo2 hi2 n offset st flo0 fhi0 flo1 fhi1 flo2 fhi2 f ulo0 uhi0 ulo1 uhi1 ulo2 uhi2 u
    dispX numX bx dispY numY by_ dispZ numZ bz r A br x bst (w : S) dx0 dx1 dy0 dy1 dz0 dz1 (m : mem S) tab,
  nth_error (ints m) (fst offset) = Some tab -> Z.of_nat (length tab) = snd offset + 3 * n ->
  1 <= n -> 1 <= bx -> 1 <= by_ -> 1 <= bz ->
  loadi m (faddr (mkFa dispX [(0, numX - 1)]) [0]) = Some dx0 -> loadi m (faddr (mkFa dispX [(0, numX - 1)]) [numX - 1]) = Some dx1 ->
  loadi m (faddr (mkFa dispY [(0, numY - 1)]) [0]) = Some dy0 -> loadi m (faddr (mkFa dispY [(0, numY - 1)]) [numY - 1]) = Some dy1 ->
  loadi m (faddr (mkFa dispZ [(0, numZ - 1)]) [0]) = Some dz0 -> loadi m (faddr (mkFa dispZ [(0, numZ - 1)]) [numZ - 1]) = Some dz1 ->
  dx0 <= dx1 -> dy0 <= dy1 -> dz0 <= dz1 ->
  cellblockjacobi3d la lo0 hi0 lo1 hi1 lo2 hi2 n offset st flo0 fhi0 flo1 fhi1 flo2 fhi2 f ulo0 uhi0 ulo1 uhi1 ulo2 uhi2 u
    dispX numX bx dispY numY by_ dispZ numZ bz r A br x bst w m = None.
Proof. exact @cellblockjacobi3d_none. Qed.
Print Assumptions C58_cellblockjacobi3d_refuted.

(** ** Cases *)

(** Four cells in a line, two blocks of two, the stencil 4, -1, -1, Cramer's rule: all
    hypotheses hold, the call succeeds and changes the unknowns of both blocks. *)
Example C58_case :
  field_laws QcS /\ solver_correct cramer2 (2 * 1 * 1) /\
  columns_distinct line_mem line_tab 3 [(0, 2 - 1); (0, 1 - 1); (0, 1 - 1)] /\
  leads_out line_mem line_tab 3 [(0, 2 - 1); (0, 1 - 1); (0, 1 - 1)] /\
  (forall c0 c, line_first c0 -> in_box (block_at c0 [2; 1; 1]) c -> in_box [(0, 3); (0, 0); (0, 0)] c /\ in_box (CELL3d (-1) 0 0 4 0 0 0) c) /\
  (forall c0, line_first c0 -> regular_block line_mem line_tab line_st 3 (block_at c0 [2; 1; 1])) /\
  line_first [0; 0; 0] /\ line_first [2; 0; 0] /\
  loadi line_mem (faddr (mkFa (p 1) [(0, 2 - 1)]) [0]) = Some 0 /\ loadi line_mem (faddr (mkFa (p 1) [(0, 2 - 1)]) [2 - 1]) = Some 2 /\
  loadi line_mem (faddr (mkFa (p 2) [(0, 1 - 1)]) [0]) = Some 0 /\ loadi line_mem (faddr (mkFa (p 3) [(0, 1 - 1)]) [1 - 1]) = Some 0 /\
  moved_at line_call 2 1 line_mem = true /\ moved_at line_call 2 2 line_mem = true /\ moved_at line_call 2 3 line_mem = true /\ moved_at line_call 2 4 line_mem = true.
Proof.
  split; [exact QcS_laws|]. split; [exact cramer2_correct|]. split; [|split; [|split; [exact line_inside|split; [exact line_regular|]]]].
  - apply (table_columns _ _ cols_line _ _ line_table); [|repeat constructor|reflexivity|vm_compute; discriminate].
    repeat constructor; cbn; intuition discriminate.
  - apply (table_leads_out _ _ cols_line 3 _ [9; 0; 0] line_table); [reflexivity|lia|reflexivity|]. exists 0%nat. cbn. lia.
  - split; [exists 0, 0, 0; split; [reflexivity|]; repeat split; exists 0; lia|].
    split; [exists 2, 0, 0; split; [reflexivity|]; split; [exists 1; lia|]; split; exists 0; lia|].
    repeat split; vm_compute; reflexivity.
Qed.
