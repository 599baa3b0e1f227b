(** * Property C54: applying an assembled stencil *)

From Verif Require Import Base FortranBase FortranSmooth KernelsDot Instances SpecNode SpecSmooth LemDot LemApplySt LemNodeRefute LemDotRefute.
Import ListNotations.
Open Scope Z_scope.

(** [st.dot(u.offset(o))] multiplies, for every entry [s] of a stencil, the entry
    [st(s,c)] with the value of [u] at the cell [c] displaced by column [s] of the
    integer table [o].  [applied] and [multiplied] (SpecSmooth) state the result.
    The Fortran subroutines applystencil* do the same with loops. *)

(** The subroutine returns and has changed the memory ([dot_mem], LemDotRefute: arrays of
    unequal entries and the tables of five-entry stencils). *)
Definition dot_acts (s : mem ZS -> option (mem ZS)) : bool :=
  match s dot_mem with Some m' => if list_eq_dec (list_eq_dec Z.eq_dec) (cells dot_mem) (cells m') then false else true | None => false end.

(** ** The library's dot product *)

Theorem C54_dot_offset_1d_value : forall (S : Scalar) (L : field_laws S) st u ugcw v vgcw offsets lo0 hi0 w1 (m m' : mem S),
  lo0 <= hi0 + 1 -> fst v <> fst st -> fst v <> fst u -> 0 <= vgcw ->
  dot_offset_1d st 0 u ugcw v vgcw offsets lo0 hi0 w1 m = Some m' ->
  multiplied m m' (mkFa offsets [(1, 1); (1, w1)]) (mkFa st ((1, w1) :: CELL1d lo0 hi0 0)) w1
    (mkFa u (CELL1d lo0 hi0 ugcw)) (mkFa v (CELL1d lo0 hi0 vgcw)) [(lo0, hi0)].
Proof. exact @dot_offset_1d_value. Qed.
Print Assumptions C54_dot_offset_1d_value.
Example C54_dot_offset_1d_value_example :
  dot_acts (dot_offset_1d (p 0) 0 (p 1) 1 (p 2) 1 (p 0) 0 3 5) = true.
Proof. vm_compute. reflexivity. Qed.

Theorem C54_dot_offset_2d_value : forall (S : Scalar) (L : field_laws S) st u ugcw v vgcw offsets lo0 hi0 lo1 hi1 w1 (m m' : mem S),
  lo0 <= hi0 + 1 -> lo1 <= hi1 + 1 -> fst v <> fst st -> fst v <> fst u -> 0 <= vgcw ->
  dot_offset_2d st 0 u ugcw v vgcw offsets lo0 hi0 lo1 hi1 w1 m = Some m' ->
  multiplied m m' (mkFa offsets [(1, 2); (1, w1)]) (mkFa st ((1, w1) :: CELL2d lo0 lo1 hi0 hi1 0)) w1
    (mkFa u (CELL2d lo0 lo1 hi0 hi1 ugcw)) (mkFa v (CELL2d lo0 lo1 hi0 hi1 vgcw)) [(lo0, hi0); (lo1, hi1)].
Proof. exact @dot_offset_2d_value. Qed.
Print Assumptions C54_dot_offset_2d_value.
Example C54_dot_offset_2d_value_example :
  dot_acts (dot_offset_2d (p 0) 0 (p 1) 1 (p 2) 1 (p 1) 0 3 1 3 5) = true.
Proof. vm_compute. reflexivity. Qed.

Theorem C54_dot_offset_3d_value : forall (S : Scalar) (L : field_laws S) st u ugcw v vgcw offsets lo0 hi0 lo1 hi1 lo2 hi2 w1 (m m' : mem S),
  lo0 <= hi0 + 1 -> lo1 <= hi1 + 1 -> lo2 <= hi2 + 1 -> fst v <> fst st -> fst v <> fst u -> 0 <= vgcw ->
  dot_offset_3d st 0 u ugcw v vgcw offsets lo0 hi0 lo1 hi1 lo2 hi2 w1 m = Some m' ->
  multiplied m m' (mkFa offsets [(1, 3); (1, w1)]) (mkFa st ((1, w1) :: CELL3d lo0 lo1 lo2 hi0 hi1 hi2 0)) w1
    (mkFa u (CELL3d lo0 lo1 lo2 hi0 hi1 hi2 ugcw)) (mkFa v (CELL3d lo0 lo1 lo2 hi0 hi1 hi2 vgcw)) [(lo0, hi0); (lo1, hi1); (lo2, hi2)].
Proof. exact @dot_offset_3d_value. Qed.
Print Assumptions C54_dot_offset_3d_value.
Example C54_dot_offset_3d_value_example :
  dot_acts (dot_offset_3d (p 0) 0 (p 1) 1 (p 2) 1 (p 2) 0 2 1 3 0 1 5) = true.
Proof. vm_compute. reflexivity. Qed.

(** ** The Fortran subroutines *)

(** At one cell. *)
Theorem C54_applystencilatpoint1d_value : forall (S : Scalar) (L : field_laws S) lo0 hi0 i n offsets st (a b : S) fgcw f ugcw u rgcw r (m m' : mem S),
  fst r <> fst st -> fst r <> fst u -> fst r <> fst f \/ (r = f /\ rgcw = fgcw) ->
  lo0 - rgcw <= i <= hi0 + rgcw ->
  applystencilatpoint1d lo0 hi0 i n offsets st a b fgcw f ugcw u rgcw r m = Some m' ->
  applied m m' (mkFa offsets [(1, 1); (1, n)]) (mkFa st ((1, n) :: CELL1d lo0 hi0 0)) n a b
    (mkFa f (CELL1d lo0 hi0 fgcw)) (mkFa u (CELL1d lo0 hi0 ugcw)) (mkFa r (CELL1d lo0 hi0 rgcw)) [(i, i)].
Proof. exact @applystencilatpoint1d_value. Qed.
Print Assumptions C54_applystencilatpoint1d_value.
Example C54_applystencilatpoint1d_value_example :
  dot_acts (applystencilatpoint1d 0 3 2 5 (p 0) (p 0) (2 : ZS) (3 : ZS) 1 (p 2) 1 (p 1) 1 (p 2)) = true.
Proof. vm_compute. reflexivity. Qed.

Theorem C54_applystencilatpoint2d_value : forall (S : Scalar) (L : field_laws S) lo0 hi0 lo1 hi1 i j n offsets st (a b : S) fgcw f ugcw u rgcw r (m m' : mem S),
  fst r <> fst st -> fst r <> fst u -> fst r <> fst f \/ (r = f /\ rgcw = fgcw) ->
  lo0 - rgcw <= i <= hi0 + rgcw -> lo1 - rgcw <= j <= hi1 + rgcw ->
  applystencilatpoint2d lo0 hi0 lo1 hi1 i j n offsets st a b fgcw f ugcw u rgcw r m = Some m' ->
  applied m m' (mkFa offsets [(1, 2); (1, n)]) (mkFa st ((1, n) :: CELL2d lo0 lo1 hi0 hi1 0)) n a b
    (mkFa f (CELL2d lo0 lo1 hi0 hi1 fgcw)) (mkFa u (CELL2d lo0 lo1 hi0 hi1 ugcw)) (mkFa r (CELL2d lo0 lo1 hi0 hi1 rgcw)) [(i, i); (j, j)].
Proof. exact @applystencilatpoint2d_value. Qed.
Print Assumptions C54_applystencilatpoint2d_value.
Example C54_applystencilatpoint2d_value_example :
  dot_acts (applystencilatpoint2d 0 3 1 3 2 3 5 (p 1) (p 0) (2 : ZS) (3 : ZS) 1 (p 2) 1 (p 1) 1 (p 2)) = true.
Proof. vm_compute. reflexivity. Qed.

Theorem C54_applystencilatpoint3d_value : forall (S : Scalar) (L : field_laws S) lo0 hi0 lo1 hi1 lo2 hi2 i j k n offsets st (a b : S) fgcw f ugcw u rgcw r (m m' : mem S),
  fst r <> fst st -> fst r <> fst u -> fst r <> fst f \/ (r = f /\ rgcw = fgcw) ->
  lo0 - rgcw <= i <= hi0 + rgcw -> lo1 - rgcw <= j <= hi1 + rgcw -> lo2 - rgcw <= k <= hi2 + rgcw ->
  applystencilatpoint3d lo0 hi0 lo1 hi1 lo2 hi2 i j k n offsets st a b fgcw f ugcw u rgcw r m = Some m' ->
  applied m m' (mkFa offsets [(1, 3); (1, n)]) (mkFa st ((1, n) :: CELL3d lo0 lo1 lo2 hi0 hi1 hi2 0)) n a b
    (mkFa f (CELL3d lo0 lo1 lo2 hi0 hi1 hi2 fgcw)) (mkFa u (CELL3d lo0 lo1 lo2 hi0 hi1 hi2 ugcw)) (mkFa r (CELL3d lo0 lo1 lo2 hi0 hi1 hi2 rgcw)) [(i, i); (j, j); (k, k)].
Proof. exact @applystencilatpoint3d_value. Qed.
Print Assumptions C54_applystencilatpoint3d_value.
Example C54_applystencilatpoint3d_value_example :
  dot_acts (applystencilatpoint3d 0 2 1 3 0 1 1 2 0 5 (p 2) (p 0) (2 : ZS) (3 : ZS) 1 (p 2) 1 (p 1) 1 (p 2)) = true.
Proof. vm_compute. reflexivity. Qed.

(** On a patch. *)
Theorem C54_applystencilonpatch1d_value : forall (S : Scalar) (L : field_laws S) lo0 hi0 n offsets st (a b : S) fgcw f ugcw u rgcw r (m m' : mem S),
  fst r <> fst st -> fst r <> fst u -> fst r <> fst f \/ (r = f /\ rgcw = fgcw) -> 0 <= rgcw ->
  applystencilonpatch1d lo0 hi0 n offsets st a b fgcw f ugcw u rgcw r m = Some m' ->
  applied m m' (mkFa offsets [(1, 1); (1, n)]) (mkFa st ((1, n) :: CELL1d lo0 hi0 0)) n a b
    (mkFa f (CELL1d lo0 hi0 fgcw)) (mkFa u (CELL1d lo0 hi0 ugcw)) (mkFa r (CELL1d lo0 hi0 rgcw)) [(lo0, hi0)].
Proof. exact @applystencilonpatch1d_value. Qed.
Print Assumptions C54_applystencilonpatch1d_value.
Example C54_applystencilonpatch1d_value_example :
  dot_acts (applystencilonpatch1d 0 3 5 (p 0) (p 0) (2 : ZS) (3 : ZS) 1 (p 3) 1 (p 1) 1 (p 2)) = true.
Proof. vm_compute. reflexivity. Qed.

(** The loops over i and j of the two-dimensional subroutine have their bounds swapped; on
    a patch whose two index ranges are the same this makes no difference. *)
Theorem C54_applystencilonpatch2d_square : forall (S : Scalar) (L : field_laws S) lo hi n offsets st (a b : S) fgcw f ugcw u rgcw r (m m' : mem S),
  fst r <> fst st -> fst r <> fst u -> fst r <> fst f \/ (r = f /\ rgcw = fgcw) -> 0 <= rgcw ->
  applystencilonpatch2d lo hi lo hi n offsets st a b fgcw f ugcw u rgcw r m = Some m' ->
  applied m m' (mkFa offsets [(1, 2); (1, n)]) (mkFa st ((1, n) :: CELL2d lo lo hi hi 0)) n a b
    (mkFa f (CELL2d lo lo hi hi fgcw)) (mkFa u (CELL2d lo lo hi hi ugcw)) (mkFa r (CELL2d lo lo hi hi rgcw)) [(lo, hi); (lo, hi)].
Proof. exact @applystencilonpatch2d_square. Qed.
Print Assumptions C54_applystencilonpatch2d_square.
Example C54_applystencilonpatch2d_square_example :
  dot_acts (applystencilonpatch2d 1 3 1 3 5 (p 1) (p 0) (2 : ZS) (3 : ZS) 1 (p 3) 1 (p 1) 1 (p 2)) = true.
Proof. vm_compute. reflexivity. Qed.

Theorem C54_applystencilonpatch3d_value : forall (S : Scalar) (L : field_laws S) lo0 hi0 lo1 hi1 lo2 hi2 n offsets st (a b : S) fgcw f ugcw u rgcw r (m m' : mem S),
  fst r <> fst st -> fst r <> fst u -> fst r <> fst f \/ (r = f /\ rgcw = fgcw) -> 0 <= rgcw ->
  applystencilonpatch3d lo0 hi0 lo1 hi1 lo2 hi2 n offsets st a b fgcw f ugcw u rgcw r m = Some m' ->
  applied m m' (mkFa offsets [(1, 3); (1, n)]) (mkFa st ((1, n) :: CELL3d lo0 lo1 lo2 hi0 hi1 hi2 0)) n a b
    (mkFa f (CELL3d lo0 lo1 lo2 hi0 hi1 hi2 fgcw)) (mkFa u (CELL3d lo0 lo1 lo2 hi0 hi1 hi2 ugcw)) (mkFa r (CELL3d lo0 lo1 lo2 hi0 hi1 hi2 rgcw)) [(lo0, hi0); (lo1, hi1); (lo2, hi2)].
Proof. exact @applystencilonpatch3d_value. Qed.
Print Assumptions C54_applystencilonpatch3d_value.
Example C54_applystencilonpatch3d_value_example :
  dot_acts (applystencilonpatch3d 0 2 1 3 0 1 5 (p 2) (p 0) (2 : ZS) (3 : ZS) 1 (p 3) 1 (p 1) 1 (p 2)) = true.
Proof. vm_compute. reflexivity. Qed.

(** On other patches the swapped bounds make the subroutine visit cells outside the
    patch and omit cells inside: here the patch 0..3 by 1..2 against the library. *)
Theorem C54_applystencilonpatch2d_refuted :
  disagree (applystencilonpatch2d 0 3 1 2 5 (p 1) (p 0) (1 : ZS) (0 : ZS) 1 (p 2) 1 (p 1) 1 (p 2))
           (dot_offset_2d (p 0) 0 (p 1) 1 (p 2) 1 (p 1) 0 3 1 2 5) dot_mem.
Proof. exact applystencilonpatch2d_differs. Qed.
Print Assumptions C54_applystencilonpatch2d_refuted.

(** ** The two against each other *)

Theorem C54_dot_offset_1d_fortran : forall (S : Scalar) (L : field_laws S) st u ugcw v vgcw offsets lo0 hi0 n (m : mem S),
  lo0 <= hi0 + 1 -> fst v <> fst st -> fst v <> fst u ->
  dot_offset_1d st 0 u ugcw v vgcw offsets lo0 hi0 n m =
  applystencilonpatch1d lo0 hi0 n offsets st (lit 1) (lit 0) vgcw v ugcw u vgcw v m.
Proof. exact @dot_offset_1d_fortran. Qed.
Print Assumptions C54_dot_offset_1d_fortran.

Theorem C54_dot_offset_2d_fortran_square : forall (S : Scalar) (L : field_laws S) st u ugcw v vgcw offsets lo hi n (m : mem S),
  lo <= hi + 1 -> fst v <> fst st -> fst v <> fst u ->
  dot_offset_2d st 0 u ugcw v vgcw offsets lo hi lo hi n m =
  applystencilonpatch2d lo hi lo hi n offsets st (lit 1) (lit 0) vgcw v ugcw u vgcw v m.
Proof. exact @dot_offset_2d_fortran_square. Qed.
Print Assumptions C54_dot_offset_2d_fortran_square.

Theorem C54_dot_offset_3d_fortran : forall (S : Scalar) (L : field_laws S) st u ugcw v vgcw offsets lo0 hi0 lo1 hi1 lo2 hi2 n (m : mem S),
  lo0 <= hi0 + 1 -> lo1 <= hi1 + 1 -> lo2 <= hi2 + 1 -> fst v <> fst st -> fst v <> fst u ->
  dot_offset_3d st 0 u ugcw v vgcw offsets lo0 hi0 lo1 hi1 lo2 hi2 n m =
  applystencilonpatch3d lo0 hi0 lo1 hi1 lo2 hi2 n offsets st (lit 1) (lit 0) vgcw v ugcw u vgcw v m.
Proof. exact @dot_offset_3d_fortran. Qed.
Print Assumptions C54_dot_offset_3d_fortran.

(** src/cuda/ls_apply_st_3d_cuda.cpp, which is not part of the build. *)
Theorem C54_ls_apply_st_3d_fortran : forall (S : Scalar) (L : field_laws S) i0 i1 j0 j1 k0 k1 i j k n offsets st (a b : S) fgcw f ugcw u rgcw r (m : mem S),
  fst r <> fst st -> fst r <> fst u ->
  ls_apply_st_3d_at_point i0 i1 j0 j1 k0 k1 i j k n offsets st a b fgcw f ugcw u rgcw r m =
  applystencilatpoint3d i0 i1 j0 j1 k0 k1 i j k n offsets st a b fgcw f ugcw u rgcw r m.
Proof. exact @ls_apply_st_3d_fortran. Qed.
Print Assumptions C54_ls_apply_st_3d_fortran.
Example C54_ls_apply_st_3d_fortran_example :
  dot_acts (ls_apply_st_3d_at_point 0 2 1 3 0 1 1 2 0 5 (p 2) (p 0) (2 : ZS) (3 : ZS) 1 (p 3) 1 (p 1) 1 (p 2)) = true.
Proof. vm_compute. reflexivity. Qed.

