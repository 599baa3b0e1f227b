(** * Property C57: adjusting a right-hand side *)

From Coq Require Import Qcanon.
From Verif Require Import Base FortranBase FortranSmooth Instances SpecSmooth SpecAdjust LemNodeRefute LemAdjust LemIncrease LemSmoothFinal LemSmoothRefute LemBlockCase.
Import ListNotations.
Open Scope Z_scope.

(** [moved] and [increased] are in SpecAdjust.  The layer of cells next to the
    interface has the index [pfirst + 1] (side 0) or [pfirst - 1] (side 1) in the
    direction of the interface. *)

Theorem C57_adjcellcrsfinebdryrhs1d : forall (S : Scalar) (L : field_laws S) ifirst0 ilast0 pfirst0 plast0 side n offset st gcw u rhs ul (m m' : mem S),
  side = 0 \/ side = 1 -> 1 <= n -> near m (mkFa offset [(0, 0); (0, n - 1)]) n 1 ->
  fst ul <> fst u -> fst ul <> fst rhs -> fst ul <> fst st -> fst rhs <> fst st -> fst rhs <> fst u ->
  (forall c, in_box [(pfirst0 + 1 - 2 * side, pfirst0 + 1 - 2 * side)] c -> in_box (CELL1d ifirst0 ilast0 0) c) ->
  adjcellcrsfinebdryrhs1d ifirst0 ilast0 pfirst0 plast0 side n offset st gcw u rhs ul m = Some m' ->
  moved m m' (mkFa offset [(0, 0); (0, n - 1)]) (mkFa st ((0, n - 1) :: CELL1d ifirst0 ilast0 0)) n
    (mkFa u (CELL1d ifirst0 ilast0 gcw)) (mkFa rhs (CELL1d ifirst0 ilast0 0)) (mkFa ul [(-1, 1)]) 0 (2 * side - 1) [(pfirst0 + 1 - 2 * side, pfirst0 + 1 - 2 * side)].
Proof. exact @adj1d_moved_0. Qed.
Print Assumptions C57_adjcellcrsfinebdryrhs1d.

Theorem C57_adjcellcrsfinebdryrhs2d_0 : forall (S : Scalar) (L : field_laws S) ifirst0 ifirst1 ilast0 ilast1 pfirst0 pfirst1 plast0 plast1 side n offset st gcw u rhs ul (m m' : mem S),
  side = 0 \/ side = 1 -> 1 <= n -> near m (mkFa offset [(0, 1); (0, n - 1)]) n 2 ->
  fst ul <> fst u -> fst ul <> fst rhs -> fst ul <> fst st -> fst rhs <> fst st -> fst rhs <> fst u ->
  (forall c, in_box [(pfirst0 + 1 - 2 * side, pfirst0 + 1 - 2 * side); (pfirst1, plast1)] c -> in_box (CELL2d ifirst0 ifirst1 ilast0 ilast1 0) c) ->
  adjcellcrsfinebdryrhs2d ifirst0 ifirst1 ilast0 ilast1 pfirst0 pfirst1 plast0 plast1 0 side n offset st gcw u rhs ul m = Some m' ->
  moved m m' (mkFa offset [(0, 1); (0, n - 1)]) (mkFa st ((0, n - 1) :: CELL2d ifirst0 ifirst1 ilast0 ilast1 0)) n
    (mkFa u (CELL2d ifirst0 ifirst1 ilast0 ilast1 gcw)) (mkFa rhs (CELL2d ifirst0 ifirst1 ilast0 ilast1 0)) (mkFa ul [(-1, 1); (-1, 1)]) 0 (2 * side - 1) [(pfirst0 + 1 - 2 * side, pfirst0 + 1 - 2 * side); (pfirst1, plast1)].
Proof. exact @adj2d_moved_0. Qed.
Print Assumptions C57_adjcellcrsfinebdryrhs2d_0.

Theorem C57_adjcellcrsfinebdryrhs2d_1 : forall (S : Scalar) (L : field_laws S) ifirst0 ifirst1 ilast0 ilast1 pfirst0 pfirst1 plast0 plast1 side n offset st gcw u rhs ul (m m' : mem S),
  side = 0 \/ side = 1 -> 1 <= n -> near m (mkFa offset [(0, 1); (0, n - 1)]) n 2 ->
  fst ul <> fst u -> fst ul <> fst rhs -> fst ul <> fst st -> fst rhs <> fst st -> fst rhs <> fst u ->
  (forall c, in_box [(pfirst0, plast0); (pfirst1 + 1 - 2 * side, pfirst1 + 1 - 2 * side)] c -> in_box (CELL2d ifirst0 ifirst1 ilast0 ilast1 0) c) ->
  adjcellcrsfinebdryrhs2d ifirst0 ifirst1 ilast0 ilast1 pfirst0 pfirst1 plast0 plast1 1 side n offset st gcw u rhs ul m = Some m' ->
  moved m m' (mkFa offset [(0, 1); (0, n - 1)]) (mkFa st ((0, n - 1) :: CELL2d ifirst0 ifirst1 ilast0 ilast1 0)) n
    (mkFa u (CELL2d ifirst0 ifirst1 ilast0 ilast1 gcw)) (mkFa rhs (CELL2d ifirst0 ifirst1 ilast0 ilast1 0)) (mkFa ul [(-1, 1); (-1, 1)]) 1 (2 * side - 1) [(pfirst0, plast0); (pfirst1 + 1 - 2 * side, pfirst1 + 1 - 2 * side)].
Proof. exact @adj2d_moved_1. Qed.
Print Assumptions C57_adjcellcrsfinebdryrhs2d_1.

Theorem C57_adjcellcrsfinebdryrhs3d_0 : forall (S : Scalar) (L : field_laws S) ifirst0 ifirst1 ifirst2 ilast0 ilast1 ilast2 pfirst0 pfirst1 pfirst2 plast0 plast1 plast2 side n offset st gcw u rhs ul (m m' : mem S),
  side = 0 \/ side = 1 -> 1 <= n -> near m (mkFa offset [(0, 2); (0, n - 1)]) n 3 ->
  fst ul <> fst u -> fst ul <> fst rhs -> fst ul <> fst st -> fst rhs <> fst st -> fst rhs <> fst u ->
  (forall c, in_box [(pfirst0 + 1 - 2 * side, pfirst0 + 1 - 2 * side); (pfirst1, plast1); (pfirst2, plast2)] c -> in_box (CELL3d ifirst0 ifirst1 ifirst2 ilast0 ilast1 ilast2 0) c) ->
  adjcellcrsfinebdryrhs3d ifirst0 ifirst1 ifirst2 ilast0 ilast1 ilast2 pfirst0 pfirst1 pfirst2 plast0 plast1 plast2 0 side n offset st gcw u rhs ul m = Some m' ->
  moved m m' (mkFa offset [(0, 2); (0, n - 1)]) (mkFa st ((0, n - 1) :: CELL3d ifirst0 ifirst1 ifirst2 ilast0 ilast1 ilast2 0)) n
    (mkFa u (CELL3d ifirst0 ifirst1 ifirst2 ilast0 ilast1 ilast2 gcw)) (mkFa rhs (CELL3d ifirst0 ifirst1 ifirst2 ilast0 ilast1 ilast2 0)) (mkFa ul [(-1, 1); (-1, 1); (-1, 1)]) 0 (2 * side - 1) [(pfirst0 + 1 - 2 * side, pfirst0 + 1 - 2 * side); (pfirst1, plast1); (pfirst2, plast2)].
Proof. exact @adj3d_moved_0. Qed.
Print Assumptions C57_adjcellcrsfinebdryrhs3d_0.

Theorem C57_adjcellcrsfinebdryrhs3d_1 : forall (S : Scalar) (L : field_laws S) ifirst0 ifirst1 ifirst2 ilast0 ilast1 ilast2 pfirst0 pfirst1 pfirst2 plast0 plast1 plast2 side n offset st gcw u rhs ul (m m' : mem S),
  side = 0 \/ side = 1 -> 1 <= n -> near m (mkFa offset [(0, 2); (0, n - 1)]) n 3 ->
  fst ul <> fst u -> fst ul <> fst rhs -> fst ul <> fst st -> fst rhs <> fst st -> fst rhs <> fst u ->
  (forall c, in_box [(pfirst0, plast0); (pfirst1 + 1 - 2 * side, pfirst1 + 1 - 2 * side); (pfirst2, plast2)] c -> in_box (CELL3d ifirst0 ifirst1 ifirst2 ilast0 ilast1 ilast2 0) c) ->
  adjcellcrsfinebdryrhs3d ifirst0 ifirst1 ifirst2 ilast0 ilast1 ilast2 pfirst0 pfirst1 pfirst2 plast0 plast1 plast2 1 side n offset st gcw u rhs ul m = Some m' ->
  moved m m' (mkFa offset [(0, 2); (0, n - 1)]) (mkFa st ((0, n - 1) :: CELL3d ifirst0 ifirst1 ifirst2 ilast0 ilast1 ilast2 0)) n
    (mkFa u (CELL3d ifirst0 ifirst1 ifirst2 ilast0 ilast1 ilast2 gcw)) (mkFa rhs (CELL3d ifirst0 ifirst1 ifirst2 ilast0 ilast1 ilast2 0)) (mkFa ul [(-1, 1); (-1, 1); (-1, 1)]) 1 (2 * side - 1) [(pfirst0, plast0); (pfirst1 + 1 - 2 * side, pfirst1 + 1 - 2 * side); (pfirst2, plast2)].
Proof. exact @adj3d_moved_1. Qed.
Print Assumptions C57_adjcellcrsfinebdryrhs3d_1.

Theorem C57_adjcellcrsfinebdryrhs3d_2 : forall (S : Scalar) (L : field_laws S) ifirst0 ifirst1 ifirst2 ilast0 ilast1 ilast2 pfirst0 pfirst1 pfirst2 plast0 plast1 plast2 side n offset st gcw u rhs ul (m m' : mem S),
  side = 0 \/ side = 1 -> 1 <= n -> near m (mkFa offset [(0, 2); (0, n - 1)]) n 3 ->
  fst ul <> fst u -> fst ul <> fst rhs -> fst ul <> fst st -> fst rhs <> fst st -> fst rhs <> fst u ->
  (forall c, in_box [(pfirst0, plast0); (pfirst1, plast1); (pfirst2 + 1 - 2 * side, pfirst2 + 1 - 2 * side)] c -> in_box (CELL3d ifirst0 ifirst1 ifirst2 ilast0 ilast1 ilast2 0) c) ->
  adjcellcrsfinebdryrhs3d ifirst0 ifirst1 ifirst2 ilast0 ilast1 ilast2 pfirst0 pfirst1 pfirst2 plast0 plast1 plast2 2 side n offset st gcw u rhs ul m = Some m' ->
  moved m m' (mkFa offset [(0, 2); (0, n - 1)]) (mkFa st ((0, n - 1) :: CELL3d ifirst0 ifirst1 ifirst2 ilast0 ilast1 ilast2 0)) n
    (mkFa u (CELL3d ifirst0 ifirst1 ifirst2 ilast0 ilast1 ilast2 gcw)) (mkFa rhs (CELL3d ifirst0 ifirst1 ifirst2 ilast0 ilast1 ilast2 0)) (mkFa ul [(-1, 1); (-1, 1); (-1, 1)]) 2 (2 * side - 1) [(pfirst0, plast0); (pfirst1, plast1); (pfirst2 + 1 - 2 * side, pfirst2 + 1 - 2 * side)].
Proof. exact @adj3d_moved_2. Qed.
Print Assumptions C57_adjcellcrsfinebdryrhs3d_2.

(** ** A sum added to the right-hand side *)

Theorem C57_celladjustsystemrhspatch1d : forall (S : Scalar) (L : field_laws S) ifirst0 ilast0 n offset size st ugcw u fgcw f (m m' : mem S),
  1 <= n -> 0 <= fgcw -> fst f <> fst st -> fst f <> fst u ->
  celladjustsystemrhspatch1d ifirst0 ilast0 n offset size st ugcw u fgcw f m = Some m' ->
  increased m m' (mkFa offset [(1, 1); (1, n)]) (mkFa st ((1, size) :: CELL1d ifirst0 ilast0 0)) n
    (mkFa u (CELL1d ifirst0 ilast0 ugcw)) (mkFa f (CELL1d ifirst0 ilast0 fgcw)) [(ifirst0, ilast0)].
Proof. exact @celladjustsystemrhspatch1d_increased. Qed.
Print Assumptions C57_celladjustsystemrhspatch1d.

(** The loop bounds of the two directions are exchanged; for patches with equal bounds
    this makes no difference. *)
Theorem C57_celladjustsystemrhspatch2d : forall (S : Scalar) (L : field_laws S) ifirst0 ifirst1 ilast0 ilast1 n offset size st ugcw u fgcw f (m m' : mem S),
  1 <= n -> 0 <= fgcw -> fst f <> fst st -> fst f <> fst u -> ifirst0 = ifirst1 -> ilast0 = ilast1 ->
  celladjustsystemrhspatch2d ifirst0 ifirst1 ilast0 ilast1 n offset size st ugcw u fgcw f m = Some m' ->
  increased m m' (mkFa offset [(1, 2); (1, n)]) (mkFa st ((1, size) :: CELL2d ifirst0 ifirst1 ilast0 ilast1 0)) n
    (mkFa u (CELL2d ifirst0 ifirst1 ilast0 ilast1 ugcw)) (mkFa f (CELL2d ifirst0 ifirst1 ilast0 ilast1 fgcw)) [(ifirst0, ilast0); (ifirst1, ilast1)].
Proof. exact @celladjustsystemrhspatch2d_increased. Qed.
Print Assumptions C57_celladjustsystemrhspatch2d.

(** On the patch 0..1 by 0..0 the subroutine leaves the stencil when this has the
    declared size, and skips the cell (1,0) when there is more memory. *)
Theorem C57_celladjustsystemrhspatch2d_refuted :
  celladjustsystemrhspatch2d (S := ZS) 0 0 1 0 1 (p 0) 1 (p 0) 1 (p 1) 1 (p 2) (oblong_mem 2) = None /\
  exists m', celladjustsystemrhspatch2d (S := ZS) 0 0 1 0 1 (p 0) 1 (p 0) 1 (p 1) 1 (p 2) (oblong_mem 4) = Some m' /\
  ~ increased (oblong_mem 4) m' (mkFa (p 0) [(1, 2); (1, 1)]) (mkFa (p 0) ((1, 1) :: CELL2d 0 0 1 0 0)) 1
      (mkFa (p 1) (CELL2d 0 0 1 0 1)) (mkFa (p 2) (CELL2d 0 0 1 0 1)) [(0, 1); (0, 0)].
Proof. exact (conj oblong_fails oblong_skips). Qed.
Print Assumptions C57_celladjustsystemrhspatch2d_refuted.

(** ** Cases *)

(** The patch 0..1 in every direction, the ghost cells as interface; the three, five or
    seven entry table; all entries of the matrix 2, unequal unknowns.  The hypotheses hold,
    the calls succeed and change the right-hand side next to the interface. *)
Example C57_case_1d : field_laws QcS /\ near (sys cols1 (lit 5) rampd) (mkFa (p 0) [(0, 0); (0, 3 - 1)]) 3 1 /\
  (forall c, in_box [((-1) + 1 - 2 * 0, (-1) + 1 - 2 * 0)] c -> in_box (CELL1d 0 1 0) c) /\
  moved_at (adjcellcrsfinebdryrhs1d 0 1 (-1) (-1) 0 3 (p 0) (p 0) 1 (p 2) (p 1) (p 3)) 1 0 (sys cols1 (lit 5) rampd) = true /\
  (forall c, in_box [(2 + 1 - 2 * 1, 2 + 1 - 2 * 1)] c -> in_box (CELL1d 0 1 0) c) /\
  moved_at (adjcellcrsfinebdryrhs1d 0 1 2 2 1 3 (p 0) (p 0) 1 (p 2) (p 1) (p 3)) 1 1 (sys cols1 (lit 5) rampd) = true.
Proof.
  split; [exact QcS_laws|]. split.
  { apply (table_near _ _ cols1 1).
    - apply (sys_table cols1 (lit 5) rampd 1); [repeat constructor|vm_compute; reflexivity].
    - repeat (constructor; [split; [reflexivity|repeat (constructor; [lia|]); constructor]|]). constructor. }
  repeat match goal with |- _ /\ _ => split end; try (vm_compute; reflexivity);
    intros c H; repeat match goal with H : in_box _ _ |- _ => inversion_clear H | H : Forall2 _ _ _ |- _ => inversion_clear H end;
    repeat (constructor; [cbn [fst snd] in *; lia|]); constructor.
Qed.

Example C57_case_2d : field_laws QcS /\ near (sys cols2 (lit 5) rampd) (mkFa (p 0) [(0, 1); (0, 5 - 1)]) 5 2 /\
  (forall c, in_box [((-1) + 1 - 2 * 0, (-1) + 1 - 2 * 0); (0, 1)] c -> in_box (CELL2d 0 0 1 1 0) c) /\
  moved_at (adjcellcrsfinebdryrhs2d 0 0 1 1 (-1) 0 (-1) 1 0 0 5 (p 0) (p 0) 1 (p 2) (p 1) (p 3)) 1 0 (sys cols2 (lit 5) rampd) = true /\
  (forall c, in_box [(2 + 1 - 2 * 1, 2 + 1 - 2 * 1); (0, 1)] c -> in_box (CELL2d 0 0 1 1 0) c) /\
  moved_at (adjcellcrsfinebdryrhs2d 0 0 1 1 2 0 2 1 0 1 5 (p 0) (p 0) 1 (p 2) (p 1) (p 3)) 1 1 (sys cols2 (lit 5) rampd) = true /\
  (forall c, in_box [(0, 1); ((-1) + 1 - 2 * 0, (-1) + 1 - 2 * 0)] c -> in_box (CELL2d 0 0 1 1 0) c) /\
  moved_at (adjcellcrsfinebdryrhs2d 0 0 1 1 0 (-1) 1 (-1) 1 0 5 (p 0) (p 0) 1 (p 2) (p 1) (p 3)) 1 0 (sys cols2 (lit 5) rampd) = true /\
  (forall c, in_box [(0, 1); (2 + 1 - 2 * 1, 2 + 1 - 2 * 1)] c -> in_box (CELL2d 0 0 1 1 0) c) /\
  moved_at (adjcellcrsfinebdryrhs2d 0 0 1 1 0 2 1 2 1 1 5 (p 0) (p 0) 1 (p 2) (p 1) (p 3)) 1 2 (sys cols2 (lit 5) rampd) = true.
Proof.
  split; [exact QcS_laws|]. split.
  { apply (table_near _ _ cols2 2).
    - apply (sys_table cols2 (lit 5) rampd 2); [repeat constructor|vm_compute; reflexivity].
    - repeat (constructor; [split; [reflexivity|repeat (constructor; [lia|]); constructor]|]). constructor. }
  repeat match goal with |- _ /\ _ => split end; try (vm_compute; reflexivity);
    intros c H; repeat match goal with H : in_box _ _ |- _ => inversion_clear H | H : Forall2 _ _ _ |- _ => inversion_clear H end;
    repeat (constructor; [cbn [fst snd] in *; lia|]); constructor.
Qed.

Example C57_case_3d : field_laws QcS /\ near (sys cols3 (lit 5) rampd) (mkFa (p 0) [(0, 2); (0, 7 - 1)]) 7 3 /\
  (forall c, in_box [((-1) + 1 - 2 * 0, (-1) + 1 - 2 * 0); (0, 1); (0, 1)] c -> in_box (CELL3d 0 0 0 1 1 1 0) c) /\
  moved_at (adjcellcrsfinebdryrhs3d 0 0 0 1 1 1 (-1) 0 0 (-1) 1 1 0 0 7 (p 0) (p 0) 1 (p 2) (p 1) (p 3)) 1 0 (sys cols3 (lit 5) rampd) = true /\
  (forall c, in_box [(2 + 1 - 2 * 1, 2 + 1 - 2 * 1); (0, 1); (0, 1)] c -> in_box (CELL3d 0 0 0 1 1 1 0) c) /\
  moved_at (adjcellcrsfinebdryrhs3d 0 0 0 1 1 1 2 0 0 2 1 1 0 1 7 (p 0) (p 0) 1 (p 2) (p 1) (p 3)) 1 1 (sys cols3 (lit 5) rampd) = true /\
  (forall c, in_box [(0, 1); ((-1) + 1 - 2 * 0, (-1) + 1 - 2 * 0); (0, 1)] c -> in_box (CELL3d 0 0 0 1 1 1 0) c) /\
  moved_at (adjcellcrsfinebdryrhs3d 0 0 0 1 1 1 0 (-1) 0 1 (-1) 1 1 0 7 (p 0) (p 0) 1 (p 2) (p 1) (p 3)) 1 0 (sys cols3 (lit 5) rampd) = true /\
  (forall c, in_box [(0, 1); (2 + 1 - 2 * 1, 2 + 1 - 2 * 1); (0, 1)] c -> in_box (CELL3d 0 0 0 1 1 1 0) c) /\
  moved_at (adjcellcrsfinebdryrhs3d 0 0 0 1 1 1 0 2 0 1 2 1 1 1 7 (p 0) (p 0) 1 (p 2) (p 1) (p 3)) 1 2 (sys cols3 (lit 5) rampd) = true /\
  (forall c, in_box [(0, 1); (0, 1); ((-1) + 1 - 2 * 0, (-1) + 1 - 2 * 0)] c -> in_box (CELL3d 0 0 0 1 1 1 0) c) /\
  moved_at (adjcellcrsfinebdryrhs3d 0 0 0 1 1 1 0 0 (-1) 1 1 (-1) 2 0 7 (p 0) (p 0) 1 (p 2) (p 1) (p 3)) 1 0 (sys cols3 (lit 5) rampd) = true /\
  (forall c, in_box [(0, 1); (0, 1); (2 + 1 - 2 * 1, 2 + 1 - 2 * 1)] c -> in_box (CELL3d 0 0 0 1 1 1 0) c) /\
  moved_at (adjcellcrsfinebdryrhs3d 0 0 0 1 1 1 0 0 2 1 1 2 2 1 7 (p 0) (p 0) 1 (p 2) (p 1) (p 3)) 1 4 (sys cols3 (lit 5) rampd) = true.
Proof.
  split; [exact QcS_laws|]. split.
  { apply (table_near _ _ cols3 3).
    - apply (sys_table cols3 (lit 5) rampd 3); [repeat constructor|vm_compute; reflexivity].
    - repeat (constructor; [split; [reflexivity|repeat (constructor; [lia|]); constructor]|]). constructor. }
  repeat match goal with |- _ /\ _ => split end; try (vm_compute; reflexivity);
    intros c H; repeat match goal with H : in_box _ _ |- _ => inversion_clear H | H : Forall2 _ _ _ |- _ => inversion_clear H end;
    repeat (constructor; [cbn [fst snd] in *; lia|]); constructor.
Qed.

(** The three and the five entry table. *)
Example C57_case_increase : field_laws QcS /\
  moved_at (celladjustsystemrhspatch1d 0 1 3 (p 0) 3 (p 0) 1 (p 2) 0 (p 1)) 1 1 (sys cols1 (lit 5) rampd) = true /\
  moved_at (celladjustsystemrhspatch2d 0 0 1 1 5 (p 0) 5 (p 0) 1 (p 2) 0 (p 1)) 1 3 (sys cols2 (lit 5) rampd) = true.
Proof. split; [exact QcS_laws|]. split; vm_compute; reflexivity. Qed.
