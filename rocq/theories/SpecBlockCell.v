(** * Specification: rows with several unknowns per cell

    The unknowns of a cell are numbered from 1 to [ndof].  Entry [s] of the row of cell
    [c] is an [ndof] by [ndof] matrix, stored column by column; entry 1 is the diagonal
    one. *)

From Verif Require Import Base FortranBase SpecRow SpecSmooth SpecBlockJacobi.
Import ListNotations.
Open Scope Z_scope.

Section BlockRows.
  Context {S : Scalar}.

  (** Row [a], column [b] of entry [s] at the cell [c]. *)
  Definition entry (st : farray) (ndof s : Z) (c : list Z) (a b : Z) : fexp S := fel st (s :: (a + (b - 1) * ndof) :: c).

  (** [v] is the sum over the entries [first..last] of row [a] of the entry times the
      unknowns of the cell to which the entry leads. *)
  Definition block_row (m : mem S) (tab st : farray) (ndof first last : Z) (c : list Z) (a : Z) (val : Z -> list Z -> option S) (v : S) : Prop :=
    exists (cf x : Z -> Z -> S),
      (forall s b, first <= s <= last -> 1 <= b <= ndof -> entry st ndof s c a b m = Some (cf s b)) /\
      (forall s, first <= s <= last -> exists c', displaced_cell m tab 1 s c c' /\ forall b, 1 <= b <= ndof -> val b c' = Some (x s b)) /\
      v = total first last (fun s => total 1 ndof (fun b => cf s b * x s b))%T.

  (** The equations of the cell [c] hold. *)
  Definition block_solves (m : mem S) (tab st : farray) (n ndof : Z) (f u : farray) (c : list Z) : Prop :=
    forall a, 1 <= a <= ndof -> exists b, fel f (a :: c) m = Some b /\ block_row m tab st ndof 1 n c a (fun b c' => fel u (b :: c') m) b.

  (** The diagonal entry of the cell [c] can be inverted. *)
  Definition regular_entry (m : mem S) (st : farray) (ndof : Z) (c : list Z) : Prop :=
    forall z : Z -> S,
      (forall a, 1 <= a <= ndof -> exists D, (forall b, 1 <= b <= ndof -> entry st ndof 1 c a b m = Some (D b)) /\ total 1 ndof (fun b => D b * z b)%T = lit 0) ->
      forall a, 1 <= a <= ndof -> z a = lit 0.

  (** From [m] to [m'] the cells of the box have been visited in the order of execution.
      The change of the unknowns of a cell solves the system of its diagonal entry whose
      right-hand side is [f] minus the other entries times [u], new at the cells visited
      before and old elsewhere.  [r] holds the change.  Beside [u] and [r] in the box only
      the array numbered [local] has changed. *)
  Definition block_swept (m m' : mem S) (tab st : farray) (n ndof : Z) (f u r : farray) (local : nat) (bs : list (Z * Z)) : Prop :=
    (forall c a, in_box bs c -> 1 <= a <= ndof -> exists b d (D x y : Z -> S),
       fel f (a :: c) m = Some b /\
       block_row m tab st ndof 2 n c a (fun b c' => fel u (b :: c') (if before c' c then m' else m)) d /\
       (forall b, 1 <= b <= ndof -> entry st ndof 1 c a b m = Some (D b) /\ fel u (b :: c) m = Some (x b) /\
          fel r (b :: c) m' = Some (y b) /\ fel u (b :: c) m' = Some (x b + y b)%T) /\
       total 1 ndof (fun b => D b * y b)%T = (b - d)%T) /\
    (forall q, (forall c a, in_box bs c -> 1 <= a <= ndof -> faddr u (a :: c) <> q /\ faddr r (a :: c) <> q) -> fst q <> local -> load m' q = load m q) /\
    ints m' = ints m.
End BlockRows.
