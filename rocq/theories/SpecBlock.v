(** * Specification: block relaxation

    One or two unknowns per cell, coupled at the cell by a number or a two by two
    matrix. *)

From Verif Require Import Base FortranBase SpecSmooth.
Import ListNotations.
Open Scope Z_scope.

Section Block.
  Context {S : Scalar}.

  (** From [m] to [m'] the change of [u] at every cell of the box solves
      [st * change = w * f]; nothing else has changed. *)
  Definition corrected1 (m m' : mem S) (st : farray) (w : S) (f u : farray) (bs : list (Z * Z)) : Prop :=
    (forall c, in_box bs c -> exists a g x y,
       fel st c m = Some a /\ fel f c m = Some g /\ fel u c m = Some x /\ fel u c m' = Some y /\
       (a <> lit 0 -> a * (y - x) = w * g)%T) /\
    (forall q, (forall c, in_box bs c -> faddr u c <> q) -> load m' q = load m q) /\
    ints m' = ints m.

  (** From [m] to [m'] the changes of [u0] and [u1] at every cell of the box solve the
      system with the rows [a(0), a(1)] and [a(2), a(3)] and the right-hand side
      [w * f0], [w * f1], unless it is singular; nothing else has changed. *)
  Definition corrected2 (m m' : mem S) (a : farray) (w : S) (f0 f1 u0 u1 : farray) (bs : list (Z * Z)) : Prop :=
    (forall c, in_box bs c -> exists a0 a1 a2 a3 g0 g1 x0 x1 y0 y1,
       fel a (0 :: c) m = Some a0 /\ fel a (1 :: c) m = Some a1 /\ fel a (2 :: c) m = Some a2 /\ fel a (3 :: c) m = Some a3 /\
       fel f0 c m = Some g0 /\ fel f1 c m = Some g1 /\ fel u0 c m = Some x0 /\ fel u1 c m = Some x1 /\
       fel u0 c m' = Some y0 /\ fel u1 c m' = Some y1 /\
       (a0 * a3 - a1 * a2 <> lit 0 ->
        a0 * (y0 - x0) + a1 * (y1 - x1) = w * g0 /\ a2 * (y0 - x0) + a3 * (y1 - x1) = w * g1)%T) /\
    (forall q, (forall c, in_box bs c -> faddr u0 c <> q /\ faddr u1 c <> q) -> load m' q = load m q) /\
    ints m' = ints m.
End Block.

(** ** The matrix of a block *)

(** Number of a cell of the block [0..bx-1] by [0..by-1] by ..., first index fastest. *)
Definition number (bx by_ : Z) (c : list Z) : Z :=
  match c with
  | [i; j; k] => k * by_ * bx + j * bx + i
  | _ => 0
  end.

Section Matrix.
  Context {S : Scalar}.

  (** From [m] to [m'] the entries of the stencil have been stored in the dense matrix
      [A]: in the row of cell [c], at the column of the cell to which entry [s] leads
      when that cell is in the block.  The other elements of [A] and everything else
      are unchanged. *)
  Definition matrix_made (m m' : mem S) (tab st : farray) (n : Z) (A : farray) (bx by_ : Z) (bs : list (Z * Z)) : Prop :=
    (forall c c', in_box bs c -> in_box bs c' ->
       (forall s, 0 <= s <= n - 1 -> displaced_cell m tab 0 s c c' ->
          fel A [number bx by_ c; number bx by_ c'] m' = fel st (s :: c) m) /\
       ((forall s, 0 <= s <= n - 1 -> ~ displaced_cell m tab 0 s c c') ->
          fel A [number bx by_ c; number bx by_ c'] m' = fel A [number bx by_ c; number bx by_ c'] m)) /\
    (forall q, (forall c c', in_box bs c -> in_box bs c' -> faddr A [number bx by_ c; number bx by_ c'] <> q) -> load m' q = load m q) /\
    ints m' = ints m.

  (** No two of the columns [0..n-1] displace a cell in the same way; column 0 is zero. *)
  Definition columns_distinct (m : mem S) (tab : farray) (n : Z) (bs : list (Z * Z)) : Prop :=
    forall c, in_box bs c -> displaced_cell m tab 0 0 c c /\
      forall s s' c', 0 <= s <= n - 1 -> 0 <= s' <= n - 1 -> displaced_cell m tab 0 s c c' -> displaced_cell m tab 0 s' c c' -> s = s'.

  (** Column [s] leads out of the block from every cell. *)
  Definition leads_out (m : mem S) (tab : farray) (s : Z) (bs : list (Z * Z)) : Prop :=
    forall c c', in_box bs c -> displaced_cell m tab 0 s c c' -> ~ in_box bs c'.
End Matrix.
