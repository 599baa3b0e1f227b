(** * Specification: rows of an assembled stencil

    A stencil stores at every cell [c] the entries [st(s,c)] of the matrix row of
    that cell; column [s] of an integer table gives the displacement of the cell the
    entry multiplies.  Cells are index lists, first index first. *)

From Verif Require Import Base FortranBase SpecRow.
Import ListNotations.
Open Scope Z_scope.

Section Rows.
  Context {S : Scalar}.

  (** [c'] is the cell [c] displaced by column [s] of the table [tab], whose rows are
      numbered from [base]. *)
  Definition displaced_cell (m : mem S) (tab : farray) (base s : Z) (c c' : list Z) : Prop :=
    length c' = length c /\
    forall n, (n < length c)%nat ->
      loadi m (faddr tab [base + Z.of_nat n; s]) = Some (nth n c' 0 - nth n c 0).

  (** [v] is the sum of [st(s,c) * val(c')] over the columns [first..last], where
      [c'] is [c] displaced by column [s]. *)
  Definition row_sum (m : mem S) (tab st : farray) (base first last : Z) (c : list Z)
      (val : list Z -> option S) (v : S) : Prop :=
    exists (cf x : Z -> S),
      (forall s, first <= s <= last ->
         fel st (s :: c) m = Some (cf s) /\
         exists c', displaced_cell m tab base s c c' /\ val c' = Some (x s)) /\
      v = total first last (fun s => cf s * x s)%T.
End Rows.

(** [c] lies in the box with the bounds [bs] (first index first). *)
Definition in_box (bs : list (Z * Z)) (c : list Z) : Prop :=
  Forall2 (fun b i => fst b <= i <= snd b) bs c.

(** The order in which loops over a patch visit its cells: the last index is the
    outermost loop. *)
Fixpoint before (c c' : list Z) : bool :=
  match c, c' with
  | i :: t, i' :: t' => before t t' || ((if list_eq_dec Z.eq_dec t t' then true else false) && (i <? i'))
  | _, _ => false
  end.

Section Apply.
  Context {S : Scalar}.

  (** Going from [m] to [m'] stores [b f + a A u] in [r] at the cells of the box
      [bs], where [A] is the matrix whose rows are in [st], and changes nothing
      else. *)
  Definition applied (m m' : mem S) (tab st : farray) (n : Z) (a b : S) (f u r : farray) (bs : list (Z * Z)) : Prop :=
    (forall c, in_box bs c -> exists y d,
       fel f c m = Some y /\
       row_sum m tab st 1 1 n c (fun c' => fel u c' m) d /\
       fel r c m' = Some (b * y + a * d)%T) /\
    (forall q, (forall c, in_box bs c -> faddr r c <> q) -> load m' q = load m q) /\
    ints m' = ints m.

  (** Going from [m] to [m'] stores [A u] in [v] at the cells of the box [bs] and
      changes nothing else. *)
  Definition multiplied (m m' : mem S) (tab st : farray) (n : Z) (u v : farray) (bs : list (Z * Z)) : Prop :=
    (forall c, in_box bs c -> exists d,
       row_sum m tab st 1 1 n c (fun c' => fel u c' m) d /\ fel v c m' = Some d) /\
    (forall q, (forall c, in_box bs c -> faddr v c <> q) -> load m' q = load m q) /\
    ints m' = ints m.
End Apply.

Section Smooth.
  Context {S : Scalar}.

  (** The matrix rows are in [st], entries numbered from 0, entry 0 on the diagonal.
      From [m] to [m'] the visited cells have been updated in the order of execution:
      each from the values [u] had when its turn came, that is the new ones at the
      cells before it and the old ones elsewhere.  Nothing else has changed. *)
  Definition swept (m m' : mem S) (tab st : farray) (n : Z) (f u : farray) (visited : list Z -> Prop) : Prop :=
    (forall c, visited c -> exists b a0 d,
       fel f c m = Some b /\ fel st (0 :: c) m = Some a0 /\
       row_sum m tab st 0 1 (n - 1) c (fun c' => fel u c' (if before c' c then m' else m)) d /\
       fel u c m' = Some ((b - d) / a0)%T) /\
    (forall q, (forall c, visited c -> faddr u c <> q) -> load m' q = load m q) /\
    ints m' = ints m.

  (** From [m] to [m'] every cell of the box has been relaxed with weight [w] and the
      old values of [u]: [u + w (f - A u) / a0].  Besides only the scratch array [r]
      has changed. *)
  Definition relaxed (m m' : mem S) (tab st : farray) (n : Z) (w : S) (f u r : farray) (bs : list (Z * Z)) : Prop :=
    (forall c, in_box bs c -> exists b a0 d x,
       fel f c m = Some b /\ fel st (0 :: c) m = Some a0 /\ fel u c m = Some x /\
       row_sum m tab st 0 0 (n - 1) c (fun c' => fel u c' m) d /\
       fel u c m' = Some (x + w * ((b - d) / a0))%T) /\
    (forall q, (forall c, in_box bs c -> faddr u c <> q /\ faddr r c <> q) -> load m' q = load m q) /\
    ints m' = ints m.

  (** In [m] the values of [u] satisfy the equation of cell [c]: [A u = f] there. *)
  Definition solves (m : mem S) (tab st : farray) (n : Z) (f u : farray) (c : list Z) : Prop :=
    exists b, fel f c m = Some b /\ row_sum m tab st 0 0 (n - 1) c (fun c' => fel u c' m) b.

  (** From the visited cells the entries [first..last] lead to cells of the box [bs]. *)
  Definition stays (m : mem S) (tab : farray) (first last : Z) (bs : list (Z * Z)) (visited : list Z -> Prop) : Prop :=
    forall c s c', visited c -> first <= s <= last -> displaced_cell m tab 0 s c c' -> in_box bs c'.

  (** Entry 0 multiplies the cell itself and is not zero. *)
  Definition diagonal (m : mem S) (tab st : farray) (visited : list Z -> Prop) : Prop :=
    forall c, visited c -> displaced_cell m tab 0 0 c c /\ fel st (0 :: c) m <> Some (lit 0).

  (** The entries after 0 lead to cells of the other colour. *)
  Definition bipartite (m : mem S) (tab : farray) (n : Z) (visited : list Z -> Prop) : Prop :=
    forall c s c', visited c -> 1 <= s <= n - 1 -> displaced_cell m tab 0 s c c' ->
      Z.odd (fold_right Z.add 0 c' - fold_right Z.add 0 c) = true.

  (** The columns of the table. *)
  Definition table_is (m : mem S) (tab : farray) (cols : list (list Z)) : Prop :=
    forall s col, nth_error cols s = Some col ->
      forall n o, nth_error col n = Some o -> loadi m (faddr tab [Z.of_nat n; Z.of_nat s]) = Some o.
End Smooth.

(** The cells of one colour: every second cell, alternating with the row. *)
Definition coloured (bs : list (Z * Z)) (color : Z) (c : list Z) : Prop :=
  in_box bs c /\ Z.even (fold_right Z.add 0 c - match bs with b :: _ => fst b | [] => 0 end + color) = true.
