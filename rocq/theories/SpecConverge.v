(** * Specification: repeated sweeps over the rational numbers

    The system is given as in SpecSmooth: the matrix rows are in [st], the right-hand
    side is in [f], column [s] of the table [tab] leads from a cell to the cell entry
    [s] multiplies, entry 0 is on the diagonal.  [x] gives a number for every cell. *)

From Coq Require Import Qcanon Qcabs.
From Verif Require Import Base FortranBase Instances SpecRow SpecSmooth.
Import ListNotations.
Open Scope Z_scope.

(** [k] times in a row. *)
Fixpoint repeated {M} (k : nat) (s : M -> option M) (m : M) : option M :=
  match k with O => Some m | Datatypes.S k => m1 <- s m ;; repeated k s m1 end.

(** One after the other. *)
Definition twice {M} (s1 s2 : M -> option M) (m : M) : option M := m1 <- s1 m ;; s2 m1.

Section Converge.
  Notation mem := (mem QcS).

  (** At the cells of [P] the values of [u] are within [E] of [x]. *)
  Definition within (m : mem) (u : farray) (x : list Z -> Qc) (E : Qc) (P : list Z -> Prop) : Prop :=
    forall c, P c -> exists y : Qc, fel u c m = Some (y : QcS) /\ (Qcabs (y - x c) <= E)%Qc.

  (** At the cells of [P] the values of [u] are those of [x]. *)
  Definition equals (m : mem) (u : farray) (x : list Z -> Qc) (P : list Z -> Prop) : Prop :=
    forall c, P c -> fel u c m = Some (x c : QcS).

  (** At the cells of [P] the values of [u] are at most, at least those of [x]. *)
  Definition at_most (m : mem) (u : farray) (x : list Z -> Qc) (P : list Z -> Prop) : Prop :=
    forall c, P c -> exists y : Qc, fel u c m = Some (y : QcS) /\ (y <= x c)%Qc.
  Definition at_least (m : mem) (u : farray) (x : list Z -> Qc) (P : list Z -> Prop) : Prop :=
    forall c, P c -> exists y : Qc, fel u c m = Some (y : QcS) /\ (x c <= y)%Qc.

  (** At the visited cells [A x = f]; [A x >= f]; [A x <= f]. *)
  Definition row_is (rel : Qc -> Qc -> Prop) (m : mem) (tab st : farray) (n : Z) (f : farray) (x : list Z -> Qc)
      (visited : list Z -> Prop) : Prop :=
    forall c, visited c -> exists b d : Qc, fel f c m = Some (b : QcS) /\
      row_sum m tab st 0 0 (n - 1) c (fun c' => Some (x c' : QcS)) (d : QcS) /\ rel d b.
  Definition solution := row_is eq.
  Definition supersolution := row_is (fun d b => (b <= d)%Qc).
  Definition subsolution := row_is (fun d b => (d <= b)%Qc).

  (** In the rows of the visited cells the diagonal entry is not zero and the others
      together are at most [q] times as large. *)
  Definition dominant (m : mem) (st : farray) (n : Z) (q : Qc) (visited : list Z -> Prop) : Prop :=
    forall c, visited c -> exists (a0 : Qc) (cf : Z -> Qc),
      fel st (0 :: c) m = Some (a0 : QcS) /\ a0 <> 0%Qc /\
      (forall s, 1 <= s <= n - 1 -> fel st (s :: c) m = Some (cf s : QcS)) /\
      (total (S := QcS) 1 (n - 1) (fun s => Qcabs (cf s)) <= q * Qcabs a0)%Qc.

  (** In the rows of the visited cells the diagonal entry is positive and the others
      are not. *)
  Definition z_matrix (m : mem) (st : farray) (n : Z) (visited : list Z -> Prop) : Prop :=
    forall c, visited c -> exists (a0 : Qc) (cf : Z -> Qc),
      fel st (0 :: c) m = Some (a0 : QcS) /\ (0 < a0)%Qc /\
      (forall s, 1 <= s <= n - 1 -> fel st (s :: c) m = Some (cf s : QcS) /\ (cf s <= 0)%Qc).

  (** The first entry multiplies the cell itself. *)
  Definition diagonal_first (m : mem) (tab : farray) (visited : list Z -> Prop) : Prop :=
    forall c, visited c -> displaced_cell m tab 0 0 c c.

  (** The patch [bs] lies in the box of [u], and the [n] columns of the table lead from
      its cells to cells of that box, the first one to the cell itself. *)
  Definition fits (m : mem) (tab : farray) (n : Z) (u : farray) (bs : list (Z * Z)) : Prop :=
    1 <= n /\ (forall c, in_box bs c -> in_box (fa_dims u) c) /\
    stays m tab 1 (n - 1) (fa_dims u) (in_box bs) /\ diagonal_first m tab (in_box bs).

  (** The cells of the box of [u] around the patch. *)
  Definition around (u : farray) (bs : list (Z * Z)) (c : list Z) : Prop :=
    in_box (fa_dims u) c /\ ~ in_box bs c.

  (** The sweep [P], started in [m] and repeated [k] times: when the rows of the patch
      are diagonally dominant with ratio [q <= 1], [x] is a solution, and [u] has its
      values around the patch, the largest error on the patch goes down by the factor
      [rate q] every time. *)
  Definition converges (m : mem) (P : mem -> option mem) (tab st : farray) (n : Z) (f u : farray) (bs : list (Z * Z)) (rate : Qc -> Qc) : Prop :=
    forall (x : list Z -> Qc) (q E : Qc) (k : nat) (m' : mem),
    fits m tab n u bs -> dominant m st n q (in_box bs) -> (0 <= q)%Qc -> (q <= 1)%Qc ->
    solution m tab st n f x (in_box bs) -> equals m u x (around u bs) ->
    (0 <= E)%Qc -> within m u x E (in_box bs) ->
    repeated k P m = Some m' -> within m' u x (rate q ^ k * E)%Qc (in_box bs).

  (** The sweep [P], started in [m] and repeated: when the rows of the patch have the
      signs of [z_matrix], values of [u] between a subsolution and a supersolution stay
      between them. *)
  Definition keeps_bounds (m : mem) (P : mem -> option mem) (tab st : farray) (n : Z) (f u : farray) (bs : list (Z * Z)) : Prop :=
    forall (x1 x2 : list Z -> Qc) (k : nat) (m' : mem),
    fits m tab n u bs -> z_matrix m st n (in_box bs) ->
    subsolution m tab st n f x1 (in_box bs) -> supersolution m tab st n f x2 (in_box bs) ->
    at_least m u x1 (in_box (fa_dims u)) -> at_most m u x2 (in_box (fa_dims u)) ->
    repeated k P m = Some m' -> at_least m' u x1 (in_box (fa_dims u)) /\ at_most m' u x2 (in_box (fa_dims u)).
End Converge.
