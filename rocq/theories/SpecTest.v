(** * Specification vocabulary for the library's test programs *)

From Verif Require Import Base SpecIter.
Import ListNotations.
Open Scope Z_scope.

Section Test.
  Context {S : Scalar}.

  (** The [n] elements from [p] on are [A 0], ..., [A (n-1)]. *)
  Definition holds (m : mem S) (p : ptr) (n : Z) (A : Z -> S) : Prop :=
    forall k, 0 <= k < n -> load m (padd p k) = Some (A k).

  (** Nothing changed outside the [n] elements from [p] on. *)
  Definition only (p : ptr) (n : Z) (m m' : mem S) : Prop :=
    ints m' = ints m /\ shape m' = shape m /\
    forall q, (forall k, 0 <= k < n -> q <> padd p k) -> load m' q = load m q.

  (** An element that held [old], after the stores [L] (position, value) were made
      one after the other, seen at position [k]. *)
  Definition written (L : list (Z * S)) (k : Z) (old : S) : S :=
    fold_left (fun r e => if fst e =? k then snd e else r) L old.
End Test.

(** [x] is one of [lo, lo + s, lo + 2s, ...] and at most [hi]. *)
Definition visited (lo hi s x : Z) : bool := ((lo <=? x) && (x <=? hi) && ((x - lo) mod s =? 0))%bool.

(** The coordinate of a cell of the box [lb .. ub] relative to its corner, and
    membership in it. *)
Definition relative (lb c : list Z) : list Z := map (fun p => snd p - fst p) (combine lb c).
Definition between (lb ub c : list Z) : bool :=
  forallb (fun p => (fst (fst p) <=? snd p) && (snd p <=? snd (fst p)))%bool (combine (combine lb ub) c).

(** The box [lb .. ub] is not empty and lies in an array of extents [sz]; its extents. *)
Definition inside (sz lb ub : list Z) : Prop := in_box sz lb /\ in_box sz ub /\ Forall2 Z.le lb ub.
Definition extents (lb ub : list Z) : list Z := map (fun p => snd p - fst p + 1) (combine lb ub).

(** The stores of the submatrix test, by position in the submatrix of extents [n]:
    the first two elements, the last of the first row, the first of the second row,
    the last of all, and in 3D the last of the first plane and the first of the
    second. *)
Definition submatrix_marks {S : Scalar} (n : list Z) : list (Z * S) :=
  let row := aget n (length n - 1) in
  [(0, lit (-1)); (1, lit (-2)); (row - 1, lit (-3)); (row, lit (-4)); (prodZ n - 1, lit (-5))] ++
  (if Nat.eqb (length n) 3
   then [(aget n 1 * aget n 2 - 1, lit (-6)); (aget n 1 * aget n 2, lit (-7))] else []).
