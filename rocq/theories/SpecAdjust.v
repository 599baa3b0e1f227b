(** * Specification: adjusting a right-hand side

    Known values of the unknowns are moved to the right-hand side. *)

From Verif Require Import Base FortranBase SpecRow SpecSmooth.
Import ListNotations.
Open Scope Z_scope.

Section Adjust.
  Context {S : Scalar}.

  (** From [m] to [m'] the sums [A u] over the columns [1..n] have been added to [f]
      at the cells of the box; nothing else has changed. *)
  Definition increased (m m' : mem S) (tab st : farray) (n : Z) (u f : farray) (bs : list (Z * Z)) : Prop :=
    (forall c, in_box bs c -> exists y d,
       fel f c m = Some y /\ row_sum m tab st 1 1 n c (fun c' => fel u c' m) d /\ fel f c m' = Some (y + d)%T) /\
    (forall q, (forall c, in_box bs c -> faddr f c <> q) -> load m' q = load m q) /\
    ints m' = ints m.

  (** The cells of the box [bs] lie next to an interface, which is [e] (1 or -1) away in
      direction [dir] (0, 1 or 2).  From [m] to [m'] the terms of their rows that lie across the
      interface have been subtracted from [rhs].  Besides only the scratch array [ul]
      has changed. *)
  Definition moved (m m' : mem S) (tab st : farray) (n : Z) (u rhs ul : farray) (dir : nat) (e : Z) (bs : list (Z * Z)) : Prop :=
    (forall c, in_box bs c -> exists y d,
       fel rhs c m = Some y /\
       row_sum m tab st 0 0 (n - 1) c (fun c' => if nth dir c' 0 =? nth dir c 0 + e then fel u c' m else Some (lit 0)) d /\
       fel rhs c m' = Some (y - d)%T) /\
    (forall q, (forall c, in_box bs c -> faddr rhs c <> q) -> fst q <> fst (fa_ptr ul) -> load m' q = load m q) /\
    ints m' = ints m.

  (** The table leads at most one cell away in each of the [d] directions. *)
  Definition near (m : mem S) (tab : farray) (n d : Z) : Prop :=
    forall s k o, 0 <= s <= n - 1 -> 0 <= k <= d - 1 -> loadi m (faddr tab [k; s]) = Some o -> -1 <= o <= 1.
End Adjust.
