(** * Specification vocabulary for the kernels *)

From Verif Require Import Base FortranBase.
Import ListNotations.
Open Scope Z_scope.

(** The array at [p] shares no allocation with the arrays [l]. *)
Definition apart (p : ptr) (l : list ptr) : Prop := Forall (fun q => fst q <> fst p) l.

(** At least [n] elements are allocated from [p] on. *)
Definition room {S} (m : mem S) (p : ptr) (n : Z) : Prop :=
  exists a, nth_error (cells m) (fst p) = Some a /\ 0 <= snd p /\ snd p + n <= Z.of_nat (length a).

(** The number of elements of a Fortran array with these bounds. *)
Definition fcount (ds : list (Z * Z)) : Z := fold_right Z.mul 1 (map (fun b => snd b - fst b + 1) ds).

(** A boundary segment [bl..bh] that lies in the patch [lo..hi]; one whose part in
    the patch has a non-negative number of cells. *)
Definition seg_within (lo hi bl bh : Z) : Prop := lo <= bl /\ bh <= hi /\ bl <= bh + 1.
Definition seg_meets (lo hi bl bh : Z) : Prop := Z.max lo bl <= Z.min hi bh + 1.

(** The segment bounds with the part in direction [t] cut to the patch. *)
Definition cut_lo (t lo : Z) (b : Z -> Z) : Z -> Z := fun d => if d =? t then Z.max lo (b d) else b d.
Definition cut_hi (t hi : Z) (b : Z -> Z) : Z -> Z := fun d => if d =? t then Z.min hi (b d) else b d.
