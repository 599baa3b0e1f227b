(** * Specification: sums over a patch *)

From Verif Require Import Base.
Import ListNotations.
Open Scope Z_scope.

(** [f lo + f (lo+1) + ... + f hi]; nothing is added when [hi < lo]. *)
Definition total {S : Scalar} (lo hi : Z) (f : Z -> S) : S :=
  fold_right (fun k s => sadd (f (lo + Z.of_nat k)) s) (lit 0) (seq 0 (Z.to_nat (hi - lo + 1))).

(** Sums over the cells of a patch. *)
Definition total2 {S : Scalar} (i0 j0 i1 j1 : Z) (f : Z -> Z -> S) : S :=
  total j0 j1 (fun j => total i0 i1 (fun i => f i j)).
Definition total3 {S : Scalar} (i0 j0 k0 i1 j1 k1 : Z) (f : Z -> Z -> Z -> S) : S :=
  total k0 k1 (fun k => total2 i0 j0 i1 j1 (fun i j => f i j k)).
