(** * Specification: polynomials and their derivatives *)

From Verif Require Import Base.
Open Scope Z_scope.

Section Polynomials.
  Context {S : Scalar}.
  Implicit Types x y z : S.

  (** [q 0 + q 1 x + q 2 x^2 + q 3 x^3] and its second derivative. *)
  Definition cubic (q : nat -> S) (x : S) : S := (q 0%nat + q 1%nat * x + q 2%nat * (x * x) + q 3%nat * (x * x * x))%T.
  Definition cubic_dd (q : nat -> S) (x : S) : S := (lit 2 * q 2%nat + lit 6 * q 3%nat * x)%T.

  (** [q 0 + q 1 x + q 2 x^2] and its derivatives. *)
  Definition quad (q : nat -> S) (x : S) : S := (q 0%nat + q 1%nat * x + q 2%nat * (x * x))%T.
  Definition quad_d (q : nat -> S) (x : S) : S := (q 1%nat + lit 2 * q 2%nat * x)%T.
  Definition quad_dd (q : nat -> S) (x : S) : S := (lit 2 * q 2%nat)%T.

  (** Polynomials of degree three in each variable, and their second partial
      derivatives. *)
  Definition cubic2 (q : nat -> nat -> S) x y : S := cubic (fun a => cubic (q a) y) x.
  Definition cubic2_xx (q : nat -> nat -> S) x y : S := cubic_dd (fun a => cubic (q a) y) x.
  Definition cubic2_yy (q : nat -> nat -> S) x y : S := cubic (fun a => cubic_dd (q a) y) x.
  Definition cubic3 (q : nat -> nat -> nat -> S) x y z : S := cubic (fun a => cubic2 (q a) y z) x.
  Definition cubic3_xx (q : nat -> nat -> nat -> S) x y z : S := cubic_dd (fun a => cubic2 (q a) y z) x.
  Definition cubic3_yy (q : nat -> nat -> nat -> S) x y z : S := cubic (fun a => cubic2_xx (q a) y z) x.
  Definition cubic3_zz (q : nat -> nat -> nat -> S) x y z : S := cubic (fun a => cubic2_yy (q a) y z) x.

  (** Polynomials of degree two in each variable. *)
  Definition quad2 (q : nat -> nat -> S) x y : S := quad (fun a => quad (q a) y) x.
  Definition quad2_x (q : nat -> nat -> S) x y : S := quad_d (fun a => quad (q a) y) x.
  Definition quad2_y (q : nat -> nat -> S) x y : S := quad (fun a => quad_d (q a) y) x.
  Definition quad2_xx (q : nat -> nat -> S) x y : S := quad_dd (fun a => quad (q a) y) x.
  Definition quad2_yy (q : nat -> nat -> S) x y : S := quad (fun a => quad_dd (q a) y) x.
  Definition quad3 (q : nat -> nat -> nat -> S) x y z : S := quad (fun a => quad2 (q a) y z) x.
  Definition quad3_x (q : nat -> nat -> nat -> S) x y z : S := quad_d (fun a => quad2 (q a) y z) x.
  Definition quad3_y (q : nat -> nat -> nat -> S) x y z : S := quad (fun a => quad2_x (q a) y z) x.
  Definition quad3_z (q : nat -> nat -> nat -> S) x y z : S := quad (fun a => quad2_y (q a) y z) x.
  Definition quad3_xx (q : nat -> nat -> nat -> S) x y z : S := quad_dd (fun a => quad2 (q a) y z) x.
  Definition quad3_yy (q : nat -> nat -> nat -> S) x y z : S := quad (fun a => quad2_xx (q a) y z) x.
  Definition quad3_zz (q : nat -> nat -> nat -> S) x y z : S := quad (fun a => quad2_yy (q a) y z) x.

  (** The coordinate of the centre of cell [i], and of the face between the cells
      [i-1] and [i], on a grid of spacing [h]. *)
  Definition centre (o h : S) (i : Z) : S := (o + lit i * h)%T.
  Definition faceat (o h : S) (i : Z) : S := (centre o h i - h / lit 2)%T.
End Polynomials.
