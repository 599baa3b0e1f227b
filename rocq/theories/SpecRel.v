(** * Relations between two scalar types *)

From Verif Require Import Base.
Import ListNotations.
Open Scope Z_scope.

(** The arithmetic and the literals respect the relation. *)
Record sim {S T : Scalar} (R : S -> T -> Prop) : Prop := {
  sim_add : forall a b c d, R a c -> R b d -> R (a + b)%T (c + d)%T;
  sim_sub : forall a b c d, R a c -> R b d -> R (a - b)%T (c - d)%T;
  sim_mul : forall a b c d, R a c -> R b d -> R (a * b)%T (c * d)%T;
  sim_div : forall a b c d, R a c -> R b d -> R (a / b)%T (c / d)%T;
  sim_neg : forall a c, R a c -> R (- a)%T (- c)%T;
  sim_lit : forall z, R (lit z) (lit z)
}.

(** Both computations fail, or both succeed with related results. *)
Inductive orel {A B} (Q : A -> B -> Prop) : option A -> option B -> Prop :=
| oN : orel Q None None
| oS a b : Q a b -> orel Q (Some a) (Some b).

(** Memories of the same layout with related elements and the same [int]s. *)
Definition mrel {S T : Scalar} (R : S -> T -> Prop) (m : mem S) (m' : mem T) : Prop :=
  Forall2 (Forall2 R) (cells m) (cells m') /\ ints m = ints m'.

(** A program: it is given scalar parameters and a memory of any scalar type. *)
Definition prog := forall S : Scalar, (Z -> S) -> mem S -> option (mem S).

(** The program respects every relation the arithmetic respects. *)
Definition uniform (K : prog) : Prop := forall (S T : Scalar) (R : S -> T -> Prop), sim R ->
  forall p p', (forall d, R (p d) (p' d)) -> forall m m', mrel R m m' -> orel (mrel R) (K S p m) (K T p' m').

Lemma orel_mono {A B} (P Q : A -> B -> Prop) x y : orel P x y -> (forall a b, P a b -> Q a b) -> orel Q x y.
Proof. intros [|a b H] K; constructor; auto. Qed.
