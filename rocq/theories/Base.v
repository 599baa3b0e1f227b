(** * Base: shared vocabulary of the model

    - the option monad used for undefined behaviour ([None] = the C++ program
      has no defined result: out-of-bounds access, integer division by zero,
      or an instantiation that does not compile);
    - C arrays [int x[N]] as lists of integers, read and written by index;
    - C integer division ([Z.quot]/[Z.rem], undefined for divisor 0);
    - the scalar type [T] (double/float), with uninterpreted operations;
    - device memory.

    Integers are mathematical ([Z]); overflow of [int] is the subject of ModelInt.  *)

From Coq Require Export ZArith List Bool Lia Arith.
From Coq Require Import Field_theory Ring_theory.
Import ListNotations.
Open Scope Z_scope.

(** ** Option monad *)

Definition bind {A B} (x : option A) (f : A -> option B) : option B :=
  match x with Some a => f a | None => None end.

Notation "x <- e ;; f" := (bind e (fun x => f))
  (at level 61, e at next level, right associativity).

Fixpoint mapM {A B} (f : A -> option B) (l : list A) : option (list B) :=
  match l with
  | [] => Some []
  | a :: l' => b <- f a ;; bs <- mapM f l' ;; Some (b :: bs)
  end.

(** [forM l f m]: run [f a] on the state for every [a] of [l], in order. *)
Fixpoint forM {A M} (l : list A) (f : A -> M -> option M) (m : M) : option M :=
  match l with
  | [] => Some m
  | a :: l' => m' <- f a m ;; forM l' f m'
  end.

(** ** C arrays *)

(** [x[i]] for an array of [int] modelled as a list. *)
Definition aget (l : list Z) (i : nat) : Z := nth i l 0.

(** [x[i] = v]. *)
Fixpoint aset {A} (l : list A) (i : nat) (v : A) : list A :=
  match l, i with
  | [], _ => []
  | _ :: l', O => v :: l'
  | x :: l', S i' => x :: aset l' i' v
  end.

Definition prodZ (l : list Z) : Z := fold_right Z.mul 1 l.
Arguments prodZ _ : simpl never.

(** C integer [/] and [%]: truncation towards zero, undefined for 0. *)
Definition cdiv (a b : Z) : option Z := if b =? 0 then None else Some (Z.quot a b).
Definition cmod (a b : Z) : option Z := if b =? 0 then None else Some (Z.rem a b).

(** C [!x] and [!!x] on integers. *)
Definition cnot (x : Z) : Z := if x =? 0 then 1 else 0.

Definition b2z (b : bool) : Z := if b then 1 else 0.

(** ** Scalars *)

(** The element type [T] of the spans.  The operations are uninterpreted, so a
    theorem over every [Scalar] also holds for IEEE doubles (it is bit exact).
    [lit] embeds the integer-valued literals of the code. *)
Record Scalar := mkScalar {
  car :> Type;
  sadd : car -> car -> car;
  ssub : car -> car -> car;
  smul : car -> car -> car;
  sdiv : car -> car -> car;
  sneg : car -> car;
  lit  : Z -> car
}.

Arguments sadd {_} _ _.
Arguments ssub {_} _ _.
Arguments smul {_} _ _.
Arguments sdiv {_} _ _.
Arguments sneg {_} _.
Arguments lit  {_} _.

Declare Scope scalar_scope.
Delimit Scope scalar_scope with T.
Infix "+" := sadd : scalar_scope.
Infix "-" := ssub : scalar_scope.
Infix "*" := smul : scalar_scope.
Infix "/" := sdiv : scalar_scope.
Notation "- x" := (sneg x) : scalar_scope.
Notation "# z" := (lit z) (at level 1, format "# z") : scalar_scope.

(** Exact arithmetic: the scalar operations form a field of characteristic 0
    and the literals denote the integers.  Only used where the C++ and the
    Fortran code associate their operations differently. *)
Record field_laws (S : Scalar) : Prop := {
  fl_field : @field_theory S (lit 0) (lit 1) sadd smul ssub sneg sdiv
                             (fun x => sdiv (lit 1) x) eq;
  fl_add  : forall a b, @lit S (a + b) = sadd (lit a) (lit b);
  fl_sub  : forall a b, @lit S (a - b) = ssub (lit a) (lit b);
  fl_mul  : forall a b, @lit S (a * b) = smul (lit a) (lit b);
  fl_opp  : forall a, @lit S (- a) = sneg (lit a);
  fl_char : forall a, a <> 0 -> @lit S a <> lit 0
}.

(** ** Device memory *)

(** A memory is a list of allocations of scalars and a list of allocations of
    [int]s.  A pointer is an allocation number and an element offset.  Two
    spans with the same allocation number may alias. *)
Definition ptr : Type := nat * Z.

Definition padd (p : ptr) (d : Z) : ptr := (fst p, snd p + d).

Record mem (S : Scalar) := mkMem { cells : list (list S); ints : list (list Z) }.
Arguments mkMem {_} _ _.
Arguments cells {_} _.
Arguments ints {_} _.

Definition nthZ {A} (l : list A) (i : Z) : option A :=
  if i <? 0 then None else nth_error l (Z.to_nat i).

(** Read [*p]; [None] outside the allocation. *)
Definition load {S} (m : mem S) (p : ptr) : option S :=
  a <- nth_error (cells m) (fst p) ;; nthZ a (snd p).

(** Write [*p = v]; [None] outside the allocation. *)
Definition store {S} (m : mem S) (p : ptr) (v : S) : option (mem S) :=
  a <- nth_error (cells m) (fst p) ;;
  _ <- nthZ a (snd p) ;;
  Some (mkMem (aset (cells m) (fst p) (aset a (Z.to_nat (snd p)) v)) (ints m)).

(** Read an [int] through a device pointer. *)
Definition loadi {S} (m : mem S) (p : ptr) : option Z :=
  a <- nth_error (ints m) (fst p) ;; nthZ a (snd p).

(** The sizes of the allocations. *)
Definition shape {S} (m : mem S) : list nat := map (@length S) (cells m).
