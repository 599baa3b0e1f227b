(** * Specification vocabulary for iterators

    Coordinates of a box, sequences of iterator moves, and what it means for an
    iterator to enumerate values over a domain. *)

From Verif Require Import Base ModelBounds ModelMatrix ModelIters ModelSpan Spec.
Import ListNotations.
Open Scope Z_scope.

(** The coordinate lies in the box with extents [n]. *)
Definition in_box (n c : list Z) : Prop := Forall2 (fun x c => 0 <= c < x) n c.

(** All extents positive, at least one dimension. *)
Definition box (n : list Z) : Prop := n <> [] /\ Forall (fun x => 1 <= x) n.

(** Lexicographic order, first coordinate most significant. *)
Inductive lex : list Z -> list Z -> Prop :=
| lex_here x y l l' : x < y -> lex (x :: l) (y :: l')
| lex_next x l l' : lex l l' -> lex (x :: l) (x :: l').

(** Moves of a random-access iterator. *)
Inductive move := MInc | MDec | MAdv (d : Z).

Definition move_by (v : move) : Z :=
  match v with MInc => 1 | MDec => -1 | MAdv d => d end.

(** Where the moves lead from position [p]. *)
Fixpoint net (p : Z) (l : list move) : Z :=
  match l with [] => p | v :: l' => net (p + move_by v) l' end.

(** No intermediate position leaves [0..M]. *)
Fixpoint stays (M p : Z) (l : list move) : Prop :=
  match l with [] => 0 <= p <= M | v :: l' => 0 <= p <= M /\ stays M (p + move_by v) l' end.

(** The moves performed on a traversal iterator. *)
Definition mti_move (v : move) (it : mti) : option mti :=
  match v with MInc => Some (mti_inc it) | MDec => Some (mti_dec it) | MAdv d => mti_adv it d end.

Definition mti_moves (l : list move) (it : mti) : option mti := forM l mti_move it.

Definition fsi_move {A} (O : IterOps A) (v : move) (it : fsi A) : option (fsi A) :=
  match v with MInc => fsi_inc O it | MDec => fsi_dec O it | MAdv d => fsi_adv O it d end.

Section Iter.
  Context {S : Scalar}.

  (** [n] increments. *)
  Fixpoint steps (n : nat) (it : @iter S) : option (@iter S) :=
    match n with
    | O => Some it
    | Datatypes.S n' => it' <- it_inc it ;; steps n' it'
    end.

  (** Over the domain, the [k]-th element produced by the expression's iterator
      is [f] at the [k]-th point of the nested loops, in every memory. *)
  Definition evaluates (e : @expr S) (dom : list dbnd) (f : point -> mem S -> option (@val S)) : Prop :=
    exists it, eval e dom = Some it /\
      forall k pt, nth_error (domain_points dom origin) k = Some pt ->
        exists it', steps k it = Some it' /\ forall m, it_deref it' m = f pt m.
End Iter.

(** The domain lies within the bounds of a span. *)
Definition dom_within (dom bs : list dbnd) : Prop :=
  forall d b sb, In (d, b) dom -> In (d, sb) bs -> b_lb sb <= b_lb b /\ b_ub b <= b_ub sb.

(** ** Forward stencils *)

(** The box of pairs: one cell less in dimension [I]. *)
Definition reduced (n : list Z) (I : nat) : list Z := aset n I (aget n I - 1).

(** The neighbour in dimension [I]. *)
Definition bump (c : list Z) (I : nat) : list Z := aset c I (aget c I + 1).

(** [B 0 .. B M] is a range of a random-access iterator. *)
Record ra_range {A} (O : IterOps A) (B : Z -> A) (M : Z) : Prop := {
  ra_inc : forall p, 0 <= p < M -> o_inc O (B p) = Some (B (p + 1));
  ra_dec : forall p, 0 <= p < M -> o_dec O (B (p + 1)) = Some (B p);
  ra_adv : forall p d, 0 <= p <= M -> 0 <= p + d <= M -> o_adv O (B p) d = Some (B (p + d));
  ra_eqb : forall p q, 0 <= p <= M -> 0 <= q <= M -> o_eqb O (B p) (B q) = (p =? q)
}.

(** The forward stencil over a row-major array of extents [n] in dimension [I]:
    stride = elements per layer, limit = pairs per block, size = pairs
    (forward_stencil_iterator_test.cpp and matrix_traversal_iterator.hpp:78-101). *)
Definition stencil_begin {A} (b : A) (n : list Z) (I : nat) : fsi A :=
  make_forward_stencil b (prodZ (skipn (I + 1) n)) (prodZ (skipn I (reduced n I)))
                       (prodZ (reduced n I)).

Fixpoint fsteps {A} (O : IterOps A) (k : nat) (f : fsi A) : option (fsi A) :=
  match k with
  | O => Some f
  | S k' => f' <- fsi_inc O f ;; fsteps O k' f'
  end.
