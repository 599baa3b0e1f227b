(** * Specification: block Jacobi *)

From Verif Require Import Base FortranBase FortranBlock SpecRow SpecSmooth.
Import ListNotations.
Open Scope Z_scope.

Section Solver.
  Context {S : Scalar}.

  (** Only zero is mapped to zero. *)
  Definition nonsingular (n : Z) (A : Z -> Z -> S) : Prop :=
    forall x : Z -> S, (forall i, 0 <= i <= n - 1 -> total 0 (n - 1) (fun j => A i j * x j)%T = lit 0) ->
      forall i, 0 <= i <= n - 1 -> x i = lit 0.

  (** The library solves nonsingular systems of [n] equations: factoring [A] and
      then solving with these factors, wherever they are read from, gives [x] with
      [A x = b]. *)
  Definition solver_correct (la : lapack S) (n : Z) : Prop :=
    forall (A F : Z -> Z -> S) (b : Z -> S), nonsingular n A ->
      (forall i j, 0 <= i <= n - 1 -> 0 <= j <= n - 1 -> F i j = fst (la_getrf la n A) i j) ->
      forall i, 0 <= i <= n - 1 ->
        total 0 (n - 1) (fun j => A i j * la_getrs la n F (snd (la_getrf la n A)) b j)%T = b i.
End Solver.

(** ** Blocks *)

(** Whether [c] is in the box. *)
Fixpoint inside (bs : list (Z * Z)) (c : list Z) : bool :=
  match bs, c with
  | [], [] => true
  | b :: bs, i :: c => (fst b <=? i) && (i <=? snd b) && inside bs c
  | _, _ => false
  end.

(** First cells of the blocks in one direction: [first], then every [size]-th up to
    [last]. *)
Definition starts (first last size i : Z) : Prop := exists k, 0 <= k /\ i = first + size * k /\ i <= last.

(** The block of the given sizes that begins at [c]. *)
Definition block_at (c sizes : list Z) : list (Z * Z) := map (fun q => (fst q, fst q + snd q - 1)) (combine c sizes).

Section BlockJacobi.
  Context {S : Scalar}.

  (** The rows of a block, restricted to its cells, determine the values on it. *)
  Definition regular_block (m : mem S) (tab st : farray) (n : Z) (bs : list (Z * Z)) : Prop :=
    forall z : list Z -> S,
      (forall c, in_box bs c -> row_sum m tab st 0 0 (n - 1) c (fun c' => Some (if inside bs c' then z c' else lit 0)) (lit 0)) ->
      forall c, in_box bs c -> z c = lit 0.

  (** The change of [u] at a cell. *)
  Definition change (m m' : mem S) (u : farray) (c : list Z) : option S :=
    x <- fel u c m ;; y <- fel u c m' ;; Some (y - x)%T.

  (** From [m] to [m'] the change of [u] on every block solves the rows of the block,
      restricted to it, for [w] times the residual [f - A u] before.  Elsewhere only
      the arrays in [local] have changed. *)
  Definition block_relaxed (m m' : mem S) (tab st : farray) (n : Z) (w : S) (f u : farray) (local : list nat)
      (first : list Z -> Prop) (sizes : list Z) : Prop :=
    (forall c0 c, first c0 -> in_box (block_at c0 sizes) c -> exists b d,
       fel f c m = Some b /\ row_sum m tab st 0 0 (n - 1) c (fun c' => fel u c' m) d /\
       row_sum m tab st 0 0 (n - 1) c (fun c' => if inside (block_at c0 sizes) c' then change m m' u c' else Some (lit 0)) (w * (b - d))%T) /\
    (forall q, (forall c0 c, first c0 -> in_box (block_at c0 sizes) c -> faddr u c <> q) -> ~ In (fst q) local -> load m' q = load m q) /\
    ints m' = ints m.
End BlockJacobi.
