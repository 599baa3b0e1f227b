(** * Model of src/cuda/md_bounds.hpp *)

From Verif Require Import Base.
Open Scope Z_scope.

(** [struct bounds] (md_bounds.hpp:15-62): [last] is exclusive. *)
Record bounds := mkBounds { first : Z; last : Z; stride : Z }.

(** Constructor [bounds(first,last,stride=1,inclusive=true)]
    (md_bounds.hpp:21-24); also [dir_bounds] (79-82). *)
Definition Bnd_full (f l s : Z) (inclusive : bool) : bounds :=
  mkBounds f (l + b2z inclusive) s.

(** The constructor with its default arguments, [Ib{f,l}] and [Ib{f,l,s}]. *)
Definition Bnd (f l : Z) : bounds := Bnd_full f l 1 true.
(** The same with a stride (md_bounds.hpp:21-24, 79-82). *)
Definition Bnd_s (f l s : Z) : bounds := Bnd_full f l s true.

(** [operator+=] (md_bounds.hpp:27-31). *)
Definition b_pluseq (b : bounds) (x : Z) : bounds :=
  mkBounds (first b) (last b + x) (stride b).

(** [operator-=] (md_bounds.hpp:38-42). *)
Definition b_minuseq (b : bounds) (x : Z) : bounds :=
  mkBounds (first b - x) (last b) (stride b).

(** [dir_bounds operator+] (md_bounds.hpp:85-94). *)
Definition db_plus (b : bounds) (x : Z) : bounds :=
  if 0 <=? x then b_pluseq b x else b_minuseq b (- x).

(** [dir_bounds operator-] (md_bounds.hpp:96-100). *)
Definition db_minus (b : bounds) (x : Z) : bounds := b_minuseq b x.

(** [bounds operator+] on plain bounds (md_bounds.hpp:32-36): no sign test. *)
Definition b_plus (b : bounds) (x : Z) : bounds := b_pluseq b x.

(** [expand] (md_bounds.hpp:50-56 and 102-108). *)
Definition b_expand (b : bounds) (x : Z) : bounds := b_pluseq (b_minuseq b x) x.

(** [shift] (md_bounds.hpp:110-116). *)
Definition b_shift (b : bounds) (x : Z) : bounds :=
  mkBounds (first b + x) (last b + x) (stride b).

(** [unit_stride] (md_bounds.hpp:118-123). *)
Definition b_unit (b : bounds) : bounds := mkBounds (first b) (last b) 1.

(** [lb], [ub], [size] (md_bounds.hpp:58-61). *)
Definition b_lb (b : bounds) : Z := first b.
(** [ub] (md_bounds.hpp:58-61). *)
Definition b_ub (b : bounds) : Z := last b - 1.
(** [size] (md_bounds.hpp:58-61). *)
Definition b_size (b : bounds) : option Z := cdiv (last b - first b) (stride b).

(** [enum { K = 0, J, I, W }] (md_bounds.hpp:126-129). *)
Notation dim := nat (only parsing).
(** [K] (md_bounds.hpp:126-129). *)
Definition dK : dim := 0%nat.
(** [J] (md_bounds.hpp:126-129). *)
Definition dJ : dim := 1%nat.
(** [I] (md_bounds.hpp:126-129). *)
Definition dI : dim := 2%nat.
(** [W] (md_bounds.hpp:126-129). *)
Definition dW : dim := 3%nat.

(** A [dir_bounds<D>] value: a direction and its bounds (md_bounds.hpp:76-124). *)
Notation dbnd := (dim * bounds)%type (only parsing).

(** [Ib{f,l}] etc. (md_bounds.hpp:136-143). *)
Definition Kb (f l : Z) : dbnd := (dK, Bnd f l).
(** [Jb] (md_bounds.hpp:136-143). *)
Definition Jb (f l : Z) : dbnd := (dJ, Bnd f l).
(** [Ib] (md_bounds.hpp:136-143). *)
Definition Ib (f l : Z) : dbnd := (dI, Bnd f l).
(** [Wb] (md_bounds.hpp:136-143). *)
Definition Wb (f l : Z) : dbnd := (dW, Bnd f l).

(** [dir_bounds] operators lifted to a direction-tagged value. *)
Definition d_plus (b : dbnd) (x : Z) : dbnd := (fst b, db_plus (snd b) x).
(** [operator-] (md_bounds.hpp:96-100). *)
Definition d_minus (b : dbnd) (x : Z) : dbnd := (fst b, db_minus (snd b) x).
(** [expand] (md_bounds.hpp:102-108). *)
Definition d_expand (b : dbnd) (x : Z) : dbnd := (fst b, b_expand (snd b) x).
(** [shift] (md_bounds.hpp:110-116). *)
Definition d_shift (b : dbnd) (x : Z) : dbnd := (fst b, b_shift (snd b) x).
(** [unit_stride] (md_bounds.hpp:118-123). *)
Definition d_unit (b : dbnd) : dbnd := (fst b, b_unit (snd b)).

(** [detail::expand_bounds] (md_bounds.hpp:147-154). *)
Definition expand_bounds (offset : Z) (b : dbnd) : dbnd :=
  if Nat.eqb (fst b) dW then b else d_expand b offset.

(** [detail::bounds_sz] (md_bounds.hpp:156-160). *)
Definition bounds_sz (bs : list dbnd) : option Z :=
  szs <- mapM (fun b => b_size (snd b)) bs ;; Some (prodZ szs).
