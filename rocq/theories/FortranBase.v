(** * Fortran arrays and loops

    The fragment of Fortran the reference subroutines in /repo/m4 use: arrays with
    explicit bounds passed by address, [do] loops with unit stride and scalar
    assignments. *)

From Verif Require Import Base.
Import ListNotations.
Open Scope Z_scope.

(** A dummy argument [REAL a(l1:u1, l2:u2, ...)]: base address and bounds.  The
    first index varies fastest (Fortran storage order).  Subscripts are not
    checked against the bounds, as in compiled code; the memory checks that the
    address lies in the allocation. *)
Record farray := mkFa { fa_ptr : ptr; fa_dims : list (Z * Z) }.

(** The offset of an element in storage order: the bounds declared by the macros of m4/pdat_m4arrdim*.i. *)
Fixpoint foffset (ds : list (Z * Z)) (is : list Z) : Z :=
  match ds, is with
  | (lo, hi) :: ds', i :: is' => (i - lo) + (hi - lo + 1) * foffset ds' is'
  | _, _ => 0
  end.

(** The address of an element of a dummy argument, as in [u(i,j)] of m4/celldiffusionflux2d.m4. *)
Definition faddr (a : farray) (is : list Z) : ptr := padd (fa_ptr a) (foffset (fa_dims a) is).

(** [do x = lo, hi ... enddo] *)
Definition do_ {M} (lo hi : Z) (body : Z -> M -> option M) (m : M) : option M :=
  forM (map (fun k => lo + Z.of_nat k) (seq 0 (Z.to_nat (hi - lo + 1)))) body m.

Section Fortran.
  Context {S : Scalar}.

  (** A scalar expression over array elements and scalar variables; reading an
      element outside its allocation has no result.  A local variable assigned
      once, such as [diver], is transcribed by a [let]: no array is written
      between its assignment and its uses. *)
  Definition fexp := mem S -> option S.

  (** An array element as a value (m4/*.m4, right-hand sides). *)
  Definition fel (a : farray) (is : list Z) : fexp := fun m => load m (faddr a is).
  (** A scalar argument or literal as a value (m4/*.m4, right-hand sides). *)
  Definition fsc (x : S) : fexp := fun _ => Some x.
  (** A binary operation (m4/*.m4, right-hand sides). *)
  Definition fop (o : S -> S -> S) (e1 e2 : fexp) : fexp :=
    fun m => x <- e1 m ;; y <- e2 m ;; Some (o x y).
  (** Unary minus (m4/*.m4, right-hand sides). *)
  Definition fneg (e : fexp) : fexp := fun m => x <- e m ;; Some (- x)%T.

  (** [a(is) = e]. *)
  Definition fset (a : farray) (is : list Z) (e : fexp) (m : mem S) : option (mem S) :=
    x <- e m ;; store m (faddr a is) x.

  (** One statement after the other; the empty statement. *)
  Definition fseq (s1 s2 : mem S -> option (mem S)) (m : mem S) : option (mem S) :=
    m' <- s1 m ;; s2 m'.
  (** The empty statement: the missing [else] of an [if] in m4/cellsetcorrectionbc*.m4. *)
  Definition fskip (m : mem S) : option (mem S) := Some m.

  (** [x = e] for a local scalar [x], in scope in [s]. *)
  Definition flet (e : fexp) (s : S -> mem S -> option (mem S)) (m : mem S) : option (mem S) :=
    x <- e m ;; s x m.
End Fortran.
Arguments fexp : clear implicits.

(** Notation: [a!(i,j)] is an element, [$x] a scalar variable, [#z] a literal,
    [put a!(i,j) := e] an assignment. *)
Declare Scope fortran_scope.
Delimit Scope fortran_scope with F.
Notation "a ! ( i , .. , j )" := (fel a (cons i%Z .. (cons j%Z nil) ..)) (at level 9, format "a ! ( i ,  .. ,  j )") : fortran_scope.
Notation "$ x" := (fsc x) (at level 1, format "$ x") : fortran_scope.
Notation "# z" := (fsc (lit z)) (at level 1, format "# z") : fortran_scope.
Infix "+" := (fop sadd) : fortran_scope.
Infix "-" := (fop ssub) : fortran_scope.
Infix "*" := (fop smul) : fortran_scope.
Infix "/" := (fop sdiv) : fortran_scope.
Notation "- x" := (fneg x) : fortran_scope.
Notation "'put' a ! ( i , .. , j ) := e" :=
  (fset a (cons i%Z .. (cons j%Z nil) ..) e%F) (at level 80, a at level 8, e at level 79, no associativity) : fortran_scope.
Notation "'scalar' x := e 'in' s" :=
  (flet e%F (fun x => s)) (at level 200, x name, e at level 79, s at level 200) : fortran_scope.
Notation "s1 ;;; s2" := (fseq s1 s2) (at level 90, right associativity) : fortran_scope.

(** Array bounds macros (m4/pdat_m4arrdim1d.i:25-32, pdat_m4arrdim2d.i:53-61,
    pdat_m4arrdim3d.i:103, 107-109).  [CELL] arrays have [g] ghost cells on every
    side; [FACE] arrays list their normal direction first and have one more entry
    in it. *)
Definition CELL1d (f0 l0 g : Z) := [(f0 - g, l0 + g)].
(** [FACE1d] (m4/pdat_m4arrdim1d.i:25-32). *)
Definition FACE1d (f0 l0 g : Z) := [(f0 - g, l0 + 1 + g)].

(** [CELL2d] (m4/pdat_m4arrdim2d.i:53-61). *)
Definition CELL2d (f0 f1 l0 l1 g : Z) := [(f0 - g, l0 + g); (f1 - g, l1 + g)].
(** [FACE2d0] (m4/pdat_m4arrdim2d.i:53-61). *)
Definition FACE2d0 (f0 f1 l0 l1 g : Z) := [(f0 - g, l0 + 1 + g); (f1 - g, l1 + g)].
(** [FACE2d1] (m4/pdat_m4arrdim2d.i:53-61). *)
Definition FACE2d1 (f0 f1 l0 l1 g : Z) := [(f1 - g, l1 + 1 + g); (f0 - g, l0 + g)].

(** [CELL3d] (m4/pdat_m4arrdim3d.i:103). *)
Definition CELL3d (f0 f1 f2 l0 l1 l2 g : Z) := [(f0 - g, l0 + g); (f1 - g, l1 + g); (f2 - g, l2 + g)].
(** [FACE3d0] (m4/pdat_m4arrdim3d.i:107-109). *)
Definition FACE3d0 (f0 f1 f2 l0 l1 l2 g : Z) := [(f0 - g, l0 + 1 + g); (f1 - g, l1 + g); (f2 - g, l2 + g)].
(** [FACE3d1] (m4/pdat_m4arrdim3d.i:107-109). *)
Definition FACE3d1 (f0 f1 f2 l0 l1 l2 g : Z) := [(f1 - g, l1 + 1 + g); (f2 - g, l2 + g); (f0 - g, l0 + g)].
(** [FACE3d2] (m4/pdat_m4arrdim3d.i:107-109). *)
Definition FACE3d2 (f0 f1 f2 l0 l1 l2 g : Z) := [(f2 - g, l2 + 1 + g); (f0 - g, l0 + g); (f1 - g, l1 + g)].
