(** * Model of the remaining iterators

    src/cuda/forward_stencil_iterator.hpp, coarse_to_fine_iterator.hpp,
    offset_iterator.hpp, and of the Thrust adaptors the library combines them
    with (transform_iterator, zip_iterator, constant_iterator). *)

From Verif Require Import Base ModelBounds ModelMatrix.
Import ListNotations.
Open Scope Z_scope.

(** ** [forward_stencil_iterator<Iter>] (forward_stencil_iterator.hpp:43-156)

    Generic in the underlying iterator, as in the code.  [IterOps] collects the
    operations of [Iter] that the class uses. *)
Record IterOps (A : Type) := mkOps {
  o_inc : A -> option A;
  o_dec : A -> option A;
  o_adv : A -> Z -> option A;
  o_eqb : A -> A -> bool
}.
Arguments o_inc {_} _ _.
Arguments o_dec {_} _ _.
Arguments o_adv {_} _ _ _.
Arguments o_eqb {_} _ _ _.

(** A plain device pointer as [Iter] (as in forward_stencil_iterator_test.cpp,
    where it is a device_vector iterator). *)
Definition ptr_ops : IterOps ptr :=
  mkOps ptr (fun p => Some (padd p 1)) (fun p => Some (padd p (-1)))
        (fun p d => Some (padd p d)) (fun p q => snd p =? snd q).

(** A matrix_traversal_iterator as [Iter]. *)
Definition mti_ops : IterOps mti :=
  mkOps mti (fun m => Some (mti_inc m)) (fun m => Some (mti_dec m)) mti_adv mti_equal.

(** The members of forward_stencil_iterator (forward_stencil_iterator.hpp:43-156). *)
Record fsi (A : Type) := mkFsi {
  f_first  : A;      (* first *)
  f_stride : Z;      (* stencil_stride *)
  f_max    : Z;      (* max_stride_distance *)
  f_dtl    : Z;      (* distance_to_last *)
  f_cur    : Z       (* current_distance *)
}.
Arguments mkFsi {_} _ _ _ _ _.
Arguments f_first {_} _.
Arguments f_stride {_} _.
Arguments f_max {_} _.
Arguments f_dtl {_} _.
Arguments f_cur {_} _.

(** Constructor (forward_stencil_iterator.hpp:55-65) and [make_forward_stencil]
    (158-167). *)
Definition make_forward_stencil {A} (it : A) (st lim sz : Z) : fsi A :=
  mkFsi it st lim sz 0.

(** [size()] (forward_stencil_iterator.hpp:76). *)
Definition fsi_size {A} (f : fsi A) : Z := f_dtl f.

Section Fsi.
  Context {A : Type} (O : IterOps A).

  (** [dereference()] (forward_stencil_iterator.hpp:83-86): the two iterators
      whose targets make up the returned pair. *)
  Definition fsi_pair (f : fsi A) : option (A * A) :=
    b <- o_adv O (f_first f) (f_stride f) ;; Some (f_first f, b).

  (** [equal] (forward_stencil_iterator.hpp:88-92). *)
  Definition fsi_equal (f g : fsi A) : bool := o_eqb O (f_first f) (f_first g).

  (** [increment()] (forward_stencil_iterator.hpp:94-107). *)
  Definition fsi_inc (f : fsi A) : option (fsi A) :=
    first1 <- o_inc O (f_first f) ;;
    let cur1 := f_cur f + 1 in
    let dtl1 := f_dtl f - 1 in
    let last_not_reached := cnot (cnot dtl1) in
    let distance_reached := last_not_reached * cnot (f_max f - cur1) in
    let cur2 := cur1 - distance_reached * f_max f in
    first2 <- o_adv O first1 (distance_reached * f_stride f) ;;
    Some (mkFsi first2 (f_stride f) (f_max f) dtl1 cur2).

  (** [decrement()] (forward_stencil_iterator.hpp:109-119). *)
  Definition fsi_dec (f : fsi A) : option (fsi A) :=
    first1 <- o_dec O (f_first f) ;;
    let cur1 := f_cur f - 1 in
    let dtl1 := f_dtl f + 1 in
    let distance_reached := cnot (1 + cur1) in
    let cur2 := cur1 + distance_reached * f_max f in
    first2 <- o_adv O first1 (- (distance_reached * f_stride f)) ;;
    Some (mkFsi first2 (f_stride f) (f_max f) dtl1 cur2).

  (** [advance(dist)] (forward_stencil_iterator.hpp:121-142). *)
  Definition fsi_adv (f : fsi A) (dist : Z) : option (fsi A) :=
    let dtl := f_dtl f - dist in
    let base_dist := dist + f_cur f in
    let backwards := b2z (base_dist <? 0) in
    let at_last := cnot dtl in
    q <- cdiv base_dist (f_max f) ;;
    r <- cmod base_dist (f_max f) ;;
    let iter_dist := dist + q * f_stride f - backwards * f_stride f
                     - at_last * (f_stride f - 1) in
    let cur := backwards * f_max f + r + at_last * f_max f in
    first' <- o_adv O (f_first f) iter_dist ;;
    Some (mkFsi first' (f_stride f) (f_max f) dtl cur).

  (** [distance_to(other)] (forward_stencil_iterator.hpp:144-149). *)
  Definition fsi_dist (f other : fsi A) : Z := f_dtl f - f_dtl other.
End Fsi.

(** [matrix_traversal_iterator::stencil<I>()] and [stencil(int I)]
    (matrix_traversal_iterator.hpp:78-101). *)
Definition mti_stencil (it : mti) (I : nat) : fsi mti :=
  let N := length (m_n it) in
  let dims := map (fun i => if Nat.eqb i I then aget (m_n it) i - 1 else aget (m_n it) i)
                  (seq 0 N) in
  let st := stride_dim (Z.of_nat I) (m_n it) in
  let limit := stride_dim (Z.of_nat I - 1) dims in
  let sz := stride_dim (-1) dims in
  make_forward_stencil it st limit sz.

(** ** [coarse_to_fine_iterator] (coarse_to_fine_iterator.hpp:39-102) *)

(** [detail::coarse_index] (coarse_to_fine_iterator.hpp:27-35). *)
Definition coarse_index (r fi : Z) : option Z :=
  let negative_fi := b2z (fi <? 0) in
  q1 <- cdiv fi r ;;
  q2 <- cdiv (fi + 1) r ;;
  Some ((1 - negative_fi) * q1 + negative_fi * (q2 - 1)).

(** The members of coarse_to_fine_iterator (coarse_to_fine_iterator.hpp:39-102). *)
Record c2f := mkC2f { c_first : ptr; c_r : Z; c_s : Z; c_fi : Z; c_ci : Z }.

(** Constructor (coarse_to_fine_iterator.hpp:49-57). *)
Definition c2f_make (p : ptr) (ratio st fine_index : Z) : option c2f :=
  ci <- coarse_index ratio fine_index ;; Some (mkC2f p ratio st fine_index ci).

(** [dereference()] (64-67), up to the final [*]. *)
Definition c2f_addr (c : c2f) : option ptr :=
  k <- coarse_index (c_r c) (c_fi c) ;; Some (padd (c_first c) ((k - c_ci c) * c_s c)).

(** [equal] (69-73), [increment] (75), [decrement] (77), [advance] (79),
    [distance_to] (81-87). *)
Definition c2f_equal (c d : c2f) : bool := c_fi c =? c_fi d.
(** The fine index moved by [d], common to [increment], [decrement], [advance] (coarse_to_fine_iterator.hpp:75-79). *)
Definition c2f_move (c : c2f) (d : Z) : c2f :=
  mkC2f (c_first c) (c_r c) (c_s c) (c_fi c + d) (c_ci c).
(** [increment] (coarse_to_fine_iterator.hpp:75). *)
Definition c2f_inc (c : c2f) : c2f := c2f_move c 1.
(** [decrement] (coarse_to_fine_iterator.hpp:77). *)
Definition c2f_dec (c : c2f) : c2f := c2f_move c (-1).
(** [advance] (coarse_to_fine_iterator.hpp:79). *)
Definition c2f_adv (c : c2f) (d : Z) : c2f := c2f_move c d.
(** [distance_to] (coarse_to_fine_iterator.hpp:81-87). *)
Definition c2f_dist (c other : c2f) : Z := c_fi other - c_fi c.

(** [make_coarse_to_fine<I,N>] (96-102). *)
Definition make_coarse_to_fine (I : nat) (it : ptr) (sz ci : list Z) (fi ratio : Z)
    : option c2f :=
  c2f_make (padd it (ravel sz ci)) ratio (stride_dim (Z.of_nat I) sz) fi.

(** ** [offset_iterator] (offset_iterator.hpp:12-75) *)

(** The members of offset_iterator (offset_iterator.hpp:12-75). *)
Record offi := mkOffi { o_first : ptr; o_stride : list Z; o_ptr : ptr; o_idx : Z }.

(** [make_offset_iterator] (offset_iterator.hpp:70-75), constructor (24-30). *)
Definition make_offset_iterator (it : ptr) (st : list Z) (o : ptr) : offi :=
  mkOffi it st o 0.

(** [increment]/[decrement]/[advance] (52-56), [distance_to] (58-62), [equal]
    (46-50). *)
Definition offi_move (o : offi) (d : Z) : offi :=
  mkOffi (o_first o) (o_stride o) (o_ptr o) (o_idx o + d).
(** [increment] (offset_iterator.hpp:52-56). *)
Definition offi_inc (o : offi) : offi := offi_move o 1.
(** [decrement] (offset_iterator.hpp:52-56). *)
Definition offi_dec (o : offi) : offi := offi_move o (-1).
(** [distance_to] (offset_iterator.hpp:58-62). *)
Definition offi_dist (o other : offi) : Z := o_idx other - o_idx o.
(** [equal] (offset_iterator.hpp:46-50). *)
Definition offi_equal (o other : offi) : bool := o_idx other =? o_idx o.

Section Deref.
  Context {S : Scalar}.

  (** [dereference()] of [offset_iterator] (offset_iterator.hpp:38-44). *)
  Definition offi_deref (o : offi) (m : mem S) : option S :=
    let N := length (o_stride o) in
    i <- forM (seq 0 N)
          (fun j i =>
             oj <- loadi m (padd (o_ptr o) (o_idx o * Z.of_nat N + Z.of_nat j)) ;;
             Some (i + aget (o_stride o) j * oj)) 0 ;;
    load m (padd (o_first o) i).

  (** ** Values produced by dereferencing *)

  (** A number, a [stencil_t{a,b}] (stencil_impl.hpp:21-23) or an iterator
      (window / offset use). *)
  Inductive val := VNum (x : S) | VSt (a b : S) | VPtr (p : ptr).

  (** The function objects of iter_math.hpp:31-70: plus, multiplies, minus,
      divides and gradient. *)
  Inductive binop := OAdd | OMul | OSub | ODiv | OGrad.

  (** plus, multiplies, minus, divides on numbers (iter_math.hpp:31-61); gradient takes a stencil instead (63-70). *)
  Definition num_op (o : binop) (x y : S) : option S :=
    match o with
    | OAdd => Some (x + y)%T
    | OMul => Some (x * y)%T
    | OSub => Some (x - y)%T
    | ODiv => Some (x / y)%T
    | OGrad => None
    end.

  (** Application of a function object.  Numbers combine with numbers; numbers
      combine with a [stencil_t] component by component
      (stencil_impl.hpp:26-48); [gradient] (iter_math.hpp:63-70) takes the
      spacing and a [stencil_t].  Other combinations do not compile. *)
  Definition app_op (o : binop) (u v : val) : option val :=
    match o, u, v with
    | OGrad, VNum h, VSt x0 x1 => Some (VNum ((x1 - x0) / h)%T)
    | OGrad, _, _ => None
    | _, VNum x, VNum y => r <- num_op o x y ;; Some (VNum r)
    | _, VSt a b, VNum y => r <- num_op o a y ;; s <- num_op o b y ;; Some (VSt r s)
    | _, VNum x, VSt a b => r <- num_op o x a ;; s <- num_op o x b ;; Some (VSt r s)
    | _, _, _ => None
    end.

  (** ** The iterators an expression can produce

      - [IMat]: matrix_traversal_iterator;
      - [IFwd]: forward_stencil_iterator over a traversal;
      - [ICoarse]: coarse_to_fine_iterator;
      - [IRight o t i]: transform_iterator(i, apply_right{t,o}) (iter_math.hpp:75-85);
      - [ILeft o i t]: transform_iterator(i, apply_left{t,o}) (87-97);
      - [IZipOp o i j]: transform_iterator(zip(i,j), apply_zip{o}) (102-111);
      - [IDot st o n i j]: transform_iterator(zip(i,j), dot_impl) (md_device_span.hpp:125-151);
      - [IConst]: thrust::constant_iterator. *)
  Inductive iter :=
  | IMat (m : mti)
  | IFwd (f : fsi mti)
  | ICoarse (c : c2f)
  | IRight (o : binop) (t : S) (i : iter)
  | ILeft (o : binop) (i : iter) (t : S)
  | IZipOp (o : binop) (i j : iter)
  | IDot (st : list Z) (o : ptr) (n : Z) (i j : iter)
  | IConst (x : S).

  (** [++it]: the adaptors forward to their bases (thrust). *)
  Fixpoint it_inc (it : iter) : option iter :=
    match it with
    | IMat m => Some (IMat (mti_inc m))
    | IFwd f => f' <- fsi_inc mti_ops f ;; Some (IFwd f')
    | ICoarse c => Some (ICoarse (c2f_inc c))
    | IRight o t i => i' <- it_inc i ;; Some (IRight o t i')
    | ILeft o i t => i' <- it_inc i ;; Some (ILeft o i' t)
    | IZipOp o i j => i' <- it_inc i ;; j' <- it_inc j ;; Some (IZipOp o i' j')
    | IDot st p n i j => i' <- it_inc i ;; j' <- it_inc j ;; Some (IDot st p n i' j')
    | IConst x => Some (IConst x)
    end.

  (** [--it]. *)
  Fixpoint it_dec (it : iter) : option iter :=
    match it with
    | IMat m => Some (IMat (mti_dec m))
    | IFwd f => f' <- fsi_dec mti_ops f ;; Some (IFwd f')
    | ICoarse c => Some (ICoarse (c2f_dec c))
    | IRight o t i => i' <- it_dec i ;; Some (IRight o t i')
    | ILeft o i t => i' <- it_dec i ;; Some (ILeft o i' t)
    | IZipOp o i j => i' <- it_dec i ;; j' <- it_dec j ;; Some (IZipOp o i' j')
    | IDot st p n i j => i' <- it_dec i ;; j' <- it_dec j ;; Some (IDot st p n i' j')
    | IConst x => Some (IConst x)
    end.

  (** [it += d]. *)
  Fixpoint it_adv (it : iter) (d : Z) : option iter :=
    match it with
    | IMat m => m' <- mti_adv m d ;; Some (IMat m')
    | IFwd f => f' <- fsi_adv mti_ops f d ;; Some (IFwd f')
    | ICoarse c => Some (ICoarse (c2f_adv c d))
    | IRight o t i => i' <- it_adv i d ;; Some (IRight o t i')
    | ILeft o i t => i' <- it_adv i d ;; Some (ILeft o i' t)
    | IZipOp o i j => i' <- it_adv i d ;; j' <- it_adv j d ;; Some (IZipOp o i' j')
    | IDot st p n i j => i' <- it_adv i d ;; j' <- it_adv j d ;; Some (IDot st p n i' j')
    | IConst x => Some (IConst x)
    end.

  (** [other - it].  A transform_iterator forwards to its base and a
      zip_iterator measures its first component (thrust).  [IConst]: the
      counter of thrust::constant_iterator is not modelled (the library never
      measures distances on it). *)
  Fixpoint it_dist (it other : iter) : option Z :=
    match it, other with
    | IMat m, IMat m' => Some (mti_dist m m')
    | IFwd f, IFwd f' => Some (fsi_dist f f')
    | ICoarse c, ICoarse c' => Some (c2f_dist c c')
    | IRight _ _ i, IRight _ _ i' => it_dist i i'
    | ILeft _ i _, ILeft _ i' _ => it_dist i i'
    | IZipOp _ i _, IZipOp _ i' _ => it_dist i i'
    | IDot _ _ _ i _, IDot _ _ _ i' _ => it_dist i i'
    | _, _ => None
    end.

  (** Dereference of a traversal (matrix_traversal_iterator.hpp:108-118). *)
  Definition mti_deref (it : mti) (m : mem S) : option val :=
    if m_ptr it then Some (VPtr (mti_addr it))
    else x <- load m (mti_addr it) ;; Some (VNum x).

  (** The loop of [dot_impl::operator()] (md_device_span.hpp:137-150):
      [res = 0; for i < n: res += st[i]*o[i]].  [st[i]] is pointer indexing,
      [o[i]] is [*(o+i)] of the offset iterator. *)
  Definition dot_loop (st : list Z) (optr : ptr) (n : Z) (ps pv : ptr) (m : mem S) : option S :=
    let o := make_offset_iterator pv st optr in
    forM (seq 0 (Z.to_nat n))
      (fun i res =>
         s <- load m (padd ps (Z.of_nat i)) ;;
         x <- offi_deref (offi_move o (Z.of_nat i)) m ;;
         Some (res + s * x)%T) (lit 0).

  (** [*it]. *)
  Fixpoint it_deref (it : iter) (m : mem S) : option val :=
    match it with
    | IMat k => mti_deref k m
    | IFwd f =>
        pr <- fsi_pair mti_ops f ;;
        a <- mti_deref (fst pr) m ;;
        b <- mti_deref (snd pr) m ;;
        match a, b with
        | VNum x, VNum y => Some (VSt x y)
        | _, _ => None
        end
    | ICoarse c => p <- c2f_addr c ;; x <- load m p ;; Some (VNum x)
    | IRight o t i => u <- it_deref i m ;; app_op o (VNum t) u
    | ILeft o i t => u <- it_deref i m ;; app_op o u (VNum t)
    | IZipOp o i j => u <- it_deref i m ;; v <- it_deref j m ;; app_op o u v
    | IDot st p n i j =>
        u <- it_deref i m ;; v <- it_deref j m ;;
        match u, v with
        | VPtr ps, VPtr pv => r <- dot_loop st p n ps pv m ;; Some (VNum r)
        | _, _ => None
        end
    | IConst x => Some (VNum x)
    end.
End Deref.
