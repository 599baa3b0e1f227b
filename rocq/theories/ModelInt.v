(** * The index arithmetic in 32-bit [int]

    ModelMatrix, ModelBounds, ModelIters, ModelSpan and ModelProxy compute with
    mathematical integers.  Here the same functions compute with the types of the
    code: every [int] operation is undefined when its exact result is not an
    [int] ([None], signed overflow), and every operation on [diff_t] (the
    difference type of a device pointer, 64 bits) when it is not a 64-bit integer.
    Citations are those of the definitions without the suffix.

    Not checked: loop counters and compile-time indices (below the number of
    dimensions), and the addition of an offset to a pointer. *)

From Verif Require Import Base ModelBounds ModelMatrix ModelIters ModelSpan ModelProxy.
Import ListNotations.
Open Scope Z_scope.

(** The range of [int] (the index type of src/cuda/matrix_utils.hpp): 32 bits. *)
Definition int_min : Z := -2147483648.
(** See [int_min]. *)
Definition int_max : Z := 2147483647.
(** The range of [diff_t] (src/cuda/matrix_traversal_iterator.hpp:166-179): 64 bits. *)
Definition long_min : Z := -9223372036854775808.
(** See [long_min]. *)
Definition long_max : Z := 9223372036854775807.

(** A result that must be an [int], a 64-bit integer. *)
Definition ck (z : Z) : option Z := if (int_min <=? z) && (z <=? int_max) then Some z else None.
(** The same for [diff_t] (matrix_traversal_iterator.hpp:166-179). *)
Definition ckl (z : Z) : option Z := if (long_min <=? z) && (z <=? long_max) then Some z else None.

(** [int] operations. *)
Definition iadd (a b : Z) : option Z := ck (a + b).
(** [int] subtraction (as in matrix_utils.hpp). *)
Definition isub (a b : Z) : option Z := ck (a - b).
(** [int] multiplication (as in matrix_utils.hpp:31-54). *)
Definition imul (a b : Z) : option Z := ck (a * b).
(** [int] division (as in coarse_to_fine_iterator.hpp:27-35). *)
Definition idiv (a b : Z) : option Z := q <- cdiv a b ;; ck q.
(** [int] remainder (as in matrix_utils.hpp). *)
Definition imod (a b : Z) : option Z := _ <- idiv a b ;; cmod a b.

(** [diff_t] operations. *)
Definition ladd (a b : Z) : option Z := ckl (a + b).
(** [diff_t] subtraction (as in forward_stencil_iterator.hpp:43-156). *)
Definition lsub (a b : Z) : option Z := ckl (a - b).
(** [diff_t] multiplication (as in forward_stencil_iterator.hpp:43-156). *)
Definition lmul (a b : Z) : option Z := ckl (a * b).
(** [diff_t] division (as in forward_stencil_iterator.hpp:43-156). *)
Definition ldiv (a b : Z) : option Z := q <- cdiv a b ;; ckl q.
(** [diff_t] remainder (as in forward_stencil_iterator.hpp:43-156). *)
Definition lmod (a b : Z) : option Z := _ <- ldiv a b ;; cmod a b.

(** ** matrix_utils.hpp *)

(** [stride_dim] (matrix_utils.hpp:31-37, 48-54). *)
Definition stride_dim32 (I : Z) (sz : list Z) : option Z :=
  let N := length sz in
  let i0 := Z.to_nat (I + 1) in
  forM (seq i0 (N - i0)) (fun i t => imul t (aget sz i)) 1.

(** [stride_dim(sz,stm)] (39-45). *)
Definition stride_dim_stm32 (I : nat) (sz stm : list Z) : option Z :=
  t <- stride_dim32 (Z.of_nat I) sz ;; imul t (aget stm I).

(** [ravel] (59-65). *)
Definition ravel32 (size coord : list Z) : option Z :=
  let N := length size in
  t <- forM (seq 0 (N - 1))
        (fun i t => a <- iadd t (aget coord i) ;; imul a (aget size (i + 1))) 0 ;;
  iadd t (aget coord (N - 1)).

(** The end of [unravel] (92-98). *)
Definition unravel_adjust32 (size coord : list Z) : option (list Z) :=
  let N := length size in
  a <- isub (aget size 0) (aget coord 0) ;;
  let f := cnot a in
  x <- isub (aget coord 0) f ;;
  c2 <- forM (seq 1 (N - 2))
         (fun i c => s <- isub (aget size i) 1 ;; p <- imul f s ;; y <- iadd (aget c i) p ;; Some (aset c i y))
         (aset coord 0 x) ;;
  p <- imul f (aget size (N - 1)) ;;
  y <- iadd (aget c2 (N - 1)) p ;;
  Some (aset c2 (N - 1) y).

(** The general loop of [unravel] (83-89). *)
Definition unravel_loop32 (size : list Z) (index : Z) (coord : list Z) : option (list Z) :=
  let N := length size in
  r <- forM (seq 0 (N - 1))
        (fun i st =>
           let '(index, coord) := st in
           sz <- forM (seq (i + 2) (N - (i + 2))) (fun j s => imul s (aget size j)) (aget size (i + 1)) ;;
           q <- idiv index sz ;;
           r <- imod index sz ;;
           Some (r, aset coord i q))
        (index, coord) ;;
  let '(index, coord) := r in
  Some (aset coord (N - 1) index).

(** [unravel] (68-99). *)
Definition unravel32 (size : list Z) (index : Z) (coord : list Z) : option (list Z) :=
  match length size with
  | O => None
  | 1%nat => Some (aset coord 0 index)
  | 2%nat =>
      q <- idiv index (aget size 1) ;;
      r <- imod index (aget size 1) ;;
      unravel_adjust32 size (aset (aset coord 0 q) 1 r)
  | 3%nat =>
      s <- imul (aget size 1) (aget size 2) ;;
      q0 <- idiv index s ;;
      index' <- imod index s ;;
      q1 <- idiv index' (aget size 2) ;;
      r1 <- imod index' (aget size 2) ;;
      unravel_adjust32 size (aset (aset (aset coord 0 q0) 1 q1) 2 r1)
  | _ =>
      c <- unravel_loop32 size index coord ;;
      unravel_adjust32 size c
  end.

(** ** matrix_traversal_iterator.hpp *)

(** [size()] (76). *)
Definition mti_size32 (it : mti) : option Z := stride_dim32 (-1) (m_n it).

(** [dereference()] up to the final [*] (108-118): the products are [int], the sum
    is [diff_t]. *)
Definition mti_addr32 (it : mti) : option ptr :=
  o <- forM (seq 0 (length (m_n it)))
        (fun j o => p <- imul (aget (m_stride it) j) (aget (m_cur it) j) ;; ladd o p) 0 ;;
  Some (padd (m_base it) o).

(** [increment()] (126-147). *)
Definition inc_cur32 (n cur : list Z) : option (list Z) :=
  let N := length n in
  r <- forM (rev (seq 0 N))
        (fun i st =>
           let '(cur, f) := st in
           x <- isub (aget n i) 1 ;;
           y <- isub x (aget cur i) ;;
           let a := cnot y in
           an <- imul a (aget n i) ;;
           b <- isub 1 an ;;
           shift <- imul f b ;;
           c <- iadd (aget cur i) shift ;;
           s1 <- isub shift 1 ;;
           f' <- imul f (cnot (cnot s1)) ;;
           Some (aset cur i c, f'))
        (cur, 1) ;;
  let '(cur1, f1) := r in
  cur2 <- forM (seq 0 (N - 1))
           (fun i c => s <- isub (aget n i) 1 ;; p <- imul f1 s ;; y <- iadd (aget c i) p ;; Some (aset c i y))
           cur1 ;;
  p <- imul f1 (aget n (N - 1)) ;;
  y <- iadd (aget cur2 (N - 1)) p ;;
  Some (aset cur2 (N - 1) y).

(** [increment()] on the iterator (matrix_traversal_iterator.hpp:126-147). *)
Definition mti_inc32 (it : mti) : option mti :=
  c <- inc_cur32 (m_n it) (m_cur it) ;; Some (with_cur it c).

(** [decrement()] (149-164). *)
Definition dec_cur32 (n cur : list Z) : option (list Z) :=
  r <- forM (rev (seq 0 (length n)))
        (fun i st =>
           let '(cur, f) := st in
           let a := cnot (aget cur i) in
           an <- imul a (aget n i) ;;
           b <- iadd (-1) an ;;
           shift <- imul f b ;;
           c <- iadd (aget cur i) shift ;;
           s1 <- iadd shift 1 ;;
           f' <- imul f (cnot (cnot s1)) ;;
           Some (aset cur i c, f'))
        (cur, 1) ;;
  Some (fst r).

(** [decrement()] on the iterator (matrix_traversal_iterator.hpp:149-164). *)
Definition mti_dec32 (it : mti) : option mti :=
  c <- dec_cur32 (m_n it) (m_cur it) ;; Some (with_cur it c).

(** [advance(dist)] (166-171): [dist] is [diff_t], [unravel] takes an [int]. *)
Definition mti_adv32 (it : mti) (dist : Z) : option mti :=
  r <- ravel32 (m_n it) (m_cur it) ;;
  d <- ladd dist r ;;
  i <- ck d ;;
  c <- unravel32 (m_n it) i (m_cur it) ;;
  Some (with_cur it c).

(** [distance_to(other)] (173-179). *)
Definition mti_dist32 (it other : mti) : option Z :=
  a <- ravel32 (m_n it) (m_cur other) ;; b <- ravel32 (m_n it) (m_cur it) ;; isub a b.

(** A matrix_traversal_iterator as the [Iter] of forward_stencil_iterator.hpp:43-156. *)
Definition mti_ops32 : IterOps mti := mkOps mti mti_inc32 mti_dec32 mti_adv32 mti_equal.

(** ** forward_stencil_iterator.hpp: the members are [diff_t] *)

Section Fsi32.
  Context {A : Type} (O : IterOps A).

  (** [increment()] (94-107). *)
  Definition fsi_inc32 (f : fsi A) : option (fsi A) :=
    first1 <- o_inc O (f_first f) ;;
    cur1 <- ladd (f_cur f) 1 ;;
    dtl1 <- lsub (f_dtl f) 1 ;;
    let last_not_reached := cnot (cnot dtl1) in
    d <- lsub (f_max f) cur1 ;;
    distance_reached <- imul last_not_reached (cnot d) ;;
    p <- lmul distance_reached (f_max f) ;;
    cur2 <- lsub cur1 p ;;
    st <- lmul distance_reached (f_stride f) ;;
    first2 <- o_adv O first1 st ;;
    Some (mkFsi first2 (f_stride f) (f_max f) dtl1 cur2).

  (** [decrement()] (109-119).  [first -= x] advances by [-x]. *)
  Definition fsi_dec32 (f : fsi A) : option (fsi A) :=
    first1 <- o_dec O (f_first f) ;;
    cur1 <- lsub (f_cur f) 1 ;;
    dtl1 <- ladd (f_dtl f) 1 ;;
    d <- ladd 1 cur1 ;;
    let distance_reached := cnot d in
    p <- lmul distance_reached (f_max f) ;;
    cur2 <- ladd cur1 p ;;
    st <- lmul distance_reached (f_stride f) ;;
    nst <- lsub 0 st ;;
    first2 <- o_adv O first1 nst ;;
    Some (mkFsi first2 (f_stride f) (f_max f) dtl1 cur2).

  (** [advance(dist)] (121-142). *)
  Definition fsi_adv32 (f : fsi A) (dist : Z) : option (fsi A) :=
    dtl <- lsub (f_dtl f) dist ;;
    base_dist <- ladd dist (f_cur f) ;;
    let backwards := b2z (base_dist <? 0) in
    let at_last := cnot dtl in
    q <- ldiv base_dist (f_max f) ;;
    qs <- lmul q (f_stride f) ;;
    i1 <- ladd dist qs ;;
    bs <- lmul backwards (f_stride f) ;;
    i2 <- lsub i1 bs ;;
    s1 <- lsub (f_stride f) 1 ;;
    as1 <- lmul at_last s1 ;;
    iter_dist <- lsub i2 as1 ;;
    bm <- lmul backwards (f_max f) ;;
    r <- lmod base_dist (f_max f) ;;
    c1 <- ladd bm r ;;
    am <- lmul at_last (f_max f) ;;
    cur <- ladd c1 am ;;
    first' <- o_adv O (f_first f) iter_dist ;;
    Some (mkFsi first' (f_stride f) (f_max f) dtl cur).

  (** [distance_to(other)] (144-149). *)
  Definition fsi_dist32 (f other : fsi A) : option Z := lsub (f_dtl f) (f_dtl other).
End Fsi32.

(** [stencil<I>()] (matrix_traversal_iterator.hpp:78-101). *)
Definition mti_stencil32 (it : mti) (I : nat) : option (fsi mti) :=
  let N := length (m_n it) in
  dims <- mapM (fun i => if Nat.eqb i I then isub (aget (m_n it) i) 1 else Some (aget (m_n it) i))
               (seq 0 N) ;;
  st <- stride_dim32 (Z.of_nat I) (m_n it) ;;
  limit <- stride_dim32 (Z.of_nat I - 1) dims ;;
  sz <- stride_dim32 (-1) dims ;;
  Some (make_forward_stencil it st limit sz).

(** ** coarse_to_fine_iterator.hpp *)

(** [coarse_index] (27-35). *)
Definition coarse_index32 (r fi : Z) : option Z :=
  let negative_fi := b2z (fi <? 0) in
  a <- isub 1 negative_fi ;;
  q1 <- idiv fi r ;;
  x <- imul a q1 ;;
  fi1 <- iadd fi 1 ;;
  q2 <- idiv fi1 r ;;
  q3 <- isub q2 1 ;;
  y <- imul negative_fi q3 ;;
  iadd x y.

(** Constructor (coarse_to_fine_iterator.hpp:49-57). *)
Definition c2f_make32 (p : ptr) (ratio st fine_index : Z) : option c2f :=
  ci <- coarse_index32 ratio fine_index ;; Some (mkC2f p ratio st fine_index ci).

(** [dereference()] (64-67). *)
Definition c2f_addr32 (c : c2f) : option ptr :=
  k <- coarse_index32 (c_r c) (c_fi c) ;;
  d <- isub k (c_ci c) ;;
  o <- imul d (c_s c) ;;
  Some (padd (c_first c) o).

(** [increment] (75), [decrement] (77): [int]; [advance] (79): [fi += dist] in
    [diff_t], stored in an [int]. *)
Definition c2f_move32 (c : c2f) (d : Z) : option c2f :=
  x <- ladd (c_fi c) d ;; fi <- ck x ;; Some (mkC2f (c_first c) (c_r c) (c_s c) fi (c_ci c)).

(** [distance_to] (81-87). *)
Definition c2f_dist32 (c other : c2f) : option Z := isub (c_fi other) (c_fi c).

(** [make_coarse_to_fine<I,N>] (96-102). *)
Definition make_coarse_to_fine32 (I : nat) (it : ptr) (sz ci : list Z) (fi ratio : Z) : option c2f :=
  o <- ravel32 sz ci ;; s <- stride_dim32 (Z.of_nat I) sz ;; c2f_make32 (padd it o) ratio s fi.

(** ** md_bounds.hpp *)

(** The members of a [bounds] are [int]s. *)
Definition b_rep (b : bounds) : option bounds :=
  _ <- ck (first b) ;; _ <- ck (last b) ;; _ <- ck (stride b) ;; Some b.

(** [operator+] (85-94), [shift] (110-116), [ub], [size] (58-61). *)
Definition db_plus32 (b : bounds) (x : Z) : option bounds :=
  if 0 <=? x then l <- iadd (last b) x ;; Some (mkBounds (first b) l (stride b))
  else y <- isub 0 x ;; f <- isub (first b) y ;; Some (mkBounds f (last b) (stride b)).
(** [shift] (md_bounds.hpp:110-116). *)
Definition b_shift32 (b : bounds) (x : Z) : option bounds :=
  f <- iadd (first b) x ;; l <- iadd (last b) x ;; Some (mkBounds f l (stride b)).
(** [ub] (md_bounds.hpp:58-61). *)
Definition b_ub32 (b : bounds) : option Z := isub (last b) 1.
(** [size] (md_bounds.hpp:58-61). *)
Definition b_size32 (b : bounds) : option Z := d <- isub (last b) (first b) ;; idiv d (stride b).

(** [(ps.size() * ...)] (md_device_span.hpp:294): a right fold. *)
Fixpoint bounds_sz32 (bs : list dbnd) : option Z :=
  match bs with
  | [] => Some 1
  | [b] => b_size32 (snd b)
  | b :: bs' => x <- b_size32 (snd b) ;; y <- bounds_sz32 bs' ;; imul x y
  end.

(** ** submatrix_iterator.hpp *)

(** [make_submatrix_helper] (23-50). *)
Definition make_submatrix_helper32 (seqI : list nat) (it : ptr) (sz lb ub stm : list Z)
    (flag : bool) : option mti :=
  n <- mapM (fun i => a <- isub (aget ub i) (aget lb i) ;; b <- iadd a (aget stm i) ;; idiv b (aget stm i)) seqI ;;
  strides <- mapM (fun i => stride_dim_stm32 i sz stm) seqI ;;
  o <- ravel32 sz lb ;;
  Some (mkMti (padd it o) strides (map (fun _ => 0) seqI) n
              (Nat.ltb (length seqI) (length sz) || flag)).

(** ** md_device_span.hpp *)

(** [b[i].size()] for every dimension, as [span_sizes] (md_device_span.hpp:336-601). *)
Definition span_sizes32 (s : span) : option (list Z) := mapM (fun b => b_size32 (snd b)) (sp_b s).

(** [x[i] -= b[i].lb()] for all [i]. *)
Definition sub_lb32 (s : span) (c : list Z) : option (list Z) :=
  forM (seq 0 (length (sp_b s)))
    (fun i a =>
       y <- isub (aget a i) (b_lb (snd (nth i (sp_b s) (0%nat, mkBounds 0 0 1)))) ;;
       Some (aset a i y)) c.

(** [call_helper] (559-597). *)
Definition call_helper32 (iter_flag : bool) (s : span) (bnds : list dbnd) : option mti :=
  let N := length (sp_b s) in
  let O := map fst bnds in
  _ <- mapM (fun b => b_rep (snd b)) (sp_b s) ;;
  _ <- mapM (fun b => b_rep (snd b)) bnds ;;
  if Nat.ltb N (length bnds) then None else
  let pad := repeat 0 (N - length bnds) in
  let lb_bnds := map (fun b => b_lb (snd b)) bnds ++ pad in
  ubs <- mapM (fun b => b_ub32 (snd b)) bnds ;;
  let ub_bnds := ubs ++ pad in
  let stm_bnds := map (fun b => stride (snd b)) bnds ++ pad in
  lb <- mapM (fun d => nth_error lb_bnds (map_index O d)) (sp_order s) ;;
  ub <- mapM (fun d => nth_error ub_bnds (map_index O d)) (sp_order s) ;;
  stm <- mapM (fun d => nth_error stm_bnds (map_index O d)) (sp_order s) ;;
  let win := seq (length bnds) (N - length bnds) in
  let bnd i := snd (nth i (sp_b s) (0%nat, mkBounds 0 0 1)) in
  let lb := fold_left (fun a i => aset a i (b_lb (bnd i))) win lb in
  ub <- forM win (fun i a => u <- b_ub32 (bnd i) ;; Some (aset a i u)) ub ;;
  let stm := fold_left (fun a i => aset a i (stride (bnd i))) win stm in
  lb <- sub_lb32 s lb ;;
  ub <- sub_lb32 s ub ;;
  sz <- span_sizes32 s ;;
  let sq := transpose_sequence (sp_order s) O in
  if forallb (fun i => Nat.ltb i N) sq
  then make_submatrix_helper32 sq (sp_ptr s) sz lb ub stm iter_flag
  else None.

(** [at(is...)] (405-417). *)
Definition span_at32 (s : span) (is : list Z) : option ptr :=
  let N := length (sp_b s) in
  _ <- mapM (fun b => b_rep (snd b)) (sp_b s) ;;
  _ <- mapM ck is ;;
  if Nat.eqb (length is) N then
    c <- sub_lb32 s is ;;
    sz <- span_sizes32 s ;;
    o <- ravel32 sz c ;;
    Some (padd (sp_ptr s) o)
  else None.

(** [coarse_to_fine(r, cbnds, fbnds...)] (511-543). *)
Definition coarse_to_fine32 (s : span) (r : Z) (cb fb : list dbnd) : option c2f :=
  let N := length (sp_b s) in
  let Coarse := map fst cb in
  let Fine := map fst fb in
  let Base := sp_order s in
  _ <- mapM (fun b => b_rep (snd b)) (sp_b s) ;;
  _ <- mapM (fun b => b_rep (snd b)) cb ;;
  _ <- mapM (fun b => b_rep (snd b)) fb ;;
  _ <- ck r ;;
  if negb (Nat.eqb (length cb + 1) (length fb)) then None else
  if Nat.ltb N (length cb) then None else
  I <- missing_index Fine Coarse ;;
  fI <- nth_error fb (map_index Fine I) ;;
  let fi := b_lb (snd fI) in
  cbl <- mapM (fun d => c <- nth_error cb (map_index Coarse d) ;; Some (b_lb (snd c))) Coarse ;;
  let lb_bnds := cbl ++ repeat 0 (N - length cb) in
  lb <- mapM (fun d => nth_error lb_bnds (map_index Coarse d)) Base ;;
  if negb (Nat.ltb (map_index Base I) N) then None else
  ci <- coarse_index32 r fi ;;
  lb <- sub_lb32 s (aset lb (map_index Base I) ci) ;;
  sz <- span_sizes32 s ;;
  make_coarse_to_fine32 (map_index Base I) (sp_ptr s) sz lb fi r.

Section Expr.
  Context {S : Scalar}.
  Notation iter := (@iter S).
  Notation expr := (@expr S).

  (** [dereference()] of [offset_iterator] (offset_iterator.hpp:38-44): the table
      index and the products are [int], the sum is [diff_t]; [advance] (56) adds to
      an [int]. *)
  Definition offi_deref32 (o : offi) (m : mem S) : option S :=
    let N := length (o_stride o) in
    i <- forM (seq 0 N)
          (fun j i =>
             a <- imul (o_idx o) (Z.of_nat N) ;;
             k <- iadd a (Z.of_nat j) ;;
             oj <- loadi m (padd (o_ptr o) k) ;;
             p <- imul (aget (o_stride o) j) oj ;;
             ladd i p) 0 ;;
    load m (padd (o_first o) i).
  (** [increment]/[decrement]/[advance] (offset_iterator.hpp:52-56). *)
  Definition offi_move32 (o : offi) (d : Z) : option offi :=
    x <- ladd (o_idx o) d ;; i <- ck x ;; Some (mkOffi (o_first o) (o_stride o) (o_ptr o) i).

  (** [dot_impl::operator()] (md_device_span.hpp:137-150). *)
  Definition dot_loop32 (st : list Z) (optr : ptr) (n : Z) (ps pv : ptr) (m : mem S) : option S :=
    let o := make_offset_iterator pv st optr in
    forM (seq 0 (Z.to_nat n))
      (fun i res =>
         s <- load m (padd ps (Z.of_nat i)) ;;
         oi <- offi_move32 o (Z.of_nat i) ;;
         x <- offi_deref32 oi m ;;
         Some (res + s * x)%T) (lit 0).

  (** [*it]. *)
  Definition mti_deref32 (it : mti) (m : mem S) : option val :=
    p <- mti_addr32 it ;;
    if m_ptr it then Some (VPtr p) else x <- load m p ;; Some (VNum x).

  (** [*it] for the iterators of an expression, as [it_deref] of ModelIters. *)
  Fixpoint it_deref32 (it : iter) (m : mem S) : option val :=
    match it with
    | IMat k => mti_deref32 k m
    | IFwd f =>
        pr <- fsi_pair mti_ops32 f ;;
        a <- mti_deref32 (fst pr) m ;;
        b <- mti_deref32 (snd pr) m ;;
        match a, b with
        | VNum x, VNum y => Some (VSt x y)
        | _, _ => None
        end
    | ICoarse c => p <- c2f_addr32 c ;; x <- load m p ;; Some (VNum x)
    | IRight o t i => u <- it_deref32 i m ;; app_op o (VNum t) u
    | ILeft o i t => u <- it_deref32 i m ;; app_op o u (VNum t)
    | IZipOp o i j => u <- it_deref32 i m ;; v <- it_deref32 j m ;; app_op o u v
    | IDot st p n i j =>
        u <- it_deref32 i m ;; v <- it_deref32 j m ;;
        match u, v with
        | VPtr ps, VPtr pv => r <- dot_loop32 st p n ps pv m ;; Some (VNum r)
        | _, _ => None
        end
    | IConst x => Some (VNum x)
    end.

  (** [++it], [it += d]. *)
  Fixpoint it_inc32 (it : iter) : option iter :=
    match it with
    | IMat m => m' <- mti_inc32 m ;; Some (IMat m')
    | IFwd f => f' <- fsi_inc32 mti_ops32 f ;; Some (IFwd f')
    | ICoarse c => c' <- c2f_move32 c 1 ;; Some (ICoarse c')
    | IRight o t i => i' <- it_inc32 i ;; Some (IRight o t i')
    | ILeft o i t => i' <- it_inc32 i ;; Some (ILeft o i' t)
    | IZipOp o i j => i' <- it_inc32 i ;; j' <- it_inc32 j ;; Some (IZipOp o i' j')
    | IDot st p n i j => i' <- it_inc32 i ;; j' <- it_inc32 j ;; Some (IDot st p n i' j')
    | IConst x => Some (IConst x)
    end.

  (** [it + d] for the iterators of an expression, as [it_adv] of ModelIters. *)
  Fixpoint it_adv32 (it : iter) (d : Z) : option iter :=
    match it with
    | IMat m => m' <- mti_adv32 m d ;; Some (IMat m')
    | IFwd f => f' <- fsi_adv32 mti_ops32 f d ;; Some (IFwd f')
    | ICoarse c => c' <- c2f_move32 c d ;; Some (ICoarse c')
    | IRight o t i => i' <- it_adv32 i d ;; Some (IRight o t i')
    | ILeft o i t => i' <- it_adv32 i d ;; Some (ILeft o i' t)
    | IZipOp o i j => i' <- it_adv32 i d ;; j' <- it_adv32 j d ;; Some (IZipOp o i' j')
    | IDot st p n i j => i' <- it_adv32 i d ;; j' <- it_adv32 j d ;; Some (IDot st p n i' j')
    | IConst x => Some (IConst x)
    end.

  (** The bounds handed on by stencil_helper (105) and shift_helper (205). *)
  Definition grow_dom32 (sh : Z) (d : dim) (dom : list dbnd) : option (list dbnd) :=
    mapM (fun b => x <- db_plus32 (snd b) (shift_v sh d (fst b)) ;; Some (fst b, x)) dom.
  (** The bounds handed on by shift_helper (md_device_span.hpp:205). *)
  Definition shift_dom32 (d : dim) (z : Z) (dom : list dbnd) : option (list dbnd) :=
    mapM (fun b => x <- b_shift32 (snd b) (if Nat.eqb d (fst b) then z else 0) ;; Some (fst b, x)) dom.

  (** The call operators. *)
  Fixpoint eval32 (e : expr) (dom : list dbnd) : option iter :=
    match e with
    | ESpan s => m <- call_helper32 false s dom ;; Some (IMat m)
    | ENumL o t e' => i <- eval32 e' dom ;; Some (IRight o t i)
    | ENumR o e' t => i <- eval32 e' dom ;; Some (ILeft o i t)
    | EBin o e1 e2 => i <- eval32 e1 dom ;; j <- eval32 e2 dom ;; Some (IZipOp o i j)
    | EStencil sh s d =>
        g <- grow_dom32 sh d dom ;;
        m <- call_helper32 false s g ;;
        f <- mti_stencil32 m (map_index (map fst dom) d) ;;
        Some (IFwd f)
    | EShift d z e' => _ <- ck z ;; g <- shift_dom32 d z dom ;; eval32 e' g
    | EDot st u o =>
        u_it <- call_helper32 false st dom ;;
        v_it <- call_helper32 true u dom ;;
        let N := length dom in
        wb <- nth_error (sp_b st) N ;;
        n <- b_size32 (snd wb) ;;
        let strides := map (fun k => mti_stride_dim v_it (N - 1 - k)) (seq 0 N) in
        Some (IDot strides o n (IMat u_it) (IMat v_it))
    | EFine s r cb => c <- coarse_to_fine32 s r cb dom ;; Some (ICoarse c)
    end.

  (** ** Assignments *)

  (** Writing through the output iterator of thrust::copy_n, fill_n (md_device_span.hpp:76-83). *)
  Definition write_val32 (dst : mti) (v : val) (m : mem S) : option (mem S) :=
    p <- mti_addr32 dst ;;
    if m_ptr dst then None
    else match v with VNum x => store m p x | _ => None end.

  (** thrust::copy_n, one element after the other (md_device_span.hpp:76-83). *)
  Fixpoint copy_loop32 (n : nat) (src : iter) (dst : mti) (m : mem S) : option (mem S) :=
    match n with
    | O => Some m
    | Datatypes.S n' =>
        v <- it_deref32 src m ;;
        m' <- write_val32 dst v m ;;
        src' <- it_inc32 src ;;
        dst' <- mti_inc32 dst ;;
        copy_loop32 n' src' dst' m'
    end.

  (** thrust::fill_n, one element after the other (md_device_span.hpp:76-83). *)
  Fixpoint fill_loop32 (n : nat) (dst : mti) (t : S) (m : mem S) : option (mem S) :=
    match n with
    | O => Some m
    | Datatypes.S n' =>
        m' <- write_val32 dst (VNum t) m ;;
        dst' <- mti_inc32 dst ;;
        fill_loop32 n' dst' t m'
    end.

  (** [assign_proxy::operator()] (76-83). *)
  Definition exec_assign32 (dom : list dbnd) (a : @assign S) (m : mem S) : option (mem S) :=
    out <- call_helper32 false (lhs_of a) dom ;;
    size <- mti_size32 out ;;
    let n := Z.to_nat size in
    match a with
    | ANum _ t => fill_loop32 n out t m
    | AExpr _ e => src <- eval32 e dom ;; copy_loop32 n src out m
    end.

  (** Random access. *)
  Definition copy_elem32 (src : iter) (dst : mti) (k : Z) (m : mem S) : option (mem S) :=
    s <- it_adv32 src k ;;
    d <- mti_adv32 dst k ;;
    v <- it_deref32 s m ;;
    write_val32 d v m.

  (** One element of thrust::fill_n by random access (md_device_span.hpp:76-83). *)
  Definition fill_elem32 (dst : mti) (t : S) (k : Z) (m : mem S) : option (mem S) :=
    d <- mti_adv32 dst k ;; write_val32 d (VNum t) m.

  (** [assign_proxy::operator()] by random access (md_device_span.hpp:76-83). *)
  Definition exec_assign_ra32 (ks : Z -> list Z) (dom : list dbnd) (a : @assign S) (m : mem S)
      : option (mem S) :=
    out <- call_helper32 false (lhs_of a) dom ;;
    size <- mti_size32 out ;;
    match a with
    | ANum _ t => forM (ks size) (fill_elem32 out t) m
    | AExpr _ e => src <- eval32 e dom ;; forM (ks size) (copy_elem32 src out) m
    end.

  (** [with_domain] (271-285), [with_lhs_domain] (324-328), [f.at(..) = c.at(..)]. *)
  Definition with_domain32 (dom : list dbnd) (l : list (@assign S)) (m : mem S) : option (mem S) :=
    forM l (exec_assign32 dom) m.
  (** [with_lhs_domain] (md_device_span.hpp:324-328). *)
  Definition with_lhs_domain32 (a : @assign S) (m : mem S) : option (mem S) :=
    exec_assign32 (sp_b (lhs_of a)) a m.
  (** [f.at(..) = c.at(..)] (coarse_to_fine_cuda.cpp:102). *)
  Definition at_assign32 (f : span) (is : list Z) (c : span) (js : list Z) (m : mem S)
      : option (mem S) :=
    p <- span_at32 c js ;; q <- span_at32 f is ;; x <- load m p ;; store m q x.
End Expr.
