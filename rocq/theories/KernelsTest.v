(** * The library's own test programs: src/cuda/*_test.cpp

    [assert] of a false condition is an undefined outcome ([None]).  The copies of
    the argument arrays into a device_vector and back are not modelled: the
    programs run on the argument arrays themselves. *)

From Verif Require Import Base ModelBounds ModelMatrix ModelIters ModelSpan ModelProxy KernelNotations.
Import ListNotations.
Open Scope Z_scope.

(** [assert(b)]. *)
Definition require (b : bool) : option unit := if b then Some tt else None.

Section Test.
  Context {S : Scalar}.

  (** ** md_device_span_test.cpp *)

  (** init, 1D (22-44).  Lines 40-43 evaluate and read the first element of
      [3*u.stencil_x()]. *)
  Definition span_init_1d (i0 i1 : Z) (h : S) (ugcw : Z) (u_ : ptr) (rgcw : Z) (res_ : ptr) (m : mem S)
      : option (mem S) :=
    let i := Ib i0 i1 in
    let u := make_md_span_g u_ ugcw [i] in
    let res := make_md_span_g res_ rgcw [i] in
    m' <- with_domain [i]
            [(res ::= (lit 2 .* (grad u dI h down + grad u dI h up)) / ($u +. lit 10))%E] m ;;
    it <- eval (lit 3 .* EStencil up u dI)%E [i] ;;
    _ <- it_deref it m' ;;
    Some m'.

  (** stride, 1D (46-63) *)
  Definition span_stride_1d (i0 i1 stride : Z) (beta : S) (ugcw : Z) (u_ : ptr) (rgcw : Z) (res_ : ptr)
      (m : mem S) : option (mem S) :=
    let i := (dI, Bnd_s i0 i1 stride) in
    let u := make_md_span_g u_ ugcw [i] in
    let res := make_md_span_g res_ rgcw [i] in
    with_domain [i] [(res ::= beta .* $u)%E] m.

  (** init, 2D (65-94) *)
  Definition span_init_2d (i0 i1 j0 j1 : Z) (h0 h1 : S) (ugcw : Z) (u_ : ptr) (rgcw : Z) (res_ : ptr)
      (m : mem S) : option (mem S) :=
    let i := Ib i0 i1 in
    let j := Jb j0 j1 in
    let u := make_md_span_g u_ ugcw [i; j] in
    let res := make_md_span_g res_ rgcw [j; i] in
    with_domain [j; i] [(res ::= lit 3 .* (grad u dJ h1 up + grad u dI h0 up))%E] m.

  (** stride, 2D (96-117) *)
  Definition span_stride_2d (i0 i1 is j0 j1 js : Z) (beta : S) (ugcw : Z) (u_ : ptr) (rgcw : Z) (res_ : ptr)
      (m : mem S) : option (mem S) :=
    let i := (dI, Bnd_s i0 i1 is) in
    let j := (dJ, Bnd_s j0 j1 js) in
    let u := make_md_span_g u_ ugcw [i; j] in
    let res := make_md_span_g res_ rgcw [j; i] in
    with_domain [j; i] [(res ::= beta .* $u)%E] m.

  (** stride, 3D (119-144) *)
  Definition span_stride_3d (i0 i1 is j0 j1 js k0 k1 ks : Z) (beta : S) (ugcw : Z) (u_ : ptr) (rgcw : Z)
      (res_ : ptr) (m : mem S) : option (mem S) :=
    let i := (dI, Bnd_s i0 i1 is) in
    let j := (dJ, Bnd_s j0 j1 js) in
    let k := (dK, Bnd_s k0 k1 ks) in
    let u := make_md_span_g u_ ugcw [i; j; k] in
    let res := make_md_span_g res_ rgcw [k; j; i] in
    with_domain [k; j; i] [(res ::= beta .* $u)%E] m.

  (** ** coarse_to_fine_iterator_test.cpp: init (19-27) *)
  Definition fine_init (fi0 fi1 ci0 ci1 ratio : Z) (c_ f_ : ptr) (m : mem S) : option (mem S) :=
    let ci := Ib ci0 ci1 in
    let fi := Ib fi0 fi1 in
    let c := make_md_span c_ [ci] in
    let f := make_md_span f_ [fi] in
    with_domain [fi] [(f ::= EFine c ratio [])%E] m.

  (** ** submatrix_iterator_test.cpp *)

  (** [*it = x] and [*it] of a traversal of an array. *)
  Definition t_put (it : mti) (x : S) (m : mem S) : option (mem S) := write_val it (VNum x) m.
  (** [*it] as a value (src/cuda/submatrix_iterator_test.cpp). *)
  Definition t_get (it : mti) (m : mem S) : option S :=
    v <- mti_deref it m ;; match v with VNum x => Some x | _ => None end.

  (** [ub[i] - lb[i] + 1] (34-37, 119) *)
  Definition t_counts (lb ub : list Z) : list Z :=
    map (fun i => aget ub i - aget lb i + 1) (seq 0 (length lb)).

  (** [x = n[0]; for i >= 1: x *= n[i]] (80-81, 120-121) *)
  Definition t_prod (n : list Z) : Z :=
    fold_left (fun z i => z * aget n i) (seq 1 (length n - 1)) (aget n 0).

  (** init (24-108).  [eqb] is [==] on [T]. *)
  Definition submatrix_init (eqb : S -> S -> bool) (x : ptr) (sz lb ub : list Z) (m : mem S)
      : option (mem S) :=
    let N := length sz in
    let n := t_counts lb ub in
    let nl := aget n (N - 1) in
    s <- make_submatrix x sz lb ub (repeat 1 N) ;;                    (* 42 *)
    m <- t_put s (lit (-1)) m ;;                                      (* 44-46 *)
    s0 <- mti_adv s 0 ;; v <- t_get s0 m ;; _ <- require (eqb v (lit (-1))) ;;
    ss <- mti_adv s 1 ;;                                              (* 47-49 *)
    _ <- require (mti_dist s ss =? 1) ;;
    let s := mti_dec (mti_inc s) in                                   (* 51-53 *)
    v <- t_get s m ;; _ <- require (eqb v (lit (-1))) ;;
    s1 <- mti_adv s 1 ;; m <- t_put s1 (lit (-2)) m ;;                (* 54 *)
    ss <- mti_adv s nl ;; ss <- mti_adv ss (-1) ;;                    (* 58 *)
    m <- t_put ss (lit (-3)) m ;;
    _ <- require (mti_dist s ss =? nl - 1) ;;
    let ss := mti_inc ss in                                           (* 62 *)
    m <- t_put ss (lit (-4)) m ;;
    _ <- require (mti_dist s ss =? nl) ;;
    let ss := mti_dec ss in                                           (* 67 *)
    v <- t_get ss m ;; _ <- require (eqb v (lit (-3))) ;;
    _ <- require (mti_dist s ss =? nl - 1) ;;
    ss <- mti_adv s nl ;;                                             (* 75 *)
    v <- t_get ss m ;; _ <- require (eqb v (lit (-4))) ;;
    _ <- require (mti_dist s ss =? nl) ;;
    let subsize := t_prod n in                                        (* 80-81 *)
    ss <- mti_adv s (subsize - 1) ;;                                  (* 84 *)
    _ <- require (mti_dist s ss =? subsize - 1) ;;
    m <- t_put ss (lit (-5)) m ;;
    let ss := mti_inc ss in                                           (* 88 *)
    _ <- require (mti_dist s ss =? subsize) ;;
    ss <- mti_adv s subsize ;;                                        (* 92 *)
    _ <- require (mti_dist s ss =? subsize) ;;
    if Nat.eqb N 3 then                                               (* 96-105 *)
      let p := aget n (N - 2) * aget n (N - 1) in
      ss <- mti_adv s p ;; ss <- mti_adv ss (-1) ;;
      _ <- require (mti_dist s ss =? p - 1) ;;
      m <- t_put ss (lit (-6)) m ;;
      let ss := mti_inc ss in
      _ <- require (mti_dist s ss =? p) ;;
      m <- t_put ss (lit (-7)) m ;;
      let ss := mti_dec ss in
      v <- t_get ss m ;; _ <- require (eqb v (lit (-6))) ;;
      Some m
    else Some m.

  (** tabulate (110-131): thrust::tabulate stores [f(k)] at [s + k], here one
      element after the other; [negate] of the index converted to [T]. *)
  Definition submatrix_tabulate (x : ptr) (sz lb ub : list Z) (m : mem S) : option (mem S) :=
    let n := t_counts lb ub in
    s <- make_submatrix x sz lb ub (repeat 1 (length sz)) ;;
    forM (seq 0 (Z.to_nat (t_prod n)))
      (fun k m => d <- mti_adv s (Z.of_nat k) ;; t_put d (- lit (Z.of_nat k))%T m) m.

  (** ** transpose_iterator_test.cpp: init (25-36) *)
  Fixpoint t_copy_n (n : nat) (src : mti) (dst : ptr) (m : mem S) : option (mem S) :=
    match n with
    | O => Some m
    | Datatypes.S n' =>
        v <- t_get src m ;; m' <- store m dst v ;; t_copy_n n' (mti_inc src) (padd dst 1) m'
    end.

  (** [init] (src/cuda/transpose_iterator_test.cpp:25-36). *)
  Definition transpose_init (I : list nat) (x : ptr) (sz : list Z) (u : ptr) (m : mem S) : option (mem S) :=
    let z := t_prod sz in
    let first := make_transpose I x sz in
    last <- mti_adv first z ;;
    _ <- require (mti_dist first last =? z) ;;
    t_copy_n (Z.to_nat z) first u m.

  (** ** offset_iterator_test.cpp: init (8-34) *)

  (** [it[i] = x]: [dereference()] of [it + i] (offset_iterator.hpp:38-44) as the
      target of an assignment. *)
  Definition offi_put (o : offi) (x : S) (m : mem S) : option (mem S) :=
    let N := length (o_stride o) in
    i <- forM (seq 0 N)
          (fun j i =>
             oj <- loadi m (padd (o_ptr o) (o_idx o * Z.of_nat N + Z.of_nat j)) ;;
             Some (i + aget (o_stride o) j * oj)) 0 ;;
    store m (padd (o_first o) i) x.

  (** [init] (src/cuda/offset_iterator_test.cpp:8-34). *)
  Definition offset_init (v : ptr) (n_off : Z) (offset : ptr) (dims : list Z) (m : mem S) : option (mem S) :=
    let it := make_offset_iterator v (stride_from_size dims) offset in
    _ <- require (offi_dist it (offi_move it 1) =? 1) ;;
    let x := offi_dec (offi_inc it) in
    _ <- require (offi_equal x it) ;;
    _ <- require (offi_dist x it =? 0) ;;
    forM (seq 0 (Z.to_nat n_off))
      (fun i => offi_put (offi_move it (Z.of_nat i)) (lit (-1 - Z.of_nat i))) m.

  (** ** forward_stencil_iterator_test.cpp *)

  (** init (21-72): only moves, distances and comparisons. *)
  Definition forward_init (I : nat) (u : ptr) (dims : list Z) : option unit :=
    let N := length dims in
    let limit := stride_dim (Z.of_nat I - 1) dims - 1 in
    let stride := stride_dim (Z.of_nat I) dims in
    let u_sz := fold_left (fun z i => z * (if Nat.eqb i I then aget dims i - 1 else aget dims i)) (seq 0 N) 1 in
    let s := make_forward_stencil u stride limit u_sz in
    let O := ptr_ops in
    a <- fsi_adv O s 1 ;;                                             (* 33 *)
    _ <- require (fsi_dist s a =? 1) ;;
    a <- fsi_dec O a ;;
    _ <- require (fsi_equal O a s) ;;
    a <- fsi_inc O a ;; a <- fsi_dec O a ;;                           (* 37-38 *)
    _ <- require (fsi_equal O a s) ;;
    _ <- require (fsi_dist s a =? 0) ;;
    _ <- forM (seq 0 (Z.to_nat u_sz))                                 (* 42 *)
           (fun i t => b <- fsi_adv O s (Z.of_nat i) ;; require (fsi_dist s b =? Z.of_nat i)) tt ;;
    ss <- fsi_adv O s (u_sz - 1) ;;                                   (* 42 *)
    _ <- require (fsi_dist s ss =? u_sz - 1) ;;
    ss <- fsi_inc O ss ;;
    _ <- require (fsi_dist s ss =? u_sz) ;;
    e <- fsi_adv O s u_sz ;;
    _ <- require (fsi_dist s e =? u_sz) ;;
    if Nat.eqb I 0 then Some tt else                                  (* 51 *)
    a <- fsi_adv O s limit ;; a <- fsi_adv O a (-1) ;;                (* 52 *)
    _ <- require (fsi_dist s a =? limit - 1) ;;
    a <- fsi_inc O a ;; a <- fsi_dec O a ;;
    _ <- require (fsi_dist s a =? limit - 1) ;;
    b <- fsi_adv O a 1 ;; b <- fsi_dec O b ;;                         (* 57-58 *)
    _ <- require (fsi_equal O b a) ;;
    b <- fsi_adv O s limit ;; b <- fsi_adv O b (-1) ;;                (* 61-62 *)
    _ <- require (fsi_dist s b =? limit - 1) ;;
    _ <- require (fsi_dist b s =? 1 - limit) ;;
    b <- fsi_inc O b ;;
    _ <- require (fsi_dist s b =? limit) ;;
    _ <- require (fsi_dist b s =? - limit) ;;
    b <- fsi_inc O b ;;
    _ <- require (fsi_dist s b =? limit + 1) ;;
    require (fsi_dist b s =? - limit - 1).

  (** transform (86-107): thrust::transform over as many elements as the distance
      of its two iterators; [gg] (74-84) subtracts the members of a pair. *)
  Fixpoint t_transform (n : nat) (s : fsi ptr) (y : ptr) (m : mem S) : option (mem S) :=
    match n with
    | O => Some m
    | Datatypes.S n' =>
        pr <- fsi_pair ptr_ops s ;;
        a <- load m (fst pr) ;; b <- load m (snd pr) ;;
        m' <- store m y (b - a)%T ;;
        s' <- fsi_inc ptr_ops s ;;
        t_transform n' s' (padd y 1) m'
    end.

  (** [transform] (src/cuda/forward_stencil_iterator_test.cpp:86-107). *)
  Definition forward_transform (I : nat) (v : ptr) (dims : list Z) (u : ptr) (m : mem S) : option (mem S) :=
    let udims := map (fun i => if Nat.eqb i I then aget dims i - 1 else aget dims i) (seq 0 (length dims)) in
    let limit := stride_dim (Z.of_nat I - 1) udims in
    let stride := stride_dim (Z.of_nat I) dims in
    let u_sz := stride_dim (-1) udims in
    let s := make_forward_stencil v stride limit u_sz in
    last <- fsi_adv ptr_ops s u_sz ;;
    _ <- require (fsi_dist s last =? u_sz) ;;
    m' <- t_transform (Z.to_nat (fsi_dist s last)) s u m ;;
    pr <- fsi_pair ptr_ops s ;;                                       (* 106 *)
    _ <- load m' (fst pr) ;; _ <- load m' (snd pr) ;;
    Some m'.

  (** ** window_iterator_test.cpp *)

  (** init (28-48) *)
  Definition window_init (v_ : ptr) (n : Z) (m : mem S) : option (mem S) :=
    _ <- require (n =? 10) ;;
    let i := Ib 1 2 in
    let v := make_md_span v_ [i; Wb 0 4] in
    st <- call_helper false v [i] ;;
    if m_ptr st then
      m <- store m (mti_addr st) (lit 1) ;;
      m <- store m (padd (mti_addr st) 1) (lit 2) ;;
      let st := mti_inc st in
      m <- run_number (WSet1 0 (PNum (lit 3))) (mti_addr st) m ;;
      run_number (WSet1 1 (PNum (lit 4))) (mti_addr st) m
    else None.

  (** transform (50-60) *)
  Definition window_transform (v_ : ptr) (n : Z) (m : mem S) : option (mem S) :=
    _ <- require (n =? 10) ;;
    let i := Ib 1 5 in
    let v := make_md_span v_ [i; Wb 0 1] in
    with_window v [i] [WSet1 0 (PNum (lit 1)); WSet1 1 (POp OAdd (PSt 1) (PNum (lit 2)))] m.

  (** transform2 (62-73) *)
  Definition window_transform2 (v_ : ptr) (n : Z) (m : mem S) : option (mem S) :=
    _ <- require (n =? 15) ;;
    let i := Ib 1 5 in
    let v := make_md_span v_ [i; Wb 0 2] in
    let x := lit 4 in
    with_window v [i]
      [WSet1 0 (POp OSub (POp OAdd (PNeg (POp OAdd (PSt 1) (PSt 2))) (PNum x)) (PNum (lit 1)))] m.

  (** transform3 (75-105); lines 101-103 read the first element of the vector of [f]. *)
  Definition window_transform3 (v_ : ptr) (n : Z) (u_ : ptr) (m : mem S) : option (mem S) :=
    _ <- require (n =? 15) ;;
    let i := Ib 1 5 in
    let v := make_md_span v_ [i; Wb 0 2] in
    let u := make_md_span u_ [i] in
    let f := POp OAdd (PNeg (POp OAdd (PSt 1) (PSt 2))) (PVec (lit 3 .* $u)%E) in
    it <- rhs_iters f [i] ;;
    t <- tup_deref it m ;;
    e <- nth_error t 0 ;;
    _ <- entry_val e m ;;
    with_window v [i] [WSet1 0 f] m.

  (** transform4 (107-122) *)
  Definition window_transform4 (v_ : ptr) (n : Z) (u_ : ptr) (m : mem S) : option (mem S) :=
    _ <- require (n =? 20) ;;
    let i := (dI, Bnd_s 1 5 1) in
    let v := make_md_span v_ [i; Wb 0 3] in
    let u := make_md_span u_ [i] in
    let f := (lit 3 .* $u)%E in
    with_window v [i]
      [WSet1 0 (POp OSub (PNeg (POp OAdd (PSt 2) (PSt 3))) (PVec f)); WSet1 1 (PVec (lit 2 .* f)%E)] m.

  (** rhs (124-150).  Lines 136-140 only build expressions. *)
  Definition window_rhs (rhs_ v_ : ptr) (n : Z) (u_ : ptr) (m : mem S) : option (mem S) :=
    _ <- require (n =? 20) ;;
    let i := Ib 1 5 in
    let rhs := make_md_span rhs_ [i] in
    let v := make_md_span v_ [i; Wb 0 3] in
    let u := make_md_span u_ [i] in
    with_window v [i] [WSub rhs (POp OMul (PSt 1) (PVec ($u)%E))] m.
End Test.
