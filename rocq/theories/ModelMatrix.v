(** * Model of src/cuda/matrix_utils.hpp, matrix_traversal_iterator.hpp,
      submatrix_iterator.hpp and transpose_iterator.hpp

    Arrays [int (&x)[N]] are lists; [N] is the length of [size].  Loops over an
    index are folds over [seq]. *)

From Verif Require Import Base ModelBounds.
Import ListNotations.
Open Scope Z_scope.

(** [stride_from_size] (matrix_utils.hpp:23-28): [stride[N-1] = 1], then
    [i] from [N-2] down to 0.  The out-parameter starts as any array of length
    [N]; here zeros. *)
Definition stride_from_size (size : list Z) : list Z :=
  let N := length size in
  let init := aset (repeat 0 N) (N - 1) 1 in
  fold_left (fun st i => aset st i (aget st (i + 1) * aget size (i + 1)))
            (rev (seq 0 (N - 1))) init.

(** [stride_dim<I,N>(sz)] (matrix_utils.hpp:31-37, and the runtime version
    48-54): product of [sz[i]] for [I < i < N].  [I] is an integer because the
    code instantiates it with -1. *)
Definition stride_dim (I : Z) (sz : list Z) : Z :=
  let N := length sz in
  let i0 := Z.to_nat (I + 1) in
  fold_left (fun t i => t * aget sz i) (seq i0 (N - i0)) 1.

(** [stride_dim<I,N>(sz,stm)] (matrix_utils.hpp:39-45). *)
Definition stride_dim_stm (I : nat) (sz stm : list Z) : Z :=
  stride_dim (Z.of_nat I) sz * aget stm I.

(** [ravel] (matrix_utils.hpp:59-65). *)
Definition ravel (size coord : list Z) : Z :=
  let N := length size in
  let t := fold_left (fun t i => (t + aget coord i) * aget size (i + 1))
                     (seq 0 (N - 1)) 0 in
  t + aget coord (N - 1).

(** The "last position" adjustment at the end of [unravel]
    (matrix_utils.hpp:92-98, N > 1). *)
Definition unravel_adjust (size coord : list Z) : list Z :=
  let N := length size in
  let f := cnot (aget size 0 - aget coord 0) in
  let c1 := aset coord 0 (aget coord 0 - f) in
  let c2 := fold_left (fun c i => aset c i (aget c i + f * (aget size i - 1)))
                      (seq 1 (N - 2)) c1 in
  aset c2 (N - 1) (aget c2 (N - 1) + f * aget size (N - 1)).

(** The general loop of [unravel] (matrix_utils.hpp:83-89), writing
    [coord[i]] for [i < N-1] and then the remainder in [coord[N-1]].
    [coord] arrives with its old contents, all of which is overwritten. *)
Definition unravel_loop (size : list Z) (index : Z) (coord : list Z) : option (list Z) :=
  let N := length size in
  r <- forM (seq 0 (N - 1))
        (fun i st =>
           let '(index, coord) := st in
           let sz := fold_left (fun s j => s * aget size j) (seq (i + 2) (N - (i + 2)))
                               (aget size (i + 1)) in
           q <- cdiv index sz ;;
           r <- cmod index sz ;;
           Some (r, aset coord i q))
        (index, coord) ;;
  let '(index, coord) := r in
  Some (aset coord (N - 1) index).

(** [unravel] (matrix_utils.hpp:68-99) with its N = 1, 2, 3 special cases.
    The old contents of [coord] is passed in, as in the code. *)
Definition unravel (size : list Z) (index : Z) (coord : list Z) : option (list Z) :=
  match length size with
  | O => None
  | 1%nat => Some (aset coord 0 index)
  | 2%nat =>
      q <- cdiv index (aget size 1) ;;
      r <- cmod index (aget size 1) ;;
      Some (unravel_adjust size (aset (aset coord 0 q) 1 r))
  | 3%nat =>
      q0 <- cdiv index (aget size 1 * aget size 2) ;;
      index' <- cmod index (aget size 1 * aget size 2) ;;
      q1 <- cdiv index' (aget size 2) ;;
      r1 <- cmod index' (aget size 2) ;;
      Some (unravel_adjust size (aset (aset (aset coord 0 q0) 1 q1) 2 r1))
  | _ =>
      c <- unravel_loop size index coord ;;
      Some (unravel_adjust size c)
  end.

(** ** [matrix_traversal_iterator] (matrix_traversal_iterator.hpp:44-185)

    [m_ptr] records the instantiation: [false] when [Ref] is the element
    reference (dereference gives [*(first+o)]), [true] when [Ref] is the
    iterator type (dereference gives [first+o]). *)
Record mti := mkMti {
  m_base   : ptr;
  m_stride : list Z;
  m_cur    : list Z;
  m_n      : list Z;
  m_ptr    : bool
}.

(** Assignment to the member [current]. *)
Definition with_cur (it : mti) (c : list Z) : mti :=
  mkMti (m_base it) (m_stride it) c (m_n it) (m_ptr it).

(** [size()] (matrix_traversal_iterator.hpp:76). *)
Definition mti_size (it : mti) : Z := stride_dim (-1) (m_n it).

(** [stride_dim(i)] (matrix_traversal_iterator.hpp:74). *)
Definition mti_stride_dim (it : mti) (i : nat) : Z := aget (m_stride it) i.

(** [dereference()] up to the final [*] (matrix_traversal_iterator.hpp:108-118):
    the address [first + o]. *)
Definition mti_addr (it : mti) : ptr :=
  let N := length (m_n it) in
  let o := fold_left (fun o j => o + aget (m_stride it) j * aget (m_cur it) j)
                     (seq 0 N) 0 in
  padd (m_base it) o.

(** [equal] (matrix_traversal_iterator.hpp:120-124, 28-40): compares [current]
    only. *)
Definition mti_equal (x y : mti) : bool :=
  forallb (fun i => aget (m_cur x) i =? aget (m_cur y) i) (seq 0 (length (m_n x))).

(** [increment()] (matrix_traversal_iterator.hpp:126-147) on [n], [current]. *)
Definition inc_cur (n cur : list Z) : list Z :=
  let N := length n in
  let '(cur1, f1) :=
    fold_left
      (fun st i =>
         let '(cur, f) := st in
         let a := cnot (aget n i - 1 - aget cur i) in
         let b := 1 - a * aget n i in
         let shift := f * b in
         (aset cur i (aget cur i + shift), f * cnot (cnot (shift - 1))))
      (rev (seq 0 N)) (cur, 1) in
  let cur2 := fold_left (fun c i => aset c i (aget c i + f1 * (aget n i - 1)))
                        (seq 0 (N - 1)) cur1 in
  aset cur2 (N - 1) (aget cur2 (N - 1) + f1 * aget n (N - 1)).

(** [increment()] on the iterator (matrix_traversal_iterator.hpp:126-147). *)
Definition mti_inc (it : mti) : mti := with_cur it (inc_cur (m_n it) (m_cur it)).

(** [decrement()] (matrix_traversal_iterator.hpp:149-164). *)
Definition dec_cur (n cur : list Z) : list Z :=
  let N := length n in
  fst (fold_left
         (fun st i =>
            let '(cur, f) := st in
            let a := cnot (aget cur i) in
            let b := -1 + a * aget n i in
            let shift := f * b in
            (aset cur i (aget cur i + shift), f * cnot (cnot (shift + 1))))
         (rev (seq 0 N)) (cur, 1)).

(** [decrement()] on the iterator (matrix_traversal_iterator.hpp:149-164). *)
Definition mti_dec (it : mti) : mti := with_cur it (dec_cur (m_n it) (m_cur it)).

(** [advance(dist)] (matrix_traversal_iterator.hpp:166-171). *)
Definition mti_adv (it : mti) (dist : Z) : option mti :=
  c <- unravel (m_n it) (dist + ravel (m_n it) (m_cur it)) (m_cur it) ;;
  Some (with_cur it c).

(** [distance_to(other)] (matrix_traversal_iterator.hpp:173-179). *)
Definition mti_dist (it other : mti) : Z :=
  ravel (m_n it) (m_cur other) - ravel (m_n it) (m_cur it).

(** ** Submatrix and transpose construction *)

(** [make_submatrix_helper<N>(index_sequence<I...>, it, sz, lb, ub, stm, T)]
    (submatrix_iterator.hpp:23-50).  [flag] is [T = true_type]. *)
Definition make_submatrix_helper (seqI : list nat) (it : ptr) (sz lb ub stm : list Z)
    (flag : bool) : option mti :=
  n <- mapM (fun i => cdiv (aget ub i - aget lb i + aget stm i) (aget stm i)) seqI ;;
  Some (mkMti (padd it (ravel sz lb))
              (map (fun i => stride_dim_stm i sz stm) seqI)
              (map (fun _ => 0) seqI)
              n
              (Nat.ltb (length seqI) (length sz) || flag)).

(** [make_submatrix] (submatrix_iterator.hpp:54-63). *)
Definition make_submatrix (it : ptr) (sz lb ub stm : list Z) : option mti :=
  make_submatrix_helper (seq 0 (length sz)) it sz lb ub stm false.

(** [make_transpose<I...>(it, sz)] (transpose_iterator.hpp:27-45). *)
Definition make_transpose (I : list nat) (it : ptr) (sz : list Z) : mti :=
  mkMti it (map (fun i => stride_dim (Z.of_nat i) sz) I) (map (fun _ => 0) I)
        (map (fun i => aget sz i) I) false.
