(** * Properties C61, C62: the library's own test programs, for all sizes and data *)

From Coq Require Import Permutation.
From Verif Require Import Base ModelBounds ModelMatrix ModelIters ModelSpan ModelProxy KernelNotations
  SpecIter SpecTest KernelsTest Instances LemTest1 LemTest2 LemTest3 LemTest4.
Import ListNotations.
Open Scope Z_scope.

(** ** C61: iterators and spans *)

(** The examples read an array back. *)
Definition ex_dump {S} (m : option (mem S)) (b n : nat) : option (list S) :=
  match m with Some m => a <- nth_error (cells m) b ;; Some (firstn n a) | None => None end.
Definition ex_cells (l : list (list Z)) : mem ZS := @mkMem ZS l [].

(** A strided copy [res = beta*u], with ghost layers, writes [lo, lo+s, ...] only. *)
Theorem C61_stride_1d : forall (S : Scalar) i0 i1 is beta ug u_ rg r_ (m : mem S) U R,
  1 <= is -> i0 <= i1 -> 0 <= ug -> 0 <= rg -> fst u_ <> fst r_ ->
  holds m u_ (i1 - i0 + 1 + 2 * ug) U -> holds m r_ (i1 - i0 + 1 + 2 * rg) R ->
  exists m', span_stride_1d i0 i1 is beta ug u_ rg r_ m = Some m' /\
    only r_ (i1 - i0 + 1 + 2 * rg) m m' /\
    forall i, i0 - rg <= i <= i1 + rg ->
      load m' (padd r_ (i - (i0 - rg))) =
      Some (if visited i0 i1 is i then (beta * U (i - (i0 - ug))%Z)%T else R (i - (i0 - rg))).
Proof. exact @span_stride_1d_lem. Qed.
Print Assumptions C61_stride_1d.

Example C61_stride_1d_example :
  ex_dump (span_stride_1d 1 5 2 (10 : ZS) 1 (0%nat, 0) 0 (1%nat, 0)
             (ex_cells [[1; 2; 3; 4; 5; 6; 7]; [-1; -1; -1; -1; -1]])) 1 5 = Some [20; -1; 40; -1; 60].
Proof. vm_compute. reflexivity. Qed.

(** In 2D and 3D with the storage order of the result reversed. *)
Theorem C61_stride_2d : forall (S : Scalar) i0 i1 is j0 j1 js beta ug u_ rg r_ (m : mem S) U R,
  let ni g := i1 - i0 + 1 + 2 * g in let nj g := j1 - j0 + 1 + 2 * g in
  1 <= is -> 1 <= js -> i0 <= i1 -> j0 <= j1 -> 0 <= ug -> 0 <= rg -> fst u_ <> fst r_ ->
  holds m u_ (ni ug * nj ug) U -> holds m r_ (nj rg * ni rg) R ->
  exists m', span_stride_2d i0 i1 is j0 j1 js beta ug u_ rg r_ m = Some m' /\
    only r_ (nj rg * ni rg) m m' /\
    forall i j, i0 - rg <= i <= i1 + rg -> j0 - rg <= j <= j1 + rg ->
      let r := (j - (j0 - rg)) * ni rg + (i - (i0 - rg)) in
      load m' (padd r_ r) =
      Some (if (visited i0 i1 is i && visited j0 j1 js j)%bool
            then (beta * U ((i - (i0 - ug)) * nj ug + (j - (j0 - ug)))%Z)%T else R r).
Proof. exact @span_stride_2d_lem. Qed.
Print Assumptions C61_stride_2d.

Example C61_stride_2d_example :
  ex_dump (span_stride_2d 1 3 2 1 2 1 (10 : ZS) 0 (0%nat, 0) 0 (1%nat, 0)
             (ex_cells [[1; 2; 3; 4; 5; 6]; [-1; -1; -1; -1; -1; -1]])) 1 6 = Some [10; -1; 50; 20; -1; 60].
Proof. vm_compute. reflexivity. Qed.

Theorem C61_stride_3d : forall (S : Scalar) i0 i1 is j0 j1 js k0 k1 ks beta ug u_ rg r_ (m : mem S) U R,
  let ni g := i1 - i0 + 1 + 2 * g in let nj g := j1 - j0 + 1 + 2 * g in let nk g := k1 - k0 + 1 + 2 * g in
  1 <= is -> 1 <= js -> 1 <= ks -> i0 <= i1 -> j0 <= j1 -> k0 <= k1 -> 0 <= ug -> 0 <= rg -> fst u_ <> fst r_ ->
  holds m u_ (ni ug * nj ug * nk ug) U -> holds m r_ (nk rg * nj rg * ni rg) R ->
  exists m', span_stride_3d i0 i1 is j0 j1 js k0 k1 ks beta ug u_ rg r_ m = Some m' /\
    only r_ (nk rg * nj rg * ni rg) m m' /\
    forall i j k, i0 - rg <= i <= i1 + rg -> j0 - rg <= j <= j1 + rg -> k0 - rg <= k <= k1 + rg ->
      let r := ((k - (k0 - rg)) * nj rg + (j - (j0 - rg))) * ni rg + (i - (i0 - rg)) in
      load m' (padd r_ r) =
      Some (if (visited i0 i1 is i && visited j0 j1 js j && visited k0 k1 ks k)%bool
            then (beta * U (((i - (i0 - ug)) * nj ug + (j - (j0 - ug))) * nk ug + (k - (k0 - ug)))%Z)%T else R r).
Proof. exact @span_stride_3d_lem. Qed.
Print Assumptions C61_stride_3d.

Example C61_stride_3d_example :
  ex_dump (span_stride_3d 0 1 1 0 2 2 0 0 1 (10 : ZS) 0 (0%nat, 0) 0 (1%nat, 0)
             (ex_cells [[1; 2; 3; 4; 5; 6]; [-1; -1; -1; -1; -1; -1]])) 1 6 = Some [10; 40; -1; -1; 30; 60].
Proof. vm_compute. reflexivity. Qed.

(** The gradient expressions of the 1D and 2D tests. *)
Theorem C61_span_1d : forall (S : Scalar) i0 i1 h ug u_ rg r_ (m : mem S) U R,
  i0 <= i1 -> 1 <= ug -> 0 <= rg -> fst u_ <> fst r_ ->
  holds m u_ (i1 - i0 + 1 + 2 * ug) U -> holds m r_ (i1 - i0 + 1 + 2 * rg) R ->
  exists m', span_init_1d i0 i1 h ug u_ rg r_ m = Some m' /\
    only r_ (i1 - i0 + 1 + 2 * rg) m m' /\
    forall i, i0 - rg <= i <= i1 + rg ->
      let u k := U (k - (i0 - ug)) in
      load m' (padd r_ (i - (i0 - rg))) =
      Some (if ((i0 <=? i) && (i <=? i1))%bool
            then (lit 2 * ((u i - u (i - 1)%Z) / h + (u (i + 1)%Z - u i) / h) / (u i + lit 10))%T
            else R (i - (i0 - rg))).
Proof. exact @span_init_1d_lem. Qed.
Print Assumptions C61_span_1d.

Example C61_span_1d_example :
  ex_dump (span_init_1d 1 3 (1 : ZS) 1 (0%nat, 0) 1 (1%nat, 0)
             (ex_cells [[1; 12; 33; 54; 205]; [-1; -1; -1; -1; -1]])) 1 5 =
  Some [-1; 2 * ((12 - 1) + (33 - 12)) / 22; 2 * (54 - 12) / 43; 2 * (205 - 33) / 64; -1].
Proof. vm_compute. reflexivity. Qed.

Theorem C61_span_2d : forall (S : Scalar) i0 i1 j0 j1 h0 h1 ug u_ rg r_ (m : mem S) U R,
  let ni g := i1 - i0 + 1 + 2 * g in let nj g := j1 - j0 + 1 + 2 * g in
  i0 <= i1 -> j0 <= j1 -> 1 <= ug -> 0 <= rg -> fst u_ <> fst r_ ->
  holds m u_ (ni ug * nj ug) U -> holds m r_ (nj rg * ni rg) R ->
  exists m', span_init_2d i0 i1 j0 j1 h0 h1 ug u_ rg r_ m = Some m' /\
    only r_ (nj rg * ni rg) m m' /\
    forall i j, i0 - rg <= i <= i1 + rg -> j0 - rg <= j <= j1 + rg ->
      let u x y := U ((x - (i0 - ug)) * nj ug + (y - (j0 - ug))) in
      let r := (j - (j0 - rg)) * ni rg + (i - (i0 - rg)) in
      load m' (padd r_ r) =
      Some (if ((i0 <=? i) && (i <=? i1) && ((j0 <=? j) && (j <=? j1)))%bool
            then (lit 3 * ((u i (j + 1)%Z - u i j) / h1 + (u (i + 1)%Z j - u i j) / h0))%T else R r).
Proof. exact @span_init_2d_lem. Qed.
Print Assumptions C61_span_2d.

Example C61_span_2d_example :
  ex_dump (span_init_2d 1 1 1 2 (1 : ZS) (1 : ZS) 1 (0%nat, 0) 0 (1%nat, 0)
             (ex_cells [[0; 0; 0; 0; 1; 2; 7; 5; 0; 20; 30; 0]; [-1; -1]])) 1 2 =
  Some [3 * ((7 - 2) + (20 - 2)); 3 * ((5 - 7) + (30 - 7))].
Proof. vm_compute. reflexivity. Qed.

(** The piecewise constant refinement of an array. *)
Theorem C61_coarse_to_fine : forall (S : Scalar) fi0 fi1 ci0 ci1 ratio c_ f_ (m : mem S) C A,
  1 <= ratio -> fi0 <= fi1 -> ci0 <= fi0 / ratio -> fi1 / ratio <= ci1 -> fst c_ <> fst f_ ->
  holds m c_ (ci1 - ci0 + 1) C -> holds m f_ (fi1 - fi0 + 1) A ->
  exists m', fine_init fi0 fi1 ci0 ci1 ratio c_ f_ m = Some m' /\
    only f_ (fi1 - fi0 + 1) m m' /\
    holds m' f_ (fi1 - fi0 + 1) (fun k => C ((fi0 + k) / ratio - ci0)).
Proof. exact @fine_init_lem. Qed.
Print Assumptions C61_coarse_to_fine.

Example C61_coarse_to_fine_example :
  ex_dump (fine_init (-3) 4 (-2) 2 2 (0%nat, 0) (1%nat, 0)
             (ex_cells [[1; 2; 3; 4; 5]; [0; 0; 0; 0; 0; 0; 0; 0]])) 1 8 = Some [1; 2; 2; 3; 3; 4; 4; 5].
Proof. vm_compute. reflexivity. Qed.

(** tabulate over a submatrix stores minus the row-major number of every cell of
    the submatrix, and touches no other cell. *)
Theorem C61_tabulate : forall (S : Scalar) x sz lb ub (m : mem S) V,
  box sz -> inside sz lb ub -> holds m x (prodZ sz) V ->
  exists m', submatrix_tabulate x sz lb ub m = Some m' /\ only x (prodZ sz) m m' /\
    forall c, in_box sz c ->
      load m' (padd x (ravel sz c)) =
      Some (if between lb ub c then (- lit (ravel (extents lb ub) (relative lb c)))%T else V (ravel sz c)).
Proof. exact @tabulate_ext. Qed.
Print Assumptions C61_tabulate.

Example C61_tabulate_example : box [3; 4] /\ inside [3; 4] [1; 1] [2; 3] /\
  ex_dump (@submatrix_tabulate ZS (0%nat, 0) [3; 4] [1; 1] [2; 3] (ex_cells [[9; 9; 9; 9; 9; 9; 9; 9; 9; 9; 9; 9]])) 0 12 =
  Some [9; 9; 9; 9;  9; 0; -1; -2;  9; -3; -4; -5].
Proof.
  split; [split; [discriminate|repeat constructor; discriminate]|].
  split; [|vm_compute; reflexivity]. unfold inside, in_box. repeat split; repeat constructor; discriminate.
Qed.

(** The submatrix test: none of its assertions about ++, --, +, - fails, and its
    marks land on the corners it names; the submatrix has more than one row (and
    in 3D more than one plane). *)
Theorem C61_submatrix : forall (S : Scalar) eqb x sz lb ub (m : mem S) V,
  box sz -> inside sz lb ub -> (forall v : S, eqb v v = true) -> holds m x (prodZ sz) V ->
  aget (extents lb ub) (length sz - 1) < prodZ (extents lb ub) ->
  (length sz = 3%nat -> aget (extents lb ub) 1 * aget (extents lb ub) 2 < prodZ (extents lb ub)) ->
  exists m', submatrix_init eqb x sz lb ub m = Some m' /\ only x (prodZ sz) m m' /\
    forall c, in_box sz c ->
      load m' (padd x (ravel sz c)) =
      Some (if between lb ub c
            then written (submatrix_marks (extents lb ub)) (ravel (extents lb ub) (relative lb c)) (V (ravel sz c))
            else V (ravel sz c)).
Proof. exact @submatrix_ext. Qed.
Print Assumptions C61_submatrix.

Example C61_submatrix_example : inside [4; 5] [1; 1] [3; 3] /\ extents [1; 1] [3; 3] = [3; 3] /\
  aget (extents [1; 1] [3; 3]) 1 < prodZ (extents [1; 1] [3; 3]) /\
  ex_dump (@submatrix_init ZS Z.eqb (0%nat, 0) [4; 5] [1; 1] [3; 3] (ex_cells [repeat 9 20])) 0 20 =
  Some [9; 9; 9; 9; 9;  9; -1; -2; -3; 9;  9; -4; 9; 9; 9;  9; 9; 9; -5; 9].
Proof.
  split; [unfold inside, in_box; repeat split; repeat constructor; discriminate|].
  split; [reflexivity|]. split; [reflexivity|vm_compute; reflexivity].
Qed.

(** ... and a submatrix of one row stops the test: the position after the row is
    outside the array. *)
Theorem C61_submatrix_refuted : @submatrix_init ZS Z.eqb (0%nat, 0) [1; 3] [0; 0] [0; 2] (ex_cells [[9; 9; 9]]) = None.
Proof. vm_compute. reflexivity. Qed.
Print Assumptions C61_submatrix_refuted.

(** Transposing copies every element to its permuted position. *)
Theorem C61_transpose : forall (S : Scalar) I x u sz (m : mem S) V U,
  box sz -> Permutation I (seq 0 (length sz)) -> fst x <> fst u ->
  holds m x (prodZ sz) V -> holds m u (prodZ sz) U ->
  exists m', transpose_init I x sz u m = Some m' /\ only u (prodZ sz) m m' /\
    forall c, in_box sz c ->
      load m' (padd u (ravel (map (aget sz) I) (map (aget c) I))) = Some (V (ravel sz c)).
Proof. exact @transpose_init_lem. Qed.
Print Assumptions C61_transpose.

(** Transposing with the inverse permutation gives the array back. *)
Theorem C61_transpose_back : forall (S : Scalar) I J x u w sz (m : mem S) V U W,
  box sz -> Permutation I (seq 0 (length sz)) -> Permutation J (seq 0 (length sz)) ->
  map (fun j => nth j I 0%nat) J = seq 0 (length sz) ->
  fst x <> fst u -> fst u <> fst w -> fst x <> fst w ->
  holds m x (prodZ sz) V -> holds m u (prodZ sz) U -> holds m w (prodZ sz) W ->
  exists m', (m1 <- transpose_init I x sz u m ;; transpose_init J u (map (aget sz) I) w m1) = Some m' /\
    holds m' w (prodZ sz) V.
Proof. exact @transpose_back. Qed.
Print Assumptions C61_transpose_back.

Example C61_transpose_example :
  Permutation [2%nat; 0%nat; 1%nat] (seq 0 3) /\ map (fun j => nth j [2%nat; 0%nat; 1%nat] 0%nat) [1%nat; 2%nat; 0%nat] = seq 0 3 /\
  let m := ex_cells [[1; 2; 3; 4; 5; 6; 7; 8]; repeat 0 8; repeat 0 8] in
  let m1 := transpose_init [2%nat; 0%nat; 1%nat] (0%nat, 0) [2; 1; 4] (1%nat, 0) m in
  ex_dump m1 1 8 = Some [1; 5; 2; 6; 3; 7; 4; 8] /\
  ex_dump (m1 <- m1 ;; transpose_init [1%nat; 2%nat; 0%nat] (1%nat, 0) [4; 2; 1] (2%nat, 0) m1) 2 8 = Some [1; 2; 3; 4; 5; 6; 7; 8].
Proof.
  split; [|split; [reflexivity|split; vm_compute; reflexivity]].
  change (seq 0 3) with ([0%nat; 1%nat] ++ [2%nat]). apply (Permutation_cons_append [0%nat; 1%nat] 2%nat).
Qed.

(** The offset test stores -1, -2, ... at the listed index vectors, one after the other. *)
Theorem C61_offset : forall (S : Scalar) v o n_off dims (rows : Z -> list Z) size (m : mem S) V,
  dims <> [] -> holds m v size V ->
  (forall i, 0 <= i < n_off -> length (rows i) = length dims /\ 0 <= ravel dims (rows i) < size) ->
  (forall i j, 0 <= i < n_off -> 0 <= j < Z.of_nat (length dims) ->
     loadi m (padd o (i * Z.of_nat (length dims) + j)) = Some (aget (rows i) (Z.to_nat j))) ->
  exists m', offset_init v n_off o dims m = Some m' /\ only v size m m' /\
    holds m' v size (fun k =>
      written (map (fun i => (ravel dims (rows (Z.of_nat i)), lit (-1 - Z.of_nat i))) (seq 0 (Z.to_nat n_off))) k (V k)).
Proof. exact @offset_init_lem. Qed.
Print Assumptions C61_offset.

Example C61_offset_example :
  ex_dump (offset_init (0%nat, 0) 3 (0%nat, 0) [3; 4] (@mkMem ZS [repeat 9 12] [[1; 2; 0; 0; 2; -1]])) 0 12 =
  Some [-2; 9; 9; 9;  9; 9; -1; -3;  9; 9; 9; 9].
Proof. vm_compute. reflexivity. Qed.

(** The forward-difference test writes the difference of neighbours in dimension [I]. *)
Theorem C61_forward_difference : forall (S : Scalar) I v u n (m : mem S) V U,
  box n -> (I < length n)%nat -> 2 <= aget n I -> fst v <> fst u ->
  holds m v (prodZ n) V -> holds m u (prodZ (reduced n I)) U ->
  exists m', forward_transform I v n u m = Some m' /\ only u (prodZ (reduced n I)) m m' /\
    forall c, in_box (reduced n I) c ->
      load m' (padd u (ravel (reduced n I) c)) = Some (V (ravel n (bump c I)) - V (ravel n c))%T.
Proof. exact @forward_transform_lem. Qed.
Print Assumptions C61_forward_difference.

Example C61_forward_difference_example :
  ex_dump (forward_transform 1 (0%nat, 0) [2; 3] (1%nat, 0) (ex_cells [[1; 4; 9; 16; 25; 36]; [0; 0; 0; 0]])) 1 4 =
  Some [3; 5; 9; 11].
Proof. vm_compute. reflexivity. Qed.

(** The assertions of the forward stencil test hold for these sizes ... *)
Theorem C61_forward_assertions : forall I (u : ptr) n,
  box n -> (I < length n)%nat -> 2 <= aget n I ->
  (I = 0%nat -> 2 <= prodZ (reduced n I)) ->
  (I <> 0%nat -> 2 <= prodZ (firstn I n) /\ 3 <= prodZ (skipn I n)) ->
  forward_init I u n = Some tt.
Proof. exact @forward_init_lem. Qed.
Print Assumptions C61_forward_assertions.

Example C61_forward_assertions_example :
  box [3; 4] /\ 2 <= prodZ (reduced [3; 4] 0) /\ 2 <= prodZ (firstn 1 [3; 4]) /\ 3 <= prodZ (skipn 1 [3; 4]) /\
  forward_init 0 (0%nat, 0) [3; 4] = Some tt /\ forward_init 1 (0%nat, 0) [3; 4] = Some tt.
Proof.
  split; [split; [discriminate|repeat constructor; discriminate]|]. repeat split; vm_compute; (reflexivity || discriminate).
Qed.

(** ... and fail for others: two columns, one row, an array with a single pair. *)
Theorem C61_forward_assertions_refuted :
  forward_init 1 (0%nat, 0) [3; 2] = None /\ forward_init 1 (0%nat, 0) [1; 4] = None /\ forward_init 0 (0%nat, 0) [2] = None.
Proof. vm_compute. repeat split. Qed.
Print Assumptions C61_forward_assertions_refuted.

(** ** C62: windows *)

(** [n] is the length the tests assert. *)
Theorem C62_init : forall (S : Scalar) v_ (m : mem S) V, holds m v_ 10 V ->
  exists m', window_init v_ 10 m = Some m' /\ only v_ 10 m m' /\
    holds m' v_ 10 (fun k => if k =? 0 then lit 1 else if k =? 1 then lit 2 else if k =? 5 then lit 3
                             else if k =? 6 then lit 4 else V k).
Proof. exact @window_init_lem. Qed.
Print Assumptions C62_init.

Theorem C62_transform : forall (S : Scalar) v_ (m : mem S) V, holds m v_ 10 V ->
  exists m', window_transform v_ 10 m = Some m' /\ only v_ 10 m m' /\
    holds m' v_ 10 (fun k => if k mod 2 =? 0 then lit 1 else (V k + lit 2)%T).
Proof. exact @window_transform_lem. Qed.
Print Assumptions C62_transform.

Theorem C62_transform2 : forall (S : Scalar) v_ (m : mem S) V, holds m v_ 15 V ->
  exists m', window_transform2 v_ 15 m = Some m' /\ only v_ 15 m m' /\
    holds m' v_ 15 (fun k => if k mod 3 =? 0 then (lit (-1) * (V (k + 1)%Z + V (k + 2)%Z) + lit 4 - lit 1)%T else V k).
Proof. exact @window_transform2_lem. Qed.
Print Assumptions C62_transform2.

Theorem C62_transform3 : forall (S : Scalar) v_ u_ (m : mem S) V U, fst v_ <> fst u_ ->
  holds m v_ 15 V -> holds m u_ 5 U ->
  exists m', window_transform3 v_ 15 u_ m = Some m' /\ only v_ 15 m m' /\
    holds m' v_ 15 (fun k => if k mod 3 =? 0
                             then (lit (-1) * (V (k + 1)%Z + V (k + 2)%Z) + lit 3 * U (k / 3)%Z)%T else V k).
Proof. exact @window_transform3_lem. Qed.
Print Assumptions C62_transform3.

Theorem C62_transform4 : forall (S : Scalar) v_ u_ (m : mem S) V U, fst v_ <> fst u_ ->
  holds m v_ 20 V -> holds m u_ 5 U ->
  exists m', window_transform4 v_ 20 u_ m = Some m' /\ only v_ 20 m m' /\
    holds m' v_ 20 (fun k =>
      if k mod 4 =? 0 then (lit (-1) * (V (k + 2)%Z + V (k + 3)%Z) - lit 3 * U (k / 4)%Z)%T
      else if k mod 4 =? 1 then (lit 2 * (lit 3 * U (k / 4)%Z))%T else V k).
Proof. exact @window_transform4_lem. Qed.
Print Assumptions C62_transform4.

Theorem C62_rhs : forall (S : Scalar) rhs_ v_ u_ (m : mem S) R V U, fst rhs_ <> fst v_ -> fst rhs_ <> fst u_ ->
  holds m rhs_ 5 R -> holds m v_ 20 V -> holds m u_ 5 U ->
  exists m', window_rhs rhs_ v_ 20 u_ m = Some m' /\ only rhs_ 5 m m' /\
    holds m' rhs_ 5 (fun k => (lit (-1) * (V (4 * k + 1)%Z * U k) + R k)%T).
Proof. exact @window_rhs_lem. Qed.
Print Assumptions C62_rhs.

Definition ex_win : mem ZS := ex_cells [map Z.of_nat (seq 1 20); [10; 20; 30; 40; 50]; [1000; 1000; 1000; 1000; 1000]].

Example C62_example :
  holds ex_win (0%nat, 0) 20 (fun k => k + 1) /\
  ex_dump (window_init (0%nat, 0) 10 ex_win) 0 10 = Some [1; 2; 3; 4; 5; 3; 4; 8; 9; 10] /\
  ex_dump (window_transform (0%nat, 0) 10 ex_win) 0 10 = Some [1; 4; 1; 6; 1; 8; 1; 10; 1; 12] /\
  ex_dump (window_transform2 (0%nat, 0) 15 ex_win) 0 6 = Some [-2; 2; 3; -8; 5; 6] /\
  ex_dump (window_transform3 (0%nat, 0) 15 (1%nat, 0) ex_win) 0 6 = Some [25; 2; 3; 49; 5; 6] /\
  ex_dump (window_transform4 (0%nat, 0) 20 (1%nat, 0) ex_win) 0 8 = Some [-37; 60; 3; 4; -75; 120; 7; 8] /\
  ex_dump (window_rhs (2%nat, 0) (0%nat, 0) 20 (1%nat, 0) ex_win) 2 3 = Some [980; 880; 700].
Proof.
  split; [|vm_compute; repeat split; reflexivity].
  intros k Hk. assert (exists n, (n < 20)%nat /\ k = Z.of_nat n) as (n & Hn & ->) by (exists (Z.to_nat k); split; lia).
  do 20 (destruct n as [|n]; [reflexivity|]). lia.
Qed.
