(** * Properties C20-C23: the forward stencil iterator

    [stencil_begin b n I] is the begin iterator over a row-major array of extents
    [n], differencing dimension [I], on top of any random-access iterator range
    [B 0 .. B (size)] ([ra_range], in SpecIter). *)

From Verif Require Import Base ModelBounds ModelMatrix ModelIters ModelSpan Spec SpecIter Instances
  LemMatrix LemProps LemProps3 LemFsi2.
Import ListNotations.
Open Scope Z_scope.

(** ** The base iterators meet the hypothesis *)

Theorem C20_pointers_are_random_access : forall base M, ra_range ptr_ops (padd base) M.
Proof. exact ptr_ra_range. Qed.
Print Assumptions C20_pointers_are_random_access.

(** The traversal iterator at position [p]: [Nat.iter p mti_inc begin]. *)
Theorem C20_traversals_are_random_access : forall base st n flag, box n ->
  exists B, ra_range mti_ops B (prodZ n) /\ B 0 = mti_begin base st n flag.
Proof.
  exact (fun base st n flag Hb =>
    ex_intro _ (mt_at base st n flag)
      (conj (mti_ra_range base st n flag Hb) (eq_sym (mti_begin_at base st n flag Hb)))).
Qed.
Print Assumptions C20_traversals_are_random_access.

(** make_forward_stencil<I> of a traversal is [stencil_begin] on its extents. *)
Theorem C20_traversal_stencil : forall it I, (I < length (m_n it))%nat ->
  mti_stencil it I = stencil_begin it (m_n it) I.
Proof. exact mti_stencil_begin. Qed.
Print Assumptions C20_traversal_stencil.

(** ** C20 *)

(** The [k]-th pair is the [k]-th coordinate of the box that is one cell shorter in
    dimension [I], with its neighbour in that dimension. *)
Theorem C20_pairs : forall A (O : IterOps A) B n I,
  box n -> (I < length n)%nat -> 2 <= aget n I -> ra_range O B (prodZ n) ->
  forall k c, in_box (reduced n I) c -> ravel (reduced n I) c = Z.of_nat k ->
    exists f, fsteps O k (stencil_begin (B 0) n I) = Some f /\
      fsi_pair O f = Some (B (ravel n c), B (ravel n (bump c I))).
Proof. exact @fwd_pair. Qed.
Print Assumptions C20_pairs.

Theorem C20_inc_dec : forall A (O : IterOps A) B n I,
  box n -> (I < length n)%nat -> 2 <= aget n I -> ra_range O B (prodZ n) ->
  forall k, Z.of_nat k < prodZ (reduced n I) ->
    exists f f', fsteps O k (stencil_begin (B 0) n I) = Some f /\ fsi_inc O f = Some f' /\
      fsi_dec O f' = Some f /\ fsteps O (S k) (stencil_begin (B 0) n I) = Some f'.
Proof. exact @fwd_inc_dec. Qed.
Print Assumptions C20_inc_dec.

Theorem C20_distance : forall A (O : IterOps A) B n I,
  box n -> (I < length n)%nat -> 2 <= aget n I -> ra_range O B (prodZ n) ->
  forall k l f g,
    Z.of_nat k <= prodZ (reduced n I) -> Z.of_nat l <= prodZ (reduced n I) ->
    fsteps O k (stencil_begin (B 0) n I) = Some f -> fsteps O l (stencil_begin (B 0) n I) = Some g ->
    fsi_dist f g = Z.of_nat l - Z.of_nat k /\ (fsi_equal O f g = true <-> k = l).
Proof. exact @fwd_dist. Qed.
Print Assumptions C20_distance.

Example C20_example : box [3; 4; 5] /\ 2 <= aget [3; 4; 5] 1 /\
  in_box (reduced [3; 4; 5] 1) [1; 2; 3] /\ ravel (reduced [3; 4; 5] 1) [1; 2; 3] = Z.of_nat 28 /\
  ravel [3; 4; 5] (bump [1; 2; 3] 1) = 38.
Proof.
  split; [split; [discriminate|ex_forall]|]. split; [cbn; lia|].
  split; [repeat constructor; lia|]. split; reflexivity.
Qed.

(** ** C21 *)

Theorem C21_forward_jump : forall A (O : IterOps A) B n I,
  box n -> (I < length n)%nat -> 2 <= aget n I -> ra_range O B (prodZ n) ->
  forall k d f, Z.of_nat (k + d) < prodZ (reduced n I) ->
    fsteps O k (stencil_begin (B 0) n I) = Some f ->
    fsi_adv O f (Z.of_nat d) = fsteps O (k + d) (stencil_begin (B 0) n I).
Proof. exact @fwd_jump_forward. Qed.
Print Assumptions C21_forward_jump.

(** Over a traversal: the coordinates of the two iterators dereferenced after the jump. *)
Theorem C21_traversal_jump : forall base st n flag I k d c,
  box n -> (I < length n)%nat -> 2 <= aget n I ->
  in_box (reduced n I) c -> ravel (reduced n I) c = Z.of_nat (k + d) ->
  exists f g, fsteps mti_ops k (mti_stencil (mti_begin base st n flag) I) = Some f /\
    fsi_adv mti_ops f (Z.of_nat d) = Some g /\
    fsteps mti_ops (k + d) (mti_stencil (mti_begin base st n flag) I) = Some g /\
    fsi_pair mti_ops g = Some (mkMti base st c n flag, mkMti base st (bump c I) n flag).
Proof. exact traversal_jump. Qed.
Print Assumptions C21_traversal_jump.

Example C21_traversal_example :
  box [3; 4; 6] /\ in_box (reduced [3; 4; 6] 1) [2; 1; 4] /\ ravel (reduced [3; 4; 6] 1) [2; 1; 4] = Z.of_nat (7 + 39).
Proof. split; [split; [discriminate|ex_forall]|]. split; [repeat constructor; lia|reflexivity]. Qed.

Example C21_example : Z.of_nat (7 + 40) < prodZ (reduced [3; 4; 6] 1) /\
  exists f, fsteps ptr_ops 7 (stencil_begin (0%nat, 0) [3; 4; 6] 1) = Some f.
Proof. split; [reflexivity|]. eexists. vm_compute. reflexivity. Qed.

(** ** C22 *)

(** For every array, [begin + size] is not the end reached by [size] increments: it
    lies one element beyond. *)
Theorem C22_begin_plus_size_refuted : forall A (O : IterOps A) B n I,
  box n -> (I < length n)%nat -> 2 <= aget n I -> ra_range O B (prodZ n) ->
  forall k f e,
    Z.of_nat k < prodZ (reduced n I) ->
    fsteps O k (stencil_begin (B 0) n I) = Some f ->
    fsteps O (Z.to_nat (prodZ (reduced n I))) (stencil_begin (B 0) n I) = Some e ->
    exists g, fsi_adv O f (prodZ (reduced n I) - Z.of_nat k) = Some g /\
      o_inc O (f_first e) = Some (f_first g) /\ fsi_equal O e g = false.
Proof. exact @fwd_jump_end. Qed.
Print Assumptions C22_begin_plus_size_refuted.

Example C22_witness :
  exists e g, fsteps ptr_ops 4 (stencil_begin (0%nat, 0) [2; 3] 1) = Some e /\
    fsi_adv ptr_ops (stencil_begin (0%nat, 0) [2; 3] 1) 4 = Some g /\
    fsi_size (stencil_begin (0%nat, 0) [2; 3] 1) = 4 /\ fsi_equal ptr_ops e g = false.
Proof. eexists. eexists. vm_compute. repeat split. Qed.

(** ** C23 *)

(** A jump of either sign lands right unless it leaves the current block backwards
    to the first pair of a block. *)
Theorem C23_backward_jump : forall A (O : IterOps A) B n I,
  box n -> (I < length n)%nat -> 2 <= aget n I -> ra_range O B (prodZ n) ->
  forall k d f,
    Z.of_nat k <= prodZ (reduced n I) -> 0 <= Z.of_nat k + d < prodZ (reduced n I) ->
    fsteps O k (stencil_begin (B 0) n I) = Some f ->
    0 <= d + f_cur f \/ (Z.of_nat k + d) mod prodZ (skipn I (reduced n I)) <> 0 ->
    fsi_adv O f d = fsteps O (Z.to_nat (Z.of_nat k + d)) (stencil_begin (B 0) n I).
Proof. exact @fwd_jump. Qed.
Print Assumptions C23_backward_jump.

(** [f_cur] is the position within the block. *)
Theorem C23_position_in_block : forall A (O : IterOps A) B n I,
  box n -> (I < length n)%nat -> 2 <= aget n I -> ra_range O B (prodZ n) ->
  forall k f,
    Z.of_nat k <= prodZ (reduced n I) -> fsteps O k (stencil_begin (B 0) n I) = Some f ->
    f_cur f = (if Z.of_nat k =? prodZ (reduced n I) then prodZ (skipn I (reduced n I))
               else Z.of_nat k mod prodZ (skipn I (reduced n I))) /\
    fsi_size f = prodZ (reduced n I) - Z.of_nat k.
Proof. exact @fwd_cur. Qed.
Print Assumptions C23_position_in_block.

(** In the remaining case every jump lands one stride short of the right pair. *)
Theorem C23_backward_jump_refuted : forall base n I k d f g,
  box n -> (I < length n)%nat -> 2 <= aget n I ->
  Z.of_nat k < prodZ (reduced n I) -> 0 <= Z.of_nat k + d ->
  d + Z.of_nat k mod prodZ (skipn I (reduced n I)) < 0 ->
  (Z.of_nat k + d) mod prodZ (skipn I (reduced n I)) = 0 ->
  fsteps ptr_ops k (stencil_begin base n I) = Some f ->
  fsteps ptr_ops (Z.to_nat (Z.of_nat k + d)) (stencil_begin base n I) = Some g ->
  exists h, fsi_adv ptr_ops f d = Some h /\ f_first h = padd (f_first g) (- f_stride f) /\
    fsi_equal ptr_ops h g = false.
Proof. exact fwd_back_too_far. Qed.
Print Assumptions C23_backward_jump_refuted.

(** Over plain pointers, for every start (the end included) and every target: *)
Theorem C23_jump_exact : forall base n I k d f g,
  box n -> (I < length n)%nat -> 2 <= aget n I ->
  Z.of_nat k <= prodZ (reduced n I) -> 0 <= Z.of_nat k + d < prodZ (reduced n I) ->
  fsteps ptr_ops k (stencil_begin base n I) = Some f ->
  fsteps ptr_ops (Z.to_nat (Z.of_nat k + d)) (stencil_begin base n I) = Some g ->
  fsi_adv ptr_ops f d = Some
    (if (d + f_cur f <? 0) && ((Z.of_nat k + d) mod f_max f =? 0)
     then mkFsi (padd (f_first g) (- f_stride f)) (f_stride f) (f_max f) (f_dtl g) (f_max f)
     else g).
Proof. exact fwd_jump_exact. Qed.
Print Assumptions C23_jump_exact.

Example C23_exact_example :
  exists f g, fsteps ptr_ops 8 (stencil_begin (0%nat, 0) [4; 3] 1) = Some f /\
    fsteps ptr_ops 4 (stencil_begin (0%nat, 0) [4; 3] 1) = Some g /\
    ((-4 + f_cur f <? 0) && ((8 + -4) mod f_max f =? 0))%bool = true.
Proof. eexists. eexists. vm_compute. repeat split. Qed.

Example C23_example :
  (exists f, fsteps ptr_ops 5 (stencil_begin (0%nat, 0) [4; 3] 1) = Some f /\ f_cur f = 1) /\
  (5 + -2) mod prodZ (skipn 1 (reduced [4; 3] 1)) <> 0.
Proof. split; [eexists; vm_compute; split; reflexivity|vm_compute; discriminate]. Qed.

Example C23_witness :
  exists f g h, fsteps ptr_ops 5 (stencil_begin (0%nat, 0) [4; 3] 1) = Some f /\
    fsteps ptr_ops 2 (stencil_begin (0%nat, 0) [4; 3] 1) = Some g /\
    fsi_adv ptr_ops f (-3) = Some h /\ fsi_equal ptr_ops h g = false /\ f_first h = (0%nat, 2) /\
    f_first g = (0%nat, 3).
Proof. eexists. eexists. eexists. vm_compute. repeat split. Qed.
