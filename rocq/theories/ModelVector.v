(** * Model of src/md_device_vector.hpp

    The container that keeps a host copy [h] and a device copy [d] of an array,
    with the flag [sync]. *)

From Verif Require Import Base ModelBounds ModelMatrix.
Import ListNotations.
Open Scope Z_scope.

Section Vec.
  Context {A : Type}.

  (** The members (md_device_vector.hpp:133-136). *)
  Record mdvec := mkVec { v_h : list A; v_d : list A; v_b : list dbnd; v_sync : bool }.

  (** Constructor (md_device_vector.hpp:41-44): [detail::bounds_sz] elements,
      value-initialised to [a0]. *)
  Definition mdvec_make (a0 : A) (bnds : list dbnd) : option mdvec :=
    n <- bounds_sz bnds ;;
    let h := repeat a0 (Z.to_nat n) in
    Some (mkVec h h bnds true).

  (** [make_md_vec(bnds...)] (139-143) and [make_md_vec(offset, bnds...)] (145-151). *)
  Definition make_md_vec (a0 : A) (bnds : list dbnd) : option mdvec := mdvec_make a0 bnds.
  (** [make_md_vec(offset, bnds...)] (md_device_vector.hpp:145-151). *)
  Definition make_md_vec_g (a0 : A) (offset : Z) (bnds : list dbnd) : option mdvec :=
    mdvec_make a0 (map (expand_bounds offset) bnds).

  (** [make_offset_vec(n, dims)] (153-156). *)
  Definition make_offset_vec (a0 : A) (n dims : Z) : option mdvec :=
    mdvec_make a0 [Wb 0 (n - 1); Ib 0 (dims - 1)].

  (** [data()] (46-57): gives out the device pointer and clears [sync]. *)
  Definition vec_data (v : mdvec) : mdvec := mkVec (v_h v) (v_d v) (v_b v) false.

  (** A kernel writing [x] at element [i] of the device copy (not a member: what
      is done through the pointer). *)
  Definition dev_write (i : nat) (x : A) (v : mdvec) : mdvec :=
    mkVec (v_h v) (aset (v_d v) i x) (v_b v) (v_sync v).

  (** The synchronisation in [host()] (72-79) and in the conversion (81-93):
      [if (!sync) { sync = true; h = d; }]. *)
  Definition vec_sync (v : mdvec) : mdvec :=
    if v_sync v then v else mkVec (v_d v) (v_d v) (v_b v) true.

  (** [host()] (72-79): the new state and the returned contents. *)
  Definition vec_host (v : mdvec) : mdvec * list A := let v' := vec_sync v in (v', v_h v').

  (** [operator std::vector<T>()] (81-93): [u] gets [h.size()] elements before the
      synchronisation; [h] and [d] always have the same size. *)
  Definition vec_conv (v : mdvec) : mdvec * list A := let v' := vec_sync v in (v', v_h v').

  (** [fill_random] (112-118); [l] are the numbers drawn. *)
  Definition vec_fill (l : list A) (v : mdvec) : mdvec := mkVec l l (v_b v) true.

  (** [set_offset(n, args...)] (120-130); [sync] is not changed. *)
  Definition vec_set_offset (n : nat) (idx : list A) (v : mdvec) : mdvec :=
    let sz := length idx in
    let h := fold_left (fun h p => aset h (n * sz + fst p) (snd p))
                       (combine (seq 0 sz) idx) (v_h v) in
    mkVec h h (v_b v) (v_sync v).

  (** [index(args...)] (95-106). *)
  Definition vec_index (v : mdvec) (args : list Z) : option Z :=
    if Nat.eqb (length args) (length (v_b v)) then
      sz <- mapM (fun b => b_size (snd b)) (v_b v) ;;
      let c := map (fun p => fst p - b_lb (snd (snd p))) (combine args (v_b v)) in
      Some (ravel sz c)
    else None.

  (** [size()] (108) and [dim(i)] (110). *)
  Definition vec_size (v : mdvec) : Z := Z.of_nat (length (v_h v)).
  (** [dim(i)] (md_device_vector.hpp:110). *)
  Definition vec_dim (v : mdvec) (i : nat) : option Z :=
    b <- nth_error (v_b v) i ;; b_size (snd b).

  (** ** Histories of operations *)

  (** The member functions that change or show the contents (md_device_vector.hpp:46-130). *)
  Inductive vop :=
  | VData                            (* data() *)
  | VWrite (i : nat) (x : A)         (* a kernel writes through the device pointer *)
  | VHost                            (* host() *)
  | VConv                            (* conversion to std::vector *)
  | VFill (l : list A)               (* fill_random() *)
  | VSetOff (n : nat) (idx : list A) (* set_offset(n, ...) *).

  (** The new state and what the operation returns ([None]: nothing to see). *)
  Definition vec_op (o : vop) (v : mdvec) : mdvec * option (list A) :=
    match o with
    | VData => (vec_data v, None)
    | VWrite i x => (dev_write i x v, None)
    | VHost => let r := vec_host v in (fst r, Some (snd r))
    | VConv => let r := vec_conv v in (fst r, Some (snd r))
    | VFill l => (vec_fill l v, None)
    | VSetOff n idx => (vec_set_offset n idx v, None)
    end.

  (** Run a history; collect what was returned. *)
  Fixpoint vec_run (l : list vop) (v : mdvec) : mdvec * list (option (list A)) :=
    match l with
    | [] => (v, [])
    | o :: l' =>
        let r := vec_op o v in
        let r' := vec_run l' (fst r) in
        (fst r', snd r :: snd r')
    end.
End Vec.
Arguments mdvec : clear implicits.
Arguments vop : clear implicits.
