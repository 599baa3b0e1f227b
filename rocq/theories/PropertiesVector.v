(** * Properties C34 and C35: the host/device container *)

From Verif Require Import Base ModelBounds ModelVector SpecVector LemVector.
Import ListNotations.
Open Scope Z_scope.

(** ** C34 *)

(** Over every supported history the container behaves like one array: the device
    contents and everything returned by host() and the conversion are those of the
    single-array reference. *)
Theorem C34_one_array : forall A (l : list (vop A)) a0 bnds v,
  mdvec_make a0 bnds = Some v -> supported (length (v_d v)) l false false ->
  v_d (fst (vec_run l v)) = fst (arr_run l (v_d v)) /\ snd (vec_run l v) = snd (arr_run l (v_d v)).
Proof. exact @vec_make_refines. Qed.
Print Assumptions C34_one_array.

Example C34_example :
  exists v, mdvec_make 0 [Jb 0 1; Ib 0 2] = Some v /\
    supported (length (v_d v))
      [VSetOff 1 [7; 8; 9]; VData; VWrite 2 5; VWrite 0 3; VHost; VSetOff 0 [1; 2]; VConv;
       VFill [1; 2; 3; 4; 5; 6]; VData; VWrite 5 0; VConv] false false /\
    snd (vec_run [VSetOff 1 [7; 8; 9]; VData; VWrite 2 5; VHost] v) = [None; None; None; Some [0; 0; 5; 7; 8; 9]].
Proof. eexists. split; [reflexivity|]. split; [vm_compute; repeat split; lia|reflexivity]. Qed.

(** ** C35 *)

(** set_offset after a device write that was not read back: the write is lost. *)
Theorem C35_set_offset_loses_device_writes_refuted :
  exists (v : mdvec Z) l, mdvec_make 0 [Ib 0 3] = Some v /\ l = [VData; VWrite 3 5; VSetOff 0 [1; 2]; VHost] /\
    snd (arr_run l (v_d v)) = [None; None; None; Some [1; 2; 0; 5]] /\
    snd (vec_run l v) = [None; None; None; Some [1; 2; 0; 0]].
Proof. eexists. eexists. split; [reflexivity|]. split; [reflexivity|]. split; reflexivity. Qed.
Print Assumptions C35_set_offset_loses_device_writes_refuted.

(** Writing through a data() pointer obtained before host(): host() is stale. *)
Theorem C35_retained_pointer_refuted :
  exists (v : mdvec Z) l, mdvec_make 0 [Ib 0 1] = Some v /\ l = [VData; VHost; VWrite 0 5; VHost] /\
    v_d (fst (vec_run l v)) = [5; 0] /\
    snd (vec_run l v) = [None; Some [0; 0]; None; Some [0; 0]].
Proof. eexists. eexists. split; [reflexivity|]. split; [reflexivity|]. split; reflexivity. Qed.
Print Assumptions C35_retained_pointer_refuted.
