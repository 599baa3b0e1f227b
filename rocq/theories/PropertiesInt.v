(** * Property C52: the index arithmetic does not overflow

    [exec_assign32], [with_window32], ... are the library's functions with every
    [int] operation undefined when its exact result is not a 32-bit integer.  For
    arrays of at most 2^31 - 1 elements with [int] index ranges, and non-empty
    domains inside them, they compute what the functions on mathematical integers
    compute, and fail exactly when those do: no intermediate result overflows.
    The kernels are executed with all library calls replaced in this way. *)

From Coq Require Import Permutation.
From Verif Require Import Base ModelBounds ModelIters ModelSpan ModelProxy ModelInt ModelIntProxy ModelPar Spec SpecWindow
  SpecInt FortranBase SpecKernel SpecSafe Instances KernelsFlux KernelsApply KernelsCopy KernelsBC KernelsStencil KernelsBy
  LemIntRefute LemProps2 LemWindow2 LemSafe LemSafeFlux LemIntExec LemIntWindow LemIntFlux LemIntCopy LemIntBC LemIntBC3 LemIntBC3p
  LemIntStencil LemIntStencil3.
Import ListNotations.
Open Scope Z_scope.

(** ** Statements *)

Theorem C52_statement : forall (S : Scalar) dom (a : @assign S) (m : mem S),
  wf_dom dom -> wf_assign dom a -> int_assign (ints m) dom a ->
    exec_assign32 dom a m = exec_assign dom a m.
Proof. exact @assign_int. Qed.
Print Assumptions C52_statement.

Theorem C52_with_domain : forall (S : Scalar) dom l (m : mem S),
  wf_dom dom -> Forall (wf_assign dom) l -> Forall (int_assign (ints m) dom) l ->
    with_domain32 dom l m = with_domain dom l m.
Proof. exact @domain_int. Qed.
Print Assumptions C52_with_domain.

Theorem C52_with_lhs_domain : forall (S : Scalar) (a : @assign S) (m : mem S),
  wf_dom (sp_b (lhs_of a)) -> wf_assign (sp_b (lhs_of a)) a -> int_assign (ints m) (sp_b (lhs_of a)) a ->
    with_lhs_domain32 a m = with_lhs_domain a m.
Proof. exact @lhs_domain_int. Qed.
Print Assumptions C52_with_lhs_domain.

(** Elements reached by jumps of any length, in any order. *)
Theorem C52_random_access : forall (S : Scalar) ks dom (a : @assign S) (m : mem S),
  wf_dom dom -> wf_assign dom a -> int_assign (ints m) dom a ->
  (forall n k, In k (ks n) -> 0 <= k < n) ->
    exec_assign_ra32 ks dom a m = exec_assign_ra ks dom a m.
Proof. exact @assign_ra_int. Qed.
Print Assumptions C52_random_access.

(** Window statements. *)
Theorem C52_window : forall (S : Scalar) st dom l (m : mem S),
  window_ok st dom l -> int_window (ints m) st dom l ->
    with_window32 st dom l m = with_window st dom l m.
Proof. exact (fun S st dom l m => window_int (ints m) st dom l m eq_refl). Qed.
Print Assumptions C52_window.

(** One element: f.at(i, j, k) = c.at(i', j', k'). *)
Theorem C52_at : forall (S : Scalar) (f c : span) is js (m : mem S),
  wf_span f -> wf_span c -> sp_b f <> [] -> sp_b c <> [] -> int_array f -> int_array c ->
  Forall2 (fun i b => b_lb (snd b) <= i <= b_ub (snd b)) is (sp_b f) ->
  Forall2 (fun i b => b_lb (snd b) <= i <= b_ub (snd b)) js (sp_b c) ->
    at_assign32 f is c js m = at_assign f is c js m.
Proof. exact @at_int. Qed.
Print Assumptions C52_at.

(** Example: the last cells of two arrays of 32767 x 65535 = 2147385345 elements,
    x = 3 * (right difference of y), with the difference reaching the last column. *)
Definition ex_big (p : ptr) : span := make_md_span p [Jb 0 32766; Ib 0 65534].
Definition ex_big_dom : list dbnd := [Jb 32766 32766; Ib 65532 65533].
Definition ex_big_assign : @assign ZS :=
  AExpr (ex_big (0%nat, 0)) (ENumL OMul (3 : ZS) (grad (ex_big (1%nat, 0)) dI (5 : ZS) up)).

Lemma ex_big_dom_wf : wf_dom ex_big_dom.
Proof. ex_dom. Qed.

Lemma ex_big_wf p : wf_span (ex_big p).
Proof. ex_span. Qed.

Lemma ex_big_array p : int_array (ex_big p).
Proof. split; [repeat constructor; unfold int_range, b_lb, b_ub; cbn; lia|apply Z.leb_le; vm_compute; reflexivity]. Qed.

Ltac ex_inside :=
  unfold inside, grow_dom, ex_big_dom, w_dom; cbn [map];
  repeat first [apply Forall_nil|apply Forall_cons;
    [eexists; split; [cbn; first [left; reflexivity|right; left; reflexivity]|]; repeat split; apply Z.leb_le; vm_compute; reflexivity|]].

Example C52_statement_example : wf_dom ex_big_dom /\ wf_assign ex_big_dom ex_big_assign /\
  int_assign [] ex_big_dom ex_big_assign.
Proof.
  split; [exact ex_big_dom_wf|]. split.
  - split; [apply ex_big_wf|]. split; [apply Permutation_refl|]. split; [apply ex_big_wf|].
    split; [apply Permutation_refl|]. split; [left; reflexivity|].
    eexists. split; [cbn; right; left; reflexivity|reflexivity].
  - split; [apply ex_big_array|]. split; [ex_inside|].
    change (int_array (ex_big (1%nat, 0)) /\ inside (grow_dom 1 dI ex_big_dom) (ex_big (1%nat, 0))).
    split; [apply ex_big_array|ex_inside].
Qed.

Example C52_random_access_example :
  forall n k, In k (rev (map Z.of_nat (seq 0 (Z.to_nat n)))) -> 0 <= k < n.
Proof. intros n k H. apply in_rev, in_map_iff in H as (i & <- & Hi). apply in_seq in Hi. lia. Qed.

(** st(2) = 3 * (st(0) * x) - y on five cells *)
Definition ex_window (S : Scalar) : list (@wassign S) :=
  [WSet1 2 (POp OSub (POp OMul (PNum (lit 3)) (POp OMul (PSt 0) (PVec (ESpan w_x)))) (PVec (ESpan w_y)))].

Example C52_window_example : window_ok w_st w_dom (ex_window ZS) /\ int_window [] w_st w_dom (ex_window ZS).
Proof.
  assert (forall p, int_array (make_md_span p [Ib 0 4; Wb 0 2])) as A1
    by (intros p; split; [repeat constructor; unfold int_range, b_lb, b_ub; cbn; lia|apply Z.leb_le; vm_compute; reflexivity]).
  assert (forall p, int_array (make_md_span p [Ib 0 4])) as A2
    by (intros p; split; [repeat constructor; unfold int_range, b_lb, b_ub; cbn; lia|apply Z.leb_le; vm_compute; reflexivity]).
  split.
  - split; [ex_dom|]. split; [ex_span|].
    split; [exists [Ib 0 4], dW, (Bnd 0 2); split; [reflexivity|apply Permutation_refl]|].
    split; [constructor; [split; [reflexivity|cbn; tauto]|constructor]|].
    split; [|right; right; repeat constructor].
    constructor; [|constructor]. repeat (constructor; [split; [ex_span|apply Permutation_refl]|]). constructor.
  - split; [apply A1|]. split; [ex_inside|].
    constructor; [|constructor]. split; [exact Logic.I|].
    repeat (constructor; [split; [apply A2|ex_inside]|]). constructor.
Qed.

Example C52_at_example : at_assign32 (S:=ZS) (ex_big (0%nat, -2147385342)) [32766; 65534] (ex_big (0%nat, 1)) [0; 0]
    (mkMem [[1 : ZS; 7; 0; 0]] []) = Some (mkMem [[1 : ZS; 7; 7; 0]] []).
Proof.
  rewrite C52_at; [vm_compute; reflexivity|apply ex_big_wf|apply ex_big_wf|discriminate|discriminate|apply ex_big_array|
    apply ex_big_array| |]; repeat constructor; unfold b_lb, b_ub; cbn; lia.
Qed.

(** ** Kernels

    [int_dims ds]: an array with the index bounds [ds] has [int] indices and at most
    2^31 - 1 elements.  Example data: ten allocations of 1000 cells. *)
Definition ex_int : mem ZS := mkMem (repeat (repeat (1 : ZS) 1000) 10) [].
Definition ex_s : ZS := 3.
Definition ex_dx : Z -> ZS := fun _ => 1.
Definition ex_lo : Z -> Z := fun d => if d =? 0 then -2 else 1.
Definition ex_hi : Z -> Z := fun d => if d =? 0 then -2 else 2.
Definition ex_corner : Z -> Z := fun d => if d =? 0 then -2 else -1.

Ltac ex_hyp :=
  intros; unfold at_side, seg_inside, seg_overlaps, ex_lo, ex_hi, ex_corner; cbn [Z.eqb Pos.eqb];
  lazymatch goal with
  | |- int_dims _ => split; [repeat constructor; cbn; lia|apply Z.leb_le; vm_compute; reflexivity]
  | |- _ => repeat split; lia
  end.

(** *** Fluxes and operators *)

Theorem C52_cdf_1d_flux : forall (S : Scalar) i0 i1 dx b0 gcw u f0 (m : mem S),
  i0 <= i1 -> 1 <= gcw -> int_dims (CELL1d i0 i1 gcw) -> int_dims (FACE1d i0 i1 0) ->
    cdf_1d_flux_by int32 i0 i1 dx b0 gcw u f0 m =
    cdf_1d_flux i0 i1 dx b0 gcw u f0 m.
Proof. exact @cdf_1d_flux_int. Qed.
Print Assumptions C52_cdf_1d_flux.

Example C52_cdf_1d_flux_example :
  cdf_1d_flux_by (S:=ZS) int32 (-1) 2 ex_dx (0%nat, 2) 1 (1%nat, 3) (2%nat, 4) ex_int =
  cdf_1d_flux (-1) 2 ex_dx (0%nat, 2) 1 (1%nat, 3) (2%nat, 4) ex_int.
Proof. apply C52_cdf_1d_flux; ex_hyp. Qed.

Theorem C52_cdf_2d_flux : forall (S : Scalar) i0 j0 i1 j1 dx b0 b1 gcw u f0 f1 (m : mem S),
  i0 <= i1 -> j0 <= j1 -> 1 <= gcw -> int_dims (CELL2d i0 j0 i1 j1 gcw) -> int_dims (FACE2d0 i0 j0 i1 j1 0) ->
  int_dims (FACE2d1 i0 j0 i1 j1 0) ->
    cdf_2d_flux_by int32 i0 j0 i1 j1 dx b0 b1 gcw u f0 f1 m =
    cdf_2d_flux i0 j0 i1 j1 dx b0 b1 gcw u f0 f1 m.
Proof. exact @cdf_2d_flux_int. Qed.
Print Assumptions C52_cdf_2d_flux.

Example C52_cdf_2d_flux_example :
  cdf_2d_flux_by (S:=ZS) int32 (-1) 0 2 2 ex_dx (0%nat, 2) (1%nat, 3) 1 (2%nat, 4) (3%nat, 5) (4%nat, 6) ex_int
  =
  cdf_2d_flux (-1) 0 2 2 ex_dx (0%nat, 2) (1%nat, 3) 1 (2%nat, 4) (3%nat, 5) (4%nat, 6) ex_int.
Proof. apply C52_cdf_2d_flux; ex_hyp. Qed.

Theorem C52_cdf_3d_flux : forall (S : Scalar) i0 j0 k0 i1 j1 k1 dx b0 b1 b2 gcw u f0 f1 f2 (m : mem S),
  i0 <= i1 -> j0 <= j1 -> k0 <= k1 -> 1 <= gcw -> int_dims (CELL3d i0 j0 k0 i1 j1 k1 gcw) ->
  int_dims (FACE3d0 i0 j0 k0 i1 j1 k1 0) -> int_dims (FACE3d1 i0 j0 k0 i1 j1 k1 0) ->
  int_dims (FACE3d2 i0 j0 k0 i1 j1 k1 0) ->
    cdf_3d_flux_by int32 i0 j0 k0 i1 j1 k1 dx b0 b1 b2 gcw u f0 f1 f2 m =
    cdf_3d_flux i0 j0 k0 i1 j1 k1 dx b0 b1 b2 gcw u f0 f1 f2 m.
Proof. exact @cdf_3d_flux_int. Qed.
Print Assumptions C52_cdf_3d_flux.

Example C52_cdf_3d_flux_example :
  cdf_3d_flux_by (S:=ZS) int32 (-1) 0 1 2 2 2 ex_dx (0%nat, 2) (1%nat, 3) (2%nat, 4) 1 (3%nat, 5) (4%nat, 6)
  (5%nat, 7) (6%nat, 8) ex_int =
  cdf_3d_flux (-1) 0 1 2 2 2 ex_dx (0%nat, 2) (1%nat, 3) (2%nat, 4) 1 (3%nat, 5) (4%nat, 6) (5%nat, 7) (6%nat,
  8) ex_int.
Proof. apply C52_cdf_3d_flux; ex_hyp. Qed.

Theorem C52_cdf_1d_poisson_flux : forall (S : Scalar) i0 i1 dx gcw u f0 (m : mem S),
  i0 <= i1 -> 1 <= gcw -> int_dims (CELL1d i0 i1 gcw) -> int_dims (FACE1d i0 i1 0) ->
    cdf_1d_poisson_flux_by int32 i0 i1 dx gcw u f0 m =
    cdf_1d_poisson_flux i0 i1 dx gcw u f0 m.
Proof. exact @cdf_1d_poisson_flux_int. Qed.
Print Assumptions C52_cdf_1d_poisson_flux.

Example C52_cdf_1d_poisson_flux_example :
  cdf_1d_poisson_flux_by (S:=ZS) int32 (-1) 2 ex_dx 1 (0%nat, 2) (1%nat, 3) ex_int =
  cdf_1d_poisson_flux (-1) 2 ex_dx 1 (0%nat, 2) (1%nat, 3) ex_int.
Proof. apply C52_cdf_1d_poisson_flux; ex_hyp. Qed.

Theorem C52_cdf_2d_poisson_flux : forall (S : Scalar) i0 j0 i1 j1 dx gcw u f0 f1 (m : mem S),
  i0 <= i1 -> j0 <= j1 -> 1 <= gcw -> int_dims (CELL2d i0 j0 i1 j1 gcw) -> int_dims (FACE2d0 i0 j0 i1 j1 0) ->
  int_dims (FACE2d1 i0 j0 i1 j1 0) ->
    cdf_2d_poisson_flux_by int32 i0 j0 i1 j1 dx gcw u f0 f1 m =
    cdf_2d_poisson_flux i0 j0 i1 j1 dx gcw u f0 f1 m.
Proof. exact @cdf_2d_poisson_flux_int. Qed.
Print Assumptions C52_cdf_2d_poisson_flux.

Example C52_cdf_2d_poisson_flux_example :
  cdf_2d_poisson_flux_by (S:=ZS) int32 (-1) 0 2 2 ex_dx 1 (0%nat, 2) (1%nat, 3) (2%nat, 4) ex_int =
  cdf_2d_poisson_flux (-1) 0 2 2 ex_dx 1 (0%nat, 2) (1%nat, 3) (2%nat, 4) ex_int.
Proof. apply C52_cdf_2d_poisson_flux; ex_hyp. Qed.

Theorem C52_cdf_3d_poisson_flux : forall (S : Scalar) i0 j0 k0 i1 j1 k1 dx gcw u f0 f1 f2 (m : mem S),
  i0 <= i1 -> j0 <= j1 -> k0 <= k1 -> 1 <= gcw -> int_dims (CELL3d i0 j0 k0 i1 j1 k1 gcw) ->
  int_dims (FACE3d0 i0 j0 k0 i1 j1 k1 0) -> int_dims (FACE3d1 i0 j0 k0 i1 j1 k1 0) ->
  int_dims (FACE3d2 i0 j0 k0 i1 j1 k1 0) ->
    cdf_3d_poisson_flux_by int32 i0 j0 k0 i1 j1 k1 dx gcw u f0 f1 f2 m =
    cdf_3d_poisson_flux i0 j0 k0 i1 j1 k1 dx gcw u f0 f1 f2 m.
Proof. exact @cdf_3d_poisson_flux_int. Qed.
Print Assumptions C52_cdf_3d_poisson_flux.

Example C52_cdf_3d_poisson_flux_example :
  cdf_3d_poisson_flux_by (S:=ZS) int32 (-1) 0 1 2 2 2 ex_dx 1 (0%nat, 2) (1%nat, 3) (2%nat, 4) (3%nat, 5) ex_int
  =
  cdf_3d_poisson_flux (-1) 0 1 2 2 2 ex_dx 1 (0%nat, 2) (1%nat, 3) (2%nat, 4) (3%nat, 5) ex_int.
Proof. apply C52_cdf_3d_poisson_flux; ex_hyp. Qed.

Theorem C52_cd_apply_1d_diffusion_v1_res : forall (S : Scalar) i0 i1 alpha beta dx agcw a ugcw u fgcw f f0 rgcw
    res (m : mem S),
  i0 <= i1 -> 0 <= agcw -> 0 <= ugcw -> 0 <= fgcw -> 0 <= rgcw -> int_dims (CELL1d i0 i1 agcw) ->
  int_dims (CELL1d i0 i1 ugcw) -> int_dims (CELL1d i0 i1 fgcw) -> int_dims (CELL1d i0 i1 rgcw) ->
  int_dims (FACE1d i0 i1 0) ->
    cd_apply_1d_diffusion_v1_res_by int32 i0 i1 alpha beta dx agcw a ugcw u fgcw f f0 rgcw res m =
    cd_apply_1d_diffusion_v1_res i0 i1 alpha beta dx agcw a ugcw u fgcw f f0 rgcw res m.
Proof. exact @cd_apply_1d_diffusion_v1_res_int. Qed.
Print Assumptions C52_cd_apply_1d_diffusion_v1_res.

Example C52_cd_apply_1d_diffusion_v1_res_example :
  cd_apply_1d_diffusion_v1_res_by (S:=ZS) int32 (-1) 2 ex_s ex_s ex_dx 0 (0%nat, 2) 1 (1%nat, 3) 0 (2%nat, 4)
  (3%nat, 5) 0 (4%nat, 6) ex_int =
  cd_apply_1d_diffusion_v1_res (-1) 2 ex_s ex_s ex_dx 0 (0%nat, 2) 1 (1%nat, 3) 0 (2%nat, 4) (3%nat, 5) 0
  (4%nat, 6) ex_int.
Proof. apply C52_cd_apply_1d_diffusion_v1_res; ex_hyp. Qed.

Theorem C52_cd_apply_1d_diffusion_v2_res : forall (S : Scalar) i0 i1 alpha beta dx ugcw u fgcw f f0 rgcw res (m
    : mem S),
  i0 <= i1 -> 0 <= ugcw -> 0 <= fgcw -> 0 <= rgcw -> int_dims (CELL1d i0 i1 ugcw) ->
  int_dims (CELL1d i0 i1 fgcw) -> int_dims (CELL1d i0 i1 rgcw) -> int_dims (FACE1d i0 i1 0) ->
    cd_apply_1d_diffusion_v2_res_by int32 i0 i1 alpha beta dx ugcw u fgcw f f0 rgcw res m =
    cd_apply_1d_diffusion_v2_res i0 i1 alpha beta dx ugcw u fgcw f f0 rgcw res m.
Proof. exact @cd_apply_1d_diffusion_v2_res_int. Qed.
Print Assumptions C52_cd_apply_1d_diffusion_v2_res.

Example C52_cd_apply_1d_diffusion_v2_res_example :
  cd_apply_1d_diffusion_v2_res_by (S:=ZS) int32 (-1) 2 ex_s ex_s ex_dx 1 (0%nat, 2) 0 (1%nat, 3) (2%nat, 4) 0
  (3%nat, 5) ex_int =
  cd_apply_1d_diffusion_v2_res (-1) 2 ex_s ex_s ex_dx 1 (0%nat, 2) 0 (1%nat, 3) (2%nat, 4) 0 (3%nat, 5) ex_int.
Proof. apply C52_cd_apply_1d_diffusion_v2_res; ex_hyp. Qed.

Theorem C52_cd_apply_1d_poisson_v1_res : forall (S : Scalar) i0 i1 beta dx fgcw f f0 rgcw res (m : mem S),
  i0 <= i1 -> 0 <= fgcw -> 0 <= rgcw -> int_dims (CELL1d i0 i1 fgcw) -> int_dims (CELL1d i0 i1 rgcw) ->
  int_dims (FACE1d i0 i1 0) ->
    cd_apply_1d_poisson_v1_res_by int32 i0 i1 beta dx fgcw f f0 rgcw res m =
    cd_apply_1d_poisson_v1_res i0 i1 beta dx fgcw f f0 rgcw res m.
Proof. exact @cd_apply_1d_poisson_v1_res_int. Qed.
Print Assumptions C52_cd_apply_1d_poisson_v1_res.

Example C52_cd_apply_1d_poisson_v1_res_example :
  cd_apply_1d_poisson_v1_res_by (S:=ZS) int32 (-1) 2 ex_s ex_dx 0 (0%nat, 2) (1%nat, 3) 0 (2%nat, 4) ex_int =
  cd_apply_1d_poisson_v1_res (-1) 2 ex_s ex_dx 0 (0%nat, 2) (1%nat, 3) 0 (2%nat, 4) ex_int.
Proof. apply C52_cd_apply_1d_poisson_v1_res; ex_hyp. Qed.

Theorem C52_cd_apply_1d_diffusion_v1_apply : forall (S : Scalar) i0 i1 alpha beta dx agcw a ugcw u f0 rgcw res
    (m : mem S),
  i0 <= i1 -> 0 <= agcw -> 0 <= ugcw -> 0 <= rgcw -> int_dims (CELL1d i0 i1 agcw) ->
  int_dims (CELL1d i0 i1 ugcw) -> int_dims (CELL1d i0 i1 rgcw) -> int_dims (FACE1d i0 i1 0) ->
    cd_apply_1d_diffusion_v1_apply_by int32 i0 i1 alpha beta dx agcw a ugcw u f0 rgcw res m =
    cd_apply_1d_diffusion_v1_apply i0 i1 alpha beta dx agcw a ugcw u f0 rgcw res m.
Proof. exact @cd_apply_1d_diffusion_v1_apply_int. Qed.
Print Assumptions C52_cd_apply_1d_diffusion_v1_apply.

Example C52_cd_apply_1d_diffusion_v1_apply_example :
  cd_apply_1d_diffusion_v1_apply_by (S:=ZS) int32 (-1) 2 ex_s ex_s ex_dx 0 (0%nat, 2) 1 (1%nat, 3) (2%nat, 4) 0
  (3%nat, 5) ex_int =
  cd_apply_1d_diffusion_v1_apply (-1) 2 ex_s ex_s ex_dx 0 (0%nat, 2) 1 (1%nat, 3) (2%nat, 4) 0 (3%nat, 5)
  ex_int.
Proof. apply C52_cd_apply_1d_diffusion_v1_apply; ex_hyp. Qed.

Theorem C52_cd_apply_1d_diffusion_v2_apply : forall (S : Scalar) i0 i1 alpha beta dx ugcw u f0 rgcw res (m : mem
    S),
  i0 <= i1 -> 0 <= ugcw -> 0 <= rgcw -> int_dims (CELL1d i0 i1 ugcw) -> int_dims (CELL1d i0 i1 rgcw) ->
  int_dims (FACE1d i0 i1 0) ->
    cd_apply_1d_diffusion_v2_apply_by int32 i0 i1 alpha beta dx ugcw u f0 rgcw res m =
    cd_apply_1d_diffusion_v2_apply i0 i1 alpha beta dx ugcw u f0 rgcw res m.
Proof. exact @cd_apply_1d_diffusion_v2_apply_int. Qed.
Print Assumptions C52_cd_apply_1d_diffusion_v2_apply.

Example C52_cd_apply_1d_diffusion_v2_apply_example :
  cd_apply_1d_diffusion_v2_apply_by (S:=ZS) int32 (-1) 2 ex_s ex_s ex_dx 1 (0%nat, 2) (1%nat, 3) 0 (2%nat, 4)
  ex_int =
  cd_apply_1d_diffusion_v2_apply (-1) 2 ex_s ex_s ex_dx 1 (0%nat, 2) (1%nat, 3) 0 (2%nat, 4) ex_int.
Proof. apply C52_cd_apply_1d_diffusion_v2_apply; ex_hyp. Qed.

Theorem C52_cd_apply_1d_poisson_v2_apply : forall (S : Scalar) i0 i1 beta dx f0 rgcw res (m : mem S),
  i0 <= i1 -> 0 <= rgcw -> int_dims (CELL1d i0 i1 rgcw) -> int_dims (FACE1d i0 i1 0) ->
    cd_apply_1d_poisson_v2_apply_by int32 i0 i1 beta dx f0 rgcw res m =
    cd_apply_1d_poisson_v2_apply i0 i1 beta dx f0 rgcw res m.
Proof. exact @cd_apply_1d_poisson_v2_apply_int. Qed.
Print Assumptions C52_cd_apply_1d_poisson_v2_apply.

Example C52_cd_apply_1d_poisson_v2_apply_example :
  cd_apply_1d_poisson_v2_apply_by (S:=ZS) int32 (-1) 2 ex_s ex_dx (0%nat, 2) 0 (1%nat, 3) ex_int =
  cd_apply_1d_poisson_v2_apply (-1) 2 ex_s ex_dx (0%nat, 2) 0 (1%nat, 3) ex_int.
Proof. apply C52_cd_apply_1d_poisson_v2_apply; ex_hyp. Qed.

Theorem C52_cd_apply_2d_diffusion_v1_res : forall (S : Scalar) i0 i1 j0 j1 alpha beta dx agcw a ugcw u fgcw f f0
    f1 rgcw res (m : mem S),
  i0 <= i1 -> j0 <= j1 -> 0 <= agcw -> 0 <= ugcw -> 0 <= fgcw -> 0 <= rgcw ->
  int_dims (CELL2d i0 j0 i1 j1 agcw) -> int_dims (CELL2d i0 j0 i1 j1 ugcw) ->
  int_dims (CELL2d i0 j0 i1 j1 fgcw) -> int_dims (CELL2d i0 j0 i1 j1 rgcw) ->
  int_dims (FACE2d0 i0 j0 i1 j1 0) -> int_dims (FACE2d1 i0 j0 i1 j1 0) ->
    cd_apply_2d_diffusion_v1_res_by int32 i0 i1 j0 j1 alpha beta dx agcw a ugcw u fgcw f f0 f1 rgcw res m =
    cd_apply_2d_diffusion_v1_res i0 i1 j0 j1 alpha beta dx agcw a ugcw u fgcw f f0 f1 rgcw res m.
Proof. exact @cd_apply_2d_diffusion_v1_res_int. Qed.
Print Assumptions C52_cd_apply_2d_diffusion_v1_res.

Example C52_cd_apply_2d_diffusion_v1_res_example :
  cd_apply_2d_diffusion_v1_res_by (S:=ZS) int32 (-1) 2 0 2 ex_s ex_s ex_dx 0 (0%nat, 2) 1 (1%nat, 3) 0 (2%nat,
  4) (3%nat, 5) (4%nat, 6) 0 (5%nat, 7) ex_int =
  cd_apply_2d_diffusion_v1_res (-1) 2 0 2 ex_s ex_s ex_dx 0 (0%nat, 2) 1 (1%nat, 3) 0 (2%nat, 4) (3%nat, 5)
  (4%nat, 6) 0 (5%nat, 7) ex_int.
Proof. apply C52_cd_apply_2d_diffusion_v1_res; ex_hyp. Qed.

Theorem C52_cd_apply_2d_diffusion_v2_res : forall (S : Scalar) i0 i1 j0 j1 alpha beta dx ugcw u fgcw f f0 f1
    rgcw res (m : mem S),
  i0 <= i1 -> j0 <= j1 -> 0 <= ugcw -> 0 <= fgcw -> 0 <= rgcw -> int_dims (CELL2d i0 j0 i1 j1 ugcw) ->
  int_dims (CELL2d i0 j0 i1 j1 fgcw) -> int_dims (CELL2d i0 j0 i1 j1 rgcw) ->
  int_dims (FACE2d0 i0 j0 i1 j1 0) -> int_dims (FACE2d1 i0 j0 i1 j1 0) ->
    cd_apply_2d_diffusion_v2_res_by int32 i0 i1 j0 j1 alpha beta dx ugcw u fgcw f f0 f1 rgcw res m =
    cd_apply_2d_diffusion_v2_res i0 i1 j0 j1 alpha beta dx ugcw u fgcw f f0 f1 rgcw res m.
Proof. exact @cd_apply_2d_diffusion_v2_res_int. Qed.
Print Assumptions C52_cd_apply_2d_diffusion_v2_res.

Example C52_cd_apply_2d_diffusion_v2_res_example :
  cd_apply_2d_diffusion_v2_res_by (S:=ZS) int32 (-1) 2 0 2 ex_s ex_s ex_dx 1 (0%nat, 2) 0 (1%nat, 3) (2%nat, 4)
  (3%nat, 5) 0 (4%nat, 6) ex_int =
  cd_apply_2d_diffusion_v2_res (-1) 2 0 2 ex_s ex_s ex_dx 1 (0%nat, 2) 0 (1%nat, 3) (2%nat, 4) (3%nat, 5) 0
  (4%nat, 6) ex_int.
Proof. apply C52_cd_apply_2d_diffusion_v2_res; ex_hyp. Qed.

Theorem C52_cd_apply_2d_poisson_v1_res : forall (S : Scalar) i0 i1 j0 j1 beta dx fgcw f f0 f1 rgcw res (m : mem
    S),
  i0 <= i1 -> j0 <= j1 -> 0 <= fgcw -> 0 <= rgcw -> int_dims (CELL2d i0 j0 i1 j1 fgcw) ->
  int_dims (CELL2d i0 j0 i1 j1 rgcw) -> int_dims (FACE2d0 i0 j0 i1 j1 0) -> int_dims (FACE2d1 i0 j0 i1 j1 0) ->
    cd_apply_2d_poisson_v1_res_by int32 i0 i1 j0 j1 beta dx fgcw f f0 f1 rgcw res m =
    cd_apply_2d_poisson_v1_res i0 i1 j0 j1 beta dx fgcw f f0 f1 rgcw res m.
Proof. exact @cd_apply_2d_poisson_v1_res_int. Qed.
Print Assumptions C52_cd_apply_2d_poisson_v1_res.

Example C52_cd_apply_2d_poisson_v1_res_example :
  cd_apply_2d_poisson_v1_res_by (S:=ZS) int32 (-1) 2 0 2 ex_s ex_dx 0 (0%nat, 2) (1%nat, 3) (2%nat, 4) 0 (3%nat,
  5) ex_int =
  cd_apply_2d_poisson_v1_res (-1) 2 0 2 ex_s ex_dx 0 (0%nat, 2) (1%nat, 3) (2%nat, 4) 0 (3%nat, 5) ex_int.
Proof. apply C52_cd_apply_2d_poisson_v1_res; ex_hyp. Qed.

Theorem C52_cd_apply_2d_diffusion_v1_apply : forall (S : Scalar) i0 i1 j0 j1 alpha beta dx agcw a ugcw u f0 f1
    rgcw res (m : mem S),
  i0 <= i1 -> j0 <= j1 -> 0 <= agcw -> 0 <= ugcw -> 0 <= rgcw -> int_dims (CELL2d i0 j0 i1 j1 agcw) ->
  int_dims (CELL2d i0 j0 i1 j1 ugcw) -> int_dims (CELL2d i0 j0 i1 j1 rgcw) ->
  int_dims (FACE2d0 i0 j0 i1 j1 0) -> int_dims (FACE2d1 i0 j0 i1 j1 0) ->
    cd_apply_2d_diffusion_v1_apply_by int32 i0 i1 j0 j1 alpha beta dx agcw a ugcw u f0 f1 rgcw res m =
    cd_apply_2d_diffusion_v1_apply i0 i1 j0 j1 alpha beta dx agcw a ugcw u f0 f1 rgcw res m.
Proof. exact @cd_apply_2d_diffusion_v1_apply_int. Qed.
Print Assumptions C52_cd_apply_2d_diffusion_v1_apply.

Example C52_cd_apply_2d_diffusion_v1_apply_example :
  cd_apply_2d_diffusion_v1_apply_by (S:=ZS) int32 (-1) 2 0 2 ex_s ex_s ex_dx 0 (0%nat, 2) 1 (1%nat, 3) (2%nat,
  4) (3%nat, 5) 0 (4%nat, 6) ex_int =
  cd_apply_2d_diffusion_v1_apply (-1) 2 0 2 ex_s ex_s ex_dx 0 (0%nat, 2) 1 (1%nat, 3) (2%nat, 4) (3%nat, 5) 0
  (4%nat, 6) ex_int.
Proof. apply C52_cd_apply_2d_diffusion_v1_apply; ex_hyp. Qed.

Theorem C52_cd_apply_2d_diffusion_v2_apply : forall (S : Scalar) i0 i1 j0 j1 alpha beta dx ugcw u f0 f1 rgcw res
    (m : mem S),
  i0 <= i1 -> j0 <= j1 -> 0 <= ugcw -> 0 <= rgcw -> int_dims (CELL2d i0 j0 i1 j1 ugcw) ->
  int_dims (CELL2d i0 j0 i1 j1 rgcw) -> int_dims (FACE2d0 i0 j0 i1 j1 0) -> int_dims (FACE2d1 i0 j0 i1 j1 0) ->
    cd_apply_2d_diffusion_v2_apply_by int32 i0 i1 j0 j1 alpha beta dx ugcw u f0 f1 rgcw res m =
    cd_apply_2d_diffusion_v2_apply i0 i1 j0 j1 alpha beta dx ugcw u f0 f1 rgcw res m.
Proof. exact @cd_apply_2d_diffusion_v2_apply_int. Qed.
Print Assumptions C52_cd_apply_2d_diffusion_v2_apply.

Example C52_cd_apply_2d_diffusion_v2_apply_example :
  cd_apply_2d_diffusion_v2_apply_by (S:=ZS) int32 (-1) 2 0 2 ex_s ex_s ex_dx 1 (0%nat, 2) (1%nat, 3) (2%nat, 4)
  0 (3%nat, 5) ex_int =
  cd_apply_2d_diffusion_v2_apply (-1) 2 0 2 ex_s ex_s ex_dx 1 (0%nat, 2) (1%nat, 3) (2%nat, 4) 0 (3%nat, 5)
  ex_int.
Proof. apply C52_cd_apply_2d_diffusion_v2_apply; ex_hyp. Qed.

Theorem C52_cd_apply_2d_poisson_v2_apply : forall (S : Scalar) i0 i1 j0 j1 beta dx f0 f1 rgcw res (m : mem S),
  i0 <= i1 -> j0 <= j1 -> 0 <= rgcw -> int_dims (CELL2d i0 j0 i1 j1 rgcw) ->
  int_dims (FACE2d0 i0 j0 i1 j1 0) -> int_dims (FACE2d1 i0 j0 i1 j1 0) ->
    cd_apply_2d_poisson_v2_apply_by int32 i0 i1 j0 j1 beta dx f0 f1 rgcw res m =
    cd_apply_2d_poisson_v2_apply i0 i1 j0 j1 beta dx f0 f1 rgcw res m.
Proof. exact @cd_apply_2d_poisson_v2_apply_int. Qed.
Print Assumptions C52_cd_apply_2d_poisson_v2_apply.

Example C52_cd_apply_2d_poisson_v2_apply_example :
  cd_apply_2d_poisson_v2_apply_by (S:=ZS) int32 (-1) 2 0 2 ex_s ex_dx (0%nat, 2) (1%nat, 3) 0 (2%nat, 4) ex_int
  =
  cd_apply_2d_poisson_v2_apply (-1) 2 0 2 ex_s ex_dx (0%nat, 2) (1%nat, 3) 0 (2%nat, 4) ex_int.
Proof. apply C52_cd_apply_2d_poisson_v2_apply; ex_hyp. Qed.

Theorem C52_cd_apply_3d_diffusion_v1_res : forall (S : Scalar) i0 i1 j0 j1 k0 k1 alpha beta dx agcw a ugcw u
    fgcw f f0 f1 f2 rgcw res (m : mem S),
  i0 <= i1 -> j0 <= j1 -> k0 <= k1 -> 0 <= agcw -> 0 <= ugcw -> 0 <= fgcw -> 0 <= rgcw ->
  int_dims (CELL3d i0 j0 k0 i1 j1 k1 agcw) -> int_dims (CELL3d i0 j0 k0 i1 j1 k1 ugcw) ->
  int_dims (CELL3d i0 j0 k0 i1 j1 k1 fgcw) -> int_dims (CELL3d i0 j0 k0 i1 j1 k1 rgcw) ->
  int_dims (FACE3d0 i0 j0 k0 i1 j1 k1 0) -> int_dims (FACE3d1 i0 j0 k0 i1 j1 k1 0) ->
  int_dims (FACE3d2 i0 j0 k0 i1 j1 k1 0) ->
    cd_apply_3d_diffusion_v1_res_by int32 i0 i1 j0 j1 k0 k1 alpha beta dx agcw a ugcw u fgcw f f0 f1 f2 rgcw res
    m =
    cd_apply_3d_diffusion_v1_res i0 i1 j0 j1 k0 k1 alpha beta dx agcw a ugcw u fgcw f f0 f1 f2 rgcw res m.
Proof. exact @cd_apply_3d_diffusion_v1_res_int. Qed.
Print Assumptions C52_cd_apply_3d_diffusion_v1_res.

Example C52_cd_apply_3d_diffusion_v1_res_example :
  cd_apply_3d_diffusion_v1_res_by (S:=ZS) int32 (-1) 2 0 2 1 2 ex_s ex_s ex_dx 0 (0%nat, 2) 1 (1%nat, 3) 0
  (2%nat, 4) (3%nat, 5) (4%nat, 6) (5%nat, 7) 0 (6%nat, 8) ex_int =
  cd_apply_3d_diffusion_v1_res (-1) 2 0 2 1 2 ex_s ex_s ex_dx 0 (0%nat, 2) 1 (1%nat, 3) 0 (2%nat, 4) (3%nat, 5)
  (4%nat, 6) (5%nat, 7) 0 (6%nat, 8) ex_int.
Proof. apply C52_cd_apply_3d_diffusion_v1_res; ex_hyp. Qed.

Theorem C52_cd_apply_3d_diffusion_v2_res : forall (S : Scalar) i0 i1 j0 j1 k0 k1 alpha beta dx ugcw u fgcw f f0
    f1 f2 rgcw res (m : mem S),
  i0 <= i1 -> j0 <= j1 -> k0 <= k1 -> 0 <= ugcw -> 0 <= fgcw -> 0 <= rgcw ->
  int_dims (CELL3d i0 j0 k0 i1 j1 k1 ugcw) -> int_dims (CELL3d i0 j0 k0 i1 j1 k1 fgcw) ->
  int_dims (CELL3d i0 j0 k0 i1 j1 k1 rgcw) -> int_dims (FACE3d0 i0 j0 k0 i1 j1 k1 0) ->
  int_dims (FACE3d1 i0 j0 k0 i1 j1 k1 0) -> int_dims (FACE3d2 i0 j0 k0 i1 j1 k1 0) ->
    cd_apply_3d_diffusion_v2_res_by int32 i0 i1 j0 j1 k0 k1 alpha beta dx ugcw u fgcw f f0 f1 f2 rgcw res m =
    cd_apply_3d_diffusion_v2_res i0 i1 j0 j1 k0 k1 alpha beta dx ugcw u fgcw f f0 f1 f2 rgcw res m.
Proof. exact @cd_apply_3d_diffusion_v2_res_int. Qed.
Print Assumptions C52_cd_apply_3d_diffusion_v2_res.

Example C52_cd_apply_3d_diffusion_v2_res_example :
  cd_apply_3d_diffusion_v2_res_by (S:=ZS) int32 (-1) 2 0 2 1 2 ex_s ex_s ex_dx 1 (0%nat, 2) 0 (1%nat, 3) (2%nat,
  4) (3%nat, 5) (4%nat, 6) 0 (5%nat, 7) ex_int =
  cd_apply_3d_diffusion_v2_res (-1) 2 0 2 1 2 ex_s ex_s ex_dx 1 (0%nat, 2) 0 (1%nat, 3) (2%nat, 4) (3%nat, 5)
  (4%nat, 6) 0 (5%nat, 7) ex_int.
Proof. apply C52_cd_apply_3d_diffusion_v2_res; ex_hyp. Qed.

Theorem C52_cd_apply_3d_poisson_v1_res : forall (S : Scalar) i0 i1 j0 j1 k0 k1 beta dx fgcw f f0 f1 f2 rgcw res
    (m : mem S),
  i0 <= i1 -> j0 <= j1 -> k0 <= k1 -> 0 <= fgcw -> 0 <= rgcw -> int_dims (CELL3d i0 j0 k0 i1 j1 k1 fgcw) ->
  int_dims (CELL3d i0 j0 k0 i1 j1 k1 rgcw) -> int_dims (FACE3d0 i0 j0 k0 i1 j1 k1 0) ->
  int_dims (FACE3d1 i0 j0 k0 i1 j1 k1 0) -> int_dims (FACE3d2 i0 j0 k0 i1 j1 k1 0) ->
    cd_apply_3d_poisson_v1_res_by int32 i0 i1 j0 j1 k0 k1 beta dx fgcw f f0 f1 f2 rgcw res m =
    cd_apply_3d_poisson_v1_res i0 i1 j0 j1 k0 k1 beta dx fgcw f f0 f1 f2 rgcw res m.
Proof. exact @cd_apply_3d_poisson_v1_res_int. Qed.
Print Assumptions C52_cd_apply_3d_poisson_v1_res.

Example C52_cd_apply_3d_poisson_v1_res_example :
  cd_apply_3d_poisson_v1_res_by (S:=ZS) int32 (-1) 2 0 2 1 2 ex_s ex_dx 0 (0%nat, 2) (1%nat, 3) (2%nat, 4)
  (3%nat, 5) 0 (4%nat, 6) ex_int =
  cd_apply_3d_poisson_v1_res (-1) 2 0 2 1 2 ex_s ex_dx 0 (0%nat, 2) (1%nat, 3) (2%nat, 4) (3%nat, 5) 0 (4%nat,
  6) ex_int.
Proof. apply C52_cd_apply_3d_poisson_v1_res; ex_hyp. Qed.

Theorem C52_cd_apply_3d_diffusion_v1_apply : forall (S : Scalar) i0 i1 j0 j1 k0 k1 alpha beta dx agcw a ugcw u
    f0 f1 f2 rgcw res (m : mem S),
  i0 <= i1 -> j0 <= j1 -> k0 <= k1 -> 0 <= agcw -> 0 <= ugcw -> 0 <= rgcw ->
  int_dims (CELL3d i0 j0 k0 i1 j1 k1 agcw) -> int_dims (CELL3d i0 j0 k0 i1 j1 k1 ugcw) ->
  int_dims (CELL3d i0 j0 k0 i1 j1 k1 rgcw) -> int_dims (FACE3d0 i0 j0 k0 i1 j1 k1 0) ->
  int_dims (FACE3d1 i0 j0 k0 i1 j1 k1 0) -> int_dims (FACE3d2 i0 j0 k0 i1 j1 k1 0) ->
    cd_apply_3d_diffusion_v1_apply_by int32 i0 i1 j0 j1 k0 k1 alpha beta dx agcw a ugcw u f0 f1 f2 rgcw res m =
    cd_apply_3d_diffusion_v1_apply i0 i1 j0 j1 k0 k1 alpha beta dx agcw a ugcw u f0 f1 f2 rgcw res m.
Proof. exact @cd_apply_3d_diffusion_v1_apply_int. Qed.
Print Assumptions C52_cd_apply_3d_diffusion_v1_apply.

Example C52_cd_apply_3d_diffusion_v1_apply_example :
  cd_apply_3d_diffusion_v1_apply_by (S:=ZS) int32 (-1) 2 0 2 1 2 ex_s ex_s ex_dx 0 (0%nat, 2) 1 (1%nat, 3)
  (2%nat, 4) (3%nat, 5) (4%nat, 6) 0 (5%nat, 7) ex_int =
  cd_apply_3d_diffusion_v1_apply (-1) 2 0 2 1 2 ex_s ex_s ex_dx 0 (0%nat, 2) 1 (1%nat, 3) (2%nat, 4) (3%nat, 5)
  (4%nat, 6) 0 (5%nat, 7) ex_int.
Proof. apply C52_cd_apply_3d_diffusion_v1_apply; ex_hyp. Qed.

Theorem C52_cd_apply_3d_diffusion_v2_apply : forall (S : Scalar) i0 i1 j0 j1 k0 k1 alpha beta dx ugcw u f0 f1 f2
    rgcw res (m : mem S),
  i0 <= i1 -> j0 <= j1 -> k0 <= k1 -> 0 <= ugcw -> 0 <= rgcw -> int_dims (CELL3d i0 j0 k0 i1 j1 k1 ugcw) ->
  int_dims (CELL3d i0 j0 k0 i1 j1 k1 rgcw) -> int_dims (FACE3d0 i0 j0 k0 i1 j1 k1 0) ->
  int_dims (FACE3d1 i0 j0 k0 i1 j1 k1 0) -> int_dims (FACE3d2 i0 j0 k0 i1 j1 k1 0) ->
    cd_apply_3d_diffusion_v2_apply_by int32 i0 i1 j0 j1 k0 k1 alpha beta dx ugcw u f0 f1 f2 rgcw res m =
    cd_apply_3d_diffusion_v2_apply i0 i1 j0 j1 k0 k1 alpha beta dx ugcw u f0 f1 f2 rgcw res m.
Proof. exact @cd_apply_3d_diffusion_v2_apply_int. Qed.
Print Assumptions C52_cd_apply_3d_diffusion_v2_apply.

Example C52_cd_apply_3d_diffusion_v2_apply_example :
  cd_apply_3d_diffusion_v2_apply_by (S:=ZS) int32 (-1) 2 0 2 1 2 ex_s ex_s ex_dx 1 (0%nat, 2) (1%nat, 3) (2%nat,
  4) (3%nat, 5) 0 (4%nat, 6) ex_int =
  cd_apply_3d_diffusion_v2_apply (-1) 2 0 2 1 2 ex_s ex_s ex_dx 1 (0%nat, 2) (1%nat, 3) (2%nat, 4) (3%nat, 5) 0
  (4%nat, 6) ex_int.
Proof. apply C52_cd_apply_3d_diffusion_v2_apply; ex_hyp. Qed.

Theorem C52_cd_apply_3d_poisson_v2_apply : forall (S : Scalar) i0 i1 j0 j1 k0 k1 beta dx f0 f1 f2 rgcw res (m :
    mem S),
  i0 <= i1 -> j0 <= j1 -> k0 <= k1 -> 0 <= rgcw -> int_dims (CELL3d i0 j0 k0 i1 j1 k1 rgcw) ->
  int_dims (FACE3d0 i0 j0 k0 i1 j1 k1 0) -> int_dims (FACE3d1 i0 j0 k0 i1 j1 k1 0) ->
  int_dims (FACE3d2 i0 j0 k0 i1 j1 k1 0) ->
    cd_apply_3d_poisson_v2_apply_by int32 i0 i1 j0 j1 k0 k1 beta dx f0 f1 f2 rgcw res m =
    cd_apply_3d_poisson_v2_apply i0 i1 j0 j1 k0 k1 beta dx f0 f1 f2 rgcw res m.
Proof. exact @cd_apply_3d_poisson_v2_apply_int. Qed.
Print Assumptions C52_cd_apply_3d_poisson_v2_apply.

Example C52_cd_apply_3d_poisson_v2_apply_example :
  cd_apply_3d_poisson_v2_apply_by (S:=ZS) int32 (-1) 2 0 2 1 2 ex_s ex_dx (0%nat, 2) (1%nat, 3) (2%nat, 4) 0
  (3%nat, 5) ex_int =
  cd_apply_3d_poisson_v2_apply (-1) 2 0 2 1 2 ex_s ex_dx (0%nat, 2) (1%nat, 3) (2%nat, 4) 0 (3%nat, 5) ex_int.
Proof. apply C52_cd_apply_3d_poisson_v2_apply; ex_hyp. Qed.

(** *** Boundary values *)

Theorem C52_cd_1d_set_bc : forall (S : Scalar) i0 i1 dx dgcw d0 ugcw u bLo bHi exOrder face btype alpha beta (m
    : mem S),
  i0 <= i1 -> 1 <= ugcw -> 0 <= dgcw -> (face = 0 -> bLo 0 = i0 - 1) -> (face = 1 -> bHi 0 = i1 + 1) ->
  int_dims (FACE1d i0 i1 dgcw) -> int_dims (CELL1d i0 i1 ugcw) ->
    cd_1d_set_bc_by int32 i0 i1 dx dgcw d0 ugcw u bLo bHi exOrder face btype alpha beta m =
    cd_1d_set_bc i0 i1 dx dgcw d0 ugcw u bLo bHi exOrder face btype alpha beta m.
Proof. exact @cd_1d_set_bc_int. Qed.
Print Assumptions C52_cd_1d_set_bc.

Example C52_cd_1d_set_bc_example :
  cd_1d_set_bc_by (S:=ZS) int32 (-1) 2 ex_dx 0 (0%nat, 2) 1 (1%nat, 3) ex_lo ex_hi 2 0 0 ex_s ex_s ex_int =
  cd_1d_set_bc (-1) 2 ex_dx 0 (0%nat, 2) 1 (1%nat, 3) ex_lo ex_hi 2 0 0 ex_s ex_s ex_int.
Proof. apply C52_cd_1d_set_bc; ex_hyp. Qed.

Theorem C52_cd_1d_set_poisson_bc : forall (S : Scalar) i0 i1 dx ugcw u bLo bHi exOrder face btype alpha beta (m
    : mem S),
  i0 <= i1 -> 1 <= ugcw -> (face = 0 -> bLo 0 = i0 - 1) -> (face = 1 -> bHi 0 = i1 + 1) ->
  int_dims (CELL1d i0 i1 ugcw) ->
    cd_1d_set_poisson_bc_by int32 i0 i1 dx ugcw u bLo bHi exOrder face btype alpha beta m =
    cd_1d_set_poisson_bc i0 i1 dx ugcw u bLo bHi exOrder face btype alpha beta m.
Proof. exact @cd_1d_set_poisson_bc_int. Qed.
Print Assumptions C52_cd_1d_set_poisson_bc.

Example C52_cd_1d_set_poisson_bc_example :
  cd_1d_set_poisson_bc_by (S:=ZS) int32 (-1) 2 ex_dx 1 (0%nat, 2) ex_lo ex_hi 2 0 0 ex_s ex_s ex_int =
  cd_1d_set_poisson_bc (-1) 2 ex_dx 1 (0%nat, 2) ex_lo ex_hi 2 0 0 ex_s ex_s ex_int.
Proof. apply C52_cd_1d_set_poisson_bc; ex_hyp. Qed.

Theorem C52_cd_2d_set_bc : forall (S : Scalar) i0 i1 j0 j1 dx dgcw d0 d1 ugcw u bLo bHi exOrder face type btype
    alpha beta (m : mem S),
  i0 <= i1 -> j0 <= j1 -> 1 <= ugcw -> 0 <= dgcw ->
  (type = 1 -> face = 0 -> bLo 0 = i0 - 1 /\ seg_overlaps j0 j1 (bLo 1) (bHi 1)) ->
  (type = 1 -> face = 1 -> bHi 0 = i1 + 1 /\ seg_overlaps j0 j1 (bLo 1) (bHi 1)) ->
  (type = 1 -> face = 2 -> bLo 1 = j0 - 1 /\ seg_overlaps i0 i1 (bLo 0) (bHi 0)) ->
  (type = 1 -> face = 3 -> bHi 1 = j1 + 1 /\ seg_overlaps i0 i1 (bLo 0) (bHi 0)) ->
  (type = 2 -> face = 0 -> bLo 0 = i0 - 1 /\ bLo 1 = j0 - 1) ->
  (type = 2 -> face = 1 -> bHi 0 = i1 + 1 /\ bLo 1 = j0 - 1) ->
  (type = 2 -> face = 2 -> bLo 0 = i0 - 1 /\ bHi 1 = j1 + 1) ->
  (type = 2 -> face = 3 -> bHi 0 = i1 + 1 /\ bHi 1 = j1 + 1) -> int_dims (FACE2d0 i0 j0 i1 j1 dgcw) ->
  int_dims (FACE2d1 i0 j0 i1 j1 dgcw) -> int_dims (CELL2d i0 j0 i1 j1 ugcw) ->
    cd_2d_set_bc_by int32 i0 i1 j0 j1 dx dgcw d0 d1 ugcw u bLo bHi exOrder face type btype alpha beta m =
    cd_2d_set_bc i0 i1 j0 j1 dx dgcw d0 d1 ugcw u bLo bHi exOrder face type btype alpha beta m.
Proof. exact @cd_2d_set_bc_int. Qed.
Print Assumptions C52_cd_2d_set_bc.

Example C52_cd_2d_set_bc_example :
  cd_2d_set_bc_by (S:=ZS) int32 (-1) 2 0 2 ex_dx 0 (0%nat, 2) (1%nat, 3) 1 (2%nat, 4) ex_lo ex_hi 2 0 1 0 ex_s
  ex_s ex_int =
  cd_2d_set_bc (-1) 2 0 2 ex_dx 0 (0%nat, 2) (1%nat, 3) 1 (2%nat, 4) ex_lo ex_hi 2 0 1 0 ex_s ex_s ex_int.
Proof. apply C52_cd_2d_set_bc; ex_hyp. Qed.

Theorem C52_cd_2d_set_poisson_bc : forall (S : Scalar) i0 i1 j0 j1 dx ugcw u bLo bHi exOrder face type btype
    alpha beta (m : mem S),
  i0 <= i1 -> j0 <= j1 -> 1 <= ugcw ->
  (type = 1 -> face = 0 -> bLo 0 = i0 - 1 /\ seg_overlaps j0 j1 (bLo 1) (bHi 1)) ->
  (type = 1 -> face = 1 -> bHi 0 = i1 + 1 /\ seg_overlaps j0 j1 (bLo 1) (bHi 1)) ->
  (type = 1 -> face = 2 -> bLo 1 = j0 - 1 /\ seg_overlaps i0 i1 (bLo 0) (bHi 0)) ->
  (type = 1 -> face = 3 -> bHi 1 = j1 + 1 /\ seg_overlaps i0 i1 (bLo 0) (bHi 0)) ->
  (type = 2 -> face = 0 -> bLo 0 = i0 - 1 /\ bLo 1 = j0 - 1) ->
  (type = 2 -> face = 1 -> bHi 0 = i1 + 1 /\ bLo 1 = j0 - 1) ->
  (type = 2 -> face = 2 -> bLo 0 = i0 - 1 /\ bHi 1 = j1 + 1) ->
  (type = 2 -> face = 3 -> bHi 0 = i1 + 1 /\ bHi 1 = j1 + 1) -> int_dims (CELL2d i0 j0 i1 j1 ugcw) ->
    cd_2d_set_poisson_bc_by int32 i0 i1 j0 j1 dx ugcw u bLo bHi exOrder face type btype alpha beta m =
    cd_2d_set_poisson_bc i0 i1 j0 j1 dx ugcw u bLo bHi exOrder face type btype alpha beta m.
Proof. exact @cd_2d_set_poisson_bc_int. Qed.
Print Assumptions C52_cd_2d_set_poisson_bc.

Example C52_cd_2d_set_poisson_bc_example :
  cd_2d_set_poisson_bc_by (S:=ZS) int32 (-1) 2 0 2 ex_dx 1 (0%nat, 2) ex_lo ex_hi 2 0 1 0 ex_s ex_s ex_int =
  cd_2d_set_poisson_bc (-1) 2 0 2 ex_dx 1 (0%nat, 2) ex_lo ex_hi 2 0 1 0 ex_s ex_s ex_int.
Proof. apply C52_cd_2d_set_poisson_bc; ex_hyp. Qed.

Theorem C52_cd_2d_set_corner_bc : forall (S : Scalar) i0 i1 j0 j1 gcw dx d0 d1 u bLo bHi exOrder face type btype
    (m : mem S),
  i0 <= i1 -> j0 <= j1 -> 1 <= gcw -> (face = 0 -> bLo 0 = i0 - 1 /\ bLo 1 = j0 - 1) ->
  (face = 1 -> bHi 0 = i1 + 1 /\ bLo 1 = j0 - 1) -> (face = 2 -> bLo 0 = i0 - 1 /\ bHi 1 = j1 + 1) ->
  (face = 3 -> bHi 0 = i1 + 1 /\ bHi 1 = j1 + 1) -> int_dims (CELL2d i0 j0 i1 j1 gcw) ->
    cd_2d_set_corner_bc_by int32 i0 i1 j0 j1 gcw dx d0 d1 u bLo bHi exOrder face type btype m =
    cd_2d_set_corner_bc i0 i1 j0 j1 gcw dx d0 d1 u bLo bHi exOrder face type btype m.
Proof. exact @cd_2d_set_corner_bc_int. Qed.
Print Assumptions C52_cd_2d_set_corner_bc.

Example C52_cd_2d_set_corner_bc_example :
  cd_2d_set_corner_bc_by (S:=ZS) int32 (-1) 2 0 2 1 ex_dx (0%nat, 2) (1%nat, 3) (2%nat, 4) ex_corner ex_hi 2 0 1
  0 ex_int =
  cd_2d_set_corner_bc (-1) 2 0 2 1 ex_dx (0%nat, 2) (1%nat, 3) (2%nat, 4) ex_corner ex_hi 2 0 1 0 ex_int.
Proof. apply C52_cd_2d_set_corner_bc; ex_hyp. Qed.

Theorem C52_cd_3d_set_bc : forall (S : Scalar) i0 i1 j0 j1 k0 k1 dx dgcw d0 d1 d2 ugcw u bLo bHi exOrder face
    type btype alpha beta (m : mem S),
  i0 <= i1 -> j0 <= j1 -> k0 <= k1 -> 1 <= ugcw -> 0 <= dgcw ->
  (type = 1 -> face = 0 -> bLo 0 = i0 - 1 /\ seg_overlaps j0 j1 (bLo 1) (bHi 1) /\ seg_overlaps k0 k1 (bLo 2) (bHi 2)) ->
  (type = 1 -> face = 1 -> bHi 0 = i1 + 1 /\ seg_overlaps j0 j1 (bLo 1) (bHi 1) /\ seg_overlaps k0 k1 (bLo 2) (bHi 2)) ->
  (type = 1 -> face = 2 -> bLo 1 = j0 - 1 /\ seg_overlaps i0 i1 (bLo 0) (bHi 0) /\ seg_overlaps k0 k1 (bLo 2) (bHi 2)) ->
  (type = 1 -> face = 3 -> bHi 1 = j1 + 1 /\ seg_overlaps i0 i1 (bLo 0) (bHi 0) /\ seg_overlaps k0 k1 (bLo 2) (bHi 2)) ->
  (type = 1 -> face = 4 -> bLo 2 = k0 - 1 /\ seg_overlaps i0 i1 (bLo 0) (bHi 0) /\ seg_overlaps j0 j1 (bLo 1) (bHi 1)) ->
  (type = 1 -> face = 5 -> bHi 2 = k1 + 1 /\ seg_overlaps i0 i1 (bLo 0) (bHi 0) /\ seg_overlaps j0 j1 (bLo 1) (bHi 1)) ->
  (type = 2 -> 0 <= face < 4 -> at_side (face mod 2) i0 i1 (bLo 0) /\ at_side (face / 2 mod 2) j0 j1 (bLo 1) /\ seg_overlaps k0 k1 (bLo 2) (bHi 2)) ->
  (type = 2 -> 4 <= face < 8 -> at_side (face mod 2) i0 i1 (bLo 0) /\ at_side (face / 2 mod 2) k0 k1 (bLo 2) /\ seg_overlaps j0 j1 (bLo 1) (bHi 1)) ->
  (type = 2 -> 8 <= face < 12 -> at_side (face mod 2) j0 j1 (bLo 1) /\ at_side (face / 2 mod 2) k0 k1 (bLo 2) /\ seg_overlaps i0 i1 (bLo 0) (bHi 0)) ->
  (type = 3 -> 0 <= face < 8 -> at_side (face mod 2) i0 i1 (bLo 0) /\ at_side (face / 2 mod 2) j0 j1 (bLo 1) /\ at_side (face / 4) k0 k1 (bLo 2)) ->
  int_dims (FACE3d0 i0 j0 k0 i1 j1 k1 dgcw) -> int_dims (FACE3d1 i0 j0 k0 i1 j1 k1 dgcw) ->
  int_dims (FACE3d2 i0 j0 k0 i1 j1 k1 dgcw) -> int_dims (CELL3d i0 j0 k0 i1 j1 k1 ugcw) ->
    cd_3d_set_bc_by int32 i0 i1 j0 j1 k0 k1 dx dgcw d0 d1 d2 ugcw u bLo bHi exOrder face type btype alpha beta m
    =
    cd_3d_set_bc i0 i1 j0 j1 k0 k1 dx dgcw d0 d1 d2 ugcw u bLo bHi exOrder face type btype alpha beta m.
Proof. exact @cd_3d_set_bc_int. Qed.
Print Assumptions C52_cd_3d_set_bc.

Example C52_cd_3d_set_bc_example :
  cd_3d_set_bc_by (S:=ZS) int32 (-1) 2 0 2 1 2 ex_dx 0 (0%nat, 2) (1%nat, 3) (2%nat, 4) 1 (3%nat, 5) ex_lo ex_hi
  2 0 1 0 ex_s ex_s ex_int =
  cd_3d_set_bc (-1) 2 0 2 1 2 ex_dx 0 (0%nat, 2) (1%nat, 3) (2%nat, 4) 1 (3%nat, 5) ex_lo ex_hi 2 0 1 0 ex_s
  ex_s ex_int.
Proof. apply C52_cd_3d_set_bc; ex_hyp. Qed.

Theorem C52_cd_3d_set_poisson_bc : forall (S : Scalar) i0 i1 j0 j1 k0 k1 dx ugcw u bLo bHi exOrder face type
    btype alpha beta (m : mem S),
  i0 <= i1 -> j0 <= j1 -> k0 <= k1 -> 1 <= ugcw ->
  (type = 1 -> face = 0 -> bLo 0 = i0 - 1 /\ seg_overlaps j0 j1 (bLo 1) (bHi 1) /\ seg_overlaps k0 k1 (bLo 2) (bHi 2)) ->
  (type = 1 -> face = 1 -> bHi 0 = i1 + 1 /\ seg_overlaps j0 j1 (bLo 1) (bHi 1) /\ seg_overlaps k0 k1 (bLo 2) (bHi 2)) ->
  (type = 1 -> face = 2 -> bLo 1 = j0 - 1 /\ seg_overlaps i0 i1 (bLo 0) (bHi 0) /\ seg_overlaps k0 k1 (bLo 2) (bHi 2)) ->
  (type = 1 -> face = 3 -> bHi 1 = j1 + 1 /\ seg_overlaps i0 i1 (bLo 0) (bHi 0) /\ seg_overlaps k0 k1 (bLo 2) (bHi 2)) ->
  (type = 1 -> face = 4 -> bLo 2 = k0 - 1 /\ seg_overlaps i0 i1 (bLo 0) (bHi 0) /\ seg_overlaps j0 j1 (bLo 1) (bHi 1)) ->
  (type = 1 -> face = 5 -> bHi 2 = k1 + 1 /\ seg_overlaps i0 i1 (bLo 0) (bHi 0) /\ seg_overlaps j0 j1 (bLo 1) (bHi 1)) ->
  (type = 2 -> 0 <= face < 4 -> at_side (face mod 2) i0 i1 (bLo 0) /\ at_side (face / 2 mod 2) j0 j1 (bLo 1) /\ seg_overlaps k0 k1 (bLo 2) (bHi 2)) ->
  (type = 2 -> 4 <= face < 8 -> at_side (face mod 2) i0 i1 (bLo 0) /\ at_side (face / 2 mod 2) k0 k1 (bLo 2) /\ seg_overlaps j0 j1 (bLo 1) (bHi 1)) ->
  (type = 2 -> 8 <= face < 12 -> at_side (face mod 2) j0 j1 (bLo 1) /\ at_side (face / 2 mod 2) k0 k1 (bLo 2) /\ seg_overlaps i0 i1 (bLo 0) (bHi 0)) ->
  (type = 3 -> 0 <= face < 8 -> at_side (face mod 2) i0 i1 (bLo 0) /\ at_side (face / 2 mod 2) j0 j1 (bLo 1) /\ at_side (face / 4) k0 k1 (bLo 2)) ->
  int_dims (CELL3d i0 j0 k0 i1 j1 k1 ugcw) ->
    cd_3d_set_poisson_bc_by int32 i0 i1 j0 j1 k0 k1 dx ugcw u bLo bHi exOrder face type btype alpha beta m =
    cd_3d_set_poisson_bc i0 i1 j0 j1 k0 k1 dx ugcw u bLo bHi exOrder face type btype alpha beta m.
Proof. exact @cd_3d_set_poisson_bc_int. Qed.
Print Assumptions C52_cd_3d_set_poisson_bc.

Example C52_cd_3d_set_poisson_bc_example :
  cd_3d_set_poisson_bc_by (S:=ZS) int32 (-1) 2 0 2 1 2 ex_dx 1 (0%nat, 2) ex_lo ex_hi 2 0 1 0 ex_s ex_s ex_int =
  cd_3d_set_poisson_bc (-1) 2 0 2 1 2 ex_dx 1 (0%nat, 2) ex_lo ex_hi 2 0 1 0 ex_s ex_s ex_int.
Proof. apply C52_cd_3d_set_poisson_bc; ex_hyp. Qed.

(** *** Stencil coefficients, 1D and 2D *)

Theorem C52_cd_stencil_1d_offdiag : forall (S : Scalar) i0 i1 bi0 bi1 dx beta b0 sgcw st (m : mem S),
  i0 <= i1 -> 0 <= sgcw -> bi0 <= i0 -> i1 <= bi1 -> int_dims (FACE1d bi0 bi1 0) ->
  int_dims ((0, 2) :: CELL1d i0 i1 sgcw) ->
    cd_stencil_1d_offdiag_by int32 i0 i1 bi0 bi1 dx beta b0 sgcw st m =
    cd_stencil_1d_offdiag i0 i1 bi0 bi1 dx beta b0 sgcw st m.
Proof. exact @cd_stencil_1d_offdiag_int. Qed.
Print Assumptions C52_cd_stencil_1d_offdiag.

Example C52_cd_stencil_1d_offdiag_example :
  cd_stencil_1d_offdiag_by (S:=ZS) int32 (-1) 2 (-3) 5 ex_dx ex_s (0%nat, 2) 1 (1%nat, 3) ex_int =
  cd_stencil_1d_offdiag (-1) 2 (-3) 5 ex_dx ex_s (0%nat, 2) 1 (1%nat, 3) ex_int.
Proof. apply C52_cd_stencil_1d_offdiag; ex_hyp. Qed.

Theorem C52_cd_stencil_1d_poisson_offdiag : forall (S : Scalar) i0 i1 dx beta sgcw st (m : mem S),
  i0 <= i1 -> 0 <= sgcw -> int_dims ((0, 2) :: CELL1d i0 i1 sgcw) ->
    cd_stencil_1d_poisson_offdiag_by int32 i0 i1 dx beta sgcw st m =
    cd_stencil_1d_poisson_offdiag i0 i1 dx beta sgcw st m.
Proof. exact @cd_stencil_1d_poisson_offdiag_int. Qed.
Print Assumptions C52_cd_stencil_1d_poisson_offdiag.

Example C52_cd_stencil_1d_poisson_offdiag_example :
  cd_stencil_1d_poisson_offdiag_by (S:=ZS) int32 (-1) 2 ex_dx ex_s 1 (0%nat, 2) ex_int =
  cd_stencil_1d_poisson_offdiag (-1) 2 ex_dx ex_s 1 (0%nat, 2) ex_int.
Proof. apply C52_cd_stencil_1d_poisson_offdiag; ex_hyp. Qed.

Theorem C52_cd_stencil_1d_v1diag : forall (S : Scalar) i0 i1 ai0 ai1 alpha a sgcw st (m : mem S),
  i0 <= i1 -> 0 <= sgcw -> ai0 <= i0 -> i1 <= ai1 -> int_dims (CELL1d ai0 ai1 0) ->
  int_dims ((0, 2) :: CELL1d i0 i1 sgcw) ->
    cd_stencil_1d_v1diag_by int32 i0 i1 ai0 ai1 alpha a sgcw st m =
    cd_stencil_1d_v1diag i0 i1 ai0 ai1 alpha a sgcw st m.
Proof. exact @cd_stencil_1d_v1diag_int. Qed.
Print Assumptions C52_cd_stencil_1d_v1diag.

Example C52_cd_stencil_1d_v1diag_example :
  cd_stencil_1d_v1diag_by (S:=ZS) int32 (-1) 2 (-1) 2 ex_s (0%nat, 2) 1 (1%nat, 3) ex_int =
  cd_stencil_1d_v1diag (-1) 2 (-1) 2 ex_s (0%nat, 2) 1 (1%nat, 3) ex_int.
Proof. apply C52_cd_stencil_1d_v1diag; ex_hyp. Qed.

Theorem C52_cd_stencil_1d_v2diag : forall (S : Scalar) i0 i1 alpha sgcw st (m : mem S),
  i0 <= i1 -> 0 <= sgcw -> int_dims ((0, 2) :: CELL1d i0 i1 sgcw) ->
    cd_stencil_1d_v2diag_by int32 i0 i1 alpha sgcw st m =
    cd_stencil_1d_v2diag i0 i1 alpha sgcw st m.
Proof. exact @cd_stencil_1d_v2diag_int. Qed.
Print Assumptions C52_cd_stencil_1d_v2diag.

Example C52_cd_stencil_1d_v2diag_example :
  cd_stencil_1d_v2diag_by (S:=ZS) int32 (-1) 2 ex_s 1 (0%nat, 2) ex_int =
  cd_stencil_1d_v2diag (-1) 2 ex_s 1 (0%nat, 2) ex_int.
Proof. apply C52_cd_stencil_1d_v2diag; ex_hyp. Qed.

Theorem C52_cd_stencil_1d_poisson_diag : forall (S : Scalar) i0 i1 sgcw st (m : mem S),
  i0 <= i1 -> 0 <= sgcw -> int_dims ((0, 2) :: CELL1d i0 i1 sgcw) ->
    cd_stencil_1d_poisson_diag_by int32 i0 i1 sgcw st m =
    cd_stencil_1d_poisson_diag i0 i1 sgcw st m.
Proof. exact @cd_stencil_1d_poisson_diag_int. Qed.
Print Assumptions C52_cd_stencil_1d_poisson_diag.

Example C52_cd_stencil_1d_poisson_diag_example :
  cd_stencil_1d_poisson_diag_by (S:=ZS) int32 (-1) 2 1 (0%nat, 2) ex_int =
  cd_stencil_1d_poisson_diag (-1) 2 1 (0%nat, 2) ex_int.
Proof. apply C52_cd_stencil_1d_poisson_diag; ex_hyp. Qed.

Theorem C52_cd_stencil_1d_adj_diag : forall (S : Scalar) i0 i1 pi0 pi1 side btype exOrder dx beta b0 sgcw st (m
    : mem S),
  side = 0 \/ side = 1 -> i0 <= i1 -> at_side side i0 i1 pi0 -> 0 <= sgcw -> int_dims (FACE1d i0 i1 0) ->
  int_dims ((0, 2) :: CELL1d i0 i1 sgcw) ->
    cd_stencil_1d_adj_diag_by int32 i0 i1 pi0 pi1 side btype exOrder dx beta b0 sgcw st m =
    cd_stencil_1d_adj_diag i0 i1 pi0 pi1 side btype exOrder dx beta b0 sgcw st m.
Proof. exact @cd_stencil_1d_adj_diag_int. Qed.
Print Assumptions C52_cd_stencil_1d_adj_diag.

Example C52_cd_stencil_1d_adj_diag_example :
  cd_stencil_1d_adj_diag_by (S:=ZS) int32 (-1) 2 (-2) (-2) 0 0 2 ex_dx ex_s (0%nat, 2) 1 (1%nat, 3) ex_int =
  cd_stencil_1d_adj_diag (-1) 2 (-2) (-2) 0 0 2 ex_dx ex_s (0%nat, 2) 1 (1%nat, 3) ex_int.
Proof. apply C52_cd_stencil_1d_adj_diag; ex_hyp. Qed.

Theorem C52_cd_stencil_1d_adj_poisson_diag : forall (S : Scalar) i0 i1 pi0 pi1 side btype exOrder dx beta sgcw
    st (m : mem S),
  side = 0 \/ side = 1 -> i0 <= i1 -> at_side side i0 i1 pi0 -> 0 <= sgcw ->
  int_dims ((0, 2) :: CELL1d i0 i1 sgcw) ->
    cd_stencil_1d_adj_poisson_diag_by int32 i0 i1 pi0 pi1 side btype exOrder dx beta sgcw st m =
    cd_stencil_1d_adj_poisson_diag i0 i1 pi0 pi1 side btype exOrder dx beta sgcw st m.
Proof. exact @cd_stencil_1d_adj_poisson_diag_int. Qed.
Print Assumptions C52_cd_stencil_1d_adj_poisson_diag.

Example C52_cd_stencil_1d_adj_poisson_diag_example :
  cd_stencil_1d_adj_poisson_diag_by (S:=ZS) int32 (-1) 2 (-2) (-2) 0 0 2 ex_dx ex_s 1 (0%nat, 2) ex_int =
  cd_stencil_1d_adj_poisson_diag (-1) 2 (-2) (-2) 0 0 2 ex_dx ex_s 1 (0%nat, 2) ex_int.
Proof. apply C52_cd_stencil_1d_adj_poisson_diag; ex_hyp. Qed.

Theorem C52_cd_stencil_1d_adj_cf_diag : forall (S : Scalar) i0 i1 pi0 pi1 r side intOrder dx beta b0 sgcw st (m
    : mem S),
  side = 0 \/ side = 1 -> i0 <= i1 -> at_side side i0 i1 pi0 -> 0 <= sgcw -> int_dims (FACE1d i0 i1 0) ->
  int_dims ((0, 2) :: CELL1d i0 i1 sgcw) ->
    cd_stencil_1d_adj_cf_diag_by int32 i0 i1 pi0 pi1 r side intOrder dx beta b0 sgcw st m =
    cd_stencil_1d_adj_cf_diag i0 i1 pi0 pi1 r side intOrder dx beta b0 sgcw st m.
Proof. exact @cd_stencil_1d_adj_cf_diag_int. Qed.
Print Assumptions C52_cd_stencil_1d_adj_cf_diag.

Example C52_cd_stencil_1d_adj_cf_diag_example :
  cd_stencil_1d_adj_cf_diag_by (S:=ZS) int32 (-1) 2 (-2) (-2) 2 0 2 ex_dx ex_s (0%nat, 2) 1 (1%nat, 3) ex_int =
  cd_stencil_1d_adj_cf_diag (-1) 2 (-2) (-2) 2 0 2 ex_dx ex_s (0%nat, 2) 1 (1%nat, 3) ex_int.
Proof. apply C52_cd_stencil_1d_adj_cf_diag; ex_hyp. Qed.

Theorem C52_cd_stencil_1d_adj_poisson_cf_diag : forall (S : Scalar) i0 i1 pi0 pi1 r side intOrder dx beta sgcw
    st (m : mem S),
  side = 0 \/ side = 1 -> i0 <= i1 -> at_side side i0 i1 pi0 -> 0 <= sgcw ->
  int_dims ((0, 2) :: CELL1d i0 i1 sgcw) ->
    cd_stencil_1d_adj_poisson_cf_diag_by int32 i0 i1 pi0 pi1 r side intOrder dx beta sgcw st m =
    cd_stencil_1d_adj_poisson_cf_diag i0 i1 pi0 pi1 r side intOrder dx beta sgcw st m.
Proof. exact @cd_stencil_1d_adj_poisson_cf_diag_int. Qed.
Print Assumptions C52_cd_stencil_1d_adj_poisson_cf_diag.

Example C52_cd_stencil_1d_adj_poisson_cf_diag_example :
  cd_stencil_1d_adj_poisson_cf_diag_by (S:=ZS) int32 (-1) 2 (-2) (-2) 2 0 2 ex_dx ex_s 1 (0%nat, 2) ex_int =
  cd_stencil_1d_adj_poisson_cf_diag (-1) 2 (-2) (-2) 2 0 2 ex_dx ex_s 1 (0%nat, 2) ex_int.
Proof. apply C52_cd_stencil_1d_adj_poisson_cf_diag; ex_hyp. Qed.

Theorem C52_cd_stencil_1d_adj_offdiag : forall (S : Scalar) i0 i1 pi0 pi1 side btype exOrder dx dirf neuf beta
    b0 sgcw st (m : mem S),
  side = 0 \/ side = 1 -> i0 <= i1 -> at_side side i0 i1 pi0 -> 0 <= sgcw -> int_dims (FACE1d i0 i1 0) ->
  int_dims ((0, 2) :: CELL1d i0 i1 sgcw) ->
    cd_stencil_1d_adj_offdiag_by int32 i0 i1 pi0 pi1 side btype exOrder dx dirf neuf beta b0 sgcw st m =
    cd_stencil_1d_adj_offdiag i0 i1 pi0 pi1 side btype exOrder dx dirf neuf beta b0 sgcw st m.
Proof. exact @cd_stencil_1d_adj_offdiag_int. Qed.
Print Assumptions C52_cd_stencil_1d_adj_offdiag.

Example C52_cd_stencil_1d_adj_offdiag_example :
  cd_stencil_1d_adj_offdiag_by (S:=ZS) int32 (-1) 2 (-2) (-2) 0 0 2 ex_dx ex_s ex_s ex_s (0%nat, 2) 1 (1%nat, 3)
  ex_int =
  cd_stencil_1d_adj_offdiag (-1) 2 (-2) (-2) 0 0 2 ex_dx ex_s ex_s ex_s (0%nat, 2) 1 (1%nat, 3) ex_int.
Proof. apply C52_cd_stencil_1d_adj_offdiag; ex_hyp. Qed.

Theorem C52_cd_stencil_1d_adj_poisson_offdiag : forall (S : Scalar) i0 i1 pi0 pi1 side btype exOrder dx dirf
    neuf beta sgcw st (m : mem S),
  side = 0 \/ side = 1 -> i0 <= i1 -> at_side side i0 i1 pi0 -> 0 <= sgcw ->
  int_dims ((0, 2) :: CELL1d i0 i1 sgcw) ->
    cd_stencil_1d_adj_poisson_offdiag_by int32 i0 i1 pi0 pi1 side btype exOrder dx dirf neuf beta sgcw st m =
    cd_stencil_1d_adj_poisson_offdiag i0 i1 pi0 pi1 side btype exOrder dx dirf neuf beta sgcw st m.
Proof. exact @cd_stencil_1d_adj_poisson_offdiag_int. Qed.
Print Assumptions C52_cd_stencil_1d_adj_poisson_offdiag.

Example C52_cd_stencil_1d_adj_poisson_offdiag_example :
  cd_stencil_1d_adj_poisson_offdiag_by (S:=ZS) int32 (-1) 2 (-2) (-2) 0 0 2 ex_dx ex_s ex_s ex_s 1 (0%nat, 2)
  ex_int =
  cd_stencil_1d_adj_poisson_offdiag (-1) 2 (-2) (-2) 0 0 2 ex_dx ex_s ex_s ex_s 1 (0%nat, 2) ex_int.
Proof. apply C52_cd_stencil_1d_adj_poisson_offdiag; ex_hyp. Qed.

Theorem C52_cd_stencil_1d_adj_cf_offdiag : forall (S : Scalar) i0 i1 ci0 ci1 r side intOrder sgcw st (m : mem
    S),
  side = 0 \/ side = 1 -> i0 <= i1 -> at_side side i0 i1 ci0 -> 0 <= sgcw ->
  int_dims ((0, 2) :: CELL1d i0 i1 sgcw) ->
    cd_stencil_1d_adj_cf_offdiag_by int32 i0 i1 ci0 ci1 r side intOrder sgcw st m =
    cd_stencil_1d_adj_cf_offdiag i0 i1 ci0 ci1 r side intOrder sgcw st m.
Proof. exact @cd_stencil_1d_adj_cf_offdiag_int. Qed.
Print Assumptions C52_cd_stencil_1d_adj_cf_offdiag.

Example C52_cd_stencil_1d_adj_cf_offdiag_example :
  cd_stencil_1d_adj_cf_offdiag_by (S:=ZS) int32 (-1) 2 (-2) (-2) 2 0 2 1 (0%nat, 2) ex_int =
  cd_stencil_1d_adj_cf_offdiag (-1) 2 (-2) (-2) 2 0 2 1 (0%nat, 2) ex_int.
Proof. apply C52_cd_stencil_1d_adj_cf_offdiag; ex_hyp. Qed.

Theorem C52_cd_stencil_1d_readj_offdiag : forall (S : Scalar) i0 i1 pi0 pi1 side sgcw st (m : mem S),
  side = 0 \/ side = 1 -> i0 <= i1 -> at_side side i0 i1 pi0 -> 0 <= sgcw ->
  int_dims ((0, 2) :: CELL1d i0 i1 sgcw) ->
    cd_stencil_1d_readj_offdiag_by int32 i0 i1 pi0 pi1 side sgcw st m =
    cd_stencil_1d_readj_offdiag i0 i1 pi0 pi1 side sgcw st m.
Proof. exact @cd_stencil_1d_readj_offdiag_int. Qed.
Print Assumptions C52_cd_stencil_1d_readj_offdiag.

Example C52_cd_stencil_1d_readj_offdiag_example :
  cd_stencil_1d_readj_offdiag_by (S:=ZS) int32 (-1) 2 (-2) (-2) 0 1 (0%nat, 2) ex_int =
  cd_stencil_1d_readj_offdiag (-1) 2 (-2) (-2) 0 1 (0%nat, 2) ex_int.
Proof. apply C52_cd_stencil_1d_readj_offdiag; ex_hyp. Qed.

Theorem C52_cd_stencil_1d_adj_cf_bdryrhs : forall (S : Scalar) i0 i1 pi0 pi1 side sgcw st gcw u rhs (m : mem S),
  side = 0 \/ side = 1 -> i0 <= i1 -> at_side side i0 i1 pi0 -> 0 <= sgcw -> 1 <= gcw ->
  int_dims ((0, 2) :: CELL1d i0 i1 sgcw) -> int_dims (CELL1d i0 i1 gcw) -> int_dims (CELL1d i0 i1 0) ->
    cd_stencil_1d_adj_cf_bdryrhs_by int32 i0 i1 pi0 pi1 side sgcw st gcw u rhs m =
    cd_stencil_1d_adj_cf_bdryrhs i0 i1 pi0 pi1 side sgcw st gcw u rhs m.
Proof. exact @cd_stencil_1d_adj_cf_bdryrhs_int. Qed.
Print Assumptions C52_cd_stencil_1d_adj_cf_bdryrhs.

Example C52_cd_stencil_1d_adj_cf_bdryrhs_example :
  cd_stencil_1d_adj_cf_bdryrhs_by (S:=ZS) int32 (-1) 2 (-2) (-2) 0 1 (0%nat, 2) 1 (1%nat, 3) (2%nat, 4) ex_int =
  cd_stencil_1d_adj_cf_bdryrhs (-1) 2 (-2) (-2) 0 1 (0%nat, 2) 1 (1%nat, 3) (2%nat, 4) ex_int.
Proof. apply C52_cd_stencil_1d_adj_cf_bdryrhs; ex_hyp. Qed.

Theorem C52_cd_stencil_2d_offdiag : forall (S : Scalar) i0 j0 i1 j1 bi0 bj0 bi1 bj1 dx beta b0 b1 sgcw st (m :
    mem S),
  i0 <= i1 -> j0 <= j1 -> 0 <= sgcw -> bi0 <= i0 -> i1 <= bi1 -> bj0 <= j0 -> j1 <= bj1 ->
  int_dims (FACE2d0 bi0 bj0 bi1 bj1 0) -> int_dims (FACE2d1 bi0 bj0 bi1 bj1 0) ->
  int_dims ((0, 4) :: CELL2d i0 j0 i1 j1 sgcw) ->
    cd_stencil_2d_offdiag_by int32 i0 j0 i1 j1 bi0 bj0 bi1 bj1 dx beta b0 b1 sgcw st m =
    cd_stencil_2d_offdiag i0 j0 i1 j1 bi0 bj0 bi1 bj1 dx beta b0 b1 sgcw st m.
Proof. exact @cd_stencil_2d_offdiag_int. Qed.
Print Assumptions C52_cd_stencil_2d_offdiag.

Example C52_cd_stencil_2d_offdiag_example :
  cd_stencil_2d_offdiag_by (S:=ZS) int32 (-1) 0 2 2 (-3) 0 5 2 ex_dx ex_s (0%nat, 2) (1%nat, 3) 1 (2%nat, 4)
  ex_int =
  cd_stencil_2d_offdiag (-1) 0 2 2 (-3) 0 5 2 ex_dx ex_s (0%nat, 2) (1%nat, 3) 1 (2%nat, 4) ex_int.
Proof. apply C52_cd_stencil_2d_offdiag; ex_hyp. Qed.

Theorem C52_cd_stencil_2d_poisson_offdiag : forall (S : Scalar) i0 j0 i1 j1 dx beta sgcw st (m : mem S),
  i0 <= i1 -> j0 <= j1 -> 0 <= sgcw -> int_dims ((0, 4) :: CELL2d i0 j0 i1 j1 sgcw) ->
    cd_stencil_2d_poisson_offdiag_by int32 i0 j0 i1 j1 dx beta sgcw st m =
    cd_stencil_2d_poisson_offdiag i0 j0 i1 j1 dx beta sgcw st m.
Proof. exact @cd_stencil_2d_poisson_offdiag_int. Qed.
Print Assumptions C52_cd_stencil_2d_poisson_offdiag.

Example C52_cd_stencil_2d_poisson_offdiag_example :
  cd_stencil_2d_poisson_offdiag_by (S:=ZS) int32 (-1) 0 2 2 ex_dx ex_s 1 (0%nat, 2) ex_int =
  cd_stencil_2d_poisson_offdiag (-1) 0 2 2 ex_dx ex_s 1 (0%nat, 2) ex_int.
Proof. apply C52_cd_stencil_2d_poisson_offdiag; ex_hyp. Qed.

Theorem C52_cd_stencil_2d_v1diag : forall (S : Scalar) i0 j0 i1 j1 ai0 aj0 ai1 aj1 alpha a sgcw st (m : mem S),
  i0 <= i1 -> j0 <= j1 -> 0 <= sgcw -> ai0 <= i0 -> i1 <= ai1 -> aj0 <= j0 -> j1 <= aj1 ->
  int_dims (CELL2d ai0 aj0 ai1 aj1 0) -> int_dims ((0, 4) :: CELL2d i0 j0 i1 j1 sgcw) ->
    cd_stencil_2d_v1diag_by int32 i0 j0 i1 j1 ai0 aj0 ai1 aj1 alpha a sgcw st m =
    cd_stencil_2d_v1diag i0 j0 i1 j1 ai0 aj0 ai1 aj1 alpha a sgcw st m.
Proof. exact @cd_stencil_2d_v1diag_int. Qed.
Print Assumptions C52_cd_stencil_2d_v1diag.

Example C52_cd_stencil_2d_v1diag_example :
  cd_stencil_2d_v1diag_by (S:=ZS) int32 (-1) 0 2 2 (-1) (-1) 2 3 ex_s (0%nat, 2) 1 (1%nat, 3) ex_int =
  cd_stencil_2d_v1diag (-1) 0 2 2 (-1) (-1) 2 3 ex_s (0%nat, 2) 1 (1%nat, 3) ex_int.
Proof. apply C52_cd_stencil_2d_v1diag; ex_hyp. Qed.

Theorem C52_cd_stencil_2d_v2diag : forall (S : Scalar) i0 j0 i1 j1 alpha sgcw st (m : mem S),
  i0 <= i1 -> j0 <= j1 -> 0 <= sgcw -> int_dims ((0, 4) :: CELL2d i0 j0 i1 j1 sgcw) ->
    cd_stencil_2d_v2diag_by int32 i0 j0 i1 j1 alpha sgcw st m =
    cd_stencil_2d_v2diag i0 j0 i1 j1 alpha sgcw st m.
Proof. exact @cd_stencil_2d_v2diag_int. Qed.
Print Assumptions C52_cd_stencil_2d_v2diag.

Example C52_cd_stencil_2d_v2diag_example :
  cd_stencil_2d_v2diag_by (S:=ZS) int32 (-1) 0 2 2 ex_s 1 (0%nat, 2) ex_int =
  cd_stencil_2d_v2diag (-1) 0 2 2 ex_s 1 (0%nat, 2) ex_int.
Proof. apply C52_cd_stencil_2d_v2diag; ex_hyp. Qed.

Theorem C52_cd_stencil_2d_poisson_diag : forall (S : Scalar) i0 j0 i1 j1 sgcw st (m : mem S),
  i0 <= i1 -> j0 <= j1 -> 0 <= sgcw -> int_dims ((0, 4) :: CELL2d i0 j0 i1 j1 sgcw) ->
    cd_stencil_2d_poisson_diag_by int32 i0 j0 i1 j1 sgcw st m =
    cd_stencil_2d_poisson_diag i0 j0 i1 j1 sgcw st m.
Proof. exact @cd_stencil_2d_poisson_diag_int. Qed.
Print Assumptions C52_cd_stencil_2d_poisson_diag.

Example C52_cd_stencil_2d_poisson_diag_example :
  cd_stencil_2d_poisson_diag_by (S:=ZS) int32 (-1) 0 2 2 1 (0%nat, 2) ex_int =
  cd_stencil_2d_poisson_diag (-1) 0 2 2 1 (0%nat, 2) ex_int.
Proof. apply C52_cd_stencil_2d_poisson_diag; ex_hyp. Qed.

Theorem C52_cd_stencil_2d_adj_diag : forall (S : Scalar) i0 j0 i1 j1 pi0 pj0 pi1 pj1 dir side btype exOrder dx
    beta b0 b1 sgcw st (m : mem S),
  side = 0 \/ side = 1 -> i0 <= i1 -> j0 <= j1 ->
  (dir = 0 -> at_side side i0 i1 pi0 /\ seg_inside j0 j1 pj0 pj1) ->
  (dir = 1 -> at_side side j0 j1 pj0 /\ seg_inside i0 i1 pi0 pi1) -> 1 <= sgcw ->
  int_dims (FACE2d0 i0 j0 i1 j1 0) -> int_dims (FACE2d1 i0 j0 i1 j1 0) ->
  int_dims ((0, 4) :: CELL2d i0 j0 i1 j1 sgcw) ->
    cd_stencil_2d_adj_diag_by int32 i0 j0 i1 j1 pi0 pj0 pi1 pj1 dir side btype exOrder dx beta b0 b1 sgcw st m =
    cd_stencil_2d_adj_diag i0 j0 i1 j1 pi0 pj0 pi1 pj1 dir side btype exOrder dx beta b0 b1 sgcw st m.
Proof. exact @cd_stencil_2d_adj_diag_int. Qed.
Print Assumptions C52_cd_stencil_2d_adj_diag.

Example C52_cd_stencil_2d_adj_diag_example :
  cd_stencil_2d_adj_diag_by (S:=ZS) int32 (-1) 0 2 2 (-2) 0 (-2) 2 0 0 0 2 ex_dx ex_s (0%nat, 2) (1%nat, 3) 1
  (2%nat, 4) ex_int =
  cd_stencil_2d_adj_diag (-1) 0 2 2 (-2) 0 (-2) 2 0 0 0 2 ex_dx ex_s (0%nat, 2) (1%nat, 3) 1 (2%nat, 4) ex_int.
Proof. apply C52_cd_stencil_2d_adj_diag; ex_hyp. Qed.

Theorem C52_cd_stencil_2d_adj_poisson_diag : forall (S : Scalar) i0 j0 i1 j1 pi0 pj0 pi1 pj1 dir side btype
    exOrder dx beta sgcw st (m : mem S),
  side = 0 \/ side = 1 -> i0 <= i1 -> j0 <= j1 ->
  (dir = 0 -> at_side side i0 i1 pi0 /\ seg_inside j0 j1 pj0 pj1) ->
  (dir = 1 -> at_side side j0 j1 pj0 /\ seg_inside i0 i1 pi0 pi1) -> 0 <= sgcw ->
  int_dims ((0, 4) :: CELL2d i0 j0 i1 j1 sgcw) ->
    cd_stencil_2d_adj_poisson_diag_by int32 i0 j0 i1 j1 pi0 pj0 pi1 pj1 dir side btype exOrder dx beta sgcw st m
    =
    cd_stencil_2d_adj_poisson_diag i0 j0 i1 j1 pi0 pj0 pi1 pj1 dir side btype exOrder dx beta sgcw st m.
Proof. exact @cd_stencil_2d_adj_poisson_diag_int. Qed.
Print Assumptions C52_cd_stencil_2d_adj_poisson_diag.

Example C52_cd_stencil_2d_adj_poisson_diag_example :
  cd_stencil_2d_adj_poisson_diag_by (S:=ZS) int32 (-1) 0 2 2 (-2) 0 (-2) 2 0 0 0 2 ex_dx ex_s 1 (0%nat, 2)
  ex_int =
  cd_stencil_2d_adj_poisson_diag (-1) 0 2 2 (-2) 0 (-2) 2 0 0 0 2 ex_dx ex_s 1 (0%nat, 2) ex_int.
Proof. apply C52_cd_stencil_2d_adj_poisson_diag; ex_hyp. Qed.

Theorem C52_cd_stencil_2d_adj_cf_diag : forall (S : Scalar) i0 j0 i1 j1 pi0 pj0 pi1 pj1 r dir side intOrder dx
    beta b0 b1 sgcw st (m : mem S),
  side = 0 \/ side = 1 -> i0 <= i1 -> j0 <= j1 ->
  (dir = 0 -> at_side side i0 i1 pi0 /\ seg_inside j0 j1 pj0 pj1) ->
  (dir = 1 -> at_side side j0 j1 pj0 /\ seg_inside i0 i1 pi0 pi1) -> 0 <= sgcw ->
  int_dims (FACE2d0 i0 j0 i1 j1 0) -> int_dims (FACE2d1 i0 j0 i1 j1 0) ->
  int_dims ((0, 4) :: CELL2d i0 j0 i1 j1 sgcw) ->
    cd_stencil_2d_adj_cf_diag_by int32 i0 j0 i1 j1 pi0 pj0 pi1 pj1 r dir side intOrder dx beta b0 b1 sgcw st m =
    cd_stencil_2d_adj_cf_diag i0 j0 i1 j1 pi0 pj0 pi1 pj1 r dir side intOrder dx beta b0 b1 sgcw st m.
Proof. exact @cd_stencil_2d_adj_cf_diag_int. Qed.
Print Assumptions C52_cd_stencil_2d_adj_cf_diag.

Example C52_cd_stencil_2d_adj_cf_diag_example :
  cd_stencil_2d_adj_cf_diag_by (S:=ZS) int32 (-1) 0 2 2 (-2) 0 (-2) 2 2 0 0 2 ex_dx ex_s (0%nat, 2) (1%nat, 3) 1
  (2%nat, 4) ex_int =
  cd_stencil_2d_adj_cf_diag (-1) 0 2 2 (-2) 0 (-2) 2 2 0 0 2 ex_dx ex_s (0%nat, 2) (1%nat, 3) 1 (2%nat, 4)
  ex_int.
Proof. apply C52_cd_stencil_2d_adj_cf_diag; ex_hyp. Qed.

Theorem C52_cd_stencil_2d_adj_poisson_cf_diag : forall (S : Scalar) i0 j0 i1 j1 pi0 pj0 pi1 pj1 r dir side
    intOrder dx beta sgcw st (m : mem S),
  side = 0 \/ side = 1 -> i0 <= i1 -> j0 <= j1 ->
  (dir = 0 -> at_side side i0 i1 pi0 /\ seg_inside j0 j1 pj0 pj1) ->
  (dir = 1 -> at_side side j0 j1 pj0 /\ seg_inside i0 i1 pi0 pi1) -> 0 <= sgcw ->
  int_dims ((0, 4) :: CELL2d i0 j0 i1 j1 sgcw) ->
    cd_stencil_2d_adj_poisson_cf_diag_by int32 i0 j0 i1 j1 pi0 pj0 pi1 pj1 r dir side intOrder dx beta sgcw st m
    =
    cd_stencil_2d_adj_poisson_cf_diag i0 j0 i1 j1 pi0 pj0 pi1 pj1 r dir side intOrder dx beta sgcw st m.
Proof. exact @cd_stencil_2d_adj_poisson_cf_diag_int. Qed.
Print Assumptions C52_cd_stencil_2d_adj_poisson_cf_diag.

Example C52_cd_stencil_2d_adj_poisson_cf_diag_example :
  cd_stencil_2d_adj_poisson_cf_diag_by (S:=ZS) int32 (-1) 0 2 2 (-2) 0 (-2) 2 2 0 0 2 ex_dx ex_s 1 (0%nat, 2)
  ex_int =
  cd_stencil_2d_adj_poisson_cf_diag (-1) 0 2 2 (-2) 0 (-2) 2 2 0 0 2 ex_dx ex_s 1 (0%nat, 2) ex_int.
Proof. apply C52_cd_stencil_2d_adj_poisson_cf_diag; ex_hyp. Qed.

Theorem C52_cd_stencil_2d_adj_offdiag : forall (S : Scalar) i0 j0 i1 j1 pi0 pj0 pi1 pj1 dir side btype exOrder
    dx dirf neuf beta b0 b1 sgcw st (m : mem S),
  side = 0 \/ side = 1 -> i0 <= i1 -> j0 <= j1 ->
  (dir = 0 -> at_side side i0 i1 pi0 /\ seg_inside j0 j1 pj0 pj1) ->
  (dir = 1 -> at_side side j0 j1 pj0 /\ seg_inside i0 i1 pi0 pi1) -> 0 <= sgcw ->
  int_dims (FACE2d0 i0 j0 i1 j1 0) -> int_dims (FACE2d1 i0 j0 i1 j1 0) ->
  int_dims ((0, 4) :: CELL2d i0 j0 i1 j1 sgcw) ->
    cd_stencil_2d_adj_offdiag_by int32 i0 j0 i1 j1 pi0 pj0 pi1 pj1 dir side btype exOrder dx dirf neuf beta b0
    b1 sgcw st m =
    cd_stencil_2d_adj_offdiag i0 j0 i1 j1 pi0 pj0 pi1 pj1 dir side btype exOrder dx dirf neuf beta b0 b1 sgcw st
    m.
Proof. exact @cd_stencil_2d_adj_offdiag_int. Qed.
Print Assumptions C52_cd_stencil_2d_adj_offdiag.

Example C52_cd_stencil_2d_adj_offdiag_example :
  cd_stencil_2d_adj_offdiag_by (S:=ZS) int32 (-1) 0 2 2 (-2) 0 (-2) 2 0 0 0 2 ex_dx ex_s ex_s ex_s (0%nat, 2)
  (1%nat, 3) 1 (2%nat, 4) ex_int =
  cd_stencil_2d_adj_offdiag (-1) 0 2 2 (-2) 0 (-2) 2 0 0 0 2 ex_dx ex_s ex_s ex_s (0%nat, 2) (1%nat, 3) 1
  (2%nat, 4) ex_int.
Proof. apply C52_cd_stencil_2d_adj_offdiag; ex_hyp. Qed.

Theorem C52_cd_stencil_2d_adj_poisson_offdiag : forall (S : Scalar) i0 j0 i1 j1 pi0 pj0 pi1 pj1 dir side btype
    exOrder dx dirf neuf beta sgcw st (m : mem S),
  side = 0 \/ side = 1 -> i0 <= i1 -> j0 <= j1 ->
  (dir = 0 -> at_side side i0 i1 pi0 /\ seg_inside j0 j1 pj0 pj1) ->
  (dir = 1 -> at_side side j0 j1 pj0 /\ seg_inside i0 i1 pi0 pi1) -> 0 <= sgcw ->
  int_dims ((0, 4) :: CELL2d i0 j0 i1 j1 sgcw) ->
    cd_stencil_2d_adj_poisson_offdiag_by int32 i0 j0 i1 j1 pi0 pj0 pi1 pj1 dir side btype exOrder dx dirf neuf
    beta sgcw st m =
    cd_stencil_2d_adj_poisson_offdiag i0 j0 i1 j1 pi0 pj0 pi1 pj1 dir side btype exOrder dx dirf neuf beta sgcw
    st m.
Proof. exact @cd_stencil_2d_adj_poisson_offdiag_int. Qed.
Print Assumptions C52_cd_stencil_2d_adj_poisson_offdiag.

Example C52_cd_stencil_2d_adj_poisson_offdiag_example :
  cd_stencil_2d_adj_poisson_offdiag_by (S:=ZS) int32 (-1) 0 2 2 (-2) 0 (-2) 2 0 0 0 2 ex_dx ex_s ex_s ex_s 1
  (0%nat, 2) ex_int =
  cd_stencil_2d_adj_poisson_offdiag (-1) 0 2 2 (-2) 0 (-2) 2 0 0 0 2 ex_dx ex_s ex_s ex_s 1 (0%nat, 2) ex_int.
Proof. apply C52_cd_stencil_2d_adj_poisson_offdiag; ex_hyp. Qed.

Theorem C52_cd_stencil_2d_adj_cf_offdiag : forall (S : Scalar) i0 j0 i1 j1 ci0 cj0 ci1 cj1 r dir side intOrder
    sgcw st (m : mem S),
  side = 0 \/ side = 1 -> i0 <= i1 -> j0 <= j1 ->
  (dir = 0 -> at_side side i0 i1 ci0 /\ seg_inside j0 j1 cj0 cj1) ->
  (dir = 1 -> at_side side j0 j1 cj0 /\ seg_inside i0 i1 ci0 ci1) -> 0 <= sgcw ->
  int_dims ((0, 4) :: CELL2d i0 j0 i1 j1 sgcw) ->
    cd_stencil_2d_adj_cf_offdiag_by int32 i0 j0 i1 j1 ci0 cj0 ci1 cj1 r dir side intOrder sgcw st m =
    cd_stencil_2d_adj_cf_offdiag i0 j0 i1 j1 ci0 cj0 ci1 cj1 r dir side intOrder sgcw st m.
Proof. exact @cd_stencil_2d_adj_cf_offdiag_int. Qed.
Print Assumptions C52_cd_stencil_2d_adj_cf_offdiag.

Example C52_cd_stencil_2d_adj_cf_offdiag_example :
  cd_stencil_2d_adj_cf_offdiag_by (S:=ZS) int32 (-1) 0 2 2 (-2) 0 (-2) 2 2 0 0 2 1 (0%nat, 2) ex_int =
  cd_stencil_2d_adj_cf_offdiag (-1) 0 2 2 (-2) 0 (-2) 2 2 0 0 2 1 (0%nat, 2) ex_int.
Proof. apply C52_cd_stencil_2d_adj_cf_offdiag; ex_hyp. Qed.

Theorem C52_cd_stencil_2d_readj_offdiag : forall (S : Scalar) i0 j0 i1 j1 pi0 pj0 pi1 pj1 dir side sgcw st (m :
    mem S),
  side = 0 \/ side = 1 -> i0 <= i1 -> j0 <= j1 ->
  (dir = 0 -> at_side side i0 i1 pi0 /\ seg_inside j0 j1 pj0 pj1) ->
  (dir = 1 -> at_side side j0 j1 pj0 /\ seg_inside i0 i1 pi0 pi1) -> 0 <= sgcw ->
  int_dims ((0, 4) :: CELL2d i0 j0 i1 j1 sgcw) ->
    cd_stencil_2d_readj_offdiag_by int32 i0 j0 i1 j1 pi0 pj0 pi1 pj1 dir side sgcw st m =
    cd_stencil_2d_readj_offdiag i0 j0 i1 j1 pi0 pj0 pi1 pj1 dir side sgcw st m.
Proof. exact @cd_stencil_2d_readj_offdiag_int. Qed.
Print Assumptions C52_cd_stencil_2d_readj_offdiag.

Example C52_cd_stencil_2d_readj_offdiag_example :
  cd_stencil_2d_readj_offdiag_by (S:=ZS) int32 (-1) 0 2 2 (-2) 0 (-2) 2 0 0 1 (0%nat, 2) ex_int =
  cd_stencil_2d_readj_offdiag (-1) 0 2 2 (-2) 0 (-2) 2 0 0 1 (0%nat, 2) ex_int.
Proof. apply C52_cd_stencil_2d_readj_offdiag; ex_hyp. Qed.

Theorem C52_cd_stencil_2d_adj_cf_bdryrhs : forall (S : Scalar) i0 j0 i1 j1 pi0 pj0 pi1 pj1 dir side sgcw st gcw
    u rhs (m : mem S),
  side = 0 \/ side = 1 -> i0 <= i1 -> j0 <= j1 ->
  (dir = 0 -> at_side side i0 i1 pi0 /\ seg_inside j0 j1 pj0 pj1) ->
  (dir = 1 -> at_side side j0 j1 pj0 /\ seg_inside i0 i1 pi0 pi1) -> 0 <= sgcw -> 1 <= gcw ->
  int_dims ((0, 4) :: CELL2d i0 j0 i1 j1 sgcw) -> int_dims (CELL2d i0 j0 i1 j1 gcw) ->
  int_dims (CELL2d i0 j0 i1 j1 0) ->
    cd_stencil_2d_adj_cf_bdryrhs_by int32 i0 j0 i1 j1 pi0 pj0 pi1 pj1 dir side sgcw st gcw u rhs m =
    cd_stencil_2d_adj_cf_bdryrhs i0 j0 i1 j1 pi0 pj0 pi1 pj1 dir side sgcw st gcw u rhs m.
Proof. exact @cd_stencil_2d_adj_cf_bdryrhs_int. Qed.
Print Assumptions C52_cd_stencil_2d_adj_cf_bdryrhs.

Example C52_cd_stencil_2d_adj_cf_bdryrhs_example :
  cd_stencil_2d_adj_cf_bdryrhs_by (S:=ZS) int32 (-1) 0 2 2 (-2) 0 (-2) 2 0 0 1 (0%nat, 2) 1 (1%nat, 3) (2%nat,
  4) ex_int =
  cd_stencil_2d_adj_cf_bdryrhs (-1) 0 2 2 (-2) 0 (-2) 2 0 0 1 (0%nat, 2) 1 (1%nat, 3) (2%nat, 4) ex_int.
Proof. apply C52_cd_stencil_2d_adj_cf_bdryrhs; ex_hyp. Qed.

(** *** Stencil coefficients, 3D *)

Theorem C52_cd_stencil_3d_offdiag : forall (S : Scalar) i0 j0 k0 i1 j1 k1 bi0 bj0 bk0 bi1 bj1 bk1 dx beta b0 b1
    b2 sgcw st (m : mem S),
  i0 <= i1 -> j0 <= j1 -> k0 <= k1 -> 0 <= sgcw -> bi0 <= i0 -> i1 <= bi1 -> bj0 <= j0 -> j1 <= bj1 ->
  bk0 <= k0 -> k1 <= bk1 -> int_dims (FACE3d0 bi0 bj0 bk0 bi1 bj1 bk1 0) ->
  int_dims (FACE3d1 bi0 bj0 bk0 bi1 bj1 bk1 0) -> int_dims (FACE3d2 bi0 bj0 bk0 bi1 bj1 bk1 0) ->
  int_dims ((0, 6) :: CELL3d i0 j0 k0 i1 j1 k1 sgcw) ->
    cd_stencil_3d_offdiag_by int32 i0 j0 k0 i1 j1 k1 bi0 bj0 bk0 bi1 bj1 bk1 dx beta b0 b1 b2 sgcw st m =
    cd_stencil_3d_offdiag i0 j0 k0 i1 j1 k1 bi0 bj0 bk0 bi1 bj1 bk1 dx beta b0 b1 b2 sgcw st m.
Proof. exact @cd_stencil_3d_offdiag_int. Qed.
Print Assumptions C52_cd_stencil_3d_offdiag.

Example C52_cd_stencil_3d_offdiag_example :
  cd_stencil_3d_offdiag_by (S:=ZS) int32 (-1) 0 1 2 2 2 (-3) 0 0 5 2 4 ex_dx ex_s (0%nat, 2) (1%nat, 3) (2%nat,
  4) 1 (3%nat, 5) ex_int =
  cd_stencil_3d_offdiag (-1) 0 1 2 2 2 (-3) 0 0 5 2 4 ex_dx ex_s (0%nat, 2) (1%nat, 3) (2%nat, 4) 1 (3%nat, 5)
  ex_int.
Proof. apply C52_cd_stencil_3d_offdiag; ex_hyp. Qed.

Theorem C52_cd_stencil_3d_poisson_offdiag : forall (S : Scalar) i0 j0 k0 i1 j1 k1 dx beta sgcw st (m : mem S),
  i0 <= i1 -> j0 <= j1 -> k0 <= k1 -> 0 <= sgcw -> int_dims ((0, 6) :: CELL3d i0 j0 k0 i1 j1 k1 sgcw) ->
    cd_stencil_3d_poisson_offdiag_by int32 i0 j0 k0 i1 j1 k1 dx beta sgcw st m =
    cd_stencil_3d_poisson_offdiag i0 j0 k0 i1 j1 k1 dx beta sgcw st m.
Proof. exact @cd_stencil_3d_poisson_offdiag_int. Qed.
Print Assumptions C52_cd_stencil_3d_poisson_offdiag.

Example C52_cd_stencil_3d_poisson_offdiag_example :
  cd_stencil_3d_poisson_offdiag_by (S:=ZS) int32 (-1) 0 1 2 2 2 ex_dx ex_s 1 (0%nat, 2) ex_int =
  cd_stencil_3d_poisson_offdiag (-1) 0 1 2 2 2 ex_dx ex_s 1 (0%nat, 2) ex_int.
Proof. apply C52_cd_stencil_3d_poisson_offdiag; ex_hyp. Qed.

Theorem C52_cd_stencil_3d_v1diag : forall (S : Scalar) i0 j0 k0 i1 j1 k1 ai0 aj0 ak0 ai1 aj1 ak1 alpha a sgcw st
    (m : mem S),
  i0 <= i1 -> j0 <= j1 -> k0 <= k1 -> 0 <= sgcw -> ai0 <= i0 -> i1 <= ai1 -> aj0 <= j0 -> j1 <= aj1 ->
  ak0 <= k0 -> k1 <= ak1 -> int_dims (CELL3d ai0 aj0 ak0 ai1 aj1 ak1 0) ->
  int_dims ((0, 6) :: CELL3d i0 j0 k0 i1 j1 k1 sgcw) ->
    cd_stencil_3d_v1diag_by int32 i0 j0 k0 i1 j1 k1 ai0 aj0 ak0 ai1 aj1 ak1 alpha a sgcw st m =
    cd_stencil_3d_v1diag i0 j0 k0 i1 j1 k1 ai0 aj0 ak0 ai1 aj1 ak1 alpha a sgcw st m.
Proof. exact @cd_stencil_3d_v1diag_int. Qed.
Print Assumptions C52_cd_stencil_3d_v1diag.

Example C52_cd_stencil_3d_v1diag_example :
  cd_stencil_3d_v1diag_by (S:=ZS) int32 (-1) 0 1 2 2 2 (-1) (-1) 1 2 3 2 ex_s (0%nat, 2) 1 (1%nat, 3) ex_int =
  cd_stencil_3d_v1diag (-1) 0 1 2 2 2 (-1) (-1) 1 2 3 2 ex_s (0%nat, 2) 1 (1%nat, 3) ex_int.
Proof. apply C52_cd_stencil_3d_v1diag; ex_hyp. Qed.

Theorem C52_cd_stencil_3d_v2diag : forall (S : Scalar) i0 j0 k0 i1 j1 k1 alpha sgcw st (m : mem S),
  i0 <= i1 -> j0 <= j1 -> k0 <= k1 -> 0 <= sgcw -> int_dims ((0, 6) :: CELL3d i0 j0 k0 i1 j1 k1 sgcw) ->
    cd_stencil_3d_v2diag_by int32 i0 j0 k0 i1 j1 k1 alpha sgcw st m =
    cd_stencil_3d_v2diag i0 j0 k0 i1 j1 k1 alpha sgcw st m.
Proof. exact @cd_stencil_3d_v2diag_int. Qed.
Print Assumptions C52_cd_stencil_3d_v2diag.

Example C52_cd_stencil_3d_v2diag_example :
  cd_stencil_3d_v2diag_by (S:=ZS) int32 (-1) 0 1 2 2 2 ex_s 1 (0%nat, 2) ex_int =
  cd_stencil_3d_v2diag (-1) 0 1 2 2 2 ex_s 1 (0%nat, 2) ex_int.
Proof. apply C52_cd_stencil_3d_v2diag; ex_hyp. Qed.

Theorem C52_cd_stencil_3d_poisson_diag : forall (S : Scalar) i0 j0 k0 i1 j1 k1 sgcw st (m : mem S),
  i0 <= i1 -> j0 <= j1 -> k0 <= k1 -> 0 <= sgcw -> int_dims ((0, 6) :: CELL3d i0 j0 k0 i1 j1 k1 sgcw) ->
    cd_stencil_3d_poisson_diag_by int32 i0 j0 k0 i1 j1 k1 sgcw st m =
    cd_stencil_3d_poisson_diag i0 j0 k0 i1 j1 k1 sgcw st m.
Proof. exact @cd_stencil_3d_poisson_diag_int. Qed.
Print Assumptions C52_cd_stencil_3d_poisson_diag.

Example C52_cd_stencil_3d_poisson_diag_example :
  cd_stencil_3d_poisson_diag_by (S:=ZS) int32 (-1) 0 1 2 2 2 1 (0%nat, 2) ex_int =
  cd_stencil_3d_poisson_diag (-1) 0 1 2 2 2 1 (0%nat, 2) ex_int.
Proof. apply C52_cd_stencil_3d_poisson_diag; ex_hyp. Qed.

Theorem C52_cd_stencil_3d_adj_diag : forall (S : Scalar) i0 j0 k0 i1 j1 k1 pi0 pj0 pk0 pi1 pj1 pk1 dir side
    btype exOrder dx beta b0 b1 b2 sgcw st (m : mem S),
  side = 0 \/ side = 1 -> i0 <= i1 -> j0 <= j1 -> k0 <= k1 ->
  (dir = 0 -> at_side side i0 i1 pi0 /\ seg_inside j0 j1 pj0 pj1 /\ seg_inside k0 k1 pk0 pk1) ->
  (dir = 1 -> at_side side j0 j1 pj0 /\ seg_inside i0 i1 pi0 pi1 /\ seg_inside k0 k1 pk0 pk1) ->
  (dir = 2 -> at_side side k0 k1 pk0 /\ seg_inside i0 i1 pi0 pi1 /\ seg_inside j0 j1 pj0 pj1) -> 0 <= sgcw ->
  int_dims (FACE3d0 i0 j0 k0 i1 j1 k1 0) -> int_dims (FACE3d1 i0 j0 k0 i1 j1 k1 0) ->
  int_dims (FACE3d2 i0 j0 k0 i1 j1 k1 0) -> int_dims ((0, 6) :: CELL3d i0 j0 k0 i1 j1 k1 sgcw) ->
    cd_stencil_3d_adj_diag_by int32 i0 j0 k0 i1 j1 k1 pi0 pj0 pk0 pi1 pj1 pk1 dir side btype exOrder dx beta b0
    b1 b2 sgcw st m =
    cd_stencil_3d_adj_diag i0 j0 k0 i1 j1 k1 pi0 pj0 pk0 pi1 pj1 pk1 dir side btype exOrder dx beta b0 b1 b2
    sgcw st m.
Proof. exact @cd_stencil_3d_adj_diag_int. Qed.
Print Assumptions C52_cd_stencil_3d_adj_diag.

Example C52_cd_stencil_3d_adj_diag_example :
  cd_stencil_3d_adj_diag_by (S:=ZS) int32 (-1) 0 1 2 2 2 (-2) 0 1 (-2) 2 2 0 0 0 2 ex_dx ex_s (0%nat, 2) (1%nat,
  3) (2%nat, 4) 1 (3%nat, 5) ex_int =
  cd_stencil_3d_adj_diag (-1) 0 1 2 2 2 (-2) 0 1 (-2) 2 2 0 0 0 2 ex_dx ex_s (0%nat, 2) (1%nat, 3) (2%nat, 4) 1
  (3%nat, 5) ex_int.
Proof. apply C52_cd_stencil_3d_adj_diag; ex_hyp. Qed.

Theorem C52_cd_stencil_3d_adj_poisson_diag : forall (S : Scalar) i0 j0 k0 i1 j1 k1 pi0 pj0 pk0 pi1 pj1 pk1 dir
    side btype exOrder dx beta sgcw st (m : mem S),
  side = 0 \/ side = 1 -> i0 <= i1 -> j0 <= j1 -> k0 <= k1 ->
  (dir = 0 -> at_side side i0 i1 pi0 /\ seg_inside j0 j1 pj0 pj1 /\ seg_inside k0 k1 pk0 pk1) ->
  (dir = 1 -> at_side side j0 j1 pj0 /\ seg_inside i0 i1 pi0 pi1 /\ seg_inside k0 k1 pk0 pk1) ->
  (dir = 2 -> at_side side k0 k1 pk0 /\ seg_inside i0 i1 pi0 pi1 /\ seg_inside j0 j1 pj0 pj1) -> 0 <= sgcw ->
  int_dims ((0, 6) :: CELL3d i0 j0 k0 i1 j1 k1 sgcw) ->
    cd_stencil_3d_adj_poisson_diag_by int32 i0 j0 k0 i1 j1 k1 pi0 pj0 pk0 pi1 pj1 pk1 dir side btype exOrder dx
    beta sgcw st m =
    cd_stencil_3d_adj_poisson_diag i0 j0 k0 i1 j1 k1 pi0 pj0 pk0 pi1 pj1 pk1 dir side btype exOrder dx beta sgcw
    st m.
Proof. exact @cd_stencil_3d_adj_poisson_diag_int. Qed.
Print Assumptions C52_cd_stencil_3d_adj_poisson_diag.

Example C52_cd_stencil_3d_adj_poisson_diag_example :
  cd_stencil_3d_adj_poisson_diag_by (S:=ZS) int32 (-1) 0 1 2 2 2 (-2) 0 1 (-2) 2 2 0 0 0 2 ex_dx ex_s 1 (0%nat,
  2) ex_int =
  cd_stencil_3d_adj_poisson_diag (-1) 0 1 2 2 2 (-2) 0 1 (-2) 2 2 0 0 0 2 ex_dx ex_s 1 (0%nat, 2) ex_int.
Proof. apply C52_cd_stencil_3d_adj_poisson_diag; ex_hyp. Qed.

Theorem C52_cd_stencil_3d_adj_cf_diag : forall (S : Scalar) i0 j0 k0 i1 j1 k1 pi0 pj0 pk0 pi1 pj1 pk1 r dir side
    intOrder dx beta b0 b1 b2 sgcw st (m : mem S),
  side = 0 \/ side = 1 -> i0 <= i1 -> j0 <= j1 -> k0 <= k1 ->
  (dir = 0 -> at_side side i0 i1 pi0 /\ seg_inside j0 j1 pj0 pj1 /\ seg_inside k0 k1 pk0 pk1) ->
  (dir = 1 -> at_side side j0 j1 pj0 /\ seg_inside i0 i1 pi0 pi1 /\ seg_inside k0 k1 pk0 pk1) ->
  (dir = 2 -> at_side side k0 k1 pk0 /\ seg_inside i0 i1 pi0 pi1 /\ seg_inside j0 j1 pj0 pj1) -> 0 <= sgcw ->
  int_dims (FACE3d0 i0 j0 k0 i1 j1 k1 0) -> int_dims (FACE3d1 i0 j0 k0 i1 j1 k1 0) ->
  int_dims (FACE3d2 i0 j0 k0 i1 j1 k1 0) -> int_dims ((0, 6) :: CELL3d i0 j0 k0 i1 j1 k1 sgcw) ->
    cd_stencil_3d_adj_cf_diag_by int32 i0 j0 k0 i1 j1 k1 pi0 pj0 pk0 pi1 pj1 pk1 r dir side intOrder dx beta b0
    b1 b2 sgcw st m =
    cd_stencil_3d_adj_cf_diag i0 j0 k0 i1 j1 k1 pi0 pj0 pk0 pi1 pj1 pk1 r dir side intOrder dx beta b0 b1 b2
    sgcw st m.
Proof. exact @cd_stencil_3d_adj_cf_diag_int. Qed.
Print Assumptions C52_cd_stencil_3d_adj_cf_diag.

Example C52_cd_stencil_3d_adj_cf_diag_example :
  cd_stencil_3d_adj_cf_diag_by (S:=ZS) int32 (-1) 0 1 2 2 2 (-2) 0 1 (-2) 2 2 2 0 0 2 ex_dx ex_s (0%nat, 2)
  (1%nat, 3) (2%nat, 4) 1 (3%nat, 5) ex_int =
  cd_stencil_3d_adj_cf_diag (-1) 0 1 2 2 2 (-2) 0 1 (-2) 2 2 2 0 0 2 ex_dx ex_s (0%nat, 2) (1%nat, 3) (2%nat, 4)
  1 (3%nat, 5) ex_int.
Proof. apply C52_cd_stencil_3d_adj_cf_diag; ex_hyp. Qed.

Theorem C52_cd_stencil_3d_adj_poisson_cf_diag : forall (S : Scalar) i0 j0 k0 i1 j1 k1 pi0 pj0 pk0 pi1 pj1 pk1 r
    dir side intOrder dx beta sgcw st (m : mem S),
  side = 0 \/ side = 1 -> i0 <= i1 -> j0 <= j1 -> k0 <= k1 ->
  (dir = 0 -> at_side side i0 i1 pi0 /\ seg_inside j0 j1 pj0 pj1 /\ seg_inside k0 k1 pk0 pk1) ->
  (dir = 1 -> at_side side j0 j1 pj0 /\ seg_inside i0 i1 pi0 pi1 /\ seg_inside k0 k1 pk0 pk1) ->
  (dir = 2 -> at_side side k0 k1 pk0 /\ seg_inside i0 i1 pi0 pi1 /\ seg_inside j0 j1 pj0 pj1) -> 0 <= sgcw ->
  int_dims ((0, 6) :: CELL3d i0 j0 k0 i1 j1 k1 sgcw) ->
    cd_stencil_3d_adj_poisson_cf_diag_by int32 i0 j0 k0 i1 j1 k1 pi0 pj0 pk0 pi1 pj1 pk1 r dir side intOrder dx
    beta sgcw st m =
    cd_stencil_3d_adj_poisson_cf_diag i0 j0 k0 i1 j1 k1 pi0 pj0 pk0 pi1 pj1 pk1 r dir side intOrder dx beta sgcw
    st m.
Proof. exact @cd_stencil_3d_adj_poisson_cf_diag_int. Qed.
Print Assumptions C52_cd_stencil_3d_adj_poisson_cf_diag.

Example C52_cd_stencil_3d_adj_poisson_cf_diag_example :
  cd_stencil_3d_adj_poisson_cf_diag_by (S:=ZS) int32 (-1) 0 1 2 2 2 (-2) 0 1 (-2) 2 2 2 0 0 2 ex_dx ex_s 1
  (0%nat, 2) ex_int =
  cd_stencil_3d_adj_poisson_cf_diag (-1) 0 1 2 2 2 (-2) 0 1 (-2) 2 2 2 0 0 2 ex_dx ex_s 1 (0%nat, 2) ex_int.
Proof. apply C52_cd_stencil_3d_adj_poisson_cf_diag; ex_hyp. Qed.

Theorem C52_cd_stencil_3d_adj_offdiag : forall (S : Scalar) i0 j0 k0 i1 j1 k1 pi0 pj0 pk0 pi1 pj1 pk1 dir side
    btype exOrder dx dirf neuf beta b0 b1 b2 sgcw st (m : mem S),
  side = 0 \/ side = 1 -> i0 <= i1 -> j0 <= j1 -> k0 <= k1 ->
  (dir = 0 -> at_side side i0 i1 pi0 /\ seg_inside j0 j1 pj0 pj1 /\ seg_inside k0 k1 pk0 pk1) ->
  (dir = 1 -> at_side side j0 j1 pj0 /\ seg_inside i0 i1 pi0 pi1 /\ seg_inside k0 k1 pk0 pk1) ->
  (dir = 2 -> at_side side k0 k1 pk0 /\ seg_inside i0 i1 pi0 pi1 /\ seg_inside j0 j1 pj0 pj1) -> 0 <= sgcw ->
  int_dims (FACE3d0 i0 j0 k0 i1 j1 k1 0) -> int_dims (FACE3d1 i0 j0 k0 i1 j1 k1 0) ->
  int_dims (FACE3d2 i0 j0 k0 i1 j1 k1 0) -> int_dims ((0, 6) :: CELL3d i0 j0 k0 i1 j1 k1 sgcw) ->
    cd_stencil_3d_adj_offdiag_by int32 i0 j0 k0 i1 j1 k1 pi0 pj0 pk0 pi1 pj1 pk1 dir side btype exOrder dx dirf
    neuf beta b0 b1 b2 sgcw st m =
    cd_stencil_3d_adj_offdiag i0 j0 k0 i1 j1 k1 pi0 pj0 pk0 pi1 pj1 pk1 dir side btype exOrder dx dirf neuf beta
    b0 b1 b2 sgcw st m.
Proof. exact @cd_stencil_3d_adj_offdiag_int. Qed.
Print Assumptions C52_cd_stencil_3d_adj_offdiag.

Example C52_cd_stencil_3d_adj_offdiag_example :
  cd_stencil_3d_adj_offdiag_by (S:=ZS) int32 (-1) 0 1 2 2 2 (-2) 0 1 (-2) 2 2 0 0 0 2 ex_dx ex_s ex_s ex_s
  (0%nat, 2) (1%nat, 3) (2%nat, 4) 1 (3%nat, 5) ex_int =
  cd_stencil_3d_adj_offdiag (-1) 0 1 2 2 2 (-2) 0 1 (-2) 2 2 0 0 0 2 ex_dx ex_s ex_s ex_s (0%nat, 2) (1%nat, 3)
  (2%nat, 4) 1 (3%nat, 5) ex_int.
Proof. apply C52_cd_stencil_3d_adj_offdiag; ex_hyp. Qed.

Theorem C52_cd_stencil_3d_adj_poisson_offdiag : forall (S : Scalar) i0 j0 k0 i1 j1 k1 pi0 pj0 pk0 pi1 pj1 pk1
    dir side btype exOrder dx dirf neuf beta sgcw st (m : mem S),
  side = 0 \/ side = 1 -> i0 <= i1 -> j0 <= j1 -> k0 <= k1 ->
  (dir = 0 -> at_side side i0 i1 pi0 /\ seg_inside j0 j1 pj0 pj1 /\ seg_inside k0 k1 pk0 pk1) ->
  (dir = 1 -> at_side side j0 j1 pj0 /\ seg_inside i0 i1 pi0 pi1 /\ seg_inside k0 k1 pk0 pk1) ->
  (dir = 2 -> at_side side k0 k1 pk0 /\ seg_inside i0 i1 pi0 pi1 /\ seg_inside j0 j1 pj0 pj1) -> 0 <= sgcw ->
  int_dims ((0, 6) :: CELL3d i0 j0 k0 i1 j1 k1 sgcw) ->
    cd_stencil_3d_adj_poisson_offdiag_by int32 i0 j0 k0 i1 j1 k1 pi0 pj0 pk0 pi1 pj1 pk1 dir side btype exOrder
    dx dirf neuf beta sgcw st m =
    cd_stencil_3d_adj_poisson_offdiag i0 j0 k0 i1 j1 k1 pi0 pj0 pk0 pi1 pj1 pk1 dir side btype exOrder dx dirf
    neuf beta sgcw st m.
Proof. exact @cd_stencil_3d_adj_poisson_offdiag_int. Qed.
Print Assumptions C52_cd_stencil_3d_adj_poisson_offdiag.

Example C52_cd_stencil_3d_adj_poisson_offdiag_example :
  cd_stencil_3d_adj_poisson_offdiag_by (S:=ZS) int32 (-1) 0 1 2 2 2 (-2) 0 1 (-2) 2 2 0 0 0 2 ex_dx ex_s ex_s
  ex_s 1 (0%nat, 2) ex_int =
  cd_stencil_3d_adj_poisson_offdiag (-1) 0 1 2 2 2 (-2) 0 1 (-2) 2 2 0 0 0 2 ex_dx ex_s ex_s ex_s 1 (0%nat, 2)
  ex_int.
Proof. apply C52_cd_stencil_3d_adj_poisson_offdiag; ex_hyp. Qed.

Theorem C52_cd_stencil_3d_adj_cf_offdiag : forall (S : Scalar) i0 j0 k0 i1 j1 k1 ci0 cj0 ck0 ci1 cj1 ck1 r dir
    side intOrder sgcw st (m : mem S),
  side = 0 \/ side = 1 -> i0 <= i1 -> j0 <= j1 -> k0 <= k1 ->
  (dir = 0 -> at_side side i0 i1 ci0 /\ seg_inside j0 j1 cj0 cj1 /\ seg_inside k0 k1 ck0 ck1) ->
  (dir = 1 -> at_side side j0 j1 cj0 /\ seg_inside i0 i1 ci0 ci1 /\ seg_inside k0 k1 ck0 ck1) ->
  (dir = 2 -> at_side side k0 k1 ck0 /\ seg_inside i0 i1 ci0 ci1 /\ seg_inside j0 j1 cj0 cj1) -> 0 <= sgcw ->
  int_dims ((0, 6) :: CELL3d i0 j0 k0 i1 j1 k1 sgcw) ->
    cd_stencil_3d_adj_cf_offdiag_by int32 i0 j0 k0 i1 j1 k1 ci0 cj0 ck0 ci1 cj1 ck1 r dir side intOrder sgcw st
    m =
    cd_stencil_3d_adj_cf_offdiag i0 j0 k0 i1 j1 k1 ci0 cj0 ck0 ci1 cj1 ck1 r dir side intOrder sgcw st m.
Proof. exact @cd_stencil_3d_adj_cf_offdiag_int. Qed.
Print Assumptions C52_cd_stencil_3d_adj_cf_offdiag.

Example C52_cd_stencil_3d_adj_cf_offdiag_example :
  cd_stencil_3d_adj_cf_offdiag_by (S:=ZS) int32 (-1) 0 1 2 2 2 (-2) 0 1 (-2) 2 2 2 0 0 2 1 (0%nat, 2) ex_int =
  cd_stencil_3d_adj_cf_offdiag (-1) 0 1 2 2 2 (-2) 0 1 (-2) 2 2 2 0 0 2 1 (0%nat, 2) ex_int.
Proof. apply C52_cd_stencil_3d_adj_cf_offdiag; ex_hyp. Qed.

Theorem C52_cd_stencil_3d_readj_offdiag : forall (S : Scalar) i0 j0 k0 i1 j1 k1 pi0 pj0 pk0 pi1 pj1 pk1 dir side
    sgcw st (m : mem S),
  side = 0 \/ side = 1 -> i0 <= i1 -> j0 <= j1 -> k0 <= k1 ->
  (dir = 0 -> at_side side i0 i1 pi0 /\ seg_inside j0 j1 pj0 pj1 /\ seg_inside k0 k1 pk0 pk1) ->
  (dir = 1 -> at_side side j0 j1 pj0 /\ seg_inside i0 i1 pi0 pi1 /\ seg_inside k0 k1 pk0 pk1) ->
  (dir = 2 -> at_side side k0 k1 pk0 /\ seg_inside i0 i1 pi0 pi1 /\ seg_inside j0 j1 pj0 pj1) -> 0 <= sgcw ->
  int_dims ((0, 6) :: CELL3d i0 j0 k0 i1 j1 k1 sgcw) ->
    cd_stencil_3d_readj_offdiag_by int32 i0 j0 k0 i1 j1 k1 pi0 pj0 pk0 pi1 pj1 pk1 dir side sgcw st m =
    cd_stencil_3d_readj_offdiag i0 j0 k0 i1 j1 k1 pi0 pj0 pk0 pi1 pj1 pk1 dir side sgcw st m.
Proof. exact @cd_stencil_3d_readj_offdiag_int. Qed.
Print Assumptions C52_cd_stencil_3d_readj_offdiag.

Example C52_cd_stencil_3d_readj_offdiag_example :
  cd_stencil_3d_readj_offdiag_by (S:=ZS) int32 (-1) 0 1 2 2 2 (-2) 0 1 (-2) 2 2 0 0 1 (0%nat, 2) ex_int =
  cd_stencil_3d_readj_offdiag (-1) 0 1 2 2 2 (-2) 0 1 (-2) 2 2 0 0 1 (0%nat, 2) ex_int.
Proof. apply C52_cd_stencil_3d_readj_offdiag; ex_hyp. Qed.

Theorem C52_cd_stencil_3d_adj_cf_bdryrhs : forall (S : Scalar) i0 j0 k0 i1 j1 k1 pi0 pj0 pk0 pi1 pj1 pk1 dir
    side sgcw st gcw u rhs (m : mem S),
  side = 0 \/ side = 1 -> i0 <= i1 -> j0 <= j1 -> k0 <= k1 ->
  (dir = 0 -> at_side side i0 i1 pi0 /\ seg_inside j0 j1 pj0 pj1 /\ seg_inside k0 k1 pk0 pk1) ->
  (dir = 1 -> at_side side j0 j1 pj0 /\ seg_inside i0 i1 pi0 pi1 /\ seg_inside k0 k1 pk0 pk1) ->
  (dir = 2 -> at_side side k0 k1 pk0 /\ seg_inside i0 i1 pi0 pi1 /\ seg_inside j0 j1 pj0 pj1) -> 0 <= sgcw ->
  1 <= gcw -> int_dims ((0, 6) :: CELL3d i0 j0 k0 i1 j1 k1 sgcw) -> int_dims (CELL3d i0 j0 k0 i1 j1 k1 gcw) ->
  int_dims (CELL3d i0 j0 k0 i1 j1 k1 0) ->
    cd_stencil_3d_adj_cf_bdryrhs_by int32 i0 j0 k0 i1 j1 k1 pi0 pj0 pk0 pi1 pj1 pk1 dir side sgcw st gcw u rhs m
    =
    cd_stencil_3d_adj_cf_bdryrhs i0 j0 k0 i1 j1 k1 pi0 pj0 pk0 pi1 pj1 pk1 dir side sgcw st gcw u rhs m.
Proof. exact @cd_stencil_3d_adj_cf_bdryrhs_int. Qed.
Print Assumptions C52_cd_stencil_3d_adj_cf_bdryrhs.

Example C52_cd_stencil_3d_adj_cf_bdryrhs_example :
  cd_stencil_3d_adj_cf_bdryrhs_by (S:=ZS) int32 (-1) 0 1 2 2 2 (-2) 0 1 (-2) 2 2 0 0 1 (0%nat, 2) 1 (1%nat, 3)
  (2%nat, 4) ex_int =
  cd_stencil_3d_adj_cf_bdryrhs (-1) 0 1 2 2 2 (-2) 0 1 (-2) 2 2 0 0 1 (0%nat, 2) 1 (1%nat, 3) (2%nat, 4) ex_int.
Proof. apply C52_cd_stencil_3d_adj_cf_bdryrhs; ex_hyp. Qed.

(** *** Copies *)

Theorem C52_cd_2d_set_homogenous_bc : forall (S : Scalar) i0 j0 i1 j1 face bLo bHi exOrder u (m : mem S),
  i0 <= i1 -> j0 <= j1 ->
  (face = 0 \/ face = 1 -> seg_overlaps j0 j1 (bLo 1) (bHi 1) /\ exOrder <= i1 - i0 + 2) ->
  (face = 2 \/ face = 3 -> seg_overlaps i0 i1 (bLo 0) (bHi 0) /\ exOrder <= j1 - j0 + 2) ->
  int_dims (CELL2d i0 j0 i1 j1 1) ->
    cd_2d_set_homogenous_bc_by int32 i0 j0 i1 j1 face bLo bHi exOrder u m =
    cd_2d_set_homogenous_bc i0 j0 i1 j1 face bLo bHi exOrder u m.
Proof. exact @cd_2d_set_homogenous_bc_int. Qed.
Print Assumptions C52_cd_2d_set_homogenous_bc.

Example C52_cd_2d_set_homogenous_bc_example :
  cd_2d_set_homogenous_bc_by (S:=ZS) int32 (-1) 0 2 2 0 ex_lo ex_hi 4 (0%nat, 2) ex_int =
  cd_2d_set_homogenous_bc (-1) 0 2 2 0 ex_lo ex_hi 4 (0%nat, 2) ex_int.
Proof. apply C52_cd_2d_set_homogenous_bc; ex_hyp. Qed.

Theorem C52_c2f_copy_corner : forall (S : Scalar) ci0 ci1 cj0 cj1 ck0 ck1 fi0 fi1 fj0 fj1 fk0 fk1 cbi0 cbi1 cbj0
    cbj1 cbk0 cbk1 fbi0 fbi1 fbj0 fbj1 fbk0 fbk1 gcw cdata fdata (m : mem S),
  cbi0 - gcw <= ci0 <= cbi1 + gcw -> cbj0 - gcw <= cj0 <= cbj1 + gcw -> cbk0 - gcw <= ck0 <= cbk1 + gcw ->
  fbi0 - gcw <= fi0 <= fbi1 + gcw -> fbj0 - gcw <= fj0 <= fbj1 + gcw -> fbk0 - gcw <= fk0 <= fbk1 + gcw ->
  int_dims (CELL3d cbi0 cbj0 cbk0 cbi1 cbj1 cbk1 gcw) -> int_dims (CELL3d fbi0 fbj0 fbk0 fbi1 fbj1 fbk1 gcw) ->
    c2f_copy_corner32 ci0 ci1 cj0 cj1 ck0 ck1 fi0 fi1 fj0 fj1 fk0 fk1 cbi0 cbi1 cbj0 cbj1 cbk0 cbk1 fbi0 fbi1
    fbj0 fbj1 fbk0 fbk1 gcw cdata fdata m =
    c2f_copy_corner ci0 ci1 cj0 cj1 ck0 ck1 fi0 fi1 fj0 fj1 fk0 fk1 cbi0 cbi1 cbj0 cbj1 cbk0 cbk1 fbi0 fbi1 fbj0
    fbj1 fbk0 fbk1 gcw cdata fdata m.
Proof. exact @c2f_copy_corner_int. Qed.
Print Assumptions C52_c2f_copy_corner.

Example C52_c2f_copy_corner_example :
  c2f_copy_corner32 (S:=ZS) 0 0 1 1 1 1 (-3) 4 2 2 3 3 (-2) 3 0 2 0 2 (-3) 4 0 3 0 3 0 (0%nat, 2) (1%nat, 3)
  ex_int =
  c2f_copy_corner 0 0 1 1 1 1 (-3) 4 2 2 3 3 (-2) 3 0 2 0 2 (-3) 4 0 3 0 3 0 (0%nat, 2) (1%nat, 3) ex_int.
Proof. apply C52_c2f_copy_corner; ex_hyp. Qed.

(** ** The bounds are needed

    A patch of 1300^3 cells: memory of the right size is enough for the kernel on
    mathematical integers, but 1301 * 1300 * 1300 is not an [int]. *)
Theorem C52_large_patch_refuted : forall (S : Scalar) dx b0 b1 b2 u f0 f1 f2 (m : mem S),
  (room m u (1302 * 1302 * 1302) ->
   room m b0 (1301 * 1300 * 1300) -> room m b1 (1300 * 1301 * 1300) -> room m b2 (1300 * 1300 * 1301) ->
   room m f0 (1301 * 1300 * 1300) -> room m f1 (1300 * 1301 * 1300) -> room m f2 (1300 * 1300 * 1301) ->
   safe (cdf_3d_flux 0 0 0 1299 1299 1299 dx b0 b1 b2 1 u f0 f1 f2) m) /\
  cdf_3d_flux_by int32 0 0 0 1299 1299 1299 dx b0 b1 b2 1 u f0 f1 f2 m = None.
Proof. exact @large_patch_refuted. Qed.
Print Assumptions C52_large_patch_refuted.

(** An empty domain, one past the last row of an array of 2147483646 elements:
    nothing is to be assigned, but positioning the iterator overflows. *)
Theorem C52_empty_domain_refuted : forall (S : Scalar) p t (m : mem S),
  let x := make_md_span p [Jb 0 1; Ib 0 1073741822] in
  let dom := [Jb 2 1; Ib 1073741822 1073741822] in
  int_array x /\ wf_dom dom /\ wf_assign dom (ANum x t) /\
  with_domain dom [ANum x t] m = Some m /\ with_domain32 dom [ANum x t] m = None.
Proof. exact @empty_domain_refuted. Qed.
Print Assumptions C52_empty_domain_refuted.
