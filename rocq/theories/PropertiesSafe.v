(** * Property C42: kernels stay inside their arrays

    Arrays have the dimensions the Fortran subroutines declare for them. A kernel given
    allocations of that size makes no access outside them, provided the ghost layer is
    as wide as its stencil reaches and the segments it is given touch the patch. *)

From Verif Require Import Base ModelBounds ModelSpan FortranBase SpecKernel SpecSafe Instances
  KernelsFlux KernelsApply KernelsCopy KernelsBC KernelsStencil
  LemSafeFlux LemSafeCopy LemSafeBC LemSafeStencil LemSafeStencil3.
Import ListNotations.
Open Scope Z_scope.

(** Example data: ten allocations of 1000 cells; the arrays start a few cells in. *)
Definition ex_safe : mem ZS := mkMem (repeat (repeat (1 : ZS) 1000) 10) [].
Definition ex_s : ZS := 3.
Definition ex_dx : Z -> ZS := fun _ => 1.
Definition ex_lo : Z -> Z := fun d => if d =? 0 then -2 else 1.
Definition ex_hi : Z -> Z := fun d => if d =? 0 then -2 else 2.
Definition ex_corner : Z -> Z := fun d => if d =? 0 then -2 else -1.

Ltac ex_hyp :=
  intros; unfold at_side, seg_within, seg_meets, ex_lo, ex_hi, ex_corner; cbn [Z.eqb Pos.eqb];
  lazymatch goal with
  | |- room _ _ _ => eexists; split; [reflexivity|]; vm_compute; split; discriminate
  | |- apart _ _ => repeat constructor; discriminate
  | |- _ => repeat split; lia
  end.

(** ** Fluxes *)

Theorem C42_cdf_1d_flux : forall (S : Scalar) i0 i1 dx b0 gcw u f0 (m : mem S),
  i0 <= i1 + 1 -> 1 <= gcw -> room m u (fcount (CELL1d i0 i1 gcw)) ->
  room m b0 (fcount (FACE1d i0 i1 0)) -> room m f0 (fcount (FACE1d i0 i1 0)) ->
    safe (cdf_1d_flux i0 i1 dx b0 gcw u f0) m.
Proof. exact @cdf_1d_flux_safe. Qed.
Print Assumptions C42_cdf_1d_flux.

Example C42_cdf_1d_flux_example : safe (S:=ZS) (cdf_1d_flux (-1) 2 ex_dx (0%nat, 2) 1 (1%nat, 3) (2%nat, 4)) ex_safe.
Proof. apply C42_cdf_1d_flux; ex_hyp. Qed.

Theorem C42_cdf_2d_flux : forall (S : Scalar) i0 j0 i1 j1 dx b0 b1 gcw u f0 f1 (m : mem S),
  i0 <= i1 + 1 -> j0 <= j1 + 1 -> 1 <= gcw -> room m u (fcount (CELL2d i0 j0 i1 j1 gcw)) ->
  room m b0 (fcount (FACE2d0 i0 j0 i1 j1 0)) -> room m b1 (fcount (FACE2d1 i0 j0 i1 j1 0)) ->
  room m f0 (fcount (FACE2d0 i0 j0 i1 j1 0)) -> room m f1 (fcount (FACE2d1 i0 j0 i1 j1 0)) ->
    safe (cdf_2d_flux i0 j0 i1 j1 dx b0 b1 gcw u f0 f1) m.
Proof. exact @cdf_2d_flux_safe. Qed.
Print Assumptions C42_cdf_2d_flux.

Example C42_cdf_2d_flux_example : safe (S:=ZS) (cdf_2d_flux (-1) 0 2 2 ex_dx (0%nat, 2) (1%nat, 3) 1 (2%nat, 4) (3%nat, 5) (4%nat, 6)) ex_safe.
Proof. apply C42_cdf_2d_flux; ex_hyp. Qed.

Theorem C42_cdf_3d_flux : forall (S : Scalar) i0 j0 k0 i1 j1 k1 dx b0 b1 b2 gcw u f0 f1 f2 (m : mem S),
  i0 <= i1 + 1 -> j0 <= j1 + 1 -> k0 <= k1 + 1 -> 1 <= gcw ->
  room m u (fcount (CELL3d i0 j0 k0 i1 j1 k1 gcw)) -> room m b0 (fcount (FACE3d0 i0 j0 k0 i1 j1 k1 0)) ->
  room m b1 (fcount (FACE3d1 i0 j0 k0 i1 j1 k1 0)) -> room m b2 (fcount (FACE3d2 i0 j0 k0 i1 j1 k1 0)) ->
  room m f0 (fcount (FACE3d0 i0 j0 k0 i1 j1 k1 0)) -> room m f1 (fcount (FACE3d1 i0 j0 k0 i1 j1 k1 0)) ->
  room m f2 (fcount (FACE3d2 i0 j0 k0 i1 j1 k1 0)) ->
    safe (cdf_3d_flux i0 j0 k0 i1 j1 k1 dx b0 b1 b2 gcw u f0 f1 f2) m.
Proof. exact @cdf_3d_flux_safe. Qed.
Print Assumptions C42_cdf_3d_flux.

Example C42_cdf_3d_flux_example : safe (S:=ZS) (cdf_3d_flux (-1) 0 1 2 2 2 ex_dx (0%nat, 2) (1%nat, 3) (2%nat, 4) 1 (3%nat, 5) (4%nat, 6) (5%nat, 7) (6%nat, 8)) ex_safe.
Proof. apply C42_cdf_3d_flux; ex_hyp. Qed.

Theorem C42_cdf_1d_poisson_flux : forall (S : Scalar) i0 i1 dx gcw u f0 (m : mem S),
  i0 <= i1 + 1 -> 1 <= gcw -> room m u (fcount (CELL1d i0 i1 gcw)) ->
  room m f0 (fcount (FACE1d i0 i1 0)) ->
    safe (cdf_1d_poisson_flux i0 i1 dx gcw u f0) m.
Proof. exact @cdf_1d_poisson_flux_safe. Qed.
Print Assumptions C42_cdf_1d_poisson_flux.

Example C42_cdf_1d_poisson_flux_example : safe (S:=ZS) (cdf_1d_poisson_flux (-1) 2 ex_dx 1 (0%nat, 2) (1%nat, 3)) ex_safe.
Proof. apply C42_cdf_1d_poisson_flux; ex_hyp. Qed.

Theorem C42_cdf_2d_poisson_flux : forall (S : Scalar) i0 j0 i1 j1 dx gcw u f0 f1 (m : mem S),
  i0 <= i1 + 1 -> j0 <= j1 + 1 -> 1 <= gcw -> room m u (fcount (CELL2d i0 j0 i1 j1 gcw)) ->
  room m f0 (fcount (FACE2d0 i0 j0 i1 j1 0)) -> room m f1 (fcount (FACE2d1 i0 j0 i1 j1 0)) ->
    safe (cdf_2d_poisson_flux i0 j0 i1 j1 dx gcw u f0 f1) m.
Proof. exact @cdf_2d_poisson_flux_safe. Qed.
Print Assumptions C42_cdf_2d_poisson_flux.

Example C42_cdf_2d_poisson_flux_example : safe (S:=ZS) (cdf_2d_poisson_flux (-1) 0 2 2 ex_dx 1 (0%nat, 2) (1%nat, 3) (2%nat, 4)) ex_safe.
Proof. apply C42_cdf_2d_poisson_flux; ex_hyp. Qed.

Theorem C42_cdf_3d_poisson_flux : forall (S : Scalar) i0 j0 k0 i1 j1 k1 dx gcw u f0 f1 f2 (m : mem S),
  i0 <= i1 + 1 -> j0 <= j1 + 1 -> k0 <= k1 + 1 -> 1 <= gcw ->
  room m u (fcount (CELL3d i0 j0 k0 i1 j1 k1 gcw)) -> room m f0 (fcount (FACE3d0 i0 j0 k0 i1 j1 k1 0)) ->
  room m f1 (fcount (FACE3d1 i0 j0 k0 i1 j1 k1 0)) -> room m f2 (fcount (FACE3d2 i0 j0 k0 i1 j1 k1 0)) ->
    safe (cdf_3d_poisson_flux i0 j0 k0 i1 j1 k1 dx gcw u f0 f1 f2) m.
Proof. exact @cdf_3d_poisson_flux_safe. Qed.
Print Assumptions C42_cdf_3d_poisson_flux.

Example C42_cdf_3d_poisson_flux_example : safe (S:=ZS) (cdf_3d_poisson_flux (-1) 0 1 2 2 2 ex_dx 1 (0%nat, 2) (1%nat, 3) (2%nat, 4) (3%nat, 5)) ex_safe.
Proof. apply C42_cdf_3d_poisson_flux; ex_hyp. Qed.

(** ** Operators and residuals *)

Theorem C42_cd_apply_1d_diffusion_v1_res : forall (S : Scalar) i0 i1 alpha beta dx agcw a ugcw u fgcw f f0 rgcw res (m : mem S),
  i0 <= i1 + 1 -> 0 <= agcw -> 0 <= ugcw -> 0 <= fgcw -> 0 <= rgcw ->
  room m a (fcount (CELL1d i0 i1 agcw)) -> room m u (fcount (CELL1d i0 i1 ugcw)) ->
  room m f (fcount (CELL1d i0 i1 fgcw)) -> room m res (fcount (CELL1d i0 i1 rgcw)) ->
  room m f0 (fcount (FACE1d i0 i1 0)) ->
    safe (cd_apply_1d_diffusion_v1_res i0 i1 alpha beta dx agcw a ugcw u fgcw f f0 rgcw res) m.
Proof. exact @cd_apply_1d_diffusion_v1_res_safe. Qed.
Print Assumptions C42_cd_apply_1d_diffusion_v1_res.

Example C42_cd_apply_1d_diffusion_v1_res_example : safe (S:=ZS) (cd_apply_1d_diffusion_v1_res (-1) 2 ex_s ex_s ex_dx 0 (0%nat, 2) 1 (1%nat, 3) 0 (2%nat, 4) (3%nat, 5) 0 (4%nat, 6)) ex_safe.
Proof. apply C42_cd_apply_1d_diffusion_v1_res; ex_hyp. Qed.

Theorem C42_cd_apply_1d_diffusion_v2_res : forall (S : Scalar) i0 i1 alpha beta dx ugcw u fgcw f f0 rgcw res (m : mem S),
  i0 <= i1 + 1 -> 0 <= ugcw -> 0 <= fgcw -> 0 <= rgcw -> room m u (fcount (CELL1d i0 i1 ugcw)) ->
  room m f (fcount (CELL1d i0 i1 fgcw)) -> room m res (fcount (CELL1d i0 i1 rgcw)) ->
  room m f0 (fcount (FACE1d i0 i1 0)) ->
    safe (cd_apply_1d_diffusion_v2_res i0 i1 alpha beta dx ugcw u fgcw f f0 rgcw res) m.
Proof. exact @cd_apply_1d_diffusion_v2_res_safe. Qed.
Print Assumptions C42_cd_apply_1d_diffusion_v2_res.

Example C42_cd_apply_1d_diffusion_v2_res_example : safe (S:=ZS) (cd_apply_1d_diffusion_v2_res (-1) 2 ex_s ex_s ex_dx 1 (0%nat, 2) 0 (1%nat, 3) (2%nat, 4) 0 (3%nat, 5)) ex_safe.
Proof. apply C42_cd_apply_1d_diffusion_v2_res; ex_hyp. Qed.

Theorem C42_cd_apply_1d_poisson_v1_res : forall (S : Scalar) i0 i1 beta dx fgcw f f0 rgcw res (m : mem S),
  i0 <= i1 + 1 -> 0 <= fgcw -> 0 <= rgcw -> room m f (fcount (CELL1d i0 i1 fgcw)) ->
  room m res (fcount (CELL1d i0 i1 rgcw)) -> room m f0 (fcount (FACE1d i0 i1 0)) ->
    safe (cd_apply_1d_poisson_v1_res i0 i1 beta dx fgcw f f0 rgcw res) m.
Proof. exact @cd_apply_1d_poisson_v1_res_safe. Qed.
Print Assumptions C42_cd_apply_1d_poisson_v1_res.

Example C42_cd_apply_1d_poisson_v1_res_example : safe (S:=ZS) (cd_apply_1d_poisson_v1_res (-1) 2 ex_s ex_dx 0 (0%nat, 2) (1%nat, 3) 0 (2%nat, 4)) ex_safe.
Proof. apply C42_cd_apply_1d_poisson_v1_res; ex_hyp. Qed.

Theorem C42_cd_apply_1d_diffusion_v1_apply : forall (S : Scalar) i0 i1 alpha beta dx agcw a ugcw u f0 rgcw res (m : mem S),
  i0 <= i1 + 1 -> 0 <= agcw -> 0 <= ugcw -> 0 <= rgcw -> room m a (fcount (CELL1d i0 i1 agcw)) ->
  room m u (fcount (CELL1d i0 i1 ugcw)) -> room m res (fcount (CELL1d i0 i1 rgcw)) ->
  room m f0 (fcount (FACE1d i0 i1 0)) ->
    safe (cd_apply_1d_diffusion_v1_apply i0 i1 alpha beta dx agcw a ugcw u f0 rgcw res) m.
Proof. exact @cd_apply_1d_diffusion_v1_apply_safe. Qed.
Print Assumptions C42_cd_apply_1d_diffusion_v1_apply.

Example C42_cd_apply_1d_diffusion_v1_apply_example : safe (S:=ZS) (cd_apply_1d_diffusion_v1_apply (-1) 2 ex_s ex_s ex_dx 0 (0%nat, 2) 1 (1%nat, 3) (2%nat, 4) 0 (3%nat, 5)) ex_safe.
Proof. apply C42_cd_apply_1d_diffusion_v1_apply; ex_hyp. Qed.

Theorem C42_cd_apply_1d_diffusion_v2_apply : forall (S : Scalar) i0 i1 alpha beta dx ugcw u f0 rgcw res (m : mem S),
  i0 <= i1 + 1 -> 0 <= ugcw -> 0 <= rgcw -> room m u (fcount (CELL1d i0 i1 ugcw)) ->
  room m res (fcount (CELL1d i0 i1 rgcw)) -> room m f0 (fcount (FACE1d i0 i1 0)) ->
    safe (cd_apply_1d_diffusion_v2_apply i0 i1 alpha beta dx ugcw u f0 rgcw res) m.
Proof. exact @cd_apply_1d_diffusion_v2_apply_safe. Qed.
Print Assumptions C42_cd_apply_1d_diffusion_v2_apply.

Example C42_cd_apply_1d_diffusion_v2_apply_example : safe (S:=ZS) (cd_apply_1d_diffusion_v2_apply (-1) 2 ex_s ex_s ex_dx 1 (0%nat, 2) (1%nat, 3) 0 (2%nat, 4)) ex_safe.
Proof. apply C42_cd_apply_1d_diffusion_v2_apply; ex_hyp. Qed.

Theorem C42_cd_apply_1d_poisson_v2_apply : forall (S : Scalar) i0 i1 beta dx f0 rgcw res (m : mem S),
  i0 <= i1 + 1 -> 0 <= rgcw -> room m res (fcount (CELL1d i0 i1 rgcw)) ->
  room m f0 (fcount (FACE1d i0 i1 0)) ->
    safe (cd_apply_1d_poisson_v2_apply i0 i1 beta dx f0 rgcw res) m.
Proof. exact @cd_apply_1d_poisson_v2_apply_safe. Qed.
Print Assumptions C42_cd_apply_1d_poisson_v2_apply.

Example C42_cd_apply_1d_poisson_v2_apply_example : safe (S:=ZS) (cd_apply_1d_poisson_v2_apply (-1) 2 ex_s ex_dx (0%nat, 2) 0 (1%nat, 3)) ex_safe.
Proof. apply C42_cd_apply_1d_poisson_v2_apply; ex_hyp. Qed.

Theorem C42_cd_apply_2d_diffusion_v1_res : forall (S : Scalar) i0 i1 j0 j1 alpha beta dx agcw a ugcw u fgcw f f0 f1 rgcw res (m : mem S),
  i0 <= i1 + 1 -> j0 <= j1 + 1 -> 0 <= agcw -> 0 <= ugcw -> 0 <= fgcw -> 0 <= rgcw ->
  room m a (fcount (CELL2d i0 j0 i1 j1 agcw)) -> room m u (fcount (CELL2d i0 j0 i1 j1 ugcw)) ->
  room m f (fcount (CELL2d i0 j0 i1 j1 fgcw)) -> room m res (fcount (CELL2d i0 j0 i1 j1 rgcw)) ->
  room m f0 (fcount (FACE2d0 i0 j0 i1 j1 0)) -> room m f1 (fcount (FACE2d1 i0 j0 i1 j1 0)) ->
    safe (cd_apply_2d_diffusion_v1_res i0 i1 j0 j1 alpha beta dx agcw a ugcw u fgcw f f0 f1 rgcw res) m.
Proof. exact @cd_apply_2d_diffusion_v1_res_safe. Qed.
Print Assumptions C42_cd_apply_2d_diffusion_v1_res.

Example C42_cd_apply_2d_diffusion_v1_res_example : safe (S:=ZS) (cd_apply_2d_diffusion_v1_res (-1) 2 0 2 ex_s ex_s ex_dx 0 (0%nat, 2) 1 (1%nat, 3) 0 (2%nat, 4) (3%nat, 5) (4%nat, 6) 0 (5%nat, 7)) ex_safe.
Proof. apply C42_cd_apply_2d_diffusion_v1_res; ex_hyp. Qed.

Theorem C42_cd_apply_2d_diffusion_v2_res : forall (S : Scalar) i0 i1 j0 j1 alpha beta dx ugcw u fgcw f f0 f1 rgcw res (m : mem S),
  i0 <= i1 + 1 -> j0 <= j1 + 1 -> 0 <= ugcw -> 0 <= fgcw -> 0 <= rgcw ->
  room m u (fcount (CELL2d i0 j0 i1 j1 ugcw)) -> room m f (fcount (CELL2d i0 j0 i1 j1 fgcw)) ->
  room m res (fcount (CELL2d i0 j0 i1 j1 rgcw)) -> room m f0 (fcount (FACE2d0 i0 j0 i1 j1 0)) ->
  room m f1 (fcount (FACE2d1 i0 j0 i1 j1 0)) ->
    safe (cd_apply_2d_diffusion_v2_res i0 i1 j0 j1 alpha beta dx ugcw u fgcw f f0 f1 rgcw res) m.
Proof. exact @cd_apply_2d_diffusion_v2_res_safe. Qed.
Print Assumptions C42_cd_apply_2d_diffusion_v2_res.

Example C42_cd_apply_2d_diffusion_v2_res_example : safe (S:=ZS) (cd_apply_2d_diffusion_v2_res (-1) 2 0 2 ex_s ex_s ex_dx 1 (0%nat, 2) 0 (1%nat, 3) (2%nat, 4) (3%nat, 5) 0 (4%nat, 6)) ex_safe.
Proof. apply C42_cd_apply_2d_diffusion_v2_res; ex_hyp. Qed.

Theorem C42_cd_apply_2d_poisson_v1_res : forall (S : Scalar) i0 i1 j0 j1 beta dx fgcw f f0 f1 rgcw res (m : mem S),
  i0 <= i1 + 1 -> j0 <= j1 + 1 -> 0 <= fgcw -> 0 <= rgcw -> room m f (fcount (CELL2d i0 j0 i1 j1 fgcw)) ->
  room m res (fcount (CELL2d i0 j0 i1 j1 rgcw)) -> room m f0 (fcount (FACE2d0 i0 j0 i1 j1 0)) ->
  room m f1 (fcount (FACE2d1 i0 j0 i1 j1 0)) ->
    safe (cd_apply_2d_poisson_v1_res i0 i1 j0 j1 beta dx fgcw f f0 f1 rgcw res) m.
Proof. exact @cd_apply_2d_poisson_v1_res_safe. Qed.
Print Assumptions C42_cd_apply_2d_poisson_v1_res.

Example C42_cd_apply_2d_poisson_v1_res_example : safe (S:=ZS) (cd_apply_2d_poisson_v1_res (-1) 2 0 2 ex_s ex_dx 0 (0%nat, 2) (1%nat, 3) (2%nat, 4) 0 (3%nat, 5)) ex_safe.
Proof. apply C42_cd_apply_2d_poisson_v1_res; ex_hyp. Qed.

Theorem C42_cd_apply_2d_diffusion_v1_apply : forall (S : Scalar) i0 i1 j0 j1 alpha beta dx agcw a ugcw u f0 f1 rgcw res (m : mem S),
  i0 <= i1 + 1 -> j0 <= j1 + 1 -> 0 <= agcw -> 0 <= ugcw -> 0 <= rgcw ->
  room m a (fcount (CELL2d i0 j0 i1 j1 agcw)) -> room m u (fcount (CELL2d i0 j0 i1 j1 ugcw)) ->
  room m res (fcount (CELL2d i0 j0 i1 j1 rgcw)) -> room m f0 (fcount (FACE2d0 i0 j0 i1 j1 0)) ->
  room m f1 (fcount (FACE2d1 i0 j0 i1 j1 0)) ->
    safe (cd_apply_2d_diffusion_v1_apply i0 i1 j0 j1 alpha beta dx agcw a ugcw u f0 f1 rgcw res) m.
Proof. exact @cd_apply_2d_diffusion_v1_apply_safe. Qed.
Print Assumptions C42_cd_apply_2d_diffusion_v1_apply.

Example C42_cd_apply_2d_diffusion_v1_apply_example : safe (S:=ZS) (cd_apply_2d_diffusion_v1_apply (-1) 2 0 2 ex_s ex_s ex_dx 0 (0%nat, 2) 1 (1%nat, 3) (2%nat, 4) (3%nat, 5) 0 (4%nat, 6)) ex_safe.
Proof. apply C42_cd_apply_2d_diffusion_v1_apply; ex_hyp. Qed.

Theorem C42_cd_apply_2d_diffusion_v2_apply : forall (S : Scalar) i0 i1 j0 j1 alpha beta dx ugcw u f0 f1 rgcw res (m : mem S),
  i0 <= i1 + 1 -> j0 <= j1 + 1 -> 0 <= ugcw -> 0 <= rgcw -> room m u (fcount (CELL2d i0 j0 i1 j1 ugcw)) ->
  room m res (fcount (CELL2d i0 j0 i1 j1 rgcw)) -> room m f0 (fcount (FACE2d0 i0 j0 i1 j1 0)) ->
  room m f1 (fcount (FACE2d1 i0 j0 i1 j1 0)) ->
    safe (cd_apply_2d_diffusion_v2_apply i0 i1 j0 j1 alpha beta dx ugcw u f0 f1 rgcw res) m.
Proof. exact @cd_apply_2d_diffusion_v2_apply_safe. Qed.
Print Assumptions C42_cd_apply_2d_diffusion_v2_apply.

Example C42_cd_apply_2d_diffusion_v2_apply_example : safe (S:=ZS) (cd_apply_2d_diffusion_v2_apply (-1) 2 0 2 ex_s ex_s ex_dx 1 (0%nat, 2) (1%nat, 3) (2%nat, 4) 0 (3%nat, 5)) ex_safe.
Proof. apply C42_cd_apply_2d_diffusion_v2_apply; ex_hyp. Qed.

Theorem C42_cd_apply_2d_poisson_v2_apply : forall (S : Scalar) i0 i1 j0 j1 beta dx f0 f1 rgcw res (m : mem S),
  i0 <= i1 + 1 -> j0 <= j1 + 1 -> 0 <= rgcw -> room m res (fcount (CELL2d i0 j0 i1 j1 rgcw)) ->
  room m f0 (fcount (FACE2d0 i0 j0 i1 j1 0)) -> room m f1 (fcount (FACE2d1 i0 j0 i1 j1 0)) ->
    safe (cd_apply_2d_poisson_v2_apply i0 i1 j0 j1 beta dx f0 f1 rgcw res) m.
Proof. exact @cd_apply_2d_poisson_v2_apply_safe. Qed.
Print Assumptions C42_cd_apply_2d_poisson_v2_apply.

Example C42_cd_apply_2d_poisson_v2_apply_example : safe (S:=ZS) (cd_apply_2d_poisson_v2_apply (-1) 2 0 2 ex_s ex_dx (0%nat, 2) (1%nat, 3) 0 (2%nat, 4)) ex_safe.
Proof. apply C42_cd_apply_2d_poisson_v2_apply; ex_hyp. Qed.

Theorem C42_cd_apply_3d_diffusion_v1_res : forall (S : Scalar) i0 i1 j0 j1 k0 k1 alpha beta dx agcw a ugcw u fgcw f f0 f1 f2 rgcw res (m : mem S),
  i0 <= i1 + 1 -> j0 <= j1 + 1 -> k0 <= k1 + 1 -> 0 <= agcw -> 0 <= ugcw -> 0 <= fgcw -> 0 <= rgcw ->
  room m a (fcount (CELL3d i0 j0 k0 i1 j1 k1 agcw)) -> room m u (fcount (CELL3d i0 j0 k0 i1 j1 k1 ugcw)) ->
  room m f (fcount (CELL3d i0 j0 k0 i1 j1 k1 fgcw)) ->
  room m res (fcount (CELL3d i0 j0 k0 i1 j1 k1 rgcw)) ->
  room m f0 (fcount (FACE3d0 i0 j0 k0 i1 j1 k1 0)) -> room m f1 (fcount (FACE3d1 i0 j0 k0 i1 j1 k1 0)) ->
  room m f2 (fcount (FACE3d2 i0 j0 k0 i1 j1 k1 0)) ->
    safe (cd_apply_3d_diffusion_v1_res i0 i1 j0 j1 k0 k1 alpha beta dx agcw a ugcw u fgcw f f0 f1 f2 rgcw res) m.
Proof. exact @cd_apply_3d_diffusion_v1_res_safe. Qed.
Print Assumptions C42_cd_apply_3d_diffusion_v1_res.

Example C42_cd_apply_3d_diffusion_v1_res_example : safe (S:=ZS) (cd_apply_3d_diffusion_v1_res (-1) 2 0 2 1 2 ex_s ex_s ex_dx 0 (0%nat, 2) 1 (1%nat, 3) 0 (2%nat, 4) (3%nat, 5) (4%nat, 6) (5%nat, 7) 0 (6%nat, 8)) ex_safe.
Proof. apply C42_cd_apply_3d_diffusion_v1_res; ex_hyp. Qed.

Theorem C42_cd_apply_3d_diffusion_v2_res : forall (S : Scalar) i0 i1 j0 j1 k0 k1 alpha beta dx ugcw u fgcw f f0 f1 f2 rgcw res (m : mem S),
  i0 <= i1 + 1 -> j0 <= j1 + 1 -> k0 <= k1 + 1 -> 0 <= ugcw -> 0 <= fgcw -> 0 <= rgcw ->
  room m u (fcount (CELL3d i0 j0 k0 i1 j1 k1 ugcw)) -> room m f (fcount (CELL3d i0 j0 k0 i1 j1 k1 fgcw)) ->
  room m res (fcount (CELL3d i0 j0 k0 i1 j1 k1 rgcw)) ->
  room m f0 (fcount (FACE3d0 i0 j0 k0 i1 j1 k1 0)) -> room m f1 (fcount (FACE3d1 i0 j0 k0 i1 j1 k1 0)) ->
  room m f2 (fcount (FACE3d2 i0 j0 k0 i1 j1 k1 0)) ->
    safe (cd_apply_3d_diffusion_v2_res i0 i1 j0 j1 k0 k1 alpha beta dx ugcw u fgcw f f0 f1 f2 rgcw res) m.
Proof. exact @cd_apply_3d_diffusion_v2_res_safe. Qed.
Print Assumptions C42_cd_apply_3d_diffusion_v2_res.

Example C42_cd_apply_3d_diffusion_v2_res_example : safe (S:=ZS) (cd_apply_3d_diffusion_v2_res (-1) 2 0 2 1 2 ex_s ex_s ex_dx 1 (0%nat, 2) 0 (1%nat, 3) (2%nat, 4) (3%nat, 5) (4%nat, 6) 0 (5%nat, 7)) ex_safe.
Proof. apply C42_cd_apply_3d_diffusion_v2_res; ex_hyp. Qed.

Theorem C42_cd_apply_3d_poisson_v1_res : forall (S : Scalar) i0 i1 j0 j1 k0 k1 beta dx fgcw f f0 f1 f2 rgcw res (m : mem S),
  i0 <= i1 + 1 -> j0 <= j1 + 1 -> k0 <= k1 + 1 -> 0 <= fgcw -> 0 <= rgcw ->
  room m f (fcount (CELL3d i0 j0 k0 i1 j1 k1 fgcw)) ->
  room m res (fcount (CELL3d i0 j0 k0 i1 j1 k1 rgcw)) ->
  room m f0 (fcount (FACE3d0 i0 j0 k0 i1 j1 k1 0)) -> room m f1 (fcount (FACE3d1 i0 j0 k0 i1 j1 k1 0)) ->
  room m f2 (fcount (FACE3d2 i0 j0 k0 i1 j1 k1 0)) ->
    safe (cd_apply_3d_poisson_v1_res i0 i1 j0 j1 k0 k1 beta dx fgcw f f0 f1 f2 rgcw res) m.
Proof. exact @cd_apply_3d_poisson_v1_res_safe. Qed.
Print Assumptions C42_cd_apply_3d_poisson_v1_res.

Example C42_cd_apply_3d_poisson_v1_res_example : safe (S:=ZS) (cd_apply_3d_poisson_v1_res (-1) 2 0 2 1 2 ex_s ex_dx 0 (0%nat, 2) (1%nat, 3) (2%nat, 4) (3%nat, 5) 0 (4%nat, 6)) ex_safe.
Proof. apply C42_cd_apply_3d_poisson_v1_res; ex_hyp. Qed.

Theorem C42_cd_apply_3d_diffusion_v1_apply : forall (S : Scalar) i0 i1 j0 j1 k0 k1 alpha beta dx agcw a ugcw u f0 f1 f2 rgcw res (m : mem S),
  i0 <= i1 + 1 -> j0 <= j1 + 1 -> k0 <= k1 + 1 -> 0 <= agcw -> 0 <= ugcw -> 0 <= rgcw ->
  room m a (fcount (CELL3d i0 j0 k0 i1 j1 k1 agcw)) -> room m u (fcount (CELL3d i0 j0 k0 i1 j1 k1 ugcw)) ->
  room m res (fcount (CELL3d i0 j0 k0 i1 j1 k1 rgcw)) ->
  room m f0 (fcount (FACE3d0 i0 j0 k0 i1 j1 k1 0)) -> room m f1 (fcount (FACE3d1 i0 j0 k0 i1 j1 k1 0)) ->
  room m f2 (fcount (FACE3d2 i0 j0 k0 i1 j1 k1 0)) ->
    safe (cd_apply_3d_diffusion_v1_apply i0 i1 j0 j1 k0 k1 alpha beta dx agcw a ugcw u f0 f1 f2 rgcw res) m.
Proof. exact @cd_apply_3d_diffusion_v1_apply_safe. Qed.
Print Assumptions C42_cd_apply_3d_diffusion_v1_apply.

Example C42_cd_apply_3d_diffusion_v1_apply_example : safe (S:=ZS) (cd_apply_3d_diffusion_v1_apply (-1) 2 0 2 1 2 ex_s ex_s ex_dx 0 (0%nat, 2) 1 (1%nat, 3) (2%nat, 4) (3%nat, 5) (4%nat, 6) 0 (5%nat, 7)) ex_safe.
Proof. apply C42_cd_apply_3d_diffusion_v1_apply; ex_hyp. Qed.

Theorem C42_cd_apply_3d_diffusion_v2_apply : forall (S : Scalar) i0 i1 j0 j1 k0 k1 alpha beta dx ugcw u f0 f1 f2 rgcw res (m : mem S),
  i0 <= i1 + 1 -> j0 <= j1 + 1 -> k0 <= k1 + 1 -> 0 <= ugcw -> 0 <= rgcw ->
  room m u (fcount (CELL3d i0 j0 k0 i1 j1 k1 ugcw)) ->
  room m res (fcount (CELL3d i0 j0 k0 i1 j1 k1 rgcw)) ->
  room m f0 (fcount (FACE3d0 i0 j0 k0 i1 j1 k1 0)) -> room m f1 (fcount (FACE3d1 i0 j0 k0 i1 j1 k1 0)) ->
  room m f2 (fcount (FACE3d2 i0 j0 k0 i1 j1 k1 0)) ->
    safe (cd_apply_3d_diffusion_v2_apply i0 i1 j0 j1 k0 k1 alpha beta dx ugcw u f0 f1 f2 rgcw res) m.
Proof. exact @cd_apply_3d_diffusion_v2_apply_safe. Qed.
Print Assumptions C42_cd_apply_3d_diffusion_v2_apply.

Example C42_cd_apply_3d_diffusion_v2_apply_example : safe (S:=ZS) (cd_apply_3d_diffusion_v2_apply (-1) 2 0 2 1 2 ex_s ex_s ex_dx 1 (0%nat, 2) (1%nat, 3) (2%nat, 4) (3%nat, 5) 0 (4%nat, 6)) ex_safe.
Proof. apply C42_cd_apply_3d_diffusion_v2_apply; ex_hyp. Qed.

Theorem C42_cd_apply_3d_poisson_v2_apply : forall (S : Scalar) i0 i1 j0 j1 k0 k1 beta dx f0 f1 f2 rgcw res (m : mem S),
  i0 <= i1 + 1 -> j0 <= j1 + 1 -> k0 <= k1 + 1 -> 0 <= rgcw ->
  room m res (fcount (CELL3d i0 j0 k0 i1 j1 k1 rgcw)) ->
  room m f0 (fcount (FACE3d0 i0 j0 k0 i1 j1 k1 0)) -> room m f1 (fcount (FACE3d1 i0 j0 k0 i1 j1 k1 0)) ->
  room m f2 (fcount (FACE3d2 i0 j0 k0 i1 j1 k1 0)) ->
    safe (cd_apply_3d_poisson_v2_apply i0 i1 j0 j1 k0 k1 beta dx f0 f1 f2 rgcw res) m.
Proof. exact @cd_apply_3d_poisson_v2_apply_safe. Qed.
Print Assumptions C42_cd_apply_3d_poisson_v2_apply.

Example C42_cd_apply_3d_poisson_v2_apply_example : safe (S:=ZS) (cd_apply_3d_poisson_v2_apply (-1) 2 0 2 1 2 ex_s ex_dx (0%nat, 2) (1%nat, 3) (2%nat, 4) 0 (3%nat, 5)) ex_safe.
Proof. apply C42_cd_apply_3d_poisson_v2_apply; ex_hyp. Qed.

(** ** Coarse-to-fine copies, homogeneous boundary values *)

Theorem C42_c2f_copy : forall (S : Scalar) ci0 ci1 cj0 cj1 ck0 ck1 fi0 fi1 fj0 fj1 fk0 fk1 axis cbi0 cbi1 cbj0 cbj1 cbk0 cbk1 fbi0 fbi1 fbj0 fbj1 fbk0 fbk1 gcw ratio cdata fdata (m : mem S),
  fi0 <= fi1 + 1 -> fj0 <= fj1 + 1 -> fk0 <= fk1 + 1 ->
  (0 <= axis < 3 -> 1 <= ratio axis) ->
  fbi0 - gcw <= fi0 <= fbi1 + gcw -> fbj0 - gcw <= fj0 <= fbj1 + gcw -> fbk0 - gcw <= fk0 <= fbk1 + gcw ->
  (axis = 0 -> fi1 <= fbi1 + gcw /\ cbi0 - gcw <= fi0 / ratio 0 /\ fi1 / ratio 0 <= cbi1 + gcw) ->
  (axis = 1 -> fj1 <= fbj1 + gcw /\ cbj0 - gcw <= fj0 / ratio 1 /\ fj1 / ratio 1 <= cbj1 + gcw) ->
  (axis = 2 -> fk1 <= fbk1 + gcw /\ cbk0 - gcw <= fk0 / ratio 2 /\ fk1 / ratio 2 <= cbk1 + gcw) ->
  (axis <> 0 -> cbi0 - gcw <= ci0 <= cbi1 + gcw) ->
  (axis <> 1 -> cbj0 - gcw <= cj0 <= cbj1 + gcw) ->
  (axis <> 2 -> cbk0 - gcw <= ck0 <= cbk1 + gcw) ->
  room m cdata (fcount (CELL3d cbi0 cbj0 cbk0 cbi1 cbj1 cbk1 gcw)) ->
  room m fdata (fcount (CELL3d fbi0 fbj0 fbk0 fbi1 fbj1 fbk1 gcw)) ->
    safe (c2f_copy ci0 ci1 cj0 cj1 ck0 ck1 fi0 fi1 fj0 fj1 fk0 fk1 axis cbi0 cbi1 cbj0 cbj1 cbk0 cbk1 fbi0 fbi1 fbj0 fbj1 fbk0 fbk1 gcw ratio cdata fdata) m.
Proof. exact @c2f_copy_safe. Qed.
Print Assumptions C42_c2f_copy.

Example C42_c2f_copy_example : safe (S:=ZS) (c2f_copy 0 0 1 1 1 1 (-3) 4 2 2 3 3 0 (-2) 3 0 2 0 2 (-3) 4 0 3 0 3 0 (fun _ => 2) (0%nat, 2) (1%nat, 3)) ex_safe.
Proof. apply C42_c2f_copy; ex_hyp. Qed.

Theorem C42_c2f_copy_corner : forall (S : Scalar) ci0 ci1 cj0 cj1 ck0 ck1 fi0 fi1 fj0 fj1 fk0 fk1 cbi0 cbi1 cbj0 cbj1 cbk0 cbk1 fbi0 fbi1 fbj0 fbj1 fbk0 fbk1 gcw cdata fdata (m : mem S),
  fbi0 - gcw <= fi0 <= fbi1 + gcw -> fbj0 - gcw <= fj0 <= fbj1 + gcw -> fbk0 - gcw <= fk0 <= fbk1 + gcw ->
  cbi0 - gcw <= ci0 <= cbi1 + gcw -> cbj0 - gcw <= cj0 <= cbj1 + gcw -> cbk0 - gcw <= ck0 <= cbk1 + gcw ->
  room m cdata (fcount (CELL3d cbi0 cbj0 cbk0 cbi1 cbj1 cbk1 gcw)) ->
  room m fdata (fcount (CELL3d fbi0 fbj0 fbk0 fbi1 fbj1 fbk1 gcw)) ->
    safe (c2f_copy_corner ci0 ci1 cj0 cj1 ck0 ck1 fi0 fi1 fj0 fj1 fk0 fk1 cbi0 cbi1 cbj0 cbj1 cbk0 cbk1 fbi0 fbi1 fbj0 fbj1 fbk0 fbk1 gcw cdata fdata) m.
Proof. exact @c2f_copy_corner_safe. Qed.
Print Assumptions C42_c2f_copy_corner.

Example C42_c2f_copy_corner_example : safe (S:=ZS) (c2f_copy_corner 0 0 1 1 1 1 (-3) 4 2 2 3 3 (-2) 3 0 2 0 2 (-3) 4 0 3 0 3 0 (0%nat, 2) (1%nat, 3)) ex_safe.
Proof. apply C42_c2f_copy_corner; ex_hyp. Qed.

Theorem C42_cd_2d_set_homogenous_bc : forall (S : Scalar) i0 j0 i1 j1 face bLo bHi exOrder u (m : mem S),
  i0 <= i1 -> j0 <= j1 ->
  (face = 0 \/ face = 1 -> seg_meets j0 j1 (bLo 1) (bHi 1) /\ exOrder <= i1 - i0 + 2) ->
  (face = 2 \/ face = 3 -> seg_meets i0 i1 (bLo 0) (bHi 0) /\ exOrder <= j1 - j0 + 2) ->
  room m u (fcount (CELL2d i0 j0 i1 j1 1)) ->
    safe (cd_2d_set_homogenous_bc i0 j0 i1 j1 face bLo bHi exOrder u) m.
Proof. exact @cd_2d_set_homogenous_bc_safe. Qed.
Print Assumptions C42_cd_2d_set_homogenous_bc.

Example C42_cd_2d_set_homogenous_bc_example : safe (S:=ZS) (cd_2d_set_homogenous_bc (-1) 0 2 2 0 ex_lo ex_hi 4 (0%nat, 2)) ex_safe.
Proof. apply C42_cd_2d_set_homogenous_bc; ex_hyp. Qed.

(** ** Boundary values *)

Theorem C42_cd_1d_set_bc : forall (S : Scalar) i0 i1 dx dgcw d0 ugcw u bLo bHi exOrder face btype alpha beta (m : mem S),
  i0 <= i1 -> 1 <= ugcw -> 0 <= dgcw -> (face = 0 -> bLo 0 = i0 - 1) -> (face = 1 -> bHi 0 = i1 + 1) ->
  room m d0 (fcount (FACE1d i0 i1 dgcw)) -> room m u (fcount (CELL1d i0 i1 ugcw)) ->
    safe (cd_1d_set_bc i0 i1 dx dgcw d0 ugcw u bLo bHi exOrder face btype alpha beta) m.
Proof. exact @cd_1d_set_bc_safe. Qed.
Print Assumptions C42_cd_1d_set_bc.

Example C42_cd_1d_set_bc_example : safe (S:=ZS) (cd_1d_set_bc (-1) 2 ex_dx 0 (0%nat, 2) 1 (1%nat, 3) ex_lo ex_hi 2 0 0 ex_s ex_s) ex_safe.
Proof. apply C42_cd_1d_set_bc; ex_hyp. Qed.

Theorem C42_cd_1d_set_poisson_bc : forall (S : Scalar) i0 i1 dx ugcw u bLo bHi exOrder face btype alpha beta (m : mem S),
  i0 <= i1 -> 1 <= ugcw -> (face = 0 -> bLo 0 = i0 - 1) -> (face = 1 -> bHi 0 = i1 + 1) ->
  room m u (fcount (CELL1d i0 i1 ugcw)) ->
    safe (cd_1d_set_poisson_bc i0 i1 dx ugcw u bLo bHi exOrder face btype alpha beta) m.
Proof. exact @cd_1d_set_poisson_bc_safe. Qed.
Print Assumptions C42_cd_1d_set_poisson_bc.

Example C42_cd_1d_set_poisson_bc_example : safe (S:=ZS) (cd_1d_set_poisson_bc (-1) 2 ex_dx 1 (0%nat, 2) ex_lo ex_hi 2 0 0 ex_s ex_s) ex_safe.
Proof. apply C42_cd_1d_set_poisson_bc; ex_hyp. Qed.

Theorem C42_cd_2d_set_bc : forall (S : Scalar) i0 i1 j0 j1 dx dgcw d0 d1 ugcw u bLo bHi exOrder face type btype alpha beta (m : mem S),
  i0 <= i1 -> j0 <= j1 -> 1 <= ugcw -> 0 <= dgcw ->
  (type = 1 -> face = 0 -> bLo 0 = i0 - 1 /\ seg_meets j0 j1 (bLo 1) (bHi 1)) ->
  (type = 1 -> face = 1 -> bHi 0 = i1 + 1 /\ seg_meets j0 j1 (bLo 1) (bHi 1)) ->
  (type = 1 -> face = 2 -> bLo 1 = j0 - 1 /\ seg_meets i0 i1 (bLo 0) (bHi 0)) ->
  (type = 1 -> face = 3 -> bHi 1 = j1 + 1 /\ seg_meets i0 i1 (bLo 0) (bHi 0)) ->
  (type = 2 -> face = 0 -> bLo 0 = i0 - 1 /\ bLo 1 = j0 - 1) ->
  (type = 2 -> face = 1 -> bHi 0 = i1 + 1 /\ bLo 1 = j0 - 1) ->
  (type = 2 -> face = 2 -> bLo 0 = i0 - 1 /\ bHi 1 = j1 + 1) ->
  (type = 2 -> face = 3 -> bHi 0 = i1 + 1 /\ bHi 1 = j1 + 1) ->
  room m d0 (fcount (FACE2d0 i0 j0 i1 j1 dgcw)) -> room m d1 (fcount (FACE2d1 i0 j0 i1 j1 dgcw)) ->
  room m u (fcount (CELL2d i0 j0 i1 j1 ugcw)) ->
    safe (cd_2d_set_bc i0 i1 j0 j1 dx dgcw d0 d1 ugcw u bLo bHi exOrder face type btype alpha beta) m.
Proof. exact @cd_2d_set_bc_safe. Qed.
Print Assumptions C42_cd_2d_set_bc.

Example C42_cd_2d_set_bc_example : safe (S:=ZS) (cd_2d_set_bc (-1) 2 0 2 ex_dx 0 (0%nat, 2) (1%nat, 3) 1 (2%nat, 4) ex_lo ex_hi 2 0 1 0 ex_s ex_s) ex_safe.
Proof. apply C42_cd_2d_set_bc; ex_hyp. Qed.

Theorem C42_cd_2d_set_poisson_bc : forall (S : Scalar) i0 i1 j0 j1 dx ugcw u bLo bHi exOrder face type btype alpha beta (m : mem S),
  i0 <= i1 -> j0 <= j1 -> 1 <= ugcw ->
  (type = 1 -> face = 0 -> bLo 0 = i0 - 1 /\ seg_meets j0 j1 (bLo 1) (bHi 1)) ->
  (type = 1 -> face = 1 -> bHi 0 = i1 + 1 /\ seg_meets j0 j1 (bLo 1) (bHi 1)) ->
  (type = 1 -> face = 2 -> bLo 1 = j0 - 1 /\ seg_meets i0 i1 (bLo 0) (bHi 0)) ->
  (type = 1 -> face = 3 -> bHi 1 = j1 + 1 /\ seg_meets i0 i1 (bLo 0) (bHi 0)) ->
  (type = 2 -> face = 0 -> bLo 0 = i0 - 1 /\ bLo 1 = j0 - 1) ->
  (type = 2 -> face = 1 -> bHi 0 = i1 + 1 /\ bLo 1 = j0 - 1) ->
  (type = 2 -> face = 2 -> bLo 0 = i0 - 1 /\ bHi 1 = j1 + 1) ->
  (type = 2 -> face = 3 -> bHi 0 = i1 + 1 /\ bHi 1 = j1 + 1) ->
  room m u (fcount (CELL2d i0 j0 i1 j1 ugcw)) ->
    safe (cd_2d_set_poisson_bc i0 i1 j0 j1 dx ugcw u bLo bHi exOrder face type btype alpha beta) m.
Proof. exact @cd_2d_set_poisson_bc_safe. Qed.
Print Assumptions C42_cd_2d_set_poisson_bc.

Example C42_cd_2d_set_poisson_bc_example : safe (S:=ZS) (cd_2d_set_poisson_bc (-1) 2 0 2 ex_dx 1 (0%nat, 2) ex_lo ex_hi 2 0 1 0 ex_s ex_s) ex_safe.
Proof. apply C42_cd_2d_set_poisson_bc; ex_hyp. Qed.

Theorem C42_cd_2d_set_corner_bc : forall (S : Scalar) i0 i1 j0 j1 gcw dx d0 d1 u bLo bHi exOrder face type btype (m : mem S),
  i0 <= i1 -> j0 <= j1 -> 1 <= gcw -> (face = 0 -> bLo 0 = i0 - 1 /\ bLo 1 = j0 - 1) ->
  (face = 1 -> bHi 0 = i1 + 1 /\ bLo 1 = j0 - 1) -> (face = 2 -> bLo 0 = i0 - 1 /\ bHi 1 = j1 + 1) ->
  (face = 3 -> bHi 0 = i1 + 1 /\ bHi 1 = j1 + 1) -> room m u (fcount (CELL2d i0 j0 i1 j1 gcw)) ->
    safe (cd_2d_set_corner_bc i0 i1 j0 j1 gcw dx d0 d1 u bLo bHi exOrder face type btype) m.
Proof. exact @cd_2d_set_corner_bc_safe. Qed.
Print Assumptions C42_cd_2d_set_corner_bc.

Example C42_cd_2d_set_corner_bc_example : safe (S:=ZS) (cd_2d_set_corner_bc (-1) 2 0 2 1 ex_dx (0%nat, 2) (1%nat, 3) (2%nat, 4) ex_corner ex_hi 2 0 1 0) ex_safe.
Proof. apply C42_cd_2d_set_corner_bc; ex_hyp. Qed.

Theorem C42_cd_3d_set_bc : forall (S : Scalar) i0 i1 j0 j1 k0 k1 dx dgcw d0 d1 d2 ugcw u bLo bHi exOrder face type btype alpha beta (m : mem S),
  i0 <= i1 -> j0 <= j1 -> k0 <= k1 -> 1 <= ugcw -> 0 <= dgcw ->
  (type = 1 -> face = 0 -> bLo 0 = i0 - 1 /\ seg_meets j0 j1 (bLo 1) (bHi 1) /\ seg_meets k0 k1 (bLo 2) (bHi 2)) ->
  (type = 1 -> face = 1 -> bHi 0 = i1 + 1 /\ seg_meets j0 j1 (bLo 1) (bHi 1) /\ seg_meets k0 k1 (bLo 2) (bHi 2)) ->
  (type = 1 -> face = 2 -> bLo 1 = j0 - 1 /\ seg_meets i0 i1 (bLo 0) (bHi 0) /\ seg_meets k0 k1 (bLo 2) (bHi 2)) ->
  (type = 1 -> face = 3 -> bHi 1 = j1 + 1 /\ seg_meets i0 i1 (bLo 0) (bHi 0) /\ seg_meets k0 k1 (bLo 2) (bHi 2)) ->
  (type = 1 -> face = 4 -> bLo 2 = k0 - 1 /\ seg_meets i0 i1 (bLo 0) (bHi 0) /\ seg_meets j0 j1 (bLo 1) (bHi 1)) ->
  (type = 1 -> face = 5 -> bHi 2 = k1 + 1 /\ seg_meets i0 i1 (bLo 0) (bHi 0) /\ seg_meets j0 j1 (bLo 1) (bHi 1)) ->
  (type = 2 -> 0 <= face < 4 -> at_side (face mod 2) i0 i1 (bLo 0) /\ at_side (face / 2 mod 2) j0 j1 (bLo 1) /\ seg_meets k0 k1 (bLo 2) (bHi 2)) ->
  (type = 2 -> 4 <= face < 8 -> at_side (face mod 2) i0 i1 (bLo 0) /\ at_side (face / 2 mod 2) k0 k1 (bLo 2) /\ seg_meets j0 j1 (bLo 1) (bHi 1)) ->
  (type = 2 -> 8 <= face < 12 -> at_side (face mod 2) j0 j1 (bLo 1) /\ at_side (face / 2 mod 2) k0 k1 (bLo 2) /\ seg_meets i0 i1 (bLo 0) (bHi 0)) ->
  (type = 3 -> 0 <= face < 8 -> at_side (face mod 2) i0 i1 (bLo 0) /\ at_side (face / 2 mod 2) j0 j1 (bLo 1) /\ at_side (face / 4) k0 k1 (bLo 2)) ->
  room m d0 (fcount (FACE3d0 i0 j0 k0 i1 j1 k1 dgcw)) ->
  room m d1 (fcount (FACE3d1 i0 j0 k0 i1 j1 k1 dgcw)) ->
  room m d2 (fcount (FACE3d2 i0 j0 k0 i1 j1 k1 dgcw)) ->
  room m u (fcount (CELL3d i0 j0 k0 i1 j1 k1 ugcw)) ->
    safe (cd_3d_set_bc i0 i1 j0 j1 k0 k1 dx dgcw d0 d1 d2 ugcw u bLo bHi exOrder face type btype alpha beta) m.
Proof. exact @cd_3d_set_bc_safe. Qed.
Print Assumptions C42_cd_3d_set_bc.

Example C42_cd_3d_set_bc_example : safe (S:=ZS) (cd_3d_set_bc (-1) 2 0 2 1 2 ex_dx 0 (0%nat, 2) (1%nat, 3) (2%nat, 4) 1 (3%nat, 5) ex_lo ex_hi 2 0 1 0 ex_s ex_s) ex_safe.
Proof. apply C42_cd_3d_set_bc; ex_hyp. Qed.

Theorem C42_cd_3d_set_poisson_bc : forall (S : Scalar) i0 i1 j0 j1 k0 k1 dx ugcw u bLo bHi exOrder face type btype alpha beta (m : mem S),
  i0 <= i1 -> j0 <= j1 -> k0 <= k1 -> 1 <= ugcw ->
  (type = 1 -> face = 0 -> bLo 0 = i0 - 1 /\ seg_meets j0 j1 (bLo 1) (bHi 1) /\ seg_meets k0 k1 (bLo 2) (bHi 2)) ->
  (type = 1 -> face = 1 -> bHi 0 = i1 + 1 /\ seg_meets j0 j1 (bLo 1) (bHi 1) /\ seg_meets k0 k1 (bLo 2) (bHi 2)) ->
  (type = 1 -> face = 2 -> bLo 1 = j0 - 1 /\ seg_meets i0 i1 (bLo 0) (bHi 0) /\ seg_meets k0 k1 (bLo 2) (bHi 2)) ->
  (type = 1 -> face = 3 -> bHi 1 = j1 + 1 /\ seg_meets i0 i1 (bLo 0) (bHi 0) /\ seg_meets k0 k1 (bLo 2) (bHi 2)) ->
  (type = 1 -> face = 4 -> bLo 2 = k0 - 1 /\ seg_meets i0 i1 (bLo 0) (bHi 0) /\ seg_meets j0 j1 (bLo 1) (bHi 1)) ->
  (type = 1 -> face = 5 -> bHi 2 = k1 + 1 /\ seg_meets i0 i1 (bLo 0) (bHi 0) /\ seg_meets j0 j1 (bLo 1) (bHi 1)) ->
  (type = 2 -> 0 <= face < 4 -> at_side (face mod 2) i0 i1 (bLo 0) /\ at_side (face / 2 mod 2) j0 j1 (bLo 1) /\ seg_meets k0 k1 (bLo 2) (bHi 2)) ->
  (type = 2 -> 4 <= face < 8 -> at_side (face mod 2) i0 i1 (bLo 0) /\ at_side (face / 2 mod 2) k0 k1 (bLo 2) /\ seg_meets j0 j1 (bLo 1) (bHi 1)) ->
  (type = 2 -> 8 <= face < 12 -> at_side (face mod 2) j0 j1 (bLo 1) /\ at_side (face / 2 mod 2) k0 k1 (bLo 2) /\ seg_meets i0 i1 (bLo 0) (bHi 0)) ->
  (type = 3 -> 0 <= face < 8 -> at_side (face mod 2) i0 i1 (bLo 0) /\ at_side (face / 2 mod 2) j0 j1 (bLo 1) /\ at_side (face / 4) k0 k1 (bLo 2)) ->
  room m u (fcount (CELL3d i0 j0 k0 i1 j1 k1 ugcw)) ->
    safe (cd_3d_set_poisson_bc i0 i1 j0 j1 k0 k1 dx ugcw u bLo bHi exOrder face type btype alpha beta) m.
Proof. exact @cd_3d_set_poisson_bc_safe. Qed.
Print Assumptions C42_cd_3d_set_poisson_bc.

Example C42_cd_3d_set_poisson_bc_example : safe (S:=ZS) (cd_3d_set_poisson_bc (-1) 2 0 2 1 2 ex_dx 1 (0%nat, 2) ex_lo ex_hi 2 0 1 0 ex_s ex_s) ex_safe.
Proof. apply C42_cd_3d_set_poisson_bc; ex_hyp. Qed.

(** ** Stencil entries *)

Theorem C42_cd_stencil_1d_offdiag : forall (S : Scalar) i0 i1 bi0 bi1 dx beta b0 sgcw st (m : mem S),
  i0 <= i1 + 1 -> 0 <= sgcw -> bi0 <= i0 -> i1 <= bi1 -> apart st [b0] ->
  room m b0 (fcount (FACE1d bi0 bi1 0)) -> room m st (fcount ((0, 2) :: CELL1d i0 i1 sgcw)) ->
    safe (cd_stencil_1d_offdiag i0 i1 bi0 bi1 dx beta b0 sgcw st) m.
Proof. exact @cd_stencil_1d_offdiag_safe. Qed.
Print Assumptions C42_cd_stencil_1d_offdiag.

Example C42_cd_stencil_1d_offdiag_example : safe (S:=ZS) (cd_stencil_1d_offdiag (-1) 2 (-3) 5 ex_dx ex_s (0%nat, 2) 1 (1%nat, 3)) ex_safe.
Proof. apply C42_cd_stencil_1d_offdiag; ex_hyp. Qed.

Theorem C42_cd_stencil_1d_poisson_offdiag : forall (S : Scalar) i0 i1 dx beta sgcw st (m : mem S),
  i0 <= i1 + 1 -> 0 <= sgcw -> room m st (fcount ((0, 2) :: CELL1d i0 i1 sgcw)) ->
    safe (cd_stencil_1d_poisson_offdiag i0 i1 dx beta sgcw st) m.
Proof. exact @cd_stencil_1d_poisson_offdiag_safe. Qed.
Print Assumptions C42_cd_stencil_1d_poisson_offdiag.

Example C42_cd_stencil_1d_poisson_offdiag_example : safe (S:=ZS) (cd_stencil_1d_poisson_offdiag (-1) 2 ex_dx ex_s 1 (0%nat, 2)) ex_safe.
Proof. apply C42_cd_stencil_1d_poisson_offdiag; ex_hyp. Qed.

Theorem C42_cd_stencil_1d_v1diag : forall (S : Scalar) i0 i1 ai0 ai1 alpha a sgcw st (m : mem S),
  i0 <= i1 + 1 -> 0 <= sgcw -> ai0 <= i0 -> i1 <= ai1 -> room m a (fcount (CELL1d ai0 ai1 0)) ->
  room m st (fcount ((0, 2) :: CELL1d i0 i1 sgcw)) ->
    safe (cd_stencil_1d_v1diag i0 i1 ai0 ai1 alpha a sgcw st) m.
Proof. exact @cd_stencil_1d_v1diag_safe. Qed.
Print Assumptions C42_cd_stencil_1d_v1diag.

Example C42_cd_stencil_1d_v1diag_example : safe (S:=ZS) (cd_stencil_1d_v1diag (-1) 2 (-1) 2 ex_s (0%nat, 2) 1 (1%nat, 3)) ex_safe.
Proof. apply C42_cd_stencil_1d_v1diag; ex_hyp. Qed.

Theorem C42_cd_stencil_1d_v2diag : forall (S : Scalar) i0 i1 alpha sgcw st (m : mem S),
  i0 <= i1 + 1 -> 0 <= sgcw -> room m st (fcount ((0, 2) :: CELL1d i0 i1 sgcw)) ->
    safe (cd_stencil_1d_v2diag i0 i1 alpha sgcw st) m.
Proof. exact @cd_stencil_1d_v2diag_safe. Qed.
Print Assumptions C42_cd_stencil_1d_v2diag.

Example C42_cd_stencil_1d_v2diag_example : safe (S:=ZS) (cd_stencil_1d_v2diag (-1) 2 ex_s 1 (0%nat, 2)) ex_safe.
Proof. apply C42_cd_stencil_1d_v2diag; ex_hyp. Qed.

Theorem C42_cd_stencil_1d_poisson_diag : forall (S : Scalar) i0 i1 sgcw st (m : mem S),
  i0 <= i1 + 1 -> 0 <= sgcw -> room m st (fcount ((0, 2) :: CELL1d i0 i1 sgcw)) ->
    safe (cd_stencil_1d_poisson_diag i0 i1 sgcw st) m.
Proof. exact @cd_stencil_1d_poisson_diag_safe. Qed.
Print Assumptions C42_cd_stencil_1d_poisson_diag.

Example C42_cd_stencil_1d_poisson_diag_example : safe (S:=ZS) (cd_stencil_1d_poisson_diag (-1) 2 1 (0%nat, 2)) ex_safe.
Proof. apply C42_cd_stencil_1d_poisson_diag; ex_hyp. Qed.

Theorem C42_cd_stencil_1d_adj_diag : forall (S : Scalar) i0 i1 pi0 pi1 side btype exOrder dx beta b0 sgcw st (m : mem S),
  side = 0 \/ side = 1 -> i0 <= i1 -> at_side side i0 i1 pi0 -> 0 <= sgcw ->
  room m b0 (fcount (FACE1d i0 i1 0)) -> room m st (fcount ((0, 2) :: CELL1d i0 i1 sgcw)) ->
    safe (cd_stencil_1d_adj_diag i0 i1 pi0 pi1 side btype exOrder dx beta b0 sgcw st) m.
Proof. exact @cd_stencil_1d_adj_diag_safe. Qed.
Print Assumptions C42_cd_stencil_1d_adj_diag.

Example C42_cd_stencil_1d_adj_diag_example : safe (S:=ZS) (cd_stencil_1d_adj_diag (-1) 2 (-2) (-2) 0 0 2 ex_dx ex_s (0%nat, 2) 1 (1%nat, 3)) ex_safe.
Proof. apply C42_cd_stencil_1d_adj_diag; ex_hyp. Qed.

Theorem C42_cd_stencil_1d_adj_poisson_diag : forall (S : Scalar) i0 i1 pi0 pi1 side btype exOrder dx beta sgcw st (m : mem S),
  side = 0 \/ side = 1 -> i0 <= i1 -> at_side side i0 i1 pi0 -> 0 <= sgcw ->
  room m st (fcount ((0, 2) :: CELL1d i0 i1 sgcw)) ->
    safe (cd_stencil_1d_adj_poisson_diag i0 i1 pi0 pi1 side btype exOrder dx beta sgcw st) m.
Proof. exact @cd_stencil_1d_adj_poisson_diag_safe. Qed.
Print Assumptions C42_cd_stencil_1d_adj_poisson_diag.

Example C42_cd_stencil_1d_adj_poisson_diag_example : safe (S:=ZS) (cd_stencil_1d_adj_poisson_diag (-1) 2 (-2) (-2) 0 0 2 ex_dx ex_s 1 (0%nat, 2)) ex_safe.
Proof. apply C42_cd_stencil_1d_adj_poisson_diag; ex_hyp. Qed.

Theorem C42_cd_stencil_1d_adj_cf_diag : forall (S : Scalar) i0 i1 pi0 pi1 r side intOrder dx beta b0 sgcw st (m : mem S),
  side = 0 \/ side = 1 -> i0 <= i1 -> at_side side i0 i1 pi0 -> 0 <= sgcw ->
  room m b0 (fcount (FACE1d i0 i1 0)) -> room m st (fcount ((0, 2) :: CELL1d i0 i1 sgcw)) ->
    safe (cd_stencil_1d_adj_cf_diag i0 i1 pi0 pi1 r side intOrder dx beta b0 sgcw st) m.
Proof. exact @cd_stencil_1d_adj_cf_diag_safe. Qed.
Print Assumptions C42_cd_stencil_1d_adj_cf_diag.

Example C42_cd_stencil_1d_adj_cf_diag_example : safe (S:=ZS) (cd_stencil_1d_adj_cf_diag (-1) 2 (-2) (-2) 2 0 2 ex_dx ex_s (0%nat, 2) 1 (1%nat, 3)) ex_safe.
Proof. apply C42_cd_stencil_1d_adj_cf_diag; ex_hyp. Qed.

Theorem C42_cd_stencil_1d_adj_poisson_cf_diag : forall (S : Scalar) i0 i1 pi0 pi1 r side intOrder dx beta sgcw st (m : mem S),
  side = 0 \/ side = 1 -> i0 <= i1 -> at_side side i0 i1 pi0 -> 0 <= sgcw ->
  room m st (fcount ((0, 2) :: CELL1d i0 i1 sgcw)) ->
    safe (cd_stencil_1d_adj_poisson_cf_diag i0 i1 pi0 pi1 r side intOrder dx beta sgcw st) m.
Proof. exact @cd_stencil_1d_adj_poisson_cf_diag_safe. Qed.
Print Assumptions C42_cd_stencil_1d_adj_poisson_cf_diag.

Example C42_cd_stencil_1d_adj_poisson_cf_diag_example : safe (S:=ZS) (cd_stencil_1d_adj_poisson_cf_diag (-1) 2 (-2) (-2) 2 0 2 ex_dx ex_s 1 (0%nat, 2)) ex_safe.
Proof. apply C42_cd_stencil_1d_adj_poisson_cf_diag; ex_hyp. Qed.

Theorem C42_cd_stencil_1d_adj_offdiag : forall (S : Scalar) i0 i1 pi0 pi1 side btype exOrder dx dirf neuf beta b0 sgcw st (m : mem S),
  side = 0 \/ side = 1 -> i0 <= i1 -> at_side side i0 i1 pi0 -> 0 <= sgcw -> apart st [b0] ->
  room m b0 (fcount (FACE1d i0 i1 0)) -> room m st (fcount ((0, 2) :: CELL1d i0 i1 sgcw)) ->
    safe (cd_stencil_1d_adj_offdiag i0 i1 pi0 pi1 side btype exOrder dx dirf neuf beta b0 sgcw st) m.
Proof. exact @cd_stencil_1d_adj_offdiag_safe. Qed.
Print Assumptions C42_cd_stencil_1d_adj_offdiag.

Example C42_cd_stencil_1d_adj_offdiag_example : safe (S:=ZS) (cd_stencil_1d_adj_offdiag (-1) 2 (-2) (-2) 0 0 2 ex_dx ex_s ex_s ex_s (0%nat, 2) 1 (1%nat, 3)) ex_safe.
Proof. apply C42_cd_stencil_1d_adj_offdiag; ex_hyp. Qed.

Theorem C42_cd_stencil_1d_adj_poisson_offdiag : forall (S : Scalar) i0 i1 pi0 pi1 side btype exOrder dx dirf neuf beta sgcw st (m : mem S),
  side = 0 \/ side = 1 -> i0 <= i1 -> at_side side i0 i1 pi0 -> 0 <= sgcw ->
  room m st (fcount ((0, 2) :: CELL1d i0 i1 sgcw)) ->
    safe (cd_stencil_1d_adj_poisson_offdiag i0 i1 pi0 pi1 side btype exOrder dx dirf neuf beta sgcw st) m.
Proof. exact @cd_stencil_1d_adj_poisson_offdiag_safe. Qed.
Print Assumptions C42_cd_stencil_1d_adj_poisson_offdiag.

Example C42_cd_stencil_1d_adj_poisson_offdiag_example : safe (S:=ZS) (cd_stencil_1d_adj_poisson_offdiag (-1) 2 (-2) (-2) 0 0 2 ex_dx ex_s ex_s ex_s 1 (0%nat, 2)) ex_safe.
Proof. apply C42_cd_stencil_1d_adj_poisson_offdiag; ex_hyp. Qed.

Theorem C42_cd_stencil_1d_adj_cf_offdiag : forall (S : Scalar) i0 i1 ci0 ci1 r side intOrder sgcw st (m : mem S),
  side = 0 \/ side = 1 -> i0 <= i1 -> at_side side i0 i1 ci0 -> 0 <= sgcw ->
  room m st (fcount ((0, 2) :: CELL1d i0 i1 sgcw)) ->
    safe (cd_stencil_1d_adj_cf_offdiag i0 i1 ci0 ci1 r side intOrder sgcw st) m.
Proof. exact @cd_stencil_1d_adj_cf_offdiag_safe. Qed.
Print Assumptions C42_cd_stencil_1d_adj_cf_offdiag.

Example C42_cd_stencil_1d_adj_cf_offdiag_example : safe (S:=ZS) (cd_stencil_1d_adj_cf_offdiag (-1) 2 (-2) (-2) 2 0 2 1 (0%nat, 2)) ex_safe.
Proof. apply C42_cd_stencil_1d_adj_cf_offdiag; ex_hyp. Qed.

Theorem C42_cd_stencil_1d_readj_offdiag : forall (S : Scalar) i0 i1 pi0 pi1 side sgcw st (m : mem S),
  side = 0 \/ side = 1 -> i0 <= i1 -> at_side side i0 i1 pi0 -> 0 <= sgcw ->
  room m st (fcount ((0, 2) :: CELL1d i0 i1 sgcw)) ->
    safe (cd_stencil_1d_readj_offdiag i0 i1 pi0 pi1 side sgcw st) m.
Proof. exact @cd_stencil_1d_readj_offdiag_safe. Qed.
Print Assumptions C42_cd_stencil_1d_readj_offdiag.

Example C42_cd_stencil_1d_readj_offdiag_example : safe (S:=ZS) (cd_stencil_1d_readj_offdiag (-1) 2 (-2) (-2) 0 1 (0%nat, 2)) ex_safe.
Proof. apply C42_cd_stencil_1d_readj_offdiag; ex_hyp. Qed.

Theorem C42_cd_stencil_1d_adj_cf_bdryrhs : forall (S : Scalar) i0 i1 pi0 pi1 side sgcw st gcw u rhs (m : mem S),
  side = 0 \/ side = 1 -> i0 <= i1 -> at_side side i0 i1 pi0 -> 0 <= sgcw -> 1 <= gcw ->
  room m st (fcount ((0, 2) :: CELL1d i0 i1 sgcw)) -> room m u (fcount (CELL1d i0 i1 gcw)) ->
  room m rhs (fcount (CELL1d i0 i1 0)) ->
    safe (cd_stencil_1d_adj_cf_bdryrhs i0 i1 pi0 pi1 side sgcw st gcw u rhs) m.
Proof. exact @cd_stencil_1d_adj_cf_bdryrhs_safe. Qed.
Print Assumptions C42_cd_stencil_1d_adj_cf_bdryrhs.

Example C42_cd_stencil_1d_adj_cf_bdryrhs_example : safe (S:=ZS) (cd_stencil_1d_adj_cf_bdryrhs (-1) 2 (-2) (-2) 0 1 (0%nat, 2) 1 (1%nat, 3) (2%nat, 4)) ex_safe.
Proof. apply C42_cd_stencil_1d_adj_cf_bdryrhs; ex_hyp. Qed.

Theorem C42_cd_stencil_2d_offdiag : forall (S : Scalar) i0 j0 i1 j1 bi0 bj0 bi1 bj1 dx beta b0 b1 sgcw st (m : mem S),
  i0 <= i1 + 1 -> j0 <= j1 + 1 -> 0 <= sgcw -> bi0 <= i0 -> i1 <= bi1 -> bj0 <= j0 -> j1 <= bj1 ->
  apart st [b0; b1] -> room m b0 (fcount (FACE2d0 bi0 bj0 bi1 bj1 0)) ->
  room m b1 (fcount (FACE2d1 bi0 bj0 bi1 bj1 0)) ->
  room m st (fcount ((0, 4) :: CELL2d i0 j0 i1 j1 sgcw)) ->
    safe (cd_stencil_2d_offdiag i0 j0 i1 j1 bi0 bj0 bi1 bj1 dx beta b0 b1 sgcw st) m.
Proof. exact @cd_stencil_2d_offdiag_safe. Qed.
Print Assumptions C42_cd_stencil_2d_offdiag.

Example C42_cd_stencil_2d_offdiag_example : safe (S:=ZS) (cd_stencil_2d_offdiag (-1) 0 2 2 (-3) 0 5 2 ex_dx ex_s (0%nat, 2) (1%nat, 3) 1 (2%nat, 4)) ex_safe.
Proof. apply C42_cd_stencil_2d_offdiag; ex_hyp. Qed.

Theorem C42_cd_stencil_2d_poisson_offdiag : forall (S : Scalar) i0 j0 i1 j1 dx beta sgcw st (m : mem S),
  i0 <= i1 + 1 -> j0 <= j1 + 1 -> 0 <= sgcw -> room m st (fcount ((0, 4) :: CELL2d i0 j0 i1 j1 sgcw)) ->
    safe (cd_stencil_2d_poisson_offdiag i0 j0 i1 j1 dx beta sgcw st) m.
Proof. exact @cd_stencil_2d_poisson_offdiag_safe. Qed.
Print Assumptions C42_cd_stencil_2d_poisson_offdiag.

Example C42_cd_stencil_2d_poisson_offdiag_example : safe (S:=ZS) (cd_stencil_2d_poisson_offdiag (-1) 0 2 2 ex_dx ex_s 1 (0%nat, 2)) ex_safe.
Proof. apply C42_cd_stencil_2d_poisson_offdiag; ex_hyp. Qed.

Theorem C42_cd_stencil_2d_v1diag : forall (S : Scalar) i0 j0 i1 j1 ai0 aj0 ai1 aj1 alpha a sgcw st (m : mem S),
  i0 <= i1 + 1 -> j0 <= j1 + 1 -> 0 <= sgcw -> ai0 <= i0 -> i1 <= ai1 -> aj0 <= j0 -> j1 <= aj1 ->
  room m a (fcount (CELL2d ai0 aj0 ai1 aj1 0)) -> room m st (fcount ((0, 4) :: CELL2d i0 j0 i1 j1 sgcw)) ->
    safe (cd_stencil_2d_v1diag i0 j0 i1 j1 ai0 aj0 ai1 aj1 alpha a sgcw st) m.
Proof. exact @cd_stencil_2d_v1diag_safe. Qed.
Print Assumptions C42_cd_stencil_2d_v1diag.

Example C42_cd_stencil_2d_v1diag_example : safe (S:=ZS) (cd_stencil_2d_v1diag (-1) 0 2 2 (-1) (-1) 2 3 ex_s (0%nat, 2) 1 (1%nat, 3)) ex_safe.
Proof. apply C42_cd_stencil_2d_v1diag; ex_hyp. Qed.

Theorem C42_cd_stencil_2d_v2diag : forall (S : Scalar) i0 j0 i1 j1 alpha sgcw st (m : mem S),
  i0 <= i1 + 1 -> j0 <= j1 + 1 -> 0 <= sgcw -> room m st (fcount ((0, 4) :: CELL2d i0 j0 i1 j1 sgcw)) ->
    safe (cd_stencil_2d_v2diag i0 j0 i1 j1 alpha sgcw st) m.
Proof. exact @cd_stencil_2d_v2diag_safe. Qed.
Print Assumptions C42_cd_stencil_2d_v2diag.

Example C42_cd_stencil_2d_v2diag_example : safe (S:=ZS) (cd_stencil_2d_v2diag (-1) 0 2 2 ex_s 1 (0%nat, 2)) ex_safe.
Proof. apply C42_cd_stencil_2d_v2diag; ex_hyp. Qed.

Theorem C42_cd_stencil_2d_poisson_diag : forall (S : Scalar) i0 j0 i1 j1 sgcw st (m : mem S),
  i0 <= i1 + 1 -> j0 <= j1 + 1 -> 0 <= sgcw -> room m st (fcount ((0, 4) :: CELL2d i0 j0 i1 j1 sgcw)) ->
    safe (cd_stencil_2d_poisson_diag i0 j0 i1 j1 sgcw st) m.
Proof. exact @cd_stencil_2d_poisson_diag_safe. Qed.
Print Assumptions C42_cd_stencil_2d_poisson_diag.

Example C42_cd_stencil_2d_poisson_diag_example : safe (S:=ZS) (cd_stencil_2d_poisson_diag (-1) 0 2 2 1 (0%nat, 2)) ex_safe.
Proof. apply C42_cd_stencil_2d_poisson_diag; ex_hyp. Qed.

Theorem C42_cd_stencil_2d_adj_diag : forall (S : Scalar) i0 j0 i1 j1 pi0 pj0 pi1 pj1 dir side btype exOrder dx beta b0 b1 sgcw st (m : mem S),
  side = 0 \/ side = 1 -> i0 <= i1 -> j0 <= j1 ->
  (dir = 0 -> at_side side i0 i1 pi0 /\ seg_within j0 j1 pj0 pj1) ->
  (dir = 1 -> at_side side j0 j1 pj0 /\ seg_within i0 i1 pi0 pi1) -> 1 <= sgcw ->
  room m b0 (fcount (FACE2d0 i0 j0 i1 j1 0)) -> room m b1 (fcount (FACE2d1 i0 j0 i1 j1 0)) ->
  room m st (fcount ((0, 4) :: CELL2d i0 j0 i1 j1 sgcw)) ->
    safe (cd_stencil_2d_adj_diag i0 j0 i1 j1 pi0 pj0 pi1 pj1 dir side btype exOrder dx beta b0 b1 sgcw st) m.
Proof. exact @cd_stencil_2d_adj_diag_safe. Qed.
Print Assumptions C42_cd_stencil_2d_adj_diag.

Example C42_cd_stencil_2d_adj_diag_example : safe (S:=ZS) (cd_stencil_2d_adj_diag (-1) 0 2 2 (-2) 0 (-2) 2 0 0 0 2 ex_dx ex_s (0%nat, 2) (1%nat, 3) 1 (2%nat, 4)) ex_safe.
Proof. apply C42_cd_stencil_2d_adj_diag; ex_hyp. Qed.

Theorem C42_cd_stencil_2d_adj_poisson_diag : forall (S : Scalar) i0 j0 i1 j1 pi0 pj0 pi1 pj1 dir side btype exOrder dx beta sgcw st (m : mem S),
  side = 0 \/ side = 1 -> i0 <= i1 -> j0 <= j1 ->
  (dir = 0 -> at_side side i0 i1 pi0 /\ seg_within j0 j1 pj0 pj1) ->
  (dir = 1 -> at_side side j0 j1 pj0 /\ seg_within i0 i1 pi0 pi1) -> 0 <= sgcw ->
  room m st (fcount ((0, 4) :: CELL2d i0 j0 i1 j1 sgcw)) ->
    safe (cd_stencil_2d_adj_poisson_diag i0 j0 i1 j1 pi0 pj0 pi1 pj1 dir side btype exOrder dx beta sgcw st) m.
Proof. exact @cd_stencil_2d_adj_poisson_diag_safe. Qed.
Print Assumptions C42_cd_stencil_2d_adj_poisson_diag.

Example C42_cd_stencil_2d_adj_poisson_diag_example : safe (S:=ZS) (cd_stencil_2d_adj_poisson_diag (-1) 0 2 2 (-2) 0 (-2) 2 0 0 0 2 ex_dx ex_s 1 (0%nat, 2)) ex_safe.
Proof. apply C42_cd_stencil_2d_adj_poisson_diag; ex_hyp. Qed.

Theorem C42_cd_stencil_2d_adj_cf_diag : forall (S : Scalar) i0 j0 i1 j1 pi0 pj0 pi1 pj1 r dir side intOrder dx beta b0 b1 sgcw st (m : mem S),
  side = 0 \/ side = 1 -> i0 <= i1 -> j0 <= j1 ->
  (dir = 0 -> at_side side i0 i1 pi0 /\ seg_within j0 j1 pj0 pj1) ->
  (dir = 1 -> at_side side j0 j1 pj0 /\ seg_within i0 i1 pi0 pi1) -> 0 <= sgcw ->
  room m b0 (fcount (FACE2d0 i0 j0 i1 j1 0)) -> room m b1 (fcount (FACE2d1 i0 j0 i1 j1 0)) ->
  room m st (fcount ((0, 4) :: CELL2d i0 j0 i1 j1 sgcw)) ->
    safe (cd_stencil_2d_adj_cf_diag i0 j0 i1 j1 pi0 pj0 pi1 pj1 r dir side intOrder dx beta b0 b1 sgcw st) m.
Proof. exact @cd_stencil_2d_adj_cf_diag_safe. Qed.
Print Assumptions C42_cd_stencil_2d_adj_cf_diag.

Example C42_cd_stencil_2d_adj_cf_diag_example : safe (S:=ZS) (cd_stencil_2d_adj_cf_diag (-1) 0 2 2 (-2) 0 (-2) 2 2 0 0 2 ex_dx ex_s (0%nat, 2) (1%nat, 3) 1 (2%nat, 4)) ex_safe.
Proof. apply C42_cd_stencil_2d_adj_cf_diag; ex_hyp. Qed.

Theorem C42_cd_stencil_2d_adj_poisson_cf_diag : forall (S : Scalar) i0 j0 i1 j1 pi0 pj0 pi1 pj1 r dir side intOrder dx beta sgcw st (m : mem S),
  side = 0 \/ side = 1 -> i0 <= i1 -> j0 <= j1 ->
  (dir = 0 -> at_side side i0 i1 pi0 /\ seg_within j0 j1 pj0 pj1) ->
  (dir = 1 -> at_side side j0 j1 pj0 /\ seg_within i0 i1 pi0 pi1) -> 0 <= sgcw ->
  room m st (fcount ((0, 4) :: CELL2d i0 j0 i1 j1 sgcw)) ->
    safe (cd_stencil_2d_adj_poisson_cf_diag i0 j0 i1 j1 pi0 pj0 pi1 pj1 r dir side intOrder dx beta sgcw st) m.
Proof. exact @cd_stencil_2d_adj_poisson_cf_diag_safe. Qed.
Print Assumptions C42_cd_stencil_2d_adj_poisson_cf_diag.

Example C42_cd_stencil_2d_adj_poisson_cf_diag_example : safe (S:=ZS) (cd_stencil_2d_adj_poisson_cf_diag (-1) 0 2 2 (-2) 0 (-2) 2 2 0 0 2 ex_dx ex_s 1 (0%nat, 2)) ex_safe.
Proof. apply C42_cd_stencil_2d_adj_poisson_cf_diag; ex_hyp. Qed.

Theorem C42_cd_stencil_2d_adj_offdiag : forall (S : Scalar) i0 j0 i1 j1 pi0 pj0 pi1 pj1 dir side btype exOrder dx dirf neuf beta b0 b1 sgcw st (m : mem S),
  side = 0 \/ side = 1 -> i0 <= i1 -> j0 <= j1 ->
  (dir = 0 -> at_side side i0 i1 pi0 /\ seg_within j0 j1 pj0 pj1) ->
  (dir = 1 -> at_side side j0 j1 pj0 /\ seg_within i0 i1 pi0 pi1) -> 0 <= sgcw -> apart st [b0; b1] ->
  room m b0 (fcount (FACE2d0 i0 j0 i1 j1 0)) -> room m b1 (fcount (FACE2d1 i0 j0 i1 j1 0)) ->
  room m st (fcount ((0, 4) :: CELL2d i0 j0 i1 j1 sgcw)) ->
    safe (cd_stencil_2d_adj_offdiag i0 j0 i1 j1 pi0 pj0 pi1 pj1 dir side btype exOrder dx dirf neuf beta b0 b1 sgcw st) m.
Proof. exact @cd_stencil_2d_adj_offdiag_safe. Qed.
Print Assumptions C42_cd_stencil_2d_adj_offdiag.

Example C42_cd_stencil_2d_adj_offdiag_example : safe (S:=ZS) (cd_stencil_2d_adj_offdiag (-1) 0 2 2 (-2) 0 (-2) 2 0 0 0 2 ex_dx ex_s ex_s ex_s (0%nat, 2) (1%nat, 3) 1 (2%nat, 4)) ex_safe.
Proof. apply C42_cd_stencil_2d_adj_offdiag; ex_hyp. Qed.

Theorem C42_cd_stencil_2d_adj_poisson_offdiag : forall (S : Scalar) i0 j0 i1 j1 pi0 pj0 pi1 pj1 dir side btype exOrder dx dirf neuf beta sgcw st (m : mem S),
  side = 0 \/ side = 1 -> i0 <= i1 -> j0 <= j1 ->
  (dir = 0 -> at_side side i0 i1 pi0 /\ seg_within j0 j1 pj0 pj1) ->
  (dir = 1 -> at_side side j0 j1 pj0 /\ seg_within i0 i1 pi0 pi1) -> 0 <= sgcw ->
  room m st (fcount ((0, 4) :: CELL2d i0 j0 i1 j1 sgcw)) ->
    safe (cd_stencil_2d_adj_poisson_offdiag i0 j0 i1 j1 pi0 pj0 pi1 pj1 dir side btype exOrder dx dirf neuf beta sgcw st) m.
Proof. exact @cd_stencil_2d_adj_poisson_offdiag_safe. Qed.
Print Assumptions C42_cd_stencil_2d_adj_poisson_offdiag.

Example C42_cd_stencil_2d_adj_poisson_offdiag_example : safe (S:=ZS) (cd_stencil_2d_adj_poisson_offdiag (-1) 0 2 2 (-2) 0 (-2) 2 0 0 0 2 ex_dx ex_s ex_s ex_s 1 (0%nat, 2)) ex_safe.
Proof. apply C42_cd_stencil_2d_adj_poisson_offdiag; ex_hyp. Qed.

Theorem C42_cd_stencil_2d_adj_cf_offdiag : forall (S : Scalar) i0 j0 i1 j1 ci0 cj0 ci1 cj1 r dir side intOrder sgcw st (m : mem S),
  side = 0 \/ side = 1 -> i0 <= i1 -> j0 <= j1 ->
  (dir = 0 -> at_side side i0 i1 ci0 /\ seg_within j0 j1 cj0 cj1) ->
  (dir = 1 -> at_side side j0 j1 cj0 /\ seg_within i0 i1 ci0 ci1) -> 0 <= sgcw ->
  room m st (fcount ((0, 4) :: CELL2d i0 j0 i1 j1 sgcw)) ->
    safe (cd_stencil_2d_adj_cf_offdiag i0 j0 i1 j1 ci0 cj0 ci1 cj1 r dir side intOrder sgcw st) m.
Proof. exact @cd_stencil_2d_adj_cf_offdiag_safe. Qed.
Print Assumptions C42_cd_stencil_2d_adj_cf_offdiag.

Example C42_cd_stencil_2d_adj_cf_offdiag_example : safe (S:=ZS) (cd_stencil_2d_adj_cf_offdiag (-1) 0 2 2 (-2) 0 (-2) 2 2 0 0 2 1 (0%nat, 2)) ex_safe.
Proof. apply C42_cd_stencil_2d_adj_cf_offdiag; ex_hyp. Qed.

Theorem C42_cd_stencil_2d_readj_offdiag : forall (S : Scalar) i0 j0 i1 j1 pi0 pj0 pi1 pj1 dir side sgcw st (m : mem S),
  side = 0 \/ side = 1 -> i0 <= i1 -> j0 <= j1 ->
  (dir = 0 -> at_side side i0 i1 pi0 /\ seg_within j0 j1 pj0 pj1) ->
  (dir = 1 -> at_side side j0 j1 pj0 /\ seg_within i0 i1 pi0 pi1) -> 0 <= sgcw ->
  room m st (fcount ((0, 4) :: CELL2d i0 j0 i1 j1 sgcw)) ->
    safe (cd_stencil_2d_readj_offdiag i0 j0 i1 j1 pi0 pj0 pi1 pj1 dir side sgcw st) m.
Proof. exact @cd_stencil_2d_readj_offdiag_safe. Qed.
Print Assumptions C42_cd_stencil_2d_readj_offdiag.

Example C42_cd_stencil_2d_readj_offdiag_example : safe (S:=ZS) (cd_stencil_2d_readj_offdiag (-1) 0 2 2 (-2) 0 (-2) 2 0 0 1 (0%nat, 2)) ex_safe.
Proof. apply C42_cd_stencil_2d_readj_offdiag; ex_hyp. Qed.

Theorem C42_cd_stencil_2d_adj_cf_bdryrhs : forall (S : Scalar) i0 j0 i1 j1 pi0 pj0 pi1 pj1 dir side sgcw st gcw u rhs (m : mem S),
  side = 0 \/ side = 1 -> i0 <= i1 -> j0 <= j1 ->
  (dir = 0 -> at_side side i0 i1 pi0 /\ seg_within j0 j1 pj0 pj1) ->
  (dir = 1 -> at_side side j0 j1 pj0 /\ seg_within i0 i1 pi0 pi1) -> 0 <= sgcw -> 1 <= gcw ->
  room m st (fcount ((0, 4) :: CELL2d i0 j0 i1 j1 sgcw)) -> room m u (fcount (CELL2d i0 j0 i1 j1 gcw)) ->
  room m rhs (fcount (CELL2d i0 j0 i1 j1 0)) ->
    safe (cd_stencil_2d_adj_cf_bdryrhs i0 j0 i1 j1 pi0 pj0 pi1 pj1 dir side sgcw st gcw u rhs) m.
Proof. exact @cd_stencil_2d_adj_cf_bdryrhs_safe. Qed.
Print Assumptions C42_cd_stencil_2d_adj_cf_bdryrhs.

Example C42_cd_stencil_2d_adj_cf_bdryrhs_example : safe (S:=ZS) (cd_stencil_2d_adj_cf_bdryrhs (-1) 0 2 2 (-2) 0 (-2) 2 0 0 1 (0%nat, 2) 1 (1%nat, 3) (2%nat, 4)) ex_safe.
Proof. apply C42_cd_stencil_2d_adj_cf_bdryrhs; ex_hyp. Qed.

Theorem C42_cd_stencil_3d_offdiag : forall (S : Scalar) i0 j0 k0 i1 j1 k1 bi0 bj0 bk0 bi1 bj1 bk1 dx beta b0 b1 b2 sgcw st (m : mem S),
  i0 <= i1 + 1 -> j0 <= j1 + 1 -> k0 <= k1 + 1 -> 0 <= sgcw -> bi0 <= i0 -> i1 <= bi1 ->
  bj0 <= j0 -> j1 <= bj1 -> bk0 <= k0 -> k1 <= bk1 -> apart st [b0; b1; b2] ->
  room m b0 (fcount (FACE3d0 bi0 bj0 bk0 bi1 bj1 bk1 0)) ->
  room m b1 (fcount (FACE3d1 bi0 bj0 bk0 bi1 bj1 bk1 0)) ->
  room m b2 (fcount (FACE3d2 bi0 bj0 bk0 bi1 bj1 bk1 0)) ->
  room m st (fcount ((0, 6) :: CELL3d i0 j0 k0 i1 j1 k1 sgcw)) ->
    safe (cd_stencil_3d_offdiag i0 j0 k0 i1 j1 k1 bi0 bj0 bk0 bi1 bj1 bk1 dx beta b0 b1 b2 sgcw st) m.
Proof. exact @cd_stencil_3d_offdiag_safe. Qed.
Print Assumptions C42_cd_stencil_3d_offdiag.

Example C42_cd_stencil_3d_offdiag_example : safe (S:=ZS) (cd_stencil_3d_offdiag (-1) 0 1 2 2 2 (-3) 0 0 5 2 4 ex_dx ex_s (0%nat, 2) (1%nat, 3) (2%nat, 4) 1 (3%nat, 5)) ex_safe.
Proof. apply C42_cd_stencil_3d_offdiag; ex_hyp. Qed.

Theorem C42_cd_stencil_3d_poisson_offdiag : forall (S : Scalar) i0 j0 k0 i1 j1 k1 dx beta sgcw st (m : mem S),
  i0 <= i1 + 1 -> j0 <= j1 + 1 -> k0 <= k1 + 1 -> 0 <= sgcw ->
  room m st (fcount ((0, 6) :: CELL3d i0 j0 k0 i1 j1 k1 sgcw)) ->
    safe (cd_stencil_3d_poisson_offdiag i0 j0 k0 i1 j1 k1 dx beta sgcw st) m.
Proof. exact @cd_stencil_3d_poisson_offdiag_safe. Qed.
Print Assumptions C42_cd_stencil_3d_poisson_offdiag.

Example C42_cd_stencil_3d_poisson_offdiag_example : safe (S:=ZS) (cd_stencil_3d_poisson_offdiag (-1) 0 1 2 2 2 ex_dx ex_s 1 (0%nat, 2)) ex_safe.
Proof. apply C42_cd_stencil_3d_poisson_offdiag; ex_hyp. Qed.

Theorem C42_cd_stencil_3d_v1diag : forall (S : Scalar) i0 j0 k0 i1 j1 k1 ai0 aj0 ak0 ai1 aj1 ak1 alpha a sgcw st (m : mem S),
  i0 <= i1 + 1 -> j0 <= j1 + 1 -> k0 <= k1 + 1 -> 0 <= sgcw -> ai0 <= i0 -> i1 <= ai1 ->
  aj0 <= j0 -> j1 <= aj1 -> ak0 <= k0 -> k1 <= ak1 ->
  room m a (fcount (CELL3d ai0 aj0 ak0 ai1 aj1 ak1 0)) ->
  room m st (fcount ((0, 6) :: CELL3d i0 j0 k0 i1 j1 k1 sgcw)) ->
    safe (cd_stencil_3d_v1diag i0 j0 k0 i1 j1 k1 ai0 aj0 ak0 ai1 aj1 ak1 alpha a sgcw st) m.
Proof. exact @cd_stencil_3d_v1diag_safe. Qed.
Print Assumptions C42_cd_stencil_3d_v1diag.

Example C42_cd_stencil_3d_v1diag_example : safe (S:=ZS) (cd_stencil_3d_v1diag (-1) 0 1 2 2 2 (-1) (-1) 1 2 3 2 ex_s (0%nat, 2) 1 (1%nat, 3)) ex_safe.
Proof. apply C42_cd_stencil_3d_v1diag; ex_hyp. Qed.

Theorem C42_cd_stencil_3d_v2diag : forall (S : Scalar) i0 j0 k0 i1 j1 k1 alpha sgcw st (m : mem S),
  i0 <= i1 + 1 -> j0 <= j1 + 1 -> k0 <= k1 + 1 -> 0 <= sgcw ->
  room m st (fcount ((0, 6) :: CELL3d i0 j0 k0 i1 j1 k1 sgcw)) ->
    safe (cd_stencil_3d_v2diag i0 j0 k0 i1 j1 k1 alpha sgcw st) m.
Proof. exact @cd_stencil_3d_v2diag_safe. Qed.
Print Assumptions C42_cd_stencil_3d_v2diag.

Example C42_cd_stencil_3d_v2diag_example : safe (S:=ZS) (cd_stencil_3d_v2diag (-1) 0 1 2 2 2 ex_s 1 (0%nat, 2)) ex_safe.
Proof. apply C42_cd_stencil_3d_v2diag; ex_hyp. Qed.

Theorem C42_cd_stencil_3d_poisson_diag : forall (S : Scalar) i0 j0 k0 i1 j1 k1 sgcw st (m : mem S),
  i0 <= i1 + 1 -> j0 <= j1 + 1 -> k0 <= k1 + 1 -> 0 <= sgcw ->
  room m st (fcount ((0, 6) :: CELL3d i0 j0 k0 i1 j1 k1 sgcw)) ->
    safe (cd_stencil_3d_poisson_diag i0 j0 k0 i1 j1 k1 sgcw st) m.
Proof. exact @cd_stencil_3d_poisson_diag_safe. Qed.
Print Assumptions C42_cd_stencil_3d_poisson_diag.

Example C42_cd_stencil_3d_poisson_diag_example : safe (S:=ZS) (cd_stencil_3d_poisson_diag (-1) 0 1 2 2 2 1 (0%nat, 2)) ex_safe.
Proof. apply C42_cd_stencil_3d_poisson_diag; ex_hyp. Qed.

Theorem C42_cd_stencil_3d_adj_diag : forall (S : Scalar) i0 j0 k0 i1 j1 k1 pi0 pj0 pk0 pi1 pj1 pk1 dir side btype exOrder dx beta b0 b1 b2 sgcw st (m : mem S),
  side = 0 \/ side = 1 -> i0 <= i1 -> j0 <= j1 -> k0 <= k1 ->
  (dir = 0 -> at_side side i0 i1 pi0 /\ seg_within j0 j1 pj0 pj1 /\ seg_within k0 k1 pk0 pk1) ->
  (dir = 1 -> at_side side j0 j1 pj0 /\ seg_within i0 i1 pi0 pi1 /\ seg_within k0 k1 pk0 pk1) ->
  (dir = 2 -> at_side side k0 k1 pk0 /\ seg_within i0 i1 pi0 pi1 /\ seg_within j0 j1 pj0 pj1) ->
  0 <= sgcw -> room m b0 (fcount (FACE3d0 i0 j0 k0 i1 j1 k1 0)) ->
  room m b1 (fcount (FACE3d1 i0 j0 k0 i1 j1 k1 0)) -> room m b2 (fcount (FACE3d2 i0 j0 k0 i1 j1 k1 0)) ->
  room m st (fcount ((0, 6) :: CELL3d i0 j0 k0 i1 j1 k1 sgcw)) ->
    safe (cd_stencil_3d_adj_diag i0 j0 k0 i1 j1 k1 pi0 pj0 pk0 pi1 pj1 pk1 dir side btype exOrder dx beta b0 b1 b2 sgcw st) m.
Proof. exact @cd_stencil_3d_adj_diag_safe. Qed.
Print Assumptions C42_cd_stencil_3d_adj_diag.

Example C42_cd_stencil_3d_adj_diag_example : safe (S:=ZS) (cd_stencil_3d_adj_diag (-1) 0 1 2 2 2 (-2) 0 1 (-2) 2 2 0 0 0 2 ex_dx ex_s (0%nat, 2) (1%nat, 3) (2%nat, 4) 1 (3%nat, 5)) ex_safe.
Proof. apply C42_cd_stencil_3d_adj_diag; ex_hyp. Qed.

Theorem C42_cd_stencil_3d_adj_poisson_diag : forall (S : Scalar) i0 j0 k0 i1 j1 k1 pi0 pj0 pk0 pi1 pj1 pk1 dir side btype exOrder dx beta sgcw st (m : mem S),
  side = 0 \/ side = 1 -> i0 <= i1 -> j0 <= j1 -> k0 <= k1 ->
  (dir = 0 -> at_side side i0 i1 pi0 /\ seg_within j0 j1 pj0 pj1 /\ seg_within k0 k1 pk0 pk1) ->
  (dir = 1 -> at_side side j0 j1 pj0 /\ seg_within i0 i1 pi0 pi1 /\ seg_within k0 k1 pk0 pk1) ->
  (dir = 2 -> at_side side k0 k1 pk0 /\ seg_within i0 i1 pi0 pi1 /\ seg_within j0 j1 pj0 pj1) ->
  0 <= sgcw -> room m st (fcount ((0, 6) :: CELL3d i0 j0 k0 i1 j1 k1 sgcw)) ->
    safe (cd_stencil_3d_adj_poisson_diag i0 j0 k0 i1 j1 k1 pi0 pj0 pk0 pi1 pj1 pk1 dir side btype exOrder dx beta sgcw st) m.
Proof. exact @cd_stencil_3d_adj_poisson_diag_safe. Qed.
Print Assumptions C42_cd_stencil_3d_adj_poisson_diag.

Example C42_cd_stencil_3d_adj_poisson_diag_example : safe (S:=ZS) (cd_stencil_3d_adj_poisson_diag (-1) 0 1 2 2 2 (-2) 0 1 (-2) 2 2 0 0 0 2 ex_dx ex_s 1 (0%nat, 2)) ex_safe.
Proof. apply C42_cd_stencil_3d_adj_poisson_diag; ex_hyp. Qed.

Theorem C42_cd_stencil_3d_adj_cf_diag : forall (S : Scalar) i0 j0 k0 i1 j1 k1 pi0 pj0 pk0 pi1 pj1 pk1 r dir side intOrder dx beta b0 b1 b2 sgcw st (m : mem S),
  side = 0 \/ side = 1 -> i0 <= i1 -> j0 <= j1 -> k0 <= k1 ->
  (dir = 0 -> at_side side i0 i1 pi0 /\ seg_within j0 j1 pj0 pj1 /\ seg_within k0 k1 pk0 pk1) ->
  (dir = 1 -> at_side side j0 j1 pj0 /\ seg_within i0 i1 pi0 pi1 /\ seg_within k0 k1 pk0 pk1) ->
  (dir = 2 -> at_side side k0 k1 pk0 /\ seg_within i0 i1 pi0 pi1 /\ seg_within j0 j1 pj0 pj1) ->
  0 <= sgcw -> room m b0 (fcount (FACE3d0 i0 j0 k0 i1 j1 k1 0)) ->
  room m b1 (fcount (FACE3d1 i0 j0 k0 i1 j1 k1 0)) -> room m b2 (fcount (FACE3d2 i0 j0 k0 i1 j1 k1 0)) ->
  room m st (fcount ((0, 6) :: CELL3d i0 j0 k0 i1 j1 k1 sgcw)) ->
    safe (cd_stencil_3d_adj_cf_diag i0 j0 k0 i1 j1 k1 pi0 pj0 pk0 pi1 pj1 pk1 r dir side intOrder dx beta b0 b1 b2 sgcw st) m.
Proof. exact @cd_stencil_3d_adj_cf_diag_safe. Qed.
Print Assumptions C42_cd_stencil_3d_adj_cf_diag.

Example C42_cd_stencil_3d_adj_cf_diag_example : safe (S:=ZS) (cd_stencil_3d_adj_cf_diag (-1) 0 1 2 2 2 (-2) 0 1 (-2) 2 2 2 0 0 2 ex_dx ex_s (0%nat, 2) (1%nat, 3) (2%nat, 4) 1 (3%nat, 5)) ex_safe.
Proof. apply C42_cd_stencil_3d_adj_cf_diag; ex_hyp. Qed.

Theorem C42_cd_stencil_3d_adj_poisson_cf_diag : forall (S : Scalar) i0 j0 k0 i1 j1 k1 pi0 pj0 pk0 pi1 pj1 pk1 r dir side intOrder dx beta sgcw st (m : mem S),
  side = 0 \/ side = 1 -> i0 <= i1 -> j0 <= j1 -> k0 <= k1 ->
  (dir = 0 -> at_side side i0 i1 pi0 /\ seg_within j0 j1 pj0 pj1 /\ seg_within k0 k1 pk0 pk1) ->
  (dir = 1 -> at_side side j0 j1 pj0 /\ seg_within i0 i1 pi0 pi1 /\ seg_within k0 k1 pk0 pk1) ->
  (dir = 2 -> at_side side k0 k1 pk0 /\ seg_within i0 i1 pi0 pi1 /\ seg_within j0 j1 pj0 pj1) ->
  0 <= sgcw -> room m st (fcount ((0, 6) :: CELL3d i0 j0 k0 i1 j1 k1 sgcw)) ->
    safe (cd_stencil_3d_adj_poisson_cf_diag i0 j0 k0 i1 j1 k1 pi0 pj0 pk0 pi1 pj1 pk1 r dir side intOrder dx beta sgcw st) m.
Proof. exact @cd_stencil_3d_adj_poisson_cf_diag_safe. Qed.
Print Assumptions C42_cd_stencil_3d_adj_poisson_cf_diag.

Example C42_cd_stencil_3d_adj_poisson_cf_diag_example : safe (S:=ZS) (cd_stencil_3d_adj_poisson_cf_diag (-1) 0 1 2 2 2 (-2) 0 1 (-2) 2 2 2 0 0 2 ex_dx ex_s 1 (0%nat, 2)) ex_safe.
Proof. apply C42_cd_stencil_3d_adj_poisson_cf_diag; ex_hyp. Qed.

Theorem C42_cd_stencil_3d_adj_offdiag : forall (S : Scalar) i0 j0 k0 i1 j1 k1 pi0 pj0 pk0 pi1 pj1 pk1 dir side btype exOrder dx dirf neuf beta b0 b1 b2 sgcw st (m : mem S),
  side = 0 \/ side = 1 -> i0 <= i1 -> j0 <= j1 -> k0 <= k1 ->
  (dir = 0 -> at_side side i0 i1 pi0 /\ seg_within j0 j1 pj0 pj1 /\ seg_within k0 k1 pk0 pk1) ->
  (dir = 1 -> at_side side j0 j1 pj0 /\ seg_within i0 i1 pi0 pi1 /\ seg_within k0 k1 pk0 pk1) ->
  (dir = 2 -> at_side side k0 k1 pk0 /\ seg_within i0 i1 pi0 pi1 /\ seg_within j0 j1 pj0 pj1) ->
  0 <= sgcw -> apart st [b0; b1; b2] -> room m b0 (fcount (FACE3d0 i0 j0 k0 i1 j1 k1 0)) ->
  room m b1 (fcount (FACE3d1 i0 j0 k0 i1 j1 k1 0)) -> room m b2 (fcount (FACE3d2 i0 j0 k0 i1 j1 k1 0)) ->
  room m st (fcount ((0, 6) :: CELL3d i0 j0 k0 i1 j1 k1 sgcw)) ->
    safe (cd_stencil_3d_adj_offdiag i0 j0 k0 i1 j1 k1 pi0 pj0 pk0 pi1 pj1 pk1 dir side btype exOrder dx dirf neuf beta b0 b1 b2 sgcw st) m.
Proof. exact @cd_stencil_3d_adj_offdiag_safe. Qed.
Print Assumptions C42_cd_stencil_3d_adj_offdiag.

Example C42_cd_stencil_3d_adj_offdiag_example : safe (S:=ZS) (cd_stencil_3d_adj_offdiag (-1) 0 1 2 2 2 (-2) 0 1 (-2) 2 2 0 0 0 2 ex_dx ex_s ex_s ex_s (0%nat, 2) (1%nat, 3) (2%nat, 4) 1 (3%nat, 5)) ex_safe.
Proof. apply C42_cd_stencil_3d_adj_offdiag; ex_hyp. Qed.

Theorem C42_cd_stencil_3d_adj_poisson_offdiag : forall (S : Scalar) i0 j0 k0 i1 j1 k1 pi0 pj0 pk0 pi1 pj1 pk1 dir side btype exOrder dx dirf neuf beta sgcw st (m : mem S),
  side = 0 \/ side = 1 -> i0 <= i1 -> j0 <= j1 -> k0 <= k1 ->
  (dir = 0 -> at_side side i0 i1 pi0 /\ seg_within j0 j1 pj0 pj1 /\ seg_within k0 k1 pk0 pk1) ->
  (dir = 1 -> at_side side j0 j1 pj0 /\ seg_within i0 i1 pi0 pi1 /\ seg_within k0 k1 pk0 pk1) ->
  (dir = 2 -> at_side side k0 k1 pk0 /\ seg_within i0 i1 pi0 pi1 /\ seg_within j0 j1 pj0 pj1) ->
  0 <= sgcw -> room m st (fcount ((0, 6) :: CELL3d i0 j0 k0 i1 j1 k1 sgcw)) ->
    safe (cd_stencil_3d_adj_poisson_offdiag i0 j0 k0 i1 j1 k1 pi0 pj0 pk0 pi1 pj1 pk1 dir side btype exOrder dx dirf neuf beta sgcw st) m.
Proof. exact @cd_stencil_3d_adj_poisson_offdiag_safe. Qed.
Print Assumptions C42_cd_stencil_3d_adj_poisson_offdiag.

Example C42_cd_stencil_3d_adj_poisson_offdiag_example : safe (S:=ZS) (cd_stencil_3d_adj_poisson_offdiag (-1) 0 1 2 2 2 (-2) 0 1 (-2) 2 2 0 0 0 2 ex_dx ex_s ex_s ex_s 1 (0%nat, 2)) ex_safe.
Proof. apply C42_cd_stencil_3d_adj_poisson_offdiag; ex_hyp. Qed.

Theorem C42_cd_stencil_3d_adj_cf_offdiag : forall (S : Scalar) i0 j0 k0 i1 j1 k1 ci0 cj0 ck0 ci1 cj1 ck1 r dir side intOrder sgcw st (m : mem S),
  side = 0 \/ side = 1 -> i0 <= i1 -> j0 <= j1 -> k0 <= k1 ->
  (dir = 0 -> at_side side i0 i1 ci0 /\ seg_within j0 j1 cj0 cj1 /\ seg_within k0 k1 ck0 ck1) ->
  (dir = 1 -> at_side side j0 j1 cj0 /\ seg_within i0 i1 ci0 ci1 /\ seg_within k0 k1 ck0 ck1) ->
  (dir = 2 -> at_side side k0 k1 ck0 /\ seg_within i0 i1 ci0 ci1 /\ seg_within j0 j1 cj0 cj1) ->
  0 <= sgcw -> room m st (fcount ((0, 6) :: CELL3d i0 j0 k0 i1 j1 k1 sgcw)) ->
    safe (cd_stencil_3d_adj_cf_offdiag i0 j0 k0 i1 j1 k1 ci0 cj0 ck0 ci1 cj1 ck1 r dir side intOrder sgcw st) m.
Proof. exact @cd_stencil_3d_adj_cf_offdiag_safe. Qed.
Print Assumptions C42_cd_stencil_3d_adj_cf_offdiag.

Example C42_cd_stencil_3d_adj_cf_offdiag_example : safe (S:=ZS) (cd_stencil_3d_adj_cf_offdiag (-1) 0 1 2 2 2 (-2) 0 1 (-2) 2 2 2 0 0 2 1 (0%nat, 2)) ex_safe.
Proof. apply C42_cd_stencil_3d_adj_cf_offdiag; ex_hyp. Qed.

Theorem C42_cd_stencil_3d_readj_offdiag : forall (S : Scalar) i0 j0 k0 i1 j1 k1 pi0 pj0 pk0 pi1 pj1 pk1 dir side sgcw st (m : mem S),
  side = 0 \/ side = 1 -> i0 <= i1 -> j0 <= j1 -> k0 <= k1 ->
  (dir = 0 -> at_side side i0 i1 pi0 /\ seg_within j0 j1 pj0 pj1 /\ seg_within k0 k1 pk0 pk1) ->
  (dir = 1 -> at_side side j0 j1 pj0 /\ seg_within i0 i1 pi0 pi1 /\ seg_within k0 k1 pk0 pk1) ->
  (dir = 2 -> at_side side k0 k1 pk0 /\ seg_within i0 i1 pi0 pi1 /\ seg_within j0 j1 pj0 pj1) ->
  0 <= sgcw -> room m st (fcount ((0, 6) :: CELL3d i0 j0 k0 i1 j1 k1 sgcw)) ->
    safe (cd_stencil_3d_readj_offdiag i0 j0 k0 i1 j1 k1 pi0 pj0 pk0 pi1 pj1 pk1 dir side sgcw st) m.
Proof. exact @cd_stencil_3d_readj_offdiag_safe. Qed.
Print Assumptions C42_cd_stencil_3d_readj_offdiag.

Example C42_cd_stencil_3d_readj_offdiag_example : safe (S:=ZS) (cd_stencil_3d_readj_offdiag (-1) 0 1 2 2 2 (-2) 0 1 (-2) 2 2 0 0 1 (0%nat, 2)) ex_safe.
Proof. apply C42_cd_stencil_3d_readj_offdiag; ex_hyp. Qed.

Theorem C42_cd_stencil_3d_adj_cf_bdryrhs : forall (S : Scalar) i0 j0 k0 i1 j1 k1 pi0 pj0 pk0 pi1 pj1 pk1 dir side sgcw st gcw u rhs (m : mem S),
  side = 0 \/ side = 1 -> i0 <= i1 -> j0 <= j1 -> k0 <= k1 ->
  (dir = 0 -> at_side side i0 i1 pi0 /\ seg_within j0 j1 pj0 pj1 /\ seg_within k0 k1 pk0 pk1) ->
  (dir = 1 -> at_side side j0 j1 pj0 /\ seg_within i0 i1 pi0 pi1 /\ seg_within k0 k1 pk0 pk1) ->
  (dir = 2 -> at_side side k0 k1 pk0 /\ seg_within i0 i1 pi0 pi1 /\ seg_within j0 j1 pj0 pj1) ->
  0 <= sgcw -> 1 <= gcw -> room m st (fcount ((0, 6) :: CELL3d i0 j0 k0 i1 j1 k1 sgcw)) ->
  room m u (fcount (CELL3d i0 j0 k0 i1 j1 k1 gcw)) -> room m rhs (fcount (CELL3d i0 j0 k0 i1 j1 k1 0)) ->
    safe (cd_stencil_3d_adj_cf_bdryrhs i0 j0 k0 i1 j1 k1 pi0 pj0 pk0 pi1 pj1 pk1 dir side sgcw st gcw u rhs) m.
Proof. exact @cd_stencil_3d_adj_cf_bdryrhs_safe. Qed.
Print Assumptions C42_cd_stencil_3d_adj_cf_bdryrhs.

Example C42_cd_stencil_3d_adj_cf_bdryrhs_example : safe (S:=ZS) (cd_stencil_3d_adj_cf_bdryrhs (-1) 0 1 2 2 2 (-2) 0 1 (-2) 2 2 0 0 1 (0%nat, 2) 1 (1%nat, 3) (2%nat, 4)) ex_safe.
Proof. apply C42_cd_stencil_3d_adj_cf_bdryrhs; ex_hyp. Qed.

(** ** The conditions matter

    Each kernel below has no result: it leaves the allocation although the arrays have
    the declared size.  A flux without ghost cells; a homogeneous boundary value of order
    4 on a patch one cell wide; the two-dimensional diagonal correction on the high side
    of a stencil array without ghost cells (cell_diffusion_stencil_2d corrects the cell
    beyond the patch there). *)
Definition ex_tight (ns : list nat) : mem ZS := mkMem (map (repeat (1 : ZS)) ns) [].
Example C42_conditions :
  cdf_1d_flux (S:=ZS) 0 3 ex_dx (1%nat, 0) 0 (0%nat, 0) (2%nat, 0) (ex_tight [4%nat; 5%nat; 5%nat]) = None /\
  room (ex_tight [4%nat; 5%nat; 5%nat]) (0%nat, 0) (fcount (CELL1d 0 3 0)) /\
  cd_2d_set_homogenous_bc (S:=ZS) 0 0 3 0 2 (fun d => if d =? 0 then 0 else -1) (fun d => if d =? 0 then 3 else -1)
    4 (0%nat, 0) (ex_tight [18%nat]) = None /\
  room (ex_tight [18%nat]) (0%nat, 0) (fcount (CELL2d 0 0 3 0 1)) /\
  cd_stencil_2d_adj_diag (S:=ZS) 0 0 1 1 0 2 1 2 1 1 0 2 ex_dx ex_s (0%nat, 0) (1%nat, 0) 0 (2%nat, 0)
    (ex_tight [6%nat; 6%nat; 20%nat]) = None /\
  room (ex_tight [6%nat; 6%nat; 20%nat]) (2%nat, 0) (fcount ((0, 4) :: CELL2d 0 0 1 1 0)).
Proof.
  repeat split; try (vm_compute; reflexivity);
    (eexists; split; [reflexivity|]; vm_compute; split; discriminate).
Qed.
