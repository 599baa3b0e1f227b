(** * Properties C36 and C37: fluxes, operators and residuals against Fortran *)

From Coq Require Import QArith Qcanon.
From Verif Require Import Base ModelBounds ModelIters ModelSpan Spec SpecAssign FortranBase SpecKernel
  Instances LemField KernelsFlux FortranFlux LemFlux KernelsApply FortranApply LemApply LemResidual.
Import ListNotations.
Open Scope Z_scope.

(** Ten allocations of [n] cells, cell [k] of allocation [a] holding k*k + 3*a*k + 1. *)
Definition ex_cells (S : Scalar) (n : nat) : mem S :=
  mkMem (map (fun a => map (fun k => lit (Z.of_nat (k * k + 3 * a * k + 1))) (seq 0 n)) (seq 0 10)) [].
Definition ex_dx : Z -> QcS := fun d => lit (2 + d).
Definition ex_val (r : option (mem QcS)) (p : ptr) : option Q := m <- r ;; x <- load m p ;; Some (this x).

(** ** C36: the kernel leaves the memory the Fortran subroutine leaves *)

Theorem C36_flux_1d : forall (S : Scalar), field_laws S -> forall i0 i1 dx b0 gcw u f0 (m : mem S),
  i0 <= i1 + 1 ->
  cdf_1d_flux i0 i1 dx b0 gcw u f0 m = celldiffusionflux1d i0 i1 dx b0 gcw u f0 m.
Proof. exact @cdf_1d_flux_eq. Qed.
Print Assumptions C36_flux_1d.

Theorem C36_flux_2d : forall (S : Scalar), field_laws S ->
  forall i0 j0 i1 j1 dx b0 b1 gcw u f0 f1 (m : mem S), i0 <= i1 + 1 -> j0 <= j1 + 1 ->
  cdf_2d_flux i0 j0 i1 j1 dx b0 b1 gcw u f0 f1 m =
  celldiffusionflux2d i0 j0 i1 j1 dx b0 b1 gcw u f0 f1 m.
Proof. exact @cdf_2d_flux_eq. Qed.
Print Assumptions C36_flux_2d.

Theorem C36_flux_3d : forall (S : Scalar), field_laws S ->
  forall i0 j0 k0 i1 j1 k1 dx b0 b1 b2 gcw u f0 f1 f2 (m : mem S),
  i0 <= i1 + 1 -> j0 <= j1 + 1 -> k0 <= k1 + 1 ->
  cdf_3d_flux i0 j0 k0 i1 j1 k1 dx b0 b1 b2 gcw u f0 f1 f2 m =
  celldiffusionflux3d i0 j0 k0 i1 j1 k1 dx b0 b1 b2 gcw u f0 f1 f2 m.
Proof. exact @cdf_3d_flux_eq. Qed.
Print Assumptions C36_flux_3d.

(** The Poisson fluxes agree for any arithmetic, bit by bit.  The Fortran 2D
    subroutine runs its loops in the other order, so there the fluxes must not
    overwrite [u]. *)
Theorem C36_poisson_flux_1d : forall (S : Scalar) i0 i1 dx gcw u f0 (m : mem S), i0 <= i1 + 1 ->
  cdf_1d_poisson_flux i0 i1 dx gcw u f0 m = cellpoissonflux1d i0 i1 dx gcw u f0 m.
Proof. exact @cdf_1d_poisson_flux_eq. Qed.
Print Assumptions C36_poisson_flux_1d.

Theorem C36_poisson_flux_2d : forall (S : Scalar) i0 j0 i1 j1 dx gcw u f0 f1 (m : mem S),
  i0 <= i1 + 1 -> j0 <= j1 + 1 -> fst f0 <> fst u -> fst f1 <> fst u ->
  cdf_2d_poisson_flux i0 j0 i1 j1 dx gcw u f0 f1 m =
  cellpoissonflux2d i0 j0 i1 j1 dx gcw u f0 f1 m.
Proof. exact @cdf_2d_poisson_flux_eq. Qed.
Print Assumptions C36_poisson_flux_2d.

Theorem C36_poisson_flux_3d : forall (S : Scalar) i0 j0 k0 i1 j1 k1 dx gcw u f0 f1 f2 (m : mem S),
  i0 <= i1 + 1 -> j0 <= j1 + 1 -> k0 <= k1 + 1 ->
  cdf_3d_poisson_flux i0 j0 k0 i1 j1 k1 dx gcw u f0 f1 f2 m =
  cellpoissonflux3d i0 j0 k0 i1 j1 k1 dx gcw u f0 f1 f2 m.
Proof. exact @cdf_3d_poisson_flux_eq. Qed.
Print Assumptions C36_poisson_flux_3d.

(** The rationals, a 3 x 2 x 2 patch starting at a negative index and two ghost
    layers: the kernels complete and compute non-trivial values. *)
Example C36_example :
  field_laws QcS /\
  ex_val (cdf_1d_flux (-1) 1 ex_dx (0%nat, 0) 2 (1%nat, 0) (2%nat, 0) (ex_cells QcS 12)) (2%nat, 1) = Some 8%Q /\
  ex_val (cdf_2d_flux (-1) 0 1 1 ex_dx (0%nat, 0) (1%nat, 0) 2 (2%nat, 0) (3%nat, 0) (4%nat, 0) (ex_cells QcS 60))
    (3%nat, 1) = Some 39%Q /\
  ex_val (cdf_3d_flux (-1) 0 2 1 1 3 ex_dx (0%nat, 0) (1%nat, 0) (2%nat, 0) 2 (3%nat, 0) (4%nat, 0) (5%nat, 0) (6%nat, 0)
    (ex_cells QcS 300)) (6%nat, 1) = Some 21084%Q /\
  ex_val (cdf_2d_poisson_flux (-1) 0 1 1 ex_dx 2 (2%nat, 0) (3%nat, 0) (4%nat, 0) (ex_cells QcS 60))
    (4%nat, 1) = Some 105%Q.
Proof. split; [exact QcS_laws|]. vm_compute. repeat split; reflexivity. Qed.

(** ** C37: operators and residuals *)

Theorem C37_1d_diffusion_v1_res : forall (S : Scalar), field_laws S ->
  forall i0 i1 alpha beta dx agcw a ugcw u fgcw f f0 rgcw res (m : mem S),
  i0 <= i1 + 1 ->
  cd_apply_1d_diffusion_v1_res i0 i1 alpha beta dx agcw a ugcw u fgcw f f0 rgcw res m =
  celldiffusionv1res1d i0 i1 alpha beta dx agcw a ugcw u fgcw f f0 rgcw res m.
Proof. exact @cd_apply_1d_diffusion_v1_res_eq. Qed.
Print Assumptions C37_1d_diffusion_v1_res.

Theorem C37_1d_diffusion_v2_res : forall (S : Scalar), field_laws S ->
  forall i0 i1 alpha beta dx ugcw u fgcw f f0 rgcw res (m : mem S),
  i0 <= i1 + 1 ->
  cd_apply_1d_diffusion_v2_res i0 i1 alpha beta dx ugcw u fgcw f f0 rgcw res m =
  celldiffusionv2res1d i0 i1 alpha beta dx ugcw u fgcw f f0 rgcw res m.
Proof. exact @cd_apply_1d_diffusion_v2_res_eq. Qed.
Print Assumptions C37_1d_diffusion_v2_res.

Theorem C37_1d_poisson_v1_res : forall (S : Scalar), field_laws S ->
  forall i0 i1 beta dx fgcw f f0 rgcw res (m : mem S),
  i0 <= i1 + 1 ->
  cd_apply_1d_poisson_v1_res i0 i1 beta dx fgcw f f0 rgcw res m =
  cellpoissonv1res1d i0 i1 beta dx fgcw f f0 rgcw res m.
Proof. exact @cd_apply_1d_poisson_v1_res_eq. Qed.
Print Assumptions C37_1d_poisson_v1_res.

Theorem C37_1d_diffusion_v1_apply : forall (S : Scalar), field_laws S ->
  forall i0 i1 alpha beta dx agcw a ugcw u f0 rgcw res (m : mem S),
  i0 <= i1 + 1 ->
  cd_apply_1d_diffusion_v1_apply i0 i1 alpha beta dx agcw a ugcw u f0 rgcw res m =
  celldiffusionv1apply1d i0 i1 alpha beta dx agcw a ugcw u f0 rgcw res m.
Proof. exact @cd_apply_1d_diffusion_v1_apply_eq. Qed.
Print Assumptions C37_1d_diffusion_v1_apply.

Theorem C37_1d_diffusion_v2_apply : forall (S : Scalar), field_laws S ->
  forall i0 i1 alpha beta dx ugcw u f0 rgcw res (m : mem S),
  i0 <= i1 + 1 ->
  cd_apply_1d_diffusion_v2_apply i0 i1 alpha beta dx ugcw u f0 rgcw res m =
  celldiffusionv2apply1d i0 i1 alpha beta dx ugcw u f0 rgcw res m.
Proof. exact @cd_apply_1d_diffusion_v2_apply_eq. Qed.
Print Assumptions C37_1d_diffusion_v2_apply.

Theorem C37_1d_poisson_v2_apply : forall (S : Scalar), field_laws S ->
  forall i0 i1 beta dx f0 rgcw res (m : mem S),
  i0 <= i1 + 1 ->
  cd_apply_1d_poisson_v2_apply i0 i1 beta dx f0 rgcw res m =
  cellpoissonv2apply1d i0 i1 beta dx f0 rgcw res m.
Proof. exact @cd_apply_1d_poisson_v2_apply_eq. Qed.
Print Assumptions C37_1d_poisson_v2_apply.

Theorem C37_2d_diffusion_v1_res : forall (S : Scalar), field_laws S ->
  forall i0 i1 j0 j1 alpha beta dx agcw a ugcw u fgcw f f0 f1 rgcw res (m : mem S),
  i0 <= i1 + 1 -> j0 <= j1 + 1 ->
  cd_apply_2d_diffusion_v1_res i0 i1 j0 j1 alpha beta dx agcw a ugcw u fgcw f f0 f1 rgcw res m =
  celldiffusionv1res2d i0 i1 j0 j1 alpha beta dx agcw a ugcw u fgcw f f0 f1 rgcw res m.
Proof. exact @cd_apply_2d_diffusion_v1_res_eq. Qed.
Print Assumptions C37_2d_diffusion_v1_res.

Theorem C37_2d_diffusion_v2_res : forall (S : Scalar), field_laws S ->
  forall i0 i1 j0 j1 alpha beta dx ugcw u fgcw f f0 f1 rgcw res (m : mem S),
  i0 <= i1 + 1 -> j0 <= j1 + 1 ->
  cd_apply_2d_diffusion_v2_res i0 i1 j0 j1 alpha beta dx ugcw u fgcw f f0 f1 rgcw res m =
  celldiffusionv2res2d i0 i1 j0 j1 alpha beta dx ugcw u fgcw f f0 f1 rgcw res m.
Proof. exact @cd_apply_2d_diffusion_v2_res_eq. Qed.
Print Assumptions C37_2d_diffusion_v2_res.

Theorem C37_2d_poisson_v1_res : forall (S : Scalar), field_laws S ->
  forall i0 i1 j0 j1 beta dx fgcw f f0 f1 rgcw res (m : mem S),
  i0 <= i1 + 1 -> j0 <= j1 + 1 ->
  cd_apply_2d_poisson_v1_res i0 i1 j0 j1 beta dx fgcw f f0 f1 rgcw res m =
  cellpoissonv1res2d i0 i1 j0 j1 beta dx fgcw f f0 f1 rgcw res m.
Proof. exact @cd_apply_2d_poisson_v1_res_eq. Qed.
Print Assumptions C37_2d_poisson_v1_res.

Theorem C37_2d_diffusion_v1_apply : forall (S : Scalar), field_laws S ->
  forall i0 i1 j0 j1 alpha beta dx agcw a ugcw u f0 f1 rgcw res (m : mem S),
  i0 <= i1 + 1 -> j0 <= j1 + 1 ->
  cd_apply_2d_diffusion_v1_apply i0 i1 j0 j1 alpha beta dx agcw a ugcw u f0 f1 rgcw res m =
  celldiffusionv1apply2d i0 i1 j0 j1 alpha beta dx agcw a ugcw u f0 f1 rgcw res m.
Proof. exact @cd_apply_2d_diffusion_v1_apply_eq. Qed.
Print Assumptions C37_2d_diffusion_v1_apply.

Theorem C37_2d_diffusion_v2_apply : forall (S : Scalar), field_laws S ->
  forall i0 i1 j0 j1 alpha beta dx ugcw u f0 f1 rgcw res (m : mem S),
  i0 <= i1 + 1 -> j0 <= j1 + 1 ->
  cd_apply_2d_diffusion_v2_apply i0 i1 j0 j1 alpha beta dx ugcw u f0 f1 rgcw res m =
  celldiffusionv2apply2d i0 i1 j0 j1 alpha beta dx ugcw u f0 f1 rgcw res m.
Proof. exact @cd_apply_2d_diffusion_v2_apply_eq. Qed.
Print Assumptions C37_2d_diffusion_v2_apply.

Theorem C37_2d_poisson_v2_apply : forall (S : Scalar), field_laws S ->
  forall i0 i1 j0 j1 beta dx f0 f1 rgcw res (m : mem S),
  i0 <= i1 + 1 -> j0 <= j1 + 1 ->
  cd_apply_2d_poisson_v2_apply i0 i1 j0 j1 beta dx f0 f1 rgcw res m =
  cellpoissonv2apply2d i0 i1 j0 j1 beta dx f0 f1 rgcw res m.
Proof. exact @cd_apply_2d_poisson_v2_apply_eq. Qed.
Print Assumptions C37_2d_poisson_v2_apply.

Theorem C37_3d_diffusion_v1_res : forall (S : Scalar), field_laws S ->
  forall i0 i1 j0 j1 k0 k1 alpha beta dx agcw a ugcw u fgcw f f0 f1 f2 rgcw res (m : mem S),
  i0 <= i1 + 1 -> j0 <= j1 + 1 -> k0 <= k1 + 1 ->
  cd_apply_3d_diffusion_v1_res i0 i1 j0 j1 k0 k1 alpha beta dx agcw a ugcw u fgcw f f0 f1 f2 rgcw res m =
  celldiffusionv1res3d i0 i1 j0 j1 k0 k1 alpha beta dx agcw a ugcw u fgcw f f0 f1 f2 rgcw res m.
Proof. exact @cd_apply_3d_diffusion_v1_res_eq. Qed.
Print Assumptions C37_3d_diffusion_v1_res.

Theorem C37_3d_diffusion_v2_res : forall (S : Scalar), field_laws S ->
  forall i0 i1 j0 j1 k0 k1 alpha beta dx ugcw u fgcw f f0 f1 f2 rgcw res (m : mem S),
  i0 <= i1 + 1 -> j0 <= j1 + 1 -> k0 <= k1 + 1 ->
  cd_apply_3d_diffusion_v2_res i0 i1 j0 j1 k0 k1 alpha beta dx ugcw u fgcw f f0 f1 f2 rgcw res m =
  celldiffusionv2res3d i0 i1 j0 j1 k0 k1 alpha beta dx ugcw u fgcw f f0 f1 f2 rgcw res m.
Proof. exact @cd_apply_3d_diffusion_v2_res_eq. Qed.
Print Assumptions C37_3d_diffusion_v2_res.

Theorem C37_3d_poisson_v1_res : forall (S : Scalar), field_laws S ->
  forall i0 i1 j0 j1 k0 k1 beta dx fgcw f f0 f1 f2 rgcw res (m : mem S),
  i0 <= i1 + 1 -> j0 <= j1 + 1 -> k0 <= k1 + 1 ->
  cd_apply_3d_poisson_v1_res i0 i1 j0 j1 k0 k1 beta dx fgcw f f0 f1 f2 rgcw res m =
  cellpoissonv1res3d i0 i1 j0 j1 k0 k1 beta dx fgcw f f0 f1 f2 rgcw res m.
Proof. exact @cd_apply_3d_poisson_v1_res_eq. Qed.
Print Assumptions C37_3d_poisson_v1_res.

Theorem C37_3d_diffusion_v1_apply : forall (S : Scalar), field_laws S ->
  forall i0 i1 j0 j1 k0 k1 alpha beta dx agcw a ugcw u f0 f1 f2 rgcw res (m : mem S),
  i0 <= i1 + 1 -> j0 <= j1 + 1 -> k0 <= k1 + 1 ->
  cd_apply_3d_diffusion_v1_apply i0 i1 j0 j1 k0 k1 alpha beta dx agcw a ugcw u f0 f1 f2 rgcw res m =
  celldiffusionv1apply3d i0 i1 j0 j1 k0 k1 alpha beta dx agcw a ugcw u f0 f1 f2 rgcw res m.
Proof. exact @cd_apply_3d_diffusion_v1_apply_eq. Qed.
Print Assumptions C37_3d_diffusion_v1_apply.

Theorem C37_3d_diffusion_v2_apply : forall (S : Scalar), field_laws S ->
  forall i0 i1 j0 j1 k0 k1 alpha beta dx ugcw u f0 f1 f2 rgcw res (m : mem S),
  i0 <= i1 + 1 -> j0 <= j1 + 1 -> k0 <= k1 + 1 ->
  cd_apply_3d_diffusion_v2_apply i0 i1 j0 j1 k0 k1 alpha beta dx ugcw u f0 f1 f2 rgcw res m =
  celldiffusionv2apply3d i0 i1 j0 j1 k0 k1 alpha beta dx ugcw u f0 f1 f2 rgcw res m.
Proof. exact @cd_apply_3d_diffusion_v2_apply_eq. Qed.
Print Assumptions C37_3d_diffusion_v2_apply.

Theorem C37_3d_poisson_v2_apply : forall (S : Scalar), field_laws S ->
  forall i0 i1 j0 j1 k0 k1 beta dx f0 f1 f2 rgcw res (m : mem S),
  i0 <= i1 + 1 -> j0 <= j1 + 1 -> k0 <= k1 + 1 ->
  cd_apply_3d_poisson_v2_apply i0 i1 j0 j1 k0 k1 beta dx f0 f1 f2 rgcw res m =
  cellpoissonv2apply3d i0 i1 j0 j1 k0 k1 beta dx f0 f1 f2 rgcw res m.
Proof. exact @cd_apply_3d_poisson_v2_apply_eq. Qed.
Print Assumptions C37_3d_poisson_v2_apply.

(** Each residual is f minus the operator: run both kernels on the same memory and
    compare what they leave in every cell of [res]. *)

Theorem C37_residual_1d_diffusion_v1_res : forall (S : Scalar), field_laws S ->
  forall i0 i1 alpha beta dx agcw a ugcw u fgcw f f0 rgcw res (m mA mR : mem S),
  i0 <= i1 + 1 -> 0 <= rgcw -> apart res [a; u; f; f0] ->
  cd_apply_1d_diffusion_v1_apply i0 i1 alpha beta dx agcw a ugcw u f0 rgcw res m = Some mA ->
  cd_apply_1d_diffusion_v1_res i0 i1 alpha beta dx agcw a ugcw u fgcw f f0 rgcw res m = Some mR ->
  forall i, i0 <= i <= i1 ->
    exists x a r, (mkFa f (CELL1d i0 i1 fgcw))!(i)%F m = Some x /\ (mkFa res (CELL1d i0 i1 rgcw))!(i)%F mA = Some a /\
      (mkFa res (CELL1d i0 i1 rgcw))!(i)%F mR = Some r /\ r = (x - a)%T.
Proof. exact @residual_1d_diffusion_v1_res. Qed.
Print Assumptions C37_residual_1d_diffusion_v1_res.

Theorem C37_residual_1d_diffusion_v2_res : forall (S : Scalar), field_laws S ->
  forall i0 i1 alpha beta dx ugcw u fgcw f f0 rgcw res (m mA mR : mem S),
  i0 <= i1 + 1 -> 0 <= rgcw -> apart res [u; f; f0] ->
  cd_apply_1d_diffusion_v2_apply i0 i1 alpha beta dx ugcw u f0 rgcw res m = Some mA ->
  cd_apply_1d_diffusion_v2_res i0 i1 alpha beta dx ugcw u fgcw f f0 rgcw res m = Some mR ->
  forall i, i0 <= i <= i1 ->
    exists x a r, (mkFa f (CELL1d i0 i1 fgcw))!(i)%F m = Some x /\ (mkFa res (CELL1d i0 i1 rgcw))!(i)%F mA = Some a /\
      (mkFa res (CELL1d i0 i1 rgcw))!(i)%F mR = Some r /\ r = (x - a)%T.
Proof. exact @residual_1d_diffusion_v2_res. Qed.
Print Assumptions C37_residual_1d_diffusion_v2_res.

Theorem C37_residual_1d_poisson_v1_res : forall (S : Scalar), field_laws S ->
  forall i0 i1 beta dx fgcw f f0 rgcw res (m mA mR : mem S),
  i0 <= i1 + 1 -> 0 <= rgcw -> apart res [f; f0] ->
  cd_apply_1d_poisson_v2_apply i0 i1 beta dx f0 rgcw res m = Some mA ->
  cd_apply_1d_poisson_v1_res i0 i1 beta dx fgcw f f0 rgcw res m = Some mR ->
  forall i, i0 <= i <= i1 ->
    exists x a r, (mkFa f (CELL1d i0 i1 fgcw))!(i)%F m = Some x /\ (mkFa res (CELL1d i0 i1 rgcw))!(i)%F mA = Some a /\
      (mkFa res (CELL1d i0 i1 rgcw))!(i)%F mR = Some r /\ r = (x - a)%T.
Proof. exact @residual_1d_poisson_v1_res. Qed.
Print Assumptions C37_residual_1d_poisson_v1_res.

Theorem C37_residual_2d_diffusion_v1_res : forall (S : Scalar), field_laws S ->
  forall i0 i1 j0 j1 alpha beta dx agcw a ugcw u fgcw f f0 f1 rgcw res (m mA mR : mem S),
  i0 <= i1 + 1 -> j0 <= j1 + 1 -> 0 <= rgcw -> apart res [a; u; f; f0; f1] ->
  cd_apply_2d_diffusion_v1_apply i0 i1 j0 j1 alpha beta dx agcw a ugcw u f0 f1 rgcw res m = Some mA ->
  cd_apply_2d_diffusion_v1_res i0 i1 j0 j1 alpha beta dx agcw a ugcw u fgcw f f0 f1 rgcw res m = Some mR ->
  forall i j, i0 <= i <= i1 -> j0 <= j <= j1 ->
    exists x a r, (mkFa f (CELL2d i0 j0 i1 j1 fgcw))!(i, j)%F m = Some x /\ (mkFa res (CELL2d i0 j0 i1 j1 rgcw))!(i, j)%F mA = Some a /\
      (mkFa res (CELL2d i0 j0 i1 j1 rgcw))!(i, j)%F mR = Some r /\ r = (x - a)%T.
Proof. exact @residual_2d_diffusion_v1_res. Qed.
Print Assumptions C37_residual_2d_diffusion_v1_res.

Theorem C37_residual_2d_diffusion_v2_res : forall (S : Scalar), field_laws S ->
  forall i0 i1 j0 j1 alpha beta dx ugcw u fgcw f f0 f1 rgcw res (m mA mR : mem S),
  i0 <= i1 + 1 -> j0 <= j1 + 1 -> 0 <= rgcw -> apart res [u; f; f0; f1] ->
  cd_apply_2d_diffusion_v2_apply i0 i1 j0 j1 alpha beta dx ugcw u f0 f1 rgcw res m = Some mA ->
  cd_apply_2d_diffusion_v2_res i0 i1 j0 j1 alpha beta dx ugcw u fgcw f f0 f1 rgcw res m = Some mR ->
  forall i j, i0 <= i <= i1 -> j0 <= j <= j1 ->
    exists x a r, (mkFa f (CELL2d i0 j0 i1 j1 fgcw))!(i, j)%F m = Some x /\ (mkFa res (CELL2d i0 j0 i1 j1 rgcw))!(i, j)%F mA = Some a /\
      (mkFa res (CELL2d i0 j0 i1 j1 rgcw))!(i, j)%F mR = Some r /\ r = (x - a)%T.
Proof. exact @residual_2d_diffusion_v2_res. Qed.
Print Assumptions C37_residual_2d_diffusion_v2_res.

Theorem C37_residual_2d_poisson_v1_res : forall (S : Scalar), field_laws S ->
  forall i0 i1 j0 j1 beta dx fgcw f f0 f1 rgcw res (m mA mR : mem S),
  i0 <= i1 + 1 -> j0 <= j1 + 1 -> 0 <= rgcw -> apart res [f; f0; f1] ->
  cd_apply_2d_poisson_v2_apply i0 i1 j0 j1 beta dx f0 f1 rgcw res m = Some mA ->
  cd_apply_2d_poisson_v1_res i0 i1 j0 j1 beta dx fgcw f f0 f1 rgcw res m = Some mR ->
  forall i j, i0 <= i <= i1 -> j0 <= j <= j1 ->
    exists x a r, (mkFa f (CELL2d i0 j0 i1 j1 fgcw))!(i, j)%F m = Some x /\ (mkFa res (CELL2d i0 j0 i1 j1 rgcw))!(i, j)%F mA = Some a /\
      (mkFa res (CELL2d i0 j0 i1 j1 rgcw))!(i, j)%F mR = Some r /\ r = (x - a)%T.
Proof. exact @residual_2d_poisson_v1_res. Qed.
Print Assumptions C37_residual_2d_poisson_v1_res.

Theorem C37_residual_3d_diffusion_v1_res : forall (S : Scalar), field_laws S ->
  forall i0 i1 j0 j1 k0 k1 alpha beta dx agcw a ugcw u fgcw f f0 f1 f2 rgcw res (m mA mR : mem S),
  i0 <= i1 + 1 -> j0 <= j1 + 1 -> k0 <= k1 + 1 -> 0 <= rgcw -> apart res [a; u; f; f0; f1; f2] ->
  cd_apply_3d_diffusion_v1_apply i0 i1 j0 j1 k0 k1 alpha beta dx agcw a ugcw u f0 f1 f2 rgcw res m = Some mA ->
  cd_apply_3d_diffusion_v1_res i0 i1 j0 j1 k0 k1 alpha beta dx agcw a ugcw u fgcw f f0 f1 f2 rgcw res m = Some mR ->
  forall i j k, i0 <= i <= i1 -> j0 <= j <= j1 -> k0 <= k <= k1 ->
    exists x a r, (mkFa f (CELL3d i0 j0 k0 i1 j1 k1 fgcw))!(i, j, k)%F m = Some x /\ (mkFa res (CELL3d i0 j0 k0 i1 j1 k1 rgcw))!(i, j, k)%F mA = Some a /\
      (mkFa res (CELL3d i0 j0 k0 i1 j1 k1 rgcw))!(i, j, k)%F mR = Some r /\ r = (x - a)%T.
Proof. exact @residual_3d_diffusion_v1_res. Qed.
Print Assumptions C37_residual_3d_diffusion_v1_res.

Theorem C37_residual_3d_diffusion_v2_res : forall (S : Scalar), field_laws S ->
  forall i0 i1 j0 j1 k0 k1 alpha beta dx ugcw u fgcw f f0 f1 f2 rgcw res (m mA mR : mem S),
  i0 <= i1 + 1 -> j0 <= j1 + 1 -> k0 <= k1 + 1 -> 0 <= rgcw -> apart res [u; f; f0; f1; f2] ->
  cd_apply_3d_diffusion_v2_apply i0 i1 j0 j1 k0 k1 alpha beta dx ugcw u f0 f1 f2 rgcw res m = Some mA ->
  cd_apply_3d_diffusion_v2_res i0 i1 j0 j1 k0 k1 alpha beta dx ugcw u fgcw f f0 f1 f2 rgcw res m = Some mR ->
  forall i j k, i0 <= i <= i1 -> j0 <= j <= j1 -> k0 <= k <= k1 ->
    exists x a r, (mkFa f (CELL3d i0 j0 k0 i1 j1 k1 fgcw))!(i, j, k)%F m = Some x /\ (mkFa res (CELL3d i0 j0 k0 i1 j1 k1 rgcw))!(i, j, k)%F mA = Some a /\
      (mkFa res (CELL3d i0 j0 k0 i1 j1 k1 rgcw))!(i, j, k)%F mR = Some r /\ r = (x - a)%T.
Proof. exact @residual_3d_diffusion_v2_res. Qed.
Print Assumptions C37_residual_3d_diffusion_v2_res.

Theorem C37_residual_3d_poisson_v1_res : forall (S : Scalar), field_laws S ->
  forall i0 i1 j0 j1 k0 k1 beta dx fgcw f f0 f1 f2 rgcw res (m mA mR : mem S),
  i0 <= i1 + 1 -> j0 <= j1 + 1 -> k0 <= k1 + 1 -> 0 <= rgcw -> apart res [f; f0; f1; f2] ->
  cd_apply_3d_poisson_v2_apply i0 i1 j0 j1 k0 k1 beta dx f0 f1 f2 rgcw res m = Some mA ->
  cd_apply_3d_poisson_v1_res i0 i1 j0 j1 k0 k1 beta dx fgcw f f0 f1 f2 rgcw res m = Some mR ->
  forall i j k, i0 <= i <= i1 -> j0 <= j <= j1 -> k0 <= k <= k1 ->
    exists x a r, (mkFa f (CELL3d i0 j0 k0 i1 j1 k1 fgcw))!(i, j, k)%F m = Some x /\ (mkFa res (CELL3d i0 j0 k0 i1 j1 k1 rgcw))!(i, j, k)%F mA = Some a /\
      (mkFa res (CELL3d i0 j0 k0 i1 j1 k1 rgcw))!(i, j, k)%F mR = Some r /\ r = (x - a)%T.
Proof. exact @residual_3d_poisson_v1_res. Qed.
Print Assumptions C37_residual_3d_poisson_v1_res.

Example C37_example :
  field_laws QcS /\ apart (6%nat, 0) [(0%nat, 0); (1%nat, 0); (2%nat, 0); (3%nat, 0); (4%nat, 0); (5%nat, 0)] /\
  ex_val (cd_apply_3d_diffusion_v1_apply (-1) 1 0 1 2 3 (ex_dx 3) (ex_dx 1) ex_dx 1 (0%nat, 0) 2 (1%nat, 0)
    (3%nat, 0) (4%nat, 0) (5%nat, 0) 1 (6%nat, 0) (ex_cells QcS 300)) (6%nat, 26) = Some 34868845%Q /\
  ex_val (cd_apply_3d_diffusion_v1_res (-1) 1 0 1 2 3 (ex_dx 3) (ex_dx 1) ex_dx 1 (0%nat, 0) 2 (1%nat, 0) 1 (2%nat, 0)
    (3%nat, 0) (4%nat, 0) (5%nat, 0) 1 (6%nat, 0) (ex_cells QcS 300)) (6%nat, 26) = Some (-34868012)%Q /\
  ex_val (Some (ex_cells QcS 300)) (2%nat, 26) = Some 833%Q.
Proof.
  split; [exact QcS_laws|]. split; [repeat constructor; discriminate|]. vm_compute. repeat split; reflexivity.
Qed.
