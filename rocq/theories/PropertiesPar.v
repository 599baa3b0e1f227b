(** * Property C51: kernels give the same result however their threads are scheduled

    [parallel O] executes every launch of a kernel with one thread per element,
    the threads making their memory accesses in the order the schedule chosen by
    [O] gives; [O] is arbitrary.  Provided the array a kernel writes shares no
    allocation with the arrays it reads, and the segments it is given are those of
    the patch, the kernel leaves the memory the sequential kernel leaves, and
    fails exactly when that one fails. *)

From Verif Require Import Base ModelBounds ModelIters ModelSpan ModelSched ModelPar FortranBase SpecKernel SpecSafe Instances
  KernelsFlux KernelsApply KernelsCopy KernelsBC KernelsStencil KernelsBy
  LemPar LemParFlux LemParCopy LemParBC LemParBC3 LemParBC3p LemParStencil LemParStencil3.
Import ListNotations.
Open Scope Z_scope.

(** What [parallel] quantifies over: a complete schedule of a launch is the
    result of the launch for the [O] that chooses it. *)
Theorem C51_schedules : forall (S : Scalar) (ts ts' : list (@tprog S)) (m m' : mem S) sch,
  run_schedule sch (ts, m) = Some (ts', m') -> all_done ts' ->
  par_launch (fun _ => sch) (Some ts) m = Some m'.
Proof. exact @par_launch_schedule. Qed.
Print Assumptions C51_schedules.

(** Example data: ten allocations of 1000 cells; the arrays start a few cells in. *)
Definition ex_par : mem ZS := mkMem (repeat (repeat (1 : ZS) 1000) 10) [].
Definition ex_s : ZS := 3.
Definition ex_dx : Z -> ZS := fun _ => 1.
Definition ex_lo : Z -> Z := fun d => if d =? 0 then -2 else 1.
Definition ex_hi : Z -> Z := fun d => if d =? 0 then -2 else 2.
Definition ex_corner : Z -> Z := fun d => if d =? 0 then -2 else -1.

Ltac ex_hyp :=
  intros; unfold at_side, seg_within, seg_meets, ex_lo, ex_hi, ex_corner; cbn [Z.eqb Pos.eqb];
  lazymatch goal with
  | |- apart _ _ => repeat constructor; discriminate
  | |- _ => repeat split; lia
  end.

(** ** Fluxes and operators *)

Theorem C51_cdf_1d_flux : forall (S : Scalar) O i0 i1 dx b0 gcw u f0 (m : mem S),
  i0 <= i1 + 1 -> 1 <= gcw -> apart f0 [u; b0] ->
    cdf_1d_flux_by (parallel O) i0 i1 dx b0 gcw u f0 m =
    cdf_1d_flux i0 i1 dx b0 gcw u f0 m.
Proof. exact @cdf_1d_flux_par. Qed.
Print Assumptions C51_cdf_1d_flux.

Example C51_cdf_1d_flux_example : forall O : @pool ZS -> list nat,
  cdf_1d_flux_by (S:=ZS) (parallel O) (-1) 2 ex_dx (0%nat, 2) 1 (1%nat, 3) (2%nat, 4) ex_par =
  cdf_1d_flux (-1) 2 ex_dx (0%nat, 2) 1 (1%nat, 3) (2%nat, 4) ex_par.
Proof. intros O. apply C51_cdf_1d_flux; ex_hyp. Qed.

Theorem C51_cdf_2d_flux : forall (S : Scalar) O i0 j0 i1 j1 dx b0 b1 gcw u f0 f1 (m : mem S),
  i0 <= i1 + 1 -> j0 <= j1 + 1 -> 1 <= gcw -> apart f0 [u; b0] -> apart f1 [u; b1] ->
    cdf_2d_flux_by (parallel O) i0 j0 i1 j1 dx b0 b1 gcw u f0 f1 m =
    cdf_2d_flux i0 j0 i1 j1 dx b0 b1 gcw u f0 f1 m.
Proof. exact @cdf_2d_flux_par. Qed.
Print Assumptions C51_cdf_2d_flux.

Example C51_cdf_2d_flux_example : forall O : @pool ZS -> list nat,
  cdf_2d_flux_by (S:=ZS) (parallel O) (-1) 0 2 2 ex_dx (0%nat, 2) (1%nat, 3) 1 (2%nat, 4) (3%nat, 5) (4%nat, 6)
  ex_par =
  cdf_2d_flux (-1) 0 2 2 ex_dx (0%nat, 2) (1%nat, 3) 1 (2%nat, 4) (3%nat, 5) (4%nat, 6) ex_par.
Proof. intros O. apply C51_cdf_2d_flux; ex_hyp. Qed.

Theorem C51_cdf_3d_flux : forall (S : Scalar) O i0 j0 k0 i1 j1 k1 dx b0 b1 b2 gcw u f0 f1 f2 (m : mem S),
  i0 <= i1 + 1 -> j0 <= j1 + 1 -> k0 <= k1 + 1 -> 1 <= gcw -> apart f0 [u; b0] -> apart f1 [u; b1] ->
  apart f2 [u; b2] ->
    cdf_3d_flux_by (parallel O) i0 j0 k0 i1 j1 k1 dx b0 b1 b2 gcw u f0 f1 f2 m =
    cdf_3d_flux i0 j0 k0 i1 j1 k1 dx b0 b1 b2 gcw u f0 f1 f2 m.
Proof. exact @cdf_3d_flux_par. Qed.
Print Assumptions C51_cdf_3d_flux.

Example C51_cdf_3d_flux_example : forall O : @pool ZS -> list nat,
  cdf_3d_flux_by (S:=ZS) (parallel O) (-1) 0 1 2 2 2 ex_dx (0%nat, 2) (1%nat, 3) (2%nat, 4) 1 (3%nat, 5) (4%nat,
  6) (5%nat, 7) (6%nat, 8) ex_par =
  cdf_3d_flux (-1) 0 1 2 2 2 ex_dx (0%nat, 2) (1%nat, 3) (2%nat, 4) 1 (3%nat, 5) (4%nat, 6) (5%nat, 7) (6%nat,
  8) ex_par.
Proof. intros O. apply C51_cdf_3d_flux; ex_hyp. Qed.

Theorem C51_cdf_1d_poisson_flux : forall (S : Scalar) O i0 i1 dx gcw u f0 (m : mem S),
  i0 <= i1 + 1 -> 1 <= gcw -> apart f0 [u] ->
    cdf_1d_poisson_flux_by (parallel O) i0 i1 dx gcw u f0 m =
    cdf_1d_poisson_flux i0 i1 dx gcw u f0 m.
Proof. exact @cdf_1d_poisson_flux_par. Qed.
Print Assumptions C51_cdf_1d_poisson_flux.

Example C51_cdf_1d_poisson_flux_example : forall O : @pool ZS -> list nat,
  cdf_1d_poisson_flux_by (S:=ZS) (parallel O) (-1) 2 ex_dx 1 (0%nat, 2) (1%nat, 3) ex_par =
  cdf_1d_poisson_flux (-1) 2 ex_dx 1 (0%nat, 2) (1%nat, 3) ex_par.
Proof. intros O. apply C51_cdf_1d_poisson_flux; ex_hyp. Qed.

Theorem C51_cdf_2d_poisson_flux : forall (S : Scalar) O i0 j0 i1 j1 dx gcw u f0 f1 (m : mem S),
  i0 <= i1 + 1 -> j0 <= j1 + 1 -> 1 <= gcw -> apart f0 [u] -> apart f1 [u] ->
    cdf_2d_poisson_flux_by (parallel O) i0 j0 i1 j1 dx gcw u f0 f1 m =
    cdf_2d_poisson_flux i0 j0 i1 j1 dx gcw u f0 f1 m.
Proof. exact @cdf_2d_poisson_flux_par. Qed.
Print Assumptions C51_cdf_2d_poisson_flux.

Example C51_cdf_2d_poisson_flux_example : forall O : @pool ZS -> list nat,
  cdf_2d_poisson_flux_by (S:=ZS) (parallel O) (-1) 0 2 2 ex_dx 1 (0%nat, 2) (1%nat, 3) (2%nat, 4) ex_par =
  cdf_2d_poisson_flux (-1) 0 2 2 ex_dx 1 (0%nat, 2) (1%nat, 3) (2%nat, 4) ex_par.
Proof. intros O. apply C51_cdf_2d_poisson_flux; ex_hyp. Qed.

Theorem C51_cdf_3d_poisson_flux : forall (S : Scalar) O i0 j0 k0 i1 j1 k1 dx gcw u f0 f1 f2 (m : mem S),
  i0 <= i1 + 1 -> j0 <= j1 + 1 -> k0 <= k1 + 1 -> 1 <= gcw -> apart f0 [u] -> apart f1 [u] -> apart f2 [u] ->
    cdf_3d_poisson_flux_by (parallel O) i0 j0 k0 i1 j1 k1 dx gcw u f0 f1 f2 m =
    cdf_3d_poisson_flux i0 j0 k0 i1 j1 k1 dx gcw u f0 f1 f2 m.
Proof. exact @cdf_3d_poisson_flux_par. Qed.
Print Assumptions C51_cdf_3d_poisson_flux.

Example C51_cdf_3d_poisson_flux_example : forall O : @pool ZS -> list nat,
  cdf_3d_poisson_flux_by (S:=ZS) (parallel O) (-1) 0 1 2 2 2 ex_dx 1 (0%nat, 2) (1%nat, 3) (2%nat, 4) (3%nat, 5)
  ex_par =
  cdf_3d_poisson_flux (-1) 0 1 2 2 2 ex_dx 1 (0%nat, 2) (1%nat, 3) (2%nat, 4) (3%nat, 5) ex_par.
Proof. intros O. apply C51_cdf_3d_poisson_flux; ex_hyp. Qed.

Theorem C51_cd_apply_1d_diffusion_v1_res : forall (S : Scalar) O i0 i1 alpha beta dx agcw a ugcw u fgcw f f0
    rgcw res (m : mem S),
  i0 <= i1 + 1 -> 0 <= agcw -> 0 <= ugcw -> 0 <= fgcw -> 0 <= rgcw -> apart res [a; u; f; f0] ->
    cd_apply_1d_diffusion_v1_res_by (parallel O) i0 i1 alpha beta dx agcw a ugcw u fgcw f f0 rgcw res m =
    cd_apply_1d_diffusion_v1_res i0 i1 alpha beta dx agcw a ugcw u fgcw f f0 rgcw res m.
Proof. exact @cd_apply_1d_diffusion_v1_res_par. Qed.
Print Assumptions C51_cd_apply_1d_diffusion_v1_res.

Example C51_cd_apply_1d_diffusion_v1_res_example : forall O : @pool ZS -> list nat,
  cd_apply_1d_diffusion_v1_res_by (S:=ZS) (parallel O) (-1) 2 ex_s ex_s ex_dx 0 (0%nat, 2) 1 (1%nat, 3) 0
  (2%nat, 4) (3%nat, 5) 0 (4%nat, 6) ex_par =
  cd_apply_1d_diffusion_v1_res (-1) 2 ex_s ex_s ex_dx 0 (0%nat, 2) 1 (1%nat, 3) 0 (2%nat, 4) (3%nat, 5) 0
  (4%nat, 6) ex_par.
Proof. intros O. apply C51_cd_apply_1d_diffusion_v1_res; ex_hyp. Qed.

Theorem C51_cd_apply_1d_diffusion_v2_res : forall (S : Scalar) O i0 i1 alpha beta dx ugcw u fgcw f f0 rgcw res
    (m : mem S),
  i0 <= i1 + 1 -> 0 <= ugcw -> 0 <= fgcw -> 0 <= rgcw -> apart res [u; f; f0] ->
    cd_apply_1d_diffusion_v2_res_by (parallel O) i0 i1 alpha beta dx ugcw u fgcw f f0 rgcw res m =
    cd_apply_1d_diffusion_v2_res i0 i1 alpha beta dx ugcw u fgcw f f0 rgcw res m.
Proof. exact @cd_apply_1d_diffusion_v2_res_par. Qed.
Print Assumptions C51_cd_apply_1d_diffusion_v2_res.

Example C51_cd_apply_1d_diffusion_v2_res_example : forall O : @pool ZS -> list nat,
  cd_apply_1d_diffusion_v2_res_by (S:=ZS) (parallel O) (-1) 2 ex_s ex_s ex_dx 1 (0%nat, 2) 0 (1%nat, 3) (2%nat,
  4) 0 (3%nat, 5) ex_par =
  cd_apply_1d_diffusion_v2_res (-1) 2 ex_s ex_s ex_dx 1 (0%nat, 2) 0 (1%nat, 3) (2%nat, 4) 0 (3%nat, 5) ex_par.
Proof. intros O. apply C51_cd_apply_1d_diffusion_v2_res; ex_hyp. Qed.

Theorem C51_cd_apply_1d_poisson_v1_res : forall (S : Scalar) O i0 i1 beta dx fgcw f f0 rgcw res (m : mem S),
  i0 <= i1 + 1 -> 0 <= fgcw -> 0 <= rgcw -> apart res [f; f0] ->
    cd_apply_1d_poisson_v1_res_by (parallel O) i0 i1 beta dx fgcw f f0 rgcw res m =
    cd_apply_1d_poisson_v1_res i0 i1 beta dx fgcw f f0 rgcw res m.
Proof. exact @cd_apply_1d_poisson_v1_res_par. Qed.
Print Assumptions C51_cd_apply_1d_poisson_v1_res.

Example C51_cd_apply_1d_poisson_v1_res_example : forall O : @pool ZS -> list nat,
  cd_apply_1d_poisson_v1_res_by (S:=ZS) (parallel O) (-1) 2 ex_s ex_dx 0 (0%nat, 2) (1%nat, 3) 0 (2%nat, 4)
  ex_par =
  cd_apply_1d_poisson_v1_res (-1) 2 ex_s ex_dx 0 (0%nat, 2) (1%nat, 3) 0 (2%nat, 4) ex_par.
Proof. intros O. apply C51_cd_apply_1d_poisson_v1_res; ex_hyp. Qed.

Theorem C51_cd_apply_1d_diffusion_v1_apply : forall (S : Scalar) O i0 i1 alpha beta dx agcw a ugcw u f0 rgcw res
    (m : mem S),
  i0 <= i1 + 1 -> 0 <= agcw -> 0 <= ugcw -> 0 <= rgcw -> apart res [a; u; f0] ->
    cd_apply_1d_diffusion_v1_apply_by (parallel O) i0 i1 alpha beta dx agcw a ugcw u f0 rgcw res m =
    cd_apply_1d_diffusion_v1_apply i0 i1 alpha beta dx agcw a ugcw u f0 rgcw res m.
Proof. exact @cd_apply_1d_diffusion_v1_apply_par. Qed.
Print Assumptions C51_cd_apply_1d_diffusion_v1_apply.

Example C51_cd_apply_1d_diffusion_v1_apply_example : forall O : @pool ZS -> list nat,
  cd_apply_1d_diffusion_v1_apply_by (S:=ZS) (parallel O) (-1) 2 ex_s ex_s ex_dx 0 (0%nat, 2) 1 (1%nat, 3)
  (2%nat, 4) 0 (3%nat, 5) ex_par =
  cd_apply_1d_diffusion_v1_apply (-1) 2 ex_s ex_s ex_dx 0 (0%nat, 2) 1 (1%nat, 3) (2%nat, 4) 0 (3%nat, 5)
  ex_par.
Proof. intros O. apply C51_cd_apply_1d_diffusion_v1_apply; ex_hyp. Qed.

Theorem C51_cd_apply_1d_diffusion_v2_apply : forall (S : Scalar) O i0 i1 alpha beta dx ugcw u f0 rgcw res (m :
    mem S),
  i0 <= i1 + 1 -> 0 <= ugcw -> 0 <= rgcw -> apart res [u; f0] ->
    cd_apply_1d_diffusion_v2_apply_by (parallel O) i0 i1 alpha beta dx ugcw u f0 rgcw res m =
    cd_apply_1d_diffusion_v2_apply i0 i1 alpha beta dx ugcw u f0 rgcw res m.
Proof. exact @cd_apply_1d_diffusion_v2_apply_par. Qed.
Print Assumptions C51_cd_apply_1d_diffusion_v2_apply.

Example C51_cd_apply_1d_diffusion_v2_apply_example : forall O : @pool ZS -> list nat,
  cd_apply_1d_diffusion_v2_apply_by (S:=ZS) (parallel O) (-1) 2 ex_s ex_s ex_dx 1 (0%nat, 2) (1%nat, 3) 0
  (2%nat, 4) ex_par =
  cd_apply_1d_diffusion_v2_apply (-1) 2 ex_s ex_s ex_dx 1 (0%nat, 2) (1%nat, 3) 0 (2%nat, 4) ex_par.
Proof. intros O. apply C51_cd_apply_1d_diffusion_v2_apply; ex_hyp. Qed.

Theorem C51_cd_apply_1d_poisson_v2_apply : forall (S : Scalar) O i0 i1 beta dx f0 rgcw res (m : mem S),
  i0 <= i1 + 1 -> 0 <= rgcw -> apart res [f0] ->
    cd_apply_1d_poisson_v2_apply_by (parallel O) i0 i1 beta dx f0 rgcw res m =
    cd_apply_1d_poisson_v2_apply i0 i1 beta dx f0 rgcw res m.
Proof. exact @cd_apply_1d_poisson_v2_apply_par. Qed.
Print Assumptions C51_cd_apply_1d_poisson_v2_apply.

Example C51_cd_apply_1d_poisson_v2_apply_example : forall O : @pool ZS -> list nat,
  cd_apply_1d_poisson_v2_apply_by (S:=ZS) (parallel O) (-1) 2 ex_s ex_dx (0%nat, 2) 0 (1%nat, 3) ex_par =
  cd_apply_1d_poisson_v2_apply (-1) 2 ex_s ex_dx (0%nat, 2) 0 (1%nat, 3) ex_par.
Proof. intros O. apply C51_cd_apply_1d_poisson_v2_apply; ex_hyp. Qed.

Theorem C51_cd_apply_2d_diffusion_v1_res : forall (S : Scalar) O i0 i1 j0 j1 alpha beta dx agcw a ugcw u fgcw f
    f0 f1 rgcw res (m : mem S),
  i0 <= i1 + 1 -> j0 <= j1 + 1 -> 0 <= agcw -> 0 <= ugcw -> 0 <= fgcw -> 0 <= rgcw ->
  apart res [a; u; f; f0; f1] ->
    cd_apply_2d_diffusion_v1_res_by (parallel O) i0 i1 j0 j1 alpha beta dx agcw a ugcw u fgcw f f0 f1 rgcw res m
    =
    cd_apply_2d_diffusion_v1_res i0 i1 j0 j1 alpha beta dx agcw a ugcw u fgcw f f0 f1 rgcw res m.
Proof. exact @cd_apply_2d_diffusion_v1_res_par. Qed.
Print Assumptions C51_cd_apply_2d_diffusion_v1_res.

Example C51_cd_apply_2d_diffusion_v1_res_example : forall O : @pool ZS -> list nat,
  cd_apply_2d_diffusion_v1_res_by (S:=ZS) (parallel O) (-1) 2 0 2 ex_s ex_s ex_dx 0 (0%nat, 2) 1 (1%nat, 3) 0
  (2%nat, 4) (3%nat, 5) (4%nat, 6) 0 (5%nat, 7) ex_par =
  cd_apply_2d_diffusion_v1_res (-1) 2 0 2 ex_s ex_s ex_dx 0 (0%nat, 2) 1 (1%nat, 3) 0 (2%nat, 4) (3%nat, 5)
  (4%nat, 6) 0 (5%nat, 7) ex_par.
Proof. intros O. apply C51_cd_apply_2d_diffusion_v1_res; ex_hyp. Qed.

Theorem C51_cd_apply_2d_diffusion_v2_res : forall (S : Scalar) O i0 i1 j0 j1 alpha beta dx ugcw u fgcw f f0 f1
    rgcw res (m : mem S),
  i0 <= i1 + 1 -> j0 <= j1 + 1 -> 0 <= ugcw -> 0 <= fgcw -> 0 <= rgcw -> apart res [u; f; f0; f1] ->
    cd_apply_2d_diffusion_v2_res_by (parallel O) i0 i1 j0 j1 alpha beta dx ugcw u fgcw f f0 f1 rgcw res m =
    cd_apply_2d_diffusion_v2_res i0 i1 j0 j1 alpha beta dx ugcw u fgcw f f0 f1 rgcw res m.
Proof. exact @cd_apply_2d_diffusion_v2_res_par. Qed.
Print Assumptions C51_cd_apply_2d_diffusion_v2_res.

Example C51_cd_apply_2d_diffusion_v2_res_example : forall O : @pool ZS -> list nat,
  cd_apply_2d_diffusion_v2_res_by (S:=ZS) (parallel O) (-1) 2 0 2 ex_s ex_s ex_dx 1 (0%nat, 2) 0 (1%nat, 3)
  (2%nat, 4) (3%nat, 5) 0 (4%nat, 6) ex_par =
  cd_apply_2d_diffusion_v2_res (-1) 2 0 2 ex_s ex_s ex_dx 1 (0%nat, 2) 0 (1%nat, 3) (2%nat, 4) (3%nat, 5) 0
  (4%nat, 6) ex_par.
Proof. intros O. apply C51_cd_apply_2d_diffusion_v2_res; ex_hyp. Qed.

Theorem C51_cd_apply_2d_poisson_v1_res : forall (S : Scalar) O i0 i1 j0 j1 beta dx fgcw f f0 f1 rgcw res (m :
    mem S),
  i0 <= i1 + 1 -> j0 <= j1 + 1 -> 0 <= fgcw -> 0 <= rgcw -> apart res [f; f0; f1] ->
    cd_apply_2d_poisson_v1_res_by (parallel O) i0 i1 j0 j1 beta dx fgcw f f0 f1 rgcw res m =
    cd_apply_2d_poisson_v1_res i0 i1 j0 j1 beta dx fgcw f f0 f1 rgcw res m.
Proof. exact @cd_apply_2d_poisson_v1_res_par. Qed.
Print Assumptions C51_cd_apply_2d_poisson_v1_res.

Example C51_cd_apply_2d_poisson_v1_res_example : forall O : @pool ZS -> list nat,
  cd_apply_2d_poisson_v1_res_by (S:=ZS) (parallel O) (-1) 2 0 2 ex_s ex_dx 0 (0%nat, 2) (1%nat, 3) (2%nat, 4) 0
  (3%nat, 5) ex_par =
  cd_apply_2d_poisson_v1_res (-1) 2 0 2 ex_s ex_dx 0 (0%nat, 2) (1%nat, 3) (2%nat, 4) 0 (3%nat, 5) ex_par.
Proof. intros O. apply C51_cd_apply_2d_poisson_v1_res; ex_hyp. Qed.

Theorem C51_cd_apply_2d_diffusion_v1_apply : forall (S : Scalar) O i0 i1 j0 j1 alpha beta dx agcw a ugcw u f0 f1
    rgcw res (m : mem S),
  i0 <= i1 + 1 -> j0 <= j1 + 1 -> 0 <= agcw -> 0 <= ugcw -> 0 <= rgcw -> apart res [a; u; f0; f1] ->
    cd_apply_2d_diffusion_v1_apply_by (parallel O) i0 i1 j0 j1 alpha beta dx agcw a ugcw u f0 f1 rgcw res m =
    cd_apply_2d_diffusion_v1_apply i0 i1 j0 j1 alpha beta dx agcw a ugcw u f0 f1 rgcw res m.
Proof. exact @cd_apply_2d_diffusion_v1_apply_par. Qed.
Print Assumptions C51_cd_apply_2d_diffusion_v1_apply.

Example C51_cd_apply_2d_diffusion_v1_apply_example : forall O : @pool ZS -> list nat,
  cd_apply_2d_diffusion_v1_apply_by (S:=ZS) (parallel O) (-1) 2 0 2 ex_s ex_s ex_dx 0 (0%nat, 2) 1 (1%nat, 3)
  (2%nat, 4) (3%nat, 5) 0 (4%nat, 6) ex_par =
  cd_apply_2d_diffusion_v1_apply (-1) 2 0 2 ex_s ex_s ex_dx 0 (0%nat, 2) 1 (1%nat, 3) (2%nat, 4) (3%nat, 5) 0
  (4%nat, 6) ex_par.
Proof. intros O. apply C51_cd_apply_2d_diffusion_v1_apply; ex_hyp. Qed.

Theorem C51_cd_apply_2d_diffusion_v2_apply : forall (S : Scalar) O i0 i1 j0 j1 alpha beta dx ugcw u f0 f1 rgcw
    res (m : mem S),
  i0 <= i1 + 1 -> j0 <= j1 + 1 -> 0 <= ugcw -> 0 <= rgcw -> apart res [u; f0; f1] ->
    cd_apply_2d_diffusion_v2_apply_by (parallel O) i0 i1 j0 j1 alpha beta dx ugcw u f0 f1 rgcw res m =
    cd_apply_2d_diffusion_v2_apply i0 i1 j0 j1 alpha beta dx ugcw u f0 f1 rgcw res m.
Proof. exact @cd_apply_2d_diffusion_v2_apply_par. Qed.
Print Assumptions C51_cd_apply_2d_diffusion_v2_apply.

Example C51_cd_apply_2d_diffusion_v2_apply_example : forall O : @pool ZS -> list nat,
  cd_apply_2d_diffusion_v2_apply_by (S:=ZS) (parallel O) (-1) 2 0 2 ex_s ex_s ex_dx 1 (0%nat, 2) (1%nat, 3)
  (2%nat, 4) 0 (3%nat, 5) ex_par =
  cd_apply_2d_diffusion_v2_apply (-1) 2 0 2 ex_s ex_s ex_dx 1 (0%nat, 2) (1%nat, 3) (2%nat, 4) 0 (3%nat, 5)
  ex_par.
Proof. intros O. apply C51_cd_apply_2d_diffusion_v2_apply; ex_hyp. Qed.

Theorem C51_cd_apply_2d_poisson_v2_apply : forall (S : Scalar) O i0 i1 j0 j1 beta dx f0 f1 rgcw res (m : mem S),
  i0 <= i1 + 1 -> j0 <= j1 + 1 -> 0 <= rgcw -> apart res [f0; f1] ->
    cd_apply_2d_poisson_v2_apply_by (parallel O) i0 i1 j0 j1 beta dx f0 f1 rgcw res m =
    cd_apply_2d_poisson_v2_apply i0 i1 j0 j1 beta dx f0 f1 rgcw res m.
Proof. exact @cd_apply_2d_poisson_v2_apply_par. Qed.
Print Assumptions C51_cd_apply_2d_poisson_v2_apply.

Example C51_cd_apply_2d_poisson_v2_apply_example : forall O : @pool ZS -> list nat,
  cd_apply_2d_poisson_v2_apply_by (S:=ZS) (parallel O) (-1) 2 0 2 ex_s ex_dx (0%nat, 2) (1%nat, 3) 0 (2%nat, 4)
  ex_par =
  cd_apply_2d_poisson_v2_apply (-1) 2 0 2 ex_s ex_dx (0%nat, 2) (1%nat, 3) 0 (2%nat, 4) ex_par.
Proof. intros O. apply C51_cd_apply_2d_poisson_v2_apply; ex_hyp. Qed.

Theorem C51_cd_apply_3d_diffusion_v1_res : forall (S : Scalar) O i0 i1 j0 j1 k0 k1 alpha beta dx agcw a ugcw u
    fgcw f f0 f1 f2 rgcw res (m : mem S),
  i0 <= i1 + 1 -> j0 <= j1 + 1 -> k0 <= k1 + 1 -> 0 <= agcw -> 0 <= ugcw -> 0 <= fgcw -> 0 <= rgcw ->
  apart res [a; u; f; f0; f1; f2] ->
    cd_apply_3d_diffusion_v1_res_by (parallel O) i0 i1 j0 j1 k0 k1 alpha beta dx agcw a ugcw u fgcw f f0 f1 f2
    rgcw res m =
    cd_apply_3d_diffusion_v1_res i0 i1 j0 j1 k0 k1 alpha beta dx agcw a ugcw u fgcw f f0 f1 f2 rgcw res m.
Proof. exact @cd_apply_3d_diffusion_v1_res_par. Qed.
Print Assumptions C51_cd_apply_3d_diffusion_v1_res.

Example C51_cd_apply_3d_diffusion_v1_res_example : forall O : @pool ZS -> list nat,
  cd_apply_3d_diffusion_v1_res_by (S:=ZS) (parallel O) (-1) 2 0 2 1 2 ex_s ex_s ex_dx 0 (0%nat, 2) 1 (1%nat, 3)
  0 (2%nat, 4) (3%nat, 5) (4%nat, 6) (5%nat, 7) 0 (6%nat, 8) ex_par =
  cd_apply_3d_diffusion_v1_res (-1) 2 0 2 1 2 ex_s ex_s ex_dx 0 (0%nat, 2) 1 (1%nat, 3) 0 (2%nat, 4) (3%nat, 5)
  (4%nat, 6) (5%nat, 7) 0 (6%nat, 8) ex_par.
Proof. intros O. apply C51_cd_apply_3d_diffusion_v1_res; ex_hyp. Qed.

Theorem C51_cd_apply_3d_diffusion_v2_res : forall (S : Scalar) O i0 i1 j0 j1 k0 k1 alpha beta dx ugcw u fgcw f
    f0 f1 f2 rgcw res (m : mem S),
  i0 <= i1 + 1 -> j0 <= j1 + 1 -> k0 <= k1 + 1 -> 0 <= ugcw -> 0 <= fgcw -> 0 <= rgcw ->
  apart res [u; f; f0; f1; f2] ->
    cd_apply_3d_diffusion_v2_res_by (parallel O) i0 i1 j0 j1 k0 k1 alpha beta dx ugcw u fgcw f f0 f1 f2 rgcw res
    m =
    cd_apply_3d_diffusion_v2_res i0 i1 j0 j1 k0 k1 alpha beta dx ugcw u fgcw f f0 f1 f2 rgcw res m.
Proof. exact @cd_apply_3d_diffusion_v2_res_par. Qed.
Print Assumptions C51_cd_apply_3d_diffusion_v2_res.

Example C51_cd_apply_3d_diffusion_v2_res_example : forall O : @pool ZS -> list nat,
  cd_apply_3d_diffusion_v2_res_by (S:=ZS) (parallel O) (-1) 2 0 2 1 2 ex_s ex_s ex_dx 1 (0%nat, 2) 0 (1%nat, 3)
  (2%nat, 4) (3%nat, 5) (4%nat, 6) 0 (5%nat, 7) ex_par =
  cd_apply_3d_diffusion_v2_res (-1) 2 0 2 1 2 ex_s ex_s ex_dx 1 (0%nat, 2) 0 (1%nat, 3) (2%nat, 4) (3%nat, 5)
  (4%nat, 6) 0 (5%nat, 7) ex_par.
Proof. intros O. apply C51_cd_apply_3d_diffusion_v2_res; ex_hyp. Qed.

Theorem C51_cd_apply_3d_poisson_v1_res : forall (S : Scalar) O i0 i1 j0 j1 k0 k1 beta dx fgcw f f0 f1 f2 rgcw
    res (m : mem S),
  i0 <= i1 + 1 -> j0 <= j1 + 1 -> k0 <= k1 + 1 -> 0 <= fgcw -> 0 <= rgcw -> apart res [f; f0; f1; f2] ->
    cd_apply_3d_poisson_v1_res_by (parallel O) i0 i1 j0 j1 k0 k1 beta dx fgcw f f0 f1 f2 rgcw res m =
    cd_apply_3d_poisson_v1_res i0 i1 j0 j1 k0 k1 beta dx fgcw f f0 f1 f2 rgcw res m.
Proof. exact @cd_apply_3d_poisson_v1_res_par. Qed.
Print Assumptions C51_cd_apply_3d_poisson_v1_res.

Example C51_cd_apply_3d_poisson_v1_res_example : forall O : @pool ZS -> list nat,
  cd_apply_3d_poisson_v1_res_by (S:=ZS) (parallel O) (-1) 2 0 2 1 2 ex_s ex_dx 0 (0%nat, 2) (1%nat, 3) (2%nat,
  4) (3%nat, 5) 0 (4%nat, 6) ex_par =
  cd_apply_3d_poisson_v1_res (-1) 2 0 2 1 2 ex_s ex_dx 0 (0%nat, 2) (1%nat, 3) (2%nat, 4) (3%nat, 5) 0 (4%nat,
  6) ex_par.
Proof. intros O. apply C51_cd_apply_3d_poisson_v1_res; ex_hyp. Qed.

Theorem C51_cd_apply_3d_diffusion_v1_apply : forall (S : Scalar) O i0 i1 j0 j1 k0 k1 alpha beta dx agcw a ugcw u
    f0 f1 f2 rgcw res (m : mem S),
  i0 <= i1 + 1 -> j0 <= j1 + 1 -> k0 <= k1 + 1 -> 0 <= agcw -> 0 <= ugcw -> 0 <= rgcw ->
  apart res [a; u; f0; f1; f2] ->
    cd_apply_3d_diffusion_v1_apply_by (parallel O) i0 i1 j0 j1 k0 k1 alpha beta dx agcw a ugcw u f0 f1 f2 rgcw
    res m =
    cd_apply_3d_diffusion_v1_apply i0 i1 j0 j1 k0 k1 alpha beta dx agcw a ugcw u f0 f1 f2 rgcw res m.
Proof. exact @cd_apply_3d_diffusion_v1_apply_par. Qed.
Print Assumptions C51_cd_apply_3d_diffusion_v1_apply.

Example C51_cd_apply_3d_diffusion_v1_apply_example : forall O : @pool ZS -> list nat,
  cd_apply_3d_diffusion_v1_apply_by (S:=ZS) (parallel O) (-1) 2 0 2 1 2 ex_s ex_s ex_dx 0 (0%nat, 2) 1 (1%nat,
  3) (2%nat, 4) (3%nat, 5) (4%nat, 6) 0 (5%nat, 7) ex_par =
  cd_apply_3d_diffusion_v1_apply (-1) 2 0 2 1 2 ex_s ex_s ex_dx 0 (0%nat, 2) 1 (1%nat, 3) (2%nat, 4) (3%nat, 5)
  (4%nat, 6) 0 (5%nat, 7) ex_par.
Proof. intros O. apply C51_cd_apply_3d_diffusion_v1_apply; ex_hyp. Qed.

Theorem C51_cd_apply_3d_diffusion_v2_apply : forall (S : Scalar) O i0 i1 j0 j1 k0 k1 alpha beta dx ugcw u f0 f1
    f2 rgcw res (m : mem S),
  i0 <= i1 + 1 -> j0 <= j1 + 1 -> k0 <= k1 + 1 -> 0 <= ugcw -> 0 <= rgcw -> apart res [u; f0; f1; f2] ->
    cd_apply_3d_diffusion_v2_apply_by (parallel O) i0 i1 j0 j1 k0 k1 alpha beta dx ugcw u f0 f1 f2 rgcw res m =
    cd_apply_3d_diffusion_v2_apply i0 i1 j0 j1 k0 k1 alpha beta dx ugcw u f0 f1 f2 rgcw res m.
Proof. exact @cd_apply_3d_diffusion_v2_apply_par. Qed.
Print Assumptions C51_cd_apply_3d_diffusion_v2_apply.

Example C51_cd_apply_3d_diffusion_v2_apply_example : forall O : @pool ZS -> list nat,
  cd_apply_3d_diffusion_v2_apply_by (S:=ZS) (parallel O) (-1) 2 0 2 1 2 ex_s ex_s ex_dx 1 (0%nat, 2) (1%nat, 3)
  (2%nat, 4) (3%nat, 5) 0 (4%nat, 6) ex_par =
  cd_apply_3d_diffusion_v2_apply (-1) 2 0 2 1 2 ex_s ex_s ex_dx 1 (0%nat, 2) (1%nat, 3) (2%nat, 4) (3%nat, 5) 0
  (4%nat, 6) ex_par.
Proof. intros O. apply C51_cd_apply_3d_diffusion_v2_apply; ex_hyp. Qed.

Theorem C51_cd_apply_3d_poisson_v2_apply : forall (S : Scalar) O i0 i1 j0 j1 k0 k1 beta dx f0 f1 f2 rgcw res (m
    : mem S),
  i0 <= i1 + 1 -> j0 <= j1 + 1 -> k0 <= k1 + 1 -> 0 <= rgcw -> apart res [f0; f1; f2] ->
    cd_apply_3d_poisson_v2_apply_by (parallel O) i0 i1 j0 j1 k0 k1 beta dx f0 f1 f2 rgcw res m =
    cd_apply_3d_poisson_v2_apply i0 i1 j0 j1 k0 k1 beta dx f0 f1 f2 rgcw res m.
Proof. exact @cd_apply_3d_poisson_v2_apply_par. Qed.
Print Assumptions C51_cd_apply_3d_poisson_v2_apply.

Example C51_cd_apply_3d_poisson_v2_apply_example : forall O : @pool ZS -> list nat,
  cd_apply_3d_poisson_v2_apply_by (S:=ZS) (parallel O) (-1) 2 0 2 1 2 ex_s ex_dx (0%nat, 2) (1%nat, 3) (2%nat,
  4) 0 (3%nat, 5) ex_par =
  cd_apply_3d_poisson_v2_apply (-1) 2 0 2 1 2 ex_s ex_dx (0%nat, 2) (1%nat, 3) (2%nat, 4) 0 (3%nat, 5) ex_par.
Proof. intros O. apply C51_cd_apply_3d_poisson_v2_apply; ex_hyp. Qed.

(** ** Boundary values *)

Theorem C51_cd_1d_set_bc : forall (S : Scalar) O i0 i1 dx dgcw d0 ugcw u bLo bHi exOrder face btype alpha beta
    (m : mem S),
  i0 <= i1 -> 1 <= ugcw -> 0 <= dgcw -> (face = 0 -> bLo 0 = i0 - 1) -> (face = 1 -> bHi 0 = i1 + 1) ->
  apart u [d0] ->
    cd_1d_set_bc_by (parallel O) i0 i1 dx dgcw d0 ugcw u bLo bHi exOrder face btype alpha beta m =
    cd_1d_set_bc i0 i1 dx dgcw d0 ugcw u bLo bHi exOrder face btype alpha beta m.
Proof. exact @cd_1d_set_bc_par. Qed.
Print Assumptions C51_cd_1d_set_bc.

Example C51_cd_1d_set_bc_example : forall O : @pool ZS -> list nat,
  cd_1d_set_bc_by (S:=ZS) (parallel O) (-1) 2 ex_dx 0 (0%nat, 2) 1 (1%nat, 3) ex_lo ex_hi 2 0 0 ex_s ex_s ex_par
  =
  cd_1d_set_bc (-1) 2 ex_dx 0 (0%nat, 2) 1 (1%nat, 3) ex_lo ex_hi 2 0 0 ex_s ex_s ex_par.
Proof. intros O. apply C51_cd_1d_set_bc; ex_hyp. Qed.

Theorem C51_cd_1d_set_poisson_bc : forall (S : Scalar) O i0 i1 dx ugcw u bLo bHi exOrder face btype alpha beta
    (m : mem S),
  i0 <= i1 -> 1 <= ugcw -> (face = 0 -> bLo 0 = i0 - 1) -> (face = 1 -> bHi 0 = i1 + 1) ->
    cd_1d_set_poisson_bc_by (parallel O) i0 i1 dx ugcw u bLo bHi exOrder face btype alpha beta m =
    cd_1d_set_poisson_bc i0 i1 dx ugcw u bLo bHi exOrder face btype alpha beta m.
Proof. exact @cd_1d_set_poisson_bc_par. Qed.
Print Assumptions C51_cd_1d_set_poisson_bc.

Example C51_cd_1d_set_poisson_bc_example : forall O : @pool ZS -> list nat,
  cd_1d_set_poisson_bc_by (S:=ZS) (parallel O) (-1) 2 ex_dx 1 (0%nat, 2) ex_lo ex_hi 2 0 0 ex_s ex_s ex_par =
  cd_1d_set_poisson_bc (-1) 2 ex_dx 1 (0%nat, 2) ex_lo ex_hi 2 0 0 ex_s ex_s ex_par.
Proof. intros O. apply C51_cd_1d_set_poisson_bc; ex_hyp. Qed.

Theorem C51_cd_2d_set_bc : forall (S : Scalar) O i0 i1 j0 j1 dx dgcw d0 d1 ugcw u bLo bHi exOrder face type
    btype alpha beta (m : mem S),
  i0 <= i1 -> j0 <= j1 -> 1 <= ugcw -> 0 <= dgcw ->
  (type = 1 -> face = 0 -> bLo 0 = i0 - 1 /\ seg_meets j0 j1 (bLo 1) (bHi 1)) ->
  (type = 1 -> face = 1 -> bHi 0 = i1 + 1 /\ seg_meets j0 j1 (bLo 1) (bHi 1)) ->
  (type = 1 -> face = 2 -> bLo 1 = j0 - 1 /\ seg_meets i0 i1 (bLo 0) (bHi 0)) ->
  (type = 1 -> face = 3 -> bHi 1 = j1 + 1 /\ seg_meets i0 i1 (bLo 0) (bHi 0)) ->
  (type = 2 -> face = 0 -> bLo 0 = i0 - 1 /\ bLo 1 = j0 - 1) ->
  (type = 2 -> face = 1 -> bHi 0 = i1 + 1 /\ bLo 1 = j0 - 1) ->
  (type = 2 -> face = 2 -> bLo 0 = i0 - 1 /\ bHi 1 = j1 + 1) ->
  (type = 2 -> face = 3 -> bHi 0 = i1 + 1 /\ bHi 1 = j1 + 1) -> apart u [d0; d1] ->
    cd_2d_set_bc_by (parallel O) i0 i1 j0 j1 dx dgcw d0 d1 ugcw u bLo bHi exOrder face type btype alpha beta m =
    cd_2d_set_bc i0 i1 j0 j1 dx dgcw d0 d1 ugcw u bLo bHi exOrder face type btype alpha beta m.
Proof. exact @cd_2d_set_bc_par. Qed.
Print Assumptions C51_cd_2d_set_bc.

Example C51_cd_2d_set_bc_example : forall O : @pool ZS -> list nat,
  cd_2d_set_bc_by (S:=ZS) (parallel O) (-1) 2 0 2 ex_dx 0 (0%nat, 2) (1%nat, 3) 1 (2%nat, 4) ex_lo ex_hi 2 0 1 0
  ex_s ex_s ex_par =
  cd_2d_set_bc (-1) 2 0 2 ex_dx 0 (0%nat, 2) (1%nat, 3) 1 (2%nat, 4) ex_lo ex_hi 2 0 1 0 ex_s ex_s ex_par.
Proof. intros O. apply C51_cd_2d_set_bc; ex_hyp. Qed.

Theorem C51_cd_2d_set_poisson_bc : forall (S : Scalar) O i0 i1 j0 j1 dx ugcw u bLo bHi exOrder face type btype
    alpha beta (m : mem S),
  i0 <= i1 -> j0 <= j1 -> 1 <= ugcw ->
  (type = 1 -> face = 0 -> bLo 0 = i0 - 1 /\ seg_meets j0 j1 (bLo 1) (bHi 1)) ->
  (type = 1 -> face = 1 -> bHi 0 = i1 + 1 /\ seg_meets j0 j1 (bLo 1) (bHi 1)) ->
  (type = 1 -> face = 2 -> bLo 1 = j0 - 1 /\ seg_meets i0 i1 (bLo 0) (bHi 0)) ->
  (type = 1 -> face = 3 -> bHi 1 = j1 + 1 /\ seg_meets i0 i1 (bLo 0) (bHi 0)) ->
  (type = 2 -> face = 0 -> bLo 0 = i0 - 1 /\ bLo 1 = j0 - 1) ->
  (type = 2 -> face = 1 -> bHi 0 = i1 + 1 /\ bLo 1 = j0 - 1) ->
  (type = 2 -> face = 2 -> bLo 0 = i0 - 1 /\ bHi 1 = j1 + 1) ->
  (type = 2 -> face = 3 -> bHi 0 = i1 + 1 /\ bHi 1 = j1 + 1) ->
    cd_2d_set_poisson_bc_by (parallel O) i0 i1 j0 j1 dx ugcw u bLo bHi exOrder face type btype alpha beta m =
    cd_2d_set_poisson_bc i0 i1 j0 j1 dx ugcw u bLo bHi exOrder face type btype alpha beta m.
Proof. exact @cd_2d_set_poisson_bc_par. Qed.
Print Assumptions C51_cd_2d_set_poisson_bc.

Example C51_cd_2d_set_poisson_bc_example : forall O : @pool ZS -> list nat,
  cd_2d_set_poisson_bc_by (S:=ZS) (parallel O) (-1) 2 0 2 ex_dx 1 (0%nat, 2) ex_lo ex_hi 2 0 1 0 ex_s ex_s
  ex_par =
  cd_2d_set_poisson_bc (-1) 2 0 2 ex_dx 1 (0%nat, 2) ex_lo ex_hi 2 0 1 0 ex_s ex_s ex_par.
Proof. intros O. apply C51_cd_2d_set_poisson_bc; ex_hyp. Qed.

Theorem C51_cd_2d_set_corner_bc : forall (S : Scalar) O i0 i1 j0 j1 gcw dx d0 d1 u bLo bHi exOrder face type
    btype (m : mem S),
  i0 <= i1 -> j0 <= j1 -> 1 <= gcw -> (face = 0 -> bLo 0 = i0 - 1 /\ bLo 1 = j0 - 1) ->
  (face = 1 -> bHi 0 = i1 + 1 /\ bLo 1 = j0 - 1) -> (face = 2 -> bLo 0 = i0 - 1 /\ bHi 1 = j1 + 1) ->
  (face = 3 -> bHi 0 = i1 + 1 /\ bHi 1 = j1 + 1) ->
    cd_2d_set_corner_bc_by (parallel O) i0 i1 j0 j1 gcw dx d0 d1 u bLo bHi exOrder face type btype m =
    cd_2d_set_corner_bc i0 i1 j0 j1 gcw dx d0 d1 u bLo bHi exOrder face type btype m.
Proof. exact @cd_2d_set_corner_bc_par. Qed.
Print Assumptions C51_cd_2d_set_corner_bc.

Example C51_cd_2d_set_corner_bc_example : forall O : @pool ZS -> list nat,
  cd_2d_set_corner_bc_by (S:=ZS) (parallel O) (-1) 2 0 2 1 ex_dx (0%nat, 2) (1%nat, 3) (2%nat, 4) ex_corner
  ex_hi 2 0 1 0 ex_par =
  cd_2d_set_corner_bc (-1) 2 0 2 1 ex_dx (0%nat, 2) (1%nat, 3) (2%nat, 4) ex_corner ex_hi 2 0 1 0 ex_par.
Proof. intros O. apply C51_cd_2d_set_corner_bc; ex_hyp. Qed.

Theorem C51_cd_3d_set_bc : forall (S : Scalar) O i0 i1 j0 j1 k0 k1 dx dgcw d0 d1 d2 ugcw u bLo bHi exOrder face
    type btype alpha beta (m : mem S),
  i0 <= i1 -> j0 <= j1 -> k0 <= k1 -> 1 <= ugcw -> 0 <= dgcw ->
  (type = 1 -> face = 0 -> bLo 0 = i0 - 1 /\ seg_meets j0 j1 (bLo 1) (bHi 1) /\ seg_meets k0 k1 (bLo 2) (bHi 2)) ->
  (type = 1 -> face = 1 -> bHi 0 = i1 + 1 /\ seg_meets j0 j1 (bLo 1) (bHi 1) /\ seg_meets k0 k1 (bLo 2) (bHi 2)) ->
  (type = 1 -> face = 2 -> bLo 1 = j0 - 1 /\ seg_meets i0 i1 (bLo 0) (bHi 0) /\ seg_meets k0 k1 (bLo 2) (bHi 2)) ->
  (type = 1 -> face = 3 -> bHi 1 = j1 + 1 /\ seg_meets i0 i1 (bLo 0) (bHi 0) /\ seg_meets k0 k1 (bLo 2) (bHi 2)) ->
  (type = 1 -> face = 4 -> bLo 2 = k0 - 1 /\ seg_meets i0 i1 (bLo 0) (bHi 0) /\ seg_meets j0 j1 (bLo 1) (bHi 1)) ->
  (type = 1 -> face = 5 -> bHi 2 = k1 + 1 /\ seg_meets i0 i1 (bLo 0) (bHi 0) /\ seg_meets j0 j1 (bLo 1) (bHi 1)) ->
  (type = 2 -> 0 <= face < 4 -> at_side (face mod 2) i0 i1 (bLo 0) /\ at_side (face / 2 mod 2) j0 j1 (bLo 1) /\ seg_meets k0 k1 (bLo 2) (bHi 2)) ->
  (type = 2 -> 4 <= face < 8 -> at_side (face mod 2) i0 i1 (bLo 0) /\ at_side (face / 2 mod 2) k0 k1 (bLo 2) /\ seg_meets j0 j1 (bLo 1) (bHi 1)) ->
  (type = 2 -> 8 <= face < 12 -> at_side (face mod 2) j0 j1 (bLo 1) /\ at_side (face / 2 mod 2) k0 k1 (bLo 2) /\ seg_meets i0 i1 (bLo 0) (bHi 0)) ->
  (type = 3 -> 0 <= face < 8 -> at_side (face mod 2) i0 i1 (bLo 0) /\ at_side (face / 2 mod 2) j0 j1 (bLo 1) /\ at_side (face / 4) k0 k1 (bLo 2)) ->
  apart u [d0; d1; d2] ->
    cd_3d_set_bc_by (parallel O) i0 i1 j0 j1 k0 k1 dx dgcw d0 d1 d2 ugcw u bLo bHi exOrder face type btype alpha
    beta m =
    cd_3d_set_bc i0 i1 j0 j1 k0 k1 dx dgcw d0 d1 d2 ugcw u bLo bHi exOrder face type btype alpha beta m.
Proof. exact @cd_3d_set_bc_par. Qed.
Print Assumptions C51_cd_3d_set_bc.

Example C51_cd_3d_set_bc_example : forall O : @pool ZS -> list nat,
  cd_3d_set_bc_by (S:=ZS) (parallel O) (-1) 2 0 2 1 2 ex_dx 0 (0%nat, 2) (1%nat, 3) (2%nat, 4) 1 (3%nat, 5)
  ex_lo ex_hi 2 0 1 0 ex_s ex_s ex_par =
  cd_3d_set_bc (-1) 2 0 2 1 2 ex_dx 0 (0%nat, 2) (1%nat, 3) (2%nat, 4) 1 (3%nat, 5) ex_lo ex_hi 2 0 1 0 ex_s
  ex_s ex_par.
Proof. intros O. apply C51_cd_3d_set_bc; ex_hyp. Qed.

Theorem C51_cd_3d_set_poisson_bc : forall (S : Scalar) O i0 i1 j0 j1 k0 k1 dx ugcw u bLo bHi exOrder face type
    btype alpha beta (m : mem S),
  i0 <= i1 -> j0 <= j1 -> k0 <= k1 -> 1 <= ugcw ->
  (type = 1 -> face = 0 -> bLo 0 = i0 - 1 /\ seg_meets j0 j1 (bLo 1) (bHi 1) /\ seg_meets k0 k1 (bLo 2) (bHi 2)) ->
  (type = 1 -> face = 1 -> bHi 0 = i1 + 1 /\ seg_meets j0 j1 (bLo 1) (bHi 1) /\ seg_meets k0 k1 (bLo 2) (bHi 2)) ->
  (type = 1 -> face = 2 -> bLo 1 = j0 - 1 /\ seg_meets i0 i1 (bLo 0) (bHi 0) /\ seg_meets k0 k1 (bLo 2) (bHi 2)) ->
  (type = 1 -> face = 3 -> bHi 1 = j1 + 1 /\ seg_meets i0 i1 (bLo 0) (bHi 0) /\ seg_meets k0 k1 (bLo 2) (bHi 2)) ->
  (type = 1 -> face = 4 -> bLo 2 = k0 - 1 /\ seg_meets i0 i1 (bLo 0) (bHi 0) /\ seg_meets j0 j1 (bLo 1) (bHi 1)) ->
  (type = 1 -> face = 5 -> bHi 2 = k1 + 1 /\ seg_meets i0 i1 (bLo 0) (bHi 0) /\ seg_meets j0 j1 (bLo 1) (bHi 1)) ->
  (type = 2 -> 0 <= face < 4 -> at_side (face mod 2) i0 i1 (bLo 0) /\ at_side (face / 2 mod 2) j0 j1 (bLo 1) /\ seg_meets k0 k1 (bLo 2) (bHi 2)) ->
  (type = 2 -> 4 <= face < 8 -> at_side (face mod 2) i0 i1 (bLo 0) /\ at_side (face / 2 mod 2) k0 k1 (bLo 2) /\ seg_meets j0 j1 (bLo 1) (bHi 1)) ->
  (type = 2 -> 8 <= face < 12 -> at_side (face mod 2) j0 j1 (bLo 1) /\ at_side (face / 2 mod 2) k0 k1 (bLo 2) /\ seg_meets i0 i1 (bLo 0) (bHi 0)) ->
  (type = 3 -> 0 <= face < 8 -> at_side (face mod 2) i0 i1 (bLo 0) /\ at_side (face / 2 mod 2) j0 j1 (bLo 1) /\ at_side (face / 4) k0 k1 (bLo 2)) ->
    cd_3d_set_poisson_bc_by (parallel O) i0 i1 j0 j1 k0 k1 dx ugcw u bLo bHi exOrder face type btype alpha beta
    m =
    cd_3d_set_poisson_bc i0 i1 j0 j1 k0 k1 dx ugcw u bLo bHi exOrder face type btype alpha beta m.
Proof. exact @cd_3d_set_poisson_bc_par. Qed.
Print Assumptions C51_cd_3d_set_poisson_bc.

Example C51_cd_3d_set_poisson_bc_example : forall O : @pool ZS -> list nat,
  cd_3d_set_poisson_bc_by (S:=ZS) (parallel O) (-1) 2 0 2 1 2 ex_dx 1 (0%nat, 2) ex_lo ex_hi 2 0 1 0 ex_s ex_s
  ex_par =
  cd_3d_set_poisson_bc (-1) 2 0 2 1 2 ex_dx 1 (0%nat, 2) ex_lo ex_hi 2 0 1 0 ex_s ex_s ex_par.
Proof. intros O. apply C51_cd_3d_set_poisson_bc; ex_hyp. Qed.

(** ** Stencil coefficients, 1D and 2D *)

Theorem C51_cd_stencil_1d_offdiag : forall (S : Scalar) O i0 i1 bi0 bi1 dx beta b0 sgcw st (m : mem S),
  i0 <= i1 + 1 -> 0 <= sgcw -> bi0 <= i0 -> i1 <= bi1 -> apart st [b0] ->
    cd_stencil_1d_offdiag_by (parallel O) i0 i1 bi0 bi1 dx beta b0 sgcw st m =
    cd_stencil_1d_offdiag i0 i1 bi0 bi1 dx beta b0 sgcw st m.
Proof. exact @cd_stencil_1d_offdiag_par. Qed.
Print Assumptions C51_cd_stencil_1d_offdiag.

Example C51_cd_stencil_1d_offdiag_example : forall O : @pool ZS -> list nat,
  cd_stencil_1d_offdiag_by (S:=ZS) (parallel O) (-1) 2 (-3) 5 ex_dx ex_s (0%nat, 2) 1 (1%nat, 3) ex_par =
  cd_stencil_1d_offdiag (-1) 2 (-3) 5 ex_dx ex_s (0%nat, 2) 1 (1%nat, 3) ex_par.
Proof. intros O. apply C51_cd_stencil_1d_offdiag; ex_hyp. Qed.

Theorem C51_cd_stencil_1d_poisson_offdiag : forall (S : Scalar) O i0 i1 dx beta sgcw st (m : mem S),
  i0 <= i1 + 1 -> 0 <= sgcw ->
    cd_stencil_1d_poisson_offdiag_by (parallel O) i0 i1 dx beta sgcw st m =
    cd_stencil_1d_poisson_offdiag i0 i1 dx beta sgcw st m.
Proof. exact @cd_stencil_1d_poisson_offdiag_par. Qed.
Print Assumptions C51_cd_stencil_1d_poisson_offdiag.

Example C51_cd_stencil_1d_poisson_offdiag_example : forall O : @pool ZS -> list nat,
  cd_stencil_1d_poisson_offdiag_by (S:=ZS) (parallel O) (-1) 2 ex_dx ex_s 1 (0%nat, 2) ex_par =
  cd_stencil_1d_poisson_offdiag (-1) 2 ex_dx ex_s 1 (0%nat, 2) ex_par.
Proof. intros O. apply C51_cd_stencil_1d_poisson_offdiag; ex_hyp. Qed.

Theorem C51_cd_stencil_1d_v1diag : forall (S : Scalar) O i0 i1 ai0 ai1 alpha a sgcw st (m : mem S),
  i0 <= i1 + 1 -> 0 <= sgcw -> ai0 <= i0 -> i1 <= ai1 -> apart st [a] ->
    cd_stencil_1d_v1diag_by (parallel O) i0 i1 ai0 ai1 alpha a sgcw st m =
    cd_stencil_1d_v1diag i0 i1 ai0 ai1 alpha a sgcw st m.
Proof. exact @cd_stencil_1d_v1diag_par. Qed.
Print Assumptions C51_cd_stencil_1d_v1diag.

Example C51_cd_stencil_1d_v1diag_example : forall O : @pool ZS -> list nat,
  cd_stencil_1d_v1diag_by (S:=ZS) (parallel O) (-1) 2 (-1) 2 ex_s (0%nat, 2) 1 (1%nat, 3) ex_par =
  cd_stencil_1d_v1diag (-1) 2 (-1) 2 ex_s (0%nat, 2) 1 (1%nat, 3) ex_par.
Proof. intros O. apply C51_cd_stencil_1d_v1diag; ex_hyp. Qed.

Theorem C51_cd_stencil_1d_v2diag : forall (S : Scalar) O i0 i1 alpha sgcw st (m : mem S),
  i0 <= i1 + 1 -> 0 <= sgcw ->
    cd_stencil_1d_v2diag_by (parallel O) i0 i1 alpha sgcw st m =
    cd_stencil_1d_v2diag i0 i1 alpha sgcw st m.
Proof. exact @cd_stencil_1d_v2diag_par. Qed.
Print Assumptions C51_cd_stencil_1d_v2diag.

Example C51_cd_stencil_1d_v2diag_example : forall O : @pool ZS -> list nat,
  cd_stencil_1d_v2diag_by (S:=ZS) (parallel O) (-1) 2 ex_s 1 (0%nat, 2) ex_par =
  cd_stencil_1d_v2diag (-1) 2 ex_s 1 (0%nat, 2) ex_par.
Proof. intros O. apply C51_cd_stencil_1d_v2diag; ex_hyp. Qed.

Theorem C51_cd_stencil_1d_poisson_diag : forall (S : Scalar) O i0 i1 sgcw st (m : mem S),
  i0 <= i1 + 1 -> 0 <= sgcw ->
    cd_stencil_1d_poisson_diag_by (parallel O) i0 i1 sgcw st m =
    cd_stencil_1d_poisson_diag i0 i1 sgcw st m.
Proof. exact @cd_stencil_1d_poisson_diag_par. Qed.
Print Assumptions C51_cd_stencil_1d_poisson_diag.

Example C51_cd_stencil_1d_poisson_diag_example : forall O : @pool ZS -> list nat,
  cd_stencil_1d_poisson_diag_by (S:=ZS) (parallel O) (-1) 2 1 (0%nat, 2) ex_par =
  cd_stencil_1d_poisson_diag (-1) 2 1 (0%nat, 2) ex_par.
Proof. intros O. apply C51_cd_stencil_1d_poisson_diag; ex_hyp. Qed.

Theorem C51_cd_stencil_1d_adj_diag : forall (S : Scalar) O i0 i1 pi0 pi1 side btype exOrder dx beta b0 sgcw st
    (m : mem S),
  side = 0 \/ side = 1 -> i0 <= i1 -> at_side side i0 i1 pi0 -> 0 <= sgcw -> apart st [b0] ->
    cd_stencil_1d_adj_diag_by (parallel O) i0 i1 pi0 pi1 side btype exOrder dx beta b0 sgcw st m =
    cd_stencil_1d_adj_diag i0 i1 pi0 pi1 side btype exOrder dx beta b0 sgcw st m.
Proof. exact @cd_stencil_1d_adj_diag_par. Qed.
Print Assumptions C51_cd_stencil_1d_adj_diag.

Example C51_cd_stencil_1d_adj_diag_example : forall O : @pool ZS -> list nat,
  cd_stencil_1d_adj_diag_by (S:=ZS) (parallel O) (-1) 2 (-2) (-2) 0 0 2 ex_dx ex_s (0%nat, 2) 1 (1%nat, 3)
  ex_par =
  cd_stencil_1d_adj_diag (-1) 2 (-2) (-2) 0 0 2 ex_dx ex_s (0%nat, 2) 1 (1%nat, 3) ex_par.
Proof. intros O. apply C51_cd_stencil_1d_adj_diag; ex_hyp. Qed.

Theorem C51_cd_stencil_1d_adj_poisson_diag : forall (S : Scalar) O i0 i1 pi0 pi1 side btype exOrder dx beta sgcw
    st (m : mem S),
  side = 0 \/ side = 1 -> i0 <= i1 -> at_side side i0 i1 pi0 -> 0 <= sgcw ->
    cd_stencil_1d_adj_poisson_diag_by (parallel O) i0 i1 pi0 pi1 side btype exOrder dx beta sgcw st m =
    cd_stencil_1d_adj_poisson_diag i0 i1 pi0 pi1 side btype exOrder dx beta sgcw st m.
Proof. exact @cd_stencil_1d_adj_poisson_diag_par. Qed.
Print Assumptions C51_cd_stencil_1d_adj_poisson_diag.

Example C51_cd_stencil_1d_adj_poisson_diag_example : forall O : @pool ZS -> list nat,
  cd_stencil_1d_adj_poisson_diag_by (S:=ZS) (parallel O) (-1) 2 (-2) (-2) 0 0 2 ex_dx ex_s 1 (0%nat, 2) ex_par =
  cd_stencil_1d_adj_poisson_diag (-1) 2 (-2) (-2) 0 0 2 ex_dx ex_s 1 (0%nat, 2) ex_par.
Proof. intros O. apply C51_cd_stencil_1d_adj_poisson_diag; ex_hyp. Qed.

Theorem C51_cd_stencil_1d_adj_cf_diag : forall (S : Scalar) O i0 i1 pi0 pi1 r side intOrder dx beta b0 sgcw st
    (m : mem S),
  side = 0 \/ side = 1 -> i0 <= i1 -> at_side side i0 i1 pi0 -> 0 <= sgcw -> apart st [b0] ->
    cd_stencil_1d_adj_cf_diag_by (parallel O) i0 i1 pi0 pi1 r side intOrder dx beta b0 sgcw st m =
    cd_stencil_1d_adj_cf_diag i0 i1 pi0 pi1 r side intOrder dx beta b0 sgcw st m.
Proof. exact @cd_stencil_1d_adj_cf_diag_par. Qed.
Print Assumptions C51_cd_stencil_1d_adj_cf_diag.

Example C51_cd_stencil_1d_adj_cf_diag_example : forall O : @pool ZS -> list nat,
  cd_stencil_1d_adj_cf_diag_by (S:=ZS) (parallel O) (-1) 2 (-2) (-2) 2 0 2 ex_dx ex_s (0%nat, 2) 1 (1%nat, 3)
  ex_par =
  cd_stencil_1d_adj_cf_diag (-1) 2 (-2) (-2) 2 0 2 ex_dx ex_s (0%nat, 2) 1 (1%nat, 3) ex_par.
Proof. intros O. apply C51_cd_stencil_1d_adj_cf_diag; ex_hyp. Qed.

Theorem C51_cd_stencil_1d_adj_poisson_cf_diag : forall (S : Scalar) O i0 i1 pi0 pi1 r side intOrder dx beta sgcw
    st (m : mem S),
  side = 0 \/ side = 1 -> i0 <= i1 -> at_side side i0 i1 pi0 -> 0 <= sgcw ->
    cd_stencil_1d_adj_poisson_cf_diag_by (parallel O) i0 i1 pi0 pi1 r side intOrder dx beta sgcw st m =
    cd_stencil_1d_adj_poisson_cf_diag i0 i1 pi0 pi1 r side intOrder dx beta sgcw st m.
Proof. exact @cd_stencil_1d_adj_poisson_cf_diag_par. Qed.
Print Assumptions C51_cd_stencil_1d_adj_poisson_cf_diag.

Example C51_cd_stencil_1d_adj_poisson_cf_diag_example : forall O : @pool ZS -> list nat,
  cd_stencil_1d_adj_poisson_cf_diag_by (S:=ZS) (parallel O) (-1) 2 (-2) (-2) 2 0 2 ex_dx ex_s 1 (0%nat, 2)
  ex_par =
  cd_stencil_1d_adj_poisson_cf_diag (-1) 2 (-2) (-2) 2 0 2 ex_dx ex_s 1 (0%nat, 2) ex_par.
Proof. intros O. apply C51_cd_stencil_1d_adj_poisson_cf_diag; ex_hyp. Qed.

Theorem C51_cd_stencil_1d_adj_offdiag : forall (S : Scalar) O i0 i1 pi0 pi1 side btype exOrder dx dirf neuf beta
    b0 sgcw st (m : mem S),
  side = 0 \/ side = 1 -> i0 <= i1 -> at_side side i0 i1 pi0 -> 0 <= sgcw -> apart st [b0] ->
    cd_stencil_1d_adj_offdiag_by (parallel O) i0 i1 pi0 pi1 side btype exOrder dx dirf neuf beta b0 sgcw st m =
    cd_stencil_1d_adj_offdiag i0 i1 pi0 pi1 side btype exOrder dx dirf neuf beta b0 sgcw st m.
Proof. exact @cd_stencil_1d_adj_offdiag_par. Qed.
Print Assumptions C51_cd_stencil_1d_adj_offdiag.

Example C51_cd_stencil_1d_adj_offdiag_example : forall O : @pool ZS -> list nat,
  cd_stencil_1d_adj_offdiag_by (S:=ZS) (parallel O) (-1) 2 (-2) (-2) 0 0 2 ex_dx ex_s ex_s ex_s (0%nat, 2) 1
  (1%nat, 3) ex_par =
  cd_stencil_1d_adj_offdiag (-1) 2 (-2) (-2) 0 0 2 ex_dx ex_s ex_s ex_s (0%nat, 2) 1 (1%nat, 3) ex_par.
Proof. intros O. apply C51_cd_stencil_1d_adj_offdiag; ex_hyp. Qed.

Theorem C51_cd_stencil_1d_adj_poisson_offdiag : forall (S : Scalar) O i0 i1 pi0 pi1 side btype exOrder dx dirf
    neuf beta sgcw st (m : mem S),
  side = 0 \/ side = 1 -> i0 <= i1 -> at_side side i0 i1 pi0 -> 0 <= sgcw ->
    cd_stencil_1d_adj_poisson_offdiag_by (parallel O) i0 i1 pi0 pi1 side btype exOrder dx dirf neuf beta sgcw st
    m =
    cd_stencil_1d_adj_poisson_offdiag i0 i1 pi0 pi1 side btype exOrder dx dirf neuf beta sgcw st m.
Proof. exact @cd_stencil_1d_adj_poisson_offdiag_par. Qed.
Print Assumptions C51_cd_stencil_1d_adj_poisson_offdiag.

Example C51_cd_stencil_1d_adj_poisson_offdiag_example : forall O : @pool ZS -> list nat,
  cd_stencil_1d_adj_poisson_offdiag_by (S:=ZS) (parallel O) (-1) 2 (-2) (-2) 0 0 2 ex_dx ex_s ex_s ex_s 1
  (0%nat, 2) ex_par =
  cd_stencil_1d_adj_poisson_offdiag (-1) 2 (-2) (-2) 0 0 2 ex_dx ex_s ex_s ex_s 1 (0%nat, 2) ex_par.
Proof. intros O. apply C51_cd_stencil_1d_adj_poisson_offdiag; ex_hyp. Qed.

Theorem C51_cd_stencil_1d_adj_cf_offdiag : forall (S : Scalar) O i0 i1 ci0 ci1 r side intOrder sgcw st (m : mem
    S),
  side = 0 \/ side = 1 -> i0 <= i1 -> at_side side i0 i1 ci0 -> 0 <= sgcw ->
    cd_stencil_1d_adj_cf_offdiag_by (parallel O) i0 i1 ci0 ci1 r side intOrder sgcw st m =
    cd_stencil_1d_adj_cf_offdiag i0 i1 ci0 ci1 r side intOrder sgcw st m.
Proof. exact @cd_stencil_1d_adj_cf_offdiag_par. Qed.
Print Assumptions C51_cd_stencil_1d_adj_cf_offdiag.

Example C51_cd_stencil_1d_adj_cf_offdiag_example : forall O : @pool ZS -> list nat,
  cd_stencil_1d_adj_cf_offdiag_by (S:=ZS) (parallel O) (-1) 2 (-2) (-2) 2 0 2 1 (0%nat, 2) ex_par =
  cd_stencil_1d_adj_cf_offdiag (-1) 2 (-2) (-2) 2 0 2 1 (0%nat, 2) ex_par.
Proof. intros O. apply C51_cd_stencil_1d_adj_cf_offdiag; ex_hyp. Qed.

Theorem C51_cd_stencil_1d_readj_offdiag : forall (S : Scalar) O i0 i1 pi0 pi1 side sgcw st (m : mem S),
  side = 0 \/ side = 1 -> i0 <= i1 -> at_side side i0 i1 pi0 -> 0 <= sgcw ->
    cd_stencil_1d_readj_offdiag_by (parallel O) i0 i1 pi0 pi1 side sgcw st m =
    cd_stencil_1d_readj_offdiag i0 i1 pi0 pi1 side sgcw st m.
Proof. exact @cd_stencil_1d_readj_offdiag_par. Qed.
Print Assumptions C51_cd_stencil_1d_readj_offdiag.

Example C51_cd_stencil_1d_readj_offdiag_example : forall O : @pool ZS -> list nat,
  cd_stencil_1d_readj_offdiag_by (S:=ZS) (parallel O) (-1) 2 (-2) (-2) 0 1 (0%nat, 2) ex_par =
  cd_stencil_1d_readj_offdiag (-1) 2 (-2) (-2) 0 1 (0%nat, 2) ex_par.
Proof. intros O. apply C51_cd_stencil_1d_readj_offdiag; ex_hyp. Qed.

Theorem C51_cd_stencil_1d_adj_cf_bdryrhs : forall (S : Scalar) O i0 i1 pi0 pi1 side sgcw st gcw u rhs (m : mem
    S),
  side = 0 \/ side = 1 -> i0 <= i1 -> at_side side i0 i1 pi0 -> 0 <= sgcw -> 1 <= gcw -> apart rhs [st; u] ->
    cd_stencil_1d_adj_cf_bdryrhs_by (parallel O) i0 i1 pi0 pi1 side sgcw st gcw u rhs m =
    cd_stencil_1d_adj_cf_bdryrhs i0 i1 pi0 pi1 side sgcw st gcw u rhs m.
Proof. exact @cd_stencil_1d_adj_cf_bdryrhs_par. Qed.
Print Assumptions C51_cd_stencil_1d_adj_cf_bdryrhs.

Example C51_cd_stencil_1d_adj_cf_bdryrhs_example : forall O : @pool ZS -> list nat,
  cd_stencil_1d_adj_cf_bdryrhs_by (S:=ZS) (parallel O) (-1) 2 (-2) (-2) 0 1 (0%nat, 2) 1 (1%nat, 3) (2%nat, 4)
  ex_par =
  cd_stencil_1d_adj_cf_bdryrhs (-1) 2 (-2) (-2) 0 1 (0%nat, 2) 1 (1%nat, 3) (2%nat, 4) ex_par.
Proof. intros O. apply C51_cd_stencil_1d_adj_cf_bdryrhs; ex_hyp. Qed.

Theorem C51_cd_stencil_2d_offdiag : forall (S : Scalar) O i0 j0 i1 j1 bi0 bj0 bi1 bj1 dx beta b0 b1 sgcw st (m :
    mem S),
  i0 <= i1 + 1 -> j0 <= j1 + 1 -> 0 <= sgcw -> bi0 <= i0 -> i1 <= bi1 -> bj0 <= j0 -> j1 <= bj1 ->
  apart st [b0; b1] ->
    cd_stencil_2d_offdiag_by (parallel O) i0 j0 i1 j1 bi0 bj0 bi1 bj1 dx beta b0 b1 sgcw st m =
    cd_stencil_2d_offdiag i0 j0 i1 j1 bi0 bj0 bi1 bj1 dx beta b0 b1 sgcw st m.
Proof. exact @cd_stencil_2d_offdiag_par. Qed.
Print Assumptions C51_cd_stencil_2d_offdiag.

Example C51_cd_stencil_2d_offdiag_example : forall O : @pool ZS -> list nat,
  cd_stencil_2d_offdiag_by (S:=ZS) (parallel O) (-1) 0 2 2 (-3) 0 5 2 ex_dx ex_s (0%nat, 2) (1%nat, 3) 1 (2%nat,
  4) ex_par =
  cd_stencil_2d_offdiag (-1) 0 2 2 (-3) 0 5 2 ex_dx ex_s (0%nat, 2) (1%nat, 3) 1 (2%nat, 4) ex_par.
Proof. intros O. apply C51_cd_stencil_2d_offdiag; ex_hyp. Qed.

Theorem C51_cd_stencil_2d_poisson_offdiag : forall (S : Scalar) O i0 j0 i1 j1 dx beta sgcw st (m : mem S),
  i0 <= i1 + 1 -> j0 <= j1 + 1 -> 0 <= sgcw ->
    cd_stencil_2d_poisson_offdiag_by (parallel O) i0 j0 i1 j1 dx beta sgcw st m =
    cd_stencil_2d_poisson_offdiag i0 j0 i1 j1 dx beta sgcw st m.
Proof. exact @cd_stencil_2d_poisson_offdiag_par. Qed.
Print Assumptions C51_cd_stencil_2d_poisson_offdiag.

Example C51_cd_stencil_2d_poisson_offdiag_example : forall O : @pool ZS -> list nat,
  cd_stencil_2d_poisson_offdiag_by (S:=ZS) (parallel O) (-1) 0 2 2 ex_dx ex_s 1 (0%nat, 2) ex_par =
  cd_stencil_2d_poisson_offdiag (-1) 0 2 2 ex_dx ex_s 1 (0%nat, 2) ex_par.
Proof. intros O. apply C51_cd_stencil_2d_poisson_offdiag; ex_hyp. Qed.

Theorem C51_cd_stencil_2d_v1diag : forall (S : Scalar) O i0 j0 i1 j1 ai0 aj0 ai1 aj1 alpha a sgcw st (m : mem
    S),
  i0 <= i1 + 1 -> j0 <= j1 + 1 -> 0 <= sgcw -> ai0 <= i0 -> i1 <= ai1 -> aj0 <= j0 -> j1 <= aj1 ->
  apart st [a] ->
    cd_stencil_2d_v1diag_by (parallel O) i0 j0 i1 j1 ai0 aj0 ai1 aj1 alpha a sgcw st m =
    cd_stencil_2d_v1diag i0 j0 i1 j1 ai0 aj0 ai1 aj1 alpha a sgcw st m.
Proof. exact @cd_stencil_2d_v1diag_par. Qed.
Print Assumptions C51_cd_stencil_2d_v1diag.

Example C51_cd_stencil_2d_v1diag_example : forall O : @pool ZS -> list nat,
  cd_stencil_2d_v1diag_by (S:=ZS) (parallel O) (-1) 0 2 2 (-1) (-1) 2 3 ex_s (0%nat, 2) 1 (1%nat, 3) ex_par =
  cd_stencil_2d_v1diag (-1) 0 2 2 (-1) (-1) 2 3 ex_s (0%nat, 2) 1 (1%nat, 3) ex_par.
Proof. intros O. apply C51_cd_stencil_2d_v1diag; ex_hyp. Qed.

Theorem C51_cd_stencil_2d_v2diag : forall (S : Scalar) O i0 j0 i1 j1 alpha sgcw st (m : mem S),
  i0 <= i1 + 1 -> j0 <= j1 + 1 -> 0 <= sgcw ->
    cd_stencil_2d_v2diag_by (parallel O) i0 j0 i1 j1 alpha sgcw st m =
    cd_stencil_2d_v2diag i0 j0 i1 j1 alpha sgcw st m.
Proof. exact @cd_stencil_2d_v2diag_par. Qed.
Print Assumptions C51_cd_stencil_2d_v2diag.

Example C51_cd_stencil_2d_v2diag_example : forall O : @pool ZS -> list nat,
  cd_stencil_2d_v2diag_by (S:=ZS) (parallel O) (-1) 0 2 2 ex_s 1 (0%nat, 2) ex_par =
  cd_stencil_2d_v2diag (-1) 0 2 2 ex_s 1 (0%nat, 2) ex_par.
Proof. intros O. apply C51_cd_stencil_2d_v2diag; ex_hyp. Qed.

Theorem C51_cd_stencil_2d_poisson_diag : forall (S : Scalar) O i0 j0 i1 j1 sgcw st (m : mem S),
  i0 <= i1 + 1 -> j0 <= j1 + 1 -> 0 <= sgcw ->
    cd_stencil_2d_poisson_diag_by (parallel O) i0 j0 i1 j1 sgcw st m =
    cd_stencil_2d_poisson_diag i0 j0 i1 j1 sgcw st m.
Proof. exact @cd_stencil_2d_poisson_diag_par. Qed.
Print Assumptions C51_cd_stencil_2d_poisson_diag.

Example C51_cd_stencil_2d_poisson_diag_example : forall O : @pool ZS -> list nat,
  cd_stencil_2d_poisson_diag_by (S:=ZS) (parallel O) (-1) 0 2 2 1 (0%nat, 2) ex_par =
  cd_stencil_2d_poisson_diag (-1) 0 2 2 1 (0%nat, 2) ex_par.
Proof. intros O. apply C51_cd_stencil_2d_poisson_diag; ex_hyp. Qed.

Theorem C51_cd_stencil_2d_adj_diag : forall (S : Scalar) O i0 j0 i1 j1 pi0 pj0 pi1 pj1 dir side btype exOrder dx
    beta b0 b1 sgcw st (m : mem S),
  side = 0 \/ side = 1 -> i0 <= i1 -> j0 <= j1 ->
  (dir = 0 -> at_side side i0 i1 pi0 /\ seg_within j0 j1 pj0 pj1) ->
  (dir = 1 -> at_side side j0 j1 pj0 /\ seg_within i0 i1 pi0 pi1) -> 1 <= sgcw -> apart st [b0; b1] ->
    cd_stencil_2d_adj_diag_by (parallel O) i0 j0 i1 j1 pi0 pj0 pi1 pj1 dir side btype exOrder dx beta b0 b1 sgcw
    st m =
    cd_stencil_2d_adj_diag i0 j0 i1 j1 pi0 pj0 pi1 pj1 dir side btype exOrder dx beta b0 b1 sgcw st m.
Proof. exact @cd_stencil_2d_adj_diag_par. Qed.
Print Assumptions C51_cd_stencil_2d_adj_diag.

Example C51_cd_stencil_2d_adj_diag_example : forall O : @pool ZS -> list nat,
  cd_stencil_2d_adj_diag_by (S:=ZS) (parallel O) (-1) 0 2 2 (-2) 0 (-2) 2 0 0 0 2 ex_dx ex_s (0%nat, 2) (1%nat,
  3) 1 (2%nat, 4) ex_par =
  cd_stencil_2d_adj_diag (-1) 0 2 2 (-2) 0 (-2) 2 0 0 0 2 ex_dx ex_s (0%nat, 2) (1%nat, 3) 1 (2%nat, 4) ex_par.
Proof. intros O. apply C51_cd_stencil_2d_adj_diag; ex_hyp. Qed.

Theorem C51_cd_stencil_2d_adj_poisson_diag : forall (S : Scalar) O i0 j0 i1 j1 pi0 pj0 pi1 pj1 dir side btype
    exOrder dx beta sgcw st (m : mem S),
  side = 0 \/ side = 1 -> i0 <= i1 -> j0 <= j1 ->
  (dir = 0 -> at_side side i0 i1 pi0 /\ seg_within j0 j1 pj0 pj1) ->
  (dir = 1 -> at_side side j0 j1 pj0 /\ seg_within i0 i1 pi0 pi1) -> 0 <= sgcw ->
    cd_stencil_2d_adj_poisson_diag_by (parallel O) i0 j0 i1 j1 pi0 pj0 pi1 pj1 dir side btype exOrder dx beta
    sgcw st m =
    cd_stencil_2d_adj_poisson_diag i0 j0 i1 j1 pi0 pj0 pi1 pj1 dir side btype exOrder dx beta sgcw st m.
Proof. exact @cd_stencil_2d_adj_poisson_diag_par. Qed.
Print Assumptions C51_cd_stencil_2d_adj_poisson_diag.

Example C51_cd_stencil_2d_adj_poisson_diag_example : forall O : @pool ZS -> list nat,
  cd_stencil_2d_adj_poisson_diag_by (S:=ZS) (parallel O) (-1) 0 2 2 (-2) 0 (-2) 2 0 0 0 2 ex_dx ex_s 1 (0%nat,
  2) ex_par =
  cd_stencil_2d_adj_poisson_diag (-1) 0 2 2 (-2) 0 (-2) 2 0 0 0 2 ex_dx ex_s 1 (0%nat, 2) ex_par.
Proof. intros O. apply C51_cd_stencil_2d_adj_poisson_diag; ex_hyp. Qed.

Theorem C51_cd_stencil_2d_adj_cf_diag : forall (S : Scalar) O i0 j0 i1 j1 pi0 pj0 pi1 pj1 r dir side intOrder dx
    beta b0 b1 sgcw st (m : mem S),
  side = 0 \/ side = 1 -> i0 <= i1 -> j0 <= j1 ->
  (dir = 0 -> at_side side i0 i1 pi0 /\ seg_within j0 j1 pj0 pj1) ->
  (dir = 1 -> at_side side j0 j1 pj0 /\ seg_within i0 i1 pi0 pi1) -> 0 <= sgcw -> apart st [b0; b1] ->
    cd_stencil_2d_adj_cf_diag_by (parallel O) i0 j0 i1 j1 pi0 pj0 pi1 pj1 r dir side intOrder dx beta b0 b1 sgcw
    st m =
    cd_stencil_2d_adj_cf_diag i0 j0 i1 j1 pi0 pj0 pi1 pj1 r dir side intOrder dx beta b0 b1 sgcw st m.
Proof. exact @cd_stencil_2d_adj_cf_diag_par. Qed.
Print Assumptions C51_cd_stencil_2d_adj_cf_diag.

Example C51_cd_stencil_2d_adj_cf_diag_example : forall O : @pool ZS -> list nat,
  cd_stencil_2d_adj_cf_diag_by (S:=ZS) (parallel O) (-1) 0 2 2 (-2) 0 (-2) 2 2 0 0 2 ex_dx ex_s (0%nat, 2)
  (1%nat, 3) 1 (2%nat, 4) ex_par =
  cd_stencil_2d_adj_cf_diag (-1) 0 2 2 (-2) 0 (-2) 2 2 0 0 2 ex_dx ex_s (0%nat, 2) (1%nat, 3) 1 (2%nat, 4)
  ex_par.
Proof. intros O. apply C51_cd_stencil_2d_adj_cf_diag; ex_hyp. Qed.

Theorem C51_cd_stencil_2d_adj_poisson_cf_diag : forall (S : Scalar) O i0 j0 i1 j1 pi0 pj0 pi1 pj1 r dir side
    intOrder dx beta sgcw st (m : mem S),
  side = 0 \/ side = 1 -> i0 <= i1 -> j0 <= j1 ->
  (dir = 0 -> at_side side i0 i1 pi0 /\ seg_within j0 j1 pj0 pj1) ->
  (dir = 1 -> at_side side j0 j1 pj0 /\ seg_within i0 i1 pi0 pi1) -> 0 <= sgcw ->
    cd_stencil_2d_adj_poisson_cf_diag_by (parallel O) i0 j0 i1 j1 pi0 pj0 pi1 pj1 r dir side intOrder dx beta
    sgcw st m =
    cd_stencil_2d_adj_poisson_cf_diag i0 j0 i1 j1 pi0 pj0 pi1 pj1 r dir side intOrder dx beta sgcw st m.
Proof. exact @cd_stencil_2d_adj_poisson_cf_diag_par. Qed.
Print Assumptions C51_cd_stencil_2d_adj_poisson_cf_diag.

Example C51_cd_stencil_2d_adj_poisson_cf_diag_example : forall O : @pool ZS -> list nat,
  cd_stencil_2d_adj_poisson_cf_diag_by (S:=ZS) (parallel O) (-1) 0 2 2 (-2) 0 (-2) 2 2 0 0 2 ex_dx ex_s 1
  (0%nat, 2) ex_par =
  cd_stencil_2d_adj_poisson_cf_diag (-1) 0 2 2 (-2) 0 (-2) 2 2 0 0 2 ex_dx ex_s 1 (0%nat, 2) ex_par.
Proof. intros O. apply C51_cd_stencil_2d_adj_poisson_cf_diag; ex_hyp. Qed.

Theorem C51_cd_stencil_2d_adj_offdiag : forall (S : Scalar) O i0 j0 i1 j1 pi0 pj0 pi1 pj1 dir side btype exOrder
    dx dirf neuf beta b0 b1 sgcw st (m : mem S),
  side = 0 \/ side = 1 -> i0 <= i1 -> j0 <= j1 ->
  (dir = 0 -> at_side side i0 i1 pi0 /\ seg_within j0 j1 pj0 pj1) ->
  (dir = 1 -> at_side side j0 j1 pj0 /\ seg_within i0 i1 pi0 pi1) -> 0 <= sgcw -> apart st [b0; b1] ->
    cd_stencil_2d_adj_offdiag_by (parallel O) i0 j0 i1 j1 pi0 pj0 pi1 pj1 dir side btype exOrder dx dirf neuf
    beta b0 b1 sgcw st m =
    cd_stencil_2d_adj_offdiag i0 j0 i1 j1 pi0 pj0 pi1 pj1 dir side btype exOrder dx dirf neuf beta b0 b1 sgcw st
    m.
Proof. exact @cd_stencil_2d_adj_offdiag_par. Qed.
Print Assumptions C51_cd_stencil_2d_adj_offdiag.

Example C51_cd_stencil_2d_adj_offdiag_example : forall O : @pool ZS -> list nat,
  cd_stencil_2d_adj_offdiag_by (S:=ZS) (parallel O) (-1) 0 2 2 (-2) 0 (-2) 2 0 0 0 2 ex_dx ex_s ex_s ex_s
  (0%nat, 2) (1%nat, 3) 1 (2%nat, 4) ex_par =
  cd_stencil_2d_adj_offdiag (-1) 0 2 2 (-2) 0 (-2) 2 0 0 0 2 ex_dx ex_s ex_s ex_s (0%nat, 2) (1%nat, 3) 1
  (2%nat, 4) ex_par.
Proof. intros O. apply C51_cd_stencil_2d_adj_offdiag; ex_hyp. Qed.

Theorem C51_cd_stencil_2d_adj_poisson_offdiag : forall (S : Scalar) O i0 j0 i1 j1 pi0 pj0 pi1 pj1 dir side btype
    exOrder dx dirf neuf beta sgcw st (m : mem S),
  side = 0 \/ side = 1 -> i0 <= i1 -> j0 <= j1 ->
  (dir = 0 -> at_side side i0 i1 pi0 /\ seg_within j0 j1 pj0 pj1) ->
  (dir = 1 -> at_side side j0 j1 pj0 /\ seg_within i0 i1 pi0 pi1) -> 0 <= sgcw ->
    cd_stencil_2d_adj_poisson_offdiag_by (parallel O) i0 j0 i1 j1 pi0 pj0 pi1 pj1 dir side btype exOrder dx dirf
    neuf beta sgcw st m =
    cd_stencil_2d_adj_poisson_offdiag i0 j0 i1 j1 pi0 pj0 pi1 pj1 dir side btype exOrder dx dirf neuf beta sgcw
    st m.
Proof. exact @cd_stencil_2d_adj_poisson_offdiag_par. Qed.
Print Assumptions C51_cd_stencil_2d_adj_poisson_offdiag.

Example C51_cd_stencil_2d_adj_poisson_offdiag_example : forall O : @pool ZS -> list nat,
  cd_stencil_2d_adj_poisson_offdiag_by (S:=ZS) (parallel O) (-1) 0 2 2 (-2) 0 (-2) 2 0 0 0 2 ex_dx ex_s ex_s
  ex_s 1 (0%nat, 2) ex_par =
  cd_stencil_2d_adj_poisson_offdiag (-1) 0 2 2 (-2) 0 (-2) 2 0 0 0 2 ex_dx ex_s ex_s ex_s 1 (0%nat, 2) ex_par.
Proof. intros O. apply C51_cd_stencil_2d_adj_poisson_offdiag; ex_hyp. Qed.

Theorem C51_cd_stencil_2d_adj_cf_offdiag : forall (S : Scalar) O i0 j0 i1 j1 ci0 cj0 ci1 cj1 r dir side intOrder
    sgcw st (m : mem S),
  side = 0 \/ side = 1 -> i0 <= i1 -> j0 <= j1 ->
  (dir = 0 -> at_side side i0 i1 ci0 /\ seg_within j0 j1 cj0 cj1) ->
  (dir = 1 -> at_side side j0 j1 cj0 /\ seg_within i0 i1 ci0 ci1) -> 0 <= sgcw ->
    cd_stencil_2d_adj_cf_offdiag_by (parallel O) i0 j0 i1 j1 ci0 cj0 ci1 cj1 r dir side intOrder sgcw st m =
    cd_stencil_2d_adj_cf_offdiag i0 j0 i1 j1 ci0 cj0 ci1 cj1 r dir side intOrder sgcw st m.
Proof. exact @cd_stencil_2d_adj_cf_offdiag_par. Qed.
Print Assumptions C51_cd_stencil_2d_adj_cf_offdiag.

Example C51_cd_stencil_2d_adj_cf_offdiag_example : forall O : @pool ZS -> list nat,
  cd_stencil_2d_adj_cf_offdiag_by (S:=ZS) (parallel O) (-1) 0 2 2 (-2) 0 (-2) 2 2 0 0 2 1 (0%nat, 2) ex_par =
  cd_stencil_2d_adj_cf_offdiag (-1) 0 2 2 (-2) 0 (-2) 2 2 0 0 2 1 (0%nat, 2) ex_par.
Proof. intros O. apply C51_cd_stencil_2d_adj_cf_offdiag; ex_hyp. Qed.

Theorem C51_cd_stencil_2d_readj_offdiag : forall (S : Scalar) O i0 j0 i1 j1 pi0 pj0 pi1 pj1 dir side sgcw st (m
    : mem S),
  side = 0 \/ side = 1 -> i0 <= i1 -> j0 <= j1 ->
  (dir = 0 -> at_side side i0 i1 pi0 /\ seg_within j0 j1 pj0 pj1) ->
  (dir = 1 -> at_side side j0 j1 pj0 /\ seg_within i0 i1 pi0 pi1) -> 0 <= sgcw ->
    cd_stencil_2d_readj_offdiag_by (parallel O) i0 j0 i1 j1 pi0 pj0 pi1 pj1 dir side sgcw st m =
    cd_stencil_2d_readj_offdiag i0 j0 i1 j1 pi0 pj0 pi1 pj1 dir side sgcw st m.
Proof. exact @cd_stencil_2d_readj_offdiag_par. Qed.
Print Assumptions C51_cd_stencil_2d_readj_offdiag.

Example C51_cd_stencil_2d_readj_offdiag_example : forall O : @pool ZS -> list nat,
  cd_stencil_2d_readj_offdiag_by (S:=ZS) (parallel O) (-1) 0 2 2 (-2) 0 (-2) 2 0 0 1 (0%nat, 2) ex_par =
  cd_stencil_2d_readj_offdiag (-1) 0 2 2 (-2) 0 (-2) 2 0 0 1 (0%nat, 2) ex_par.
Proof. intros O. apply C51_cd_stencil_2d_readj_offdiag; ex_hyp. Qed.

Theorem C51_cd_stencil_2d_adj_cf_bdryrhs : forall (S : Scalar) O i0 j0 i1 j1 pi0 pj0 pi1 pj1 dir side sgcw st
    gcw u rhs (m : mem S),
  side = 0 \/ side = 1 -> i0 <= i1 -> j0 <= j1 ->
  (dir = 0 -> at_side side i0 i1 pi0 /\ seg_within j0 j1 pj0 pj1) ->
  (dir = 1 -> at_side side j0 j1 pj0 /\ seg_within i0 i1 pi0 pi1) -> 0 <= sgcw -> 1 <= gcw ->
  apart rhs [st; u] ->
    cd_stencil_2d_adj_cf_bdryrhs_by (parallel O) i0 j0 i1 j1 pi0 pj0 pi1 pj1 dir side sgcw st gcw u rhs m =
    cd_stencil_2d_adj_cf_bdryrhs i0 j0 i1 j1 pi0 pj0 pi1 pj1 dir side sgcw st gcw u rhs m.
Proof. exact @cd_stencil_2d_adj_cf_bdryrhs_par. Qed.
Print Assumptions C51_cd_stencil_2d_adj_cf_bdryrhs.

Example C51_cd_stencil_2d_adj_cf_bdryrhs_example : forall O : @pool ZS -> list nat,
  cd_stencil_2d_adj_cf_bdryrhs_by (S:=ZS) (parallel O) (-1) 0 2 2 (-2) 0 (-2) 2 0 0 1 (0%nat, 2) 1 (1%nat, 3)
  (2%nat, 4) ex_par =
  cd_stencil_2d_adj_cf_bdryrhs (-1) 0 2 2 (-2) 0 (-2) 2 0 0 1 (0%nat, 2) 1 (1%nat, 3) (2%nat, 4) ex_par.
Proof. intros O. apply C51_cd_stencil_2d_adj_cf_bdryrhs; ex_hyp. Qed.

(** ** Stencil coefficients, 3D *)

Theorem C51_cd_stencil_3d_offdiag : forall (S : Scalar) O i0 j0 k0 i1 j1 k1 bi0 bj0 bk0 bi1 bj1 bk1 dx beta b0
    b1 b2 sgcw st (m : mem S),
  i0 <= i1 + 1 -> j0 <= j1 + 1 -> k0 <= k1 + 1 -> 0 <= sgcw -> bi0 <= i0 -> i1 <= bi1 -> bj0 <= j0 ->
  j1 <= bj1 -> bk0 <= k0 -> k1 <= bk1 -> apart st [b0; b1; b2] ->
    cd_stencil_3d_offdiag_by (parallel O) i0 j0 k0 i1 j1 k1 bi0 bj0 bk0 bi1 bj1 bk1 dx beta b0 b1 b2 sgcw st m =
    cd_stencil_3d_offdiag i0 j0 k0 i1 j1 k1 bi0 bj0 bk0 bi1 bj1 bk1 dx beta b0 b1 b2 sgcw st m.
Proof. exact @cd_stencil_3d_offdiag_par. Qed.
Print Assumptions C51_cd_stencil_3d_offdiag.

Example C51_cd_stencil_3d_offdiag_example : forall O : @pool ZS -> list nat,
  cd_stencil_3d_offdiag_by (S:=ZS) (parallel O) (-1) 0 1 2 2 2 (-3) 0 0 5 2 4 ex_dx ex_s (0%nat, 2) (1%nat, 3)
  (2%nat, 4) 1 (3%nat, 5) ex_par =
  cd_stencil_3d_offdiag (-1) 0 1 2 2 2 (-3) 0 0 5 2 4 ex_dx ex_s (0%nat, 2) (1%nat, 3) (2%nat, 4) 1 (3%nat, 5)
  ex_par.
Proof. intros O. apply C51_cd_stencil_3d_offdiag; ex_hyp. Qed.

Theorem C51_cd_stencil_3d_poisson_offdiag : forall (S : Scalar) O i0 j0 k0 i1 j1 k1 dx beta sgcw st (m : mem S),
  i0 <= i1 + 1 -> j0 <= j1 + 1 -> k0 <= k1 + 1 -> 0 <= sgcw ->
    cd_stencil_3d_poisson_offdiag_by (parallel O) i0 j0 k0 i1 j1 k1 dx beta sgcw st m =
    cd_stencil_3d_poisson_offdiag i0 j0 k0 i1 j1 k1 dx beta sgcw st m.
Proof. exact @cd_stencil_3d_poisson_offdiag_par. Qed.
Print Assumptions C51_cd_stencil_3d_poisson_offdiag.

Example C51_cd_stencil_3d_poisson_offdiag_example : forall O : @pool ZS -> list nat,
  cd_stencil_3d_poisson_offdiag_by (S:=ZS) (parallel O) (-1) 0 1 2 2 2 ex_dx ex_s 1 (0%nat, 2) ex_par =
  cd_stencil_3d_poisson_offdiag (-1) 0 1 2 2 2 ex_dx ex_s 1 (0%nat, 2) ex_par.
Proof. intros O. apply C51_cd_stencil_3d_poisson_offdiag; ex_hyp. Qed.

Theorem C51_cd_stencil_3d_v1diag : forall (S : Scalar) O i0 j0 k0 i1 j1 k1 ai0 aj0 ak0 ai1 aj1 ak1 alpha a sgcw
    st (m : mem S),
  i0 <= i1 + 1 -> j0 <= j1 + 1 -> k0 <= k1 + 1 -> 0 <= sgcw -> ai0 <= i0 -> i1 <= ai1 -> aj0 <= j0 ->
  j1 <= aj1 -> ak0 <= k0 -> k1 <= ak1 -> apart st [a] ->
    cd_stencil_3d_v1diag_by (parallel O) i0 j0 k0 i1 j1 k1 ai0 aj0 ak0 ai1 aj1 ak1 alpha a sgcw st m =
    cd_stencil_3d_v1diag i0 j0 k0 i1 j1 k1 ai0 aj0 ak0 ai1 aj1 ak1 alpha a sgcw st m.
Proof. exact @cd_stencil_3d_v1diag_par. Qed.
Print Assumptions C51_cd_stencil_3d_v1diag.

Example C51_cd_stencil_3d_v1diag_example : forall O : @pool ZS -> list nat,
  cd_stencil_3d_v1diag_by (S:=ZS) (parallel O) (-1) 0 1 2 2 2 (-1) (-1) 1 2 3 2 ex_s (0%nat, 2) 1 (1%nat, 3)
  ex_par =
  cd_stencil_3d_v1diag (-1) 0 1 2 2 2 (-1) (-1) 1 2 3 2 ex_s (0%nat, 2) 1 (1%nat, 3) ex_par.
Proof. intros O. apply C51_cd_stencil_3d_v1diag; ex_hyp. Qed.

Theorem C51_cd_stencil_3d_v2diag : forall (S : Scalar) O i0 j0 k0 i1 j1 k1 alpha sgcw st (m : mem S),
  i0 <= i1 + 1 -> j0 <= j1 + 1 -> k0 <= k1 + 1 -> 0 <= sgcw ->
    cd_stencil_3d_v2diag_by (parallel O) i0 j0 k0 i1 j1 k1 alpha sgcw st m =
    cd_stencil_3d_v2diag i0 j0 k0 i1 j1 k1 alpha sgcw st m.
Proof. exact @cd_stencil_3d_v2diag_par. Qed.
Print Assumptions C51_cd_stencil_3d_v2diag.

Example C51_cd_stencil_3d_v2diag_example : forall O : @pool ZS -> list nat,
  cd_stencil_3d_v2diag_by (S:=ZS) (parallel O) (-1) 0 1 2 2 2 ex_s 1 (0%nat, 2) ex_par =
  cd_stencil_3d_v2diag (-1) 0 1 2 2 2 ex_s 1 (0%nat, 2) ex_par.
Proof. intros O. apply C51_cd_stencil_3d_v2diag; ex_hyp. Qed.

Theorem C51_cd_stencil_3d_poisson_diag : forall (S : Scalar) O i0 j0 k0 i1 j1 k1 sgcw st (m : mem S),
  i0 <= i1 + 1 -> j0 <= j1 + 1 -> k0 <= k1 + 1 -> 0 <= sgcw ->
    cd_stencil_3d_poisson_diag_by (parallel O) i0 j0 k0 i1 j1 k1 sgcw st m =
    cd_stencil_3d_poisson_diag i0 j0 k0 i1 j1 k1 sgcw st m.
Proof. exact @cd_stencil_3d_poisson_diag_par. Qed.
Print Assumptions C51_cd_stencil_3d_poisson_diag.

Example C51_cd_stencil_3d_poisson_diag_example : forall O : @pool ZS -> list nat,
  cd_stencil_3d_poisson_diag_by (S:=ZS) (parallel O) (-1) 0 1 2 2 2 1 (0%nat, 2) ex_par =
  cd_stencil_3d_poisson_diag (-1) 0 1 2 2 2 1 (0%nat, 2) ex_par.
Proof. intros O. apply C51_cd_stencil_3d_poisson_diag; ex_hyp. Qed.

Theorem C51_cd_stencil_3d_adj_diag : forall (S : Scalar) O i0 j0 k0 i1 j1 k1 pi0 pj0 pk0 pi1 pj1 pk1 dir side
    btype exOrder dx beta b0 b1 b2 sgcw st (m : mem S),
  side = 0 \/ side = 1 -> i0 <= i1 -> j0 <= j1 -> k0 <= k1 ->
  (dir = 0 -> at_side side i0 i1 pi0 /\ seg_within j0 j1 pj0 pj1 /\ seg_within k0 k1 pk0 pk1) ->
  (dir = 1 -> at_side side j0 j1 pj0 /\ seg_within i0 i1 pi0 pi1 /\ seg_within k0 k1 pk0 pk1) ->
  (dir = 2 -> at_side side k0 k1 pk0 /\ seg_within i0 i1 pi0 pi1 /\ seg_within j0 j1 pj0 pj1) -> 0 <= sgcw ->
  apart st [b0; b1; b2] ->
    cd_stencil_3d_adj_diag_by (parallel O) i0 j0 k0 i1 j1 k1 pi0 pj0 pk0 pi1 pj1 pk1 dir side btype exOrder dx
    beta b0 b1 b2 sgcw st m =
    cd_stencil_3d_adj_diag i0 j0 k0 i1 j1 k1 pi0 pj0 pk0 pi1 pj1 pk1 dir side btype exOrder dx beta b0 b1 b2
    sgcw st m.
Proof. exact @cd_stencil_3d_adj_diag_par. Qed.
Print Assumptions C51_cd_stencil_3d_adj_diag.

Example C51_cd_stencil_3d_adj_diag_example : forall O : @pool ZS -> list nat,
  cd_stencil_3d_adj_diag_by (S:=ZS) (parallel O) (-1) 0 1 2 2 2 (-2) 0 1 (-2) 2 2 0 0 0 2 ex_dx ex_s (0%nat, 2)
  (1%nat, 3) (2%nat, 4) 1 (3%nat, 5) ex_par =
  cd_stencil_3d_adj_diag (-1) 0 1 2 2 2 (-2) 0 1 (-2) 2 2 0 0 0 2 ex_dx ex_s (0%nat, 2) (1%nat, 3) (2%nat, 4) 1
  (3%nat, 5) ex_par.
Proof. intros O. apply C51_cd_stencil_3d_adj_diag; ex_hyp. Qed.

Theorem C51_cd_stencil_3d_adj_poisson_diag : forall (S : Scalar) O i0 j0 k0 i1 j1 k1 pi0 pj0 pk0 pi1 pj1 pk1 dir
    side btype exOrder dx beta sgcw st (m : mem S),
  side = 0 \/ side = 1 -> i0 <= i1 -> j0 <= j1 -> k0 <= k1 ->
  (dir = 0 -> at_side side i0 i1 pi0 /\ seg_within j0 j1 pj0 pj1 /\ seg_within k0 k1 pk0 pk1) ->
  (dir = 1 -> at_side side j0 j1 pj0 /\ seg_within i0 i1 pi0 pi1 /\ seg_within k0 k1 pk0 pk1) ->
  (dir = 2 -> at_side side k0 k1 pk0 /\ seg_within i0 i1 pi0 pi1 /\ seg_within j0 j1 pj0 pj1) -> 0 <= sgcw ->
    cd_stencil_3d_adj_poisson_diag_by (parallel O) i0 j0 k0 i1 j1 k1 pi0 pj0 pk0 pi1 pj1 pk1 dir side btype
    exOrder dx beta sgcw st m =
    cd_stencil_3d_adj_poisson_diag i0 j0 k0 i1 j1 k1 pi0 pj0 pk0 pi1 pj1 pk1 dir side btype exOrder dx beta sgcw
    st m.
Proof. exact @cd_stencil_3d_adj_poisson_diag_par. Qed.
Print Assumptions C51_cd_stencil_3d_adj_poisson_diag.

Example C51_cd_stencil_3d_adj_poisson_diag_example : forall O : @pool ZS -> list nat,
  cd_stencil_3d_adj_poisson_diag_by (S:=ZS) (parallel O) (-1) 0 1 2 2 2 (-2) 0 1 (-2) 2 2 0 0 0 2 ex_dx ex_s 1
  (0%nat, 2) ex_par =
  cd_stencil_3d_adj_poisson_diag (-1) 0 1 2 2 2 (-2) 0 1 (-2) 2 2 0 0 0 2 ex_dx ex_s 1 (0%nat, 2) ex_par.
Proof. intros O. apply C51_cd_stencil_3d_adj_poisson_diag; ex_hyp. Qed.

Theorem C51_cd_stencil_3d_adj_cf_diag : forall (S : Scalar) O i0 j0 k0 i1 j1 k1 pi0 pj0 pk0 pi1 pj1 pk1 r dir
    side intOrder dx beta b0 b1 b2 sgcw st (m : mem S),
  side = 0 \/ side = 1 -> i0 <= i1 -> j0 <= j1 -> k0 <= k1 ->
  (dir = 0 -> at_side side i0 i1 pi0 /\ seg_within j0 j1 pj0 pj1 /\ seg_within k0 k1 pk0 pk1) ->
  (dir = 1 -> at_side side j0 j1 pj0 /\ seg_within i0 i1 pi0 pi1 /\ seg_within k0 k1 pk0 pk1) ->
  (dir = 2 -> at_side side k0 k1 pk0 /\ seg_within i0 i1 pi0 pi1 /\ seg_within j0 j1 pj0 pj1) -> 0 <= sgcw ->
  apart st [b0; b1; b2] ->
    cd_stencil_3d_adj_cf_diag_by (parallel O) i0 j0 k0 i1 j1 k1 pi0 pj0 pk0 pi1 pj1 pk1 r dir side intOrder dx
    beta b0 b1 b2 sgcw st m =
    cd_stencil_3d_adj_cf_diag i0 j0 k0 i1 j1 k1 pi0 pj0 pk0 pi1 pj1 pk1 r dir side intOrder dx beta b0 b1 b2
    sgcw st m.
Proof. exact @cd_stencil_3d_adj_cf_diag_par. Qed.
Print Assumptions C51_cd_stencil_3d_adj_cf_diag.

Example C51_cd_stencil_3d_adj_cf_diag_example : forall O : @pool ZS -> list nat,
  cd_stencil_3d_adj_cf_diag_by (S:=ZS) (parallel O) (-1) 0 1 2 2 2 (-2) 0 1 (-2) 2 2 2 0 0 2 ex_dx ex_s (0%nat,
  2) (1%nat, 3) (2%nat, 4) 1 (3%nat, 5) ex_par =
  cd_stencil_3d_adj_cf_diag (-1) 0 1 2 2 2 (-2) 0 1 (-2) 2 2 2 0 0 2 ex_dx ex_s (0%nat, 2) (1%nat, 3) (2%nat, 4)
  1 (3%nat, 5) ex_par.
Proof. intros O. apply C51_cd_stencil_3d_adj_cf_diag; ex_hyp. Qed.

Theorem C51_cd_stencil_3d_adj_poisson_cf_diag : forall (S : Scalar) O i0 j0 k0 i1 j1 k1 pi0 pj0 pk0 pi1 pj1 pk1
    r dir side intOrder dx beta sgcw st (m : mem S),
  side = 0 \/ side = 1 -> i0 <= i1 -> j0 <= j1 -> k0 <= k1 ->
  (dir = 0 -> at_side side i0 i1 pi0 /\ seg_within j0 j1 pj0 pj1 /\ seg_within k0 k1 pk0 pk1) ->
  (dir = 1 -> at_side side j0 j1 pj0 /\ seg_within i0 i1 pi0 pi1 /\ seg_within k0 k1 pk0 pk1) ->
  (dir = 2 -> at_side side k0 k1 pk0 /\ seg_within i0 i1 pi0 pi1 /\ seg_within j0 j1 pj0 pj1) -> 0 <= sgcw ->
    cd_stencil_3d_adj_poisson_cf_diag_by (parallel O) i0 j0 k0 i1 j1 k1 pi0 pj0 pk0 pi1 pj1 pk1 r dir side
    intOrder dx beta sgcw st m =
    cd_stencil_3d_adj_poisson_cf_diag i0 j0 k0 i1 j1 k1 pi0 pj0 pk0 pi1 pj1 pk1 r dir side intOrder dx beta sgcw
    st m.
Proof. exact @cd_stencil_3d_adj_poisson_cf_diag_par. Qed.
Print Assumptions C51_cd_stencil_3d_adj_poisson_cf_diag.

Example C51_cd_stencil_3d_adj_poisson_cf_diag_example : forall O : @pool ZS -> list nat,
  cd_stencil_3d_adj_poisson_cf_diag_by (S:=ZS) (parallel O) (-1) 0 1 2 2 2 (-2) 0 1 (-2) 2 2 2 0 0 2 ex_dx ex_s
  1 (0%nat, 2) ex_par =
  cd_stencil_3d_adj_poisson_cf_diag (-1) 0 1 2 2 2 (-2) 0 1 (-2) 2 2 2 0 0 2 ex_dx ex_s 1 (0%nat, 2) ex_par.
Proof. intros O. apply C51_cd_stencil_3d_adj_poisson_cf_diag; ex_hyp. Qed.

Theorem C51_cd_stencil_3d_adj_offdiag : forall (S : Scalar) O i0 j0 k0 i1 j1 k1 pi0 pj0 pk0 pi1 pj1 pk1 dir side
    btype exOrder dx dirf neuf beta b0 b1 b2 sgcw st (m : mem S),
  side = 0 \/ side = 1 -> i0 <= i1 -> j0 <= j1 -> k0 <= k1 ->
  (dir = 0 -> at_side side i0 i1 pi0 /\ seg_within j0 j1 pj0 pj1 /\ seg_within k0 k1 pk0 pk1) ->
  (dir = 1 -> at_side side j0 j1 pj0 /\ seg_within i0 i1 pi0 pi1 /\ seg_within k0 k1 pk0 pk1) ->
  (dir = 2 -> at_side side k0 k1 pk0 /\ seg_within i0 i1 pi0 pi1 /\ seg_within j0 j1 pj0 pj1) -> 0 <= sgcw ->
  apart st [b0; b1; b2] ->
    cd_stencil_3d_adj_offdiag_by (parallel O) i0 j0 k0 i1 j1 k1 pi0 pj0 pk0 pi1 pj1 pk1 dir side btype exOrder
    dx dirf neuf beta b0 b1 b2 sgcw st m =
    cd_stencil_3d_adj_offdiag i0 j0 k0 i1 j1 k1 pi0 pj0 pk0 pi1 pj1 pk1 dir side btype exOrder dx dirf neuf beta
    b0 b1 b2 sgcw st m.
Proof. exact @cd_stencil_3d_adj_offdiag_par. Qed.
Print Assumptions C51_cd_stencil_3d_adj_offdiag.

Example C51_cd_stencil_3d_adj_offdiag_example : forall O : @pool ZS -> list nat,
  cd_stencil_3d_adj_offdiag_by (S:=ZS) (parallel O) (-1) 0 1 2 2 2 (-2) 0 1 (-2) 2 2 0 0 0 2 ex_dx ex_s ex_s
  ex_s (0%nat, 2) (1%nat, 3) (2%nat, 4) 1 (3%nat, 5) ex_par =
  cd_stencil_3d_adj_offdiag (-1) 0 1 2 2 2 (-2) 0 1 (-2) 2 2 0 0 0 2 ex_dx ex_s ex_s ex_s (0%nat, 2) (1%nat, 3)
  (2%nat, 4) 1 (3%nat, 5) ex_par.
Proof. intros O. apply C51_cd_stencil_3d_adj_offdiag; ex_hyp. Qed.

Theorem C51_cd_stencil_3d_adj_poisson_offdiag : forall (S : Scalar) O i0 j0 k0 i1 j1 k1 pi0 pj0 pk0 pi1 pj1 pk1
    dir side btype exOrder dx dirf neuf beta sgcw st (m : mem S),
  side = 0 \/ side = 1 -> i0 <= i1 -> j0 <= j1 -> k0 <= k1 ->
  (dir = 0 -> at_side side i0 i1 pi0 /\ seg_within j0 j1 pj0 pj1 /\ seg_within k0 k1 pk0 pk1) ->
  (dir = 1 -> at_side side j0 j1 pj0 /\ seg_within i0 i1 pi0 pi1 /\ seg_within k0 k1 pk0 pk1) ->
  (dir = 2 -> at_side side k0 k1 pk0 /\ seg_within i0 i1 pi0 pi1 /\ seg_within j0 j1 pj0 pj1) -> 0 <= sgcw ->
    cd_stencil_3d_adj_poisson_offdiag_by (parallel O) i0 j0 k0 i1 j1 k1 pi0 pj0 pk0 pi1 pj1 pk1 dir side btype
    exOrder dx dirf neuf beta sgcw st m =
    cd_stencil_3d_adj_poisson_offdiag i0 j0 k0 i1 j1 k1 pi0 pj0 pk0 pi1 pj1 pk1 dir side btype exOrder dx dirf
    neuf beta sgcw st m.
Proof. exact @cd_stencil_3d_adj_poisson_offdiag_par. Qed.
Print Assumptions C51_cd_stencil_3d_adj_poisson_offdiag.

Example C51_cd_stencil_3d_adj_poisson_offdiag_example : forall O : @pool ZS -> list nat,
  cd_stencil_3d_adj_poisson_offdiag_by (S:=ZS) (parallel O) (-1) 0 1 2 2 2 (-2) 0 1 (-2) 2 2 0 0 0 2 ex_dx ex_s
  ex_s ex_s 1 (0%nat, 2) ex_par =
  cd_stencil_3d_adj_poisson_offdiag (-1) 0 1 2 2 2 (-2) 0 1 (-2) 2 2 0 0 0 2 ex_dx ex_s ex_s ex_s 1 (0%nat, 2)
  ex_par.
Proof. intros O. apply C51_cd_stencil_3d_adj_poisson_offdiag; ex_hyp. Qed.

Theorem C51_cd_stencil_3d_adj_cf_offdiag : forall (S : Scalar) O i0 j0 k0 i1 j1 k1 ci0 cj0 ck0 ci1 cj1 ck1 r dir
    side intOrder sgcw st (m : mem S),
  side = 0 \/ side = 1 -> i0 <= i1 -> j0 <= j1 -> k0 <= k1 ->
  (dir = 0 -> at_side side i0 i1 ci0 /\ seg_within j0 j1 cj0 cj1 /\ seg_within k0 k1 ck0 ck1) ->
  (dir = 1 -> at_side side j0 j1 cj0 /\ seg_within i0 i1 ci0 ci1 /\ seg_within k0 k1 ck0 ck1) ->
  (dir = 2 -> at_side side k0 k1 ck0 /\ seg_within i0 i1 ci0 ci1 /\ seg_within j0 j1 cj0 cj1) -> 0 <= sgcw ->
    cd_stencil_3d_adj_cf_offdiag_by (parallel O) i0 j0 k0 i1 j1 k1 ci0 cj0 ck0 ci1 cj1 ck1 r dir side intOrder
    sgcw st m =
    cd_stencil_3d_adj_cf_offdiag i0 j0 k0 i1 j1 k1 ci0 cj0 ck0 ci1 cj1 ck1 r dir side intOrder sgcw st m.
Proof. exact @cd_stencil_3d_adj_cf_offdiag_par. Qed.
Print Assumptions C51_cd_stencil_3d_adj_cf_offdiag.

Example C51_cd_stencil_3d_adj_cf_offdiag_example : forall O : @pool ZS -> list nat,
  cd_stencil_3d_adj_cf_offdiag_by (S:=ZS) (parallel O) (-1) 0 1 2 2 2 (-2) 0 1 (-2) 2 2 2 0 0 2 1 (0%nat, 2)
  ex_par =
  cd_stencil_3d_adj_cf_offdiag (-1) 0 1 2 2 2 (-2) 0 1 (-2) 2 2 2 0 0 2 1 (0%nat, 2) ex_par.
Proof. intros O. apply C51_cd_stencil_3d_adj_cf_offdiag; ex_hyp. Qed.

Theorem C51_cd_stencil_3d_readj_offdiag : forall (S : Scalar) O i0 j0 k0 i1 j1 k1 pi0 pj0 pk0 pi1 pj1 pk1 dir
    side sgcw st (m : mem S),
  side = 0 \/ side = 1 -> i0 <= i1 -> j0 <= j1 -> k0 <= k1 ->
  (dir = 0 -> at_side side i0 i1 pi0 /\ seg_within j0 j1 pj0 pj1 /\ seg_within k0 k1 pk0 pk1) ->
  (dir = 1 -> at_side side j0 j1 pj0 /\ seg_within i0 i1 pi0 pi1 /\ seg_within k0 k1 pk0 pk1) ->
  (dir = 2 -> at_side side k0 k1 pk0 /\ seg_within i0 i1 pi0 pi1 /\ seg_within j0 j1 pj0 pj1) -> 0 <= sgcw ->
    cd_stencil_3d_readj_offdiag_by (parallel O) i0 j0 k0 i1 j1 k1 pi0 pj0 pk0 pi1 pj1 pk1 dir side sgcw st m =
    cd_stencil_3d_readj_offdiag i0 j0 k0 i1 j1 k1 pi0 pj0 pk0 pi1 pj1 pk1 dir side sgcw st m.
Proof. exact @cd_stencil_3d_readj_offdiag_par. Qed.
Print Assumptions C51_cd_stencil_3d_readj_offdiag.

Example C51_cd_stencil_3d_readj_offdiag_example : forall O : @pool ZS -> list nat,
  cd_stencil_3d_readj_offdiag_by (S:=ZS) (parallel O) (-1) 0 1 2 2 2 (-2) 0 1 (-2) 2 2 0 0 1 (0%nat, 2) ex_par =
  cd_stencil_3d_readj_offdiag (-1) 0 1 2 2 2 (-2) 0 1 (-2) 2 2 0 0 1 (0%nat, 2) ex_par.
Proof. intros O. apply C51_cd_stencil_3d_readj_offdiag; ex_hyp. Qed.

Theorem C51_cd_stencil_3d_adj_cf_bdryrhs : forall (S : Scalar) O i0 j0 k0 i1 j1 k1 pi0 pj0 pk0 pi1 pj1 pk1 dir
    side sgcw st gcw u rhs (m : mem S),
  side = 0 \/ side = 1 -> i0 <= i1 -> j0 <= j1 -> k0 <= k1 ->
  (dir = 0 -> at_side side i0 i1 pi0 /\ seg_within j0 j1 pj0 pj1 /\ seg_within k0 k1 pk0 pk1) ->
  (dir = 1 -> at_side side j0 j1 pj0 /\ seg_within i0 i1 pi0 pi1 /\ seg_within k0 k1 pk0 pk1) ->
  (dir = 2 -> at_side side k0 k1 pk0 /\ seg_within i0 i1 pi0 pi1 /\ seg_within j0 j1 pj0 pj1) -> 0 <= sgcw ->
  1 <= gcw -> apart rhs [st; u] ->
    cd_stencil_3d_adj_cf_bdryrhs_by (parallel O) i0 j0 k0 i1 j1 k1 pi0 pj0 pk0 pi1 pj1 pk1 dir side sgcw st gcw
    u rhs m =
    cd_stencil_3d_adj_cf_bdryrhs i0 j0 k0 i1 j1 k1 pi0 pj0 pk0 pi1 pj1 pk1 dir side sgcw st gcw u rhs m.
Proof. exact @cd_stencil_3d_adj_cf_bdryrhs_par. Qed.
Print Assumptions C51_cd_stencil_3d_adj_cf_bdryrhs.

Example C51_cd_stencil_3d_adj_cf_bdryrhs_example : forall O : @pool ZS -> list nat,
  cd_stencil_3d_adj_cf_bdryrhs_by (S:=ZS) (parallel O) (-1) 0 1 2 2 2 (-2) 0 1 (-2) 2 2 0 0 1 (0%nat, 2) 1
  (1%nat, 3) (2%nat, 4) ex_par =
  cd_stencil_3d_adj_cf_bdryrhs (-1) 0 1 2 2 2 (-2) 0 1 (-2) 2 2 0 0 1 (0%nat, 2) 1 (1%nat, 3) (2%nat, 4) ex_par.
Proof. intros O. apply C51_cd_stencil_3d_adj_cf_bdryrhs; ex_hyp. Qed.

(** ** Copies *)

Theorem C51_cd_2d_set_homogenous_bc : forall (S : Scalar) O i0 j0 i1 j1 face bLo bHi exOrder u (m : mem S),
  i0 <= i1 -> j0 <= j1 ->
  (face = 0 \/ face = 1 -> seg_meets j0 j1 (bLo 1) (bHi 1) /\ exOrder <= i1 - i0 + 2) ->
  (face = 2 \/ face = 3 -> seg_meets i0 i1 (bLo 0) (bHi 0) /\ exOrder <= j1 - j0 + 2) ->
    cd_2d_set_homogenous_bc_by (parallel O) i0 j0 i1 j1 face bLo bHi exOrder u m =
    cd_2d_set_homogenous_bc i0 j0 i1 j1 face bLo bHi exOrder u m.
Proof. exact @cd_2d_set_homogenous_bc_par. Qed.
Print Assumptions C51_cd_2d_set_homogenous_bc.

Example C51_cd_2d_set_homogenous_bc_example : forall O : @pool ZS -> list nat,
  cd_2d_set_homogenous_bc_by (S:=ZS) (parallel O) (-1) 0 2 2 0 ex_lo ex_hi 4 (0%nat, 2) ex_par =
  cd_2d_set_homogenous_bc (-1) 0 2 2 0 ex_lo ex_hi 4 (0%nat, 2) ex_par.
Proof. intros O. apply C51_cd_2d_set_homogenous_bc; ex_hyp. Qed.

(** ** Sharing an allocation

    The hypothesis on allocations is needed: with the flux written over the cell
    values, letting the thread of the second face run first changes the result. *)
Theorem C51_shared_refuted : exists (O : @pool ZS -> list nat) (m : mem ZS) (p : ptr) (x y : Z),
  (r <- cdf_1d_flux_by (S:=ZS) (parallel O) 0 1 ex_dx (1%nat, 0) 1 (0%nat, 0) (0%nat, 0) m ;; load r p) = Some x /\
  (r <- cdf_1d_flux (S:=ZS) 0 1 ex_dx (1%nat, 0) 1 (0%nat, 0) (0%nat, 0) m ;; load r p) = Some y /\
  x <> y.
Proof.
  exists (fun _ => [1; 1; 1; 1; 1; 1]%nat), (mkMem [[5 : ZS; 2; 7; 11]; [1 : ZS; 1; 1]] []), (0%nat, 0), 0, (-3).
  repeat split; [vm_compute; reflexivity..|discriminate].
Qed.
Print Assumptions C51_shared_refuted.
