(** * Properties C63, C64, C65: rounding

    The kernels run on [double]s.  C36 to C62 are about exact arithmetic; here the
    same programs run in the rationals with a rounding after every operation. *)

From Coq Require Import QArith Qcanon Qcabs.
From Verif Require Import Base LemBase Instances SpecRel SpecRound SpecPrograms SpecReference FortranBase SpecKernel
  KernelsFlux KernelsApply FortranFlux KernelsStencil LemUniform LemRound LemRound2 LemRound3 LemRound4 LemRound5.
Import ListNotations.
Open Scope Qc_scope.

(** ** C63: the results are the exact ones up to the bound the program computes *)

Theorem C63_kernels : forall K, kernel K -> accurate K.
Proof. exact @kernel_accurate. Qed.
Print Assumptions C63_kernels.

Theorem C63_subroutines : forall K, subroutine K -> accurate K.
Proof. exact @subroutine_accurate. Qed.
Print Assumptions C63_subroutines.

(** Rounding to nearest with [p] significant bits meets the hypothesis, in particular
    with the 53 bits of [double]. *)
Theorem C63_nearest : forall p, (1 <= p)%Z -> std_model (round_bits p) (pow2 (- p)).
Proof. exact @round_bits_std. Qed.
Print Assumptions C63_nearest.

(** The usual form of the factor of [k] roundings. *)
Theorem C63_gamma : forall eps k, 0 <= eps -> eps < 1 ->
  let n := Q2Qc (inject_Z (Z.of_nat k)) in n * eps < 1 -> gamma eps k <= n * eps / (1 - n * eps).
Proof. exact @gamma_le. Qed.
Print Assumptions C63_gamma.

(** *** The bounds spelled out for the fluxes and the operator *)

Theorem C63_flux_1d_err : forall rnd eps, std_model rnd eps -> forall i0 i1 (dx : Z -> rounded rnd) b0 gcw u f0 (m m1 : mem (rounded rnd)) (m2 : mem QcS),
  (i0 <= i1 + 1)%Z -> (0 <= gcw)%Z ->
  apart f0 [u; b0] -> dx 0%Z <> 0 ->
  cdf_1d_flux i0 i1 dx b0 gcw u f0 m = Some m1 ->
  @cdf_1d_flux QcS i0 i1 dx b0 gcw u f0 (exact_mem m) = Some m2 ->
  (forall i, (i0 <= i <= i1 + 1)%Z -> exists x y,
    ((mkFa f0 (FACE1d i0 i1 0))!(i))%F m1 = Some x /\ ((mkFa f0 (FACE1d i0 i1 0))!(i))%F m2 = Some y /\
    Qcabs ((x : Qc) - y) <= gamma eps 3 * Qcabs y).
Proof. exact @flux_1d_err. Qed.
Print Assumptions C63_flux_1d_err.

Theorem C63_flux_2d_err : forall rnd eps, std_model rnd eps -> forall i0 j0 i1 j1 (dx : Z -> rounded rnd) b0 b1 gcw u f0 f1 (m m1 : mem (rounded rnd)) (m2 : mem QcS),
  (i0 <= i1 + 1)%Z -> (j0 <= j1 + 1)%Z -> (0 <= gcw)%Z ->
  apart f0 [f1; u; b0; b1] -> apart f1 [u; b0; b1] -> dx 0%Z <> 0 -> dx 1%Z <> 0 ->
  cdf_2d_flux i0 j0 i1 j1 dx b0 b1 gcw u f0 f1 m = Some m1 ->
  @cdf_2d_flux QcS i0 j0 i1 j1 dx b0 b1 gcw u f0 f1 (exact_mem m) = Some m2 ->
  (forall i j, (i0 <= i <= i1 + 1)%Z -> (j0 <= j <= j1)%Z -> exists x y,
    ((mkFa f0 (FACE2d0 i0 j0 i1 j1 0))!(i, j))%F m1 = Some x /\ ((mkFa f0 (FACE2d0 i0 j0 i1 j1 0))!(i, j))%F m2 = Some y /\
    Qcabs ((x : Qc) - y) <= gamma eps 3 * Qcabs y) /\
  (forall i j, (i0 <= i <= i1)%Z -> (j0 <= j <= j1 + 1)%Z -> exists x y,
    ((mkFa f1 (FACE2d1 i0 j0 i1 j1 0))!(j, i))%F m1 = Some x /\ ((mkFa f1 (FACE2d1 i0 j0 i1 j1 0))!(j, i))%F m2 = Some y /\
    Qcabs ((x : Qc) - y) <= gamma eps 3 * Qcabs y).
Proof. exact @flux_2d_err. Qed.
Print Assumptions C63_flux_2d_err.

Theorem C63_flux_3d_err : forall rnd eps, std_model rnd eps -> forall i0 j0 k0 i1 j1 k1 (dx : Z -> rounded rnd) b0 b1 b2 gcw u f0 f1 f2 (m m1 : mem (rounded rnd)) (m2 : mem QcS),
  (i0 <= i1 + 1)%Z -> (j0 <= j1 + 1)%Z -> (k0 <= k1 + 1)%Z -> (0 <= gcw)%Z ->
  apart f0 [f1; f2; u; b0; b1; b2] -> apart f1 [f2; u; b0; b1; b2] -> apart f2 [u; b0; b1; b2] -> dx 0%Z <> 0 -> dx 1%Z <> 0 -> dx 2%Z <> 0 ->
  cdf_3d_flux i0 j0 k0 i1 j1 k1 dx b0 b1 b2 gcw u f0 f1 f2 m = Some m1 ->
  @cdf_3d_flux QcS i0 j0 k0 i1 j1 k1 dx b0 b1 b2 gcw u f0 f1 f2 (exact_mem m) = Some m2 ->
  (forall i j k, (i0 <= i <= i1 + 1)%Z -> (j0 <= j <= j1)%Z -> (k0 <= k <= k1)%Z -> exists x y,
    ((mkFa f0 (FACE3d0 i0 j0 k0 i1 j1 k1 0))!(i, j, k))%F m1 = Some x /\ ((mkFa f0 (FACE3d0 i0 j0 k0 i1 j1 k1 0))!(i, j, k))%F m2 = Some y /\
    Qcabs ((x : Qc) - y) <= gamma eps 3 * Qcabs y) /\
  (forall i j k, (i0 <= i <= i1)%Z -> (j0 <= j <= j1 + 1)%Z -> (k0 <= k <= k1)%Z -> exists x y,
    ((mkFa f1 (FACE3d1 i0 j0 k0 i1 j1 k1 0))!(j, k, i))%F m1 = Some x /\ ((mkFa f1 (FACE3d1 i0 j0 k0 i1 j1 k1 0))!(j, k, i))%F m2 = Some y /\
    Qcabs ((x : Qc) - y) <= gamma eps 3 * Qcabs y) /\
  (forall i j k, (i0 <= i <= i1)%Z -> (j0 <= j <= j1)%Z -> (k0 <= k <= k1 + 1)%Z -> exists x y,
    ((mkFa f2 (FACE3d2 i0 j0 k0 i1 j1 k1 0))!(k, i, j))%F m1 = Some x /\ ((mkFa f2 (FACE3d2 i0 j0 k0 i1 j1 k1 0))!(k, i, j))%F m2 = Some y /\
    Qcabs ((x : Qc) - y) <= gamma eps 3 * Qcabs y).
Proof. exact @flux_3d_err. Qed.
Print Assumptions C63_flux_3d_err.

Theorem C63_poisson_flux_1d_err : forall rnd eps, std_model rnd eps -> forall i0 i1 (dx : Z -> rounded rnd) gcw u f0 (m m1 : mem (rounded rnd)) (m2 : mem QcS),
  (i0 <= i1 + 1)%Z -> (0 <= gcw)%Z ->
  apart f0 [u] -> dx 0%Z <> 0 ->
  cdf_1d_poisson_flux i0 i1 dx gcw u f0 m = Some m1 ->
  @cdf_1d_poisson_flux QcS i0 i1 dx gcw u f0 (exact_mem m) = Some m2 ->
  (forall i, (i0 <= i <= i1 + 1)%Z -> exists x y,
    ((mkFa f0 (FACE1d i0 i1 0))!(i))%F m1 = Some x /\ ((mkFa f0 (FACE1d i0 i1 0))!(i))%F m2 = Some y /\
    Qcabs ((x : Qc) - y) <= gamma eps 2 * Qcabs y).
Proof. exact @poisson_flux_1d_err. Qed.
Print Assumptions C63_poisson_flux_1d_err.

Theorem C63_poisson_flux_2d_err : forall rnd eps, std_model rnd eps -> forall i0 j0 i1 j1 (dx : Z -> rounded rnd) gcw u f0 f1 (m m1 : mem (rounded rnd)) (m2 : mem QcS),
  (i0 <= i1 + 1)%Z -> (j0 <= j1 + 1)%Z -> (0 <= gcw)%Z ->
  apart f0 [f1; u] -> apart f1 [u] -> dx 0%Z <> 0 -> dx 1%Z <> 0 ->
  cdf_2d_poisson_flux i0 j0 i1 j1 dx gcw u f0 f1 m = Some m1 ->
  @cdf_2d_poisson_flux QcS i0 j0 i1 j1 dx gcw u f0 f1 (exact_mem m) = Some m2 ->
  (forall i j, (i0 <= i <= i1 + 1)%Z -> (j0 <= j <= j1)%Z -> exists x y,
    ((mkFa f0 (FACE2d0 i0 j0 i1 j1 0))!(i, j))%F m1 = Some x /\ ((mkFa f0 (FACE2d0 i0 j0 i1 j1 0))!(i, j))%F m2 = Some y /\
    Qcabs ((x : Qc) - y) <= gamma eps 2 * Qcabs y) /\
  (forall i j, (i0 <= i <= i1)%Z -> (j0 <= j <= j1 + 1)%Z -> exists x y,
    ((mkFa f1 (FACE2d1 i0 j0 i1 j1 0))!(j, i))%F m1 = Some x /\ ((mkFa f1 (FACE2d1 i0 j0 i1 j1 0))!(j, i))%F m2 = Some y /\
    Qcabs ((x : Qc) - y) <= gamma eps 2 * Qcabs y).
Proof. exact @poisson_flux_2d_err. Qed.
Print Assumptions C63_poisson_flux_2d_err.

Theorem C63_poisson_flux_3d_err : forall rnd eps, std_model rnd eps -> forall i0 j0 k0 i1 j1 k1 (dx : Z -> rounded rnd) gcw u f0 f1 f2 (m m1 : mem (rounded rnd)) (m2 : mem QcS),
  (i0 <= i1 + 1)%Z -> (j0 <= j1 + 1)%Z -> (k0 <= k1 + 1)%Z -> (0 <= gcw)%Z ->
  apart f0 [f1; f2; u] -> apart f1 [f2; u] -> apart f2 [u] -> dx 0%Z <> 0 -> dx 1%Z <> 0 -> dx 2%Z <> 0 ->
  cdf_3d_poisson_flux i0 j0 k0 i1 j1 k1 dx gcw u f0 f1 f2 m = Some m1 ->
  @cdf_3d_poisson_flux QcS i0 j0 k0 i1 j1 k1 dx gcw u f0 f1 f2 (exact_mem m) = Some m2 ->
  (forall i j k, (i0 <= i <= i1 + 1)%Z -> (j0 <= j <= j1)%Z -> (k0 <= k <= k1)%Z -> exists x y,
    ((mkFa f0 (FACE3d0 i0 j0 k0 i1 j1 k1 0))!(i, j, k))%F m1 = Some x /\ ((mkFa f0 (FACE3d0 i0 j0 k0 i1 j1 k1 0))!(i, j, k))%F m2 = Some y /\
    Qcabs ((x : Qc) - y) <= gamma eps 2 * Qcabs y) /\
  (forall i j k, (i0 <= i <= i1)%Z -> (j0 <= j <= j1 + 1)%Z -> (k0 <= k <= k1)%Z -> exists x y,
    ((mkFa f1 (FACE3d1 i0 j0 k0 i1 j1 k1 0))!(j, k, i))%F m1 = Some x /\ ((mkFa f1 (FACE3d1 i0 j0 k0 i1 j1 k1 0))!(j, k, i))%F m2 = Some y /\
    Qcabs ((x : Qc) - y) <= gamma eps 2 * Qcabs y) /\
  (forall i j k, (i0 <= i <= i1)%Z -> (j0 <= j <= j1)%Z -> (k0 <= k <= k1 + 1)%Z -> exists x y,
    ((mkFa f2 (FACE3d2 i0 j0 k0 i1 j1 k1 0))!(k, i, j))%F m1 = Some x /\ ((mkFa f2 (FACE3d2 i0 j0 k0 i1 j1 k1 0))!(k, i, j))%F m2 = Some y /\
    Qcabs ((x : Qc) - y) <= gamma eps 2 * Qcabs y).
Proof. exact @poisson_flux_3d_err. Qed.
Print Assumptions C63_poisson_flux_3d_err.

Theorem C63_v1_apply_1d_err : forall rnd eps, std_model rnd eps -> forall i0 i1 (alpha beta : rounded rnd) (dx : Z -> rounded rnd) agcw a ugcw u f0 rgcw res (m m1 : mem (rounded rnd)) (m2 : mem QcS),
  (i0 <= i1 + 1)%Z -> (0 <= rgcw)%Z ->
  apart res [f0; u; a] -> dx 0%Z <> 0 ->
  cd_apply_1d_diffusion_v1_apply i0 i1 alpha beta dx agcw a ugcw u f0 rgcw res m = Some m1 ->
  @cd_apply_1d_diffusion_v1_apply QcS i0 i1 alpha beta dx agcw a ugcw u f0 rgcw res (exact_mem m) = Some m2 ->
  forall i, (i0 <= i <= i1)%Z -> exists l0 r0 c w x y,
    ((mkFa f0 (FACE1d i0 i1 0))!(i))%F m = Some l0 /\ ((mkFa f0 (FACE1d i0 i1 0))!(i + 1))%F m = Some r0 /\
    ((mkFa a (CELL1d i0 i1 agcw))!(i))%F m = Some c /\ ((mkFa u (CELL1d i0 i1 ugcw))!(i))%F m = Some w /\
    ((mkFa res (CELL1d i0 i1 rgcw))!(i))%F m1 = Some x /\ ((mkFa res (CELL1d i0 i1 rgcw))!(i))%F m2 = Some y /\
    Qcabs ((x : Qc) - y) <= gamma eps 4 * (Qcabs beta * (Qcabs ((r0 : Qc) - l0) / Qcabs (dx 0%Z)) + Qcabs (alpha * c * w)).
Proof. exact @v1_apply_1d_err. Qed.
Print Assumptions C63_v1_apply_1d_err.

Theorem C63_v1_apply_2d_err : forall rnd eps, std_model rnd eps -> forall i0 i1 j0 j1 (alpha beta : rounded rnd) (dx : Z -> rounded rnd) agcw a ugcw u f0 f1 rgcw res (m m1 : mem (rounded rnd)) (m2 : mem QcS),
  (i0 <= i1 + 1)%Z -> (j0 <= j1 + 1)%Z -> (0 <= rgcw)%Z ->
  apart res [f0; f1; u; a] -> dx 0%Z <> 0 -> dx 1%Z <> 0 ->
  cd_apply_2d_diffusion_v1_apply i0 i1 j0 j1 alpha beta dx agcw a ugcw u f0 f1 rgcw res m = Some m1 ->
  @cd_apply_2d_diffusion_v1_apply QcS i0 i1 j0 j1 alpha beta dx agcw a ugcw u f0 f1 rgcw res (exact_mem m) = Some m2 ->
  forall i j, (i0 <= i <= i1)%Z -> (j0 <= j <= j1)%Z -> exists l0 r0 l1 r1 c w x y,
    ((mkFa f0 (FACE2d0 i0 j0 i1 j1 0))!(i, j))%F m = Some l0 /\ ((mkFa f0 (FACE2d0 i0 j0 i1 j1 0))!(i + 1, j))%F m = Some r0 /\
    ((mkFa f1 (FACE2d1 i0 j0 i1 j1 0))!(j, i))%F m = Some l1 /\ ((mkFa f1 (FACE2d1 i0 j0 i1 j1 0))!(j + 1, i))%F m = Some r1 /\
    ((mkFa a (CELL2d i0 j0 i1 j1 agcw))!(i, j))%F m = Some c /\ ((mkFa u (CELL2d i0 j0 i1 j1 ugcw))!(i, j))%F m = Some w /\
    ((mkFa res (CELL2d i0 j0 i1 j1 rgcw))!(i, j))%F m1 = Some x /\ ((mkFa res (CELL2d i0 j0 i1 j1 rgcw))!(i, j))%F m2 = Some y /\
    Qcabs ((x : Qc) - y) <= gamma eps 5 * (Qcabs beta * (Qcabs ((r0 : Qc) - l0) / Qcabs (dx 0%Z) + Qcabs ((r1 : Qc) - l1) / Qcabs (dx 1%Z)) + Qcabs (alpha * c * w)).
Proof. exact @v1_apply_2d_err. Qed.
Print Assumptions C63_v1_apply_2d_err.

Theorem C63_v1_apply_3d_err : forall rnd eps, std_model rnd eps -> forall i0 i1 j0 j1 k0 k1 (alpha beta : rounded rnd) (dx : Z -> rounded rnd) agcw a ugcw u f0 f1 f2 rgcw res (m m1 : mem (rounded rnd)) (m2 : mem QcS),
  (i0 <= i1 + 1)%Z -> (j0 <= j1 + 1)%Z -> (k0 <= k1 + 1)%Z -> (0 <= rgcw)%Z ->
  apart res [f0; f1; f2; u; a] -> dx 0%Z <> 0 -> dx 1%Z <> 0 -> dx 2%Z <> 0 ->
  cd_apply_3d_diffusion_v1_apply i0 i1 j0 j1 k0 k1 alpha beta dx agcw a ugcw u f0 f1 f2 rgcw res m = Some m1 ->
  @cd_apply_3d_diffusion_v1_apply QcS i0 i1 j0 j1 k0 k1 alpha beta dx agcw a ugcw u f0 f1 f2 rgcw res (exact_mem m) = Some m2 ->
  forall i j k, (i0 <= i <= i1)%Z -> (j0 <= j <= j1)%Z -> (k0 <= k <= k1)%Z -> exists l0 r0 l1 r1 l2 r2 c w x y,
    ((mkFa f0 (FACE3d0 i0 j0 k0 i1 j1 k1 0))!(i, j, k))%F m = Some l0 /\ ((mkFa f0 (FACE3d0 i0 j0 k0 i1 j1 k1 0))!(i + 1, j, k))%F m = Some r0 /\
    ((mkFa f1 (FACE3d1 i0 j0 k0 i1 j1 k1 0))!(j, k, i))%F m = Some l1 /\ ((mkFa f1 (FACE3d1 i0 j0 k0 i1 j1 k1 0))!(j + 1, k, i))%F m = Some r1 /\
    ((mkFa f2 (FACE3d2 i0 j0 k0 i1 j1 k1 0))!(k, i, j))%F m = Some l2 /\ ((mkFa f2 (FACE3d2 i0 j0 k0 i1 j1 k1 0))!(k + 1, i, j))%F m = Some r2 /\
    ((mkFa a (CELL3d i0 j0 k0 i1 j1 k1 agcw))!(i, j, k))%F m = Some c /\ ((mkFa u (CELL3d i0 j0 k0 i1 j1 k1 ugcw))!(i, j, k))%F m = Some w /\
    ((mkFa res (CELL3d i0 j0 k0 i1 j1 k1 rgcw))!(i, j, k))%F m1 = Some x /\ ((mkFa res (CELL3d i0 j0 k0 i1 j1 k1 rgcw))!(i, j, k))%F m2 = Some y /\
    Qcabs ((x : Qc) - y) <= gamma eps 6 * (Qcabs beta * (Qcabs ((r0 : Qc) - l0) / Qcabs (dx 0%Z) + Qcabs ((r1 : Qc) - l1) / Qcabs (dx 1%Z) + Qcabs ((r2 : Qc) - l2) / Qcabs (dx 2%Z)) + Qcabs (alpha * c * w)).
Proof. exact @v1_apply_3d_err. Qed.
Print Assumptions C63_v1_apply_3d_err.

(** The flux kernel in [double]s: b = (3, 1/10), u = (0, 1/3, 1), h = 7, with 1/10 and
    1/3 rounded.  The second flux is rounded; its error is within the bound, and the
    bound is not 0. *)
Definition ex_third : DoubleS := (lit 1 / lit 3)%T.
Definition ex_tenth : DoubleS := (lit 1 / lit 10)%T.
Definition ex_rd : mem DoubleS :=
  @mkMem DoubleS [[lit 3; ex_tenth] : list DoubleS; [lit 0; ex_third; lit 1] : list DoubleS; [lit 0; lit 0] : list DoubleS] [].
Definition ex_rd_h : Z -> DoubleS := fun _ => lit 7.
Definition ex_flux : prog := fun S p => @cdf_1d_flux S 0 0 p (0%nat, 0%Z) 1 (1%nat, 0%Z) (2%nat, 0%Z).

Definition ex_rd_error (k : Z) : option Qc :=
  m1 <- ex_flux DoubleS ex_rd_h ex_rd ;; m2 <- ex_flux QcS ex_rd_h (exact_mem ex_rd) ;;
  x <- load m1 (2%nat, k) ;; y <- load m2 (2%nat, k) ;; Some (Qcabs ((x : Qc) - y)).
(** The bound of C63, as a function. *)
Definition ex_bnd (K : prog) (p : Z -> DoubleS) (m : mem DoubleS) (q : ptr) : option bnd :=
  mb <- K BndS (fun d => leaf (p d)) (bnd_mem m) ;; b <- load mb q ;; (b : option bnd).

Example C63_example :
  kernel ex_flux /\ std_model round53 (pow2 (-53)) /\ apart (2%nat, 0%Z) [(1%nat, 0%Z); (0%nat, 0%Z)] /\
  ex_rd_h 0%Z <> 0 /\
  (forall b, ex_bnd ex_flux ex_rd_h ex_rd (2%nat, 1%Z) = Some b -> bound ex_flux ex_rd_h ex_rd (2%nat, 1%Z) b) /\
  match ex_rd_error 1, ex_bnd ex_flux ex_rd_h ex_rd (2%nat, 1%Z) with
  | Some e, Some b => Nat.eqb (b_rnd b) 3 && negb (Qle_bool e 0) && Qle_bool e (err (pow2 (-53)) b) &&
      Qle_bool (err (pow2 (-53)) b) (4 * pow2 (-53))
  | _, _ => false
  end = true.
Proof.
  split; [constructor|]. split; [apply round_bits_std; lia|]. split; [repeat constructor; discriminate|].
  split; [discriminate|]. split; [|vm_compute; reflexivity].
  intros b H. unfold ex_bnd in H. apply bind_Some_inv in H. destruct H as (mb & E & H). apply bind_Some_inv in H.
  destruct H as (c & F & H). exists mb. split; [exact E|]. rewrite F, H. reflexivity.
Qed.

(** ** C64: the kernel and the Fortran subroutine agree up to rounding *)

Theorem C64_agree : forall K F, reference K F -> agree_rounded K F.
Proof. exact @reference_agree. Qed.
Print Assumptions C64_agree.

(** Both programs are among those of C63, and equal in exact arithmetic. *)
Theorem C64_programs : forall K F, reference K F -> kernel K /\ subroutine F.
Proof. exact @reference_programs. Qed.
Print Assumptions C64_programs.

Theorem C64_exact : forall K F, reference K F -> forall S, field_laws S -> forall p (m : mem S),
  (forall d, (0 <= d <= 2)%Z -> p d <> lit 0) -> K S p m = F S p m.
Proof. exact @reference_exact. Qed.
Print Assumptions C64_exact.

(** They do not agree to the last bit: the kernel computes b ((u - u') / h), the
    subroutine (b (u - u')) / h, with b = 49, u - u' = 1 and h = 49. *)
Definition ex_49 : mem DoubleS :=
  @mkMem DoubleS [[lit 49; lit 49] : list DoubleS; [lit 0; lit 1; lit 2] : list DoubleS; [lit 0; lit 0] : list DoubleS] [].
Definition ex_49_h : Z -> DoubleS := fun _ => lit 49.
Definition ex_sub : prog := fun S p => @celldiffusionflux1d S 0 0 p (0%nat, 0%Z) 1 (1%nat, 0%Z) (2%nat, 0%Z).

Theorem C64_bitwise_refuted :
  ~ (forall K F, reference K F -> forall p (m : mem DoubleS), (forall d, (0 <= d <= 2)%Z -> p d <> lit 0) ->
     K DoubleS p m = F DoubleS p m).
Proof.
  intros H. assert (E : reference ex_flux ex_sub) by (apply RC36_flux_1d; lia).
  specialize (H _ _ E ex_49_h ex_49). assert (N : forall d, (0 <= d <= 2)%Z -> ex_49_h d <> lit 0) by (intros; discriminate).
  specialize (H N). apply (f_equal (fun o => m <- o ;; load m (2%nat, 0%Z))) in H. vm_compute in H. discriminate H.
Qed.
Print Assumptions C64_bitwise_refuted.

Example C64_example :
  reference ex_flux ex_sub /\
  match ex_bnd ex_flux ex_49_h ex_49 (2%nat, 0%Z), ex_bnd ex_sub ex_49_h ex_49 (2%nat, 0%Z) with
  | Some b, Some b' => Qle_bool (err (pow2 (-53)) b + err (pow2 (-53)) b') (7 * pow2 (-53))
  | _, _ => false
  end = true /\
  (m <- ex_sub DoubleS ex_49_h ex_49 ;; x <- load m (2%nat, 0%Z) ;; Some (this x)) = Some 1%Q /\
  (m <- ex_flux DoubleS ex_49_h ex_49 ;; x <- load m (2%nat, 0%Z) ;; Some (this x)) = Some (Qmake 9007199254740991 9007199254740992).
Proof.
  split; [apply RC36_flux_1d; lia|]. split; [|split]; vm_compute; reflexivity.
Qed.

(** ** C65: values do not influence control flow *)

Theorem C65_kernels : forall K, kernel K -> oblivious K.
Proof. exact @kernel_oblivious. Qed.
Print Assumptions C65_kernels.

Theorem C65_subroutines : forall K, subroutine K -> oblivious K.
Proof. exact @subroutine_oblivious. Qed.
Print Assumptions C65_subroutines.

(** Zeros and divisions by 0 everywhere: the kernel completes as it does in the
    rationals with other values; with one element less both fail. *)
Example C65_example :
  let z := @mkMem ZS [[lit 0; lit 0] : list ZS; [lit 0; lit 0; lit 0] : list ZS; [lit 0; lit 0] : list ZS] [] in
  let z' := @mkMem ZS [[lit 0; lit 0] : list ZS; [lit 0; lit 0] : list ZS; [lit 0; lit 0] : list ZS] [] in
  shape z = shape ex_49 /\ ints z = ints ex_49 /\
  ex_flux ZS (fun _ => lit 0) z = Some z /\ ex_flux ZS (fun _ => lit 0) z' = None.
Proof. repeat split. Qed.
