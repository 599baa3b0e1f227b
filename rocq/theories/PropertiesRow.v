(** * Properties C43, C44, C47: the assembled matrix, the operator and their sums *)

From Coq Require Import QArith Qcanon.
From Verif Require Import Base ModelBounds ModelMatrix ModelIters ModelSpan ModelProxy Spec SpecAssign FortranBase SpecKernel SpecRow
  Instances KernelsFlux KernelsApply KernelsStencil LemRows LemConserve LemSymmetric PropertiesStencilKernels.
Import ListNotations.
Open Scope Z_scope.

(** Entries of an array afterwards as (numerator, denominator). *)
Definition ex_row_val (r : option (mem QcS)) (a : farray) (ix : list (list Z)) : list (option (Z * Z)) :=
  map (option_map (fun q => (Qnum q, Zpos (Qden q)))) (ex_st_val r a ix).

(** ** C43: a row of the assembled matrix times [u] is the operator applied to [u]

    [ms]: memory after the matrix is assembled; [mo]: after the fluxes and the operator
    are computed, both from the same [m]. *)

Theorem C43_v1_1d : forall (S : Scalar), field_laws S ->
  forall i0 i1 dx beta b0 gcw u f0 alpha agcw a sgcw st rgcw res (m ms mo : mem S),
  i0 <= i1 + 1 -> 0 <= gcw -> 0 <= sgcw -> 0 <= rgcw -> dx 0 <> lit 0 -> apart st [b0; a; u] ->
  apart f0 [b0; a; u] -> apart res [f0; a; u] ->
  (m' <- cd_stencil_1d_offdiag i0 i1 i0 i1 dx beta b0 sgcw st m ;;
   cd_stencil_1d_v1diag i0 i1 (i0 - agcw) (i1 + agcw) alpha a sgcw st m') = Some ms ->
  (m' <- cdf_1d_flux i0 i1 dx b0 gcw u f0 m ;;
   cd_apply_1d_diffusion_v1_apply i0 i1 alpha beta dx agcw a gcw u f0 rgcw res m') = Some mo ->
  forall i, i0 <= i <= i1 ->
  let st := mkFa st ((0, 2) :: CELL1d i0 i1 sgcw) in
  let u := mkFa u (CELL1d i0 i1 gcw) in
  let res := mkFa res (CELL1d i0 i1 rgcw) in
  exists r, (res!(i))%F mo = Some r /\
    (st!(0, i) * u!(i) + st!(1, i) * u!(i - 1) + st!(2, i) * u!(i + 1))%F ms = Some r.
Proof. exact @row_v1_1d. Qed.
Print Assumptions C43_v1_1d.

Example C43_v1_1d_example :
  ex_st_h 0 <> lit 0 /\
  apart (9%nat, 0) [(0%nat, 0); (3%nat, 0); (4%nat, 0)] /\
  apart (5%nat, 0) [(0%nat, 0); (3%nat, 0); (4%nat, 0)] /\
  apart (8%nat, 0) [(5%nat, 0); (3%nat, 0); (4%nat, 0)] /\
  ex_row_val (m' <- cd_stencil_1d_offdiag 0 1 0 1 ex_st_h (lit 3) (0%nat, 0) 0 (9%nat, 0) (ex_st_cells 20) ;; cd_stencil_1d_v1diag 0 1 (0 - 1) (1 + 1) (lit 5) (3%nat, 0) 0 (9%nat, 0) m') (mkFa (9%nat, 0) [(0, 2); (0, 1)]) [[0; 1]; [1; 1]; [2; 1]]
    = [Some (481, 4); Some (-3, 2); Some (-15, 4)] /\
  ex_row_val (m' <- cdf_1d_flux 0 1 ex_st_h (0%nat, 0) 1 (4%nat, 0) (5%nat, 0) (ex_st_cells 20) ;; cd_apply_1d_diffusion_v1_apply 0 1 (lit 5) (lit 3) ex_st_h 1 (3%nat, 0) 1 (4%nat, 0) (5%nat, 0) 0 (8%nat, 0) m') (mkFa (8%nat, 0) [(0, 1)]) [[1]]
    = [Some (13175, 4)].
Proof. split; [intro C; apply (f_equal this) in C; vm_compute in C; discriminate C|]. split; [repeat constructor; discriminate|]. split; [repeat constructor; discriminate|]. split; [repeat constructor; discriminate|]. vm_compute. repeat split; reflexivity. Qed.

Theorem C43_v2_1d : forall (S : Scalar), field_laws S ->
  forall i0 i1 dx beta b0 gcw u f0 alpha sgcw st rgcw res (m ms mo : mem S),
  i0 <= i1 + 1 -> 0 <= gcw -> 0 <= sgcw -> 0 <= rgcw -> dx 0 <> lit 0 -> apart st [b0; u] ->
  apart f0 [b0; u] -> apart res [f0; u] ->
  (m' <- cd_stencil_1d_offdiag i0 i1 i0 i1 dx beta b0 sgcw st m ;;
   cd_stencil_1d_v2diag i0 i1 alpha sgcw st m') = Some ms ->
  (m' <- cdf_1d_flux i0 i1 dx b0 gcw u f0 m ;;
   cd_apply_1d_diffusion_v2_apply i0 i1 alpha beta dx gcw u f0 rgcw res m') = Some mo ->
  forall i, i0 <= i <= i1 ->
  let st := mkFa st ((0, 2) :: CELL1d i0 i1 sgcw) in
  let u := mkFa u (CELL1d i0 i1 gcw) in
  let res := mkFa res (CELL1d i0 i1 rgcw) in
  exists r, (res!(i))%F mo = Some r /\
    (st!(0, i) * u!(i) + st!(1, i) * u!(i - 1) + st!(2, i) * u!(i + 1))%F ms = Some r.
Proof. exact @row_v2_1d. Qed.
Print Assumptions C43_v2_1d.

Example C43_v2_1d_example :
  ex_st_h 0 <> lit 0 /\
  apart (9%nat, 0) [(0%nat, 0); (4%nat, 0)] /\
  apart (5%nat, 0) [(0%nat, 0); (4%nat, 0)] /\
  apart (8%nat, 0) [(5%nat, 0); (4%nat, 0)] /\
  ex_row_val (m' <- cd_stencil_1d_offdiag 0 1 0 1 ex_st_h (lit 3) (0%nat, 0) 0 (9%nat, 0) (ex_st_cells 20) ;; cd_stencil_1d_v2diag 0 1 (lit 5) 0 (9%nat, 0) m') (mkFa (9%nat, 0) [(0, 2); (0, 1)]) [[0; 1]; [1; 1]; [2; 1]]
    = [Some (41, 4); Some (-3, 2); Some (-15, 4)] /\
  ex_row_val (m' <- cdf_1d_flux 0 1 ex_st_h (0%nat, 0) 1 (4%nat, 0) (5%nat, 0) (ex_st_cells 20) ;; cd_apply_1d_diffusion_v2_apply 0 1 (lit 5) (lit 3) ex_st_h 1 (4%nat, 0) (5%nat, 0) 0 (8%nat, 0) m') (mkFa (8%nat, 0) [(0, 1)]) [[1]]
    = [Some (415, 4)].
Proof. split; [intro C; apply (f_equal this) in C; vm_compute in C; discriminate C|]. split; [repeat constructor; discriminate|]. split; [repeat constructor; discriminate|]. split; [repeat constructor; discriminate|]. vm_compute. repeat split; reflexivity. Qed.

Theorem C43_poisson_1d : forall (S : Scalar), field_laws S ->
  forall i0 i1 dx beta gcw u f0 sgcw st rgcw res (m ms mo : mem S),
  i0 <= i1 + 1 -> 0 <= gcw -> 0 <= sgcw -> 0 <= rgcw -> dx 0 <> lit 0 -> apart st [u] -> apart f0 [u] ->
  apart res [f0; u] ->
  (m' <- cd_stencil_1d_poisson_offdiag i0 i1 dx beta sgcw st m ;;
   cd_stencil_1d_poisson_diag i0 i1 sgcw st m') = Some ms ->
  (m' <- cdf_1d_poisson_flux i0 i1 dx gcw u f0 m ;;
   cd_apply_1d_poisson_v2_apply i0 i1 beta dx f0 rgcw res m') = Some mo ->
  forall i, i0 <= i <= i1 ->
  let st := mkFa st ((0, 2) :: CELL1d i0 i1 sgcw) in
  let u := mkFa u (CELL1d i0 i1 gcw) in
  let res := mkFa res (CELL1d i0 i1 rgcw) in
  exists r, (res!(i))%F mo = Some r /\
    (st!(0, i) * u!(i) + st!(1, i) * u!(i - 1) + st!(2, i) * u!(i + 1))%F ms = Some r.
Proof. exact @row_poisson_1d. Qed.
Print Assumptions C43_poisson_1d.

Example C43_poisson_1d_example :
  ex_st_h 0 <> lit 0 /\
  apart (9%nat, 0) [(4%nat, 0)] /\
  apart (5%nat, 0) [(4%nat, 0)] /\
  apart (8%nat, 0) [(5%nat, 0); (4%nat, 0)] /\
  ex_row_val (m' <- cd_stencil_1d_poisson_offdiag 0 1 ex_st_h (lit 3) 0 (9%nat, 0) (ex_st_cells 20) ;; cd_stencil_1d_poisson_diag 0 1 0 (9%nat, 0) m') (mkFa (9%nat, 0) [(0, 2); (0, 1)]) [[0; 1]; [1; 1]; [2; 1]]
    = [Some (3, 2); Some (-3, 4); Some (-3, 4)] /\
  ex_row_val (m' <- cdf_1d_poisson_flux 0 1 ex_st_h 1 (4%nat, 0) (5%nat, 0) (ex_st_cells 20) ;; cd_apply_1d_poisson_v2_apply 0 1 (lit 3) ex_st_h (5%nat, 0) 0 (8%nat, 0) m') (mkFa (8%nat, 0) [(0, 1)]) [[1]]
    = [Some (-3, 2)].
Proof. split; [intro C; apply (f_equal this) in C; vm_compute in C; discriminate C|]. split; [repeat constructor; discriminate|]. split; [repeat constructor; discriminate|]. split; [repeat constructor; discriminate|]. vm_compute. repeat split; reflexivity. Qed.

Theorem C43_v1_2d : forall (S : Scalar), field_laws S ->
  forall i0 j0 i1 j1 dx beta b0 b1 gcw u f0 f1 alpha agcw a sgcw st rgcw res (m ms mo : mem S),
  i0 <= i1 + 1 -> j0 <= j1 + 1 -> 0 <= gcw -> 0 <= sgcw -> 0 <= rgcw -> dx 0 <> lit 0 -> dx 1 <> lit 0 ->
  apart st [b0; b1; a; u] -> apart f0 [f1; b0; b1; a; u] -> apart f1 [b0; b1; a; u] ->
  apart res [f0; f1; a; u] ->
  (m' <- cd_stencil_2d_offdiag i0 j0 i1 j1 i0 j0 i1 j1 dx beta b0 b1 sgcw st m ;;
   cd_stencil_2d_v1diag i0 j0 i1 j1 (i0 - agcw) (j0 - agcw) (i1 + agcw) (j1 + agcw) alpha a sgcw st m') = Some ms ->
  (m' <- cdf_2d_flux i0 j0 i1 j1 dx b0 b1 gcw u f0 f1 m ;;
   cd_apply_2d_diffusion_v1_apply i0 i1 j0 j1 alpha beta dx agcw a gcw u f0 f1 rgcw res m') = Some mo ->
  forall i j, i0 <= i <= i1 -> j0 <= j <= j1 ->
  let st := mkFa st ((0, 4) :: CELL2d i0 j0 i1 j1 sgcw) in
  let u := mkFa u (CELL2d i0 j0 i1 j1 gcw) in
  let res := mkFa res (CELL2d i0 j0 i1 j1 rgcw) in
  exists r, (res!(i, j))%F mo = Some r /\
    (st!(0, i, j) * u!(i, j) + st!(1, i, j) * u!(i - 1, j) + st!(2, i, j) * u!(i + 1, j) + st!(3, i, j) * u!(i, j - 1) + st!(4, i, j) * u!(i, j + 1))%F ms = Some r.
Proof. exact @row_v1_2d. Qed.
Print Assumptions C43_v1_2d.

Example C43_v1_2d_example :
  ex_st_h 0 <> lit 0 /\
  ex_st_h 1 <> lit 0 /\
  apart (9%nat, 0) [(0%nat, 0); (1%nat, 0); (3%nat, 0); (4%nat, 0)] /\
  apart (5%nat, 0) [(6%nat, 0); (0%nat, 0); (1%nat, 0); (3%nat, 0); (4%nat, 0)] /\
  apart (6%nat, 0) [(0%nat, 0); (1%nat, 0); (3%nat, 0); (4%nat, 0)] /\
  apart (8%nat, 0) [(5%nat, 0); (6%nat, 0); (3%nat, 0); (4%nat, 0)] /\
  ex_row_val (m' <- cd_stencil_2d_offdiag 0 0 1 1 0 0 1 1 ex_st_h (lit 3) (0%nat, 0) (1%nat, 0) 0 (9%nat, 0) (ex_st_cells 40) ;; cd_stencil_2d_v1diag 0 0 1 1 (0 - 1) (0 - 1) (1 + 1) (1 + 1) (lit 5) (3%nat, 0) 0 (9%nat, 0) m') (mkFa (9%nat, 0) [(0, 4); (0, 1); (0, 1)]) [[0; 1; 1]; [1; 1; 1]; [2; 1; 1]; [3; 1; 1]; [4; 1; 1]]
    = [Some (12127, 12); Some (-51, 4); Some (-39, 2); Some (-29, 3); Some (-41, 3)] /\
  ex_row_val (m' <- cdf_2d_flux 0 0 1 1 ex_st_h (0%nat, 0) (1%nat, 0) 1 (4%nat, 0) (5%nat, 0) (6%nat, 0) (ex_st_cells 40) ;; cd_apply_2d_diffusion_v1_apply 0 1 0 1 (lit 5) (lit 3) ex_st_h 1 (3%nat, 0) 1 (4%nat, 0) (5%nat, 0) (6%nat, 0) 0 (8%nat, 0) m') (mkFa (8%nat, 0) [(0, 1); (0, 1)]) [[1; 1]]
    = [Some (2519057, 12)].
Proof. split; [intro C; apply (f_equal this) in C; vm_compute in C; discriminate C|]. split; [intro C; apply (f_equal this) in C; vm_compute in C; discriminate C|]. split; [repeat constructor; discriminate|]. split; [repeat constructor; discriminate|]. split; [repeat constructor; discriminate|]. split; [repeat constructor; discriminate|]. vm_compute. repeat split; reflexivity. Qed.

Theorem C43_v2_2d : forall (S : Scalar), field_laws S ->
  forall i0 j0 i1 j1 dx beta b0 b1 gcw u f0 f1 alpha sgcw st rgcw res (m ms mo : mem S),
  i0 <= i1 + 1 -> j0 <= j1 + 1 -> 0 <= gcw -> 0 <= sgcw -> 0 <= rgcw -> dx 0 <> lit 0 -> dx 1 <> lit 0 ->
  apart st [b0; b1; u] -> apart f0 [f1; b0; b1; u] -> apart f1 [b0; b1; u] -> apart res [f0; f1; u] ->
  (m' <- cd_stencil_2d_offdiag i0 j0 i1 j1 i0 j0 i1 j1 dx beta b0 b1 sgcw st m ;;
   cd_stencil_2d_v2diag i0 j0 i1 j1 alpha sgcw st m') = Some ms ->
  (m' <- cdf_2d_flux i0 j0 i1 j1 dx b0 b1 gcw u f0 f1 m ;;
   cd_apply_2d_diffusion_v2_apply i0 i1 j0 j1 alpha beta dx gcw u f0 f1 rgcw res m') = Some mo ->
  forall i j, i0 <= i <= i1 -> j0 <= j <= j1 ->
  let st := mkFa st ((0, 4) :: CELL2d i0 j0 i1 j1 sgcw) in
  let u := mkFa u (CELL2d i0 j0 i1 j1 gcw) in
  let res := mkFa res (CELL2d i0 j0 i1 j1 rgcw) in
  exists r, (res!(i, j))%F mo = Some r /\
    (st!(0, i, j) * u!(i, j) + st!(1, i, j) * u!(i - 1, j) + st!(2, i, j) * u!(i + 1, j) + st!(3, i, j) * u!(i, j - 1) + st!(4, i, j) * u!(i, j + 1))%F ms = Some r.
Proof. exact @row_v2_2d. Qed.
Print Assumptions C43_v2_2d.

Example C43_v2_2d_example :
  ex_st_h 0 <> lit 0 /\
  ex_st_h 1 <> lit 0 /\
  apart (9%nat, 0) [(0%nat, 0); (1%nat, 0); (4%nat, 0)] /\
  apart (5%nat, 0) [(6%nat, 0); (0%nat, 0); (1%nat, 0); (4%nat, 0)] /\
  apart (6%nat, 0) [(0%nat, 0); (1%nat, 0); (4%nat, 0)] /\
  apart (8%nat, 0) [(5%nat, 0); (6%nat, 0); (4%nat, 0)] /\
  ex_row_val (m' <- cd_stencil_2d_offdiag 0 0 1 1 0 0 1 1 ex_st_h (lit 3) (0%nat, 0) (1%nat, 0) 0 (9%nat, 0) (ex_st_cells 40) ;; cd_stencil_2d_v2diag 0 0 1 1 (lit 5) 0 (9%nat, 0) m') (mkFa (9%nat, 0) [(0, 4); (0, 1); (0, 1)]) [[0; 1; 1]; [1; 1; 1]; [2; 1; 1]; [3; 1; 1]; [4; 1; 1]]
    = [Some (727, 12); Some (-51, 4); Some (-39, 2); Some (-29, 3); Some (-41, 3)] /\
  ex_row_val (m' <- cdf_2d_flux 0 0 1 1 ex_st_h (0%nat, 0) (1%nat, 0) 1 (4%nat, 0) (5%nat, 0) (6%nat, 0) (ex_st_cells 40) ;; cd_apply_2d_diffusion_v2_apply 0 1 0 1 (lit 5) (lit 3) ex_st_h 1 (4%nat, 0) (5%nat, 0) (6%nat, 0) 0 (8%nat, 0) m') (mkFa (8%nat, 0) [(0, 1); (0, 1)]) [[1; 1]]
    = [Some (-343, 12)].
Proof. split; [intro C; apply (f_equal this) in C; vm_compute in C; discriminate C|]. split; [intro C; apply (f_equal this) in C; vm_compute in C; discriminate C|]. split; [repeat constructor; discriminate|]. split; [repeat constructor; discriminate|]. split; [repeat constructor; discriminate|]. split; [repeat constructor; discriminate|]. vm_compute. repeat split; reflexivity. Qed.

Theorem C43_poisson_2d : forall (S : Scalar), field_laws S ->
  forall i0 j0 i1 j1 dx beta gcw u f0 f1 sgcw st rgcw res (m ms mo : mem S),
  i0 <= i1 + 1 -> j0 <= j1 + 1 -> 0 <= gcw -> 0 <= sgcw -> 0 <= rgcw -> dx 0 <> lit 0 -> dx 1 <> lit 0 ->
  apart st [u] -> apart f0 [f1; u] -> apart f1 [u] -> apart res [f0; f1; u] ->
  (m' <- cd_stencil_2d_poisson_offdiag i0 j0 i1 j1 dx beta sgcw st m ;;
   cd_stencil_2d_poisson_diag i0 j0 i1 j1 sgcw st m') = Some ms ->
  (m' <- cdf_2d_poisson_flux i0 j0 i1 j1 dx gcw u f0 f1 m ;;
   cd_apply_2d_poisson_v2_apply i0 i1 j0 j1 beta dx f0 f1 rgcw res m') = Some mo ->
  forall i j, i0 <= i <= i1 -> j0 <= j <= j1 ->
  let st := mkFa st ((0, 4) :: CELL2d i0 j0 i1 j1 sgcw) in
  let u := mkFa u (CELL2d i0 j0 i1 j1 gcw) in
  let res := mkFa res (CELL2d i0 j0 i1 j1 rgcw) in
  exists r, (res!(i, j))%F mo = Some r /\
    (st!(0, i, j) * u!(i, j) + st!(1, i, j) * u!(i - 1, j) + st!(2, i, j) * u!(i + 1, j) + st!(3, i, j) * u!(i, j - 1) + st!(4, i, j) * u!(i, j + 1))%F ms = Some r.
Proof. exact @row_poisson_2d. Qed.
Print Assumptions C43_poisson_2d.

Example C43_poisson_2d_example :
  ex_st_h 0 <> lit 0 /\
  ex_st_h 1 <> lit 0 /\
  apart (9%nat, 0) [(4%nat, 0)] /\
  apart (5%nat, 0) [(6%nat, 0); (4%nat, 0)] /\
  apart (6%nat, 0) [(4%nat, 0)] /\
  apart (8%nat, 0) [(5%nat, 0); (6%nat, 0); (4%nat, 0)] /\
  ex_row_val (m' <- cd_stencil_2d_poisson_offdiag 0 0 1 1 ex_st_h (lit 3) 0 (9%nat, 0) (ex_st_cells 40) ;; cd_stencil_2d_poisson_diag 0 0 1 1 0 (9%nat, 0) m') (mkFa (9%nat, 0) [(0, 4); (0, 1); (0, 1)]) [[0; 1; 1]; [1; 1; 1]; [2; 1; 1]; [3; 1; 1]; [4; 1; 1]]
    = [Some (13, 6); Some (-3, 4); Some (-3, 4); Some (-1, 3); Some (-1, 3)] /\
  ex_row_val (m' <- cdf_2d_poisson_flux 0 0 1 1 ex_st_h 1 (4%nat, 0) (5%nat, 0) (6%nat, 0) (ex_st_cells 40) ;; cd_apply_2d_poisson_v2_apply 0 1 0 1 (lit 3) ex_st_h (5%nat, 0) (6%nat, 0) 0 (8%nat, 0) m') (mkFa (8%nat, 0) [(0, 1); (0, 1)]) [[1; 1]]
    = [Some (-73, 6)].
Proof. split; [intro C; apply (f_equal this) in C; vm_compute in C; discriminate C|]. split; [intro C; apply (f_equal this) in C; vm_compute in C; discriminate C|]. split; [repeat constructor; discriminate|]. split; [repeat constructor; discriminate|]. split; [repeat constructor; discriminate|]. split; [repeat constructor; discriminate|]. vm_compute. repeat split; reflexivity. Qed.

Theorem C43_v1_3d : forall (S : Scalar), field_laws S ->
  forall i0 j0 k0 i1 j1 k1 dx beta b0 b1 b2 gcw u f0 f1 f2 alpha agcw a sgcw st rgcw res (m ms mo : mem S),
  i0 <= i1 + 1 -> j0 <= j1 + 1 -> k0 <= k1 + 1 -> 0 <= gcw -> 0 <= sgcw -> 0 <= rgcw -> dx 0 <> lit 0 ->
  dx 1 <> lit 0 -> dx 2 <> lit 0 -> apart st [b0; b1; b2; a; u] -> apart f0 [f1; f2; b0; b1; b2; a; u] ->
  apart f1 [f2; b0; b1; b2; a; u] -> apart f2 [b0; b1; b2; a; u] -> apart res [f0; f1; f2; a; u] ->
  (m' <- cd_stencil_3d_offdiag i0 j0 k0 i1 j1 k1 i0 j0 k0 i1 j1 k1 dx beta b0 b1 b2 sgcw st m ;;
   cd_stencil_3d_v1diag i0 j0 k0 i1 j1 k1 (i0 - agcw) (j0 - agcw) (k0 - agcw) (i1 + agcw) (j1 + agcw) (k1 + agcw) alpha a sgcw st m') = Some ms ->
  (m' <- cdf_3d_flux i0 j0 k0 i1 j1 k1 dx b0 b1 b2 gcw u f0 f1 f2 m ;;
   cd_apply_3d_diffusion_v1_apply i0 i1 j0 j1 k0 k1 alpha beta dx agcw a gcw u f0 f1 f2 rgcw res m') = Some mo ->
  forall i j k, i0 <= i <= i1 -> j0 <= j <= j1 -> k0 <= k <= k1 ->
  let st := mkFa st ((0, 6) :: CELL3d i0 j0 k0 i1 j1 k1 sgcw) in
  let u := mkFa u (CELL3d i0 j0 k0 i1 j1 k1 gcw) in
  let res := mkFa res (CELL3d i0 j0 k0 i1 j1 k1 rgcw) in
  exists r, (res!(i, j, k))%F mo = Some r /\
    (st!(0, i, j, k) * u!(i, j, k) + st!(1, i, j, k) * u!(i - 1, j, k) + st!(2, i, j, k) * u!(i + 1, j, k) + st!(3, i, j, k) * u!(i, j - 1, k) + st!(4, i, j, k) * u!(i, j + 1, k) + st!(5, i, j, k) * u!(i, j, k - 1) + st!(6, i, j, k) * u!(i, j, k + 1))%F ms = Some r.
Proof. exact @row_v1_3d. Qed.
Print Assumptions C43_v1_3d.

Example C43_v1_3d_example :
  ex_st_h 0 <> lit 0 /\
  ex_st_h 1 <> lit 0 /\
  ex_st_h 2 <> lit 0 /\
  apart (9%nat, 0) [(0%nat, 0); (1%nat, 0); (2%nat, 0); (3%nat, 0); (4%nat, 0)] /\
  apart (5%nat, 0) [(6%nat, 0); (7%nat, 0); (0%nat, 0); (1%nat, 0); (2%nat, 0); (3%nat, 0); (4%nat, 0)] /\
  apart (6%nat, 0) [(7%nat, 0); (0%nat, 0); (1%nat, 0); (2%nat, 0); (3%nat, 0); (4%nat, 0)] /\
  apart (7%nat, 0) [(0%nat, 0); (1%nat, 0); (2%nat, 0); (3%nat, 0); (4%nat, 0)] /\
  apart (8%nat, 0) [(5%nat, 0); (6%nat, 0); (7%nat, 0); (3%nat, 0); (4%nat, 0)] /\
  ex_row_val (m' <- cd_stencil_3d_offdiag 0 0 0 1 1 1 0 0 0 1 1 1 ex_st_h (lit 3) (0%nat, 0) (1%nat, 0) (2%nat, 0) 0 (9%nat, 0) (ex_st_cells 70) ;; cd_stencil_3d_v1diag 0 0 0 1 1 1 (0 - 1) (0 - 1) (0 - 1) (1 + 1) (1 + 1) (1 + 1) (lit 5) (3%nat, 0) 0 (9%nat, 0) m') (mkFa (9%nat, 0) [(0, 6); (0, 1); (0, 1); (0, 1)]) [[0; 1; 1; 1]; [1; 1; 1; 1]; [2; 1; 1; 1]; [3; 1; 1; 1]; [4; 1; 1; 1]; [5; 1; 1; 1]; [6; 1; 1; 1]]
    = [Some (530065, 48); Some (-303, 4); Some (-183, 2); Some (-131, 3); Some (-155, 3); Some (-483, 16); Some (-141, 4)] /\
  ex_row_val (m' <- cdf_3d_flux 0 0 0 1 1 1 ex_st_h (0%nat, 0) (1%nat, 0) (2%nat, 0) 1 (4%nat, 0) (5%nat, 0) (6%nat, 0) (7%nat, 0) (ex_st_cells 70) ;; cd_apply_3d_diffusion_v1_apply 0 1 0 1 0 1 (lit 5) (lit 3) ex_st_h 1 (3%nat, 0) 1 (4%nat, 0) (5%nat, 0) (6%nat, 0) (7%nat, 0) 0 (8%nat, 0) m') (mkFa (8%nat, 0) [(0, 1); (0, 1); (0, 1)]) [[1; 1; 1]]
    = [Some (291378365, 12)].
Proof. split; [intro C; apply (f_equal this) in C; vm_compute in C; discriminate C|]. split; [intro C; apply (f_equal this) in C; vm_compute in C; discriminate C|]. split; [intro C; apply (f_equal this) in C; vm_compute in C; discriminate C|]. split; [repeat constructor; discriminate|]. split; [repeat constructor; discriminate|]. split; [repeat constructor; discriminate|]. split; [repeat constructor; discriminate|]. split; [repeat constructor; discriminate|]. vm_compute. repeat split; reflexivity. Qed.

Theorem C43_v2_3d : forall (S : Scalar), field_laws S ->
  forall i0 j0 k0 i1 j1 k1 dx beta b0 b1 b2 gcw u f0 f1 f2 alpha sgcw st rgcw res (m ms mo : mem S),
  i0 <= i1 + 1 -> j0 <= j1 + 1 -> k0 <= k1 + 1 -> 0 <= gcw -> 0 <= sgcw -> 0 <= rgcw -> dx 0 <> lit 0 ->
  dx 1 <> lit 0 -> dx 2 <> lit 0 -> apart st [b0; b1; b2; u] -> apart f0 [f1; f2; b0; b1; b2; u] ->
  apart f1 [f2; b0; b1; b2; u] -> apart f2 [b0; b1; b2; u] -> apart res [f0; f1; f2; u] ->
  (m' <- cd_stencil_3d_offdiag i0 j0 k0 i1 j1 k1 i0 j0 k0 i1 j1 k1 dx beta b0 b1 b2 sgcw st m ;;
   cd_stencil_3d_v2diag i0 j0 k0 i1 j1 k1 alpha sgcw st m') = Some ms ->
  (m' <- cdf_3d_flux i0 j0 k0 i1 j1 k1 dx b0 b1 b2 gcw u f0 f1 f2 m ;;
   cd_apply_3d_diffusion_v2_apply i0 i1 j0 j1 k0 k1 alpha beta dx gcw u f0 f1 f2 rgcw res m') = Some mo ->
  forall i j k, i0 <= i <= i1 -> j0 <= j <= j1 -> k0 <= k <= k1 ->
  let st := mkFa st ((0, 6) :: CELL3d i0 j0 k0 i1 j1 k1 sgcw) in
  let u := mkFa u (CELL3d i0 j0 k0 i1 j1 k1 gcw) in
  let res := mkFa res (CELL3d i0 j0 k0 i1 j1 k1 rgcw) in
  exists r, (res!(i, j, k))%F mo = Some r /\
    (st!(0, i, j, k) * u!(i, j, k) + st!(1, i, j, k) * u!(i - 1, j, k) + st!(2, i, j, k) * u!(i + 1, j, k) + st!(3, i, j, k) * u!(i, j - 1, k) + st!(4, i, j, k) * u!(i, j + 1, k) + st!(5, i, j, k) * u!(i, j, k - 1) + st!(6, i, j, k) * u!(i, j, k + 1))%F ms = Some r.
Proof. exact @row_v2_3d. Qed.
Print Assumptions C43_v2_3d.

Example C43_v2_3d_example :
  ex_st_h 0 <> lit 0 /\
  ex_st_h 1 <> lit 0 /\
  ex_st_h 2 <> lit 0 /\
  apart (9%nat, 0) [(0%nat, 0); (1%nat, 0); (2%nat, 0); (4%nat, 0)] /\
  apart (5%nat, 0) [(6%nat, 0); (7%nat, 0); (0%nat, 0); (1%nat, 0); (2%nat, 0); (4%nat, 0)] /\
  apart (6%nat, 0) [(7%nat, 0); (0%nat, 0); (1%nat, 0); (2%nat, 0); (4%nat, 0)] /\
  apart (7%nat, 0) [(0%nat, 0); (1%nat, 0); (2%nat, 0); (4%nat, 0)] /\
  apart (8%nat, 0) [(5%nat, 0); (6%nat, 0); (7%nat, 0); (4%nat, 0)] /\
  ex_row_val (m' <- cd_stencil_3d_offdiag 0 0 0 1 1 1 0 0 0 1 1 1 ex_st_h (lit 3) (0%nat, 0) (1%nat, 0) (2%nat, 0) 0 (9%nat, 0) (ex_st_cells 70) ;; cd_stencil_3d_v2diag 0 0 0 1 1 1 (lit 5) 0 (9%nat, 0) m') (mkFa (9%nat, 0) [(0, 6); (0, 1); (0, 1); (0, 1)]) [[0; 1; 1; 1]; [1; 1; 1; 1]; [2; 1; 1; 1]; [3; 1; 1; 1]; [4; 1; 1; 1]; [5; 1; 1; 1]; [6; 1; 1; 1]]
    = [Some (15985, 48); Some (-303, 4); Some (-183, 2); Some (-131, 3); Some (-155, 3); Some (-483, 16); Some (-141, 4)] /\
  ex_row_val (m' <- cdf_3d_flux 0 0 0 1 1 1 ex_st_h (0%nat, 0) (1%nat, 0) (2%nat, 0) 1 (4%nat, 0) (5%nat, 0) (6%nat, 0) (7%nat, 0) (ex_st_cells 70) ;; cd_apply_3d_diffusion_v2_apply 0 1 0 1 0 1 (lit 5) (lit 3) ex_st_h 1 (4%nat, 0) (5%nat, 0) (6%nat, 0) (7%nat, 0) 0 (8%nat, 0) m') (mkFa (8%nat, 0) [(0, 1); (0, 1); (0, 1)]) [[1; 1; 1]]
    = [Some (-233515, 12)].
Proof. split; [intro C; apply (f_equal this) in C; vm_compute in C; discriminate C|]. split; [intro C; apply (f_equal this) in C; vm_compute in C; discriminate C|]. split; [intro C; apply (f_equal this) in C; vm_compute in C; discriminate C|]. split; [repeat constructor; discriminate|]. split; [repeat constructor; discriminate|]. split; [repeat constructor; discriminate|]. split; [repeat constructor; discriminate|]. split; [repeat constructor; discriminate|]. vm_compute. repeat split; reflexivity. Qed.

Theorem C43_poisson_3d : forall (S : Scalar), field_laws S ->
  forall i0 j0 k0 i1 j1 k1 dx beta gcw u f0 f1 f2 sgcw st rgcw res (m ms mo : mem S),
  i0 <= i1 + 1 -> j0 <= j1 + 1 -> k0 <= k1 + 1 -> 0 <= gcw -> 0 <= sgcw -> 0 <= rgcw -> dx 0 <> lit 0 ->
  dx 1 <> lit 0 -> dx 2 <> lit 0 -> apart st [u] -> apart f0 [f1; f2; u] -> apart f1 [f2; u] ->
  apart f2 [u] -> apart res [f0; f1; f2; u] ->
  (m' <- cd_stencil_3d_poisson_offdiag i0 j0 k0 i1 j1 k1 dx beta sgcw st m ;;
   cd_stencil_3d_poisson_diag i0 j0 k0 i1 j1 k1 sgcw st m') = Some ms ->
  (m' <- cdf_3d_poisson_flux i0 j0 k0 i1 j1 k1 dx gcw u f0 f1 f2 m ;;
   cd_apply_3d_poisson_v2_apply i0 i1 j0 j1 k0 k1 beta dx f0 f1 f2 rgcw res m') = Some mo ->
  forall i j k, i0 <= i <= i1 -> j0 <= j <= j1 -> k0 <= k <= k1 ->
  let st := mkFa st ((0, 6) :: CELL3d i0 j0 k0 i1 j1 k1 sgcw) in
  let u := mkFa u (CELL3d i0 j0 k0 i1 j1 k1 gcw) in
  let res := mkFa res (CELL3d i0 j0 k0 i1 j1 k1 rgcw) in
  exists r, (res!(i, j, k))%F mo = Some r /\
    (st!(0, i, j, k) * u!(i, j, k) + st!(1, i, j, k) * u!(i - 1, j, k) + st!(2, i, j, k) * u!(i + 1, j, k) + st!(3, i, j, k) * u!(i, j - 1, k) + st!(4, i, j, k) * u!(i, j + 1, k) + st!(5, i, j, k) * u!(i, j, k - 1) + st!(6, i, j, k) * u!(i, j, k + 1))%F ms = Some r.
Proof. exact @row_poisson_3d. Qed.
Print Assumptions C43_poisson_3d.

Example C43_poisson_3d_example :
  ex_st_h 0 <> lit 0 /\
  ex_st_h 1 <> lit 0 /\
  ex_st_h 2 <> lit 0 /\
  apart (9%nat, 0) [(4%nat, 0)] /\
  apart (5%nat, 0) [(6%nat, 0); (7%nat, 0); (4%nat, 0)] /\
  apart (6%nat, 0) [(7%nat, 0); (4%nat, 0)] /\
  apart (7%nat, 0) [(4%nat, 0)] /\
  apart (8%nat, 0) [(5%nat, 0); (6%nat, 0); (7%nat, 0); (4%nat, 0)] /\
  ex_row_val (m' <- cd_stencil_3d_poisson_offdiag 0 0 0 1 1 1 ex_st_h (lit 3) 0 (9%nat, 0) (ex_st_cells 70) ;; cd_stencil_3d_poisson_diag 0 0 0 1 1 1 0 (9%nat, 0) m') (mkFa (9%nat, 0) [(0, 6); (0, 1); (0, 1); (0, 1)]) [[0; 1; 1; 1]; [1; 1; 1; 1]; [2; 1; 1; 1]; [3; 1; 1; 1]; [4; 1; 1; 1]; [5; 1; 1; 1]; [6; 1; 1; 1]]
    = [Some (61, 24); Some (-3, 4); Some (-3, 4); Some (-1, 3); Some (-1, 3); Some (-3, 16); Some (-3, 16)] /\
  ex_row_val (m' <- cdf_3d_poisson_flux 0 0 0 1 1 1 ex_st_h 1 (4%nat, 0) (5%nat, 0) (6%nat, 0) (7%nat, 0) (ex_st_cells 70) ;; cd_apply_3d_poisson_v2_apply 0 1 0 1 0 1 (lit 3) ex_st_h (5%nat, 0) (6%nat, 0) (7%nat, 0) 0 (8%nat, 0) m') (mkFa (8%nat, 0) [(0, 1); (0, 1); (0, 1)]) [[1; 1; 1]]
    = [Some (-649, 6)].
Proof. split; [intro C; apply (f_equal this) in C; vm_compute in C; discriminate C|]. split; [intro C; apply (f_equal this) in C; vm_compute in C; discriminate C|]. split; [intro C; apply (f_equal this) in C; vm_compute in C; discriminate C|]. split; [repeat constructor; discriminate|]. split; [repeat constructor; discriminate|]. split; [repeat constructor; discriminate|]. split; [repeat constructor; discriminate|]. split; [repeat constructor; discriminate|]. vm_compute. repeat split; reflexivity. Qed.

(** ** C44: summed over the patch the operator leaves the fluxes through its boundary

    [r], [w], [c], [v0], ...: the values of res, u, a and of the fluxes. *)

Theorem C44_v1_1d : forall (S : Scalar), field_laws S ->
  forall i0 i1 alpha beta dx agcw a gcw u f0 rgcw res (m m' : mem S) r w c v0 ,
  i0 <= i1 + 1 -> 0 <= rgcw -> apart res [f0; u; a] ->
  cd_apply_1d_diffusion_v1_apply i0 i1 alpha beta dx agcw a gcw u f0 rgcw res m = Some m' ->
  (forall i, i0 <= i <= i1 -> ((mkFa res (CELL1d i0 i1 rgcw))!(i))%F m' = Some (r i)) ->
  (forall i, i0 <= i <= i1 -> ((mkFa u (CELL1d i0 i1 gcw))!(i))%F m = Some (w i)) ->
  (forall i, i0 <= i <= i1 -> ((mkFa a (CELL1d i0 i1 agcw))!(i))%F m = Some (c i)) ->
  (forall i, i0 <= i <= i1 + 1 -> ((mkFa f0 (FACE1d i0 i1 0))!(i))%F m = Some (v0 i)) ->
  (total i0 i1 (fun i => r i))%T =
  (- beta * ((v0 (i1 + 1)%Z - v0 i0) / dx 0) + alpha * total i0 i1 (fun i => c i * w i))%T.
Proof. exact @conserve_v1_1d. Qed.
Print Assumptions C44_v1_1d.

Example C44_v1_1d_example :
  apart (8%nat, 0) [(5%nat, 0); (4%nat, 0); (3%nat, 0)] /\
  ex_row_val (cd_apply_1d_diffusion_v1_apply 0 1 (lit 5) (lit 3) ex_st_h 1 (3%nat, 0) 1 (4%nat, 0) (5%nat, 0) 0 (8%nat, 0) (ex_st_cells 20)) (mkFa (8%nat, 0) [(0, 1)]) [[0]; [1]]
    = [Some (746, 1); Some (3308, 1)].
Proof. split; [repeat constructor; discriminate|]. vm_compute. reflexivity. Qed.

Theorem C44_v2_1d : forall (S : Scalar), field_laws S ->
  forall i0 i1 alpha beta dx gcw u f0 rgcw res (m m' : mem S) r w v0 ,
  i0 <= i1 + 1 -> 0 <= rgcw -> apart res [f0; u] ->
  cd_apply_1d_diffusion_v2_apply i0 i1 alpha beta dx gcw u f0 rgcw res m = Some m' ->
  (forall i, i0 <= i <= i1 -> ((mkFa res (CELL1d i0 i1 rgcw))!(i))%F m' = Some (r i)) ->
  (forall i, i0 <= i <= i1 -> ((mkFa u (CELL1d i0 i1 gcw))!(i))%F m = Some (w i)) ->
  (forall i, i0 <= i <= i1 + 1 -> ((mkFa f0 (FACE1d i0 i1 0))!(i))%F m = Some (v0 i)) ->
  (total i0 i1 (fun i => r i))%T =
  (- beta * ((v0 (i1 + 1)%Z - v0 i0) / dx 0) + alpha * total i0 i1 (fun i => w i))%T.
Proof. exact @conserve_v2_1d. Qed.
Print Assumptions C44_v2_1d.

Example C44_v2_1d_example :
  apart (8%nat, 0) [(5%nat, 0); (4%nat, 0)] /\
  ex_row_val (cd_apply_1d_diffusion_v2_apply 0 1 (lit 5) (lit 3) ex_st_h 1 (4%nat, 0) (5%nat, 0) 0 (8%nat, 0) (ex_st_cells 20)) (mkFa (8%nat, 0) [(0, 1)]) [[0]; [1]]
    = [Some (46, 1); Some (118, 1)].
Proof. split; [repeat constructor; discriminate|]. vm_compute. reflexivity. Qed.

Theorem C44_poisson_1d : forall (S : Scalar), field_laws S ->
  forall i0 i1 beta dx f0 rgcw res (m m' : mem S) r v0 ,
  i0 <= i1 + 1 -> 0 <= rgcw -> apart res [f0] ->
  cd_apply_1d_poisson_v2_apply i0 i1 beta dx f0 rgcw res m = Some m' ->
  (forall i, i0 <= i <= i1 -> ((mkFa res (CELL1d i0 i1 rgcw))!(i))%F m' = Some (r i)) ->
  (forall i, i0 <= i <= i1 + 1 -> ((mkFa f0 (FACE1d i0 i1 0))!(i))%F m = Some (v0 i)) ->
  (total i0 i1 (fun i => r i))%T =
  (- beta * ((v0 (i1 + 1)%Z - v0 i0) / dx 0))%T.
Proof. exact @conserve_poisson_1d. Qed.
Print Assumptions C44_poisson_1d.

Example C44_poisson_1d_example :
  apart (8%nat, 0) [(5%nat, 0)] /\
  ex_row_val (cd_apply_1d_poisson_v2_apply 0 1 (lit 3) ex_st_h (5%nat, 0) 0 (8%nat, 0) (ex_st_cells 20)) (mkFa (8%nat, 0) [(0, 1)]) [[0]; [1]]
    = [Some (-24, 1); Some (-27, 1)].
Proof. split; [repeat constructor; discriminate|]. vm_compute. reflexivity. Qed.

Theorem C44_v1_2d : forall (S : Scalar), field_laws S ->
  forall i0 i1 j0 j1 alpha beta dx agcw a gcw u f0 f1 rgcw res (m m' : mem S) r w c v0 v1 ,
  i0 <= i1 + 1 -> j0 <= j1 + 1 -> 0 <= rgcw -> apart res [f0; f1; u; a] ->
  cd_apply_2d_diffusion_v1_apply i0 i1 j0 j1 alpha beta dx agcw a gcw u f0 f1 rgcw res m = Some m' ->
  (forall i j, i0 <= i <= i1 -> j0 <= j <= j1 -> ((mkFa res (CELL2d i0 j0 i1 j1 rgcw))!(i, j))%F m' = Some (r i j)) ->
  (forall i j, i0 <= i <= i1 -> j0 <= j <= j1 -> ((mkFa u (CELL2d i0 j0 i1 j1 gcw))!(i, j))%F m = Some (w i j)) ->
  (forall i j, i0 <= i <= i1 -> j0 <= j <= j1 -> ((mkFa a (CELL2d i0 j0 i1 j1 agcw))!(i, j))%F m = Some (c i j)) ->
  (forall i j, i0 <= i <= i1 + 1 -> j0 <= j <= j1 -> ((mkFa f0 (FACE2d0 i0 j0 i1 j1 0))!(i, j))%F m = Some (v0 i j)) ->
  (forall i j, i0 <= i <= i1 -> j0 <= j <= j1 + 1 -> ((mkFa f1 (FACE2d1 i0 j0 i1 j1 0))!(j, i))%F m = Some (v1 i j)) ->
  (total2 i0 j0 i1 j1 (fun i j => r i j))%T =
  (- beta * (total j0 j1 (fun j => (v0 (i1 + 1)%Z j - v0 i0 j)) / dx 0 + total i0 i1 (fun i => (v1 i (j1 + 1)%Z - v1 i j0)) / dx 1) + alpha * total2 i0 j0 i1 j1 (fun i j => c i j * w i j))%T.
Proof. exact @conserve_v1_2d. Qed.
Print Assumptions C44_v1_2d.

Example C44_v1_2d_example :
  apart (8%nat, 0) [(5%nat, 0); (6%nat, 0); (4%nat, 0); (3%nat, 0)] /\
  ex_row_val (cd_apply_2d_diffusion_v1_apply 0 1 0 1 (lit 5) (lit 3) ex_st_h 1 (3%nat, 0) 1 (4%nat, 0) (5%nat, 0) (6%nat, 0) 0 (8%nat, 0) (ex_st_cells 40)) (mkFa (8%nat, 0) [(0, 1); (0, 1)]) [[0; 0]; [0; 1]; [1; 0]; [1; 1]]
    = [Some (30487, 1); Some (154796, 1); Some (49543, 1); Some (210992, 1)].
Proof. split; [repeat constructor; discriminate|]. vm_compute. reflexivity. Qed.

Theorem C44_v2_2d : forall (S : Scalar), field_laws S ->
  forall i0 i1 j0 j1 alpha beta dx gcw u f0 f1 rgcw res (m m' : mem S) r w v0 v1 ,
  i0 <= i1 + 1 -> j0 <= j1 + 1 -> 0 <= rgcw -> apart res [f0; f1; u] ->
  cd_apply_2d_diffusion_v2_apply i0 i1 j0 j1 alpha beta dx gcw u f0 f1 rgcw res m = Some m' ->
  (forall i j, i0 <= i <= i1 -> j0 <= j <= j1 -> ((mkFa res (CELL2d i0 j0 i1 j1 rgcw))!(i, j))%F m' = Some (r i j)) ->
  (forall i j, i0 <= i <= i1 -> j0 <= j <= j1 -> ((mkFa u (CELL2d i0 j0 i1 j1 gcw))!(i, j))%F m = Some (w i j)) ->
  (forall i j, i0 <= i <= i1 + 1 -> j0 <= j <= j1 -> ((mkFa f0 (FACE2d0 i0 j0 i1 j1 0))!(i, j))%F m = Some (v0 i j)) ->
  (forall i j, i0 <= i <= i1 -> j0 <= j <= j1 + 1 -> ((mkFa f1 (FACE2d1 i0 j0 i1 j1 0))!(j, i))%F m = Some (v1 i j)) ->
  (total2 i0 j0 i1 j1 (fun i j => r i j))%T =
  (- beta * (total j0 j1 (fun j => (v0 (i1 + 1)%Z j - v0 i0 j)) / dx 0 + total i0 i1 (fun i => (v1 i (j1 + 1)%Z - v1 i j0)) / dx 1) + alpha * total2 i0 j0 i1 j1 (fun i j => w i j))%T.
Proof. exact @conserve_v2_2d. Qed.
Print Assumptions C44_v2_2d.

Example C44_v2_2d_example :
  apart (8%nat, 0) [(5%nat, 0); (6%nat, 0); (4%nat, 0)] /\
  ex_row_val (cd_apply_2d_diffusion_v2_apply 0 1 0 1 (lit 5) (lit 3) ex_st_h 1 (4%nat, 0) (5%nat, 0) (6%nat, 0) 0 (8%nat, 0) (ex_st_cells 40)) (mkFa (8%nat, 0) [(0, 1); (0, 1)]) [[0; 0]; [0; 1]; [1; 0]; [1; 1]]
    = [Some (387, 1); Some (896, 1); Some (493, 1); Some (1042, 1)].
Proof. split; [repeat constructor; discriminate|]. vm_compute. reflexivity. Qed.

Theorem C44_poisson_2d : forall (S : Scalar), field_laws S ->
  forall i0 i1 j0 j1 beta dx f0 f1 rgcw res (m m' : mem S) r v0 v1 ,
  i0 <= i1 + 1 -> j0 <= j1 + 1 -> 0 <= rgcw -> apart res [f0; f1] ->
  cd_apply_2d_poisson_v2_apply i0 i1 j0 j1 beta dx f0 f1 rgcw res m = Some m' ->
  (forall i j, i0 <= i <= i1 -> j0 <= j <= j1 -> ((mkFa res (CELL2d i0 j0 i1 j1 rgcw))!(i, j))%F m' = Some (r i j)) ->
  (forall i j, i0 <= i <= i1 + 1 -> j0 <= j <= j1 -> ((mkFa f0 (FACE2d0 i0 j0 i1 j1 0))!(i, j))%F m = Some (v0 i j)) ->
  (forall i j, i0 <= i <= i1 -> j0 <= j <= j1 + 1 -> ((mkFa f1 (FACE2d1 i0 j0 i1 j1 0))!(j, i))%F m = Some (v1 i j)) ->
  (total2 i0 j0 i1 j1 (fun i j => r i j))%T =
  (- beta * (total j0 j1 (fun j => (v0 (i1 + 1)%Z j - v0 i0 j)) / dx 0 + total i0 i1 (fun i => (v1 i (j1 + 1)%Z - v1 i j0)) / dx 1))%T.
Proof. exact @conserve_poisson_2d. Qed.
Print Assumptions C44_poisson_2d.

Example C44_poisson_2d_example :
  apart (8%nat, 0) [(5%nat, 0); (6%nat, 0)] /\
  ex_row_val (cd_apply_2d_poisson_v2_apply 0 1 0 1 (lit 3) ex_st_h (5%nat, 0) (6%nat, 0) 0 (8%nat, 0) (ex_st_cells 40)) (mkFa (8%nat, 0) [(0, 1); (0, 1)]) [[0; 0]; [0; 1]; [1; 0]; [1; 1]]
    = [Some (-43, 1); Some (-54, 1); Some (-52, 1); Some (-63, 1)].
Proof. split; [repeat constructor; discriminate|]. vm_compute. reflexivity. Qed.

Theorem C44_v1_3d : forall (S : Scalar), field_laws S ->
  forall i0 i1 j0 j1 k0 k1 alpha beta dx agcw a gcw u f0 f1 f2 rgcw res (m m' : mem S) r w c v0 v1 v2 ,
  i0 <= i1 + 1 -> j0 <= j1 + 1 -> k0 <= k1 + 1 -> 0 <= rgcw -> apart res [f0; f1; f2; u; a] ->
  cd_apply_3d_diffusion_v1_apply i0 i1 j0 j1 k0 k1 alpha beta dx agcw a gcw u f0 f1 f2 rgcw res m = Some m' ->
  (forall i j k, i0 <= i <= i1 -> j0 <= j <= j1 -> k0 <= k <= k1 -> ((mkFa res (CELL3d i0 j0 k0 i1 j1 k1 rgcw))!(i, j, k))%F m' = Some (r i j k)) ->
  (forall i j k, i0 <= i <= i1 -> j0 <= j <= j1 -> k0 <= k <= k1 -> ((mkFa u (CELL3d i0 j0 k0 i1 j1 k1 gcw))!(i, j, k))%F m = Some (w i j k)) ->
  (forall i j k, i0 <= i <= i1 -> j0 <= j <= j1 -> k0 <= k <= k1 -> ((mkFa a (CELL3d i0 j0 k0 i1 j1 k1 agcw))!(i, j, k))%F m = Some (c i j k)) ->
  (forall i j k, i0 <= i <= i1 + 1 -> j0 <= j <= j1 -> k0 <= k <= k1 -> ((mkFa f0 (FACE3d0 i0 j0 k0 i1 j1 k1 0))!(i, j, k))%F m = Some (v0 i j k)) ->
  (forall i j k, i0 <= i <= i1 -> j0 <= j <= j1 + 1 -> k0 <= k <= k1 -> ((mkFa f1 (FACE3d1 i0 j0 k0 i1 j1 k1 0))!(j, k, i))%F m = Some (v1 i j k)) ->
  (forall i j k, i0 <= i <= i1 -> j0 <= j <= j1 -> k0 <= k <= k1 + 1 -> ((mkFa f2 (FACE3d2 i0 j0 k0 i1 j1 k1 0))!(k, i, j))%F m = Some (v2 i j k)) ->
  (total3 i0 j0 k0 i1 j1 k1 (fun i j k => r i j k))%T =
  (- beta * (total2 j0 k0 j1 k1 (fun j k => (v0 (i1 + 1)%Z j k - v0 i0 j k)) / dx 0 + total2 i0 k0 i1 k1 (fun i k => (v1 i (j1 + 1)%Z k - v1 i j0 k)) / dx 1 + total2 i0 j0 i1 j1 (fun i j => (v2 i j (k1 + 1)%Z - v2 i j k0)) / dx 2) + alpha * total3 i0 j0 k0 i1 j1 k1 (fun i j k => c i j k * w i j k))%T.
Proof. exact @conserve_v1_3d. Qed.
Print Assumptions C44_v1_3d.

Example C44_v1_3d_example :
  apart (8%nat, 0) [(5%nat, 0); (6%nat, 0); (7%nat, 0); (4%nat, 0); (3%nat, 0)] /\
  ex_row_val (cd_apply_3d_diffusion_v1_apply 0 1 0 1 0 1 (lit 5) (lit 3) ex_st_h 1 (3%nat, 0) 1 (4%nat, 0) (5%nat, 0) (6%nat, 0) (7%nat, 0) 0 (8%nat, 0) (ex_st_cells 70)) (mkFa (8%nat, 0) [(0, 1); (0, 1); (0, 1)]) [[0; 0; 0]; [0; 0; 1]; [0; 1; 0]; [0; 1; 1]; [1; 0; 0]; [1; 0; 1]; [1; 1; 0]; [1; 1; 1]]
    = [Some (4379021, 2); Some (15446125, 1); Some (7880101, 2); Some (22294265, 1); Some (2557756, 1); Some (33970661, 2); Some (4504796, 1); Some (48624421, 2)].
Proof. split; [repeat constructor; discriminate|]. vm_compute. reflexivity. Qed.

Theorem C44_v2_3d : forall (S : Scalar), field_laws S ->
  forall i0 i1 j0 j1 k0 k1 alpha beta dx gcw u f0 f1 f2 rgcw res (m m' : mem S) r w v0 v1 v2 ,
  i0 <= i1 + 1 -> j0 <= j1 + 1 -> k0 <= k1 + 1 -> 0 <= rgcw -> apart res [f0; f1; f2; u] ->
  cd_apply_3d_diffusion_v2_apply i0 i1 j0 j1 k0 k1 alpha beta dx gcw u f0 f1 f2 rgcw res m = Some m' ->
  (forall i j k, i0 <= i <= i1 -> j0 <= j <= j1 -> k0 <= k <= k1 -> ((mkFa res (CELL3d i0 j0 k0 i1 j1 k1 rgcw))!(i, j, k))%F m' = Some (r i j k)) ->
  (forall i j k, i0 <= i <= i1 -> j0 <= j <= j1 -> k0 <= k <= k1 -> ((mkFa u (CELL3d i0 j0 k0 i1 j1 k1 gcw))!(i, j, k))%F m = Some (w i j k)) ->
  (forall i j k, i0 <= i <= i1 + 1 -> j0 <= j <= j1 -> k0 <= k <= k1 -> ((mkFa f0 (FACE3d0 i0 j0 k0 i1 j1 k1 0))!(i, j, k))%F m = Some (v0 i j k)) ->
  (forall i j k, i0 <= i <= i1 -> j0 <= j <= j1 + 1 -> k0 <= k <= k1 -> ((mkFa f1 (FACE3d1 i0 j0 k0 i1 j1 k1 0))!(j, k, i))%F m = Some (v1 i j k)) ->
  (forall i j k, i0 <= i <= i1 -> j0 <= j <= j1 -> k0 <= k <= k1 + 1 -> ((mkFa f2 (FACE3d2 i0 j0 k0 i1 j1 k1 0))!(k, i, j))%F m = Some (v2 i j k)) ->
  (total3 i0 j0 k0 i1 j1 k1 (fun i j k => r i j k))%T =
  (- beta * (total2 j0 k0 j1 k1 (fun j k => (v0 (i1 + 1)%Z j k - v0 i0 j k)) / dx 0 + total2 i0 k0 i1 k1 (fun i k => (v1 i (j1 + 1)%Z k - v1 i j0 k)) / dx 1 + total2 i0 j0 i1 j1 (fun i j => (v2 i j (k1 + 1)%Z - v2 i j k0)) / dx 2) + alpha * total3 i0 j0 k0 i1 j1 k1 (fun i j k => w i j k))%T.
Proof. exact @conserve_v2_3d. Qed.
Print Assumptions C44_v2_3d.

Example C44_v2_3d_example :
  apart (8%nat, 0) [(5%nat, 0); (6%nat, 0); (7%nat, 0); (4%nat, 0)] /\
  ex_row_val (cd_apply_3d_diffusion_v2_apply 0 1 0 1 0 1 (lit 5) (lit 3) ex_st_h 1 (4%nat, 0) (5%nat, 0) (6%nat, 0) (7%nat, 0) 0 (8%nat, 0) (ex_st_cells 70)) (mkFa (8%nat, 0) [(0, 1); (0, 1); (0, 1)]) [[0; 0; 0]; [0; 0; 1]; [0; 1; 0]; [0; 1; 1]; [1; 0; 0]; [1; 0; 1]; [1; 1; 0]; [1; 1; 1]]
    = [Some (6821, 2); Some (8985, 1); Some (9101, 2); Some (10765, 1); Some (3666, 1); Some (18801, 2); Some (4846, 1); Some (22441, 2)].
Proof. split; [repeat constructor; discriminate|]. vm_compute. reflexivity. Qed.

Theorem C44_poisson_3d : forall (S : Scalar), field_laws S ->
  forall i0 i1 j0 j1 k0 k1 beta dx f0 f1 f2 rgcw res (m m' : mem S) r v0 v1 v2 ,
  i0 <= i1 + 1 -> j0 <= j1 + 1 -> k0 <= k1 + 1 -> 0 <= rgcw -> apart res [f0; f1; f2] ->
  cd_apply_3d_poisson_v2_apply i0 i1 j0 j1 k0 k1 beta dx f0 f1 f2 rgcw res m = Some m' ->
  (forall i j k, i0 <= i <= i1 -> j0 <= j <= j1 -> k0 <= k <= k1 -> ((mkFa res (CELL3d i0 j0 k0 i1 j1 k1 rgcw))!(i, j, k))%F m' = Some (r i j k)) ->
  (forall i j k, i0 <= i <= i1 + 1 -> j0 <= j <= j1 -> k0 <= k <= k1 -> ((mkFa f0 (FACE3d0 i0 j0 k0 i1 j1 k1 0))!(i, j, k))%F m = Some (v0 i j k)) ->
  (forall i j k, i0 <= i <= i1 -> j0 <= j <= j1 + 1 -> k0 <= k <= k1 -> ((mkFa f1 (FACE3d1 i0 j0 k0 i1 j1 k1 0))!(j, k, i))%F m = Some (v1 i j k)) ->
  (forall i j k, i0 <= i <= i1 -> j0 <= j <= j1 -> k0 <= k <= k1 + 1 -> ((mkFa f2 (FACE3d2 i0 j0 k0 i1 j1 k1 0))!(k, i, j))%F m = Some (v2 i j k)) ->
  (total3 i0 j0 k0 i1 j1 k1 (fun i j k => r i j k))%T =
  (- beta * (total2 j0 k0 j1 k1 (fun j k => (v0 (i1 + 1)%Z j k - v0 i0 j k)) / dx 0 + total2 i0 k0 i1 k1 (fun i k => (v1 i (j1 + 1)%Z k - v1 i j0 k)) / dx 1 + total2 i0 j0 i1 j1 (fun i j => (v2 i j (k1 + 1)%Z - v2 i j k0)) / dx 2))%T.
Proof. exact @conserve_poisson_3d. Qed.
Print Assumptions C44_poisson_3d.

Example C44_poisson_3d_example :
  apart (8%nat, 0) [(5%nat, 0); (6%nat, 0); (7%nat, 0)] /\
  ex_row_val (cd_apply_3d_poisson_v2_apply 0 1 0 1 0 1 (lit 3) ex_st_h (5%nat, 0) (6%nat, 0) (7%nat, 0) 0 (8%nat, 0) (ex_st_cells 70)) (mkFa (8%nat, 0) [(0, 1); (0, 1); (0, 1)]) [[0; 0; 0]; [0; 0; 1]; [0; 1; 0]; [0; 1; 1]; [1; 0; 0]; [1; 0; 1]; [1; 1; 0]; [1; 1; 1]]
    = [Some (-119, 2); Some (-85, 1); Some (-159, 2); Some (-105, 1); Some (-79, 1); Some (-209, 2); Some (-99, 1); Some (-249, 2)].
Proof. split; [repeat constructor; discriminate|]. vm_compute. reflexivity. Qed.

(** ** C47: the assembled matrix couples neighbours symmetrically, and its rows sum to
    the reaction term *)

Theorem C47_symmetric_v1_1d : forall (S : Scalar), field_laws S ->
  forall i0 i1 dx beta b0 alpha agcw a sgcw st (m ms : mem S),
  i0 <= i1 + 1 -> 0 <= sgcw -> apart st [b0; a] ->
  (m' <- cd_stencil_1d_offdiag i0 i1 i0 i1 dx beta b0 sgcw st m ;;
   cd_stencil_1d_v1diag i0 i1 (i0 - agcw) (i1 + agcw) alpha a sgcw st m') = Some ms ->
  let st := mkFa st ((0, 2) :: CELL1d i0 i1 sgcw) in
  forall i, i0 <= i <= i1 ->
  (i + 1 <= i1 -> exists x, (st!(2, i))%F ms = Some x /\ (st!(1, i + 1))%F ms = Some x).
Proof. exact @symmetric_v1_1d. Qed.
Print Assumptions C47_symmetric_v1_1d.

Example C47_symmetric_v1_1d_example :
  apart (9%nat, 0) [(0%nat, 0); (3%nat, 0)] /\
  ex_row_val (m' <- cd_stencil_1d_offdiag 0 1 0 1 ex_st_h (lit 3) (0%nat, 0) 0 (9%nat, 0) (ex_st_cells 20) ;; cd_stencil_1d_v1diag 0 1 (0 - 1) (1 + 1) (lit 5) (3%nat, 0) 0 (9%nat, 0) m') (mkFa (9%nat, 0) [(0, 2); (0, 1)]) [[2; 0]; [1; 1]; [0; 0]]
    = [Some (-3, 2); Some (-3, 2); Some (229, 4)].
Proof. split; [repeat constructor; discriminate|]. vm_compute. reflexivity. Qed.

Theorem C47_rowsum_v1_1d : forall (S : Scalar), field_laws S ->
  forall i0 i1 dx beta b0 alpha agcw a sgcw st (m ms : mem S),
  i0 <= i1 + 1 -> 0 <= sgcw -> apart st [b0; a] ->
  (m' <- cd_stencil_1d_offdiag i0 i1 i0 i1 dx beta b0 sgcw st m ;;
   cd_stencil_1d_v1diag i0 i1 (i0 - agcw) (i1 + agcw) alpha a sgcw st m') = Some ms ->
  let st := mkFa st ((0, 2) :: CELL1d i0 i1 sgcw) in
  let a := mkFa a (CELL1d i0 i1 agcw) in
  forall i, i0 <= i <= i1 ->
  exists x, (st!(0, i) + st!(1, i) + st!(2, i))%F ms = Some x /\ ($alpha * a!(i))%F m = Some x.
Proof. exact @rowsum_v1_1d. Qed.
Print Assumptions C47_rowsum_v1_1d.

Theorem C47_symmetric_v2_1d : forall (S : Scalar), field_laws S ->
  forall i0 i1 dx beta b0 alpha sgcw st (m ms : mem S),
  i0 <= i1 + 1 -> 0 <= sgcw -> apart st [b0] ->
  (m' <- cd_stencil_1d_offdiag i0 i1 i0 i1 dx beta b0 sgcw st m ;;
   cd_stencil_1d_v2diag i0 i1 alpha sgcw st m') = Some ms ->
  let st := mkFa st ((0, 2) :: CELL1d i0 i1 sgcw) in
  forall i, i0 <= i <= i1 ->
  (i + 1 <= i1 -> exists x, (st!(2, i))%F ms = Some x /\ (st!(1, i + 1))%F ms = Some x).
Proof. exact @symmetric_v2_1d. Qed.
Print Assumptions C47_symmetric_v2_1d.

Example C47_symmetric_v2_1d_example :
  apart (9%nat, 0) [(0%nat, 0)] /\
  ex_row_val (m' <- cd_stencil_1d_offdiag 0 1 0 1 ex_st_h (lit 3) (0%nat, 0) 0 (9%nat, 0) (ex_st_cells 20) ;; cd_stencil_1d_v2diag 0 1 (lit 5) 0 (9%nat, 0) m') (mkFa (9%nat, 0) [(0, 2); (0, 1)]) [[2; 0]; [1; 1]; [0; 0]]
    = [Some (-3, 2); Some (-3, 2); Some (29, 4)].
Proof. split; [repeat constructor; discriminate|]. vm_compute. reflexivity. Qed.

Theorem C47_rowsum_v2_1d : forall (S : Scalar), field_laws S ->
  forall i0 i1 dx beta b0 alpha sgcw st (m ms : mem S),
  i0 <= i1 + 1 -> 0 <= sgcw -> apart st [b0] ->
  (m' <- cd_stencil_1d_offdiag i0 i1 i0 i1 dx beta b0 sgcw st m ;;
   cd_stencil_1d_v2diag i0 i1 alpha sgcw st m') = Some ms ->
  let st := mkFa st ((0, 2) :: CELL1d i0 i1 sgcw) in
  forall i, i0 <= i <= i1 ->
  exists x, (st!(0, i) + st!(1, i) + st!(2, i))%F ms = Some x /\ x = alpha.
Proof. exact @rowsum_v2_1d. Qed.
Print Assumptions C47_rowsum_v2_1d.

Theorem C47_symmetric_poisson_1d : forall (S : Scalar), field_laws S ->
  forall i0 i1 dx beta sgcw st (m ms : mem S),
  i0 <= i1 + 1 -> 0 <= sgcw ->
  (m' <- cd_stencil_1d_poisson_offdiag i0 i1 dx beta sgcw st m ;;
   cd_stencil_1d_poisson_diag i0 i1 sgcw st m') = Some ms ->
  let st := mkFa st ((0, 2) :: CELL1d i0 i1 sgcw) in
  forall i, i0 <= i <= i1 ->
  (i + 1 <= i1 -> exists x, (st!(2, i))%F ms = Some x /\ (st!(1, i + 1))%F ms = Some x).
Proof. exact @symmetric_poisson_1d. Qed.
Print Assumptions C47_symmetric_poisson_1d.

Example C47_symmetric_poisson_1d_example :
  ex_row_val (m' <- cd_stencil_1d_poisson_offdiag 0 1 ex_st_h (lit 3) 0 (9%nat, 0) (ex_st_cells 20) ;; cd_stencil_1d_poisson_diag 0 1 0 (9%nat, 0) m') (mkFa (9%nat, 0) [(0, 2); (0, 1)]) [[2; 0]; [1; 1]; [0; 0]]
    = [Some (-3, 4); Some (-3, 4); Some (3, 2)].
Proof. vm_compute. reflexivity. Qed.

Theorem C47_rowsum_poisson_1d : forall (S : Scalar), field_laws S ->
  forall i0 i1 dx beta sgcw st (m ms : mem S),
  i0 <= i1 + 1 -> 0 <= sgcw ->
  (m' <- cd_stencil_1d_poisson_offdiag i0 i1 dx beta sgcw st m ;;
   cd_stencil_1d_poisson_diag i0 i1 sgcw st m') = Some ms ->
  let st := mkFa st ((0, 2) :: CELL1d i0 i1 sgcw) in
  forall i, i0 <= i <= i1 ->
  exists x, (st!(0, i) + st!(1, i) + st!(2, i))%F ms = Some x /\ x = lit 0.
Proof. exact @rowsum_poisson_1d. Qed.
Print Assumptions C47_rowsum_poisson_1d.

Theorem C47_symmetric_v1_2d : forall (S : Scalar), field_laws S ->
  forall i0 j0 i1 j1 dx beta b0 b1 alpha agcw a sgcw st (m ms : mem S),
  i0 <= i1 + 1 -> j0 <= j1 + 1 -> 0 <= sgcw -> apart st [b0; b1; a] ->
  (m' <- cd_stencil_2d_offdiag i0 j0 i1 j1 i0 j0 i1 j1 dx beta b0 b1 sgcw st m ;;
   cd_stencil_2d_v1diag i0 j0 i1 j1 (i0 - agcw) (j0 - agcw) (i1 + agcw) (j1 + agcw) alpha a sgcw st m') = Some ms ->
  let st := mkFa st ((0, 4) :: CELL2d i0 j0 i1 j1 sgcw) in
  forall i j, i0 <= i <= i1 -> j0 <= j <= j1 ->
  (i + 1 <= i1 -> exists x, (st!(2, i, j))%F ms = Some x /\ (st!(1, i + 1, j))%F ms = Some x) /\
  (j + 1 <= j1 -> exists x, (st!(4, i, j))%F ms = Some x /\ (st!(3, i, j + 1))%F ms = Some x).
Proof. exact @symmetric_v1_2d. Qed.
Print Assumptions C47_symmetric_v1_2d.

Example C47_symmetric_v1_2d_example :
  apart (9%nat, 0) [(0%nat, 0); (1%nat, 0); (3%nat, 0)] /\
  ex_row_val (m' <- cd_stencil_2d_offdiag 0 0 1 1 0 0 1 1 ex_st_h (lit 3) (0%nat, 0) (1%nat, 0) 0 (9%nat, 0) (ex_st_cells 40) ;; cd_stencil_2d_v1diag 0 0 1 1 (0 - 1) (0 - 1) (1 + 1) (1 + 1) (lit 5) (3%nat, 0) 0 (9%nat, 0) m') (mkFa (9%nat, 0) [(0, 4); (0, 1); (0, 1)]) [[2; 0; 0]; [1; 1; 0]; [4; 0; 0]; [3; 0; 1]; [0; 0; 0]]
    = [Some (-3, 2); Some (-3, 2); Some (-5, 3); Some (-5, 3); Some (1437, 4)].
Proof. split; [repeat constructor; discriminate|]. vm_compute. reflexivity. Qed.

Theorem C47_rowsum_v1_2d : forall (S : Scalar), field_laws S ->
  forall i0 j0 i1 j1 dx beta b0 b1 alpha agcw a sgcw st (m ms : mem S),
  i0 <= i1 + 1 -> j0 <= j1 + 1 -> 0 <= sgcw -> apart st [b0; b1; a] ->
  (m' <- cd_stencil_2d_offdiag i0 j0 i1 j1 i0 j0 i1 j1 dx beta b0 b1 sgcw st m ;;
   cd_stencil_2d_v1diag i0 j0 i1 j1 (i0 - agcw) (j0 - agcw) (i1 + agcw) (j1 + agcw) alpha a sgcw st m') = Some ms ->
  let st := mkFa st ((0, 4) :: CELL2d i0 j0 i1 j1 sgcw) in
  let a := mkFa a (CELL2d i0 j0 i1 j1 agcw) in
  forall i j, i0 <= i <= i1 -> j0 <= j <= j1 ->
  exists x, (st!(0, i, j) + st!(1, i, j) + st!(2, i, j) + st!(3, i, j) + st!(4, i, j))%F ms = Some x /\ ($alpha * a!(i, j))%F m = Some x.
Proof. exact @rowsum_v1_2d. Qed.
Print Assumptions C47_rowsum_v1_2d.

Theorem C47_symmetric_v2_2d : forall (S : Scalar), field_laws S ->
  forall i0 j0 i1 j1 dx beta b0 b1 alpha sgcw st (m ms : mem S),
  i0 <= i1 + 1 -> j0 <= j1 + 1 -> 0 <= sgcw -> apart st [b0; b1] ->
  (m' <- cd_stencil_2d_offdiag i0 j0 i1 j1 i0 j0 i1 j1 dx beta b0 b1 sgcw st m ;;
   cd_stencil_2d_v2diag i0 j0 i1 j1 alpha sgcw st m') = Some ms ->
  let st := mkFa st ((0, 4) :: CELL2d i0 j0 i1 j1 sgcw) in
  forall i j, i0 <= i <= i1 -> j0 <= j <= j1 ->
  (i + 1 <= i1 -> exists x, (st!(2, i, j))%F ms = Some x /\ (st!(1, i + 1, j))%F ms = Some x) /\
  (j + 1 <= j1 -> exists x, (st!(4, i, j))%F ms = Some x /\ (st!(3, i, j + 1))%F ms = Some x).
Proof. exact @symmetric_v2_2d. Qed.
Print Assumptions C47_symmetric_v2_2d.

Example C47_symmetric_v2_2d_example :
  apart (9%nat, 0) [(0%nat, 0); (1%nat, 0)] /\
  ex_row_val (m' <- cd_stencil_2d_offdiag 0 0 1 1 0 0 1 1 ex_st_h (lit 3) (0%nat, 0) (1%nat, 0) 0 (9%nat, 0) (ex_st_cells 40) ;; cd_stencil_2d_v2diag 0 0 1 1 (lit 5) 0 (9%nat, 0) m') (mkFa (9%nat, 0) [(0, 4); (0, 1); (0, 1)]) [[2; 0; 0]; [1; 1; 0]; [4; 0; 0]; [3; 0; 1]; [0; 0; 0]]
    = [Some (-3, 2); Some (-3, 2); Some (-5, 3); Some (-5, 3); Some (37, 4)].
Proof. split; [repeat constructor; discriminate|]. vm_compute. reflexivity. Qed.

Theorem C47_rowsum_v2_2d : forall (S : Scalar), field_laws S ->
  forall i0 j0 i1 j1 dx beta b0 b1 alpha sgcw st (m ms : mem S),
  i0 <= i1 + 1 -> j0 <= j1 + 1 -> 0 <= sgcw -> apart st [b0; b1] ->
  (m' <- cd_stencil_2d_offdiag i0 j0 i1 j1 i0 j0 i1 j1 dx beta b0 b1 sgcw st m ;;
   cd_stencil_2d_v2diag i0 j0 i1 j1 alpha sgcw st m') = Some ms ->
  let st := mkFa st ((0, 4) :: CELL2d i0 j0 i1 j1 sgcw) in
  forall i j, i0 <= i <= i1 -> j0 <= j <= j1 ->
  exists x, (st!(0, i, j) + st!(1, i, j) + st!(2, i, j) + st!(3, i, j) + st!(4, i, j))%F ms = Some x /\ x = alpha.
Proof. exact @rowsum_v2_2d. Qed.
Print Assumptions C47_rowsum_v2_2d.

Theorem C47_symmetric_poisson_2d : forall (S : Scalar), field_laws S ->
  forall i0 j0 i1 j1 dx beta sgcw st (m ms : mem S),
  i0 <= i1 + 1 -> j0 <= j1 + 1 -> 0 <= sgcw ->
  (m' <- cd_stencil_2d_poisson_offdiag i0 j0 i1 j1 dx beta sgcw st m ;;
   cd_stencil_2d_poisson_diag i0 j0 i1 j1 sgcw st m') = Some ms ->
  let st := mkFa st ((0, 4) :: CELL2d i0 j0 i1 j1 sgcw) in
  forall i j, i0 <= i <= i1 -> j0 <= j <= j1 ->
  (i + 1 <= i1 -> exists x, (st!(2, i, j))%F ms = Some x /\ (st!(1, i + 1, j))%F ms = Some x) /\
  (j + 1 <= j1 -> exists x, (st!(4, i, j))%F ms = Some x /\ (st!(3, i, j + 1))%F ms = Some x).
Proof. exact @symmetric_poisson_2d. Qed.
Print Assumptions C47_symmetric_poisson_2d.

Example C47_symmetric_poisson_2d_example :
  ex_row_val (m' <- cd_stencil_2d_poisson_offdiag 0 0 1 1 ex_st_h (lit 3) 0 (9%nat, 0) (ex_st_cells 40) ;; cd_stencil_2d_poisson_diag 0 0 1 1 0 (9%nat, 0) m') (mkFa (9%nat, 0) [(0, 4); (0, 1); (0, 1)]) [[2; 0; 0]; [1; 1; 0]; [4; 0; 0]; [3; 0; 1]; [0; 0; 0]]
    = [Some (-3, 4); Some (-3, 4); Some (-1, 3); Some (-1, 3); Some (13, 6)].
Proof. vm_compute. reflexivity. Qed.

Theorem C47_rowsum_poisson_2d : forall (S : Scalar), field_laws S ->
  forall i0 j0 i1 j1 dx beta sgcw st (m ms : mem S),
  i0 <= i1 + 1 -> j0 <= j1 + 1 -> 0 <= sgcw ->
  (m' <- cd_stencil_2d_poisson_offdiag i0 j0 i1 j1 dx beta sgcw st m ;;
   cd_stencil_2d_poisson_diag i0 j0 i1 j1 sgcw st m') = Some ms ->
  let st := mkFa st ((0, 4) :: CELL2d i0 j0 i1 j1 sgcw) in
  forall i j, i0 <= i <= i1 -> j0 <= j <= j1 ->
  exists x, (st!(0, i, j) + st!(1, i, j) + st!(2, i, j) + st!(3, i, j) + st!(4, i, j))%F ms = Some x /\ x = lit 0.
Proof. exact @rowsum_poisson_2d. Qed.
Print Assumptions C47_rowsum_poisson_2d.

Theorem C47_symmetric_v1_3d : forall (S : Scalar), field_laws S ->
  forall i0 j0 k0 i1 j1 k1 dx beta b0 b1 b2 alpha agcw a sgcw st (m ms : mem S),
  i0 <= i1 + 1 -> j0 <= j1 + 1 -> k0 <= k1 + 1 -> 0 <= sgcw -> apart st [b0; b1; b2; a] ->
  (m' <- cd_stencil_3d_offdiag i0 j0 k0 i1 j1 k1 i0 j0 k0 i1 j1 k1 dx beta b0 b1 b2 sgcw st m ;;
   cd_stencil_3d_v1diag i0 j0 k0 i1 j1 k1 (i0 - agcw) (j0 - agcw) (k0 - agcw) (i1 + agcw) (j1 + agcw) (k1 + agcw) alpha a sgcw st m') = Some ms ->
  let st := mkFa st ((0, 6) :: CELL3d i0 j0 k0 i1 j1 k1 sgcw) in
  forall i j k, i0 <= i <= i1 -> j0 <= j <= j1 -> k0 <= k <= k1 ->
  (i + 1 <= i1 -> exists x, (st!(2, i, j, k))%F ms = Some x /\ (st!(1, i + 1, j, k))%F ms = Some x) /\
  (j + 1 <= j1 -> exists x, (st!(4, i, j, k))%F ms = Some x /\ (st!(3, i, j + 1, k))%F ms = Some x) /\
  (k + 1 <= k1 -> exists x, (st!(6, i, j, k))%F ms = Some x /\ (st!(5, i, j, k + 1))%F ms = Some x).
Proof. exact @symmetric_v1_3d. Qed.
Print Assumptions C47_symmetric_v1_3d.

Example C47_symmetric_v1_3d_example :
  apart (9%nat, 0) [(0%nat, 0); (1%nat, 0); (2%nat, 0); (3%nat, 0)] /\
  ex_row_val (m' <- cd_stencil_3d_offdiag 0 0 0 1 1 1 0 0 0 1 1 1 ex_st_h (lit 3) (0%nat, 0) (1%nat, 0) (2%nat, 0) 0 (9%nat, 0) (ex_st_cells 70) ;; cd_stencil_3d_v1diag 0 0 0 1 1 1 (0 - 1) (0 - 1) (0 - 1) (1 + 1) (1 + 1) (1 + 1) (lit 5) (3%nat, 0) 0 (9%nat, 0) m') (mkFa (9%nat, 0) [(0, 6); (0, 1); (0, 1); (0, 1)]) [[2; 0; 0; 0]; [1; 1; 0; 0]; [4; 0; 0; 0]; [3; 0; 1; 0]; [6; 0; 0; 0]; [5; 0; 0; 1]; [0; 0; 0; 0]]
    = [Some (-3, 2); Some (-3, 2); Some (-5, 3); Some (-5, 3); Some (-3, 2); Some (-3, 2); Some (50575, 16)].
Proof. split; [repeat constructor; discriminate|]. vm_compute. reflexivity. Qed.

Theorem C47_rowsum_v1_3d : forall (S : Scalar), field_laws S ->
  forall i0 j0 k0 i1 j1 k1 dx beta b0 b1 b2 alpha agcw a sgcw st (m ms : mem S),
  i0 <= i1 + 1 -> j0 <= j1 + 1 -> k0 <= k1 + 1 -> 0 <= sgcw -> apart st [b0; b1; b2; a] ->
  (m' <- cd_stencil_3d_offdiag i0 j0 k0 i1 j1 k1 i0 j0 k0 i1 j1 k1 dx beta b0 b1 b2 sgcw st m ;;
   cd_stencil_3d_v1diag i0 j0 k0 i1 j1 k1 (i0 - agcw) (j0 - agcw) (k0 - agcw) (i1 + agcw) (j1 + agcw) (k1 + agcw) alpha a sgcw st m') = Some ms ->
  let st := mkFa st ((0, 6) :: CELL3d i0 j0 k0 i1 j1 k1 sgcw) in
  let a := mkFa a (CELL3d i0 j0 k0 i1 j1 k1 agcw) in
  forall i j k, i0 <= i <= i1 -> j0 <= j <= j1 -> k0 <= k <= k1 ->
  exists x, (st!(0, i, j, k) + st!(1, i, j, k) + st!(2, i, j, k) + st!(3, i, j, k) + st!(4, i, j, k) + st!(5, i, j, k) + st!(6, i, j, k))%F ms = Some x /\ ($alpha * a!(i, j, k))%F m = Some x.
Proof. exact @rowsum_v1_3d. Qed.
Print Assumptions C47_rowsum_v1_3d.

Theorem C47_symmetric_v2_3d : forall (S : Scalar), field_laws S ->
  forall i0 j0 k0 i1 j1 k1 dx beta b0 b1 b2 alpha sgcw st (m ms : mem S),
  i0 <= i1 + 1 -> j0 <= j1 + 1 -> k0 <= k1 + 1 -> 0 <= sgcw -> apart st [b0; b1; b2] ->
  (m' <- cd_stencil_3d_offdiag i0 j0 k0 i1 j1 k1 i0 j0 k0 i1 j1 k1 dx beta b0 b1 b2 sgcw st m ;;
   cd_stencil_3d_v2diag i0 j0 k0 i1 j1 k1 alpha sgcw st m') = Some ms ->
  let st := mkFa st ((0, 6) :: CELL3d i0 j0 k0 i1 j1 k1 sgcw) in
  forall i j k, i0 <= i <= i1 -> j0 <= j <= j1 -> k0 <= k <= k1 ->
  (i + 1 <= i1 -> exists x, (st!(2, i, j, k))%F ms = Some x /\ (st!(1, i + 1, j, k))%F ms = Some x) /\
  (j + 1 <= j1 -> exists x, (st!(4, i, j, k))%F ms = Some x /\ (st!(3, i, j + 1, k))%F ms = Some x) /\
  (k + 1 <= k1 -> exists x, (st!(6, i, j, k))%F ms = Some x /\ (st!(5, i, j, k + 1))%F ms = Some x).
Proof. exact @symmetric_v2_3d. Qed.
Print Assumptions C47_symmetric_v2_3d.

Example C47_symmetric_v2_3d_example :
  apart (9%nat, 0) [(0%nat, 0); (1%nat, 0); (2%nat, 0)] /\
  ex_row_val (m' <- cd_stencil_3d_offdiag 0 0 0 1 1 1 0 0 0 1 1 1 ex_st_h (lit 3) (0%nat, 0) (1%nat, 0) (2%nat, 0) 0 (9%nat, 0) (ex_st_cells 70) ;; cd_stencil_3d_v2diag 0 0 0 1 1 1 (lit 5) 0 (9%nat, 0) m') (mkFa (9%nat, 0) [(0, 6); (0, 1); (0, 1); (0, 1)]) [[2; 0; 0; 0]; [1; 1; 0; 0]; [4; 0; 0; 0]; [3; 0; 1; 0]; [6; 0; 0; 0]; [5; 0; 0; 1]; [0; 0; 0; 0]]
    = [Some (-3, 2); Some (-3, 2); Some (-5, 3); Some (-5, 3); Some (-3, 2); Some (-3, 2); Some (175, 16)].
Proof. split; [repeat constructor; discriminate|]. vm_compute. reflexivity. Qed.

Theorem C47_rowsum_v2_3d : forall (S : Scalar), field_laws S ->
  forall i0 j0 k0 i1 j1 k1 dx beta b0 b1 b2 alpha sgcw st (m ms : mem S),
  i0 <= i1 + 1 -> j0 <= j1 + 1 -> k0 <= k1 + 1 -> 0 <= sgcw -> apart st [b0; b1; b2] ->
  (m' <- cd_stencil_3d_offdiag i0 j0 k0 i1 j1 k1 i0 j0 k0 i1 j1 k1 dx beta b0 b1 b2 sgcw st m ;;
   cd_stencil_3d_v2diag i0 j0 k0 i1 j1 k1 alpha sgcw st m') = Some ms ->
  let st := mkFa st ((0, 6) :: CELL3d i0 j0 k0 i1 j1 k1 sgcw) in
  forall i j k, i0 <= i <= i1 -> j0 <= j <= j1 -> k0 <= k <= k1 ->
  exists x, (st!(0, i, j, k) + st!(1, i, j, k) + st!(2, i, j, k) + st!(3, i, j, k) + st!(4, i, j, k) + st!(5, i, j, k) + st!(6, i, j, k))%F ms = Some x /\ x = alpha.
Proof. exact @rowsum_v2_3d. Qed.
Print Assumptions C47_rowsum_v2_3d.

Theorem C47_symmetric_poisson_3d : forall (S : Scalar), field_laws S ->
  forall i0 j0 k0 i1 j1 k1 dx beta sgcw st (m ms : mem S),
  i0 <= i1 + 1 -> j0 <= j1 + 1 -> k0 <= k1 + 1 -> 0 <= sgcw ->
  (m' <- cd_stencil_3d_poisson_offdiag i0 j0 k0 i1 j1 k1 dx beta sgcw st m ;;
   cd_stencil_3d_poisson_diag i0 j0 k0 i1 j1 k1 sgcw st m') = Some ms ->
  let st := mkFa st ((0, 6) :: CELL3d i0 j0 k0 i1 j1 k1 sgcw) in
  forall i j k, i0 <= i <= i1 -> j0 <= j <= j1 -> k0 <= k <= k1 ->
  (i + 1 <= i1 -> exists x, (st!(2, i, j, k))%F ms = Some x /\ (st!(1, i + 1, j, k))%F ms = Some x) /\
  (j + 1 <= j1 -> exists x, (st!(4, i, j, k))%F ms = Some x /\ (st!(3, i, j + 1, k))%F ms = Some x) /\
  (k + 1 <= k1 -> exists x, (st!(6, i, j, k))%F ms = Some x /\ (st!(5, i, j, k + 1))%F ms = Some x).
Proof. exact @symmetric_poisson_3d. Qed.
Print Assumptions C47_symmetric_poisson_3d.

Example C47_symmetric_poisson_3d_example :
  ex_row_val (m' <- cd_stencil_3d_poisson_offdiag 0 0 0 1 1 1 ex_st_h (lit 3) 0 (9%nat, 0) (ex_st_cells 70) ;; cd_stencil_3d_poisson_diag 0 0 0 1 1 1 0 (9%nat, 0) m') (mkFa (9%nat, 0) [(0, 6); (0, 1); (0, 1); (0, 1)]) [[2; 0; 0; 0]; [1; 1; 0; 0]; [4; 0; 0; 0]; [3; 0; 1; 0]; [6; 0; 0; 0]; [5; 0; 0; 1]; [0; 0; 0; 0]]
    = [Some (-3, 4); Some (-3, 4); Some (-1, 3); Some (-1, 3); Some (-3, 16); Some (-3, 16); Some (61, 24)].
Proof. vm_compute. reflexivity. Qed.

Theorem C47_rowsum_poisson_3d : forall (S : Scalar), field_laws S ->
  forall i0 j0 k0 i1 j1 k1 dx beta sgcw st (m ms : mem S),
  i0 <= i1 + 1 -> j0 <= j1 + 1 -> k0 <= k1 + 1 -> 0 <= sgcw ->
  (m' <- cd_stencil_3d_poisson_offdiag i0 j0 k0 i1 j1 k1 dx beta sgcw st m ;;
   cd_stencil_3d_poisson_diag i0 j0 k0 i1 j1 k1 sgcw st m') = Some ms ->
  let st := mkFa st ((0, 6) :: CELL3d i0 j0 k0 i1 j1 k1 sgcw) in
  forall i j k, i0 <= i <= i1 -> j0 <= j <= j1 -> k0 <= k <= k1 ->
  exists x, (st!(0, i, j, k) + st!(1, i, j, k) + st!(2, i, j, k) + st!(3, i, j, k) + st!(4, i, j, k) + st!(5, i, j, k) + st!(6, i, j, k))%F ms = Some x /\ x = lit 0.
Proof. exact @rowsum_poisson_3d. Qed.
Print Assumptions C47_rowsum_poisson_3d.
