(** * Rows of the assembled matrix against the operator *)

From Coq Require Import Permutation Field.
From Verif Require Import Base ModelBounds ModelMatrix ModelIters ModelSpan ModelProxy Spec SpecIter ModelSched
  LemBase LemDomain LemExpr LemExec SpecAssign LemAssign LemProps LemProps4 SpecWindow LemWindow LemWindow2
  FortranBase SpecKernel Instances LemField LemKernel LemKernel2 LemBC LemHomog KernelNotations
  KernelsFlux KernelsApply KernelsStencil LemStencil LemRow LemValues1 LemValues2 LemValues3.
Import ListNotations.
Open Scope Z_scope.

Section Rows.
  Context {S : Scalar} (L : field_laws S).
  Add Field SF : (s_field S L) (morphism (lit_morph S L), constants [lit_cst]).

  Lemma row_v1_1d i0 i1 dx beta b0 gcw u f0 alpha agcw a sgcw st rgcw res (m ms mo : mem S) :
  i0 <= i1 + 1 -> 0 <= gcw -> 0 <= sgcw -> 0 <= rgcw -> dx 0 <> lit 0 -> apart st [b0; a; u] ->
  apart f0 [b0; a; u] -> apart res [f0; a; u] ->
  (m' <- cd_stencil_1d_offdiag i0 i1 i0 i1 dx beta b0 sgcw st m ;;
   cd_stencil_1d_v1diag i0 i1 (i0 - agcw) (i1 + agcw) alpha a sgcw st m') = Some ms ->
  (m' <- cdf_1d_flux i0 i1 dx b0 gcw u f0 m ;;
   cd_apply_1d_diffusion_v1_apply i0 i1 alpha beta dx agcw a gcw u f0 rgcw res m') = Some mo ->
  forall i, i0 <= i <= i1 ->
  let st := mkFa st ((0, 2) :: CELL1d i0 i1 sgcw) in
  let u := mkFa u (CELL1d i0 i1 gcw) in
  let res := mkFa res (CELL1d i0 i1 rgcw) in
  exists r, (res!(i))%F mo = Some r /\
    (st!(0, i) * u!(i) + st!(1, i) * u!(i - 1) + st!(2, i) * u!(i + 1))%F ms = Some r.
  Proof.
    intros. match goal with H : _ = Some ms |- _ => rename H into Es end. match goal with H : _ = Some mo |- _ => rename H into Eo end.
    apply bind_Some_inv in Es as (m1 & Eo1 & Ed). apply bind_Some_inv in Eo as (m2 & Ef & Ea). k_apart.
    destruct (offdiag_1d_at i0 i1 i0 i1 dx beta b0 sgcw st m m1 ltac:(k_rapart L) ltac:(k_rapart L) ltac:(k_rapart L) Eo1) as (Vo & Fo).
    destruct (v1diag_1d_at L i0 i1 (i0 - agcw) (i1 + agcw) alpha a sgcw st m1 ms ltac:(k_rapart L) ltac:(k_rapart L) ltac:(k_rapart L) Ed) as (Vd & Fd).
    destruct (flux_1d_at i0 i1 dx b0 gcw u f0 m m2 ltac:(k_rapart L) ltac:(k_rapart L) ltac:(k_rapart L) Ef) as (Vf0 & Ff).
    destruct (diffusion_v1_apply_1d_at i0 i1 alpha beta dx agcw a gcw u f0 rgcw res m2 mo ltac:(k_rapart L) ltac:(k_rapart L) ltac:(k_rapart L) Ea) as (Va & Fa). clear Eo1 Ed Ef Ea.
    specialize (Vo i ltac:(assumption)). specialize (Vd i ltac:(assumption)). specialize (Va i ltac:(assumption)).
    pose proof (Vf0 i ltac:(lia)) as Ga0.
    pose proof (Vf0 (i + 1) ltac:(lia)) as Gb0.
    clear Vf0. subst_lets. replace (i + 1 - 1) with i in * by lia.
    k_row L.
  Qed.

  Lemma row_v2_1d i0 i1 dx beta b0 gcw u f0 alpha sgcw st rgcw res (m ms mo : mem S) :
  i0 <= i1 + 1 -> 0 <= gcw -> 0 <= sgcw -> 0 <= rgcw -> dx 0 <> lit 0 -> apart st [b0; u] ->
  apart f0 [b0; u] -> apart res [f0; u] ->
  (m' <- cd_stencil_1d_offdiag i0 i1 i0 i1 dx beta b0 sgcw st m ;;
   cd_stencil_1d_v2diag i0 i1 alpha sgcw st m') = Some ms ->
  (m' <- cdf_1d_flux i0 i1 dx b0 gcw u f0 m ;;
   cd_apply_1d_diffusion_v2_apply i0 i1 alpha beta dx gcw u f0 rgcw res m') = Some mo ->
  forall i, i0 <= i <= i1 ->
  let st := mkFa st ((0, 2) :: CELL1d i0 i1 sgcw) in
  let u := mkFa u (CELL1d i0 i1 gcw) in
  let res := mkFa res (CELL1d i0 i1 rgcw) in
  exists r, (res!(i))%F mo = Some r /\
    (st!(0, i) * u!(i) + st!(1, i) * u!(i - 1) + st!(2, i) * u!(i + 1))%F ms = Some r.
  Proof.
    intros. match goal with H : _ = Some ms |- _ => rename H into Es end. match goal with H : _ = Some mo |- _ => rename H into Eo end.
    apply bind_Some_inv in Es as (m1 & Eo1 & Ed). apply bind_Some_inv in Eo as (m2 & Ef & Ea). k_apart.
    destruct (offdiag_1d_at i0 i1 i0 i1 dx beta b0 sgcw st m m1 ltac:(k_rapart L) ltac:(k_rapart L) ltac:(k_rapart L) Eo1) as (Vo & Fo).
    destruct (v2diag_1d_at L i0 i1 alpha sgcw st m1 ms ltac:(k_rapart L) ltac:(k_rapart L) Ed) as (Vd & Fd).
    destruct (flux_1d_at i0 i1 dx b0 gcw u f0 m m2 ltac:(k_rapart L) ltac:(k_rapart L) ltac:(k_rapart L) Ef) as (Vf0 & Ff).
    destruct (diffusion_v2_apply_1d_at i0 i1 alpha beta dx gcw u f0 rgcw res m2 mo ltac:(k_rapart L) ltac:(k_rapart L) ltac:(k_rapart L) Ea) as (Va & Fa). clear Eo1 Ed Ef Ea.
    specialize (Vo i ltac:(assumption)). specialize (Vd i ltac:(assumption)). specialize (Va i ltac:(assumption)).
    pose proof (Vf0 i ltac:(lia)) as Ga0.
    pose proof (Vf0 (i + 1) ltac:(lia)) as Gb0.
    clear Vf0. subst_lets. replace (i + 1 - 1) with i in * by lia.
    k_row L.
  Qed.

  Lemma row_poisson_1d i0 i1 dx beta gcw u f0 sgcw st rgcw res (m ms mo : mem S) :
  i0 <= i1 + 1 -> 0 <= gcw -> 0 <= sgcw -> 0 <= rgcw -> dx 0 <> lit 0 -> apart st [u] -> apart f0 [u] ->
  apart res [f0; u] ->
  (m' <- cd_stencil_1d_poisson_offdiag i0 i1 dx beta sgcw st m ;;
   cd_stencil_1d_poisson_diag i0 i1 sgcw st m') = Some ms ->
  (m' <- cdf_1d_poisson_flux i0 i1 dx gcw u f0 m ;;
   cd_apply_1d_poisson_v2_apply i0 i1 beta dx f0 rgcw res m') = Some mo ->
  forall i, i0 <= i <= i1 ->
  let st := mkFa st ((0, 2) :: CELL1d i0 i1 sgcw) in
  let u := mkFa u (CELL1d i0 i1 gcw) in
  let res := mkFa res (CELL1d i0 i1 rgcw) in
  exists r, (res!(i))%F mo = Some r /\
    (st!(0, i) * u!(i) + st!(1, i) * u!(i - 1) + st!(2, i) * u!(i + 1))%F ms = Some r.
  Proof.
    intros. match goal with H : _ = Some ms |- _ => rename H into Es end. match goal with H : _ = Some mo |- _ => rename H into Eo end.
    apply bind_Some_inv in Es as (m1 & Eo1 & Ed). apply bind_Some_inv in Eo as (m2 & Ef & Ea). k_apart.
    destruct (poisson_offdiag_1d_at i0 i1 dx beta sgcw st m m1 ltac:(k_rapart L) ltac:(k_rapart L) Eo1) as (Vo & Fo).
    destruct (poisson_diag_1d_at L i0 i1 sgcw st m1 ms ltac:(k_rapart L) ltac:(k_rapart L) Ed) as (Vd & Fd).
    destruct (poisson_flux_1d_at i0 i1 dx gcw u f0 m m2 ltac:(k_rapart L) ltac:(k_rapart L) ltac:(k_rapart L) Ef) as (Vf0 & Ff).
    destruct (poisson_v2_apply_1d_at i0 i1 beta dx f0 rgcw res m2 mo ltac:(k_rapart L) ltac:(k_rapart L) ltac:(k_rapart L) Ea) as (Va & Fa). clear Eo1 Ed Ef Ea.
    specialize (Vo i ltac:(assumption)). specialize (Vd i ltac:(assumption)). specialize (Va i ltac:(assumption)).
    pose proof (Vf0 i ltac:(lia)) as Ga0.
    pose proof (Vf0 (i + 1) ltac:(lia)) as Gb0.
    clear Vf0. subst_lets. replace (i + 1 - 1) with i in * by lia.
    k_row L.
  Qed.

  Lemma row_v1_2d i0 j0 i1 j1 dx beta b0 b1 gcw u f0 f1 alpha agcw a sgcw st rgcw res (m ms mo : mem S) :
  i0 <= i1 + 1 -> j0 <= j1 + 1 -> 0 <= gcw -> 0 <= sgcw -> 0 <= rgcw -> dx 0 <> lit 0 -> dx 1 <> lit 0 ->
  apart st [b0; b1; a; u] -> apart f0 [f1; b0; b1; a; u] -> apart f1 [b0; b1; a; u] ->
  apart res [f0; f1; a; u] ->
  (m' <- cd_stencil_2d_offdiag i0 j0 i1 j1 i0 j0 i1 j1 dx beta b0 b1 sgcw st m ;;
   cd_stencil_2d_v1diag i0 j0 i1 j1 (i0 - agcw) (j0 - agcw) (i1 + agcw) (j1 + agcw) alpha a sgcw st m') = Some ms ->
  (m' <- cdf_2d_flux i0 j0 i1 j1 dx b0 b1 gcw u f0 f1 m ;;
   cd_apply_2d_diffusion_v1_apply i0 i1 j0 j1 alpha beta dx agcw a gcw u f0 f1 rgcw res m') = Some mo ->
  forall i j, i0 <= i <= i1 -> j0 <= j <= j1 ->
  let st := mkFa st ((0, 4) :: CELL2d i0 j0 i1 j1 sgcw) in
  let u := mkFa u (CELL2d i0 j0 i1 j1 gcw) in
  let res := mkFa res (CELL2d i0 j0 i1 j1 rgcw) in
  exists r, (res!(i, j))%F mo = Some r /\
    (st!(0, i, j) * u!(i, j) + st!(1, i, j) * u!(i - 1, j) + st!(2, i, j) * u!(i + 1, j) + st!(3, i, j) * u!(i, j - 1) + st!(4, i, j) * u!(i, j + 1))%F ms = Some r.
  Proof.
    intros. match goal with H : _ = Some ms |- _ => rename H into Es end. match goal with H : _ = Some mo |- _ => rename H into Eo end.
    apply bind_Some_inv in Es as (m1 & Eo1 & Ed). apply bind_Some_inv in Eo as (m2 & Ef & Ea). k_apart.
    destruct (offdiag_2d_at i0 j0 i1 j1 i0 j0 i1 j1 dx beta b0 b1 sgcw st m m1 ltac:(k_rapart L) ltac:(k_rapart L) ltac:(k_rapart L) ltac:(k_rapart L) Eo1) as (Vo & Fo).
    destruct (v1diag_2d_at L i0 j0 i1 j1 (i0 - agcw) (j0 - agcw) (i1 + agcw) (j1 + agcw) alpha a sgcw st m1 ms ltac:(k_rapart L) ltac:(k_rapart L) ltac:(k_rapart L) ltac:(k_rapart L) Ed) as (Vd & Fd).
    destruct (flux_2d_at i0 j0 i1 j1 dx b0 b1 gcw u f0 f1 m m2 ltac:(k_rapart L) ltac:(k_rapart L) ltac:(k_rapart L) ltac:(k_rapart L) ltac:(k_rapart L) Ef) as (Vf0 & Vf1 & Ff).
    destruct (diffusion_v1_apply_2d_at i0 i1 j0 j1 alpha beta dx agcw a gcw u f0 f1 rgcw res m2 mo ltac:(k_rapart L) ltac:(k_rapart L) ltac:(k_rapart L) ltac:(k_rapart L) Ea) as (Va & Fa). clear Eo1 Ed Ef Ea.
    specialize (Vo i j ltac:(assumption) ltac:(assumption)). specialize (Vd i j ltac:(assumption) ltac:(assumption)). specialize (Va i j ltac:(assumption) ltac:(assumption)).
    pose proof (Vf0 i j ltac:(lia) ltac:(lia)) as Ga0.
    pose proof (Vf0 (i + 1) j ltac:(lia) ltac:(lia)) as Gb0.
    pose proof (Vf1 i j ltac:(lia) ltac:(lia)) as Ga1.
    pose proof (Vf1 i (j + 1) ltac:(lia) ltac:(lia)) as Gb1.
    clear Vf0 Vf1. subst_lets. replace (i + 1 - 1) with i in * by lia. replace (j + 1 - 1) with j in * by lia.
    k_row L.
  Qed.

  Lemma row_v2_2d i0 j0 i1 j1 dx beta b0 b1 gcw u f0 f1 alpha sgcw st rgcw res (m ms mo : mem S) :
  i0 <= i1 + 1 -> j0 <= j1 + 1 -> 0 <= gcw -> 0 <= sgcw -> 0 <= rgcw -> dx 0 <> lit 0 -> dx 1 <> lit 0 ->
  apart st [b0; b1; u] -> apart f0 [f1; b0; b1; u] -> apart f1 [b0; b1; u] -> apart res [f0; f1; u] ->
  (m' <- cd_stencil_2d_offdiag i0 j0 i1 j1 i0 j0 i1 j1 dx beta b0 b1 sgcw st m ;;
   cd_stencil_2d_v2diag i0 j0 i1 j1 alpha sgcw st m') = Some ms ->
  (m' <- cdf_2d_flux i0 j0 i1 j1 dx b0 b1 gcw u f0 f1 m ;;
   cd_apply_2d_diffusion_v2_apply i0 i1 j0 j1 alpha beta dx gcw u f0 f1 rgcw res m') = Some mo ->
  forall i j, i0 <= i <= i1 -> j0 <= j <= j1 ->
  let st := mkFa st ((0, 4) :: CELL2d i0 j0 i1 j1 sgcw) in
  let u := mkFa u (CELL2d i0 j0 i1 j1 gcw) in
  let res := mkFa res (CELL2d i0 j0 i1 j1 rgcw) in
  exists r, (res!(i, j))%F mo = Some r /\
    (st!(0, i, j) * u!(i, j) + st!(1, i, j) * u!(i - 1, j) + st!(2, i, j) * u!(i + 1, j) + st!(3, i, j) * u!(i, j - 1) + st!(4, i, j) * u!(i, j + 1))%F ms = Some r.
  Proof.
    intros. match goal with H : _ = Some ms |- _ => rename H into Es end. match goal with H : _ = Some mo |- _ => rename H into Eo end.
    apply bind_Some_inv in Es as (m1 & Eo1 & Ed). apply bind_Some_inv in Eo as (m2 & Ef & Ea). k_apart.
    destruct (offdiag_2d_at i0 j0 i1 j1 i0 j0 i1 j1 dx beta b0 b1 sgcw st m m1 ltac:(k_rapart L) ltac:(k_rapart L) ltac:(k_rapart L) ltac:(k_rapart L) Eo1) as (Vo & Fo).
    destruct (v2diag_2d_at L i0 j0 i1 j1 alpha sgcw st m1 ms ltac:(k_rapart L) ltac:(k_rapart L) ltac:(k_rapart L) Ed) as (Vd & Fd).
    destruct (flux_2d_at i0 j0 i1 j1 dx b0 b1 gcw u f0 f1 m m2 ltac:(k_rapart L) ltac:(k_rapart L) ltac:(k_rapart L) ltac:(k_rapart L) ltac:(k_rapart L) Ef) as (Vf0 & Vf1 & Ff).
    destruct (diffusion_v2_apply_2d_at i0 i1 j0 j1 alpha beta dx gcw u f0 f1 rgcw res m2 mo ltac:(k_rapart L) ltac:(k_rapart L) ltac:(k_rapart L) ltac:(k_rapart L) Ea) as (Va & Fa). clear Eo1 Ed Ef Ea.
    specialize (Vo i j ltac:(assumption) ltac:(assumption)). specialize (Vd i j ltac:(assumption) ltac:(assumption)). specialize (Va i j ltac:(assumption) ltac:(assumption)).
    pose proof (Vf0 i j ltac:(lia) ltac:(lia)) as Ga0.
    pose proof (Vf0 (i + 1) j ltac:(lia) ltac:(lia)) as Gb0.
    pose proof (Vf1 i j ltac:(lia) ltac:(lia)) as Ga1.
    pose proof (Vf1 i (j + 1) ltac:(lia) ltac:(lia)) as Gb1.
    clear Vf0 Vf1. subst_lets. replace (i + 1 - 1) with i in * by lia. replace (j + 1 - 1) with j in * by lia.
    k_row L.
  Qed.

  Lemma row_poisson_2d i0 j0 i1 j1 dx beta gcw u f0 f1 sgcw st rgcw res (m ms mo : mem S) :
  i0 <= i1 + 1 -> j0 <= j1 + 1 -> 0 <= gcw -> 0 <= sgcw -> 0 <= rgcw -> dx 0 <> lit 0 -> dx 1 <> lit 0 ->
  apart st [u] -> apart f0 [f1; u] -> apart f1 [u] -> apart res [f0; f1; u] ->
  (m' <- cd_stencil_2d_poisson_offdiag i0 j0 i1 j1 dx beta sgcw st m ;;
   cd_stencil_2d_poisson_diag i0 j0 i1 j1 sgcw st m') = Some ms ->
  (m' <- cdf_2d_poisson_flux i0 j0 i1 j1 dx gcw u f0 f1 m ;;
   cd_apply_2d_poisson_v2_apply i0 i1 j0 j1 beta dx f0 f1 rgcw res m') = Some mo ->
  forall i j, i0 <= i <= i1 -> j0 <= j <= j1 ->
  let st := mkFa st ((0, 4) :: CELL2d i0 j0 i1 j1 sgcw) in
  let u := mkFa u (CELL2d i0 j0 i1 j1 gcw) in
  let res := mkFa res (CELL2d i0 j0 i1 j1 rgcw) in
  exists r, (res!(i, j))%F mo = Some r /\
    (st!(0, i, j) * u!(i, j) + st!(1, i, j) * u!(i - 1, j) + st!(2, i, j) * u!(i + 1, j) + st!(3, i, j) * u!(i, j - 1) + st!(4, i, j) * u!(i, j + 1))%F ms = Some r.
  Proof.
    intros. match goal with H : _ = Some ms |- _ => rename H into Es end. match goal with H : _ = Some mo |- _ => rename H into Eo end.
    apply bind_Some_inv in Es as (m1 & Eo1 & Ed). apply bind_Some_inv in Eo as (m2 & Ef & Ea). k_apart.
    destruct (poisson_offdiag_2d_at i0 j0 i1 j1 dx beta sgcw st m m1 ltac:(k_rapart L) ltac:(k_rapart L) ltac:(k_rapart L) Eo1) as (Vo & Fo).
    destruct (poisson_diag_2d_at L i0 j0 i1 j1 sgcw st m1 ms ltac:(k_rapart L) ltac:(k_rapart L) ltac:(k_rapart L) Ed) as (Vd & Fd).
    destruct (poisson_flux_2d_at i0 j0 i1 j1 dx gcw u f0 f1 m m2 ltac:(k_rapart L) ltac:(k_rapart L) ltac:(k_rapart L) ltac:(k_rapart L) ltac:(k_rapart L) Ef) as (Vf0 & Vf1 & Ff).
    destruct (poisson_v2_apply_2d_at i0 i1 j0 j1 beta dx f0 f1 rgcw res m2 mo ltac:(k_rapart L) ltac:(k_rapart L) ltac:(k_rapart L) ltac:(k_rapart L) Ea) as (Va & Fa). clear Eo1 Ed Ef Ea.
    specialize (Vo i j ltac:(assumption) ltac:(assumption)). specialize (Vd i j ltac:(assumption) ltac:(assumption)). specialize (Va i j ltac:(assumption) ltac:(assumption)).
    pose proof (Vf0 i j ltac:(lia) ltac:(lia)) as Ga0.
    pose proof (Vf0 (i + 1) j ltac:(lia) ltac:(lia)) as Gb0.
    pose proof (Vf1 i j ltac:(lia) ltac:(lia)) as Ga1.
    pose proof (Vf1 i (j + 1) ltac:(lia) ltac:(lia)) as Gb1.
    clear Vf0 Vf1. subst_lets. replace (i + 1 - 1) with i in * by lia. replace (j + 1 - 1) with j in * by lia.
    k_row L.
  Qed.

  Lemma row_v1_3d i0 j0 k0 i1 j1 k1 dx beta b0 b1 b2 gcw u f0 f1 f2 alpha agcw a sgcw st rgcw res (m ms mo : mem S) :
  i0 <= i1 + 1 -> j0 <= j1 + 1 -> k0 <= k1 + 1 -> 0 <= gcw -> 0 <= sgcw -> 0 <= rgcw -> dx 0 <> lit 0 ->
  dx 1 <> lit 0 -> dx 2 <> lit 0 -> apart st [b0; b1; b2; a; u] -> apart f0 [f1; f2; b0; b1; b2; a; u] ->
  apart f1 [f2; b0; b1; b2; a; u] -> apart f2 [b0; b1; b2; a; u] -> apart res [f0; f1; f2; a; u] ->
  (m' <- cd_stencil_3d_offdiag i0 j0 k0 i1 j1 k1 i0 j0 k0 i1 j1 k1 dx beta b0 b1 b2 sgcw st m ;;
   cd_stencil_3d_v1diag i0 j0 k0 i1 j1 k1 (i0 - agcw) (j0 - agcw) (k0 - agcw) (i1 + agcw) (j1 + agcw) (k1 + agcw) alpha a sgcw st m') = Some ms ->
  (m' <- cdf_3d_flux i0 j0 k0 i1 j1 k1 dx b0 b1 b2 gcw u f0 f1 f2 m ;;
   cd_apply_3d_diffusion_v1_apply i0 i1 j0 j1 k0 k1 alpha beta dx agcw a gcw u f0 f1 f2 rgcw res m') = Some mo ->
  forall i j k, i0 <= i <= i1 -> j0 <= j <= j1 -> k0 <= k <= k1 ->
  let st := mkFa st ((0, 6) :: CELL3d i0 j0 k0 i1 j1 k1 sgcw) in
  let u := mkFa u (CELL3d i0 j0 k0 i1 j1 k1 gcw) in
  let res := mkFa res (CELL3d i0 j0 k0 i1 j1 k1 rgcw) in
  exists r, (res!(i, j, k))%F mo = Some r /\
    (st!(0, i, j, k) * u!(i, j, k) + st!(1, i, j, k) * u!(i - 1, j, k) + st!(2, i, j, k) * u!(i + 1, j, k) + st!(3, i, j, k) * u!(i, j - 1, k) + st!(4, i, j, k) * u!(i, j + 1, k) + st!(5, i, j, k) * u!(i, j, k - 1) + st!(6, i, j, k) * u!(i, j, k + 1))%F ms = Some r.
  Proof.
    intros. match goal with H : _ = Some ms |- _ => rename H into Es end. match goal with H : _ = Some mo |- _ => rename H into Eo end.
    apply bind_Some_inv in Es as (m1 & Eo1 & Ed). apply bind_Some_inv in Eo as (m2 & Ef & Ea). k_apart.
    destruct (offdiag_3d_at i0 j0 k0 i1 j1 k1 i0 j0 k0 i1 j1 k1 dx beta b0 b1 b2 sgcw st m m1 ltac:(k_rapart L) ltac:(k_rapart L) ltac:(k_rapart L) ltac:(k_rapart L) ltac:(k_rapart L) Eo1) as (Vo & Fo).
    destruct (v1diag_3d_at L i0 j0 k0 i1 j1 k1 (i0 - agcw) (j0 - agcw) (k0 - agcw) (i1 + agcw) (j1 + agcw) (k1 + agcw) alpha a sgcw st m1 ms ltac:(k_rapart L) ltac:(k_rapart L) ltac:(k_rapart L) ltac:(k_rapart L) ltac:(k_rapart L) Ed) as (Vd & Fd).
    destruct (flux_3d_at i0 j0 k0 i1 j1 k1 dx b0 b1 b2 gcw u f0 f1 f2 m m2 ltac:(k_rapart L) ltac:(k_rapart L) ltac:(k_rapart L) ltac:(k_rapart L) ltac:(k_rapart L) ltac:(k_rapart L) ltac:(k_rapart L) Ef) as (Vf0 & Vf1 & Vf2 & Ff).
    destruct (diffusion_v1_apply_3d_at i0 i1 j0 j1 k0 k1 alpha beta dx agcw a gcw u f0 f1 f2 rgcw res m2 mo ltac:(k_rapart L) ltac:(k_rapart L) ltac:(k_rapart L) ltac:(k_rapart L) ltac:(k_rapart L) Ea) as (Va & Fa). clear Eo1 Ed Ef Ea.
    specialize (Vo i j k ltac:(assumption) ltac:(assumption) ltac:(assumption)). specialize (Vd i j k ltac:(assumption) ltac:(assumption) ltac:(assumption)). specialize (Va i j k ltac:(assumption) ltac:(assumption) ltac:(assumption)).
    pose proof (Vf0 i j k ltac:(lia) ltac:(lia) ltac:(lia)) as Ga0.
    pose proof (Vf0 (i + 1) j k ltac:(lia) ltac:(lia) ltac:(lia)) as Gb0.
    pose proof (Vf1 i j k ltac:(lia) ltac:(lia) ltac:(lia)) as Ga1.
    pose proof (Vf1 i (j + 1) k ltac:(lia) ltac:(lia) ltac:(lia)) as Gb1.
    pose proof (Vf2 i j k ltac:(lia) ltac:(lia) ltac:(lia)) as Ga2.
    pose proof (Vf2 i j (k + 1) ltac:(lia) ltac:(lia) ltac:(lia)) as Gb2.
    clear Vf0 Vf1 Vf2. subst_lets. replace (i + 1 - 1) with i in * by lia. replace (j + 1 - 1) with j in * by lia. replace (k + 1 - 1) with k in * by lia.
    k_row L.
  Qed.

  Lemma row_v2_3d i0 j0 k0 i1 j1 k1 dx beta b0 b1 b2 gcw u f0 f1 f2 alpha sgcw st rgcw res (m ms mo : mem S) :
  i0 <= i1 + 1 -> j0 <= j1 + 1 -> k0 <= k1 + 1 -> 0 <= gcw -> 0 <= sgcw -> 0 <= rgcw -> dx 0 <> lit 0 ->
  dx 1 <> lit 0 -> dx 2 <> lit 0 -> apart st [b0; b1; b2; u] -> apart f0 [f1; f2; b0; b1; b2; u] ->
  apart f1 [f2; b0; b1; b2; u] -> apart f2 [b0; b1; b2; u] -> apart res [f0; f1; f2; u] ->
  (m' <- cd_stencil_3d_offdiag i0 j0 k0 i1 j1 k1 i0 j0 k0 i1 j1 k1 dx beta b0 b1 b2 sgcw st m ;;
   cd_stencil_3d_v2diag i0 j0 k0 i1 j1 k1 alpha sgcw st m') = Some ms ->
  (m' <- cdf_3d_flux i0 j0 k0 i1 j1 k1 dx b0 b1 b2 gcw u f0 f1 f2 m ;;
   cd_apply_3d_diffusion_v2_apply i0 i1 j0 j1 k0 k1 alpha beta dx gcw u f0 f1 f2 rgcw res m') = Some mo ->
  forall i j k, i0 <= i <= i1 -> j0 <= j <= j1 -> k0 <= k <= k1 ->
  let st := mkFa st ((0, 6) :: CELL3d i0 j0 k0 i1 j1 k1 sgcw) in
  let u := mkFa u (CELL3d i0 j0 k0 i1 j1 k1 gcw) in
  let res := mkFa res (CELL3d i0 j0 k0 i1 j1 k1 rgcw) in
  exists r, (res!(i, j, k))%F mo = Some r /\
    (st!(0, i, j, k) * u!(i, j, k) + st!(1, i, j, k) * u!(i - 1, j, k) + st!(2, i, j, k) * u!(i + 1, j, k) + st!(3, i, j, k) * u!(i, j - 1, k) + st!(4, i, j, k) * u!(i, j + 1, k) + st!(5, i, j, k) * u!(i, j, k - 1) + st!(6, i, j, k) * u!(i, j, k + 1))%F ms = Some r.
  Proof.
    intros. match goal with H : _ = Some ms |- _ => rename H into Es end. match goal with H : _ = Some mo |- _ => rename H into Eo end.
    apply bind_Some_inv in Es as (m1 & Eo1 & Ed). apply bind_Some_inv in Eo as (m2 & Ef & Ea). k_apart.
    destruct (offdiag_3d_at i0 j0 k0 i1 j1 k1 i0 j0 k0 i1 j1 k1 dx beta b0 b1 b2 sgcw st m m1 ltac:(k_rapart L) ltac:(k_rapart L) ltac:(k_rapart L) ltac:(k_rapart L) ltac:(k_rapart L) Eo1) as (Vo & Fo).
    destruct (v2diag_3d_at L i0 j0 k0 i1 j1 k1 alpha sgcw st m1 ms ltac:(k_rapart L) ltac:(k_rapart L) ltac:(k_rapart L) ltac:(k_rapart L) Ed) as (Vd & Fd).
    destruct (flux_3d_at i0 j0 k0 i1 j1 k1 dx b0 b1 b2 gcw u f0 f1 f2 m m2 ltac:(k_rapart L) ltac:(k_rapart L) ltac:(k_rapart L) ltac:(k_rapart L) ltac:(k_rapart L) ltac:(k_rapart L) ltac:(k_rapart L) Ef) as (Vf0 & Vf1 & Vf2 & Ff).
    destruct (diffusion_v2_apply_3d_at i0 i1 j0 j1 k0 k1 alpha beta dx gcw u f0 f1 f2 rgcw res m2 mo ltac:(k_rapart L) ltac:(k_rapart L) ltac:(k_rapart L) ltac:(k_rapart L) ltac:(k_rapart L) Ea) as (Va & Fa). clear Eo1 Ed Ef Ea.
    specialize (Vo i j k ltac:(assumption) ltac:(assumption) ltac:(assumption)). specialize (Vd i j k ltac:(assumption) ltac:(assumption) ltac:(assumption)). specialize (Va i j k ltac:(assumption) ltac:(assumption) ltac:(assumption)).
    pose proof (Vf0 i j k ltac:(lia) ltac:(lia) ltac:(lia)) as Ga0.
    pose proof (Vf0 (i + 1) j k ltac:(lia) ltac:(lia) ltac:(lia)) as Gb0.
    pose proof (Vf1 i j k ltac:(lia) ltac:(lia) ltac:(lia)) as Ga1.
    pose proof (Vf1 i (j + 1) k ltac:(lia) ltac:(lia) ltac:(lia)) as Gb1.
    pose proof (Vf2 i j k ltac:(lia) ltac:(lia) ltac:(lia)) as Ga2.
    pose proof (Vf2 i j (k + 1) ltac:(lia) ltac:(lia) ltac:(lia)) as Gb2.
    clear Vf0 Vf1 Vf2. subst_lets. replace (i + 1 - 1) with i in * by lia. replace (j + 1 - 1) with j in * by lia. replace (k + 1 - 1) with k in * by lia.
    k_row L.
  Qed.

  Lemma row_poisson_3d i0 j0 k0 i1 j1 k1 dx beta gcw u f0 f1 f2 sgcw st rgcw res (m ms mo : mem S) :
  i0 <= i1 + 1 -> j0 <= j1 + 1 -> k0 <= k1 + 1 -> 0 <= gcw -> 0 <= sgcw -> 0 <= rgcw -> dx 0 <> lit 0 ->
  dx 1 <> lit 0 -> dx 2 <> lit 0 -> apart st [u] -> apart f0 [f1; f2; u] -> apart f1 [f2; u] ->
  apart f2 [u] -> apart res [f0; f1; f2; u] ->
  (m' <- cd_stencil_3d_poisson_offdiag i0 j0 k0 i1 j1 k1 dx beta sgcw st m ;;
   cd_stencil_3d_poisson_diag i0 j0 k0 i1 j1 k1 sgcw st m') = Some ms ->
  (m' <- cdf_3d_poisson_flux i0 j0 k0 i1 j1 k1 dx gcw u f0 f1 f2 m ;;
   cd_apply_3d_poisson_v2_apply i0 i1 j0 j1 k0 k1 beta dx f0 f1 f2 rgcw res m') = Some mo ->
  forall i j k, i0 <= i <= i1 -> j0 <= j <= j1 -> k0 <= k <= k1 ->
  let st := mkFa st ((0, 6) :: CELL3d i0 j0 k0 i1 j1 k1 sgcw) in
  let u := mkFa u (CELL3d i0 j0 k0 i1 j1 k1 gcw) in
  let res := mkFa res (CELL3d i0 j0 k0 i1 j1 k1 rgcw) in
  exists r, (res!(i, j, k))%F mo = Some r /\
    (st!(0, i, j, k) * u!(i, j, k) + st!(1, i, j, k) * u!(i - 1, j, k) + st!(2, i, j, k) * u!(i + 1, j, k) + st!(3, i, j, k) * u!(i, j - 1, k) + st!(4, i, j, k) * u!(i, j + 1, k) + st!(5, i, j, k) * u!(i, j, k - 1) + st!(6, i, j, k) * u!(i, j, k + 1))%F ms = Some r.
  Proof.
    intros. match goal with H : _ = Some ms |- _ => rename H into Es end. match goal with H : _ = Some mo |- _ => rename H into Eo end.
    apply bind_Some_inv in Es as (m1 & Eo1 & Ed). apply bind_Some_inv in Eo as (m2 & Ef & Ea). k_apart.
    destruct (poisson_offdiag_3d_at i0 j0 k0 i1 j1 k1 dx beta sgcw st m m1 ltac:(k_rapart L) ltac:(k_rapart L) ltac:(k_rapart L) ltac:(k_rapart L) Eo1) as (Vo & Fo).
    destruct (poisson_diag_3d_at L i0 j0 k0 i1 j1 k1 sgcw st m1 ms ltac:(k_rapart L) ltac:(k_rapart L) ltac:(k_rapart L) ltac:(k_rapart L) Ed) as (Vd & Fd).
    destruct (poisson_flux_3d_at i0 j0 k0 i1 j1 k1 dx gcw u f0 f1 f2 m m2 ltac:(k_rapart L) ltac:(k_rapart L) ltac:(k_rapart L) ltac:(k_rapart L) ltac:(k_rapart L) ltac:(k_rapart L) ltac:(k_rapart L) Ef) as (Vf0 & Vf1 & Vf2 & Ff).
    destruct (poisson_v2_apply_3d_at i0 i1 j0 j1 k0 k1 beta dx f0 f1 f2 rgcw res m2 mo ltac:(k_rapart L) ltac:(k_rapart L) ltac:(k_rapart L) ltac:(k_rapart L) ltac:(k_rapart L) Ea) as (Va & Fa). clear Eo1 Ed Ef Ea.
    specialize (Vo i j k ltac:(assumption) ltac:(assumption) ltac:(assumption)). specialize (Vd i j k ltac:(assumption) ltac:(assumption) ltac:(assumption)). specialize (Va i j k ltac:(assumption) ltac:(assumption) ltac:(assumption)).
    pose proof (Vf0 i j k ltac:(lia) ltac:(lia) ltac:(lia)) as Ga0.
    pose proof (Vf0 (i + 1) j k ltac:(lia) ltac:(lia) ltac:(lia)) as Gb0.
    pose proof (Vf1 i j k ltac:(lia) ltac:(lia) ltac:(lia)) as Ga1.
    pose proof (Vf1 i (j + 1) k ltac:(lia) ltac:(lia) ltac:(lia)) as Gb1.
    pose proof (Vf2 i j k ltac:(lia) ltac:(lia) ltac:(lia)) as Ga2.
    pose proof (Vf2 i j (k + 1) ltac:(lia) ltac:(lia) ltac:(lia)) as Gb2.
    clear Vf0 Vf1 Vf2. subst_lets. replace (i + 1 - 1) with i in * by lia. replace (j + 1 - 1) with j in * by lia. replace (k + 1 - 1) with k in * by lia.
    k_row L.
  Qed.
End Rows.
