(** * Values the kernels leave, in 1D *)

From Coq Require Import Permutation Field.
From Verif Require Import Base ModelBounds ModelMatrix ModelIters ModelSpan ModelProxy Spec SpecIter ModelSched
  LemBase LemDomain LemExpr LemExec SpecAssign LemAssign LemProps LemProps4 SpecWindow LemWindow LemWindow2
  FortranBase SpecKernel Instances LemField LemKernel LemKernel2 LemBC LemHomog KernelNotations
  KernelsFlux KernelsApply KernelsStencil LemStencil LemRow.
Import ListNotations.
Open Scope Z_scope.

Section Values.
  Context {S : Scalar} (L : field_laws S).
  Add Field SF : (s_field S L) (morphism (lit_morph S L), constants [lit_cst]).

  Lemma flux_1d_at i0 i1 dx b0 gcw u_ f0 (m m' : mem S) :
    let u := mkFa u_ (CELL1d i0 i1 gcw) in
    i0 <= i1 + 1 -> 0 <= gcw -> apart f0 [u_; b0] ->
    cdf_1d_flux i0 i1 dx b0 gcw u_ f0 m = Some m' ->
    (forall i, i0 <= i <= i1 + 1 ->
       gets m' ((mkFa f0 (FACE1d i0 i1 0))!(i))%F m ((mkFa b0 (FACE1d i0 i1 0))!(i) * ((u!(i) - u!(i - 1)) / $(dx 0)))%F) /\
    (forall p, fst p <> fst f0 -> load m' p = load m p).
  Proof.
    intros u Bi Hg A0 E. subst u. unfold cdf_1d_flux in E. cbv zeta in E.
    rewrite ?with_lhs_with_domain in E. cbn [lhs_of] in E. k_apart.
    rename E into E0.
    assert (Fr0 : forall p, fst p <> fst f0 -> load m' p = load m p) by (k_frame E0).
    repeat split.
    - intros i Ii. apply (gets_moved m m m' m'); [k_moves; reflexivity|k_moves; reflexivity|].
      k_gets_at L E0 (pt1 dI i) (in_points1 dI i0 (i1 + 1) i Ii).
    - intros p H0. rewrite Fr0 by assumption. reflexivity.
  Qed.

  Lemma poisson_flux_1d_at i0 i1 dx gcw u_ f0 (m m' : mem S) :
    let u := mkFa u_ (CELL1d i0 i1 gcw) in
    i0 <= i1 + 1 -> 0 <= gcw -> apart f0 [u_] ->
    cdf_1d_poisson_flux i0 i1 dx gcw u_ f0 m = Some m' ->
    (forall i, i0 <= i <= i1 + 1 ->
       gets m' ((mkFa f0 (FACE1d i0 i1 0))!(i))%F m (((u!(i) - u!(i - 1)) / $(dx 0)))%F) /\
    (forall p, fst p <> fst f0 -> load m' p = load m p).
  Proof.
    intros u Bi Hg A0 E. subst u. unfold cdf_1d_poisson_flux in E. cbv zeta in E.
    rewrite ?with_lhs_with_domain in E. cbn [lhs_of] in E. k_apart.
    rename E into E0.
    assert (Fr0 : forall p, fst p <> fst f0 -> load m' p = load m p) by (k_frame E0).
    repeat split.
    - intros i Ii. apply (gets_moved m m m' m'); [k_moves; reflexivity|k_moves; reflexivity|].
      k_gets_at L E0 (pt1 dI i) (in_points1 dI i0 (i1 + 1) i Ii).
    - intros p H0. rewrite Fr0 by assumption. reflexivity.
  Qed.

  Lemma offdiag_1d_at i0 i1 bi0 bi1 dx beta b0_ sgcw st_ (m m' : mem S) :
    let st := mkFa st_ ((0, 2) :: CELL1d i0 i1 sgcw) in
    let b0 := mkFa b0_ (FACE1d bi0 bi1 0) in
    let c0 := (- beta / (dx 0 * dx 0))%T in
    i0 <= i1 + 1 -> 0 <= sgcw -> apart st_ [b0_] -> 
    cd_stencil_1d_offdiag i0 i1 bi0 bi1 dx beta b0_ sgcw st_ m = Some m' ->
    (forall i, i0 <= i <= i1 ->
      gets m' (st!(1, i))%F m ($c0 * b0!(i))%F /\
      gets m' (st!(2, i))%F m ($c0 * b0!(i + 1))%F) /\
    (forall p, fst p <> fst st_ -> load m' p = load m p).
  Proof.
    intros; match goal with H : _ = Some m' |- _ => rename H into E end; unfold cd_stencil_1d_offdiag in E; cbv zeta in E; k_apart; subst_lets.
    split.
    - intros i Ii. k_wat E (pt1 dI i) (in_points1 dI i0 i1 i Ii) f Ef Hf. k_run Ef. k_entries Hf.
    - k_wframe E.
  Qed.

  Lemma poisson_offdiag_1d_at i0 i1 dx beta sgcw st_ (m m' : mem S) :
    let st := mkFa st_ ((0, 2) :: CELL1d i0 i1 sgcw) in
    let c0 := (- beta / (dx 0 * dx 0))%T in
    i0 <= i1 + 1 -> 0 <= sgcw -> 
    cd_stencil_1d_poisson_offdiag i0 i1 dx beta sgcw st_ m = Some m' ->
    (forall i, i0 <= i <= i1 ->
      gets m' (st!(1, i))%F m ($c0)%F /\
      gets m' (st!(2, i))%F m ($c0)%F) /\
    (forall p, fst p <> fst st_ -> load m' p = load m p).
  Proof.
    intros; match goal with H : _ = Some m' |- _ => rename H into E end; unfold cd_stencil_1d_poisson_offdiag in E; cbv zeta in E; k_apart; subst_lets.
    split.
    - intros i Ii. k_wat E (pt1 dI i) (in_points1 dI i0 i1 i Ii) f Ef Hf. k_run Ef. k_entries Hf.
    - k_wframe E.
  Qed.

  Lemma v1diag_1d_at i0 i1 ai0 ai1 alpha a_ sgcw st_ (m m' : mem S) :
    let st := mkFa st_ ((0, 2) :: CELL1d i0 i1 sgcw) in
    let a := mkFa a_ (CELL1d ai0 ai1 0) in
    i0 <= i1 + 1 -> 0 <= sgcw -> apart st_ [a_] -> 
    cd_stencil_1d_v1diag i0 i1 ai0 ai1 alpha a_ sgcw st_ m = Some m' ->
    (forall i, i0 <= i <= i1 ->
      gets m' (st!(0, i))%F m (- (st!(1, i) + st!(2, i)) + $alpha * a!(i))%F /\
      (st!(1, i))%F m' = (st!(1, i))%F m /\
      (st!(2, i))%F m' = (st!(2, i))%F m) /\
    (forall p, fst p <> fst st_ -> load m' p = load m p).
  Proof.
    intros; match goal with H : _ = Some m' |- _ => rename H into E end; unfold cd_stencil_1d_v1diag in E; cbv zeta in E; k_apart; subst_lets.
    split.
    - intros i Ii. repeat split.
      + k_wat E (pt1 dI i) (in_points1 dI i0 i1 i Ii) f Ef Hf. k_run Ef. k_entries Hf. f_equal. ring.
      + k_wother E (pt1 dI i) (in_points1 dI i0 i1 i Ii) 1.
      + k_wother E (pt1 dI i) (in_points1 dI i0 i1 i Ii) 2.
    - k_wframe E.
  Qed.

  Lemma v2diag_1d_at i0 i1 alpha sgcw st_ (m m' : mem S) :
    let st := mkFa st_ ((0, 2) :: CELL1d i0 i1 sgcw) in
    i0 <= i1 + 1 -> 0 <= sgcw -> 
    cd_stencil_1d_v2diag i0 i1 alpha sgcw st_ m = Some m' ->
    (forall i, i0 <= i <= i1 ->
      gets m' (st!(0, i))%F m (- (st!(1, i) + st!(2, i)) + $alpha)%F /\
      (st!(1, i))%F m' = (st!(1, i))%F m /\
      (st!(2, i))%F m' = (st!(2, i))%F m) /\
    (forall p, fst p <> fst st_ -> load m' p = load m p).
  Proof.
    intros; match goal with H : _ = Some m' |- _ => rename H into E end; unfold cd_stencil_1d_v2diag in E; cbv zeta in E; k_apart; subst_lets.
    split.
    - intros i Ii. repeat split.
      + k_wat E (pt1 dI i) (in_points1 dI i0 i1 i Ii) f Ef Hf. k_run Ef. k_entries Hf. f_equal. ring.
      + k_wother E (pt1 dI i) (in_points1 dI i0 i1 i Ii) 1.
      + k_wother E (pt1 dI i) (in_points1 dI i0 i1 i Ii) 2.
    - k_wframe E.
  Qed.

  Lemma poisson_diag_1d_at i0 i1 sgcw st_ (m m' : mem S) :
    let st := mkFa st_ ((0, 2) :: CELL1d i0 i1 sgcw) in
    i0 <= i1 + 1 -> 0 <= sgcw -> 
    cd_stencil_1d_poisson_diag i0 i1 sgcw st_ m = Some m' ->
    (forall i, i0 <= i <= i1 ->
      gets m' (st!(0, i))%F m (- (st!(1, i) + st!(2, i)))%F /\
      (st!(1, i))%F m' = (st!(1, i))%F m /\
      (st!(2, i))%F m' = (st!(2, i))%F m) /\
    (forall p, fst p <> fst st_ -> load m' p = load m p).
  Proof.
    intros; match goal with H : _ = Some m' |- _ => rename H into E end; unfold cd_stencil_1d_poisson_diag in E; cbv zeta in E; k_apart; subst_lets.
    split.
    - intros i Ii. repeat split.
      + k_wat E (pt1 dI i) (in_points1 dI i0 i1 i Ii) f Ef Hf. k_run Ef. k_entries Hf. f_equal. ring.
      + k_wother E (pt1 dI i) (in_points1 dI i0 i1 i Ii) 1.
      + k_wother E (pt1 dI i) (in_points1 dI i0 i1 i Ii) 2.
    - k_wframe E.
  Qed.

  Lemma diffusion_v1_apply_1d_at i0 i1 alpha beta dx agcw a_ ugcw u_ f0_ rgcw res_ (m m' : mem S) :
    let res := mkFa res_ (CELL1d i0 i1 rgcw) in
    let u := mkFa u_ (CELL1d i0 i1 ugcw) in
    let a := mkFa a_ (CELL1d i0 i1 agcw) in
    let f0 := mkFa f0_ (FACE1d i0 i1 0) in
    i0 <= i1 + 1 -> 0 <= rgcw -> apart res_ [f0_; u_; a_] ->
    cd_apply_1d_diffusion_v1_apply i0 i1 alpha beta dx agcw a_ ugcw u_ f0_ rgcw res_ m = Some m' ->
    (forall i, i0 <= i <= i1 ->
      gets m' (res!(i))%F m ($(- beta)%T * ((f0!(i + 1) - f0!(i)) / $(dx 0)) + $alpha * a!(i) * u!(i))%F) /\
    (forall p, fst p <> fst res_ -> load m' p = load m p).
  Proof.
    intros; match goal with H : _ = Some m' |- _ => rename H into E end; unfold cd_apply_1d_diffusion_v1_apply in E; cbv zeta in E; k_apart; subst_lets.
    split.
    - intros i Ii. k_gets_at L E (pt1 dI i) (in_points1 dI i0 i1 i Ii).
    - k_frame E.
  Qed.

  Lemma diffusion_v2_apply_1d_at i0 i1 alpha beta dx ugcw u_ f0_ rgcw res_ (m m' : mem S) :
    let res := mkFa res_ (CELL1d i0 i1 rgcw) in
    let u := mkFa u_ (CELL1d i0 i1 ugcw) in
    let f0 := mkFa f0_ (FACE1d i0 i1 0) in
    i0 <= i1 + 1 -> 0 <= rgcw -> apart res_ [f0_; u_] ->
    cd_apply_1d_diffusion_v2_apply i0 i1 alpha beta dx ugcw u_ f0_ rgcw res_ m = Some m' ->
    (forall i, i0 <= i <= i1 ->
      gets m' (res!(i))%F m ($(- beta)%T * ((f0!(i + 1) - f0!(i)) / $(dx 0)) + $alpha * u!(i))%F) /\
    (forall p, fst p <> fst res_ -> load m' p = load m p).
  Proof.
    intros; match goal with H : _ = Some m' |- _ => rename H into E end; unfold cd_apply_1d_diffusion_v2_apply in E; cbv zeta in E; k_apart; subst_lets.
    split.
    - intros i Ii. k_gets_at L E (pt1 dI i) (in_points1 dI i0 i1 i Ii).
    - k_frame E.
  Qed.

  Lemma poisson_v2_apply_1d_at i0 i1 beta dx f0_ rgcw res_ (m m' : mem S) :
    let res := mkFa res_ (CELL1d i0 i1 rgcw) in
    let f0 := mkFa f0_ (FACE1d i0 i1 0) in
    i0 <= i1 + 1 -> 0 <= rgcw -> apart res_ [f0_] ->
    cd_apply_1d_poisson_v2_apply i0 i1 beta dx f0_ rgcw res_ m = Some m' ->
    (forall i, i0 <= i <= i1 ->
      gets m' (res!(i))%F m ($(- beta)%T * ((f0!(i + 1) - f0!(i)) / $(dx 0)))%F) /\
    (forall p, fst p <> fst res_ -> load m' p = load m p).
  Proof.
    intros; match goal with H : _ = Some m' |- _ => rename H into E end; unfold cd_apply_1d_poisson_v2_apply in E; cbv zeta in E; k_apart; subst_lets.
    split.
    - intros i Ii. k_gets_at L E (pt1 dI i) (in_points1 dI i0 i1 i Ii).
    - k_frame E.
  Qed.
End Values.
