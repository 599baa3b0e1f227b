(** * Values the kernels leave, in 2D *)

From Coq Require Import Permutation Field.
From Verif Require Import Base ModelBounds ModelMatrix ModelIters ModelSpan ModelProxy Spec SpecIter ModelSched
  LemBase LemDomain LemExpr LemExec SpecAssign LemAssign LemProps LemProps4 SpecWindow LemWindow LemWindow2
  FortranBase SpecKernel Instances LemField LemKernel LemKernel2 LemBC LemHomog KernelNotations
  KernelsFlux KernelsApply KernelsStencil LemStencil LemRow.
Import ListNotations.
Open Scope Z_scope.

Section Values.
  Context {S : Scalar} (L : field_laws S).
  Add Field SF : (s_field S L) (morphism (lit_morph S L), constants [lit_cst]).

  Lemma flux_2d_at i0 j0 i1 j1 dx b0 b1 gcw u_ f0 f1 (m m' : mem S) :
    let u := mkFa u_ (CELL2d i0 j0 i1 j1 gcw) in
    i0 <= i1 + 1 -> j0 <= j1 + 1 -> 0 <= gcw -> apart f0 [f1; u_; b0; b1] -> apart f1 [u_; b0; b1] ->
    cdf_2d_flux i0 j0 i1 j1 dx b0 b1 gcw u_ f0 f1 m = Some m' ->
    (forall i j, i0 <= i <= i1 + 1 -> j0 <= j <= j1 ->
       gets m' ((mkFa f0 (FACE2d0 i0 j0 i1 j1 0))!(i, j))%F m ((mkFa b0 (FACE2d0 i0 j0 i1 j1 0))!(i, j) * ((u!(i, j) - u!(i - 1, j)) / $(dx 0)))%F) /\
    (forall i j, i0 <= i <= i1 -> j0 <= j <= j1 + 1 ->
       gets m' ((mkFa f1 (FACE2d1 i0 j0 i1 j1 0))!(j, i))%F m ((mkFa b1 (FACE2d1 i0 j0 i1 j1 0))!(j, i) * ((u!(i, j) - u!(i, j - 1)) / $(dx 1)))%F) /\
    (forall p, fst p <> fst f0 -> fst p <> fst f1 -> load m' p = load m p).
  Proof.
    intros u Bi Bj Hg A0 A1 E. subst u. unfold cdf_2d_flux in E. cbv zeta in E.
    rewrite ?with_lhs_with_domain in E. cbn [lhs_of] in E. k_apart.
    apply bind_Some_inv in E as (m1 & E0 & E). rewrite ?with_lhs_with_domain in E. cbn [lhs_of] in E.
    rename E into E1.
    assert (Fr0 : forall p, fst p <> fst f0 -> load m1 p = load m p) by (k_frame E0).
    assert (Fr1 : forall p, fst p <> fst f1 -> load m' p = load m1 p) by (k_frame E1).
    repeat split.
    - intros i j Ii Ij. apply (gets_moved m m m1 m'); [k_moves; reflexivity|k_moves; reflexivity|].
      k_gets_at L E0 (pt2 dJ dI j i) (in_points2 dJ dI j0 j1 i0 (i1 + 1) j i Ij Ii).
    - intros i j Ii Ij. apply (gets_moved m m1 m' m'); [k_moves; reflexivity|k_moves; reflexivity|].
      k_gets_at L E1 (pt2 dI dJ i j) (in_points2 dI dJ i0 i1 j0 (j1 + 1) i j Ii Ij).
    - intros p H0 H1. rewrite Fr1 by assumption. rewrite Fr0 by assumption. reflexivity.
  Qed.

  Lemma poisson_flux_2d_at i0 j0 i1 j1 dx gcw u_ f0 f1 (m m' : mem S) :
    let u := mkFa u_ (CELL2d i0 j0 i1 j1 gcw) in
    i0 <= i1 + 1 -> j0 <= j1 + 1 -> 0 <= gcw -> apart f0 [f1; u_] -> apart f1 [u_] ->
    cdf_2d_poisson_flux i0 j0 i1 j1 dx gcw u_ f0 f1 m = Some m' ->
    (forall i j, i0 <= i <= i1 + 1 -> j0 <= j <= j1 ->
       gets m' ((mkFa f0 (FACE2d0 i0 j0 i1 j1 0))!(i, j))%F m (((u!(i, j) - u!(i - 1, j)) / $(dx 0)))%F) /\
    (forall i j, i0 <= i <= i1 -> j0 <= j <= j1 + 1 ->
       gets m' ((mkFa f1 (FACE2d1 i0 j0 i1 j1 0))!(j, i))%F m (((u!(i, j) - u!(i, j - 1)) / $(dx 1)))%F) /\
    (forall p, fst p <> fst f0 -> fst p <> fst f1 -> load m' p = load m p).
  Proof.
    intros u Bi Bj Hg A0 A1 E. subst u. unfold cdf_2d_poisson_flux in E. cbv zeta in E.
    rewrite ?with_lhs_with_domain in E. cbn [lhs_of] in E. k_apart.
    apply bind_Some_inv in E as (m1 & E0 & E). rewrite ?with_lhs_with_domain in E. cbn [lhs_of] in E.
    rename E into E1.
    assert (Fr0 : forall p, fst p <> fst f0 -> load m1 p = load m p) by (k_frame E0).
    assert (Fr1 : forall p, fst p <> fst f1 -> load m' p = load m1 p) by (k_frame E1).
    repeat split.
    - intros i j Ii Ij. apply (gets_moved m m m1 m'); [k_moves; reflexivity|k_moves; reflexivity|].
      k_gets_at L E0 (pt2 dJ dI j i) (in_points2 dJ dI j0 j1 i0 (i1 + 1) j i Ij Ii).
    - intros i j Ii Ij. apply (gets_moved m m1 m' m'); [k_moves; reflexivity|k_moves; reflexivity|].
      k_gets_at L E1 (pt2 dI dJ i j) (in_points2 dI dJ i0 i1 j0 (j1 + 1) i j Ii Ij).
    - intros p H0 H1. rewrite Fr1 by assumption. rewrite Fr0 by assumption. reflexivity.
  Qed.

  Lemma offdiag_2d_at i0 j0 i1 j1 bi0 bj0 bi1 bj1 dx beta b0_ b1_ sgcw st_ (m m' : mem S) :
    let st := mkFa st_ ((0, 4) :: CELL2d i0 j0 i1 j1 sgcw) in
    let b0 := mkFa b0_ (FACE2d0 bi0 bj0 bi1 bj1 0) in
    let b1 := mkFa b1_ (FACE2d1 bi0 bj0 bi1 bj1 0) in
    let c0 := (- beta / (dx 0 * dx 0))%T in
    let c1 := (- beta / (dx 1 * dx 1))%T in
    i0 <= i1 + 1 -> j0 <= j1 + 1 -> 0 <= sgcw -> apart st_ [b0_; b1_] -> 
    cd_stencil_2d_offdiag i0 j0 i1 j1 bi0 bj0 bi1 bj1 dx beta b0_ b1_ sgcw st_ m = Some m' ->
    (forall i j, i0 <= i <= i1 -> j0 <= j <= j1 ->
      gets m' (st!(1, i, j))%F m ($c0 * b0!(i, j))%F /\
      gets m' (st!(2, i, j))%F m ($c0 * b0!(i + 1, j))%F /\
      gets m' (st!(3, i, j))%F m ($c1 * b1!(j, i))%F /\
      gets m' (st!(4, i, j))%F m ($c1 * b1!(j + 1, i))%F) /\
    (forall p, fst p <> fst st_ -> load m' p = load m p).
  Proof.
    intros; match goal with H : _ = Some m' |- _ => rename H into E end; unfold cd_stencil_2d_offdiag in E; cbv zeta in E; k_apart; subst_lets.
    split.
    - intros i j Ii Ij. k_wat E (pt2 dJ dI j i) (in_points2 dJ dI j0 j1 i0 i1 j i Ij Ii) f Ef Hf. k_run Ef. k_entries Hf.
    - k_wframe E.
  Qed.

  Lemma poisson_offdiag_2d_at i0 j0 i1 j1 dx beta sgcw st_ (m m' : mem S) :
    let st := mkFa st_ ((0, 4) :: CELL2d i0 j0 i1 j1 sgcw) in
    let c0 := (- beta / (dx 0 * dx 0))%T in
    let c1 := (- beta / (dx 1 * dx 1))%T in
    i0 <= i1 + 1 -> j0 <= j1 + 1 -> 0 <= sgcw -> 
    cd_stencil_2d_poisson_offdiag i0 j0 i1 j1 dx beta sgcw st_ m = Some m' ->
    (forall i j, i0 <= i <= i1 -> j0 <= j <= j1 ->
      gets m' (st!(1, i, j))%F m ($c0)%F /\
      gets m' (st!(2, i, j))%F m ($c0)%F /\
      gets m' (st!(3, i, j))%F m ($c1)%F /\
      gets m' (st!(4, i, j))%F m ($c1)%F) /\
    (forall p, fst p <> fst st_ -> load m' p = load m p).
  Proof.
    intros; match goal with H : _ = Some m' |- _ => rename H into E end; unfold cd_stencil_2d_poisson_offdiag in E; cbv zeta in E; k_apart; subst_lets.
    split.
    - intros i j Ii Ij. k_wat E (pt2 dJ dI j i) (in_points2 dJ dI j0 j1 i0 i1 j i Ij Ii) f Ef Hf. k_run Ef. k_entries Hf.
    - k_wframe E.
  Qed.

  Lemma v1diag_2d_at i0 j0 i1 j1 ai0 aj0 ai1 aj1 alpha a_ sgcw st_ (m m' : mem S) :
    let st := mkFa st_ ((0, 4) :: CELL2d i0 j0 i1 j1 sgcw) in
    let a := mkFa a_ (CELL2d ai0 aj0 ai1 aj1 0) in
    i0 <= i1 + 1 -> j0 <= j1 + 1 -> 0 <= sgcw -> apart st_ [a_] -> 
    cd_stencil_2d_v1diag i0 j0 i1 j1 ai0 aj0 ai1 aj1 alpha a_ sgcw st_ m = Some m' ->
    (forall i j, i0 <= i <= i1 -> j0 <= j <= j1 ->
      gets m' (st!(0, i, j))%F m (- (st!(1, i, j) + st!(2, i, j) + st!(3, i, j) + st!(4, i, j)) + $alpha * a!(i, j))%F /\
      (st!(1, i, j))%F m' = (st!(1, i, j))%F m /\
      (st!(2, i, j))%F m' = (st!(2, i, j))%F m /\
      (st!(3, i, j))%F m' = (st!(3, i, j))%F m /\
      (st!(4, i, j))%F m' = (st!(4, i, j))%F m) /\
    (forall p, fst p <> fst st_ -> load m' p = load m p).
  Proof.
    intros; match goal with H : _ = Some m' |- _ => rename H into E end; unfold cd_stencil_2d_v1diag in E; cbv zeta in E; k_apart; subst_lets.
    split.
    - intros i j Ii Ij. repeat split.
      + k_wat E (pt2 dJ dI j i) (in_points2 dJ dI j0 j1 i0 i1 j i Ij Ii) f Ef Hf. k_run Ef. k_entries Hf. f_equal. ring.
      + k_wother E (pt2 dJ dI j i) (in_points2 dJ dI j0 j1 i0 i1 j i Ij Ii) 1.
      + k_wother E (pt2 dJ dI j i) (in_points2 dJ dI j0 j1 i0 i1 j i Ij Ii) 2.
      + k_wother E (pt2 dJ dI j i) (in_points2 dJ dI j0 j1 i0 i1 j i Ij Ii) 3.
      + k_wother E (pt2 dJ dI j i) (in_points2 dJ dI j0 j1 i0 i1 j i Ij Ii) 4.
    - k_wframe E.
  Qed.

  Lemma v2diag_2d_at i0 j0 i1 j1 alpha sgcw st_ (m m' : mem S) :
    let st := mkFa st_ ((0, 4) :: CELL2d i0 j0 i1 j1 sgcw) in
    i0 <= i1 + 1 -> j0 <= j1 + 1 -> 0 <= sgcw -> 
    cd_stencil_2d_v2diag i0 j0 i1 j1 alpha sgcw st_ m = Some m' ->
    (forall i j, i0 <= i <= i1 -> j0 <= j <= j1 ->
      gets m' (st!(0, i, j))%F m (- (st!(1, i, j) + st!(2, i, j) + st!(3, i, j) + st!(4, i, j)) + $alpha)%F /\
      (st!(1, i, j))%F m' = (st!(1, i, j))%F m /\
      (st!(2, i, j))%F m' = (st!(2, i, j))%F m /\
      (st!(3, i, j))%F m' = (st!(3, i, j))%F m /\
      (st!(4, i, j))%F m' = (st!(4, i, j))%F m) /\
    (forall p, fst p <> fst st_ -> load m' p = load m p).
  Proof.
    intros; match goal with H : _ = Some m' |- _ => rename H into E end; unfold cd_stencil_2d_v2diag in E; cbv zeta in E; k_apart; subst_lets.
    split.
    - intros i j Ii Ij. repeat split.
      + k_wat E (pt2 dJ dI j i) (in_points2 dJ dI j0 j1 i0 i1 j i Ij Ii) f Ef Hf. k_run Ef. k_entries Hf. f_equal. ring.
      + k_wother E (pt2 dJ dI j i) (in_points2 dJ dI j0 j1 i0 i1 j i Ij Ii) 1.
      + k_wother E (pt2 dJ dI j i) (in_points2 dJ dI j0 j1 i0 i1 j i Ij Ii) 2.
      + k_wother E (pt2 dJ dI j i) (in_points2 dJ dI j0 j1 i0 i1 j i Ij Ii) 3.
      + k_wother E (pt2 dJ dI j i) (in_points2 dJ dI j0 j1 i0 i1 j i Ij Ii) 4.
    - k_wframe E.
  Qed.

  Lemma poisson_diag_2d_at i0 j0 i1 j1 sgcw st_ (m m' : mem S) :
    let st := mkFa st_ ((0, 4) :: CELL2d i0 j0 i1 j1 sgcw) in
    i0 <= i1 + 1 -> j0 <= j1 + 1 -> 0 <= sgcw -> 
    cd_stencil_2d_poisson_diag i0 j0 i1 j1 sgcw st_ m = Some m' ->
    (forall i j, i0 <= i <= i1 -> j0 <= j <= j1 ->
      gets m' (st!(0, i, j))%F m (- (st!(1, i, j) + st!(2, i, j) + st!(3, i, j) + st!(4, i, j)))%F /\
      (st!(1, i, j))%F m' = (st!(1, i, j))%F m /\
      (st!(2, i, j))%F m' = (st!(2, i, j))%F m /\
      (st!(3, i, j))%F m' = (st!(3, i, j))%F m /\
      (st!(4, i, j))%F m' = (st!(4, i, j))%F m) /\
    (forall p, fst p <> fst st_ -> load m' p = load m p).
  Proof.
    intros; match goal with H : _ = Some m' |- _ => rename H into E end; unfold cd_stencil_2d_poisson_diag in E; cbv zeta in E; k_apart; subst_lets.
    split.
    - intros i j Ii Ij. repeat split.
      + k_wat E (pt2 dJ dI j i) (in_points2 dJ dI j0 j1 i0 i1 j i Ij Ii) f Ef Hf. k_run Ef. k_entries Hf. f_equal. ring.
      + k_wother E (pt2 dJ dI j i) (in_points2 dJ dI j0 j1 i0 i1 j i Ij Ii) 1.
      + k_wother E (pt2 dJ dI j i) (in_points2 dJ dI j0 j1 i0 i1 j i Ij Ii) 2.
      + k_wother E (pt2 dJ dI j i) (in_points2 dJ dI j0 j1 i0 i1 j i Ij Ii) 3.
      + k_wother E (pt2 dJ dI j i) (in_points2 dJ dI j0 j1 i0 i1 j i Ij Ii) 4.
    - k_wframe E.
  Qed.

  Lemma diffusion_v1_apply_2d_at i0 i1 j0 j1 alpha beta dx agcw a_ ugcw u_ f0_ f1_ rgcw res_ (m m' : mem S) :
    let res := mkFa res_ (CELL2d i0 j0 i1 j1 rgcw) in
    let u := mkFa u_ (CELL2d i0 j0 i1 j1 ugcw) in
    let a := mkFa a_ (CELL2d i0 j0 i1 j1 agcw) in
    let f0 := mkFa f0_ (FACE2d0 i0 j0 i1 j1 0) in
    let f1 := mkFa f1_ (FACE2d1 i0 j0 i1 j1 0) in
    i0 <= i1 + 1 -> j0 <= j1 + 1 -> 0 <= rgcw -> apart res_ [f0_; f1_; u_; a_] ->
    cd_apply_2d_diffusion_v1_apply i0 i1 j0 j1 alpha beta dx agcw a_ ugcw u_ f0_ f1_ rgcw res_ m = Some m' ->
    (forall i j, i0 <= i <= i1 -> j0 <= j <= j1 ->
      gets m' (res!(i, j))%F m ($(- beta)%T * ((f0!(i + 1, j) - f0!(i, j)) / $(dx 0) + (f1!(j + 1, i) - f1!(j, i)) / $(dx 1)) + $alpha * a!(i, j) * u!(i, j))%F) /\
    (forall p, fst p <> fst res_ -> load m' p = load m p).
  Proof.
    intros; match goal with H : _ = Some m' |- _ => rename H into E end; unfold cd_apply_2d_diffusion_v1_apply in E; cbv zeta in E; k_apart; subst_lets.
    split.
    - intros i j Ii Ij. k_gets_at L E (pt2 dJ dI j i) (in_points2 dJ dI j0 j1 i0 i1 j i Ij Ii).
    - k_frame E.
  Qed.

  Lemma diffusion_v2_apply_2d_at i0 i1 j0 j1 alpha beta dx ugcw u_ f0_ f1_ rgcw res_ (m m' : mem S) :
    let res := mkFa res_ (CELL2d i0 j0 i1 j1 rgcw) in
    let u := mkFa u_ (CELL2d i0 j0 i1 j1 ugcw) in
    let f0 := mkFa f0_ (FACE2d0 i0 j0 i1 j1 0) in
    let f1 := mkFa f1_ (FACE2d1 i0 j0 i1 j1 0) in
    i0 <= i1 + 1 -> j0 <= j1 + 1 -> 0 <= rgcw -> apart res_ [f0_; f1_; u_] ->
    cd_apply_2d_diffusion_v2_apply i0 i1 j0 j1 alpha beta dx ugcw u_ f0_ f1_ rgcw res_ m = Some m' ->
    (forall i j, i0 <= i <= i1 -> j0 <= j <= j1 ->
      gets m' (res!(i, j))%F m ($(- beta)%T * ((f0!(i + 1, j) - f0!(i, j)) / $(dx 0) + (f1!(j + 1, i) - f1!(j, i)) / $(dx 1)) + $alpha * u!(i, j))%F) /\
    (forall p, fst p <> fst res_ -> load m' p = load m p).
  Proof.
    intros; match goal with H : _ = Some m' |- _ => rename H into E end; unfold cd_apply_2d_diffusion_v2_apply in E; cbv zeta in E; k_apart; subst_lets.
    split.
    - intros i j Ii Ij. k_gets_at L E (pt2 dJ dI j i) (in_points2 dJ dI j0 j1 i0 i1 j i Ij Ii).
    - k_frame E.
  Qed.

  Lemma poisson_v2_apply_2d_at i0 i1 j0 j1 beta dx f0_ f1_ rgcw res_ (m m' : mem S) :
    let res := mkFa res_ (CELL2d i0 j0 i1 j1 rgcw) in
    let f0 := mkFa f0_ (FACE2d0 i0 j0 i1 j1 0) in
    let f1 := mkFa f1_ (FACE2d1 i0 j0 i1 j1 0) in
    i0 <= i1 + 1 -> j0 <= j1 + 1 -> 0 <= rgcw -> apart res_ [f0_; f1_] ->
    cd_apply_2d_poisson_v2_apply i0 i1 j0 j1 beta dx f0_ f1_ rgcw res_ m = Some m' ->
    (forall i j, i0 <= i <= i1 -> j0 <= j <= j1 ->
      gets m' (res!(i, j))%F m ($(- beta)%T * ((f0!(i + 1, j) - f0!(i, j)) / $(dx 0) + (f1!(j + 1, i) - f1!(j, i)) / $(dx 1)))%F) /\
    (forall p, fst p <> fst res_ -> load m' p = load m p).
  Proof.
    intros; match goal with H : _ = Some m' |- _ => rename H into E end; unfold cd_apply_2d_poisson_v2_apply in E; cbv zeta in E; k_apart; subst_lets.
    split.
    - intros i j Ii Ij. k_gets_at L E (pt2 dJ dI j i) (in_points2 dJ dI j0 j1 i0 i1 j i Ij Ii).
    - k_frame E.
  Qed.
End Values.
