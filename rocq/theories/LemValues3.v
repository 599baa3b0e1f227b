(** * Values the kernels leave, in 3D *)

From Coq Require Import Permutation Field.
From Verif Require Import Base ModelBounds ModelMatrix ModelIters ModelSpan ModelProxy Spec SpecIter ModelSched
  LemBase LemDomain LemExpr LemExec SpecAssign LemAssign LemProps LemProps4 SpecWindow LemWindow LemWindow2
  FortranBase SpecKernel Instances LemField LemKernel LemKernel2 LemBC LemHomog KernelNotations
  KernelsFlux KernelsApply KernelsStencil LemStencil LemRow.
Import ListNotations.
Open Scope Z_scope.

Section Values.
  Context {S : Scalar} (L : field_laws S).
  Add Field SF : (s_field S L) (morphism (lit_morph S L), constants [lit_cst]).

  Lemma flux_3d_at i0 j0 k0 i1 j1 k1 dx b0 b1 b2 gcw u_ f0 f1 f2 (m m' : mem S) :
    let u := mkFa u_ (CELL3d i0 j0 k0 i1 j1 k1 gcw) in
    i0 <= i1 + 1 -> j0 <= j1 + 1 -> k0 <= k1 + 1 -> 0 <= gcw -> apart f0 [f1; f2; u_; b0; b1; b2] -> apart f1 [f2; u_; b0; b1; b2] -> apart f2 [u_; b0; b1; b2] ->
    cdf_3d_flux i0 j0 k0 i1 j1 k1 dx b0 b1 b2 gcw u_ f0 f1 f2 m = Some m' ->
    (forall i j k, i0 <= i <= i1 + 1 -> j0 <= j <= j1 -> k0 <= k <= k1 ->
       gets m' ((mkFa f0 (FACE3d0 i0 j0 k0 i1 j1 k1 0))!(i, j, k))%F m ((mkFa b0 (FACE3d0 i0 j0 k0 i1 j1 k1 0))!(i, j, k) * ((u!(i, j, k) - u!(i - 1, j, k)) / $(dx 0)))%F) /\
    (forall i j k, i0 <= i <= i1 -> j0 <= j <= j1 + 1 -> k0 <= k <= k1 ->
       gets m' ((mkFa f1 (FACE3d1 i0 j0 k0 i1 j1 k1 0))!(j, k, i))%F m ((mkFa b1 (FACE3d1 i0 j0 k0 i1 j1 k1 0))!(j, k, i) * ((u!(i, j, k) - u!(i, j - 1, k)) / $(dx 1)))%F) /\
    (forall i j k, i0 <= i <= i1 -> j0 <= j <= j1 -> k0 <= k <= k1 + 1 ->
       gets m' ((mkFa f2 (FACE3d2 i0 j0 k0 i1 j1 k1 0))!(k, i, j))%F m ((mkFa b2 (FACE3d2 i0 j0 k0 i1 j1 k1 0))!(k, i, j) * ((u!(i, j, k) - u!(i, j, k - 1)) / $(dx 2)))%F) /\
    (forall p, fst p <> fst f0 -> fst p <> fst f1 -> fst p <> fst f2 -> load m' p = load m p).
  Proof.
    intros u Bi Bj Bk Hg A0 A1 A2 E. subst u. unfold cdf_3d_flux in E. cbv zeta in E.
    rewrite ?with_lhs_with_domain in E. cbn [lhs_of] in E. k_apart.
    apply bind_Some_inv in E as (m1 & E0 & E). rewrite ?with_lhs_with_domain in E. cbn [lhs_of] in E.
    apply bind_Some_inv in E as (m2 & E1 & E). rewrite ?with_lhs_with_domain in E. cbn [lhs_of] in E.
    rename E into E2.
    assert (Fr0 : forall p, fst p <> fst f0 -> load m1 p = load m p) by (k_frame E0).
    assert (Fr1 : forall p, fst p <> fst f1 -> load m2 p = load m1 p) by (k_frame E1).
    assert (Fr2 : forall p, fst p <> fst f2 -> load m' p = load m2 p) by (k_frame E2).
    repeat split.
    - intros i j k Ii Ij Ik. apply (gets_moved m m m1 m'); [k_moves; reflexivity|k_moves; reflexivity|].
      k_gets_at L E0 (pt3 dK dJ dI k j i) (in_points3 dK dJ dI k0 k1 j0 j1 i0 (i1 + 1) k j i Ik Ij Ii).
    - intros i j k Ii Ij Ik. apply (gets_moved m m1 m2 m'); [k_moves; reflexivity|k_moves; reflexivity|].
      k_gets_at L E1 (pt3 dI dK dJ i k j) (in_points3 dI dK dJ i0 i1 k0 k1 j0 (j1 + 1) i k j Ii Ik Ij).
    - intros i j k Ii Ij Ik. apply (gets_moved m m2 m' m'); [k_moves; reflexivity|k_moves; reflexivity|].
      k_gets_at L E2 (pt3 dJ dI dK j i k) (in_points3 dJ dI dK j0 j1 i0 i1 k0 (k1 + 1) j i k Ij Ii Ik).
    - intros p H0 H1 H2. rewrite Fr2 by assumption. rewrite Fr1 by assumption. rewrite Fr0 by assumption. reflexivity.
  Qed.

  Lemma poisson_flux_3d_at i0 j0 k0 i1 j1 k1 dx gcw u_ f0 f1 f2 (m m' : mem S) :
    let u := mkFa u_ (CELL3d i0 j0 k0 i1 j1 k1 gcw) in
    i0 <= i1 + 1 -> j0 <= j1 + 1 -> k0 <= k1 + 1 -> 0 <= gcw -> apart f0 [f1; f2; u_] -> apart f1 [f2; u_] -> apart f2 [u_] ->
    cdf_3d_poisson_flux i0 j0 k0 i1 j1 k1 dx gcw u_ f0 f1 f2 m = Some m' ->
    (forall i j k, i0 <= i <= i1 + 1 -> j0 <= j <= j1 -> k0 <= k <= k1 ->
       gets m' ((mkFa f0 (FACE3d0 i0 j0 k0 i1 j1 k1 0))!(i, j, k))%F m (((u!(i, j, k) - u!(i - 1, j, k)) / $(dx 0)))%F) /\
    (forall i j k, i0 <= i <= i1 -> j0 <= j <= j1 + 1 -> k0 <= k <= k1 ->
       gets m' ((mkFa f1 (FACE3d1 i0 j0 k0 i1 j1 k1 0))!(j, k, i))%F m (((u!(i, j, k) - u!(i, j - 1, k)) / $(dx 1)))%F) /\
    (forall i j k, i0 <= i <= i1 -> j0 <= j <= j1 -> k0 <= k <= k1 + 1 ->
       gets m' ((mkFa f2 (FACE3d2 i0 j0 k0 i1 j1 k1 0))!(k, i, j))%F m (((u!(i, j, k) - u!(i, j, k - 1)) / $(dx 2)))%F) /\
    (forall p, fst p <> fst f0 -> fst p <> fst f1 -> fst p <> fst f2 -> load m' p = load m p).
  Proof.
    intros u Bi Bj Bk Hg A0 A1 A2 E. subst u. unfold cdf_3d_poisson_flux in E. cbv zeta in E.
    rewrite ?with_lhs_with_domain in E. cbn [lhs_of] in E. k_apart.
    apply bind_Some_inv in E as (m1 & E0 & E). rewrite ?with_lhs_with_domain in E. cbn [lhs_of] in E.
    apply bind_Some_inv in E as (m2 & E1 & E). rewrite ?with_lhs_with_domain in E. cbn [lhs_of] in E.
    rename E into E2.
    assert (Fr0 : forall p, fst p <> fst f0 -> load m1 p = load m p) by (k_frame E0).
    assert (Fr1 : forall p, fst p <> fst f1 -> load m2 p = load m1 p) by (k_frame E1).
    assert (Fr2 : forall p, fst p <> fst f2 -> load m' p = load m2 p) by (k_frame E2).
    repeat split.
    - intros i j k Ii Ij Ik. apply (gets_moved m m m1 m'); [k_moves; reflexivity|k_moves; reflexivity|].
      k_gets_at L E0 (pt3 dK dJ dI k j i) (in_points3 dK dJ dI k0 k1 j0 j1 i0 (i1 + 1) k j i Ik Ij Ii).
    - intros i j k Ii Ij Ik. apply (gets_moved m m1 m2 m'); [k_moves; reflexivity|k_moves; reflexivity|].
      k_gets_at L E1 (pt3 dI dK dJ i k j) (in_points3 dI dK dJ i0 i1 k0 k1 j0 (j1 + 1) i k j Ii Ik Ij).
    - intros i j k Ii Ij Ik. apply (gets_moved m m2 m' m'); [k_moves; reflexivity|k_moves; reflexivity|].
      k_gets_at L E2 (pt3 dJ dI dK j i k) (in_points3 dJ dI dK j0 j1 i0 i1 k0 (k1 + 1) j i k Ij Ii Ik).
    - intros p H0 H1 H2. rewrite Fr2 by assumption. rewrite Fr1 by assumption. rewrite Fr0 by assumption. reflexivity.
  Qed.

  Lemma offdiag_3d_at i0 j0 k0 i1 j1 k1 bi0 bj0 bk0 bi1 bj1 bk1 dx beta b0_ b1_ b2_ sgcw st_ (m m' : mem S) :
    let st := mkFa st_ ((0, 6) :: CELL3d i0 j0 k0 i1 j1 k1 sgcw) in
    let b0 := mkFa b0_ (FACE3d0 bi0 bj0 bk0 bi1 bj1 bk1 0) in
    let b1 := mkFa b1_ (FACE3d1 bi0 bj0 bk0 bi1 bj1 bk1 0) in
    let b2 := mkFa b2_ (FACE3d2 bi0 bj0 bk0 bi1 bj1 bk1 0) in
    let c0 := (- beta / (dx 0 * dx 0))%T in
    let c1 := (- beta / (dx 1 * dx 1))%T in
    let c2 := (- beta / (dx 2 * dx 2))%T in
    i0 <= i1 + 1 -> j0 <= j1 + 1 -> k0 <= k1 + 1 -> 0 <= sgcw -> apart st_ [b0_; b1_; b2_] -> 
    cd_stencil_3d_offdiag i0 j0 k0 i1 j1 k1 bi0 bj0 bk0 bi1 bj1 bk1 dx beta b0_ b1_ b2_ sgcw st_ m = Some m' ->
    (forall i j k, i0 <= i <= i1 -> j0 <= j <= j1 -> k0 <= k <= k1 ->
      gets m' (st!(1, i, j, k))%F m ($c0 * b0!(i, j, k))%F /\
      gets m' (st!(2, i, j, k))%F m ($c0 * b0!(i + 1, j, k))%F /\
      gets m' (st!(3, i, j, k))%F m ($c1 * b1!(j, k, i))%F /\
      gets m' (st!(4, i, j, k))%F m ($c1 * b1!(j + 1, k, i))%F /\
      gets m' (st!(5, i, j, k))%F m ($c2 * b2!(k, i, j))%F /\
      gets m' (st!(6, i, j, k))%F m ($c2 * b2!(k + 1, i, j))%F) /\
    (forall p, fst p <> fst st_ -> load m' p = load m p).
  Proof.
    intros; match goal with H : _ = Some m' |- _ => rename H into E end; unfold cd_stencil_3d_offdiag in E; cbv zeta in E; k_apart; subst_lets.
    split.
    - intros i j k Ii Ij Ik. k_wat E (pt3 dK dJ dI k j i) (in_points3 dK dJ dI k0 k1 j0 j1 i0 i1 k j i Ik Ij Ii) f Ef Hf. k_run Ef. k_entries Hf.
    - k_wframe E.
  Qed.

  Lemma poisson_offdiag_3d_at i0 j0 k0 i1 j1 k1 dx beta sgcw st_ (m m' : mem S) :
    let st := mkFa st_ ((0, 6) :: CELL3d i0 j0 k0 i1 j1 k1 sgcw) in
    let c0 := (- beta / (dx 0 * dx 0))%T in
    let c1 := (- beta / (dx 1 * dx 1))%T in
    let c2 := (- beta / (dx 2 * dx 2))%T in
    i0 <= i1 + 1 -> j0 <= j1 + 1 -> k0 <= k1 + 1 -> 0 <= sgcw -> 
    cd_stencil_3d_poisson_offdiag i0 j0 k0 i1 j1 k1 dx beta sgcw st_ m = Some m' ->
    (forall i j k, i0 <= i <= i1 -> j0 <= j <= j1 -> k0 <= k <= k1 ->
      gets m' (st!(1, i, j, k))%F m ($c0)%F /\
      gets m' (st!(2, i, j, k))%F m ($c0)%F /\
      gets m' (st!(3, i, j, k))%F m ($c1)%F /\
      gets m' (st!(4, i, j, k))%F m ($c1)%F /\
      gets m' (st!(5, i, j, k))%F m ($c2)%F /\
      gets m' (st!(6, i, j, k))%F m ($c2)%F) /\
    (forall p, fst p <> fst st_ -> load m' p = load m p).
  Proof.
    intros; match goal with H : _ = Some m' |- _ => rename H into E end; unfold cd_stencil_3d_poisson_offdiag in E; cbv zeta in E; k_apart; subst_lets.
    split.
    - intros i j k Ii Ij Ik. k_wat E (pt3 dK dJ dI k j i) (in_points3 dK dJ dI k0 k1 j0 j1 i0 i1 k j i Ik Ij Ii) f Ef Hf. k_run Ef. k_entries Hf.
    - k_wframe E.
  Qed.

  Lemma v1diag_3d_at i0 j0 k0 i1 j1 k1 ai0 aj0 ak0 ai1 aj1 ak1 alpha a_ sgcw st_ (m m' : mem S) :
    let st := mkFa st_ ((0, 6) :: CELL3d i0 j0 k0 i1 j1 k1 sgcw) in
    let a := mkFa a_ (CELL3d ai0 aj0 ak0 ai1 aj1 ak1 0) in
    i0 <= i1 + 1 -> j0 <= j1 + 1 -> k0 <= k1 + 1 -> 0 <= sgcw -> apart st_ [a_] -> 
    cd_stencil_3d_v1diag i0 j0 k0 i1 j1 k1 ai0 aj0 ak0 ai1 aj1 ak1 alpha a_ sgcw st_ m = Some m' ->
    (forall i j k, i0 <= i <= i1 -> j0 <= j <= j1 -> k0 <= k <= k1 ->
      gets m' (st!(0, i, j, k))%F m (- (st!(1, i, j, k) + st!(2, i, j, k) + st!(3, i, j, k) + st!(4, i, j, k) + st!(5, i, j, k) + st!(6, i, j, k)) + $alpha * a!(i, j, k))%F /\
      (st!(1, i, j, k))%F m' = (st!(1, i, j, k))%F m /\
      (st!(2, i, j, k))%F m' = (st!(2, i, j, k))%F m /\
      (st!(3, i, j, k))%F m' = (st!(3, i, j, k))%F m /\
      (st!(4, i, j, k))%F m' = (st!(4, i, j, k))%F m /\
      (st!(5, i, j, k))%F m' = (st!(5, i, j, k))%F m /\
      (st!(6, i, j, k))%F m' = (st!(6, i, j, k))%F m) /\
    (forall p, fst p <> fst st_ -> load m' p = load m p).
  Proof.
    intros; match goal with H : _ = Some m' |- _ => rename H into E end; unfold cd_stencil_3d_v1diag in E; cbv zeta in E; k_apart; subst_lets.
    split.
    - intros i j k Ii Ij Ik. repeat split.
      + k_wat E (pt3 dK dJ dI k j i) (in_points3 dK dJ dI k0 k1 j0 j1 i0 i1 k j i Ik Ij Ii) f Ef Hf. k_run Ef. k_entries Hf. f_equal. ring.
      + k_wother E (pt3 dK dJ dI k j i) (in_points3 dK dJ dI k0 k1 j0 j1 i0 i1 k j i Ik Ij Ii) 1.
      + k_wother E (pt3 dK dJ dI k j i) (in_points3 dK dJ dI k0 k1 j0 j1 i0 i1 k j i Ik Ij Ii) 2.
      + k_wother E (pt3 dK dJ dI k j i) (in_points3 dK dJ dI k0 k1 j0 j1 i0 i1 k j i Ik Ij Ii) 3.
      + k_wother E (pt3 dK dJ dI k j i) (in_points3 dK dJ dI k0 k1 j0 j1 i0 i1 k j i Ik Ij Ii) 4.
      + k_wother E (pt3 dK dJ dI k j i) (in_points3 dK dJ dI k0 k1 j0 j1 i0 i1 k j i Ik Ij Ii) 5.
      + k_wother E (pt3 dK dJ dI k j i) (in_points3 dK dJ dI k0 k1 j0 j1 i0 i1 k j i Ik Ij Ii) 6.
    - k_wframe E.
  Qed.

  Lemma v2diag_3d_at i0 j0 k0 i1 j1 k1 alpha sgcw st_ (m m' : mem S) :
    let st := mkFa st_ ((0, 6) :: CELL3d i0 j0 k0 i1 j1 k1 sgcw) in
    i0 <= i1 + 1 -> j0 <= j1 + 1 -> k0 <= k1 + 1 -> 0 <= sgcw -> 
    cd_stencil_3d_v2diag i0 j0 k0 i1 j1 k1 alpha sgcw st_ m = Some m' ->
    (forall i j k, i0 <= i <= i1 -> j0 <= j <= j1 -> k0 <= k <= k1 ->
      gets m' (st!(0, i, j, k))%F m (- (st!(1, i, j, k) + st!(2, i, j, k) + st!(3, i, j, k) + st!(4, i, j, k) + st!(5, i, j, k) + st!(6, i, j, k)) + $alpha)%F /\
      (st!(1, i, j, k))%F m' = (st!(1, i, j, k))%F m /\
      (st!(2, i, j, k))%F m' = (st!(2, i, j, k))%F m /\
      (st!(3, i, j, k))%F m' = (st!(3, i, j, k))%F m /\
      (st!(4, i, j, k))%F m' = (st!(4, i, j, k))%F m /\
      (st!(5, i, j, k))%F m' = (st!(5, i, j, k))%F m /\
      (st!(6, i, j, k))%F m' = (st!(6, i, j, k))%F m) /\
    (forall p, fst p <> fst st_ -> load m' p = load m p).
  Proof.
    intros; match goal with H : _ = Some m' |- _ => rename H into E end; unfold cd_stencil_3d_v2diag in E; cbv zeta in E; k_apart; subst_lets.
    split.
    - intros i j k Ii Ij Ik. repeat split.
      + k_wat E (pt3 dK dJ dI k j i) (in_points3 dK dJ dI k0 k1 j0 j1 i0 i1 k j i Ik Ij Ii) f Ef Hf. k_run Ef. k_entries Hf. f_equal. ring.
      + k_wother E (pt3 dK dJ dI k j i) (in_points3 dK dJ dI k0 k1 j0 j1 i0 i1 k j i Ik Ij Ii) 1.
      + k_wother E (pt3 dK dJ dI k j i) (in_points3 dK dJ dI k0 k1 j0 j1 i0 i1 k j i Ik Ij Ii) 2.
      + k_wother E (pt3 dK dJ dI k j i) (in_points3 dK dJ dI k0 k1 j0 j1 i0 i1 k j i Ik Ij Ii) 3.
      + k_wother E (pt3 dK dJ dI k j i) (in_points3 dK dJ dI k0 k1 j0 j1 i0 i1 k j i Ik Ij Ii) 4.
      + k_wother E (pt3 dK dJ dI k j i) (in_points3 dK dJ dI k0 k1 j0 j1 i0 i1 k j i Ik Ij Ii) 5.
      + k_wother E (pt3 dK dJ dI k j i) (in_points3 dK dJ dI k0 k1 j0 j1 i0 i1 k j i Ik Ij Ii) 6.
    - k_wframe E.
  Qed.

  Lemma poisson_diag_3d_at i0 j0 k0 i1 j1 k1 sgcw st_ (m m' : mem S) :
    let st := mkFa st_ ((0, 6) :: CELL3d i0 j0 k0 i1 j1 k1 sgcw) in
    i0 <= i1 + 1 -> j0 <= j1 + 1 -> k0 <= k1 + 1 -> 0 <= sgcw -> 
    cd_stencil_3d_poisson_diag i0 j0 k0 i1 j1 k1 sgcw st_ m = Some m' ->
    (forall i j k, i0 <= i <= i1 -> j0 <= j <= j1 -> k0 <= k <= k1 ->
      gets m' (st!(0, i, j, k))%F m (- (st!(1, i, j, k) + st!(2, i, j, k) + st!(3, i, j, k) + st!(4, i, j, k) + st!(5, i, j, k) + st!(6, i, j, k)))%F /\
      (st!(1, i, j, k))%F m' = (st!(1, i, j, k))%F m /\
      (st!(2, i, j, k))%F m' = (st!(2, i, j, k))%F m /\
      (st!(3, i, j, k))%F m' = (st!(3, i, j, k))%F m /\
      (st!(4, i, j, k))%F m' = (st!(4, i, j, k))%F m /\
      (st!(5, i, j, k))%F m' = (st!(5, i, j, k))%F m /\
      (st!(6, i, j, k))%F m' = (st!(6, i, j, k))%F m) /\
    (forall p, fst p <> fst st_ -> load m' p = load m p).
  Proof.
    intros; match goal with H : _ = Some m' |- _ => rename H into E end; unfold cd_stencil_3d_poisson_diag in E; cbv zeta in E; k_apart; subst_lets.
    split.
    - intros i j k Ii Ij Ik. repeat split.
      + k_wat E (pt3 dK dJ dI k j i) (in_points3 dK dJ dI k0 k1 j0 j1 i0 i1 k j i Ik Ij Ii) f Ef Hf. k_run Ef. k_entries Hf. f_equal. ring.
      + k_wother E (pt3 dK dJ dI k j i) (in_points3 dK dJ dI k0 k1 j0 j1 i0 i1 k j i Ik Ij Ii) 1.
      + k_wother E (pt3 dK dJ dI k j i) (in_points3 dK dJ dI k0 k1 j0 j1 i0 i1 k j i Ik Ij Ii) 2.
      + k_wother E (pt3 dK dJ dI k j i) (in_points3 dK dJ dI k0 k1 j0 j1 i0 i1 k j i Ik Ij Ii) 3.
      + k_wother E (pt3 dK dJ dI k j i) (in_points3 dK dJ dI k0 k1 j0 j1 i0 i1 k j i Ik Ij Ii) 4.
      + k_wother E (pt3 dK dJ dI k j i) (in_points3 dK dJ dI k0 k1 j0 j1 i0 i1 k j i Ik Ij Ii) 5.
      + k_wother E (pt3 dK dJ dI k j i) (in_points3 dK dJ dI k0 k1 j0 j1 i0 i1 k j i Ik Ij Ii) 6.
    - k_wframe E.
  Qed.

  Lemma diffusion_v1_apply_3d_at i0 i1 j0 j1 k0 k1 alpha beta dx agcw a_ ugcw u_ f0_ f1_ f2_ rgcw res_ (m m' : mem S) :
    let res := mkFa res_ (CELL3d i0 j0 k0 i1 j1 k1 rgcw) in
    let u := mkFa u_ (CELL3d i0 j0 k0 i1 j1 k1 ugcw) in
    let a := mkFa a_ (CELL3d i0 j0 k0 i1 j1 k1 agcw) in
    let f0 := mkFa f0_ (FACE3d0 i0 j0 k0 i1 j1 k1 0) in
    let f1 := mkFa f1_ (FACE3d1 i0 j0 k0 i1 j1 k1 0) in
    let f2 := mkFa f2_ (FACE3d2 i0 j0 k0 i1 j1 k1 0) in
    i0 <= i1 + 1 -> j0 <= j1 + 1 -> k0 <= k1 + 1 -> 0 <= rgcw -> apart res_ [f0_; f1_; f2_; u_; a_] ->
    cd_apply_3d_diffusion_v1_apply i0 i1 j0 j1 k0 k1 alpha beta dx agcw a_ ugcw u_ f0_ f1_ f2_ rgcw res_ m = Some m' ->
    (forall i j k, i0 <= i <= i1 -> j0 <= j <= j1 -> k0 <= k <= k1 ->
      gets m' (res!(i, j, k))%F m ($(- beta)%T * ((f0!(i + 1, j, k) - f0!(i, j, k)) / $(dx 0) + (f1!(j + 1, k, i) - f1!(j, k, i)) / $(dx 1) + (f2!(k + 1, i, j) - f2!(k, i, j)) / $(dx 2)) + $alpha * a!(i, j, k) * u!(i, j, k))%F) /\
    (forall p, fst p <> fst res_ -> load m' p = load m p).
  Proof.
    intros; match goal with H : _ = Some m' |- _ => rename H into E end; unfold cd_apply_3d_diffusion_v1_apply in E; cbv zeta in E; k_apart; subst_lets.
    split.
    - intros i j k Ii Ij Ik. k_gets_at L E (pt3 dK dJ dI k j i) (in_points3 dK dJ dI k0 k1 j0 j1 i0 i1 k j i Ik Ij Ii).
    - k_frame E.
  Qed.

  Lemma diffusion_v2_apply_3d_at i0 i1 j0 j1 k0 k1 alpha beta dx ugcw u_ f0_ f1_ f2_ rgcw res_ (m m' : mem S) :
    let res := mkFa res_ (CELL3d i0 j0 k0 i1 j1 k1 rgcw) in
    let u := mkFa u_ (CELL3d i0 j0 k0 i1 j1 k1 ugcw) in
    let f0 := mkFa f0_ (FACE3d0 i0 j0 k0 i1 j1 k1 0) in
    let f1 := mkFa f1_ (FACE3d1 i0 j0 k0 i1 j1 k1 0) in
    let f2 := mkFa f2_ (FACE3d2 i0 j0 k0 i1 j1 k1 0) in
    i0 <= i1 + 1 -> j0 <= j1 + 1 -> k0 <= k1 + 1 -> 0 <= rgcw -> apart res_ [f0_; f1_; f2_; u_] ->
    cd_apply_3d_diffusion_v2_apply i0 i1 j0 j1 k0 k1 alpha beta dx ugcw u_ f0_ f1_ f2_ rgcw res_ m = Some m' ->
    (forall i j k, i0 <= i <= i1 -> j0 <= j <= j1 -> k0 <= k <= k1 ->
      gets m' (res!(i, j, k))%F m ($(- beta)%T * ((f0!(i + 1, j, k) - f0!(i, j, k)) / $(dx 0) + (f1!(j + 1, k, i) - f1!(j, k, i)) / $(dx 1) + (f2!(k + 1, i, j) - f2!(k, i, j)) / $(dx 2)) + $alpha * u!(i, j, k))%F) /\
    (forall p, fst p <> fst res_ -> load m' p = load m p).
  Proof.
    intros; match goal with H : _ = Some m' |- _ => rename H into E end; unfold cd_apply_3d_diffusion_v2_apply in E; cbv zeta in E; k_apart; subst_lets.
    split.
    - intros i j k Ii Ij Ik. k_gets_at L E (pt3 dK dJ dI k j i) (in_points3 dK dJ dI k0 k1 j0 j1 i0 i1 k j i Ik Ij Ii).
    - k_frame E.
  Qed.

  Lemma poisson_v2_apply_3d_at i0 i1 j0 j1 k0 k1 beta dx f0_ f1_ f2_ rgcw res_ (m m' : mem S) :
    let res := mkFa res_ (CELL3d i0 j0 k0 i1 j1 k1 rgcw) in
    let f0 := mkFa f0_ (FACE3d0 i0 j0 k0 i1 j1 k1 0) in
    let f1 := mkFa f1_ (FACE3d1 i0 j0 k0 i1 j1 k1 0) in
    let f2 := mkFa f2_ (FACE3d2 i0 j0 k0 i1 j1 k1 0) in
    i0 <= i1 + 1 -> j0 <= j1 + 1 -> k0 <= k1 + 1 -> 0 <= rgcw -> apart res_ [f0_; f1_; f2_] ->
    cd_apply_3d_poisson_v2_apply i0 i1 j0 j1 k0 k1 beta dx f0_ f1_ f2_ rgcw res_ m = Some m' ->
    (forall i j k, i0 <= i <= i1 -> j0 <= j <= j1 -> k0 <= k <= k1 ->
      gets m' (res!(i, j, k))%F m ($(- beta)%T * ((f0!(i + 1, j, k) - f0!(i, j, k)) / $(dx 0) + (f1!(j + 1, k, i) - f1!(j, k, i)) / $(dx 1) + (f2!(k + 1, i, j) - f2!(k, i, j)) / $(dx 2)))%F) /\
    (forall p, fst p <> fst res_ -> load m' p = load m p).
  Proof.
    intros; match goal with H : _ = Some m' |- _ => rename H into E end; unfold cd_apply_3d_poisson_v2_apply in E; cbv zeta in E; k_apart; subst_lets.
    split.
    - intros i j k Ii Ij Ik. k_gets_at L E (pt3 dK dJ dI k j i) (in_points3 dK dJ dI k0 k1 j0 j1 i0 i1 k j i Ik Ij Ii).
    - k_frame E.
  Qed.
End Values.
