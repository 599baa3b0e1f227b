(** * The stencil entries next to a boundary after the adjusting kernels (1D) *)

From Coq Require Import Permutation Field.
From Verif Require Import Base ModelBounds ModelMatrix ModelIters ModelSpan ModelProxy Spec SpecIter ModelSched
  LemBase LemDomain LemExpr LemExec SpecAssign LemAssign LemProps LemProps2 LemProps3 LemProps4 SpecWindow LemWindow LemWindow2
  FortranBase SpecKernel SpecEliminate Instances LemField LemKernel LemKernel2 LemBC LemHomog KernelNotations
  KernelsFlux KernelsApply KernelsStencil LemStencil LemRow LemEdge.
Import ListNotations.
Open Scope Z_scope.

Section Adjust.
  Context {S : Scalar}.

  Lemma adj_offdiag_1d_at i0 i1 pi0 pi1 side btype order dx d nf beta b0_ sgcw st_ i bv eu ev (m m' : mem S) :
    let st := mkFa st_ ((0, 2) :: CELL1d i0 i1 sgcw) in
    let b0 := mkFa b0_ (FACE1d i0 i1 0) in
    let u := col_out 0 side in
    let v := col_in 0 side in
    let h := dx 0 in
    let q := (lit 2 * h / (lit 4 * bv + h))%T in
    let f := (beta * bv / (h * (lit 3 * h + lit 16 * bv)))%T in
    i0 <= i <= i1 -> 0 <= sgcw -> apart st_ [b0_] -> 
    beside1 side pi0 i -> (side = 0 \/ side = 1) -> 
    cd_stencil_1d_adj_offdiag i0 i1 pi0 pi1 side btype order dx d nf beta b0_ sgcw st_ m = Some m' ->
    (b0!(i + side))%F m = Some bv ->
    (st!(u, i))%F m = Some eu -> (st!(v, i))%F m = Some ev ->
    (st!(u, i))%F m' = Some (fst (adj_pair btype order d q f eu ev)) /\
    (st!(v, i))%F m' = Some (snd (adj_pair btype order d q f eu ev)) /\
    (forall w, 0 <= w <= 2 -> w <> u -> w <> v -> (st!(w, i))%F m' = (st!(w, i))%F m) /\
    (forall p, fst p <> fst st_ -> load m' p = load m p).
  Proof.
    intros st b0 u v h q f Ii Hg Hap Hb Hs E Hbv Hu Hv. k_apart.
    unfold cd_stencil_1d_adj_offdiag in E. cbv zeta in E.
    change (1 + side) with u in E. change (2 - side) with v in E. change (dx 0) with h in E.
    assert (0 <= u <= 2) as Ru by (unfold u, col_out; unfold beside1 in Hb; lia).
    assert (0 <= v <= 2) as Rv by (unfold v, col_in; unfold beside1 in Hb; lia).
    assert (u <> v) as Nuv by (unfold u, v, col_out, col_in; unfold beside1 in Hb; lia).
    clearbody u v h.
    unfold beside1 in Hb. rename Hb into Ei.
    all: unfold adj_pair; subst_lets.
    - rewrite <- Ei in E.
      destruct (btype =? 4) eqn:B; [|destruct (btype =? 0); [|destruct (btype =? 1)]]; try k_noedge E;
        try (match type of E with context [order =? 1] => destruct (order =? 1); [|destruct (order =? 2)] end); try k_noedge E;
        k_edge E (pt1 dI i) (in_points1 dI i i i ltac:(lia)).
  Qed.

  Lemma adj_cf_diag_1d_at i0 i1 pi0 pi1 r side order dx beta b0_ sgcw st_ i bv e0 (m m' : mem S) :
    let st := mkFa st_ ((0, 2) :: CELL1d i0 i1 sgcw) in
    let b0 := mkFa b0_ (FACE1d i0 i1 0) in
    let f := (beta / (dx 0 * dx 0))%T in
    i0 <= i <= i1 -> 0 <= sgcw -> apart st_ [b0_] -> 
    beside1 side pi0 i -> (side = 0 \/ side = 1) -> 
    cd_stencil_1d_adj_cf_diag i0 i1 pi0 pi1 r side order dx beta b0_ sgcw st_ m = Some m' ->
    (b0!(i + side))%F m = Some bv ->
    (st!(0, i))%F m = Some e0 ->
    (st!(0, i))%F m' = Some (cf_part r order f bv e0) /\
    (forall w, 0 < w <= 2 -> (st!(w, i))%F m' = (st!(w, i))%F m) /\
    (forall p, fst p <> fst st_ -> load m' p = load m p).
  Proof.
    intros st b0 f Ii Hg Hap Hb Hs E Hbv H0. k_apart.
    unfold cd_stencil_1d_adj_cf_diag in E. cbv zeta in E.
    unfold beside1 in Hb. rename Hb into Ei.
    all: unfold cf_part; subst_lets.
    - rewrite <- Ei in E.
      destruct (order =? 1); [|destruct (order =? 2)]; try k_noedge E;
        k_edge0 E (pt1 dI i) (in_points1 dI i i i ltac:(lia)).
  Qed.

  Lemma adj_poisson_offdiag_1d_at i0 i1 pi0 pi1 side btype order dx d nf beta sgcw st_ i eu ev (m m' : mem S) :
    let st := mkFa st_ ((0, 2) :: CELL1d i0 i1 sgcw) in
    let u := col_out 0 side in
    let v := col_in 0 side in
    let h := dx 0 in
    let q := (lit 2 * h / (lit 4 + h))%T in
    let f := (beta / (h * (lit 3 * h + lit 16)))%T in
    i0 <= i <= i1 -> 0 <= sgcw -> 
    beside1 side pi0 i -> (side = 0 \/ side = 1) -> 
    cd_stencil_1d_adj_poisson_offdiag i0 i1 pi0 pi1 side btype order dx d nf beta sgcw st_ m = Some m' ->
    (st!(u, i))%F m = Some eu -> (st!(v, i))%F m = Some ev ->
    (st!(u, i))%F m' = Some (fst (adj_pair btype order d q f eu ev)) /\
    (st!(v, i))%F m' = Some (snd (adj_pair btype order d q f eu ev)) /\
    (forall w, 0 <= w <= 2 -> w <> u -> w <> v -> (st!(w, i))%F m' = (st!(w, i))%F m) /\
    (forall p, fst p <> fst st_ -> load m' p = load m p).
  Proof.
    intros st u v h q f Ii Hg Hb Hs E Hu Hv. k_apart.
    unfold cd_stencil_1d_adj_poisson_offdiag in E. cbv zeta in E.
    change (1 + side) with u in E. change (2 - side) with v in E. change (dx 0) with h in E.
    assert (0 <= u <= 2) as Ru by (unfold u, col_out; unfold beside1 in Hb; lia).
    assert (0 <= v <= 2) as Rv by (unfold v, col_in; unfold beside1 in Hb; lia).
    assert (u <> v) as Nuv by (unfold u, v, col_out, col_in; unfold beside1 in Hb; lia).
    clearbody u v h.
    unfold beside1 in Hb. rename Hb into Ei.
    all: unfold adj_pair; subst_lets.
    - rewrite <- Ei in E.
      destruct (btype =? 4) eqn:B; [|destruct (btype =? 0); [|destruct (btype =? 1)]]; try k_noedge E;
        try (match type of E with context [order =? 1] => destruct (order =? 1); [|destruct (order =? 2)] end); try k_noedge E;
        k_edge E (pt1 dI i) (in_points1 dI i i i ltac:(lia)).
  Qed.

  Lemma adj_poisson_cf_diag_1d_at i0 i1 pi0 pi1 r side order dx beta sgcw st_ i e0 (m m' : mem S) :
    let st := mkFa st_ ((0, 2) :: CELL1d i0 i1 sgcw) in
    let f := (beta / (dx 0 * dx 0))%T in
    i0 <= i <= i1 -> 0 <= sgcw -> 
    beside1 side pi0 i -> (side = 0 \/ side = 1) -> 
    cd_stencil_1d_adj_poisson_cf_diag i0 i1 pi0 pi1 r side order dx beta sgcw st_ m = Some m' ->
    (st!(0, i))%F m = Some e0 ->
    (st!(0, i))%F m' = Some (cf_ppart r order f e0) /\
    (forall w, 0 < w <= 2 -> (st!(w, i))%F m' = (st!(w, i))%F m) /\
    (forall p, fst p <> fst st_ -> load m' p = load m p).
  Proof.
    intros st f Ii Hg Hb Hs E H0. k_apart.
    unfold cd_stencil_1d_adj_poisson_cf_diag in E. cbv zeta in E.
    unfold beside1 in Hb. rename Hb into Ei.
    all: unfold cf_ppart; subst_lets.
    - rewrite <- Ei in E.
      destruct (order =? 1); [|destruct (order =? 2)]; try k_noedge E;
        k_edge0 E (pt1 dI i) (in_points1 dI i i i ltac:(lia)).
  Qed.

  Lemma adj_cf_offdiag_1d_at i0 i1 pi0 pi1 r side order sgcw st_ i eu ev (m m' : mem S) :
    let st := mkFa st_ ((0, 2) :: CELL1d i0 i1 sgcw) in
    let u := col_out 0 side in
    let v := col_in 0 side in
    i0 <= i <= i1 -> 0 <= sgcw -> 
    beside1 side pi0 i -> (side = 0 \/ side = 1) -> 
    cd_stencil_1d_adj_cf_offdiag i0 i1 pi0 pi1 r side order sgcw st_ m = Some m' ->
    (st!(u, i))%F m = Some eu -> (st!(v, i))%F m = Some ev ->
    (st!(u, i))%F m' = Some (fst (cf_pair r order eu ev)) /\
    (st!(v, i))%F m' = Some (snd (cf_pair r order eu ev)) /\
    (forall w, 0 <= w <= 2 -> w <> u -> w <> v -> (st!(w, i))%F m' = (st!(w, i))%F m) /\
    (forall p, fst p <> fst st_ -> load m' p = load m p).
  Proof.
    intros st u v Ii Hg Hb Hs E Hu Hv.
    unfold cd_stencil_1d_adj_cf_offdiag in E. cbv zeta in E.
    change (1 + side) with u in E. change (2 - side) with v in E.
    assert (0 <= u <= 2) as Ru by (unfold u, col_out; unfold beside1 in Hb; lia).
    assert (0 <= v <= 2) as Rv by (unfold v, col_in; unfold beside1 in Hb; lia).
    assert (u <> v) as Nuv by (unfold u, v, col_out, col_in; unfold beside1 in Hb; lia).
    clearbody u v.
    unfold beside1 in Hb. rename Hb into Ei.
    all: unfold cf_pair; subst_lets.
    - rewrite <- Ei in E.
      destruct (order =? 1); [|destruct (order =? 2)]; try k_noedge E;
        k_edge E (pt1 dI i) (in_points1 dI i i i ltac:(lia)).
  Qed.

  Lemma readj_offdiag_1d_at i0 i1 pi0 pi1 side sgcw st_ i (m m' : mem S) :
    let st := mkFa st_ ((0, 2) :: CELL1d i0 i1 sgcw) in
    let u := col_out 0 side in
    i0 <= i <= i1 -> 0 <= sgcw -> 
    beside1 side pi0 i -> (side = 0 \/ side = 1) -> 
    cd_stencil_1d_readj_offdiag i0 i1 pi0 pi1 side sgcw st_ m = Some m' ->
    (st!(u, i))%F m' = Some (lit 0) /\
    (forall w, 0 <= w <= 2 -> w <> u -> (st!(w, i))%F m' = (st!(w, i))%F m) /\
    (forall p, fst p <> fst st_ -> load m' p = load m p).
  Proof.
    intros st u Ii Hg Hb Hs E.
    unfold cd_stencil_1d_readj_offdiag in E. cbv zeta in E.
    change (1 + side) with u in E.
    assert (0 <= u <= 2) as Ru by (unfold u, col_out; unfold beside1 in Hb; lia).
    clearbody u.
    unfold beside1 in Hb. rename Hb into Ei.
    all: subst_lets.
    - rewrite <- Ei in E.
      k_edge0 E (pt1 dI i) (in_points1 dI i i i ltac:(lia)).
  Qed.
End Adjust.
