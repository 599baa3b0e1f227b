(** * The stencil entries next to a boundary after the adjusting kernels (2D) *)

From Coq Require Import Permutation Field.
From Verif Require Import Base ModelBounds ModelMatrix ModelIters ModelSpan ModelProxy Spec SpecIter ModelSched
  LemBase LemDomain LemExpr LemExec SpecAssign LemAssign LemProps LemProps2 LemProps3 LemProps4 SpecWindow LemWindow LemWindow2
  FortranBase SpecKernel SpecEliminate Instances LemField LemKernel LemKernel2 LemBC LemHomog KernelNotations
  KernelsFlux KernelsApply KernelsStencil LemStencil LemRow LemEdge.
Import ListNotations.
Open Scope Z_scope.

Section Adjust.
  Context {S : Scalar}.

  Lemma adj_offdiag_2d_at i0 j0 i1 j1 pi0 pj0 pi1 pj1 dir side btype order dx d nf beta b0_ b1_ sgcw st_ i j bv eu ev (m m' : mem S) :
    let st := mkFa st_ ((0, 4) :: CELL2d i0 j0 i1 j1 sgcw) in
    let b0 := mkFa b0_ (FACE2d0 i0 j0 i1 j1 0) in
    let b1 := mkFa b1_ (FACE2d1 i0 j0 i1 j1 0) in
    let u := col_out dir side in
    let v := col_in dir side in
    let h := dx dir in
    let q := (lit 2 * h / (lit 4 * bv + h))%T in
    let f := (beta * bv / (h * (lit 3 * h + lit 16 * bv)))%T in
    i0 <= i <= i1 -> j0 <= j <= j1 -> 0 <= sgcw -> apart st_ [b0_; b1_] -> 
    beside2 dir side pi0 pj0 pi1 pj1 i j -> (side = 0 \/ side = 1) -> (dir = 0 -> j0 <= pj0 /\ pj1 <= j1) -> (dir = 1 -> i0 <= pi0 /\ pi1 <= i1) -> (btype = 4 -> dir = 0) -> 
    cd_stencil_2d_adj_offdiag i0 j0 i1 j1 pi0 pj0 pi1 pj1 dir side btype order dx d nf beta b0_ b1_ sgcw st_ m = Some m' ->
    (if dir =? 0 then (b0!(i + side, j))%F else (b1!(j + side, i))%F) m = Some bv ->
    (st!(u, i, j))%F m = Some eu -> (st!(v, i, j))%F m = Some ev ->
    (st!(u, i, j))%F m' = Some (fst (adj_pair btype order d q f eu ev)) /\
    (st!(v, i, j))%F m' = Some (snd (adj_pair btype order d q f eu ev)) /\
    (forall w, 0 <= w <= 4 -> w <> u -> w <> v -> (st!(w, i, j))%F m' = (st!(w, i, j))%F m) /\
    (forall p, fst p <> fst st_ -> load m' p = load m p).
  Proof.
    intros st b0 b1 u v h q f Ii Ij Hg Hap Hb Hs Hd0 Hd1 H4 E Hbv Hu Hv. k_apart.
    unfold cd_stencil_2d_adj_offdiag in E. cbv zeta in E.
    change (2 * dir + 1 + side) with u in E. change (2 * dir + 2 - side) with v in E. change (dx dir) with h in E.
    assert (0 <= u <= 4) as Ru by (unfold u, col_out; unfold beside2 in Hb; lia).
    assert (0 <= v <= 4) as Rv by (unfold v, col_in; unfold beside2 in Hb; lia).
    assert (u <> v) as Nuv by (unfold u, v, col_out, col_in; unfold beside2 in Hb; lia).
    clearbody u v h.
    destruct Hb as [(Ed & Ei & Ej)|(Ed & Ej & Ei)]; subst dir; cbn [Z.eqb Pos.eqb] in E, Hbv.
    all: unfold adj_pair; subst_lets.
    - rewrite <- Ei in E.
      destruct (btype =? 4) eqn:B; [|destruct (btype =? 0); [|destruct (btype =? 1)]]; try k_noedge E;
        try (match type of E with context [order =? 1] => destruct (order =? 1); [|destruct (order =? 2)] end); try k_noedge E;
        k_edge E (pt2 dJ dI j i) (in_points2 dJ dI pj0 pj1 i i j i Ej ltac:(lia)).
    - rewrite <- Ej in E.
      destruct (btype =? 4) eqn:B; [lia|destruct (btype =? 0); [|destruct (btype =? 1)]]; try k_noedge E;
        try (match type of E with context [order =? 1] => destruct (order =? 1); [|destruct (order =? 2)] end); try k_noedge E;
        k_edge E (pt2 dJ dI j i) (in_points2 dJ dI j j pi0 pi1 j i ltac:(lia) Ei).
  Qed.

  Lemma adj_cf_diag_2d_at i0 j0 i1 j1 pi0 pj0 pi1 pj1 r dir side order dx beta b0_ b1_ sgcw st_ i j bv e0 (m m' : mem S) :
    let st := mkFa st_ ((0, 4) :: CELL2d i0 j0 i1 j1 sgcw) in
    let b0 := mkFa b0_ (FACE2d0 i0 j0 i1 j1 0) in
    let b1 := mkFa b1_ (FACE2d1 i0 j0 i1 j1 0) in
    let f := (beta / (dx dir * dx dir))%T in
    i0 <= i <= i1 -> j0 <= j <= j1 -> 0 <= sgcw -> apart st_ [b0_; b1_] -> 
    beside2 dir side pi0 pj0 pi1 pj1 i j -> (side = 0 \/ side = 1) -> (dir = 0 -> j0 <= pj0 /\ pj1 <= j1) -> (dir = 1 -> i0 <= pi0 /\ pi1 <= i1) -> 
    cd_stencil_2d_adj_cf_diag i0 j0 i1 j1 pi0 pj0 pi1 pj1 r dir side order dx beta b0_ b1_ sgcw st_ m = Some m' ->
    (if dir =? 0 then (b0!(i + side, j))%F else (b1!(j + side, i))%F) m = Some bv ->
    (st!(0, i, j))%F m = Some e0 ->
    (st!(0, i, j))%F m' = Some (cf_part r order f bv e0) /\
    (forall w, 0 < w <= 4 -> (st!(w, i, j))%F m' = (st!(w, i, j))%F m) /\
    (forall p, fst p <> fst st_ -> load m' p = load m p).
  Proof.
    intros st b0 b1 f Ii Ij Hg Hap Hb Hs Hd0 Hd1 E Hbv H0. k_apart.
    unfold cd_stencil_2d_adj_cf_diag in E. cbv zeta in E.
    destruct Hb as [(Ed & Ei & Ej)|(Ed & Ej & Ei)]; subst dir; cbn [Z.eqb Pos.eqb] in E, Hbv.
    all: unfold cf_part; subst_lets.
    - rewrite <- Ei in E.
      destruct (order =? 1); [|destruct (order =? 2)]; try k_noedge E;
        k_edge0 E (pt2 dJ dI j i) (in_points2 dJ dI pj0 pj1 i i j i Ej ltac:(lia)).
    - rewrite <- Ej in E.
      destruct (order =? 1); [|destruct (order =? 2)]; try k_noedge E;
        k_edge0 E (pt2 dJ dI j i) (in_points2 dJ dI j j pi0 pi1 j i ltac:(lia) Ei).
  Qed.

  Lemma adj_poisson_offdiag_2d_at i0 j0 i1 j1 pi0 pj0 pi1 pj1 dir side btype order dx d nf beta sgcw st_ i j eu ev (m m' : mem S) :
    let st := mkFa st_ ((0, 4) :: CELL2d i0 j0 i1 j1 sgcw) in
    let u := col_out dir side in
    let v := col_in dir side in
    let h := dx dir in
    let q := (lit 2 * h / (lit 4 + h))%T in
    let f := (beta / (h * (lit 3 * h + lit 16)))%T in
    i0 <= i <= i1 -> j0 <= j <= j1 -> 0 <= sgcw -> 
    beside2 dir side pi0 pj0 pi1 pj1 i j -> (side = 0 \/ side = 1) -> (dir = 0 -> j0 <= pj0 /\ pj1 <= j1) -> (dir = 1 -> i0 <= pi0 /\ pi1 <= i1) -> (btype = 4 -> dir = 0) -> 
    cd_stencil_2d_adj_poisson_offdiag i0 j0 i1 j1 pi0 pj0 pi1 pj1 dir side btype order dx d nf beta sgcw st_ m = Some m' ->
    (st!(u, i, j))%F m = Some eu -> (st!(v, i, j))%F m = Some ev ->
    (st!(u, i, j))%F m' = Some (fst (adj_pair btype order d q f eu ev)) /\
    (st!(v, i, j))%F m' = Some (snd (adj_pair btype order d q f eu ev)) /\
    (forall w, 0 <= w <= 4 -> w <> u -> w <> v -> (st!(w, i, j))%F m' = (st!(w, i, j))%F m) /\
    (forall p, fst p <> fst st_ -> load m' p = load m p).
  Proof.
    intros st u v h q f Ii Ij Hg Hb Hs Hd0 Hd1 H4 E Hu Hv. k_apart.
    unfold cd_stencil_2d_adj_poisson_offdiag in E. cbv zeta in E.
    change (2 * dir + 1 + side) with u in E. change (2 * dir + 2 - side) with v in E. change (dx dir) with h in E.
    assert (0 <= u <= 4) as Ru by (unfold u, col_out; unfold beside2 in Hb; lia).
    assert (0 <= v <= 4) as Rv by (unfold v, col_in; unfold beside2 in Hb; lia).
    assert (u <> v) as Nuv by (unfold u, v, col_out, col_in; unfold beside2 in Hb; lia).
    clearbody u v h.
    destruct Hb as [(Ed & Ei & Ej)|(Ed & Ej & Ei)]; subst dir; cbn [Z.eqb Pos.eqb] in E.
    all: unfold adj_pair; subst_lets.
    - rewrite <- Ei in E.
      destruct (btype =? 4) eqn:B; [|destruct (btype =? 0); [|destruct (btype =? 1)]]; try k_noedge E;
        try (match type of E with context [order =? 1] => destruct (order =? 1); [|destruct (order =? 2)] end); try k_noedge E;
        k_edge E (pt2 dJ dI j i) (in_points2 dJ dI pj0 pj1 i i j i Ej ltac:(lia)).
    - rewrite <- Ej in E.
      destruct (btype =? 4) eqn:B; [lia|destruct (btype =? 0); [|destruct (btype =? 1)]]; try k_noedge E;
        try (match type of E with context [order =? 1] => destruct (order =? 1); [|destruct (order =? 2)] end); try k_noedge E;
        k_edge E (pt2 dJ dI j i) (in_points2 dJ dI j j pi0 pi1 j i ltac:(lia) Ei).
  Qed.

  Lemma adj_poisson_cf_diag_2d_at i0 j0 i1 j1 pi0 pj0 pi1 pj1 r dir side order dx beta sgcw st_ i j e0 (m m' : mem S) :
    let st := mkFa st_ ((0, 4) :: CELL2d i0 j0 i1 j1 sgcw) in
    let f := (beta / (dx dir * dx dir))%T in
    i0 <= i <= i1 -> j0 <= j <= j1 -> 0 <= sgcw -> 
    beside2 dir side pi0 pj0 pi1 pj1 i j -> (side = 0 \/ side = 1) -> (dir = 0 -> j0 <= pj0 /\ pj1 <= j1) -> (dir = 1 -> i0 <= pi0 /\ pi1 <= i1) -> 
    cd_stencil_2d_adj_poisson_cf_diag i0 j0 i1 j1 pi0 pj0 pi1 pj1 r dir side order dx beta sgcw st_ m = Some m' ->
    (st!(0, i, j))%F m = Some e0 ->
    (st!(0, i, j))%F m' = Some (cf_ppart r order f e0) /\
    (forall w, 0 < w <= 4 -> (st!(w, i, j))%F m' = (st!(w, i, j))%F m) /\
    (forall p, fst p <> fst st_ -> load m' p = load m p).
  Proof.
    intros st f Ii Ij Hg Hb Hs Hd0 Hd1 E H0. k_apart.
    unfold cd_stencil_2d_adj_poisson_cf_diag in E. cbv zeta in E.
    destruct Hb as [(Ed & Ei & Ej)|(Ed & Ej & Ei)]; subst dir; cbn [Z.eqb Pos.eqb] in E.
    all: unfold cf_ppart; subst_lets.
    - rewrite <- Ei in E.
      destruct (order =? 1); [|destruct (order =? 2)]; try k_noedge E;
        k_edge0 E (pt2 dJ dI j i) (in_points2 dJ dI pj0 pj1 i i j i Ej ltac:(lia)).
    - rewrite <- Ej in E.
      destruct (order =? 1); [|destruct (order =? 2)]; try k_noedge E;
        k_edge0 E (pt2 dJ dI j i) (in_points2 dJ dI j j pi0 pi1 j i ltac:(lia) Ei).
  Qed.

  Lemma adj_cf_offdiag_2d_at i0 j0 i1 j1 pi0 pj0 pi1 pj1 r dir side order sgcw st_ i j eu ev (m m' : mem S) :
    let st := mkFa st_ ((0, 4) :: CELL2d i0 j0 i1 j1 sgcw) in
    let u := col_out dir side in
    let v := col_in dir side in
    i0 <= i <= i1 -> j0 <= j <= j1 -> 0 <= sgcw -> 
    beside2 dir side pi0 pj0 pi1 pj1 i j -> (side = 0 \/ side = 1) -> (dir = 0 -> j0 <= pj0 /\ pj1 <= j1) -> (dir = 1 -> i0 <= pi0 /\ pi1 <= i1) -> 
    cd_stencil_2d_adj_cf_offdiag i0 j0 i1 j1 pi0 pj0 pi1 pj1 r dir side order sgcw st_ m = Some m' ->
    (st!(u, i, j))%F m = Some eu -> (st!(v, i, j))%F m = Some ev ->
    (st!(u, i, j))%F m' = Some (fst (cf_pair r order eu ev)) /\
    (st!(v, i, j))%F m' = Some (snd (cf_pair r order eu ev)) /\
    (forall w, 0 <= w <= 4 -> w <> u -> w <> v -> (st!(w, i, j))%F m' = (st!(w, i, j))%F m) /\
    (forall p, fst p <> fst st_ -> load m' p = load m p).
  Proof.
    intros st u v Ii Ij Hg Hb Hs Hd0 Hd1 E Hu Hv.
    unfold cd_stencil_2d_adj_cf_offdiag in E. cbv zeta in E.
    change (2 * dir + 1 + side) with u in E. change (2 * dir + 2 - side) with v in E.
    assert (0 <= u <= 4) as Ru by (unfold u, col_out; unfold beside2 in Hb; lia).
    assert (0 <= v <= 4) as Rv by (unfold v, col_in; unfold beside2 in Hb; lia).
    assert (u <> v) as Nuv by (unfold u, v, col_out, col_in; unfold beside2 in Hb; lia).
    clearbody u v.
    destruct Hb as [(Ed & Ei & Ej)|(Ed & Ej & Ei)]; subst dir; cbn [Z.eqb Pos.eqb] in E.
    all: unfold cf_pair; subst_lets.
    - rewrite <- Ei in E.
      destruct (order =? 1); [|destruct (order =? 2)]; try k_noedge E;
        k_edge E (pt2 dJ dI j i) (in_points2 dJ dI pj0 pj1 i i j i Ej ltac:(lia)).
    - rewrite <- Ej in E.
      destruct (order =? 1); [|destruct (order =? 2)]; try k_noedge E;
        k_edge E (pt2 dJ dI j i) (in_points2 dJ dI j j pi0 pi1 j i ltac:(lia) Ei).
  Qed.

  Lemma readj_offdiag_2d_at i0 j0 i1 j1 pi0 pj0 pi1 pj1 dir side sgcw st_ i j (m m' : mem S) :
    let st := mkFa st_ ((0, 4) :: CELL2d i0 j0 i1 j1 sgcw) in
    let u := col_out dir side in
    i0 <= i <= i1 -> j0 <= j <= j1 -> 0 <= sgcw -> 
    beside2 dir side pi0 pj0 pi1 pj1 i j -> (side = 0 \/ side = 1) -> (dir = 0 -> j0 <= pj0 /\ pj1 <= j1) -> (dir = 1 -> i0 <= pi0 /\ pi1 <= i1) -> 
    cd_stencil_2d_readj_offdiag i0 j0 i1 j1 pi0 pj0 pi1 pj1 dir side sgcw st_ m = Some m' ->
    (st!(u, i, j))%F m' = Some (lit 0) /\
    (forall w, 0 <= w <= 4 -> w <> u -> (st!(w, i, j))%F m' = (st!(w, i, j))%F m) /\
    (forall p, fst p <> fst st_ -> load m' p = load m p).
  Proof.
    intros st u Ii Ij Hg Hb Hs Hd0 Hd1 E.
    unfold cd_stencil_2d_readj_offdiag in E. cbv zeta in E.
    change (2 * dir + 1 + side) with u in E.
    assert (0 <= u <= 4) as Ru by (unfold u, col_out; unfold beside2 in Hb; lia).
    clearbody u.
    destruct Hb as [(Ed & Ei & Ej)|(Ed & Ej & Ei)]; subst dir; cbn [Z.eqb Pos.eqb] in E.
    all: subst_lets.
    - rewrite <- Ei in E.
      k_edge0 E (pt2 dJ dI j i) (in_points2 dJ dI pj0 pj1 i i j i Ej ltac:(lia)).
    - rewrite <- Ej in E.
      k_edge0 E (pt2 dJ dI j i) (in_points2 dJ dI j j pi0 pi1 j i ltac:(lia) Ei).
  Qed.
End Adjust.
