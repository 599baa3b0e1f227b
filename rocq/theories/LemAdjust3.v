(** * The stencil entries next to a boundary after the adjusting kernels (3D) *)

From Coq Require Import Permutation Field.
From Verif Require Import Base ModelBounds ModelMatrix ModelIters ModelSpan ModelProxy Spec SpecIter ModelSched
  LemBase LemDomain LemExpr LemExec SpecAssign LemAssign LemProps LemProps2 LemProps3 LemProps4 SpecWindow LemWindow LemWindow2
  FortranBase SpecKernel SpecEliminate Instances LemField LemKernel LemKernel2 LemBC LemHomog KernelNotations
  KernelsFlux KernelsApply KernelsStencil LemStencil LemRow LemEdge.
Import ListNotations.
Open Scope Z_scope.

Section Adjust.
  Context {S : Scalar}.

  Lemma adj_offdiag_3d_at i0 j0 k0 i1 j1 k1 pi0 pj0 pk0 pi1 pj1 pk1 dir side btype order dx d nf beta b0_ b1_ b2_ sgcw st_ i j k bv eu ev (m m' : mem S) :
    let st := mkFa st_ ((0, 6) :: CELL3d i0 j0 k0 i1 j1 k1 sgcw) in
    let b0 := mkFa b0_ (FACE3d0 i0 j0 k0 i1 j1 k1 0) in
    let b1 := mkFa b1_ (FACE3d1 i0 j0 k0 i1 j1 k1 0) in
    let b2 := mkFa b2_ (FACE3d2 i0 j0 k0 i1 j1 k1 0) in
    let u := col_out dir side in
    let v := col_in dir side in
    let h := dx dir in
    let q := (lit 2 * h / (lit 4 * bv + h))%T in
    let f := (beta * bv / (h * (lit 3 * h + lit 16 * bv)))%T in
    i0 <= i <= i1 -> j0 <= j <= j1 -> k0 <= k <= k1 -> 0 <= sgcw -> apart st_ [b0_; b1_; b2_] -> 
    beside3 dir side pi0 pj0 pk0 pi1 pj1 pk1 i j k -> (side = 0 \/ side = 1) -> (dir = 0 -> j0 <= pj0 /\ pj1 <= j1 /\ k0 <= pk0 /\ pk1 <= k1) -> (dir = 1 -> i0 <= pi0 /\ pi1 <= i1 /\ k0 <= pk0 /\ pk1 <= k1) -> (dir = 2 -> i0 <= pi0 /\ pi1 <= i1 /\ j0 <= pj0 /\ pj1 <= j1) -> 
    cd_stencil_3d_adj_offdiag i0 j0 k0 i1 j1 k1 pi0 pj0 pk0 pi1 pj1 pk1 dir side btype order dx d nf beta b0_ b1_ b2_ sgcw st_ m = Some m' ->
    (if dir =? 0 then (b0!(i + side, j, k))%F else if dir =? 1 then (b1!(j + side, k, i))%F else (b2!(k + side, i, j))%F) m = Some bv ->
    (st!(u, i, j, k))%F m = Some eu -> (st!(v, i, j, k))%F m = Some ev ->
    (st!(u, i, j, k))%F m' = Some (fst (adj_pair btype order d q f eu ev)) /\
    (st!(v, i, j, k))%F m' = Some (snd (adj_pair btype order d q f eu ev)) /\
    (forall w, 0 <= w <= 6 -> w <> u -> w <> v -> (st!(w, i, j, k))%F m' = (st!(w, i, j, k))%F m) /\
    (forall p, fst p <> fst st_ -> load m' p = load m p).
  Proof.
    intros st b0 b1 b2 u v h q f Ii Ij Ik Hg Hap Hb Hs Hd0 Hd1 Hd2 E Hbv Hu Hv. k_apart.
    unfold cd_stencil_3d_adj_offdiag in E. cbv zeta in E.
    change (2 * dir + 1 + side) with u in E. change (2 * dir + 2 - side) with v in E. change (dx dir) with h in E.
    assert (0 <= u <= 6) as Ru by (unfold u, col_out; unfold beside3 in Hb; lia).
    assert (0 <= v <= 6) as Rv by (unfold v, col_in; unfold beside3 in Hb; lia).
    assert (u <> v) as Nuv by (unfold u, v, col_out, col_in; unfold beside3 in Hb; lia).
    clearbody u v h.
    destruct Hb as [(Ed & Ei & Ej & Ek)|[(Ed & Ej & Ei & Ek)|(Ed & Ek & Ei & Ej)]]; subst dir; cbn [Z.eqb Pos.eqb] in E, Hbv.
    all: unfold adj_pair; subst_lets.
    - rewrite <- Ei in E.
      destruct (btype =? 4) eqn:B; [|destruct (btype =? 0); [|destruct (btype =? 1)]]; try k_noedge E;
        try (match type of E with context [order =? 1] => destruct (order =? 1); [|destruct (order =? 2)] end); try k_noedge E;
        k_edge E (pt3 dK dJ dI k j i) (in_points3 dK dJ dI pk0 pk1 pj0 pj1 i i k j i Ek Ej ltac:(lia)).
    - rewrite <- Ej in E.
      destruct (btype =? 4) eqn:B; [|destruct (btype =? 0); [|destruct (btype =? 1)]]; try k_noedge E;
        try (match type of E with context [order =? 1] => destruct (order =? 1); [|destruct (order =? 2)] end); try k_noedge E;
        k_edge E (pt3 dK dJ dI k j i) (in_points3 dK dJ dI pk0 pk1 j j pi0 pi1 k j i Ek ltac:(lia) Ei).
    - rewrite <- Ek in E.
      destruct (btype =? 4) eqn:B; [|destruct (btype =? 0); [|destruct (btype =? 1)]]; try k_noedge E;
        try (match type of E with context [order =? 1] => destruct (order =? 1); [|destruct (order =? 2)] end); try k_noedge E;
        k_edge E (pt3 dK dJ dI k j i) (in_points3 dK dJ dI k k pj0 pj1 pi0 pi1 k j i ltac:(lia) Ej Ei).
  Qed.

  Lemma adj_cf_diag_3d_at i0 j0 k0 i1 j1 k1 pi0 pj0 pk0 pi1 pj1 pk1 r dir side order dx beta b0_ b1_ b2_ sgcw st_ i j k bv e0 (m m' : mem S) :
    let st := mkFa st_ ((0, 6) :: CELL3d i0 j0 k0 i1 j1 k1 sgcw) in
    let b0 := mkFa b0_ (FACE3d0 i0 j0 k0 i1 j1 k1 0) in
    let b1 := mkFa b1_ (FACE3d1 i0 j0 k0 i1 j1 k1 0) in
    let b2 := mkFa b2_ (FACE3d2 i0 j0 k0 i1 j1 k1 0) in
    let f := (beta / (dx dir * dx dir))%T in
    i0 <= i <= i1 -> j0 <= j <= j1 -> k0 <= k <= k1 -> 0 <= sgcw -> apart st_ [b0_; b1_; b2_] -> 
    beside3 dir side pi0 pj0 pk0 pi1 pj1 pk1 i j k -> (side = 0 \/ side = 1) -> (dir = 0 -> j0 <= pj0 /\ pj1 <= j1 /\ k0 <= pk0 /\ pk1 <= k1) -> (dir = 1 -> i0 <= pi0 /\ pi1 <= i1 /\ k0 <= pk0 /\ pk1 <= k1) -> (dir = 2 -> i0 <= pi0 /\ pi1 <= i1 /\ j0 <= pj0 /\ pj1 <= j1) -> 
    cd_stencil_3d_adj_cf_diag i0 j0 k0 i1 j1 k1 pi0 pj0 pk0 pi1 pj1 pk1 r dir side order dx beta b0_ b1_ b2_ sgcw st_ m = Some m' ->
    (if dir =? 0 then (b0!(i + side, j, k))%F else if dir =? 1 then (b1!(j + side, k, i))%F else (b2!(k + side, i, j))%F) m = Some bv ->
    (st!(0, i, j, k))%F m = Some e0 ->
    (st!(0, i, j, k))%F m' = Some (cf_part r order f bv e0) /\
    (forall w, 0 < w <= 6 -> (st!(w, i, j, k))%F m' = (st!(w, i, j, k))%F m) /\
    (forall p, fst p <> fst st_ -> load m' p = load m p).
  Proof.
    intros st b0 b1 b2 f Ii Ij Ik Hg Hap Hb Hs Hd0 Hd1 Hd2 E Hbv H0. k_apart.
    unfold cd_stencil_3d_adj_cf_diag in E. cbv zeta in E.
    destruct Hb as [(Ed & Ei & Ej & Ek)|[(Ed & Ej & Ei & Ek)|(Ed & Ek & Ei & Ej)]]; subst dir; cbn [Z.eqb Pos.eqb] in E, Hbv.
    all: unfold cf_part; subst_lets.
    - rewrite <- Ei in E.
      destruct (order =? 1); [|destruct (order =? 2)]; try k_noedge E;
        k_edge0 E (pt3 dK dJ dI k j i) (in_points3 dK dJ dI pk0 pk1 pj0 pj1 i i k j i Ek Ej ltac:(lia)).
    - rewrite <- Ej in E.
      destruct (order =? 1); [|destruct (order =? 2)]; try k_noedge E;
        k_edge0 E (pt3 dK dJ dI k j i) (in_points3 dK dJ dI pk0 pk1 j j pi0 pi1 k j i Ek ltac:(lia) Ei).
    - rewrite <- Ek in E.
      destruct (order =? 1); [|destruct (order =? 2)]; try k_noedge E;
        k_edge0 E (pt3 dK dJ dI k j i) (in_points3 dK dJ dI k k pj0 pj1 pi0 pi1 k j i ltac:(lia) Ej Ei).
  Qed.

  Lemma adj_poisson_offdiag_3d_at i0 j0 k0 i1 j1 k1 pi0 pj0 pk0 pi1 pj1 pk1 dir side btype order dx d nf beta sgcw st_ i j k eu ev (m m' : mem S) :
    let st := mkFa st_ ((0, 6) :: CELL3d i0 j0 k0 i1 j1 k1 sgcw) in
    let u := col_out dir side in
    let v := col_in dir side in
    let h := dx dir in
    let q := (lit 2 * h / (lit 4 + h))%T in
    let f := (beta / (h * (lit 3 * h + lit 16)))%T in
    i0 <= i <= i1 -> j0 <= j <= j1 -> k0 <= k <= k1 -> 0 <= sgcw -> 
    beside3 dir side pi0 pj0 pk0 pi1 pj1 pk1 i j k -> (side = 0 \/ side = 1) -> (dir = 0 -> j0 <= pj0 /\ pj1 <= j1 /\ k0 <= pk0 /\ pk1 <= k1) -> (dir = 1 -> i0 <= pi0 /\ pi1 <= i1 /\ k0 <= pk0 /\ pk1 <= k1) -> (dir = 2 -> i0 <= pi0 /\ pi1 <= i1 /\ j0 <= pj0 /\ pj1 <= j1) -> 
    cd_stencil_3d_adj_poisson_offdiag i0 j0 k0 i1 j1 k1 pi0 pj0 pk0 pi1 pj1 pk1 dir side btype order dx d nf beta sgcw st_ m = Some m' ->
    (st!(u, i, j, k))%F m = Some eu -> (st!(v, i, j, k))%F m = Some ev ->
    (st!(u, i, j, k))%F m' = Some (fst (adj_pair btype order d q f eu ev)) /\
    (st!(v, i, j, k))%F m' = Some (snd (adj_pair btype order d q f eu ev)) /\
    (forall w, 0 <= w <= 6 -> w <> u -> w <> v -> (st!(w, i, j, k))%F m' = (st!(w, i, j, k))%F m) /\
    (forall p, fst p <> fst st_ -> load m' p = load m p).
  Proof.
    intros st u v h q f Ii Ij Ik Hg Hb Hs Hd0 Hd1 Hd2 E Hu Hv. k_apart.
    unfold cd_stencil_3d_adj_poisson_offdiag in E. cbv zeta in E.
    change (2 * dir + 1 + side) with u in E. change (2 * dir + 2 - side) with v in E. change (dx dir) with h in E.
    assert (0 <= u <= 6) as Ru by (unfold u, col_out; unfold beside3 in Hb; lia).
    assert (0 <= v <= 6) as Rv by (unfold v, col_in; unfold beside3 in Hb; lia).
    assert (u <> v) as Nuv by (unfold u, v, col_out, col_in; unfold beside3 in Hb; lia).
    clearbody u v h.
    destruct Hb as [(Ed & Ei & Ej & Ek)|[(Ed & Ej & Ei & Ek)|(Ed & Ek & Ei & Ej)]]; subst dir; cbn [Z.eqb Pos.eqb] in E.
    all: unfold adj_pair; subst_lets.
    - rewrite <- Ei in E.
      destruct (btype =? 4) eqn:B; [|destruct (btype =? 0); [|destruct (btype =? 1)]]; try k_noedge E;
        try (match type of E with context [order =? 1] => destruct (order =? 1); [|destruct (order =? 2)] end); try k_noedge E;
        k_edge E (pt3 dK dJ dI k j i) (in_points3 dK dJ dI pk0 pk1 pj0 pj1 i i k j i Ek Ej ltac:(lia)).
    - rewrite <- Ej in E.
      destruct (btype =? 4) eqn:B; [|destruct (btype =? 0); [|destruct (btype =? 1)]]; try k_noedge E;
        try (match type of E with context [order =? 1] => destruct (order =? 1); [|destruct (order =? 2)] end); try k_noedge E;
        k_edge E (pt3 dK dJ dI k j i) (in_points3 dK dJ dI pk0 pk1 j j pi0 pi1 k j i Ek ltac:(lia) Ei).
    - rewrite <- Ek in E.
      destruct (btype =? 4) eqn:B; [|destruct (btype =? 0); [|destruct (btype =? 1)]]; try k_noedge E;
        try (match type of E with context [order =? 1] => destruct (order =? 1); [|destruct (order =? 2)] end); try k_noedge E;
        k_edge E (pt3 dK dJ dI k j i) (in_points3 dK dJ dI k k pj0 pj1 pi0 pi1 k j i ltac:(lia) Ej Ei).
  Qed.

  Lemma adj_poisson_cf_diag_3d_at i0 j0 k0 i1 j1 k1 pi0 pj0 pk0 pi1 pj1 pk1 r dir side order dx beta sgcw st_ i j k e0 (m m' : mem S) :
    let st := mkFa st_ ((0, 6) :: CELL3d i0 j0 k0 i1 j1 k1 sgcw) in
    let f := (beta / (dx dir * dx dir))%T in
    i0 <= i <= i1 -> j0 <= j <= j1 -> k0 <= k <= k1 -> 0 <= sgcw -> 
    beside3 dir side pi0 pj0 pk0 pi1 pj1 pk1 i j k -> (side = 0 \/ side = 1) -> (dir = 0 -> j0 <= pj0 /\ pj1 <= j1 /\ k0 <= pk0 /\ pk1 <= k1) -> (dir = 1 -> i0 <= pi0 /\ pi1 <= i1 /\ k0 <= pk0 /\ pk1 <= k1) -> (dir = 2 -> i0 <= pi0 /\ pi1 <= i1 /\ j0 <= pj0 /\ pj1 <= j1) -> 
    cd_stencil_3d_adj_poisson_cf_diag i0 j0 k0 i1 j1 k1 pi0 pj0 pk0 pi1 pj1 pk1 r dir side order dx beta sgcw st_ m = Some m' ->
    (st!(0, i, j, k))%F m = Some e0 ->
    (st!(0, i, j, k))%F m' = Some (cf_ppart r order f e0) /\
    (forall w, 0 < w <= 6 -> (st!(w, i, j, k))%F m' = (st!(w, i, j, k))%F m) /\
    (forall p, fst p <> fst st_ -> load m' p = load m p).
  Proof.
    intros st f Ii Ij Ik Hg Hb Hs Hd0 Hd1 Hd2 E H0. k_apart.
    unfold cd_stencil_3d_adj_poisson_cf_diag in E. cbv zeta in E.
    destruct Hb as [(Ed & Ei & Ej & Ek)|[(Ed & Ej & Ei & Ek)|(Ed & Ek & Ei & Ej)]]; subst dir; cbn [Z.eqb Pos.eqb] in E.
    all: unfold cf_ppart; subst_lets.
    - rewrite <- Ei in E.
      destruct (order =? 1); [|destruct (order =? 2)]; try k_noedge E;
        k_edge0 E (pt3 dK dJ dI k j i) (in_points3 dK dJ dI pk0 pk1 pj0 pj1 i i k j i Ek Ej ltac:(lia)).
    - rewrite <- Ej in E.
      destruct (order =? 1); [|destruct (order =? 2)]; try k_noedge E;
        k_edge0 E (pt3 dK dJ dI k j i) (in_points3 dK dJ dI pk0 pk1 j j pi0 pi1 k j i Ek ltac:(lia) Ei).
    - rewrite <- Ek in E.
      destruct (order =? 1); [|destruct (order =? 2)]; try k_noedge E;
        k_edge0 E (pt3 dK dJ dI k j i) (in_points3 dK dJ dI k k pj0 pj1 pi0 pi1 k j i ltac:(lia) Ej Ei).
  Qed.

  Lemma adj_cf_offdiag_3d_at i0 j0 k0 i1 j1 k1 pi0 pj0 pk0 pi1 pj1 pk1 r dir side order sgcw st_ i j k eu ev (m m' : mem S) :
    let st := mkFa st_ ((0, 6) :: CELL3d i0 j0 k0 i1 j1 k1 sgcw) in
    let u := col_out dir side in
    let v := col_in dir side in
    i0 <= i <= i1 -> j0 <= j <= j1 -> k0 <= k <= k1 -> 0 <= sgcw -> 
    beside3 dir side pi0 pj0 pk0 pi1 pj1 pk1 i j k -> (side = 0 \/ side = 1) -> (dir = 0 -> j0 <= pj0 /\ pj1 <= j1 /\ k0 <= pk0 /\ pk1 <= k1) -> (dir = 1 -> i0 <= pi0 /\ pi1 <= i1 /\ k0 <= pk0 /\ pk1 <= k1) -> (dir = 2 -> i0 <= pi0 /\ pi1 <= i1 /\ j0 <= pj0 /\ pj1 <= j1) -> 
    cd_stencil_3d_adj_cf_offdiag i0 j0 k0 i1 j1 k1 pi0 pj0 pk0 pi1 pj1 pk1 r dir side order sgcw st_ m = Some m' ->
    (st!(u, i, j, k))%F m = Some eu -> (st!(v, i, j, k))%F m = Some ev ->
    (st!(u, i, j, k))%F m' = Some (fst (cf_pair r order eu ev)) /\
    (st!(v, i, j, k))%F m' = Some (snd (cf_pair r order eu ev)) /\
    (forall w, 0 <= w <= 6 -> w <> u -> w <> v -> (st!(w, i, j, k))%F m' = (st!(w, i, j, k))%F m) /\
    (forall p, fst p <> fst st_ -> load m' p = load m p).
  Proof.
    intros st u v Ii Ij Ik Hg Hb Hs Hd0 Hd1 Hd2 E Hu Hv.
    unfold cd_stencil_3d_adj_cf_offdiag in E. cbv zeta in E.
    change (2 * dir + 1 + side) with u in E. change (2 * dir + 2 - side) with v in E.
    assert (0 <= u <= 6) as Ru by (unfold u, col_out; unfold beside3 in Hb; lia).
    assert (0 <= v <= 6) as Rv by (unfold v, col_in; unfold beside3 in Hb; lia).
    assert (u <> v) as Nuv by (unfold u, v, col_out, col_in; unfold beside3 in Hb; lia).
    clearbody u v.
    destruct Hb as [(Ed & Ei & Ej & Ek)|[(Ed & Ej & Ei & Ek)|(Ed & Ek & Ei & Ej)]]; subst dir; cbn [Z.eqb Pos.eqb] in E.
    all: unfold cf_pair; subst_lets.
    - rewrite <- Ei in E.
      destruct (order =? 1); [|destruct (order =? 2)]; try k_noedge E;
        k_edge E (pt3 dK dJ dI k j i) (in_points3 dK dJ dI pk0 pk1 pj0 pj1 i i k j i Ek Ej ltac:(lia)).
    - rewrite <- Ej in E.
      destruct (order =? 1); [|destruct (order =? 2)]; try k_noedge E;
        k_edge E (pt3 dK dJ dI k j i) (in_points3 dK dJ dI pk0 pk1 j j pi0 pi1 k j i Ek ltac:(lia) Ei).
    - rewrite <- Ek in E.
      destruct (order =? 1); [|destruct (order =? 2)]; try k_noedge E;
        k_edge E (pt3 dK dJ dI k j i) (in_points3 dK dJ dI k k pj0 pj1 pi0 pi1 k j i ltac:(lia) Ej Ei).
  Qed.

  Lemma readj_offdiag_3d_at i0 j0 k0 i1 j1 k1 pi0 pj0 pk0 pi1 pj1 pk1 dir side sgcw st_ i j k (m m' : mem S) :
    let st := mkFa st_ ((0, 6) :: CELL3d i0 j0 k0 i1 j1 k1 sgcw) in
    let u := col_out dir side in
    i0 <= i <= i1 -> j0 <= j <= j1 -> k0 <= k <= k1 -> 0 <= sgcw -> 
    beside3 dir side pi0 pj0 pk0 pi1 pj1 pk1 i j k -> (side = 0 \/ side = 1) -> (dir = 0 -> j0 <= pj0 /\ pj1 <= j1 /\ k0 <= pk0 /\ pk1 <= k1) -> (dir = 1 -> i0 <= pi0 /\ pi1 <= i1 /\ k0 <= pk0 /\ pk1 <= k1) -> (dir = 2 -> i0 <= pi0 /\ pi1 <= i1 /\ j0 <= pj0 /\ pj1 <= j1) -> 
    cd_stencil_3d_readj_offdiag i0 j0 k0 i1 j1 k1 pi0 pj0 pk0 pi1 pj1 pk1 dir side sgcw st_ m = Some m' ->
    (st!(u, i, j, k))%F m' = Some (lit 0) /\
    (forall w, 0 <= w <= 6 -> w <> u -> (st!(w, i, j, k))%F m' = (st!(w, i, j, k))%F m) /\
    (forall p, fst p <> fst st_ -> load m' p = load m p).
  Proof.
    intros st u Ii Ij Ik Hg Hb Hs Hd0 Hd1 Hd2 E.
    unfold cd_stencil_3d_readj_offdiag in E. cbv zeta in E.
    change (2 * dir + 1 + side) with u in E.
    assert (0 <= u <= 6) as Ru by (unfold u, col_out; unfold beside3 in Hb; lia).
    clearbody u.
    destruct Hb as [(Ed & Ei & Ej & Ek)|[(Ed & Ej & Ei & Ek)|(Ed & Ek & Ei & Ej)]]; subst dir; cbn [Z.eqb Pos.eqb] in E.
    all: subst_lets.
    - rewrite <- Ei in E.
      k_edge0 E (pt3 dK dJ dI k j i) (in_points3 dK dJ dI pk0 pk1 pj0 pj1 i i k j i Ek Ej ltac:(lia)).
    - rewrite <- Ej in E.
      k_edge0 E (pt3 dK dJ dI k j i) (in_points3 dK dJ dI pk0 pk1 j j pi0 pi1 k j i Ek ltac:(lia) Ei).
    - rewrite <- Ek in E.
      k_edge0 E (pt3 dK dJ dI k j i) (in_points3 dK dJ dI k k pj0 pj1 pi0 pi1 k j i ltac:(lia) Ej Ei).
  Qed.
End Adjust.
