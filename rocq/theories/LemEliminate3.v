(** * Eliminating the values outside the boundary: rows of the matrix (3D) *)

From Coq Require Import Permutation Field.
From Verif Require Import Base ModelBounds ModelMatrix ModelIters ModelSpan ModelProxy Spec SpecIter ModelSched
  LemBase LemDomain LemExpr LemExec SpecAssign LemAssign LemProps LemProps4 SpecWindow LemWindow LemWindow2
  FortranBase SpecKernel SpecEliminate Instances LemField LemKernel LemKernel2 LemBC LemHomog KernelNotations
  KernelsFlux KernelsApply KernelsStencil LemStencil LemRow LemEdge LemValues3
  LemAdjust3 LemEliminate.
Import ListNotations.
Open Scope Z_scope.


Section Eliminate.
  Context {S : Scalar} (L : field_laws S).
  Add Field SF : (s_field S L) (morphism (lit_morph S L), constants [lit_cst]).

  Lemma physical_v1_3d i0 j0 k0 i1 j1 k1 pi0 pj0 pk0 pi1 pj1 pk1 dir side btype order dx d nf beta b0 b1 b2 alpha ai0 aj0 ak0 ai1 aj1 ak1 a sgcw st i j k (m m1 m2 : mem S) :
  i0 <= i <= i1 -> j0 <= j <= j1 -> k0 <= k <= k1 -> 0 <= sgcw -> apart st [b0; b1; b2; a] ->
  beside3 dir side pi0 pj0 pk0 pi1 pj1 pk1 i j k -> (side = 0 \/ side = 1) -> (dir = 0 -> j0 <= pj0 /\ pj1 <= j1 /\ k0 <= pk0 /\ pk1 <= k1) -> (dir = 1 -> i0 <= pi0 /\ pi1 <= i1 /\ k0 <= pk0 /\ pk1 <= k1) -> (dir = 2 -> i0 <= pi0 /\ pi1 <= i1 /\ j0 <= pj0 /\ pj1 <= j1) -> 
  (m' <- cd_stencil_3d_offdiag i0 j0 k0 i1 j1 k1 i0 j0 k0 i1 j1 k1 dx beta b0 b1 b2 sgcw st m ;;
   cd_stencil_3d_v1diag i0 j0 k0 i1 j1 k1 ai0 aj0 ak0 ai1 aj1 ak1 alpha a sgcw st m') = Some m1 ->
  (m' <- cd_stencil_3d_offdiag i0 j0 k0 i1 j1 k1 i0 j0 k0 i1 j1 k1 dx beta b0 b1 b2 sgcw st m ;;
   m' <- cd_stencil_3d_adj_offdiag i0 j0 k0 i1 j1 k1 pi0 pj0 pk0 pi1 pj1 pk1 dir side btype order dx d nf beta b0 b1 b2 sgcw st m' ;;
   cd_stencil_3d_v1diag i0 j0 k0 i1 j1 k1 ai0 aj0 ak0 ai1 aj1 ak1 alpha a sgcw st m') = Some m2 ->
  forall bv, (if dir =? 0 then ((mkFa b0 (FACE3d0 i0 j0 k0 i1 j1 k1 0))!(i + side, j, k))%F else if dir =? 1 then ((mkFa b1 (FACE3d1 i0 j0 k0 i1 j1 k1 0))!(j + side, k, i))%F else ((mkFa b2 (FACE3d2 i0 j0 k0 i1 j1 k1 0))!(k + side, i, j))%F) m = Some bv ->
  (btype = 0 -> d <> lit 0) -> dx dir <> lit 0 -> (btype = 4 -> (lit 4 * bv + dx dir)%T <> lit 0) ->
  forall x y : Z -> S, (forall w, w <> col_out dir side -> y w = x w) ->
  ghost_rule btype order d (dx dir) bv (x (col_out dir side)) (x 0) (x (col_in dir side)) (y (col_out dir side)) ->
  exists v, row3 (mkFa st ((0, 6) :: CELL3d i0 j0 k0 i1 j1 k1 sgcw)) i j k x m1 = Some v /\ row3 (mkFa st ((0, 6) :: CELL3d i0 j0 k0 i1 j1 k1 sgcw)) i j k y m2 = Some v.
  Proof.
    intros Ii Ij Ik Hg Ap Hb Hs Hd0 Hd1 Hd2 E1 E2 bv Hbv Nd Nh N4 x y Hy HG. k_apart.
    apply bind_Some_inv in E1 as (ma & Eo & Ed1). rewrite Eo in E2. cbn [bind] in E2.
    destruct (offdiag_3d_at i0 j0 k0 i1 j1 k1 i0 j0 k0 i1 j1 k1 dx beta b0 b1 b2 sgcw st m ma ltac:(k_rapart L) ltac:(k_rapart L) ltac:(k_rapart L) ltac:(k_rapart L) ltac:(k_rapart L) Eo) as (Vo & Fo).
    destruct (v1diag_3d_at L i0 j0 k0 i1 j1 k1 ai0 aj0 ak0 ai1 aj1 ak1 alpha a sgcw st ma m1 ltac:(k_rapart L) ltac:(k_rapart L) ltac:(k_rapart L) ltac:(k_rapart L) ltac:(k_rapart L) Ed1) as (Vd & Fd).
    specialize (Vo i j k Ii Ij Ik). specialize (Vd i j k Ii Ij Ik).
    destruct Vo as ((e1 & H1 & V1) & (e2 & H2 & V2) & (e3 & H3 & V3) & (e4 & H4 & V4) & (e5 & H5 & V5) & (e6 & H6 & V6)).
    destruct Vd as ((z1 & Z1 & D1) & K1 & K2 & K3 & K4 & K5 & K6).
    rewrite H1 in K1. rewrite H2 in K2. rewrite H3 in K3. rewrite H4 in K4. rewrite H5 in K5. rewrite H6 in K6.
    apply bind_Some_inv in E2 as (mb & Ea & Ed2).
    destruct (v1diag_3d_at L i0 j0 k0 i1 j1 k1 ai0 aj0 ak0 ai1 aj1 ak1 alpha a sgcw st mb m2 ltac:(k_rapart L) ltac:(k_rapart L) ltac:(k_rapart L) ltac:(k_rapart L) ltac:(k_rapart L) Ed2) as (Vd & Fd2).
    specialize (Vd i j k Ii Ij Ik).
    destruct Vd as ((z2 & Z2 & D2) & J1 & J2 & J3 & J4 & J5 & J6).
    assert (dir = 0 \/ dir = 1 \/ dir = 2) as Hdir by (unfold beside3 in Hb; lia).
    destruct Hdir as [Hdir|[Hdir|Hdir]]; subst dir; destruct Hs as [Hs|Hs]; subst side.
    - change (col_out 0 0) with 1 in *; change (col_in 0 0) with 2 in * .
      assert (((mkFa b0 (FACE3d0 i0 j0 k0 i1 j1 k1 0))!(i + 0, j, k))%F ma = Some bv) as Hbv' by (unfold fel in * ; rewrite Fo by (cbn; k_ne); exact Hbv).
      destruct (adj_offdiag_3d_at i0 j0 k0 i1 j1 k1 pi0 pj0 pk0 pi1 pj1 pk1 0 0 btype order dx d nf beta b0 b1 b2 sgcw st i j k bv e1 e2 ma mb
        Ii Ij Ik Hg ltac:(k_rapart L) Hb ltac:(tauto) Hd0 Hd1 Hd2 Ea Hbv' H1 H2) as (U1 & U2 & U3 & U4).
      pose proof (elim_physical L btype order d (dx 0) bv (lit 2 * dx 0 / (lit 4 * bv + dx 0))%T (beta * bv / (dx 0 * (lit 3 * dx 0 + lit 16 * bv)))%T (x 1) (x 0) (x 2) (y 1) e1 e2 Nd Nh N4 ltac:(reflexivity) HG) as HE.
      change (col_out 0 0) with 1 in U1, U3; change (col_in 0 0) with 2 in U2, U3.
      destruct (adj_pair _ _ _ _ _ _ _) as [eu' ev']. cbn [fst snd] in U1, U2, HE.
      pose proof (U3 3 ltac:(lia) ltac:(discriminate) ltac:(discriminate)) as G3. rewrite H3 in G3.
      pose proof (U3 4 ltac:(lia) ltac:(discriminate) ltac:(discriminate)) as G4. rewrite H4 in G4.
      pose proof (U3 5 ltac:(lia) ltac:(discriminate) ltac:(discriminate)) as G5. rewrite H5 in G5.
      pose proof (U3 6 ltac:(lia) ltac:(discriminate) ltac:(discriminate)) as G6. rewrite H6 in G6.
      rewrite U1 in J1. rewrite U2 in J2. rewrite G3 in J3. rewrite G4 in J4. rewrite G5 in J5. rewrite G6 in J6.
      assert (((mkFa a (CELL3d ai0 aj0 ak0 ai1 aj1 ak1 0))!(i, j, k))%F mb = ((mkFa a (CELL3d ai0 aj0 ak0 ai1 aj1 ak1 0))!(i, j, k))%F ma) as Ha by (unfold fel; apply U4; cbn; k_ne).
      unfold fop in D2; rewrite Ha in D2; fold (@fop S) in D2.
      clear - L Ha U1 U2 G3 G4 G5 G6 H1 K1 J1 H2 K2 J2 H3 K3 J3 H4 K4 J4 H5 K5 J5 H6 K6 J6 Z1 Z2 D1 D2 Hy HE.
      k_val D1. k_val D2. subst z1 z2.
      eexists. unfold row3, fop, fel, fsc. rewrite Z1, K1, K2, K3, K4, K5, K6, Z2, J1, J2, J3, J4, J5, J6. cbn [bind]. split; [reflexivity|].
      rewrite (Hy 0) by discriminate. rewrite (Hy 2) by discriminate. rewrite (Hy 3) by discriminate. rewrite (Hy 4) by discriminate. rewrite (Hy 5) by discriminate. rewrite (Hy 6) by discriminate. f_equal. apply (by_diff L _ _ _ _ HE). ring.
    - change (col_out 0 1) with 2 in *; change (col_in 0 1) with 1 in * .
      assert (((mkFa b0 (FACE3d0 i0 j0 k0 i1 j1 k1 0))!(i + 1, j, k))%F ma = Some bv) as Hbv' by (unfold fel in * ; rewrite Fo by (cbn; k_ne); exact Hbv).
      destruct (adj_offdiag_3d_at i0 j0 k0 i1 j1 k1 pi0 pj0 pk0 pi1 pj1 pk1 0 1 btype order dx d nf beta b0 b1 b2 sgcw st i j k bv e2 e1 ma mb
        Ii Ij Ik Hg ltac:(k_rapart L) Hb ltac:(tauto) Hd0 Hd1 Hd2 Ea Hbv' H2 H1) as (U1 & U2 & U3 & U4).
      pose proof (elim_physical L btype order d (dx 0) bv (lit 2 * dx 0 / (lit 4 * bv + dx 0))%T (beta * bv / (dx 0 * (lit 3 * dx 0 + lit 16 * bv)))%T (x 2) (x 0) (x 1) (y 2) e2 e1 Nd Nh N4 ltac:(reflexivity) HG) as HE.
      change (col_out 0 1) with 2 in U1, U3; change (col_in 0 1) with 1 in U2, U3.
      destruct (adj_pair _ _ _ _ _ _ _) as [eu' ev']. cbn [fst snd] in U1, U2, HE.
      pose proof (U3 3 ltac:(lia) ltac:(discriminate) ltac:(discriminate)) as G3. rewrite H3 in G3.
      pose proof (U3 4 ltac:(lia) ltac:(discriminate) ltac:(discriminate)) as G4. rewrite H4 in G4.
      pose proof (U3 5 ltac:(lia) ltac:(discriminate) ltac:(discriminate)) as G5. rewrite H5 in G5.
      pose proof (U3 6 ltac:(lia) ltac:(discriminate) ltac:(discriminate)) as G6. rewrite H6 in G6.
      rewrite U1 in J2. rewrite U2 in J1. rewrite G3 in J3. rewrite G4 in J4. rewrite G5 in J5. rewrite G6 in J6.
      assert (((mkFa a (CELL3d ai0 aj0 ak0 ai1 aj1 ak1 0))!(i, j, k))%F mb = ((mkFa a (CELL3d ai0 aj0 ak0 ai1 aj1 ak1 0))!(i, j, k))%F ma) as Ha by (unfold fel; apply U4; cbn; k_ne).
      unfold fop in D2; rewrite Ha in D2; fold (@fop S) in D2.
      clear - L Ha U1 U2 G3 G4 G5 G6 H1 K1 J1 H2 K2 J2 H3 K3 J3 H4 K4 J4 H5 K5 J5 H6 K6 J6 Z1 Z2 D1 D2 Hy HE.
      k_val D1. k_val D2. subst z1 z2.
      eexists. unfold row3, fop, fel, fsc. rewrite Z1, K1, K2, K3, K4, K5, K6, Z2, J1, J2, J3, J4, J5, J6. cbn [bind]. split; [reflexivity|].
      rewrite (Hy 0) by discriminate. rewrite (Hy 1) by discriminate. rewrite (Hy 3) by discriminate. rewrite (Hy 4) by discriminate. rewrite (Hy 5) by discriminate. rewrite (Hy 6) by discriminate. f_equal. apply (by_diff L _ _ _ _ HE). ring.
    - change (col_out 1 0) with 3 in *; change (col_in 1 0) with 4 in * .
      assert (((mkFa b1 (FACE3d1 i0 j0 k0 i1 j1 k1 0))!(j + 0, k, i))%F ma = Some bv) as Hbv' by (unfold fel in * ; rewrite Fo by (cbn; k_ne); exact Hbv).
      destruct (adj_offdiag_3d_at i0 j0 k0 i1 j1 k1 pi0 pj0 pk0 pi1 pj1 pk1 1 0 btype order dx d nf beta b0 b1 b2 sgcw st i j k bv e3 e4 ma mb
        Ii Ij Ik Hg ltac:(k_rapart L) Hb ltac:(tauto) Hd0 Hd1 Hd2 Ea Hbv' H3 H4) as (U1 & U2 & U3 & U4).
      pose proof (elim_physical L btype order d (dx 1) bv (lit 2 * dx 1 / (lit 4 * bv + dx 1))%T (beta * bv / (dx 1 * (lit 3 * dx 1 + lit 16 * bv)))%T (x 3) (x 0) (x 4) (y 3) e3 e4 Nd Nh N4 ltac:(reflexivity) HG) as HE.
      change (col_out 1 0) with 3 in U1, U3; change (col_in 1 0) with 4 in U2, U3.
      destruct (adj_pair _ _ _ _ _ _ _) as [eu' ev']. cbn [fst snd] in U1, U2, HE.
      pose proof (U3 1 ltac:(lia) ltac:(discriminate) ltac:(discriminate)) as G1. rewrite H1 in G1.
      pose proof (U3 2 ltac:(lia) ltac:(discriminate) ltac:(discriminate)) as G2. rewrite H2 in G2.
      pose proof (U3 5 ltac:(lia) ltac:(discriminate) ltac:(discriminate)) as G5. rewrite H5 in G5.
      pose proof (U3 6 ltac:(lia) ltac:(discriminate) ltac:(discriminate)) as G6. rewrite H6 in G6.
      rewrite U1 in J3. rewrite U2 in J4. rewrite G1 in J1. rewrite G2 in J2. rewrite G5 in J5. rewrite G6 in J6.
      assert (((mkFa a (CELL3d ai0 aj0 ak0 ai1 aj1 ak1 0))!(i, j, k))%F mb = ((mkFa a (CELL3d ai0 aj0 ak0 ai1 aj1 ak1 0))!(i, j, k))%F ma) as Ha by (unfold fel; apply U4; cbn; k_ne).
      unfold fop in D2; rewrite Ha in D2; fold (@fop S) in D2.
      clear - L Ha U1 U2 G1 G2 G5 G6 H1 K1 J1 H2 K2 J2 H3 K3 J3 H4 K4 J4 H5 K5 J5 H6 K6 J6 Z1 Z2 D1 D2 Hy HE.
      k_val D1. k_val D2. subst z1 z2.
      eexists. unfold row3, fop, fel, fsc. rewrite Z1, K1, K2, K3, K4, K5, K6, Z2, J1, J2, J3, J4, J5, J6. cbn [bind]. split; [reflexivity|].
      rewrite (Hy 0) by discriminate. rewrite (Hy 4) by discriminate. rewrite (Hy 1) by discriminate. rewrite (Hy 2) by discriminate. rewrite (Hy 5) by discriminate. rewrite (Hy 6) by discriminate. f_equal. apply (by_diff L _ _ _ _ HE). ring.
    - change (col_out 1 1) with 4 in *; change (col_in 1 1) with 3 in * .
      assert (((mkFa b1 (FACE3d1 i0 j0 k0 i1 j1 k1 0))!(j + 1, k, i))%F ma = Some bv) as Hbv' by (unfold fel in * ; rewrite Fo by (cbn; k_ne); exact Hbv).
      destruct (adj_offdiag_3d_at i0 j0 k0 i1 j1 k1 pi0 pj0 pk0 pi1 pj1 pk1 1 1 btype order dx d nf beta b0 b1 b2 sgcw st i j k bv e4 e3 ma mb
        Ii Ij Ik Hg ltac:(k_rapart L) Hb ltac:(tauto) Hd0 Hd1 Hd2 Ea Hbv' H4 H3) as (U1 & U2 & U3 & U4).
      pose proof (elim_physical L btype order d (dx 1) bv (lit 2 * dx 1 / (lit 4 * bv + dx 1))%T (beta * bv / (dx 1 * (lit 3 * dx 1 + lit 16 * bv)))%T (x 4) (x 0) (x 3) (y 4) e4 e3 Nd Nh N4 ltac:(reflexivity) HG) as HE.
      change (col_out 1 1) with 4 in U1, U3; change (col_in 1 1) with 3 in U2, U3.
      destruct (adj_pair _ _ _ _ _ _ _) as [eu' ev']. cbn [fst snd] in U1, U2, HE.
      pose proof (U3 1 ltac:(lia) ltac:(discriminate) ltac:(discriminate)) as G1. rewrite H1 in G1.
      pose proof (U3 2 ltac:(lia) ltac:(discriminate) ltac:(discriminate)) as G2. rewrite H2 in G2.
      pose proof (U3 5 ltac:(lia) ltac:(discriminate) ltac:(discriminate)) as G5. rewrite H5 in G5.
      pose proof (U3 6 ltac:(lia) ltac:(discriminate) ltac:(discriminate)) as G6. rewrite H6 in G6.
      rewrite U1 in J4. rewrite U2 in J3. rewrite G1 in J1. rewrite G2 in J2. rewrite G5 in J5. rewrite G6 in J6.
      assert (((mkFa a (CELL3d ai0 aj0 ak0 ai1 aj1 ak1 0))!(i, j, k))%F mb = ((mkFa a (CELL3d ai0 aj0 ak0 ai1 aj1 ak1 0))!(i, j, k))%F ma) as Ha by (unfold fel; apply U4; cbn; k_ne).
      unfold fop in D2; rewrite Ha in D2; fold (@fop S) in D2.
      clear - L Ha U1 U2 G1 G2 G5 G6 H1 K1 J1 H2 K2 J2 H3 K3 J3 H4 K4 J4 H5 K5 J5 H6 K6 J6 Z1 Z2 D1 D2 Hy HE.
      k_val D1. k_val D2. subst z1 z2.
      eexists. unfold row3, fop, fel, fsc. rewrite Z1, K1, K2, K3, K4, K5, K6, Z2, J1, J2, J3, J4, J5, J6. cbn [bind]. split; [reflexivity|].
      rewrite (Hy 0) by discriminate. rewrite (Hy 3) by discriminate. rewrite (Hy 1) by discriminate. rewrite (Hy 2) by discriminate. rewrite (Hy 5) by discriminate. rewrite (Hy 6) by discriminate. f_equal. apply (by_diff L _ _ _ _ HE). ring.
    - change (col_out 2 0) with 5 in *; change (col_in 2 0) with 6 in * .
      assert (((mkFa b2 (FACE3d2 i0 j0 k0 i1 j1 k1 0))!(k + 0, i, j))%F ma = Some bv) as Hbv' by (unfold fel in * ; rewrite Fo by (cbn; k_ne); exact Hbv).
      destruct (adj_offdiag_3d_at i0 j0 k0 i1 j1 k1 pi0 pj0 pk0 pi1 pj1 pk1 2 0 btype order dx d nf beta b0 b1 b2 sgcw st i j k bv e5 e6 ma mb
        Ii Ij Ik Hg ltac:(k_rapart L) Hb ltac:(tauto) Hd0 Hd1 Hd2 Ea Hbv' H5 H6) as (U1 & U2 & U3 & U4).
      pose proof (elim_physical L btype order d (dx 2) bv (lit 2 * dx 2 / (lit 4 * bv + dx 2))%T (beta * bv / (dx 2 * (lit 3 * dx 2 + lit 16 * bv)))%T (x 5) (x 0) (x 6) (y 5) e5 e6 Nd Nh N4 ltac:(reflexivity) HG) as HE.
      change (col_out 2 0) with 5 in U1, U3; change (col_in 2 0) with 6 in U2, U3.
      destruct (adj_pair _ _ _ _ _ _ _) as [eu' ev']. cbn [fst snd] in U1, U2, HE.
      pose proof (U3 1 ltac:(lia) ltac:(discriminate) ltac:(discriminate)) as G1. rewrite H1 in G1.
      pose proof (U3 2 ltac:(lia) ltac:(discriminate) ltac:(discriminate)) as G2. rewrite H2 in G2.
      pose proof (U3 3 ltac:(lia) ltac:(discriminate) ltac:(discriminate)) as G3. rewrite H3 in G3.
      pose proof (U3 4 ltac:(lia) ltac:(discriminate) ltac:(discriminate)) as G4. rewrite H4 in G4.
      rewrite U1 in J5. rewrite U2 in J6. rewrite G1 in J1. rewrite G2 in J2. rewrite G3 in J3. rewrite G4 in J4.
      assert (((mkFa a (CELL3d ai0 aj0 ak0 ai1 aj1 ak1 0))!(i, j, k))%F mb = ((mkFa a (CELL3d ai0 aj0 ak0 ai1 aj1 ak1 0))!(i, j, k))%F ma) as Ha by (unfold fel; apply U4; cbn; k_ne).
      unfold fop in D2; rewrite Ha in D2; fold (@fop S) in D2.
      clear - L Ha U1 U2 G1 G2 G3 G4 H1 K1 J1 H2 K2 J2 H3 K3 J3 H4 K4 J4 H5 K5 J5 H6 K6 J6 Z1 Z2 D1 D2 Hy HE.
      k_val D1. k_val D2. subst z1 z2.
      eexists. unfold row3, fop, fel, fsc. rewrite Z1, K1, K2, K3, K4, K5, K6, Z2, J1, J2, J3, J4, J5, J6. cbn [bind]. split; [reflexivity|].
      rewrite (Hy 0) by discriminate. rewrite (Hy 6) by discriminate. rewrite (Hy 1) by discriminate. rewrite (Hy 2) by discriminate. rewrite (Hy 3) by discriminate. rewrite (Hy 4) by discriminate. f_equal. apply (by_diff L _ _ _ _ HE). ring.
    - change (col_out 2 1) with 6 in *; change (col_in 2 1) with 5 in * .
      assert (((mkFa b2 (FACE3d2 i0 j0 k0 i1 j1 k1 0))!(k + 1, i, j))%F ma = Some bv) as Hbv' by (unfold fel in * ; rewrite Fo by (cbn; k_ne); exact Hbv).
      destruct (adj_offdiag_3d_at i0 j0 k0 i1 j1 k1 pi0 pj0 pk0 pi1 pj1 pk1 2 1 btype order dx d nf beta b0 b1 b2 sgcw st i j k bv e6 e5 ma mb
        Ii Ij Ik Hg ltac:(k_rapart L) Hb ltac:(tauto) Hd0 Hd1 Hd2 Ea Hbv' H6 H5) as (U1 & U2 & U3 & U4).
      pose proof (elim_physical L btype order d (dx 2) bv (lit 2 * dx 2 / (lit 4 * bv + dx 2))%T (beta * bv / (dx 2 * (lit 3 * dx 2 + lit 16 * bv)))%T (x 6) (x 0) (x 5) (y 6) e6 e5 Nd Nh N4 ltac:(reflexivity) HG) as HE.
      change (col_out 2 1) with 6 in U1, U3; change (col_in 2 1) with 5 in U2, U3.
      destruct (adj_pair _ _ _ _ _ _ _) as [eu' ev']. cbn [fst snd] in U1, U2, HE.
      pose proof (U3 1 ltac:(lia) ltac:(discriminate) ltac:(discriminate)) as G1. rewrite H1 in G1.
      pose proof (U3 2 ltac:(lia) ltac:(discriminate) ltac:(discriminate)) as G2. rewrite H2 in G2.
      pose proof (U3 3 ltac:(lia) ltac:(discriminate) ltac:(discriminate)) as G3. rewrite H3 in G3.
      pose proof (U3 4 ltac:(lia) ltac:(discriminate) ltac:(discriminate)) as G4. rewrite H4 in G4.
      rewrite U1 in J6. rewrite U2 in J5. rewrite G1 in J1. rewrite G2 in J2. rewrite G3 in J3. rewrite G4 in J4.
      assert (((mkFa a (CELL3d ai0 aj0 ak0 ai1 aj1 ak1 0))!(i, j, k))%F mb = ((mkFa a (CELL3d ai0 aj0 ak0 ai1 aj1 ak1 0))!(i, j, k))%F ma) as Ha by (unfold fel; apply U4; cbn; k_ne).
      unfold fop in D2; rewrite Ha in D2; fold (@fop S) in D2.
      clear - L Ha U1 U2 G1 G2 G3 G4 H1 K1 J1 H2 K2 J2 H3 K3 J3 H4 K4 J4 H5 K5 J5 H6 K6 J6 Z1 Z2 D1 D2 Hy HE.
      k_val D1. k_val D2. subst z1 z2.
      eexists. unfold row3, fop, fel, fsc. rewrite Z1, K1, K2, K3, K4, K5, K6, Z2, J1, J2, J3, J4, J5, J6. cbn [bind]. split; [reflexivity|].
      rewrite (Hy 0) by discriminate. rewrite (Hy 5) by discriminate. rewrite (Hy 1) by discriminate. rewrite (Hy 2) by discriminate. rewrite (Hy 3) by discriminate. rewrite (Hy 4) by discriminate. f_equal. apply (by_diff L _ _ _ _ HE). ring.
  Qed.

  Lemma coarse_v1_3d i0 j0 k0 i1 j1 k1 pi0 pj0 pk0 pi1 pj1 pk1 r dir side order dx beta b0 b1 b2 alpha ai0 aj0 ak0 ai1 aj1 ak1 a sgcw st i j k (m m1 m2 : mem S) :
  i0 <= i <= i1 -> j0 <= j <= j1 -> k0 <= k <= k1 -> 0 <= sgcw -> apart st [b0; b1; b2; a] ->
  beside3 dir side pi0 pj0 pk0 pi1 pj1 pk1 i j k -> (side = 0 \/ side = 1) -> (dir = 0 -> j0 <= pj0 /\ pj1 <= j1 /\ k0 <= pk0 /\ pk1 <= k1) -> (dir = 1 -> i0 <= pi0 /\ pi1 <= i1 /\ k0 <= pk0 /\ pk1 <= k1) -> (dir = 2 -> i0 <= pi0 /\ pi1 <= i1 /\ j0 <= pj0 /\ pj1 <= j1) -> 
  (m' <- cd_stencil_3d_offdiag i0 j0 k0 i1 j1 k1 i0 j0 k0 i1 j1 k1 dx beta b0 b1 b2 sgcw st m ;;
   cd_stencil_3d_v1diag i0 j0 k0 i1 j1 k1 ai0 aj0 ak0 ai1 aj1 ak1 alpha a sgcw st m') = Some m1 ->
  (m' <- cd_stencil_3d_offdiag i0 j0 k0 i1 j1 k1 i0 j0 k0 i1 j1 k1 dx beta b0 b1 b2 sgcw st m ;; m' <- cd_stencil_3d_v1diag i0 j0 k0 i1 j1 k1 ai0 aj0 ak0 ai1 aj1 ak1 alpha a sgcw st m' ;;
   m' <- cd_stencil_3d_adj_cf_diag i0 j0 k0 i1 j1 k1 pi0 pj0 pk0 pi1 pj1 pk1 r dir side order dx beta b0 b1 b2 sgcw st m' ;;
   cd_stencil_3d_adj_cf_offdiag i0 j0 k0 i1 j1 k1 pi0 pj0 pk0 pi1 pj1 pk1 r dir side order sgcw st m') = Some m2 ->
  1 <= r ->
  forall x y : Z -> S, (forall w, w <> col_out dir side -> y w = x w) ->
  coarse_rule order (lit r) (x (col_out dir side)) (x 0) (x (col_in dir side)) (y (col_out dir side)) ->
  exists v, row3 (mkFa st ((0, 6) :: CELL3d i0 j0 k0 i1 j1 k1 sgcw)) i j k x m1 = Some v /\ row3 (mkFa st ((0, 6) :: CELL3d i0 j0 k0 i1 j1 k1 sgcw)) i j k y m2 = Some v.
  Proof.
    intros Ii Ij Ik Hg Ap Hb Hs Hd0 Hd1 Hd2 E1 E2 Hr x y Hy HG. k_apart.
    apply bind_Some_inv in E1 as (ma & Eo & Ed1). rewrite Eo in E2. cbn [bind] in E2.
    destruct (offdiag_3d_at i0 j0 k0 i1 j1 k1 i0 j0 k0 i1 j1 k1 dx beta b0 b1 b2 sgcw st m ma ltac:(k_rapart L) ltac:(k_rapart L) ltac:(k_rapart L) ltac:(k_rapart L) ltac:(k_rapart L) Eo) as (Vo & Fo).
    destruct (v1diag_3d_at L i0 j0 k0 i1 j1 k1 ai0 aj0 ak0 ai1 aj1 ak1 alpha a sgcw st ma m1 ltac:(k_rapart L) ltac:(k_rapart L) ltac:(k_rapart L) ltac:(k_rapart L) ltac:(k_rapart L) Ed1) as (Vd & Fd).
    specialize (Vo i j k Ii Ij Ik). specialize (Vd i j k Ii Ij Ik).
    destruct Vo as ((e1 & H1 & V1) & (e2 & H2 & V2) & (e3 & H3 & V3) & (e4 & H4 & V4) & (e5 & H5 & V5) & (e6 & H6 & V6)).
    destruct Vd as ((z1 & Z1 & D1) & K1 & K2 & K3 & K4 & K5 & K6).
    rewrite H1 in K1. rewrite H2 in K2. rewrite H3 in K3. rewrite H4 in K4. rewrite H5 in K5. rewrite H6 in K6.
    rewrite Ed1 in E2. cbn [bind] in E2. apply bind_Some_inv in E2 as (mb & Ec & Eo2).
    assert (order = 1 \/ order = 2) as Ho by (destruct HG as [(HG & _)|(HG & _)]; rewrite HG; tauto).
    assert (dir = 0 \/ dir = 1 \/ dir = 2) as Hdir by (unfold beside3 in Hb; lia).
    destruct Hdir as [Hdir|[Hdir|Hdir]]; subst dir; destruct Hs as [Hs|Hs]; subst side.
    - change (col_out 0 0) with 1 in *; change (col_in 0 0) with 2 in * .
      assert (exists bv, ((mkFa b0 (FACE3d0 i0 j0 k0 i1 j1 k1 0))!(i + 0, j, k))%F m1 = Some bv /\ e1 = (- (beta / (dx 0 * dx 0)) * bv)%T) as (bv & Hbv & Eu).
      { revert V1. unfold fop, fsc, fel. replace (i + 0) with i by lia; cbn [bind]. intros Q. apply bind_Some_inv in Q as (bv & Q1 & Q2).
        exists bv. rewrite Fd by (cbn; k_ne). rewrite Fo by (cbn; k_ne). split; [exact Q1|]. injection Q2 as <-. rewrite (neg_div L). reflexivity. }
      destruct (adj_cf_diag_3d_at i0 j0 k0 i1 j1 k1 pi0 pj0 pk0 pi1 pj1 pk1 r 0 0 order dx beta b0 b1 b2 sgcw st i j k bv z1 m1 mb
        Ii Ij Ik Hg ltac:(k_rapart L) Hb ltac:(tauto) Hd0 Hd1 Hd2 Ec Hbv Z1) as (W1 & W2 & W3).
      rewrite <- (W2 1) in K1 by lia. rewrite <- (W2 2) in K2 by lia.
      destruct (adj_cf_offdiag_3d_at i0 j0 k0 i1 j1 k1 pi0 pj0 pk0 pi1 pj1 pk1 r 0 0 order sgcw st i j k e1 e2 mb m2
        Ii Ij Ik Hg Hb ltac:(tauto) Hd0 Hd1 Hd2 Eo2 K1 K2) as (U1 & U2 & U3 & U4).
      rewrite (W2 1) in K1 by lia. rewrite (W2 2) in K2 by lia.
      pose proof (elim_coarse L r order (x 1) (x 0) (x 2) (y 1) e1 e2 z1 _ Hr HG eq_refl) as HE.
      rewrite (cf_part_eq L r order _ bv z1 e1 Ho Eu) in W1.
      change (col_out 0 0) with 1 in U1, U3; change (col_in 0 0) with 2 in U2, U3.
      destruct (cf_pair _ _ _ _) as [eu' ev']. cbn [fst snd] in U1, U2, HE.
      pose proof (U3 0 ltac:(lia) ltac:(discriminate) ltac:(discriminate)) as G0. rewrite W1 in G0.
      pose proof (U3 3 ltac:(lia) ltac:(discriminate) ltac:(discriminate)) as G3. rewrite (W2 3), K3 in G3 by lia.
      pose proof (U3 4 ltac:(lia) ltac:(discriminate) ltac:(discriminate)) as G4. rewrite (W2 4), K4 in G4 by lia.
      pose proof (U3 5 ltac:(lia) ltac:(discriminate) ltac:(discriminate)) as G5. rewrite (W2 5), K5 in G5 by lia.
      pose proof (U3 6 ltac:(lia) ltac:(discriminate) ltac:(discriminate)) as G6. rewrite (W2 6), K6 in G6 by lia.
      clear - L G0 U1 U2 G3 G4 G5 G6 K1 K2 K3 K4 K5 K6 Z1 Hy HE.
      unfold fel in * . eexists. unfold row3, fop, fel, fsc. rewrite Z1, K1, K2, K3, K4, K5, K6, G0, U1, U2, G3, G4, G5, G6. cbn [bind]. split; [reflexivity|].
      rewrite (Hy 0) by discriminate. rewrite (Hy 2) by discriminate. rewrite (Hy 3) by discriminate. rewrite (Hy 4) by discriminate. rewrite (Hy 5) by discriminate. rewrite (Hy 6) by discriminate. f_equal. apply (by_diff L _ _ _ _ HE). ring.
    - change (col_out 0 1) with 2 in *; change (col_in 0 1) with 1 in * .
      assert (exists bv, ((mkFa b0 (FACE3d0 i0 j0 k0 i1 j1 k1 0))!(i + 1, j, k))%F m1 = Some bv /\ e2 = (- (beta / (dx 0 * dx 0)) * bv)%T) as (bv & Hbv & Eu).
      { revert V2. unfold fop, fsc, fel. cbn [bind]. intros Q. apply bind_Some_inv in Q as (bv & Q1 & Q2).
        exists bv. rewrite Fd by (cbn; k_ne). rewrite Fo by (cbn; k_ne). split; [exact Q1|]. injection Q2 as <-. rewrite (neg_div L). reflexivity. }
      destruct (adj_cf_diag_3d_at i0 j0 k0 i1 j1 k1 pi0 pj0 pk0 pi1 pj1 pk1 r 0 1 order dx beta b0 b1 b2 sgcw st i j k bv z1 m1 mb
        Ii Ij Ik Hg ltac:(k_rapart L) Hb ltac:(tauto) Hd0 Hd1 Hd2 Ec Hbv Z1) as (W1 & W2 & W3).
      rewrite <- (W2 2) in K2 by lia. rewrite <- (W2 1) in K1 by lia.
      destruct (adj_cf_offdiag_3d_at i0 j0 k0 i1 j1 k1 pi0 pj0 pk0 pi1 pj1 pk1 r 0 1 order sgcw st i j k e2 e1 mb m2
        Ii Ij Ik Hg Hb ltac:(tauto) Hd0 Hd1 Hd2 Eo2 K2 K1) as (U1 & U2 & U3 & U4).
      rewrite (W2 2) in K2 by lia. rewrite (W2 1) in K1 by lia.
      pose proof (elim_coarse L r order (x 2) (x 0) (x 1) (y 2) e2 e1 z1 _ Hr HG eq_refl) as HE.
      rewrite (cf_part_eq L r order _ bv z1 e2 Ho Eu) in W1.
      change (col_out 0 1) with 2 in U1, U3; change (col_in 0 1) with 1 in U2, U3.
      destruct (cf_pair _ _ _ _) as [eu' ev']. cbn [fst snd] in U1, U2, HE.
      pose proof (U3 0 ltac:(lia) ltac:(discriminate) ltac:(discriminate)) as G0. rewrite W1 in G0.
      pose proof (U3 3 ltac:(lia) ltac:(discriminate) ltac:(discriminate)) as G3. rewrite (W2 3), K3 in G3 by lia.
      pose proof (U3 4 ltac:(lia) ltac:(discriminate) ltac:(discriminate)) as G4. rewrite (W2 4), K4 in G4 by lia.
      pose proof (U3 5 ltac:(lia) ltac:(discriminate) ltac:(discriminate)) as G5. rewrite (W2 5), K5 in G5 by lia.
      pose proof (U3 6 ltac:(lia) ltac:(discriminate) ltac:(discriminate)) as G6. rewrite (W2 6), K6 in G6 by lia.
      clear - L G0 U1 U2 G3 G4 G5 G6 K1 K2 K3 K4 K5 K6 Z1 Hy HE.
      unfold fel in * . eexists. unfold row3, fop, fel, fsc. rewrite Z1, K1, K2, K3, K4, K5, K6, G0, U2, U1, G3, G4, G5, G6. cbn [bind]. split; [reflexivity|].
      rewrite (Hy 0) by discriminate. rewrite (Hy 1) by discriminate. rewrite (Hy 3) by discriminate. rewrite (Hy 4) by discriminate. rewrite (Hy 5) by discriminate. rewrite (Hy 6) by discriminate. f_equal. apply (by_diff L _ _ _ _ HE). ring.
    - change (col_out 1 0) with 3 in *; change (col_in 1 0) with 4 in * .
      assert (exists bv, ((mkFa b1 (FACE3d1 i0 j0 k0 i1 j1 k1 0))!(j + 0, k, i))%F m1 = Some bv /\ e3 = (- (beta / (dx 1 * dx 1)) * bv)%T) as (bv & Hbv & Eu).
      { revert V3. unfold fop, fsc, fel. replace (j + 0) with j by lia; cbn [bind]. intros Q. apply bind_Some_inv in Q as (bv & Q1 & Q2).
        exists bv. rewrite Fd by (cbn; k_ne). rewrite Fo by (cbn; k_ne). split; [exact Q1|]. injection Q2 as <-. rewrite (neg_div L). reflexivity. }
      destruct (adj_cf_diag_3d_at i0 j0 k0 i1 j1 k1 pi0 pj0 pk0 pi1 pj1 pk1 r 1 0 order dx beta b0 b1 b2 sgcw st i j k bv z1 m1 mb
        Ii Ij Ik Hg ltac:(k_rapart L) Hb ltac:(tauto) Hd0 Hd1 Hd2 Ec Hbv Z1) as (W1 & W2 & W3).
      rewrite <- (W2 3) in K3 by lia. rewrite <- (W2 4) in K4 by lia.
      destruct (adj_cf_offdiag_3d_at i0 j0 k0 i1 j1 k1 pi0 pj0 pk0 pi1 pj1 pk1 r 1 0 order sgcw st i j k e3 e4 mb m2
        Ii Ij Ik Hg Hb ltac:(tauto) Hd0 Hd1 Hd2 Eo2 K3 K4) as (U1 & U2 & U3 & U4).
      rewrite (W2 3) in K3 by lia. rewrite (W2 4) in K4 by lia.
      pose proof (elim_coarse L r order (x 3) (x 0) (x 4) (y 3) e3 e4 z1 _ Hr HG eq_refl) as HE.
      rewrite (cf_part_eq L r order _ bv z1 e3 Ho Eu) in W1.
      change (col_out 1 0) with 3 in U1, U3; change (col_in 1 0) with 4 in U2, U3.
      destruct (cf_pair _ _ _ _) as [eu' ev']. cbn [fst snd] in U1, U2, HE.
      pose proof (U3 0 ltac:(lia) ltac:(discriminate) ltac:(discriminate)) as G0. rewrite W1 in G0.
      pose proof (U3 1 ltac:(lia) ltac:(discriminate) ltac:(discriminate)) as G1. rewrite (W2 1), K1 in G1 by lia.
      pose proof (U3 2 ltac:(lia) ltac:(discriminate) ltac:(discriminate)) as G2. rewrite (W2 2), K2 in G2 by lia.
      pose proof (U3 5 ltac:(lia) ltac:(discriminate) ltac:(discriminate)) as G5. rewrite (W2 5), K5 in G5 by lia.
      pose proof (U3 6 ltac:(lia) ltac:(discriminate) ltac:(discriminate)) as G6. rewrite (W2 6), K6 in G6 by lia.
      clear - L G0 U1 U2 G1 G2 G5 G6 K1 K2 K3 K4 K5 K6 Z1 Hy HE.
      unfold fel in * . eexists. unfold row3, fop, fel, fsc. rewrite Z1, K1, K2, K3, K4, K5, K6, G0, G1, G2, U1, U2, G5, G6. cbn [bind]. split; [reflexivity|].
      rewrite (Hy 0) by discriminate. rewrite (Hy 4) by discriminate. rewrite (Hy 1) by discriminate. rewrite (Hy 2) by discriminate. rewrite (Hy 5) by discriminate. rewrite (Hy 6) by discriminate. f_equal. apply (by_diff L _ _ _ _ HE). ring.
    - change (col_out 1 1) with 4 in *; change (col_in 1 1) with 3 in * .
      assert (exists bv, ((mkFa b1 (FACE3d1 i0 j0 k0 i1 j1 k1 0))!(j + 1, k, i))%F m1 = Some bv /\ e4 = (- (beta / (dx 1 * dx 1)) * bv)%T) as (bv & Hbv & Eu).
      { revert V4. unfold fop, fsc, fel. cbn [bind]. intros Q. apply bind_Some_inv in Q as (bv & Q1 & Q2).
        exists bv. rewrite Fd by (cbn; k_ne). rewrite Fo by (cbn; k_ne). split; [exact Q1|]. injection Q2 as <-. rewrite (neg_div L). reflexivity. }
      destruct (adj_cf_diag_3d_at i0 j0 k0 i1 j1 k1 pi0 pj0 pk0 pi1 pj1 pk1 r 1 1 order dx beta b0 b1 b2 sgcw st i j k bv z1 m1 mb
        Ii Ij Ik Hg ltac:(k_rapart L) Hb ltac:(tauto) Hd0 Hd1 Hd2 Ec Hbv Z1) as (W1 & W2 & W3).
      rewrite <- (W2 4) in K4 by lia. rewrite <- (W2 3) in K3 by lia.
      destruct (adj_cf_offdiag_3d_at i0 j0 k0 i1 j1 k1 pi0 pj0 pk0 pi1 pj1 pk1 r 1 1 order sgcw st i j k e4 e3 mb m2
        Ii Ij Ik Hg Hb ltac:(tauto) Hd0 Hd1 Hd2 Eo2 K4 K3) as (U1 & U2 & U3 & U4).
      rewrite (W2 4) in K4 by lia. rewrite (W2 3) in K3 by lia.
      pose proof (elim_coarse L r order (x 4) (x 0) (x 3) (y 4) e4 e3 z1 _ Hr HG eq_refl) as HE.
      rewrite (cf_part_eq L r order _ bv z1 e4 Ho Eu) in W1.
      change (col_out 1 1) with 4 in U1, U3; change (col_in 1 1) with 3 in U2, U3.
      destruct (cf_pair _ _ _ _) as [eu' ev']. cbn [fst snd] in U1, U2, HE.
      pose proof (U3 0 ltac:(lia) ltac:(discriminate) ltac:(discriminate)) as G0. rewrite W1 in G0.
      pose proof (U3 1 ltac:(lia) ltac:(discriminate) ltac:(discriminate)) as G1. rewrite (W2 1), K1 in G1 by lia.
      pose proof (U3 2 ltac:(lia) ltac:(discriminate) ltac:(discriminate)) as G2. rewrite (W2 2), K2 in G2 by lia.
      pose proof (U3 5 ltac:(lia) ltac:(discriminate) ltac:(discriminate)) as G5. rewrite (W2 5), K5 in G5 by lia.
      pose proof (U3 6 ltac:(lia) ltac:(discriminate) ltac:(discriminate)) as G6. rewrite (W2 6), K6 in G6 by lia.
      clear - L G0 U1 U2 G1 G2 G5 G6 K1 K2 K3 K4 K5 K6 Z1 Hy HE.
      unfold fel in * . eexists. unfold row3, fop, fel, fsc. rewrite Z1, K1, K2, K3, K4, K5, K6, G0, G1, G2, U2, U1, G5, G6. cbn [bind]. split; [reflexivity|].
      rewrite (Hy 0) by discriminate. rewrite (Hy 3) by discriminate. rewrite (Hy 1) by discriminate. rewrite (Hy 2) by discriminate. rewrite (Hy 5) by discriminate. rewrite (Hy 6) by discriminate. f_equal. apply (by_diff L _ _ _ _ HE). ring.
    - change (col_out 2 0) with 5 in *; change (col_in 2 0) with 6 in * .
      assert (exists bv, ((mkFa b2 (FACE3d2 i0 j0 k0 i1 j1 k1 0))!(k + 0, i, j))%F m1 = Some bv /\ e5 = (- (beta / (dx 2 * dx 2)) * bv)%T) as (bv & Hbv & Eu).
      { revert V5. unfold fop, fsc, fel. replace (k + 0) with k by lia; cbn [bind]. intros Q. apply bind_Some_inv in Q as (bv & Q1 & Q2).
        exists bv. rewrite Fd by (cbn; k_ne). rewrite Fo by (cbn; k_ne). split; [exact Q1|]. injection Q2 as <-. rewrite (neg_div L). reflexivity. }
      destruct (adj_cf_diag_3d_at i0 j0 k0 i1 j1 k1 pi0 pj0 pk0 pi1 pj1 pk1 r 2 0 order dx beta b0 b1 b2 sgcw st i j k bv z1 m1 mb
        Ii Ij Ik Hg ltac:(k_rapart L) Hb ltac:(tauto) Hd0 Hd1 Hd2 Ec Hbv Z1) as (W1 & W2 & W3).
      rewrite <- (W2 5) in K5 by lia. rewrite <- (W2 6) in K6 by lia.
      destruct (adj_cf_offdiag_3d_at i0 j0 k0 i1 j1 k1 pi0 pj0 pk0 pi1 pj1 pk1 r 2 0 order sgcw st i j k e5 e6 mb m2
        Ii Ij Ik Hg Hb ltac:(tauto) Hd0 Hd1 Hd2 Eo2 K5 K6) as (U1 & U2 & U3 & U4).
      rewrite (W2 5) in K5 by lia. rewrite (W2 6) in K6 by lia.
      pose proof (elim_coarse L r order (x 5) (x 0) (x 6) (y 5) e5 e6 z1 _ Hr HG eq_refl) as HE.
      rewrite (cf_part_eq L r order _ bv z1 e5 Ho Eu) in W1.
      change (col_out 2 0) with 5 in U1, U3; change (col_in 2 0) with 6 in U2, U3.
      destruct (cf_pair _ _ _ _) as [eu' ev']. cbn [fst snd] in U1, U2, HE.
      pose proof (U3 0 ltac:(lia) ltac:(discriminate) ltac:(discriminate)) as G0. rewrite W1 in G0.
      pose proof (U3 1 ltac:(lia) ltac:(discriminate) ltac:(discriminate)) as G1. rewrite (W2 1), K1 in G1 by lia.
      pose proof (U3 2 ltac:(lia) ltac:(discriminate) ltac:(discriminate)) as G2. rewrite (W2 2), K2 in G2 by lia.
      pose proof (U3 3 ltac:(lia) ltac:(discriminate) ltac:(discriminate)) as G3. rewrite (W2 3), K3 in G3 by lia.
      pose proof (U3 4 ltac:(lia) ltac:(discriminate) ltac:(discriminate)) as G4. rewrite (W2 4), K4 in G4 by lia.
      clear - L G0 U1 U2 G1 G2 G3 G4 K1 K2 K3 K4 K5 K6 Z1 Hy HE.
      unfold fel in * . eexists. unfold row3, fop, fel, fsc. rewrite Z1, K1, K2, K3, K4, K5, K6, G0, G1, G2, G3, G4, U1, U2. cbn [bind]. split; [reflexivity|].
      rewrite (Hy 0) by discriminate. rewrite (Hy 6) by discriminate. rewrite (Hy 1) by discriminate. rewrite (Hy 2) by discriminate. rewrite (Hy 3) by discriminate. rewrite (Hy 4) by discriminate. f_equal. apply (by_diff L _ _ _ _ HE). ring.
    - change (col_out 2 1) with 6 in *; change (col_in 2 1) with 5 in * .
      assert (exists bv, ((mkFa b2 (FACE3d2 i0 j0 k0 i1 j1 k1 0))!(k + 1, i, j))%F m1 = Some bv /\ e6 = (- (beta / (dx 2 * dx 2)) * bv)%T) as (bv & Hbv & Eu).
      { revert V6. unfold fop, fsc, fel. cbn [bind]. intros Q. apply bind_Some_inv in Q as (bv & Q1 & Q2).
        exists bv. rewrite Fd by (cbn; k_ne). rewrite Fo by (cbn; k_ne). split; [exact Q1|]. injection Q2 as <-. rewrite (neg_div L). reflexivity. }
      destruct (adj_cf_diag_3d_at i0 j0 k0 i1 j1 k1 pi0 pj0 pk0 pi1 pj1 pk1 r 2 1 order dx beta b0 b1 b2 sgcw st i j k bv z1 m1 mb
        Ii Ij Ik Hg ltac:(k_rapart L) Hb ltac:(tauto) Hd0 Hd1 Hd2 Ec Hbv Z1) as (W1 & W2 & W3).
      rewrite <- (W2 6) in K6 by lia. rewrite <- (W2 5) in K5 by lia.
      destruct (adj_cf_offdiag_3d_at i0 j0 k0 i1 j1 k1 pi0 pj0 pk0 pi1 pj1 pk1 r 2 1 order sgcw st i j k e6 e5 mb m2
        Ii Ij Ik Hg Hb ltac:(tauto) Hd0 Hd1 Hd2 Eo2 K6 K5) as (U1 & U2 & U3 & U4).
      rewrite (W2 6) in K6 by lia. rewrite (W2 5) in K5 by lia.
      pose proof (elim_coarse L r order (x 6) (x 0) (x 5) (y 6) e6 e5 z1 _ Hr HG eq_refl) as HE.
      rewrite (cf_part_eq L r order _ bv z1 e6 Ho Eu) in W1.
      change (col_out 2 1) with 6 in U1, U3; change (col_in 2 1) with 5 in U2, U3.
      destruct (cf_pair _ _ _ _) as [eu' ev']. cbn [fst snd] in U1, U2, HE.
      pose proof (U3 0 ltac:(lia) ltac:(discriminate) ltac:(discriminate)) as G0. rewrite W1 in G0.
      pose proof (U3 1 ltac:(lia) ltac:(discriminate) ltac:(discriminate)) as G1. rewrite (W2 1), K1 in G1 by lia.
      pose proof (U3 2 ltac:(lia) ltac:(discriminate) ltac:(discriminate)) as G2. rewrite (W2 2), K2 in G2 by lia.
      pose proof (U3 3 ltac:(lia) ltac:(discriminate) ltac:(discriminate)) as G3. rewrite (W2 3), K3 in G3 by lia.
      pose proof (U3 4 ltac:(lia) ltac:(discriminate) ltac:(discriminate)) as G4. rewrite (W2 4), K4 in G4 by lia.
      clear - L G0 U1 U2 G1 G2 G3 G4 K1 K2 K3 K4 K5 K6 Z1 Hy HE.
      unfold fel in * . eexists. unfold row3, fop, fel, fsc. rewrite Z1, K1, K2, K3, K4, K5, K6, G0, G1, G2, G3, G4, U2, U1. cbn [bind]. split; [reflexivity|].
      rewrite (Hy 0) by discriminate. rewrite (Hy 5) by discriminate. rewrite (Hy 1) by discriminate. rewrite (Hy 2) by discriminate. rewrite (Hy 3) by discriminate. rewrite (Hy 4) by discriminate. f_equal. apply (by_diff L _ _ _ _ HE). ring.
  Qed.

  Lemma physical_v2_3d i0 j0 k0 i1 j1 k1 pi0 pj0 pk0 pi1 pj1 pk1 dir side btype order dx d nf beta b0 b1 b2 alpha sgcw st i j k (m m1 m2 : mem S) :
  i0 <= i <= i1 -> j0 <= j <= j1 -> k0 <= k <= k1 -> 0 <= sgcw -> apart st [b0; b1; b2] ->
  beside3 dir side pi0 pj0 pk0 pi1 pj1 pk1 i j k -> (side = 0 \/ side = 1) -> (dir = 0 -> j0 <= pj0 /\ pj1 <= j1 /\ k0 <= pk0 /\ pk1 <= k1) -> (dir = 1 -> i0 <= pi0 /\ pi1 <= i1 /\ k0 <= pk0 /\ pk1 <= k1) -> (dir = 2 -> i0 <= pi0 /\ pi1 <= i1 /\ j0 <= pj0 /\ pj1 <= j1) -> 
  (m' <- cd_stencil_3d_offdiag i0 j0 k0 i1 j1 k1 i0 j0 k0 i1 j1 k1 dx beta b0 b1 b2 sgcw st m ;;
   cd_stencil_3d_v2diag i0 j0 k0 i1 j1 k1 alpha sgcw st m') = Some m1 ->
  (m' <- cd_stencil_3d_offdiag i0 j0 k0 i1 j1 k1 i0 j0 k0 i1 j1 k1 dx beta b0 b1 b2 sgcw st m ;;
   m' <- cd_stencil_3d_adj_offdiag i0 j0 k0 i1 j1 k1 pi0 pj0 pk0 pi1 pj1 pk1 dir side btype order dx d nf beta b0 b1 b2 sgcw st m' ;;
   cd_stencil_3d_v2diag i0 j0 k0 i1 j1 k1 alpha sgcw st m') = Some m2 ->
  forall bv, (if dir =? 0 then ((mkFa b0 (FACE3d0 i0 j0 k0 i1 j1 k1 0))!(i + side, j, k))%F else if dir =? 1 then ((mkFa b1 (FACE3d1 i0 j0 k0 i1 j1 k1 0))!(j + side, k, i))%F else ((mkFa b2 (FACE3d2 i0 j0 k0 i1 j1 k1 0))!(k + side, i, j))%F) m = Some bv ->
  (btype = 0 -> d <> lit 0) -> dx dir <> lit 0 -> (btype = 4 -> (lit 4 * bv + dx dir)%T <> lit 0) ->
  forall x y : Z -> S, (forall w, w <> col_out dir side -> y w = x w) ->
  ghost_rule btype order d (dx dir) bv (x (col_out dir side)) (x 0) (x (col_in dir side)) (y (col_out dir side)) ->
  exists v, row3 (mkFa st ((0, 6) :: CELL3d i0 j0 k0 i1 j1 k1 sgcw)) i j k x m1 = Some v /\ row3 (mkFa st ((0, 6) :: CELL3d i0 j0 k0 i1 j1 k1 sgcw)) i j k y m2 = Some v.
  Proof.
    intros Ii Ij Ik Hg Ap Hb Hs Hd0 Hd1 Hd2 E1 E2 bv Hbv Nd Nh N4 x y Hy HG. k_apart.
    apply bind_Some_inv in E1 as (ma & Eo & Ed1). rewrite Eo in E2. cbn [bind] in E2.
    destruct (offdiag_3d_at i0 j0 k0 i1 j1 k1 i0 j0 k0 i1 j1 k1 dx beta b0 b1 b2 sgcw st m ma ltac:(k_rapart L) ltac:(k_rapart L) ltac:(k_rapart L) ltac:(k_rapart L) ltac:(k_rapart L) Eo) as (Vo & Fo).
    destruct (v2diag_3d_at L i0 j0 k0 i1 j1 k1 alpha sgcw st ma m1 ltac:(k_rapart L) ltac:(k_rapart L) ltac:(k_rapart L) ltac:(k_rapart L) Ed1) as (Vd & Fd).
    specialize (Vo i j k Ii Ij Ik). specialize (Vd i j k Ii Ij Ik).
    destruct Vo as ((e1 & H1 & V1) & (e2 & H2 & V2) & (e3 & H3 & V3) & (e4 & H4 & V4) & (e5 & H5 & V5) & (e6 & H6 & V6)).
    destruct Vd as ((z1 & Z1 & D1) & K1 & K2 & K3 & K4 & K5 & K6).
    rewrite H1 in K1. rewrite H2 in K2. rewrite H3 in K3. rewrite H4 in K4. rewrite H5 in K5. rewrite H6 in K6.
    apply bind_Some_inv in E2 as (mb & Ea & Ed2).
    destruct (v2diag_3d_at L i0 j0 k0 i1 j1 k1 alpha sgcw st mb m2 ltac:(k_rapart L) ltac:(k_rapart L) ltac:(k_rapart L) ltac:(k_rapart L) Ed2) as (Vd & Fd2).
    specialize (Vd i j k Ii Ij Ik).
    destruct Vd as ((z2 & Z2 & D2) & J1 & J2 & J3 & J4 & J5 & J6).
    assert (dir = 0 \/ dir = 1 \/ dir = 2) as Hdir by (unfold beside3 in Hb; lia).
    destruct Hdir as [Hdir|[Hdir|Hdir]]; subst dir; destruct Hs as [Hs|Hs]; subst side.
    - change (col_out 0 0) with 1 in *; change (col_in 0 0) with 2 in * .
      assert (((mkFa b0 (FACE3d0 i0 j0 k0 i1 j1 k1 0))!(i + 0, j, k))%F ma = Some bv) as Hbv' by (unfold fel in * ; rewrite Fo by (cbn; k_ne); exact Hbv).
      destruct (adj_offdiag_3d_at i0 j0 k0 i1 j1 k1 pi0 pj0 pk0 pi1 pj1 pk1 0 0 btype order dx d nf beta b0 b1 b2 sgcw st i j k bv e1 e2 ma mb
        Ii Ij Ik Hg ltac:(k_rapart L) Hb ltac:(tauto) Hd0 Hd1 Hd2 Ea Hbv' H1 H2) as (U1 & U2 & U3 & U4).
      pose proof (elim_physical L btype order d (dx 0) bv (lit 2 * dx 0 / (lit 4 * bv + dx 0))%T (beta * bv / (dx 0 * (lit 3 * dx 0 + lit 16 * bv)))%T (x 1) (x 0) (x 2) (y 1) e1 e2 Nd Nh N4 ltac:(reflexivity) HG) as HE.
      change (col_out 0 0) with 1 in U1, U3; change (col_in 0 0) with 2 in U2, U3.
      destruct (adj_pair _ _ _ _ _ _ _) as [eu' ev']. cbn [fst snd] in U1, U2, HE.
      pose proof (U3 3 ltac:(lia) ltac:(discriminate) ltac:(discriminate)) as G3. rewrite H3 in G3.
      pose proof (U3 4 ltac:(lia) ltac:(discriminate) ltac:(discriminate)) as G4. rewrite H4 in G4.
      pose proof (U3 5 ltac:(lia) ltac:(discriminate) ltac:(discriminate)) as G5. rewrite H5 in G5.
      pose proof (U3 6 ltac:(lia) ltac:(discriminate) ltac:(discriminate)) as G6. rewrite H6 in G6.
      rewrite U1 in J1. rewrite U2 in J2. rewrite G3 in J3. rewrite G4 in J4. rewrite G5 in J5. rewrite G6 in J6.
      clear - L U1 U2 G3 G4 G5 G6 H1 K1 J1 H2 K2 J2 H3 K3 J3 H4 K4 J4 H5 K5 J5 H6 K6 J6 Z1 Z2 D1 D2 Hy HE.
      k_val D1. k_val D2. subst z1 z2.
      eexists. unfold row3, fop, fel, fsc. rewrite Z1, K1, K2, K3, K4, K5, K6, Z2, J1, J2, J3, J4, J5, J6. cbn [bind]. split; [reflexivity|].
      rewrite (Hy 0) by discriminate. rewrite (Hy 2) by discriminate. rewrite (Hy 3) by discriminate. rewrite (Hy 4) by discriminate. rewrite (Hy 5) by discriminate. rewrite (Hy 6) by discriminate. f_equal. apply (by_diff L _ _ _ _ HE). ring.
    - change (col_out 0 1) with 2 in *; change (col_in 0 1) with 1 in * .
      assert (((mkFa b0 (FACE3d0 i0 j0 k0 i1 j1 k1 0))!(i + 1, j, k))%F ma = Some bv) as Hbv' by (unfold fel in * ; rewrite Fo by (cbn; k_ne); exact Hbv).
      destruct (adj_offdiag_3d_at i0 j0 k0 i1 j1 k1 pi0 pj0 pk0 pi1 pj1 pk1 0 1 btype order dx d nf beta b0 b1 b2 sgcw st i j k bv e2 e1 ma mb
        Ii Ij Ik Hg ltac:(k_rapart L) Hb ltac:(tauto) Hd0 Hd1 Hd2 Ea Hbv' H2 H1) as (U1 & U2 & U3 & U4).
      pose proof (elim_physical L btype order d (dx 0) bv (lit 2 * dx 0 / (lit 4 * bv + dx 0))%T (beta * bv / (dx 0 * (lit 3 * dx 0 + lit 16 * bv)))%T (x 2) (x 0) (x 1) (y 2) e2 e1 Nd Nh N4 ltac:(reflexivity) HG) as HE.
      change (col_out 0 1) with 2 in U1, U3; change (col_in 0 1) with 1 in U2, U3.
      destruct (adj_pair _ _ _ _ _ _ _) as [eu' ev']. cbn [fst snd] in U1, U2, HE.
      pose proof (U3 3 ltac:(lia) ltac:(discriminate) ltac:(discriminate)) as G3. rewrite H3 in G3.
      pose proof (U3 4 ltac:(lia) ltac:(discriminate) ltac:(discriminate)) as G4. rewrite H4 in G4.
      pose proof (U3 5 ltac:(lia) ltac:(discriminate) ltac:(discriminate)) as G5. rewrite H5 in G5.
      pose proof (U3 6 ltac:(lia) ltac:(discriminate) ltac:(discriminate)) as G6. rewrite H6 in G6.
      rewrite U1 in J2. rewrite U2 in J1. rewrite G3 in J3. rewrite G4 in J4. rewrite G5 in J5. rewrite G6 in J6.
      clear - L U1 U2 G3 G4 G5 G6 H1 K1 J1 H2 K2 J2 H3 K3 J3 H4 K4 J4 H5 K5 J5 H6 K6 J6 Z1 Z2 D1 D2 Hy HE.
      k_val D1. k_val D2. subst z1 z2.
      eexists. unfold row3, fop, fel, fsc. rewrite Z1, K1, K2, K3, K4, K5, K6, Z2, J1, J2, J3, J4, J5, J6. cbn [bind]. split; [reflexivity|].
      rewrite (Hy 0) by discriminate. rewrite (Hy 1) by discriminate. rewrite (Hy 3) by discriminate. rewrite (Hy 4) by discriminate. rewrite (Hy 5) by discriminate. rewrite (Hy 6) by discriminate. f_equal. apply (by_diff L _ _ _ _ HE). ring.
    - change (col_out 1 0) with 3 in *; change (col_in 1 0) with 4 in * .
      assert (((mkFa b1 (FACE3d1 i0 j0 k0 i1 j1 k1 0))!(j + 0, k, i))%F ma = Some bv) as Hbv' by (unfold fel in * ; rewrite Fo by (cbn; k_ne); exact Hbv).
      destruct (adj_offdiag_3d_at i0 j0 k0 i1 j1 k1 pi0 pj0 pk0 pi1 pj1 pk1 1 0 btype order dx d nf beta b0 b1 b2 sgcw st i j k bv e3 e4 ma mb
        Ii Ij Ik Hg ltac:(k_rapart L) Hb ltac:(tauto) Hd0 Hd1 Hd2 Ea Hbv' H3 H4) as (U1 & U2 & U3 & U4).
      pose proof (elim_physical L btype order d (dx 1) bv (lit 2 * dx 1 / (lit 4 * bv + dx 1))%T (beta * bv / (dx 1 * (lit 3 * dx 1 + lit 16 * bv)))%T (x 3) (x 0) (x 4) (y 3) e3 e4 Nd Nh N4 ltac:(reflexivity) HG) as HE.
      change (col_out 1 0) with 3 in U1, U3; change (col_in 1 0) with 4 in U2, U3.
      destruct (adj_pair _ _ _ _ _ _ _) as [eu' ev']. cbn [fst snd] in U1, U2, HE.
      pose proof (U3 1 ltac:(lia) ltac:(discriminate) ltac:(discriminate)) as G1. rewrite H1 in G1.
      pose proof (U3 2 ltac:(lia) ltac:(discriminate) ltac:(discriminate)) as G2. rewrite H2 in G2.
      pose proof (U3 5 ltac:(lia) ltac:(discriminate) ltac:(discriminate)) as G5. rewrite H5 in G5.
      pose proof (U3 6 ltac:(lia) ltac:(discriminate) ltac:(discriminate)) as G6. rewrite H6 in G6.
      rewrite U1 in J3. rewrite U2 in J4. rewrite G1 in J1. rewrite G2 in J2. rewrite G5 in J5. rewrite G6 in J6.
      clear - L U1 U2 G1 G2 G5 G6 H1 K1 J1 H2 K2 J2 H3 K3 J3 H4 K4 J4 H5 K5 J5 H6 K6 J6 Z1 Z2 D1 D2 Hy HE.
      k_val D1. k_val D2. subst z1 z2.
      eexists. unfold row3, fop, fel, fsc. rewrite Z1, K1, K2, K3, K4, K5, K6, Z2, J1, J2, J3, J4, J5, J6. cbn [bind]. split; [reflexivity|].
      rewrite (Hy 0) by discriminate. rewrite (Hy 4) by discriminate. rewrite (Hy 1) by discriminate. rewrite (Hy 2) by discriminate. rewrite (Hy 5) by discriminate. rewrite (Hy 6) by discriminate. f_equal. apply (by_diff L _ _ _ _ HE). ring.
    - change (col_out 1 1) with 4 in *; change (col_in 1 1) with 3 in * .
      assert (((mkFa b1 (FACE3d1 i0 j0 k0 i1 j1 k1 0))!(j + 1, k, i))%F ma = Some bv) as Hbv' by (unfold fel in * ; rewrite Fo by (cbn; k_ne); exact Hbv).
      destruct (adj_offdiag_3d_at i0 j0 k0 i1 j1 k1 pi0 pj0 pk0 pi1 pj1 pk1 1 1 btype order dx d nf beta b0 b1 b2 sgcw st i j k bv e4 e3 ma mb
        Ii Ij Ik Hg ltac:(k_rapart L) Hb ltac:(tauto) Hd0 Hd1 Hd2 Ea Hbv' H4 H3) as (U1 & U2 & U3 & U4).
      pose proof (elim_physical L btype order d (dx 1) bv (lit 2 * dx 1 / (lit 4 * bv + dx 1))%T (beta * bv / (dx 1 * (lit 3 * dx 1 + lit 16 * bv)))%T (x 4) (x 0) (x 3) (y 4) e4 e3 Nd Nh N4 ltac:(reflexivity) HG) as HE.
      change (col_out 1 1) with 4 in U1, U3; change (col_in 1 1) with 3 in U2, U3.
      destruct (adj_pair _ _ _ _ _ _ _) as [eu' ev']. cbn [fst snd] in U1, U2, HE.
      pose proof (U3 1 ltac:(lia) ltac:(discriminate) ltac:(discriminate)) as G1. rewrite H1 in G1.
      pose proof (U3 2 ltac:(lia) ltac:(discriminate) ltac:(discriminate)) as G2. rewrite H2 in G2.
      pose proof (U3 5 ltac:(lia) ltac:(discriminate) ltac:(discriminate)) as G5. rewrite H5 in G5.
      pose proof (U3 6 ltac:(lia) ltac:(discriminate) ltac:(discriminate)) as G6. rewrite H6 in G6.
      rewrite U1 in J4. rewrite U2 in J3. rewrite G1 in J1. rewrite G2 in J2. rewrite G5 in J5. rewrite G6 in J6.
      clear - L U1 U2 G1 G2 G5 G6 H1 K1 J1 H2 K2 J2 H3 K3 J3 H4 K4 J4 H5 K5 J5 H6 K6 J6 Z1 Z2 D1 D2 Hy HE.
      k_val D1. k_val D2. subst z1 z2.
      eexists. unfold row3, fop, fel, fsc. rewrite Z1, K1, K2, K3, K4, K5, K6, Z2, J1, J2, J3, J4, J5, J6. cbn [bind]. split; [reflexivity|].
      rewrite (Hy 0) by discriminate. rewrite (Hy 3) by discriminate. rewrite (Hy 1) by discriminate. rewrite (Hy 2) by discriminate. rewrite (Hy 5) by discriminate. rewrite (Hy 6) by discriminate. f_equal. apply (by_diff L _ _ _ _ HE). ring.
    - change (col_out 2 0) with 5 in *; change (col_in 2 0) with 6 in * .
      assert (((mkFa b2 (FACE3d2 i0 j0 k0 i1 j1 k1 0))!(k + 0, i, j))%F ma = Some bv) as Hbv' by (unfold fel in * ; rewrite Fo by (cbn; k_ne); exact Hbv).
      destruct (adj_offdiag_3d_at i0 j0 k0 i1 j1 k1 pi0 pj0 pk0 pi1 pj1 pk1 2 0 btype order dx d nf beta b0 b1 b2 sgcw st i j k bv e5 e6 ma mb
        Ii Ij Ik Hg ltac:(k_rapart L) Hb ltac:(tauto) Hd0 Hd1 Hd2 Ea Hbv' H5 H6) as (U1 & U2 & U3 & U4).
      pose proof (elim_physical L btype order d (dx 2) bv (lit 2 * dx 2 / (lit 4 * bv + dx 2))%T (beta * bv / (dx 2 * (lit 3 * dx 2 + lit 16 * bv)))%T (x 5) (x 0) (x 6) (y 5) e5 e6 Nd Nh N4 ltac:(reflexivity) HG) as HE.
      change (col_out 2 0) with 5 in U1, U3; change (col_in 2 0) with 6 in U2, U3.
      destruct (adj_pair _ _ _ _ _ _ _) as [eu' ev']. cbn [fst snd] in U1, U2, HE.
      pose proof (U3 1 ltac:(lia) ltac:(discriminate) ltac:(discriminate)) as G1. rewrite H1 in G1.
      pose proof (U3 2 ltac:(lia) ltac:(discriminate) ltac:(discriminate)) as G2. rewrite H2 in G2.
      pose proof (U3 3 ltac:(lia) ltac:(discriminate) ltac:(discriminate)) as G3. rewrite H3 in G3.
      pose proof (U3 4 ltac:(lia) ltac:(discriminate) ltac:(discriminate)) as G4. rewrite H4 in G4.
      rewrite U1 in J5. rewrite U2 in J6. rewrite G1 in J1. rewrite G2 in J2. rewrite G3 in J3. rewrite G4 in J4.
      clear - L U1 U2 G1 G2 G3 G4 H1 K1 J1 H2 K2 J2 H3 K3 J3 H4 K4 J4 H5 K5 J5 H6 K6 J6 Z1 Z2 D1 D2 Hy HE.
      k_val D1. k_val D2. subst z1 z2.
      eexists. unfold row3, fop, fel, fsc. rewrite Z1, K1, K2, K3, K4, K5, K6, Z2, J1, J2, J3, J4, J5, J6. cbn [bind]. split; [reflexivity|].
      rewrite (Hy 0) by discriminate. rewrite (Hy 6) by discriminate. rewrite (Hy 1) by discriminate. rewrite (Hy 2) by discriminate. rewrite (Hy 3) by discriminate. rewrite (Hy 4) by discriminate. f_equal. apply (by_diff L _ _ _ _ HE). ring.
    - change (col_out 2 1) with 6 in *; change (col_in 2 1) with 5 in * .
      assert (((mkFa b2 (FACE3d2 i0 j0 k0 i1 j1 k1 0))!(k + 1, i, j))%F ma = Some bv) as Hbv' by (unfold fel in * ; rewrite Fo by (cbn; k_ne); exact Hbv).
      destruct (adj_offdiag_3d_at i0 j0 k0 i1 j1 k1 pi0 pj0 pk0 pi1 pj1 pk1 2 1 btype order dx d nf beta b0 b1 b2 sgcw st i j k bv e6 e5 ma mb
        Ii Ij Ik Hg ltac:(k_rapart L) Hb ltac:(tauto) Hd0 Hd1 Hd2 Ea Hbv' H6 H5) as (U1 & U2 & U3 & U4).
      pose proof (elim_physical L btype order d (dx 2) bv (lit 2 * dx 2 / (lit 4 * bv + dx 2))%T (beta * bv / (dx 2 * (lit 3 * dx 2 + lit 16 * bv)))%T (x 6) (x 0) (x 5) (y 6) e6 e5 Nd Nh N4 ltac:(reflexivity) HG) as HE.
      change (col_out 2 1) with 6 in U1, U3; change (col_in 2 1) with 5 in U2, U3.
      destruct (adj_pair _ _ _ _ _ _ _) as [eu' ev']. cbn [fst snd] in U1, U2, HE.
      pose proof (U3 1 ltac:(lia) ltac:(discriminate) ltac:(discriminate)) as G1. rewrite H1 in G1.
      pose proof (U3 2 ltac:(lia) ltac:(discriminate) ltac:(discriminate)) as G2. rewrite H2 in G2.
      pose proof (U3 3 ltac:(lia) ltac:(discriminate) ltac:(discriminate)) as G3. rewrite H3 in G3.
      pose proof (U3 4 ltac:(lia) ltac:(discriminate) ltac:(discriminate)) as G4. rewrite H4 in G4.
      rewrite U1 in J6. rewrite U2 in J5. rewrite G1 in J1. rewrite G2 in J2. rewrite G3 in J3. rewrite G4 in J4.
      clear - L U1 U2 G1 G2 G3 G4 H1 K1 J1 H2 K2 J2 H3 K3 J3 H4 K4 J4 H5 K5 J5 H6 K6 J6 Z1 Z2 D1 D2 Hy HE.
      k_val D1. k_val D2. subst z1 z2.
      eexists. unfold row3, fop, fel, fsc. rewrite Z1, K1, K2, K3, K4, K5, K6, Z2, J1, J2, J3, J4, J5, J6. cbn [bind]. split; [reflexivity|].
      rewrite (Hy 0) by discriminate. rewrite (Hy 5) by discriminate. rewrite (Hy 1) by discriminate. rewrite (Hy 2) by discriminate. rewrite (Hy 3) by discriminate. rewrite (Hy 4) by discriminate. f_equal. apply (by_diff L _ _ _ _ HE). ring.
  Qed.

  Lemma coarse_v2_3d i0 j0 k0 i1 j1 k1 pi0 pj0 pk0 pi1 pj1 pk1 r dir side order dx beta b0 b1 b2 alpha sgcw st i j k (m m1 m2 : mem S) :
  i0 <= i <= i1 -> j0 <= j <= j1 -> k0 <= k <= k1 -> 0 <= sgcw -> apart st [b0; b1; b2] ->
  beside3 dir side pi0 pj0 pk0 pi1 pj1 pk1 i j k -> (side = 0 \/ side = 1) -> (dir = 0 -> j0 <= pj0 /\ pj1 <= j1 /\ k0 <= pk0 /\ pk1 <= k1) -> (dir = 1 -> i0 <= pi0 /\ pi1 <= i1 /\ k0 <= pk0 /\ pk1 <= k1) -> (dir = 2 -> i0 <= pi0 /\ pi1 <= i1 /\ j0 <= pj0 /\ pj1 <= j1) -> 
  (m' <- cd_stencil_3d_offdiag i0 j0 k0 i1 j1 k1 i0 j0 k0 i1 j1 k1 dx beta b0 b1 b2 sgcw st m ;;
   cd_stencil_3d_v2diag i0 j0 k0 i1 j1 k1 alpha sgcw st m') = Some m1 ->
  (m' <- cd_stencil_3d_offdiag i0 j0 k0 i1 j1 k1 i0 j0 k0 i1 j1 k1 dx beta b0 b1 b2 sgcw st m ;; m' <- cd_stencil_3d_v2diag i0 j0 k0 i1 j1 k1 alpha sgcw st m' ;;
   m' <- cd_stencil_3d_adj_cf_diag i0 j0 k0 i1 j1 k1 pi0 pj0 pk0 pi1 pj1 pk1 r dir side order dx beta b0 b1 b2 sgcw st m' ;;
   cd_stencil_3d_adj_cf_offdiag i0 j0 k0 i1 j1 k1 pi0 pj0 pk0 pi1 pj1 pk1 r dir side order sgcw st m') = Some m2 ->
  1 <= r ->
  forall x y : Z -> S, (forall w, w <> col_out dir side -> y w = x w) ->
  coarse_rule order (lit r) (x (col_out dir side)) (x 0) (x (col_in dir side)) (y (col_out dir side)) ->
  exists v, row3 (mkFa st ((0, 6) :: CELL3d i0 j0 k0 i1 j1 k1 sgcw)) i j k x m1 = Some v /\ row3 (mkFa st ((0, 6) :: CELL3d i0 j0 k0 i1 j1 k1 sgcw)) i j k y m2 = Some v.
  Proof.
    intros Ii Ij Ik Hg Ap Hb Hs Hd0 Hd1 Hd2 E1 E2 Hr x y Hy HG. k_apart.
    apply bind_Some_inv in E1 as (ma & Eo & Ed1). rewrite Eo in E2. cbn [bind] in E2.
    destruct (offdiag_3d_at i0 j0 k0 i1 j1 k1 i0 j0 k0 i1 j1 k1 dx beta b0 b1 b2 sgcw st m ma ltac:(k_rapart L) ltac:(k_rapart L) ltac:(k_rapart L) ltac:(k_rapart L) ltac:(k_rapart L) Eo) as (Vo & Fo).
    destruct (v2diag_3d_at L i0 j0 k0 i1 j1 k1 alpha sgcw st ma m1 ltac:(k_rapart L) ltac:(k_rapart L) ltac:(k_rapart L) ltac:(k_rapart L) Ed1) as (Vd & Fd).
    specialize (Vo i j k Ii Ij Ik). specialize (Vd i j k Ii Ij Ik).
    destruct Vo as ((e1 & H1 & V1) & (e2 & H2 & V2) & (e3 & H3 & V3) & (e4 & H4 & V4) & (e5 & H5 & V5) & (e6 & H6 & V6)).
    destruct Vd as ((z1 & Z1 & D1) & K1 & K2 & K3 & K4 & K5 & K6).
    rewrite H1 in K1. rewrite H2 in K2. rewrite H3 in K3. rewrite H4 in K4. rewrite H5 in K5. rewrite H6 in K6.
    rewrite Ed1 in E2. cbn [bind] in E2. apply bind_Some_inv in E2 as (mb & Ec & Eo2).
    assert (order = 1 \/ order = 2) as Ho by (destruct HG as [(HG & _)|(HG & _)]; rewrite HG; tauto).
    assert (dir = 0 \/ dir = 1 \/ dir = 2) as Hdir by (unfold beside3 in Hb; lia).
    destruct Hdir as [Hdir|[Hdir|Hdir]]; subst dir; destruct Hs as [Hs|Hs]; subst side.
    - change (col_out 0 0) with 1 in *; change (col_in 0 0) with 2 in * .
      assert (exists bv, ((mkFa b0 (FACE3d0 i0 j0 k0 i1 j1 k1 0))!(i + 0, j, k))%F m1 = Some bv /\ e1 = (- (beta / (dx 0 * dx 0)) * bv)%T) as (bv & Hbv & Eu).
      { revert V1. unfold fop, fsc, fel. replace (i + 0) with i by lia; cbn [bind]. intros Q. apply bind_Some_inv in Q as (bv & Q1 & Q2).
        exists bv. rewrite Fd by (cbn; k_ne). rewrite Fo by (cbn; k_ne). split; [exact Q1|]. injection Q2 as <-. rewrite (neg_div L). reflexivity. }
      destruct (adj_cf_diag_3d_at i0 j0 k0 i1 j1 k1 pi0 pj0 pk0 pi1 pj1 pk1 r 0 0 order dx beta b0 b1 b2 sgcw st i j k bv z1 m1 mb
        Ii Ij Ik Hg ltac:(k_rapart L) Hb ltac:(tauto) Hd0 Hd1 Hd2 Ec Hbv Z1) as (W1 & W2 & W3).
      rewrite <- (W2 1) in K1 by lia. rewrite <- (W2 2) in K2 by lia.
      destruct (adj_cf_offdiag_3d_at i0 j0 k0 i1 j1 k1 pi0 pj0 pk0 pi1 pj1 pk1 r 0 0 order sgcw st i j k e1 e2 mb m2
        Ii Ij Ik Hg Hb ltac:(tauto) Hd0 Hd1 Hd2 Eo2 K1 K2) as (U1 & U2 & U3 & U4).
      rewrite (W2 1) in K1 by lia. rewrite (W2 2) in K2 by lia.
      pose proof (elim_coarse L r order (x 1) (x 0) (x 2) (y 1) e1 e2 z1 _ Hr HG eq_refl) as HE.
      rewrite (cf_part_eq L r order _ bv z1 e1 Ho Eu) in W1.
      change (col_out 0 0) with 1 in U1, U3; change (col_in 0 0) with 2 in U2, U3.
      destruct (cf_pair _ _ _ _) as [eu' ev']. cbn [fst snd] in U1, U2, HE.
      pose proof (U3 0 ltac:(lia) ltac:(discriminate) ltac:(discriminate)) as G0. rewrite W1 in G0.
      pose proof (U3 3 ltac:(lia) ltac:(discriminate) ltac:(discriminate)) as G3. rewrite (W2 3), K3 in G3 by lia.
      pose proof (U3 4 ltac:(lia) ltac:(discriminate) ltac:(discriminate)) as G4. rewrite (W2 4), K4 in G4 by lia.
      pose proof (U3 5 ltac:(lia) ltac:(discriminate) ltac:(discriminate)) as G5. rewrite (W2 5), K5 in G5 by lia.
      pose proof (U3 6 ltac:(lia) ltac:(discriminate) ltac:(discriminate)) as G6. rewrite (W2 6), K6 in G6 by lia.
      clear - L G0 U1 U2 G3 G4 G5 G6 K1 K2 K3 K4 K5 K6 Z1 Hy HE.
      unfold fel in * . eexists. unfold row3, fop, fel, fsc. rewrite Z1, K1, K2, K3, K4, K5, K6, G0, U1, U2, G3, G4, G5, G6. cbn [bind]. split; [reflexivity|].
      rewrite (Hy 0) by discriminate. rewrite (Hy 2) by discriminate. rewrite (Hy 3) by discriminate. rewrite (Hy 4) by discriminate. rewrite (Hy 5) by discriminate. rewrite (Hy 6) by discriminate. f_equal. apply (by_diff L _ _ _ _ HE). ring.
    - change (col_out 0 1) with 2 in *; change (col_in 0 1) with 1 in * .
      assert (exists bv, ((mkFa b0 (FACE3d0 i0 j0 k0 i1 j1 k1 0))!(i + 1, j, k))%F m1 = Some bv /\ e2 = (- (beta / (dx 0 * dx 0)) * bv)%T) as (bv & Hbv & Eu).
      { revert V2. unfold fop, fsc, fel. cbn [bind]. intros Q. apply bind_Some_inv in Q as (bv & Q1 & Q2).
        exists bv. rewrite Fd by (cbn; k_ne). rewrite Fo by (cbn; k_ne). split; [exact Q1|]. injection Q2 as <-. rewrite (neg_div L). reflexivity. }
      destruct (adj_cf_diag_3d_at i0 j0 k0 i1 j1 k1 pi0 pj0 pk0 pi1 pj1 pk1 r 0 1 order dx beta b0 b1 b2 sgcw st i j k bv z1 m1 mb
        Ii Ij Ik Hg ltac:(k_rapart L) Hb ltac:(tauto) Hd0 Hd1 Hd2 Ec Hbv Z1) as (W1 & W2 & W3).
      rewrite <- (W2 2) in K2 by lia. rewrite <- (W2 1) in K1 by lia.
      destruct (adj_cf_offdiag_3d_at i0 j0 k0 i1 j1 k1 pi0 pj0 pk0 pi1 pj1 pk1 r 0 1 order sgcw st i j k e2 e1 mb m2
        Ii Ij Ik Hg Hb ltac:(tauto) Hd0 Hd1 Hd2 Eo2 K2 K1) as (U1 & U2 & U3 & U4).
      rewrite (W2 2) in K2 by lia. rewrite (W2 1) in K1 by lia.
      pose proof (elim_coarse L r order (x 2) (x 0) (x 1) (y 2) e2 e1 z1 _ Hr HG eq_refl) as HE.
      rewrite (cf_part_eq L r order _ bv z1 e2 Ho Eu) in W1.
      change (col_out 0 1) with 2 in U1, U3; change (col_in 0 1) with 1 in U2, U3.
      destruct (cf_pair _ _ _ _) as [eu' ev']. cbn [fst snd] in U1, U2, HE.
      pose proof (U3 0 ltac:(lia) ltac:(discriminate) ltac:(discriminate)) as G0. rewrite W1 in G0.
      pose proof (U3 3 ltac:(lia) ltac:(discriminate) ltac:(discriminate)) as G3. rewrite (W2 3), K3 in G3 by lia.
      pose proof (U3 4 ltac:(lia) ltac:(discriminate) ltac:(discriminate)) as G4. rewrite (W2 4), K4 in G4 by lia.
      pose proof (U3 5 ltac:(lia) ltac:(discriminate) ltac:(discriminate)) as G5. rewrite (W2 5), K5 in G5 by lia.
      pose proof (U3 6 ltac:(lia) ltac:(discriminate) ltac:(discriminate)) as G6. rewrite (W2 6), K6 in G6 by lia.
      clear - L G0 U1 U2 G3 G4 G5 G6 K1 K2 K3 K4 K5 K6 Z1 Hy HE.
      unfold fel in * . eexists. unfold row3, fop, fel, fsc. rewrite Z1, K1, K2, K3, K4, K5, K6, G0, U2, U1, G3, G4, G5, G6. cbn [bind]. split; [reflexivity|].
      rewrite (Hy 0) by discriminate. rewrite (Hy 1) by discriminate. rewrite (Hy 3) by discriminate. rewrite (Hy 4) by discriminate. rewrite (Hy 5) by discriminate. rewrite (Hy 6) by discriminate. f_equal. apply (by_diff L _ _ _ _ HE). ring.
    - change (col_out 1 0) with 3 in *; change (col_in 1 0) with 4 in * .
      assert (exists bv, ((mkFa b1 (FACE3d1 i0 j0 k0 i1 j1 k1 0))!(j + 0, k, i))%F m1 = Some bv /\ e3 = (- (beta / (dx 1 * dx 1)) * bv)%T) as (bv & Hbv & Eu).
      { revert V3. unfold fop, fsc, fel. replace (j + 0) with j by lia; cbn [bind]. intros Q. apply bind_Some_inv in Q as (bv & Q1 & Q2).
        exists bv. rewrite Fd by (cbn; k_ne). rewrite Fo by (cbn; k_ne). split; [exact Q1|]. injection Q2 as <-. rewrite (neg_div L). reflexivity. }
      destruct (adj_cf_diag_3d_at i0 j0 k0 i1 j1 k1 pi0 pj0 pk0 pi1 pj1 pk1 r 1 0 order dx beta b0 b1 b2 sgcw st i j k bv z1 m1 mb
        Ii Ij Ik Hg ltac:(k_rapart L) Hb ltac:(tauto) Hd0 Hd1 Hd2 Ec Hbv Z1) as (W1 & W2 & W3).
      rewrite <- (W2 3) in K3 by lia. rewrite <- (W2 4) in K4 by lia.
      destruct (adj_cf_offdiag_3d_at i0 j0 k0 i1 j1 k1 pi0 pj0 pk0 pi1 pj1 pk1 r 1 0 order sgcw st i j k e3 e4 mb m2
        Ii Ij Ik Hg Hb ltac:(tauto) Hd0 Hd1 Hd2 Eo2 K3 K4) as (U1 & U2 & U3 & U4).
      rewrite (W2 3) in K3 by lia. rewrite (W2 4) in K4 by lia.
      pose proof (elim_coarse L r order (x 3) (x 0) (x 4) (y 3) e3 e4 z1 _ Hr HG eq_refl) as HE.
      rewrite (cf_part_eq L r order _ bv z1 e3 Ho Eu) in W1.
      change (col_out 1 0) with 3 in U1, U3; change (col_in 1 0) with 4 in U2, U3.
      destruct (cf_pair _ _ _ _) as [eu' ev']. cbn [fst snd] in U1, U2, HE.
      pose proof (U3 0 ltac:(lia) ltac:(discriminate) ltac:(discriminate)) as G0. rewrite W1 in G0.
      pose proof (U3 1 ltac:(lia) ltac:(discriminate) ltac:(discriminate)) as G1. rewrite (W2 1), K1 in G1 by lia.
      pose proof (U3 2 ltac:(lia) ltac:(discriminate) ltac:(discriminate)) as G2. rewrite (W2 2), K2 in G2 by lia.
      pose proof (U3 5 ltac:(lia) ltac:(discriminate) ltac:(discriminate)) as G5. rewrite (W2 5), K5 in G5 by lia.
      pose proof (U3 6 ltac:(lia) ltac:(discriminate) ltac:(discriminate)) as G6. rewrite (W2 6), K6 in G6 by lia.
      clear - L G0 U1 U2 G1 G2 G5 G6 K1 K2 K3 K4 K5 K6 Z1 Hy HE.
      unfold fel in * . eexists. unfold row3, fop, fel, fsc. rewrite Z1, K1, K2, K3, K4, K5, K6, G0, G1, G2, U1, U2, G5, G6. cbn [bind]. split; [reflexivity|].
      rewrite (Hy 0) by discriminate. rewrite (Hy 4) by discriminate. rewrite (Hy 1) by discriminate. rewrite (Hy 2) by discriminate. rewrite (Hy 5) by discriminate. rewrite (Hy 6) by discriminate. f_equal. apply (by_diff L _ _ _ _ HE). ring.
    - change (col_out 1 1) with 4 in *; change (col_in 1 1) with 3 in * .
      assert (exists bv, ((mkFa b1 (FACE3d1 i0 j0 k0 i1 j1 k1 0))!(j + 1, k, i))%F m1 = Some bv /\ e4 = (- (beta / (dx 1 * dx 1)) * bv)%T) as (bv & Hbv & Eu).
      { revert V4. unfold fop, fsc, fel. cbn [bind]. intros Q. apply bind_Some_inv in Q as (bv & Q1 & Q2).
        exists bv. rewrite Fd by (cbn; k_ne). rewrite Fo by (cbn; k_ne). split; [exact Q1|]. injection Q2 as <-. rewrite (neg_div L). reflexivity. }
      destruct (adj_cf_diag_3d_at i0 j0 k0 i1 j1 k1 pi0 pj0 pk0 pi1 pj1 pk1 r 1 1 order dx beta b0 b1 b2 sgcw st i j k bv z1 m1 mb
        Ii Ij Ik Hg ltac:(k_rapart L) Hb ltac:(tauto) Hd0 Hd1 Hd2 Ec Hbv Z1) as (W1 & W2 & W3).
      rewrite <- (W2 4) in K4 by lia. rewrite <- (W2 3) in K3 by lia.
      destruct (adj_cf_offdiag_3d_at i0 j0 k0 i1 j1 k1 pi0 pj0 pk0 pi1 pj1 pk1 r 1 1 order sgcw st i j k e4 e3 mb m2
        Ii Ij Ik Hg Hb ltac:(tauto) Hd0 Hd1 Hd2 Eo2 K4 K3) as (U1 & U2 & U3 & U4).
      rewrite (W2 4) in K4 by lia. rewrite (W2 3) in K3 by lia.
      pose proof (elim_coarse L r order (x 4) (x 0) (x 3) (y 4) e4 e3 z1 _ Hr HG eq_refl) as HE.
      rewrite (cf_part_eq L r order _ bv z1 e4 Ho Eu) in W1.
      change (col_out 1 1) with 4 in U1, U3; change (col_in 1 1) with 3 in U2, U3.
      destruct (cf_pair _ _ _ _) as [eu' ev']. cbn [fst snd] in U1, U2, HE.
      pose proof (U3 0 ltac:(lia) ltac:(discriminate) ltac:(discriminate)) as G0. rewrite W1 in G0.
      pose proof (U3 1 ltac:(lia) ltac:(discriminate) ltac:(discriminate)) as G1. rewrite (W2 1), K1 in G1 by lia.
      pose proof (U3 2 ltac:(lia) ltac:(discriminate) ltac:(discriminate)) as G2. rewrite (W2 2), K2 in G2 by lia.
      pose proof (U3 5 ltac:(lia) ltac:(discriminate) ltac:(discriminate)) as G5. rewrite (W2 5), K5 in G5 by lia.
      pose proof (U3 6 ltac:(lia) ltac:(discriminate) ltac:(discriminate)) as G6. rewrite (W2 6), K6 in G6 by lia.
      clear - L G0 U1 U2 G1 G2 G5 G6 K1 K2 K3 K4 K5 K6 Z1 Hy HE.
      unfold fel in * . eexists. unfold row3, fop, fel, fsc. rewrite Z1, K1, K2, K3, K4, K5, K6, G0, G1, G2, U2, U1, G5, G6. cbn [bind]. split; [reflexivity|].
      rewrite (Hy 0) by discriminate. rewrite (Hy 3) by discriminate. rewrite (Hy 1) by discriminate. rewrite (Hy 2) by discriminate. rewrite (Hy 5) by discriminate. rewrite (Hy 6) by discriminate. f_equal. apply (by_diff L _ _ _ _ HE). ring.
    - change (col_out 2 0) with 5 in *; change (col_in 2 0) with 6 in * .
      assert (exists bv, ((mkFa b2 (FACE3d2 i0 j0 k0 i1 j1 k1 0))!(k + 0, i, j))%F m1 = Some bv /\ e5 = (- (beta / (dx 2 * dx 2)) * bv)%T) as (bv & Hbv & Eu).
      { revert V5. unfold fop, fsc, fel. replace (k + 0) with k by lia; cbn [bind]. intros Q. apply bind_Some_inv in Q as (bv & Q1 & Q2).
        exists bv. rewrite Fd by (cbn; k_ne). rewrite Fo by (cbn; k_ne). split; [exact Q1|]. injection Q2 as <-. rewrite (neg_div L). reflexivity. }
      destruct (adj_cf_diag_3d_at i0 j0 k0 i1 j1 k1 pi0 pj0 pk0 pi1 pj1 pk1 r 2 0 order dx beta b0 b1 b2 sgcw st i j k bv z1 m1 mb
        Ii Ij Ik Hg ltac:(k_rapart L) Hb ltac:(tauto) Hd0 Hd1 Hd2 Ec Hbv Z1) as (W1 & W2 & W3).
      rewrite <- (W2 5) in K5 by lia. rewrite <- (W2 6) in K6 by lia.
      destruct (adj_cf_offdiag_3d_at i0 j0 k0 i1 j1 k1 pi0 pj0 pk0 pi1 pj1 pk1 r 2 0 order sgcw st i j k e5 e6 mb m2
        Ii Ij Ik Hg Hb ltac:(tauto) Hd0 Hd1 Hd2 Eo2 K5 K6) as (U1 & U2 & U3 & U4).
      rewrite (W2 5) in K5 by lia. rewrite (W2 6) in K6 by lia.
      pose proof (elim_coarse L r order (x 5) (x 0) (x 6) (y 5) e5 e6 z1 _ Hr HG eq_refl) as HE.
      rewrite (cf_part_eq L r order _ bv z1 e5 Ho Eu) in W1.
      change (col_out 2 0) with 5 in U1, U3; change (col_in 2 0) with 6 in U2, U3.
      destruct (cf_pair _ _ _ _) as [eu' ev']. cbn [fst snd] in U1, U2, HE.
      pose proof (U3 0 ltac:(lia) ltac:(discriminate) ltac:(discriminate)) as G0. rewrite W1 in G0.
      pose proof (U3 1 ltac:(lia) ltac:(discriminate) ltac:(discriminate)) as G1. rewrite (W2 1), K1 in G1 by lia.
      pose proof (U3 2 ltac:(lia) ltac:(discriminate) ltac:(discriminate)) as G2. rewrite (W2 2), K2 in G2 by lia.
      pose proof (U3 3 ltac:(lia) ltac:(discriminate) ltac:(discriminate)) as G3. rewrite (W2 3), K3 in G3 by lia.
      pose proof (U3 4 ltac:(lia) ltac:(discriminate) ltac:(discriminate)) as G4. rewrite (W2 4), K4 in G4 by lia.
      clear - L G0 U1 U2 G1 G2 G3 G4 K1 K2 K3 K4 K5 K6 Z1 Hy HE.
      unfold fel in * . eexists. unfold row3, fop, fel, fsc. rewrite Z1, K1, K2, K3, K4, K5, K6, G0, G1, G2, G3, G4, U1, U2. cbn [bind]. split; [reflexivity|].
      rewrite (Hy 0) by discriminate. rewrite (Hy 6) by discriminate. rewrite (Hy 1) by discriminate. rewrite (Hy 2) by discriminate. rewrite (Hy 3) by discriminate. rewrite (Hy 4) by discriminate. f_equal. apply (by_diff L _ _ _ _ HE). ring.
    - change (col_out 2 1) with 6 in *; change (col_in 2 1) with 5 in * .
      assert (exists bv, ((mkFa b2 (FACE3d2 i0 j0 k0 i1 j1 k1 0))!(k + 1, i, j))%F m1 = Some bv /\ e6 = (- (beta / (dx 2 * dx 2)) * bv)%T) as (bv & Hbv & Eu).
      { revert V6. unfold fop, fsc, fel. cbn [bind]. intros Q. apply bind_Some_inv in Q as (bv & Q1 & Q2).
        exists bv. rewrite Fd by (cbn; k_ne). rewrite Fo by (cbn; k_ne). split; [exact Q1|]. injection Q2 as <-. rewrite (neg_div L). reflexivity. }
      destruct (adj_cf_diag_3d_at i0 j0 k0 i1 j1 k1 pi0 pj0 pk0 pi1 pj1 pk1 r 2 1 order dx beta b0 b1 b2 sgcw st i j k bv z1 m1 mb
        Ii Ij Ik Hg ltac:(k_rapart L) Hb ltac:(tauto) Hd0 Hd1 Hd2 Ec Hbv Z1) as (W1 & W2 & W3).
      rewrite <- (W2 6) in K6 by lia. rewrite <- (W2 5) in K5 by lia.
      destruct (adj_cf_offdiag_3d_at i0 j0 k0 i1 j1 k1 pi0 pj0 pk0 pi1 pj1 pk1 r 2 1 order sgcw st i j k e6 e5 mb m2
        Ii Ij Ik Hg Hb ltac:(tauto) Hd0 Hd1 Hd2 Eo2 K6 K5) as (U1 & U2 & U3 & U4).
      rewrite (W2 6) in K6 by lia. rewrite (W2 5) in K5 by lia.
      pose proof (elim_coarse L r order (x 6) (x 0) (x 5) (y 6) e6 e5 z1 _ Hr HG eq_refl) as HE.
      rewrite (cf_part_eq L r order _ bv z1 e6 Ho Eu) in W1.
      change (col_out 2 1) with 6 in U1, U3; change (col_in 2 1) with 5 in U2, U3.
      destruct (cf_pair _ _ _ _) as [eu' ev']. cbn [fst snd] in U1, U2, HE.
      pose proof (U3 0 ltac:(lia) ltac:(discriminate) ltac:(discriminate)) as G0. rewrite W1 in G0.
      pose proof (U3 1 ltac:(lia) ltac:(discriminate) ltac:(discriminate)) as G1. rewrite (W2 1), K1 in G1 by lia.
      pose proof (U3 2 ltac:(lia) ltac:(discriminate) ltac:(discriminate)) as G2. rewrite (W2 2), K2 in G2 by lia.
      pose proof (U3 3 ltac:(lia) ltac:(discriminate) ltac:(discriminate)) as G3. rewrite (W2 3), K3 in G3 by lia.
      pose proof (U3 4 ltac:(lia) ltac:(discriminate) ltac:(discriminate)) as G4. rewrite (W2 4), K4 in G4 by lia.
      clear - L G0 U1 U2 G1 G2 G3 G4 K1 K2 K3 K4 K5 K6 Z1 Hy HE.
      unfold fel in * . eexists. unfold row3, fop, fel, fsc. rewrite Z1, K1, K2, K3, K4, K5, K6, G0, G1, G2, G3, G4, U2, U1. cbn [bind]. split; [reflexivity|].
      rewrite (Hy 0) by discriminate. rewrite (Hy 5) by discriminate. rewrite (Hy 1) by discriminate. rewrite (Hy 2) by discriminate. rewrite (Hy 3) by discriminate. rewrite (Hy 4) by discriminate. f_equal. apply (by_diff L _ _ _ _ HE). ring.
  Qed.

  Lemma physical_poisson_3d i0 j0 k0 i1 j1 k1 pi0 pj0 pk0 pi1 pj1 pk1 dir side btype order dx d nf beta sgcw st i j k (m m1 m2 : mem S) :
  i0 <= i <= i1 -> j0 <= j <= j1 -> k0 <= k <= k1 -> 0 <= sgcw -> 
  beside3 dir side pi0 pj0 pk0 pi1 pj1 pk1 i j k -> (side = 0 \/ side = 1) -> (dir = 0 -> j0 <= pj0 /\ pj1 <= j1 /\ k0 <= pk0 /\ pk1 <= k1) -> (dir = 1 -> i0 <= pi0 /\ pi1 <= i1 /\ k0 <= pk0 /\ pk1 <= k1) -> (dir = 2 -> i0 <= pi0 /\ pi1 <= i1 /\ j0 <= pj0 /\ pj1 <= j1) -> 
  (m' <- cd_stencil_3d_poisson_offdiag i0 j0 k0 i1 j1 k1 dx beta sgcw st m ;;
   cd_stencil_3d_poisson_diag i0 j0 k0 i1 j1 k1 sgcw st m') = Some m1 ->
  (m' <- cd_stencil_3d_poisson_offdiag i0 j0 k0 i1 j1 k1 dx beta sgcw st m ;;
   m' <- cd_stencil_3d_adj_poisson_offdiag i0 j0 k0 i1 j1 k1 pi0 pj0 pk0 pi1 pj1 pk1 dir side btype order dx d nf beta sgcw st m' ;;
   cd_stencil_3d_poisson_diag i0 j0 k0 i1 j1 k1 sgcw st m') = Some m2 ->
  (btype = 0 -> d <> lit 0) -> dx dir <> lit 0 -> (btype = 4 -> (lit 4 + dx dir)%T <> lit 0) ->
  forall x y : Z -> S, (forall w, w <> col_out dir side -> y w = x w) ->
  ghost_rule btype order d (dx dir) (lit 1) (x (col_out dir side)) (x 0) (x (col_in dir side)) (y (col_out dir side)) ->
  exists v, row3 (mkFa st ((0, 6) :: CELL3d i0 j0 k0 i1 j1 k1 sgcw)) i j k x m1 = Some v /\ row3 (mkFa st ((0, 6) :: CELL3d i0 j0 k0 i1 j1 k1 sgcw)) i j k y m2 = Some v.
  Proof.
    intros Ii Ij Ik Hg Hb Hs Hd0 Hd1 Hd2 E1 E2 Nd Nh N4 x y Hy HG. k_apart.
    apply bind_Some_inv in E1 as (ma & Eo & Ed1). rewrite Eo in E2. cbn [bind] in E2.
    destruct (poisson_offdiag_3d_at i0 j0 k0 i1 j1 k1 dx beta sgcw st m ma ltac:(k_rapart L) ltac:(k_rapart L) ltac:(k_rapart L) ltac:(k_rapart L) Eo) as (Vo & Fo).
    destruct (poisson_diag_3d_at L i0 j0 k0 i1 j1 k1 sgcw st ma m1 ltac:(k_rapart L) ltac:(k_rapart L) ltac:(k_rapart L) ltac:(k_rapart L) Ed1) as (Vd & Fd).
    specialize (Vo i j k Ii Ij Ik). specialize (Vd i j k Ii Ij Ik).
    destruct Vo as ((e1 & H1 & V1) & (e2 & H2 & V2) & (e3 & H3 & V3) & (e4 & H4 & V4) & (e5 & H5 & V5) & (e6 & H6 & V6)).
    destruct Vd as ((z1 & Z1 & D1) & K1 & K2 & K3 & K4 & K5 & K6).
    rewrite H1 in K1. rewrite H2 in K2. rewrite H3 in K3. rewrite H4 in K4. rewrite H5 in K5. rewrite H6 in K6.
    apply bind_Some_inv in E2 as (mb & Ea & Ed2).
    destruct (poisson_diag_3d_at L i0 j0 k0 i1 j1 k1 sgcw st mb m2 ltac:(k_rapart L) ltac:(k_rapart L) ltac:(k_rapart L) ltac:(k_rapart L) Ed2) as (Vd & Fd2).
    specialize (Vd i j k Ii Ij Ik).
    destruct Vd as ((z2 & Z2 & D2) & J1 & J2 & J3 & J4 & J5 & J6).
    assert (dir = 0 \/ dir = 1 \/ dir = 2) as Hdir by (unfold beside3 in Hb; lia).
    destruct Hdir as [Hdir|[Hdir|Hdir]]; subst dir; destruct Hs as [Hs|Hs]; subst side.
    - change (col_out 0 0) with 1 in *; change (col_in 0 0) with 2 in * .
      destruct (adj_poisson_offdiag_3d_at i0 j0 k0 i1 j1 k1 pi0 pj0 pk0 pi1 pj1 pk1 0 0 btype order dx d nf beta sgcw st i j k e1 e2 ma mb
        Ii Ij Ik Hg Hb ltac:(tauto) Hd0 Hd1 Hd2 Ea H1 H2) as (U1 & U2 & U3 & U4).
      pose proof (elim_physical L btype order d (dx 0) (lit 1) (lit 2 * dx 0 / (lit 4 + dx 0))%T (beta / (dx 0 * (lit 3 * dx 0 + lit 16)))%T (x 1) (x 0) (x 2) (y 1) e1 e2 Nd Nh ltac:(intros B; replace (lit 4 * lit 1 + dx 0)%T with (lit 4 + dx 0)%T by ring; exact (N4 B)) ltac:(intros; f_equal; ring) HG) as HE.
      change (col_out 0 0) with 1 in U1, U3; change (col_in 0 0) with 2 in U2, U3.
      destruct (adj_pair _ _ _ _ _ _ _) as [eu' ev']. cbn [fst snd] in U1, U2, HE.
      pose proof (U3 3 ltac:(lia) ltac:(discriminate) ltac:(discriminate)) as G3. rewrite H3 in G3.
      pose proof (U3 4 ltac:(lia) ltac:(discriminate) ltac:(discriminate)) as G4. rewrite H4 in G4.
      pose proof (U3 5 ltac:(lia) ltac:(discriminate) ltac:(discriminate)) as G5. rewrite H5 in G5.
      pose proof (U3 6 ltac:(lia) ltac:(discriminate) ltac:(discriminate)) as G6. rewrite H6 in G6.
      rewrite U1 in J1. rewrite U2 in J2. rewrite G3 in J3. rewrite G4 in J4. rewrite G5 in J5. rewrite G6 in J6.
      clear - L U1 U2 G3 G4 G5 G6 H1 K1 J1 H2 K2 J2 H3 K3 J3 H4 K4 J4 H5 K5 J5 H6 K6 J6 Z1 Z2 D1 D2 Hy HE.
      k_val D1. k_val D2. subst z1 z2.
      eexists. unfold row3, fop, fel, fsc. rewrite Z1, K1, K2, K3, K4, K5, K6, Z2, J1, J2, J3, J4, J5, J6. cbn [bind]. split; [reflexivity|].
      rewrite (Hy 0) by discriminate. rewrite (Hy 2) by discriminate. rewrite (Hy 3) by discriminate. rewrite (Hy 4) by discriminate. rewrite (Hy 5) by discriminate. rewrite (Hy 6) by discriminate. f_equal. apply (by_diff L _ _ _ _ HE). ring.
    - change (col_out 0 1) with 2 in *; change (col_in 0 1) with 1 in * .
      destruct (adj_poisson_offdiag_3d_at i0 j0 k0 i1 j1 k1 pi0 pj0 pk0 pi1 pj1 pk1 0 1 btype order dx d nf beta sgcw st i j k e2 e1 ma mb
        Ii Ij Ik Hg Hb ltac:(tauto) Hd0 Hd1 Hd2 Ea H2 H1) as (U1 & U2 & U3 & U4).
      pose proof (elim_physical L btype order d (dx 0) (lit 1) (lit 2 * dx 0 / (lit 4 + dx 0))%T (beta / (dx 0 * (lit 3 * dx 0 + lit 16)))%T (x 2) (x 0) (x 1) (y 2) e2 e1 Nd Nh ltac:(intros B; replace (lit 4 * lit 1 + dx 0)%T with (lit 4 + dx 0)%T by ring; exact (N4 B)) ltac:(intros; f_equal; ring) HG) as HE.
      change (col_out 0 1) with 2 in U1, U3; change (col_in 0 1) with 1 in U2, U3.
      destruct (adj_pair _ _ _ _ _ _ _) as [eu' ev']. cbn [fst snd] in U1, U2, HE.
      pose proof (U3 3 ltac:(lia) ltac:(discriminate) ltac:(discriminate)) as G3. rewrite H3 in G3.
      pose proof (U3 4 ltac:(lia) ltac:(discriminate) ltac:(discriminate)) as G4. rewrite H4 in G4.
      pose proof (U3 5 ltac:(lia) ltac:(discriminate) ltac:(discriminate)) as G5. rewrite H5 in G5.
      pose proof (U3 6 ltac:(lia) ltac:(discriminate) ltac:(discriminate)) as G6. rewrite H6 in G6.
      rewrite U1 in J2. rewrite U2 in J1. rewrite G3 in J3. rewrite G4 in J4. rewrite G5 in J5. rewrite G6 in J6.
      clear - L U1 U2 G3 G4 G5 G6 H1 K1 J1 H2 K2 J2 H3 K3 J3 H4 K4 J4 H5 K5 J5 H6 K6 J6 Z1 Z2 D1 D2 Hy HE.
      k_val D1. k_val D2. subst z1 z2.
      eexists. unfold row3, fop, fel, fsc. rewrite Z1, K1, K2, K3, K4, K5, K6, Z2, J1, J2, J3, J4, J5, J6. cbn [bind]. split; [reflexivity|].
      rewrite (Hy 0) by discriminate. rewrite (Hy 1) by discriminate. rewrite (Hy 3) by discriminate. rewrite (Hy 4) by discriminate. rewrite (Hy 5) by discriminate. rewrite (Hy 6) by discriminate. f_equal. apply (by_diff L _ _ _ _ HE). ring.
    - change (col_out 1 0) with 3 in *; change (col_in 1 0) with 4 in * .
      destruct (adj_poisson_offdiag_3d_at i0 j0 k0 i1 j1 k1 pi0 pj0 pk0 pi1 pj1 pk1 1 0 btype order dx d nf beta sgcw st i j k e3 e4 ma mb
        Ii Ij Ik Hg Hb ltac:(tauto) Hd0 Hd1 Hd2 Ea H3 H4) as (U1 & U2 & U3 & U4).
      pose proof (elim_physical L btype order d (dx 1) (lit 1) (lit 2 * dx 1 / (lit 4 + dx 1))%T (beta / (dx 1 * (lit 3 * dx 1 + lit 16)))%T (x 3) (x 0) (x 4) (y 3) e3 e4 Nd Nh ltac:(intros B; replace (lit 4 * lit 1 + dx 1)%T with (lit 4 + dx 1)%T by ring; exact (N4 B)) ltac:(intros; f_equal; ring) HG) as HE.
      change (col_out 1 0) with 3 in U1, U3; change (col_in 1 0) with 4 in U2, U3.
      destruct (adj_pair _ _ _ _ _ _ _) as [eu' ev']. cbn [fst snd] in U1, U2, HE.
      pose proof (U3 1 ltac:(lia) ltac:(discriminate) ltac:(discriminate)) as G1. rewrite H1 in G1.
      pose proof (U3 2 ltac:(lia) ltac:(discriminate) ltac:(discriminate)) as G2. rewrite H2 in G2.
      pose proof (U3 5 ltac:(lia) ltac:(discriminate) ltac:(discriminate)) as G5. rewrite H5 in G5.
      pose proof (U3 6 ltac:(lia) ltac:(discriminate) ltac:(discriminate)) as G6. rewrite H6 in G6.
      rewrite U1 in J3. rewrite U2 in J4. rewrite G1 in J1. rewrite G2 in J2. rewrite G5 in J5. rewrite G6 in J6.
      clear - L U1 U2 G1 G2 G5 G6 H1 K1 J1 H2 K2 J2 H3 K3 J3 H4 K4 J4 H5 K5 J5 H6 K6 J6 Z1 Z2 D1 D2 Hy HE.
      k_val D1. k_val D2. subst z1 z2.
      eexists. unfold row3, fop, fel, fsc. rewrite Z1, K1, K2, K3, K4, K5, K6, Z2, J1, J2, J3, J4, J5, J6. cbn [bind]. split; [reflexivity|].
      rewrite (Hy 0) by discriminate. rewrite (Hy 4) by discriminate. rewrite (Hy 1) by discriminate. rewrite (Hy 2) by discriminate. rewrite (Hy 5) by discriminate. rewrite (Hy 6) by discriminate. f_equal. apply (by_diff L _ _ _ _ HE). ring.
    - change (col_out 1 1) with 4 in *; change (col_in 1 1) with 3 in * .
      destruct (adj_poisson_offdiag_3d_at i0 j0 k0 i1 j1 k1 pi0 pj0 pk0 pi1 pj1 pk1 1 1 btype order dx d nf beta sgcw st i j k e4 e3 ma mb
        Ii Ij Ik Hg Hb ltac:(tauto) Hd0 Hd1 Hd2 Ea H4 H3) as (U1 & U2 & U3 & U4).
      pose proof (elim_physical L btype order d (dx 1) (lit 1) (lit 2 * dx 1 / (lit 4 + dx 1))%T (beta / (dx 1 * (lit 3 * dx 1 + lit 16)))%T (x 4) (x 0) (x 3) (y 4) e4 e3 Nd Nh ltac:(intros B; replace (lit 4 * lit 1 + dx 1)%T with (lit 4 + dx 1)%T by ring; exact (N4 B)) ltac:(intros; f_equal; ring) HG) as HE.
      change (col_out 1 1) with 4 in U1, U3; change (col_in 1 1) with 3 in U2, U3.
      destruct (adj_pair _ _ _ _ _ _ _) as [eu' ev']. cbn [fst snd] in U1, U2, HE.
      pose proof (U3 1 ltac:(lia) ltac:(discriminate) ltac:(discriminate)) as G1. rewrite H1 in G1.
      pose proof (U3 2 ltac:(lia) ltac:(discriminate) ltac:(discriminate)) as G2. rewrite H2 in G2.
      pose proof (U3 5 ltac:(lia) ltac:(discriminate) ltac:(discriminate)) as G5. rewrite H5 in G5.
      pose proof (U3 6 ltac:(lia) ltac:(discriminate) ltac:(discriminate)) as G6. rewrite H6 in G6.
      rewrite U1 in J4. rewrite U2 in J3. rewrite G1 in J1. rewrite G2 in J2. rewrite G5 in J5. rewrite G6 in J6.
      clear - L U1 U2 G1 G2 G5 G6 H1 K1 J1 H2 K2 J2 H3 K3 J3 H4 K4 J4 H5 K5 J5 H6 K6 J6 Z1 Z2 D1 D2 Hy HE.
      k_val D1. k_val D2. subst z1 z2.
      eexists. unfold row3, fop, fel, fsc. rewrite Z1, K1, K2, K3, K4, K5, K6, Z2, J1, J2, J3, J4, J5, J6. cbn [bind]. split; [reflexivity|].
      rewrite (Hy 0) by discriminate. rewrite (Hy 3) by discriminate. rewrite (Hy 1) by discriminate. rewrite (Hy 2) by discriminate. rewrite (Hy 5) by discriminate. rewrite (Hy 6) by discriminate. f_equal. apply (by_diff L _ _ _ _ HE). ring.
    - change (col_out 2 0) with 5 in *; change (col_in 2 0) with 6 in * .
      destruct (adj_poisson_offdiag_3d_at i0 j0 k0 i1 j1 k1 pi0 pj0 pk0 pi1 pj1 pk1 2 0 btype order dx d nf beta sgcw st i j k e5 e6 ma mb
        Ii Ij Ik Hg Hb ltac:(tauto) Hd0 Hd1 Hd2 Ea H5 H6) as (U1 & U2 & U3 & U4).
      pose proof (elim_physical L btype order d (dx 2) (lit 1) (lit 2 * dx 2 / (lit 4 + dx 2))%T (beta / (dx 2 * (lit 3 * dx 2 + lit 16)))%T (x 5) (x 0) (x 6) (y 5) e5 e6 Nd Nh ltac:(intros B; replace (lit 4 * lit 1 + dx 2)%T with (lit 4 + dx 2)%T by ring; exact (N4 B)) ltac:(intros; f_equal; ring) HG) as HE.
      change (col_out 2 0) with 5 in U1, U3; change (col_in 2 0) with 6 in U2, U3.
      destruct (adj_pair _ _ _ _ _ _ _) as [eu' ev']. cbn [fst snd] in U1, U2, HE.
      pose proof (U3 1 ltac:(lia) ltac:(discriminate) ltac:(discriminate)) as G1. rewrite H1 in G1.
      pose proof (U3 2 ltac:(lia) ltac:(discriminate) ltac:(discriminate)) as G2. rewrite H2 in G2.
      pose proof (U3 3 ltac:(lia) ltac:(discriminate) ltac:(discriminate)) as G3. rewrite H3 in G3.
      pose proof (U3 4 ltac:(lia) ltac:(discriminate) ltac:(discriminate)) as G4. rewrite H4 in G4.
      rewrite U1 in J5. rewrite U2 in J6. rewrite G1 in J1. rewrite G2 in J2. rewrite G3 in J3. rewrite G4 in J4.
      clear - L U1 U2 G1 G2 G3 G4 H1 K1 J1 H2 K2 J2 H3 K3 J3 H4 K4 J4 H5 K5 J5 H6 K6 J6 Z1 Z2 D1 D2 Hy HE.
      k_val D1. k_val D2. subst z1 z2.
      eexists. unfold row3, fop, fel, fsc. rewrite Z1, K1, K2, K3, K4, K5, K6, Z2, J1, J2, J3, J4, J5, J6. cbn [bind]. split; [reflexivity|].
      rewrite (Hy 0) by discriminate. rewrite (Hy 6) by discriminate. rewrite (Hy 1) by discriminate. rewrite (Hy 2) by discriminate. rewrite (Hy 3) by discriminate. rewrite (Hy 4) by discriminate. f_equal. apply (by_diff L _ _ _ _ HE). ring.
    - change (col_out 2 1) with 6 in *; change (col_in 2 1) with 5 in * .
      destruct (adj_poisson_offdiag_3d_at i0 j0 k0 i1 j1 k1 pi0 pj0 pk0 pi1 pj1 pk1 2 1 btype order dx d nf beta sgcw st i j k e6 e5 ma mb
        Ii Ij Ik Hg Hb ltac:(tauto) Hd0 Hd1 Hd2 Ea H6 H5) as (U1 & U2 & U3 & U4).
      pose proof (elim_physical L btype order d (dx 2) (lit 1) (lit 2 * dx 2 / (lit 4 + dx 2))%T (beta / (dx 2 * (lit 3 * dx 2 + lit 16)))%T (x 6) (x 0) (x 5) (y 6) e6 e5 Nd Nh ltac:(intros B; replace (lit 4 * lit 1 + dx 2)%T with (lit 4 + dx 2)%T by ring; exact (N4 B)) ltac:(intros; f_equal; ring) HG) as HE.
      change (col_out 2 1) with 6 in U1, U3; change (col_in 2 1) with 5 in U2, U3.
      destruct (adj_pair _ _ _ _ _ _ _) as [eu' ev']. cbn [fst snd] in U1, U2, HE.
      pose proof (U3 1 ltac:(lia) ltac:(discriminate) ltac:(discriminate)) as G1. rewrite H1 in G1.
      pose proof (U3 2 ltac:(lia) ltac:(discriminate) ltac:(discriminate)) as G2. rewrite H2 in G2.
      pose proof (U3 3 ltac:(lia) ltac:(discriminate) ltac:(discriminate)) as G3. rewrite H3 in G3.
      pose proof (U3 4 ltac:(lia) ltac:(discriminate) ltac:(discriminate)) as G4. rewrite H4 in G4.
      rewrite U1 in J6. rewrite U2 in J5. rewrite G1 in J1. rewrite G2 in J2. rewrite G3 in J3. rewrite G4 in J4.
      clear - L U1 U2 G1 G2 G3 G4 H1 K1 J1 H2 K2 J2 H3 K3 J3 H4 K4 J4 H5 K5 J5 H6 K6 J6 Z1 Z2 D1 D2 Hy HE.
      k_val D1. k_val D2. subst z1 z2.
      eexists. unfold row3, fop, fel, fsc. rewrite Z1, K1, K2, K3, K4, K5, K6, Z2, J1, J2, J3, J4, J5, J6. cbn [bind]. split; [reflexivity|].
      rewrite (Hy 0) by discriminate. rewrite (Hy 5) by discriminate. rewrite (Hy 1) by discriminate. rewrite (Hy 2) by discriminate. rewrite (Hy 3) by discriminate. rewrite (Hy 4) by discriminate. f_equal. apply (by_diff L _ _ _ _ HE). ring.
  Qed.

  Lemma coarse_poisson_3d i0 j0 k0 i1 j1 k1 pi0 pj0 pk0 pi1 pj1 pk1 r dir side order dx beta sgcw st i j k (m m1 m2 : mem S) :
  i0 <= i <= i1 -> j0 <= j <= j1 -> k0 <= k <= k1 -> 0 <= sgcw -> 
  beside3 dir side pi0 pj0 pk0 pi1 pj1 pk1 i j k -> (side = 0 \/ side = 1) -> (dir = 0 -> j0 <= pj0 /\ pj1 <= j1 /\ k0 <= pk0 /\ pk1 <= k1) -> (dir = 1 -> i0 <= pi0 /\ pi1 <= i1 /\ k0 <= pk0 /\ pk1 <= k1) -> (dir = 2 -> i0 <= pi0 /\ pi1 <= i1 /\ j0 <= pj0 /\ pj1 <= j1) -> 
  (m' <- cd_stencil_3d_poisson_offdiag i0 j0 k0 i1 j1 k1 dx beta sgcw st m ;;
   cd_stencil_3d_poisson_diag i0 j0 k0 i1 j1 k1 sgcw st m') = Some m1 ->
  (m' <- cd_stencil_3d_poisson_offdiag i0 j0 k0 i1 j1 k1 dx beta sgcw st m ;; m' <- cd_stencil_3d_poisson_diag i0 j0 k0 i1 j1 k1 sgcw st m' ;;
   m' <- cd_stencil_3d_adj_poisson_cf_diag i0 j0 k0 i1 j1 k1 pi0 pj0 pk0 pi1 pj1 pk1 r dir side order dx beta sgcw st m' ;;
   cd_stencil_3d_adj_cf_offdiag i0 j0 k0 i1 j1 k1 pi0 pj0 pk0 pi1 pj1 pk1 r dir side order sgcw st m') = Some m2 ->
  1 <= r ->
  forall x y : Z -> S, (forall w, w <> col_out dir side -> y w = x w) ->
  coarse_rule order (lit r) (x (col_out dir side)) (x 0) (x (col_in dir side)) (y (col_out dir side)) ->
  exists v, row3 (mkFa st ((0, 6) :: CELL3d i0 j0 k0 i1 j1 k1 sgcw)) i j k x m1 = Some v /\ row3 (mkFa st ((0, 6) :: CELL3d i0 j0 k0 i1 j1 k1 sgcw)) i j k y m2 = Some v.
  Proof.
    intros Ii Ij Ik Hg Hb Hs Hd0 Hd1 Hd2 E1 E2 Hr x y Hy HG. k_apart.
    apply bind_Some_inv in E1 as (ma & Eo & Ed1). rewrite Eo in E2. cbn [bind] in E2.
    destruct (poisson_offdiag_3d_at i0 j0 k0 i1 j1 k1 dx beta sgcw st m ma ltac:(k_rapart L) ltac:(k_rapart L) ltac:(k_rapart L) ltac:(k_rapart L) Eo) as (Vo & Fo).
    destruct (poisson_diag_3d_at L i0 j0 k0 i1 j1 k1 sgcw st ma m1 ltac:(k_rapart L) ltac:(k_rapart L) ltac:(k_rapart L) ltac:(k_rapart L) Ed1) as (Vd & Fd).
    specialize (Vo i j k Ii Ij Ik). specialize (Vd i j k Ii Ij Ik).
    destruct Vo as ((e1 & H1 & V1) & (e2 & H2 & V2) & (e3 & H3 & V3) & (e4 & H4 & V4) & (e5 & H5 & V5) & (e6 & H6 & V6)).
    destruct Vd as ((z1 & Z1 & D1) & K1 & K2 & K3 & K4 & K5 & K6).
    rewrite H1 in K1. rewrite H2 in K2. rewrite H3 in K3. rewrite H4 in K4. rewrite H5 in K5. rewrite H6 in K6.
    rewrite Ed1 in E2. cbn [bind] in E2. apply bind_Some_inv in E2 as (mb & Ec & Eo2).
    assert (order = 1 \/ order = 2) as Ho by (destruct HG as [(HG & _)|(HG & _)]; rewrite HG; tauto).
    assert (dir = 0 \/ dir = 1 \/ dir = 2) as Hdir by (unfold beside3 in Hb; lia).
    destruct Hdir as [Hdir|[Hdir|Hdir]]; subst dir; destruct Hs as [Hs|Hs]; subst side.
    - change (col_out 0 0) with 1 in *; change (col_in 0 0) with 2 in * .
      assert (e1 = (- (beta / (dx 0 * dx 0)))%T) as Eu by (injection V1 as <-; apply (neg_div L)).
      destruct (adj_poisson_cf_diag_3d_at i0 j0 k0 i1 j1 k1 pi0 pj0 pk0 pi1 pj1 pk1 r 0 0 order dx beta sgcw st i j k z1 m1 mb
        Ii Ij Ik Hg Hb ltac:(tauto) Hd0 Hd1 Hd2 Ec Z1) as (W1 & W2 & W3).
      rewrite <- (W2 1) in K1 by lia. rewrite <- (W2 2) in K2 by lia.
      destruct (adj_cf_offdiag_3d_at i0 j0 k0 i1 j1 k1 pi0 pj0 pk0 pi1 pj1 pk1 r 0 0 order sgcw st i j k e1 e2 mb m2
        Ii Ij Ik Hg Hb ltac:(tauto) Hd0 Hd1 Hd2 Eo2 K1 K2) as (U1 & U2 & U3 & U4).
      rewrite (W2 1) in K1 by lia. rewrite (W2 2) in K2 by lia.
      pose proof (elim_coarse L r order (x 1) (x 0) (x 2) (y 1) e1 e2 z1 _ Hr HG eq_refl) as HE.
      rewrite (cf_ppart_eq L r order _ z1 e1 Ho Eu) in W1.
      change (col_out 0 0) with 1 in U1, U3; change (col_in 0 0) with 2 in U2, U3.
      destruct (cf_pair _ _ _ _) as [eu' ev']. cbn [fst snd] in U1, U2, HE.
      pose proof (U3 0 ltac:(lia) ltac:(discriminate) ltac:(discriminate)) as G0. rewrite W1 in G0.
      pose proof (U3 3 ltac:(lia) ltac:(discriminate) ltac:(discriminate)) as G3. rewrite (W2 3), K3 in G3 by lia.
      pose proof (U3 4 ltac:(lia) ltac:(discriminate) ltac:(discriminate)) as G4. rewrite (W2 4), K4 in G4 by lia.
      pose proof (U3 5 ltac:(lia) ltac:(discriminate) ltac:(discriminate)) as G5. rewrite (W2 5), K5 in G5 by lia.
      pose proof (U3 6 ltac:(lia) ltac:(discriminate) ltac:(discriminate)) as G6. rewrite (W2 6), K6 in G6 by lia.
      clear - L G0 U1 U2 G3 G4 G5 G6 K1 K2 K3 K4 K5 K6 Z1 Hy HE.
      unfold fel in * . eexists. unfold row3, fop, fel, fsc. rewrite Z1, K1, K2, K3, K4, K5, K6, G0, U1, U2, G3, G4, G5, G6. cbn [bind]. split; [reflexivity|].
      rewrite (Hy 0) by discriminate. rewrite (Hy 2) by discriminate. rewrite (Hy 3) by discriminate. rewrite (Hy 4) by discriminate. rewrite (Hy 5) by discriminate. rewrite (Hy 6) by discriminate. f_equal. apply (by_diff L _ _ _ _ HE). ring.
    - change (col_out 0 1) with 2 in *; change (col_in 0 1) with 1 in * .
      assert (e2 = (- (beta / (dx 0 * dx 0)))%T) as Eu by (injection V2 as <-; apply (neg_div L)).
      destruct (adj_poisson_cf_diag_3d_at i0 j0 k0 i1 j1 k1 pi0 pj0 pk0 pi1 pj1 pk1 r 0 1 order dx beta sgcw st i j k z1 m1 mb
        Ii Ij Ik Hg Hb ltac:(tauto) Hd0 Hd1 Hd2 Ec Z1) as (W1 & W2 & W3).
      rewrite <- (W2 2) in K2 by lia. rewrite <- (W2 1) in K1 by lia.
      destruct (adj_cf_offdiag_3d_at i0 j0 k0 i1 j1 k1 pi0 pj0 pk0 pi1 pj1 pk1 r 0 1 order sgcw st i j k e2 e1 mb m2
        Ii Ij Ik Hg Hb ltac:(tauto) Hd0 Hd1 Hd2 Eo2 K2 K1) as (U1 & U2 & U3 & U4).
      rewrite (W2 2) in K2 by lia. rewrite (W2 1) in K1 by lia.
      pose proof (elim_coarse L r order (x 2) (x 0) (x 1) (y 2) e2 e1 z1 _ Hr HG eq_refl) as HE.
      rewrite (cf_ppart_eq L r order _ z1 e2 Ho Eu) in W1.
      change (col_out 0 1) with 2 in U1, U3; change (col_in 0 1) with 1 in U2, U3.
      destruct (cf_pair _ _ _ _) as [eu' ev']. cbn [fst snd] in U1, U2, HE.
      pose proof (U3 0 ltac:(lia) ltac:(discriminate) ltac:(discriminate)) as G0. rewrite W1 in G0.
      pose proof (U3 3 ltac:(lia) ltac:(discriminate) ltac:(discriminate)) as G3. rewrite (W2 3), K3 in G3 by lia.
      pose proof (U3 4 ltac:(lia) ltac:(discriminate) ltac:(discriminate)) as G4. rewrite (W2 4), K4 in G4 by lia.
      pose proof (U3 5 ltac:(lia) ltac:(discriminate) ltac:(discriminate)) as G5. rewrite (W2 5), K5 in G5 by lia.
      pose proof (U3 6 ltac:(lia) ltac:(discriminate) ltac:(discriminate)) as G6. rewrite (W2 6), K6 in G6 by lia.
      clear - L G0 U1 U2 G3 G4 G5 G6 K1 K2 K3 K4 K5 K6 Z1 Hy HE.
      unfold fel in * . eexists. unfold row3, fop, fel, fsc. rewrite Z1, K1, K2, K3, K4, K5, K6, G0, U2, U1, G3, G4, G5, G6. cbn [bind]. split; [reflexivity|].
      rewrite (Hy 0) by discriminate. rewrite (Hy 1) by discriminate. rewrite (Hy 3) by discriminate. rewrite (Hy 4) by discriminate. rewrite (Hy 5) by discriminate. rewrite (Hy 6) by discriminate. f_equal. apply (by_diff L _ _ _ _ HE). ring.
    - change (col_out 1 0) with 3 in *; change (col_in 1 0) with 4 in * .
      assert (e3 = (- (beta / (dx 1 * dx 1)))%T) as Eu by (injection V3 as <-; apply (neg_div L)).
      destruct (adj_poisson_cf_diag_3d_at i0 j0 k0 i1 j1 k1 pi0 pj0 pk0 pi1 pj1 pk1 r 1 0 order dx beta sgcw st i j k z1 m1 mb
        Ii Ij Ik Hg Hb ltac:(tauto) Hd0 Hd1 Hd2 Ec Z1) as (W1 & W2 & W3).
      rewrite <- (W2 3) in K3 by lia. rewrite <- (W2 4) in K4 by lia.
      destruct (adj_cf_offdiag_3d_at i0 j0 k0 i1 j1 k1 pi0 pj0 pk0 pi1 pj1 pk1 r 1 0 order sgcw st i j k e3 e4 mb m2
        Ii Ij Ik Hg Hb ltac:(tauto) Hd0 Hd1 Hd2 Eo2 K3 K4) as (U1 & U2 & U3 & U4).
      rewrite (W2 3) in K3 by lia. rewrite (W2 4) in K4 by lia.
      pose proof (elim_coarse L r order (x 3) (x 0) (x 4) (y 3) e3 e4 z1 _ Hr HG eq_refl) as HE.
      rewrite (cf_ppart_eq L r order _ z1 e3 Ho Eu) in W1.
      change (col_out 1 0) with 3 in U1, U3; change (col_in 1 0) with 4 in U2, U3.
      destruct (cf_pair _ _ _ _) as [eu' ev']. cbn [fst snd] in U1, U2, HE.
      pose proof (U3 0 ltac:(lia) ltac:(discriminate) ltac:(discriminate)) as G0. rewrite W1 in G0.
      pose proof (U3 1 ltac:(lia) ltac:(discriminate) ltac:(discriminate)) as G1. rewrite (W2 1), K1 in G1 by lia.
      pose proof (U3 2 ltac:(lia) ltac:(discriminate) ltac:(discriminate)) as G2. rewrite (W2 2), K2 in G2 by lia.
      pose proof (U3 5 ltac:(lia) ltac:(discriminate) ltac:(discriminate)) as G5. rewrite (W2 5), K5 in G5 by lia.
      pose proof (U3 6 ltac:(lia) ltac:(discriminate) ltac:(discriminate)) as G6. rewrite (W2 6), K6 in G6 by lia.
      clear - L G0 U1 U2 G1 G2 G5 G6 K1 K2 K3 K4 K5 K6 Z1 Hy HE.
      unfold fel in * . eexists. unfold row3, fop, fel, fsc. rewrite Z1, K1, K2, K3, K4, K5, K6, G0, G1, G2, U1, U2, G5, G6. cbn [bind]. split; [reflexivity|].
      rewrite (Hy 0) by discriminate. rewrite (Hy 4) by discriminate. rewrite (Hy 1) by discriminate. rewrite (Hy 2) by discriminate. rewrite (Hy 5) by discriminate. rewrite (Hy 6) by discriminate. f_equal. apply (by_diff L _ _ _ _ HE). ring.
    - change (col_out 1 1) with 4 in *; change (col_in 1 1) with 3 in * .
      assert (e4 = (- (beta / (dx 1 * dx 1)))%T) as Eu by (injection V4 as <-; apply (neg_div L)).
      destruct (adj_poisson_cf_diag_3d_at i0 j0 k0 i1 j1 k1 pi0 pj0 pk0 pi1 pj1 pk1 r 1 1 order dx beta sgcw st i j k z1 m1 mb
        Ii Ij Ik Hg Hb ltac:(tauto) Hd0 Hd1 Hd2 Ec Z1) as (W1 & W2 & W3).
      rewrite <- (W2 4) in K4 by lia. rewrite <- (W2 3) in K3 by lia.
      destruct (adj_cf_offdiag_3d_at i0 j0 k0 i1 j1 k1 pi0 pj0 pk0 pi1 pj1 pk1 r 1 1 order sgcw st i j k e4 e3 mb m2
        Ii Ij Ik Hg Hb ltac:(tauto) Hd0 Hd1 Hd2 Eo2 K4 K3) as (U1 & U2 & U3 & U4).
      rewrite (W2 4) in K4 by lia. rewrite (W2 3) in K3 by lia.
      pose proof (elim_coarse L r order (x 4) (x 0) (x 3) (y 4) e4 e3 z1 _ Hr HG eq_refl) as HE.
      rewrite (cf_ppart_eq L r order _ z1 e4 Ho Eu) in W1.
      change (col_out 1 1) with 4 in U1, U3; change (col_in 1 1) with 3 in U2, U3.
      destruct (cf_pair _ _ _ _) as [eu' ev']. cbn [fst snd] in U1, U2, HE.
      pose proof (U3 0 ltac:(lia) ltac:(discriminate) ltac:(discriminate)) as G0. rewrite W1 in G0.
      pose proof (U3 1 ltac:(lia) ltac:(discriminate) ltac:(discriminate)) as G1. rewrite (W2 1), K1 in G1 by lia.
      pose proof (U3 2 ltac:(lia) ltac:(discriminate) ltac:(discriminate)) as G2. rewrite (W2 2), K2 in G2 by lia.
      pose proof (U3 5 ltac:(lia) ltac:(discriminate) ltac:(discriminate)) as G5. rewrite (W2 5), K5 in G5 by lia.
      pose proof (U3 6 ltac:(lia) ltac:(discriminate) ltac:(discriminate)) as G6. rewrite (W2 6), K6 in G6 by lia.
      clear - L G0 U1 U2 G1 G2 G5 G6 K1 K2 K3 K4 K5 K6 Z1 Hy HE.
      unfold fel in * . eexists. unfold row3, fop, fel, fsc. rewrite Z1, K1, K2, K3, K4, K5, K6, G0, G1, G2, U2, U1, G5, G6. cbn [bind]. split; [reflexivity|].
      rewrite (Hy 0) by discriminate. rewrite (Hy 3) by discriminate. rewrite (Hy 1) by discriminate. rewrite (Hy 2) by discriminate. rewrite (Hy 5) by discriminate. rewrite (Hy 6) by discriminate. f_equal. apply (by_diff L _ _ _ _ HE). ring.
    - change (col_out 2 0) with 5 in *; change (col_in 2 0) with 6 in * .
      assert (e5 = (- (beta / (dx 2 * dx 2)))%T) as Eu by (injection V5 as <-; apply (neg_div L)).
      destruct (adj_poisson_cf_diag_3d_at i0 j0 k0 i1 j1 k1 pi0 pj0 pk0 pi1 pj1 pk1 r 2 0 order dx beta sgcw st i j k z1 m1 mb
        Ii Ij Ik Hg Hb ltac:(tauto) Hd0 Hd1 Hd2 Ec Z1) as (W1 & W2 & W3).
      rewrite <- (W2 5) in K5 by lia. rewrite <- (W2 6) in K6 by lia.
      destruct (adj_cf_offdiag_3d_at i0 j0 k0 i1 j1 k1 pi0 pj0 pk0 pi1 pj1 pk1 r 2 0 order sgcw st i j k e5 e6 mb m2
        Ii Ij Ik Hg Hb ltac:(tauto) Hd0 Hd1 Hd2 Eo2 K5 K6) as (U1 & U2 & U3 & U4).
      rewrite (W2 5) in K5 by lia. rewrite (W2 6) in K6 by lia.
      pose proof (elim_coarse L r order (x 5) (x 0) (x 6) (y 5) e5 e6 z1 _ Hr HG eq_refl) as HE.
      rewrite (cf_ppart_eq L r order _ z1 e5 Ho Eu) in W1.
      change (col_out 2 0) with 5 in U1, U3; change (col_in 2 0) with 6 in U2, U3.
      destruct (cf_pair _ _ _ _) as [eu' ev']. cbn [fst snd] in U1, U2, HE.
      pose proof (U3 0 ltac:(lia) ltac:(discriminate) ltac:(discriminate)) as G0. rewrite W1 in G0.
      pose proof (U3 1 ltac:(lia) ltac:(discriminate) ltac:(discriminate)) as G1. rewrite (W2 1), K1 in G1 by lia.
      pose proof (U3 2 ltac:(lia) ltac:(discriminate) ltac:(discriminate)) as G2. rewrite (W2 2), K2 in G2 by lia.
      pose proof (U3 3 ltac:(lia) ltac:(discriminate) ltac:(discriminate)) as G3. rewrite (W2 3), K3 in G3 by lia.
      pose proof (U3 4 ltac:(lia) ltac:(discriminate) ltac:(discriminate)) as G4. rewrite (W2 4), K4 in G4 by lia.
      clear - L G0 U1 U2 G1 G2 G3 G4 K1 K2 K3 K4 K5 K6 Z1 Hy HE.
      unfold fel in * . eexists. unfold row3, fop, fel, fsc. rewrite Z1, K1, K2, K3, K4, K5, K6, G0, G1, G2, G3, G4, U1, U2. cbn [bind]. split; [reflexivity|].
      rewrite (Hy 0) by discriminate. rewrite (Hy 6) by discriminate. rewrite (Hy 1) by discriminate. rewrite (Hy 2) by discriminate. rewrite (Hy 3) by discriminate. rewrite (Hy 4) by discriminate. f_equal. apply (by_diff L _ _ _ _ HE). ring.
    - change (col_out 2 1) with 6 in *; change (col_in 2 1) with 5 in * .
      assert (e6 = (- (beta / (dx 2 * dx 2)))%T) as Eu by (injection V6 as <-; apply (neg_div L)).
      destruct (adj_poisson_cf_diag_3d_at i0 j0 k0 i1 j1 k1 pi0 pj0 pk0 pi1 pj1 pk1 r 2 1 order dx beta sgcw st i j k z1 m1 mb
        Ii Ij Ik Hg Hb ltac:(tauto) Hd0 Hd1 Hd2 Ec Z1) as (W1 & W2 & W3).
      rewrite <- (W2 6) in K6 by lia. rewrite <- (W2 5) in K5 by lia.
      destruct (adj_cf_offdiag_3d_at i0 j0 k0 i1 j1 k1 pi0 pj0 pk0 pi1 pj1 pk1 r 2 1 order sgcw st i j k e6 e5 mb m2
        Ii Ij Ik Hg Hb ltac:(tauto) Hd0 Hd1 Hd2 Eo2 K6 K5) as (U1 & U2 & U3 & U4).
      rewrite (W2 6) in K6 by lia. rewrite (W2 5) in K5 by lia.
      pose proof (elim_coarse L r order (x 6) (x 0) (x 5) (y 6) e6 e5 z1 _ Hr HG eq_refl) as HE.
      rewrite (cf_ppart_eq L r order _ z1 e6 Ho Eu) in W1.
      change (col_out 2 1) with 6 in U1, U3; change (col_in 2 1) with 5 in U2, U3.
      destruct (cf_pair _ _ _ _) as [eu' ev']. cbn [fst snd] in U1, U2, HE.
      pose proof (U3 0 ltac:(lia) ltac:(discriminate) ltac:(discriminate)) as G0. rewrite W1 in G0.
      pose proof (U3 1 ltac:(lia) ltac:(discriminate) ltac:(discriminate)) as G1. rewrite (W2 1), K1 in G1 by lia.
      pose proof (U3 2 ltac:(lia) ltac:(discriminate) ltac:(discriminate)) as G2. rewrite (W2 2), K2 in G2 by lia.
      pose proof (U3 3 ltac:(lia) ltac:(discriminate) ltac:(discriminate)) as G3. rewrite (W2 3), K3 in G3 by lia.
      pose proof (U3 4 ltac:(lia) ltac:(discriminate) ltac:(discriminate)) as G4. rewrite (W2 4), K4 in G4 by lia.
      clear - L G0 U1 U2 G1 G2 G3 G4 K1 K2 K3 K4 K5 K6 Z1 Hy HE.
      unfold fel in * . eexists. unfold row3, fop, fel, fsc. rewrite Z1, K1, K2, K3, K4, K5, K6, G0, G1, G2, G3, G4, U2, U1. cbn [bind]. split; [reflexivity|].
      rewrite (Hy 0) by discriminate. rewrite (Hy 5) by discriminate. rewrite (Hy 1) by discriminate. rewrite (Hy 2) by discriminate. rewrite (Hy 3) by discriminate. rewrite (Hy 4) by discriminate. f_equal. apply (by_diff L _ _ _ _ HE). ring.
  Qed.

End Eliminate.
