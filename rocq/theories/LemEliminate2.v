(** * Eliminating the values outside the boundary: rows of the matrix (2D) *)

From Coq Require Import Permutation Field.
From Verif Require Import Base ModelBounds ModelMatrix ModelIters ModelSpan ModelProxy Spec SpecIter ModelSched
  LemBase LemDomain LemExpr LemExec SpecAssign LemAssign LemProps LemProps4 SpecWindow LemWindow LemWindow2
  FortranBase SpecKernel SpecEliminate Instances LemField LemKernel LemKernel2 LemBC LemHomog KernelNotations
  KernelsFlux KernelsApply KernelsStencil LemStencil LemRow LemEdge LemValues2
  LemAdjust2 LemEliminate.
Import ListNotations.
Open Scope Z_scope.


Section Eliminate.
  Context {S : Scalar} (L : field_laws S).
  Add Field SF : (s_field S L) (morphism (lit_morph S L), constants [lit_cst]).

  Lemma physical_v1_2d i0 j0 i1 j1 pi0 pj0 pi1 pj1 dir side btype order dx d nf beta b0 b1 alpha ai0 aj0 ai1 aj1 a sgcw st i j (m m1 m2 : mem S) :
  i0 <= i <= i1 -> j0 <= j <= j1 -> 0 <= sgcw -> apart st [b0; b1; a] ->
  beside2 dir side pi0 pj0 pi1 pj1 i j -> (side = 0 \/ side = 1) -> (dir = 0 -> j0 <= pj0 /\ pj1 <= j1) -> (dir = 1 -> i0 <= pi0 /\ pi1 <= i1) -> (btype = 4 -> dir = 0) ->
  (m' <- cd_stencil_2d_offdiag i0 j0 i1 j1 i0 j0 i1 j1 dx beta b0 b1 sgcw st m ;;
   cd_stencil_2d_v1diag i0 j0 i1 j1 ai0 aj0 ai1 aj1 alpha a sgcw st m') = Some m1 ->
  (m' <- cd_stencil_2d_offdiag i0 j0 i1 j1 i0 j0 i1 j1 dx beta b0 b1 sgcw st m ;;
   m' <- cd_stencil_2d_adj_offdiag i0 j0 i1 j1 pi0 pj0 pi1 pj1 dir side btype order dx d nf beta b0 b1 sgcw st m' ;;
   cd_stencil_2d_v1diag i0 j0 i1 j1 ai0 aj0 ai1 aj1 alpha a sgcw st m') = Some m2 ->
  forall bv, (if dir =? 0 then ((mkFa b0 (FACE2d0 i0 j0 i1 j1 0))!(i + side, j))%F else ((mkFa b1 (FACE2d1 i0 j0 i1 j1 0))!(j + side, i))%F) m = Some bv ->
  (btype = 0 -> d <> lit 0) -> dx dir <> lit 0 -> (btype = 4 -> (lit 4 * bv + dx dir)%T <> lit 0) ->
  forall x y : Z -> S, (forall w, w <> col_out dir side -> y w = x w) ->
  ghost_rule btype order d (dx dir) bv (x (col_out dir side)) (x 0) (x (col_in dir side)) (y (col_out dir side)) ->
  exists v, row2 (mkFa st ((0, 4) :: CELL2d i0 j0 i1 j1 sgcw)) i j x m1 = Some v /\ row2 (mkFa st ((0, 4) :: CELL2d i0 j0 i1 j1 sgcw)) i j y m2 = Some v.
  Proof.
    intros Ii Ij Hg Ap Hb Hs Hd0 Hd1 HR E1 E2 bv Hbv Nd Nh N4 x y Hy HG. k_apart.
    apply bind_Some_inv in E1 as (ma & Eo & Ed1). rewrite Eo in E2. cbn [bind] in E2.
    destruct (offdiag_2d_at i0 j0 i1 j1 i0 j0 i1 j1 dx beta b0 b1 sgcw st m ma ltac:(k_rapart L) ltac:(k_rapart L) ltac:(k_rapart L) ltac:(k_rapart L) Eo) as (Vo & Fo).
    destruct (v1diag_2d_at L i0 j0 i1 j1 ai0 aj0 ai1 aj1 alpha a sgcw st ma m1 ltac:(k_rapart L) ltac:(k_rapart L) ltac:(k_rapart L) ltac:(k_rapart L) Ed1) as (Vd & Fd).
    specialize (Vo i j Ii Ij). specialize (Vd i j Ii Ij).
    destruct Vo as ((e1 & H1 & V1) & (e2 & H2 & V2) & (e3 & H3 & V3) & (e4 & H4 & V4)).
    destruct Vd as ((z1 & Z1 & D1) & K1 & K2 & K3 & K4).
    rewrite H1 in K1. rewrite H2 in K2. rewrite H3 in K3. rewrite H4 in K4.
    apply bind_Some_inv in E2 as (mb & Ea & Ed2).
    destruct (v1diag_2d_at L i0 j0 i1 j1 ai0 aj0 ai1 aj1 alpha a sgcw st mb m2 ltac:(k_rapart L) ltac:(k_rapart L) ltac:(k_rapart L) ltac:(k_rapart L) Ed2) as (Vd & Fd2).
    specialize (Vd i j Ii Ij).
    destruct Vd as ((z2 & Z2 & D2) & J1 & J2 & J3 & J4).
    assert (dir = 0 \/ dir = 1) as Hdir by (unfold beside2 in Hb; lia).
    destruct Hdir as [Hdir|Hdir]; subst dir; destruct Hs as [Hs|Hs]; subst side.
    - change (col_out 0 0) with 1 in *; change (col_in 0 0) with 2 in * .
      assert (((mkFa b0 (FACE2d0 i0 j0 i1 j1 0))!(i + 0, j))%F ma = Some bv) as Hbv' by (unfold fel in * ; rewrite Fo by (cbn; k_ne); exact Hbv).
      destruct (adj_offdiag_2d_at i0 j0 i1 j1 pi0 pj0 pi1 pj1 0 0 btype order dx d nf beta b0 b1 sgcw st i j bv e1 e2 ma mb
        Ii Ij Hg ltac:(k_rapart L) Hb ltac:(tauto) Hd0 Hd1 HR Ea Hbv' H1 H2) as (U1 & U2 & U3 & U4).
      pose proof (elim_physical L btype order d (dx 0) bv (lit 2 * dx 0 / (lit 4 * bv + dx 0))%T (beta * bv / (dx 0 * (lit 3 * dx 0 + lit 16 * bv)))%T (x 1) (x 0) (x 2) (y 1) e1 e2 Nd Nh N4 ltac:(reflexivity) HG) as HE.
      change (col_out 0 0) with 1 in U1, U3; change (col_in 0 0) with 2 in U2, U3.
      destruct (adj_pair _ _ _ _ _ _ _) as [eu' ev']. cbn [fst snd] in U1, U2, HE.
      pose proof (U3 3 ltac:(lia) ltac:(discriminate) ltac:(discriminate)) as G3. rewrite H3 in G3.
      pose proof (U3 4 ltac:(lia) ltac:(discriminate) ltac:(discriminate)) as G4. rewrite H4 in G4.
      rewrite U1 in J1. rewrite U2 in J2. rewrite G3 in J3. rewrite G4 in J4.
      assert (((mkFa a (CELL2d ai0 aj0 ai1 aj1 0))!(i, j))%F mb = ((mkFa a (CELL2d ai0 aj0 ai1 aj1 0))!(i, j))%F ma) as Ha by (unfold fel; apply U4; cbn; k_ne).
      unfold fop in D2; rewrite Ha in D2; fold (@fop S) in D2.
      clear - L Ha U1 U2 G3 G4 H1 K1 J1 H2 K2 J2 H3 K3 J3 H4 K4 J4 Z1 Z2 D1 D2 Hy HE.
      k_val D1. k_val D2. subst z1 z2.
      eexists. unfold row2, fop, fel, fsc. rewrite Z1, K1, K2, K3, K4, Z2, J1, J2, J3, J4. cbn [bind]. split; [reflexivity|].
      rewrite (Hy 0) by discriminate. rewrite (Hy 2) by discriminate. rewrite (Hy 3) by discriminate. rewrite (Hy 4) by discriminate. f_equal. apply (by_diff L _ _ _ _ HE). ring.
    - change (col_out 0 1) with 2 in *; change (col_in 0 1) with 1 in * .
      assert (((mkFa b0 (FACE2d0 i0 j0 i1 j1 0))!(i + 1, j))%F ma = Some bv) as Hbv' by (unfold fel in * ; rewrite Fo by (cbn; k_ne); exact Hbv).
      destruct (adj_offdiag_2d_at i0 j0 i1 j1 pi0 pj0 pi1 pj1 0 1 btype order dx d nf beta b0 b1 sgcw st i j bv e2 e1 ma mb
        Ii Ij Hg ltac:(k_rapart L) Hb ltac:(tauto) Hd0 Hd1 HR Ea Hbv' H2 H1) as (U1 & U2 & U3 & U4).
      pose proof (elim_physical L btype order d (dx 0) bv (lit 2 * dx 0 / (lit 4 * bv + dx 0))%T (beta * bv / (dx 0 * (lit 3 * dx 0 + lit 16 * bv)))%T (x 2) (x 0) (x 1) (y 2) e2 e1 Nd Nh N4 ltac:(reflexivity) HG) as HE.
      change (col_out 0 1) with 2 in U1, U3; change (col_in 0 1) with 1 in U2, U3.
      destruct (adj_pair _ _ _ _ _ _ _) as [eu' ev']. cbn [fst snd] in U1, U2, HE.
      pose proof (U3 3 ltac:(lia) ltac:(discriminate) ltac:(discriminate)) as G3. rewrite H3 in G3.
      pose proof (U3 4 ltac:(lia) ltac:(discriminate) ltac:(discriminate)) as G4. rewrite H4 in G4.
      rewrite U1 in J2. rewrite U2 in J1. rewrite G3 in J3. rewrite G4 in J4.
      assert (((mkFa a (CELL2d ai0 aj0 ai1 aj1 0))!(i, j))%F mb = ((mkFa a (CELL2d ai0 aj0 ai1 aj1 0))!(i, j))%F ma) as Ha by (unfold fel; apply U4; cbn; k_ne).
      unfold fop in D2; rewrite Ha in D2; fold (@fop S) in D2.
      clear - L Ha U1 U2 G3 G4 H1 K1 J1 H2 K2 J2 H3 K3 J3 H4 K4 J4 Z1 Z2 D1 D2 Hy HE.
      k_val D1. k_val D2. subst z1 z2.
      eexists. unfold row2, fop, fel, fsc. rewrite Z1, K1, K2, K3, K4, Z2, J1, J2, J3, J4. cbn [bind]. split; [reflexivity|].
      rewrite (Hy 0) by discriminate. rewrite (Hy 1) by discriminate. rewrite (Hy 3) by discriminate. rewrite (Hy 4) by discriminate. f_equal. apply (by_diff L _ _ _ _ HE). ring.
    - change (col_out 1 0) with 3 in *; change (col_in 1 0) with 4 in * .
      assert (((mkFa b1 (FACE2d1 i0 j0 i1 j1 0))!(j + 0, i))%F ma = Some bv) as Hbv' by (unfold fel in * ; rewrite Fo by (cbn; k_ne); exact Hbv).
      destruct (adj_offdiag_2d_at i0 j0 i1 j1 pi0 pj0 pi1 pj1 1 0 btype order dx d nf beta b0 b1 sgcw st i j bv e3 e4 ma mb
        Ii Ij Hg ltac:(k_rapart L) Hb ltac:(tauto) Hd0 Hd1 HR Ea Hbv' H3 H4) as (U1 & U2 & U3 & U4).
      pose proof (elim_physical L btype order d (dx 1) bv (lit 2 * dx 1 / (lit 4 * bv + dx 1))%T (beta * bv / (dx 1 * (lit 3 * dx 1 + lit 16 * bv)))%T (x 3) (x 0) (x 4) (y 3) e3 e4 Nd Nh N4 ltac:(reflexivity) HG) as HE.
      change (col_out 1 0) with 3 in U1, U3; change (col_in 1 0) with 4 in U2, U3.
      destruct (adj_pair _ _ _ _ _ _ _) as [eu' ev']. cbn [fst snd] in U1, U2, HE.
      pose proof (U3 1 ltac:(lia) ltac:(discriminate) ltac:(discriminate)) as G1. rewrite H1 in G1.
      pose proof (U3 2 ltac:(lia) ltac:(discriminate) ltac:(discriminate)) as G2. rewrite H2 in G2.
      rewrite U1 in J3. rewrite U2 in J4. rewrite G1 in J1. rewrite G2 in J2.
      assert (((mkFa a (CELL2d ai0 aj0 ai1 aj1 0))!(i, j))%F mb = ((mkFa a (CELL2d ai0 aj0 ai1 aj1 0))!(i, j))%F ma) as Ha by (unfold fel; apply U4; cbn; k_ne).
      unfold fop in D2; rewrite Ha in D2; fold (@fop S) in D2.
      clear - L Ha U1 U2 G1 G2 H1 K1 J1 H2 K2 J2 H3 K3 J3 H4 K4 J4 Z1 Z2 D1 D2 Hy HE.
      k_val D1. k_val D2. subst z1 z2.
      eexists. unfold row2, fop, fel, fsc. rewrite Z1, K1, K2, K3, K4, Z2, J1, J2, J3, J4. cbn [bind]. split; [reflexivity|].
      rewrite (Hy 0) by discriminate. rewrite (Hy 4) by discriminate. rewrite (Hy 1) by discriminate. rewrite (Hy 2) by discriminate. f_equal. apply (by_diff L _ _ _ _ HE). ring.
    - change (col_out 1 1) with 4 in *; change (col_in 1 1) with 3 in * .
      assert (((mkFa b1 (FACE2d1 i0 j0 i1 j1 0))!(j + 1, i))%F ma = Some bv) as Hbv' by (unfold fel in * ; rewrite Fo by (cbn; k_ne); exact Hbv).
      destruct (adj_offdiag_2d_at i0 j0 i1 j1 pi0 pj0 pi1 pj1 1 1 btype order dx d nf beta b0 b1 sgcw st i j bv e4 e3 ma mb
        Ii Ij Hg ltac:(k_rapart L) Hb ltac:(tauto) Hd0 Hd1 HR Ea Hbv' H4 H3) as (U1 & U2 & U3 & U4).
      pose proof (elim_physical L btype order d (dx 1) bv (lit 2 * dx 1 / (lit 4 * bv + dx 1))%T (beta * bv / (dx 1 * (lit 3 * dx 1 + lit 16 * bv)))%T (x 4) (x 0) (x 3) (y 4) e4 e3 Nd Nh N4 ltac:(reflexivity) HG) as HE.
      change (col_out 1 1) with 4 in U1, U3; change (col_in 1 1) with 3 in U2, U3.
      destruct (adj_pair _ _ _ _ _ _ _) as [eu' ev']. cbn [fst snd] in U1, U2, HE.
      pose proof (U3 1 ltac:(lia) ltac:(discriminate) ltac:(discriminate)) as G1. rewrite H1 in G1.
      pose proof (U3 2 ltac:(lia) ltac:(discriminate) ltac:(discriminate)) as G2. rewrite H2 in G2.
      rewrite U1 in J4. rewrite U2 in J3. rewrite G1 in J1. rewrite G2 in J2.
      assert (((mkFa a (CELL2d ai0 aj0 ai1 aj1 0))!(i, j))%F mb = ((mkFa a (CELL2d ai0 aj0 ai1 aj1 0))!(i, j))%F ma) as Ha by (unfold fel; apply U4; cbn; k_ne).
      unfold fop in D2; rewrite Ha in D2; fold (@fop S) in D2.
      clear - L Ha U1 U2 G1 G2 H1 K1 J1 H2 K2 J2 H3 K3 J3 H4 K4 J4 Z1 Z2 D1 D2 Hy HE.
      k_val D1. k_val D2. subst z1 z2.
      eexists. unfold row2, fop, fel, fsc. rewrite Z1, K1, K2, K3, K4, Z2, J1, J2, J3, J4. cbn [bind]. split; [reflexivity|].
      rewrite (Hy 0) by discriminate. rewrite (Hy 3) by discriminate. rewrite (Hy 1) by discriminate. rewrite (Hy 2) by discriminate. f_equal. apply (by_diff L _ _ _ _ HE). ring.
  Qed.

  Lemma coarse_v1_2d i0 j0 i1 j1 pi0 pj0 pi1 pj1 r dir side order dx beta b0 b1 alpha ai0 aj0 ai1 aj1 a sgcw st i j (m m1 m2 : mem S) :
  i0 <= i <= i1 -> j0 <= j <= j1 -> 0 <= sgcw -> apart st [b0; b1; a] ->
  beside2 dir side pi0 pj0 pi1 pj1 i j -> (side = 0 \/ side = 1) -> (dir = 0 -> j0 <= pj0 /\ pj1 <= j1) -> (dir = 1 -> i0 <= pi0 /\ pi1 <= i1) -> 
  (m' <- cd_stencil_2d_offdiag i0 j0 i1 j1 i0 j0 i1 j1 dx beta b0 b1 sgcw st m ;;
   cd_stencil_2d_v1diag i0 j0 i1 j1 ai0 aj0 ai1 aj1 alpha a sgcw st m') = Some m1 ->
  (m' <- cd_stencil_2d_offdiag i0 j0 i1 j1 i0 j0 i1 j1 dx beta b0 b1 sgcw st m ;; m' <- cd_stencil_2d_v1diag i0 j0 i1 j1 ai0 aj0 ai1 aj1 alpha a sgcw st m' ;;
   m' <- cd_stencil_2d_adj_cf_diag i0 j0 i1 j1 pi0 pj0 pi1 pj1 r dir side order dx beta b0 b1 sgcw st m' ;;
   cd_stencil_2d_adj_cf_offdiag i0 j0 i1 j1 pi0 pj0 pi1 pj1 r dir side order sgcw st m') = Some m2 ->
  1 <= r ->
  forall x y : Z -> S, (forall w, w <> col_out dir side -> y w = x w) ->
  coarse_rule order (lit r) (x (col_out dir side)) (x 0) (x (col_in dir side)) (y (col_out dir side)) ->
  exists v, row2 (mkFa st ((0, 4) :: CELL2d i0 j0 i1 j1 sgcw)) i j x m1 = Some v /\ row2 (mkFa st ((0, 4) :: CELL2d i0 j0 i1 j1 sgcw)) i j y m2 = Some v.
  Proof.
    intros Ii Ij Hg Ap Hb Hs Hd0 Hd1 E1 E2 Hr x y Hy HG. k_apart.
    apply bind_Some_inv in E1 as (ma & Eo & Ed1). rewrite Eo in E2. cbn [bind] in E2.
    destruct (offdiag_2d_at i0 j0 i1 j1 i0 j0 i1 j1 dx beta b0 b1 sgcw st m ma ltac:(k_rapart L) ltac:(k_rapart L) ltac:(k_rapart L) ltac:(k_rapart L) Eo) as (Vo & Fo).
    destruct (v1diag_2d_at L i0 j0 i1 j1 ai0 aj0 ai1 aj1 alpha a sgcw st ma m1 ltac:(k_rapart L) ltac:(k_rapart L) ltac:(k_rapart L) ltac:(k_rapart L) Ed1) as (Vd & Fd).
    specialize (Vo i j Ii Ij). specialize (Vd i j Ii Ij).
    destruct Vo as ((e1 & H1 & V1) & (e2 & H2 & V2) & (e3 & H3 & V3) & (e4 & H4 & V4)).
    destruct Vd as ((z1 & Z1 & D1) & K1 & K2 & K3 & K4).
    rewrite H1 in K1. rewrite H2 in K2. rewrite H3 in K3. rewrite H4 in K4.
    rewrite Ed1 in E2. cbn [bind] in E2. apply bind_Some_inv in E2 as (mb & Ec & Eo2).
    assert (order = 1 \/ order = 2) as Ho by (destruct HG as [(HG & _)|(HG & _)]; rewrite HG; tauto).
    assert (dir = 0 \/ dir = 1) as Hdir by (unfold beside2 in Hb; lia).
    destruct Hdir as [Hdir|Hdir]; subst dir; destruct Hs as [Hs|Hs]; subst side.
    - change (col_out 0 0) with 1 in *; change (col_in 0 0) with 2 in * .
      assert (exists bv, ((mkFa b0 (FACE2d0 i0 j0 i1 j1 0))!(i + 0, j))%F m1 = Some bv /\ e1 = (- (beta / (dx 0 * dx 0)) * bv)%T) as (bv & Hbv & Eu).
      { revert V1. unfold fop, fsc, fel. replace (i + 0) with i by lia; cbn [bind]. intros Q. apply bind_Some_inv in Q as (bv & Q1 & Q2).
        exists bv. rewrite Fd by (cbn; k_ne). rewrite Fo by (cbn; k_ne). split; [exact Q1|]. injection Q2 as <-. rewrite (neg_div L). reflexivity. }
      destruct (adj_cf_diag_2d_at i0 j0 i1 j1 pi0 pj0 pi1 pj1 r 0 0 order dx beta b0 b1 sgcw st i j bv z1 m1 mb
        Ii Ij Hg ltac:(k_rapart L) Hb ltac:(tauto) Hd0 Hd1 Ec Hbv Z1) as (W1 & W2 & W3).
      rewrite <- (W2 1) in K1 by lia. rewrite <- (W2 2) in K2 by lia.
      destruct (adj_cf_offdiag_2d_at i0 j0 i1 j1 pi0 pj0 pi1 pj1 r 0 0 order sgcw st i j e1 e2 mb m2
        Ii Ij Hg Hb ltac:(tauto) Hd0 Hd1 Eo2 K1 K2) as (U1 & U2 & U3 & U4).
      rewrite (W2 1) in K1 by lia. rewrite (W2 2) in K2 by lia.
      pose proof (elim_coarse L r order (x 1) (x 0) (x 2) (y 1) e1 e2 z1 _ Hr HG eq_refl) as HE.
      rewrite (cf_part_eq L r order _ bv z1 e1 Ho Eu) in W1.
      change (col_out 0 0) with 1 in U1, U3; change (col_in 0 0) with 2 in U2, U3.
      destruct (cf_pair _ _ _ _) as [eu' ev']. cbn [fst snd] in U1, U2, HE.
      pose proof (U3 0 ltac:(lia) ltac:(discriminate) ltac:(discriminate)) as G0. rewrite W1 in G0.
      pose proof (U3 3 ltac:(lia) ltac:(discriminate) ltac:(discriminate)) as G3. rewrite (W2 3), K3 in G3 by lia.
      pose proof (U3 4 ltac:(lia) ltac:(discriminate) ltac:(discriminate)) as G4. rewrite (W2 4), K4 in G4 by lia.
      clear - L G0 U1 U2 G3 G4 K1 K2 K3 K4 Z1 Hy HE.
      unfold fel in * . eexists. unfold row2, fop, fel, fsc. rewrite Z1, K1, K2, K3, K4, G0, U1, U2, G3, G4. cbn [bind]. split; [reflexivity|].
      rewrite (Hy 0) by discriminate. rewrite (Hy 2) by discriminate. rewrite (Hy 3) by discriminate. rewrite (Hy 4) by discriminate. f_equal. apply (by_diff L _ _ _ _ HE). ring.
    - change (col_out 0 1) with 2 in *; change (col_in 0 1) with 1 in * .
      assert (exists bv, ((mkFa b0 (FACE2d0 i0 j0 i1 j1 0))!(i + 1, j))%F m1 = Some bv /\ e2 = (- (beta / (dx 0 * dx 0)) * bv)%T) as (bv & Hbv & Eu).
      { revert V2. unfold fop, fsc, fel. cbn [bind]. intros Q. apply bind_Some_inv in Q as (bv & Q1 & Q2).
        exists bv. rewrite Fd by (cbn; k_ne). rewrite Fo by (cbn; k_ne). split; [exact Q1|]. injection Q2 as <-. rewrite (neg_div L). reflexivity. }
      destruct (adj_cf_diag_2d_at i0 j0 i1 j1 pi0 pj0 pi1 pj1 r 0 1 order dx beta b0 b1 sgcw st i j bv z1 m1 mb
        Ii Ij Hg ltac:(k_rapart L) Hb ltac:(tauto) Hd0 Hd1 Ec Hbv Z1) as (W1 & W2 & W3).
      rewrite <- (W2 2) in K2 by lia. rewrite <- (W2 1) in K1 by lia.
      destruct (adj_cf_offdiag_2d_at i0 j0 i1 j1 pi0 pj0 pi1 pj1 r 0 1 order sgcw st i j e2 e1 mb m2
        Ii Ij Hg Hb ltac:(tauto) Hd0 Hd1 Eo2 K2 K1) as (U1 & U2 & U3 & U4).
      rewrite (W2 2) in K2 by lia. rewrite (W2 1) in K1 by lia.
      pose proof (elim_coarse L r order (x 2) (x 0) (x 1) (y 2) e2 e1 z1 _ Hr HG eq_refl) as HE.
      rewrite (cf_part_eq L r order _ bv z1 e2 Ho Eu) in W1.
      change (col_out 0 1) with 2 in U1, U3; change (col_in 0 1) with 1 in U2, U3.
      destruct (cf_pair _ _ _ _) as [eu' ev']. cbn [fst snd] in U1, U2, HE.
      pose proof (U3 0 ltac:(lia) ltac:(discriminate) ltac:(discriminate)) as G0. rewrite W1 in G0.
      pose proof (U3 3 ltac:(lia) ltac:(discriminate) ltac:(discriminate)) as G3. rewrite (W2 3), K3 in G3 by lia.
      pose proof (U3 4 ltac:(lia) ltac:(discriminate) ltac:(discriminate)) as G4. rewrite (W2 4), K4 in G4 by lia.
      clear - L G0 U1 U2 G3 G4 K1 K2 K3 K4 Z1 Hy HE.
      unfold fel in * . eexists. unfold row2, fop, fel, fsc. rewrite Z1, K1, K2, K3, K4, G0, U2, U1, G3, G4. cbn [bind]. split; [reflexivity|].
      rewrite (Hy 0) by discriminate. rewrite (Hy 1) by discriminate. rewrite (Hy 3) by discriminate. rewrite (Hy 4) by discriminate. f_equal. apply (by_diff L _ _ _ _ HE). ring.
    - change (col_out 1 0) with 3 in *; change (col_in 1 0) with 4 in * .
      assert (exists bv, ((mkFa b1 (FACE2d1 i0 j0 i1 j1 0))!(j + 0, i))%F m1 = Some bv /\ e3 = (- (beta / (dx 1 * dx 1)) * bv)%T) as (bv & Hbv & Eu).
      { revert V3. unfold fop, fsc, fel. replace (j + 0) with j by lia; cbn [bind]. intros Q. apply bind_Some_inv in Q as (bv & Q1 & Q2).
        exists bv. rewrite Fd by (cbn; k_ne). rewrite Fo by (cbn; k_ne). split; [exact Q1|]. injection Q2 as <-. rewrite (neg_div L). reflexivity. }
      destruct (adj_cf_diag_2d_at i0 j0 i1 j1 pi0 pj0 pi1 pj1 r 1 0 order dx beta b0 b1 sgcw st i j bv z1 m1 mb
        Ii Ij Hg ltac:(k_rapart L) Hb ltac:(tauto) Hd0 Hd1 Ec Hbv Z1) as (W1 & W2 & W3).
      rewrite <- (W2 3) in K3 by lia. rewrite <- (W2 4) in K4 by lia.
      destruct (adj_cf_offdiag_2d_at i0 j0 i1 j1 pi0 pj0 pi1 pj1 r 1 0 order sgcw st i j e3 e4 mb m2
        Ii Ij Hg Hb ltac:(tauto) Hd0 Hd1 Eo2 K3 K4) as (U1 & U2 & U3 & U4).
      rewrite (W2 3) in K3 by lia. rewrite (W2 4) in K4 by lia.
      pose proof (elim_coarse L r order (x 3) (x 0) (x 4) (y 3) e3 e4 z1 _ Hr HG eq_refl) as HE.
      rewrite (cf_part_eq L r order _ bv z1 e3 Ho Eu) in W1.
      change (col_out 1 0) with 3 in U1, U3; change (col_in 1 0) with 4 in U2, U3.
      destruct (cf_pair _ _ _ _) as [eu' ev']. cbn [fst snd] in U1, U2, HE.
      pose proof (U3 0 ltac:(lia) ltac:(discriminate) ltac:(discriminate)) as G0. rewrite W1 in G0.
      pose proof (U3 1 ltac:(lia) ltac:(discriminate) ltac:(discriminate)) as G1. rewrite (W2 1), K1 in G1 by lia.
      pose proof (U3 2 ltac:(lia) ltac:(discriminate) ltac:(discriminate)) as G2. rewrite (W2 2), K2 in G2 by lia.
      clear - L G0 U1 U2 G1 G2 K1 K2 K3 K4 Z1 Hy HE.
      unfold fel in * . eexists. unfold row2, fop, fel, fsc. rewrite Z1, K1, K2, K3, K4, G0, G1, G2, U1, U2. cbn [bind]. split; [reflexivity|].
      rewrite (Hy 0) by discriminate. rewrite (Hy 4) by discriminate. rewrite (Hy 1) by discriminate. rewrite (Hy 2) by discriminate. f_equal. apply (by_diff L _ _ _ _ HE). ring.
    - change (col_out 1 1) with 4 in *; change (col_in 1 1) with 3 in * .
      assert (exists bv, ((mkFa b1 (FACE2d1 i0 j0 i1 j1 0))!(j + 1, i))%F m1 = Some bv /\ e4 = (- (beta / (dx 1 * dx 1)) * bv)%T) as (bv & Hbv & Eu).
      { revert V4. unfold fop, fsc, fel. cbn [bind]. intros Q. apply bind_Some_inv in Q as (bv & Q1 & Q2).
        exists bv. rewrite Fd by (cbn; k_ne). rewrite Fo by (cbn; k_ne). split; [exact Q1|]. injection Q2 as <-. rewrite (neg_div L). reflexivity. }
      destruct (adj_cf_diag_2d_at i0 j0 i1 j1 pi0 pj0 pi1 pj1 r 1 1 order dx beta b0 b1 sgcw st i j bv z1 m1 mb
        Ii Ij Hg ltac:(k_rapart L) Hb ltac:(tauto) Hd0 Hd1 Ec Hbv Z1) as (W1 & W2 & W3).
      rewrite <- (W2 4) in K4 by lia. rewrite <- (W2 3) in K3 by lia.
      destruct (adj_cf_offdiag_2d_at i0 j0 i1 j1 pi0 pj0 pi1 pj1 r 1 1 order sgcw st i j e4 e3 mb m2
        Ii Ij Hg Hb ltac:(tauto) Hd0 Hd1 Eo2 K4 K3) as (U1 & U2 & U3 & U4).
      rewrite (W2 4) in K4 by lia. rewrite (W2 3) in K3 by lia.
      pose proof (elim_coarse L r order (x 4) (x 0) (x 3) (y 4) e4 e3 z1 _ Hr HG eq_refl) as HE.
      rewrite (cf_part_eq L r order _ bv z1 e4 Ho Eu) in W1.
      change (col_out 1 1) with 4 in U1, U3; change (col_in 1 1) with 3 in U2, U3.
      destruct (cf_pair _ _ _ _) as [eu' ev']. cbn [fst snd] in U1, U2, HE.
      pose proof (U3 0 ltac:(lia) ltac:(discriminate) ltac:(discriminate)) as G0. rewrite W1 in G0.
      pose proof (U3 1 ltac:(lia) ltac:(discriminate) ltac:(discriminate)) as G1. rewrite (W2 1), K1 in G1 by lia.
      pose proof (U3 2 ltac:(lia) ltac:(discriminate) ltac:(discriminate)) as G2. rewrite (W2 2), K2 in G2 by lia.
      clear - L G0 U1 U2 G1 G2 K1 K2 K3 K4 Z1 Hy HE.
      unfold fel in * . eexists. unfold row2, fop, fel, fsc. rewrite Z1, K1, K2, K3, K4, G0, G1, G2, U2, U1. cbn [bind]. split; [reflexivity|].
      rewrite (Hy 0) by discriminate. rewrite (Hy 3) by discriminate. rewrite (Hy 1) by discriminate. rewrite (Hy 2) by discriminate. f_equal. apply (by_diff L _ _ _ _ HE). ring.
  Qed.

  Lemma physical_v2_2d i0 j0 i1 j1 pi0 pj0 pi1 pj1 dir side btype order dx d nf beta b0 b1 alpha sgcw st i j (m m1 m2 : mem S) :
  i0 <= i <= i1 -> j0 <= j <= j1 -> 0 <= sgcw -> apart st [b0; b1] ->
  beside2 dir side pi0 pj0 pi1 pj1 i j -> (side = 0 \/ side = 1) -> (dir = 0 -> j0 <= pj0 /\ pj1 <= j1) -> (dir = 1 -> i0 <= pi0 /\ pi1 <= i1) -> (btype = 4 -> dir = 0) ->
  (m' <- cd_stencil_2d_offdiag i0 j0 i1 j1 i0 j0 i1 j1 dx beta b0 b1 sgcw st m ;;
   cd_stencil_2d_v2diag i0 j0 i1 j1 alpha sgcw st m') = Some m1 ->
  (m' <- cd_stencil_2d_offdiag i0 j0 i1 j1 i0 j0 i1 j1 dx beta b0 b1 sgcw st m ;;
   m' <- cd_stencil_2d_adj_offdiag i0 j0 i1 j1 pi0 pj0 pi1 pj1 dir side btype order dx d nf beta b0 b1 sgcw st m' ;;
   cd_stencil_2d_v2diag i0 j0 i1 j1 alpha sgcw st m') = Some m2 ->
  forall bv, (if dir =? 0 then ((mkFa b0 (FACE2d0 i0 j0 i1 j1 0))!(i + side, j))%F else ((mkFa b1 (FACE2d1 i0 j0 i1 j1 0))!(j + side, i))%F) m = Some bv ->
  (btype = 0 -> d <> lit 0) -> dx dir <> lit 0 -> (btype = 4 -> (lit 4 * bv + dx dir)%T <> lit 0) ->
  forall x y : Z -> S, (forall w, w <> col_out dir side -> y w = x w) ->
  ghost_rule btype order d (dx dir) bv (x (col_out dir side)) (x 0) (x (col_in dir side)) (y (col_out dir side)) ->
  exists v, row2 (mkFa st ((0, 4) :: CELL2d i0 j0 i1 j1 sgcw)) i j x m1 = Some v /\ row2 (mkFa st ((0, 4) :: CELL2d i0 j0 i1 j1 sgcw)) i j y m2 = Some v.
  Proof.
    intros Ii Ij Hg Ap Hb Hs Hd0 Hd1 HR E1 E2 bv Hbv Nd Nh N4 x y Hy HG. k_apart.
    apply bind_Some_inv in E1 as (ma & Eo & Ed1). rewrite Eo in E2. cbn [bind] in E2.
    destruct (offdiag_2d_at i0 j0 i1 j1 i0 j0 i1 j1 dx beta b0 b1 sgcw st m ma ltac:(k_rapart L) ltac:(k_rapart L) ltac:(k_rapart L) ltac:(k_rapart L) Eo) as (Vo & Fo).
    destruct (v2diag_2d_at L i0 j0 i1 j1 alpha sgcw st ma m1 ltac:(k_rapart L) ltac:(k_rapart L) ltac:(k_rapart L) Ed1) as (Vd & Fd).
    specialize (Vo i j Ii Ij). specialize (Vd i j Ii Ij).
    destruct Vo as ((e1 & H1 & V1) & (e2 & H2 & V2) & (e3 & H3 & V3) & (e4 & H4 & V4)).
    destruct Vd as ((z1 & Z1 & D1) & K1 & K2 & K3 & K4).
    rewrite H1 in K1. rewrite H2 in K2. rewrite H3 in K3. rewrite H4 in K4.
    apply bind_Some_inv in E2 as (mb & Ea & Ed2).
    destruct (v2diag_2d_at L i0 j0 i1 j1 alpha sgcw st mb m2 ltac:(k_rapart L) ltac:(k_rapart L) ltac:(k_rapart L) Ed2) as (Vd & Fd2).
    specialize (Vd i j Ii Ij).
    destruct Vd as ((z2 & Z2 & D2) & J1 & J2 & J3 & J4).
    assert (dir = 0 \/ dir = 1) as Hdir by (unfold beside2 in Hb; lia).
    destruct Hdir as [Hdir|Hdir]; subst dir; destruct Hs as [Hs|Hs]; subst side.
    - change (col_out 0 0) with 1 in *; change (col_in 0 0) with 2 in * .
      assert (((mkFa b0 (FACE2d0 i0 j0 i1 j1 0))!(i + 0, j))%F ma = Some bv) as Hbv' by (unfold fel in * ; rewrite Fo by (cbn; k_ne); exact Hbv).
      destruct (adj_offdiag_2d_at i0 j0 i1 j1 pi0 pj0 pi1 pj1 0 0 btype order dx d nf beta b0 b1 sgcw st i j bv e1 e2 ma mb
        Ii Ij Hg ltac:(k_rapart L) Hb ltac:(tauto) Hd0 Hd1 HR Ea Hbv' H1 H2) as (U1 & U2 & U3 & U4).
      pose proof (elim_physical L btype order d (dx 0) bv (lit 2 * dx 0 / (lit 4 * bv + dx 0))%T (beta * bv / (dx 0 * (lit 3 * dx 0 + lit 16 * bv)))%T (x 1) (x 0) (x 2) (y 1) e1 e2 Nd Nh N4 ltac:(reflexivity) HG) as HE.
      change (col_out 0 0) with 1 in U1, U3; change (col_in 0 0) with 2 in U2, U3.
      destruct (adj_pair _ _ _ _ _ _ _) as [eu' ev']. cbn [fst snd] in U1, U2, HE.
      pose proof (U3 3 ltac:(lia) ltac:(discriminate) ltac:(discriminate)) as G3. rewrite H3 in G3.
      pose proof (U3 4 ltac:(lia) ltac:(discriminate) ltac:(discriminate)) as G4. rewrite H4 in G4.
      rewrite U1 in J1. rewrite U2 in J2. rewrite G3 in J3. rewrite G4 in J4.
      clear - L U1 U2 G3 G4 H1 K1 J1 H2 K2 J2 H3 K3 J3 H4 K4 J4 Z1 Z2 D1 D2 Hy HE.
      k_val D1. k_val D2. subst z1 z2.
      eexists. unfold row2, fop, fel, fsc. rewrite Z1, K1, K2, K3, K4, Z2, J1, J2, J3, J4. cbn [bind]. split; [reflexivity|].
      rewrite (Hy 0) by discriminate. rewrite (Hy 2) by discriminate. rewrite (Hy 3) by discriminate. rewrite (Hy 4) by discriminate. f_equal. apply (by_diff L _ _ _ _ HE). ring.
    - change (col_out 0 1) with 2 in *; change (col_in 0 1) with 1 in * .
      assert (((mkFa b0 (FACE2d0 i0 j0 i1 j1 0))!(i + 1, j))%F ma = Some bv) as Hbv' by (unfold fel in * ; rewrite Fo by (cbn; k_ne); exact Hbv).
      destruct (adj_offdiag_2d_at i0 j0 i1 j1 pi0 pj0 pi1 pj1 0 1 btype order dx d nf beta b0 b1 sgcw st i j bv e2 e1 ma mb
        Ii Ij Hg ltac:(k_rapart L) Hb ltac:(tauto) Hd0 Hd1 HR Ea Hbv' H2 H1) as (U1 & U2 & U3 & U4).
      pose proof (elim_physical L btype order d (dx 0) bv (lit 2 * dx 0 / (lit 4 * bv + dx 0))%T (beta * bv / (dx 0 * (lit 3 * dx 0 + lit 16 * bv)))%T (x 2) (x 0) (x 1) (y 2) e2 e1 Nd Nh N4 ltac:(reflexivity) HG) as HE.
      change (col_out 0 1) with 2 in U1, U3; change (col_in 0 1) with 1 in U2, U3.
      destruct (adj_pair _ _ _ _ _ _ _) as [eu' ev']. cbn [fst snd] in U1, U2, HE.
      pose proof (U3 3 ltac:(lia) ltac:(discriminate) ltac:(discriminate)) as G3. rewrite H3 in G3.
      pose proof (U3 4 ltac:(lia) ltac:(discriminate) ltac:(discriminate)) as G4. rewrite H4 in G4.
      rewrite U1 in J2. rewrite U2 in J1. rewrite G3 in J3. rewrite G4 in J4.
      clear - L U1 U2 G3 G4 H1 K1 J1 H2 K2 J2 H3 K3 J3 H4 K4 J4 Z1 Z2 D1 D2 Hy HE.
      k_val D1. k_val D2. subst z1 z2.
      eexists. unfold row2, fop, fel, fsc. rewrite Z1, K1, K2, K3, K4, Z2, J1, J2, J3, J4. cbn [bind]. split; [reflexivity|].
      rewrite (Hy 0) by discriminate. rewrite (Hy 1) by discriminate. rewrite (Hy 3) by discriminate. rewrite (Hy 4) by discriminate. f_equal. apply (by_diff L _ _ _ _ HE). ring.
    - change (col_out 1 0) with 3 in *; change (col_in 1 0) with 4 in * .
      assert (((mkFa b1 (FACE2d1 i0 j0 i1 j1 0))!(j + 0, i))%F ma = Some bv) as Hbv' by (unfold fel in * ; rewrite Fo by (cbn; k_ne); exact Hbv).
      destruct (adj_offdiag_2d_at i0 j0 i1 j1 pi0 pj0 pi1 pj1 1 0 btype order dx d nf beta b0 b1 sgcw st i j bv e3 e4 ma mb
        Ii Ij Hg ltac:(k_rapart L) Hb ltac:(tauto) Hd0 Hd1 HR Ea Hbv' H3 H4) as (U1 & U2 & U3 & U4).
      pose proof (elim_physical L btype order d (dx 1) bv (lit 2 * dx 1 / (lit 4 * bv + dx 1))%T (beta * bv / (dx 1 * (lit 3 * dx 1 + lit 16 * bv)))%T (x 3) (x 0) (x 4) (y 3) e3 e4 Nd Nh N4 ltac:(reflexivity) HG) as HE.
      change (col_out 1 0) with 3 in U1, U3; change (col_in 1 0) with 4 in U2, U3.
      destruct (adj_pair _ _ _ _ _ _ _) as [eu' ev']. cbn [fst snd] in U1, U2, HE.
      pose proof (U3 1 ltac:(lia) ltac:(discriminate) ltac:(discriminate)) as G1. rewrite H1 in G1.
      pose proof (U3 2 ltac:(lia) ltac:(discriminate) ltac:(discriminate)) as G2. rewrite H2 in G2.
      rewrite U1 in J3. rewrite U2 in J4. rewrite G1 in J1. rewrite G2 in J2.
      clear - L U1 U2 G1 G2 H1 K1 J1 H2 K2 J2 H3 K3 J3 H4 K4 J4 Z1 Z2 D1 D2 Hy HE.
      k_val D1. k_val D2. subst z1 z2.
      eexists. unfold row2, fop, fel, fsc. rewrite Z1, K1, K2, K3, K4, Z2, J1, J2, J3, J4. cbn [bind]. split; [reflexivity|].
      rewrite (Hy 0) by discriminate. rewrite (Hy 4) by discriminate. rewrite (Hy 1) by discriminate. rewrite (Hy 2) by discriminate. f_equal. apply (by_diff L _ _ _ _ HE). ring.
    - change (col_out 1 1) with 4 in *; change (col_in 1 1) with 3 in * .
      assert (((mkFa b1 (FACE2d1 i0 j0 i1 j1 0))!(j + 1, i))%F ma = Some bv) as Hbv' by (unfold fel in * ; rewrite Fo by (cbn; k_ne); exact Hbv).
      destruct (adj_offdiag_2d_at i0 j0 i1 j1 pi0 pj0 pi1 pj1 1 1 btype order dx d nf beta b0 b1 sgcw st i j bv e4 e3 ma mb
        Ii Ij Hg ltac:(k_rapart L) Hb ltac:(tauto) Hd0 Hd1 HR Ea Hbv' H4 H3) as (U1 & U2 & U3 & U4).
      pose proof (elim_physical L btype order d (dx 1) bv (lit 2 * dx 1 / (lit 4 * bv + dx 1))%T (beta * bv / (dx 1 * (lit 3 * dx 1 + lit 16 * bv)))%T (x 4) (x 0) (x 3) (y 4) e4 e3 Nd Nh N4 ltac:(reflexivity) HG) as HE.
      change (col_out 1 1) with 4 in U1, U3; change (col_in 1 1) with 3 in U2, U3.
      destruct (adj_pair _ _ _ _ _ _ _) as [eu' ev']. cbn [fst snd] in U1, U2, HE.
      pose proof (U3 1 ltac:(lia) ltac:(discriminate) ltac:(discriminate)) as G1. rewrite H1 in G1.
      pose proof (U3 2 ltac:(lia) ltac:(discriminate) ltac:(discriminate)) as G2. rewrite H2 in G2.
      rewrite U1 in J4. rewrite U2 in J3. rewrite G1 in J1. rewrite G2 in J2.
      clear - L U1 U2 G1 G2 H1 K1 J1 H2 K2 J2 H3 K3 J3 H4 K4 J4 Z1 Z2 D1 D2 Hy HE.
      k_val D1. k_val D2. subst z1 z2.
      eexists. unfold row2, fop, fel, fsc. rewrite Z1, K1, K2, K3, K4, Z2, J1, J2, J3, J4. cbn [bind]. split; [reflexivity|].
      rewrite (Hy 0) by discriminate. rewrite (Hy 3) by discriminate. rewrite (Hy 1) by discriminate. rewrite (Hy 2) by discriminate. f_equal. apply (by_diff L _ _ _ _ HE). ring.
  Qed.

  Lemma coarse_v2_2d i0 j0 i1 j1 pi0 pj0 pi1 pj1 r dir side order dx beta b0 b1 alpha sgcw st i j (m m1 m2 : mem S) :
  i0 <= i <= i1 -> j0 <= j <= j1 -> 0 <= sgcw -> apart st [b0; b1] ->
  beside2 dir side pi0 pj0 pi1 pj1 i j -> (side = 0 \/ side = 1) -> (dir = 0 -> j0 <= pj0 /\ pj1 <= j1) -> (dir = 1 -> i0 <= pi0 /\ pi1 <= i1) -> 
  (m' <- cd_stencil_2d_offdiag i0 j0 i1 j1 i0 j0 i1 j1 dx beta b0 b1 sgcw st m ;;
   cd_stencil_2d_v2diag i0 j0 i1 j1 alpha sgcw st m') = Some m1 ->
  (m' <- cd_stencil_2d_offdiag i0 j0 i1 j1 i0 j0 i1 j1 dx beta b0 b1 sgcw st m ;; m' <- cd_stencil_2d_v2diag i0 j0 i1 j1 alpha sgcw st m' ;;
   m' <- cd_stencil_2d_adj_cf_diag i0 j0 i1 j1 pi0 pj0 pi1 pj1 r dir side order dx beta b0 b1 sgcw st m' ;;
   cd_stencil_2d_adj_cf_offdiag i0 j0 i1 j1 pi0 pj0 pi1 pj1 r dir side order sgcw st m') = Some m2 ->
  1 <= r ->
  forall x y : Z -> S, (forall w, w <> col_out dir side -> y w = x w) ->
  coarse_rule order (lit r) (x (col_out dir side)) (x 0) (x (col_in dir side)) (y (col_out dir side)) ->
  exists v, row2 (mkFa st ((0, 4) :: CELL2d i0 j0 i1 j1 sgcw)) i j x m1 = Some v /\ row2 (mkFa st ((0, 4) :: CELL2d i0 j0 i1 j1 sgcw)) i j y m2 = Some v.
  Proof.
    intros Ii Ij Hg Ap Hb Hs Hd0 Hd1 E1 E2 Hr x y Hy HG. k_apart.
    apply bind_Some_inv in E1 as (ma & Eo & Ed1). rewrite Eo in E2. cbn [bind] in E2.
    destruct (offdiag_2d_at i0 j0 i1 j1 i0 j0 i1 j1 dx beta b0 b1 sgcw st m ma ltac:(k_rapart L) ltac:(k_rapart L) ltac:(k_rapart L) ltac:(k_rapart L) Eo) as (Vo & Fo).
    destruct (v2diag_2d_at L i0 j0 i1 j1 alpha sgcw st ma m1 ltac:(k_rapart L) ltac:(k_rapart L) ltac:(k_rapart L) Ed1) as (Vd & Fd).
    specialize (Vo i j Ii Ij). specialize (Vd i j Ii Ij).
    destruct Vo as ((e1 & H1 & V1) & (e2 & H2 & V2) & (e3 & H3 & V3) & (e4 & H4 & V4)).
    destruct Vd as ((z1 & Z1 & D1) & K1 & K2 & K3 & K4).
    rewrite H1 in K1. rewrite H2 in K2. rewrite H3 in K3. rewrite H4 in K4.
    rewrite Ed1 in E2. cbn [bind] in E2. apply bind_Some_inv in E2 as (mb & Ec & Eo2).
    assert (order = 1 \/ order = 2) as Ho by (destruct HG as [(HG & _)|(HG & _)]; rewrite HG; tauto).
    assert (dir = 0 \/ dir = 1) as Hdir by (unfold beside2 in Hb; lia).
    destruct Hdir as [Hdir|Hdir]; subst dir; destruct Hs as [Hs|Hs]; subst side.
    - change (col_out 0 0) with 1 in *; change (col_in 0 0) with 2 in * .
      assert (exists bv, ((mkFa b0 (FACE2d0 i0 j0 i1 j1 0))!(i + 0, j))%F m1 = Some bv /\ e1 = (- (beta / (dx 0 * dx 0)) * bv)%T) as (bv & Hbv & Eu).
      { revert V1. unfold fop, fsc, fel. replace (i + 0) with i by lia; cbn [bind]. intros Q. apply bind_Some_inv in Q as (bv & Q1 & Q2).
        exists bv. rewrite Fd by (cbn; k_ne). rewrite Fo by (cbn; k_ne). split; [exact Q1|]. injection Q2 as <-. rewrite (neg_div L). reflexivity. }
      destruct (adj_cf_diag_2d_at i0 j0 i1 j1 pi0 pj0 pi1 pj1 r 0 0 order dx beta b0 b1 sgcw st i j bv z1 m1 mb
        Ii Ij Hg ltac:(k_rapart L) Hb ltac:(tauto) Hd0 Hd1 Ec Hbv Z1) as (W1 & W2 & W3).
      rewrite <- (W2 1) in K1 by lia. rewrite <- (W2 2) in K2 by lia.
      destruct (adj_cf_offdiag_2d_at i0 j0 i1 j1 pi0 pj0 pi1 pj1 r 0 0 order sgcw st i j e1 e2 mb m2
        Ii Ij Hg Hb ltac:(tauto) Hd0 Hd1 Eo2 K1 K2) as (U1 & U2 & U3 & U4).
      rewrite (W2 1) in K1 by lia. rewrite (W2 2) in K2 by lia.
      pose proof (elim_coarse L r order (x 1) (x 0) (x 2) (y 1) e1 e2 z1 _ Hr HG eq_refl) as HE.
      rewrite (cf_part_eq L r order _ bv z1 e1 Ho Eu) in W1.
      change (col_out 0 0) with 1 in U1, U3; change (col_in 0 0) with 2 in U2, U3.
      destruct (cf_pair _ _ _ _) as [eu' ev']. cbn [fst snd] in U1, U2, HE.
      pose proof (U3 0 ltac:(lia) ltac:(discriminate) ltac:(discriminate)) as G0. rewrite W1 in G0.
      pose proof (U3 3 ltac:(lia) ltac:(discriminate) ltac:(discriminate)) as G3. rewrite (W2 3), K3 in G3 by lia.
      pose proof (U3 4 ltac:(lia) ltac:(discriminate) ltac:(discriminate)) as G4. rewrite (W2 4), K4 in G4 by lia.
      clear - L G0 U1 U2 G3 G4 K1 K2 K3 K4 Z1 Hy HE.
      unfold fel in * . eexists. unfold row2, fop, fel, fsc. rewrite Z1, K1, K2, K3, K4, G0, U1, U2, G3, G4. cbn [bind]. split; [reflexivity|].
      rewrite (Hy 0) by discriminate. rewrite (Hy 2) by discriminate. rewrite (Hy 3) by discriminate. rewrite (Hy 4) by discriminate. f_equal. apply (by_diff L _ _ _ _ HE). ring.
    - change (col_out 0 1) with 2 in *; change (col_in 0 1) with 1 in * .
      assert (exists bv, ((mkFa b0 (FACE2d0 i0 j0 i1 j1 0))!(i + 1, j))%F m1 = Some bv /\ e2 = (- (beta / (dx 0 * dx 0)) * bv)%T) as (bv & Hbv & Eu).
      { revert V2. unfold fop, fsc, fel. cbn [bind]. intros Q. apply bind_Some_inv in Q as (bv & Q1 & Q2).
        exists bv. rewrite Fd by (cbn; k_ne). rewrite Fo by (cbn; k_ne). split; [exact Q1|]. injection Q2 as <-. rewrite (neg_div L). reflexivity. }
      destruct (adj_cf_diag_2d_at i0 j0 i1 j1 pi0 pj0 pi1 pj1 r 0 1 order dx beta b0 b1 sgcw st i j bv z1 m1 mb
        Ii Ij Hg ltac:(k_rapart L) Hb ltac:(tauto) Hd0 Hd1 Ec Hbv Z1) as (W1 & W2 & W3).
      rewrite <- (W2 2) in K2 by lia. rewrite <- (W2 1) in K1 by lia.
      destruct (adj_cf_offdiag_2d_at i0 j0 i1 j1 pi0 pj0 pi1 pj1 r 0 1 order sgcw st i j e2 e1 mb m2
        Ii Ij Hg Hb ltac:(tauto) Hd0 Hd1 Eo2 K2 K1) as (U1 & U2 & U3 & U4).
      rewrite (W2 2) in K2 by lia. rewrite (W2 1) in K1 by lia.
      pose proof (elim_coarse L r order (x 2) (x 0) (x 1) (y 2) e2 e1 z1 _ Hr HG eq_refl) as HE.
      rewrite (cf_part_eq L r order _ bv z1 e2 Ho Eu) in W1.
      change (col_out 0 1) with 2 in U1, U3; change (col_in 0 1) with 1 in U2, U3.
      destruct (cf_pair _ _ _ _) as [eu' ev']. cbn [fst snd] in U1, U2, HE.
      pose proof (U3 0 ltac:(lia) ltac:(discriminate) ltac:(discriminate)) as G0. rewrite W1 in G0.
      pose proof (U3 3 ltac:(lia) ltac:(discriminate) ltac:(discriminate)) as G3. rewrite (W2 3), K3 in G3 by lia.
      pose proof (U3 4 ltac:(lia) ltac:(discriminate) ltac:(discriminate)) as G4. rewrite (W2 4), K4 in G4 by lia.
      clear - L G0 U1 U2 G3 G4 K1 K2 K3 K4 Z1 Hy HE.
      unfold fel in * . eexists. unfold row2, fop, fel, fsc. rewrite Z1, K1, K2, K3, K4, G0, U2, U1, G3, G4. cbn [bind]. split; [reflexivity|].
      rewrite (Hy 0) by discriminate. rewrite (Hy 1) by discriminate. rewrite (Hy 3) by discriminate. rewrite (Hy 4) by discriminate. f_equal. apply (by_diff L _ _ _ _ HE). ring.
    - change (col_out 1 0) with 3 in *; change (col_in 1 0) with 4 in * .
      assert (exists bv, ((mkFa b1 (FACE2d1 i0 j0 i1 j1 0))!(j + 0, i))%F m1 = Some bv /\ e3 = (- (beta / (dx 1 * dx 1)) * bv)%T) as (bv & Hbv & Eu).
      { revert V3. unfold fop, fsc, fel. replace (j + 0) with j by lia; cbn [bind]. intros Q. apply bind_Some_inv in Q as (bv & Q1 & Q2).
        exists bv. rewrite Fd by (cbn; k_ne). rewrite Fo by (cbn; k_ne). split; [exact Q1|]. injection Q2 as <-. rewrite (neg_div L). reflexivity. }
      destruct (adj_cf_diag_2d_at i0 j0 i1 j1 pi0 pj0 pi1 pj1 r 1 0 order dx beta b0 b1 sgcw st i j bv z1 m1 mb
        Ii Ij Hg ltac:(k_rapart L) Hb ltac:(tauto) Hd0 Hd1 Ec Hbv Z1) as (W1 & W2 & W3).
      rewrite <- (W2 3) in K3 by lia. rewrite <- (W2 4) in K4 by lia.
      destruct (adj_cf_offdiag_2d_at i0 j0 i1 j1 pi0 pj0 pi1 pj1 r 1 0 order sgcw st i j e3 e4 mb m2
        Ii Ij Hg Hb ltac:(tauto) Hd0 Hd1 Eo2 K3 K4) as (U1 & U2 & U3 & U4).
      rewrite (W2 3) in K3 by lia. rewrite (W2 4) in K4 by lia.
      pose proof (elim_coarse L r order (x 3) (x 0) (x 4) (y 3) e3 e4 z1 _ Hr HG eq_refl) as HE.
      rewrite (cf_part_eq L r order _ bv z1 e3 Ho Eu) in W1.
      change (col_out 1 0) with 3 in U1, U3; change (col_in 1 0) with 4 in U2, U3.
      destruct (cf_pair _ _ _ _) as [eu' ev']. cbn [fst snd] in U1, U2, HE.
      pose proof (U3 0 ltac:(lia) ltac:(discriminate) ltac:(discriminate)) as G0. rewrite W1 in G0.
      pose proof (U3 1 ltac:(lia) ltac:(discriminate) ltac:(discriminate)) as G1. rewrite (W2 1), K1 in G1 by lia.
      pose proof (U3 2 ltac:(lia) ltac:(discriminate) ltac:(discriminate)) as G2. rewrite (W2 2), K2 in G2 by lia.
      clear - L G0 U1 U2 G1 G2 K1 K2 K3 K4 Z1 Hy HE.
      unfold fel in * . eexists. unfold row2, fop, fel, fsc. rewrite Z1, K1, K2, K3, K4, G0, G1, G2, U1, U2. cbn [bind]. split; [reflexivity|].
      rewrite (Hy 0) by discriminate. rewrite (Hy 4) by discriminate. rewrite (Hy 1) by discriminate. rewrite (Hy 2) by discriminate. f_equal. apply (by_diff L _ _ _ _ HE). ring.
    - change (col_out 1 1) with 4 in *; change (col_in 1 1) with 3 in * .
      assert (exists bv, ((mkFa b1 (FACE2d1 i0 j0 i1 j1 0))!(j + 1, i))%F m1 = Some bv /\ e4 = (- (beta / (dx 1 * dx 1)) * bv)%T) as (bv & Hbv & Eu).
      { revert V4. unfold fop, fsc, fel. cbn [bind]. intros Q. apply bind_Some_inv in Q as (bv & Q1 & Q2).
        exists bv. rewrite Fd by (cbn; k_ne). rewrite Fo by (cbn; k_ne). split; [exact Q1|]. injection Q2 as <-. rewrite (neg_div L). reflexivity. }
      destruct (adj_cf_diag_2d_at i0 j0 i1 j1 pi0 pj0 pi1 pj1 r 1 1 order dx beta b0 b1 sgcw st i j bv z1 m1 mb
        Ii Ij Hg ltac:(k_rapart L) Hb ltac:(tauto) Hd0 Hd1 Ec Hbv Z1) as (W1 & W2 & W3).
      rewrite <- (W2 4) in K4 by lia. rewrite <- (W2 3) in K3 by lia.
      destruct (adj_cf_offdiag_2d_at i0 j0 i1 j1 pi0 pj0 pi1 pj1 r 1 1 order sgcw st i j e4 e3 mb m2
        Ii Ij Hg Hb ltac:(tauto) Hd0 Hd1 Eo2 K4 K3) as (U1 & U2 & U3 & U4).
      rewrite (W2 4) in K4 by lia. rewrite (W2 3) in K3 by lia.
      pose proof (elim_coarse L r order (x 4) (x 0) (x 3) (y 4) e4 e3 z1 _ Hr HG eq_refl) as HE.
      rewrite (cf_part_eq L r order _ bv z1 e4 Ho Eu) in W1.
      change (col_out 1 1) with 4 in U1, U3; change (col_in 1 1) with 3 in U2, U3.
      destruct (cf_pair _ _ _ _) as [eu' ev']. cbn [fst snd] in U1, U2, HE.
      pose proof (U3 0 ltac:(lia) ltac:(discriminate) ltac:(discriminate)) as G0. rewrite W1 in G0.
      pose proof (U3 1 ltac:(lia) ltac:(discriminate) ltac:(discriminate)) as G1. rewrite (W2 1), K1 in G1 by lia.
      pose proof (U3 2 ltac:(lia) ltac:(discriminate) ltac:(discriminate)) as G2. rewrite (W2 2), K2 in G2 by lia.
      clear - L G0 U1 U2 G1 G2 K1 K2 K3 K4 Z1 Hy HE.
      unfold fel in * . eexists. unfold row2, fop, fel, fsc. rewrite Z1, K1, K2, K3, K4, G0, G1, G2, U2, U1. cbn [bind]. split; [reflexivity|].
      rewrite (Hy 0) by discriminate. rewrite (Hy 3) by discriminate. rewrite (Hy 1) by discriminate. rewrite (Hy 2) by discriminate. f_equal. apply (by_diff L _ _ _ _ HE). ring.
  Qed.

  Lemma physical_poisson_2d i0 j0 i1 j1 pi0 pj0 pi1 pj1 dir side btype order dx d nf beta sgcw st i j (m m1 m2 : mem S) :
  i0 <= i <= i1 -> j0 <= j <= j1 -> 0 <= sgcw -> 
  beside2 dir side pi0 pj0 pi1 pj1 i j -> (side = 0 \/ side = 1) -> (dir = 0 -> j0 <= pj0 /\ pj1 <= j1) -> (dir = 1 -> i0 <= pi0 /\ pi1 <= i1) -> (btype = 4 -> dir = 0) ->
  (m' <- cd_stencil_2d_poisson_offdiag i0 j0 i1 j1 dx beta sgcw st m ;;
   cd_stencil_2d_poisson_diag i0 j0 i1 j1 sgcw st m') = Some m1 ->
  (m' <- cd_stencil_2d_poisson_offdiag i0 j0 i1 j1 dx beta sgcw st m ;;
   m' <- cd_stencil_2d_adj_poisson_offdiag i0 j0 i1 j1 pi0 pj0 pi1 pj1 dir side btype order dx d nf beta sgcw st m' ;;
   cd_stencil_2d_poisson_diag i0 j0 i1 j1 sgcw st m') = Some m2 ->
  (btype = 0 -> d <> lit 0) -> dx dir <> lit 0 -> (btype = 4 -> (lit 4 + dx dir)%T <> lit 0) ->
  forall x y : Z -> S, (forall w, w <> col_out dir side -> y w = x w) ->
  ghost_rule btype order d (dx dir) (lit 1) (x (col_out dir side)) (x 0) (x (col_in dir side)) (y (col_out dir side)) ->
  exists v, row2 (mkFa st ((0, 4) :: CELL2d i0 j0 i1 j1 sgcw)) i j x m1 = Some v /\ row2 (mkFa st ((0, 4) :: CELL2d i0 j0 i1 j1 sgcw)) i j y m2 = Some v.
  Proof.
    intros Ii Ij Hg Hb Hs Hd0 Hd1 HR E1 E2 Nd Nh N4 x y Hy HG. k_apart.
    apply bind_Some_inv in E1 as (ma & Eo & Ed1). rewrite Eo in E2. cbn [bind] in E2.
    destruct (poisson_offdiag_2d_at i0 j0 i1 j1 dx beta sgcw st m ma ltac:(k_rapart L) ltac:(k_rapart L) ltac:(k_rapart L) Eo) as (Vo & Fo).
    destruct (poisson_diag_2d_at L i0 j0 i1 j1 sgcw st ma m1 ltac:(k_rapart L) ltac:(k_rapart L) ltac:(k_rapart L) Ed1) as (Vd & Fd).
    specialize (Vo i j Ii Ij). specialize (Vd i j Ii Ij).
    destruct Vo as ((e1 & H1 & V1) & (e2 & H2 & V2) & (e3 & H3 & V3) & (e4 & H4 & V4)).
    destruct Vd as ((z1 & Z1 & D1) & K1 & K2 & K3 & K4).
    rewrite H1 in K1. rewrite H2 in K2. rewrite H3 in K3. rewrite H4 in K4.
    apply bind_Some_inv in E2 as (mb & Ea & Ed2).
    destruct (poisson_diag_2d_at L i0 j0 i1 j1 sgcw st mb m2 ltac:(k_rapart L) ltac:(k_rapart L) ltac:(k_rapart L) Ed2) as (Vd & Fd2).
    specialize (Vd i j Ii Ij).
    destruct Vd as ((z2 & Z2 & D2) & J1 & J2 & J3 & J4).
    assert (dir = 0 \/ dir = 1) as Hdir by (unfold beside2 in Hb; lia).
    destruct Hdir as [Hdir|Hdir]; subst dir; destruct Hs as [Hs|Hs]; subst side.
    - change (col_out 0 0) with 1 in *; change (col_in 0 0) with 2 in * .
      destruct (adj_poisson_offdiag_2d_at i0 j0 i1 j1 pi0 pj0 pi1 pj1 0 0 btype order dx d nf beta sgcw st i j e1 e2 ma mb
        Ii Ij Hg Hb ltac:(tauto) Hd0 Hd1 HR Ea H1 H2) as (U1 & U2 & U3 & U4).
      pose proof (elim_physical L btype order d (dx 0) (lit 1) (lit 2 * dx 0 / (lit 4 + dx 0))%T (beta / (dx 0 * (lit 3 * dx 0 + lit 16)))%T (x 1) (x 0) (x 2) (y 1) e1 e2 Nd Nh ltac:(intros B; replace (lit 4 * lit 1 + dx 0)%T with (lit 4 + dx 0)%T by ring; exact (N4 B)) ltac:(intros; f_equal; ring) HG) as HE.
      change (col_out 0 0) with 1 in U1, U3; change (col_in 0 0) with 2 in U2, U3.
      destruct (adj_pair _ _ _ _ _ _ _) as [eu' ev']. cbn [fst snd] in U1, U2, HE.
      pose proof (U3 3 ltac:(lia) ltac:(discriminate) ltac:(discriminate)) as G3. rewrite H3 in G3.
      pose proof (U3 4 ltac:(lia) ltac:(discriminate) ltac:(discriminate)) as G4. rewrite H4 in G4.
      rewrite U1 in J1. rewrite U2 in J2. rewrite G3 in J3. rewrite G4 in J4.
      clear - L U1 U2 G3 G4 H1 K1 J1 H2 K2 J2 H3 K3 J3 H4 K4 J4 Z1 Z2 D1 D2 Hy HE.
      k_val D1. k_val D2. subst z1 z2.
      eexists. unfold row2, fop, fel, fsc. rewrite Z1, K1, K2, K3, K4, Z2, J1, J2, J3, J4. cbn [bind]. split; [reflexivity|].
      rewrite (Hy 0) by discriminate. rewrite (Hy 2) by discriminate. rewrite (Hy 3) by discriminate. rewrite (Hy 4) by discriminate. f_equal. apply (by_diff L _ _ _ _ HE). ring.
    - change (col_out 0 1) with 2 in *; change (col_in 0 1) with 1 in * .
      destruct (adj_poisson_offdiag_2d_at i0 j0 i1 j1 pi0 pj0 pi1 pj1 0 1 btype order dx d nf beta sgcw st i j e2 e1 ma mb
        Ii Ij Hg Hb ltac:(tauto) Hd0 Hd1 HR Ea H2 H1) as (U1 & U2 & U3 & U4).
      pose proof (elim_physical L btype order d (dx 0) (lit 1) (lit 2 * dx 0 / (lit 4 + dx 0))%T (beta / (dx 0 * (lit 3 * dx 0 + lit 16)))%T (x 2) (x 0) (x 1) (y 2) e2 e1 Nd Nh ltac:(intros B; replace (lit 4 * lit 1 + dx 0)%T with (lit 4 + dx 0)%T by ring; exact (N4 B)) ltac:(intros; f_equal; ring) HG) as HE.
      change (col_out 0 1) with 2 in U1, U3; change (col_in 0 1) with 1 in U2, U3.
      destruct (adj_pair _ _ _ _ _ _ _) as [eu' ev']. cbn [fst snd] in U1, U2, HE.
      pose proof (U3 3 ltac:(lia) ltac:(discriminate) ltac:(discriminate)) as G3. rewrite H3 in G3.
      pose proof (U3 4 ltac:(lia) ltac:(discriminate) ltac:(discriminate)) as G4. rewrite H4 in G4.
      rewrite U1 in J2. rewrite U2 in J1. rewrite G3 in J3. rewrite G4 in J4.
      clear - L U1 U2 G3 G4 H1 K1 J1 H2 K2 J2 H3 K3 J3 H4 K4 J4 Z1 Z2 D1 D2 Hy HE.
      k_val D1. k_val D2. subst z1 z2.
      eexists. unfold row2, fop, fel, fsc. rewrite Z1, K1, K2, K3, K4, Z2, J1, J2, J3, J4. cbn [bind]. split; [reflexivity|].
      rewrite (Hy 0) by discriminate. rewrite (Hy 1) by discriminate. rewrite (Hy 3) by discriminate. rewrite (Hy 4) by discriminate. f_equal. apply (by_diff L _ _ _ _ HE). ring.
    - change (col_out 1 0) with 3 in *; change (col_in 1 0) with 4 in * .
      destruct (adj_poisson_offdiag_2d_at i0 j0 i1 j1 pi0 pj0 pi1 pj1 1 0 btype order dx d nf beta sgcw st i j e3 e4 ma mb
        Ii Ij Hg Hb ltac:(tauto) Hd0 Hd1 HR Ea H3 H4) as (U1 & U2 & U3 & U4).
      pose proof (elim_physical L btype order d (dx 1) (lit 1) (lit 2 * dx 1 / (lit 4 + dx 1))%T (beta / (dx 1 * (lit 3 * dx 1 + lit 16)))%T (x 3) (x 0) (x 4) (y 3) e3 e4 Nd Nh ltac:(intros B; replace (lit 4 * lit 1 + dx 1)%T with (lit 4 + dx 1)%T by ring; exact (N4 B)) ltac:(intros; f_equal; ring) HG) as HE.
      change (col_out 1 0) with 3 in U1, U3; change (col_in 1 0) with 4 in U2, U3.
      destruct (adj_pair _ _ _ _ _ _ _) as [eu' ev']. cbn [fst snd] in U1, U2, HE.
      pose proof (U3 1 ltac:(lia) ltac:(discriminate) ltac:(discriminate)) as G1. rewrite H1 in G1.
      pose proof (U3 2 ltac:(lia) ltac:(discriminate) ltac:(discriminate)) as G2. rewrite H2 in G2.
      rewrite U1 in J3. rewrite U2 in J4. rewrite G1 in J1. rewrite G2 in J2.
      clear - L U1 U2 G1 G2 H1 K1 J1 H2 K2 J2 H3 K3 J3 H4 K4 J4 Z1 Z2 D1 D2 Hy HE.
      k_val D1. k_val D2. subst z1 z2.
      eexists. unfold row2, fop, fel, fsc. rewrite Z1, K1, K2, K3, K4, Z2, J1, J2, J3, J4. cbn [bind]. split; [reflexivity|].
      rewrite (Hy 0) by discriminate. rewrite (Hy 4) by discriminate. rewrite (Hy 1) by discriminate. rewrite (Hy 2) by discriminate. f_equal. apply (by_diff L _ _ _ _ HE). ring.
    - change (col_out 1 1) with 4 in *; change (col_in 1 1) with 3 in * .
      destruct (adj_poisson_offdiag_2d_at i0 j0 i1 j1 pi0 pj0 pi1 pj1 1 1 btype order dx d nf beta sgcw st i j e4 e3 ma mb
        Ii Ij Hg Hb ltac:(tauto) Hd0 Hd1 HR Ea H4 H3) as (U1 & U2 & U3 & U4).
      pose proof (elim_physical L btype order d (dx 1) (lit 1) (lit 2 * dx 1 / (lit 4 + dx 1))%T (beta / (dx 1 * (lit 3 * dx 1 + lit 16)))%T (x 4) (x 0) (x 3) (y 4) e4 e3 Nd Nh ltac:(intros B; replace (lit 4 * lit 1 + dx 1)%T with (lit 4 + dx 1)%T by ring; exact (N4 B)) ltac:(intros; f_equal; ring) HG) as HE.
      change (col_out 1 1) with 4 in U1, U3; change (col_in 1 1) with 3 in U2, U3.
      destruct (adj_pair _ _ _ _ _ _ _) as [eu' ev']. cbn [fst snd] in U1, U2, HE.
      pose proof (U3 1 ltac:(lia) ltac:(discriminate) ltac:(discriminate)) as G1. rewrite H1 in G1.
      pose proof (U3 2 ltac:(lia) ltac:(discriminate) ltac:(discriminate)) as G2. rewrite H2 in G2.
      rewrite U1 in J4. rewrite U2 in J3. rewrite G1 in J1. rewrite G2 in J2.
      clear - L U1 U2 G1 G2 H1 K1 J1 H2 K2 J2 H3 K3 J3 H4 K4 J4 Z1 Z2 D1 D2 Hy HE.
      k_val D1. k_val D2. subst z1 z2.
      eexists. unfold row2, fop, fel, fsc. rewrite Z1, K1, K2, K3, K4, Z2, J1, J2, J3, J4. cbn [bind]. split; [reflexivity|].
      rewrite (Hy 0) by discriminate. rewrite (Hy 3) by discriminate. rewrite (Hy 1) by discriminate. rewrite (Hy 2) by discriminate. f_equal. apply (by_diff L _ _ _ _ HE). ring.
  Qed.

  Lemma coarse_poisson_2d i0 j0 i1 j1 pi0 pj0 pi1 pj1 r dir side order dx beta sgcw st i j (m m1 m2 : mem S) :
  i0 <= i <= i1 -> j0 <= j <= j1 -> 0 <= sgcw -> 
  beside2 dir side pi0 pj0 pi1 pj1 i j -> (side = 0 \/ side = 1) -> (dir = 0 -> j0 <= pj0 /\ pj1 <= j1) -> (dir = 1 -> i0 <= pi0 /\ pi1 <= i1) -> 
  (m' <- cd_stencil_2d_poisson_offdiag i0 j0 i1 j1 dx beta sgcw st m ;;
   cd_stencil_2d_poisson_diag i0 j0 i1 j1 sgcw st m') = Some m1 ->
  (m' <- cd_stencil_2d_poisson_offdiag i0 j0 i1 j1 dx beta sgcw st m ;; m' <- cd_stencil_2d_poisson_diag i0 j0 i1 j1 sgcw st m' ;;
   m' <- cd_stencil_2d_adj_poisson_cf_diag i0 j0 i1 j1 pi0 pj0 pi1 pj1 r dir side order dx beta sgcw st m' ;;
   cd_stencil_2d_adj_cf_offdiag i0 j0 i1 j1 pi0 pj0 pi1 pj1 r dir side order sgcw st m') = Some m2 ->
  1 <= r ->
  forall x y : Z -> S, (forall w, w <> col_out dir side -> y w = x w) ->
  coarse_rule order (lit r) (x (col_out dir side)) (x 0) (x (col_in dir side)) (y (col_out dir side)) ->
  exists v, row2 (mkFa st ((0, 4) :: CELL2d i0 j0 i1 j1 sgcw)) i j x m1 = Some v /\ row2 (mkFa st ((0, 4) :: CELL2d i0 j0 i1 j1 sgcw)) i j y m2 = Some v.
  Proof.
    intros Ii Ij Hg Hb Hs Hd0 Hd1 E1 E2 Hr x y Hy HG. k_apart.
    apply bind_Some_inv in E1 as (ma & Eo & Ed1). rewrite Eo in E2. cbn [bind] in E2.
    destruct (poisson_offdiag_2d_at i0 j0 i1 j1 dx beta sgcw st m ma ltac:(k_rapart L) ltac:(k_rapart L) ltac:(k_rapart L) Eo) as (Vo & Fo).
    destruct (poisson_diag_2d_at L i0 j0 i1 j1 sgcw st ma m1 ltac:(k_rapart L) ltac:(k_rapart L) ltac:(k_rapart L) Ed1) as (Vd & Fd).
    specialize (Vo i j Ii Ij). specialize (Vd i j Ii Ij).
    destruct Vo as ((e1 & H1 & V1) & (e2 & H2 & V2) & (e3 & H3 & V3) & (e4 & H4 & V4)).
    destruct Vd as ((z1 & Z1 & D1) & K1 & K2 & K3 & K4).
    rewrite H1 in K1. rewrite H2 in K2. rewrite H3 in K3. rewrite H4 in K4.
    rewrite Ed1 in E2. cbn [bind] in E2. apply bind_Some_inv in E2 as (mb & Ec & Eo2).
    assert (order = 1 \/ order = 2) as Ho by (destruct HG as [(HG & _)|(HG & _)]; rewrite HG; tauto).
    assert (dir = 0 \/ dir = 1) as Hdir by (unfold beside2 in Hb; lia).
    destruct Hdir as [Hdir|Hdir]; subst dir; destruct Hs as [Hs|Hs]; subst side.
    - change (col_out 0 0) with 1 in *; change (col_in 0 0) with 2 in * .
      assert (e1 = (- (beta / (dx 0 * dx 0)))%T) as Eu by (injection V1 as <-; apply (neg_div L)).
      destruct (adj_poisson_cf_diag_2d_at i0 j0 i1 j1 pi0 pj0 pi1 pj1 r 0 0 order dx beta sgcw st i j z1 m1 mb
        Ii Ij Hg Hb ltac:(tauto) Hd0 Hd1 Ec Z1) as (W1 & W2 & W3).
      rewrite <- (W2 1) in K1 by lia. rewrite <- (W2 2) in K2 by lia.
      destruct (adj_cf_offdiag_2d_at i0 j0 i1 j1 pi0 pj0 pi1 pj1 r 0 0 order sgcw st i j e1 e2 mb m2
        Ii Ij Hg Hb ltac:(tauto) Hd0 Hd1 Eo2 K1 K2) as (U1 & U2 & U3 & U4).
      rewrite (W2 1) in K1 by lia. rewrite (W2 2) in K2 by lia.
      pose proof (elim_coarse L r order (x 1) (x 0) (x 2) (y 1) e1 e2 z1 _ Hr HG eq_refl) as HE.
      rewrite (cf_ppart_eq L r order _ z1 e1 Ho Eu) in W1.
      change (col_out 0 0) with 1 in U1, U3; change (col_in 0 0) with 2 in U2, U3.
      destruct (cf_pair _ _ _ _) as [eu' ev']. cbn [fst snd] in U1, U2, HE.
      pose proof (U3 0 ltac:(lia) ltac:(discriminate) ltac:(discriminate)) as G0. rewrite W1 in G0.
      pose proof (U3 3 ltac:(lia) ltac:(discriminate) ltac:(discriminate)) as G3. rewrite (W2 3), K3 in G3 by lia.
      pose proof (U3 4 ltac:(lia) ltac:(discriminate) ltac:(discriminate)) as G4. rewrite (W2 4), K4 in G4 by lia.
      clear - L G0 U1 U2 G3 G4 K1 K2 K3 K4 Z1 Hy HE.
      unfold fel in * . eexists. unfold row2, fop, fel, fsc. rewrite Z1, K1, K2, K3, K4, G0, U1, U2, G3, G4. cbn [bind]. split; [reflexivity|].
      rewrite (Hy 0) by discriminate. rewrite (Hy 2) by discriminate. rewrite (Hy 3) by discriminate. rewrite (Hy 4) by discriminate. f_equal. apply (by_diff L _ _ _ _ HE). ring.
    - change (col_out 0 1) with 2 in *; change (col_in 0 1) with 1 in * .
      assert (e2 = (- (beta / (dx 0 * dx 0)))%T) as Eu by (injection V2 as <-; apply (neg_div L)).
      destruct (adj_poisson_cf_diag_2d_at i0 j0 i1 j1 pi0 pj0 pi1 pj1 r 0 1 order dx beta sgcw st i j z1 m1 mb
        Ii Ij Hg Hb ltac:(tauto) Hd0 Hd1 Ec Z1) as (W1 & W2 & W3).
      rewrite <- (W2 2) in K2 by lia. rewrite <- (W2 1) in K1 by lia.
      destruct (adj_cf_offdiag_2d_at i0 j0 i1 j1 pi0 pj0 pi1 pj1 r 0 1 order sgcw st i j e2 e1 mb m2
        Ii Ij Hg Hb ltac:(tauto) Hd0 Hd1 Eo2 K2 K1) as (U1 & U2 & U3 & U4).
      rewrite (W2 2) in K2 by lia. rewrite (W2 1) in K1 by lia.
      pose proof (elim_coarse L r order (x 2) (x 0) (x 1) (y 2) e2 e1 z1 _ Hr HG eq_refl) as HE.
      rewrite (cf_ppart_eq L r order _ z1 e2 Ho Eu) in W1.
      change (col_out 0 1) with 2 in U1, U3; change (col_in 0 1) with 1 in U2, U3.
      destruct (cf_pair _ _ _ _) as [eu' ev']. cbn [fst snd] in U1, U2, HE.
      pose proof (U3 0 ltac:(lia) ltac:(discriminate) ltac:(discriminate)) as G0. rewrite W1 in G0.
      pose proof (U3 3 ltac:(lia) ltac:(discriminate) ltac:(discriminate)) as G3. rewrite (W2 3), K3 in G3 by lia.
      pose proof (U3 4 ltac:(lia) ltac:(discriminate) ltac:(discriminate)) as G4. rewrite (W2 4), K4 in G4 by lia.
      clear - L G0 U1 U2 G3 G4 K1 K2 K3 K4 Z1 Hy HE.
      unfold fel in * . eexists. unfold row2, fop, fel, fsc. rewrite Z1, K1, K2, K3, K4, G0, U2, U1, G3, G4. cbn [bind]. split; [reflexivity|].
      rewrite (Hy 0) by discriminate. rewrite (Hy 1) by discriminate. rewrite (Hy 3) by discriminate. rewrite (Hy 4) by discriminate. f_equal. apply (by_diff L _ _ _ _ HE). ring.
    - change (col_out 1 0) with 3 in *; change (col_in 1 0) with 4 in * .
      assert (e3 = (- (beta / (dx 1 * dx 1)))%T) as Eu by (injection V3 as <-; apply (neg_div L)).
      destruct (adj_poisson_cf_diag_2d_at i0 j0 i1 j1 pi0 pj0 pi1 pj1 r 1 0 order dx beta sgcw st i j z1 m1 mb
        Ii Ij Hg Hb ltac:(tauto) Hd0 Hd1 Ec Z1) as (W1 & W2 & W3).
      rewrite <- (W2 3) in K3 by lia. rewrite <- (W2 4) in K4 by lia.
      destruct (adj_cf_offdiag_2d_at i0 j0 i1 j1 pi0 pj0 pi1 pj1 r 1 0 order sgcw st i j e3 e4 mb m2
        Ii Ij Hg Hb ltac:(tauto) Hd0 Hd1 Eo2 K3 K4) as (U1 & U2 & U3 & U4).
      rewrite (W2 3) in K3 by lia. rewrite (W2 4) in K4 by lia.
      pose proof (elim_coarse L r order (x 3) (x 0) (x 4) (y 3) e3 e4 z1 _ Hr HG eq_refl) as HE.
      rewrite (cf_ppart_eq L r order _ z1 e3 Ho Eu) in W1.
      change (col_out 1 0) with 3 in U1, U3; change (col_in 1 0) with 4 in U2, U3.
      destruct (cf_pair _ _ _ _) as [eu' ev']. cbn [fst snd] in U1, U2, HE.
      pose proof (U3 0 ltac:(lia) ltac:(discriminate) ltac:(discriminate)) as G0. rewrite W1 in G0.
      pose proof (U3 1 ltac:(lia) ltac:(discriminate) ltac:(discriminate)) as G1. rewrite (W2 1), K1 in G1 by lia.
      pose proof (U3 2 ltac:(lia) ltac:(discriminate) ltac:(discriminate)) as G2. rewrite (W2 2), K2 in G2 by lia.
      clear - L G0 U1 U2 G1 G2 K1 K2 K3 K4 Z1 Hy HE.
      unfold fel in * . eexists. unfold row2, fop, fel, fsc. rewrite Z1, K1, K2, K3, K4, G0, G1, G2, U1, U2. cbn [bind]. split; [reflexivity|].
      rewrite (Hy 0) by discriminate. rewrite (Hy 4) by discriminate. rewrite (Hy 1) by discriminate. rewrite (Hy 2) by discriminate. f_equal. apply (by_diff L _ _ _ _ HE). ring.
    - change (col_out 1 1) with 4 in *; change (col_in 1 1) with 3 in * .
      assert (e4 = (- (beta / (dx 1 * dx 1)))%T) as Eu by (injection V4 as <-; apply (neg_div L)).
      destruct (adj_poisson_cf_diag_2d_at i0 j0 i1 j1 pi0 pj0 pi1 pj1 r 1 1 order dx beta sgcw st i j z1 m1 mb
        Ii Ij Hg Hb ltac:(tauto) Hd0 Hd1 Ec Z1) as (W1 & W2 & W3).
      rewrite <- (W2 4) in K4 by lia. rewrite <- (W2 3) in K3 by lia.
      destruct (adj_cf_offdiag_2d_at i0 j0 i1 j1 pi0 pj0 pi1 pj1 r 1 1 order sgcw st i j e4 e3 mb m2
        Ii Ij Hg Hb ltac:(tauto) Hd0 Hd1 Eo2 K4 K3) as (U1 & U2 & U3 & U4).
      rewrite (W2 4) in K4 by lia. rewrite (W2 3) in K3 by lia.
      pose proof (elim_coarse L r order (x 4) (x 0) (x 3) (y 4) e4 e3 z1 _ Hr HG eq_refl) as HE.
      rewrite (cf_ppart_eq L r order _ z1 e4 Ho Eu) in W1.
      change (col_out 1 1) with 4 in U1, U3; change (col_in 1 1) with 3 in U2, U3.
      destruct (cf_pair _ _ _ _) as [eu' ev']. cbn [fst snd] in U1, U2, HE.
      pose proof (U3 0 ltac:(lia) ltac:(discriminate) ltac:(discriminate)) as G0. rewrite W1 in G0.
      pose proof (U3 1 ltac:(lia) ltac:(discriminate) ltac:(discriminate)) as G1. rewrite (W2 1), K1 in G1 by lia.
      pose proof (U3 2 ltac:(lia) ltac:(discriminate) ltac:(discriminate)) as G2. rewrite (W2 2), K2 in G2 by lia.
      clear - L G0 U1 U2 G1 G2 K1 K2 K3 K4 Z1 Hy HE.
      unfold fel in * . eexists. unfold row2, fop, fel, fsc. rewrite Z1, K1, K2, K3, K4, G0, G1, G2, U2, U1. cbn [bind]. split; [reflexivity|].
      rewrite (Hy 0) by discriminate. rewrite (Hy 3) by discriminate. rewrite (Hy 1) by discriminate. rewrite (Hy 2) by discriminate. f_equal. apply (by_diff L _ _ _ _ HE). ring.
  Qed.

End Eliminate.
