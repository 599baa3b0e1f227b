(** * Eliminating the values outside the boundary: rows of the matrix (1D) *)

From Coq Require Import Permutation Field.
From Verif Require Import Base ModelBounds ModelMatrix ModelIters ModelSpan ModelProxy Spec SpecIter ModelSched
  LemBase LemDomain LemExpr LemExec SpecAssign LemAssign LemProps LemProps4 SpecWindow LemWindow LemWindow2
  FortranBase SpecKernel SpecEliminate Instances LemField LemKernel LemKernel2 LemBC LemHomog KernelNotations
  KernelsFlux KernelsApply KernelsStencil LemStencil LemRow LemEdge LemValues1
  LemAdjust1 LemEliminate.
Import ListNotations.
Open Scope Z_scope.


Section Eliminate.
  Context {S : Scalar} (L : field_laws S).
  Add Field SF : (s_field S L) (morphism (lit_morph S L), constants [lit_cst]).

  Lemma physical_v1_1d i0 i1 pi0 pi1 side btype order dx d nf beta b0 alpha ai0 ai1 a sgcw st i (m m1 m2 : mem S) :
  i0 <= i <= i1 -> 0 <= sgcw -> apart st [b0; a] ->
  beside1 side pi0 i -> (side = 0 \/ side = 1) -> 
  (m' <- cd_stencil_1d_offdiag i0 i1 i0 i1 dx beta b0 sgcw st m ;;
   cd_stencil_1d_v1diag i0 i1 ai0 ai1 alpha a sgcw st m') = Some m1 ->
  (m' <- cd_stencil_1d_offdiag i0 i1 i0 i1 dx beta b0 sgcw st m ;;
   m' <- cd_stencil_1d_adj_offdiag i0 i1 pi0 pi1 side btype order dx d nf beta b0 sgcw st m' ;;
   cd_stencil_1d_v1diag i0 i1 ai0 ai1 alpha a sgcw st m') = Some m2 ->
  forall bv, ((mkFa b0 (FACE1d i0 i1 0))!(i + side))%F m = Some bv ->
  (btype = 0 -> d <> lit 0) -> dx 0 <> lit 0 -> (btype = 4 -> (lit 4 * bv + dx 0)%T <> lit 0) ->
  forall x y : Z -> S, (forall w, w <> col_out 0 side -> y w = x w) ->
  ghost_rule btype order d (dx 0) bv (x (col_out 0 side)) (x 0) (x (col_in 0 side)) (y (col_out 0 side)) ->
  exists v, row1 (mkFa st ((0, 2) :: CELL1d i0 i1 sgcw)) i x m1 = Some v /\ row1 (mkFa st ((0, 2) :: CELL1d i0 i1 sgcw)) i y m2 = Some v.
  Proof.
    intros Ii Hg Ap Hb Hs E1 E2 bv Hbv Nd Nh N4 x y Hy HG. k_apart.
    apply bind_Some_inv in E1 as (ma & Eo & Ed1). rewrite Eo in E2. cbn [bind] in E2.
    destruct (offdiag_1d_at i0 i1 i0 i1 dx beta b0 sgcw st m ma ltac:(k_rapart L) ltac:(k_rapart L) ltac:(k_rapart L) Eo) as (Vo & Fo).
    destruct (v1diag_1d_at L i0 i1 ai0 ai1 alpha a sgcw st ma m1 ltac:(k_rapart L) ltac:(k_rapart L) ltac:(k_rapart L) Ed1) as (Vd & Fd).
    specialize (Vo i Ii). specialize (Vd i Ii).
    destruct Vo as ((e1 & H1 & V1) & (e2 & H2 & V2)).
    destruct Vd as ((z1 & Z1 & D1) & K1 & K2).
    rewrite H1 in K1. rewrite H2 in K2.
    apply bind_Some_inv in E2 as (mb & Ea & Ed2).
    destruct (v1diag_1d_at L i0 i1 ai0 ai1 alpha a sgcw st mb m2 ltac:(k_rapart L) ltac:(k_rapart L) ltac:(k_rapart L) Ed2) as (Vd & Fd2).
    specialize (Vd i Ii).
    destruct Vd as ((z2 & Z2 & D2) & J1 & J2).
    destruct Hs as [Hs|Hs]; subst side.
    - change (col_out 0 0) with 1 in *; change (col_in 0 0) with 2 in * .
      assert (((mkFa b0 (FACE1d i0 i1 0))!(i + 0))%F ma = Some bv) as Hbv' by (unfold fel in * ; rewrite Fo by (cbn; k_ne); exact Hbv).
      destruct (adj_offdiag_1d_at i0 i1 pi0 pi1 0 btype order dx d nf beta b0 sgcw st i bv e1 e2 ma mb
        Ii Hg ltac:(k_rapart L) Hb ltac:(tauto) Ea Hbv' H1 H2) as (U1 & U2 & U3 & U4).
      pose proof (elim_physical L btype order d (dx 0) bv (lit 2 * dx 0 / (lit 4 * bv + dx 0))%T (beta * bv / (dx 0 * (lit 3 * dx 0 + lit 16 * bv)))%T (x 1) (x 0) (x 2) (y 1) e1 e2 Nd Nh N4 ltac:(reflexivity) HG) as HE.
      change (col_out 0 0) with 1 in U1, U3; change (col_in 0 0) with 2 in U2, U3.
      destruct (adj_pair _ _ _ _ _ _ _) as [eu' ev']. cbn [fst snd] in U1, U2, HE.
      rewrite U1 in J1. rewrite U2 in J2. 
      assert (((mkFa a (CELL1d ai0 ai1 0))!(i))%F mb = ((mkFa a (CELL1d ai0 ai1 0))!(i))%F ma) as Ha by (unfold fel; apply U4; cbn; k_ne).
      unfold fop in D2; rewrite Ha in D2; fold (@fop S) in D2.
      clear - L Ha U1 U2  H1 K1 J1 H2 K2 J2 Z1 Z2 D1 D2 Hy HE.
      k_val D1. k_val D2. subst z1 z2.
      eexists. unfold row1, fop, fel, fsc. rewrite Z1, K1, K2, Z2, J1, J2. cbn [bind]. split; [reflexivity|].
      rewrite (Hy 0) by discriminate. rewrite (Hy 2) by discriminate. f_equal. apply (by_diff L _ _ _ _ HE). ring.
    - change (col_out 0 1) with 2 in *; change (col_in 0 1) with 1 in * .
      assert (((mkFa b0 (FACE1d i0 i1 0))!(i + 1))%F ma = Some bv) as Hbv' by (unfold fel in * ; rewrite Fo by (cbn; k_ne); exact Hbv).
      destruct (adj_offdiag_1d_at i0 i1 pi0 pi1 1 btype order dx d nf beta b0 sgcw st i bv e2 e1 ma mb
        Ii Hg ltac:(k_rapart L) Hb ltac:(tauto) Ea Hbv' H2 H1) as (U1 & U2 & U3 & U4).
      pose proof (elim_physical L btype order d (dx 0) bv (lit 2 * dx 0 / (lit 4 * bv + dx 0))%T (beta * bv / (dx 0 * (lit 3 * dx 0 + lit 16 * bv)))%T (x 2) (x 0) (x 1) (y 2) e2 e1 Nd Nh N4 ltac:(reflexivity) HG) as HE.
      change (col_out 0 1) with 2 in U1, U3; change (col_in 0 1) with 1 in U2, U3.
      destruct (adj_pair _ _ _ _ _ _ _) as [eu' ev']. cbn [fst snd] in U1, U2, HE.
      rewrite U1 in J2. rewrite U2 in J1. 
      assert (((mkFa a (CELL1d ai0 ai1 0))!(i))%F mb = ((mkFa a (CELL1d ai0 ai1 0))!(i))%F ma) as Ha by (unfold fel; apply U4; cbn; k_ne).
      unfold fop in D2; rewrite Ha in D2; fold (@fop S) in D2.
      clear - L Ha U1 U2  H1 K1 J1 H2 K2 J2 Z1 Z2 D1 D2 Hy HE.
      k_val D1. k_val D2. subst z1 z2.
      eexists. unfold row1, fop, fel, fsc. rewrite Z1, K1, K2, Z2, J1, J2. cbn [bind]. split; [reflexivity|].
      rewrite (Hy 0) by discriminate. rewrite (Hy 1) by discriminate. f_equal. apply (by_diff L _ _ _ _ HE). ring.
  Qed.

  Lemma coarse_v1_1d i0 i1 pi0 pi1 r side order dx beta b0 alpha ai0 ai1 a sgcw st i (m m1 m2 : mem S) :
  i0 <= i <= i1 -> 0 <= sgcw -> apart st [b0; a] ->
  beside1 side pi0 i -> (side = 0 \/ side = 1) -> 
  (m' <- cd_stencil_1d_offdiag i0 i1 i0 i1 dx beta b0 sgcw st m ;;
   cd_stencil_1d_v1diag i0 i1 ai0 ai1 alpha a sgcw st m') = Some m1 ->
  (m' <- cd_stencil_1d_offdiag i0 i1 i0 i1 dx beta b0 sgcw st m ;; m' <- cd_stencil_1d_v1diag i0 i1 ai0 ai1 alpha a sgcw st m' ;;
   m' <- cd_stencil_1d_adj_cf_diag i0 i1 pi0 pi1 r side order dx beta b0 sgcw st m' ;;
   cd_stencil_1d_adj_cf_offdiag i0 i1 pi0 pi1 r side order sgcw st m') = Some m2 ->
  1 <= r ->
  forall x y : Z -> S, (forall w, w <> col_out 0 side -> y w = x w) ->
  coarse_rule order (lit r) (x (col_out 0 side)) (x 0) (x (col_in 0 side)) (y (col_out 0 side)) ->
  exists v, row1 (mkFa st ((0, 2) :: CELL1d i0 i1 sgcw)) i x m1 = Some v /\ row1 (mkFa st ((0, 2) :: CELL1d i0 i1 sgcw)) i y m2 = Some v.
  Proof.
    intros Ii Hg Ap Hb Hs E1 E2 Hr x y Hy HG. k_apart.
    apply bind_Some_inv in E1 as (ma & Eo & Ed1). rewrite Eo in E2. cbn [bind] in E2.
    destruct (offdiag_1d_at i0 i1 i0 i1 dx beta b0 sgcw st m ma ltac:(k_rapart L) ltac:(k_rapart L) ltac:(k_rapart L) Eo) as (Vo & Fo).
    destruct (v1diag_1d_at L i0 i1 ai0 ai1 alpha a sgcw st ma m1 ltac:(k_rapart L) ltac:(k_rapart L) ltac:(k_rapart L) Ed1) as (Vd & Fd).
    specialize (Vo i Ii). specialize (Vd i Ii).
    destruct Vo as ((e1 & H1 & V1) & (e2 & H2 & V2)).
    destruct Vd as ((z1 & Z1 & D1) & K1 & K2).
    rewrite H1 in K1. rewrite H2 in K2.
    rewrite Ed1 in E2. cbn [bind] in E2. apply bind_Some_inv in E2 as (mb & Ec & Eo2).
    assert (order = 1 \/ order = 2) as Ho by (destruct HG as [(HG & _)|(HG & _)]; rewrite HG; tauto).
    destruct Hs as [Hs|Hs]; subst side.
    - change (col_out 0 0) with 1 in *; change (col_in 0 0) with 2 in * .
      assert (exists bv, ((mkFa b0 (FACE1d i0 i1 0))!(i + 0))%F m1 = Some bv /\ e1 = (- (beta / (dx 0 * dx 0)) * bv)%T) as (bv & Hbv & Eu).
      { revert V1. unfold fop, fsc, fel. replace (i + 0) with i by lia; cbn [bind]. intros Q. apply bind_Some_inv in Q as (bv & Q1 & Q2).
        exists bv. rewrite Fd by (cbn; k_ne). rewrite Fo by (cbn; k_ne). split; [exact Q1|]. injection Q2 as <-. rewrite (neg_div L). reflexivity. }
      destruct (adj_cf_diag_1d_at i0 i1 pi0 pi1 r 0 order dx beta b0 sgcw st i bv z1 m1 mb
        Ii Hg ltac:(k_rapart L) Hb ltac:(tauto) Ec Hbv Z1) as (W1 & W2 & W3).
      rewrite <- (W2 1) in K1 by lia. rewrite <- (W2 2) in K2 by lia.
      destruct (adj_cf_offdiag_1d_at i0 i1 pi0 pi1 r 0 order sgcw st i e1 e2 mb m2
        Ii Hg Hb ltac:(tauto) Eo2 K1 K2) as (U1 & U2 & U3 & U4).
      rewrite (W2 1) in K1 by lia. rewrite (W2 2) in K2 by lia.
      pose proof (elim_coarse L r order (x 1) (x 0) (x 2) (y 1) e1 e2 z1 _ Hr HG eq_refl) as HE.
      rewrite (cf_part_eq L r order _ bv z1 e1 Ho Eu) in W1.
      change (col_out 0 0) with 1 in U1, U3; change (col_in 0 0) with 2 in U2, U3.
      destruct (cf_pair _ _ _ _) as [eu' ev']. cbn [fst snd] in U1, U2, HE.
      pose proof (U3 0 ltac:(lia) ltac:(discriminate) ltac:(discriminate)) as G0. rewrite W1 in G0.
      clear - L G0 U1 U2  K1 K2 Z1 Hy HE.
      unfold fel in * . eexists. unfold row1, fop, fel, fsc. rewrite Z1, K1, K2, G0, U1, U2. cbn [bind]. split; [reflexivity|].
      rewrite (Hy 0) by discriminate. rewrite (Hy 2) by discriminate. f_equal. apply (by_diff L _ _ _ _ HE). ring.
    - change (col_out 0 1) with 2 in *; change (col_in 0 1) with 1 in * .
      assert (exists bv, ((mkFa b0 (FACE1d i0 i1 0))!(i + 1))%F m1 = Some bv /\ e2 = (- (beta / (dx 0 * dx 0)) * bv)%T) as (bv & Hbv & Eu).
      { revert V2. unfold fop, fsc, fel. cbn [bind]. intros Q. apply bind_Some_inv in Q as (bv & Q1 & Q2).
        exists bv. rewrite Fd by (cbn; k_ne). rewrite Fo by (cbn; k_ne). split; [exact Q1|]. injection Q2 as <-. rewrite (neg_div L). reflexivity. }
      destruct (adj_cf_diag_1d_at i0 i1 pi0 pi1 r 1 order dx beta b0 sgcw st i bv z1 m1 mb
        Ii Hg ltac:(k_rapart L) Hb ltac:(tauto) Ec Hbv Z1) as (W1 & W2 & W3).
      rewrite <- (W2 2) in K2 by lia. rewrite <- (W2 1) in K1 by lia.
      destruct (adj_cf_offdiag_1d_at i0 i1 pi0 pi1 r 1 order sgcw st i e2 e1 mb m2
        Ii Hg Hb ltac:(tauto) Eo2 K2 K1) as (U1 & U2 & U3 & U4).
      rewrite (W2 2) in K2 by lia. rewrite (W2 1) in K1 by lia.
      pose proof (elim_coarse L r order (x 2) (x 0) (x 1) (y 2) e2 e1 z1 _ Hr HG eq_refl) as HE.
      rewrite (cf_part_eq L r order _ bv z1 e2 Ho Eu) in W1.
      change (col_out 0 1) with 2 in U1, U3; change (col_in 0 1) with 1 in U2, U3.
      destruct (cf_pair _ _ _ _) as [eu' ev']. cbn [fst snd] in U1, U2, HE.
      pose proof (U3 0 ltac:(lia) ltac:(discriminate) ltac:(discriminate)) as G0. rewrite W1 in G0.
      clear - L G0 U1 U2  K1 K2 Z1 Hy HE.
      unfold fel in * . eexists. unfold row1, fop, fel, fsc. rewrite Z1, K1, K2, G0, U2, U1. cbn [bind]. split; [reflexivity|].
      rewrite (Hy 0) by discriminate. rewrite (Hy 1) by discriminate. f_equal. apply (by_diff L _ _ _ _ HE). ring.
  Qed.

  Lemma physical_v2_1d i0 i1 pi0 pi1 side btype order dx d nf beta b0 alpha sgcw st i (m m1 m2 : mem S) :
  i0 <= i <= i1 -> 0 <= sgcw -> apart st [b0] ->
  beside1 side pi0 i -> (side = 0 \/ side = 1) -> 
  (m' <- cd_stencil_1d_offdiag i0 i1 i0 i1 dx beta b0 sgcw st m ;;
   cd_stencil_1d_v2diag i0 i1 alpha sgcw st m') = Some m1 ->
  (m' <- cd_stencil_1d_offdiag i0 i1 i0 i1 dx beta b0 sgcw st m ;;
   m' <- cd_stencil_1d_adj_offdiag i0 i1 pi0 pi1 side btype order dx d nf beta b0 sgcw st m' ;;
   cd_stencil_1d_v2diag i0 i1 alpha sgcw st m') = Some m2 ->
  forall bv, ((mkFa b0 (FACE1d i0 i1 0))!(i + side))%F m = Some bv ->
  (btype = 0 -> d <> lit 0) -> dx 0 <> lit 0 -> (btype = 4 -> (lit 4 * bv + dx 0)%T <> lit 0) ->
  forall x y : Z -> S, (forall w, w <> col_out 0 side -> y w = x w) ->
  ghost_rule btype order d (dx 0) bv (x (col_out 0 side)) (x 0) (x (col_in 0 side)) (y (col_out 0 side)) ->
  exists v, row1 (mkFa st ((0, 2) :: CELL1d i0 i1 sgcw)) i x m1 = Some v /\ row1 (mkFa st ((0, 2) :: CELL1d i0 i1 sgcw)) i y m2 = Some v.
  Proof.
    intros Ii Hg Ap Hb Hs E1 E2 bv Hbv Nd Nh N4 x y Hy HG. k_apart.
    apply bind_Some_inv in E1 as (ma & Eo & Ed1). rewrite Eo in E2. cbn [bind] in E2.
    destruct (offdiag_1d_at i0 i1 i0 i1 dx beta b0 sgcw st m ma ltac:(k_rapart L) ltac:(k_rapart L) ltac:(k_rapart L) Eo) as (Vo & Fo).
    destruct (v2diag_1d_at L i0 i1 alpha sgcw st ma m1 ltac:(k_rapart L) ltac:(k_rapart L) Ed1) as (Vd & Fd).
    specialize (Vo i Ii). specialize (Vd i Ii).
    destruct Vo as ((e1 & H1 & V1) & (e2 & H2 & V2)).
    destruct Vd as ((z1 & Z1 & D1) & K1 & K2).
    rewrite H1 in K1. rewrite H2 in K2.
    apply bind_Some_inv in E2 as (mb & Ea & Ed2).
    destruct (v2diag_1d_at L i0 i1 alpha sgcw st mb m2 ltac:(k_rapart L) ltac:(k_rapart L) Ed2) as (Vd & Fd2).
    specialize (Vd i Ii).
    destruct Vd as ((z2 & Z2 & D2) & J1 & J2).
    destruct Hs as [Hs|Hs]; subst side.
    - change (col_out 0 0) with 1 in *; change (col_in 0 0) with 2 in * .
      assert (((mkFa b0 (FACE1d i0 i1 0))!(i + 0))%F ma = Some bv) as Hbv' by (unfold fel in * ; rewrite Fo by (cbn; k_ne); exact Hbv).
      destruct (adj_offdiag_1d_at i0 i1 pi0 pi1 0 btype order dx d nf beta b0 sgcw st i bv e1 e2 ma mb
        Ii Hg ltac:(k_rapart L) Hb ltac:(tauto) Ea Hbv' H1 H2) as (U1 & U2 & U3 & U4).
      pose proof (elim_physical L btype order d (dx 0) bv (lit 2 * dx 0 / (lit 4 * bv + dx 0))%T (beta * bv / (dx 0 * (lit 3 * dx 0 + lit 16 * bv)))%T (x 1) (x 0) (x 2) (y 1) e1 e2 Nd Nh N4 ltac:(reflexivity) HG) as HE.
      change (col_out 0 0) with 1 in U1, U3; change (col_in 0 0) with 2 in U2, U3.
      destruct (adj_pair _ _ _ _ _ _ _) as [eu' ev']. cbn [fst snd] in U1, U2, HE.
      rewrite U1 in J1. rewrite U2 in J2. 
      clear - L U1 U2  H1 K1 J1 H2 K2 J2 Z1 Z2 D1 D2 Hy HE.
      k_val D1. k_val D2. subst z1 z2.
      eexists. unfold row1, fop, fel, fsc. rewrite Z1, K1, K2, Z2, J1, J2. cbn [bind]. split; [reflexivity|].
      rewrite (Hy 0) by discriminate. rewrite (Hy 2) by discriminate. f_equal. apply (by_diff L _ _ _ _ HE). ring.
    - change (col_out 0 1) with 2 in *; change (col_in 0 1) with 1 in * .
      assert (((mkFa b0 (FACE1d i0 i1 0))!(i + 1))%F ma = Some bv) as Hbv' by (unfold fel in * ; rewrite Fo by (cbn; k_ne); exact Hbv).
      destruct (adj_offdiag_1d_at i0 i1 pi0 pi1 1 btype order dx d nf beta b0 sgcw st i bv e2 e1 ma mb
        Ii Hg ltac:(k_rapart L) Hb ltac:(tauto) Ea Hbv' H2 H1) as (U1 & U2 & U3 & U4).
      pose proof (elim_physical L btype order d (dx 0) bv (lit 2 * dx 0 / (lit 4 * bv + dx 0))%T (beta * bv / (dx 0 * (lit 3 * dx 0 + lit 16 * bv)))%T (x 2) (x 0) (x 1) (y 2) e2 e1 Nd Nh N4 ltac:(reflexivity) HG) as HE.
      change (col_out 0 1) with 2 in U1, U3; change (col_in 0 1) with 1 in U2, U3.
      destruct (adj_pair _ _ _ _ _ _ _) as [eu' ev']. cbn [fst snd] in U1, U2, HE.
      rewrite U1 in J2. rewrite U2 in J1. 
      clear - L U1 U2  H1 K1 J1 H2 K2 J2 Z1 Z2 D1 D2 Hy HE.
      k_val D1. k_val D2. subst z1 z2.
      eexists. unfold row1, fop, fel, fsc. rewrite Z1, K1, K2, Z2, J1, J2. cbn [bind]. split; [reflexivity|].
      rewrite (Hy 0) by discriminate. rewrite (Hy 1) by discriminate. f_equal. apply (by_diff L _ _ _ _ HE). ring.
  Qed.

  Lemma coarse_v2_1d i0 i1 pi0 pi1 r side order dx beta b0 alpha sgcw st i (m m1 m2 : mem S) :
  i0 <= i <= i1 -> 0 <= sgcw -> apart st [b0] ->
  beside1 side pi0 i -> (side = 0 \/ side = 1) -> 
  (m' <- cd_stencil_1d_offdiag i0 i1 i0 i1 dx beta b0 sgcw st m ;;
   cd_stencil_1d_v2diag i0 i1 alpha sgcw st m') = Some m1 ->
  (m' <- cd_stencil_1d_offdiag i0 i1 i0 i1 dx beta b0 sgcw st m ;; m' <- cd_stencil_1d_v2diag i0 i1 alpha sgcw st m' ;;
   m' <- cd_stencil_1d_adj_cf_diag i0 i1 pi0 pi1 r side order dx beta b0 sgcw st m' ;;
   cd_stencil_1d_adj_cf_offdiag i0 i1 pi0 pi1 r side order sgcw st m') = Some m2 ->
  1 <= r ->
  forall x y : Z -> S, (forall w, w <> col_out 0 side -> y w = x w) ->
  coarse_rule order (lit r) (x (col_out 0 side)) (x 0) (x (col_in 0 side)) (y (col_out 0 side)) ->
  exists v, row1 (mkFa st ((0, 2) :: CELL1d i0 i1 sgcw)) i x m1 = Some v /\ row1 (mkFa st ((0, 2) :: CELL1d i0 i1 sgcw)) i y m2 = Some v.
  Proof.
    intros Ii Hg Ap Hb Hs E1 E2 Hr x y Hy HG. k_apart.
    apply bind_Some_inv in E1 as (ma & Eo & Ed1). rewrite Eo in E2. cbn [bind] in E2.
    destruct (offdiag_1d_at i0 i1 i0 i1 dx beta b0 sgcw st m ma ltac:(k_rapart L) ltac:(k_rapart L) ltac:(k_rapart L) Eo) as (Vo & Fo).
    destruct (v2diag_1d_at L i0 i1 alpha sgcw st ma m1 ltac:(k_rapart L) ltac:(k_rapart L) Ed1) as (Vd & Fd).
    specialize (Vo i Ii). specialize (Vd i Ii).
    destruct Vo as ((e1 & H1 & V1) & (e2 & H2 & V2)).
    destruct Vd as ((z1 & Z1 & D1) & K1 & K2).
    rewrite H1 in K1. rewrite H2 in K2.
    rewrite Ed1 in E2. cbn [bind] in E2. apply bind_Some_inv in E2 as (mb & Ec & Eo2).
    assert (order = 1 \/ order = 2) as Ho by (destruct HG as [(HG & _)|(HG & _)]; rewrite HG; tauto).
    destruct Hs as [Hs|Hs]; subst side.
    - change (col_out 0 0) with 1 in *; change (col_in 0 0) with 2 in * .
      assert (exists bv, ((mkFa b0 (FACE1d i0 i1 0))!(i + 0))%F m1 = Some bv /\ e1 = (- (beta / (dx 0 * dx 0)) * bv)%T) as (bv & Hbv & Eu).
      { revert V1. unfold fop, fsc, fel. replace (i + 0) with i by lia; cbn [bind]. intros Q. apply bind_Some_inv in Q as (bv & Q1 & Q2).
        exists bv. rewrite Fd by (cbn; k_ne). rewrite Fo by (cbn; k_ne). split; [exact Q1|]. injection Q2 as <-. rewrite (neg_div L). reflexivity. }
      destruct (adj_cf_diag_1d_at i0 i1 pi0 pi1 r 0 order dx beta b0 sgcw st i bv z1 m1 mb
        Ii Hg ltac:(k_rapart L) Hb ltac:(tauto) Ec Hbv Z1) as (W1 & W2 & W3).
      rewrite <- (W2 1) in K1 by lia. rewrite <- (W2 2) in K2 by lia.
      destruct (adj_cf_offdiag_1d_at i0 i1 pi0 pi1 r 0 order sgcw st i e1 e2 mb m2
        Ii Hg Hb ltac:(tauto) Eo2 K1 K2) as (U1 & U2 & U3 & U4).
      rewrite (W2 1) in K1 by lia. rewrite (W2 2) in K2 by lia.
      pose proof (elim_coarse L r order (x 1) (x 0) (x 2) (y 1) e1 e2 z1 _ Hr HG eq_refl) as HE.
      rewrite (cf_part_eq L r order _ bv z1 e1 Ho Eu) in W1.
      change (col_out 0 0) with 1 in U1, U3; change (col_in 0 0) with 2 in U2, U3.
      destruct (cf_pair _ _ _ _) as [eu' ev']. cbn [fst snd] in U1, U2, HE.
      pose proof (U3 0 ltac:(lia) ltac:(discriminate) ltac:(discriminate)) as G0. rewrite W1 in G0.
      clear - L G0 U1 U2  K1 K2 Z1 Hy HE.
      unfold fel in * . eexists. unfold row1, fop, fel, fsc. rewrite Z1, K1, K2, G0, U1, U2. cbn [bind]. split; [reflexivity|].
      rewrite (Hy 0) by discriminate. rewrite (Hy 2) by discriminate. f_equal. apply (by_diff L _ _ _ _ HE). ring.
    - change (col_out 0 1) with 2 in *; change (col_in 0 1) with 1 in * .
      assert (exists bv, ((mkFa b0 (FACE1d i0 i1 0))!(i + 1))%F m1 = Some bv /\ e2 = (- (beta / (dx 0 * dx 0)) * bv)%T) as (bv & Hbv & Eu).
      { revert V2. unfold fop, fsc, fel. cbn [bind]. intros Q. apply bind_Some_inv in Q as (bv & Q1 & Q2).
        exists bv. rewrite Fd by (cbn; k_ne). rewrite Fo by (cbn; k_ne). split; [exact Q1|]. injection Q2 as <-. rewrite (neg_div L). reflexivity. }
      destruct (adj_cf_diag_1d_at i0 i1 pi0 pi1 r 1 order dx beta b0 sgcw st i bv z1 m1 mb
        Ii Hg ltac:(k_rapart L) Hb ltac:(tauto) Ec Hbv Z1) as (W1 & W2 & W3).
      rewrite <- (W2 2) in K2 by lia. rewrite <- (W2 1) in K1 by lia.
      destruct (adj_cf_offdiag_1d_at i0 i1 pi0 pi1 r 1 order sgcw st i e2 e1 mb m2
        Ii Hg Hb ltac:(tauto) Eo2 K2 K1) as (U1 & U2 & U3 & U4).
      rewrite (W2 2) in K2 by lia. rewrite (W2 1) in K1 by lia.
      pose proof (elim_coarse L r order (x 2) (x 0) (x 1) (y 2) e2 e1 z1 _ Hr HG eq_refl) as HE.
      rewrite (cf_part_eq L r order _ bv z1 e2 Ho Eu) in W1.
      change (col_out 0 1) with 2 in U1, U3; change (col_in 0 1) with 1 in U2, U3.
      destruct (cf_pair _ _ _ _) as [eu' ev']. cbn [fst snd] in U1, U2, HE.
      pose proof (U3 0 ltac:(lia) ltac:(discriminate) ltac:(discriminate)) as G0. rewrite W1 in G0.
      clear - L G0 U1 U2  K1 K2 Z1 Hy HE.
      unfold fel in * . eexists. unfold row1, fop, fel, fsc. rewrite Z1, K1, K2, G0, U2, U1. cbn [bind]. split; [reflexivity|].
      rewrite (Hy 0) by discriminate. rewrite (Hy 1) by discriminate. f_equal. apply (by_diff L _ _ _ _ HE). ring.
  Qed.

  Lemma physical_poisson_1d i0 i1 pi0 pi1 side btype order dx d nf beta sgcw st i (m m1 m2 : mem S) :
  i0 <= i <= i1 -> 0 <= sgcw -> 
  beside1 side pi0 i -> (side = 0 \/ side = 1) -> 
  (m' <- cd_stencil_1d_poisson_offdiag i0 i1 dx beta sgcw st m ;;
   cd_stencil_1d_poisson_diag i0 i1 sgcw st m') = Some m1 ->
  (m' <- cd_stencil_1d_poisson_offdiag i0 i1 dx beta sgcw st m ;;
   m' <- cd_stencil_1d_adj_poisson_offdiag i0 i1 pi0 pi1 side btype order dx d nf beta sgcw st m' ;;
   cd_stencil_1d_poisson_diag i0 i1 sgcw st m') = Some m2 ->
  (btype = 0 -> d <> lit 0) -> dx 0 <> lit 0 -> (btype = 4 -> (lit 4 + dx 0)%T <> lit 0) ->
  forall x y : Z -> S, (forall w, w <> col_out 0 side -> y w = x w) ->
  ghost_rule btype order d (dx 0) (lit 1) (x (col_out 0 side)) (x 0) (x (col_in 0 side)) (y (col_out 0 side)) ->
  exists v, row1 (mkFa st ((0, 2) :: CELL1d i0 i1 sgcw)) i x m1 = Some v /\ row1 (mkFa st ((0, 2) :: CELL1d i0 i1 sgcw)) i y m2 = Some v.
  Proof.
    intros Ii Hg Hb Hs E1 E2 Nd Nh N4 x y Hy HG. k_apart.
    apply bind_Some_inv in E1 as (ma & Eo & Ed1). rewrite Eo in E2. cbn [bind] in E2.
    destruct (poisson_offdiag_1d_at i0 i1 dx beta sgcw st m ma ltac:(k_rapart L) ltac:(k_rapart L) Eo) as (Vo & Fo).
    destruct (poisson_diag_1d_at L i0 i1 sgcw st ma m1 ltac:(k_rapart L) ltac:(k_rapart L) Ed1) as (Vd & Fd).
    specialize (Vo i Ii). specialize (Vd i Ii).
    destruct Vo as ((e1 & H1 & V1) & (e2 & H2 & V2)).
    destruct Vd as ((z1 & Z1 & D1) & K1 & K2).
    rewrite H1 in K1. rewrite H2 in K2.
    apply bind_Some_inv in E2 as (mb & Ea & Ed2).
    destruct (poisson_diag_1d_at L i0 i1 sgcw st mb m2 ltac:(k_rapart L) ltac:(k_rapart L) Ed2) as (Vd & Fd2).
    specialize (Vd i Ii).
    destruct Vd as ((z2 & Z2 & D2) & J1 & J2).
    destruct Hs as [Hs|Hs]; subst side.
    - change (col_out 0 0) with 1 in *; change (col_in 0 0) with 2 in * .
      destruct (adj_poisson_offdiag_1d_at i0 i1 pi0 pi1 0 btype order dx d nf beta sgcw st i e1 e2 ma mb
        Ii Hg Hb ltac:(tauto) Ea H1 H2) as (U1 & U2 & U3 & U4).
      pose proof (elim_physical L btype order d (dx 0) (lit 1) (lit 2 * dx 0 / (lit 4 + dx 0))%T (beta / (dx 0 * (lit 3 * dx 0 + lit 16)))%T (x 1) (x 0) (x 2) (y 1) e1 e2 Nd Nh ltac:(intros B; replace (lit 4 * lit 1 + dx 0)%T with (lit 4 + dx 0)%T by ring; exact (N4 B)) ltac:(intros; f_equal; ring) HG) as HE.
      change (col_out 0 0) with 1 in U1, U3; change (col_in 0 0) with 2 in U2, U3.
      destruct (adj_pair _ _ _ _ _ _ _) as [eu' ev']. cbn [fst snd] in U1, U2, HE.
      rewrite U1 in J1. rewrite U2 in J2. 
      clear - L U1 U2  H1 K1 J1 H2 K2 J2 Z1 Z2 D1 D2 Hy HE.
      k_val D1. k_val D2. subst z1 z2.
      eexists. unfold row1, fop, fel, fsc. rewrite Z1, K1, K2, Z2, J1, J2. cbn [bind]. split; [reflexivity|].
      rewrite (Hy 0) by discriminate. rewrite (Hy 2) by discriminate. f_equal. apply (by_diff L _ _ _ _ HE). ring.
    - change (col_out 0 1) with 2 in *; change (col_in 0 1) with 1 in * .
      destruct (adj_poisson_offdiag_1d_at i0 i1 pi0 pi1 1 btype order dx d nf beta sgcw st i e2 e1 ma mb
        Ii Hg Hb ltac:(tauto) Ea H2 H1) as (U1 & U2 & U3 & U4).
      pose proof (elim_physical L btype order d (dx 0) (lit 1) (lit 2 * dx 0 / (lit 4 + dx 0))%T (beta / (dx 0 * (lit 3 * dx 0 + lit 16)))%T (x 2) (x 0) (x 1) (y 2) e2 e1 Nd Nh ltac:(intros B; replace (lit 4 * lit 1 + dx 0)%T with (lit 4 + dx 0)%T by ring; exact (N4 B)) ltac:(intros; f_equal; ring) HG) as HE.
      change (col_out 0 1) with 2 in U1, U3; change (col_in 0 1) with 1 in U2, U3.
      destruct (adj_pair _ _ _ _ _ _ _) as [eu' ev']. cbn [fst snd] in U1, U2, HE.
      rewrite U1 in J2. rewrite U2 in J1. 
      clear - L U1 U2  H1 K1 J1 H2 K2 J2 Z1 Z2 D1 D2 Hy HE.
      k_val D1. k_val D2. subst z1 z2.
      eexists. unfold row1, fop, fel, fsc. rewrite Z1, K1, K2, Z2, J1, J2. cbn [bind]. split; [reflexivity|].
      rewrite (Hy 0) by discriminate. rewrite (Hy 1) by discriminate. f_equal. apply (by_diff L _ _ _ _ HE). ring.
  Qed.

  Lemma coarse_poisson_1d i0 i1 pi0 pi1 r side order dx beta sgcw st i (m m1 m2 : mem S) :
  i0 <= i <= i1 -> 0 <= sgcw -> 
  beside1 side pi0 i -> (side = 0 \/ side = 1) -> 
  (m' <- cd_stencil_1d_poisson_offdiag i0 i1 dx beta sgcw st m ;;
   cd_stencil_1d_poisson_diag i0 i1 sgcw st m') = Some m1 ->
  (m' <- cd_stencil_1d_poisson_offdiag i0 i1 dx beta sgcw st m ;; m' <- cd_stencil_1d_poisson_diag i0 i1 sgcw st m' ;;
   m' <- cd_stencil_1d_adj_poisson_cf_diag i0 i1 pi0 pi1 r side order dx beta sgcw st m' ;;
   cd_stencil_1d_adj_cf_offdiag i0 i1 pi0 pi1 r side order sgcw st m') = Some m2 ->
  1 <= r ->
  forall x y : Z -> S, (forall w, w <> col_out 0 side -> y w = x w) ->
  coarse_rule order (lit r) (x (col_out 0 side)) (x 0) (x (col_in 0 side)) (y (col_out 0 side)) ->
  exists v, row1 (mkFa st ((0, 2) :: CELL1d i0 i1 sgcw)) i x m1 = Some v /\ row1 (mkFa st ((0, 2) :: CELL1d i0 i1 sgcw)) i y m2 = Some v.
  Proof.
    intros Ii Hg Hb Hs E1 E2 Hr x y Hy HG. k_apart.
    apply bind_Some_inv in E1 as (ma & Eo & Ed1). rewrite Eo in E2. cbn [bind] in E2.
    destruct (poisson_offdiag_1d_at i0 i1 dx beta sgcw st m ma ltac:(k_rapart L) ltac:(k_rapart L) Eo) as (Vo & Fo).
    destruct (poisson_diag_1d_at L i0 i1 sgcw st ma m1 ltac:(k_rapart L) ltac:(k_rapart L) Ed1) as (Vd & Fd).
    specialize (Vo i Ii). specialize (Vd i Ii).
    destruct Vo as ((e1 & H1 & V1) & (e2 & H2 & V2)).
    destruct Vd as ((z1 & Z1 & D1) & K1 & K2).
    rewrite H1 in K1. rewrite H2 in K2.
    rewrite Ed1 in E2. cbn [bind] in E2. apply bind_Some_inv in E2 as (mb & Ec & Eo2).
    assert (order = 1 \/ order = 2) as Ho by (destruct HG as [(HG & _)|(HG & _)]; rewrite HG; tauto).
    destruct Hs as [Hs|Hs]; subst side.
    - change (col_out 0 0) with 1 in *; change (col_in 0 0) with 2 in * .
      assert (e1 = (- (beta / (dx 0 * dx 0)))%T) as Eu by (injection V1 as <-; apply (neg_div L)).
      destruct (adj_poisson_cf_diag_1d_at i0 i1 pi0 pi1 r 0 order dx beta sgcw st i z1 m1 mb
        Ii Hg Hb ltac:(tauto) Ec Z1) as (W1 & W2 & W3).
      rewrite <- (W2 1) in K1 by lia. rewrite <- (W2 2) in K2 by lia.
      destruct (adj_cf_offdiag_1d_at i0 i1 pi0 pi1 r 0 order sgcw st i e1 e2 mb m2
        Ii Hg Hb ltac:(tauto) Eo2 K1 K2) as (U1 & U2 & U3 & U4).
      rewrite (W2 1) in K1 by lia. rewrite (W2 2) in K2 by lia.
      pose proof (elim_coarse L r order (x 1) (x 0) (x 2) (y 1) e1 e2 z1 _ Hr HG eq_refl) as HE.
      rewrite (cf_ppart_eq L r order _ z1 e1 Ho Eu) in W1.
      change (col_out 0 0) with 1 in U1, U3; change (col_in 0 0) with 2 in U2, U3.
      destruct (cf_pair _ _ _ _) as [eu' ev']. cbn [fst snd] in U1, U2, HE.
      pose proof (U3 0 ltac:(lia) ltac:(discriminate) ltac:(discriminate)) as G0. rewrite W1 in G0.
      clear - L G0 U1 U2  K1 K2 Z1 Hy HE.
      unfold fel in * . eexists. unfold row1, fop, fel, fsc. rewrite Z1, K1, K2, G0, U1, U2. cbn [bind]. split; [reflexivity|].
      rewrite (Hy 0) by discriminate. rewrite (Hy 2) by discriminate. f_equal. apply (by_diff L _ _ _ _ HE). ring.
    - change (col_out 0 1) with 2 in *; change (col_in 0 1) with 1 in * .
      assert (e2 = (- (beta / (dx 0 * dx 0)))%T) as Eu by (injection V2 as <-; apply (neg_div L)).
      destruct (adj_poisson_cf_diag_1d_at i0 i1 pi0 pi1 r 1 order dx beta sgcw st i z1 m1 mb
        Ii Hg Hb ltac:(tauto) Ec Z1) as (W1 & W2 & W3).
      rewrite <- (W2 2) in K2 by lia. rewrite <- (W2 1) in K1 by lia.
      destruct (adj_cf_offdiag_1d_at i0 i1 pi0 pi1 r 1 order sgcw st i e2 e1 mb m2
        Ii Hg Hb ltac:(tauto) Eo2 K2 K1) as (U1 & U2 & U3 & U4).
      rewrite (W2 2) in K2 by lia. rewrite (W2 1) in K1 by lia.
      pose proof (elim_coarse L r order (x 2) (x 0) (x 1) (y 2) e2 e1 z1 _ Hr HG eq_refl) as HE.
      rewrite (cf_ppart_eq L r order _ z1 e2 Ho Eu) in W1.
      change (col_out 0 1) with 2 in U1, U3; change (col_in 0 1) with 1 in U2, U3.
      destruct (cf_pair _ _ _ _) as [eu' ev']. cbn [fst snd] in U1, U2, HE.
      pose proof (U3 0 ltac:(lia) ltac:(discriminate) ltac:(discriminate)) as G0. rewrite W1 in G0.
      clear - L G0 U1 U2  K1 K2 Z1 Hy HE.
      unfold fel in * . eexists. unfold row1, fop, fel, fsc. rewrite Z1, K1, K2, G0, U2, U1. cbn [bind]. split; [reflexivity|].
      rewrite (Hy 0) by discriminate. rewrite (Hy 1) by discriminate. f_equal. apply (by_diff L _ _ _ _ HE). ring.
  Qed.

End Eliminate.
