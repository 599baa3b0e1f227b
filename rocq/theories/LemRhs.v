(** * Moving the values outside the boundary to the right-hand side *)

From Coq Require Import Permutation Field.
From Verif Require Import Base ModelBounds ModelMatrix ModelIters ModelSpan ModelProxy Spec SpecIter ModelSched
  LemBase LemDomain LemExpr LemExec SpecAssign LemAssign LemProps LemProps2 LemProps3 LemProps4 SpecWindow LemWindow LemWindow2
  FortranBase SpecKernel SpecEliminate Instances LemField LemKernel LemKernel2 LemBC LemHomog KernelNotations
  KernelsFlux KernelsApply KernelsStencil LemStencil LemRow LemEdge LemAdjust1 LemAdjust2 LemAdjust3 LemEliminate.
Import ListNotations.
Open Scope Z_scope.

Ltac k_wlocal_sub :=
  match goal with
  | |- window_local (make_md_span_g ?p ?g [?x; ?w]) _ _ =>
      exists (sp_b (make_md_span_g p g [x])), dW, (snd (expand_bounds g (d_unit w)))
  | |- window_local (make_md_span_g ?p ?g [?x; ?y; ?w]) _ _ =>
      exists (sp_b (make_md_span_g p g [x; y])), dW, (snd (expand_bounds g (d_unit w)))
  | |- window_local (make_md_span_g ?p ?g [?x; ?y; ?z; ?w]) _ _ =>
      exists (sp_b (make_md_span_g p g [x; y; z])), dW, (snd (expand_bounds g (d_unit w)))
  end;
  split; [reflexivity|]; split; [k_within|];
  split; [let a := fresh "a" in let i := fresh "i" in let Ha := fresh in let Hi := fresh in
          intros a i Ha Hi; k_in Ha; subst a; k_in Hi; subst i; unfold extent; cbn; lia|];
  split; [let x := fresh in let p := fresh in let H := fresh in
          intros x p H; k_in H; injection H as <- <-; split; [k_within|split; [cbn; k_ne|]];
          let y := fresh in let q := fresh in let H := fresh in
          intros y q H; k_in H; injection H as <- <-; left; reflexivity|];
  let a := fresh "a" in let b := fresh "b" in let Ha := fresh in let Hb := fresh in
  intros a b Ha Hb; k_in Ha; subst a; k_in Hb; subst b; cbn [wa_vecs pvecs app wa_block];
  repeat first [apply Forall_nil|apply Forall_cons]; k_avoids.

Ltac k_rhs E p lem :=
  let X := fresh in let Y := fresh in let f := fresh "f" in let Ef := fresh "Ef" in let Hf := fresh "Hf" in
  match type of E with with_window ?st ?dom ?l ?m = Some ?m' =>
    assert (X : window_ok st dom l) by k_wok;
    assert (Y : window_indep st l) by (split; [repeat first [apply FOP_nil|apply FOP_cons|apply Forall_nil]|repeat first [apply Forall_nil|apply Forall_cons; [exact Logic.I|]]]);
    destruct (window_effect st dom l m m' X Y ltac:(k_wdiv)
      (window_local_disjoint st dom l (ints m) X ltac:(k_wlocal_sub)) E p lem) as (f & Ef & Hf);
    split;
    [ clear X Y; unfold point_spec in Ef; cbn [forM wassign_at pvalue denote shift] in Ef; revert Ef;
      cbn [flat_map wwrites app] in Hf; revert Hf; autorewrite with fa; k_pt; k_loads; cbn [bind app_op num_op]; k_loads; cbn [bind];
      let Hf := fresh in let Ef := fresh in
      intros Hf Ef; rewrite (Hf _ (or_introl eq_refl)); apply bind_Some_inv in Ef as (? & Ef & Ef'); injection Ef' as <-;
      exact (load_hit _ _ _ _ Ef)
    | let q := fresh "q" in let Hq := fresh in
      intros q Hq; refine (proj2 (proj2 (window_frame st dom l m m' X Y E)) q _);
      let a := fresh "a" in let Ha := fresh in let Hin := fresh in
      intros ? a _ Ha Hin; k_in Ha; subst a; destruct Hin as [Hin|[]]; apply Hq; rewrite <- Hin; reflexivity ]
  end.

Section Rhs.
  Context {S : Scalar} (L : field_laws S).
  Add Field SF : (s_field S L) (morphism (lit_morph S L), constants [lit_cst]).

  Lemma bdryrhs_1d_at i0 i1 pi0 pi1 side sgcw st_ gcw u_ rhs_ i eu uv r0 (m m' : mem S) :
    let st := mkFa st_ ((0, 2) :: CELL1d i0 i1 sgcw) in
    let x := mkFa u_ (CELL1d i0 i1 gcw) in
    let rhs := mkFa rhs_ (CELL1d i0 i1 0) in
    let u := col_out 0 side in
    i0 <= i <= i1 -> 0 <= sgcw -> apart rhs_ [st_; u_] ->
    beside1 side pi0 i -> (side = 0 \/ side = 1) ->
    
    cd_stencil_1d_adj_cf_bdryrhs i0 i1 pi0 pi1 side sgcw st_ gcw u_ rhs_ m = Some m' ->
    (x!(i + (2 * side - 1)))%F m = Some uv ->
    (st!(u, i))%F m = Some eu -> (rhs!(i))%F m = Some r0 ->
    (rhs!(i))%F m' = Some (lit (-1) * (eu * uv) + r0)%T /\
    (forall p, fst p <> fst rhs_ -> load m' p = load m p).
  Proof.
    intros st x rhs u Ii Hg Hap Hb Hs E Hx Hu Hr. k_apart.
    unfold cd_stencil_1d_adj_cf_bdryrhs in E. cbv zeta in E.
    change (1 + side) with u in E.
    assert (0 <= u <= 2) as Ru by (unfold u, col_out; unfold beside1 in Hb; lia). clearbody u.
    unfold beside1 in Hb. rename Hb into Ei. subst_lets; unfold fel in * .
    - rewrite <- Ei in E. k_rhs E (pt1 dI i) (in_points1 dI i i i ltac:(lia)).
  Qed.

  Lemma residual_1d i0 i1 pi0 pi1 side sgcw st gcw u rhs i uv r0 v0 (m m2 : mem S) :
  i0 <= i <= i1 -> 0 <= sgcw -> apart rhs [st; u] ->
  beside1 side pi0 i -> (side = 0 \/ side = 1) -> 
  (m' <- cd_stencil_1d_adj_cf_bdryrhs i0 i1 pi0 pi1 side sgcw st gcw u rhs m ;;
   cd_stencil_1d_readj_offdiag i0 i1 pi0 pi1 side sgcw st m') = Some m2 ->
  ((mkFa u (CELL1d i0 i1 gcw))!(i + (2 * side - 1)))%F m = Some uv ->
  (mkFa rhs (CELL1d i0 i1 0))!(i)%F m = Some r0 ->
  forall x y : Z -> S, x (col_out 0 side) = uv -> (forall w, w <> col_out 0 side -> y w = x w) ->
  row1 (mkFa st ((0, 2) :: CELL1d i0 i1 sgcw)) i x m = Some v0 ->
  exists r1 v1, (mkFa rhs (CELL1d i0 i1 0))!(i)%F m2 = Some r1 /\ row1 (mkFa st ((0, 2) :: CELL1d i0 i1 sgcw)) i y m2 = Some v1 /\
    (r1 - v1 = r0 - v0)%T.
  Proof.
    intros Ii Hg Ap Hb Hs E Hx Hr0 x y Hxu Hy Hrow. k_apart.
    apply bind_Some_inv in E as (ma & E1 & E2).
    unfold row1, fop, fel, fsc in Hrow.
    destruct (load m (faddr (mkFa st ((0, 2) :: CELL1d i0 i1 sgcw)) [0; i])) as [e0|] eqn:L0; cbn [bind] in Hrow; [|discriminate Hrow].
    destruct (load m (faddr (mkFa st ((0, 2) :: CELL1d i0 i1 sgcw)) [1; i])) as [e1|] eqn:L1; cbn [bind] in Hrow; [|discriminate Hrow].
    destruct (load m (faddr (mkFa st ((0, 2) :: CELL1d i0 i1 sgcw)) [2; i])) as [e2|] eqn:L2; cbn [bind] in Hrow; [|discriminate Hrow].
    injection Hrow as <-.
    destruct Hs as [Hs|Hs]; subst side.
    - change (col_out 0 0) with 1 in * .
      destruct (bdryrhs_1d_at i0 i1 pi0 pi1 0 sgcw st gcw u rhs i e1 (x 1) r0 m ma
        Ii Hg ltac:(k_rapart L) Hb ltac:(tauto) E1 Hx L1 Hr0) as (B1 & B2).
      destruct (readj_offdiag_1d_at i0 i1 pi0 pi1 0 sgcw st i ma m2
        Ii Hg Hb ltac:(tauto) E2) as (U1 & U2 & U3).
      change (col_out 0 0) with 1 in U1, U2.
      pose proof (U2 0 ltac:(lia) ltac:(discriminate)) as G0. unfold fel in G0. rewrite (B2 (faddr _ _)), L0 in G0 by (cbn; k_ne).
      pose proof (U2 2 ltac:(lia) ltac:(discriminate)) as G2. unfold fel in G2. rewrite (B2 (faddr _ _)), L2 in G2 by (cbn; k_ne).
      unfold fel in * . do 2 eexists. rewrite U3 by (cbn; k_ne). rewrite B1. split; [reflexivity|].
      unfold row1, fop, fel, fsc. rewrite G0, U1, G2. cbn [bind]. split; [reflexivity|].
      rewrite (Hy 0) by discriminate. rewrite (Hy 2) by discriminate. ring.
    - change (col_out 0 1) with 2 in * .
      destruct (bdryrhs_1d_at i0 i1 pi0 pi1 1 sgcw st gcw u rhs i e2 (x 2) r0 m ma
        Ii Hg ltac:(k_rapart L) Hb ltac:(tauto) E1 Hx L2 Hr0) as (B1 & B2).
      destruct (readj_offdiag_1d_at i0 i1 pi0 pi1 1 sgcw st i ma m2
        Ii Hg Hb ltac:(tauto) E2) as (U1 & U2 & U3).
      change (col_out 0 1) with 2 in U1, U2.
      pose proof (U2 0 ltac:(lia) ltac:(discriminate)) as G0. unfold fel in G0. rewrite (B2 (faddr _ _)), L0 in G0 by (cbn; k_ne).
      pose proof (U2 1 ltac:(lia) ltac:(discriminate)) as G1. unfold fel in G1. rewrite (B2 (faddr _ _)), L1 in G1 by (cbn; k_ne).
      unfold fel in * . do 2 eexists. rewrite U3 by (cbn; k_ne). rewrite B1. split; [reflexivity|].
      unfold row1, fop, fel, fsc. rewrite G0, G1, U1. cbn [bind]. split; [reflexivity|].
      rewrite (Hy 0) by discriminate. rewrite (Hy 1) by discriminate. ring.
  Qed.

  Lemma bdryrhs_2d_at i0 j0 i1 j1 pi0 pj0 pi1 pj1 dir side sgcw st_ gcw u_ rhs_ i j eu uv r0 (m m' : mem S) :
    let st := mkFa st_ ((0, 4) :: CELL2d i0 j0 i1 j1 sgcw) in
    let x := mkFa u_ (CELL2d i0 j0 i1 j1 gcw) in
    let rhs := mkFa rhs_ (CELL2d i0 j0 i1 j1 0) in
    let u := col_out dir side in
    i0 <= i <= i1 -> j0 <= j <= j1 -> 0 <= sgcw -> apart rhs_ [st_; u_] ->
    beside2 dir side pi0 pj0 pi1 pj1 i j -> (side = 0 \/ side = 1) ->
    (dir = 0 -> j0 <= pj0 /\ pj1 <= j1) -> (dir = 1 -> i0 <= pi0 /\ pi1 <= i1) -> 
    cd_stencil_2d_adj_cf_bdryrhs i0 j0 i1 j1 pi0 pj0 pi1 pj1 dir side sgcw st_ gcw u_ rhs_ m = Some m' ->
    (if dir =? 0 then (x!(i + (2 * side - 1), j))%F else (x!(i, j + (2 * side - 1)))%F) m = Some uv ->
    (st!(u, i, j))%F m = Some eu -> (rhs!(i, j))%F m = Some r0 ->
    (rhs!(i, j))%F m' = Some (lit (-1) * (eu * uv) + r0)%T /\
    (forall p, fst p <> fst rhs_ -> load m' p = load m p).
  Proof.
    intros st x rhs u Ii Ij Hg Hap Hb Hs Hd0 Hd1 E Hx Hu Hr. k_apart.
    unfold cd_stencil_2d_adj_cf_bdryrhs in E. cbv zeta in E.
    change (2 * dir + 1 + side) with u in E.
    assert (0 <= u <= 4) as Ru by (unfold u, col_out; unfold beside2 in Hb; lia). clearbody u.
    destruct Hb as [(Ed & Ei & Ej)|(Ed & Ej & Ei)]; subst dir; cbn [Z.eqb Pos.eqb] in E, Hx; subst_lets; unfold fel in * .
    - rewrite <- Ei in E. k_rhs E (pt2 dJ dI j i) (in_points2 dJ dI pj0 pj1 i i j i Ej ltac:(lia)).
    - rewrite <- Ej in E. k_rhs E (pt2 dJ dI j i) (in_points2 dJ dI j j pi0 pi1 j i ltac:(lia) Ei).
  Qed.

  Lemma residual_2d i0 j0 i1 j1 pi0 pj0 pi1 pj1 dir side sgcw st gcw u rhs i j uv r0 v0 (m m2 : mem S) :
  i0 <= i <= i1 -> j0 <= j <= j1 -> 0 <= sgcw -> apart rhs [st; u] ->
  beside2 dir side pi0 pj0 pi1 pj1 i j -> (side = 0 \/ side = 1) -> (dir = 0 -> j0 <= pj0 /\ pj1 <= j1) -> (dir = 1 -> i0 <= pi0 /\ pi1 <= i1) -> 
  (m' <- cd_stencil_2d_adj_cf_bdryrhs i0 j0 i1 j1 pi0 pj0 pi1 pj1 dir side sgcw st gcw u rhs m ;;
   cd_stencil_2d_readj_offdiag i0 j0 i1 j1 pi0 pj0 pi1 pj1 dir side sgcw st m') = Some m2 ->
  (if dir =? 0 then ((mkFa u (CELL2d i0 j0 i1 j1 gcw))!(i + (2 * side - 1), j))%F else ((mkFa u (CELL2d i0 j0 i1 j1 gcw))!(i, j + (2 * side - 1)))%F) m = Some uv ->
  (mkFa rhs (CELL2d i0 j0 i1 j1 0))!(i, j)%F m = Some r0 ->
  forall x y : Z -> S, x (col_out dir side) = uv -> (forall w, w <> col_out dir side -> y w = x w) ->
  row2 (mkFa st ((0, 4) :: CELL2d i0 j0 i1 j1 sgcw)) i j x m = Some v0 ->
  exists r1 v1, (mkFa rhs (CELL2d i0 j0 i1 j1 0))!(i, j)%F m2 = Some r1 /\ row2 (mkFa st ((0, 4) :: CELL2d i0 j0 i1 j1 sgcw)) i j y m2 = Some v1 /\
    (r1 - v1 = r0 - v0)%T.
  Proof.
    intros Ii Ij Hg Ap Hb Hs Hd0 Hd1 E Hx Hr0 x y Hxu Hy Hrow. k_apart.
    apply bind_Some_inv in E as (ma & E1 & E2).
    unfold row2, fop, fel, fsc in Hrow.
    destruct (load m (faddr (mkFa st ((0, 4) :: CELL2d i0 j0 i1 j1 sgcw)) [0; i; j])) as [e0|] eqn:L0; cbn [bind] in Hrow; [|discriminate Hrow].
    destruct (load m (faddr (mkFa st ((0, 4) :: CELL2d i0 j0 i1 j1 sgcw)) [1; i; j])) as [e1|] eqn:L1; cbn [bind] in Hrow; [|discriminate Hrow].
    destruct (load m (faddr (mkFa st ((0, 4) :: CELL2d i0 j0 i1 j1 sgcw)) [2; i; j])) as [e2|] eqn:L2; cbn [bind] in Hrow; [|discriminate Hrow].
    destruct (load m (faddr (mkFa st ((0, 4) :: CELL2d i0 j0 i1 j1 sgcw)) [3; i; j])) as [e3|] eqn:L3; cbn [bind] in Hrow; [|discriminate Hrow].
    destruct (load m (faddr (mkFa st ((0, 4) :: CELL2d i0 j0 i1 j1 sgcw)) [4; i; j])) as [e4|] eqn:L4; cbn [bind] in Hrow; [|discriminate Hrow].
    injection Hrow as <-.
    assert (dir = 0 \/ dir = 1) as Hdir by (unfold beside2 in Hb; lia).
    destruct Hdir as [Hdir|Hdir]; subst dir; destruct Hs as [Hs|Hs]; subst side.
    - change (col_out 0 0) with 1 in * .
      destruct (bdryrhs_2d_at i0 j0 i1 j1 pi0 pj0 pi1 pj1 0 0 sgcw st gcw u rhs i j e1 (x 1) r0 m ma
        Ii Ij Hg ltac:(k_rapart L) Hb ltac:(tauto) Hd0 Hd1 E1 Hx L1 Hr0) as (B1 & B2).
      destruct (readj_offdiag_2d_at i0 j0 i1 j1 pi0 pj0 pi1 pj1 0 0 sgcw st i j ma m2
        Ii Ij Hg Hb ltac:(tauto) Hd0 Hd1 E2) as (U1 & U2 & U3).
      change (col_out 0 0) with 1 in U1, U2.
      pose proof (U2 0 ltac:(lia) ltac:(discriminate)) as G0. unfold fel in G0. rewrite (B2 (faddr _ _)), L0 in G0 by (cbn; k_ne).
      pose proof (U2 2 ltac:(lia) ltac:(discriminate)) as G2. unfold fel in G2. rewrite (B2 (faddr _ _)), L2 in G2 by (cbn; k_ne).
      pose proof (U2 3 ltac:(lia) ltac:(discriminate)) as G3. unfold fel in G3. rewrite (B2 (faddr _ _)), L3 in G3 by (cbn; k_ne).
      pose proof (U2 4 ltac:(lia) ltac:(discriminate)) as G4. unfold fel in G4. rewrite (B2 (faddr _ _)), L4 in G4 by (cbn; k_ne).
      unfold fel in * . do 2 eexists. rewrite U3 by (cbn; k_ne). rewrite B1. split; [reflexivity|].
      unfold row2, fop, fel, fsc. rewrite G0, U1, G2, G3, G4. cbn [bind]. split; [reflexivity|].
      rewrite (Hy 0) by discriminate. rewrite (Hy 2) by discriminate. rewrite (Hy 3) by discriminate. rewrite (Hy 4) by discriminate. ring.
    - change (col_out 0 1) with 2 in * .
      destruct (bdryrhs_2d_at i0 j0 i1 j1 pi0 pj0 pi1 pj1 0 1 sgcw st gcw u rhs i j e2 (x 2) r0 m ma
        Ii Ij Hg ltac:(k_rapart L) Hb ltac:(tauto) Hd0 Hd1 E1 Hx L2 Hr0) as (B1 & B2).
      destruct (readj_offdiag_2d_at i0 j0 i1 j1 pi0 pj0 pi1 pj1 0 1 sgcw st i j ma m2
        Ii Ij Hg Hb ltac:(tauto) Hd0 Hd1 E2) as (U1 & U2 & U3).
      change (col_out 0 1) with 2 in U1, U2.
      pose proof (U2 0 ltac:(lia) ltac:(discriminate)) as G0. unfold fel in G0. rewrite (B2 (faddr _ _)), L0 in G0 by (cbn; k_ne).
      pose proof (U2 1 ltac:(lia) ltac:(discriminate)) as G1. unfold fel in G1. rewrite (B2 (faddr _ _)), L1 in G1 by (cbn; k_ne).
      pose proof (U2 3 ltac:(lia) ltac:(discriminate)) as G3. unfold fel in G3. rewrite (B2 (faddr _ _)), L3 in G3 by (cbn; k_ne).
      pose proof (U2 4 ltac:(lia) ltac:(discriminate)) as G4. unfold fel in G4. rewrite (B2 (faddr _ _)), L4 in G4 by (cbn; k_ne).
      unfold fel in * . do 2 eexists. rewrite U3 by (cbn; k_ne). rewrite B1. split; [reflexivity|].
      unfold row2, fop, fel, fsc. rewrite G0, G1, U1, G3, G4. cbn [bind]. split; [reflexivity|].
      rewrite (Hy 0) by discriminate. rewrite (Hy 1) by discriminate. rewrite (Hy 3) by discriminate. rewrite (Hy 4) by discriminate. ring.
    - change (col_out 1 0) with 3 in * .
      destruct (bdryrhs_2d_at i0 j0 i1 j1 pi0 pj0 pi1 pj1 1 0 sgcw st gcw u rhs i j e3 (x 3) r0 m ma
        Ii Ij Hg ltac:(k_rapart L) Hb ltac:(tauto) Hd0 Hd1 E1 Hx L3 Hr0) as (B1 & B2).
      destruct (readj_offdiag_2d_at i0 j0 i1 j1 pi0 pj0 pi1 pj1 1 0 sgcw st i j ma m2
        Ii Ij Hg Hb ltac:(tauto) Hd0 Hd1 E2) as (U1 & U2 & U3).
      change (col_out 1 0) with 3 in U1, U2.
      pose proof (U2 0 ltac:(lia) ltac:(discriminate)) as G0. unfold fel in G0. rewrite (B2 (faddr _ _)), L0 in G0 by (cbn; k_ne).
      pose proof (U2 1 ltac:(lia) ltac:(discriminate)) as G1. unfold fel in G1. rewrite (B2 (faddr _ _)), L1 in G1 by (cbn; k_ne).
      pose proof (U2 2 ltac:(lia) ltac:(discriminate)) as G2. unfold fel in G2. rewrite (B2 (faddr _ _)), L2 in G2 by (cbn; k_ne).
      pose proof (U2 4 ltac:(lia) ltac:(discriminate)) as G4. unfold fel in G4. rewrite (B2 (faddr _ _)), L4 in G4 by (cbn; k_ne).
      unfold fel in * . do 2 eexists. rewrite U3 by (cbn; k_ne). rewrite B1. split; [reflexivity|].
      unfold row2, fop, fel, fsc. rewrite G0, G1, G2, U1, G4. cbn [bind]. split; [reflexivity|].
      rewrite (Hy 0) by discriminate. rewrite (Hy 1) by discriminate. rewrite (Hy 2) by discriminate. rewrite (Hy 4) by discriminate. ring.
    - change (col_out 1 1) with 4 in * .
      destruct (bdryrhs_2d_at i0 j0 i1 j1 pi0 pj0 pi1 pj1 1 1 sgcw st gcw u rhs i j e4 (x 4) r0 m ma
        Ii Ij Hg ltac:(k_rapart L) Hb ltac:(tauto) Hd0 Hd1 E1 Hx L4 Hr0) as (B1 & B2).
      destruct (readj_offdiag_2d_at i0 j0 i1 j1 pi0 pj0 pi1 pj1 1 1 sgcw st i j ma m2
        Ii Ij Hg Hb ltac:(tauto) Hd0 Hd1 E2) as (U1 & U2 & U3).
      change (col_out 1 1) with 4 in U1, U2.
      pose proof (U2 0 ltac:(lia) ltac:(discriminate)) as G0. unfold fel in G0. rewrite (B2 (faddr _ _)), L0 in G0 by (cbn; k_ne).
      pose proof (U2 1 ltac:(lia) ltac:(discriminate)) as G1. unfold fel in G1. rewrite (B2 (faddr _ _)), L1 in G1 by (cbn; k_ne).
      pose proof (U2 2 ltac:(lia) ltac:(discriminate)) as G2. unfold fel in G2. rewrite (B2 (faddr _ _)), L2 in G2 by (cbn; k_ne).
      pose proof (U2 3 ltac:(lia) ltac:(discriminate)) as G3. unfold fel in G3. rewrite (B2 (faddr _ _)), L3 in G3 by (cbn; k_ne).
      unfold fel in * . do 2 eexists. rewrite U3 by (cbn; k_ne). rewrite B1. split; [reflexivity|].
      unfold row2, fop, fel, fsc. rewrite G0, G1, G2, G3, U1. cbn [bind]. split; [reflexivity|].
      rewrite (Hy 0) by discriminate. rewrite (Hy 1) by discriminate. rewrite (Hy 2) by discriminate. rewrite (Hy 3) by discriminate. ring.
  Qed.

  Lemma bdryrhs_3d_at i0 j0 k0 i1 j1 k1 pi0 pj0 pk0 pi1 pj1 pk1 dir side sgcw st_ gcw u_ rhs_ i j k eu uv r0 (m m' : mem S) :
    let st := mkFa st_ ((0, 6) :: CELL3d i0 j0 k0 i1 j1 k1 sgcw) in
    let x := mkFa u_ (CELL3d i0 j0 k0 i1 j1 k1 gcw) in
    let rhs := mkFa rhs_ (CELL3d i0 j0 k0 i1 j1 k1 0) in
    let u := col_out dir side in
    i0 <= i <= i1 -> j0 <= j <= j1 -> k0 <= k <= k1 -> 0 <= sgcw -> apart rhs_ [st_; u_] ->
    beside3 dir side pi0 pj0 pk0 pi1 pj1 pk1 i j k -> (side = 0 \/ side = 1) ->
    (dir = 0 -> j0 <= pj0 /\ pj1 <= j1 /\ k0 <= pk0 /\ pk1 <= k1) -> (dir = 1 -> i0 <= pi0 /\ pi1 <= i1 /\ k0 <= pk0 /\ pk1 <= k1) -> (dir = 2 -> i0 <= pi0 /\ pi1 <= i1 /\ j0 <= pj0 /\ pj1 <= j1) -> 
    cd_stencil_3d_adj_cf_bdryrhs i0 j0 k0 i1 j1 k1 pi0 pj0 pk0 pi1 pj1 pk1 dir side sgcw st_ gcw u_ rhs_ m = Some m' ->
    (if dir =? 0 then (x!(i + (2 * side - 1), j, k))%F else if dir =? 1 then (x!(i, j + (2 * side - 1), k))%F else (x!(i, j, k + (2 * side - 1)))%F) m = Some uv ->
    (st!(u, i, j, k))%F m = Some eu -> (rhs!(i, j, k))%F m = Some r0 ->
    (rhs!(i, j, k))%F m' = Some (lit (-1) * (eu * uv) + r0)%T /\
    (forall p, fst p <> fst rhs_ -> load m' p = load m p).
  Proof.
    intros st x rhs u Ii Ij Ik Hg Hap Hb Hs Hd0 Hd1 Hd2 E Hx Hu Hr. k_apart.
    unfold cd_stencil_3d_adj_cf_bdryrhs in E. cbv zeta in E.
    change (2 * dir + 1 + side) with u in E.
    assert (0 <= u <= 6) as Ru by (unfold u, col_out; unfold beside3 in Hb; lia). clearbody u.
    destruct Hb as [(Ed & Ei & Ej & Ek)|[(Ed & Ej & Ei & Ek)|(Ed & Ek & Ei & Ej)]]; subst dir; cbn [Z.eqb Pos.eqb] in E, Hx; subst_lets; unfold fel in * .
    - rewrite <- Ei in E. k_rhs E (pt3 dK dJ dI k j i) (in_points3 dK dJ dI pk0 pk1 pj0 pj1 i i k j i Ek Ej ltac:(lia)).
    - rewrite <- Ej in E. k_rhs E (pt3 dK dJ dI k j i) (in_points3 dK dJ dI pk0 pk1 j j pi0 pi1 k j i Ek ltac:(lia) Ei).
    - rewrite <- Ek in E. k_rhs E (pt3 dK dJ dI k j i) (in_points3 dK dJ dI k k pj0 pj1 pi0 pi1 k j i ltac:(lia) Ej Ei).
  Qed.

  Lemma residual_3d i0 j0 k0 i1 j1 k1 pi0 pj0 pk0 pi1 pj1 pk1 dir side sgcw st gcw u rhs i j k uv r0 v0 (m m2 : mem S) :
  i0 <= i <= i1 -> j0 <= j <= j1 -> k0 <= k <= k1 -> 0 <= sgcw -> apart rhs [st; u] ->
  beside3 dir side pi0 pj0 pk0 pi1 pj1 pk1 i j k -> (side = 0 \/ side = 1) -> (dir = 0 -> j0 <= pj0 /\ pj1 <= j1 /\ k0 <= pk0 /\ pk1 <= k1) -> (dir = 1 -> i0 <= pi0 /\ pi1 <= i1 /\ k0 <= pk0 /\ pk1 <= k1) -> (dir = 2 -> i0 <= pi0 /\ pi1 <= i1 /\ j0 <= pj0 /\ pj1 <= j1) -> 
  (m' <- cd_stencil_3d_adj_cf_bdryrhs i0 j0 k0 i1 j1 k1 pi0 pj0 pk0 pi1 pj1 pk1 dir side sgcw st gcw u rhs m ;;
   cd_stencil_3d_readj_offdiag i0 j0 k0 i1 j1 k1 pi0 pj0 pk0 pi1 pj1 pk1 dir side sgcw st m') = Some m2 ->
  (if dir =? 0 then ((mkFa u (CELL3d i0 j0 k0 i1 j1 k1 gcw))!(i + (2 * side - 1), j, k))%F else if dir =? 1 then ((mkFa u (CELL3d i0 j0 k0 i1 j1 k1 gcw))!(i, j + (2 * side - 1), k))%F else ((mkFa u (CELL3d i0 j0 k0 i1 j1 k1 gcw))!(i, j, k + (2 * side - 1)))%F) m = Some uv ->
  (mkFa rhs (CELL3d i0 j0 k0 i1 j1 k1 0))!(i, j, k)%F m = Some r0 ->
  forall x y : Z -> S, x (col_out dir side) = uv -> (forall w, w <> col_out dir side -> y w = x w) ->
  row3 (mkFa st ((0, 6) :: CELL3d i0 j0 k0 i1 j1 k1 sgcw)) i j k x m = Some v0 ->
  exists r1 v1, (mkFa rhs (CELL3d i0 j0 k0 i1 j1 k1 0))!(i, j, k)%F m2 = Some r1 /\ row3 (mkFa st ((0, 6) :: CELL3d i0 j0 k0 i1 j1 k1 sgcw)) i j k y m2 = Some v1 /\
    (r1 - v1 = r0 - v0)%T.
  Proof.
    intros Ii Ij Ik Hg Ap Hb Hs Hd0 Hd1 Hd2 E Hx Hr0 x y Hxu Hy Hrow. k_apart.
    apply bind_Some_inv in E as (ma & E1 & E2).
    unfold row3, fop, fel, fsc in Hrow.
    destruct (load m (faddr (mkFa st ((0, 6) :: CELL3d i0 j0 k0 i1 j1 k1 sgcw)) [0; i; j; k])) as [e0|] eqn:L0; cbn [bind] in Hrow; [|discriminate Hrow].
    destruct (load m (faddr (mkFa st ((0, 6) :: CELL3d i0 j0 k0 i1 j1 k1 sgcw)) [1; i; j; k])) as [e1|] eqn:L1; cbn [bind] in Hrow; [|discriminate Hrow].
    destruct (load m (faddr (mkFa st ((0, 6) :: CELL3d i0 j0 k0 i1 j1 k1 sgcw)) [2; i; j; k])) as [e2|] eqn:L2; cbn [bind] in Hrow; [|discriminate Hrow].
    destruct (load m (faddr (mkFa st ((0, 6) :: CELL3d i0 j0 k0 i1 j1 k1 sgcw)) [3; i; j; k])) as [e3|] eqn:L3; cbn [bind] in Hrow; [|discriminate Hrow].
    destruct (load m (faddr (mkFa st ((0, 6) :: CELL3d i0 j0 k0 i1 j1 k1 sgcw)) [4; i; j; k])) as [e4|] eqn:L4; cbn [bind] in Hrow; [|discriminate Hrow].
    destruct (load m (faddr (mkFa st ((0, 6) :: CELL3d i0 j0 k0 i1 j1 k1 sgcw)) [5; i; j; k])) as [e5|] eqn:L5; cbn [bind] in Hrow; [|discriminate Hrow].
    destruct (load m (faddr (mkFa st ((0, 6) :: CELL3d i0 j0 k0 i1 j1 k1 sgcw)) [6; i; j; k])) as [e6|] eqn:L6; cbn [bind] in Hrow; [|discriminate Hrow].
    injection Hrow as <-.
    assert (dir = 0 \/ dir = 1 \/ dir = 2) as Hdir by (unfold beside3 in Hb; lia).
    destruct Hdir as [Hdir|[Hdir|Hdir]]; subst dir; destruct Hs as [Hs|Hs]; subst side.
    - change (col_out 0 0) with 1 in * .
      destruct (bdryrhs_3d_at i0 j0 k0 i1 j1 k1 pi0 pj0 pk0 pi1 pj1 pk1 0 0 sgcw st gcw u rhs i j k e1 (x 1) r0 m ma
        Ii Ij Ik Hg ltac:(k_rapart L) Hb ltac:(tauto) Hd0 Hd1 Hd2 E1 Hx L1 Hr0) as (B1 & B2).
      destruct (readj_offdiag_3d_at i0 j0 k0 i1 j1 k1 pi0 pj0 pk0 pi1 pj1 pk1 0 0 sgcw st i j k ma m2
        Ii Ij Ik Hg Hb ltac:(tauto) Hd0 Hd1 Hd2 E2) as (U1 & U2 & U3).
      change (col_out 0 0) with 1 in U1, U2.
      pose proof (U2 0 ltac:(lia) ltac:(discriminate)) as G0. unfold fel in G0. rewrite (B2 (faddr _ _)), L0 in G0 by (cbn; k_ne).
      pose proof (U2 2 ltac:(lia) ltac:(discriminate)) as G2. unfold fel in G2. rewrite (B2 (faddr _ _)), L2 in G2 by (cbn; k_ne).
      pose proof (U2 3 ltac:(lia) ltac:(discriminate)) as G3. unfold fel in G3. rewrite (B2 (faddr _ _)), L3 in G3 by (cbn; k_ne).
      pose proof (U2 4 ltac:(lia) ltac:(discriminate)) as G4. unfold fel in G4. rewrite (B2 (faddr _ _)), L4 in G4 by (cbn; k_ne).
      pose proof (U2 5 ltac:(lia) ltac:(discriminate)) as G5. unfold fel in G5. rewrite (B2 (faddr _ _)), L5 in G5 by (cbn; k_ne).
      pose proof (U2 6 ltac:(lia) ltac:(discriminate)) as G6. unfold fel in G6. rewrite (B2 (faddr _ _)), L6 in G6 by (cbn; k_ne).
      unfold fel in * . do 2 eexists. rewrite U3 by (cbn; k_ne). rewrite B1. split; [reflexivity|].
      unfold row3, fop, fel, fsc. rewrite G0, U1, G2, G3, G4, G5, G6. cbn [bind]. split; [reflexivity|].
      rewrite (Hy 0) by discriminate. rewrite (Hy 2) by discriminate. rewrite (Hy 3) by discriminate. rewrite (Hy 4) by discriminate. rewrite (Hy 5) by discriminate. rewrite (Hy 6) by discriminate. ring.
    - change (col_out 0 1) with 2 in * .
      destruct (bdryrhs_3d_at i0 j0 k0 i1 j1 k1 pi0 pj0 pk0 pi1 pj1 pk1 0 1 sgcw st gcw u rhs i j k e2 (x 2) r0 m ma
        Ii Ij Ik Hg ltac:(k_rapart L) Hb ltac:(tauto) Hd0 Hd1 Hd2 E1 Hx L2 Hr0) as (B1 & B2).
      destruct (readj_offdiag_3d_at i0 j0 k0 i1 j1 k1 pi0 pj0 pk0 pi1 pj1 pk1 0 1 sgcw st i j k ma m2
        Ii Ij Ik Hg Hb ltac:(tauto) Hd0 Hd1 Hd2 E2) as (U1 & U2 & U3).
      change (col_out 0 1) with 2 in U1, U2.
      pose proof (U2 0 ltac:(lia) ltac:(discriminate)) as G0. unfold fel in G0. rewrite (B2 (faddr _ _)), L0 in G0 by (cbn; k_ne).
      pose proof (U2 1 ltac:(lia) ltac:(discriminate)) as G1. unfold fel in G1. rewrite (B2 (faddr _ _)), L1 in G1 by (cbn; k_ne).
      pose proof (U2 3 ltac:(lia) ltac:(discriminate)) as G3. unfold fel in G3. rewrite (B2 (faddr _ _)), L3 in G3 by (cbn; k_ne).
      pose proof (U2 4 ltac:(lia) ltac:(discriminate)) as G4. unfold fel in G4. rewrite (B2 (faddr _ _)), L4 in G4 by (cbn; k_ne).
      pose proof (U2 5 ltac:(lia) ltac:(discriminate)) as G5. unfold fel in G5. rewrite (B2 (faddr _ _)), L5 in G5 by (cbn; k_ne).
      pose proof (U2 6 ltac:(lia) ltac:(discriminate)) as G6. unfold fel in G6. rewrite (B2 (faddr _ _)), L6 in G6 by (cbn; k_ne).
      unfold fel in * . do 2 eexists. rewrite U3 by (cbn; k_ne). rewrite B1. split; [reflexivity|].
      unfold row3, fop, fel, fsc. rewrite G0, G1, U1, G3, G4, G5, G6. cbn [bind]. split; [reflexivity|].
      rewrite (Hy 0) by discriminate. rewrite (Hy 1) by discriminate. rewrite (Hy 3) by discriminate. rewrite (Hy 4) by discriminate. rewrite (Hy 5) by discriminate. rewrite (Hy 6) by discriminate. ring.
    - change (col_out 1 0) with 3 in * .
      destruct (bdryrhs_3d_at i0 j0 k0 i1 j1 k1 pi0 pj0 pk0 pi1 pj1 pk1 1 0 sgcw st gcw u rhs i j k e3 (x 3) r0 m ma
        Ii Ij Ik Hg ltac:(k_rapart L) Hb ltac:(tauto) Hd0 Hd1 Hd2 E1 Hx L3 Hr0) as (B1 & B2).
      destruct (readj_offdiag_3d_at i0 j0 k0 i1 j1 k1 pi0 pj0 pk0 pi1 pj1 pk1 1 0 sgcw st i j k ma m2
        Ii Ij Ik Hg Hb ltac:(tauto) Hd0 Hd1 Hd2 E2) as (U1 & U2 & U3).
      change (col_out 1 0) with 3 in U1, U2.
      pose proof (U2 0 ltac:(lia) ltac:(discriminate)) as G0. unfold fel in G0. rewrite (B2 (faddr _ _)), L0 in G0 by (cbn; k_ne).
      pose proof (U2 1 ltac:(lia) ltac:(discriminate)) as G1. unfold fel in G1. rewrite (B2 (faddr _ _)), L1 in G1 by (cbn; k_ne).
      pose proof (U2 2 ltac:(lia) ltac:(discriminate)) as G2. unfold fel in G2. rewrite (B2 (faddr _ _)), L2 in G2 by (cbn; k_ne).
      pose proof (U2 4 ltac:(lia) ltac:(discriminate)) as G4. unfold fel in G4. rewrite (B2 (faddr _ _)), L4 in G4 by (cbn; k_ne).
      pose proof (U2 5 ltac:(lia) ltac:(discriminate)) as G5. unfold fel in G5. rewrite (B2 (faddr _ _)), L5 in G5 by (cbn; k_ne).
      pose proof (U2 6 ltac:(lia) ltac:(discriminate)) as G6. unfold fel in G6. rewrite (B2 (faddr _ _)), L6 in G6 by (cbn; k_ne).
      unfold fel in * . do 2 eexists. rewrite U3 by (cbn; k_ne). rewrite B1. split; [reflexivity|].
      unfold row3, fop, fel, fsc. rewrite G0, G1, G2, U1, G4, G5, G6. cbn [bind]. split; [reflexivity|].
      rewrite (Hy 0) by discriminate. rewrite (Hy 1) by discriminate. rewrite (Hy 2) by discriminate. rewrite (Hy 4) by discriminate. rewrite (Hy 5) by discriminate. rewrite (Hy 6) by discriminate. ring.
    - change (col_out 1 1) with 4 in * .
      destruct (bdryrhs_3d_at i0 j0 k0 i1 j1 k1 pi0 pj0 pk0 pi1 pj1 pk1 1 1 sgcw st gcw u rhs i j k e4 (x 4) r0 m ma
        Ii Ij Ik Hg ltac:(k_rapart L) Hb ltac:(tauto) Hd0 Hd1 Hd2 E1 Hx L4 Hr0) as (B1 & B2).
      destruct (readj_offdiag_3d_at i0 j0 k0 i1 j1 k1 pi0 pj0 pk0 pi1 pj1 pk1 1 1 sgcw st i j k ma m2
        Ii Ij Ik Hg Hb ltac:(tauto) Hd0 Hd1 Hd2 E2) as (U1 & U2 & U3).
      change (col_out 1 1) with 4 in U1, U2.
      pose proof (U2 0 ltac:(lia) ltac:(discriminate)) as G0. unfold fel in G0. rewrite (B2 (faddr _ _)), L0 in G0 by (cbn; k_ne).
      pose proof (U2 1 ltac:(lia) ltac:(discriminate)) as G1. unfold fel in G1. rewrite (B2 (faddr _ _)), L1 in G1 by (cbn; k_ne).
      pose proof (U2 2 ltac:(lia) ltac:(discriminate)) as G2. unfold fel in G2. rewrite (B2 (faddr _ _)), L2 in G2 by (cbn; k_ne).
      pose proof (U2 3 ltac:(lia) ltac:(discriminate)) as G3. unfold fel in G3. rewrite (B2 (faddr _ _)), L3 in G3 by (cbn; k_ne).
      pose proof (U2 5 ltac:(lia) ltac:(discriminate)) as G5. unfold fel in G5. rewrite (B2 (faddr _ _)), L5 in G5 by (cbn; k_ne).
      pose proof (U2 6 ltac:(lia) ltac:(discriminate)) as G6. unfold fel in G6. rewrite (B2 (faddr _ _)), L6 in G6 by (cbn; k_ne).
      unfold fel in * . do 2 eexists. rewrite U3 by (cbn; k_ne). rewrite B1. split; [reflexivity|].
      unfold row3, fop, fel, fsc. rewrite G0, G1, G2, G3, U1, G5, G6. cbn [bind]. split; [reflexivity|].
      rewrite (Hy 0) by discriminate. rewrite (Hy 1) by discriminate. rewrite (Hy 2) by discriminate. rewrite (Hy 3) by discriminate. rewrite (Hy 5) by discriminate. rewrite (Hy 6) by discriminate. ring.
    - change (col_out 2 0) with 5 in * .
      destruct (bdryrhs_3d_at i0 j0 k0 i1 j1 k1 pi0 pj0 pk0 pi1 pj1 pk1 2 0 sgcw st gcw u rhs i j k e5 (x 5) r0 m ma
        Ii Ij Ik Hg ltac:(k_rapart L) Hb ltac:(tauto) Hd0 Hd1 Hd2 E1 Hx L5 Hr0) as (B1 & B2).
      destruct (readj_offdiag_3d_at i0 j0 k0 i1 j1 k1 pi0 pj0 pk0 pi1 pj1 pk1 2 0 sgcw st i j k ma m2
        Ii Ij Ik Hg Hb ltac:(tauto) Hd0 Hd1 Hd2 E2) as (U1 & U2 & U3).
      change (col_out 2 0) with 5 in U1, U2.
      pose proof (U2 0 ltac:(lia) ltac:(discriminate)) as G0. unfold fel in G0. rewrite (B2 (faddr _ _)), L0 in G0 by (cbn; k_ne).
      pose proof (U2 1 ltac:(lia) ltac:(discriminate)) as G1. unfold fel in G1. rewrite (B2 (faddr _ _)), L1 in G1 by (cbn; k_ne).
      pose proof (U2 2 ltac:(lia) ltac:(discriminate)) as G2. unfold fel in G2. rewrite (B2 (faddr _ _)), L2 in G2 by (cbn; k_ne).
      pose proof (U2 3 ltac:(lia) ltac:(discriminate)) as G3. unfold fel in G3. rewrite (B2 (faddr _ _)), L3 in G3 by (cbn; k_ne).
      pose proof (U2 4 ltac:(lia) ltac:(discriminate)) as G4. unfold fel in G4. rewrite (B2 (faddr _ _)), L4 in G4 by (cbn; k_ne).
      pose proof (U2 6 ltac:(lia) ltac:(discriminate)) as G6. unfold fel in G6. rewrite (B2 (faddr _ _)), L6 in G6 by (cbn; k_ne).
      unfold fel in * . do 2 eexists. rewrite U3 by (cbn; k_ne). rewrite B1. split; [reflexivity|].
      unfold row3, fop, fel, fsc. rewrite G0, G1, G2, G3, G4, U1, G6. cbn [bind]. split; [reflexivity|].
      rewrite (Hy 0) by discriminate. rewrite (Hy 1) by discriminate. rewrite (Hy 2) by discriminate. rewrite (Hy 3) by discriminate. rewrite (Hy 4) by discriminate. rewrite (Hy 6) by discriminate. ring.
    - change (col_out 2 1) with 6 in * .
      destruct (bdryrhs_3d_at i0 j0 k0 i1 j1 k1 pi0 pj0 pk0 pi1 pj1 pk1 2 1 sgcw st gcw u rhs i j k e6 (x 6) r0 m ma
        Ii Ij Ik Hg ltac:(k_rapart L) Hb ltac:(tauto) Hd0 Hd1 Hd2 E1 Hx L6 Hr0) as (B1 & B2).
      destruct (readj_offdiag_3d_at i0 j0 k0 i1 j1 k1 pi0 pj0 pk0 pi1 pj1 pk1 2 1 sgcw st i j k ma m2
        Ii Ij Ik Hg Hb ltac:(tauto) Hd0 Hd1 Hd2 E2) as (U1 & U2 & U3).
      change (col_out 2 1) with 6 in U1, U2.
      pose proof (U2 0 ltac:(lia) ltac:(discriminate)) as G0. unfold fel in G0. rewrite (B2 (faddr _ _)), L0 in G0 by (cbn; k_ne).
      pose proof (U2 1 ltac:(lia) ltac:(discriminate)) as G1. unfold fel in G1. rewrite (B2 (faddr _ _)), L1 in G1 by (cbn; k_ne).
      pose proof (U2 2 ltac:(lia) ltac:(discriminate)) as G2. unfold fel in G2. rewrite (B2 (faddr _ _)), L2 in G2 by (cbn; k_ne).
      pose proof (U2 3 ltac:(lia) ltac:(discriminate)) as G3. unfold fel in G3. rewrite (B2 (faddr _ _)), L3 in G3 by (cbn; k_ne).
      pose proof (U2 4 ltac:(lia) ltac:(discriminate)) as G4. unfold fel in G4. rewrite (B2 (faddr _ _)), L4 in G4 by (cbn; k_ne).
      pose proof (U2 5 ltac:(lia) ltac:(discriminate)) as G5. unfold fel in G5. rewrite (B2 (faddr _ _)), L5 in G5 by (cbn; k_ne).
      unfold fel in * . do 2 eexists. rewrite U3 by (cbn; k_ne). rewrite B1. split; [reflexivity|].
      unfold row3, fop, fel, fsc. rewrite G0, G1, G2, G3, G4, G5, U1. cbn [bind]. split; [reflexivity|].
      rewrite (Hy 0) by discriminate. rewrite (Hy 1) by discriminate. rewrite (Hy 2) by discriminate. rewrite (Hy 3) by discriminate. rewrite (Hy 4) by discriminate. rewrite (Hy 5) by discriminate. ring.
  Qed.
End Rhs.
