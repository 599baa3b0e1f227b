(** * The boundary kernels continue the polynomials that satisfy the condition *)

From Coq Require Import Permutation Field.
From Verif Require Import Base ModelBounds ModelMatrix ModelIters ModelSpan Spec SpecIter ModelSched
  LemBase LemDomain LemExpr LemExec SpecAssign LemProps LemProps4
  FortranBase SpecKernel SpecBoundary Instances LemField LemKernel LemKernel2 KernelNotations KernelsBC LemBC.
Import ListNotations.
Open Scope Z_scope.

Section Ghost.
  Context {S : Scalar}.

  Lemma ghost_at dom x (e : @expr S) m m' pt :
    assignable dom (AExpr x e) -> ghost_update x dom (fun _ => 0) e ->
    with_domain dom [AExpr x e] m = Some m' -> In pt (domain_points dom origin) ->
    exists v, denote e pt m = Some (VNum v) /\ load m' (addr x pt) = Some v.
  Proof.
    intros HA HV E Hpt.
    destruct (proj1 (assign_effect dom _ m HA (ghost_independent x dom e (ints m) HA HV)) m' E) as [(H1 & _) _].
    destruct (H1 pt Hpt) as (v & Hv & Hl). cbn [lhs_of] in Hl. exists v. split; [|exact Hl].
    cbn [rhs_at] in Hv. destruct (denote e pt m) as [w|]; [|discriminate Hv]; cbn in Hv; destruct w; congruence.
  Qed.

  Lemma ghost_outside dom x (e : @expr S) m m' q :
    assignable dom (AExpr x e) -> ghost_update x dom (fun _ => 0) e ->
    with_domain dom [AExpr x e] m = Some m' -> in_bounds (sp_b x) q ->
    (forall pt, In pt (domain_points dom origin) -> exists d, In d (sp_order x) /\ pt d <> q d) ->
    load m' (addr x q) = load m (addr x q).
  Proof.
    intros HA HV E Hq Hout. destruct (assignable_nodup dom _ HA) as [_ HB]. cbn [lhs_of] in HB.
    destruct (proj1 (assign_effect dom _ m HA (ghost_independent x dom e (ints m) HA HV)) m' E) as [(_ & H2 & _) _].
    apply H2. intros pt Hpt Heq. symmetry in Heq. destruct (Hout pt Hpt) as (d & Hd & Hne). apply Hne.
    cbn [lhs_of] in Heq.
    symmetry. eapply (proj2 (addr_one_to_one x q pt Hq (HB pt Hpt))); [symmetry; exact Heq|exact Hd].
  Qed.

  Lemma dom_coord dom pt d lo hi :
    NoDup (map fst dom) -> In pt (domain_points dom origin) -> In (d, Bnd lo hi) dom -> lo <= hi + 1 -> lo <= pt d <= hi.
  Proof.
    intros Hnd Hp Hb Hle. pose proof (domain_point_coord dom origin pt d _ Hnd Hp Hb) as Lp.
    apply in_loop_values in Lp as (c & Hc & Ep & Up); [|cbn; lia]. unfold b_lb, b_ub in *; cbn [Bnd Bnd_full first last stride b2z] in * ; lia.
  Qed.
End Ghost.

(** The right-hand sides of the formulas at a point. *)
Section Formula.
  Context {S : Scalar} (L : field_laws S).
  Add Field SF : (s_field S L) (morphism (lit_morph S L), constants [lit_cst]).

  Lemma lit_ne' n : n <> 0 -> (lit n : S) <> lit 0.
  Proof. apply (lit_ne S L). Qed.

  Ltac side := repeat split; first [assumption | apply lit_ne'; discriminate | idtac].

  Lemma dirichlet_1 cs h : value_at_face cs = lit 0 -> degree_le 1 cs ->
    (lit (-1) * peval cs (centre_x 1 h) = peval cs (ghost_x h) :> S)%T.
  Proof.
    unfold degree_le, value_at_face, centre_x, ghost_x. change (2 * 1 - 1) with 1.
    destruct cs as [|c0 [|c1 [|]]]; cbn [peval nth length]; try lia; intros; subst; field; side.
  Qed.

  Lemma dirichlet_2 cs h : value_at_face cs = lit 0 -> degree_le 2 cs ->
    (lit (-2) * peval cs (centre_x 1 h) + peval cs (centre_x 2 h) / lit 3 = peval cs (ghost_x h) :> S)%T.
  Proof.
    unfold degree_le, value_at_face, centre_x, ghost_x. change (2 * 1 - 1) with 1. change (2 * 2 - 1) with 3.
    destruct cs as [|c0 [|c1 [|c2 [|]]]]; cbn [peval nth length]; try lia; intros; subst; field; side.
  Qed.

  Lemma neumann cs h : slope_at_face cs = lit 0 -> degree_le 2 cs ->
    (peval cs (centre_x 1 h) = peval cs (ghost_x h) :> S)%T.
  Proof.
    unfold degree_le, slope_at_face, centre_x, ghost_x. change (2 * 1 - 1) with 1.
    destruct cs as [|c0 [|c1 [|c2 [|]]]]; cbn [peval nth length]; try lia; intros; subst; field; side.
  Qed.

  Lemma cross (a b x y : S) : b <> lit 0 -> (a * x = b * y)%T -> (a / b * x = y)%T.
  Proof. intros Hb H. transitivity (a * x / b)%T; [field; assumption|]. rewrite H. field. assumption. Qed.

  Lemma robin_1 (cs : list S) h alpha beta d : (alpha * d * slope_at_face cs)%T = (beta * value_at_face cs)%T -> degree_le 1 cs ->
    (lit 2 * alpha * d + h * beta)%T <> lit 0 ->
    ((lit 2 * alpha * d - h * beta) / (lit 2 * alpha * d + h * beta) * peval cs (centre_x 1 h) = peval cs (ghost_x h) :> S)%T.
  Proof.
    unfold degree_le, slope_at_face, value_at_face, centre_x, ghost_x. change (2 * 1 - 1) with 1.
    intros Hb Hd Hz. apply cross; [assumption|].
    destruct cs as [|c0 [|c1 [|]]]; cbn [peval nth length] in *; try lia.
    - ring.
    - assert (beta * c0 = lit 0)%T as E by (rewrite <- Hb; ring).
      transitivity (lit 2 * alpha * d * c0 - h * (beta * c0))%T; [ring|]. rewrite E.
      transitivity (lit 2 * alpha * d * c0 + h * (beta * c0))%T; [rewrite E; ring|]. ring.
    - transitivity ((lit 2 * alpha * d * c0 - h * (beta * c0)) + h * (alpha * d * c1) - h * h * beta * c1 / lit 2)%T; [field; side|].
      rewrite <- Hb. transitivity ((lit 2 * alpha * d * c0 + h * (alpha * d * c1)) - h * (alpha * d * c1) - h * h * beta * c1 / lit 2)%T; [field; side|].
      rewrite Hb. transitivity ((lit 2 * alpha * d * c0 + h * (beta * c0)) - h * (beta * c0) - h * h * beta * c1 / lit 2)%T; [field; side|].
      rewrite <- Hb at 2. field; side.
  Qed.

  Lemma modulo (k x y a b : S) : x = y -> (a - b = k * (x - y))%T -> a = b.
  Proof.
    intros -> H. transitivity (a - b + b)%T; [ring|]. rewrite H. ring.
  Qed.

  (** The coefficient of the second cell lacks the factor beta. *)
  Lemma robin_2 (cs : list S) h alpha d :
    (alpha * d * slope_at_face cs)%T = (lit 1 * value_at_face cs)%T -> degree_le 2 cs ->
    (lit 8 * alpha * d + lit 3 * lit 1 * h)%T <> lit 0 ->
    ((lit 8 * alpha * d - lit 6 * lit 1 * h) / (lit 8 * alpha * d + lit 3 * lit 1 * h) * peval cs (centre_x 1 h)
     + h / (lit 8 * alpha * d + lit 3 * lit 1 * h) * peval cs (centre_x 2 h) = peval cs (ghost_x h))%T.
  Proof.
    unfold degree_le, slope_at_face, value_at_face, centre_x, ghost_x. change (2 * 1 - 1) with 1. change (2 * 2 - 1) with 3.
    intros Hb Hd Hz.
    set (D := (lit 8 * alpha * d + lit 3 * lit 1 * h)%T) in * .
    match goal with |- (?n / D * ?a + h / D * ?b)%T = ?r =>
      transitivity ((n * a + h * b) / D)%T; [field; assumption|];
      transitivity (r * D / D)%T; [|field; assumption]; f_equal end.
    unfold D. apply (modulo (lit 8 * h)%T _ _ _ _ Hb).
    destruct cs as [|c0 [|c1 [|c2 [|]]]]; cbn [peval nth length] in *; try lia; field; side.
  Qed.

  Lemma robin_1p (cs : list S) h alpha beta : (alpha * lit 1 * slope_at_face cs)%T = (beta * value_at_face cs)%T -> degree_le 1 cs ->
    (lit 2 * alpha * lit 1 + h * beta)%T <> lit 0 ->
    ((lit 2 * alpha - h * beta) / (lit 2 * alpha + h * beta) * peval cs (centre_x 1 h) = peval cs (ghost_x h))%T.
  Proof.
    intros Hb Hd Hz. rewrite <- (robin_1 cs h alpha beta (lit 1) Hb Hd Hz).
    f_equal. f_equal; ring.
  Qed.

  Lemma robin_2p (cs : list S) h alpha :
    (alpha * lit 1 * slope_at_face cs)%T = (lit 1 * value_at_face cs)%T -> degree_le 2 cs ->
    (lit 8 * alpha * lit 1 + lit 3 * lit 1 * h)%T <> lit 0 ->
    ((lit 8 * alpha - lit 6 * lit 1 * h) / (lit 8 * alpha + lit 3 * lit 1 * h) * peval cs (centre_x 1 h)
     + h / (lit 8 * alpha + lit 3 * lit 1 * h) * peval cs (centre_x 2 h) = peval cs (ghost_x h))%T.
  Proof.
    intros Hb Hd Hz. rewrite <- (robin_2 cs h alpha (lit 1) Hb Hd Hz).
    f_equal; f_equal; f_equal; ring.
  Qed.

  Lemma robin_1c (cs : list S) h : (lit 2 * lit 1 * slope_at_face cs)%T = (lit 1 * value_at_face cs)%T -> degree_le 1 cs ->
    (lit 2 * lit 2 * lit 1 + h * lit 1)%T <> lit 0 ->
    ((lit 4 - h) / (lit 4 + h) * peval cs (centre_x 1 h) = peval cs (ghost_x h))%T.
  Proof.
    intros Hb Hd Hz. rewrite <- (robin_1 cs h (lit 2) (lit 1) (lit 1) Hb Hd Hz).
    f_equal. f_equal; ring.
  Qed.

  Lemma robin_2c (cs : list S) h :
    (lit 2 * lit 1 * slope_at_face cs)%T = (lit 1 * value_at_face cs)%T -> degree_le 2 cs ->
    (lit 8 * lit 2 * lit 1 + lit 3 * lit 1 * h)%T <> lit 0 ->
    ((lit 16 - lit 6 * h) / (lit 16 + lit 3 * h) * peval cs (centre_x 1 h)
     + h / (lit 16 + lit 3 * h) * peval cs (centre_x 2 h) = peval cs (ghost_x h))%T.
  Proof.
    intros Hb Hd Hz. rewrite <- (robin_2 cs h (lit 2) (lit 1) Hb Hd Hz).
    f_equal; f_equal; f_equal; ring.
  Qed.

  Definition homog_order (n : Z) (u1 u2 u3 u4 : S) : S :=
    (if n =? 1 then lit (-1) * u1
     else if n =? 2 then lit (-2) * u1 + lit 1 / lit 3 * u2
     else if n =? 3 then lit (-3) * u1 + u2 - lit 1 / lit 5 * u3
     else lit (-4) * u1 + lit 2 * u2 - lit 4 / lit 5 * u3 + lit 1 / lit 7 * u4)%T.

  Lemma homog n (cs : list S) h : 1 <= n <= 4 -> value_at_face cs = lit 0 -> degree_le n cs ->
    homog_order n (peval cs (centre_x 1 h)) (peval cs (centre_x 2 h)) (peval cs (centre_x 3 h)) (peval cs (centre_x 4 h))
    = peval cs (ghost_x h).
  Proof.
    intros Hn. assert (n = 1 \/ n = 2 \/ n = 3 \/ n = 4) as HN by lia.
    unfold degree_le, value_at_face, centre_x, ghost_x.
    change (2 * 1 - 1) with 1. change (2 * 2 - 1) with 3. change (2 * 3 - 1) with 5. change (2 * 4 - 1) with 7.
    destruct HN as [->|[->|[->| ->]]]; unfold homog_order; cbn [Z.eqb Pos.eqb];
      destruct cs as [|c0 [|c1 [|c2 [|c3 [|c4 [|]]]]]]; cbn [peval nth length]; try lia; intros; subst; field; side.
  Qed.
End Formula.

(** ** Tactics *)

Ltac k_in := cbn [In]; repeat first [left; reflexivity|right].
Ltac k_thick := split; [k_in|split; [unfold b_lb, b_ub; cbn [Bnd Bnd_full first last stride b2z]; lia|unfold pmove, pset; cbn; lia]].

(** The displaced reads stay in the array and outside the cells written. *)
Ltac k_ghost :=
  cbn [ghost_update shift];
  repeat match goal with
  | |- _ /\ _ => split
  | |- fst _ <> fst _ \/ _ =>
      first
      [ left; cbn; congruence
      | right; right; split; [reflexivity|split;
        [ match goal with |- exists d b, In (d, b) ?dom /\ _ =>
            first [ match dom with context [Ib ?a ?b] => exists dI, (Bnd a b) end; k_thick
                  | match dom with context [Jb ?a ?b] => exists dJ, (Bnd a b) end; k_thick
                  | match dom with context [Kb ?a ?b] => exists dK, (Bnd a b) end; k_thick ] end
        | let pt := fresh "pt" in let Hpt := fresh "Hpt" in intros pt Hpt;
          match type of Hpt with In _ (domain_points ?dom _) =>
            try (match dom with context [Ib ?a ?b] => pose proof (dom_coord dom pt dI a b ltac:(k_nodup) Hpt ltac:(k_in) ltac:(lia)) end);
            try (match dom with context [Jb ?a ?b] => pose proof (dom_coord dom pt dJ a b ltac:(k_nodup) Hpt ltac:(k_in) ltac:(lia)) end);
            try (match dom with context [Kb ?a ?b] => pose proof (dom_coord dom pt dK a b ltac:(k_nodup) Hpt ltac:(k_in) ltac:(lia)) end)
          end;
          unfold in_bounds; repeat constructor; unfold pmove, pset, b_lb, b_ub; cbn; lia ]] ]
  end.

Ltac k_dir :=
  repeat match goal with
  | |- context [dir ?f] => let v := eval compute in (dir f) in change (dir f) with v in *
  | |- context [low ?f] => let v := eval compute in (low f) in change (low f) with v in *
  | H : context [dir ?f] |- _ => let v := eval compute in (dir f) in change (dir f) with v in *
  | H : context [low ?f] |- _ => let v := eval compute in (low f) in change (low f) with v in *
  end.

Ltac k_ghost_at E p lem v D Lv :=
  let X := fresh in let HA := fresh in let HV := fresh in
  pose proof (fun HA HV => ghost_at _ _ _ _ _ p HA HV E lem) as X;
  match type of X with
  | ?A -> ?B -> _ =>
      assert (HA : A) by (split; [k_dom|split; [k_assign|k_within]]);
      assert (HV : B) by k_ghost;
      destruct (X HA HV) as (v & D & Lv); clear X HA HV
  end.

Ltac k_formula L Hv Hrob Hbeta :=
  first
  [ apply (dirichlet_1 L); assumption
  | apply (dirichlet_2 L); assumption
  | apply (neumann L); assumption
  | apply (robin_1 L); [assumption|assumption|apply Hrob; reflexivity]
  | apply (robin_1p L); [assumption|assumption|apply Hrob; reflexivity]
  | apply (robin_1c L); [assumption|assumption|apply Hrob; reflexivity]
  | apply (robin_2c L); [assumption|assumption|apply Hrob; reflexivity]
  | rewrite (Hbeta eq_refl eq_refl) in *; apply (robin_2 L); [assumption|assumption|apply Hrob; reflexivity]
  | rewrite (Hbeta eq_refl eq_refl) in *; apply (robin_2p L); [assumption|assumption|apply Hrob; reflexivity] ].

Ltac k_exact L E U1 U2 Hcoef Hv Hrob Hbeta p tac :=
  lazymatch type of E with
  | with_domain ?dom _ _ = _ =>
      let Hp := fresh in assert (In p (domain_points dom origin)) as Hp by tac;
      let v := fresh "v" in let D := fresh "D" in let Lv := fresh "Lv" in
      revert U1 U2 Hcoef Hrob Hbeta;
      k_ghost_at E p Hp v D Lv; clear E Hp; intros U1 U2 Hcoef Hrob Hbeta;
      revert D Lv; cbn [denote shift]; autorewrite with fa; k_pt; unfold Z.sub in * ; cbn [Z.opp] in * ;
      rewrite ?Z.add_0_r in Hcoef; try rewrite (Hcoef eq_refl); rewrite U1 by lia; try rewrite U2 by lia; cbn [bind app_op num_op];
      intros D Lv; rewrite Lv; injection D as <-; f_equal; k_formula L Hv Hrob Hbeta
  end.

(** A launch elsewhere keeps the value at the point. *)
Ltac k_keep E p K :=
  let X := fresh in let HA := fresh in let HV := fresh in let HB := fresh in let HO := fresh in
  pose proof (fun HA HV HB HO => ghost_outside _ _ _ _ _ p HA HV E HB HO) as X;
  match type of X with
  | ?A -> ?B -> ?C -> ?D -> _ =>
      assert (HA : A) by (unfold shift_xy; split; [k_dom|split; [k_assign|k_within]]);
      assert (HV : B) by (unfold shift_xy; k_ghost);
      assert (HB : C) by (unfold in_bounds; repeat constructor; unfold b_lb, b_ub; cbn; lia);
      assert (HO : D) by
        (let pt := fresh "pt" in let Hpt := fresh "Hpt" in intros pt Hpt;
         match type of Hpt with In _ (domain_points ?dom _) =>
           match dom with context [Ib ?a ?b] => pose proof (dom_coord dom pt dI a b ltac:(k_nodup) Hpt ltac:(k_in) ltac:(lia)) end;
           match dom with context [Jb ?a ?b] => pose proof (dom_coord dom pt dJ a b ltac:(k_nodup) Hpt ltac:(k_in) ltac:(lia)) end
         end;
         first [ exists dI; split; [cbn; tauto|unfold pt2, pset; cbn; lia]
               | exists dJ; split; [cbn; tauto|unfold pt2, pset; cbn; lia] ]);
      pose proof (X HA HV HB HO) as K; clear X HA HV HB HO
  end.

Section Exact.
  Context {S : Scalar} (L : field_laws S).

  Lemma cd_1d_set_bc_exact lo hi dx dgcw d0 ugcw u bLo bHi exOrder face btype alpha beta (m m' : mem S) q cs dv :
    let ua := mkFa u (CELL1d (lo 0) (hi 0) ugcw) in
    let da0 := mkFa d0 (FACE1d (lo 0) (hi 0) dgcw) in
    let h := dx (dir face) in
    0 <= face < 2 -> 0 <= ugcw -> apart u [d0] ->
    ghost_cell 1 face lo hi bLo bHi q ->
    in_array 1 ugcw lo hi q -> in_array 1 ugcw lo hi (inward face (depth btype exOrder) q) ->
    satisfies_bc btype alpha beta dv cs -> order_covers btype exOrder cs -> robin_solvable btype exOrder alpha beta dv h ->
    (btype = 4 -> coef1 da0 face q m = Some dv) ->
    (btype = 4 -> exOrder = 2 -> beta = lit 1) ->
    (forall k, 1 <= k <= depth btype exOrder ->
       fel ua (map (inward face k q) [0]) m = Some (peval cs (centre_x k h))) ->
    cd_1d_set_bc (lo 0) (hi 0) dx dgcw d0 ugcw u bLo bHi exOrder face btype alpha beta m = Some m' ->
    fel ua (map q [0]) m' = Some (peval cs (ghost_x h)).
  Proof.
    intros ua da0 h Hf Hg Hap Hq Hin Hin2 Hbc Hord Hrob Hcoef Hbeta Hu E.
    k_apart.
    assert (face = 0 \/ face = 1) as HF by lia.
    unfold ghost_cell in Hq. unfold in_array in Hin, Hin2.
    pose proof (Hq 0 ltac:(lia)) as Q0.
    pose proof (Hin 0 ltac:(lia)) as A0.
    pose proof (Hin2 0 ltac:(lia)) as B0.
    pose proof (Hu 1) as U1. pose proof (Hu 2) as U2. clear Hq Hin Hin2 Hu.
    unfold cd_1d_set_bc in E; cbv zeta in E; cbn [Z.eqb Pos.eqb] in E.
    unfold h, ua, da0 in * ; clear ua da0 h.
    destruct HF as [->| ->]; cbn [Z.eqb Pos.eqb] in E.
    all: unfold inward, coef1, face_index, fel in * ; k_dir; cbn [map] in * ; cbn [Z.eqb Pos.eqb] in * .
    all: destruct Hbc as [[-> Hv]|[[-> Hv]|[-> Hv]]]; cbn [Z.eqb Pos.eqb] in E;
      unfold order_covers, robin_solvable, depth in * ; cbn [Z.eqb Pos.eqb negb andb] in * ;
      try (destruct Hord as [[->| ->] Hd]); cbn [Z.eqb Pos.eqb] in * .
    all: k_exact L E U1 U2 Hcoef Hv Hrob Hbeta (pt1 dI (q 0)) ltac:(apply in_points1; lia).
  Qed.

  Lemma cd_1d_set_poisson_bc_exact lo hi dx ugcw u bLo bHi exOrder face btype alpha beta (m m' : mem S) q cs :
    let ua := mkFa u (CELL1d (lo 0) (hi 0) ugcw) in
    let h := dx (dir face) in
    0 <= face < 2 -> 0 <= ugcw ->
    ghost_cell 1 face lo hi bLo bHi q ->
    in_array 1 ugcw lo hi q -> in_array 1 ugcw lo hi (inward face (depth btype exOrder) q) ->
    satisfies_bc btype (lit 2) (lit 1) (lit 1) cs -> order_covers btype exOrder cs -> robin_solvable btype exOrder (lit 2) (lit 1) (lit 1) h ->
    (forall k, 1 <= k <= depth btype exOrder ->
       fel ua (map (inward face k q) [0]) m = Some (peval cs (centre_x k h))) ->
    cd_1d_set_poisson_bc (lo 0) (hi 0) dx ugcw u bLo bHi exOrder face btype alpha beta m = Some m' ->
    fel ua (map q [0]) m' = Some (peval cs (ghost_x h)).
  Proof.
    intros ua h Hf Hg Hq Hin Hin2 Hbc Hord Hrob Hu E.
    pose proof Logic.I as Hcoef.
    pose proof Logic.I as Hbeta.
    assert (face = 0 \/ face = 1) as HF by lia.
    unfold ghost_cell in Hq. unfold in_array in Hin, Hin2.
    pose proof (Hq 0 ltac:(lia)) as Q0.
    pose proof (Hin 0 ltac:(lia)) as A0.
    pose proof (Hin2 0 ltac:(lia)) as B0.
    pose proof (Hu 1) as U1. pose proof (Hu 2) as U2. clear Hq Hin Hin2 Hu.
    unfold cd_1d_set_poisson_bc in E; cbv zeta in E; cbn [Z.eqb Pos.eqb] in E.
    unfold h, ua in * ; clear ua h.
    destruct HF as [->| ->]; cbn [Z.eqb Pos.eqb] in E.
    all: unfold inward, face_index, fel in * ; k_dir; cbn [map] in * ; cbn [Z.eqb Pos.eqb] in * .
    all: destruct Hbc as [[-> Hv]|[[-> Hv]|[-> Hv]]]; cbn [Z.eqb Pos.eqb] in E;
      unfold order_covers, robin_solvable, depth in * ; cbn [Z.eqb Pos.eqb negb andb] in * ;
      try (destruct Hord as [[->| ->] Hd]); cbn [Z.eqb Pos.eqb] in * .
    all: k_exact L E U1 U2 Hcoef Hv Hrob Hbeta (pt1 dI (q 0)) ltac:(apply in_points1; lia).
  Qed.

  Lemma cd_2d_set_bc_exact lo hi dx dgcw d0 d1 ugcw u bLo bHi exOrder face btype alpha beta (m m' : mem S) q cs dv :
    let ua := mkFa u (CELL2d (lo 0) (lo 1) (hi 0) (hi 1) ugcw) in
    let da0 := mkFa d0 (FACE2d0 (lo 0) (lo 1) (hi 0) (hi 1) dgcw) in
    let da1 := mkFa d1 (FACE2d1 (lo 0) (lo 1) (hi 0) (hi 1) dgcw) in
    let h := dx (dir face) in
    0 <= face < 4 -> 0 <= ugcw -> apart u [d0; d1] ->
    ghost_cell 2 face lo hi bLo bHi q ->
    in_array 2 ugcw lo hi q -> in_array 2 ugcw lo hi (inward face (depth btype exOrder) q) ->
    satisfies_bc btype alpha beta dv cs -> order_covers btype exOrder cs -> robin_solvable btype exOrder alpha beta dv h ->
    (btype = 4 -> coef2 da0 da1 face q m = Some dv) ->
    (btype = 4 -> exOrder = 2 -> beta = lit 1) ->
    (forall k, 1 <= k <= depth btype exOrder ->
       fel ua (map (inward face k q) [0; 1]) m = Some (peval cs (centre_x k h))) ->
    cd_2d_set_bc (lo 0) (hi 0) (lo 1) (hi 1) dx dgcw d0 d1 ugcw u bLo bHi exOrder face 1 btype alpha beta m = Some m' ->
    fel ua (map q [0; 1]) m' = Some (peval cs (ghost_x h)).
  Proof.
    intros ua da0 da1 h Hf Hg Hap Hq Hin Hin2 Hbc Hord Hrob Hcoef Hbeta Hu E.
    k_apart.
    assert (face = 0 \/ face = 1 \/ face = 2 \/ face = 3) as HF by lia.
    unfold ghost_cell in Hq. unfold in_array in Hin, Hin2.
    pose proof (Hq 0 ltac:(lia)) as Q0. pose proof (Hq 1 ltac:(lia)) as Q1.
    pose proof (Hin 0 ltac:(lia)) as A0. pose proof (Hin 1 ltac:(lia)) as A1.
    pose proof (Hin2 0 ltac:(lia)) as B0. pose proof (Hin2 1 ltac:(lia)) as B1.
    pose proof (Hu 1) as U1. pose proof (Hu 2) as U2. clear Hq Hin Hin2 Hu.
    unfold cd_2d_set_bc in E; cbv zeta in E; cbn [Z.eqb Pos.eqb] in E.
    unfold h, ua, da0, da1 in * ; clear ua da0 da1 h.
    destruct HF as [->|[->|[->| ->]]]; cbn [Z.eqb Pos.eqb] in E.
    all: unfold inward, coef2, face_index, fel in * ; k_dir; cbn [map] in * ; cbn [Z.eqb Pos.eqb] in * .
    all: destruct Hbc as [[-> Hv]|[[-> Hv]|[-> Hv]]]; cbn [Z.eqb Pos.eqb] in E;
      unfold order_covers, robin_solvable, depth in * ; cbn [Z.eqb Pos.eqb negb andb] in * ;
      try (destruct Hord as [[->| ->] Hd]); cbn [Z.eqb Pos.eqb] in * .
    all: k_exact L E U1 U2 Hcoef Hv Hrob Hbeta (pt2 dJ dI (q 1) (q 0)) ltac:(apply in_points2; lia).
  Qed.

  Lemma cd_2d_set_poisson_bc_exact lo hi dx ugcw u bLo bHi exOrder face btype alpha beta (m m' : mem S) q cs :
    let ua := mkFa u (CELL2d (lo 0) (lo 1) (hi 0) (hi 1) ugcw) in
    let h := dx (dir face) in
    0 <= face < 4 -> 0 <= ugcw ->
    ghost_cell 2 face lo hi bLo bHi q ->
    in_array 2 ugcw lo hi q -> in_array 2 ugcw lo hi (inward face (depth btype exOrder) q) ->
    satisfies_bc btype alpha beta (lit 1) cs -> order_covers btype exOrder cs -> robin_solvable btype exOrder alpha beta (lit 1) h ->
    (btype = 4 -> exOrder = 2 -> beta = lit 1) ->
    (btype = 4 -> face < 2) ->
    (forall k, 1 <= k <= depth btype exOrder ->
       fel ua (map (inward face k q) [0; 1]) m = Some (peval cs (centre_x k h))) ->
    cd_2d_set_poisson_bc (lo 0) (hi 0) (lo 1) (hi 1) dx ugcw u bLo bHi exOrder face 1 btype alpha beta m = Some m' ->
    fel ua (map q [0; 1]) m' = Some (peval cs (ghost_x h)).
  Proof.
    intros ua h Hf Hg Hq Hin Hin2 Hbc Hord Hrob Hbeta H4 Hu E.
    pose proof Logic.I as Hcoef.
    assert (face = 0 \/ face = 1 \/ face = 2 \/ face = 3) as HF by lia.
    unfold ghost_cell in Hq. unfold in_array in Hin, Hin2.
    pose proof (Hq 0 ltac:(lia)) as Q0. pose proof (Hq 1 ltac:(lia)) as Q1.
    pose proof (Hin 0 ltac:(lia)) as A0. pose proof (Hin 1 ltac:(lia)) as A1.
    pose proof (Hin2 0 ltac:(lia)) as B0. pose proof (Hin2 1 ltac:(lia)) as B1.
    pose proof (Hu 1) as U1. pose proof (Hu 2) as U2. clear Hq Hin Hin2 Hu.
    unfold cd_2d_set_poisson_bc in E; cbv zeta in E; cbn [Z.eqb Pos.eqb] in E.
    unfold h, ua in * ; clear ua h.
    destruct HF as [->|[->|[->| ->]]]; cbn [Z.eqb Pos.eqb] in E.
    all: unfold inward, face_index, fel in * ; k_dir; cbn [map] in * ; cbn [Z.eqb Pos.eqb] in * .
    all: destruct Hbc as [[-> Hv]|[[-> Hv]|[-> Hv]]]; cbn [Z.eqb Pos.eqb] in E;
      unfold order_covers, robin_solvable, depth in * ; cbn [Z.eqb Pos.eqb negb andb] in * ;
      try (destruct Hord as [[->| ->] Hd]); cbn [Z.eqb Pos.eqb] in * .
    all: try (exfalso; lia).
    all: k_exact L E U1 U2 Hcoef Hv Hrob Hbeta (pt2 dJ dI (q 1) (q 0)) ltac:(apply in_points2; lia).
  Qed.
  Lemma cd_2d_set_homogenous_bc_exact lo hi face bLo bHi exOrder u (m m' : mem S) q cs h :
    let ua := mkFa u (CELL2d (lo 0) (lo 1) (hi 0) (hi 1) 1) in
    0 <= face < 4 -> 1 <= exOrder <= 4 ->
    rim_cell 2 face lo hi bLo bHi q -> in_array 2 1 lo hi (inward face exOrder q) ->
    value_at_face cs = lit 0 -> degree_le exOrder cs ->
    (forall k, 1 <= k <= exOrder -> fel ua (map (inward face k q) [0; 1]) m = Some (peval cs (centre_x k h))) ->
    cd_2d_set_homogenous_bc (lo 0) (lo 1) (hi 0) (hi 1) face bLo bHi exOrder u m = Some m' ->
    fel ua (map q [0; 1]) m' = Some (peval cs (ghost_x h)).
  Proof.
    intros ua Hf Ho Hq Hin2 Hv Hd Hu E.
    pose proof (homog L exOrder cs h Ho Hv Hd) as HH.
    assert (face = 0 \/ face = 1 \/ face = 2 \/ face = 3) as HF by lia.
    assert (exOrder = 1 \/ exOrder = 2 \/ exOrder = 3 \/ exOrder = 4) as HO by lia.
    unfold rim_cell in Hq. unfold in_array in Hin2.
    pose proof (Hq 0 ltac:(lia)) as Q0. pose proof (Hq 1 ltac:(lia)) as Q1.
    pose proof (Hin2 0 ltac:(lia)) as B0. pose proof (Hin2 1 ltac:(lia)) as B1.
    pose proof (Hu 1) as U1. pose proof (Hu 2) as U2. pose proof (Hu 3) as U3. pose proof (Hu 4) as U4. clear Hq Hin2 Hu Hv Hd.
    unfold cd_2d_set_homogenous_bc in E; cbv zeta in E; cbn [Z.eqb Pos.eqb] in E.
    unfold ua in * ; clear ua.
    destruct HF as [->|[->|[->| ->]]]; cbn [Z.eqb Pos.eqb] in E.
    all: unfold inward, fel in * ; k_dir; cbn [map] in * ; cbn [Z.eqb Pos.eqb] in * .
    all: destruct HO as [->|[->|[->| ->]]]; cbn [Z.eqb Pos.eqb] in E.
    all: unfold homog_order in HH; cbn [Z.eqb Pos.eqb] in HH.
    all: match type of E with (bind ?a _) = Some _ => destruct a as [m1|] eqn:E1; [|discriminate E] end.
    all: cbn [bind] in E.
    all: match type of E with (bind ?a _) = Some _ => destruct a as [m2|] eqn:E2; [|discriminate E] end.
    all: cbn [bind] in E.
    all: revert U1 U2 U3 U4 HH.
    all: k_keep E2 (pt2 dJ dI (q 1) (q 0)) K2; clear E2.
    all: k_keep E (pt2 dJ dI (q 1) (q 0)) K; clear E.
    all: match type of E1 with with_domain ?dom _ _ = _ =>
           assert (In (pt2 dJ dI (q 1) (q 0)) (domain_points dom origin)) as Hp by (apply in_points2; lia) end.
    all: k_ghost_at E1 (pt2 dJ dI (q 1) (q 0)) Hp v D Lv; clear E1 Hp.
    all: rewrite K2 in K; clear K2; rewrite Lv in K; clear Lv; intros U1 U2 U3 U4 HH.
    all: revert D K; cbn [denote shift]; autorewrite with fa; k_pt; unfold Z.sub in * ; cbn [Z.opp] in * .
    all: rewrite U1 by lia; try rewrite U2 by lia; try rewrite U3 by lia; try rewrite U4 by lia; cbn [bind app_op num_op].
    all: intros D K; rewrite K; injection D as <-; f_equal; exact HH.
  Qed.
End Exact.
