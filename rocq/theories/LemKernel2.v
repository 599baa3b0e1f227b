(** * Values, frames and safety of kernel assignments *)

From Coq Require Import Permutation.
From Verif Require Import Base ModelBounds ModelMatrix ModelIters ModelSpan Spec SpecIter ModelSched
  LemBase LemMatrix LemFsi LemDomain LemExpr LemExec LemSched LemAssign SpecAssign LemProps LemProps4
  FortranBase SpecKernel Instances LemField LemKernel.
Import ListNotations.
Open Scope Z_scope.

(** ** Points of one, two and three dimensional domains *)

Lemma in_loop_Bnd lo hi x : lo <= x <= hi -> In x (loop_values (Bnd lo hi)).
Proof.
  intros H. rewrite loop_Bnd. apply in_map_iff. exists (Z.to_nat (x - lo)). split; [lia|].
  apply in_seq. lia.
Qed.

Lemma loop_Bnd_in lo hi x : In x (loop_values (Bnd lo hi)) -> lo <= x <= hi.
Proof.
  rewrite loop_Bnd. intros H. apply in_map_iff in H as (k & <- & Hk). apply in_seq in Hk. lia.
Qed.

Definition pt1 (d1 : dim) (x : Z) : point := pset origin d1 x.
Definition pt2 (d1 d2 : dim) (x y : Z) : point := pset (pset origin d1 x) d2 y.
Definition pt3 (d1 d2 d3 : dim) (x y z : Z) : point := pset (pset (pset origin d1 x) d2 y) d3 z.

Lemma in_points1 d1 l1 h1 x : l1 <= x <= h1 -> In (pt1 d1 x) (domain_points [(d1, Bnd l1 h1)] origin).
Proof.
  intros Hx. cbn [domain_points]. apply in_flat_map. exists x. split; [apply in_loop_Bnd; exact Hx|].
  left; reflexivity.
Qed.
Lemma in_points2 d1 d2 l1 h1 l2 h2 x y : l1 <= x <= h1 -> l2 <= y <= h2 ->
  In (pt2 d1 d2 x y) (domain_points [(d1, Bnd l1 h1); (d2, Bnd l2 h2)] origin).
Proof.
  intros Hx Hy. cbn [domain_points]. apply in_flat_map. exists x. split; [apply in_loop_Bnd; exact Hx|].
  apply in_flat_map. exists y. split; [apply in_loop_Bnd; exact Hy|]. left; reflexivity.
Qed.
Lemma in_points3 d1 d2 d3 l1 h1 l2 h2 l3 h3 x y z : l1 <= x <= h1 -> l2 <= y <= h2 -> l3 <= z <= h3 ->
  In (pt3 d1 d2 d3 x y z) (domain_points [(d1, Bnd l1 h1); (d2, Bnd l2 h2); (d3, Bnd l3 h3)] origin).
Proof.
  intros Hx Hy Hz. cbn [domain_points]. apply in_flat_map. exists x. split; [apply in_loop_Bnd; exact Hx|].
  apply in_flat_map. exists y. split; [apply in_loop_Bnd; exact Hy|].
  apply in_flat_map. exists z. split; [apply in_loop_Bnd; exact Hz|]. left; reflexivity.
Qed.

(** ** Domains as loop nests *)

Lemma points_do1 {M} d1 a1 b1 (f : point -> M -> option M) m :
  forM (domain_points [(d1, Bnd a1 b1)] origin) f m = do_ a1 b1 (fun x => f (pt1 d1 x)) m.
Proof.
  rewrite do_values. cbn [domain_points]. rewrite forM_flat_map. apply forM_ext_in. intros x m' _.
  cbn [forM]. unfold pt1. destruct (f _ m'); reflexivity.
Qed.
Lemma points_do2 {M} d1 d2 a1 b1 a2 b2 (f : point -> M -> option M) m :
  forM (domain_points [(d1, Bnd a1 b1); (d2, Bnd a2 b2)] origin) f m =
  do_ a1 b1 (fun x => do_ a2 b2 (fun y => f (pt2 d1 d2 x y))) m.
Proof.
  rewrite do_values. cbn [domain_points]. rewrite forM_flat_map. apply forM_ext_in. intros x m1 _.
  rewrite do_values, forM_flat_map. apply forM_ext_in. intros y m2 _.
  cbn [forM]. unfold pt2. destruct (f _ m2); reflexivity.
Qed.
Lemma points_do3 {M} d1 d2 d3 a1 b1 a2 b2 a3 b3 (f : point -> M -> option M) m :
  forM (domain_points [(d1, Bnd a1 b1); (d2, Bnd a2 b2); (d3, Bnd a3 b3)] origin) f m =
  do_ a1 b1 (fun x => do_ a2 b2 (fun y => do_ a3 b3 (fun z => f (pt3 d1 d2 d3 x y z)))) m.
Proof.
  rewrite do_values. cbn [domain_points]. rewrite forM_flat_map. apply forM_ext_in. intros x m1 _.
  rewrite do_values, forM_flat_map. apply forM_ext_in. intros y m2 _.
  rewrite do_values, forM_flat_map. apply forM_ext_in. intros z m3 _.
  cbn [forM]. unfold pt3. destruct (f _ m3); reflexivity.
Qed.

Lemma points_kji {M} k0 k1 j0 j1 i0 i1 (f : point -> M -> option M) m :
  forM (domain_points [Kb k0 k1; Jb j0 j1; Ib i0 i1] origin) f m =
  do_ k0 k1 (fun k => do_ j0 j1 (fun j => do_ i0 i1 (fun i => f (pt3 dK dJ dI k j i)))) m.
Proof. apply points_do3. Qed.
Lemma points_ji {M} j0 j1 i0 i1 (f : point -> M -> option M) m :
  forM (domain_points [Jb j0 j1; Ib i0 i1] origin) f m =
  do_ j0 j1 (fun j => do_ i0 i1 (fun i => f (pt2 dJ dI j i))) m.
Proof. apply points_do2. Qed.
Lemma points_i {M} i0 i1 (f : point -> M -> option M) m :
  forM (domain_points [Ib i0 i1] origin) f m = do_ i0 i1 (fun i => f (pt1 dI i)) m.
Proof. apply points_do1. Qed.

Lemma do_single {M} c (f : Z -> M -> option M) m : do_ c c f m = f c m.
Proof.
  unfold do_. replace (c - c + 1) with 1 by lia. change (Z.to_nat 1) with 1%nat. cbn [seq map forM].
  replace (c + Z.of_nat 0) with c by lia. destruct (f c m); reflexivity.
Qed.

Lemma do_ext {M} lo hi (f g : Z -> M -> option M) m :
  (forall x m', lo <= x <= hi -> f x m' = g x m') -> do_ lo hi f m = do_ lo hi g m.
Proof.
  intros H. rewrite !do_values. apply forM_ext_in. intros x m' Hx. apply H. apply loop_Bnd_in. exact Hx.
Qed.

Lemma do_empty {M} lo hi (f : Z -> M -> option M) m : hi < lo -> do_ lo hi f m = Some m.
Proof. intros H. unfold do_. replace (Z.to_nat (hi - lo + 1)) with 0%nat by lia. reflexivity. Qed.

(** Indices of explicit points. *)
Ltac k_pt :=
  unfold pt1, pt2, pt3;
  repeat first [ rewrite pmove_same | rewrite pmove_other by discriminate
               | rewrite pset_same | rewrite pset_other by discriminate ].

Section Values.
  Context {S : Scalar}.
  Notation expr := (@expr S).
  Notation assign := (@assign S).

  Lemma with_lhs_with_domain (a : assign) (m : mem S) :
    with_lhs_domain a m = with_domain (sp_b (lhs_of a)) [a] m.
  Proof. unfold with_lhs_domain, with_domain. cbn [forM]. destruct (exec_assign _ a m); reflexivity. Qed.

  Lemma kernel_at dom x (e : expr) m m' pt :
    assignable dom (AExpr x e) -> avoids (fst (sp_ptr x)) e ->
    with_domain dom [AExpr x e] m = Some m' -> In pt (domain_points dom origin) ->
    exists v, denote e pt m = Some (VNum v) /\ load m' (addr x pt) = Some v.
  Proof.
    intros HA HV E Hpt.
    destruct (proj1 (assign_effect dom _ m HA (avoids_independent dom x e (ints m) HV)) m' E) as [(H1 & _) _].
    destruct (H1 pt Hpt) as (v & Hv & Hl). cbn [lhs_of] in Hl. exists v. split; [|exact Hl].
    cbn [rhs_at] in Hv. destruct (denote e pt m) as [w|]; [|discriminate Hv]; cbn in Hv; destruct w; congruence.
  Qed.

  Lemma points_ints (a : assign) l (m m' : mem S) :
    forM l (assign_point a) m = Some m' -> ints m' = ints m.
  Proof.
    revert m; induction l as [|p l IH]; intros m E; cbn [forM] in E; [congruence|].
    destruct (assign_point a p m) as [m1|] eqn:E1; [|discriminate].
    rewrite (IH _ E). eapply assign_point_ints; exact E1.
  Qed.

  (** An assignment changes only the allocation of its left-hand side. *)
  Lemma kernel_frame dom x (e : expr) m m' :
    assignable dom (AExpr x e) -> avoids (fst (sp_ptr x)) e ->
    with_domain dom [AExpr x e] m = Some m' ->
    shape m' = shape m /\ ints m' = ints m /\ forall p, fst p <> fst (sp_ptr x) -> load m' p = load m p.
  Proof.
    intros HA HV E.
    destruct (proj1 (assign_effect dom _ m HA (avoids_independent dom x e (ints m) HV)) m' E) as [(_ & H2 & H3) H4].
    split; [exact H4|]. split; [exact H3|]. intros p Hp. apply H2. intros pt _ ->. apply Hp. reflexivity.
  Qed.

  (** Cells of the left-hand side outside the domain keep their value. *)
  Lemma kernel_outside dom x (e : expr) m m' q :
    assignable dom (AExpr x e) -> avoids (fst (sp_ptr x)) e ->
    with_domain dom [AExpr x e] m = Some m' -> in_bounds (sp_b x) q ->
    (forall pt, In pt (domain_points dom origin) -> exists d, In d (sp_order x) /\ pt d <> q d) ->
    load m' (addr x q) = load m (addr x q).
  Proof.
    intros HA HV E Hq Hout. destruct (assignable_nodup dom _ HA) as [_ HB]. cbn [lhs_of] in HB.
    destruct (proj1 (assign_effect dom _ m HA (avoids_independent dom x e (ints m) HV)) m' E) as [(_ & H2 & _) _].
    apply H2. intros pt Hpt Heq. symmetry in Heq. destruct (Hout pt Hpt) as (d & Hd & Hne). apply Hne.
    cbn [lhs_of] in Heq.
    symmetry. eapply (proj2 (addr_one_to_one x q pt Hq (HB pt Hpt))); [symmetry; exact Heq|exact Hd].
  Qed.
End Values.

(** ** Tactics *)

Ltac k_within :=
  let d := fresh "d" in let b := fresh "b" in let sb := fresh "sb" in
  let H1 := fresh in let H2 := fresh in
  intros d b sb H1 H2; cbn [In map sp_b lhs_of make_md_span make_md_span_g] in H1, H2;
  repeat match goal with
  | H : _ \/ _ |- _ => destruct H as [H|H]
  | H : False |- _ => destruct H
  end;
  apply (f_equal (fun x => (fst x, snd x))) in H1; apply (f_equal (fun x => (fst x, snd x))) in H2;
  cbn in H1, H2; inversion H1; subst; inversion H2; subst; unfold b_ub, b_lb; cbn; lia.

(** Split [apart] into its inequalities. *)
Ltac k_apart :=
  repeat match goal with
  | H : apart _ (_ :: _) |- _ => let H' := fresh "N" in inversion H as [|? ? H' ?]; clear H; subst
  | H : Forall _ (_ :: _) |- _ => let H' := fresh "N" in inversion H as [|? ? H' ?]; clear H; subst
  | H : Forall _ [] |- _ => clear H
  end.
Ltac k_avoids := cbn; repeat split; assumption.

(** The value the assignment [E] leaves at the point [p]. *)
Ltac k_at E p lem v D Lv :=
  let X := fresh in let HA := fresh in let HV := fresh in
  pose proof (fun HA HV => kernel_at _ _ _ _ _ p HA HV E lem) as X;
  match type of X with
  | ?A -> ?B -> _ =>
      assert (HA : A) by (split; [k_dom|split; [k_assign|k_within]]);
      assert (HV : B) by k_avoids;
      destruct (X HA HV) as (v & D & Lv); clear X HA HV
  end.
