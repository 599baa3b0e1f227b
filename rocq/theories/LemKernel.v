(** * Kernels against Fortran loops: common lemmas

    A kernel assignment is a loop over the points of its domain; a Fortran loop
    nest is one too; a span and a Fortran array with the reversed bounds place an
    element at the same address.  What is left per kernel is the comparison of one
    element. *)

From Coq Require Import Permutation.
From Verif Require Import Base ModelBounds ModelMatrix ModelIters ModelSpan Spec SpecIter ModelSched
  LemBase LemMatrix LemFsi LemDomain LemExpr LemExec LemSched LemAssign SpecAssign LemProps LemProps4
  FortranBase Instances LemField.
Import ListNotations.
Open Scope Z_scope.

Lemma bind_cong {A B} (x y : option A) (f g : A -> option B) :
  x = y -> (forall a, f a = g a) -> bind x f = bind y g.
Proof. intros -> H. destruct y; simpl; auto. Qed.

(** ** Loop nests *)

Lemma loop_Bnd lo hi : loop_values (Bnd lo hi) = map (fun k => lo + Z.of_nat k) (seq 0 (Z.to_nat (hi - lo + 1))).
Proof.
  unfold loop_values, count, Bnd, Bnd_full, b_ub, b_lb; cbn [first last stride b2z].
  rewrite Z.div_1_r. replace (hi + 1 - 1 - lo + 1) with (hi - lo + 1) by lia.
  apply map_ext. intros. lia.
Qed.

Lemma do_values {M} lo hi (body : Z -> M -> option M) m : do_ lo hi body m = forM (loop_values (Bnd lo hi)) body m.
Proof. unfold do_. rewrite loop_Bnd. reflexivity. Qed.

Lemma do_points1 {M} d lo hi (body : Z -> M -> option M) m :
  do_ lo hi (fun x => body x) m =
  forM (domain_points [(d, Bnd lo hi)] origin) (fun pt => body (pt d)) m.
Proof.
  rewrite do_values. cbn [domain_points]. rewrite forM_flat_map. apply forM_ext_in. intros x m' _.
  cbn [forM]. unfold pset. rewrite Nat.eqb_refl. destruct (body x m'); reflexivity.
Qed.

Lemma do_points2 {M} d1 d2 lo1 hi1 lo2 hi2 (body : Z -> Z -> M -> option M) m : d1 <> d2 ->
  do_ lo1 hi1 (fun x => do_ lo2 hi2 (fun y => body x y)) m =
  forM (domain_points [(d1, Bnd lo1 hi1); (d2, Bnd lo2 hi2)] origin) (fun pt => body (pt d1) (pt d2)) m.
Proof.
  intros H. rewrite do_values. cbn [domain_points]. rewrite forM_flat_map. apply forM_ext_in. intros x m' _.
  rewrite do_values, forM_flat_map. apply forM_ext_in. intros y m2 _.
  cbn [forM]. unfold pset. rewrite !Nat.eqb_refl. rewrite (proj2 (Nat.eqb_neq d1 d2) H).
  destruct (body x y m2); reflexivity.
Qed.

Lemma do_points3 {M} d1 d2 d3 lo1 hi1 lo2 hi2 lo3 hi3 (body : Z -> Z -> Z -> M -> option M) m :
  d1 <> d2 -> d1 <> d3 -> d2 <> d3 ->
  do_ lo1 hi1 (fun x => do_ lo2 hi2 (fun y => do_ lo3 hi3 (fun z => body x y z))) m =
  forM (domain_points [(d1, Bnd lo1 hi1); (d2, Bnd lo2 hi2); (d3, Bnd lo3 hi3)] origin)
    (fun pt => body (pt d1) (pt d2) (pt d3)) m.
Proof.
  intros H12 H13 H23. rewrite do_values. cbn [domain_points]. rewrite forM_flat_map. apply forM_ext_in. intros x m' _.
  rewrite do_values, forM_flat_map. apply forM_ext_in. intros y m2 _.
  rewrite do_values, forM_flat_map. apply forM_ext_in. intros z m3 _.
  cbn [forM]. unfold pset. rewrite !Nat.eqb_refl.
  rewrite (proj2 (Nat.eqb_neq d1 d2) H12), (proj2 (Nat.eqb_neq d1 d3) H13), (proj2 (Nat.eqb_neq d2 d3) H23).
  destruct (body x y z m3); reflexivity.
Qed.

(** ** Loop interchange *)

Lemma Forall2_app_l {A B} (R : A -> B -> Prop) l1 l2 k1 k2 :
  Forall2 R l1 k1 -> Forall2 R l2 k2 -> Forall2 R (l1 ++ l2) (k1 ++ k2).
Proof. intros H1 H2. induction H1; simpl; auto. Qed.

Lemma peq_refl p : peq p p. Proof. intros d; reflexivity. Qed.

Lemma domain_points_start dom p q : peq p q -> Forall2 peq (domain_points dom p) (domain_points dom q).
Proof.
  revert p q; induction dom as [|[d b] dom IH]; intros p q H; cbn [domain_points].
  - constructor; [exact H|constructor].
  - induction (loop_values b) as [|x l IHl]; simpl; [constructor|].
    apply Forall2_app_l; [|exact IHl]. apply IH. apply pset_peq. exact H.
Qed.

Definition reordered (l l' : list point) : Prop := exists k, Permutation l k /\ Forall2 peq k l'.

Lemma peq_trans p q r : peq p q -> peq q r -> peq p r.
Proof. intros H1 H2 d. rewrite H1. apply H2. Qed.

Lemma Forall2_peq_trans l1 l2 l3 : Forall2 peq l1 l2 -> Forall2 peq l2 l3 -> Forall2 peq l1 l3.
Proof.
  intros H. revert l3; induction H; intros l3 H2; inversion H2; subst; constructor; auto.
  eapply peq_trans; eassumption.
Qed.

Lemma Forall2_Permutation_r {A B} (R : A -> B -> Prop) l l' k :
  Forall2 R l l' -> Permutation l' k -> exists k0, Permutation l k0 /\ Forall2 R k0 k.
Proof.
  intros HF HP. revert l HF; induction HP; intros l0 HF.
  - inversion HF; subst. exists []. auto.
  - inversion HF; subst. destruct (IHHP _ H3) as (k0 & P0 & F0). exists (x0 :: k0). auto.
  - inversion HF as [|a y0 la l1 Hay HF1]; subst. inversion HF1 as [|b x0 lb l2 Hbx HF2]; subst.
    exists (b :: a :: lb). split; [apply perm_swap|]. auto.
  - destruct (IHHP1 _ HF) as (k0 & P0 & F0). destruct (IHHP2 _ F0) as (k1 & P1 & F1).
    exists k1. split; [eapply perm_trans; eassumption|exact F1].
Qed.

Lemma reordered_trans l1 l2 l3 : reordered l1 l2 -> reordered l2 l3 -> reordered l1 l3.
Proof.
  intros (k & P & F) (k2 & P2 & F2).
  destruct (Forall2_Permutation_r _ _ _ _ F P2) as (k3 & P3 & F3).
  exists k3. split; [eapply perm_trans; eassumption|eapply Forall2_peq_trans; eassumption].
Qed.

Lemma reordered_refl l : reordered l l.
Proof. exists l. split; [reflexivity|]. induction l; constructor; auto using peq_refl. Qed.

Lemma reordered_app a b c d : reordered a b -> reordered c d -> reordered (a ++ c) (b ++ d).
Proof.
  intros (k & P & F) (k2 & P2 & F2). exists (k ++ k2). split; [apply Permutation_app; assumption|].
  apply Forall2_app_l; assumption.
Qed.

Lemma reordered_flat_map {A} (l : list A) f g : (forall x, reordered (f x) (g x)) ->
  reordered (flat_map f l) (flat_map g l).
Proof.
  intros H. induction l as [|x l IH]; simpl; [apply reordered_refl|]. apply reordered_app; auto.
Qed.

Lemma Permutation_flat_map_app {A B} (l : list A) (f g : A -> list B) :
  Permutation (flat_map (fun x => f x ++ g x) l) (flat_map f l ++ flat_map g l).
Proof.
  induction l as [|x l IH]; simpl; [reflexivity|]. rewrite IH. rewrite <- !app_assoc.
  apply Permutation_app_head. rewrite !app_assoc. apply Permutation_app_tail. apply Permutation_app_comm.
Qed.

Lemma Permutation_flat_map_swap {A B C} (l : list A) (k : list B) (f : A -> B -> list C) :
  Permutation (flat_map (fun x => flat_map (fun y => f x y) k) l)
              (flat_map (fun y => flat_map (fun x => f x y) l) k).
Proof.
  induction l as [|x l IH]; simpl.
  - induction k; simpl; auto.
  - rewrite IH. symmetry. apply Permutation_flat_map_app.
Qed.

Lemma domain_points_perm dom dom' : NoDup (map fst dom) -> Permutation dom dom' ->
  forall pt, reordered (domain_points dom pt) (domain_points dom' pt).
Proof.
  intros Hnd HP. induction HP as [|[d b] l l' HP IH|[d' b'] [d b] l|l1 l2 l3 H1 IH1 H2 IH2]; intros pt.
  - apply reordered_refl.
  - cbn [domain_points]. apply reordered_flat_map. intros x. apply IH. inversion Hnd; assumption.
  - cbn [domain_points].
    eapply reordered_trans.
    + exists (flat_map (fun y => flat_map (fun x => domain_points l (pset (pset pt d x) d' y)) (loop_values b)) (loop_values b')).
      split; [apply Permutation_flat_map_swap|].
      apply (fun H => H).
      instantiate (1 := flat_map (fun y => flat_map (fun x => domain_points l (pset (pset pt d' y) d x)) (loop_values b)) (loop_values b')).
      induction (loop_values b') as [|y k IHk]; simpl; [constructor|].
      apply Forall2_app_l; [|exact IHk]. clear IHk.
      induction (loop_values b) as [|x k2 IHk2]; simpl; [constructor|].
      apply Forall2_app_l; [|exact IHk2]. apply domain_points_start.
      intros e. apply pset_pset_comm. inversion Hnd as [|? ? Hn _]; subst. simpl in Hn. intros ->. apply Hn. left; reflexivity.
    + apply reordered_refl.
  - eapply reordered_trans; [apply IH1; exact Hnd|]. apply IH2.
    eapply Permutation_NoDup; [apply Permutation_map; exact H1|exact Hnd].
Qed.

Section Points.
  Context {S : Scalar}.
  Notation expr := (@expr S).
  Notation assign := (@assign S).

  Lemma assign_point_peq (a : assign) p q m : peq p q -> assign_point a p m = assign_point a q m.
  Proof.
    intros H. destruct a as [s e|s t]; cbn [assign_point].
    - rewrite (denote_peq e p q m H), (addr_peq s p q H). reflexivity.
    - rewrite (addr_peq s p q H). reflexivity.
  Qed.

  Lemma forM_peq (a : assign) l l' m : Forall2 peq l l' ->
    forM l (assign_point a) m = forM l' (assign_point a) m.
  Proof.
    intros H. revert m; induction H as [|p q l l' Hpq HF IH]; intros m; [reflexivity|].
    cbn [forM]. rewrite (assign_point_peq a p q m Hpq). apply bind_ext. auto.
  Qed.

  (** An assignment whose elements are independent may run its loops in any order. *)
  Lemma assign_any_order (a : assign) dom dom' (m : mem S) :
    assignable dom a -> independent dom a (ints m) -> Permutation dom dom' ->
    forM (domain_points dom origin) (assign_point a) m = forM (domain_points dom' origin) (assign_point a) m.
  Proof.
    intros HA HI HP. destruct (assignable_nodup dom a HA) as [Hnd HB].
    destruct HA as ((_ & Hd & _) & _).
    destruct (domain_points_perm dom dom' Hd HP origin) as (k & HP' & HF).
    rewrite <- (forM_peq a _ _ m HF).
    destruct (forM (domain_points dom origin) (assign_point a) m) as [m'|] eqn:E.
    - symmetry. eapply forM_points_perm; [exact HP'|exact Hnd|exact HI|exact E].
    - destruct (forM k (assign_point a) m) as [m'|] eqn:E'; [|reflexivity].
      exfalso. assert (forM (domain_points dom origin) (assign_point a) m = Some m'); [|congruence].
      eapply forM_points_perm; [symmetry; exact HP'| | |exact E'].
      + eapply Permutation_NoDup; [apply Permutation_map; exact HP'|exact Hnd].
      + intros p q Hp Hq. apply HI; eapply Permutation_in; try (symmetry; exact HP'); assumption.
  Qed.

  Lemma with_lhs_points (a : assign) (m : mem S) : wf_dom (sp_b (lhs_of a)) -> wf_assign (sp_b (lhs_of a)) a ->
    with_lhs_domain a m = forM (domain_points (sp_b (lhs_of a)) origin) (assign_point a) m.
  Proof.
    intros Hd Ha. rewrite <- with_domain_points by assumption. unfold with_lhs_domain, with_domain.
    cbn [forM]. destruct (exec_assign _ a m); reflexivity.
  Qed.
End Points.

Lemma within_self bs : NoDup (map fst bs) -> dom_within bs bs.
Proof.
  intros Hnd d b sb H1 H2. assert (b = sb) as ->; [|lia].
  induction bs as [|[d' b'] bs IH]; [destruct H1|]. inversion Hnd as [|? ? Hn Hnd']; subst.
  destruct H1 as [H1|H1], H2 as [H2|H2].
  - congruence.
  - exfalso. apply Hn. inversion H1; subst. apply in_map_iff. exists (d, sb). auto.
  - exfalso. apply Hn. inversion H2; subst. apply in_map_iff. exists (d, b). auto.
  - apply IH; assumption.
Qed.

(** ** Spans and Fortran arrays *)

Ltac k_addr :=
  intros; unfold addr, faddr; cbn [make_md_span make_md_span_g sp_ptr fa_ptr fa_dims map sp_b];
  f_equal;
  unfold CELL1d, CELL2d, CELL3d, FACE1d, FACE2d0, FACE2d1, FACE3d0, FACE3d1, FACE3d2;
  cbn; unfold cells_of, extent, b_ub, b_lb, prodZ; cbn; ring.

Lemma fa_cell1 p g i0 i1 pt :
  addr (make_md_span_g p g [Ib i0 i1]) pt = faddr (mkFa p (CELL1d i0 i1 g)) [pt dI].
Proof. k_addr. Qed.
Lemma fa_cell2 p g i0 i1 j0 j1 pt :
  addr (make_md_span_g p g [Jb j0 j1; Ib i0 i1]) pt = faddr (mkFa p (CELL2d i0 j0 i1 j1 g)) [pt dI; pt dJ].
Proof. k_addr. Qed.
Lemma fa_cell3 p g i0 i1 j0 j1 k0 k1 pt :
  addr (make_md_span_g p g [Kb k0 k1; Jb j0 j1; Ib i0 i1]) pt =
  faddr (mkFa p (CELL3d i0 j0 k0 i1 j1 k1 g)) [pt dI; pt dJ; pt dK].
Proof. k_addr. Qed.
Lemma fa_face1 p i0 i1 pt :
  addr (make_md_span p [d_plus (Ib i0 i1) 1]) pt = faddr (mkFa p (FACE1d i0 i1 0)) [pt dI].
Proof. k_addr. Qed.
Lemma fa_face20 p i0 i1 j0 j1 pt :
  addr (make_md_span p [Jb j0 j1; d_plus (Ib i0 i1) 1]) pt = faddr (mkFa p (FACE2d0 i0 j0 i1 j1 0)) [pt dI; pt dJ].
Proof. k_addr. Qed.
Lemma fa_face21 p i0 i1 j0 j1 pt :
  addr (make_md_span p [Ib i0 i1; d_plus (Jb j0 j1) 1]) pt = faddr (mkFa p (FACE2d1 i0 j0 i1 j1 0)) [pt dJ; pt dI].
Proof. k_addr. Qed.
Lemma fa_face30 p i0 i1 j0 j1 k0 k1 pt :
  addr (make_md_span p [Kb k0 k1; Jb j0 j1; d_plus (Ib i0 i1) 1]) pt =
  faddr (mkFa p (FACE3d0 i0 j0 k0 i1 j1 k1 0)) [pt dI; pt dJ; pt dK].
Proof. k_addr. Qed.
Lemma fa_face31 p i0 i1 j0 j1 k0 k1 pt :
  addr (make_md_span p [Ib i0 i1; Kb k0 k1; d_plus (Jb j0 j1) 1]) pt =
  faddr (mkFa p (FACE3d1 i0 j0 k0 i1 j1 k1 0)) [pt dJ; pt dK; pt dI].
Proof. k_addr. Qed.
Lemma fa_face32 p i0 i1 j0 j1 k0 k1 pt :
  addr (make_md_span p [Jb j0 j1; Ib i0 i1; d_plus (Kb k0 k1) 1]) pt =
  faddr (mkFa p (FACE3d2 i0 j0 k0 i1 j1 k1 0)) [pt dK; pt dI; pt dJ].
Proof. k_addr. Qed.
Global Hint Rewrite fa_cell1 fa_cell2 fa_cell3 fa_face1 fa_face20 fa_face21 fa_face30 fa_face31 fa_face32 : fa.

(** ** Differences *)
Section Grad.
  Context {S : Scalar}.
  Lemma denote_grad_down s d (h : S) pt m :
    denote (grad s d h down) pt m =
    (x0 <- load m (addr s (pmove pt d (-1))) ;; x1 <- load m (addr s pt) ;; Some (VNum ((x1 - x0) / h)%T)).
  Proof.
    cbn. rewrite (addr_peq s (pmove (pmove pt d (-1)) d 1) pt).
    2:{ intros e. unfold pmove, pset. rewrite Nat.eqb_refl. destruct (Nat.eqb_spec e d) as [->|]; lia. }
    destruct (load m _); [|reflexivity]. cbn. destruct (load m _); reflexivity.
  Qed.
  Lemma denote_grad_up s d (h : S) pt m :
    denote (grad s d h up) pt m =
    (x0 <- load m (addr s pt) ;; x1 <- load m (addr s (pmove pt d 1)) ;; Some (VNum ((x1 - x0) / h)%T)).
  Proof. cbn. destruct (load m _); [|reflexivity]. cbn. destruct (load m _); reflexivity. Qed.
End Grad.
Global Hint Rewrite @denote_grad_down @denote_grad_up : dgrad.

(** Indices of a moved point. *)
Lemma pmove_same pt d z : pmove pt d z d = pt d + z.
Proof. unfold pmove, pset. rewrite Nat.eqb_refl. reflexivity. Qed.
Lemma pmove_other pt d e z : e <> d -> pmove pt d z e = pt e.
Proof. intros H. unfold pmove, pset. rewrite (proj2 (Nat.eqb_neq e d) H). reflexivity. Qed.
Ltac k_idx :=
  repeat first [ rewrite pmove_same | rewrite pmove_other by discriminate ].

(** Both sides read the same elements: case on each of them. *)
Ltac k_loads :=
  repeat match goal with
  | |- context [load ?m ?p] => destruct (load m p) as [?|]; cbn [bind app_op]; try reflexivity
  end.

Ltac k_nodup := cbn; repeat first [apply NoDup_nil|apply NoDup_cons; [clear; simpl; intuition discriminate|]].
Ltac k_perm := apply NoDup_Permutation; [k_nodup|k_nodup|clear; intros; simpl; tauto].
Ltac k_lia := cbn; unfold b_ub, b_lb; cbn; lia.
Ltac k_forall := cbn; repeat first [apply Forall_nil|apply Forall_cons; [first [reflexivity|k_lia]|]].
Ltac k_dom := split; [discriminate|split; [k_nodup|k_forall]].
Ltac k_span := split; [k_nodup|k_forall].
Ltac k_expr :=
  cbn [wf_expr grad shift];
  repeat lazymatch goal with
  | |- _ /\ _ => split
  | |- wf_span _ => k_span
  | |- Permutation _ _ => k_perm
  | |- _ \/ _ => first [left; reflexivity|right; reflexivity]
  | |- exists b, _ => eexists; split; [simpl; tauto|reflexivity]
  | |- True => exact Logic.I
  end.
Ltac k_assign := split; [k_span|split; [k_perm|cbv iota beta; k_expr]].

(** Values agree in exact arithmetic. *)
Ltac k_div L :=
  repeat match goal with
  | |- context [@sdiv ?S ?x ?h] =>
      lazymatch x with lit 1 => fail | _ => rewrite (sdiv_def S L x h) end
  end.
