(** * Window assignments: effect at each point, and the shapes that go wrong *)

From Coq Require Import Permutation.
From Verif Require Import Base ModelBounds ModelMatrix ModelIters ModelSpan Spec SpecIter ModelSched
  SpecAssign ModelProxy SpecWindow LemBase LemSched LemExpr LemProps4 LemWindow LemField Instances.
Import ListNotations.
Open Scope Z_scope.

Section Window.
  Context {S : Scalar}.
  Notation wassign := (@wassign S).
  Notation proxy := (@proxy S).

  Section Points.
    Context (st : span) (dom : list dbnd) (l : list wassign) (m : mem S).
    Hypothesis Hok : window_ok st dom l.
    Hypothesis Hind : window_indep st l.
    Hypothesis Hdis : window_disjoint_elems st dom l (ints m).

    Let pts := firstn (Z.to_nat (prodZ (floors dom))) (domain_points dom origin).
    Let R (i : nat) (p : ptr) :=
      match nth_error pts i with Some pt => In p (flat_map (wreads st pt (ints m)) l) | None => False end.
    Let W (i : nat) (p : ptr) :=
      match nth_error pts i with Some pt => In p (flat_map (wwrites st pt) l) | None => False end.

    Lemma w_ind i j p : i <> j -> W i p -> ~ R j p /\ ~ W j p.
    Proof.
      intros Hij HWi. unfold R, W in *.
      destruct (nth_error pts i) as [x|] eqn:Ei; [|destruct HWi].
      destruct (nth_error pts j) as [y|] eqn:Ej; [|tauto].
      apply (Hdis i j x y p); auto; eapply nth_error_firstn; eassumption.
    Qed.

    Lemma w_fits ts : Forall2 (wworks st l (ints m)) ts pts -> fits R W ts.
    Proof.
      intros HF i t Ht. destruct (Forall2_nth _ _ _ _ _ HF Ht) as (pt & Ei & Hwi & _).
      eapply within_mono; [| |exact Hwi]; intros p Hp; unfold R, W; rewrite Ei; exact Hp.
    Qed.

    (** The result at a point is that of running the list there alone. *)
    Lemma window_effect_prefix m' : with_window st dom l m = Some m' ->
      forall pt, In pt pts ->
        exists f, point_spec st l pt m = Some f /\
          forall x, In x (flat_map (wwrites st pt) l) -> load m' x = load f x.
    Proof.
      intros E pt Hpt. destruct (window_launch_works st dom l (ints m) Hok Hind) as (ts & _ & HF).
      rewrite with_window_points in E by assumption.
      rewrite <- (wworks_forM st l (ints m) ts _ m HF eq_refl) in E.
      destruct (seq_outcome R W w_ind ts m m' (w_fits ts HF) E) as (_ & _ & _ & HO).
      apply In_nth_error in Hpt as [i Hi].
      assert (exists t, nth_error ts i = Some t) as [t Ht].
      { assert (length ts = length pts) as HL by (eapply Forall2_len; exact HF).
        destruct (nth_error ts i) eqn:Et; [eauto|]. apply nth_error_None in Et.
        assert (i < length pts)%nat by (apply nth_error_Some; congruence). lia. }
      destruct (HO i t Ht) as (f & Ef & Hf). exists f.
      destruct (Forall2_nth _ _ _ _ _ HF Ht) as (pt' & Ei & _ & Hrun).
      fold pts in Ei. rewrite Hi in Ei. injection Ei as <-. rewrite Hrun in Ef by reflexivity. split; [exact Ef|].
      intros x Hx. apply Hf. unfold W. rewrite Hi. exact Hx.
    Qed.

    Lemma window_defined_prefix :
      (forall pt, In pt pts -> point_spec st l pt m <> None) -> exists m', with_window st dom l m = Some m'.
    Proof.
      intros Hdef. destruct (window_launch_works st dom l (ints m) Hok Hind) as (ts & _ & HF).
      rewrite with_window_points by assumption.
      rewrite <- (wworks_forM st l (ints m) ts _ m HF eq_refl).
      apply (seq_defined R W w_ind ts m (w_fits ts HF)).
      intros i t Ht. destruct (Forall2_nth _ _ _ _ _ HF Ht) as (pt & Ei & _ & Hrun).
      rewrite Hrun by reflexivity. apply Hdef. eapply nth_error_In; exact Ei.
    Qed.
  End Points.

  Theorem window_effect st dom l (m m' : mem S) :
    window_ok st dom l -> window_indep st l -> strides_divide dom ->
    window_disjoint_elems st dom l (ints m) -> with_window st dom l m = Some m' ->
    forall pt, In pt (domain_points dom origin) ->
      exists f, point_spec st l pt m = Some f /\
        forall x, In x (flat_map (wwrites st pt) l) -> load m' x = load f x.
  Proof.
    intros Hok Hind Hs Hdis E pt Hpt. apply (window_effect_prefix st dom l m Hok Hind Hdis m' E).
    rewrite floors_all; [exact Hpt|apply Hok|exact Hs].
  Qed.

  Theorem window_defined st dom l (m : mem S) :
    window_ok st dom l -> window_indep st l -> window_disjoint_elems st dom l (ints m) ->
    (forall pt, In pt (domain_points dom origin) -> point_spec st l pt m <> None) ->
    exists m', with_window st dom l m = Some m'.
  Proof.
    intros Hok Hind Hdis H. apply window_defined_prefix; try assumption. intros pt Hpt. apply H.
    revert Hpt. generalize (domain_points dom origin) (Z.to_nat (prodZ (floors dom))). clear.
    intros l n. revert l; induction n; intros [|y l]; simpl; try tauto. intros [->|H]; auto.
  Qed.

  Lemma single_indep st i r : window_indep st [@WSet1 S i r].
  Proof. split; repeat constructor. Qed.

  Lemma sub_indep st x p : window_indep st [@WSub S x p].
  Proof. split; repeat constructor. Qed.

  Theorem window_expression st dom i r (m m' : mem S) :
    window_ok st dom [WSet1 i r] -> strides_divide dom ->
    window_disjoint_elems st dom [WSet1 i r] (ints m) ->
    with_window st dom [WSet1 i r] m = Some m' ->
    forall pt, In pt (domain_points dom origin) ->
      exists x, pvalue st r pt m = Some (VNum x) /\ load m' (entry_at st pt i) = Some x.
  Proof.
    intros Hok Hs Hdis E pt Hpt.
    destruct (window_effect st dom _ m m' Hok (single_indep st i r) Hs Hdis E pt Hpt) as (f & Ef & Hf).
    unfold point_spec in Ef. cbn [forM wassign_at] in Ef.
    apply bind_Some_inv in Ef as (f' & Ef & E'). injection E' as ->.
    apply bind_Some_inv in Ef as (v & Ev & Est). destruct v as [x| |]; try discriminate.
    exists x. split; [exact Ev|]. rewrite Hf by (left; reflexivity).
    rewrite (load_store _ _ _ _ _ Est). destruct (ptr_dec (entry_at st pt i) (entry_at st pt i)); congruence.
  Qed.

  Theorem window_subtract st dom x p (m m' : mem S) : field_laws S ->
    window_ok st dom [WSub x p] -> strides_divide dom ->
    window_disjoint_elems st dom [WSub x p] (ints m) ->
    with_window st dom [WSub x p] m = Some m' ->
    (forall pt, In pt (domain_points dom origin) ->
      exists x0 y, load m (addr x pt) = Some x0 /\ pvalue st p pt m = Some (VNum y) /\
                   load m' (addr x pt) = Some (x0 - y)%T) /\
    (forall q, (forall pt, In pt (domain_points dom origin) -> q <> addr x pt) -> load m' q = load m q).
  Proof.
    intros L Hok Hs Hdis E. split.
    - intros pt Hpt.
      destruct (window_effect st dom _ m m' Hok (sub_indep st x p) Hs Hdis E pt Hpt) as (f & Ef & Hf).
      unfold point_spec in Ef. cbn [forM wassign_at] in Ef.
      apply bind_Some_inv in Ef as (f' & Ef & E'). injection E' as ->.
      apply bind_Some_inv in Ef as (v & Ev & Ef). apply bind_Some_inv in Ef as (x0 & E0 & Est).
      destruct v as [y| |]; try discriminate.
      exists x0, y. split; [exact E0|]. split; [exact Ev|]. rewrite Hf by (left; reflexivity).
      rewrite (load_store _ _ _ _ _ Est). destruct (ptr_dec (addr x pt) (addr x pt)); [|congruence].
      f_equal. apply sub_from. exact L.
    - intros q Hq. destruct (window_frame st dom _ m m' Hok (sub_indep st x p) E) as (_ & _ & H).
      apply H. intros pt a Hpt [<-|[]] [Hin|[]]. exact (Hq pt Hpt (eq_sym Hin)).
  Qed.
End Window.

(** ** Witnesses *)

Definition w_st : span := make_md_span (0%nat, 0) [Ib 0 4; Wb 0 2].
Definition w_x : span := make_md_span (1%nat, 0) [Ib 0 4].
Definition w_y : span := make_md_span (2%nat, 0) [Ib 0 4].
Definition w_m : mem ZS :=
  mkMem (S := ZS) [[1; 2; 3; 4; 5; 6; 7; 8; 9; 10; 11; 12; 13; 14; 15]; [20; 30; 40; 50; 70]; [3; 5; 7; 11; 13]] [].
Definition w_dom : list dbnd := [Ib 0 4].

(** st(2) = x - st(0)*y *)
Definition w_prefix : list (@wassign ZS) :=
  [WSet1 2 (POp OSub (PVec (ESpan w_x)) (POp OMul (PSt 0) (PVec (ESpan w_y))))].
(** st(2) = st(0)*x + st(1)*y *)
Definition w_merge : list (@wassign ZS) :=
  [WSet1 2 (POp OAdd (POp OMul (PSt 0) (PVec (ESpan w_x))) (POp OMul (PSt 1) (PVec (ESpan w_y))))].
(** st(0) = 77 *)
Definition w_number : list (@wassign ZS) := [WSet1 0 (PNum (77 : ZS))].
Definition w_strided : list dbnd := [(dI, Bnd_s 0 4 2)].
Definition w_line2 : list dbnd := [(dI, Bnd_s 0 2 2)].

Lemma differ {A B} (a b : option A) (f : A -> option B) x y :
  (v <- a ;; f v) = Some x -> (v <- b ;; f v) = Some y -> x <> y -> a <> b.
Proof. intros H1 H2 Hne E. apply Hne. rewrite E in H1. congruence. Qed.

Ltac w_ok :=
  split; [ex_dom|]; split; [ex_span|]; split; [exists [Ib 0 4], dW, (Bnd 0 2); split; [reflexivity|apply Permutation_refl]|];
  split; [repeat constructor|]; split; [repeat (constructor; [repeat (constructor; [split; [ex_span|apply Permutation_refl]|]); try constructor|]); try constructor|].

Lemma w_prefix_accepted : window_accepted w_st w_dom w_prefix.
Proof. w_ok. right; right. repeat constructor. Qed.

Lemma w_merge_accepted : window_accepted w_st w_dom w_merge.
Proof. w_ok. right; right. repeat constructor. Qed.

Ltac w_local :=
  exists [Ib 0 4], dW, (Bnd 0 2); split; [reflexivity|]; split; [ex_within|];
  split; [intros a i [<-|[]] Hi; simpl in Hi;
          repeat match goal with H : _ \/ _ |- _ => destruct H as [H|H] | H : False |- _ => destruct H end; subst; cbn; lia|];
  split; [intros x p [H|[]]; discriminate|];
  intros a b [<-|[]] [<-|[]]; repeat constructor; discriminate.

Lemma w_prefix_local : window_local w_st w_dom w_prefix. Proof. w_local. Qed.
Lemma w_merge_local : window_local w_st w_dom w_merge. Proof. w_local. Qed.

Lemma w_dom_divide : strides_divide w_dom.
Proof. repeat constructor. exists 5. reflexivity. Qed.

Lemma prefix_refuted :
  ~ forall (S : Scalar) st dom (l : list (@wassign S)) (m : mem S),
      window_accepted st dom l -> window_local st dom l -> strides_divide dom ->
      with_window st dom l m = window_spec st dom l m.
Proof.
  intros H. specialize (H ZS w_st w_dom w_prefix w_m w_prefix_accepted w_prefix_local w_dom_divide).
  revert H. apply (differ _ _ (fun m : mem ZS => load m (0%nat, 2)) (-17 : ZS) (17 : ZS)); [vm_compute; reflexivity..|discriminate].
Qed.

Lemma prefix_wrong_value :
  window_accepted w_st w_dom w_prefix /\ window_local w_st w_dom w_prefix /\ strides_divide w_dom /\
  (m' <- with_window w_st w_dom w_prefix w_m ;; load m' (entry_at w_st origin 2)) = Some (1 * 3 - 20) /\
  (m' <- window_spec w_st w_dom w_prefix w_m ;; load m' (entry_at w_st origin 2)) = Some (20 - 1 * 3).
Proof.
  split; [exact w_prefix_accepted|]. split; [exact w_prefix_local|]. split; [exact w_dom_divide|].
  split; vm_compute; reflexivity.
Qed.

Lemma merge_wrong_value :
  window_accepted w_st w_dom w_merge /\ window_local w_st w_dom w_merge /\ strides_divide w_dom /\
  (m' <- with_window w_st w_dom w_merge w_m ;; load m' (entry_at w_st origin 2)) = Some (1 * 20 + 2 * 20) /\
  (m' <- window_spec w_st w_dom w_merge w_m ;; load m' (entry_at w_st origin 2)) = Some (1 * 20 + 2 * 3).
Proof.
  split; [exact w_merge_accepted|]. split; [exact w_merge_local|]. split; [exact w_dom_divide|].
  split; vm_compute; reflexivity.
Qed.

Lemma w_number_ok : window_ok w_st w_strided w_number.
Proof. w_ok. left. repeat constructor. Qed.

Lemma w_number_local : window_local w_st w_strided w_number. Proof. w_local. Qed.

Lemma strided_refuted :
  ~ forall (S : Scalar) st dom (l : list (@wassign S)) (m : mem S),
      window_ok st dom l -> window_indep st l -> window_local st dom l ->
      with_window st dom l m = window_spec st dom l m.
Proof.
  intros H. specialize (H ZS w_st w_strided w_number w_m w_number_ok (single_indep _ _ _) w_number_local).
  revert H. apply (differ _ _ (fun m : mem ZS => load m (0%nat, 12)) (13 : ZS) (77 : ZS)); [vm_compute; reflexivity..|discriminate].
Qed.

Lemma grad_strided_refuted :
  ~ forall (S : Scalar) dom f u d (h : S) (m m' : mem S),
      wf_dom dom -> wf_span f -> wf_span u ->
      Permutation (map fst dom) (sp_order f) -> Permutation (map fst dom) (sp_order u) ->
      In d (map fst dom) -> fst (sp_ptr f) <> fst (sp_ptr u) ->
      dom_within dom (sp_b f) -> dom_within (shift_dom d 1 dom) (sp_b u) -> dom_within dom (sp_b u) ->
      with_domain dom [AExpr f (grad u d h up)] m = Some m' ->
      forall pt a b, In pt (domain_points dom origin) ->
        load m (addr u pt) = Some a -> load m (addr u (pmove pt d 1)) = Some b ->
        load m' (addr f pt) = Some ((b - a) / h)%T.
Proof.
  intros H.
  destruct (with_domain w_line2 [AExpr w_y (grad w_x dI (1 : ZS) up)] w_m) as [m'|] eqn:E.
  2:{ assert ((m' <- with_domain w_line2 [AExpr w_y (grad w_x dI (1 : ZS) up)] w_m ;; load m' (2%nat, 0)) = Some 20)
        by (vm_compute; reflexivity). rewrite E in H0. discriminate. }
  assert (load m' (2%nat, 0) = Some 20) as HV.
  { assert ((m' <- with_domain w_line2 [AExpr w_y (grad w_x dI (1 : ZS) up)] w_m ;; load m' (2%nat, 0)) = Some 20)
      by (vm_compute; reflexivity). rewrite E in H0. exact H0. }
  specialize (H ZS w_line2 w_y w_x dI 1 w_m m').
  assert (load m' (addr w_y (pset origin dI 0)) = Some ((30 - 20) / 1)) as HX.
  { apply H; [ex_dom|ex_span|ex_span|apply Permutation_refl|apply Permutation_refl|left; reflexivity|discriminate
             |ex_within|ex_within|ex_within|exact E|left; reflexivity|vm_compute; reflexivity|vm_compute; reflexivity]. }
  change (addr w_y (pset origin dI 0)) with (2%nat, 0) in HX. rewrite HV in HX. discriminate.
Qed.

Lemma grad_other_strides (S : Scalar) dom f u d (h : S) (m m' : mem S) :
  wf_dom dom -> wf_span f -> wf_span u ->
  Permutation (map fst dom) (sp_order f) -> Permutation (map fst dom) (sp_order u) ->
  (exists b, In (d, b) dom /\ stride b = 1) -> fst (sp_ptr f) <> fst (sp_ptr u) ->
  dom_within dom (sp_b f) ->
  with_domain dom [AExpr f (grad u d h up)] m = Some m' ->
  forall pt a b, In pt (domain_points dom origin) ->
    load m (addr u pt) = Some a -> load m (addr u (pmove pt d 1)) = Some b ->
    load m' (addr f pt) = Some ((b - a) / h)%T.
Proof.
  intros Hd Hf Hu Pf Pu Hb Hne Hw E pt a b Hpt Ea Eb.
  assert (assignable dom (AExpr f (grad u d h up))) as HA.
  { split; [exact Hd|]. split; [|exact Hw]. split; [exact Hf|]. split; [exact Pf|].
    split; [exact Hu|]. split; [exact Pu|]. split; [left; reflexivity|exact Hb]. }
  assert (independent dom (AExpr f (grad u d h up)) (ints m)) as HI.
  { apply avoids_independent. cbn. congruence. }
  destruct (assign_effect dom _ m HA HI) as [H _]. destruct (H m' E) as ((HV & _) & _).
  destruct (HV pt Hpt) as (x & Ex & El). cbn [lhs_of] in El. rewrite El. f_equal.
  cbn in Ex. rewrite Ea in Ex. cbn [bind] in Ex. rewrite Eb in Ex. cbn in Ex. congruence.
Qed.
