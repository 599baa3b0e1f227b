(** * Value, frame and schedule independence of assignments *)

From Coq Require Import ZifyBool ZifyNat Permutation.
From Verif Require Import Base ModelBounds ModelMatrix ModelIters ModelSpan Spec ModelSched
  LemBase LemMatrix LemDomain LemExpr LemExec LemSched.
Import ListNotations.
Open Scope Z_scope.

(** ** Addresses of distinct points are distinct *)

Lemma cells_of_cons d b bs : cells_of ((d, b) :: bs) = extent b * cells_of bs.
Proof. reflexivity. Qed.

Lemma offset_of_range bs pt : in_bounds bs pt -> 0 <= offset_of bs pt < cells_of bs.
Proof.
  induction bs as [|[d b] bs IH]; intros H; simpl offset_of; [unfold cells_of, prodZ; simpl; lia|].
  rewrite cells_of_cons. inversion H; subst. simpl in *. specialize (IH H3). unfold extent. nia.
Qed.

Lemma offset_of_inj bs p q :
  in_bounds bs p -> in_bounds bs q -> offset_of bs p = offset_of bs q ->
  forall d, In d (map fst bs) -> p d = q d.
Proof.
  induction bs as [|[d b] bs IH]; intros Hp Hq E d' Hd; [destruct Hd|].
  simpl offset_of in E. inversion Hp; subst. inversion Hq; subst. simpl in *.
  pose proof (offset_of_range _ _ H2). pose proof (offset_of_range _ _ H4).
  assert (p d = q d) as Ed by nia.
  destruct Hd as [<-|Hd]; [exact Ed|]. apply IH; auto. rewrite Ed in E. nia.
Qed.

Lemma addr_inj s p q :
  in_bounds (sp_b s) p -> in_bounds (sp_b s) q -> addr s p = addr s q ->
  forall d, In d (sp_order s) -> p d = q d.
Proof.
  intros Hp Hq E. apply offset_of_inj; auto. unfold addr, padd in E. injection E; intros; lia.
Qed.

(** Points of a domain agree outside its directions and are told apart by them. *)
Lemma domain_points_outside dom pt q d :
  In q (domain_points dom pt) -> ~ In d (map fst dom) -> q d = pt d.
Proof.
  revert pt; induction dom as [|[d' b] dom IH]; intros pt H Hd; simpl in *.
  - destruct H as [<-|[]]. reflexivity.
  - apply in_flat_map in H as (x & _ & H). rewrite (IH _ H) by tauto. apply pset_other. intros ->; tauto.
Qed.

Lemma loop_values_nodup b : 1 <= stride b -> NoDup (loop_values b).
Proof.
  intros H. unfold loop_values. apply FinFun.Injective_map_NoDup; [|apply seq_NoDup].
  intros x y E. nia.
Qed.

Lemma in_domain_points_hd d b dom pt q :
  ~ In d (map fst dom) -> In q (domain_points ((d, b) :: dom) pt) ->
  exists x, In x (loop_values b) /\ q d = x /\ In q (domain_points dom (pset pt d x)).
Proof.
  intros Hd H. simpl in H. apply in_flat_map in H as (x & Hx & H). exists x. split; [exact Hx|].
  split; [|exact H]. rewrite (domain_points_outside _ _ _ _ H Hd). apply pset_same.
Qed.

Lemma NoDup_app {A} (l1 l2 : list A) :
  NoDup l1 -> NoDup l2 -> (forall x, In x l1 -> ~ In x l2) -> NoDup (l1 ++ l2).
Proof.
  induction l1 as [|a l1 IH]; intros H1 H2 Hd; [exact H2|]. inversion H1; subst. simpl. constructor.
  - rewrite in_app_iff. intros [H|H]; [contradiction|]. apply (Hd a); [left; reflexivity|exact H].
  - apply IH; auto. intros x Hx. apply Hd. right; exact Hx.
Qed.

(** The key of a point: its coordinates in the domain's directions. *)
Lemma domain_keys_nodup dom pt (K : list dim) :
  NoDup (map fst dom) -> Forall (fun b => 1 <= stride (snd b)) dom ->
  (forall d, In d (map fst dom) -> In d K) ->
  NoDup (map (fun q : point => map q K) (domain_points dom pt)).
Proof.
  revert pt; induction dom as [|[d b] dom IH]; intros pt Hnd Hst HK.
  - simpl. constructor; [intros []|constructor].
  - inversion Hnd; subst. inversion Hst; subst. simpl in *.
    assert (In d K) as HdK by (apply HK; auto).
    pose proof (loop_values_nodup b H3) as HL. revert HL.
    generalize (loop_values b). intros l. induction l as [|x l IHl]; intros HL; [constructor|].
    simpl. rewrite map_app. inversion HL; subst. apply NoDup_app.
    + apply IH; auto.
    + apply IHl. assumption.
    + intros k Hk1 Hk2. apply in_map_iff in Hk1 as (q1 & E1 & Hq1). apply in_map_iff in Hk2 as (q2 & E2 & Hq2).
      apply in_flat_map in Hq2 as (y & Hy & Hq2).
      assert (q1 d = x) as Ex by (rewrite (domain_points_outside _ _ _ _ Hq1 H1); apply pset_same).
      assert (q2 d = y) as Ey by (rewrite (domain_points_outside _ _ _ _ Hq2 H1); apply pset_same).
      assert (q1 d = q2 d) as E.
      { subst k. clear - E2 HdK. induction K as [|a K IHK]; [destruct HdK|]. simpl in E2. injection E2 as Ea EK.
        destruct HdK as [->|H]; [congruence|apply IHK; auto]. }
      apply H5. congruence.
Qed.

Lemma map_ptext (p q : point) K : map p K = map q K <-> forall d, In d K -> p d = q d.
Proof.
  induction K as [|a K IH]; simpl; [tauto|]. split.
  - intros E. injection E as E1 E2. rewrite IH in E2. intros d [<-|Hd]; auto.
  - intros H. f_equal; [apply H; auto|]. apply IH. auto.
Qed.

(** Distinct elements of the domain have distinct addresses. *)
Lemma domain_addr_nodup dom s pt :
  wf_dom dom -> Permutation (map fst dom) (sp_order s) ->
  (forall q, In q (domain_points dom pt) -> in_bounds (sp_b s) q) ->
  NoDup (map (addr s) (domain_points dom pt)).
Proof.
  intros (_ & Hnd & Hf) HP Hb.
  pose proof (domain_keys_nodup dom pt (map fst dom) Hnd
    ltac:(eapply Forall_impl; [|exact Hf]; simpl; intros; lia) ltac:(auto)) as HK.
  revert HK Hb. generalize (domain_points dom pt) as l. induction l as [|q l IH]; intros HK Hb; [constructor|].
  simpl in *. inversion HK; subst. constructor; [|apply IH; auto].
  intros Hin. apply in_map_iff in Hin as (q' & E & Hq'). apply H1. apply in_map_iff. exists q'.
  split; [|exact Hq']. apply map_ptext. intros d Hd. apply (addr_inj s); auto.
  rewrite <- HP. exact Hd.
Qed.

Section Assign.
  Context {S : Scalar}.

  Lemma assign_point_rhs a pt (m : mem S) :
    assign_point a pt m = (x <- rhs_at a pt m ;; store m (addr (lhs_of a) pt) x).
  Proof.
    destruct a as [s e|s t]; cbn [assign_point rhs_at lhs_of bind]; [|reflexivity].
    rewrite bind_assoc. apply bind_ext. intros v _. destruct v; reflexivity.
  Qed.

  Section Points.
    Context (a : @assign S) (pts : list point) (m0 : mem S).
    Context (Hnd : NoDup (map (addr (lhs_of a)) pts)).
    (** No element reads what another element writes. *)
    Context (Hhaz : forall p q, In p pts -> In q pts ->
               In (addr (lhs_of a) q) (assign_reads a p (ints m0)) ->
               addr (lhs_of a) q = addr (lhs_of a) p).

    Let ts := map (assign_thread a (ints m0)) pts.
    Let R (i : nat) (p : ptr) : Prop :=
      match nth_error pts i with Some pt => In p (assign_reads a pt (ints m0)) | None => False end.
    Let W (i : nat) (p : ptr) : Prop :=
      match nth_error pts i with Some pt => p = addr (lhs_of a) pt | None => False end.

    Lemma pts_ind i j p : i <> j -> W i p -> ~ R j p /\ ~ W j p.
    Proof.
      intros Hij Hi. unfold W, R in *.
      destruct (nth_error pts i) as [x|] eqn:Ei; [|destruct Hi]. subst p.
      destruct (nth_error pts j) as [y|] eqn:Ej; [|tauto].
      assert (addr (lhs_of a) x <> addr (lhs_of a) y) as Hne.
      { intros E. apply Hij. rewrite NoDup_nth_error in Hnd. apply Hnd.
        - rewrite map_length. apply nth_error_Some. congruence.
        - rewrite !nth_error_map, Ei, Ej. simpl. congruence. }
      split; [|exact Hne]. intros Hr. apply Hne. apply Hhaz; [| |exact Hr].
      - eapply nth_error_In; eassumption.
      - eapply nth_error_In; eassumption.
    Qed.

    Lemma pts_fits : fits R W ts.
    Proof.
      intros i t Ht. unfold ts in Ht. rewrite nth_error_map in Ht.
      destruct (nth_error pts i) as [pt|] eqn:E; [|discriminate]. simpl in Ht. injection Ht as <-.
      eapply within_mono; [| |apply assign_thread_within].
      - intros p Hp. unfold R. rewrite E. exact Hp.
      - intros p Hp. unfold W. rewrite E. exact Hp.
    Qed.

    Lemma pts_dec i p : W i p \/ ~ W i p.
    Proof.
      unfold W. destruct (nth_error pts i) as [x|]; [|tauto].
      destruct (ptr_dec p (addr (lhs_of a) x)); auto.
    Qed.

    (** Value and frame. *)
    Lemma assign_points_value m :
      forM pts (assign_point a) m0 = Some m ->
      shape m = shape m0 /\ ints m = ints m0 /\
      (forall pt, In pt pts ->
         exists x, rhs_at a pt m0 = Some x /\ load m (addr (lhs_of a) pt) = Some x) /\
      (forall p, ~ In p (map (addr (lhs_of a)) pts) -> load m p = load m0 p).
    Proof.
      intros E. rewrite <- (forM_run_alone a pts m0) in E. fold ts in E.
      destruct (seq_outcome R W pts_ind ts m0 m pts_fits E) as (S1 & I1 & O1 & F1).
      repeat split; auto.
      - intros pt Hin. apply In_nth_error in Hin as [i Ei].
        destruct (F1 i (assign_thread a (ints m0) pt)) as (f & Rf & Lf).
        { unfold ts. rewrite nth_error_map, Ei. reflexivity. }
        rewrite assign_thread_point, assign_point_rhs in Rf.
        apply bind_Some_inv in Rf as (x & Ex & Es). exists x. split; [exact Ex|].
        rewrite Lf by (unfold W; rewrite Ei; reflexivity).
        rewrite (load_store _ _ _ _ _ Es). destruct (ptr_dec _ _); [reflexivity|congruence].
      - intros p Hp. apply O1. intros i _ HW. apply Hp. unfold W in HW.
        destruct (nth_error pts i) as [x|] eqn:Ei; [|destruct HW]. subst p.
        apply in_map. eapply nth_error_In; eassumption.
    Qed.

    Lemma assign_points_defined :
      (forall pt, In pt pts -> rhs_at a pt m0 <> None /\ load m0 (addr (lhs_of a) pt) <> None) ->
      exists m, forM pts (assign_point a) m0 = Some m.
    Proof.
      intros Hdef. destruct (seq_defined R W pts_ind ts m0 pts_fits) as [m E].
      - intros i t Ht. unfold ts in Ht. rewrite nth_error_map in Ht.
        destruct (nth_error pts i) as [pt|] eqn:Ei; [|discriminate]. injection Ht as <-.
        rewrite assign_thread_point, assign_point_rhs.
        destruct (Hdef pt) as [H1 H2]; [eapply nth_error_In; eassumption|].
        destruct (rhs_at a pt m0) as [x|]; [|congruence]. cbn [bind].
        destruct (load m0 (addr (lhs_of a) pt)) eqn:El; [|congruence].
        destruct (proj1 (store_Some m0 (addr (lhs_of a) pt) x)) as [m' ->]; [eauto|discriminate].
      - exists m. rewrite <- (forM_run_alone a pts m0). exact E.
    Qed.

    (** Every interleaving gives the sequential result. *)
    Lemma assign_points_schedule sch :
      (forall ts' m, run_schedule sch (ts, m0) = Some (ts', m) -> all_done ts' ->
         forM pts (assign_point a) m0 = Some m) /\
      (forM pts (assign_point a) m0 <> None -> run_schedule sch (ts, m0) <> None).
    Proof.
      rewrite <- (forM_run_alone a pts m0).
      exact (schedule_independent R W pts_ind ts m0 sch pts_dec pts_fits).
    Qed.

    Lemma assign_points_exists m :
      forM pts (assign_point a) m0 = Some m ->
      exists sch ts', run_schedule sch (ts, m0) = Some (ts', m) /\ all_done ts'.
    Proof.
      rewrite <- (forM_run_alone a pts m0). apply schedule_exists.
    Qed.
  End Points.
End Assign.
