(** * Lazy expressions: the iterator an expression evaluates to, as a family
      indexed by the position in the domain *)

From Coq Require Import ZifyBool ZifyNat Permutation.
From Verif Require Import Base ModelBounds ModelMatrix ModelIters ModelSpan Spec ModelSched
  LemBase LemMatrix LemFsi LemDomain.
Import ListNotations.
Open Scope Z_scope.

(** ** Relating two monadic computations *)

Definition orel {A} (R : A -> A -> Prop) (x y : option A) : Prop :=
  match x, y with
  | Some a, Some b => R a b
  | None, None => True
  | _, _ => False
  end.

Lemma orel_bind {A B} (R : A -> A -> Prop) (x y : option A) (f g : A -> option B) :
  orel R x y -> (forall a b, R a b -> f a = g b) -> bind x f = bind y g.
Proof. destruct x, y; simpl; intros H1 H2; try tauto; auto. Qed.

Lemma forM_orel {A M} (R : M -> M -> Prop) (l : list A) (f g : A -> M -> option M) a b :
  (forall x a b, In x l -> R a b -> orel R (f x a) (g x b)) ->
  R a b -> orel R (forM l f a) (forM l g b).
Proof.
  revert a b; induction l as [|x l IH]; intros a b H Hab; simpl; [exact Hab|].
  specialize (H x a b (or_introl eq_refl) Hab) as Hx.
  destruct (f x a), (g x b); simpl in *; try tauto.
  apply IH; auto.
Qed.

(** ** Values do not distinguish extensionally equal points *)

Section Ext.
  Context {S : Scalar}.

  Lemma displaced_peq (m : mem S) o N i p q : peq p q -> orel peq (displaced m o N i p) (displaced m o N i q).
  Proof.
    intros H. unfold displaced. apply forM_orel; [|exact H].
    intros j a b _ Hab. destruct (loadi m _); simpl; [|exact I]. apply pmove_peq. exact Hab.
  Qed.

  Lemma coarse_point_peq r cb p q : peq p q -> peq (coarse_point r cb p) (coarse_point r cb q).
  Proof. intros H d. unfold coarse_point. destruct (find _ cb); [reflexivity|]. rewrite H. reflexivity. Qed.

  Lemma denote_peq (e : @expr S) p q m : peq p q -> denote e p m = denote e q m.
  Proof.
    revert p q; induction e as [s|o t e IH|o e IH t|o e1 IH1 e2 IH2|sh s d|d z e IH|st u o|s r cb];
      intros p q H; cbn [denote].
    - rewrite (addr_peq _ _ _ H). reflexivity.
    - rewrite (IH _ _ H). reflexivity.
    - rewrite (IH _ _ H). reflexivity.
    - rewrite (IH1 _ _ H), (IH2 _ _ H). reflexivity.
    - cbv zeta. destruct (0 <=? sh).
      + rewrite (addr_peq s _ _ H), (addr_peq s _ _ (pmove_peq _ _ d 1 H)). reflexivity.
      + rewrite (addr_peq s _ _ (pmove_peq _ _ d (-1) H)).
        rewrite (addr_peq s _ _ (pmove_peq _ _ d 1 (pmove_peq _ _ d (-1) H))). reflexivity.
    - apply IH. apply pmove_peq; exact H.
    - cbv zeta. destruct (nth_error (sp_b st) (length (sp_b u))) as [[w wb]|]; [|reflexivity].
      f_equal. apply forM_ext_in. intros i res _.
      rewrite (addr_peq st _ _ (pset_peq _ _ w _ H)).
      apply bind_ext. intros s _.
      eapply orel_bind; [apply displaced_peq; exact H|].
      intros a b Hab. rewrite (addr_peq u _ _ Hab). reflexivity.
    - rewrite (addr_peq s _ _ (coarse_point_peq r cb _ _ H)). reflexivity.
  Qed.
End Ext.

(** ** Shifted and widened domains *)

Lemma reads_peq {S : Scalar} (e : @expr S) p q I : peq p q -> reads e p I = reads e q I.
Proof.
  revert p q; induction e as [s|o t e IH|o e IH t|o e1 IH1 e2 IH2|sh s d|d z e IH|st u o|s r cb];
    intros p q H; cbn [reads]; auto.
  - rewrite (addr_peq s p q H). reflexivity.
  - rewrite (IH1 p q H), (IH2 p q H). reflexivity.
  - cbv zeta. assert (peq (if 0 <=? sh then p else pmove p d (-1)) (if 0 <=? sh then q else pmove q d (-1))) as H1.
    { destruct (0 <=? sh); [exact H|apply pmove_peq; exact H]. }
    rewrite (addr_peq s _ _ H1), (addr_peq s _ _ (pmove_peq _ _ d 1 H1)). reflexivity.
  - apply IH. apply pmove_peq. exact H.
  - destruct (nth_error (sp_b st) (length (sp_b u))) as [[w wb]|]; [|reflexivity].
    apply flat_map_ext. intros i. f_equal.
    + apply addr_peq. intros e. unfold pset. destruct (Nat.eqb e w); [reflexivity|apply H].
    + pose proof (displaced_peq (mkMem (S := S) [] I) o (length (sp_b u)) i p q H) as HD.
      destruct (displaced _ o _ i p), (displaced _ o _ i q); simpl in HD; try tauto; try reflexivity.
      rewrite (addr_peq u _ _ HD). reflexivity.
  - rewrite (addr_peq s _ _ (coarse_point_peq r cb p q H)). reflexivity.
Qed.

Lemma shift_dom_fst d z dom : map fst (shift_dom d z dom) = map fst dom.
Proof. unfold shift_dom. rewrite map_map. apply map_ext. reflexivity. Qed.

Lemma shift_dom_counts d z dom : counts (shift_dom d z dom) = counts dom.
Proof.
  unfold shift_dom, counts. rewrite map_map. apply map_ext. intros [d' b]. simpl.
  unfold count, b_ub, b_lb. simpl. f_equal. lia.
Qed.

Lemma shift_dom_wf d z dom : wf_dom dom -> wf_dom (shift_dom d z dom).
Proof.
  intros (Hne & Hnd & Hf). split; [|split].
  - destruct dom; [congruence|discriminate].
  - rewrite shift_dom_fst. exact Hnd.
  - unfold shift_dom. apply Forall_map. eapply Forall_impl; [|exact Hf].
    intros [d' b]; simpl. unfold b_lb, b_ub; simpl. lia.
Qed.

Lemma pt_at_shift d z dom c pt0 :
  peq (pt_at (shift_dom d z dom) c (pmove pt0 d z)) (pmove (pt_at dom c pt0) d z).
Proof.
  assert (forall p, peq p (pmove pt0 d z) ->
          peq (pt_at (shift_dom d z dom) c p) (pmove (pt_at dom c pt0) d z)) as H.
  2:{ apply H. intros ?; reflexivity. }
  revert c pt0; induction dom as [|[d' b] dom IH]; intros [|x c] pt0 p Hp; try exact Hp.
  cbn [shift_dom map pt_at d_shift fst snd].
  apply IH. intros e.
  unfold pmove, pset. specialize (Hp e). unfold pmove, pset in Hp.
  unfold b_lb, b_shift; simpl.
  destruct (Nat.eqb_spec d d'), (Nat.eqb_spec e d'), (Nat.eqb_spec e d), (Nat.eqb_spec d d'); subst;
    try congruence; try lia; rewrite Hp; reflexivity.
Qed.

Lemma d_plus_0 b : d_plus b 0 = b.
Proof. destruct b as [d [f l s]]. unfold d_plus, db_plus, b_pluseq; simpl. rewrite Z.add_0_r. reflexivity. Qed.

Lemma grow_dom_split sh d b dp dq :
  NoDup (map fst (dp ++ (d, b) :: dq)) ->
  grow_dom sh d (dp ++ (d, b) :: dq) = dp ++ (d, db_plus b sh) :: dq.
Proof.
  intros H. rewrite map_app in H. cbn [map fst] in H.
  assert (~ In d (map fst dp) /\ ~ In d (map fst dq)) as [H1 H2].
  { apply NoDup_remove_2 in H. rewrite in_app_iff in H. tauto. }
  assert (forall l, ~ In d (map fst l) -> grow_dom sh d l = l) as HG.
  { induction l as [|[d' b'] l IH]; intros Hn; [reflexivity|]. cbn [grow_dom map fst].
    unfold shift_v. destruct (Nat.eqb_spec d d') as [->|]; [simpl in Hn; tauto|].
    rewrite d_plus_0. f_equal. apply IH. simpl in Hn. tauto. }
  unfold grow_dom. rewrite map_app. cbn [map fst].
  fold (grow_dom sh d dp). fold (grow_dom sh d dq). rewrite !HG by assumption.
  unfold shift_v. rewrite Nat.eqb_refl. reflexivity.
Qed.

(** ** Families *)

Section Fam.
  Context {S : Scalar}.

  Record iter_family (F : Z -> @iter S) (M : Z) : Prop := {
    fam_inc : forall p, 0 <= p < M -> it_inc (F p) = Some (F (p + 1));
    fam_dec : forall p, 0 <= p < M -> it_dec (F (p + 1)) = Some (F p);
    fam_adv : forall p d, 0 <= p -> 0 <= d -> p + d < M -> it_adv (F p) d = Some (F (p + d));
    fam_dist : forall p q, 0 <= p <= M -> 0 <= q <= M -> it_dist (F p) (F q) = Some (q - p)
  }.

  Lemma mat_family base st n flag :
    n <> [] -> Forall (fun x => 1 <= x) n ->
    iter_family (fun p => IMat (mt_at base st n flag p)) (prodZ n).
  Proof.
    intros Hne Hn. split; intros; cbn [it_inc it_dec it_adv it_dist].
    - rewrite mti_inc_at by assumption. reflexivity.
    - rewrite mti_dec_at by assumption. reflexivity.
    - rewrite mti_adv_at by (auto; lia). reflexivity.
    - rewrite mti_dist_at by (auto; lia). reflexivity.
  Qed.

  Lemma counts_ne dom : wf_dom dom -> counts dom <> [].
  Proof. intros (H & _). destruct dom; [congruence|discriminate]. Qed.

  (** What the evaluation of an expression must deliver. *)
  Definition delivers (e : @expr S) (dom : list dbnd) : Prop :=
    exists F, eval e dom = Some (F 0) /\ iter_family F (prodZ (counts dom)) /\
      forall p m pt0, 0 <= p < prodZ (counts dom) ->
        it_deref (F p) m = denote e (pt_at dom (unrav (counts dom) p) pt0) m /\
        it_reads (F p) (ints m) = reads e (pt_at dom (unrav (counts dom) p) pt0) (ints m).

  (** *** Spans *)
  Lemma span_family (s : span) dom :
    wf_dom dom -> Forall (fun x => 1 <= x) (counts dom) ->
    wf_span s -> Permutation (map fst dom) (sp_order s) -> delivers (ESpan s) dom.
  Proof.
    intros Hd Hc Hs HP.
    destruct (call_helper_family false s (sp_b s) [] dom Hs ltac:(rewrite app_nil_r; reflexivity)
                Hd HP Hc) as (base & E & HA).
    cbn [length Nat.eqb negb orb lbs] in E, HA.
    exists (fun p => IMat (mt_at base (strides_of (sp_b s) dom) (counts dom) false p)). split; [|split].
    - cbn [eval]. rewrite E. reflexivity.
    - apply mat_family; [apply counts_ne; assumption|assumption].
    - intros p m pt0 Hp. cbn [it_deref denote it_reads reads]. unfold mti_deref.
      cbn [m_ptr mt_at]. fold (mt_at base (strides_of (sp_b s) dom) (counts dom) false p).
      rewrite (HA p pt0) by assumption. split; reflexivity.
  Qed.

  (** *** Stencil pairs *)
  Lemma stencil_family sh (s : span) d dom :
    wf_dom dom -> Forall (fun x => 1 <= x) (counts dom) ->
    wf_expr (EStencil sh s d : @expr S) dom -> delivers (EStencil sh s d) dom.
  Proof.
    intros Hd Hc (Hs & HP & Hsh & b & Hin & Hb1).
    destruct (in_split _ _ Hin) as (dp & dq & ->).
    pose proof Hd as (_ & Hnd & Hwf).
    pose proof (grow_dom_split sh d b dp dq Hnd) as EG.
    set (dom := dp ++ (d, b) :: dq) in *.
    set (dom' := dp ++ (d, db_plus b sh) :: dq) in *.
    assert (~ In d (map fst dp) /\ ~ In d (map fst dq)) as [Hdp Hdq].
    { unfold dom in Hnd. rewrite map_app in Hnd. apply NoDup_remove_2 in Hnd.
      rewrite in_app_iff in Hnd. tauto. }
    assert (map_index (map fst dom) d = length dp) as EI.
    { apply map_index_nth; [exact Hnd|]. unfold dom. rewrite map_app.
      rewrite nth_error_app2 by (rewrite map_length; lia). rewrite map_length, Nat.sub_diag. reflexivity. }
    set (pre := counts dp). set (post := counts dq). set (x := count b).
    assert (counts dom = pre ++ x :: post) as EC by (unfold dom, counts; rewrite map_app; reflexivity).
    assert (Forall (fun x => 1 <= x) pre /\ 1 <= x /\ Forall (fun x => 1 <= x) post) as (Hpre & Hx & Hpost).
    { rewrite EC in Hc. apply Forall_app in Hc as [? Hc2]. inversion Hc2; auto. }
    assert (count (db_plus b sh) = x + 1 /\ stride (db_plus b sh) = 1 /\
            b_lb (db_plus b sh) = b_lb b - (if 0 <=? sh then 0 else 1)) as (Ex & Es' & Elb).
    { unfold x, count, db_plus, b_pluseq, b_minuseq, b_lb, b_ub.
      destruct Hsh as [-> | ->]; simpl; rewrite Hb1, !Z.div_1_r; lia. }
    assert (counts dom' = pre ++ (x + 1) :: post) as EC'.
    { unfold dom', counts. rewrite map_app. cbn [map snd]. rewrite Ex. reflexivity. }
    assert (map fst dom' = map fst dom) as EF by (unfold dom, dom'; rewrite !map_app; reflexivity).
    assert (wf_dom dom') as Hd'.
    { split; [|split].
      - unfold dom'. destruct dp; discriminate.
      - rewrite EF. exact Hnd.
      - unfold dom, dom' in *. apply Forall_app in Hwf as [W1 W2]. inversion W2 as [|? ? W3 W4]; subst.
        apply Forall_app. split; [exact W1|]. constructor; [|exact W4]. simpl in *.
        split; [lia|]. assert (0 <= count (db_plus b sh)) as H0 by lia.
        unfold count in H0. rewrite Es', Z.div_1_r in H0. lia. }
    destruct (pairs_n_pos pre post (x + 1) Hpre Hpost ltac:(lia)) as [Hn1 Hn2].
    destruct (call_helper_family false s (sp_b s) [] dom' Hs ltac:(rewrite app_nil_r; reflexivity)
                Hd' ltac:(rewrite EF; exact HP) ltac:(rewrite EC'; exact Hn2)) as (base & E & HA).
    cbn [length Nat.eqb negb orb lbs] in E, HA. rewrite EC' in E, HA.
    set (st := strides_of (sp_b s) dom') in *.
    set (n' := pre ++ (x + 1) :: post) in *.
    assert (n' <> []) as Hne' by (unfold n'; destruct pre; discriminate).
    destruct (pairs_pos pre post (x + 1) Hpre Hpost ltac:(lia)) as (Ps & Pm & Pn).
    destruct (pairs_size pre post (x + 1)) as [Z1 Z2]. fold n' in Z2.
    replace (x + 1 - 1) with x in * by lia.
    set (ss := prodZ post) in *. set (mx := x * ss) in *. set (nb := prodZ pre) in *.
    rewrite <- EC in Z1.
    assert (forall p, 0 <= p < nb * (mx + ss) -> o_inc mti_ops (mt_at base st n' false p) = Some (mt_at base st n' false (p + 1))) as Binc.
    { intros p Hp. cbn [o_inc mti_ops]. rewrite mti_inc_at; auto. lia. }
    assert (forall p, 0 <= p < nb * (mx + ss) -> o_dec mti_ops (mt_at base st n' false (p + 1)) = Some (mt_at base st n' false p)) as Bdec.
    { intros p Hp. cbn [o_dec mti_ops]. rewrite mti_dec_at; auto. lia. }
    assert (forall p q, 0 <= p <= nb * (mx + ss) -> 0 <= p + q <= nb * (mx + ss) ->
              o_adv mti_ops (mt_at base st n' false p) q = Some (mt_at base st n' false (p + q))) as Badv.
    { intros p q Hp Hq. cbn [o_adv mti_ops]. apply mti_adv_at; auto; lia. }
    exists (fun p => IFwd (fs_at (mt_at base st n' false) ss mx nb p)). split; [|split].
    - cbn [eval]. rewrite EG, E. cbn [bind]. rewrite EI.
      replace (length dp) with (length pre) by apply counts_length.
      pose proof (mti_stencil_at pre post (x + 1) Hpre Hpost ltac:(lia) base st false) as EM.
      replace (x + 1 - 1) with x in EM by lia. fold n' ss mx nb in EM.
      change (prodZ post) with ss in EM. rewrite EM. reflexivity.
    - rewrite Z1. split; intros; cbn [it_inc it_dec it_adv it_dist].
      + rewrite (fs_inc_at mti_ops _ ss mx nb); auto.
      + rewrite (fs_dec_at mti_ops _ ss mx nb); auto.
      + rewrite (fs_adv_at mti_ops _ ss mx nb); auto; try lia.
        left. destruct (block ss mx nb Ps Pm Pn p ltac:(lia)) as (q & _ & _ & _ & Hh & _). lia.
      + rewrite fs_dist_at. reflexivity.
    - intros p m pt0 Hp. cbn [it_deref it_reads].
      rewrite (fs_pair_at mti_ops _ ss mx nb) by (auto; lia). cbn [bind fst snd].
      destruct (gpos_range ss mx nb Ps Pm Pn p ltac:(lia)) as [G1 G2].
      pose proof (gpos_lt ss mx nb Ps Pm Pn p (nb * mx) ltac:(lia) ltac:(lia)) as G3.
      destruct (gpos_range ss mx nb Ps Pm Pn (nb * mx) ltac:(lia)) as [_ G4].
      unfold mti_deref. cbn [m_ptr mt_at].
      fold (mt_at base st n' false (gpos ss mx nb p)).
      fold (mt_at base st n' false (gpos ss mx nb p + ss)).
      rewrite (HA (gpos ss mx nb p) pt0), (HA (gpos ss mx nb p + ss) pt0) by (rewrite Z2; lia).
      destruct (pairs_coord pre post (x + 1) Hpre Hpost ltac:(lia) p) as (cp & y & cq & C1 & C2 & C3 & C4).
      { replace (x + 1 - 1) with x by lia. rewrite <- EC. exact Hp. }
      replace (x + 1 - 1) with x in C1, C3, C4 by lia. fold ss mx nb n' in C3, C4.
      rewrite EC, C1, C3, C4.
      cbn [denote reads]. cbv zeta.
      assert (length cp = length dp) as Lp by (rewrite C2; apply counts_length).
      unfold dom, dom'. rewrite !pt_at_app by exact Lp. cbn [pt_at].
      rewrite Es', Elb, Hb1.
      set (P := pt_at dp cp pt0).
      assert (forall v w, v = w -> peq (pt_at dq cq (pset P d v)) (pset (pt_at dq cq P) d w)) as HV.
      { intros v w ->. apply pt_at_pset. exact Hdq. }
      assert (peq (pt_at dq cq (pset P d (b_lb b - (if 0 <=? sh then 0 else 1) + 1 * y)))
                  (if 0 <=? sh then pt_at dq cq (pset P d (b_lb b + 1 * y))
                   else pmove (pt_at dq cq (pset P d (b_lb b + 1 * y))) d (-1))) as Q0.
      { destruct (0 <=? sh).
        - rewrite Z.sub_0_r. intros ?; reflexivity.
        - intros e. rewrite (HV _ _ eq_refl e). unfold pmove.
          destruct (Nat.eqb_spec e d) as [->|Hne].
          + rewrite !pset_same. rewrite (HV _ _ eq_refl d), pset_same. lia.
          + rewrite !(pset_other _ d _ e) by assumption.
            rewrite (HV _ _ eq_refl e), pset_other by assumption. reflexivity. }
      rewrite (addr_peq s _ _ Q0).
      assert (peq (pt_at dq cq (pset P d (b_lb b - (if 0 <=? sh then 0 else 1) + 1 * (y + 1))))
                  (pmove (if 0 <=? sh then pt_at dq cq (pset P d (b_lb b + 1 * y))
                   else pmove (pt_at dq cq (pset P d (b_lb b + 1 * y))) d (-1)) d 1)) as Q1.
      { intros e. rewrite <- (pmove_peq _ _ d 1 Q0 e). unfold pmove.
        rewrite (HV _ _ eq_refl e). destruct (Nat.eqb_spec e d) as [->|Hne].
        + rewrite !pset_same. rewrite (HV _ _ eq_refl d), pset_same. lia.
        + rewrite !(pset_other _ d _ e) by assumption.
          rewrite (HV _ _ eq_refl e), pset_other by assumption. reflexivity. }
      rewrite (addr_peq s _ _ Q1). split; [|reflexivity].
      destruct (load m _) as [x0|]; [|reflexivity]. cbn [bind].
      destruct (load m _) as [x1|]; reflexivity.
  Qed.

  (** *** Dot products *)

  Lemma nth_error_last_app {A} (l : list A) x n : length l = n -> nth_error (l ++ [x]) n = Some x.
  Proof. intros <-. rewrite nth_error_app2 by lia. rewrite Nat.sub_diag. reflexivity. Qed.

  Lemma nodup_app_notin {A} (l1 l2 : list A) x : NoDup (l1 ++ l2) -> In x l2 -> ~ In x l1.
  Proof.
    induction l1 as [|y l1 IH]; simpl; intros H Hx; [tauto|]. inversion H as [|? ? Hy Hr]; subst.
    intros [->|Hl].
    - apply Hy. apply in_or_app; auto.
    - exact (IH Hr Hx Hl).
  Qed.

  Lemma sstride_last hd w wb : ~ In w (map fst hd) -> sstride (hd ++ [(w, wb)]) w = 1.
  Proof.
    induction hd as [|[d b] hd IH]; simpl; intros H.
    - rewrite Nat.eqb_refl. reflexivity.
    - destruct (Nat.eqb_spec d w); [tauto|]. apply IH. tauto.
  Qed.

  Lemma offi_displaced (m : mem S) u (pt : point) pv strides o N i :
    NoDup (sp_order u) -> pv = addr u pt -> length strides = N ->
    (forall j, (j < N)%nat -> aget strides j = sstride (sp_b u) (nth j xyz 0%nat)) ->
    offi_deref (offi_move (make_offset_iterator pv strides o) (Z.of_nat i)) m =
    (q <- displaced m o N i pt ;; load m (addr u q)).
  Proof.
    intros Hnd -> HL Hst. unfold offi_deref, displaced.
    cbn [offi_move make_offset_iterator o_stride o_ptr o_idx o_first]. rewrite HL, Z.add_0_l.
    assert (forall l q acc, (forall j, In j l -> (j < N)%nat) ->
      padd (addr u pt) acc = addr u q ->
      (i0 <- forM l (fun j i0 =>
            oj <- loadi m (padd o (Z.of_nat i * Z.of_nat N + Z.of_nat j)) ;;
            Some (i0 + aget strides j * oj)) acc ;; load m (padd (addr u pt) i0)) =
      (q <- forM l (fun j q =>
            oj <- loadi m (padd o (Z.of_nat i * Z.of_nat N + Z.of_nat j)) ;;
            Some (pmove q (nth j xyz 0%nat) oj)) q ;; load m (addr u q))) as H.
    { induction l as [|j l IH]; intros q acc Hl Hq; cbn [forM].
      - cbn [bind]. rewrite Hq. reflexivity.
      - destruct (loadi m _) as [oj|]; [|reflexivity]. cbn [bind].
        apply IH; [intros; apply Hl; right; assumption|].
        unfold addr, padd in *. cbn [fst snd] in *.
        rewrite offset_of_pmove by exact Hnd.
        injection Hq as Hq. f_equal. rewrite Hst by (apply Hl; left; reflexivity). lia. }
    apply H.
    - intros j Hj. apply in_seq in Hj. lia.
    - unfold padd. cbn [fst snd]. rewrite Z.add_0_r. reflexivity.
  Qed.

  Lemma offi_addr_displaced I u (pt : point) pv strides o N i :
    NoDup (sp_order u) -> pv = addr u pt -> length strides = N ->
    (forall j, (j < N)%nat -> aget strides j = sstride (sp_b u) (nth j xyz 0%nat)) ->
    offi_addr (S := S) (offi_move (make_offset_iterator pv strides o) (Z.of_nat i)) I =
    (q <- displaced (mkMem (S := S) [] I) o N i pt ;; Some (addr u q)).
  Proof.
    intros Hnd -> HL Hst. unfold offi_addr, displaced.
    cbn [offi_move make_offset_iterator o_stride o_ptr o_idx o_first]. rewrite HL, Z.add_0_l.
    set (m := mkMem (S := S) [] I).
    assert (forall l q acc, (forall j, In j l -> (j < N)%nat) ->
      padd (addr u pt) acc = addr u q ->
      (i0 <- forM l (fun j i0 =>
            oj <- loadi m (padd o (Z.of_nat i * Z.of_nat N + Z.of_nat j)) ;;
            Some (i0 + aget strides j * oj)) acc ;; Some (padd (addr u pt) i0)) =
      (q <- forM l (fun j q =>
            oj <- loadi m (padd o (Z.of_nat i * Z.of_nat N + Z.of_nat j)) ;;
            Some (pmove q (nth j xyz 0%nat) oj)) q ;; Some (addr u q))) as H.
    { induction l as [|j l IH]; intros q acc Hl Hq; cbn [forM].
      - cbn [bind]. rewrite Hq. reflexivity.
      - destruct (loadi m _) as [oj|]; [|reflexivity]. cbn [bind].
        apply IH; [intros; apply Hl; right; assumption|].
        unfold addr, padd in *. cbn [fst snd] in *.
        rewrite offset_of_pmove by exact Hnd.
        injection Hq as Hq. f_equal. rewrite Hst by (apply Hl; left; reflexivity). lia. }
    apply H.
    - intros j Hj. apply in_seq in Hj. lia.
    - unfold padd. cbn [fst snd]. rewrite Z.add_0_r. reflexivity.
  Qed.

  Lemma dot_family st u o dom :
    wf_dom dom -> Forall (fun x => 1 <= x) (counts dom) ->
    wf_expr (EDot st u o : @expr S) dom -> delivers (EDot st u o) dom.
  Proof.
    intros Hd Hc (Hu & Hst & HPu & Hrev & Hone & hd & w & wb & Est & HPst).
    destruct (call_helper_family false st hd [(w, wb)] dom Hst Est Hd HPst Hc) as (b1 & E1 & H1).
    destruct (call_helper_family true u (sp_b u) [] dom Hu ltac:(rewrite app_nil_r; reflexivity) Hd HPu Hc)
      as (b2 & E2 & H2).
    cbn [length Nat.eqb negb orb lbs] in *.
    assert (length hd = length dom) as HLh.
    { apply Permutation_length in HPst. rewrite !map_length in HPst. congruence. }
    assert (length (sp_b u) = length dom) as HLu.
    { apply Permutation_length in HPu. unfold sp_order in HPu. rewrite !map_length in HPu. congruence. }
    assert (nth_error (sp_b st) (length dom) = Some (w, wb)) as Ew.
    { rewrite Est. apply nth_error_last_app. exact HLh. }
    assert (stride wb = 1) as Hwb.
    { destruct Hst as [_ Hf]. rewrite Est in Hf. apply Forall_app in Hf as [_ Hf].
      inversion Hf; assumption. }
    assert (b_size wb = Some (extent wb)) as Esz.
    { unfold b_size, cdiv, extent, b_ub, b_lb. rewrite Hwb. simpl. rewrite Z.quot_1_r. f_equal. lia. }
    set (s1 := strides_of (sp_b st) dom) in *. set (s2 := strides_of (sp_b u) dom) in *.
    set (n := counts dom) in *.
    set (N := length dom).
    set (strides := map (fun k => mti_stride_dim (mt_at b2 s2 n true 0) (N - 1 - k)) (seq 0 N)).
    pose proof (mat_family b1 s1 n true (counts_ne dom Hd) Hc) as F1.
    pose proof (mat_family b2 s2 n true (counts_ne dom Hd) Hc) as F2.
    exists (fun p => IDot strides o (extent wb) (IMat (mt_at b1 s1 n true p)) (IMat (mt_at b2 s2 n true p))).
    split; [|split].
    - cbn [eval]. rewrite E1, E2. cbn [bind]. rewrite Ew. cbn [bind snd]. rewrite Esz. reflexivity.
    - destruct F1 as [I1 D1 A1 X1], F2 as [I2 D2 A2 X2]. fold n.
      pose proof (counts_ne dom Hd : n <> []) as Hne.
      split; intros; cbn [it_inc it_dec it_adv it_dist].
      + rewrite !mti_inc_at by auto. reflexivity.
      + rewrite !mti_dec_at by auto. reflexivity.
      + rewrite !mti_adv_at by (auto; lia). reflexivity.
      + apply X1; assumption.
    - intros p m pt0 Hp. cbn [it_deref it_reads it_ptr]. unfold mti_deref. cbn [m_ptr mt_at bind].
      fold (mt_at b1 s1 n true p). fold (mt_at b2 s2 n true p).
      rewrite (H1 p pt0), (H2 p pt0) by exact Hp.
      cbn [denote reads]. cbv zeta. rewrite HLu, Ew.
      set (pt := pt_at dom (unrav n p) pt0).
      assert (~ In w (map fst hd)) as Hw.
      { destruct Hst as [Hnd _]. unfold sp_order in Hnd. rewrite Est, map_app in Hnd.
        apply (nodup_app_notin _ _ _ Hnd). left; reflexivity. }
      assert (~ In w (map fst dom)) as Hwd.
      { intros Hx. apply Hw. eapply Permutation_in; eassumption. }
      assert (forall i, padd (addr st (pt_at dom (unrav n p) (pset pt0 w (b_lb wb)))) (Z.of_nat i) =
              addr st (pset pt w (b_lb wb + Z.of_nat i))) as Hrow.
      { intros i. unfold addr, padd. cbn [fst snd]. f_equal.
        rewrite (offset_of_peq _ _ _ (pt_at_pset dom (unrav n p) pt0 w (b_lb wb) Hwd)). fold pt.
        rewrite !offset_of_pset by apply Hst.
        rewrite Est, sstride_last by exact Hw. lia. }
      assert (length strides = N /\
              forall j, (j < N)%nat -> aget strides j = sstride (sp_b u) (nth j xyz 0%nat)) as [HLs Hstr].
      2:{ split.
          - f_equal. unfold dot_loop. apply forM_ext_in. intros i res Hi. rewrite Hrow.
            apply bind_ext. intros sv _.
            rewrite (offi_displaced m u pt _ strides o N i (proj1 Hu) eq_refl HLs Hstr).
            rewrite bind_assoc. reflexivity.
          - apply flat_map_ext. intros i. rewrite Hrow. f_equal.
            rewrite (offi_addr_displaced (ints m) u pt _ strides o N i (proj1 Hu) eq_refl HLs Hstr).
            fold N. fold n. fold pt. destruct (displaced _ o N i pt); reflexivity. }
      split.
      + unfold strides. rewrite map_length, seq_length. reflexivity.
      + intros j Hj. unfold strides. rewrite aget_map_seq by exact Hj.
        unfold mti_stride_dim. cbn [mt_at m_stride]. simpl Nat.add.
        unfold s2, strides_of. rewrite aget_map with (d := (0%nat, mkBounds 0 0 1)) by (fold N; lia).
        assert (nth j xyz 0%nat = fst (nth (N - 1 - j) dom (0%nat, mkBounds 0 0 1))) as ->.
        { rewrite <- (map_nth fst). change (fst (0%nat, mkBounds 0 0 1)) with 0%nat.
          transitivity (nth j (rev (map fst dom)) 0%nat).
          - rewrite <- (firstn_skipn N xyz). unfold N at 1. rewrite <- Hrev.
            apply app_nth1. rewrite rev_length, map_length. exact Hj.
          - rewrite rev_nth by (rewrite map_length; exact Hj). rewrite map_length.
            f_equal. fold N. lia. }
        rewrite Forall_forall in Hone. rewrite (Hone (nth (N - 1 - j) dom (0%nat, mkBounds 0 0 1))).
        * lia.
        * apply nth_In. fold N. lia.
  Qed.

  (** *** Coarse-to-fine lines *)

  Lemma coarse_index_floor r fi : 1 <= r -> coarse_index r fi = Some (fi / r).
  Proof.
    intros Hr. unfold coarse_index, cdiv. destruct (Z.eqb_spec r 0); [lia|]. cbn [bind]. f_equal.
    unfold b2z. destruct (Z.ltb_spec fi 0).
    - replace (fi + 1) with (- (- fi - 1)) by lia. rewrite Z.quot_opp_l by lia.
      rewrite (Z.quot_div_nonneg (- fi - 1)) by lia.
      pose proof (Z.div_mod (- fi - 1) r ltac:(lia)). pose proof (Z.mod_pos_bound (- fi - 1) r ltac:(lia)).
      set (q := (- fi - 1) / r) in *.
      rewrite (Z.div_unique fi r (- q - 1) (r - 1 - (- fi - 1) mod r)); lia.
    - rewrite Z.quot_div_nonneg by lia. lia.
  Qed.

  Lemma offset_of_ext_in bs p q :
    (forall d, In d (map fst bs) -> p d = q d) -> offset_of bs p = offset_of bs q.
  Proof.
    induction bs as [|[d b] bs IH]; simpl; intros H; [reflexivity|].
    rewrite (H d) by auto. rewrite IH by auto. reflexivity.
  Qed.

  Lemma prodZ_ones l : Forall (fun y => y = 1) l -> prodZ l = 1.
  Proof. induction 1 as [|y l Hy _ IH]; [reflexivity|]. rewrite prodZ_cons, IH, Hy. reflexivity. Qed.

  Lemma unrav_line pre post x p :
    Forall (fun y => y = 1) pre -> Forall (fun y => y = 1) post -> 0 <= p < x ->
    aget (unrav (pre ++ x :: post) p) (length pre) = p.
  Proof.
    intros Hpre Hpost Hp.
    assert (Forall (fun y => 1 <= y) (pre ++ x :: post)) as Hn.
    { apply Forall_app; split; [|constructor; [lia|]];
        (eapply Forall_impl; [|eassumption]); intros; simpl in *; lia. }
    assert (prodZ (pre ++ x :: post) = x) as HP.
    { rewrite prodZ_app, prodZ_cons, !prodZ_ones by assumption. lia. }
    pose proof (unrav_in_range _ p Hn ltac:(lia)) as HR.
    pose proof (rav_unrav (pre ++ x :: post) p ltac:(destruct pre; discriminate) Hn) as HE.
    destruct (in_range_app_inv _ _ _ HR) as (cp & c2 & Ec & Hcp & Hc2).
    inversion Hc2 as [|? y ? cq Hy Hcq]; subst.
    pose proof (in_range_length _ _ Hcp) as HL. rewrite Ec in HE |- *.
    rewrite rav_app in HE by exact HL. change (rav (x :: post) (y :: cq)) with (y * prodZ post + rav post cq) in HE.
    pose proof (rav_bound _ _ Hcp) as B1. pose proof (rav_bound _ _ Hcq) as B2.
    rewrite prodZ_ones in B1 by exact Hpre. rewrite prodZ_ones in B2 by exact Hpost.
    rewrite (prodZ_ones post Hpost) in HE.
    unfold aget. rewrite app_nth2 by lia. rewrite HL, Nat.sub_diag. simpl.
    assert (rav pre cp = 0) as E0 by lia. rewrite E0 in HE. lia.
  Qed.

  Lemma coarse_to_fine_ok (s : span) r cb dom d b :
    wf_span s -> wf_dom dom -> 1 <= r -> NoDup (map fst cb) ->
    Permutation (map fst dom) (sp_order s) -> In (d, b) dom ->
    Permutation (map fst dom) (d :: map fst cb) ->
    coarse_to_fine s r cb dom =
    Some (mkC2f (padd (sp_ptr s) (offset_of (sp_b s) (coarse_point r cb (fun _ => b_lb b)))) r
                (sstride (sp_b s) d) (b_lb b) (b_lb b / r)).
  Proof.
    intros Hs Hd Hr Hcb HP Hin HPd.
    pose proof Hd as (_ & Hnd & Hwf).
    pose proof Hs as [Hnds Hus].
    assert (NoDup (d :: map fst cb)) as Hnd2 by (eapply Permutation_NoDup; eassumption).
    assert (~ In d (map fst cb)) as Hdcb by (inversion Hnd2; assumption).
    assert (length dom = Datatypes.S (length cb)) as HL1.
    { apply Permutation_length in HPd. simpl in HPd. rewrite !map_length in HPd. exact HPd. }
    assert (length (sp_b s) = length dom) as HL2.
    { apply Permutation_length in HP. unfold sp_order in HP. rewrite !map_length in HP. congruence. }
    assert (In d (map fst dom)) as Hdd by (apply (in_map fst) in Hin; exact Hin).
    assert (nth_error dom (map_index (map fst dom) d) = Some (d, b)) as Edb.
    { destruct (In_nth_error _ _ Hin) as [j Hj]. rewrite (map_index_nth _ d j); auto.
      rewrite nth_error_map, Hj. reflexivity. }
    (* the missing direction *)
    assert (missing_index (map fst dom) (map fst cb) = Some d) as EM.
    { unfold missing_index.
      assert (forall f, In f (map fst dom) ->
                negb (existsb (Nat.eqb f) (map fst cb)) = Nat.eqb f d) as HF.
      { intros f Hf. eapply Permutation_in in Hf; [|exact HPd].
        destruct (Nat.eqb_spec f d) as [->|Hne].
        - apply negb_true_iff. apply not_true_is_false. intros Hx. apply existsb_exists in Hx as (y & Hy & Ey).
          apply Nat.eqb_eq in Ey. subst y. contradiction.
        - destruct Hf as [Hf|Hf]; [congruence|]. apply negb_false_iff. apply existsb_exists.
          exists f. split; [exact Hf|apply Nat.eqb_refl]. }
      rewrite (filter_ext_in _ (fun f => Nat.eqb f d)) by exact HF.
      clear - Hdd. induction (map fst dom) as [|y l IH]; simpl in *; [tauto|].
      destruct (Nat.eqb_spec y d) as [->|]; [reflexivity|]. destruct Hdd; [congruence|auto]. }
    set (bs := sp_b s) in *.
    set (P0 := coarse_point r cb (fun _ => b_lb b)).
    assert (In d (map fst bs)) as Hdbs.
    { eapply Permutation_in; [exact HP|]. exact Hdd. }
    set (jd := map_index (map fst bs) d).
    assert (jd < length bs)%nat as Hjd.
    { unfold jd. rewrite <- (map_length fst). apply map_index_in. exact Hdbs. }
    set (base := padd (sp_ptr s) (offset_of bs P0)).
    change (coarse_to_fine s r cb dom = Some (mkC2f base r (sstride bs d) (b_lb b) (b_lb b / r))).
    unfold coarse_to_fine. fold bs.
      destruct (Nat.eqb_spec (length cb + 1) (length dom)); [|lia]. cbn [negb].
      destruct (Nat.ltb_spec (length bs) (length cb)); [lia|].
      rewrite EM. cbn [bind]. rewrite Edb. cbn [bind snd].
      assert (mapM (fun d0 => c <- nth_error cb (map_index (map fst cb) d0) ;; Some (b_lb (snd c))) (map fst cb)
              = Some (map (fun c => b_lb (snd c)) cb)) as ->.
      { rewrite (mapM_map _ (fun d0 => dlook b_lb cb d0)).
        - f_equal. rewrite map_map. apply map_ext_in. intros [d0 b0] H0. simpl. unfold dlook.
          rewrite find_map_index. destruct (In_nth_error _ _ H0) as [j Hj].
          rewrite (map_index_nth _ d0 j); [rewrite Hj; reflexivity|exact Hcb|].
          rewrite nth_error_map, Hj. reflexivity.
        - intros d0 Hd0. destruct (nth_error_In_fst _ _ Hd0) as [b0 Hb0].
          unfold dlook. rewrite find_map_index, Hb0. reflexivity. }
      cbn [bind].
      rewrite (dlook_stage b_lb cb (sp_order s) (length bs)).
      2:{ unfold sp_order. rewrite map_length. reflexivity. } 2:{ lia. } 2:{ intros; right; lia. }
      cbn [bind]. change (sp_order s) with (map fst bs). fold jd.
      destruct (Nat.ltb_spec jd (length bs)); [|lia]. cbn [negb].
      rewrite coarse_index_floor by exact Hr. cbn [bind].
      rewrite (span_sizes_wf s Hs). cbn [bind]. fold bs.
      unfold make_coarse_to_fine, c2f_make. rewrite coarse_index_floor by exact Hr. cbn [bind].
      f_equal. f_equal.
      - unfold base, padd. f_equal. f_equal.
        set (lb0 := aset (map (dlook b_lb cb) (map fst bs)) jd (b_lb b / r)).
        destruct (fold_aset_range (fun i x => x - b_lb (snd (nth i bs (0%nat, mkBounds 0 0 1)))) 0 (length bs) lb0)
          as [L1 G1].
        assert (length lb0 = length bs) as L0 by (unfold lb0; rewrite aset_length, !map_length; reflexivity).
        set (lb1 := fold_left _ _ _) in *.
        assert (lb1 = map (fun b => P0 (fst b) - b_lb (snd b)) bs) as ->.
        { apply aget_ext; [rewrite map_length; lia|]. intros i Hi. rewrite L1, L0 in Hi.
          rewrite G1 by lia. rewrite aget_map with (d := (0%nat, mkBounds 0 0 1)) by lia.
          destruct (Nat.ltb_spec i (0 + length bs)); [|lia]. cbn [Nat.leb andb]. f_equal.
          unfold lb0. rewrite aget_aset, !map_length.
          set (di := fst (nth i bs (0%nat, mkBounds 0 0 1))).
          assert (nth_error (map fst bs) i = Some di) as Edi.
          { rewrite nth_error_map. rewrite (nth_error_nth' bs (0%nat, mkBounds 0 0 1)) by lia. reflexivity. }
          destruct (Nat.eqb_spec jd i) as [Hji|Hji].
          - destruct (Nat.ltb_spec jd (length bs)); [|lia]. cbn [andb].
            assert (di = d) as ->.
            { pose proof (proj2 (map_index_in _ _ Hdbs)) as Hx. fold jd in Hx. rewrite Hji in Hx. congruence. }
            unfold P0, coarse_point. rewrite find_map_index, map_index_notin by exact Hdcb.
            rewrite map_length. rewrite (proj2 (nth_error_None cb (length cb))) by lia. reflexivity.
          - cbn [andb]. rewrite aget_map with (d := 0%nat) by (rewrite map_length; lia).
            change 0%nat with (fst (0%nat, mkBounds 0 0 1)). rewrite map_nth. fold di.
            assert (In di (map fst cb)) as Hdi.
            { assert (In di (map fst bs)) as Hx by (eapply nth_error_In; exact Edi).
              eapply Permutation_in in Hx; [|symmetry; exact HP].
              eapply Permutation_in in Hx; [|exact HPd].
              destruct Hx as [Hx|Hx]; [|exact Hx]. exfalso. apply Hji.
              unfold jd. rewrite Hx. apply map_index_nth; [exact Hnds|exact Edi]. }
            destruct (nth_error_In_fst _ _ Hdi) as [b0 Hb0].
            unfold P0, coarse_point, dlook. rewrite find_map_index, Hb0. reflexivity. }
        destruct bs as [|b0 bs'] eqn:Eb; [simpl in Hjd; lia|]. rewrite <- Eb in *.
        rewrite ravel_rav; [apply rav_offset_of|rewrite Eb; discriminate|rewrite !map_length; reflexivity].
      - rewrite stride_dim_skipn by lia. rewrite sstride_skipn by exact Hdbs.
        f_equal. f_equal. fold jd. lia.
  Qed.

  Lemma fine_family (s : span) r cb dom :
    wf_dom dom -> Forall (fun x => 1 <= x) (counts dom) ->
    wf_expr (EFine s r cb : @expr S) dom -> delivers (EFine s r cb) dom.
  Proof.
    intros Hd Hc (Hs & Hr & Hcb & HP & d & b & Hin & Hb1 & HPd & Hline).
    pose proof Hd as (_ & Hnd & Hwf).
    pose proof Hs as [Hnds Hus].
    assert (NoDup (d :: map fst cb)) as Hnd2 by (eapply Permutation_NoDup; eassumption).
    assert (~ In d (map fst cb)) as Hdcb by (inversion Hnd2; assumption).
    assert (length dom = Datatypes.S (length cb)) as HL1.
    { apply Permutation_length in HPd. simpl in HPd. rewrite !map_length in HPd. exact HPd. }
    assert (length (sp_b s) = length dom) as HL2.
    { apply Permutation_length in HP. unfold sp_order in HP. rewrite !map_length in HP. congruence. }
    assert (In d (map fst dom)) as Hdd by (apply (in_map fst) in Hin; exact Hin).
    assert (nth_error dom (map_index (map fst dom) d) = Some (d, b)) as Edb.
    { destruct (In_nth_error _ _ Hin) as [j Hj]. rewrite (map_index_nth _ d j); auto.
      rewrite nth_error_map, Hj. reflexivity. }
    (* the missing direction *)
    assert (missing_index (map fst dom) (map fst cb) = Some d) as EM.
    { unfold missing_index.
      assert (forall f, In f (map fst dom) ->
                negb (existsb (Nat.eqb f) (map fst cb)) = Nat.eqb f d) as HF.
      { intros f Hf. eapply Permutation_in in Hf; [|exact HPd].
        destruct (Nat.eqb_spec f d) as [->|Hne].
        - apply negb_true_iff. apply not_true_is_false. intros Hx. apply existsb_exists in Hx as (y & Hy & Ey).
          apply Nat.eqb_eq in Ey. subst y. contradiction.
        - destruct Hf as [Hf|Hf]; [congruence|]. apply negb_false_iff. apply existsb_exists.
          exists f. split; [exact Hf|apply Nat.eqb_refl]. }
      rewrite (filter_ext_in _ (fun f => Nat.eqb f d)) by exact HF.
      clear - Hdd. induction (map fst dom) as [|y l IH]; simpl in *; [tauto|].
      destruct (Nat.eqb_spec y d) as [->|]; [reflexivity|]. destruct Hdd; [congruence|auto]. }
    set (bs := sp_b s) in *.
    set (P0 := coarse_point r cb (fun _ => b_lb b)).
    assert (In d (map fst bs)) as Hdbs.
    { eapply Permutation_in; [exact HP|]. exact Hdd. }
    set (jd := map_index (map fst bs) d).
    assert (jd < length bs)%nat as Hjd.
    { unfold jd. rewrite <- (map_length fst). apply map_index_in. exact Hdbs. }
    set (base := padd (sp_ptr s) (offset_of bs P0)).
    pose proof (coarse_to_fine_ok s r cb dom d b Hs Hd Hr Hcb HP Hin HPd) as EC2.
    fold bs P0 base in EC2.
    (* positions are indices along the line *)
    assert (prodZ (counts dom) = count b /\ forall p, 0 <= p < count b ->
              forall pt0, pt_at dom (unrav (counts dom) p) pt0 d = b_lb b + p) as [EP HPT].
    { destruct (in_split _ _ Hin) as (dp & dq & Edom).
      assert (forall l, incl l dom -> ~ In d (map fst l) -> Forall (fun y => y = 1) (counts l)) as H1.
      { intros l Hl Hdl. unfold counts. apply Forall_map. apply Forall_forall. intros [d0 b0] H0. cbn [snd].
        rewrite Forall_forall in Hline, Hwf. specialize (Hline _ (Hl _ H0)). specialize (Hwf _ (Hl _ H0)).
        cbn [fst snd] in *. destruct Hline as [->|Hx].
        - exfalso. apply Hdl. apply (in_map fst) in H0. exact H0.
        - unfold count. rewrite Hx, Z.sub_diag, Z.add_0_l. apply Z.div_same. lia. }
      assert (~ In d (map fst dp) /\ ~ In d (map fst dq)) as [Hdp Hdq].
      { rewrite Edom, map_app in Hnd. apply NoDup_remove_2 in Hnd. rewrite in_app_iff in Hnd. tauto. }
      assert (incl dp dom /\ incl dq dom) as [I1 I2].
      { rewrite Edom. split; intros y Hy; apply in_or_app; [left|right; right]; exact Hy. }
      pose proof (H1 dp I1 Hdp) as O1. pose proof (H1 dq I2 Hdq) as O2.
      assert (counts dom = counts dp ++ count b :: counts dq) as EC by (rewrite Edom; unfold counts; rewrite map_app; reflexivity).
      split.
      - rewrite EC, prodZ_app, prodZ_cons, !prodZ_ones by assumption. lia.
      - intros p Hp pt0.
        rewrite (pt_at_in dom _ pt0 (length dp) d b).
        + rewrite EC. rewrite <- (counts_length dp). rewrite unrav_line by assumption. rewrite Hb1. lia.
        + exact Hnd.
        + rewrite unrav_length. apply counts_length.
        + rewrite Edom. rewrite nth_error_app2 by lia. rewrite Nat.sub_diag. reflexivity. }
    exists (fun p => ICoarse (mkC2f base r (sstride bs d) (b_lb b + p) (b_lb b / r))).
    split; [|split].
    - cbn [eval]. rewrite EC2. cbn [bind]. rewrite Z.add_0_r. reflexivity.
    - split; intros; cbn [it_inc it_dec it_adv it_dist]; unfold c2f_inc, c2f_dec, c2f_adv, c2f_move, c2f_dist;
        cbn [c_first c_r c_s c_fi c_ci].
      + rewrite Z.add_assoc. reflexivity.
      + f_equal. f_equal. f_equal. lia.
      + rewrite Z.add_assoc. reflexivity.
      + f_equal. lia.
    - intros p m pt0 Hp. cbn [it_deref denote it_reads reads]. unfold c2f_addr. cbn [c_first c_r c_s c_fi c_ci].
      rewrite coarse_index_floor by exact Hr. cbn [bind].
      assert (padd base (((b_lb b + p) / r - b_lb b / r) * sstride bs d) =
              addr s (coarse_point r cb (pt_at dom (unrav (counts dom) p) pt0))) as ->; [|split; reflexivity].
      unfold base, addr, padd. cbn [fst snd]. f_equal. fold bs.
      rewrite (offset_of_ext_in bs (coarse_point r cb _) (pset P0 d ((b_lb b + p) / r))).
      + rewrite offset_of_pset by exact Hnds.
        assert (P0 d = b_lb b / r) as ->; [|lia].
        unfold P0, coarse_point. rewrite find_map_index, map_index_notin by exact Hdcb.
        rewrite map_length. rewrite (proj2 (nth_error_None cb (length cb))) by lia. reflexivity.
      + intros d' Hd'. unfold pset. destruct (Nat.eqb_spec d' d) as [->|Hne].
        * unfold coarse_point. rewrite find_map_index, map_index_notin by exact Hdcb.
          rewrite map_length. rewrite (proj2 (nth_error_None cb (length cb))) by lia.
          rewrite HPT by lia. reflexivity.
        * assert (In d' (map fst cb)) as Hc'.
          { eapply Permutation_in in Hd'; [|symmetry; exact HP].
            eapply Permutation_in in Hd'; [|exact HPd]. destruct Hd'; [congruence|assumption]. }
          destruct (nth_error_In_fst _ _ Hc') as [b0 Hb0].
          unfold P0, coarse_point. rewrite find_map_index, Hb0. reflexivity.
  Qed.

  (** *** All expressions *)
  Theorem eval_family (e : @expr S) dom :
    wf_dom dom -> Forall (fun x => 1 <= x) (counts dom) -> wf_expr e dom -> delivers e dom.
  Proof.
    revert dom; induction e as [s|o t e IH|o e IH t|o e1 IH1 e2 IH2|sh s d|d z e IH|st u o|s r cb];
      intros dom Hd Hc Hw.
    - destruct Hw. apply span_family; assumption.
    - destruct (IH dom Hd Hc Hw) as (F & E & [I D A X] & HF).
      exists (fun p => IRight o t (F p)). split; [|split].
      + cbn [eval]. rewrite E. reflexivity.
      + split; intros; cbn [it_inc it_dec it_adv it_dist]; rewrite ?I, ?D, ?A by assumption; auto.
      + intros p m pt0 Hp. cbn [it_deref denote it_reads reads].
        rewrite (proj1 (HF p m pt0 Hp)), (proj2 (HF p m pt0 Hp)). split; reflexivity.
    - destruct (IH dom Hd Hc Hw) as (F & E & [I D A X] & HF).
      exists (fun p => ILeft o (F p) t). split; [|split].
      + cbn [eval]. rewrite E. reflexivity.
      + split; intros; cbn [it_inc it_dec it_adv it_dist]; rewrite ?I, ?D, ?A by assumption; auto.
      + intros p m pt0 Hp. cbn [it_deref denote it_reads reads].
        rewrite (proj1 (HF p m pt0 Hp)), (proj2 (HF p m pt0 Hp)). split; reflexivity.
    - destruct Hw as [Hw1 Hw2].
      destruct (IH1 dom Hd Hc Hw1) as (F & E & [I D A X] & HF).
      destruct (IH2 dom Hd Hc Hw2) as (G & E' & [I' D' A' X'] & HG).
      exists (fun p => IZipOp o (F p) (G p)). split; [|split].
      + cbn [eval]. rewrite E, E'. reflexivity.
      + split; intros; cbn [it_inc it_dec it_adv it_dist];
          rewrite ?I, ?D, ?A, ?I', ?D', ?A' by assumption; auto.
      + intros p m pt0 Hp. cbn [it_deref denote it_reads reads].
        rewrite (proj1 (HF p m pt0 Hp)), (proj1 (HG p m pt0 Hp)), (proj2 (HF p m pt0 Hp)), (proj2 (HG p m pt0 Hp)).
        split; reflexivity.
    - apply stencil_family; assumption.
    - destruct (IH (shift_dom d z dom) (shift_dom_wf d z dom Hd)) as (F & E & FF & HF).
      + rewrite shift_dom_counts. exact Hc.
      + exact Hw.
      + rewrite shift_dom_counts in FF, HF.
        exists F. split; [exact E|]. split; [exact FF|].
        intros p m pt0 Hp. rewrite (proj1 (HF p m (pmove pt0 d z) Hp)), (proj2 (HF p m (pmove pt0 d z) Hp)).
        cbn [denote reads]. split; [apply denote_peq|apply reads_peq]; apply pt_at_shift.
    - apply dot_family; assumption.
    - apply fine_family; assumption.
  Qed.
End Fam.
