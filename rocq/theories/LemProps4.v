(** * Lemmas behind the shift, assignment, scheduling, offset and addressing
      properties *)

From Coq Require Import ZifyBool ZifyNat Permutation.
From Verif Require Import Base ModelBounds ModelMatrix ModelIters ModelSpan Spec SpecIter ModelSched SpecAssign
  ModelVector LemVector LemBase LemMatrix LemFsi LemDomain LemExpr LemExec LemSched LemAssign LemProps LemProps2.
Import ListNotations.
Open Scope Z_scope.

(** ** Shifts *)

Lemma shift_dom_add d a b dom : shift_dom d b (shift_dom d a dom) = shift_dom d (a + b) dom.
Proof.
  unfold shift_dom. rewrite map_map. apply map_ext. intros [d' [f l s]]. unfold d_shift, b_shift; simpl.
  destruct (Nat.eqb d d'); do 2 f_equal; lia.
Qed.

Lemma shift_dom_comm d d' a b dom : shift_dom d' b (shift_dom d a dom) = shift_dom d a (shift_dom d' b dom).
Proof.
  unfold shift_dom. rewrite !map_map. apply map_ext. intros [e [f l s]]. unfold d_shift, b_shift; simpl.
  destruct (Nat.eqb d e), (Nat.eqb d' e); do 2 f_equal; lia.
Qed.

Lemma shift_dom_0 d dom : shift_dom d 0 dom = dom.
Proof.
  unfold shift_dom. rewrite <- (map_id dom) at 2. apply map_ext. intros [e [f l s]]. unfold d_shift, b_shift; simpl.
  destruct (Nat.eqb d e); rewrite !Z.add_0_r; reflexivity.
Qed.

Section Props.
  Context {S : Scalar}.
  Notation expr := (@expr S).
  Notation assign := (@assign S).

  Lemma shift_add d a b (e : expr) dom : eval (EShift d a (EShift d b e)) dom = eval (EShift d (a + b) e) dom.
  Proof. cbn [eval]. rewrite shift_dom_add. reflexivity. Qed.

  Lemma shift_comm d d' a b (e : expr) dom :
    eval (EShift d a (EShift d' b e)) dom = eval (EShift d' b (EShift d a e)) dom.
  Proof. cbn [eval]. rewrite shift_dom_comm. reflexivity. Qed.

  Lemma shift_zero d (e : expr) dom : eval (EShift d 0 e) dom = eval e dom.
  Proof. cbn [eval]. rewrite shift_dom_0. reflexivity. Qed.

  (** ** Threads of the launched iterators *)

  Lemma offi_addr_deref o (m : mem S) :
    offi_deref o m = (p <- offi_addr (S := S) o (ints m) ;; load m p).
  Proof. unfold offi_deref, offi_addr. rewrite bind_assoc. reflexivity. Qed.

  Lemma app_op_noptr o u v (w : @val S) p : app_op o u v = Some w -> w <> VPtr p.
  Proof. destruct o, u, v; simpl; intros E; congruence. Qed.

  Lemma it_ptr_deref (it : @iter S) (m : mem S) :
    match it_ptr it with
    | Some p => it_deref it m = Some (VPtr p)
    | None => forall p, it_deref it m <> Some (VPtr p)
    end.
  Proof.
    destruct it as [k|f|c|o t i|o i t|o i j|st o n i j|x]; cbn [it_ptr it_deref].
    - unfold mti_deref. destruct (m_ptr k); [reflexivity|]. intros p.
      destruct (load m _); simpl; congruence.
    - intros p H. apply bind_Some_inv in H as (pr & _ & H). apply bind_Some_inv in H as (a & _ & H).
      apply bind_Some_inv in H as (b & _ & H). destruct a, b; congruence.
    - intros p H. apply bind_Some_inv in H as (q & _ & H). apply bind_Some_inv in H as (x & _ & H). congruence.
    - intros p H. apply bind_Some_inv in H as (u & _ & H). eapply app_op_noptr; eauto.
    - intros p H. apply bind_Some_inv in H as (u & _ & H). eapply app_op_noptr; eauto.
    - intros p H. apply bind_Some_inv in H as (u & _ & H). apply bind_Some_inv in H as (v & _ & H).
      eapply app_op_noptr; eauto.
    - intros p H. apply bind_Some_inv in H as (u & _ & H). apply bind_Some_inv in H as (v & _ & H).
      destruct u, v; try discriminate. apply bind_Some_inv in H as (r & _ & H). congruence.
    - congruence.
  Qed.

  Lemma it_rd_deref (it : @iter S) I k (m : mem S) : ints m = I ->
    run_alone (it_rd it I k) m = (v <- it_deref it m ;; run_alone (k v) m).
  Proof.
    intros HI. revert k; induction it as [q|f|c|o t i IH|o i IH t|o i IHi j IHj|st o n i _ j _|x];
      intros k; cbn [it_rd it_deref].
    - unfold mti_deref. destruct (m_ptr q); [reflexivity|]. cbn [run_alone]. destruct (load m _); reflexivity.
    - destruct (fsi_pair mti_ops f) as [[a b]|]; [|reflexivity]. cbn [bind fst snd]. unfold mti_deref.
      destruct (m_ptr a), (m_ptr b); cbn [orb bind run_alone]; try reflexivity.
      + destruct (load m _); reflexivity.
      + destruct (load m _); reflexivity.
      + destruct (load m _); [|reflexivity]. cbn [bind run_alone]. destruct (load m _); reflexivity.
    - destruct (c2f_addr c); [|reflexivity]. cbn [run_alone bind]. destruct (load m _); reflexivity.
    - rewrite IH, bind_assoc. apply bind_ext. intros v _. destruct (app_op _ _ _); reflexivity.
    - rewrite IH, bind_assoc. apply bind_ext. intros v _. destruct (app_op _ _ _); reflexivity.
    - rewrite IHi, bind_assoc. apply bind_ext. intros v _. rewrite IHj, bind_assoc.
      apply bind_ext. intros w _. destruct (app_op _ _ _); reflexivity.
    - pose proof (it_ptr_deref i m) as Hi. pose proof (it_ptr_deref j m) as Hj.
      destruct (it_ptr i) as [ps|].
      + rewrite Hi. cbn [bind]. destruct (it_ptr j) as [pv|].
        * rewrite Hj. cbn [bind]. rewrite rd_dot_denote, bind_assoc. unfold dot_loop.
          match goal with |- bind ?x _ = bind ?y _ => assert (x = y) as -> end.
          { apply forM_ext_in. intros a res _. apply bind_ext. intros s _.
            rewrite offi_addr_deref, HI, bind_assoc. reflexivity. }
          apply bind_ext. intros; reflexivity.
        * destruct (it_deref j m) as [v|]; [|reflexivity]. cbn [bind]. destruct v; try reflexivity.
          exfalso. eapply Hj; reflexivity.
      + destruct (it_deref i m) as [u|]; [|reflexivity]. cbn [bind].
        destruct (it_deref j m) as [v|]; [|reflexivity]. cbn [bind]. destruct u; try reflexivity.
        exfalso. eapply Hi; reflexivity.
    - reflexivity.
  Qed.

  Lemma it_rd_within (it : @iter S) I k (R W : ptr -> Prop) :
    (forall p, In p (it_reads it I) -> R p) -> (forall v, within R W (k v)) -> within R W (it_rd it I k).
  Proof.
    revert k; induction it as [q|f|c|o t i IH|o i IH t|o i IHi j IHj|st o n i _ j _|x];
      intros k HR Hk; cbn [it_rd it_reads] in *.
    - destruct (m_ptr q); [apply Hk|]. cbn [within]. split; [apply HR; left; reflexivity|auto].
    - destruct (fsi_pair mti_ops f) as [[a b]|]; [|exact Logic.I].
      destruct (m_ptr a || m_ptr b)%bool; [exact Logic.I|]. cbn [within].
      split; [apply HR; left; reflexivity|]. intros y. split; [apply HR; right; left; reflexivity|auto].
    - destruct (c2f_addr c); [|exact Logic.I]. cbn [within]. split; [apply HR; left; reflexivity|auto].
    - apply IH; [exact HR|]. intros v. destruct (app_op _ _ _); [apply Hk|exact Logic.I].
    - apply IH; [exact HR|]. intros v. destruct (app_op _ _ _); [apply Hk|exact Logic.I].
    - apply IHi; [intros; apply HR; apply in_or_app; auto|]. intros u.
      apply IHj; [intros; apply HR; apply in_or_app; auto|]. intros v.
      destruct (app_op _ _ _); [apply Hk|exact Logic.I].
    - destruct (it_ptr i) as [ps|]; [|exact Logic.I]. destruct (it_ptr j) as [pv|]; [|exact Logic.I].
      apply rd_dot_within; [|intros; apply Hk]. intros a Ha. split.
      + apply HR. apply in_flat_map. exists a. split; [exact Ha|left; reflexivity].
      + intros q Hq. apply HR. apply in_flat_map. exists a. split; [exact Ha|]. right. rewrite Hq. left; reflexivity.
    - apply Hk.
  Qed.

  (** The thread works for the point. *)
  Definition works (a : assign) (I : list (list Z)) (t : tprog) (pt : point) : Prop :=
    within (fun p => In p (assign_reads a pt I)) (fun p => p = addr (lhs_of a) pt) t /\
    forall m : mem S, ints m = I -> run_alone t m = assign_point a pt m.

  Lemma mapM_Forall2 {A B C} (f : A -> option B) (g : A -> C) (P : B -> C -> Prop) l :
    (forall x, In x l -> exists y, f x = Some y /\ P y (g x)) ->
    exists r, mapM f l = Some r /\ Forall2 P r (map g l).
  Proof.
    induction l as [|x l IH]; intros H; simpl; [eauto|].
    destruct (H x (or_introl eq_refl)) as (y & -> & Hy). cbn [bind].
    destruct IH as (r & -> & Hr); [intros; apply H; right; assumption|]. cbn [bind]. eauto.
  Qed.

  Lemma launch_works dom (a : assign) I : wf_dom dom -> wf_assign dom a ->
    exists ts, launch dom a I = Some ts /\ Forall2 (works a I) ts (domain_points dom origin).
  Proof.
    intros Hd Ha.
    destruct (Z.le_gt_cases (prodZ (counts dom)) 0) as [H0|H0].
    - rewrite empty_points by assumption. unfold launch. destruct Ha as (Hs & HP & He).
      rewrite (call_helper_ok false (lhs_of a) (sp_b (lhs_of a)) [] dom origin Hs
                ltac:(rewrite app_nil_r; reflexivity) Hd HP). cbn [bind].
      unfold mti_size. cbn [m_n]. rewrite stride_dim_m1.
      replace (Z.to_nat (prodZ (counts dom))) with 0%nat by lia. simpl. eauto.
    - destruct (assign_parts dom a Hd Ha H0) as (base & st & E & HA & Hne & Hc & He).
      unfold launch. rewrite E. cbn [bind]. rewrite mti_size_at.
      rewrite domain_points_seqZ by (apply wf_counts; exact Hd). unfold seqZ. rewrite map_map.
      apply mapM_Forall2. intros k Hk. apply in_seq in Hk. unfold elem_thread. rewrite E. cbn [bind].
      rewrite mti_adv_at by (auto; lia). cbn [bind m_ptr mt_at]. rewrite Z.add_0_l.
      fold (mt_at base st (counts dom) false (Z.of_nat k)).
      rewrite (HA (Z.of_nat k) origin) by lia.
      destruct a as [s e|s t]; cbn [lhs_of] in *.
      + destruct He as (F & Ee & HF & HD). rewrite Ee. cbn [bind].
        rewrite (fam_adv _ _ HF) by lia. cbn [bind]. rewrite Z.add_0_l. eexists; split; [reflexivity|].
        split.
        * apply it_rd_within.
          -- intros p Hp. cbn [assign_reads].
             change I with (ints (mkMem (S := S) [] I)) in Hp.
             rewrite (proj2 (HD (Z.of_nat k) (mkMem [] I) origin ltac:(lia))) in Hp. exact Hp.
          -- intros v. destruct v; cbn [within]; auto.
        * intros m HI. rewrite it_rd_deref by exact HI.
          rewrite (proj1 (HD (Z.of_nat k) m origin ltac:(lia))). cbn [assign_point].
          apply bind_ext. intros v _. destruct v; try reflexivity. cbn [run_alone].
          destruct (store m _ _); reflexivity.
      + eexists; split; [reflexivity|]. split.
        * cbn [within lhs_of]; auto.
        * intros m HI. cbn [run_alone assign_point]. destruct (store m _ _); reflexivity.
  Qed.

  Lemma assign_point_ints (a : assign) pt (m m' : mem S) : assign_point a pt m = Some m' -> ints m' = ints m.
  Proof.
    rewrite assign_point_rhs. intros E. apply bind_Some_inv in E as (x & _ & E). apply (store_ints _ _ _ _ E).
  Qed.

  Lemma works_forM (a : assign) I ts pts (m : mem S) : Forall2 (works a I) ts pts -> ints m = I ->
    forM ts run_alone m = forM pts (assign_point a) m.
  Proof.
    intros H. revert m; induction H as [|t pt ts pts [_ Hw] Hr IH]; intros m HI; [reflexivity|].
    cbn [forM]. rewrite Hw by exact HI. destruct (assign_point a pt m) as [m1|] eqn:E; [|reflexivity].
    cbn [bind]. apply IH. rewrite (assign_point_ints _ _ _ _ E). exact HI.
  Qed.

  (** ** Assignments *)

  Lemma assignable_nodup dom (a : assign) : assignable dom a ->
    NoDup (map (addr (lhs_of a)) (domain_points dom origin)) /\
    forall q, In q (domain_points dom origin) -> in_bounds (sp_b (lhs_of a)) q.
  Proof.
    intros (Hd & (Hs & HP & _) & Hw).
    assert (forall q, In q (domain_points dom origin) -> in_bounds (sp_b (lhs_of a)) q) as HB.
    { intros q Hq. eapply dom_within_points; try eassumption. apply Hs. }
    split; [|exact HB]. apply domain_addr_nodup; assumption.
  Qed.

  Lemma with_domain_points dom (a : assign) (m : mem S) : wf_dom dom -> wf_assign dom a ->
    with_domain dom [a] m = forM (domain_points dom origin) (assign_point a) m.
  Proof.
    intros Hd Ha. unfold with_domain. cbn [forM]. rewrite exec_assign_spec by assumption.
    assert (assign_spec dom a m = forM (domain_points dom origin) (assign_point a) m) as ->.
    { unfold assign_spec. apply forM_ext_in. intros pt m' _. destruct a; reflexivity. }
    destruct (forM _ _ _); reflexivity.
  Qed.

  Lemma allocated_load (m : mem S) s pt : allocated m s -> in_bounds (sp_b s) pt ->
    exists v, load m (addr s pt) = Some v.
  Proof.
    intros (a & Ea & H0 & Hl) Hb. apply offset_of_range in Hb. unfold load, addr, padd; cbn [fst snd].
    rewrite Ea. cbn [bind]. apply nthZ_Some. lia.
  Qed.

  Theorem assign_effect dom (a : assign) (m : mem S) :
    assignable dom a -> independent dom a (ints m) ->
    (forall m', with_domain dom [a] m = Some m' ->
       assigned dom (lhs_of a) (fun pt => rhs_at a pt m) m m' /\ shape m' = shape m) /\
    (allocated m (lhs_of a) ->
     (forall pt, In pt (domain_points dom origin) -> rhs_at a pt m <> None) ->
     exists m', with_domain dom [a] m = Some m').
  Proof.
    intros HA HI. destruct (assignable_nodup dom a HA) as [Hnd HB]. destruct HA as (Hd & Ha & Hw).
    split.
    - intros m' E. rewrite with_domain_points in E by assumption.
      destruct (assign_points_value a _ m Hnd HI m' E) as (H1 & H2 & H3 & H4).
      split; [|exact H1]. split; [exact H3|]. split; [|exact H2].
      intros p Hp. apply H4. intros Hx. apply in_map_iff in Hx as (q & <- & Hq). exact (Hp q Hq eq_refl).
    - intros Hal Hdef. rewrite with_domain_points by assumption.
      apply assign_points_defined; try assumption. intros pt Hpt. split; [apply Hdef; exact Hpt|].
      destruct (allocated_load m _ pt Hal (HB pt Hpt)) as [v ->]. discriminate.
  Qed.

  Theorem launch_schedule dom (a : assign) (m : mem S) :
    assignable dom a -> independent dom a (ints m) ->
    exists ts, launch dom a (ints m) = Some ts /\
      length ts = length (domain_points dom origin) /\
      (forall sch ts' m', run_schedule sch (ts, m) = Some (ts', m') -> all_done ts' ->
         with_domain dom [a] m = Some m') /\
      (forall sch, with_domain dom [a] m <> None -> run_schedule sch (ts, m) <> None) /\
      (forall m', with_domain dom [a] m = Some m' ->
         exists sch ts', run_schedule sch (ts, m) = Some (ts', m') /\ all_done ts').
  Proof.
    intros HA HI. destruct (assignable_nodup dom a HA) as [Hnd HB]. destruct HA as (Hd & Ha & Hw).
    destruct (launch_works dom a (ints m) Hd Ha) as (ts & El & HF). exists ts. split; [exact El|].
    assert (length ts = length (domain_points dom origin)) as HL by (clear -HF; induction HF; simpl; congruence).
    split; [exact HL|].
    rewrite with_domain_points by assumption.
    rewrite <- (works_forM a (ints m) ts _ m HF eq_refl).
    set (pts := domain_points dom origin) in *.
    set (R := fun (i : nat) (p : ptr) => match nth_error pts i with Some pt => In p (assign_reads a pt (ints m)) | None => False end).
    set (W := fun (i : nat) (p : ptr) => match nth_error pts i with Some pt => p = addr (lhs_of a) pt | None => False end).
    assert (fits R W ts) as Hfit.
    { intros i t Ht. destruct (nth_error pts i) as [pt|] eqn:Ei.
      - assert (works a (ints m) t pt) as [Hwi _].
        { clear -HF Ht Ei. revert i Ht Ei; induction HF; intros [|i] Ht Ei; simpl in *; try discriminate.
          - congruence.
          - eauto. }
        eapply within_mono; [| |exact Hwi]; intros p Hp; unfold R, W; rewrite Ei; exact Hp.
      - apply nth_error_None in Ei. assert (i < length ts)%nat by (apply nth_error_Some; congruence). lia. }
    pose proof (pts_ind a pts m Hnd HI) as Hind. pose proof (pts_dec a pts m) as Hdec.
    split; [|split].
    - intros sch. exact (proj1 (schedule_independent R W Hind ts m sch Hdec Hfit)).
    - intros sch. exact (proj2 (schedule_independent R W Hind ts m sch Hdec Hfit)).
    - intros m' E. apply schedule_exists. exact E.
  Qed.

  (** Elements one after the other, in any order. *)
  Lemma forM_points_perm (a : assign) pts pts' (m m' : mem S) :
    Permutation pts pts' -> NoDup (map (addr (lhs_of a)) pts) ->
    (forall p q, In p pts -> In q pts -> In (addr (lhs_of a) q) (assign_reads a p (ints m)) ->
       addr (lhs_of a) q = addr (lhs_of a) p) ->
    forM pts (assign_point a) m = Some m' -> forM pts' (assign_point a) m = Some m'.
  Proof.
    intros HP Hnd Hh E.
    assert (NoDup (map (addr (lhs_of a)) pts')) as Hnd' by (eapply Permutation_NoDup; [apply Permutation_map; exact HP|exact Hnd]).
    assert (forall p q, In p pts' -> In q pts' -> In (addr (lhs_of a) q) (assign_reads a p (ints m)) ->
       addr (lhs_of a) q = addr (lhs_of a) p) as Hh'.
    { intros p q Hp Hq. apply Hh; eapply Permutation_in; try (symmetry; exact HP); assumption. }
    destruct (assign_points_value a pts m Hnd Hh m' E) as (S1 & I1 & V1 & F1).
    destruct (assign_points_defined a pts' m Hnd' Hh') as [m2 E2].
    { intros pt Hpt. destruct (V1 pt) as (x & Ex & El); [eapply Permutation_in; [symmetry; exact HP|exact Hpt]|].
      split; [congruence|]. destruct (proj1 (valid_load m (addr (lhs_of a) pt))) as [v ->]; [|discriminate].
      unfold valid. rewrite <- S1. apply valid_load. eauto. }
    rewrite E2. f_equal.
    destruct (assign_points_value a pts' m Hnd' Hh' m2 E2) as (S2 & I2 & V2 & F2).
    apply mem_ext; [congruence|congruence|]. intros p.
    destruct (in_dec ptr_dec p (map (addr (lhs_of a)) pts)) as [Hin|Hout].
    - apply in_map_iff in Hin as (pt & <- & Hpt).
      destruct (V1 pt Hpt) as (x & Ex & ->). destruct (V2 pt) as (y & Ey & ->); [|congruence].
      eapply Permutation_in; eassumption.
    - rewrite F1 by exact Hout. apply F2. intros Hx. apply Hout.
      eapply Permutation_in; [apply Permutation_map; symmetry; exact HP|exact Hx].
  Qed.

  Theorem random_access dom (a : assign) (ks : Z -> list Z) (m : mem S) :
    assignable dom a -> independent dom a (ints m) ->
    (forall n, Permutation (ks n) (map Z.of_nat (seq 0 (Z.to_nat n)))) ->
    exec_assign_ra ks dom a m = with_domain dom [a] m.
  Proof.
    intros HA HI Hk. destruct (assignable_nodup dom a HA) as [Hnd HB]. destruct HA as (Hd & Ha & Hw).
    rewrite exec_assign_ra_spec; try assumption.
    2:{ intros k Hin. eapply Permutation_in in Hin; [|apply Hk]. apply in_seqZ. exact Hin. }
    rewrite with_domain_points by assumption.
    rewrite <- (forM_map (fun k => pt_at dom (unrav (counts dom) k) origin) (ks (prodZ (counts dom))) (assign_point a)).
    pose proof (domain_points_seqZ dom origin (wf_counts _ Hd)) as EP.
    assert (Permutation (map (fun k => pt_at dom (unrav (counts dom) k) origin) (ks (prodZ (counts dom))))
              (domain_points dom origin)) as HP.
    { rewrite EP. apply Permutation_map. apply Hk. }
    set (pts' := map _ (ks _)) in *. set (pts := domain_points dom origin) in *.
    destruct (forM pts (assign_point a) m) as [m'|] eqn:E.
    - eapply forM_points_perm; [symmetry; exact HP| | |exact E]; assumption.
    - destruct (forM pts' (assign_point a) m) as [m'|] eqn:E'; [|reflexivity].
      exfalso. assert (forM pts (assign_point a) m = Some m'); [|congruence].
      eapply forM_points_perm; [exact HP| | |exact E'].
      + eapply Permutation_NoDup; [apply Permutation_map; symmetry; exact HP|exact Hnd].
      + intros p q Hp Hq. apply HI; eapply Permutation_in; try exact HP; assumption.
  Qed.

  (** The value of an expression depends only on the locations in [reads]. *)
  Theorem reads_sound (e : expr) pt (m m' : mem S) :
    ints m = ints m' -> (forall p, In p (reads e pt (ints m)) -> load m p = load m' p) ->
    denote e pt m = denote e pt m'.
  Proof.
    revert pt; induction e as [s|o t e IH|o e IH t|o e1 IH1 e2 IH2|sh s d|d z e IH|st u o|s r cb];
      intros pt HI HR; cbn [denote reads] in *.
    - rewrite HR by (left; reflexivity). reflexivity.
    - rewrite (IH pt HI HR). reflexivity.
    - rewrite (IH pt HI HR). reflexivity.
    - rewrite (IH1 pt HI), (IH2 pt HI) by (intros; apply HR; apply in_or_app; auto). reflexivity.
    - cbv zeta in *. rewrite !HR by (simpl; auto). reflexivity.
    - apply IH; assumption.
    - cbv zeta in *. destruct (nth_error (sp_b st) (length (sp_b u))) as [[w wb]|]; [|reflexivity].
      f_equal. apply forM_ext_in. intros i res Hi.
      rewrite (HR (addr st (pset pt w (b_lb wb + Z.of_nat i)))).
      2:{ apply in_flat_map. exists i. split; [exact Hi|left; reflexivity]. }
      apply bind_ext. intros s _.
      rewrite <- (displaced_ints m m' o (length (sp_b u)) i pt HI).
      pose proof (displaced_ints m (mkMem [] (ints m)) o (length (sp_b u)) i pt eq_refl) as ED.
      destruct (displaced m o (length (sp_b u)) i pt) as [q|]; [|reflexivity]. cbn [bind].
      rewrite HR; [reflexivity|]. apply in_flat_map. exists i. split; [exact Hi|].
      rewrite <- ED. right; left; reflexivity.
    - rewrite HR by (left; reflexivity). reflexivity.
  Qed.

  (** ** In-place ghost updates *)

  Lemma avoids_reads b (e : expr) pt I p : avoids b e -> In p (reads e pt I) -> fst p <> b.
  Proof.
    revert pt; induction e as [s|o t e IH|o e IH t|o e1 IH1 e2 IH2|sh s d|d z e IH|st u o|s r cb];
      intros pt HA Hp; cbn [avoids reads] in *.
    - destruct Hp as [<-|[]]. exact HA.
    - eapply IH; eauto.
    - eapply IH; eauto.
    - apply in_app_or in Hp as [Hp|Hp]; [eapply IH1|eapply IH2]; try eassumption; apply HA.
    - cbv zeta in Hp. destruct Hp as [<-|[<-|[]]]; exact HA.
    - eapply IH; eauto.
    - cbv zeta in Hp. destruct (nth_error (sp_b st) (length (sp_b u))) as [[w wb]|]; [|destruct Hp].
      apply in_flat_map in Hp as (i & _ & [<-|Hp]); [apply HA|].
      destruct (displaced _ _ _ _ _); [|destruct Hp]. destruct Hp as [<-|[]]. apply HA.
    - destruct Hp as [<-|[]]. exact HA.
  Qed.

  Lemma ghost_reads u dom disp (e : expr) pt I p :
    ghost_update u dom disp e -> In pt (domain_points dom origin) ->
    In p (reads e (fun d => pt d + disp d) I) ->
    fst p <> fst (sp_ptr u) \/ p = addr u pt \/
    exists dsp, p = addr u (fun d => pt d + dsp d) /\
      (exists d b, In (d, b) dom /\ b_lb b = b_ub b /\ dsp d <> 0) /\
      in_bounds (sp_b u) (fun d => pt d + dsp d).
  Proof.
    revert disp; induction e as [s|o t e IH|o e IH t|o e1 IH1 e2 IH2|sh s d|d z e IH|st w o|s r cb];
      intros disp HG Hpt Hp; cbn [ghost_update] in *.
    - cbn [reads] in Hp. destruct Hp as [<-|[]]. destruct HG as [HG|[(-> & H0)|(-> & H1 & H2)]]; [left; exact HG| |].
      + right; left. apply addr_peq. intros d. rewrite H0. lia.
      + right; right. exists disp. split; [reflexivity|]. split; [exact H1|]. apply H2. exact Hpt.
    - eapply IH; eauto.
    - eapply IH; eauto.
    - cbn [reads] in Hp. apply in_app_or in Hp as [Hp|Hp]; [eapply IH1|eapply IH2]; try eassumption; apply HG.
    - left. eapply avoids_reads; eassumption.
    - cbn [reads] in Hp. apply (IH (pmove disp d z) HG Hpt).
      erewrite reads_peq; [exact Hp|]. intros e0. unfold pmove, pset. destruct (Nat.eqb_spec e0 d) as [->|]; lia.
    - left. eapply avoids_reads; eassumption.
    - left. eapply avoids_reads; eassumption.
  Qed.

  Theorem ghost_independent u dom (e : expr) I :
    assignable dom (AExpr u e) -> ghost_update u dom (fun _ => 0) e -> independent dom (AExpr u e) I.
  Proof.
    intros HA HG p q Hp Hq Hin. cbn [lhs_of assign_reads] in *.
    destruct (assignable_nodup dom _ HA) as [_ HB]. cbn [lhs_of] in HB.
    destruct HA as (Hd & (Hs & HP & _) & _). cbn [lhs_of] in *.
    rewrite (reads_peq e p (fun d => p d + 0)) in Hin by (intros d; lia).
    destruct (ghost_reads u dom (fun _ => 0) e p I _ HG Hp Hin) as [Hx|[Hx|(dsp & E & (d & b & Hb & Eb & Hne) & Hi)]].
    - exfalso. apply Hx. reflexivity.
    - exact Hx.
    - exfalso. pose proof (addr_inj u q (fun d => p d + dsp d) (HB q Hq) Hi E d) as Ed.
      assert (In d (sp_order u)) as Hdu.
      { eapply Permutation_in; [exact HP|]. apply (in_map fst) in Hb. exact Hb. }
      specialize (Ed Hdu). cbv beta in Ed.
      destruct Hd as (_ & Hnd & Hwf). rewrite Forall_forall in Hwf. specialize (Hwf _ Hb). cbn [snd] in Hwf.
      pose proof (domain_point_coord dom origin p d b Hnd Hp Hb) as Lp.
      pose proof (domain_point_coord dom origin q d b Hnd Hq Hb) as Lq.
      apply in_loop_values in Lp as (c & Hc & Ep & Up); [|lia].
      apply in_loop_values in Lq as (c' & Hc' & Eq & Uq); [|lia].
      assert (stride b * c = 0) by nia. assert (stride b * c' = 0) by nia. lia.
  Qed.

  (** Reads from other allocations only. *)
  Theorem avoids_independent dom x (e : expr) I :
    avoids (fst (sp_ptr x)) e -> independent dom (AExpr x e) I.
  Proof.
    intros HA p q _ _ Hin. exfalso. cbn [lhs_of assign_reads] in Hin.
    apply (avoids_reads _ _ _ _ _ HA) in Hin. apply Hin. reflexivity.
  Qed.

  (** ** Offsets *)

  Lemma offi_moves_deref it st o l (off : nat -> Z) i (m : mem S) :
    net 0 l = i ->
    (forall j, (j < length st)%nat ->
       loadi m (padd o (i * Z.of_nat (length st) + Z.of_nat j)) = Some (off j)) ->
    offi_deref (fold_left (fun f v => offi_move f (move_by v)) l (make_offset_iterator it st o)) m =
    load m (padd it (sumZ (map (fun j => aget st j * off j) (seq 0 (length st))))).
  Proof.
    intros Hn Hoff.
    assert (forall l f, fold_left (fun f v => offi_move f (move_by v)) l f =
              mkOffi (o_first f) (o_stride f) (o_ptr f) (net (o_idx f) l)) as HM.
    { induction l0 as [|v l0 IH]; intros f; [destruct f; reflexivity|]. simpl. rewrite IH. reflexivity. }
    rewrite HM. cbn [make_offset_iterator o_first o_stride o_ptr o_idx]. rewrite Hn.
    unfold offi_deref. cbn [o_first o_stride o_ptr o_idx].
    assert (forall js acc, (forall j, In j js -> (j < length st)%nat) ->
      forM js (fun j i0 => oj <- loadi m (padd o (i * Z.of_nat (length st) + Z.of_nat j)) ;;
                           Some (i0 + aget st j * oj)) acc =
      Some (acc + sumZ (map (fun j => aget st j * off j) js))) as HF.
    { induction js as [|j js IH]; intros acc Hj; simpl; [f_equal; lia|].
      rewrite Hoff by (apply Hj; left; reflexivity). cbn [bind]. rewrite IH by (intros; apply Hj; right; assumption).
      unfold sumZ. simpl. f_equal. lia. }
    rewrite HF by (intros j Hj; apply in_seq in Hj; lia). cbn [bind]. rewrite Z.add_0_l. reflexivity.
  Qed.

  (** The point displaced by the offset vector [off] of [N] components. *)
  Definition off_point (pt : point) (N : nat) (off : nat -> Z) : point :=
    fold_left (fun q j => pmove q (nth j xyz 0%nat) (off j)) (seq 0 N) pt.

  Lemma dot_value st u o n c x (off : nat -> nat -> Z) pt (m : mem S) hd w wb :
    sp_b st = hd ++ [(w, wb)] -> length hd = length (sp_b u) -> extent wb = Z.of_nat n ->
    (forall i, (i < n)%nat -> load m (addr st (pset pt w (b_lb wb + Z.of_nat i))) = Some (c i)) ->
    (forall i j, (i < n)%nat -> (j < length (sp_b u))%nat ->
       loadi m (padd o (Z.of_nat i * Z.of_nat (length (sp_b u)) + Z.of_nat j)) = Some (off i j)) ->
    (forall i, (i < n)%nat -> load m (addr u (off_point pt (length (sp_b u)) (off i))) = Some (x i)) ->
    denote (@EDot S st u o) pt m = Some (VNum (fold_left (fun r i => r + c i * x i)%T (seq 0 n) (lit 0))).
  Proof.
    intros Est HL En Hc Ho Hx. cbn [denote]. cbv zeta.
    assert (nth_error (sp_b st) (length (sp_b u)) = Some (w, wb)) as ->.
    { rewrite Est, <- HL. rewrite nth_error_app2 by lia. rewrite Nat.sub_diag. reflexivity. }
    rewrite En, Nat2Z.id.
    assert (forall l res, (forall i, In i l -> (i < n)%nat) ->
      forM l (fun i res => s <- load m (addr st (pset pt w (b_lb wb + Z.of_nat i))) ;;
                   q <- displaced m o (length (sp_b u)) i pt ;;
                   v <- load m (addr u q) ;; Some (res + s * v)%T) res =
      Some (fold_left (fun r i => r + c i * x i)%T l res)) as HF.
    { induction l as [|i l IH]; intros res Hl; [reflexivity|]. cbn [forM fold_left].
      assert (i < n)%nat as Hi by (apply Hl; left; reflexivity).
      rewrite Hc by exact Hi. cbn [bind].
      assert (displaced m o (length (sp_b u)) i pt = Some (off_point pt (length (sp_b u)) (off i))) as ->.
      { unfold displaced, off_point.
        assert (forall js q, (forall j, In j js -> (j < length (sp_b u))%nat) ->
          forM js (fun j q => oj <- loadi m (padd o (Z.of_nat i * Z.of_nat (length (sp_b u)) + Z.of_nat j)) ;;
                              Some (pmove q (nth j xyz 0%nat) oj)) q =
          Some (fold_left (fun q j => pmove q (nth j xyz 0%nat) (off i j)) js q)) as HD.
        { induction js as [|j js IHj]; intros q Hj; [reflexivity|]. cbn [forM fold_left].
          rewrite (Ho i j Hi) by (apply Hj; left; reflexivity). cbn [bind]. apply IHj. intros; apply Hj; right; assumption. }
        apply HD. intros j Hj. apply in_seq in Hj. lia. }
      cbn [bind]. rewrite Hx by exact Hi. cbn [bind]. apply IH. intros; apply Hl; right; assumption. }
    rewrite HF by (intros i Hi; apply in_seq in Hi; lia). reflexivity.
  Qed.

  (** ** Coarse to fine *)

  Theorem fine_assign dom f c r cb (m m' : mem S) :
    assignable dom (AExpr f (@EFine S c r cb)) -> fst (sp_ptr c) <> fst (sp_ptr f) ->
    with_domain dom [AExpr f (EFine c r cb)] m = Some m' ->
    assigned dom f (fun pt => load m (addr c (coarse_point r cb pt))) m m'.
  Proof.
    intros HA Hne E.
    destruct (assign_effect dom _ m HA (avoids_independent dom f (EFine c r cb) (ints m) Hne)) as [H _].
    destruct (H m' E) as [(H1 & H2) _]. split; [|exact H2].
    intros pt Hpt. destruct (H1 pt Hpt) as (v & Ev & El). exists v. split; [|exact El].
    cbn [rhs_at denote] in Ev. destruct (load m _); simpl in Ev; congruence.
  Qed.
End Props.

(** ** Addressing *)

Lemma sizes_extent bs : Forall (fun b => stride (snd b) = 1) bs ->
  mapM (fun b : dbnd => b_size (snd b)) bs = Some (map (fun b => extent (snd b)) bs).
Proof.
  induction bs as [|b bs IH]; intros H; [reflexivity|]. inversion H; subst. simpl. rewrite IH by assumption.
  unfold b_size, cdiv, extent, b_ub, b_lb. rewrite H2. simpl. rewrite Z.quot_1_r. cbn [bind]. do 2 f_equal. lia.
Qed.

Lemma ravel_offset bs (pt : point) : bs <> [] ->
  ravel (map (fun b => extent (snd b)) bs)
        (map (fun p => fst p - b_lb (snd (snd p))) (combine (map pt (map fst bs)) bs)) = offset_of bs pt.
Proof.
  intros Hne. rewrite ravel_rav.
  - clear Hne. induction bs as [|[d b] bs IH]; [reflexivity|]. cbn [map combine fst snd offset_of].
    rewrite <- IH. unfold cells_of. change (rav (?x :: ?l) (?y :: ?l')) with (y * prodZ l + rav l l'). reflexivity.
  - intros E. apply map_eq_nil in E. contradiction.
  - rewrite !map_length, combine_length, !map_length. lia.
Qed.

Lemma span_at_addr s pt : wf_span s -> sp_b s <> [] -> span_at s (map pt (sp_order s)) = Some (addr s pt).
Proof.
  intros [_ Hst] Hne. unfold span_at, sp_order. rewrite !map_length, Nat.eqb_refl.
  unfold span_sizes. rewrite sizes_extent by exact Hst. cbn [bind].
  rewrite ravel_offset by exact Hne. reflexivity.
Qed.

Lemma vec_index_offset {A} (v : mdvec A) pt : v_b v <> [] -> Forall (fun b => stride (snd b) = 1) (v_b v) ->
  vec_index v (map pt (map fst (v_b v))) = Some (offset_of (v_b v) pt).
Proof.
  intros Hne Hst. unfold vec_index. rewrite !map_length, Nat.eqb_refl.
  rewrite sizes_extent by exact Hst. cbn [bind]. rewrite ravel_offset by exact Hne. reflexivity.
Qed.

Lemma vec_make_size {A} (a0 : A) bnds v :
  Forall (fun b => stride (snd b) = 1 /\ b_lb (snd b) <= b_ub (snd b) + 1) bnds -> mdvec_make a0 bnds = Some v ->
  vec_size v = cells_of bnds /\ v_b v = bnds /\ Z.of_nat (length (v_d v)) = cells_of bnds.
Proof.
  intros H E. unfold mdvec_make, bounds_sz in E.
  rewrite sizes_extent in E by (eapply Forall_impl; [|exact H]; intros ? [? ?]; assumption).
  cbn [bind] in E. injection E as <-. unfold vec_size; cbn [v_h v_b v_d]. rewrite repeat_length.
  assert (0 <= cells_of bnds) as H0.
  { unfold cells_of. apply prodZ_nonneg. apply Forall_map. eapply Forall_impl; [|exact H].
    intros b [_ Hb]. unfold extent. lia. }
  unfold cells_of in *. rewrite Z2Nat.id by exact H0. auto.
Qed.

(** Windows of different points do not overlap. *)
Lemma window_disjoint s hd w wb dom k k' p q i j :
  wf_span s -> sp_b s = hd ++ [(w, wb)] -> wf_dom dom -> Permutation (map fst dom) (map fst hd) ->
  dom_within dom hd -> k <> k' ->
  nth_error (domain_points dom origin) k = Some p -> nth_error (domain_points dom origin) k' = Some q ->
  0 <= i < extent wb -> 0 <= j < extent wb ->
  addr s (pset p w (b_lb wb + i)) <> addr s (pset q w (b_lb wb + j)).
Proof.
  intros Hs Es Hd HP Hw Hk Ep Eq Hi Hj E.
  assert (NoDup (map fst hd) /\ ~ In w (map fst hd)) as [Hnd Hnw].
  { destruct Hs as [Hn _]. unfold sp_order in Hn. rewrite Es, map_app in Hn. simpl in Hn.
    apply NoDup_remove in Hn. rewrite app_nil_r in Hn. exact Hn. }
  assert (forall p i, In p (domain_points dom origin) -> 0 <= i < extent wb ->
            in_bounds (sp_b s) (pset p w (b_lb wb + i))) as HB.
  { intros p0 i0 Hp0 Hi0. pose proof (dom_within_points dom hd origin p0 Hd Hnd HP Hw Hp0) as H0.
    rewrite Es. apply Forall_app. split.
    - unfold in_bounds in H0. rewrite Forall_forall in *. intros b Hb. rewrite pset_other; [apply H0; exact Hb|].
      intros E0. apply Hnw. rewrite <- E0. apply in_map. exact Hb.
    - constructor; [|constructor]. cbn [fst snd]. rewrite pset_same. unfold extent in Hi0. lia. }
  pose proof (addr_inj s _ _ (HB p i (nth_error_In _ _ Ep) Hi) (HB q j (nth_error_In _ _ Eq) Hj) E) as Hpt.
  pose proof (domain_keys_nodup dom origin (map fst dom)) as Hkeys.
  destruct Hd as (_ & Hnd' & Hf). specialize (Hkeys Hnd').
  assert (NoDup (map (fun q : point => map q (map fst dom)) (domain_points dom origin))) as HN.
  { apply Hkeys; [|auto]. eapply Forall_impl; [|exact Hf]. intros b [? ?]. assumption. }
  rewrite NoDup_nth_error in HN. apply Hk. apply HN.
  - rewrite map_length. apply nth_error_Some. congruence.
  - rewrite !nth_error_map, Ep, Eq. cbn [option_map]. f_equal. apply map_ptext. intros d Hd.
    assert (In d (map fst hd)) as Hdh by (eapply Permutation_in; eassumption).
    assert (d <> w) as Hdw by (intros ->; contradiction).
    assert (In d (sp_order s)) as Hds.
    { unfold sp_order. rewrite Es, map_app. apply in_or_app. left. exact Hdh. }
    specialize (Hpt d Hds). rewrite !pset_other in Hpt by exact Hdw. exact Hpt.
Qed.

Section Grad.
  Context {S : Scalar}.

  Lemma move_back_forth (s : span) pt d : addr s (pmove (pmove pt d (-1)) d 1) = addr s pt.
  Proof.
    apply addr_peq. intros e. unfold pmove, pset. rewrite Nat.eqb_refl. destruct (Nat.eqb_spec e d) as [->|]; lia.
  Qed.

  Lemma stencil_pairs s d dom : wf_dom dom -> wf_span s -> Permutation (map fst dom) (sp_order s) ->
    (exists b, In (d, b) dom /\ stride b = 1) ->
    evaluates (@EStencil S up s d) dom
      (fun pt m => x0 <- load m (addr s pt) ;; x1 <- load m (addr s (pmove pt d 1)) ;; Some (VSt x0 x1)) /\
    evaluates (@EStencil S down s d) dom
      (fun pt m => x0 <- load m (addr s (pmove pt d (-1))) ;; x1 <- load m (addr s pt) ;; Some (VSt x0 x1)).
  Proof.
    intros Hd Hs HP Hb. split.
    - eapply evaluates_ext; [|apply eval_evaluates; [exact Hd|cbn [wf_expr]; tauto]]. reflexivity.
    - eapply evaluates_ext; [|apply eval_evaluates; [exact Hd|cbn [wf_expr]; tauto]].
      intros pt m. cbn [denote]. unfold down. change (0 <=? -1) with false. cbv iota zeta.
      rewrite move_back_forth. reflexivity.
  Qed.

  Lemma gradients s d (h : S) dom : wf_dom dom -> wf_span s -> Permutation (map fst dom) (sp_order s) ->
    (exists b, In (d, b) dom /\ stride b = 1) ->
    evaluates (grad s d h up) dom
      (fun pt m => x0 <- load m (addr s pt) ;; x1 <- load m (addr s (pmove pt d 1)) ;;
                   Some (VNum ((x1 - x0) / h)%T)) /\
    evaluates (grad s d h down) dom
      (fun pt m => x0 <- load m (addr s (pmove pt d (-1))) ;; x1 <- load m (addr s pt) ;;
                   Some (VNum ((x1 - x0) / h)%T)).
  Proof.
    intros Hd Hs HP Hb. split.
    - eapply evaluates_ext; [|apply eval_evaluates; [exact Hd|unfold grad; cbn [wf_expr]; tauto]].
      intros pt m. unfold grad; cbn [denote]. unfold up. change (0 <=? 1) with true. cbv iota zeta.
      destruct (load m (addr s pt)); [|reflexivity]. cbn [bind]. destruct (load m _); reflexivity.
    - eapply evaluates_ext; [|apply eval_evaluates; [exact Hd|unfold grad; cbn [wf_expr]; tauto]].
      intros pt m. unfold grad; cbn [denote]. unfold down. change (0 <=? -1) with false. cbv iota zeta.
      rewrite move_back_forth.
      destruct (load m (addr s (pmove pt d (-1)))); [|reflexivity]. cbn [bind]. destruct (load m _); reflexivity.
  Qed.

  (** Scalar arithmetic on the pair acts on both components. *)
  Lemma stencil_scaled s d (t : S) o dom : wf_dom dom -> wf_span s -> Permutation (map fst dom) (sp_order s) ->
    (exists b, In (d, b) dom /\ stride b = 1) -> o <> OGrad ->
    evaluates (ENumL o t (EStencil up s d)) dom
      (fun pt m => x0 <- load m (addr s pt) ;; x1 <- load m (addr s (pmove pt d 1)) ;;
                   y0 <- num_op o t x0 ;; y1 <- num_op o t x1 ;; Some (VSt y0 y1)) /\
    evaluates (ENumR o (EStencil up s d) t) dom
      (fun pt m => x0 <- load m (addr s pt) ;; x1 <- load m (addr s (pmove pt d 1)) ;;
                   y0 <- num_op o x0 t ;; y1 <- num_op o x1 t ;; Some (VSt y0 y1)).
  Proof.
    intros Hd Hs HP Hb Ho.
    split; (eapply evaluates_ext; [|apply eval_evaluates; [exact Hd|cbn [wf_expr]; unfold up; tauto]]);
      intros pt m; cbn [denote]; unfold up; change (0 <=? 1) with true; cbv iota zeta;
      (destruct (load m (addr s pt)); [|reflexivity]); cbn [bind]; (destruct (load m _); [|reflexivity]);
      cbn [bind]; destruct o; try reflexivity; contradiction.
  Qed.

  Lemma span_values (s : span) dom : wf_dom dom -> wf_span s -> Permutation (map fst dom) (sp_order s) ->
    evaluates (@ESpan S s) dom (fun pt m => x <- load m (addr s pt) ;; Some (VNum x)).
  Proof. intros Hd Hs HP. apply (eval_evaluates (ESpan s)); [exact Hd|split; assumption]. Qed.

  Lemma shift_wf_dom d z dom : wf_dom dom -> wf_dom (shift_dom d z dom).
  Proof.
    intros (Hne & Hnd & Hf). split; [|split].
    - destruct dom; [contradiction|discriminate].
    - unfold shift_dom. rewrite map_map. exact Hnd.
    - unfold shift_dom. apply Forall_map. eapply Forall_impl; [|exact Hf]. intros [e b] [H1 H2].
      unfold d_shift, b_shift, b_lb, b_ub in *; simpl in *. lia.
  Qed.

  Lemma shift_names d z dom : map fst (shift_dom d z dom) = map fst dom.
  Proof. unfold shift_dom. rewrite map_map. reflexivity. Qed.

  Lemma shifted (e : @expr S) d z dom : wf_dom dom -> wf_expr e (shift_dom d z dom) ->
    evaluates (EShift d z e) dom (fun pt m => denote e (pmove pt d z) m).
  Proof. intros Hd He. apply (eval_evaluates (EShift d z e)); assumption. Qed.

  Lemma corner_shifts (s : span) a b dom : wf_dom dom -> wf_span s -> Permutation (map fst dom) (sp_order s) ->
    evaluates (@shift_xy S s a b) dom (fun pt m => x <- load m (addr s (pmove (pmove pt dI a) dJ b)) ;; Some (VNum x)) /\
    evaluates (@shift_xz S s a b) dom (fun pt m => x <- load m (addr s (pmove (pmove pt dI a) dK b)) ;; Some (VNum x)) /\
    evaluates (@shift_yz S s a b) dom (fun pt m => x <- load m (addr s (pmove (pmove pt dJ a) dK b)) ;; Some (VNum x)).
  Proof.
    intros Hd Hs HP.
    assert (forall d d' : dim, d <> d' ->
      evaluates (EShift d' b (@shift S s d a)) dom
        (fun pt m => x <- load m (addr s (pmove (pmove pt d a) d' b)) ;; Some (VNum x))) as H.
    { intros d d' Hne. eapply evaluates_ext; [|apply eval_evaluates; [exact Hd|]].
      - intros pt m. unfold shift; cbn [denote].
        rewrite (addr_peq s (pmove (pmove pt d' b) d a) (pmove (pmove pt d a) d' b)); [reflexivity|].
        intros x. unfold pmove, pset. destruct (Nat.eqb_spec x d), (Nat.eqb_spec x d'),
          (Nat.eqb_spec d d'), (Nat.eqb_spec d' d); subst; try contradiction; reflexivity.
      - unfold shift; cbn [wf_expr]. rewrite !shift_names. split; assumption. }
    repeat split; apply H; discriminate.
  Qed.
End Grad.

Lemma lhs_assignable {S : Scalar} (a : @assign S) :
  wf_span (lhs_of a) -> sp_b (lhs_of a) <> [] ->
  Forall (fun b => b_lb (snd b) <= b_ub (snd b) + 1) (sp_b (lhs_of a)) ->
  match a with AExpr x e => wf_expr e (sp_b x) | ANum _ _ => True end ->
  assignable (sp_b (lhs_of a)) a.
Proof.
  intros [Hnd Hst] Hne Hsz He. split; [|split].
  - split; [exact Hne|]. split; [exact Hnd|]. rewrite Forall_forall in *. intros b Hb.
    rewrite (Hst b Hb). split; [lia|]. apply Hsz. exact Hb.
  - split; [split; assumption|]. split; [apply Permutation_refl|]. destruct a; exact He.
  - intros d b sb Hb Hsb.
    assert (b = sb) as ->; [|lia].
    clear -Hnd Hb Hsb. unfold sp_order in Hnd.
    induction (sp_b (lhs_of a)) as [|[e c] l IH]; [destruct Hb|].
    simpl in Hnd. inversion Hnd; subst. simpl in Hb, Hsb.
    destruct Hb as [Hb|Hb], Hsb as [Hsb|Hsb].
    + congruence.
    + injection Hb as -> ->. exfalso. apply H1. apply (in_map fst) in Hsb. exact Hsb.
    + injection Hsb as -> ->. exfalso. apply H1. apply (in_map fst) in Hb. exact Hb.
    + auto.
Qed.

(** Every index point within the bounds is a point of the loops over the bounds. *)
Lemma domain_points_cover bs pt0 pt :
  NoDup (map fst bs) -> Forall (fun b => stride (snd b) = 1) bs -> in_bounds bs pt ->
  exists q, In q (domain_points bs pt0) /\ (forall d, In d (map fst bs) -> q d = pt d) /\
    forall d, ~ In d (map fst bs) -> q d = pt0 d.
Proof.
  revert pt0; induction bs as [|[d b] bs IH]; intros pt0 Hnd Hst Hb.
  - exists pt0. simpl. split; [auto|]. split; [intros d []|reflexivity].
  - simpl in Hnd. inversion Hnd; subst. inversion Hst; subst. inversion Hb; subst. cbn [fst snd] in *.
    destruct (IH (pset pt0 d (pt d)) H2 H4 H6) as (q & Hq & Hin & Hout). exists q. split; [|split].
    + cbn [domain_points]. apply in_flat_map. exists (pt d). split; [|exact Hq].
      apply in_loop_values_unit; assumption.
    + intros e [<-|He]; [|auto]. cbn [fst]. rewrite Hout by exact H1. apply pset_same.
    + intros e He. simpl in He. rewrite Hout by tauto. apply pset_other. intros ->. tauto.
Qed.

Lemma lhs_domain_effect {S : Scalar} x (e : @expr S) (m m' : mem S) :
  wf_span x -> sp_b x <> [] -> Forall (fun b => b_lb (snd b) <= b_ub (snd b) + 1) (sp_b x) ->
  wf_expr e (sp_b x) -> independent (sp_b x) (AExpr x e) (ints m) ->
  with_lhs_domain (AExpr x e) m = Some m' ->
  assigned (sp_b x) x (fun pt => rhs_at (AExpr x e) pt m) m m' /\
  forall pt, in_bounds (sp_b x) pt ->
    exists q, In q (domain_points (sp_b x) origin) /\ forall d, In d (sp_order x) -> q d = pt d.
Proof.
  intros Hs Hne Hsz He HI E. split.
  - pose proof (lhs_assignable (AExpr x e) Hs Hne Hsz He) as HA. cbn [lhs_of] in HA.
    apply (proj1 (assign_effect (sp_b x) (AExpr x e) m HA HI) m').
    unfold with_domain. cbn [forM]. unfold with_lhs_domain in E. cbn [lhs_of] in E. rewrite E. reflexivity.
  - intros pt Hb. destruct Hs as [Hnd Hst].
    destruct (domain_points_cover (sp_b x) origin pt Hnd Hst Hb) as (q & H1 & H2 & _). eauto.
Qed.

(** ** Offset tables *)

Lemma offset_tables {A} t n dims i j (a0 : A) v :
  make_offset_vec a0 n dims = Some v ->
  span_at (make_offset_span t n dims) [i + 1; j + 1] = Some (padd t (i * dims + j)) /\
  span_at (make_offset_span_const t n dims) [i; j] = Some (padd t (i * dims + j)) /\
  vec_index v [i; j] = Some (i * dims + j).
Proof.
  intros E.
  assert (forall a b, b_size (Bnd a b) = Some (b - a + 1)) as Hsz.
  { intros a b. unfold b_size, cdiv, Bnd, Bnd_full; simpl. rewrite Z.quot_1_r. f_equal. lia. }
  assert (v_b v = [Wb 0 (n - 1); Ib 0 (dims - 1)]) as Eb.
  { unfold make_offset_vec, mdvec_make, bounds_sz, Wb, Ib in E. cbn [mapM snd] in E. rewrite !Hsz in E.
    cbn [bind] in E. apply some_inj in E. subst v. reflexivity. }
  unfold span_at, span_sizes, vec_index. rewrite Eb.
  unfold make_offset_span, make_offset_span_const. cbn [sp_b sp_ptr length Nat.eqb].
  unfold Wb, Ib. cbn [mapM snd]. rewrite !Hsz. cbn [bind combine map fst snd b_lb Bnd Bnd_full first].
  assert (forall a b c d, ravel [a; b] [c; d] = c * b + d) as Hr
    by (intros; unfold ravel, aget; simpl; ring).
  rewrite !Hr. repeat split; f_equal; try f_equal; ring.
Qed.

Lemma set_offset_layout {A} (v : mdvec A) n idx j x :
  (n * length idx + length idx <= length (v_h v))%nat -> nth_error idx j = Some x ->
  nth_error (v_d (vec_set_offset n idx v)) (n * length idx + j) = Some x /\
  nth_error (v_h (vec_set_offset n idx v)) (n * length idx + j) = Some x /\
  forall k, (k < n * length idx \/ n * length idx + length idx <= k)%nat ->
    nth_error (v_h (vec_set_offset n idx v)) k = nth_error (v_h v) k.
Proof.
  intros Hle Hj. unfold vec_set_offset. cbn [v_d v_h].
  rewrite LemVector.fold_aset_block by lia. rewrite Nat.add_0_r.
  set (b := (n * length idx)%nat) in *.
  assert (j < length idx)%nat as Hjl by (apply nth_error_Some; congruence).
  assert (length (firstn b (v_h v)) = b) as Hb by (rewrite firstn_length; lia).
  assert (nth_error (firstn b (v_h v) ++ idx ++ skipn (b + length idx) (v_h v)) (b + j) = Some x) as H.
  { rewrite nth_error_app2 by lia. rewrite Hb. replace (b + j - b)%nat with j by lia.
    rewrite nth_error_app1 by exact Hjl. exact Hj. }
  split; [exact H|]. split; [exact H|]. intros k [Hk|Hk].
  - rewrite nth_error_app1 by lia.
    rewrite <- (firstn_skipn b (v_h v)) at 2. rewrite nth_error_app1 by lia. reflexivity.
  - rewrite nth_error_app2 by lia. rewrite Hb. rewrite nth_error_app2 by lia.
    rewrite <- (firstn_skipn (b + length idx) (v_h v)) at 2.
    rewrite nth_error_app2 by (rewrite firstn_length; lia). f_equal. rewrite firstn_length. lia.
Qed.

Lemma fill_effect {S : Scalar} dom x (t : S) (m : mem S) :
  assignable dom (ANum x t) -> allocated m x ->
  exists m', with_domain dom [ANum x t] m = Some m' /\
    assigned dom x (fun _ => Some t) m m' /\ shape m' = shape m.
Proof.
  intros HA Hal.
  assert (independent dom (ANum x t) (ints m)) as HI by (intros p q _ _ []).
  destruct (assign_effect dom (ANum x t) m HA HI) as [H1 H2].
  destruct (H2 Hal) as [m' E]; [intros; discriminate|]. exists m'. split; [exact E|]. exact (H1 m' E).
Qed.

Lemma dot_elements {S : Scalar} st u o dom n c x (off : nat -> nat -> Z) (m : mem S) hd w wb it k pt :
  wf_dom dom -> wf_expr (@EDot S st u o) dom ->
  sp_b st = hd ++ [(w, wb)] -> length hd = length (sp_b u) -> extent wb = Z.of_nat n ->
  nth_error (domain_points dom origin) k = Some pt ->
  (forall i, (i < n)%nat -> load m (addr st (pset pt w (b_lb wb + Z.of_nat i))) = Some (c i)) ->
  (forall i j, (i < n)%nat -> (j < length (sp_b u))%nat ->
     loadi m (padd o (Z.of_nat i * Z.of_nat (length (sp_b u)) + Z.of_nat j)) = Some (off i j)) ->
  (forall i, (i < n)%nat -> load m (addr u (off_point pt (length (sp_b u)) (off i))) = Some (x i)) ->
  eval (EDot st u o) dom = Some it ->
  exists it', steps k it = Some it' /\
    it_deref it' m = Some (VNum (fold_left (fun r i => r + c i * x i)%T (seq 0 n) (lit 0))).
Proof.
  intros Hd He Est HL En Hk Hc Ho Hx Ee.
  destruct (eval_evaluates _ _ Hd He) as (it0 & E0 & Hall). rewrite Ee in E0. injection E0 as <-.
  destruct (Hall k pt Hk) as (it' & Es & Hv). exists it'. split; [exact Es|].
  rewrite Hv. eapply dot_value; eassumption.
Qed.

Lemma coarse_index_unique r f : 1 <= r ->
  exists c, coarse_index r f = Some c /\ c * r <= f < (c + 1) * r /\
    forall c', c' * r <= f < (c' + 1) * r -> c' = c.
Proof.
  intros Hr. exists (f / r). rewrite coarse_index_floor by exact Hr.
  pose proof (Z.div_mod f r ltac:(lia)) as E. pose proof (Z.mod_pos_bound f r ltac:(lia)) as Hm.
  split; [reflexivity|]. split; [nia|]. intros c' Hc. nia.
Qed.

Lemma index_addr {A} (v : mdvec A) s pt :
  v_b v = sp_b s -> v_b v <> [] -> wf_span s ->
  exists o, vec_index v (map pt (sp_order s)) = Some o /\ addr s pt = padd (sp_ptr s) o.
Proof.
  intros E Hne [_ Hst]. exists (offset_of (sp_b s) pt). split; [|reflexivity].
  unfold sp_order. rewrite <- E. apply vec_index_offset; [exact Hne|]. rewrite E. exact Hst.
Qed.

Lemma addr_one_to_one s p q : in_bounds (sp_b s) p -> in_bounds (sp_b s) q ->
  (exists o, addr s p = padd (sp_ptr s) o /\ 0 <= o < cells_of (sp_b s)) /\
  (addr s p = addr s q -> forall d, In d (sp_order s) -> p d = q d).
Proof.
  intros Hp Hq. split.
  - exists (offset_of (sp_b s) p). split; [reflexivity|]. apply offset_of_range. exact Hp.
  - apply addr_inj; assumption.
Qed.
