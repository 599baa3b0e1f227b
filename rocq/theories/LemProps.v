(** * Lemmas behind the iterator and expression properties *)

From Coq Require Import ZifyBool ZifyNat Permutation.
From Verif Require Import Base ModelBounds ModelMatrix ModelIters ModelSpan Spec SpecIter ModelSched
  LemBase LemMatrix LemFsi LemDomain LemExpr LemExec LemSched LemAssign.
Import ListNotations.
Open Scope Z_scope.

Lemma some_inj {A} (a b : A) : Some a = Some b -> a = b.
Proof. congruence. Qed.

(** ** Bounds *)

Lemma in_loop_values b i :
  1 <= stride b ->
  (In i (loop_values b) <-> exists c, 0 <= c /\ i = b_lb b + stride b * c /\ i <= b_ub b).
Proof.
  intros Hs. unfold loop_values. rewrite in_map_iff. unfold count.
  pose proof (Z.div_mod (b_ub b - b_lb b + stride b) (stride b) ltac:(lia)) as HD.
  pose proof (Z.mod_pos_bound (b_ub b - b_lb b + stride b) (stride b) ltac:(lia)) as HM.
  set (q := (b_ub b - b_lb b + stride b) / stride b) in *.
  split.
  - intros (k & <- & Hk). apply in_seq in Hk. exists (Z.of_nat k). repeat split; nia.
  - intros (c & Hc & -> & Hu). exists (Z.to_nat c). split; [rewrite Z2Nat.id by lia; reflexivity|].
    apply in_seq. assert (c < q) by nia. lia.
Qed.

Lemma in_loop_values_unit b i : stride b = 1 -> (In i (loop_values b) <-> b_lb b <= i <= b_ub b).
Proof.
  intros Hs. rewrite in_loop_values by lia. rewrite Hs. split.
  - intros (c & Hc & -> & Hu). lia.
  - intros H. exists (i - b_lb b). lia.
Qed.

Lemma bounds_denote f l :
  b_lb (Bnd f l) = f /\ b_ub (Bnd f l) = l /\ b_size (Bnd f l) = Some (l - f + 1) /\
  forall i, In i (loop_values (Bnd f l)) <-> f <= i <= l.
Proof.
  unfold b_lb, b_ub, b_size, Bnd, Bnd_full; simpl. unfold b2z, cdiv; simpl. rewrite Z.quot_1_r.
  repeat split; try (f_equal; lia).
  - apply in_loop_values_unit in H; [|reflexivity]. unfold b_lb, b_ub in H; simpl in H. lia.
  - apply in_loop_values_unit in H; [|reflexivity]. unfold b_lb, b_ub in H; simpl in H. lia.
  - intros H. apply in_loop_values_unit; [reflexivity|]. unfold b_lb, b_ub; simpl. lia.
Qed.

Lemma bounds_arith f l x i :
  (In i (loop_values (db_plus (Bnd f l) x)) <-> (if 0 <=? x then f <= i <= l + x else f + x <= i <= l)) /\
  (In i (loop_values (db_minus (Bnd f l) x)) <-> f - x <= i <= l) /\
  (In i (loop_values (b_expand (Bnd f l) x)) <-> f - x <= i <= l + x) /\
  (In i (loop_values (b_shift (Bnd f l) x)) <-> f + x <= i <= l + x).
Proof.
  split; [|split; [|split]].
  - unfold db_plus. destruct (Z.leb_spec 0 x); (rewrite in_loop_values_unit by reflexivity);
      unfold b_lb, b_ub, b_pluseq, b_minuseq, Bnd, Bnd_full, b2z; simpl; lia.
  - rewrite in_loop_values_unit by reflexivity.
    unfold b_lb, b_ub, db_minus, b_minuseq, Bnd, Bnd_full, b2z; simpl; lia.
  - rewrite in_loop_values_unit by reflexivity.
    unfold b_lb, b_ub, b_expand, b_pluseq, b_minuseq, Bnd, Bnd_full, b2z; simpl; lia.
  - rewrite in_loop_values_unit by reflexivity.
    unfold b_lb, b_ub, b_shift, Bnd, Bnd_full, b2z; simpl; lia.
Qed.

Lemma ghost_bounds p g bs d b :
  nth_error bs d = Some b ->
  exists b', nth_error (sp_b (make_md_span_g p g bs)) d = Some b' /\ fst b' = fst b /\
    stride (snd b') = 1 /\
    b_lb (snd b') = (if Nat.eqb (fst b) dW then b_lb (snd b) else b_lb (snd b) - g) /\
    b_ub (snd b') = (if Nat.eqb (fst b) dW then b_ub (snd b) else b_ub (snd b) + g).
Proof.
  intros H. exists (expand_bounds g (d_unit b)). split.
  - simpl. rewrite nth_error_map, H. reflexivity.
  - unfold expand_bounds, d_unit, d_expand; simpl. destruct (Nat.eqb (fst b) dW); simpl;
      unfold b_lb, b_ub, b_unit, b_expand, b_pluseq, b_minuseq; simpl; repeat split; lia.
Qed.

Lemma plain_bounds p bs d b :
  nth_error bs d = Some b ->
  exists b', nth_error (sp_b (make_md_span p bs)) d = Some b' /\ fst b' = fst b /\
    stride (snd b') = 1 /\ b_lb (snd b') = b_lb (snd b) /\ b_ub (snd b') = b_ub (snd b).
Proof.
  intros H. exists (d_unit b). split; [simpl; rewrite nth_error_map, H; reflexivity|].
  repeat split.
Qed.

(** Spans built by the factories are well formed. *)
Lemma make_md_span_wf p bs : NoDup (map fst bs) -> wf_span (make_md_span p bs).
Proof.
  intros H. split.
  - unfold sp_order, make_md_span; simpl. rewrite map_map. exact H.
  - simpl. apply Forall_map. apply Forall_forall. reflexivity.
Qed.

Lemma make_md_span_g_wf p g bs : NoDup (map fst bs) -> wf_span (make_md_span_g p g bs).
Proof.
  intros H. assert (forall b, fst (expand_bounds g (d_unit b)) = fst b) as Hf.
  { intros b. unfold expand_bounds. simpl. destruct (Nat.eqb (fst b) dW); reflexivity. }
  split.
  - unfold sp_order, make_md_span_g; simpl. rewrite map_map.
    erewrite map_ext; [exact H|exact Hf].
  - simpl. apply Forall_map. apply Forall_forall. intros b _.
    unfold expand_bounds; simpl. destruct (Nat.eqb (fst b) dW); reflexivity.
Qed.

(** ** ravel and unravel *)

Lemma ravel_bijective n : box n ->
  (forall c, in_box n c -> 0 <= ravel n c < prodZ n) /\
  (forall c c', in_box n c -> in_box n c' -> ravel n c = ravel n c' -> c = c') /\
  (forall p, 0 <= p < prodZ n -> exists c, in_box n c /\ ravel n c = p).
Proof.
  intros [Hne Hn]. split; [|split].
  - intros c Hc. rewrite ravel_rav by (auto; apply in_range_length; exact Hc). apply rav_bound; exact Hc.
  - intros c c' Hc Hc' E. rewrite !ravel_rav in E by (auto; apply in_range_length; assumption).
    eapply rav_inj; eauto.
  - intros p Hp. exists (unrav n p). split; [apply unrav_in_range; auto|].
    rewrite ravel_rav by (auto; apply unrav_length). apply rav_unrav; auto.
Qed.

Lemma rav_lex n c c' : in_range n c -> in_range n c' -> (rav n c < rav n c' <-> lex c c').
Proof.
  intros H; revert c'; induction H as [|x y n c Hx H IH]; intros c' H'; inversion H'; subst.
  - split; [intros; simpl in *; lia|intros L; inversion L].
  - specialize (IH _ H4). simpl. pose proof (rav_bound _ _ H). pose proof (rav_bound _ _ H4).
    rename y0 into z. split.
    + intros L. destruct (Z.lt_trichotomy y z) as [Hlt|[->|Hgt]].
      * apply lex_here; exact Hlt.
      * apply lex_next. apply IH. nia.
      * exfalso. nia.
    + intros L. inversion L; subst; [nia|]. destruct IH as [_ IH2]. match goal with HL : lex c _ |- _ => apply IH2 in HL end. nia.
Qed.

Lemma ravel_lex n c c' : box n -> in_box n c -> in_box n c' -> (ravel n c < ravel n c' <-> lex c c').
Proof.
  intros [Hne Hn] H H'. rewrite !ravel_rav by (auto; apply in_range_length; assumption).
  apply rav_lex; assumption.
Qed.

Lemma unravel_inverts n p old : box n -> length old = length n -> 0 <= p < prodZ n ->
  exists c, unravel n p old = Some c /\ in_box n c /\ ravel n c = p.
Proof.
  intros [Hne Hn] HL Hp. exists (coordZ n p). split; [apply unravel_coordZ; auto; lia|].
  unfold coordZ. destruct (Z.ltb_spec p (prodZ n)); [|lia]. split; [apply unrav_in_range; auto|].
  rewrite ravel_rav by (auto; apply unrav_length). apply rav_unrav; auto.
Qed.

(** The end coordinate: the last cell, one further in the innermost dimension. *)
Definition end_coord (n c : list Z) : Prop :=
  length c = length n /\
  forall j, (j < length n)%nat -> aget c j = if Nat.eqb j (length n - 1) then aget n j else aget n j - 1.

Lemma unravel_end n old : box n -> length old = length n ->
  exists c, unravel n (prodZ n) old = Some c /\ end_coord n c /\ ravel n c = prodZ n.
Proof.
  intros [Hne Hn] HL. pose proof (prodZ_pos _ Hn). exists (coordZ n (prodZ n)).
  split; [apply unravel_coordZ; auto; lia|]. unfold coordZ. rewrite Z.ltb_irrefl. split.
  - split; [apply endc_length|]. intros j Hj. apply aget_endc; exact Hj.
  - rewrite ravel_rav by (auto; apply endc_length). apply rav_endc; auto.
Qed.

Lemma unravel_general n p old : box n -> (2 <= length n)%nat -> length old = length n -> 0 <= p <= prodZ n ->
  unravel n p old = (c <- unravel_loop n p old ;; Some (unravel_adjust n c)).
Proof.
  intros [Hne Hn] H2 HL Hp. rewrite unravel_coordZ by auto.
  rewrite unravel_loop_unrav by (auto; lia). cbn [bind]. rewrite unravel_adjust_coordZ by auto. reflexivity.
Qed.

(** ** Traversal moves *)

Lemma net_stays M p l : stays M p l -> 0 <= net p l <= M.
Proof. revert p; induction l; simpl; intros p H; [exact H|]. apply IHl. apply H. Qed.

Lemma mti_moves_at base st n flag : box n ->
  forall l p, stays (prodZ n) p l ->
    mti_moves l (mt_at base st n flag p) = Some (mt_at base st n flag (net p l)).
Proof.
  intros [Hne Hn]. induction l as [|v l IH]; intros p Hst; [reflexivity|].
  destruct Hst as [Hp Hst]. unfold mti_moves in *. cbn [forM net].
  assert (mti_move v (mt_at base st n flag p) = Some (mt_at base st n flag (p + move_by v))) as ->.
  { assert (0 <= p + move_by v <= prodZ n) as Hq by (destruct l; simpl in Hst; lia).
    destruct v; cbn [mti_move move_by] in *.
    - rewrite mti_inc_at by (auto; lia). reflexivity.
    - replace p with ((p + -1) + 1) at 1 by lia. rewrite mti_dec_at by (auto; lia). reflexivity.
    - rewrite mti_adv_at by (auto; lia). reflexivity. }
  cbn [bind]. apply IH. exact Hst.
Qed.

(** The begin iterator of any traversal. *)
Definition mti_begin (base : ptr) (st n : list Z) (flag : bool) : mti :=
  mkMti base st (map (fun _ => 0) n) n flag.

Lemma mti_begin_at base st n flag : box n -> mti_begin base st n flag = mt_at base st n flag 0.
Proof. intros [_ Hn]. unfold mti_begin, mt_at. rewrite coordZ_0 by exact Hn. reflexivity. Qed.

Lemma traversal_laws base st n flag l : box n -> stays (prodZ n) 0 l ->
  exists it, mti_moves l (mti_begin base st n flag) = Some it /\
    mti_size it = prodZ n /\
    (net 0 l < prodZ n -> in_box n (m_cur it) /\ ravel n (m_cur it) = net 0 l) /\
    forall l' it', stays (prodZ n) 0 l' -> mti_moves l' (mti_begin base st n flag) = Some it' ->
      mti_dist it it' = net 0 l' - net 0 l /\
      (mti_equal it it' = true <-> net 0 l = net 0 l') /\
      (net 0 l = net 0 l' -> it = it').
Proof.
  intros Hb Hst. pose proof Hb as [Hne Hn]. rewrite mti_begin_at by exact Hb.
  rewrite mti_moves_at by assumption. eexists; split; [reflexivity|].
  pose proof (net_stays _ _ _ Hst). split; [|split].
  - apply mti_size_at.
  - intros Hlt. cbn [m_cur mt_at]. unfold coordZ. destruct (Z.ltb_spec (net 0 l) (prodZ n)); [|lia].
    split; [apply unrav_in_range; auto; lia|]. rewrite ravel_rav by (auto; apply unrav_length).
    apply rav_unrav; auto.
  - intros l' it' Hst' E. rewrite mti_moves_at in E by assumption. injection E as <-.
    pose proof (net_stays _ _ _ Hst'). split; [|split].
    + apply mti_dist_at; auto.
    + rewrite mti_equal_at by auto. apply Z.eqb_eq.
    + intros ->. reflexivity.
Qed.

(** ** Spans over domains *)

Lemma nth_domain_points dom pt k q : Forall (fun x => 0 <= x) (counts dom) ->
  nth_error (domain_points dom pt) k = Some q ->
  q = pt_at dom (unrav (counts dom) (Z.of_nat k)) pt /\ Z.of_nat k < prodZ (counts dom).
Proof.
  intros H E. rewrite domain_points_seqZ in E by exact H. unfold seqZ in E.
  rewrite map_map, nth_error_map in E. destruct (nth_error (seq _ _) k) eqn:Es; [|discriminate].
  injection E as <-. pose proof Es as Es'.
  assert (k < Z.to_nat (prodZ (counts dom)))%nat as Hk.
  { rewrite <- (seq_length (Z.to_nat (prodZ (counts dom))) 0). apply nth_error_Some. congruence. }
  apply nth_error_nth with (d := 0%nat) in Es. rewrite seq_nth in Es by exact Hk. subst n.
  rewrite Nat.add_0_l. split; [reflexivity|lia].
Qed.

Lemma domain_points_length dom pt : Forall (fun x => 0 <= x) (counts dom) ->
  Z.of_nat (length (domain_points dom pt)) = prodZ (counts dom).
Proof.
  intros H. rewrite domain_points_seqZ by exact H. rewrite map_length. unfold seqZ.
  rewrite map_length, seq_length. pose proof (prodZ_nonneg _ H). lia.
Qed.

Lemma mti_iter_at base st n flag k p : box n -> 0 <= p -> p + Z.of_nat k <= prodZ n ->
  Nat.iter k mti_inc (mt_at base st n flag p) = mt_at base st n flag (p + Z.of_nat k).
Proof.
  intros [Hne Hn] Hp. induction k as [|k IH]; intros Hk; [simpl; rewrite Z.add_0_r; reflexivity|].
  change (Nat.iter (S k) mti_inc (mt_at base st n flag p)) with (mti_inc (Nat.iter k mti_inc (mt_at base st n flag p))).
  rewrite IH by lia. rewrite mti_inc_at by (auto; lia).
  f_equal. lia.
Qed.

Lemma counts_box dom : wf_dom dom -> 0 < prodZ (counts dom) -> box (counts dom).
Proof.
  intros Hd H. split; [|apply wf_counts_pos; assumption].
  destruct Hd as [Hne _]. destruct dom; [congruence|discriminate].
Qed.

(** Any traversal made by [call_helper]: ordinary span or window. *)
Lemma call_enumerates flag s hd tl dom pt0 :
  wf_span s -> sp_b s = hd ++ tl -> wf_dom dom -> Permutation (map fst dom) (map fst hd) ->
  exists it, call_helper flag s dom = Some it /\
    mti_size it = Z.of_nat (length (domain_points dom pt0)) /\
    m_ptr it = (negb (Nat.eqb (length tl) 0) || flag)%bool /\
    forall k pt, nth_error (domain_points dom pt0) k = Some pt ->
      mti_addr (Nat.iter k mti_inc it) = addr s (lbs tl pt) /\
      m_ptr (Nat.iter k mti_inc it) = m_ptr it /\
      mti_adv it (Z.of_nat k) = Some (Nat.iter k mti_inc it).
Proof.
  intros Hs Hb Hd HP. pose proof (wf_counts _ Hd) as Hc0.
  rewrite (call_helper_ok flag s hd tl dom origin Hs Hb Hd HP). eexists; split; [reflexivity|].
  split; [|split].
  - unfold mti_size. cbn [m_n]. rewrite stride_dim_m1, domain_points_length by exact Hc0. reflexivity.
  - reflexivity.
  - intros k pt Hk. destruct (nth_domain_points _ _ _ _ Hc0 Hk) as [-> Hlt].
    assert (0 < prodZ (counts dom)) as Hpos by lia.
    pose proof (counts_box _ Hd Hpos) as Hbox.
    destruct (call_helper_family flag s hd tl dom Hs Hb Hd HP (proj2 Hbox)) as (base & E & HA).
    rewrite (call_helper_ok flag s hd tl dom origin Hs Hb Hd HP) in E. apply some_inj in E.
    rewrite E. rewrite mti_iter_at by (auto; lia). rewrite Z.add_0_l. split; [|split].
    + rewrite (HA (Z.of_nat k) pt0) by lia. apply addr_peq.
      intros d. destruct (in_dec Nat.eq_dec d (map fst tl)) as [Hin|Hout].
      * destruct Hs as [Hnds _]. unfold sp_order in Hnds. rewrite Hb, map_app in Hnds.
        assert (NoDup (map fst tl)) as Hndt.
        { clear - Hnds. induction (map fst hd); [exact Hnds|]. inversion Hnds; auto. }
        rewrite pt_at_notin.
        2:{ intros Hdom. assert (In d (map fst hd)) as Hdh by (rewrite <- HP; exact Hdom).
            clear - Hnds Hdh Hin. induction (map fst hd) as [|a l IHl]; [destruct Hdh|].
            inversion Hnds; subst. destruct Hdh as [->|H]; [apply H1; apply in_or_app; auto|auto]. }
        apply in_map_iff in Hin as ([d' b] & <- & Hin). simpl.
        rewrite !(lbs_in tl _ d' b) by assumption. reflexivity.
      * rewrite (lbs_notin tl _ d) by exact Hout.
        destruct (in_dec Nat.eq_dec d (map fst dom)) as [Hdom|Hdom].
        -- destruct (nth_error_In_fst _ _ Hdom) as [b Eb].
           pose proof Hd as (_ & Hnd & _).
           rewrite !(pt_at_in dom _ _ _ d b Hnd ltac:(rewrite unrav_length, counts_length; reflexivity) Eb).
           reflexivity.
        -- rewrite !pt_at_notin by exact Hdom. apply lbs_notin. exact Hout.
    + reflexivity.
    + rewrite mti_adv_at by (try apply Hbox; lia). rewrite Z.add_0_l. reflexivity.
Qed.

Lemma span_enumerates s dom : wf_span s -> wf_dom dom -> Permutation (map fst dom) (sp_order s) ->
  exists it, call_helper false s dom = Some it /\
    mti_size it = Z.of_nat (length (domain_points dom origin)) /\
    forall k pt, nth_error (domain_points dom origin) k = Some pt ->
      mti_addr (Nat.iter k mti_inc it) = addr s pt.
Proof.
  intros Hs Hd HP.
  destruct (call_enumerates false s (sp_b s) [] dom origin Hs ltac:(rewrite app_nil_r; reflexivity) Hd HP)
    as (it & E & Hsz & _ & HA).
  exists it. split; [exact E|]. split; [exact Hsz|]. intros k pt Hk. apply (HA k pt Hk).
Qed.

Lemma domain_point_coord dom pt q d b :
  NoDup (map fst dom) -> In q (domain_points dom pt) -> In (d, b) dom -> In (q d) (loop_values b).
Proof.
  revert pt; induction dom as [|[d' b'] dom IH]; intros pt Hnd Hq Hin; [destruct Hin|].
  inversion Hnd; subst. destruct Hin as [Hin|Hin].
  - injection Hin as -> ->. destruct (in_domain_points_hd d b dom pt q H1 Hq) as (x & Hx & -> & _). exact Hx.
  - simpl in Hq. apply in_flat_map in Hq as (x & _ & Hq). eapply IH; eauto.
Qed.

Lemma dom_within_points dom bs pt q :
  wf_dom dom -> NoDup (map fst bs) -> Permutation (map fst dom) (map fst bs) ->
  dom_within dom bs -> In q (domain_points dom pt) -> in_bounds bs q.
Proof.
  intros (_ & Hnd & Hf) Hbs HP Hw Hq. apply Forall_forall. intros [d sb] Hin. simpl.
  assert (In d (map fst dom)) as Hd.
  { rewrite HP. apply in_map_iff. exists (d, sb). auto. }
  apply in_map_iff in Hd as ([d' b] & Ed & Hb). simpl in Ed. subst d'.
  destruct (Hw d b sb Hb Hin) as [H1 H2].
  pose proof (domain_point_coord dom pt q d b Hnd Hq Hb) as HL.
  rewrite Forall_forall in Hf. destruct (Hf _ Hb) as [Hs1 _]. simpl in *.
  apply in_loop_values in HL; [|exact Hs1]. destruct HL as (c & Hc & -> & Hu). nia.
Qed.

Lemma span_in_allocation s dom : wf_span s -> wf_dom dom -> Permutation (map fst dom) (sp_order s) ->
  dom_within dom (sp_b s) ->
  exists it, call_helper false s dom = Some it /\
    forall k, Z.of_nat k < mti_size it ->
      exists o, mti_addr (Nat.iter k mti_inc it) = padd (sp_ptr s) o /\ 0 <= o < cells_of (sp_b s).
Proof.
  intros Hs Hd HP Hw. destruct (span_enumerates s dom Hs Hd HP) as (it & E & Hsz & HA).
  exists it. split; [exact E|]. intros k Hk. rewrite Hsz in Hk.
  destruct (nth_error (domain_points dom origin) k) as [pt|] eqn:Ek; [|apply nth_error_None in Ek; lia].
  exists (offset_of (sp_b s) pt). split; [apply HA; exact Ek|]. apply offset_of_range.
  apply (dom_within_points dom (sp_b s) origin pt); auto; [apply Hs|]. eapply nth_error_In; eassumption.
Qed.

Lemma loop_order_invisible s dom dom' :
  wf_span s -> wf_dom dom -> Permutation dom dom' -> Permutation (map fst dom) (sp_order s) ->
  exists it it', call_helper false s dom = Some it /\ call_helper false s dom' = Some it' /\
    mti_size it = mti_size it' /\
    forall k pt, nth_error (domain_points dom origin) k = Some pt ->
      exists k' pt', nth_error (domain_points dom' origin) k' = Some pt' /\
        (forall d, pt' d = pt d) /\
        mti_addr (Nat.iter k mti_inc it) = mti_addr (Nat.iter k' mti_inc it').
Proof.
  intros Hs Hd HPd HP.
  assert (wf_dom dom') as Hd'.
  { destruct Hd as (H1 & H2 & H3). split; [|split].
    - intros ->. apply Permutation_sym, Permutation_nil in HPd. congruence.
    - eapply Permutation_NoDup; [apply Permutation_map; exact HPd|exact H2].
    - rewrite <- HPd. exact H3. }
  assert (Permutation (map fst dom') (sp_order s)) as HP'.
  { rewrite <- HP. apply Permutation_map, Permutation_sym, HPd. }
  destruct (span_enumerates s dom Hs Hd HP) as (it & E & Hsz & HA).
  destruct (span_enumerates s dom' Hs Hd' HP') as (it' & E' & Hsz' & HA').
  exists it, it'. split; [exact E|]. split; [exact E'|].
  assert (forall pt, In pt (domain_points dom origin) ->
            exists pt', In pt' (domain_points dom' origin) /\ forall d, pt' d = pt d) as Hpts.
  { intros pt Hpt. pose proof Hd as (_ & Hnd & _). pose proof Hd' as (_ & Hnd' & _).
    assert (forall d b, In (d, b) dom' -> In (pt d) (loop_values b)) as Hco.
    { intros d b Hb. apply (domain_point_coord dom origin); auto. rewrite HPd. exact Hb. }
    assert (forall d, ~ In d (map fst dom') -> pt d = origin d) as Hout.
    { intros d Hnin. apply (domain_points_outside dom origin); auto.
      intros Hc. apply Hnin. rewrite <- HPd. exact Hc. }
    revert Hco Hout Hnd'. clear. generalize origin. induction dom' as [|[d b] l IH]; intros o Hco Hout Hnd.
    - exists o. split; [left; reflexivity|]. intros d. symmetry. apply Hout. intros [].
    - inversion Hnd; subst. destruct (IH (pset o d (pt d))) as (q & Hq & Eq).
      + intros; apply Hco; right; assumption.
      + intros d' Hd'. destruct (Nat.eq_dec d' d) as [->|Hne]; [rewrite pset_same; reflexivity|].
        rewrite pset_other by exact Hne. apply Hout. simpl. intros [E|E]; [congruence|contradiction].
      + assumption.
      + exists q. split; [|exact Eq]. simpl. apply in_flat_map. exists (pt d).
        split; [apply Hco; left; reflexivity|exact Hq]. }
  split.
  - rewrite Hsz, Hsz'. rewrite !domain_points_length by (apply wf_counts; assumption).
    unfold counts. clear - HPd. induction HPd; simpl; rewrite ?prodZ_cons; lia.
  - intros k pt Hk. destruct (Hpts pt) as (pt' & Hin & Eq); [eapply nth_error_In; eassumption|].
    apply In_nth_error in Hin as [k' Hk']. exists k', pt'. split; [exact Hk'|]. split; [exact Eq|].
    rewrite (HA _ _ Hk), (HA' _ _ Hk'). apply addr_peq. intros d. symmetry. apply Eq.
Qed.

Lemma strided_loop f l s : 1 <= s ->
  (forall x, In x (loop_values (Bnd_s f l s)) <-> exists c, 0 <= c /\ x = f + s * c /\ x <= l) /\
  NoDup (loop_values (Bnd_s f l s)) /\
  (f <= l + 1 -> Z.of_nat (length (loop_values (Bnd_s f l s))) = - ((- (l - f + 1)) / s)).
Proof.
  intros Hs. split; [|split].
  - intros x. rewrite in_loop_values by exact Hs. unfold b_lb, b_ub, Bnd_s, Bnd_full, b2z; simpl.
    replace (l + 1 - 1) with l by lia. reflexivity.
  - apply loop_values_nodup. exact Hs.
  - intros H. unfold loop_values. rewrite map_length, seq_length. unfold count, b_ub, b_lb, Bnd_s, Bnd_full, b2z; simpl.
    replace (l + 1 - 1 - f + s) with (l - f + s) by lia.
    pose proof (Z.div_mod (l - f + s) s ltac:(lia)). pose proof (Z.mod_pos_bound (l - f + s) s ltac:(lia)).
    assert (0 <= (l - f + s) / s) by (apply Z.div_pos; lia). rewrite Z2Nat.id by lia.
    set (q := (l - f + s) / s) in *. assert ((- (l - f + 1)) / s = - q) as ->; [|lia].
    symmetry. apply Z.div_unique with (r := - (l - f + 1) + s * q); nia.
Qed.

Lemma call_counts s dom : wf_span s -> wf_dom dom -> Permutation (map fst dom) (sp_order s) ->
  exists it, call_helper false s dom = Some it /\
    m_n it = map (fun b => Z.of_nat (length (loop_values (snd b)))) dom.
Proof.
  intros Hs Hd HP.
  rewrite (call_helper_ok false s (sp_b s) [] dom origin Hs ltac:(rewrite app_nil_r; reflexivity) Hd HP).
  eexists; split; [reflexivity|]. cbn [m_n]. unfold counts. apply map_ext_in. intros b Hb.
  unfold loop_values. rewrite map_length, seq_length. destruct Hd as (_ & _ & Hf).
  rewrite Forall_forall in Hf. destruct (Hf _ Hb) as [H1 H2].
  assert (0 <= count (snd b)) by (unfold count; apply Z.div_pos; lia). lia.
Qed.
