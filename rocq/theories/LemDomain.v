(** * Domains, addresses and the span call operator *)

From Coq Require Import ZifyBool ZifyNat Permutation.
From Verif Require Import Base ModelBounds ModelMatrix ModelIters ModelSpan Spec
  LemBase LemMatrix LemFsi.
Import ListNotations.
Open Scope Z_scope.

(** ** Points *)

Definition peq (p q : point) : Prop := forall d, p d = q d.

(** The point with coordinates [c] in the domain. *)
Fixpoint pt_at (dom : list dbnd) (c : list Z) (pt : point) : point :=
  match dom, c with
  | (d, b) :: dom', x :: c' => pt_at dom' c' (pset pt d (b_lb b + stride b * x))
  | _, _ => pt
  end.

Definition counts (dom : list dbnd) : list Z := map (fun b => count (snd b)) dom.

Lemma counts_length dom : length (counts dom) = length dom.
Proof. apply map_length. Qed.

Lemma pset_same pt d x : pset pt d x d = x.
Proof. unfold pset. rewrite Nat.eqb_refl. reflexivity. Qed.

Lemma pset_other pt d x d' : d' <> d -> pset pt d x d' = pt d'.
Proof. intros H. unfold pset. destruct (Nat.eqb_spec d' d); congruence. Qed.

Lemma pset_peq p q d x : peq p q -> peq (pset p d x) (pset q d x).
Proof. intros H d'. unfold pset. destruct (Nat.eqb d' d); auto. Qed.

Lemma pmove_peq p q d x : peq p q -> peq (pmove p d x) (pmove q d x).
Proof. intros H. unfold pmove. rewrite (H d). apply pset_peq; assumption. Qed.

Lemma pset_pset_comm pt d1 d2 x y : d1 <> d2 ->
  peq (pset (pset pt d1 x) d2 y) (pset (pset pt d2 y) d1 x).
Proof.
  intros H d. unfold pset. destruct (Nat.eqb_spec d d1), (Nat.eqb_spec d d2); congruence.
Qed.

Lemma pset_pset pt d x y : peq (pset (pset pt d x) d y) (pset pt d y).
Proof. intros d'. unfold pset. destruct (Nat.eqb d' d); reflexivity. Qed.

Lemma pt_at_peq dom c p q : peq p q -> peq (pt_at dom c p) (pt_at dom c q).
Proof.
  revert c p q; induction dom as [|[d b] dom IH]; intros [|x c] p q H; simpl; auto.
  apply IH. apply pset_peq; assumption.
Qed.

Lemma pt_at_notin dom c pt d : ~ In d (map fst dom) -> pt_at dom c pt d = pt d.
Proof.
  revert c pt; induction dom as [|[d' b] dom IH]; intros [|x c] pt H; simpl in *; auto.
  rewrite IH by tauto. apply pset_other. intros ->. tauto.
Qed.

Lemma pt_at_pset dom c pt d x : ~ In d (map fst dom) ->
  peq (pt_at dom c (pset pt d x)) (pset (pt_at dom c pt) d x).
Proof.
  revert c pt; induction dom as [|[d' b] dom IH]; intros [|y c] pt H; simpl in *;
    try (intros ?; reflexivity).
  assert (d' <> d) by (intros ->; tauto). assert (~ In d (map fst dom)) by tauto.
  intros e. rewrite <- IH by assumption.
  apply pt_at_peq. intros e'. apply pset_pset_comm. congruence.
Qed.

Lemma pt_at_app dom1 dom2 c1 c2 pt :
  length c1 = length dom1 -> pt_at (dom1 ++ dom2) (c1 ++ c2) pt = pt_at dom2 c2 (pt_at dom1 c1 pt).
Proof.
  revert c1 pt; induction dom1 as [|[d b] dom1 IH]; intros [|x c1] pt H; try discriminate; simpl; auto.
Qed.

(** The value of a domain direction. *)
Lemma pt_at_in dom c pt j d b :
  NoDup (map fst dom) -> length c = length dom -> nth_error dom j = Some (d, b) ->
  pt_at dom c pt d = b_lb b + stride b * aget c j.
Proof.
  revert c pt j; induction dom as [|[d' b'] dom IH]; intros c pt j Hnd HL Hj.
  - destruct j; discriminate.
  - destruct c as [|x c]; [discriminate|]. simpl in Hnd. inversion Hnd; subst.
    destruct j as [|j]; simpl in Hj.
    + injection Hj as -> ->. simpl. rewrite pt_at_notin by assumption. rewrite pset_same. reflexivity.
    + simpl. rewrite (IH _ _ j) by (simpl in HL; auto; lia). reflexivity.
Qed.

(** ** Offsets *)

Lemma offset_of_peq bs p q : peq p q -> offset_of bs p = offset_of bs q.
Proof. intros H. induction bs as [|[d b] bs IH]; simpl; [reflexivity|]. rewrite H, IH. reflexivity. Qed.

Lemma addr_peq s p q : peq p q -> addr s p = addr s q.
Proof. intros H. unfold addr. rewrite (offset_of_peq _ _ _ H). reflexivity. Qed.

(** Distance in memory between consecutive indices of direction [d]. *)
Fixpoint sstride (bs : list dbnd) (d : dim) : Z :=
  match bs with
  | [] => 0
  | (d', b) :: bs' => if Nat.eqb d' d then cells_of bs' else sstride bs' d
  end.

Lemma offset_of_notin bs pt d x : ~ In d (map fst bs) -> offset_of bs (pset pt d x) = offset_of bs pt.
Proof.
  induction bs as [|[d' b] bs IH]; simpl; intros H; [reflexivity|].
  rewrite IH by tauto. rewrite pset_other by (intros ->; tauto). reflexivity.
Qed.

Lemma offset_of_pset bs pt d x :
  NoDup (map fst bs) -> offset_of bs (pset pt d x) = offset_of bs pt + (x - pt d) * sstride bs d.
Proof.
  induction bs as [|[d' b] bs IH]; simpl; intros H; [lia|]. inversion H; subst.
  destruct (Nat.eqb_spec d' d) as [->|Hne].
  - rewrite pset_same, offset_of_notin by assumption. lia.
  - rewrite pset_other by congruence. rewrite IH by assumption. lia.
Qed.

Lemma offset_of_pmove bs pt d z :
  NoDup (map fst bs) -> offset_of bs (pmove pt d z) = offset_of bs pt + z * sstride bs d.
Proof. intros H. unfold pmove. rewrite offset_of_pset by assumption. lia. Qed.

Lemma offset_of_pt_at bs dom c pt :
  NoDup (map fst bs) -> NoDup (map fst dom) -> length c = length dom ->
  offset_of bs (pt_at dom c pt) =
  offset_of bs (pt_at dom (map (fun _ => 0) dom) pt) +
  dotZ (map (fun o => sstride bs (fst o) * stride (snd o)) dom) c.
Proof.
  intros Hb. revert c pt; induction dom as [|[d b] dom IH]; intros [|x c] pt Hd HL; try discriminate; simpl.
  - lia.
  - simpl in Hd. inversion Hd; subst. simpl in HL.
    rewrite IH by (auto; lia).
    rewrite (offset_of_peq _ _ _ (pt_at_pset dom (map (fun _ => 0) dom) pt d (b_lb b + stride b * x) ltac:(assumption))).
    rewrite (offset_of_peq _ _ _ (pt_at_pset dom (map (fun _ => 0) dom) pt d (b_lb b + stride b * 0) ltac:(assumption))).
    rewrite !offset_of_pset by assumption.
    rewrite pt_at_notin by assumption. lia.
Qed.

Lemma rav_offset_of bs pt :
  rav (map (fun b => extent (snd b)) bs) (map (fun b => pt (fst b) - b_lb (snd b)) bs) = offset_of bs pt.
Proof.
  induction bs as [|[d b] bs IH]; simpl; [reflexivity|]. rewrite IH. reflexivity.
Qed.

(** ** Positions and points *)

Definition seqZ (n : Z) : list Z := map Z.of_nat (seq 0 (Z.to_nat n)).

Lemma in_seqZ n k : In k (seqZ n) <-> 0 <= k < n.
Proof.
  unfold seqZ. rewrite in_map_iff. split.
  - intros (j & <- & Hj). apply in_seq in Hj. lia.
  - intros H. exists (Z.to_nat k). split; [lia|]. apply in_seq. lia.
Qed.

Lemma seqZ_S n : 0 <= n -> seqZ (n + 1) = 0 :: map (fun k => k + 1) (seqZ n).
Proof.
  intros H. unfold seqZ. replace (Z.to_nat (n + 1)) with (S (Z.to_nat n)) by lia.
  cbn [seq map]. rewrite <- seq_shift, !map_map. f_equal. apply map_ext. intros; lia.
Qed.

Lemma seqZ_app a b : 0 <= a -> 0 <= b -> seqZ (a + b) = seqZ a ++ map (fun k => a + k) (seqZ b).
Proof.
  intros Ha Hb. unfold seqZ. rewrite Z2Nat.inj_add by lia. rewrite seq_app, map_app. f_equal.
  rewrite map_map. rewrite Nat.add_0_l.
  replace (seq (Z.to_nat a) (Z.to_nat b)) with (map (fun k => Z.to_nat a + k)%nat (seq 0 (Z.to_nat b))).
  - rewrite map_map. apply map_ext. intros; lia.
  - clear. generalize (Z.to_nat a) as x. intros x. induction (Z.to_nat b) as [|n IH] using nat_ind; [reflexivity|].
    rewrite !seq_S, map_app, IH. reflexivity.
Qed.

Lemma seqZ_mul c P : 0 <= c -> 0 <= P ->
  seqZ (c * P) = flat_map (fun k => map (fun j => k * P + j) (seqZ P)) (seqZ c).
Proof.
  intros Hc HP. revert c Hc. apply natlike_ind.
  - reflexivity.
  - intros c Hc IH. unfold Z.succ. rewrite Z.mul_add_distr_r, Z.mul_1_l.
    rewrite seqZ_app by nia. rewrite IH.
    rewrite (seqZ_app c 1) by lia. rewrite flat_map_app. f_equal.
    unfold seqZ at 2. simpl. rewrite app_nil_r. apply map_ext. intros; lia.
Qed.

Lemma flat_map_nil {A B} (l : list A) : flat_map (fun _ => @nil B) l = [].
Proof. induction l; simpl; auto. Qed.

Lemma wf_counts dom : wf_dom dom -> Forall (fun x => 0 <= x) (counts dom).
Proof.
  intros (_ & _ & H). unfold counts. apply Forall_map. eapply Forall_impl; [|exact H].
  intros [d b] [H1 H2]; simpl in *. unfold count. apply Z.div_pos; lia.
Qed.

Lemma wf_counts_pos dom : wf_dom dom -> 0 < prodZ (counts dom) -> Forall (fun x => 1 <= x) (counts dom).
Proof. intros H Hp. apply prodZ_pos_inv; [apply wf_counts; assumption | assumption]. Qed.

Lemma domain_points_seqZ dom pt :
  Forall (fun x => 0 <= x) (counts dom) ->
  domain_points dom pt = map (fun k => pt_at dom (unrav (counts dom) k) pt) (seqZ (prodZ (counts dom))).
Proof.
  revert pt; induction dom as [|[d b] dom IH]; intros pt H.
  - reflexivity.
  - inversion H as [|? ? H1 H2]; subst. simpl in H1.
    change (counts ((d, b) :: dom)) with (count b :: counts dom).
    rewrite prodZ_cons. pose proof (prodZ_nonneg _ H2) as HP.
    rewrite seqZ_mul by assumption. cbn [domain_points unrav].
    unfold loop_values.
    transitivity (flat_map (fun k => domain_points dom (pset pt d (b_lb b + stride b * k))) (seqZ (count b))).
    { unfold seqZ. rewrite !flat_map_concat_map, !map_map. reflexivity. }
    rewrite (flat_map_concat_map (fun k => map (fun j => k * _ + j) _)).
    rewrite concat_map, map_map, flat_map_concat_map. f_equal.
    apply map_ext. intros k. rewrite IH by assumption. rewrite map_map.
    apply map_ext_in. intros j Hj. apply in_seqZ in Hj.
    cbn [pt_at].
    rewrite Z.div_add_l by lia. rewrite (Z.div_small j) by lia.
    rewrite (Z.add_comm (k * _)), Z_mod_plus_full, Z.mod_small by lia.
    rewrite Z.add_0_r. reflexivity.
Qed.

(** ** Index maps *)

Lemma map_index_in L d : In d L -> (map_index L d < length L)%nat /\ nth_error L (map_index L d) = Some d.
Proof.
  induction L as [|x L IH]; simpl; intros H; [tauto|].
  destruct (Nat.eqb_spec x d) as [->|Hne]; simpl; [split; [lia|reflexivity]|].
  destruct H as [->|H]; [congruence|]. destruct (IH H). split; [lia|assumption].
Qed.

Lemma map_index_notin L d : ~ In d L -> map_index L d = length L.
Proof.
  induction L as [|x L IH]; simpl; intros H; [reflexivity|].
  destruct (Nat.eqb_spec x d); [tauto|]. rewrite IH; tauto.
Qed.

Lemma map_index_nth L d i : NoDup L -> nth_error L i = Some d -> map_index L d = i.
Proof.
  revert i; induction L as [|x L IH]; intros [|i] Hnd H; simpl in *; try discriminate.
  - injection H as ->. rewrite Nat.eqb_refl. reflexivity.
  - inversion Hnd; subst. apply nth_error_In in H as Hin.
    destruct (Nat.eqb_spec x d) as [->|]; [contradiction|]. rewrite (IH i) by assumption. reflexivity.
Qed.

Lemma nth_error_In_fst (l : list dbnd) d : In d (map fst l) ->
  exists b, nth_error l (map_index (map fst l) d) = Some (d, b).
Proof.
  intros H. destruct (map_index_in _ _ H) as [_ H2]. rewrite nth_error_map in H2.
  destruct (nth_error l (map_index (map fst l) d)) as [[d' b]|]; simpl in H2; [|discriminate].
  injection H2 as ->. eauto.
Qed.

Lemma span_sizes_wf s : wf_span s -> span_sizes s = Some (map (fun b => extent (snd b)) (sp_b s)).
Proof.
  intros [_ H]. unfold span_sizes. apply mapM_map. intros [d b] Hin.
  rewrite Forall_forall in H. specialize (H _ Hin). simpl in *. unfold b_size, extent, b_ub, b_lb.
  rewrite H. unfold cdiv. simpl. rewrite Z.quot_1_r. f_equal. lia.
Qed.

Lemma count_cdiv b : 1 <= stride b -> b_lb b <= b_ub b + 1 ->
  cdiv (b_ub b - b_lb b + stride b) (stride b) = Some (count b).
Proof. intros H1 H2. rewrite cdiv_pos by lia. reflexivity. Qed.

(** Stage one of [call_helper]: the domain's data in storage order. *)
Definition dlook (f : bounds -> Z) (dom : list dbnd) (d : dim) : Z :=
  match find (fun b => Nat.eqb (fst b) d) dom with Some b => f (snd b) | None => 0 end.

Lemma find_map_index (dom : list dbnd) d :
  find (fun b => Nat.eqb (fst b) d) dom = nth_error dom (map_index (map fst dom) d).
Proof.
  induction dom as [|[d' b] dom IH]; simpl; [reflexivity|].
  destruct (Nat.eqb_spec d' d); simpl; auto.
Qed.

Lemma dlook_stage f dom order N :
  length order = N -> (length dom <= N)%nat ->
  (forall d, In d order -> In d (map fst dom) \/ (length dom < N)%nat) ->
  mapM (fun d => nth_error (map (fun b => f (snd b)) dom ++ repeat 0 (N - length dom))
                           (map_index (map fst dom) d)) order
  = Some (map (dlook f dom) order).
Proof.
  intros HN HL H. apply mapM_map. intros d Hd. unfold dlook. rewrite find_map_index.
  destruct (in_dec Nat.eq_dec d (map fst dom)) as [Hin|Hnin].
  - destruct (nth_error_In_fst _ _ Hin) as [b Hb]. rewrite Hb.
    rewrite nth_error_app1.
    + rewrite nth_error_map, Hb. reflexivity.
    + rewrite map_length. apply nth_error_Some. congruence.
  - rewrite map_index_notin by assumption. rewrite map_length.
    destruct (H d Hd) as [?|Hlt]; [contradiction|].
    rewrite nth_error_app2 by (rewrite map_length; lia). rewrite map_length, Nat.sub_diag.
    destruct (N - length dom)%nat eqn:E; [lia|]. cbn [repeat nth_error].
    destruct (nth_error dom (length dom)) eqn:E'; [|reflexivity].
    assert (length dom < length dom)%nat by (apply nth_error_Some; congruence). lia.
Qed.

(** Lower-bound point of the window directions. *)
Fixpoint lbs (tl : list dbnd) (pt : point) : point :=
  match tl with
  | [] => pt
  | (d, b) :: tl' => lbs tl' (pset pt d (b_lb b))
  end.

Lemma lbs_notin tl pt d : ~ In d (map fst tl) -> lbs tl pt d = pt d.
Proof.
  revert pt; induction tl as [|[d' b] tl IH]; intros pt H; simpl in *; [reflexivity|].
  rewrite IH by tauto. apply pset_other. intros ->; tauto.
Qed.

Lemma lbs_in tl pt d b : NoDup (map fst tl) -> In (d, b) tl -> lbs tl pt d = b_lb b.
Proof.
  revert pt; induction tl as [|[d' b'] tl IH]; intros pt Hnd H; simpl in *; [tauto|].
  inversion Hnd; subst. destruct H as [H|H].
  - injection H as -> ->. rewrite lbs_notin by assumption. apply pset_same.
  - apply IH; assumption.
Qed.

Definition strides_of (bs dom : list dbnd) : list Z :=
  map (fun o => sstride bs (fst o) * stride (snd o)) dom.

Lemma sstride_skipn bs d :
  In d (map fst bs) ->
  sstride bs d = prodZ (skipn (S (map_index (map fst bs) d)) (map (fun b => extent (snd b)) bs)).
Proof.
  induction bs as [|[d' b] bs IH]; simpl; intros H; [tauto|].
  destruct (Nat.eqb_spec d' d) as [->|Hne]; [reflexivity|].
  rewrite IH by (destruct H; [congruence|assumption]). reflexivity.
Qed.

(** The span call operator over the directions [hd] of a span [hd ++ tl]:
    [tl = []] for ordinary use, [tl = [(W, _)]] for windows. *)
Lemma call_helper_ok flag s hd tl dom pt0 :
  wf_span s -> sp_b s = hd ++ tl -> wf_dom dom ->
  Permutation (map fst dom) (map fst hd) ->
  call_helper flag s dom =
  Some (mkMti (addr s (pt_at dom (map (fun _ => 0) dom) (lbs tl pt0)))
              (strides_of (sp_b s) dom) (map (fun _ => 0) dom) (counts dom)
              (negb (Nat.eqb (length tl) 0) || flag)).
Proof.
  intros Hw Hs (_ & Hnd & Hb) HP. pose proof Hw as [Hnds Hus].
  set (N := length (sp_b s)).
  assert (length dom = length hd) as HLd.
  { apply Permutation_length in HP. rewrite !map_length in HP. exact HP. }
  assert (N = length hd + length tl)%nat as HN by (unfold N; rewrite Hs, app_length; reflexivity).
  set (pt := pt_at dom (map (fun _ => 0) dom) (lbs tl pt0)).
  unfold call_helper. fold N.
  destruct (Nat.ltb_spec N (length dom)); [lia|].
  assert (forall d, In d (sp_order s) -> In d (map fst dom) \/ (length dom < N)%nat) as Hcov.
  { intros d Hd. unfold sp_order in Hd. rewrite Hs, map_app, in_app_iff in Hd.
    destruct Hd as [Hd|Hd].
    - left. eapply Permutation_in; [symmetry; exact HP | exact Hd].
    - right. assert (length tl <> 0)%nat by (destruct tl; [simpl in Hd; tauto|discriminate]). lia. }
  assert (length (sp_order s) = N) as HLo by (unfold sp_order; rewrite map_length; reflexivity).
  rewrite (dlook_stage b_lb), (dlook_stage b_ub), (dlook_stage stride) by (auto; lia).
  cbn [bind].
  (* the bound of dimension i *)
  set (bnd := fun i => snd (nth i (sp_b s) (0%nat, mkBounds 0 0 1))).
  assert (forall f, let a0 := map (dlook f dom) (sp_order s) in
     length a0 = N /\
     forall i, (i < N)%nat -> aget a0 i = dlook f dom (fst (nth i (sp_b s) (0%nat, mkBounds 0 0 1)))) as H0.
  { intros f a0. unfold a0. rewrite map_length. split; [exact HLo|]. intros i Hi.
    rewrite aget_map with (d := 0%nat) by lia. f_equal. unfold sp_order.
    change 0%nat with (fst (0%nat, mkBounds 0 0 1)) at 1. rewrite map_nth. reflexivity. }
  set (win := seq (length dom) (N - length dom)).
  assert (forall f, let a1 := fold_left (fun a i => aset a i (f (bnd i))) win (map (dlook f dom) (sp_order s)) in
     length a1 = N /\
     forall i, (i < N)%nat -> aget a1 i =
       if Nat.ltb i (length dom) then dlook f dom (fst (nth i (sp_b s) (0%nat, mkBounds 0 0 1)))
       else f (bnd i)) as H1.
  { intros f a1. destruct (H0 f) as [L0 G0].
    destruct (fold_aset_range (fun i _ => f (bnd i)) (length dom) (N - length dom)
                              (map (dlook f dom) (sp_order s))) as [L1 G1].
    fold win in L1, G1. unfold a1. split; [rewrite L1; exact L0|].
    intros i Hi. rewrite G1 by lia. rewrite G0 by lia.
    destruct (Nat.leb_spec (length dom) i), (Nat.ltb_spec i (length dom + (N - length dom))),
      (Nat.ltb_spec i (length dom)); simpl; try reflexivity; lia. }
  assert (forall i, (i < N)%nat -> In (nth i (sp_b s) (0%nat, mkBounds 0 0 1)) (sp_b s)) as HIn.
  { intros i Hi. apply nth_In. exact Hi. }
  (* direction i of the span, its value in pt *)
  assert (forall i, (i < N)%nat ->
     let d := fst (nth i (sp_b s) (0%nat, mkBounds 0 0 1)) in
     pt d = if Nat.ltb i (length dom) then dlook b_lb dom d else b_lb (bnd i)) as Hpt.
  { intros i Hi d. destruct (Nat.ltb_spec i (length dom)) as [Hlt|Hge].
    - assert (In d (map fst dom)) as Hin.
      { eapply Permutation_in; [symmetry; exact HP|]. unfold d. rewrite Hs, app_nth1 by lia.
        apply in_map. apply nth_In. lia. }
      destruct (nth_error_In_fst _ _ Hin) as [b' Hb'].
      unfold pt. rewrite (pt_at_in dom _ _ _ _ _ Hnd ltac:(rewrite map_length; reflexivity) Hb').
      unfold dlook. rewrite find_map_index, Hb'. simpl.
      assert (aget (map (fun _ : dbnd => 0) dom) (map_index (map fst dom) d) = 0) as ->.
      { rewrite aget_map with (d := (0%nat, mkBounds 0 0 1)); [reflexivity|].
        apply nth_error_Some. congruence. }
      lia.
    - assert (In (nth i (sp_b s) (0%nat, mkBounds 0 0 1)) tl) as Hin.
      { rewrite Hs, app_nth2 by lia. apply nth_In. lia. }
      assert (NoDup (map fst hd ++ map fst tl)) as Hnd2.
      { rewrite <- map_app, <- Hs. exact Hnds. }
      assert (~ In d (map fst dom)) as Hnin.
      { intros Hc. eapply Permutation_in in Hc; [|exact HP].
        assert (In d (map fst tl)) by (apply in_map; exact Hin).
        clear - Hnd2 Hc H2. induction (map fst hd) as [|x l IH]; simpl in *; [tauto|].
        inversion Hnd2 as [|? ? Hx Hr]; subst. destruct Hc as [->|Hc]; [|tauto].
        apply Hx. apply in_or_app. right; assumption. }
      unfold pt. rewrite pt_at_notin by assumption.
      unfold bnd. unfold d in *. destruct (nth i (sp_b s) _) as [dd bb] eqn:E. simpl in *.
      apply lbs_in; [|assumption].
      clear - Hnd2. induction (map fst hd) as [|x l IH]; simpl in *; [assumption|].
      inversion Hnd2; auto. }
  rewrite (span_sizes_wf s Hw). cbn [bind].
  set (lb1 := fold_left (fun a i => aset a i (b_lb (bnd i))) win (map (dlook b_lb dom) (sp_order s))).
  set (ub1 := fold_left (fun a i => aset a i (b_ub (bnd i))) win (map (dlook b_ub dom) (sp_order s))).
  set (stm1 := fold_left (fun a i => aset a i (stride (bnd i))) win (map (dlook stride dom) (sp_order s))).
  destruct (H1 b_lb) as [Llb Glb]. destruct (H1 b_ub) as [Lub Gub]. destruct (H1 stride) as [Lst Gst].
  fold lb1 in Llb, Glb. fold ub1 in Lub, Gub. fold stm1 in Lst, Gst.
  destruct (fold_aset_range (fun i x => x - b_lb (bnd i)) 0 N lb1) as [Llb2 Glb2].
  destruct (fold_aset_range (fun i x => x - b_lb (bnd i)) 0 N ub1) as [Lub2 Gub2].
  set (lb2 := fold_left (fun a i => aset a i (aget a i - b_lb (bnd i))) (seq 0 N) lb1) in *.
  set (ub2 := fold_left (fun a i => aset a i (aget a i - b_lb (bnd i))) (seq 0 N) ub1) in *.
  assert (lb2 = map (fun b => pt (fst b) - b_lb (snd b)) (sp_b s)) as Elb.
  { apply aget_ext; [rewrite map_length; lia|]. rewrite Llb2, Llb. intros i Hi.
    rewrite Glb2 by lia. rewrite Glb by lia.
    rewrite aget_map with (d := (0%nat, mkBounds 0 0 1)) by (fold N; lia).
    destruct (Nat.ltb_spec i (0 + N)); [|lia]. simpl.
    rewrite Hpt by exact Hi. fold (bnd i). reflexivity. }
  assert (forall o, In o dom -> (map_index (sp_order s) (fst o) < N)%nat) as Hidx.
  { intros o Ho. rewrite <- HLo. apply map_index_in.
    unfold sp_order. rewrite Hs, map_app. apply in_or_app. left.
    eapply Permutation_in; [exact HP|]. apply in_map. exact Ho. }
  assert (forallb (fun i => Nat.ltb i N) (transpose_sequence (sp_order s) (map fst dom)) = true) as ->.
  { apply forallb_forall. intros i Hi. unfold transpose_sequence in Hi.
    rewrite map_map in Hi. apply in_map_iff in Hi as (o & <- & Ho).
    apply Nat.ltb_lt. apply Hidx. exact Ho. }
  (* data of a domain direction *)
  assert (forall o, In o dom -> let i := map_index (sp_order s) (fst o) in
            aget ub2 i - aget lb2 i = b_ub (snd o) - b_lb (snd o) /\ aget stm1 i = stride (snd o)) as Ho.
  { intros [d b] Hin i. specialize (Hidx _ Hin). simpl in Hidx. simpl in i. fold i in Hidx.
    assert (In d (map fst hd)) as Hd.
    { eapply Permutation_in; [exact HP|]. apply (in_map fst) in Hin. exact Hin. }
    assert (fst (nth i (sp_b s) (0%nat, mkBounds 0 0 1)) = d) as Ed.
    { rewrite <- map_nth. change (map fst (sp_b s)) with (sp_order s).
      unfold i. apply nth_error_nth. apply map_index_in.
      unfold sp_order. rewrite Hs, map_app. apply in_or_app; auto. }
    assert (i < length dom)%nat as Hlt.
    { rewrite HLd. unfold i, sp_order. rewrite Hs, map_app.
      clear - Hd. rewrite <- (map_length fst). induction (map fst hd) as [|x l IH]; simpl in *; [tauto|].
      destruct (Nat.eqb_spec x d); [lia|]. destruct Hd as [->|Hd]; [congruence|].
      specialize (IH Hd). lia. }
    assert (forall f, dlook f dom d = f b) as Hdl.
    { intros f. unfold dlook. rewrite find_map_index.
      destruct (In_nth_error _ _ Hin) as [j Hj].
      rewrite (map_index_nth _ d j); [rewrite Hj; reflexivity| exact Hnd|].
      rewrite nth_error_map, Hj. reflexivity. }
    rewrite Gub2, Glb2, Gub, Glb, Gst by lia. rewrite Ed, !Hdl.
    destruct (Nat.ltb_spec i (0 + N)); [|lia]. destruct (Nat.ltb_spec i (length dom)); [|lia].
    simpl. split; [lia|reflexivity]. }
  match goal with |- _ = ?R =>
    change (make_submatrix_helper (transpose_sequence (sp_order s) (map fst dom)) (sp_ptr s)
              (map (fun b => extent (snd b)) (sp_b s)) lb2 ub2 stm1 flag = R) end.
  clear - Elb Ho Hidx Hb HN HLd HP Hs. clearbody lb2 ub2 stm1.
  unfold make_submatrix_helper.
  assert (mapM (fun i => cdiv (aget ub2 i - aget lb2 i + aget stm1 i) (aget stm1 i))
               (transpose_sequence (sp_order s) (map fst dom)) = Some (counts dom)) as ->.
  { unfold transpose_sequence. rewrite map_map. unfold counts.
    clear - Ho Hb. induction dom as [|o dom IH]; [reflexivity|].
    inversion Hb; subst. cbn [map mapM].
    destruct (Ho o (or_introl eq_refl)) as [E1 E2].
    rewrite E1, E2. rewrite count_cdiv by tauto. cbn [bind].
    rewrite IH; [reflexivity|assumption|]. intros o' Ho'. apply Ho. right; assumption. }
  cbn [bind]. f_equal. f_equal.
  - rewrite Elb. unfold addr, padd. f_equal. f_equal.
    destruct (sp_b s) as [|b0 bs] eqn:Eb.
    + reflexivity.
    + rewrite ravel_rav; [apply rav_offset_of|discriminate|rewrite !map_length; reflexivity].
  - unfold transpose_sequence, strides_of. rewrite !map_map.
    apply map_ext_in. intros o Hin. destruct (Ho o Hin) as [_ E2].
    unfold stride_dim_stm. rewrite E2. rewrite stride_dim_skipn by lia.
    rewrite sstride_skipn.
    + f_equal. f_equal. f_equal. unfold sp_order. lia.
    + rewrite Hs, map_app. apply in_or_app; left. eapply Permutation_in; [exact HP|].
      apply in_map; exact Hin.
  - unfold transpose_sequence. rewrite !map_map. reflexivity.
  - unfold transpose_sequence. rewrite !map_length. f_equal. fold N. rewrite HN, HLd.
    destruct (Nat.ltb_spec (length hd) (length hd + length tl)), (Nat.eqb_spec (length tl) 0);
      simpl; try reflexivity; lia.
Qed.

(** As a family indexed by position. *)
Lemma call_helper_family flag s hd tl dom :
  wf_span s -> sp_b s = hd ++ tl -> wf_dom dom ->
  Permutation (map fst dom) (map fst hd) ->
  Forall (fun x => 1 <= x) (counts dom) ->
  let fl := (negb (Nat.eqb (length tl) 0) || flag)%bool in
  exists base,
  call_helper flag s dom = Some (mt_at base (strides_of (sp_b s) dom) (counts dom) fl 0) /\
  forall p pt0, 0 <= p < prodZ (counts dom) ->
    mti_addr (mt_at base (strides_of (sp_b s) dom) (counts dom) fl p) =
    addr s (pt_at dom (unrav (counts dom) p) (lbs tl pt0)).
Proof.
  intros Hw Hs Hd HP Hc fl.
  exists (addr s (pt_at dom (map (fun _ => 0) dom) (lbs tl origin))). split.
  - rewrite (call_helper_ok flag s hd tl dom origin) by assumption. unfold mt_at.
    rewrite coordZ_0 by assumption. unfold fl. f_equal. f_equal.
    unfold counts. rewrite map_map. reflexivity.
  - intros p pt0 Hp.
    assert (addr s (pt_at dom (map (fun _ => 0) dom) (lbs tl origin)) =
            addr s (pt_at dom (map (fun _ => 0) dom) (lbs tl pt0))) as ->.
    { pose proof (call_helper_ok flag s hd tl dom origin Hw Hs Hd HP) as E1.
      rewrite (call_helper_ok flag s hd tl dom pt0 Hw Hs Hd HP) in E1. congruence. }
    rewrite mti_addr_dotZ; simpl.
    2:{ unfold strides_of, counts. rewrite !map_length. reflexivity. }
    2:{ apply coordZ_length. }
    unfold addr, padd. simpl. f_equal.
    rewrite (offset_of_pt_at (sp_b s) dom (unrav (counts dom) p)).
    2:{ apply Hw. } 2:{ apply Hd. } 2:{ rewrite unrav_length. apply counts_length. }
    unfold coordZ. destruct (Z.ltb_spec p (prodZ (counts dom))); [|lia].
    unfold strides_of. lia.
Qed.
