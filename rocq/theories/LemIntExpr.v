(** * [int] evaluation of expressions agrees with the exact one *)

From Coq Require Import ZifyBool ZifyNat Permutation.
From Verif Require Import Base ModelBounds ModelMatrix ModelIters ModelSpan ModelProxy ModelInt Spec SpecWindow SpecInt
  LemBase LemMatrix LemFsi LemDomain LemExpr LemAssign LemInt LemIntSpan.
Import ListNotations.
Open Scope Z_scope.

Lemma grow_dom32_ok sh d dom s : (sh = 1 \/ sh = -1) ->
  Forall (fun b => b_lb (snd b) <= b_ub (snd b) + 1) dom ->
  inside (grow_dom sh d dom) s -> int_array s -> grow_dom32 sh d dom = Some (grow_dom sh d dom).
Proof.
  intros Hsh Hwf Hin Hi. unfold grow_dom32, grow_dom. apply mapM_map. intros [d' b] Hb. cbn [fst snd].
  rewrite Forall_forall in Hwf. specialize (Hwf _ Hb). cbn [snd] in Hwf.
  unfold inside in Hin. rewrite Forall_forall in Hin.
  destruct (Hin (d_plus (d', b) (shift_v sh d d'))) as (b' & H1 & H2 & H3 & _).
  { unfold grow_dom. apply (in_map (fun b => d_plus b (shift_v sh d (fst b)))) in Hb. exact Hb. }
  destruct Hi as [Ha _]. rewrite Forall_forall in Ha. destruct (Ha _ H1) as [H4 _].
  unfold d_plus, db_plus32, db_plus, b_pluseq, b_minuseq, int_range, b_lb, b_ub, shift_v in *. cbn [fst snd] in *.
  destruct (Nat.eqb d d'); [destruct Hsh as [-> | ->]|]; cbn [Z.leb Z.compare fst snd first last] in *.
  - rewrite iadd_ok by ilia. reflexivity.
  - rewrite (isub_ok 0 (-1)) by ilia. cbn [bind]. change (0 - -1) with 1 in *. change (- -1) with 1 in *.
    rewrite isub_ok by ilia. reflexivity.
  - rewrite iadd_ok by ilia. reflexivity.
Qed.

Lemma shift_dom32_ok d z dom : wf_dom dom ->
  Forall (fun b => int_range (snd b)) (shift_dom d z dom) -> shift_dom32 d z dom = Some (shift_dom d z dom).
Proof.
  intros (_ & _ & Hwf) H. unfold shift_dom32, shift_dom in *. apply mapM_map. intros [d' b] Hb. cbn [fst snd].
  rewrite Forall_map, Forall_forall in H. specialize (H _ Hb). rewrite Forall_forall in Hwf. destruct (Hwf _ Hb) as [_ Hl].
  unfold d_shift, b_shift, b_shift32, int_range, b_lb, b_ub in *. cbn [fst snd first last stride] in *.
  rewrite iadd_ok by ilia. cbn [bind]. rewrite iadd_ok by ilia. reflexivity.
Qed.

Lemma coarse_to_fine32_ok (s : span) r cb dom d b :
  wf_span s -> wf_dom dom -> 1 <= r -> NoDup (map fst cb) ->
  Permutation (map fst dom) (sp_order s) -> In (d, b) dom ->
  Permutation (map fst dom) (d :: map fst cb) -> b_lb b <= b_ub b ->
  int_array s -> r <= int_max ->
  Forall (fun b => int_range (snd b) /\ 0 <= stride (snd b) <= int_max) cb ->
  Forall (fun b => int_range (snd b) /\ stride (snd b) <= int_max) dom ->
  Forall (fun b => exists b', In (fst b, b') (sp_b s) /\ b_lb b' <= b_lb (snd b) <= b_ub b') cb ->
  (forall b', In (d, b') (sp_b s) -> b_lb b' <= b_lb b / r /\ b_ub b / r <= b_ub b') ->
  (* the members of the fixed bounds *)
  Forall (fun b => b_lb (snd b) <= b_ub (snd b) + 1) cb ->
  coarse_to_fine32 s r cb dom = coarse_to_fine s r cb dom.
Proof.
  intros Hs Hd Hr Hcb HP Hin HPd Hne Hi Hr2 Hcbi Hdi Hcin Hlin Hcwf.
  pose proof Hd as (_ & Hnd & Hwf).
  pose proof Hs as [Hnds Hus].
  assert (NoDup (d :: map fst cb)) as Hnd2 by (eapply Permutation_NoDup; eassumption).
  assert (~ In d (map fst cb)) as Hdcb by (inversion Hnd2; assumption).
  assert (length dom = Datatypes.S (length cb)) as HL1.
  { apply Permutation_length in HPd. simpl in HPd. rewrite !map_length in HPd. exact HPd. }
  assert (length (sp_b s) = length dom) as HL2.
  { apply Permutation_length in HP. unfold sp_order in HP. rewrite !map_length in HP. congruence. }
  assert (In d (map fst dom)) as Hdd by (apply (in_map fst) in Hin; exact Hin).
  assert (nth_error dom (map_index (map fst dom) d) = Some (d, b)) as Edb.
  { destruct (In_nth_error _ _ Hin) as [j Hj]. rewrite (map_index_nth _ d j); auto.
    rewrite nth_error_map, Hj. reflexivity. }
  assert (missing_index (map fst dom) (map fst cb) = Some d) as EM.
  { unfold missing_index.
    assert (forall f, In f (map fst dom) ->
              negb (existsb (Nat.eqb f) (map fst cb)) = Nat.eqb f d) as HF.
    { intros f Hf. eapply Permutation_in in Hf; [|exact HPd].
      destruct (Nat.eqb_spec f d) as [->|Hnx].
      - apply negb_true_iff. apply not_true_is_false. intros Hx. apply existsb_exists in Hx as (y & Hy & Ey).
        apply Nat.eqb_eq in Ey. subst y. contradiction.
      - destruct Hf as [Hf|Hf]; [congruence|]. apply negb_false_iff. apply existsb_exists.
        exists f. split; [exact Hf|apply Nat.eqb_refl]. }
    rewrite (filter_ext_in _ (fun f => Nat.eqb f d)) by exact HF.
    clear - Hdd. induction (map fst dom) as [|y l IH]; simpl in *; [tauto|].
    destruct (Nat.eqb_spec y d) as [->|]; [reflexivity|]. destruct Hdd; [congruence|auto]. }
  rewrite Forall_forall in Hdi, Hwf.
  destruct (Hdi _ Hin) as [Hbr Hbs]. cbn [snd] in Hbr, Hbs. unfold int_range in Hbr.
  assert (int_min <= b_lb b < int_max) as Hlb by ilia.
  unfold coarse_to_fine32, coarse_to_fine.
  destruct (array_rep s Hs Hi) as [r1 ->]. cbn [bind].
  destruct (mapM_some (fun b : dbnd => b_rep (snd b)) cb) as [r2 ->].
  { intros b0 H0. exists (snd b0). rewrite Forall_forall in Hcbi, Hcwf. destruct (Hcbi _ H0) as [H1 H2].
    apply b_rep_ok; [exact H1|apply Hcwf; exact H0|ilia]. }
  cbn [bind].
  destruct (mapM_some (fun b : dbnd => b_rep (snd b)) dom) as [r3 ->].
  { intros b0 H0. exists (snd b0). destruct (Hdi _ H0) as [H1 H2]. destruct (Hwf _ H0) as [H3 H4].
    apply b_rep_ok; [exact H1|exact H4|ilia]. }
  cbn [bind]. rewrite ck_ok by ilia. cbn [bind].
  destruct (Nat.eqb_spec (length cb + 1) (length dom)); [|lia]. cbn [negb].
  destruct (Nat.ltb_spec (length (sp_b s)) (length cb)); [lia|].
  rewrite EM. cbn [bind]. rewrite Edb. cbn [bind snd].
  assert (mapM (fun d0 => c <- nth_error cb (map_index (map fst cb) d0) ;; Some (b_lb (snd c))) (map fst cb)
          = Some (map (fun c => b_lb (snd c)) cb)) as ->.
  { rewrite (mapM_map _ (fun d0 => dlook b_lb cb d0)).
    - f_equal. rewrite map_map. apply map_ext_in. intros [d0 b0] H0. simpl. unfold dlook.
      rewrite find_map_index. destruct (In_nth_error _ _ H0) as [j Hj].
      rewrite (map_index_nth _ d0 j); [rewrite Hj; reflexivity|exact Hcb|].
      rewrite nth_error_map, Hj. reflexivity.
    - intros d0 Hd0. destruct (nth_error_In_fst _ _ Hd0) as [b0 Hb0].
      unfold dlook. rewrite find_map_index, Hb0. reflexivity. }
  cbn [bind].
  rewrite (dlook_stage b_lb cb (sp_order s) (length (sp_b s))).
  2:{ unfold sp_order. rewrite map_length. reflexivity. } 2:{ lia. } 2:{ intros; right; lia. }
  cbn [bind].
  destruct (negb _); [reflexivity|].
  rewrite coarse_index32_ok by (assumption || lia). rewrite coarse_index_floor by exact Hr. cbn [bind].
  set (jd := map_index (sp_order s) d).
  set (lb0 := aset (map (dlook b_lb cb) (sp_order s)) jd (b_lb b / r)).
  assert (length lb0 = length (sp_b s)) as L0.
  { unfold lb0. rewrite aset_length, map_length. unfold sp_order. apply map_length. }
  assert (forall i, (i < length (sp_b s))%nat ->
            let bi := snd (nth i (sp_b s) (0%nat, mkBounds 0 0 1)) in
            0 <= aget lb0 i - b_lb bi < extent bi) as H0.
  { intros i Hi0 bi. set (di := fst (nth i (sp_b s) (0%nat, mkBounds 0 0 1))).
    assert (In (di, bi) (sp_b s)) as Hbi.
    { unfold di, bi. rewrite <- surjective_pairing. apply nth_In. exact Hi0. }
    assert (nth_error (sp_order s) i = Some di) as Edi.
    { unfold sp_order. rewrite nth_error_map. rewrite (nth_error_nth' (sp_b s) (0%nat, mkBounds 0 0 1)) by lia. reflexivity. }
    assert (length (sp_order s) = length (sp_b s)) as HLo by apply map_length.
    unfold lb0. rewrite aget_aset, map_length.
    destruct (Nat.eqb_spec jd i) as [Hji|Hji].
    - destruct (Nat.ltb_spec jd (length (sp_order s))); [|lia]. cbn [andb].
      assert (di = d) as Edd.
      { assert (In d (sp_order s)) as Hdo by (eapply Permutation_in; [exact HP|exact Hdd]).
        pose proof (proj2 (map_index_in _ _ Hdo)) as Hx. fold jd in Hx. rewrite Hji in Hx. congruence. }
      rewrite Edd in Hbi. destruct (Hlin bi Hbi) as [X1 X2].
      pose proof (Z.div_le_mono (b_lb b) (b_ub b) r ltac:(lia) Hne). unfold extent. lia.
    - cbn [andb]. rewrite aget_map with (d := 0%nat) by lia.
      rewrite (nth_error_nth _ _ _ Edi).
      assert (In di (map fst cb)) as Hdi0.
      { assert (In di (sp_order s)) as Hx by (eapply nth_error_In; exact Edi).
        eapply Permutation_in in Hx; [|symmetry; exact HP].
        eapply Permutation_in in Hx; [|exact HPd].
        destruct Hx as [Hx|Hx]; [|exact Hx]. exfalso. apply Hji.
        unfold jd. rewrite Hx. apply map_index_nth; [exact Hnds|exact Edi]. }
      destruct (nth_error_In_fst _ _ Hdi0) as [b0 Hb0].
      unfold dlook. rewrite find_map_index, Hb0. cbn [snd].
      rewrite Forall_forall in Hcin. destruct (Hcin _ (nth_error_In _ _ Hb0)) as (b1 & Y1 & Y2). cbn [fst snd] in *.
      assert (b1 = bi) as -> by (eapply NoDup_fst_inj; [exact Hnds|exact Y1|exact Hbi]).
      unfold extent. lia. }
  rewrite (sub_lb32_ok s lb0 L0).
  2:{ intros i Hi0. specialize (H0 i Hi0). destruct (array_bnd s Hs Hi i Hi0) as (_ & _ & _ & A4). cbv zeta in H0. ilia. }
  cbn [bind]. rewrite (span_sizes32_ok s Hs Hi), (span_sizes_wf s Hs). cbn [bind].
  destruct (fold_aset_range (fun i x => x - b_lb (snd (nth i (sp_b s) (0%nat, mkBounds 0 0 1)))) 0 (length (sp_b s)) lb0)
    as [L1 G1].
  set (lb1 := fold_left _ _ _) in *.
  assert (in_range (map (fun b => extent (snd b)) (sp_b s)) lb1) as HR.
  { apply Forall2_aget; rewrite map_length; [lia|]. intros i Hi0.
    rewrite aget_map with (d := (0%nat, mkBounds 0 0 1)) by exact Hi0.
    rewrite G1 by lia. destruct (Nat.ltb_spec i (0 + length (sp_b s))); [|lia]. cbn [Nat.leb andb]. apply H0. exact Hi0. }
  pose proof (array_cells s Hi) as HC. pose proof (rav_bound _ _ HR) as HB. fold (cells_of (sp_b s)) in HB.
  unfold make_coarse_to_fine32, make_coarse_to_fine. rewrite ravel32_ok.
  - cbn [bind]. rewrite stride_dim32_ok; [|apply array_ext; assumption|apply HC]. cbn [bind].
    unfold c2f_make32, c2f_make. rewrite coarse_index32_ok by (assumption || lia).
    rewrite coarse_index_floor by exact Hr. reflexivity.
  - intros E. apply map_eq_nil in E. rewrite E in HL2. simpl in HL2. lia.
  - rewrite map_length. lia.
  - apply array_ext; assumption.
  - apply Forall_forall. intros x Hx. destruct (In_nth _ _ 0 Hx) as (i & Hi0 & <-). fold (aget lb1 i).
    pose proof (in_range_aget _ _ i HR). rewrite map_length in H1. rewrite L1, L0 in Hi0. specialize (H1 Hi0). lia.
  - lia.
Qed.

Lemma bind_ext_l {A B} (x y : option A) (f : A -> option B) : x = y -> bind x f = bind y f.
Proof. intros ->. reflexivity. Qed.

Section Deliver.
  Context {S : Scalar}.
  Implicit Types (e : @expr S) (m : mem S).

  (** One family of positions serves both evaluations. *)
  Definition int_delivers (T : list (list Z)) e (dom : list dbnd) : Prop :=
    exists F, eval e dom = Some (F 0) /\ eval32 e dom = Some (F 0) /\
      (forall p, 0 <= p < prodZ (counts dom) -> it_inc (F p) = Some (F (p + 1)) /\ it_inc32 (F p) = Some (F (p + 1))) /\
      (forall p, 0 <= p < prodZ (counts dom) -> it_adv (F 0) p = Some (F p) /\ it_adv32 (F 0) p = Some (F p)) /\
      (forall p m, 0 <= p < prodZ (counts dom) -> ints m = T -> it_deref32 (F p) m = it_deref (F p) m).

  Lemma mti_deref32_ok base st n flag p m :
    mti_addr32 (mt_at base st n flag p) = Some (mti_addr (mt_at base st n flag p)) ->
    mti_deref32 (mt_at base st n flag p) m = mti_deref (mt_at base st n flag p) m.
  Proof. intros E. unfold mti_deref32. rewrite E. reflexivity. Qed.

  Lemma span_int T s dom : wf_dom dom -> wf_span s -> Permutation (map fst dom) (sp_order s) ->
    int_array s -> inside dom s -> int_delivers T (ESpan s) dom.
  Proof.
    intros Hd Hs HP Hi Hin.
    destruct (counts_int s (sp_b s) [] dom Hs ltac:(rewrite app_nil_r; reflexivity) Hd HP Hi Hin) as [Hc HM].
    pose proof (array_cells s Hi) as HC. pose proof (counts_ne dom Hd) as Hne.
    destruct (call_helper_int s (sp_b s) [] dom Hs ltac:(rewrite app_nil_r; reflexivity) Hd HP Hi Hin false) as (base & E1 & E2 & HA).
    cbn [length Nat.eqb negb orb] in E1, E2, HA.
    exists (fun p => IMat (mt_at base (strides_of (sp_b s) dom) (counts dom) false p)).
    cbn [eval eval32]. rewrite E1, E2. split; [reflexivity|]. split; [reflexivity|]. split; [|split].
    - intros p Hp. cbn [it_inc it_inc32]. rewrite mti_inc_at by auto. rewrite mti_inc32_at by (auto; lia). split; reflexivity.
    - intros p Hp. cbn [it_adv it_adv32]. rewrite mti_adv_at by (auto; lia). rewrite mti_adv32_at by (auto; lia). split; reflexivity.
    - intros p m Hp _. cbn [it_deref it_deref32]. apply mti_deref32_ok. apply HA. exact Hp.
  Qed.

  Lemma stencil_int T sh s d dom : wf_dom dom -> Forall (fun x => 1 <= x) (counts dom) ->
    wf_expr (EStencil sh s d : @expr S) dom -> int_expr T (EStencil sh s d : @expr S) dom ->
    int_delivers T (EStencil sh s d) dom.
  Proof.
    intros Hd Hc (Hs & HP & Hsh & b & Hin & Hb1) (Hi & Hins).
    pose proof Hd as (_ & _ & Hwf0).
    assert (grow_dom32 sh d dom = Some (grow_dom sh d dom)) as EG32.
    { eapply grow_dom32_ok; eauto. eapply Forall_impl; [|exact Hwf0]. intros x Hx; apply Hx. }
    destruct (in_split _ _ Hin) as (dp & dq & Edom). subst dom.
    pose proof Hd as (_ & Hnd & Hwf).
    pose proof (grow_dom_split sh d b dp dq Hnd) as EG.
    set (dom := dp ++ (d, b) :: dq) in *.
    set (dom' := dp ++ (d, db_plus b sh) :: dq) in *.
    rewrite EG in Hins, EG32.
    assert (map_index (map fst dom) d = length dp) as EI.
    { apply map_index_nth; [exact Hnd|]. unfold dom. rewrite map_app.
      rewrite nth_error_app2 by (rewrite map_length; lia). rewrite map_length, Nat.sub_diag. reflexivity. }
    set (pre := counts dp). set (post := counts dq). set (x := count b).
    assert (counts dom = pre ++ x :: post) as EC by (unfold dom, counts; rewrite map_app; reflexivity).
    assert (Forall (fun x => 1 <= x) pre /\ 1 <= x /\ Forall (fun x => 1 <= x) post) as (Hpre & Hx & Hpost).
    { rewrite EC in Hc. apply Forall_app in Hc as [? Hc2]. inversion Hc2; auto. }
    assert (count (db_plus b sh) = x + 1 /\ stride (db_plus b sh) = 1) as (Ex & Es').
    { unfold x, count, db_plus, b_pluseq, b_minuseq, b_lb, b_ub.
      destruct Hsh as [-> | ->]; simpl; rewrite Hb1, !Z.div_1_r; lia. }
    assert (counts dom' = pre ++ (x + 1) :: post) as EC'.
    { unfold dom', counts. rewrite map_app. cbn [map snd]. rewrite Ex. reflexivity. }
    assert (map fst dom' = map fst dom) as EF by (unfold dom, dom'; rewrite !map_app; reflexivity).
    assert (wf_dom dom') as Hd'.
    { split; [|split].
      - unfold dom'. destruct dp; discriminate.
      - rewrite EF. exact Hnd.
      - unfold dom, dom' in *. apply Forall_app in Hwf as [W1 W2]. inversion W2 as [|? ? W3 W4]; subst.
        apply Forall_app. split; [exact W1|]. constructor; [|exact W4]. simpl in *.
        split; [lia|]. assert (0 <= count (db_plus b sh)) as H0 by lia.
        unfold count in H0. rewrite Es', Z.div_1_r in H0. lia. }
    destruct (pairs_n_pos pre post (x + 1) Hpre Hpost ltac:(lia)) as [Hn1 Hn2].
    assert (Permutation (map fst dom') (map fst (sp_b s))) as HP' by (rewrite EF; exact HP).
    destruct (counts_int s (sp_b s) [] dom' Hs ltac:(rewrite app_nil_r; reflexivity) Hd' HP' Hi Hins) as [_ HM].
    pose proof (array_cells s Hi) as HC.
    destruct (call_helper_int s (sp_b s) [] dom' Hs ltac:(rewrite app_nil_r; reflexivity) Hd' HP' Hi Hins false) as (base & E1 & E2 & HA).
    cbn [length Nat.eqb negb orb] in E1, E2, HA. rewrite EC' in E1, E2, HA, HM.
    set (st := strides_of (sp_b s) dom') in *.
    set (n' := pre ++ (x + 1) :: post) in *.
    assert (prodZ n' <= int_max) as HB by lia.
    assert (n' <> []) as Hne' by (unfold n'; destruct pre; discriminate).
    destruct (pairs_pos pre post (x + 1) Hpre Hpost ltac:(lia)) as (Ps & Pm & Pn).
    destruct (pairs_size pre post (x + 1)) as [Z1 Z2]. fold n' in Z2.
    replace (x + 1 - 1) with x in * by lia.
    set (ss := prodZ post) in *. set (mx := x * ss) in *. set (nb := prodZ pre) in *.
    rewrite <- EC in Z1.
    assert (mx <= int_max /\ ss <= int_max /\ nb * mx <= int_max) as (Bm & Bs & Bz) by (rewrite Z2 in HB; nia).
    assert (forall p, 0 <= p < nb * (mx + ss) -> o_inc mti_ops (mt_at base st n' false p) = Some (mt_at base st n' false (p + 1))) as Binc.
    { intros p Hp. cbn [o_inc mti_ops]. rewrite mti_inc_at; auto. lia. }
    assert (forall p q, 0 <= p <= nb * (mx + ss) -> 0 <= p + q <= nb * (mx + ss) ->
              o_adv mti_ops (mt_at base st n' false p) q = Some (mt_at base st n' false (p + q))) as Badv.
    { intros p q Hp Hq. cbn [o_adv mti_ops]. apply mti_adv_at; auto; lia. }
    assert (forall p, 0 <= p < nb * (mx + ss) -> o_inc mti_ops32 (mt_at base st n' false p) = Some (mt_at base st n' false (p + 1))) as Binc32.
    { intros p Hp. cbn [o_inc mti_ops32]. rewrite mti_inc32_at; auto. lia. }
    assert (forall p q, 0 <= p <= nb * (mx + ss) -> 0 <= p + q <= nb * (mx + ss) ->
              o_adv mti_ops32 (mt_at base st n' false p) q = Some (mt_at base st n' false (p + q))) as Badv32.
    { intros p q Hp Hq. cbn [o_adv mti_ops32]. apply mti_adv32_at; auto; lia. }
    assert (forall p, 0 <= p < nb * (mx + ss) -> o_dec mti_ops (mt_at base st n' false (p + 1)) = Some (mt_at base st n' false p)) as Bdec.
    { intros p Hp. cbn [o_dec mti_ops]. rewrite mti_dec_at; auto. lia. }
    assert (forall p, 0 <= p < nb * (mx + ss) -> o_dec mti_ops32 (mt_at base st n' false (p + 1)) = Some (mt_at base st n' false p)) as Bdec32.
    { intros p Hp. cbn [o_dec mti_ops32]. rewrite mti_dec32_at; auto. lia. }
    assert (forall k, 0 <= k <= nb * mx -> 0 <= hcur mx nb k <= int_max) as Hh.
    { intros k Hk. destruct (block ss mx nb Ps Pm Pn k Hk) as (q & _ & _ & _ & Q & _). lia. }
    exists (fun p => IFwd (fs_at (mt_at base st n' false) ss mx nb p)). split; [|split; [|split; [|split]]].
    - cbn [eval]. rewrite EG, E1. cbn [bind]. rewrite EI.
      replace (length dp) with (length pre) by apply counts_length.
      pose proof (mti_stencil_at pre post (x + 1) Hpre Hpost ltac:(lia) base st false) as EM.
      replace (x + 1 - 1) with x in EM by lia. fold n' ss mx nb in EM.
      change (prodZ post) with ss in EM. rewrite EM. reflexivity.
    - cbn [eval32]. rewrite EG32. cbn [bind]. rewrite E2. cbn [bind]. rewrite EI.
      replace (length dp) with (length pre) by apply counts_length.
      pose proof (mti_stencil32_ok base st false pre (x + 1) post Hpre Hpost ltac:(lia) HB) as EM32. fold n' in EM32. rewrite EM32.
      pose proof (mti_stencil_at pre post (x + 1) Hpre Hpost ltac:(lia) base st false) as EM.
      replace (x + 1 - 1) with x in EM by lia. fold n' ss mx nb in EM.
      change (prodZ post) with ss in EM. rewrite EM. reflexivity.
    - rewrite Z1. intros p Hp. cbn [it_inc it_inc32]. rewrite fsi_inc32_ok.
      + rewrite (fs_inc_at mti_ops _ ss mx nb), (fs_inc_at mti_ops32 _ ss mx nb) by auto. split; reflexivity.
      + cbn [fs_at f_cur]. apply Hh. lia.
      + cbn [fs_at f_dtl]. lia.
      + cbn [fs_at f_stride]. lia.
      + cbn [fs_at f_max]. lia.
    - rewrite Z1. intros p Hp. cbn [it_adv it_adv32]. rewrite fsi_adv32_ok.
      + pose proof (Hh 0 ltac:(lia)).
        rewrite (fs_adv_at mti_ops _ ss mx nb) by (auto; lia).
        rewrite (fs_adv_at mti_ops32 _ ss mx nb) by (auto; lia). split; reflexivity.
      + cbn [fs_at f_cur]. apply Hh. lia.
      + cbn [fs_at f_dtl]. lia.
      + cbn [fs_at f_stride]. lia.
      + cbn [fs_at f_max]. lia.
      + lia.
    - rewrite Z1. intros p m Hp _. cbn [it_deref it_deref32].
      rewrite (fs_pair_at mti_ops _ ss mx nb), (fs_pair_at mti_ops32 _ ss mx nb) by (auto; lia). cbn [bind fst snd].
      destruct (gpos_range ss mx nb Ps Pm Pn p ltac:(lia)) as [G1 G2].
      pose proof (gpos_lt ss mx nb Ps Pm Pn p (nb * mx) ltac:(lia) ltac:(lia)) as G3.
      destruct (gpos_range ss mx nb Ps Pm Pn (nb * mx) ltac:(lia)) as [_ G4].
      rewrite !mti_deref32_ok; [reflexivity| |]; apply HA; rewrite Z2; lia.
  Qed.

  Lemma offi_deref32_ok (o : offi) m :
    let N := length (o_stride o) in
    (N <= 3)%nat -> 0 <= o_idx o -> (o_idx o + 1) * Z.of_nat N <= int_max ->
    (forall j v, (j < N)%nat -> loadi m (padd (o_ptr o) (o_idx o * Z.of_nat N + Z.of_nat j)) = Some v ->
       - int_max <= aget (o_stride o) j * v <= int_max) ->
    offi_deref32 o m = offi_deref o m.
  Proof.
    intros N HN H0 H1 H. unfold offi_deref32, offi_deref. fold N.
    assert (o_idx o * Z.of_nat N + Z.of_nat N <= int_max) as H2 by lia.
    rewrite (imul_ok (o_idx o)) by ilia. cbn [bind].
    assert (forall k a i, (a + k = N)%nat -> - (Z.of_nat a * int_max) <= i <= Z.of_nat a * int_max ->
              forM (seq a k) (fun j i => k <- iadd (o_idx o * Z.of_nat N) (Z.of_nat j) ;;
                                oj <- loadi m (padd (o_ptr o) k) ;; p <- imul (aget (o_stride o) j) oj ;; ladd i p) i =
              forM (seq a k) (fun j i => oj <- loadi m (padd (o_ptr o) (o_idx o * Z.of_nat N + Z.of_nat j)) ;;
                                Some (i + aget (o_stride o) j * oj)) i) as HL.
    { induction k as [|k IH]; intros a i Ha Hi; [reflexivity|]. cbn [seq forM].
      rewrite iadd_ok by ilia. cbn [bind].
      destruct (loadi m _) as [v|] eqn:E; [|reflexivity]. cbn [bind].
      specialize (H a v ltac:(lia) E). rewrite imul_ok by ilia. cbn [bind].
      assert (Z.of_nat (Datatypes.S a) * int_max = Z.of_nat a * int_max + int_max) as Ea by lia.
      assert (Z.of_nat (Datatypes.S a) * int_max <= 3 * int_max) by (apply Z.mul_le_mono_nonneg_r; ilia).
      rewrite ladd_ok by ilia. cbn [bind]. apply IH; [lia|]. rewrite Ea. lia. }
    rewrite (HL N 0%nat 0 eq_refl) by lia. reflexivity.
  Qed.

  Lemma sstride_extent bs d b : Forall (fun x => 1 <= x) (map (fun b : dbnd => extent (snd b)) bs) ->
    NoDup (map fst bs) -> In (d, b) bs -> sstride bs d * extent b <= cells_of bs.
  Proof.
    induction bs as [|[d' b'] bs IH]; intros Hp Hn Hin; [destruct Hin|].
    inversion Hp as [|? ? P1 P2]; subst. inversion Hn as [|? ? N1 N2]; subst. cbn [fst snd] in *.
    unfold cells_of in *. cbn [sstride map]. rewrite prodZ_cons. pose proof (prodZ_pos _ P2).
    destruct Hin as [E|Hin].
    - injection E as -> ->. rewrite Nat.eqb_refl. unfold cells_of. cbn [snd]. lia.
    - destruct (Nat.eqb_spec d' d) as [->|].
      + exfalso. apply N1. apply (in_map fst) in Hin. exact Hin.
      + specialize (IH P2 N2 Hin). cbn [snd]. nia.
  Qed.

  Lemma dot_int T st u o dom : wf_dom dom ->
    wf_expr (EDot st u o : @expr S) dom -> int_expr T (EDot st u o : @expr S) dom ->
    int_delivers T (EDot st u o) dom.
  Proof.
    intros Hd (Hu & Hst & HPu & Hrev & Hone & hd & w & wb & Est & HPst) (Hist & Hinst & Hiu & Hinu & Htab).
    destruct (counts_int st hd [(w, wb)] dom Hst Est Hd HPst Hist Hinst) as [Hc HM].
    pose proof (array_cells st Hist) as HC. pose proof (counts_ne dom Hd) as Hne.
    destruct (call_helper_int st hd [(w, wb)] dom Hst Est Hd HPst Hist Hinst false) as (b1 & E1 & E1' & H1).
    destruct (call_helper_int u (sp_b u) [] dom Hu ltac:(rewrite app_nil_r; reflexivity) Hd HPu Hiu Hinu true)
      as (b2 & E2 & E2' & H2).
    cbn [length Nat.eqb negb orb] in *.
    assert (length hd = length dom) as HLh.
    { apply Permutation_length in HPst. rewrite !map_length in HPst. congruence. }
    assert (nth_error (sp_b st) (length dom) = Some (w, wb)) as Ew.
    { rewrite Est. apply nth_error_last_app. exact HLh. }
    destruct (Htab w wb Ew) as [Hext Hoff].
    destruct (array_bnd st Hst Hist (length dom)) as (A1 & A2 & A3 & A4).
    { apply nth_error_Some. congruence. }
    rewrite (nth_error_nth _ _ _ Ew) in A1, A2, A3, A4. cbn [snd] in A1, A2, A3, A4.
    assert (b_size wb = Some (extent wb) /\ b_size32 wb = Some (extent wb)) as [Esz Esz'].
    { unfold b_size, b_size32, idiv, cdiv, extent, b_ub, b_lb in *. rewrite A3. cbn [Z.eqb].
      rewrite isub_ok by ilia. cbn [bind]. change (1 =? 0) with false. cbn iota. cbn [bind]. rewrite Z.quot_1_r.
      rewrite ck_ok by ilia. split; f_equal; lia. }
    set (s1 := strides_of (sp_b st) dom) in *. set (s2 := strides_of (sp_b u) dom) in *.
    set (n := counts dom) in *.
    set (N := length dom) in *.
    set (strides := map (fun k => mti_stride_dim (mt_at b2 s2 n true 0) (N - 1 - k)) (seq 0 N)).
    exists (fun p => IDot strides o (extent wb) (IMat (mt_at b1 s1 n true p)) (IMat (mt_at b2 s2 n true p))).
    cbn [eval eval32]. rewrite E1, E2, E1', E2'. cbn [bind]. fold N. rewrite Ew. cbn [bind snd]. rewrite Esz, Esz'.
    fold n. split; [reflexivity|]. split; [reflexivity|]. split; [|split].
    - intros p Hp. cbn [it_inc it_inc32]. rewrite !mti_inc_at by auto. rewrite !mti_inc32_at by (auto; lia). split; reflexivity.
    - intros p Hp. cbn [it_adv it_adv32]. rewrite !mti_adv_at by (auto; lia). rewrite !mti_adv32_at by (auto; lia). split; reflexivity.
    - intros p m Hp HT. cbn [it_deref it_deref32]. unfold mti_deref, mti_deref32. rewrite H1, H2 by exact Hp. cbn [bind m_ptr mt_at].
      f_equal. unfold dot_loop32, dot_loop. apply forM_ext_in. intros i res Hi. apply in_seq in Hi.
      apply bind_ext. intros sv _.
      assert (N <= 3)%nat as HN3.
      { apply (f_equal (@length _)) in Hrev. rewrite rev_length, map_length, firstn_length in Hrev. cbn [length xyz] in Hrev. fold N in Hrev. lia. }
      assert (1 <= N)%nat as HN1 by (unfold N; destruct dom; [destruct Hd as [Hx _]; congruence|simpl; lia]).
      assert (Z.of_nat i + 1 <= extent wb) as Hi2 by lia.
      assert (extent wb <= int_max) as He by exact A4.
      unfold offi_move32. cbn [make_offset_iterator o_idx]. rewrite ladd_ok by ilia. cbn [bind]. rewrite ck_ok by ilia. cbn [bind].
      apply bind_ext_l.
      assert (length strides = N) as HLs by (unfold strides; rewrite map_length, seq_length; reflexivity).
      apply offi_deref32_ok; cbn [make_offset_iterator offi_move o_stride o_idx o_ptr]; rewrite ?HLs.
      + exact HN3.
      + lia.
      + assert ((Z.of_nat i + 1) * Z.of_nat N <= extent wb * Z.of_nat N) by (apply Z.mul_le_mono_nonneg_r; lia). ilia.
      + intros j v Hj Hv.
        set (dj := nth j xyz 0%nat).
        assert (dj = fst (nth (N - 1 - j) dom (0%nat, mkBounds 0 0 1))) as Edj.
        { unfold dj. rewrite <- (map_nth fst). change (fst (0%nat, mkBounds 0 0 1)) with 0%nat.
          transitivity (nth j (rev (map fst dom)) 0%nat).
          - rewrite <- (firstn_skipn N xyz). rewrite <- Hrev.
            apply app_nth1. rewrite rev_length, map_length. exact Hj.
          - rewrite rev_nth by (rewrite map_length; exact Hj). rewrite map_length.
            f_equal. fold N. lia. }
        assert (aget strides j = sstride (sp_b u) dj) as ->.
        { unfold strides. rewrite aget_map_seq by exact Hj.
          unfold mti_stride_dim. cbn [mt_at m_stride]. simpl Nat.add.
          unfold s2, strides_of. rewrite aget_map with (d := (0%nat, mkBounds 0 0 1)) by (fold N; lia).
          rewrite Edj. rewrite Forall_forall in Hone. rewrite (Hone (nth (N - 1 - j) dom (0%nat, mkBounds 0 0 1))).
          - lia.
          - apply nth_In. fold N. lia. }
        assert (In dj (map fst (sp_b u))) as Hdj.
        { eapply Permutation_in; [exact HPu|]. rewrite Edj. apply in_map, nth_In. fold N. lia. }
        destruct (nth_error_In_fst _ _ Hdj) as [bj Hbj]. apply nth_error_In in Hbj.
        assert (- extent bj <= v <= extent bj) as Hvb.
        { apply (Hoff (Z.of_nat i) j v); [lia|exact Hj| |exact Hbj].
          rewrite Z.add_0_l in Hv. unfold loadi in *. cbn [ints]. rewrite <- HT. exact Hv. }
        pose proof (sstride_extent (sp_b u) dj bj (array_ext u Hiu) (proj1 Hu) Hbj).
        pose proof (sstride_nonneg (sp_b u) dj (array_ext u Hiu)). pose proof (array_cells u Hiu).
        set (k := sstride (sp_b u) dj) in *.
        pose proof (Z.mul_le_mono_nonneg_l v (extent bj) k ltac:(lia) ltac:(lia)).
        pose proof (Z.mul_le_mono_nonneg_l (- extent bj) v k ltac:(lia) ltac:(lia)). lia.
  Qed.

  Lemma fine_int T s r cb dom : wf_dom dom -> Forall (fun x => 1 <= x) (counts dom) ->
    wf_expr (EFine s r cb : @expr S) dom -> int_expr T (EFine s r cb : @expr S) dom ->
    int_delivers T (EFine s r cb) dom.
  Proof.
    intros Hd Hc (Hs & Hr & Hcb & HP & d & b & Hin & Hb1 & HPd & Hline) (Hi & Hr2 & Hcbi & Hdi & Hcin & Hlin).
    pose proof Hd as (_ & Hnd & Hwf). pose proof Hs as [Hnds Hus].
    assert (NoDup (d :: map fst cb)) as Hnd2 by (eapply Permutation_NoDup; eassumption).
    assert (~ In d (map fst cb)) as Hdcb by (inversion Hnd2; assumption).
    assert (count b = b_ub b - b_lb b + 1) as Ecb by (unfold count; rewrite Hb1, Z.div_1_r; lia).
    assert (1 <= count b) as Hcb1.
    { unfold counts in Hc. rewrite Forall_map, Forall_forall in Hc. apply (Hc _ Hin). }
    pose proof Hdi as Hdi'. rewrite Forall_forall in Hdi'. destruct (Hdi' _ Hin) as [Hbr _]. cbn [snd] in Hbr. unfold int_range in Hbr.
    pose proof (fun b' Hb' => Hlin d b b' Hin Hdcb Hb') as Hlin'.
    assert (coarse_to_fine32 s r cb dom = coarse_to_fine s r cb dom) as EQ.
    { apply (coarse_to_fine32_ok s r cb dom d b); auto; try lia.
      - eapply Forall_impl; [|exact Hcbi]. intros x (X1 & _ & X2). split; [exact X1|ilia].
      - eapply Forall_impl; [|exact Hcbi]. intros x (_ & X & _). exact X. }
    assert (prodZ (counts dom) = count b) as EP.
    { destruct (in_split _ _ Hin) as (dp & dq & Edom).
      assert (forall l, incl l dom -> ~ In d (map fst l) -> Forall (fun y => y = 1) (counts l)) as H1.
      { intros l Hl Hdl. unfold counts. apply Forall_map. apply Forall_forall. intros [d0 b0] H0. cbn [snd].
        rewrite Forall_forall in Hline, Hwf. specialize (Hline _ (Hl _ H0)). specialize (Hwf _ (Hl _ H0)).
        cbn [fst snd] in *. destruct Hline as [->|Hx].
        - exfalso. apply Hdl. apply (in_map fst) in H0. exact H0.
        - unfold count. rewrite Hx, Z.sub_diag, Z.add_0_l. apply Z.div_same. lia. }
      assert (~ In d (map fst dp) /\ ~ In d (map fst dq)) as [Hdp Hdq].
      { rewrite Edom, map_app in Hnd. apply NoDup_remove_2 in Hnd. rewrite in_app_iff in Hnd. tauto. }
      assert (incl dp dom /\ incl dq dom) as [I1 I2].
      { rewrite Edom. split; intros y Hy; apply in_or_app; [left|right; right]; exact Hy. }
      pose proof (H1 dp I1 Hdp) as O1. pose proof (H1 dq I2 Hdq) as O2.
      assert (counts dom = counts dp ++ count b :: counts dq) as EC by (rewrite Edom; unfold counts; rewrite map_app; reflexivity).
      rewrite EC, prodZ_app, prodZ_cons, !prodZ_ones by assumption. lia. }
    pose proof (coarse_to_fine_ok s r cb dom d b Hs Hd Hr Hcb HP Hin HPd) as EC2. rewrite EC2 in EQ.
    set (base := padd (sp_ptr s) _) in *.
    exists (fun p => ICoarse (mkC2f base r (sstride (sp_b s) d) (b_lb b + p) (b_lb b / r))).
    cbn [eval eval32]. rewrite EC2, EQ, Z.add_0_r. split; [reflexivity|]. split; [reflexivity|]. rewrite EP. split; [|split].
    - intros p Hp. cbn [it_inc it_inc32]. unfold c2f_inc, c2f_move, c2f_move32. cbn [c_first c_r c_s c_fi c_ci].
      rewrite ladd_ok by ilia. cbn [bind]. rewrite ck_ok by ilia. rewrite Z.add_assoc. split; reflexivity.
    - intros p Hp. cbn [it_adv it_adv32]. unfold c2f_adv, c2f_move, c2f_move32. cbn [c_first c_r c_s c_fi c_ci].
      rewrite ?Z.add_0_r. rewrite ladd_ok by ilia. cbn [bind]. rewrite ck_ok by ilia. split; reflexivity.
    - intros p m Hp _. cbn [it_deref it_deref32]. unfold c2f_addr, c2f_addr32. cbn [c_first c_r c_s c_fi c_ci].
      rewrite coarse_index_floor by exact Hr. rewrite coarse_index32_ok by ilia. cbn [bind].
      assert (In d (map fst (sp_b s))) as Hdb.
      { eapply Permutation_in; [exact HP|]. apply (in_map fst) in Hin. exact Hin. }
      destruct (nth_error_In_fst _ _ Hdb) as [b' Hb']. apply nth_error_In in Hb'.
      destruct (Hlin' b' Hb') as [X1 X2].
      pose proof (Z.div_le_mono (b_lb b) (b_lb b + p) r ltac:(lia) ltac:(lia)) as M1.
      pose proof (Z.div_le_mono (b_lb b + p) (b_ub b) r ltac:(lia) ltac:(lia)) as M2.
      pose proof (sstride_extent (sp_b s) d b' (array_ext s Hi) Hnds Hb') as SE.
      pose proof (sstride_nonneg (sp_b s) d (array_ext s Hi)) as SN. pose proof (array_cells s Hi) as HC.
      set (a := b_lb b / r) in *. set (c := (b_lb b + p) / r) in *. set (k := sstride (sp_b s) d) in *. unfold extent in SE.
      assert (0 <= c - a <= b_ub b' - b_lb b') as Hca by lia.
      assert (b_ub b' - b_lb b' < int_max) as Hx.
      { pose proof (prodZ_ge _ _ (array_ext s Hi) (in_map (fun b => extent (snd b)) _ _ Hb')) as HG. cbn [snd] in HG.
        fold (cells_of (sp_b s)) in HG. unfold extent in HG. lia. }
      assert (0 <= (c - a) * k <= int_max) as Hck.
      { split; [apply Z.mul_nonneg_nonneg; lia|].
        pose proof (Z.mul_le_mono_nonneg_r (c - a) (b_ub b' - b_lb b' + 1) k ltac:(lia) ltac:(lia)). lia. }
      rewrite isub_ok by ilia. cbn [bind]. rewrite imul_ok by ilia. reflexivity.
  Qed.

  Lemma expr_int T e : forall dom, wf_dom dom -> Forall (fun x => 1 <= x) (counts dom) ->
    wf_expr e dom -> int_expr T e dom -> int_delivers T e dom.
  Proof.
    induction e as [s|o t e IH|o e IH t|o e1 IH1 e2 IH2|sh s d|d z e IH|st u p|s r cb]; intros dom Hd Hc Hw Hi.
    - destruct Hw, Hi. apply span_int; assumption.
    - destruct (IH dom Hd Hc Hw Hi) as (F & E1 & E2 & H1 & H2 & H3). exists (fun p => IRight o t (F p)).
      cbn [eval eval32 it_inc it_inc32 it_adv it_adv32 it_deref it_deref32]. rewrite E1, E2.
      split; [reflexivity|]. split; [reflexivity|]. split; [|split].
      + intros p Hp. destruct (H1 p Hp) as [-> ->]. split; reflexivity.
      + intros p Hp. destruct (H2 p Hp) as [-> ->]. split; reflexivity.
      + intros p m Hp HT. rewrite (H3 p m Hp HT). reflexivity.
    - destruct (IH dom Hd Hc Hw Hi) as (F & E1 & E2 & H1 & H2 & H3). exists (fun p => ILeft o (F p) t).
      cbn [eval eval32 it_inc it_inc32 it_adv it_adv32 it_deref it_deref32]. rewrite E1, E2.
      split; [reflexivity|]. split; [reflexivity|]. split; [|split].
      + intros p Hp. destruct (H1 p Hp) as [-> ->]. split; reflexivity.
      + intros p Hp. destruct (H2 p Hp) as [-> ->]. split; reflexivity.
      + intros p m Hp HT. rewrite (H3 p m Hp HT). reflexivity.
    - destruct Hw as [W1 W2], Hi as [I1 I2].
      destruct (IH1 dom Hd Hc W1 I1) as (F & E1 & E2 & H1 & H2 & H3).
      destruct (IH2 dom Hd Hc W2 I2) as (G & D1 & D2 & K1 & K2 & K3). exists (fun p => IZipOp o (F p) (G p)).
      cbn [eval eval32 it_inc it_inc32 it_adv it_adv32 it_deref it_deref32]. rewrite E1, E2, D1, D2.
      split; [reflexivity|]. split; [reflexivity|]. split; [|split].
      + intros p Hp. destruct (H1 p Hp) as [-> ->], (K1 p Hp) as [-> ->]. split; reflexivity.
      + intros p Hp. destruct (H2 p Hp) as [-> ->], (K2 p Hp) as [-> ->]. split; reflexivity.
      + intros p m Hp HT. rewrite (H3 p m Hp HT), (K3 p m Hp HT). reflexivity.
    - apply stencil_int; assumption.
    - destruct Hi as (Hz & Hr & Hi). cbn [wf_expr] in Hw.
      destruct (IH (shift_dom d z dom)) as (F & E1 & E2 & H1 & H2 & H3); auto.
      { apply shift_dom_wf. exact Hd. }
      { rewrite shift_dom_counts. exact Hc. }
      exists F. cbn [eval eval32]. rewrite ck_ok by ilia. cbn [bind]. rewrite shift_dom32_ok by assumption. cbn [bind].
      rewrite shift_dom_counts in *. repeat (split; [assumption|]). assumption.
    - apply dot_int; assumption.
    - apply fine_int; assumption.
  Qed.
End Deliver.
