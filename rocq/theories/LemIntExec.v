(** * [int] execution of assignments agrees with the exact one *)

From Coq Require Import ZifyBool ZifyNat Permutation.
From Verif Require Import Base ModelBounds ModelMatrix ModelIters ModelSpan ModelProxy ModelInt Spec SpecWindow SpecInt
  LemBase LemMatrix LemFsi LemDomain LemExpr LemAssign LemInt LemIntSpan LemIntExpr.
Import ListNotations.
Open Scope Z_scope.

(** The traversal of an array over a domain (with trailing directions: a window). *)
Definition array_delivers (flag : bool) (s : span) (dom : list dbnd) : Prop :=
  exists D : Z -> mti,
    call_helper false s dom = Some (D 0) /\ call_helper32 false s dom = Some (D 0) /\
    (forall p, 0 <= p < prodZ (counts dom) -> mti_inc (D p) = D (p + 1) /\ mti_inc32 (D p) = Some (D (p + 1))) /\
    (forall p, 0 <= p < prodZ (counts dom) -> mti_adv (D 0) p = Some (D p) /\ mti_adv32 (D 0) p = Some (D p)) /\
    (forall p, 0 <= p < prodZ (counts dom) -> mti_addr32 (D p) = Some (mti_addr (D p))) /\
    (forall p, m_ptr (D p) = flag) /\
    mti_size (D 0) = prodZ (counts dom) /\ mti_size32 (D 0) = Some (prodZ (counts dom)).

Lemma array_int s hd tl dom : wf_span s -> sp_b s = hd ++ tl -> wf_dom dom ->
  Permutation (map fst dom) (map fst hd) -> int_array s -> inside dom s ->
  array_delivers (negb (Nat.eqb (length tl) 0)) s dom.
Proof.
  intros Hw Es Hd HP Hi Hin.
  destruct (counts_int s hd tl dom Hw Es Hd HP Hi Hin) as [Hc HM].
  pose proof (array_cells s Hi) as HC. pose proof (counts_ne dom Hd) as Hne.
  destruct (call_helper_int s hd tl dom Hw Es Hd HP Hi Hin false) as (base & E1 & E2 & HA).
  rewrite Bool.orb_false_r in *.
  exists (mt_at base (strides_of (sp_b s) dom) (counts dom) (negb (Nat.eqb (length tl) 0))).
  split; [exact E1|]. split; [exact E2|]. split; [|split; [|split; [exact HA|split; [reflexivity|]]]].
  - intros p Hp. rewrite mti_inc_at by auto. rewrite mti_inc32_at by (auto; lia). split; reflexivity.
  - intros p Hp. rewrite mti_adv_at by (auto; lia). rewrite mti_adv32_at by (auto; lia). split; reflexivity.
  - split; [apply mti_size_at; assumption|]. apply mti_size32_at; auto; lia.
Qed.

Section Exec.
  Context {S : Scalar}.

  Lemma write_val_ints dst v (m m' : mem S) : write_val dst v m = Some m' -> ints m' = ints m.
  Proof. unfold write_val. destruct (m_ptr dst); [discriminate|]. destruct v; try discriminate. apply store_ints. Qed.

  Lemma write_val32_ok dst v (m : mem S) : mti_addr32 dst = Some (mti_addr dst) ->
    write_val32 dst v m = write_val dst v m.
  Proof. intros E. unfold write_val32. rewrite E. reflexivity. Qed.

  Section Loops.
    Context (T : list (list Z)) (M : Z) (D : Z -> mti).
    Context (Hinc : forall p, 0 <= p < M -> mti_inc (D p) = D (p + 1) /\ mti_inc32 (D p) = Some (D (p + 1))).
    Context (Haddr : forall p, 0 <= p < M -> mti_addr32 (D p) = Some (mti_addr (D p))).

    Lemma fill_loop32_ok n t : forall p (m : mem S), 0 <= p -> p + Z.of_nat n <= M ->
      fill_loop32 n (D p) t m = fill_loop n (D p) t m.
    Proof.
      induction n as [|n IH]; intros p m H0 H1; cbn [fill_loop fill_loop32]; [reflexivity|].
      rewrite write_val32_ok by (apply Haddr; lia). apply bind_ext. intros m' _.
      destruct (Hinc p ltac:(lia)) as [-> ->]. cbn [bind]. apply IH; lia.
    Qed.

    Lemma copy_loop32_ok (F : Z -> iter) n :
      (forall p, 0 <= p < M -> it_inc (F p) = Some (F (p + 1)) /\ it_inc32 (F p) = Some (F (p + 1))) ->
      (forall p m, 0 <= p < M -> ints m = T -> it_deref32 (F p) m = it_deref (F p) m) ->
      forall p (m : mem S), ints m = T -> 0 <= p -> p + Z.of_nat n <= M ->
      copy_loop32 n (F p) (D p) m = copy_loop n (F p) (D p) m.
    Proof.
      intros HF HR. induction n as [|n IH]; intros p m Hm H0 H1; cbn [copy_loop copy_loop32]; [reflexivity|].
      rewrite HR by (auto; lia). apply bind_ext. intros v _.
      rewrite write_val32_ok by (apply Haddr; lia). apply bind_ext. intros m' Em.
      destruct (HF p ltac:(lia)) as [-> ->]. cbn [bind].
      destruct (Hinc p ltac:(lia)) as [-> ->]. cbn [bind]. apply IH; try lia.
      rewrite (write_val_ints _ _ _ _ Em). exact Hm.
    Qed.
  End Loops.

  Lemma lhs_int T dom (a : @assign S) : wf_dom dom -> wf_assign dom a -> int_assign T dom a ->
    Forall (fun x => 1 <= x) (counts dom) /\ array_delivers false (lhs_of a) dom.
  Proof.
    intros Hd (Hs & HP & _) (Hi & Hin & _). split.
    - apply (counts_int (lhs_of a) (sp_b (lhs_of a)) [] dom Hs ltac:(rewrite app_nil_r; reflexivity) Hd HP Hi Hin).
    - apply (array_int (lhs_of a) (sp_b (lhs_of a)) [] dom Hs ltac:(rewrite app_nil_r; reflexivity) Hd HP Hi Hin).
  Qed.

  Lemma assign_int dom (a : @assign S) (m : mem S) : wf_dom dom -> wf_assign dom a -> int_assign (ints m) dom a ->
    exec_assign32 dom a m = exec_assign dom a m.
  Proof.
    intros Hd Hw Ha. destruct (lhs_int _ dom a Hd Hw Ha) as [Hc (D & E1 & E2 & Hinc & _ & Hadr & _ & Z1 & Z2)].
    unfold exec_assign32, exec_assign. rewrite E1, E2. cbn [bind]. rewrite Z1, Z2. cbn [bind].
    pose proof (prodZ_pos (counts dom) Hc) as HP.
    destruct Hw as (_ & _ & Hw). destruct Ha as (_ & _ & Ha). destruct a as [s e|s t].
    - destruct (expr_int (ints m) e dom Hd Hc Hw Ha) as (F & F1 & F2 & HF & _ & HR). rewrite F1, F2. cbn [bind].
      eapply copy_loop32_ok; eauto; lia.
    - eapply fill_loop32_ok; eauto; lia.
  Qed.

  Lemma assign_ra_int ks dom (a : @assign S) (m : mem S) : wf_dom dom -> wf_assign dom a ->
    int_assign (ints m) dom a -> (forall n k, In k (ks n) -> 0 <= k < n) ->
    exec_assign_ra32 ks dom a m = exec_assign_ra ks dom a m.
  Proof.
    intros Hd Hw Ha Hks. destruct (lhs_int _ dom a Hd Hw Ha) as [Hc (D & E1 & E2 & _ & Hadv & Hadr & _ & Z1 & Z2)].
    unfold exec_assign_ra32, exec_assign_ra. rewrite E1, E2. cbn [bind]. rewrite Z1, Z2. cbn [bind].
    destruct Hw as (_ & _ & Hw). destruct Ha as (_ & _ & Ha). destruct a as [s e|s t].
    - destruct (expr_int (ints m) e dom Hd Hc Hw Ha) as (F & F1 & F2 & _ & HF & HR). rewrite F1, F2. cbn [bind].
      apply (forM_eq_inv (fun m' => ints m' = ints m)); [reflexivity|]. intros k m' Hk Hm. apply Hks in Hk.
      unfold copy_elem32, copy_elem. destruct (HF k Hk) as [-> ->], (Hadv k Hk) as [-> ->]. cbn [bind]. split.
      + rewrite HR by auto. apply bind_ext. intros v _. apply write_val32_ok, Hadr, Hk.
      + intros m'' E. apply bind_Some_inv in E as (v & _ & E). rewrite (write_val_ints _ _ _ _ E). exact Hm.
    - apply (forM_eq_inv (fun m' => ints m' = ints m)); [reflexivity|]. intros k m' Hk Hm. apply Hks in Hk.
      unfold fill_elem32, fill_elem. destruct (Hadv k Hk) as [-> ->]. cbn [bind]. split.
      + apply write_val32_ok, Hadr, Hk.
      + intros m'' E. rewrite (write_val_ints _ _ _ _ E). exact Hm.
  Qed.

  Lemma exec_assign_ints dom (a : @assign S) (m m' : mem S) : exec_assign dom a m = Some m' -> ints m' = ints m.
  Proof.
    assert (forall n dst t (m m' : mem S), fill_loop n dst t m = Some m' -> ints m' = ints m) as HF.
    { induction n as [|n IH]; cbn [fill_loop]; intros dst t m0 m1 E; [congruence|].
      apply bind_Some_inv in E as (m2 & E1 & E2). rewrite (IH _ _ _ _ E2). eapply write_val_ints; eauto. }
    assert (forall n src dst (m m' : mem S), copy_loop n src dst m = Some m' -> ints m' = ints m) as HC.
    { induction n as [|n IH]; cbn [copy_loop]; intros src dst m0 m1 E; [congruence|].
      apply bind_Some_inv in E as (v & _ & E). apply bind_Some_inv in E as (m2 & E1 & E).
      apply bind_Some_inv in E as (s' & _ & E). rewrite (IH _ _ _ _ E). eapply write_val_ints; eauto. }
    unfold exec_assign. intros E. apply bind_Some_inv in E as (out & _ & E). destruct a.
    - apply bind_Some_inv in E as (src & _ & E). eauto.
    - eauto.
  Qed.

  Lemma domain_int dom l (m : mem S) : wf_dom dom -> Forall (wf_assign dom) l ->
    Forall (int_assign (ints m) dom) l -> with_domain32 dom l m = with_domain dom l m.
  Proof.
    intros Hd Hw Ha. unfold with_domain32, with_domain. rewrite Forall_forall in Hw, Ha.
    apply (forM_eq_inv (fun m' => ints m' = ints m)); [reflexivity|]. intros a m' Hin Hm. split.
    - apply assign_int; auto. rewrite Hm. auto.
    - intros m'' E. rewrite (exec_assign_ints _ _ _ _ E). exact Hm.
  Qed.

  Lemma lhs_domain_int (a : @assign S) (m : mem S) : wf_dom (sp_b (lhs_of a)) -> wf_assign (sp_b (lhs_of a)) a ->
    int_assign (ints m) (sp_b (lhs_of a)) a -> with_lhs_domain32 a m = with_lhs_domain a m.
  Proof. intros. apply assign_int; assumption. Qed.
End Exec.
