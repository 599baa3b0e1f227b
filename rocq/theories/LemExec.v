(** * Executing assignments *)

From Coq Require Import ZifyBool ZifyNat Permutation.
From Verif Require Import Base ModelBounds ModelMatrix ModelIters ModelSpan Spec
  LemBase LemMatrix LemFsi LemDomain LemExpr.
Import ListNotations.
Open Scope Z_scope.

Lemma forM_seqZ_S {M} (n : Z) (f : Z -> M -> option M) m :
  0 <= n -> forM (seqZ (n + 1)) f m = (m' <- f 0 m ;; forM (seqZ n) (fun k => f (k + 1)) m').
Proof. intros H. rewrite seqZ_S by exact H. cbn [forM]. apply bind_ext. intros. apply forM_map. Qed.

Section Exec.
  Context {S : Scalar}.

  (** Evaluation is defined on every well-formed domain, empty ones included. *)
  Lemma eval_total (e : @expr S) dom : wf_dom dom -> wf_expr e dom -> exists it, eval e dom = Some it.
  Proof.
    revert dom; induction e as [s|o t e IH|o e IH t|o e1 IH1 e2 IH2|sh s d|d z e IH|st u o|s r cb];
      intros dom Hd Hw.
    - destruct Hw as [Hs HP]. cbn [eval].
      rewrite (call_helper_ok false s (sp_b s) [] dom origin Hs ltac:(rewrite app_nil_r; reflexivity) Hd HP).
      cbn [bind]. eauto.
    - destruct (IH dom Hd Hw) as [it E]. cbn [eval]. rewrite E. cbn [bind]. eauto.
    - destruct (IH dom Hd Hw) as [it E]. cbn [eval]. rewrite E. cbn [bind]. eauto.
    - destruct Hw as [W1 W2]. destruct (IH1 dom Hd W1) as [i1 E1]. destruct (IH2 dom Hd W2) as [i2 E2].
      cbn [eval]. rewrite E1, E2. cbn [bind]. eauto.
    - destruct Hw as (Hs & HP & Hsh & b & Hin & Hb). cbn [eval].
      assert (map fst (grow_dom sh d dom) = map fst dom) as EF.
      { unfold grow_dom. rewrite map_map. reflexivity. }
      assert (wf_dom (grow_dom sh d dom)) as Hd'.
      { destruct Hd as (H1 & H2 & H3). split; [|split].
        - destruct dom; [congruence|discriminate].
        - rewrite EF. exact H2.
        - unfold grow_dom. apply Forall_map. eapply Forall_impl; [|exact H3].
          intros [d' b'] H; cbn [fst snd d_plus] in *. unfold shift_v.
          unfold db_plus, b_pluseq, b_minuseq, b_lb, b_ub in *.
          destruct (Nat.eqb d d'); destruct Hsh as [-> | ->]; simpl; lia. }
      rewrite (call_helper_ok false s (sp_b s) [] _ origin Hs ltac:(rewrite app_nil_r; reflexivity) Hd').
      + cbn [bind]. eauto.
      + rewrite EF. exact HP.
    - cbn [eval]. apply IH; [apply shift_dom_wf; assumption | exact Hw].
    - destruct Hw as (Hu & Hst & HPu & Hrev & Hone & hd & w & wb & Est & HPst). cbn [eval].
      rewrite (call_helper_ok false st hd [(w, wb)] dom origin Hst Est Hd HPst).
      rewrite (call_helper_ok true u (sp_b u) [] dom origin Hu ltac:(rewrite app_nil_r; reflexivity) Hd HPu).
      cbn [bind].
      assert (length hd = length dom) as HLh.
      { apply Permutation_length in HPst. rewrite !map_length in HPst. congruence. }
      rewrite Est, (nth_error_last_app hd (w, wb) (length dom) HLh). cbn [bind snd].
      assert (stride wb = 1) as Hwb.
      { destruct Hst as [_ Hf]. rewrite Est in Hf. apply Forall_app in Hf as [_ Hf]. inversion Hf; assumption. }
      unfold b_size, cdiv. rewrite Hwb. cbn [Z.eqb bind]. eauto.
    - destruct Hw as (Hs & Hr & Hcb & HP & d & b & Hin & Hb1 & HPd & Hline). cbn [eval].
      rewrite (coarse_to_fine_ok s r cb dom d b) by assumption. cbn [bind]. eauto.
  Qed.

  (** ** Loops over families *)

  Lemma fill_loop_family base st n k p t (m : mem S) :
    n <> [] -> Forall (fun x => 1 <= x) n -> 0 <= p -> p + Z.of_nat k <= prodZ n ->
    fill_loop k (mt_at base st n false p) t m =
    forM (seqZ (Z.of_nat k)) (fun j => write_val (mt_at base st n false (p + j)) (VNum t)) m.
  Proof.
    intros Hne Hn. revert p m; induction k as [|k IH]; intros p m Hp Hk; [reflexivity|].
    replace (Z.of_nat (Datatypes.S k)) with (Z.of_nat k + 1) by lia.
    rewrite forM_seqZ_S by lia. cbn [fill_loop]. rewrite Z.add_0_r.
    apply bind_ext. intros m' _. rewrite mti_inc_at by (auto; lia). rewrite IH by lia.
    apply forM_ext_in. intros j m'' _. f_equal. f_equal. lia.
  Qed.

  Lemma copy_loop_family F base st n k p (m : mem S) :
    n <> [] -> Forall (fun x => 1 <= x) n -> iter_family F (prodZ n) ->
    0 <= p -> p + Z.of_nat k <= prodZ n ->
    copy_loop k (F p) (mt_at base st n false p) m =
    forM (seqZ (Z.of_nat k))
      (fun j m => v <- it_deref (F (p + j)) m ;; write_val (mt_at base st n false (p + j)) v m) m.
  Proof.
    intros Hne Hn HF. revert p m; induction k as [|k IH]; intros p m Hp Hk; [reflexivity|].
    replace (Z.of_nat (Datatypes.S k)) with (Z.of_nat k + 1) by lia.
    rewrite forM_seqZ_S by lia. cbn [copy_loop]. rewrite Z.add_0_r. rewrite bind_assoc.
    apply bind_ext. intros v _. apply bind_ext. intros m' _.
    rewrite (fam_inc _ _ HF) by lia. cbn [bind]. rewrite mti_inc_at by (auto; lia). rewrite IH by lia.
    apply forM_ext_in. intros j m'' _. replace (p + 1 + j) with (p + (j + 1)) by lia.
    reflexivity.
  Qed.

  Definition assign_point (a : @assign S) (pt : point) (m : mem S) : option (mem S) :=
    match a with
    | ANum s t => store m (addr s pt) t
    | AExpr s e =>
        v <- denote e pt m ;;
        match v with VNum x => store m (addr s pt) x | _ => None end
    end.

  Lemma empty_points dom pt : wf_dom dom -> prodZ (counts dom) <= 0 -> domain_points dom pt = [].
  Proof.
    intros Hd H0. rewrite domain_points_seqZ by (apply wf_counts; exact Hd).
    assert (prodZ (counts dom) = 0) as -> by (pose proof (prodZ_nonneg _ (wf_counts dom Hd)); lia).
    reflexivity.
  Qed.

  (** The iterators of an assignment and what they denote. *)
  Lemma assign_parts dom (a : @assign S) :
    wf_dom dom -> wf_assign dom a -> 0 < prodZ (counts dom) ->
    exists base st,
      call_helper false (lhs_of a) dom = Some (mt_at base st (counts dom) false 0) /\
      (forall p pt0, 0 <= p < prodZ (counts dom) ->
         mti_addr (mt_at base st (counts dom) false p) =
         addr (lhs_of a) (pt_at dom (unrav (counts dom) p) pt0)) /\
      counts dom <> [] /\ Forall (fun x => 1 <= x) (counts dom) /\
      match a with ANum _ _ => True | AExpr _ e => delivers e dom end.
  Proof.
    intros Hd (Hs & HP & He) H0.
    pose proof (wf_counts_pos dom Hd H0) as Hc.
    destruct (call_helper_family false (lhs_of a) (sp_b (lhs_of a)) [] dom Hs
                ltac:(rewrite app_nil_r; reflexivity) Hd HP Hc) as (base & E & HA).
    cbn [length Nat.eqb negb orb lbs] in E, HA.
    exists base, (strides_of (sp_b (lhs_of a)) dom). split; [exact E|]. split; [exact HA|].
    split; [apply counts_ne; exact Hd|]. split; [exact Hc|].
    destruct a as [s e|s t]; [|exact I]. apply eval_family; assumption.
  Qed.

  Theorem exec_assign_spec dom a (m : mem S) :
    wf_dom dom -> wf_assign dom a -> exec_assign dom a m = assign_spec dom a m.
  Proof.
    intros Hd Ha.
    destruct (Z.le_gt_cases (prodZ (counts dom)) 0) as [H0|H0].
    - unfold assign_spec. rewrite empty_points by assumption. cbn [forM].
      unfold exec_assign. destruct Ha as (Hs & HP & He).
      rewrite (call_helper_ok false (lhs_of a) (sp_b (lhs_of a)) [] dom origin Hs
                ltac:(rewrite app_nil_r; reflexivity) Hd HP). cbn [bind].
      unfold mti_size. cbn [m_n]. rewrite stride_dim_m1.
      replace (Z.to_nat (prodZ (counts dom))) with 0%nat by lia.
      destruct a as [s e|s t]; [|reflexivity].
      destruct (eval_total e dom Hd He) as [it E]. rewrite E. reflexivity.
    - destruct (assign_parts dom a Hd Ha H0) as (base & st & E & HA & Hne & Hc & He).
      unfold exec_assign. rewrite E. cbn [bind]. rewrite mti_size_at.
      unfold assign_spec. rewrite domain_points_seqZ by (apply wf_counts; exact Hd).
      rewrite forM_map.
      destruct a as [s e|s t]; cbn [lhs_of] in *.
      + destruct He as (F & Ee & HF & HD). rewrite Ee. cbn [bind].
        rewrite (copy_loop_family F) by (auto; lia).
        replace (Z.of_nat (Z.to_nat (prodZ (counts dom)))) with (prodZ (counts dom)) by lia.
        apply forM_ext_in. intros p m' Hp. apply in_seqZ in Hp. rewrite Z.add_0_l.
        rewrite (proj1 (HD p m' origin Hp)). apply bind_ext. intros v _.
        unfold write_val. cbn [m_ptr mt_at]. fold (mt_at base st (counts dom) false p).
        rewrite (HA p origin Hp). reflexivity.
      + rewrite fill_loop_family by (auto; lia).
        replace (Z.of_nat (Z.to_nat (prodZ (counts dom)))) with (prodZ (counts dom)) by lia.
        apply forM_ext_in. intros p m' Hp. apply in_seqZ in Hp. rewrite Z.add_0_l.
        unfold write_val. cbn [m_ptr mt_at]. fold (mt_at base st (counts dom) false p).
        rewrite (HA p origin Hp). reflexivity.
  Qed.

  (** Random-access execution: element [k] does the work of the [k]-th point,
      whatever the order of the elements. *)
  Theorem exec_assign_ra_spec dom a (ks : Z -> list Z) (m : mem S) :
    wf_dom dom -> wf_assign dom a ->
    (forall k, In k (ks (prodZ (counts dom))) -> 0 <= k < prodZ (counts dom)) ->
    exec_assign_ra ks dom a m =
    forM (ks (prodZ (counts dom)))
      (fun k => assign_point a (pt_at dom (unrav (counts dom) k) origin)) m.
  Proof.
    intros Hd Ha Hk.
    destruct (Z.le_gt_cases (prodZ (counts dom)) 0) as [H0|H0].
    - assert (ks (prodZ (counts dom)) = []) as EK.
      { destruct (ks (prodZ (counts dom))) as [|k l]; [reflexivity|].
        specialize (Hk k (or_introl eq_refl)). lia. }
      unfold exec_assign_ra. destruct Ha as (Hs & HP & He).
      rewrite (call_helper_ok false (lhs_of a) (sp_b (lhs_of a)) [] dom origin Hs
                ltac:(rewrite app_nil_r; reflexivity) Hd HP). cbn [bind].
      unfold mti_size. cbn [m_n]. rewrite stride_dim_m1, EK.
      destruct a as [s e|s t]; [|reflexivity].
      destruct (eval_total e dom Hd He) as [it E]. rewrite E. reflexivity.
    - destruct (assign_parts dom a Hd Ha H0) as (base & st & E & HA & Hne & Hc & He).
      unfold exec_assign_ra. rewrite E. cbn [bind]. rewrite mti_size_at.
      destruct a as [s e|s t]; cbn [lhs_of] in *.
      + destruct He as (F & Ee & HF & HD). rewrite Ee. cbn [bind].
        apply forM_ext_in. intros p m' Hp. apply Hk in Hp. unfold copy_elem.
        rewrite (fam_adv _ _ HF) by lia. cbn [bind]. rewrite mti_adv_at by (auto; lia). cbn [bind].
        rewrite Z.add_0_l, (proj1 (HD p m' origin Hp)). unfold assign_point. apply bind_ext. intros v _.
        unfold write_val. cbn [m_ptr mt_at]. fold (mt_at base st (counts dom) false p).
        rewrite (HA p origin Hp). reflexivity.
      + apply forM_ext_in. intros p m' Hp. apply Hk in Hp. unfold fill_elem.
        rewrite mti_adv_at by (auto; lia). cbn [bind]. rewrite Z.add_0_l.
        unfold write_val. cbn [m_ptr mt_at]. fold (mt_at base st (counts dom) false p).
        rewrite (HA p origin Hp). reflexivity.
  Qed.
End Exec.
