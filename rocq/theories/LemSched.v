(** * Schedule independence *)

From Coq Require Import ZifyBool ZifyNat Permutation.
From Verif Require Import Base ModelBounds ModelMatrix ModelIters ModelSpan Spec ModelSched
  LemBase LemMatrix LemDomain LemExpr LemExec.
Import ListNotations.
Open Scope Z_scope.

Section Sched.
  Context {S : Scalar}.
  Notation tprog := (@tprog S).

  (** All reads of the thread satisfy [R], all writes [W]. *)
  Fixpoint within (R W : ptr -> Prop) (t : tprog) : Prop :=
    match t with
    | TDone => True
    | TFail => True
    | TRead p k => R p /\ forall x, within R W (k x)
    | TWrite p v k => W p /\ within R W k
    end.

  (** The memories have the same allocations and agree on [P]. *)
  Definition agree (P : ptr -> Prop) (m m' : mem S) : Prop :=
    shape m = shape m' /\ forall p, P p -> load m p = load m' p.

  Lemma store_agree P m m' p v : agree P m m' ->
    orel (agree (fun q => P q \/ q = p)) (store m p v) (store m' p v).
  Proof.
    intros [Hs Hl]. destruct (store m p v) as [n|] eqn:E, (store m' p v) as [n'|] eqn:E'; simpl; auto.
    - split.
      + rewrite (store_shape _ _ _ _ E), (store_shape _ _ _ _ E'). exact Hs.
      + intros q Hq. rewrite (load_store _ _ _ _ _ E), (load_store _ _ _ _ _ E').
        destruct (ptr_dec p q) as [|Hne]; [reflexivity|]. apply Hl.
        destruct Hq as [Hq|Hq]; [exact Hq|congruence].
    - assert (valid m p) as Hv by (apply valid_load; apply (store_Some m p v); eauto).
      assert (valid m' p) as Hv' by (unfold valid in *; rewrite <- Hs; exact Hv).
      apply valid_load in Hv'. apply (store_Some m' p v) in Hv' as [x Hx]. congruence.
    - assert (valid m' p) as Hv by (apply valid_load; apply (store_Some m' p v); eauto).
      assert (valid m p) as Hv' by (unfold valid in *; rewrite Hs; exact Hv).
      apply valid_load in Hv'. apply (store_Some m p v) in Hv' as [x Hx]. congruence.
  Qed.

  Lemma alone_agree R W t m m' :
    within R W t -> agree (fun p => R p \/ W p) m m' ->
    orel (agree (fun p => R p \/ W p)) (run_alone t m) (run_alone t m').
  Proof.
    revert m m'; induction t as [| |p k IH|p v k IH]; intros m m' Hw Ha; cbn [run_alone within] in *.
    - exact Ha.
    - exact I.
    - destruct Hw as [Hp Hk]. rewrite <- (proj2 Ha p) by auto.
      destruct (load m p); [|exact I]. apply IH; auto.
    - destruct Hw as [Hp Hk]. pose proof (store_agree _ m m' p v Ha) as Hst.
      destruct (store m p v), (store m' p v); simpl in Hst; try tauto.
      apply IH; [exact Hk|]. split; [apply Hst|]. intros q Hq. apply Hst. tauto.
  Qed.

  Lemma alone_frame R W t m m' :
    within R W t -> run_alone t m = Some m' ->
    shape m' = shape m /\ ints m' = ints m /\ forall p, ~ W p -> load m' p = load m p.
  Proof.
    revert m; induction t as [| |p k IH|p v k IH]; intros m Hw E; cbn [run_alone within] in *.
    - injection E as <-. auto.
    - discriminate.
    - destruct Hw as [_ Hk]. destruct (load m p); [|discriminate]. eapply IH; eauto.
    - destruct Hw as [Hp Hk]. destruct (store m p v) as [n|] eqn:Es; [|discriminate].
      destruct (IH _ Hk E) as (H1 & H2 & H3). rewrite H1, H2.
      rewrite (store_shape _ _ _ _ Es), (store_ints _ _ _ _ Es). repeat split.
      intros q Hq. rewrite H3 by exact Hq. rewrite (load_store _ _ _ _ _ Es).
      destruct (ptr_dec p q) as [<-|]; [contradiction|reflexivity].
  Qed.

  (** ** Independent pools *)
  Section Pool.
    Context (R W : nat -> ptr -> Prop).
    Context (Hind : forall i j p, i <> j -> W i p -> ~ R j p /\ ~ W j p).

    Definition fits (ts : list tprog) : Prop :=
      forall i t, nth_error ts i = Some t -> within (R i) (W i) t.

    (** Invariant of a pool started as [(ts0, m0)]: every thread [i] has a private
        memory [pm i], as if it had been alone, which the shared memory reflects on
        everything the thread may access. *)
    Definition pinv (ts0 : list tprog) (m0 : mem S) (c : pool) : Prop :=
      fits (fst c) /\ length (fst c) = length ts0 /\
      shape (snd c) = shape m0 /\ ints (snd c) = ints m0 /\
      (forall p, (forall i, (i < length ts0)%nat -> ~ W i p) -> load (snd c) p = load m0 p) /\
      exists pm : nat -> mem S, forall i t t0,
        nth_error (fst c) i = Some t -> nth_error ts0 i = Some t0 ->
        agree (fun p => R i p \/ W i p) (snd c) (pm i) /\
        run_alone t (pm i) = run_alone t0 m0.

    Lemma pinv_init ts0 m0 : fits ts0 -> pinv ts0 m0 (ts0, m0).
    Proof.
      intros Hf. repeat split; auto. exists (fun _ => m0). intros i t t0 H1 H2. simpl in H1.
      split; [split; auto|]. congruence.
    Qed.

    Lemma pinv_step ts0 m0 c i c' :
      pinv ts0 m0 c -> pool_step i c = Some c' -> pinv ts0 m0 c'.
    Proof.
      destruct c as [ts m]. intros (Hf & HL & Hsh & Hin & Hout & pm & Hpm) E.
      unfold pool_step in E. cbn [fst snd] in *.
      destruct (nth_error ts i) as [t|] eqn:Et.
      2:{ injection E as <-. repeat split; auto. exists pm. exact Hpm. }
      apply bind_Some_inv in E as ([t' m'] & Es & E). injection E as <-. cbn [fst snd].
      assert (i < length ts)%nat as Hi by (apply nth_error_Some; congruence).
      assert (exists t0, nth_error ts0 i = Some t0) as [t0 Et0].
      { destruct (nth_error ts0 i) eqn:E0; [eauto|]. apply nth_error_None in E0. lia. }
      pose proof (Hf i t Et) as Hwt. destruct (Hpm i t t0 Et Et0) as [Hag Hrun].
      assert (forall j x, nth_error (aset ts i t') j = Some x ->
                (j = i /\ x = t') \/ (j <> i /\ nth_error ts j = Some x)) as Hnth.
      { intros j x Hx. rewrite nth_error_aset in Hx. destruct (Nat.eqb_spec i j) as [->|Hne].
        - destruct (Nat.ltb j (length ts)); [|discriminate]. left. split; congruence.
        - right. split; congruence. }
      destruct t as [| |p k|p v k]; cbn [tstep] in Es.
      - injection Es as <- <-. repeat split; auto.
        + intros j x Hx. destruct (Hnth j x Hx) as [[-> ->]|[_ H]]; [exact I|apply Hf; exact H].
        + cbn [fst]. rewrite aset_length. exact HL.
        + exists pm. cbn [fst snd]. intros j x x0 Hx Hx0. apply Hpm; [|exact Hx0].
          destruct (Hnth j x Hx) as [[-> ->]|[_ H]]; assumption.
      - discriminate.
      - apply bind_Some_inv in Es as (x & Ex & Es). injection Es as <- <-.
        destruct Hwt as [HRp Hk]. repeat split; auto.
        + intros j y Hy. destruct (Hnth j y Hy) as [[-> ->]|[_ H]]; [apply Hk|apply Hf; exact H].
        + cbn [fst]. rewrite aset_length. exact HL.
        + exists pm. cbn [fst snd]. intros j y y0 Hy Hy0.
          destruct (Hnth j y Hy) as [[-> ->]|[_ H]]; [|apply Hpm; assumption].
          assert (y0 = t0) as -> by congruence. split; [exact Hag|].
          rewrite <- Hrun. cbn [run_alone]. rewrite <- (proj2 Hag p) by auto. rewrite Ex. reflexivity.
      - apply bind_Some_inv in Es as (m1 & Em & Es). injection Es as <- <-.
        destruct Hwt as [HWp Hk].
        pose proof (store_agree _ m (pm i) p v Hag) as Hst. rewrite Em in Hst.
        destruct (store (pm i) p v) as [n|] eqn:En; [|contradiction]. simpl in Hst.
        repeat split; cbn [fst snd].
        + intros j y Hy. destruct (Hnth j y Hy) as [[-> ->]|[_ H]]; [exact Hk|apply Hf; exact H].
        + rewrite aset_length. exact HL.
        + rewrite (store_shape _ _ _ _ Em). exact Hsh.
        + rewrite (store_ints _ _ _ _ Em). exact Hin.
        + intros q Hq. rewrite (load_store _ _ _ _ _ Em). destruct (ptr_dec p q) as [<-|].
          * exfalso. apply (Hq i); [lia|exact HWp].
          * apply Hout. exact Hq.
        + exists (fun j => if Nat.eq_dec j i then n else pm j). intros j y y0 Hy Hy0.
          destruct (Hnth j y Hy) as [[-> ->]|[Hne H]].
          * destruct (Nat.eq_dec i i); [|congruence]. assert (y0 = t0) as -> by congruence.
            split.
            -- split; [apply Hst|]. intros q Hq. apply Hst. left. exact Hq.
            -- rewrite <- Hrun. cbn [run_alone]. rewrite En. reflexivity.
          * destruct (Nat.eq_dec j i); [congruence|]. destruct (Hpm j y y0 H Hy0) as [[A1 A2] A3].
            split; [|exact A3]. split; [rewrite (store_shape _ _ _ _ Em); exact A1|].
            intros q Hq. rewrite (load_store _ _ _ _ _ Em). destruct (ptr_dec p q) as [<-|]; [|auto].
            exfalso. destruct (Hind i j p ltac:(congruence) HWp). tauto.
    Qed.

    (** If every thread completes when alone, no schedule fails. *)
    Lemma pinv_progress ts0 m0 c i :
      (forall j t0, nth_error ts0 j = Some t0 -> run_alone t0 m0 <> None) ->
      pinv ts0 m0 c -> exists c', pool_step i c = Some c'.
    Proof.
      destruct c as [ts m]. intros Hdef (Hf & HL & _ & _ & _ & pm & Hpm). cbn [fst snd] in *.
      unfold pool_step. cbn [fst snd]. destruct (nth_error ts i) as [t|] eqn:Et; [|eauto].
      assert (exists t0, nth_error ts0 i = Some t0) as [t0 Et0].
      { assert (i < length ts)%nat by (apply nth_error_Some; congruence).
        destruct (nth_error ts0 i) eqn:E0; [eauto|]. apply nth_error_None in E0. lia. }
      destruct (Hpm i t t0 Et Et0) as [Hag Hrun]. pose proof (Hf i t Et) as Hwt.
      specialize (Hdef i t0 Et0). rewrite <- Hrun in Hdef.
      destruct t as [| |p k|p v k]; cbn [tstep run_alone within] in *.
      - cbn [bind]. eauto.
      - congruence.
      - destruct Hwt as [Hp _]. rewrite <- (proj2 Hag p) in Hdef by auto.
        destruct (load m p); [cbn [bind]; eauto|congruence].
      - destruct Hwt as [Hp _]. pose proof (store_agree _ m (pm i) p v Hag) as Hst.
        destruct (store m p v), (store (pm i) p v); simpl in Hst; try tauto; try congruence.
        cbn [bind]. eauto.
    Qed.

    (** What the memory must be once all threads are done. *)
    Definition outcome (ts0 : list tprog) (m0 m : mem S) : Prop :=
      shape m = shape m0 /\ ints m = ints m0 /\
      (forall p, (forall i, (i < length ts0)%nat -> ~ W i p) -> load m p = load m0 p) /\
      forall i t0, nth_error ts0 i = Some t0 ->
        exists f, run_alone t0 m0 = Some f /\ forall p, W i p -> load m p = load f p.

    Lemma pinv_done ts0 m0 ts m : pinv ts0 m0 (ts, m) -> all_done ts -> outcome ts0 m0 m.
    Proof.
      intros (Hf & HL & Hsh & Hin & Hout & pm & Hpm) Hd. cbn [fst snd] in *.
      repeat split; auto. intros i t0 Et0.
      assert (exists t, nth_error ts i = Some t) as [t Et].
      { assert (i < length ts0)%nat by (apply nth_error_Some; congruence).
        destruct (nth_error ts i) eqn:E0; [eauto|]. apply nth_error_None in E0. lia. }
      destruct (Hpm i t t0 Et Et0) as [[_ Hag] Hrun].
      assert (t = TDone) as ->.
      { unfold all_done in Hd. rewrite Forall_forall in Hd. apply Hd. eapply nth_error_In; eassumption. }
      exists (pm i). split; [symmetry; exact Hrun|]. intros p Hp. apply Hag. right; exact Hp.
    Qed.

    Lemma outcome_unique (ts0 : list tprog) m0 m m' :
      (forall i p, W i p \/ ~ W i p) ->
      outcome ts0 m0 m -> outcome ts0 m0 m' -> m = m'.
    Proof.
      intros HdecW (S1 & I1 & O1 & F1) (S2 & I2 & O2 & F2).
      apply mem_ext; [congruence|congruence|]. intros p.
      assert ((exists i, (i < length ts0)%nat /\ W i p) \/ forall i, (i < length ts0)%nat -> ~ W i p) as [(i & Hi & HW)|Hn].
      { clear - HdecW. induction (length ts0) as [|n [ (i & Hi & HW) | H ]].
        - right. intros; lia.
        - left. exists i. split; [lia|exact HW].
        - destruct (HdecW n p) as [Hn|Hn].
          + left. exists n. split; [lia|exact Hn].
          + right. intros i Hi. destruct (Nat.eq_dec i n) as [->|]; [exact Hn|apply H; lia]. }
      - destruct (nth_error ts0 i) as [t0|] eqn:E0; [|apply nth_error_None in E0; lia].
        destruct (F1 i t0 E0) as (f1 & R1 & L1). destruct (F2 i t0 E0) as (f2 & R2 & L2).
        rewrite L1, L2 by exact HW. congruence.
      - rewrite O1, O2 by exact Hn. reflexivity.
    Qed.

    (** Sequential execution has the same outcome. *)
    Lemma seq_outcome ts0 m0 m :
      fits ts0 -> forM ts0 run_alone m0 = Some m -> outcome ts0 m0 m.
    Proof.
      revert m; induction ts0 as [|t ts IH] using rev_ind; intros m Hf E.
      - injection E as <-. repeat split; auto. intros i t0 H. destruct i; discriminate.
      - rewrite forM_app in E. apply bind_Some_inv in E as (m1 & E1 & E2). cbn [forM] in E2.
        apply bind_Some_inv in E2 as (m2 & E2 & E3). injection E3 as ->.
        assert (fits ts) as Hf'.
        { intros i x Hx. apply Hf. rewrite nth_error_app1; [exact Hx|]. apply nth_error_Some. congruence. }
        destruct (IH m1 Hf' E1) as (S1 & I1 & O1 & F1).
        assert (within (R (length ts)) (W (length ts)) t) as Hwt.
        { apply Hf. rewrite nth_error_app2 by lia. rewrite Nat.sub_diag. reflexivity. }
        destruct (alone_frame _ _ _ _ _ Hwt E2) as (S2 & I2 & O2).
        (* the last thread sees the initial memory on its footprint *)
        assert (agree (fun p => R (length ts) p \/ W (length ts) p) m1 m0) as Hag.
        { split; [exact S1|]. intros p Hp. apply O1. intros i Hi HW.
          destruct (Hind i (length ts) p ltac:(lia) HW). tauto. }
        pose proof (alone_agree _ _ t m1 m0 Hwt Hag) as Hr. rewrite E2 in Hr.
        destruct (run_alone t m0) as [f|] eqn:Ef; [|contradiction]. simpl in Hr.
        repeat split.
        + congruence.
        + congruence.
        + intros p Hp. rewrite O2 by (apply Hp; rewrite app_length; simpl; lia).
          apply O1. intros i Hi. apply Hp. rewrite app_length; simpl; lia.
        + intros i t0 E0. destruct (Nat.lt_ge_cases i (length ts)) as [Hlt|Hge].
          * rewrite nth_error_app1 in E0 by exact Hlt. destruct (F1 i t0 E0) as (g & Rg & Lg).
            exists g. split; [exact Rg|]. intros p Hp. rewrite O2; [apply Lg; exact Hp|].
            destruct (Hind i (length ts) p ltac:(lia) Hp). assumption.
          * assert (i = length ts) as ->.
            { assert (i < length (ts ++ [t]))%nat by (apply nth_error_Some; congruence).
              rewrite app_length in *. simpl in *. lia. }
            rewrite nth_error_app2 in E0 by lia. rewrite Nat.sub_diag in E0. injection E0 as <-.
            exists f. split; [exact Ef|]. intros p Hp. apply Hr. right; exact Hp.
    Qed.

    Lemma seq_defined ts0 m0 :
      fits ts0 -> (forall i t0, nth_error ts0 i = Some t0 -> run_alone t0 m0 <> None) ->
      exists m, forM ts0 run_alone m0 = Some m.
    Proof.
      induction ts0 as [|t ts IH] using rev_ind; intros Hf Hdef; [simpl; eauto|].
      assert (fits ts) as Hf'.
      { intros i x Hx. apply Hf. rewrite nth_error_app1; [exact Hx|]. apply nth_error_Some. congruence. }
      destruct IH as [m1 E1]; [exact Hf'| |].
      { intros i x Hx. apply (Hdef i). rewrite nth_error_app1; [exact Hx|]. apply nth_error_Some. congruence. }
      destruct (seq_outcome ts m0 m1 Hf' E1) as (S1 & I1 & O1 & F1).
      assert (nth_error (ts ++ [t]) (length ts) = Some t) as Et.
      { rewrite nth_error_app2 by lia. rewrite Nat.sub_diag. reflexivity. }
      pose proof (Hf _ _ Et) as Hwt. specialize (Hdef _ _ Et).
      assert (agree (fun p => R (length ts) p \/ W (length ts) p) m1 m0) as Hag.
      { split; [exact S1|]. intros p Hp. apply O1. intros i Hi HW.
        destruct (Hind i (length ts) p ltac:(lia) HW). tauto. }
      pose proof (alone_agree _ _ t m1 m0 Hwt Hag) as Hr.
      rewrite forM_app, E1. cbn [bind forM].
      destruct (run_alone t m1), (run_alone t m0); simpl in Hr; try tauto; try congruence.
      cbn [bind]. eauto.
    Qed.

    (** Any schedule under which all threads finish gives the sequential result,
        and no schedule fails if the sequential execution does not. *)
    Theorem schedule_independent ts0 m0 sch :
      (forall i p, W i p \/ ~ W i p) -> fits ts0 ->
      (forall ts m, run_schedule sch (ts0, m0) = Some (ts, m) -> all_done ts ->
         forM ts0 run_alone m0 = Some m) /\
      (forM ts0 run_alone m0 <> None -> run_schedule sch (ts0, m0) <> None).
    Proof.
      intros HdecW Hf. split.
      - intros ts m E Hd.
        assert (pinv ts0 m0 (ts, m)) as Hinv.
        { unfold run_schedule in E. refine (forM_inv (pinv ts0 m0) _ _ _ _ _ (pinv_init _ _ Hf) E).
          intros i c c' _ Hc Hs. eapply pinv_step; eassumption. }
        pose proof (pinv_done _ _ _ _ Hinv Hd) as HO.
        destruct (seq_defined ts0 m0 Hf) as [m' E'].
        { intros i t0 Et0. destruct HO as (_ & _ & _ & F). destruct (F i t0 Et0) as (f & -> & _). discriminate. }
        rewrite E'. f_equal. eapply outcome_unique; [exact HdecW|eapply seq_outcome; eassumption|exact HO].
      - intros Hseq. destruct (forM ts0 run_alone m0) as [m|] eqn:E; [|congruence].
        pose proof (seq_outcome _ _ _ Hf E) as (_ & _ & _ & F).
        assert (exists c, run_schedule sch (ts0, m0) = Some c /\ pinv ts0 m0 c) as (c & -> & _);
          [|discriminate].
        unfold run_schedule. apply forM_Some; [|apply pinv_init; exact Hf].
        intros i c _ Hc. destruct (pinv_progress ts0 m0 c i) as [c' Ec]; [|exact Hc|].
        + intros j t0 Ej. destruct (F j t0 Ej) as (f & -> & _). discriminate.
        + exists c'. split; [exact Ec|]. eapply pinv_step; eassumption.
    Qed.
  End Pool.

  (** The sequential execution is itself one of the schedules. *)
  Lemma finish_thread (t : tprog) i ts (m m' : mem S) :
    nth_error ts i = Some t -> run_alone t m = Some m' ->
    exists sch, run_schedule sch (ts, m) = Some (aset ts i TDone, m').
  Proof.
    revert ts m; induction t as [| |p k IH|p v k IH]; intros ts m Hi E; cbn [run_alone] in E.
    - injection E as <-. exists []. rewrite aset_same by exact Hi. reflexivity.
    - discriminate.
    - destruct (load m p) as [x|] eqn:El; [|discriminate].
      assert (i < length ts)%nat by (apply nth_error_Some; congruence).
      destruct (IH x (aset ts i (k x)) m) as [sch Hs]; [|exact E|].
      { rewrite nth_error_aset, Nat.eqb_refl. destruct (Nat.ltb_spec i (length ts)); [reflexivity|lia]. }
      exists (i :: sch). unfold run_schedule in *. cbn [forM]. unfold pool_step at 1. cbn [fst snd].
      rewrite Hi. cbn [tstep bind]. rewrite El. cbn [bind fst snd]. rewrite Hs, aset_aset. reflexivity.
    - destruct (store m p v) as [n|] eqn:El; [|discriminate].
      assert (i < length ts)%nat by (apply nth_error_Some; congruence).
      destruct (IH (aset ts i k) n) as [sch Hs]; [|exact E|].
      { rewrite nth_error_aset, Nat.eqb_refl. destruct (Nat.ltb_spec i (length ts)); [reflexivity|lia]. }
      exists (i :: sch). unfold run_schedule in *. cbn [forM]. unfold pool_step at 1. cbn [fst snd].
      rewrite Hi. cbn [tstep bind]. rewrite El. cbn [bind fst snd]. rewrite Hs, aset_aset. reflexivity.
  Qed.

  Lemma schedule_exists (ts : list tprog) (m m' : mem S) :
    forM ts run_alone m = Some m' ->
    exists sch ts', run_schedule sch (ts, m) = Some (ts', m') /\ all_done ts'.
  Proof.
    assert (forall done m, all_done done -> forM ts run_alone m = Some m' ->
      exists sch ts', run_schedule sch (done ++ ts, m) = Some (ts', m') /\ all_done ts') as H.
    { induction ts as [|t ts IH]; intros done m1 Hd E.
      - injection E as <-. exists [], done. rewrite app_nil_r. split; [reflexivity|exact Hd].
      - cbn [forM] in E. apply bind_Some_inv in E as (m2 & E1 & E2).
        destruct (finish_thread t (length done) (done ++ t :: ts) m1 m2) as [sch1 H1]; [|exact E1|].
        { rewrite nth_error_app2 by lia. rewrite Nat.sub_diag. reflexivity. }
        assert (aset (done ++ t :: ts) (length done) TDone = (done ++ [TDone]) ++ ts) as Ea.
        { rewrite <- app_assoc. clear. induction done; simpl; [reflexivity|]; f_equal; assumption. }
        rewrite Ea in H1.
        destruct (IH (done ++ [TDone]) m2) as (sch2 & ts' & H2 & Hd2).
        { apply Forall_app. split; [exact Hd|repeat constructor]. }
        { exact E2. }
        exists (sch1 ++ sch2), ts'. split; [|exact Hd2].
        unfold run_schedule in *. rewrite forM_app, H1. exact H2. }
    intros E. exact (H [] m ltac:(constructor) E).
  Qed.

  (** ** Threads of assignments *)

  Lemma displaced_ints (m m' : mem S) o N i pt :
    ints m = ints m' -> displaced m o N i pt = displaced m' o N i pt.
  Proof.
    intros H. unfold displaced. apply forM_ext_in. intros. unfold loadi. rewrite H. reflexivity.
  Qed.

  Lemma rd_dot_denote l e_st e_u res k (m : mem S) :
    run_alone (rd_dot l e_st e_u res k) m =
    (r <- forM l (fun i res => s <- load m (e_st i) ;; q <- e_u i ;; x <- load m q ;;
                               Some (res + s * x)%T) res ;; run_alone (k r) m).
  Proof.
    revert res; induction l as [|i l IH]; intros res; cbn [rd_dot forM run_alone bind]; [reflexivity|].
    destruct (load m (e_st i)) as [s|]; cbn [bind]; [|reflexivity].
    destruct (e_u i) as [q|]; cbn [bind run_alone]; [|reflexivity].
    destruct (load m q) as [x|]; cbn [bind]; [|reflexivity]. apply IH.
  Qed.

  Lemma rd_denote (e : @expr S) pt I k (m : mem S) :
    ints m = I -> run_alone (rd e pt I k) m = (v <- denote e pt m ;; run_alone (k v) m).
  Proof.
    intros HI. revert pt k;
      induction e as [s|o t e IH|o e IH t|o e1 IH1 e2 IH2|sh s d|d z e IH|st u o|s r cb];
      intros pt k; cbn [rd denote].
    - cbn [run_alone]. destruct (load m _); reflexivity.
    - rewrite IH, bind_assoc. apply bind_ext. intros v _. destruct (app_op _ _ _); reflexivity.
    - rewrite IH, bind_assoc. apply bind_ext. intros v _. destruct (app_op _ _ _); reflexivity.
    - rewrite IH1, bind_assoc. apply bind_ext. intros v _. rewrite IH2, bind_assoc.
      apply bind_ext. intros w _. destruct (app_op _ _ _); reflexivity.
    - cbv zeta. cbn [run_alone]. destruct (load m _); [|reflexivity]. cbn [run_alone bind].
      destruct (load m _); reflexivity.
    - apply IH.
    - cbv zeta. destruct (nth_error (sp_b st) (length (sp_b u))) as [[w wb]|]; [|reflexivity].
      rewrite rd_dot_denote, bind_assoc.
      match goal with |- bind ?x _ = bind ?y _ => assert (x = y) as -> end.
      { apply forM_ext_in. intros i res _. apply bind_ext. intros s _.
        rewrite (displaced_ints (mkMem [] I) m) by (symmetry; exact HI).
        rewrite bind_assoc. reflexivity. }
      apply bind_ext. intros; reflexivity.
    - cbn [run_alone]. destruct (load m _); reflexivity.
  Qed.

  Lemma assign_thread_point (a : @assign S) pt (m : mem S) :
    run_alone (assign_thread a (ints m) pt) m = assign_point a pt m.
  Proof.
    destruct a as [s e|s t]; cbn [assign_thread assign_point].
    - rewrite rd_denote by reflexivity. apply bind_ext. intros v _. destruct v; cbn [run_alone]; try reflexivity.
      destruct (store m _ _); reflexivity.
    - cbn [run_alone]. destruct (store m _ _); reflexivity.
  Qed.

  Lemma within_mono (R R' W W' : ptr -> Prop) (t : tprog) :
    (forall p, R p -> R' p) -> (forall p, W p -> W' p) -> within R W t -> within R' W' t.
  Proof.
    intros HR HW. induction t as [| |p k IH|p v k IH]; cbn [within]; auto.
    - intros [H1 H2]. split; auto.
    - intros [H1 H2]. split; auto.
  Qed.

  Lemma rd_dot_within (R W : ptr -> Prop) l e_st e_u res k :
    (forall i, In i l -> R (e_st i) /\ forall q, e_u i = Some q -> R q) ->
    (forall r, within R W (k r)) -> within R W (rd_dot l e_st e_u res k).
  Proof.
    revert res; induction l as [|i l IH]; intros res Hl Hk; cbn [rd_dot]; [apply Hk|].
    destruct (Hl i (or_introl eq_refl)) as [H1 H2]. cbn [within]. split; [exact H1|]. intros s.
    destruct (e_u i) as [q|] eqn:Eq; [|exact I]. cbn [within]. split; [apply H2; reflexivity|].
    intros x. apply IH; [|exact Hk]. intros j Hj. apply Hl. right; exact Hj.
  Qed.

  Lemma rd_within (e : @expr S) pt I k (R W : ptr -> Prop) :
    (forall p, In p (reads e pt I) -> R p) -> (forall v, within R W (k v)) ->
    within R W (rd e pt I k).
  Proof.
    revert pt k;
      induction e as [s|o t e IH|o e IH t|o e1 IH1 e2 IH2|sh s d|d z e IH|st u o|s r cb];
      intros pt k HR Hk; cbn [rd reads] in *.
    - cbn [within]. split; [apply HR; left; reflexivity|auto].
    - apply IH; [exact HR|]. intros v. destruct (app_op _ _ _); [apply Hk|exact Logic.I].
    - apply IH; [exact HR|]. intros v. destruct (app_op _ _ _); [apply Hk|exact Logic.I].
    - apply IH1; [intros; apply HR; apply in_or_app; auto|]. intros u.
      apply IH2; [intros; apply HR; apply in_or_app; auto|]. intros v.
      destruct (app_op _ _ _); [apply Hk|exact Logic.I].
    - cbv zeta in *. cbn [within]. split; [apply HR; left; reflexivity|]. intros x0.
      split; [apply HR; right; left; reflexivity|auto].
    - apply IH; assumption.
    - cbv zeta in *. destruct (nth_error (sp_b st) (length (sp_b u))) as [[w wb]|]; [|exact Logic.I].
      apply rd_dot_within; [|intros; apply Hk]. intros i Hi. split.
      + apply HR. apply in_flat_map. exists i. split; [exact Hi|left; reflexivity].
      + intros q Hq. apply bind_Some_inv in Hq as (pq & Ep & Hq). injection Hq as <-.
        apply HR. apply in_flat_map. exists i. split; [exact Hi|]. right. rewrite Ep. left; reflexivity.
    - cbn [within]. split; [apply HR; left; reflexivity|auto].
  Qed.

  Lemma assign_thread_within (a : @assign S) pt I :
    within (fun p => In p (assign_reads a pt I)) (fun p => p = addr (lhs_of a) pt) (assign_thread a I pt).
  Proof.
    destruct a as [s e|s t]; cbn [assign_thread assign_reads lhs_of].
    - apply rd_within; [auto|]. intros v. destruct v; cbn [within]; auto.
    - cbn [within]; auto.
  Qed.

  Lemma forM_run_alone a pts (m : mem S) :
    forM (map (assign_thread a (ints m)) pts) run_alone m = forM pts (assign_point a) m.
  Proof.
    rewrite forM_map.
    assert (forall m', ints m' = ints m ->
      forM pts (fun pt => run_alone (assign_thread a (ints m) pt)) m' = forM pts (assign_point a) m') as H.
    { induction pts as [|pt pts IH]; intros m' Hm; [reflexivity|]. cbn [forM].
      rewrite <- Hm at 1. rewrite assign_thread_point. destruct (assign_point a pt m') as [m1|] eqn:E; [|reflexivity].
      cbn [bind]. apply IH. rewrite <- Hm.
      destruct a as [s e|s t]; cbn [assign_point] in E.
      - apply bind_Some_inv in E as (v & _ & E). destruct v; try discriminate. apply (store_ints _ _ _ _ E).
      - apply (store_ints _ _ _ _ E). }
    apply H. reflexivity.
  Qed.
End Sched.
