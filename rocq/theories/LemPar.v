(** * Parallel execution of library calls gives the sequential result *)

From Coq Require Import Permutation.
From Verif Require Import Base ModelBounds ModelMatrix ModelIters ModelSpan ModelProxy Spec SpecIter ModelSched ModelPar
  LemBase LemDomain LemExpr LemExec LemSched SpecAssign LemAssign LemProps LemProps4 SpecWindow LemWindow
  FortranBase SpecKernel SpecSafe LemKernel LemKernel2 LemBC LemStencil LemRow LemRhs LemBoundary LemSafe KernelNotations.
Import ListNotations.
Open Scope Z_scope.

Section Par.
  Context {S : Scalar}.

  (** ** Threads that fail *)

  Lemma fault_thread (t : @tprog S) i ts (m : mem S) :
    nth_error ts i = Some t -> run_alone t m = None -> exists sch, run_schedule sch (ts, m) = None.
  Proof.
    revert ts m; induction t as [| |p k IH|p v k IH]; intros ts m Hi E; cbn [run_alone] in E.
    - discriminate.
    - exists [i]. unfold run_schedule, pool_step. cbn [forM fst snd]. rewrite Hi. reflexivity.
    - destruct (load m p) as [x|] eqn:El.
      2:{ exists [i]. unfold run_schedule, pool_step. cbn [forM fst snd]. rewrite Hi. cbn [tstep]. rewrite El. reflexivity. }
      assert (i < length ts)%nat by (apply nth_error_Some; congruence).
      destruct (IH x (aset ts i (k x)) m) as [sch Hs]; [|exact E|].
      { rewrite nth_error_aset, Nat.eqb_refl. destruct (Nat.ltb_spec i (length ts)); [reflexivity|lia]. }
      exists (i :: sch). unfold run_schedule in * . cbn [forM]. unfold pool_step at 1. cbn [fst snd].
      rewrite Hi. cbn [tstep bind]. rewrite El. cbn [bind fst snd]. exact Hs.
    - destruct (store m p v) as [n|] eqn:El.
      2:{ exists [i]. unfold run_schedule, pool_step. cbn [forM fst snd]. rewrite Hi. cbn [tstep]. rewrite El. reflexivity. }
      assert (i < length ts)%nat by (apply nth_error_Some; congruence).
      destruct (IH (aset ts i k) n) as [sch Hs]; [|exact E|].
      { rewrite nth_error_aset, Nat.eqb_refl. destruct (Nat.ltb_spec i (length ts)); [reflexivity|lia]. }
      exists (i :: sch). unfold run_schedule in * . cbn [forM]. unfold pool_step at 1. cbn [fst snd].
      rewrite Hi. cbn [tstep bind]. rewrite El. cbn [bind fst snd]. exact Hs.
  Qed.

  Lemma fault_exists (ts : list (@tprog S)) (m : mem S) :
    forM ts run_alone m = None -> exists sch, run_schedule sch (ts, m) = None.
  Proof.
    assert (forall done m, forM ts run_alone m = None -> exists sch, run_schedule sch (done ++ ts, m) = None) as H.
    { induction ts as [|t ts IH]; intros done m1 E; [discriminate|].
      assert (nth_error (done ++ t :: ts) (length done) = Some t) as Hn.
      { rewrite nth_error_app2 by lia. rewrite Nat.sub_diag. reflexivity. }
      cbn [forM] in E. destruct (run_alone t m1) as [m2|] eqn:E1.
      - destruct (finish_thread t (length done) (done ++ t :: ts) m1 m2 Hn E1) as [sch1 H1].
        assert (aset (done ++ t :: ts) (length done) TDone = (done ++ [TDone]) ++ ts) as Ea.
        { rewrite <- app_assoc. clear. induction done; simpl; [reflexivity|]; f_equal; assumption. }
        rewrite Ea in H1. destruct (IH (done ++ [TDone]) m2 E) as (sch2 & H2).
        exists (sch1 ++ sch2). unfold run_schedule in * . rewrite forM_app, H1. exact H2.
      - exact (fault_thread t (length done) _ m1 Hn E1). }
    exact (H [] m).
  Qed.

  (** Whatever prefix is scheduled, finishing gives what complete schedules give. *)
  Lemma finish_result (ts : list (@tprog S)) (m : mem S) (r : option (mem S)) sch :
    (forall sch ts' m', run_schedule sch (ts, m) = Some (ts', m') -> all_done ts' -> r = Some m') ->
    (forall sch, r <> None -> run_schedule sch (ts, m) <> None) ->
    (c <- run_schedule sch (ts, m) ;; finish c) = r.
  Proof.
    intros H1 H2. destruct (run_schedule sch (ts, m)) as [[ts1 m1]|] eqn:E; cbn [bind].
    - unfold finish. cbn [fst snd]. destruct (forM ts1 run_alone m1) as [m2|] eqn:E2.
      + destruct (schedule_exists ts1 m1 m2 E2) as (sch2 & ts' & E3 & Hd).
        symmetry. apply (H1 (sch ++ sch2) ts' m2); [|exact Hd].
        unfold run_schedule in * . rewrite forM_app, E. exact E3.
      + destruct (fault_exists ts1 m1 E2) as (sch2 & E3).
        destruct r as [m'|]; [|reflexivity]. exfalso. apply (H2 (sch ++ sch2)); [discriminate|].
        unfold run_schedule in * . rewrite forM_app, E. exact E3.
    - destruct r as [m'|]; [|reflexivity]. exfalso. apply (H2 sch); [discriminate|exact E].
  Qed.

  Lemma par_launch_schedule (ts ts' : list (@tprog S)) (m m' : mem S) sch :
    run_schedule sch (ts, m) = Some (ts', m') -> all_done ts' ->
    par_launch (fun _ => sch) (Some ts) m = Some m'.
  Proof.
    intros E Hd. unfold par_launch. cbn [bind]. rewrite E. cbn [bind]. unfold finish. cbn [fst snd].
    clear E. induction Hd as [|t ts' -> _ IH]; [reflexivity|]. exact IH.
  Qed.

  (** ** The calls *)

  Variable O : @pool S -> list nat.

  Lemma par_launch_assign dom (a : @assign S) m : assignable dom a -> independent dom a (ints m) ->
    par_launch O (launch dom a (ints m)) m = with_domain dom [a] m.
  Proof.
    intros HA HI. destruct (launch_schedule dom a m HA HI) as (ts & -> & _ & H1 & H2 & _).
    unfold par_launch. cbn [bind]. apply finish_result; assumption.
  Qed.

  Lemma par_domain dom (a : @assign S) m : assignable dom a -> independent dom a (ints m) ->
    x_domain (parallel O) dom [a] m = with_domain dom [a] m.
  Proof.
    intros HA HI. cbn [x_domain parallel forM]. rewrite par_launch_assign by assumption.
    destruct (with_domain dom [a] m); reflexivity.
  Qed.

  Lemma par_lhs (a : @assign S) m :
    assignable (sp_b (lhs_of a)) a -> independent (sp_b (lhs_of a)) a (ints m) ->
    x_lhs (parallel O) a m = with_lhs_domain a m.
  Proof.
    intros HA HI. cbn [x_lhs parallel]. rewrite par_launch_assign by assumption.
    symmetry. apply with_lhs_with_domain.
  Qed.

  Lemma par_window st dom (l : list (@wassign S)) m :
    window_ok st dom l -> window_indep st l -> window_local st dom l ->
    x_window (parallel O) st dom l m = with_window st dom l m.
  Proof.
    intros Hok Hi Hl. cbn [x_window parallel].
    destruct (window_schedule st dom l m Hok Hi (window_local_disjoint st dom l (ints m) Hok Hl)) as (ts & -> & H1 & H2 & _).
    unfold par_launch. cbn [bind]. apply finish_result; assumption.
  Qed.

  Lemma num_independent dom x (t : S) I : independent dom (ANum x t) I.
  Proof. intros p q _ _ H. destruct H. Qed.
End Par.

(** ** Tactics *)

Ltac k_able := split; [k_dom|split; [k_assign|k_within]].
Ltac k_indep HA :=
  first
  [ apply num_independent
  | apply avoids_independent; solve [k_avoids]
  | apply ghost_independent; [exact HA|k_ghost] ].
Ltac k_local := first [solve [k_wlocal]|k_wlocal_sub].

Ltac k_par1 :=
  lazymatch goal with
  | |- ?x = ?x => reflexivity
  | |- x_domain (parallel ?O) ?d [?a] ?m = _ => let HA := fresh in assert (HA : assignable d a) by k_able; apply (par_domain O d a m HA); k_indep HA
  | |- x_lhs (parallel ?O) ?a ?m = _ => let HA := fresh in assert (HA : assignable (sp_b (lhs_of a)) a) by k_able; apply (par_lhs O a m HA); k_indep HA
  | |- x_window (parallel ?O) ?st ?d ?l ?m = _ => apply (par_window O st d l m); [k_wok|k_windep|k_local]
  end.

Ltac k_par :=
  cbv beta zeta; k_switch; cbn [andb orb negb]; k_zcst; cbn [Z.eqb Pos.eqb];
  repeat lazymatch goal with
  | |- bind ?x ?f = bind ?y ?g =>
      let E := fresh "E" in
      assert (E : x = y); [|rewrite E; clear E; let n := fresh "n" in let H := fresh in apply bind_ext; intros n H; clear H]
  end; cbv beta; unfold shift_xy, shift_xz, shift_yz; k_case; k_par1.
