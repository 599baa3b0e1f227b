(** * The coarse-to-fine kernels compute what the Fortran subroutines compute *)

From Coq Require Import Permutation.
From Verif Require Import Base ModelBounds ModelMatrix ModelIters ModelSpan Spec SpecIter ModelSched
  LemBase LemDomain LemExpr LemExec SpecAssign LemProps LemProps4
  FortranBase SpecKernel Instances LemField LemKernel LemKernel2 KernelNotations KernelsCopy FortranCopy.
Import ListNotations.
Open Scope Z_scope.

Lemma coarse_of_floor r x : 1 <= r -> coarse_of r x = x / r.
Proof.
  intros Hr. pose proof (coarse_index_floor r x Hr) as E. unfold coarse_index, cdiv in E.
  destruct (Z.eqb_spec r 0); [lia|]. cbn [bind] in E. apply some_inj in E. rewrite <- E.
  unfold coarse_of, b2z. destruct (x <? 0); lia.
Qed.

Section Copy.
  Context {S : Scalar}.

  Ltac fine :=
    split; [k_span|]; split; [assumption|]; split; [k_nodup|]; split; [k_perm|].

  Lemma c2f_copy_eq ci0 ci1 cj0 cj1 ck0 ck1 fi0 fi1 fj0 fj1 fk0 fk1 axis
      cbi0 cbi1 cbj0 cbj1 cbk0 cbk1 fbi0 fbi1 fbj0 fbj1 fbk0 fbk1 gcw ratio cdata fdata (m : mem S) :
    fi0 <= fi1 + 1 -> fj0 <= fj1 + 1 -> fk0 <= fk1 + 1 -> (0 <= axis < 3 -> 1 <= ratio axis) ->
    c2f_copy ci0 ci1 cj0 cj1 ck0 ck1 fi0 fi1 fj0 fj1 fk0 fk1 axis
      cbi0 cbi1 cbj0 cbj1 cbk0 cbk1 fbi0 fbi1 fbj0 fbj1 fbk0 fbk1 gcw ratio cdata fdata m =
    copycoarsetofine3d ci0 ci1 cj0 cj1 ck0 ck1 fi0 fi1 fj0 fj1 fk0 fk1 axis
      cbi0 cbi1 cbj0 cbj1 cbk0 cbk1 fbi0 fbi1 fbj0 fbj1 fbk0 fbk1 gcw ratio cdata fdata m.
  Proof.
    intros Hi Hj Hk Hr. unfold c2f_copy, copycoarsetofine3d. cbv zeta.
    destruct (Z.eqb_spec axis 0) as [->|]; [|destruct (Z.eqb_spec axis 1) as [->|];
      [|destruct (Z.eqb_spec axis 2) as [->|]; [|reflexivity]]].
    - specialize (Hr ltac:(lia)).
      rewrite with_domain_points; [|k_dom|].
      2:{ split; [k_span|split; [k_perm|cbv iota beta]]. fine.
          exists dI, (Bnd fi0 fi1). split; [simpl; tauto|]. split; [reflexivity|]. split; [k_perm|].
          repeat constructor; simpl; unfold b_lb, b_ub; cbn; lia. }
      rewrite points_kji, !do_single. apply do_ext. intros x m' _.
      unfold fset, fel; cbn [assign_point denote]. autorewrite with fa.
      unfold coarse_point; cbn [find fst snd]. rewrite coarse_of_floor by exact Hr.
      k_pt. destruct (load m' _); reflexivity.
    - specialize (Hr ltac:(lia)).
      rewrite with_domain_points; [|k_dom|].
      2:{ split; [k_span|split; [k_perm|cbv iota beta]]. fine.
          exists dJ, (Bnd fj0 fj1). split; [simpl; tauto|]. split; [reflexivity|]. split; [k_perm|].
          repeat constructor; simpl; unfold b_lb, b_ub; cbn; lia. }
      rewrite points_kji, !do_single. apply do_ext. intros x m' _. rewrite do_single.
      unfold fset, fel; cbn [assign_point denote]. autorewrite with fa.
      unfold coarse_point; cbn [find fst snd]. rewrite coarse_of_floor by exact Hr.
      k_pt. destruct (load m' _); reflexivity.
    - specialize (Hr ltac:(lia)).
      rewrite with_domain_points; [|k_dom|].
      2:{ split; [k_span|split; [k_perm|cbv iota beta]]. fine.
          exists dK, (Bnd fk0 fk1). split; [simpl; tauto|]. split; [reflexivity|]. split; [k_perm|].
          repeat constructor; simpl; unfold b_lb, b_ub; cbn; lia. }
      rewrite points_kji. apply do_ext. intros x m' _. rewrite !do_single.
      unfold fset, fel; cbn [assign_point denote]. autorewrite with fa.
      unfold coarse_point; cbn [find fst snd]. rewrite coarse_of_floor by exact Hr.
      k_pt. destruct (load m' _); reflexivity.
  Qed.

  (** The value left in each fine cell. *)
  Lemma c2f_copy_value ci0 ci1 cj0 cj1 ck0 ck1 fi0 fi1 fj0 fj1 fk0 fk1 axis
      cbi0 cbi1 cbj0 cbj1 cbk0 cbk1 fbi0 fbi1 fbj0 fbj1 fbk0 fbk1 gcw ratio cdata fdata (m m' : mem S) :
    let c := mkFa cdata (CELL3d cbi0 cbj0 cbk0 cbi1 cbj1 cbk1 gcw) in
    let f := mkFa fdata (CELL3d fbi0 fbj0 fbk0 fbi1 fbj1 fbk1 gcw) in
    0 <= axis < 3 -> 1 <= ratio axis -> fst fdata <> fst cdata ->
    fbi0 - gcw <= fi0 <= fi1 + 1 -> fi1 <= fbi1 + gcw -> fi0 <= fbi1 + gcw ->
    fbj0 - gcw <= fj0 <= fj1 + 1 -> fj1 <= fbj1 + gcw -> fj0 <= fbj1 + gcw ->
    fbk0 - gcw <= fk0 <= fk1 + 1 -> fk1 <= fbk1 + gcw -> fk0 <= fbk1 + gcw ->
    c2f_copy ci0 ci1 cj0 cj1 ck0 ck1 fi0 fi1 fj0 fj1 fk0 fk1 axis
      cbi0 cbi1 cbj0 cbj1 cbk0 cbk1 fbi0 fbi1 fbj0 fbj1 fbk0 fbk1 gcw ratio cdata fdata m = Some m' ->
    (axis = 0 -> forall i, fi0 <= i <= fi1 -> exists v,
       c!(i / ratio 0, cj0, ck0)%F m = Some v /\ f!(i, fj0, fk0)%F m' = Some v) /\
    (axis = 1 -> forall j, fj0 <= j <= fj1 -> exists v,
       c!(ci0, j / ratio 1, ck0)%F m = Some v /\ f!(fi0, j, fk0)%F m' = Some v) /\
    (axis = 2 -> forall k, fk0 <= k <= fk1 -> exists v,
       c!(ci0, cj0, k / ratio 2)%F m = Some v /\ f!(fi0, fj0, k)%F m' = Some v).
  Proof.
    intros c f Hax Hr Hne Hi Hi1 Hi2 Hj Hj1 Hj2 Hk Hk1 Hk2 E. unfold c2f_copy in E. cbv zeta in E.
    split; [|split]; intros ->; cbn [Z.eqb Pos.eqb] in E; intros x Hx.
    - destruct (fun HA HV => kernel_at _ _ _ _ _ (pt3 dK dJ dI fk0 fj0 x) HA HV E
        (in_points3 dK dJ dI fk0 fk0 fj0 fj0 fi0 fi1 fk0 fj0 x ltac:(lia) ltac:(lia) Hx)) as (v & D & Lv).
      + split; [k_dom|]. split; [|k_within].
        split; [k_span|split; [k_perm|cbv iota beta]]. fine.
        exists dI, (Bnd fi0 fi1). split; [simpl; tauto|]. split; [reflexivity|]. split; [k_perm|].
        repeat constructor; simpl; unfold b_lb, b_ub; cbn; lia.
      + cbn. congruence.
      + exists v. rewrite fa_cell3 in Lv. cbn [denote] in D. rewrite fa_cell3 in D.
        unfold coarse_point in D; cbn [find fst snd] in D.
        revert D Lv. k_pt. intros D Lv. split; [|exact Lv].
        unfold fel, c. destruct (load m _); cbn in D; congruence.
    - destruct (fun HA HV => kernel_at _ _ _ _ _ (pt3 dK dJ dI fk0 x fi0) HA HV E
        (in_points3 dK dJ dI fk0 fk0 fj0 fj1 fi0 fi0 fk0 x fi0 ltac:(lia) Hx ltac:(lia))) as (v & D & Lv).
      + split; [k_dom|]. split; [|k_within].
        split; [k_span|split; [k_perm|cbv iota beta]]. fine.
        exists dJ, (Bnd fj0 fj1). split; [simpl; tauto|]. split; [reflexivity|]. split; [k_perm|].
        repeat constructor; simpl; unfold b_lb, b_ub; cbn; lia.
      + cbn. congruence.
      + exists v. rewrite fa_cell3 in Lv. cbn [denote] in D. rewrite fa_cell3 in D.
        unfold coarse_point in D; cbn [find fst snd] in D.
        revert D Lv. k_pt. intros D Lv. split; [|exact Lv].
        unfold fel, c. destruct (load m _); cbn in D; congruence.
    - destruct (fun HA HV => kernel_at _ _ _ _ _ (pt3 dK dJ dI x fj0 fi0) HA HV E
        (in_points3 dK dJ dI fk0 fk1 fj0 fj0 fi0 fi0 x fj0 fi0 Hx ltac:(lia) ltac:(lia))) as (v & D & Lv).
      + split; [k_dom|]. split; [|k_within].
        split; [k_span|split; [k_perm|cbv iota beta]]. fine.
        exists dK, (Bnd fk0 fk1). split; [simpl; tauto|]. split; [reflexivity|]. split; [k_perm|].
        repeat constructor; simpl; unfold b_lb, b_ub; cbn; lia.
      + cbn. congruence.
      + exists v. rewrite fa_cell3 in Lv. cbn [denote] in D. rewrite fa_cell3 in D.
        unfold coarse_point in D; cbn [find fst snd] in D.
        revert D Lv. k_pt. intros D Lv. split; [|exact Lv].
        unfold fel, c. destruct (load m _); cbn in D; congruence.
  Qed.

  Lemma c2f_copy_corner_eq ci0 ci1 cj0 cj1 ck0 ck1 fi0 fi1 fj0 fj1 fk0 fk1
      cbi0 cbi1 cbj0 cbj1 cbk0 cbk1 fbi0 fbi1 fbj0 fbj1 fbk0 fbk1 gcw cdata fdata (m : mem S) :
    c2f_copy_corner ci0 ci1 cj0 cj1 ck0 ck1 fi0 fi1 fj0 fj1 fk0 fk1
      cbi0 cbi1 cbj0 cbj1 cbk0 cbk1 fbi0 fbi1 fbj0 fbj1 fbk0 fbk1 gcw cdata fdata m =
    copycoarsetofinecorner3d ci0 ci1 cj0 cj1 ck0 ck1 fi0 fi1 fj0 fj1 fk0 fk1
      cbi0 cbi1 cbj0 cbj1 cbk0 cbk1 fbi0 fbi1 fbj0 fbj1 fbk0 fbk1 gcw cdata fdata m.
  Proof.
    unfold c2f_copy_corner, copycoarsetofinecorner3d, at_assign, fset, fel. cbv zeta.
    pose proof (span_at_addr (make_md_span_g cdata gcw [Kb cbk0 cbk1; Jb cbj0 cbj1; Ib cbi0 cbi1])
      (pt3 dK dJ dI ck0 cj0 ci0) ltac:(k_span) ltac:(discriminate)) as E1.
    pose proof (span_at_addr (make_md_span_g fdata gcw [Kb fbk0 fbk1; Jb fbj0 fbj1; Ib fbi0 fbi1])
      (pt3 dK dJ dI fk0 fj0 fi0) ltac:(k_span) ltac:(discriminate)) as E2.
    autorewrite with fa in E1, E2.
    change (map (pt3 dK dJ dI ck0 cj0 ci0) _) with [ck0; cj0; ci0] in E1.
    change (map (pt3 dK dJ dI fk0 fj0 fi0) _) with [fk0; fj0; fi0] in E2.
    rewrite E1, E2. reflexivity.
  Qed.
End Copy.
