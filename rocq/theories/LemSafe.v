(** * Kernels stay inside their arrays

    Rules for showing that an assignment is defined in every memory with given
    allocation sizes, and leaves the sizes unchanged. *)

From Coq Require Import Permutation.
From Verif Require Import Base ModelBounds ModelMatrix ModelIters ModelSpan ModelProxy Spec SpecIter ModelSched
  LemBase LemDomain LemExpr LemExec SpecAssign LemAssign LemProps LemProps4 SpecWindow LemWindow
  FortranBase SpecKernel SpecSafe LemKernel LemKernel2 LemBC LemStencil.
Import ListNotations.
Open Scope Z_scope.

(** ** Addresses *)

Definition live (sh : list nat) (p : ptr) : Prop :=
  exists n, nth_error sh (fst p) = Some n /\ 0 <= snd p < Z.of_nat n.

Definition sroom (sh : list nat) (p : ptr) (n : Z) : Prop :=
  exists a, nth_error sh (fst p) = Some a /\ 0 <= snd p /\ snd p + n <= Z.of_nat a.

Definition in_range (ds : list (Z * Z)) (is : list Z) : Prop :=
  Forall2 (fun b i => fst b <= i <= snd b) ds is.

Lemma foffset_range ds is : in_range ds is -> 0 <= foffset ds is < fcount ds.
Proof.
  induction 1 as [|[lo hi] i ds is H _ IH]; cbn; [lia|]. fold (fcount ds). cbn in H. nia.
Qed.

Lemma live_faddr sh p ds is : sroom sh p (fcount ds) -> in_range ds is -> live sh (faddr (mkFa p ds) is).
Proof.
  intros (n & E & H1 & H2) Hr. apply foffset_range in Hr. exists n. cbn. split; [exact E|]. lia.
Qed.

Lemma point_in_bounds dom pt : wf_dom dom -> In pt (domain_points dom origin) -> in_bounds dom pt.
Proof.
  intros (_ & Hn & HF) Hpt. apply Forall_forall. intros [d b] Hb. cbn.
  rewrite Forall_forall in HF. destruct (HF _ Hb) as [H1 H2]. cbn in H1, H2.
  assert (In (pt d) (loop_values b)) as H by (eapply domain_point_coord; eassumption).
  apply in_map_iff in H as (k & <- & Hk). apply in_seq in Hk. unfold count in Hk.
  assert (stride b * ((b_ub b - b_lb b + stride b) / stride b) <= b_ub b - b_lb b + stride b) by (apply Z.mul_div_le; lia).
  nia.
Qed.

Section Safe.
  Context {S : Scalar}.

  Lemma room_sroom (m : mem S) p n : room m p n -> sroom (shape m) p n.
  Proof.
    intros (a & E & H1 & H2). exists (length a). unfold shape. rewrite nth_error_map, E. repeat split; assumption.
  Qed.

  Lemma live_load (m : mem S) p : live (shape m) p -> exists v, load m p = Some v.
  Proof. intros H. apply valid_load. exact H. Qed.

  Lemma live_store (m : mem S) p x : live (shape m) p -> exists m', store m p x = Some m' /\ shape m' = shape m.
  Proof.
    intros H. apply live_load in H. apply (store_Some m p x) in H as [m' E]. exists m'. split; [exact E|].
    exact (store_shape _ _ _ _ E).
  Qed.

  (** ** Steps that are defined whatever the contents of the arrays *)

  Definition ssafe (sh : list nat) (k : mem S -> option (mem S)) : Prop :=
    forall m, shape m = sh -> exists m', k m = Some m' /\ shape m' = sh.

  Lemma ssafe_safe k (m : mem S) : ssafe (shape m) k -> safe k m.
  Proof. intros H. destruct (H m eq_refl) as (m' & E & H'). exists m'. split; assumption. Qed.

  Lemma ssafe_ret sh : ssafe sh Some.
  Proof. intros m H. exists m. split; [reflexivity|exact H]. Qed.

  Lemma ssafe_bind sh f g : ssafe sh f -> ssafe sh g -> ssafe sh (fun m => bind (f m) g).
  Proof. intros Hf Hg m H. destruct (Hf m H) as (m1 & -> & H1). exact (Hg m1 H1). Qed.

  Lemma ssafe_forM {A} sh (l : list A) (f : A -> mem S -> option (mem S)) :
    (forall x, In x l -> ssafe sh (f x)) -> ssafe sh (forM l f).
  Proof.
    induction l as [|x l IH]; intros H; cbn [forM]; [apply ssafe_ret|].
    apply (ssafe_bind sh (f x)); [apply H; left; reflexivity|]. apply IH. intros y Hy. apply H. right. exact Hy.
  Qed.

  (** ** Expressions *)

  (** Whether an expression is a number ([true]) or a pair; [None] if it does not
      compile, or is a dot product. *)
  Definition op_kind (o : binop) (u v : bool) : option bool :=
    match o, u, v with
    | OGrad, true, false => Some true
    | OGrad, _, _ => None
    | _, true, true => Some true
    | _, false, true => Some false
    | _, true, false => Some false
    | _, _, _ => None
    end.
  Fixpoint kind (e : @expr S) : option bool :=
    match e with
    | ESpan _ | EFine _ _ _ => Some true
    | ENumL o _ e' => v <- kind e' ;; op_kind o true v
    | ENumR o e' _ => u <- kind e' ;; op_kind o u true
    | EBin o e1 e2 => u <- kind e1 ;; v <- kind e2 ;; op_kind o u v
    | EStencil _ _ _ => Some false
    | EShift _ _ e' => kind e'
    | EDot _ _ _ => None
    end.
  Definition has_kind (k : bool) (v : @val S) : Prop :=
    match v with VNum _ => k = true | VSt _ _ => k = false | _ => False end.

  Lemma app_op_kind o u v ku kv k : op_kind o ku kv = Some k -> has_kind ku u -> has_kind kv v ->
    exists w, app_op o u v = Some w /\ has_kind k w.
  Proof.
    destruct o, u, v; cbn; try contradiction; intros H -> ->; try discriminate; injection H as <-;
      eexists; split; reflexivity.
  Qed.

  Lemma kind_denote (e : @expr S) k I : kind e = Some k -> forall pt m,
    Forall (live (shape m)) (reads e pt I) -> exists v, denote e pt m = Some v /\ has_kind k v.
  Proof.
    revert k. induction e; intros k' Hk pt m HF; cbn [kind] in Hk; cbn [reads] in HF; cbn [denote].
    - injection Hk as <-. inversion HF as [|? ? H _]; subst. apply live_load in H as [v ->]. eexists; split; reflexivity.
    - apply bind_Some_inv in Hk as (kv & E & Ho). destruct (IHe kv E pt m HF) as (v & -> & Hv). cbn [bind].
      exact (app_op_kind _ (VNum _) _ true kv _ Ho eq_refl Hv).
    - apply bind_Some_inv in Hk as (kv & E & Ho). destruct (IHe kv E pt m HF) as (v & -> & Hv). cbn [bind].
      exact (app_op_kind _ _ (VNum _) kv true _ Ho Hv eq_refl).
    - apply bind_Some_inv in Hk as (ku & E1 & Hk). apply bind_Some_inv in Hk as (kv & E2 & Ho).
      apply Forall_app in HF as [H1 H2].
      destruct (IHe1 ku E1 pt m H1) as (u & -> & Hu). destruct (IHe2 kv E2 pt m H2) as (v & -> & Hv). cbn [bind].
      exact (app_op_kind _ _ _ ku kv _ Ho Hu Hv).
    - injection Hk as <-. inversion HF as [|? ? H1 H']; subst. inversion H' as [|? ? H2 _]; subst.
      apply live_load in H1 as [v1 ->]. apply live_load in H2 as [v2 ->]. eexists; split; reflexivity.
    - exact (IHe k' Hk _ m HF).
    - discriminate.
    - injection Hk as <-. inversion HF as [|? ? H _]; subst. apply live_load in H as [v ->]. eexists; split; reflexivity.
  Qed.

  (** ** Assignments *)

  Definition rhs_kind (a : @assign S) : bool :=
    match a with ANum _ _ => true | AExpr _ e => match kind e with Some true => true | _ => false end end.

  Lemma assign_point_safe sh (a : @assign S) pt :
    rhs_kind a = true -> live sh (addr (lhs_of a) pt) -> Forall (live sh) (assign_reads a pt []) ->
    ssafe sh (assign_point a pt).
  Proof.
    intros Hk Hl HF m Hm. rewrite assign_point_rhs. rewrite <- Hm in Hl, HF. destruct a as [x e|x t]; cbn in *.
    - destruct (kind e) as [[|]|] eqn:E; try discriminate.
      destruct (kind_denote e true [] E pt m HF) as (v & -> & Hv). destruct v as [y|?|?]; cbn in Hv; try discriminate; try contradiction.
      cbn [bind]. destruct (live_store m _ y Hl) as (m' & -> & Hs). exists m'. split; congruence.
    - destruct (live_store m _ t Hl) as (m' & -> & Hs). exists m'. split; congruence.
  Qed.

  Lemma ssafe_domain sh dom (a : @assign S) : wf_dom dom -> wf_assign dom a -> rhs_kind a = true ->
    (forall pt, in_bounds dom pt ->
       live sh (addr (lhs_of a) pt) /\ Forall (live sh) (assign_reads a pt [])) ->
    ssafe sh (with_domain dom [a]).
  Proof.
    intros Hd Ha Hk H m Hm. rewrite with_domain_points by assumption. revert m Hm. apply ssafe_forM.
    intros pt Hpt. destruct (H pt (point_in_bounds dom pt Hd Hpt)) as [H1 H2].
    apply assign_point_safe; assumption.
  Qed.

  Lemma ssafe_lhs sh (a : @assign S) : wf_dom (sp_b (lhs_of a)) -> wf_assign (sp_b (lhs_of a)) a -> rhs_kind a = true ->
    (forall pt, in_bounds (sp_b (lhs_of a)) pt ->
       live sh (addr (lhs_of a) pt) /\ Forall (live sh) (assign_reads a pt [])) ->
    ssafe sh (with_lhs_domain a).
  Proof.
    intros Hd Ha Hk H m Hm. rewrite with_lhs_with_domain. revert m Hm. apply ssafe_domain; assumption.
  Qed.

  (** ** Windows *)

  Fixpoint pkind (p : @proxy S) : option bool :=
    match p with
    | PNum _ | PSt _ => Some true
    | PVec e => kind e
    | POp o p q => u <- pkind p ;; v <- pkind q ;; op_kind o u v
    end.

  Lemma pkind_value st (p : @proxy S) k I : pkind p = Some k -> forall pt m,
    Forall (live (shape m)) (preads st p pt I) -> exists v, pvalue st p pt m = Some v /\ has_kind k v.
  Proof.
    revert k. induction p; intros k' Hk pt m HF; cbn [pkind] in Hk; cbn [preads] in HF; cbn [pvalue].
    - injection Hk as <-. eexists; split; reflexivity.
    - eapply kind_denote; eassumption.
    - injection Hk as <-. inversion HF as [|? ? H _]; subst. apply live_load in H as [v ->]. eexists; split; reflexivity.
    - apply bind_Some_inv in Hk as (ku & E1 & Hk). apply bind_Some_inv in Hk as (kv & E2 & Ho).
      apply Forall_app in HF as [H1 H2].
      destruct (IHp1 ku E1 pt m H1) as (u & -> & Hu). destruct (IHp2 kv E2 pt m H2) as (v & -> & Hv). cbn [bind].
      exact (app_op_kind _ _ _ ku kv _ Ho Hu Hv).
  Qed.

  Definition wa_kind (a : @wassign S) : bool :=
    match a with
    | WSet1 _ r => match pkind r with Some true => true | _ => false end
    | WSet2 _ _ (PNum _) => true
    | WSet2 _ _ r => match pkind r with Some false => true | _ => false end
    | WSub _ p => match pkind p with Some true => true | _ => false end
    end.

  Lemma wassign_safe sh st (a : @wassign S) pt : wa_kind a = true ->
    Forall (live sh) (wreads st pt [] a) -> Forall (live sh) (wwrites st pt a) ->
    ssafe sh (wassign_at st a pt).
  Proof.
    intros Hk HR HW m Hm. rewrite <- Hm in HR, HW. destruct a as [i r|i j r|x p]; cbn in HR, HW.
    - cbn in *. destruct (pkind r) as [[|]|] eqn:E; try discriminate.
      destruct (pkind_value st r true [] E pt m HR) as (v & -> & Hv). destruct v; cbn in Hv; try discriminate; try contradiction.
      cbn [bind]. inversion HW as [|? ? Hl _]; subst. destruct (live_store m _ x Hl) as (m' & -> & Hs).
      exists m'. split; congruence.
    - inversion HW as [|? ? Hl HW']; subst. inversion HW' as [|? ? Hl' _]; subst.
      assert (forall x y, exists m', (m' <- store m (entry_at st pt i) x ;; store m' (entry_at st pt j) y) = Some m' /\
                shape m' = shape m) as HS.
      { intros x y. destruct (live_store m _ x Hl) as (m1 & -> & H1). cbn [bind]. rewrite <- H1 in Hl'.
        destruct (live_store m1 _ y Hl') as (m2 & -> & H2). exists m2. split; congruence. }
      assert ((exists t, r = PNum t) \/ (forall t, r <> PNum t) /\ pkind r = Some false) as [[t ->]|[Hn E]].
      { destruct r; [left; eexists; reflexivity|right; split; [discriminate|]..]; cbn [wa_kind] in Hk;
          destruct (pkind _) as [[|]|]; congruence. }
      + apply HS.
      + destruct (pkind_value st r false [] E pt m HR) as (v & Ev & Hv).
        destruct v as [?|x y|?]; cbn in Hv; try discriminate; try contradiction.
        destruct r; [exfalso; eapply Hn; reflexivity|..]; cbn [wassign_at]; rewrite Ev; cbn [bind]; apply HS.
    - cbn in *. destruct (pkind p) as [[|]|] eqn:E; try discriminate. inversion HR as [|? ? Hx HR']; subst.
      destruct (pkind_value st p true [] E pt m HR') as (v & -> & Hv). destruct v; cbn in Hv; try discriminate; try contradiction.
      cbn [bind]. destruct (live_load m _ Hx) as [z ->]. cbn [bind].
      match goal with |- context [store m _ ?y] => destruct (live_store m _ y Hx) as (m' & -> & Hs) end.
      exists m'. split; congruence.
  Qed.

  Lemma ssafe_window sh st dom (l : list (@wassign S)) :
    window_ok st dom l -> window_indep st l -> strides_divide dom -> forallb wa_kind l = true ->
    (forall pt, in_bounds dom pt ->
       Forall (fun a => Forall (live sh) (wreads st pt [] a) /\ Forall (live sh) (wwrites st pt a)) l) ->
    ssafe sh (with_window st dom l).
  Proof.
    intros Hok Hi Hs Hk H m Hm. rewrite with_window_spec by assumption. revert m Hm. unfold window_spec. apply ssafe_forM.
    intros pt Hpt. unfold point_spec. apply ssafe_forM. intros a Ha.
    assert (in_bounds dom pt) as Hin by (apply point_in_bounds; [apply Hok|exact Hpt]).
    specialize (H pt Hin). rewrite Forall_forall in H. rewrite forallb_forall in Hk.
    destruct (H a Ha) as [H1 H2]. apply wassign_safe; [apply Hk; exact Ha|exact H1|exact H2].
  Qed.
End Safe.

(** ** Tactics *)

Ltac k_rooms :=
  apply ssafe_safe;
  repeat match goal with H : room ?m ?p ?n |- _ => apply room_sroom in H end;
  match goal with |- ssafe (shape ?m) _ => generalize dependent (shape m) end; intros.

Ltac k_ranges H :=
  unfold in_bounds in H; cbn in H;
  repeat match goal with
  | X : Forall _ (_ :: _) |- _ => let H' := fresh "B" in inversion X as [|? ? H' ?]; clear X; subst; unfold b_lb, b_ub in H'; cbn in H'
  | X : Forall _ [] |- _ => clear X
  end.

Ltac k_live1 :=
  autorewrite with fa; k_idx; apply live_faddr; [eassumption|];
  unfold in_range, CELL1d, CELL2d, CELL3d, FACE1d, FACE2d0, FACE2d1, FACE3d0, FACE3d1, FACE3d2;
  repeat first [apply Forall2_nil|apply Forall2_cons; [cbn [fst snd]; lia|]].

Ltac k_live :=
  let pt := fresh "pt" in let H := fresh "Hpt" in
  intros pt H; k_ranges H;
  repeat first [apply Forall_nil|apply Forall_cons]; unfold PNeg;
  cbn [lhs_of assign_reads reads grad shift app flat_map wreads wwrites preads];
  change (0 <=? up) with true; change (0 <=? down) with false; cbv iota;
  repeat first [apply Forall_nil|apply Forall_cons|split]; k_live1.

Ltac k_safe1 :=
  lazymatch goal with
  | |- ssafe ?sh (fun m => with_lhs_domain ?a m) => apply (ssafe_lhs sh a); [k_dom|k_assign|reflexivity|k_live]
  | |- ssafe ?sh (with_lhs_domain ?a) => apply (ssafe_lhs sh a); [k_dom|k_assign|reflexivity|k_live]
  | |- ssafe ?sh (fun m => with_domain ?d [?a] m) => apply (ssafe_domain sh d a); [k_dom|k_assign|reflexivity|k_live]
  | |- ssafe ?sh (with_domain ?d [?a]) => apply (ssafe_domain sh d a); [k_dom|k_assign|reflexivity|k_live]
  | |- ssafe ?sh (fun m => with_window ?st ?d ?l m) => apply (ssafe_window sh st d l); [k_wok|k_windep|k_wdiv|reflexivity|k_live]
  | |- ssafe ?sh (with_window ?st ?d ?l) => apply (ssafe_window sh st d l); [k_wok|k_windep|k_wdiv|reflexivity|k_live]
  end.

(** Hypotheses about the case at hand. *)
Ltac k_case :=
  repeat match goal with
  | H : ?a = ?a -> _ |- _ => specialize (H eq_refl)
  | H : ?a = ?b -> _ |- _ => match isZcst a with true => match isZcst b with true => clear H end end
  | H : ?x = _ -> _, N : ?x <> _ |- _ => clear H
  | H : ?a <= ?c < ?b -> _ |- _ =>
      match isZcst c with true => first [specialize (H ltac:(split; reflexivity || discriminate))|clear H] end
  end;
  repeat match goal with H : _ /\ _ |- _ => destruct H end;
  unfold at_side, seg_meets, seg_within in *;
  repeat match goal with H : context [Z.modulo ?a ?b] |- _ =>
    match isZcst a with true => let c := eval compute in (a mod b) in change (a mod b) with c in H end end;
  repeat match goal with H : context [Z.modulo (?a / ?d) ?b] |- _ =>
    match isZcst a with true => let c := eval compute in (a / d mod b) in change (a / d mod b) with c in H end end;
  repeat match goal with H : context [Z.div ?a ?b] |- _ =>
    match isZcst a with true => let c := eval compute in (a / b) in change (a / b) with c in H end end;
  cbn [Z.eqb Pos.eqb] in * |-.

Ltac k_safe :=
  cbv beta zeta; k_switch; cbn [andb orb negb]; k_zcst; cbn [Z.eqb Pos.eqb];
  repeat lazymatch goal with
  | |- ssafe _ (fun m => bind (?f m) ?g) => apply (ssafe_bind _ f g)
  | |- ssafe _ (fun m => bind (@?f m) ?g) => apply (ssafe_bind _ f g)
  end; cbv beta; lazymatch goal with |- ssafe ?sh (fun m => Some m) => exact (ssafe_ret sh) | |- ssafe ?sh Some => exact (ssafe_ret sh) | _ =>
    unfold shift_xy, shift_xz, shift_yz; k_case; k_safe1 end.
