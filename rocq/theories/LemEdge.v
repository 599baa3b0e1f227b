(** * Entries of a cell of the stencil after a window kernel

    For statements [st(w1) = r1, st(w2) = r2, ...] with any columns: the entries of a
    cell afterwards are what running the assignments in order on the entries gives. *)

From Coq Require Import Permutation Field.
From Verif Require Import Base ModelBounds ModelMatrix ModelIters ModelSpan ModelProxy Spec SpecIter ModelSched
  LemBase LemDomain LemExpr LemExec SpecAssign LemAssign LemProps LemProps2 LemProps3 LemProps4 SpecWindow LemWindow LemWindow2
  FortranBase SpecKernel SpecEliminate Instances LemField LemKernel LemKernel2 LemBC LemHomog KernelNotations
  KernelsFlux KernelsApply KernelsStencil LemStencil LemRow.
Import ListNotations.
Open Scope Z_scope.

Section Edge.
  Context {S : Scalar}.
  Notation wassign := (@wassign S).
  Notation proxy := (@proxy S).

  (** The value of a right-hand side, with [e] the entries of the cell. *)
  Fixpoint pev (e : Z -> option S) (pt : point) (m : mem S) (p : proxy) : option (@val S) :=
    match p with
    | PNum t => Some (VNum t)
    | PVec x => denote x pt m
    | PSt i => x <- e i ;; Some (VNum x)
    | POp o p q => u <- pev e pt m p ;; v <- pev e pt m q ;; app_op o u v
    end.

  Definition upd (e : Z -> option S) (i : Z) (x : S) : Z -> option S := fun w => if w =? i then Some x else e w.

  Fixpoint ents (l : list (Z * proxy)) (e : Z -> option S) (pt : point) (m : mem S) : option (Z -> option S) :=
    match l with
    | [] => Some e
    | (i, r) :: l =>
        v <- pev e pt m r ;;
        match v with VNum x => ents l (upd e i x) pt m | _ => None end
    end.

  Definition sets (l : list (Z * proxy)) : list wassign := map (fun a => WSet1 (fst a) (snd a)) l.

  (** The shape of the supported statements. *)
  Definition edge_ok (st : span) (dom : list dbnd) (n : Z) (a : Z * proxy) : Prop :=
    0 <= fst a < n /\ (forall i, In i (st_indices (snd a)) -> 0 <= i < n) /\ rhs_ok (snd a) /\
    Forall (fun x => wf_expr x dom) (pvecs (snd a)) /\ Forall (avoids (fst (sp_ptr st))) (pvecs (snd a)).

  Section One.
    Variables (st : span) (dom : list dbnd) (hd : list dbnd) (w : dim) (wb : bounds) (l : list (Z * proxy)).
    Hypotheses (Hd : wf_dom dom) (Hs : wf_span st) (Es : sp_b st = hd ++ [(w, wb)])
      (HP : Permutation (map fst dom) (map fst hd)) (Hw : dom_within dom hd) (Hdiv : strides_divide dom)
      (Hl : Forall (edge_ok st dom (extent wb)) l).

    Lemma edge_window_ok : window_ok st dom (sets l).
    Proof.
      split; [exact Hd|]. split; [exact Hs|]. split; [exists hd, w, wb; split; assumption|].
      rewrite Forall_forall in Hl.
      split; [|split].
      - apply Forall_forall. intros a Ha. apply in_map_iff in Ha as ([i r] & <- & Ha).
        destruct (Hl _ Ha) as (_ & _ & H & _). exact H.
      - apply Forall_forall. intros a Ha. apply in_map_iff in Ha as ([i r] & <- & Ha).
        destruct (Hl _ Ha) as (_ & _ & _ & H & _). exact H.
      - right; right. apply Forall_forall. intros a Ha. apply in_map_iff in Ha as ([i r] & <- & Ha).
        split; [reflexivity|exact Logic.I].
    Qed.

    Lemma edge_window_indep : window_indep st (sets l).
    Proof.
      split.
      - revert Hl. generalize (extent wb). intros n Hn. clear - Hn. induction Hn as [|a l' Ha Hl' IH]; [constructor|].
        cbn [sets map]. constructor; [|exact IH].
        rewrite Forall_forall in * . intros b Hb. apply in_map_iff in Hb as ([i r] & <- & Hb).
        destruct (Hl' _ Hb) as (_ & _ & _ & _ & H). rewrite Forall_forall in H.
        apply Forall_forall. intros x Hx. right. apply H. exact Hx.
      - apply Forall_forall. intros a Ha. apply in_map_iff in Ha as ([i r] & <- & Ha). exact Logic.I.
    Qed.

    Lemma edge_window_local : window_local st dom (sets l).
    Proof.
      exists hd, w, wb. split; [exact Es|]. split; [exact Hw|]. rewrite Forall_forall in Hl.
      split; [|split].
      - intros a i Ha Hi. apply in_map_iff in Ha as ([k r] & <- & Ha).
        destruct (Hl _ Ha) as (H1 & H2 & _). destruct Hi as [<-|Hi]; [exact H1|exact (H2 _ Hi)].
      - intros x p Ha. apply in_map_iff in Ha as ([k r] & E & _). discriminate E.
      - intros a b Ha Hb. apply in_map_iff in Ha as ([k r] & <- & Ha). apply in_map_iff in Hb as ([k' r'] & <- & Hb).
        destruct (Hl _ Ha) as (_ & _ & _ & _ & H). exact H.
    Qed.

    Lemma entry_inj pt i j : entry_at st pt i = entry_at st pt j -> in_bounds hd pt ->
      0 <= i < extent wb -> 0 <= j < extent wb -> i = j.
    Proof.
      intros E Hpt Hi Hj. unfold entry_at in E. rewrite Es, rev_app_distr in E. cbn [rev app] in E.
      assert (~ In w (map fst hd)) as Hnw.
      { destruct Hs as [Hns' _]. unfold sp_order in Hns'. rewrite Es, map_app in Hns'. simpl in Hns'.
        apply NoDup_remove in Hns'. rewrite app_nil_r in Hns'. apply Hns'. }
      assert (forall k, 0 <= k < extent wb -> in_bounds (sp_b st) (pset pt w (b_lb wb + k))) as HB.
      { intros k Hk. rewrite Es. apply Forall_app. split.
        - unfold in_bounds in Hpt. rewrite Forall_forall in * . intros b Hb. rewrite pset_other; [apply Hpt; exact Hb|].
          intros E0. apply Hnw. rewrite <- E0. apply in_map. exact Hb.
        - constructor; [|constructor]. cbn [fst snd]. rewrite pset_same. unfold extent in Hk. lia. }
      assert (In w (sp_order st)) as Hws.
      { unfold sp_order. rewrite Es, map_app. apply in_or_app. right. left. reflexivity. }
      pose proof (addr_inj st _ _ (HB i Hi) (HB j Hj) E w Hws) as Hv. rewrite !pset_same in Hv. lia.
    Qed.

    Lemma pev_pvalue pt e (m0 m : mem S) p :
      ints m0 = ints m -> (forall q, fst q <> fst (sp_ptr st) -> load m q = load m0 q) ->
      (forall i, 0 <= i < extent wb -> load m (entry_at st pt i) = e i) ->
      (forall i, In i (st_indices p) -> 0 <= i < extent wb) -> Forall (avoids (fst (sp_ptr st))) (pvecs p) ->
      pvalue st p pt m = pev e pt m0 p.
    Proof.
      intros HI HF He. induction p as [t|x|i|o p IHp q IHq]; cbn [pvalue pev st_indices pvecs]; intros Hi Ha.
      - reflexivity.
      - inversion Ha as [|? ? Hx _]; subst. symmetry. apply reads_sound; [exact HI|].
        intros r Hr. symmetry. apply HF. exact (avoids_reads _ _ _ _ _ Hx Hr).
      - rewrite He by (apply Hi; left; reflexivity). reflexivity.
      - apply Forall_app in Ha as [Hp Hq]. rewrite IHp by (try assumption; intros; apply Hi; apply in_or_app; auto).
        rewrite IHq by (try assumption; intros; apply Hi; apply in_or_app; auto). reflexivity.
    Qed.

    Lemma entry_block pt i : fst (entry_at st pt i) = fst (sp_ptr st).
    Proof. unfold entry_at. destruct (rev (sp_b st)) as [|[? ?] ?]; reflexivity. Qed.

    Lemma point_ents pt e (m f : mem S) : in_bounds hd pt -> point_spec st (sets l) pt m = Some f ->
      (forall i, 0 <= i < extent wb -> load m (entry_at st pt i) = e i) ->
      exists e', ents l e pt m = Some e' /\
        (forall i, 0 <= i < extent wb -> load f (entry_at st pt i) = e' i) /\
        (forall i, ~ In i (map fst l) -> e' i = e i).
    Proof.
      intros Hpt. unfold point_spec.
      assert (forall m1 e1, ints m = ints m1 -> (forall q, fst q <> fst (sp_ptr st) -> load m1 q = load m q) ->
                forM (sets l) (fun a => wassign_at st a pt) m1 = Some f ->
                (forall i, 0 <= i < extent wb -> load m1 (entry_at st pt i) = e1 i) ->
                exists e', ents l e1 pt m = Some e' /\
                  (forall i, 0 <= i < extent wb -> load f (entry_at st pt i) = e' i) /\
                  (forall i, ~ In i (map fst l) -> e' i = e1 i)) as H.
      { clear Hd Hw Hdiv HP. induction Hl as [|[j r] l' (H1 & H2 & _ & _ & H5) Hl' IH]; intros m1 e1 HI HF E He; cbn [sets map forM ents] in * .
        - injection E as ->. exists e1. split; [reflexivity|]. split; [exact He|reflexivity].
        - apply bind_Some_inv in E as (m2 & E1 & E2). cbn [wassign_at fst snd] in E1.
          apply bind_Some_inv in E1 as (v & Ev & E1). cbn [fst snd] in H1, H2, H5.
          rewrite (pev_pvalue pt e1 m m1 r HI HF He H2 H5) in Ev. rewrite Ev. cbn [bind].
          destruct v as [x| |]; try discriminate E1.
          destruct (IH Hl' m2 (upd e1 j x)) as (e' & R1 & R2 & R3).
          + rewrite (store_ints _ _ _ _ E1). exact HI.
          + intros q Hq. rewrite (load_store _ _ _ _ q E1). destruct (ptr_dec _ _) as [<-|]; [|apply HF; exact Hq].
            exfalso. apply Hq. apply entry_block.
          + exact E2.
          + intros i Hi. rewrite (load_store _ _ _ _ _ E1). unfold upd.
            destruct (ptr_dec _ _) as [Eq|Ne].
            * apply entry_inj in Eq; try assumption. subst. rewrite Z.eqb_refl. reflexivity.
            * destruct (Z.eqb_spec i j) as [->|]; [exfalso; apply Ne; reflexivity|]. apply He. exact Hi.
          + exists e'. split; [exact R1|]. split; [exact R2|]. intros i Hi. rewrite R3 by (intro Hx; apply Hi; right; exact Hx). unfold upd.
            destruct (Z.eqb_spec i j) as [->|]; [exfalso; apply Hi; left; reflexivity|reflexivity]. }
      intros E He. apply (H m e); auto.
    Qed.

    (** The entries of a cell of the domain after the kernel. *)
    Lemma window_ents (m m' : mem S) pt e :
      with_window st dom (sets l) m = Some m' -> In pt (domain_points dom origin) ->
      (forall i, 0 <= i < extent wb -> load m (entry_at st pt i) = e i) ->
      exists e', ents l e pt m = Some e' /\
        forall i, 0 <= i < extent wb -> load m' (entry_at st pt i) = e' i.
    Proof.
      intros E Hpt He.
      destruct (window_effect st dom (sets l) m m' edge_window_ok edge_window_indep Hdiv
        (window_local_disjoint st dom (sets l) (ints m) edge_window_ok edge_window_local) E pt Hpt) as (f & Ef & Hf).
      assert (in_bounds hd pt) as Hb.
      { apply (dom_within_points dom hd origin pt Hd); try assumption.
        destruct Hs as [Hns' _]. unfold sp_order in Hns'. rewrite Es, map_app in Hns'. simpl in Hns'.
        apply NoDup_remove in Hns'. rewrite app_nil_r in Hns'. apply Hns'. }
      destruct (point_ents pt e m f Hb Ef He) as (e' & R1 & R2 & R3).
      exists e'. split; [exact R1|]. intros i Hi.
      destruct (in_dec Z.eq_dec i (map fst l)) as [Hin|Hout].
      - rewrite Hf; [apply R2; exact Hi|]. apply in_flat_map. apply in_map_iff in Hin as ([j r] & Ej & Hin).
        cbn in Ej. subst j. exists (WSet1 i r). split; [apply in_map_iff; exists (i, r); auto|left; reflexivity].
      - rewrite R3 by exact Hout. rewrite <- (He i Hi).
        apply (window_other st dom (sets l) m m' hd w wb pt i edge_window_ok edge_window_indep Es Hw); try assumption.
        + intros a Ha. apply in_map_iff in Ha as ([j r] & <- & Ha). exact Logic.I.
        + intros a k Ha Hk. apply in_map_iff in Ha as ([j r] & <- & Ha). rewrite Forall_forall in Hl.
          destruct (Hl _ Ha) as (H1 & H2 & _). destruct Hk as [<-|Hk]; [exact H1|exact (H2 _ Hk)].
        + intros a Ha. apply in_map_iff in Ha as ([j r] & <- & Ha). cbn [fst]; intros Eji; subst j. apply Hout.
          apply in_map_iff. exists (i, r). auto.
    Qed.

    Lemma window_ents_frame (m m' : mem S) q :
      with_window st dom (sets l) m = Some m' -> fst q <> fst (sp_ptr st) -> load m' q = load m q.
    Proof.
      intros E Hq. apply (window_elsewhere st dom (sets l) m m' q edge_window_ok edge_window_indep); try assumption.
      intros a Ha. apply in_map_iff in Ha as ([j r] & <- & Ha). exact Logic.I.
    Qed.
  End One.
End Edge.

(** Entries outside and inside after adj_offdiag; [q], [f]: the Robin factors. *)
Definition adj_pair {S : Scalar} (btype order : Z) (d q f eu ev : S) : S * S :=
  if btype =? 4 then
    if order =? 1 then (eu * q, ev)%T
    else if order =? 2 then (lit (-9) * f, ev - f)%T
    else (eu, ev)
  else if btype =? 0 then
    if order =? 1 then (eu * d, ev)%T
    else if order =? 2 then (eu * (lit 8 / lit 3), ev + eu / lit 3)%T
    else (eu, ev)
  else if btype =? 1 then (lit 0, ev)
  else (eu, ev).

Definition cf_pair {S : Scalar} (r order : Z) (eu ev : S) : S * S :=
  if order =? 1 then (eu * (lit 2 / lit 3), ev)%T
  else if order =? 2 then
    (eu * (lit 8 / ((lit r + lit 1) * (lit r + lit 3))), ev - eu * ((lit r - lit 1) / (lit r + lit 3)))%T
  else (eu, ev).

(** What [cf_diag] subtracts, over [beta b / (h h)]. *)
Definition cf_part {S : Scalar} (r order : Z) (f b e0 : S) : S :=
  if order =? 1 then (e0 - f / lit 3 * b)%T
  else if order =? 2 then (e0 - f * (lit 2 * (lit r - lit 1) / (lit r + lit 1)) * b)%T
  else e0.
Definition cf_ppart {S : Scalar} (r order : Z) (f e0 : S) : S :=
  if order =? 1 then (e0 - f / lit 3)%T
  else if order =? 2 then (e0 - f * (lit 2 * (lit r - lit 1) / (lit r + lit 1)))%T
  else e0.

Ltac k_sets l :=
  lazymatch l with
  | [WSet1 ?u ?r] => constr:([(u, r)])
  | [WSet1 ?u ?r; WSet1 ?v ?s] => constr:([(u, r); (v, s)])
  end.

Ltac k_edge_ok :=
  repeat first [apply Forall_nil|apply Forall_cons];
  (split; [unfold extent; cbn; lia|]; split;
   [let i := fresh in let Hi := fresh in
    intros i Hi; cbn [st_indices app snd In] in Hi;
    repeat match type of Hi with _ \/ _ => destruct Hi as [Hi|Hi] | False => destruct Hi end;
    subst i; unfold extent; cbn; lia|];
   split; [cbn [snd rhs_ok compiles is_proxy andb orb supported_proxy pvecs app];
           repeat first [exact Logic.I|reflexivity|left; reflexivity|right; reflexivity|split]|];
   split; [cbn [snd pvecs app]; repeat first [apply Forall_nil|apply Forall_cons]; k_expr
          |cbn [snd pvecs app]; repeat first [apply Forall_nil|apply Forall_cons]; k_avoids]).

(** The entries [e'] at point [p] after window kernel [E], and the frame. *)
Ltac k_ents E p lem e' Ee He Fr :=
  match type of E with with_window (make_md_span_g ?q ?g ?bs) ?dom ?l ?m = Some ?m' =>
    let st := constr:(make_md_span_g q g bs) in
    let hd := eval cbn [removelast] in (removelast bs) in
    let w := eval cbn [List.last] in (List.last bs (Wb 0 0)) in
    let l' := k_sets l in
    let X := fresh "X" in let D := fresh in let Sp := fresh in let P := fresh in let W := fresh in let V := fresh in
    assert (D : wf_dom dom) by k_dom;
    assert (Sp : wf_span st) by k_span;
    assert (P : Permutation (map fst dom) (map fst (sp_b (make_md_span_g q g hd)))) by k_perm;
    assert (W : dom_within dom (sp_b (make_md_span_g q g hd))) by k_within;
    assert (V : strides_divide dom) by k_wdiv;
    assert (X : Forall (edge_ok st dom (extent (snd (expand_bounds g (d_unit w))))) l') by k_edge_ok;
    pose proof (window_ents_frame st dom (sp_b (make_md_span_g q g hd)) dW (snd (expand_bounds g (d_unit w))) l'
                  D Sp eq_refl P X m m') as Fr;
    destruct (window_ents st dom (sp_b (make_md_span_g q g hd)) dW (snd (expand_bounds g (d_unit w))) l'
                D Sp eq_refl P W V X m m' p (fun i => load m (entry_at st p i)) E lem ltac:(reflexivity))
      as (e' & Ee & He);
    specialize (fun q H => Fr q E H); clear D Sp P W V X
  end.

(** Compute the entries, with the loads [Hu], [Hv], [Hb] known. *)
Ltac k_upd :=
  unfold upd;
  repeat first [ rewrite Z.eqb_refl
               | match goal with
                 | N : ?a <> ?b |- context [?a =? ?b] => rewrite (proj2 (Z.eqb_neq a b) N)
                 | N : ?a <> ?b |- context [?b =? ?a] => rewrite (proj2 (Z.eqb_neq b a) (not_eq_sym N))
                 end ].

Ltac k_loads :=
  repeat match goal with
  | H : load ?m ?p = Some _ |- context [load ?m ?p] => rewrite H
  end.

(** [autorewrite with fa], by the shape of the spans. *)
Ltac k_fa :=
  repeat match goal with
  | |- context [entry_at (make_md_span_g _ _ [_; _]) _ _] => rewrite fa_st1
  | |- context [entry_at (make_md_span_g _ _ [_; _; _]) _ _] => rewrite fa_st2
  | |- context [entry_at (make_md_span_g _ _ [_; _; _; _]) _ _] => rewrite fa_st3
  | |- context [addr (make_md_span _ [d_plus _ _]) _] => rewrite fa_face1
  | |- context [addr (make_md_span _ [Jb _ _; d_plus (Ib _ _) _]) _] => rewrite fa_face20
  | |- context [addr (make_md_span _ [Ib _ _; d_plus (Jb _ _) _]) _] => rewrite fa_face21
  | |- context [addr (make_md_span _ [_; _; d_plus (Ib _ _) _]) _] => rewrite fa_face30
  | |- context [addr (make_md_span _ [_; _; d_plus (Jb _ _) _]) _] => rewrite fa_face31
  | |- context [addr (make_md_span _ [_; _; d_plus (Kb _ _) _]) _] => rewrite fa_face32
  end.

Ltac k_ents_run Ee :=
  cbn [ents pev denote shift] in Ee; revert Ee;
  repeat (progress (k_fa; k_pt; k_upd; k_loads; cbn [bind app_op num_op]));
  let X := fresh in intros X; injection X as <-.

Ltac k_entry_is He :=
  match goal with |- load ?m' (faddr ?a (?w :: _)) = _ =>
    let Y := fresh in
    pose proof (He w ltac:(unfold extent; cbn; lia)) as Y; revert Y; k_fa; k_pt; intros Y; rewrite Y
  end; k_upd; cbv beta; k_fa; k_pt; k_loads; reflexivity.

Ltac k_edge E p lem :=
  let e' := fresh "e'" in let Ee := fresh "Ee" in let He := fresh "He" in let Fr := fresh "Fr" in
  k_ents E p lem e' Ee He Fr; unfold fel in * ; k_ents_run Ee; cbn [fst snd];
  split; [k_entry_is He|]; split; [k_entry_is He|]; split; [|exact Fr];
  intros; k_entry_is He.

(** The same for kernels that write one entry. *)
Ltac k_edge0 E p lem :=
  let e' := fresh "e'" in let Ee := fresh "Ee" in let He := fresh "He" in let Fr := fresh "Fr" in
  k_ents E p lem e' Ee He Fr; unfold fel in * ; k_ents_run Ee;
  split; [k_entry_is He|]; split; [|exact Fr];
  let w := fresh "w" in let Hw := fresh in intros w Hw; intros;
  try (assert (w <> 0) by lia); k_entry_is He.

Ltac k_noedge E := injection E as <-; repeat split; auto.
