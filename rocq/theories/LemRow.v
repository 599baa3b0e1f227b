(** * Values left by window kernels, cell by cell *)

From Coq Require Import Permutation Field.
From Verif Require Import Base ModelBounds ModelMatrix ModelIters ModelSpan ModelProxy Spec SpecIter ModelSched
  LemBase LemDomain LemExpr LemExec SpecAssign LemAssign LemProps LemProps2 LemProps3 LemProps4 SpecWindow LemWindow LemWindow2
  FortranBase SpecKernel Instances LemField LemKernel LemKernel2 LemBC LemHomog KernelNotations
  KernelsFlux KernelsApply KernelsStencil LemStencil.
Import ListNotations.
Open Scope Z_scope.

Section Row.
  Context {S : Scalar}.

  (** Entries of the window other than those assigned keep their value. *)
  Lemma window_other st dom (l : list (@wassign S)) m m' hd w wb pt n :
    window_ok st dom l -> window_indep st l -> sp_b st = hd ++ [(w, wb)] -> dom_within dom hd ->
    (forall a, In a l -> match a with WSub _ _ => False | _ => True end) ->
    (forall a i, In a l -> In i (wa_indices a) -> 0 <= i < extent wb) -> 0 <= n < extent wb ->
    (forall a, In a l -> match a with WSet1 i _ => i <> n | WSet2 i j _ => i <> n /\ j <> n | WSub _ _ => True end) ->
    with_window st dom l m = Some m' -> In pt (domain_points dom origin) ->
    load m' (entry_at st pt n) = load m (entry_at st pt n).
  Proof.
    intros Hok Hind Es Hw Hns Hidx Hn Hne E Hpt.
    destruct (window_frame st dom l m m' Hok Hind E) as (_ & _ & HF). apply HF.
    intros q a Hq Ha Hin. destruct Hok as (Hd & Hs & (hd' & w' & wb' & Es' & HP) & _).
    rewrite Es in Es'. apply app_inj_tail in Es' as [<- Ew]. injection Ew as <- <-.
    assert (NoDup (map fst hd) /\ ~ In w (map fst hd)) as [Hnd Hnw].
    { destruct Hs as [Hns' _]. unfold sp_order in Hns'. rewrite Es, map_app in Hns'. simpl in Hns'.
      apply NoDup_remove in Hns'. rewrite app_nil_r in Hns'. exact Hns'. }
    assert (forall p i, In p (domain_points dom origin) -> 0 <= i < extent wb ->
              in_bounds (sp_b st) (pset p w (b_lb wb + i))) as HB.
    { intros p0 i0 Hp0 Hi0. pose proof (dom_within_points dom hd origin p0 Hd Hnd HP Hw Hp0) as H0.
      rewrite Es. apply Forall_app. split.
      - unfold in_bounds in H0. rewrite Forall_forall in * . intros b Hb. rewrite pset_other; [apply H0; exact Hb|].
        intros E0. apply Hnw. rewrite <- E0. apply in_map. exact Hb.
      - constructor; [|constructor]. cbn [fst snd]. rewrite pset_same. unfold extent in Hi0. lia. }
    assert (forall i, 0 <= i < extent wb -> i <> n -> entry_at st q i <> entry_at st pt n) as HI.
    { intros i Hi Hin' Eq. unfold entry_at in Eq. rewrite Es, rev_app_distr in Eq. cbn [rev app] in Eq.
      assert (In w (sp_order st)) as Hws.
      { unfold sp_order. rewrite Es, map_app. apply in_or_app. right. left. reflexivity. }
      pose proof (addr_inj st _ _ (HB q i Hq Hi) (HB pt n Hpt Hn) Eq w Hws) as Hv.
      rewrite !pset_same in Hv. lia. }
    specialize (Hne a Ha). specialize (Hns a Ha).
    destruct a as [i r|i j r|x r]; [| |destruct Hns]; cbn [wwrites] in Hin.
    - destruct Hin as [Hin|[]]. revert Hin. apply HI; [apply (Hidx _ _ Ha); left; reflexivity|exact Hne].
    - destruct Hin as [Hin|[Hin|[]]]; revert Hin; (apply HI; [|apply Hne]); apply (Hidx _ _ Ha); cbn; auto.
  Qed.

  (** Window kernels change only the allocation of the stencil. *)
  Lemma window_elsewhere st dom (l : list (@wassign S)) m m' x :
    window_ok st dom l -> window_indep st l ->
    (forall a, In a l -> match a with WSub _ _ => False | _ => True end) ->
    with_window st dom l m = Some m' -> fst x <> fst (sp_ptr st) -> load m' x = load m x.
  Proof.
    intros Hok Hind Hns E Hx. destruct (window_frame st dom l m m' Hok Hind E) as (_ & _ & HF). apply HF.
    intros q a Hq Ha Hin. apply Hx. rewrite (wwrites_block st q a x Hin). specialize (Hns a Ha).
    destruct a; [reflexivity..|destruct Hns].
  Qed.
End Row.

(** The list of assignments as cases. *)
Ltac k_in H :=
  cbn [In wa_indices st_indices app PNeg] in H;
  repeat match type of H with _ \/ _ => destruct H as [H|H] | False => destruct H end.

Ltac k_wlocal :=
  match goal with
  | |- window_local (make_md_span_g ?p ?g [?x; ?w]) _ _ =>
      exists (sp_b (make_md_span_g p g [x])), dW, (snd (expand_bounds g (d_unit w)))
  | |- window_local (make_md_span_g ?p ?g [?x; ?y; ?w]) _ _ =>
      exists (sp_b (make_md_span_g p g [x; y])), dW, (snd (expand_bounds g (d_unit w)))
  | |- window_local (make_md_span_g ?p ?g [?x; ?y; ?z; ?w]) _ _ =>
      exists (sp_b (make_md_span_g p g [x; y; z])), dW, (snd (expand_bounds g (d_unit w)))
  end;
  split; [reflexivity|]; split; [k_within|];
  split; [let a := fresh "a" in let i := fresh "i" in let Ha := fresh in let Hi := fresh in
          intros a i Ha Hi; k_in Ha; subst a; unfold PNeg in Hi; k_in Hi; subst i; unfold extent; cbn; lia|];
  split; [let x := fresh in let p := fresh in let H := fresh in intros x p H; k_in H; discriminate|];
  let a := fresh "a" in let b := fresh "b" in let Ha := fresh in let Hb := fresh in
  intros a b Ha Hb; k_in Ha; subst a; k_in Hb; subst b; cbn [wa_vecs pvecs app PNeg wa_block];
  repeat first [apply Forall_nil|apply Forall_cons]; k_avoids.

(** What the window kernel [E] leaves at the point [p]. *)
Ltac k_wat E p lem f Ef Hf :=
  let X := fresh in
  match type of E with with_window ?st ?dom ?l ?m = Some ?m' =>
    assert (X : window_ok st dom l) by k_wok;
    destruct (window_effect st dom l m m' X ltac:(k_windep) ltac:(k_wdiv)
      (window_local_disjoint st dom l (ints m) X ltac:(k_wlocal)) E p lem) as (f & Ef & Hf); clear X
  end.

(** ** Values as Fortran expressions *)

(** After the kernel, [e'] has the value [e] had before. *)
Definition gets {S : Scalar} (m' : mem S) (e' : fexp S) (m : mem S) (e : fexp S) : Prop :=
  exists v, e' m' = Some v /\ e m = Some v.

(** Finish a value: the loads of both sides are the same. *)
Ltac k_same :=
  unfold fel, fsc, fop, fneg;
  repeat (cbn [bind app_op num_op];
    match goal with
    | H : context [load ?m ?q] |- _ => let E := fresh "Ld" in destruct (load m q) as [?|] eqn:E; cbn [bind app_op num_op] in H; [|discriminate H]
    end).

Ltac k_gets_at L E p lem :=
  let v := fresh "v" in let D := fresh "D" in let Lv := fresh "Lv" in
  k_at E p lem v D Lv; exists v;
  autorewrite with fa in Lv; revert D Lv; cbn [denote]; autorewrite with dgrad; autorewrite with fa; k_pt;
  let D := fresh "D" in let Lv := fresh "Lv" in
  intros D Lv; split; [exact Lv|]; unfold fel, fsc, fop, fneg;
  revert D; repeat match goal with |- context [Z.add ?a (-1)] => change (Z.add a (-1)) with (Z.sub a 1) end;
  repeat match goal with |- context [load ?m ?q] => destruct (load m q) as [?|]; cbn [bind app_op num_op] end;
  intros D; try discriminate; injection D as <-; try reflexivity; f_equal; k_div L; ring.

Ltac k_frame E :=
  match type of E with with_domain ?dom [AExpr ?x ?e] ?m = Some ?m' =>
    refine (proj2 (proj2 (kernel_frame dom x e m m' _ _ E))); [split; [k_dom|split; [k_assign|k_within]]|k_avoids]
  end.

Ltac k_wframe E :=
  match type of E with with_window ?st ?dom ?l ?m = Some ?m' =>
    let p := fresh "p" in let Hp := fresh in
    intros p Hp; apply (window_elsewhere st dom l m m' p); [k_wok|k_windep| |exact E|exact Hp];
    let a := fresh "a" in let Ha := fresh in intros a Ha; k_in Ha; subst a; exact Logic.I
  end.

Section Entries.
  Context {S : Scalar}.

  Lemma load_hit (m m' : mem S) p v : store m p v = Some m' -> load m' p = Some v.
  Proof. intros H. rewrite (load_store _ _ _ _ _ H). destruct (ptr_dec p p); congruence. Qed.

  Lemma load_entry (m m' : mem S) p n ds w w' is v :
    store m (faddr (mkFa p ((0, n) :: ds)) (w :: is)) v = Some m' -> w <> w' ->
    load m' (faddr (mkFa p ((0, n) :: ds)) (w' :: is)) = load m (faddr (mkFa p ((0, n) :: ds)) (w' :: is)).
  Proof.
    intros H N. rewrite (load_store _ _ _ _ _ H). destruct (ptr_dec _ _) as [E|]; [|reflexivity].
    exfalso. revert E. apply faddr_ne. cbn. lia.
  Qed.
End Entries.

(** Loads after stores, in the goal. *)
Ltac k_after :=
  repeat match goal with
  | E : store ?m ?q ?v = Some ?m1 |- context [load ?m1 ?q] => rewrite (load_hit m m1 q v E)
  | E : store ?m (faddr (mkFa ?p ((0, ?n) :: ?ds)) (?w :: ?is)) ?v = Some ?m1
    |- context [load ?m1 (faddr (mkFa ?p ((0, ?n) :: ?ds)) (?w' :: ?is))] =>
      rewrite (load_entry m m1 p n ds w w' is v E) by discriminate
  | E : store ?m (faddr ?a ?is) ?v = Some ?m1 |- context [load ?m1 (faddr ?b ?is')] =>
      rewrite (load_other m m1 a b is is' v E) by (cbn [fa_ptr]; congruence)
  end.

(** Run the assignments of one element. *)
Ltac k_run Ef :=
  unfold point_spec, PNeg in Ef;
  cbn [forM wassign_at pvalue denote app_op num_op bind] in Ef;
  change (0 <=? up) with true in Ef; cbv iota in Ef;
  revert Ef; autorewrite with fa; k_pt;
  repeat (k_bind; k_after;
    match goal with
    | |- context [load ?m ?q] => let Ld := fresh "Ld" in destruct (load m q) as [?|] eqn:Ld
    | |- context [store ?m ?q ?v] => let St := fresh "St" in destruct (store m q v) as [?|] eqn:St
    end); cbn [bind app_op num_op]; intros Ef; try discriminate Ef; injection Ef as <-.

(** Values of the entries after the kernel. *)
Ltac k_entries Hf :=
  cbn [flat_map wwrites app] in Hf; revert Hf; autorewrite with fa; k_pt; intros Hf;
  unfold gets, fel, fsc, fop, fneg;
  repeat match goal with
  | |- _ /\ _ => split
  | |- exists v, _ => eexists; split
  | |- load ?m' ?q = _ => rewrite (Hf q) by (cbn [In]; tauto); k_after; reflexivity
  | H : load ?m ?q = _ |- context [load ?m ?q] => rewrite H; cbn [bind app_op num_op]
  end; try reflexivity.

(** An entry the kernel does not assign. *)
Ltac k_wother E p lem n :=
  match type of E with with_window (make_md_span_g ?q ?g ?bs) ?dom ?l ?m = Some ?m' =>
    let hd := eval cbn [removelast] in (removelast bs) in
    let w := eval cbn [List.last] in (List.last bs (Wb 0 0)) in
    let Y := fresh in
    assert (Y : load m' (entry_at (make_md_span_g q g bs) p n) = load m (entry_at (make_md_span_g q g bs) p n)) by
     (let a := fresh "a" in let i := fresh "i" in let Ha := fresh in let Hi := fresh in
      apply (window_other (make_md_span_g q g bs) dom l m m' (sp_b (make_md_span_g q g hd)) dW
        (snd (expand_bounds g (d_unit w))) p n);
      [ k_wok | k_windep | reflexivity | k_within
      | intros a Ha; k_in Ha; subst a; exact Logic.I
      | intros a i Ha Hi; k_in Ha; subst a; unfold PNeg in Hi; k_in Hi; subst i; unfold extent; cbn; lia
      | unfold extent; cbn; lia
      | intros a Ha; k_in Ha; subst a; repeat split; discriminate
      | exact E | exact lem ]);
    revert Y; autorewrite with fa; k_pt; intros Y; exact Y
  end.

Section Moved.
  Context {S : Scalar}.

  Lemma gets_moved (m0 m1 m2 m3 : mem S) e' e :
    e' m3 = e' m2 -> e m1 = e m0 -> gets m2 e' m1 e -> gets m3 e' m0 e.
  Proof. intros H H' (v & H1 & H2). exists v. split; congruence. Qed.
End Moved.

(** Loads of allocations that did not change. *)
Ltac k_moves :=
  unfold fel, fsc, fop, fneg;
  repeat match goal with
  | Fr : forall p, _ -> load ?mb p = load ?ma p |- context [load ?mb (faddr ?a ?is)] =>
      rewrite (Fr (faddr a is)) by (cbn [fst faddr padd fa_ptr]; congruence)
  end.

Ltac subst_lets := repeat match goal with x := _ |- _ => subst x end.

Lemma cell1d_grown i0 i1 g : CELL1d (i0 - g) (i1 + g) 0 = CELL1d i0 i1 g.
Proof. unfold CELL1d. repeat match goal with |- _ :: _ = _ :: _ => f_equal | |- (_, _) = (_, _) => f_equal end; lia. Qed.
Lemma cell2d_grown i0 j0 i1 j1 g : CELL2d (i0 - g) (j0 - g) (i1 + g) (j1 + g) 0 = CELL2d i0 j0 i1 j1 g.
Proof. unfold CELL2d. repeat match goal with |- _ :: _ = _ :: _ => f_equal | |- (_, _) = (_, _) => f_equal end; lia. Qed.
Lemma cell3d_grown i0 j0 k0 i1 j1 k1 g :
  CELL3d (i0 - g) (j0 - g) (k0 - g) (i1 + g) (j1 + g) (k1 + g) 0 = CELL3d i0 j0 k0 i1 j1 k1 g.
Proof. unfold CELL3d. repeat match goal with |- _ :: _ = _ :: _ => f_equal | |- (_, _) = (_, _) => f_equal end; lia. Qed.

Ltac k_ne := first [assumption | apply not_eq_sym; assumption].
Ltac k_rapart L := first [assumption | lazymatch goal with |- apart _ _ => repeat constructor; k_ne end | exact L | lia].

(** All loads as loads of the memory before, then a field identity. *)
Ltac k_open :=
  repeat match goal with
  | H : _ /\ _ |- _ => destruct H
  | H : gets _ _ _ _ |- _ => destruct H as (? & ? & ?)
  end;
  unfold fel, fop, fsc, fneg in * ; cbv beta in * ;
  repeat match goal with
  | H : bind _ _ = Some _ |- _ => apply bind_Some_inv in H as (? & ? & ?)
  | H : Some _ = Some _ |- _ => injection H as H; subst
  end;
  rewrite ?cell1d_grown, ?cell2d_grown, ?cell3d_grown in * ;
  repeat match goal with
  | H : load ?mb (faddr ?a ?is) = Some _, Fr : forall p, _ -> load ?mb p = load ?ma p |- _ =>
      rewrite (Fr (faddr a is)) in H by (cbn [fst faddr padd fa_ptr]; k_ne)
  | H : load ?mb (faddr ?a ?is) = Some _, Fr : forall p, _ -> _ -> load ?mb p = load ?ma p |- _ =>
      rewrite (Fr (faddr a is)) in H by (cbn [fst faddr padd fa_ptr]; k_ne)
  | H : load ?mb (faddr ?a ?is) = Some _, Fr : forall p, _ -> _ -> _ -> load ?mb p = load ?ma p |- _ =>
      rewrite (Fr (faddr a is)) in H by (cbn [fst faddr padd fa_ptr]; k_ne)
  end;
  repeat match goal with
  | H : load ?mm ?p = Some ?x, H' : load ?mm ?p = Some ?y |- _ =>
      rewrite H in H'; injection H' as H'; subst
  end.

Ltac k_close L :=
  repeat match goal with
  | Fr : forall p, _ -> load ?mb p = load ?ma p |- context [load ?mb (faddr ?a ?is)] =>
      rewrite (Fr (faddr a is)) by (cbn [fst faddr padd fa_ptr]; k_ne)
  end;
  repeat match goal with
  | H : load ?mm ?p = _ |- context [load ?mm ?p] => rewrite H
  end;
  cbn [bind].

Ltac k_row L :=
  k_open; eexists; split; [eassumption|]; k_close L;
  f_equal; field; auto.

