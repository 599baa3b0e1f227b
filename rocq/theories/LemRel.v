(** * The model respects every relation between two scalar types

    A relation between the elements of two scalar types that the arithmetic and
    the literals respect ([sim]) is respected by every iterator, expression,
    assignment and Fortran statement of the model. *)

From Verif Require Import Base ModelBounds ModelMatrix ModelIters ModelSpan ModelProxy SpecRel.
Import ListNotations.
Open Scope Z_scope.

Section Opt.
  Lemma bind_rel {A B C D} (Q : A -> B -> Prop) (Q' : C -> D -> Prop) x y f g :
    orel Q x y -> (forall a b, Q a b -> orel Q' (f a) (g b)) -> orel Q' (bind x f) (bind y g).
  Proof. intros [|a b H] K; cbn; [constructor|auto]. Qed.

  Lemma bind_same {A C D} (Q' : C -> D -> Prop) (x : option A) f g :
    (forall a, orel Q' (f a) (g a)) -> orel Q' (bind x f) (bind x g).
  Proof. destruct x; cbn; [auto|constructor]. Qed.

  Lemma mapM_rel {A B C D} (Q : A -> B -> Prop) (Q' : C -> D -> Prop) f g l l' :
    Forall2 Q l l' -> (forall a b, Q a b -> orel Q' (f a) (g b)) -> orel (Forall2 Q') (mapM f l) (mapM g l').
  Proof.
    intros H K. induction H; cbn; [constructor; constructor|].
    eapply bind_rel; [apply K; eassumption|]. intros c d Hc.
    eapply bind_rel; [exact IHForall2|]. intros cs ds Hcs. constructor. constructor; assumption.
  Qed.

  Lemma forM_rel {A B M N} (Q : A -> B -> Prop) (R : M -> N -> Prop) f g l l' :
    Forall2 Q l l' -> (forall a b m n, Q a b -> R m n -> orel R (f a m) (g b n)) ->
    forall m n, R m n -> orel R (forM l f m) (forM l' g n).
  Proof.
    intros H K. induction H; cbn; intros m n Hm; [constructor; exact Hm|].
    eapply bind_rel; [apply K; eassumption|]. intros a b Hab. apply IHForall2, Hab.
  Qed.

  Lemma forM_same {A M N} (R : M -> N -> Prop) (l : list A) f g :
    (forall a m n, R m n -> orel R (f a m) (g a n)) ->
    forall m n, R m n -> orel R (forM l f m) (forM l g n).
  Proof.
    intros K. induction l; cbn; intros m n Hm; [constructor; exact Hm|].
    eapply bind_rel; [apply K; eassumption|]. intros x y Hxy. apply IHl, Hxy.
  Qed.

  Lemma Forall2_nth_error {A B} (Q : A -> B -> Prop) l l' n :
    Forall2 Q l l' -> orel Q (nth_error l n) (nth_error l' n).
  Proof.
    intros H. revert n. induction H; intros [|n]; cbn; try constructor; auto.
  Qed.

  Lemma Forall2_aset {A B} (Q : A -> B -> Prop) l l' n x y :
    Forall2 Q l l' -> Q x y -> Forall2 Q (aset l n x) (aset l' n y).
  Proof.
    intros H Hx. revert n. induction H; intros [|n]; cbn; constructor; auto.
  Qed.

  Lemma Forall2_combine {A B C D} (P : A -> B -> Prop) (Q : C -> D -> Prop) l l' k k' :
    Forall2 P l l' -> Forall2 Q k k' ->
    Forall2 (fun x y => P (fst x) (fst y) /\ Q (snd x) (snd y)) (combine l k) (combine l' k').
  Proof.
    intros H. revert k k'. induction H; intros k k' Hk; cbn; [constructor|].
    destruct Hk; constructor; [split; assumption|]. apply IHForall2. assumption.
  Qed.

  Lemma Forall2_refl {A} (l : list A) : Forall2 eq l l.
  Proof. induction l; constructor; auto. Qed.
End Opt.

Section Rel.
  Context {S T : Scalar} (R : S -> T -> Prop) (HR : sim R).
  Notation mrel := (mrel R).

  Lemma load_rel m m' p : mrel m m' -> orel R (load m p) (load m' p).
  Proof.
    intros [Hc _]. unfold load. eapply bind_rel; [apply Forall2_nth_error; exact Hc|].
    intros a b Hab. unfold nthZ. destruct (snd p <? 0); [constructor|].
    apply Forall2_nth_error. exact Hab.
  Qed.

  Lemma store_rel m m' p x y : mrel m m' -> R x y -> orel mrel (store m p x) (store m' p y).
  Proof.
    intros [Hc Hi] Hx. unfold store. eapply bind_rel; [apply Forall2_nth_error; exact Hc|].
    intros a b Hab. eapply (bind_rel R).
    { unfold nthZ. destruct (snd p <? 0); [constructor|]. apply Forall2_nth_error. exact Hab. }
    intros _ _ _. constructor. split; cbn [cells ints]; [|exact Hi].
    apply Forall2_aset; [exact Hc|]. apply Forall2_aset; assumption.
  Qed.

  Lemma loadi_rel m m' p : mrel m m' -> loadi m p = loadi m' p.
  Proof. intros [_ Hi]. unfold loadi. rewrite Hi. reflexivity. Qed.

  (** ** Iterators *)

  Inductive vrel : @val S -> @val T -> Prop :=
  | vr_num x y : R x y -> vrel (VNum x) (VNum y)
  | vr_st a b c d : R a c -> R b d -> vrel (VSt a b) (VSt c d)
  | vr_ptr p : vrel (VPtr p) (VPtr p).

  Inductive irel : @iter S -> @iter T -> Prop :=
  | ir_mat m : irel (IMat m) (IMat m)
  | ir_fwd f : irel (IFwd f) (IFwd f)
  | ir_coarse c : irel (ICoarse c) (ICoarse c)
  | ir_right o x y i j : R x y -> irel i j -> irel (IRight o x i) (IRight o y j)
  | ir_left o x y i j : R x y -> irel i j -> irel (ILeft o i x) (ILeft o j y)
  | ir_zip o i j i' j' : irel i i' -> irel j j' -> irel (IZipOp o i j) (IZipOp o i' j')
  | ir_dot st p n i j i' j' : irel i i' -> irel j j' -> irel (IDot st p n i j) (IDot st p n i' j')
  | ir_const x y : R x y -> irel (IConst x) (IConst y).

  Lemma num_op_rel o x y x' y' : R x x' -> R y y' -> orel R (num_op o x y) (num_op o x' y').
  Proof. intros H K. destruct HR. destruct o; cbn; constructor; auto. Qed.

  Lemma app_op_rel o u v u' v' : vrel u u' -> vrel v v' -> orel vrel (app_op o u v) (app_op o u' v').
  Proof.
    intros Hu Hv. destruct HR.
    destruct Hu, Hv; destruct o; cbn; repeat constructor; auto.
  Qed.

  Lemma mti_deref_rel k m m' : mrel m m' -> orel vrel (mti_deref k m) (mti_deref k m').
  Proof.
    intros H. unfold mti_deref. destruct (m_ptr k); [repeat constructor|].
    eapply bind_rel; [apply load_rel; exact H|]. intros. repeat constructor. assumption.
  Qed.

  Lemma offi_deref_rel o m m' : mrel m m' -> orel R (offi_deref o m) (offi_deref o m').
  Proof.
    intros H. unfold offi_deref. eapply (bind_rel eq).
    - apply forM_same; [|reflexivity]. intros j i ? <-. rewrite (loadi_rel _ _ _ H).
      apply bind_same. intros z. constructor. reflexivity.
    - intros i ? <-. apply load_rel. exact H.
  Qed.

  Lemma dot_loop_rel st o n ps pv m m' : mrel m m' -> orel R (dot_loop st o n ps pv m) (dot_loop st o n ps pv m').
  Proof.
    intros H. unfold dot_loop. apply forM_same; [|destruct HR; auto].
    intros i x y Hx. eapply bind_rel; [apply load_rel; exact H|]. intros s s' Hs.
    eapply bind_rel; [apply offi_deref_rel; exact H|]. intros z z' Hz.
    constructor. destruct HR; auto.
  Qed.

  Lemma it_deref_rel i j m m' : irel i j -> mrel m m' -> orel vrel (it_deref i m) (it_deref j m').
  Proof.
    intros Hi Hm. induction Hi; cbn [it_deref].
    - apply mti_deref_rel, Hm.
    - apply bind_same. intros pr. eapply bind_rel; [apply mti_deref_rel, Hm|]. intros a b Hab.
      eapply bind_rel; [apply mti_deref_rel, Hm|]. intros c d Hcd.
      destruct Hab, Hcd; repeat constructor; assumption.
    - apply bind_same. intros p. eapply bind_rel; [apply load_rel, Hm|]. intros. repeat constructor; assumption.
    - eapply bind_rel; [exact IHHi|]. intros u v Huv. apply app_op_rel; [constructor|]; assumption.
    - eapply bind_rel; [exact IHHi|]. intros u v Huv. apply app_op_rel; [|constructor]; assumption.
    - eapply bind_rel; [exact IHHi1|]. intros u v Huv. eapply bind_rel; [exact IHHi2|]. intros a b Hab.
      apply app_op_rel; assumption.
    - eapply bind_rel; [exact IHHi1|]. intros u v Huv. eapply bind_rel; [exact IHHi2|]. intros a b Hab.
      destruct Huv, Hab; try constructor.
      eapply bind_rel; [apply dot_loop_rel, Hm|]. intros. repeat constructor; assumption.
    - repeat constructor; assumption.
  Qed.

  Lemma it_inc_rel i j : irel i j -> orel irel (it_inc i) (it_inc j).
  Proof.
    intros Hi. induction Hi; cbn [it_inc]; try (repeat constructor; assumption).
    - apply bind_same. repeat constructor.
    - eapply bind_rel; [eassumption|]. repeat constructor; assumption.
    - eapply bind_rel; [eassumption|]. repeat constructor; assumption.
    - eapply bind_rel; [eassumption|]. intros. eapply bind_rel; [eassumption|]. repeat constructor; assumption.
    - eapply bind_rel; [eassumption|]. intros. eapply bind_rel; [eassumption|]. repeat constructor; assumption.
  Qed.

  (** ** Expressions and assignments *)

  Inductive erel : @expr S -> @expr T -> Prop :=
  | er_span s : erel (ESpan s) (ESpan s)
  | er_numl o x y e e' : R x y -> erel e e' -> erel (ENumL o x e) (ENumL o y e')
  | er_numr o x y e e' : R x y -> erel e e' -> erel (ENumR o e x) (ENumR o e' y)
  | er_bin o e1 e2 e1' e2' : erel e1 e1' -> erel e2 e2' -> erel (EBin o e1 e2) (EBin o e1' e2')
  | er_stencil sh s d : erel (EStencil sh s d) (EStencil sh s d)
  | er_shift d z e e' : erel e e' -> erel (EShift d z e) (EShift d z e')
  | er_dot st u o : erel (EDot st u o) (EDot st u o)
  | er_fine s r cb : erel (EFine s r cb) (EFine s r cb).

  Lemma eval_rel e e' : erel e e' -> forall dom, orel irel (eval e dom) (eval e' dom).
  Proof.
    intros H. induction H; intros dom; cbn [eval].
    - apply bind_same. repeat constructor.
    - eapply bind_rel; [apply IHerel|]. repeat constructor; assumption.
    - eapply bind_rel; [apply IHerel|]. repeat constructor; assumption.
    - eapply bind_rel; [apply IHerel1|]. intros. eapply bind_rel; [apply IHerel2|]. repeat constructor; assumption.
    - apply bind_same. repeat constructor.
    - apply IHerel.
    - apply bind_same. intros. apply bind_same. intros. apply bind_same. intros. apply bind_same. intros.
      repeat constructor.
    - apply bind_same. repeat constructor.
  Qed.

  Inductive arel : @assign S -> @assign T -> Prop :=
  | ar_expr s e e' : erel e e' -> arel (AExpr s e) (AExpr s e')
  | ar_num s x y : R x y -> arel (ANum s x) (ANum s y).

  Lemma write_val_rel dst u v m m' : vrel u v -> mrel m m' -> orel mrel (write_val dst u m) (write_val dst v m').
  Proof.
    intros Hu Hm. unfold write_val. destruct (m_ptr dst); [constructor|].
    destruct Hu; try constructor. apply store_rel; assumption.
  Qed.

  Lemma copy_loop_rel n : forall i j dst m m', irel i j -> mrel m m' ->
    orel mrel (copy_loop n i dst m) (copy_loop n j dst m').
  Proof.
    induction n; intros i j dst m m' Hi Hm; cbn [copy_loop]; [constructor; exact Hm|].
    eapply bind_rel; [apply it_deref_rel; eassumption|]. intros u v Huv.
    eapply bind_rel; [apply write_val_rel; eassumption|]. intros k k' Hk.
    eapply bind_rel; [apply it_inc_rel; eassumption|]. intros i' j' Hij.
    apply IHn; assumption.
  Qed.

  Lemma fill_loop_rel n : forall x y dst m m', R x y -> mrel m m' ->
    orel mrel (fill_loop n dst x m) (fill_loop n dst y m').
  Proof.
    induction n; intros x y dst m m' Hx Hm; cbn [fill_loop]; [constructor; exact Hm|].
    eapply bind_rel; [apply write_val_rel; [constructor|]; eassumption|]. intros k k' Hk.
    apply IHn; assumption.
  Qed.

  Lemma exec_assign_rel dom a b m m' : arel a b -> mrel m m' -> orel mrel (exec_assign dom a m) (exec_assign dom b m').
  Proof.
    intros Ha Hm. unfold exec_assign. destruct Ha; cbn [lhs_of]; apply bind_same; intros out.
    - eapply bind_rel; [apply eval_rel; eassumption|]. intros i j Hij. apply copy_loop_rel; assumption.
    - apply fill_loop_rel; assumption.
  Qed.

  Lemma with_domain_rel dom l l' m m' : Forall2 arel l l' -> mrel m m' ->
    orel mrel (with_domain dom l m) (with_domain dom l' m').
  Proof.
    intros Hl. unfold with_domain. revert m m'. apply forM_rel with arel; [exact Hl|].
    intros. apply exec_assign_rel; assumption.
  Qed.

  Lemma with_lhs_domain_rel a b m m' : arel a b -> mrel m m' ->
    orel mrel (with_lhs_domain a m) (with_lhs_domain b m').
  Proof.
    intros Ha Hm. unfold with_lhs_domain.
    replace (lhs_of b) with (lhs_of a) by (destruct Ha; reflexivity).
    apply exec_assign_rel; assumption.
  Qed.

  Lemma at_assign_rel f is c js m m' : mrel m m' -> orel mrel (at_assign f is c js m) (at_assign f is c js m').
  Proof.
    intros Hm. unfold at_assign. apply bind_same. intros. apply bind_same. intros.
    eapply bind_rel; [apply load_rel, Hm|]. intros. apply store_rel; assumption.
  Qed.

  (** ** Window assignments *)

  Inductive prel : @proxy S -> @proxy T -> Prop :=
  | pr_num x y : R x y -> prel (PNum x) (PNum y)
  | pr_vec e e' : erel e e' -> prel (PVec e) (PVec e')
  | pr_st i : prel (PSt i) (PSt i)
  | pr_op o p q p' q' : prel p p' -> prel q q' -> prel (POp o p q) (POp o p' q').

  Lemma pr_neg p p' : prel p p' -> prel (PNeg p) (PNeg p').
  Proof. intros H. unfold PNeg. constructor; [constructor; destruct HR; auto|exact H]. Qed.

  Inductive enrel : @entry S -> @entry T -> Prop :=
  | en_val u v : vrel u v -> enrel (EVal u) (EVal v)
  | en_ref i j : irel i j -> enrel (ERef i) (ERef j).

  Lemma is_proxy_rel p q : prel p q -> is_proxy p = is_proxy q.
  Proof. destruct 1; reflexivity. Qed.

  Lemma compiles_rel p q : prel p q -> compiles p = compiles q.
  Proof.
    induction 1; cbn [compiles]; try reflexivity.
    rewrite (is_proxy_rel _ _ H), (is_proxy_rel _ _ H0), IHprel1, IHprel2. reflexivity.
  Qed.

  Lemma proxy_index_rel p q : prel p q -> proxy_index p = proxy_index q.
  Proof.
    induction 1; cbn [proxy_index]; try reflexivity.
    destruct H, H0; cbn [proxy_index] in *; congruence.
  Qed.

  Lemma get_iterators_rel p q : prel p q -> forall dom,
    orel (Forall2 irel) (get_iterators p dom) (get_iterators q dom).
  Proof.
    induction 1; intros dom; try (cbn; repeat constructor; fail).
    assert (K1 := IHprel1 dom). assert (K2 := IHprel2 dom).
    destruct H as [x y Hx|e e' He|i|o1 a b a' b' Ha Hb], H0 as [x2 y2 Hx2|e2 e2' He2|i2|o2 c d c' d' Hc Hd];
      cbn [get_iterators] in *; try assumption;
      repeat first
        [ progress cbn [app]
        | eassumption
        | eapply bind_rel; [apply eval_rel; eassumption|intros ? ? ?]
        | eapply bind_rel; [eassumption|intros ? ? ?]
        | apply oS
        | apply Forall2_app
        | constructor ].
  Qed.

  Lemma tup_entry_rel i j m m' : irel i j -> mrel m m' -> orel enrel (tup_entry i m) (tup_entry j m').
  Proof.
    intros Hi Hm. unfold tup_entry.
    replace (is_ref j) with (is_ref i) by (destruct Hi; reflexivity).
    destruct (is_ref i); [repeat constructor; exact Hi|].
    eapply bind_rel; [apply it_deref_rel; eassumption|]. intros. repeat constructor. assumption.
  Qed.

  Lemma tup_deref_rel l l' m m' : Forall2 irel l l' -> mrel m m' ->
    orel (Forall2 enrel) (tup_deref l m) (tup_deref l' m').
  Proof.
    intros Hl Hm. unfold tup_deref. apply mapM_rel with irel; [exact Hl|].
    intros. apply tup_entry_rel; assumption.
  Qed.

  Lemma entry_val_rel a b m m' : enrel a b -> mrel m m' -> orel vrel (entry_val a m) (entry_val b m').
  Proof. intros [u v H|i j H] Hm; cbn; [constructor; exact H|apply it_deref_rel; assumption]. Qed.

  Lemma invoke_rel p q w t t' m m' : prel p q -> Forall2 enrel t t' -> mrel m m' ->
    orel vrel (invoke p w t m) (invoke q w t' m').
  Proof.
    intros Hp Ht Hm. induction Hp; cbn [invoke]; try constructor.
    - eapply bind_rel; [apply load_rel, Hm|]. intros. repeat constructor. assumption.
    - assert (Hi : proxy_index (POp o p q) = proxy_index (POp o p' q')) by (apply proxy_index_rel; constructor; assumption).
      assert (Harg : forall u u', prel u u' -> orel vrel (invoke u w t m) (invoke u' w t' m') ->
        orel vrel
          (match u with PNum x => Some (VNum x)
           | PVec _ => match proxy_index (POp o p q) with O => None | Datatypes.S n => en <- nth_error t n ;; entry_val en m end
           | PSt _ | POp _ _ _ => invoke u w t m end)
          (match u' with PNum x => Some (VNum x)
           | PVec _ => match proxy_index (POp o p' q') with O => None | Datatypes.S n => en <- nth_error t' n ;; entry_val en m' end
           | PSt _ | POp _ _ _ => invoke u' w t' m' end)).
      { intros u u' Hu K. rewrite <- Hi. destruct Hu; try exact K.
        - repeat constructor; assumption.
        - destruct (proxy_index (POp o p q)) as [|n]; [constructor|].
          eapply bind_rel; [apply Forall2_nth_error; exact Ht|]. intros. apply entry_val_rel; assumption. }
      eapply bind_rel; [apply Harg; assumption|]. intros a b Hab.
      eapply bind_rel; [apply Harg; assumption|]. intros c d Hcd.
      apply app_op_rel; assumption.
  Qed.

  Inductive wrel : @wassign S -> @wassign T -> Prop :=
  | wr_set1 i r r' : prel r r' -> wrel (WSet1 i r) (WSet1 i r')
  | wr_set2 i j r r' : prel r r' -> wrel (WSet2 i j r) (WSet2 i j r')
  | wr_sub x p p' : prel p p' -> wrel (WSub x p) (WSub x p').

  Lemma wsub_rel x p p' : prel p p' -> prel (wsub_rhs x p) (wsub_rhs x p').
  Proof. intros H. unfold wsub_rhs. constructor; [apply pr_neg, H|repeat constructor]. Qed.

  Lemma rhs_iters_rel p q dom : prel p q -> orel (Forall2 irel) (rhs_iters p dom) (rhs_iters q dom).
  Proof.
    intros H. assert (Hc := compiles_rel _ _ H). assert (Hi := proxy_index_rel _ _ H).
    assert (Hg := get_iterators_rel _ _ H dom). destruct HR as [_ _ _ _ _ Hl].
    destruct H; unfold rhs_iters.
    - repeat constructor. apply Hl.
    - eapply bind_rel; [apply eval_rel; eassumption|]. repeat constructor; assumption.
    - constructor.
    - rewrite <- Hc, <- Hi. destruct (compiles _); [|constructor].
      destruct (proxy_index _); [repeat constructor; apply Hl|exact Hg].
  Qed.

  Lemma wa_iters_rel a b dom : wrel a b -> orel (Forall2 irel) (wa_iters a dom) (wa_iters b dom).
  Proof.
    intros H. destruct H; unfold wa_iters.
    - apply rhs_iters_rel, H.
    - rewrite (is_proxy_rel _ _ H). destruct (is_proxy r'); [constructor|apply rhs_iters_rel, H].
    - rewrite (is_proxy_rel _ _ H). destruct (is_proxy p'); [|constructor].
      apply rhs_iters_rel, wsub_rel, H.
  Qed.

  Lemma put_rel p u v m m' : vrel u v -> mrel m m' -> orel mrel (put p u m) (put p v m').
  Proof. intros Hu Hm. destruct Hu; cbn; try constructor. apply store_rel; assumption. Qed.

  Lemma run_number_rel a b w m m' : wrel a b -> mrel m m' -> orel mrel (run_number a w m) (run_number b w m').
  Proof.
    intros Ha Hm. destruct Ha as [i r r' H|i j r r' H|x p p' H]; cbn; [| |constructor].
    - destruct H; try constructor. apply store_rel; assumption.
    - destruct H; try constructor. eapply bind_rel; [apply store_rel; eassumption|].
      intros. apply store_rel; assumption.
  Qed.

  Lemma run_general_rel a b w t t' m m' : wrel a b -> Forall2 enrel t t' -> mrel m m' ->
    orel mrel (run_general a w t m) (run_general b w t' m').
  Proof.
    intros Ha Ht Hm. destruct Ha as [i r r' H|i j r r' H|x p p' H]; cbn [run_general]; [| |constructor].
    - destruct H.
      + apply store_rel; assumption.
      + eapply bind_rel; [apply Forall2_nth_error; exact Ht|]. intros.
        eapply bind_rel; [apply entry_val_rel; eassumption|]. intros. apply put_rel; assumption.
      + eapply bind_rel; [apply invoke_rel; try eassumption; constructor|]. intros. apply put_rel; assumption.
      + eapply bind_rel; [apply invoke_rel; try eassumption; constructor; assumption|]. intros. apply put_rel; assumption.
    - destruct H; try constructor.
      eapply bind_rel; [apply Forall2_nth_error; exact Ht|]. intros en en' Hen.
      eapply bind_rel; [apply entry_val_rel; eassumption|]. intros v v' Hv.
      destruct Hv; try constructor.
      eapply bind_rel; [apply store_rel; eassumption|]. intros k k' Hk.
      eapply bind_rel; [apply entry_val_rel; eassumption|]. intros z z' Hz.
      destruct Hz; try constructor. apply store_rel; assumption.
  Qed.

  Lemma run_self_rel a b l w t t' m m' : wrel a b -> Forall2 enrel t t' -> mrel m m' ->
    orel mrel (run_self a l w t m) (run_self b l w t' m').
  Proof.
    intros Ha Ht Hm. destruct Ha as [i r r' H|i j r r' H|x p p' H]; cbn [run_self]; try constructor.
    eapply bind_rel; [apply invoke_rel; try eassumption; apply wsub_rel, H|]. intros.
    destruct (m_ptr l); [constructor|]. apply put_rel; assumption.
  Qed.

  Lemma incs_rel l l' : Forall2 (Forall2 irel) l l' -> orel (Forall2 (Forall2 irel)) (incs l) (incs l').
  Proof.
    intros H. unfold incs. eapply mapM_rel; [exact H|]. intros a b Hab.
    eapply mapM_rel; [exact Hab|]. intros. apply it_inc_rel. assumption.
  Qed.

  Lemma loop_number_rel n : forall l l' w m m', Forall2 wrel l l' -> mrel m m' ->
    orel mrel (loop_number n l w m) (loop_number n l' w m').
  Proof.
    induction n; intros l l' w m m' Hl Hm; cbn [loop_number]; [constructor; exact Hm|].
    eapply bind_rel.
    - unfold elem_number. destruct (m_ptr w); [|constructor].
      eapply forM_rel; [exact Hl| |exact Hm]. intros. apply run_number_rel; assumption.
    - intros. apply IHn; assumption.
  Qed.

  Lemma loop_general_rel n : forall l l' w its its' m m', Forall2 wrel l l' -> Forall2 (Forall2 irel) its its' ->
    mrel m m' -> orel mrel (loop_general n l w its m) (loop_general n l' w its' m').
  Proof.
    induction n; intros l l' w its its' m m' Hl Hi Hm; cbn [loop_general]; [constructor; exact Hm|].
    eapply bind_rel.
    - unfold elem_general. destruct (m_ptr w); [|constructor].
      eapply bind_rel; [eapply mapM_rel; [exact Hi|]; intros; apply tup_deref_rel; eassumption|].
      intros ts ts' Hts. eapply forM_rel; [apply Forall2_combine; eassumption| |exact Hm].
      intros a b k k' [Ha Hb] Hk. apply run_general_rel; assumption.
    - intros. eapply bind_rel; [apply incs_rel; eassumption|]. intros. apply IHn; assumption.
  Qed.

  Lemma loop_self_rel n : forall l l' lhs w its its' m m', Forall2 wrel l l' -> Forall2 (Forall2 irel) its its' ->
    mrel m m' -> orel mrel (loop_self n l lhs w its m) (loop_self n l' lhs w its' m').
  Proof.
    induction n; intros l l' lhs w its its' m m' Hl Hi Hm; cbn [loop_self]; [constructor; exact Hm|].
    eapply bind_rel.
    - unfold elem_self. destruct (m_ptr w); [|constructor].
      eapply bind_rel; [eapply mapM_rel; [exact Hi|]; intros; apply tup_deref_rel; eassumption|].
      intros ts ts' Hts.
      eapply forM_rel; [apply Forall2_combine; [apply Forall2_combine; [eassumption|apply Forall2_refl]|eassumption]| |exact Hm].
      intros a b k k' [[Ha Hb] Hc] Hk. rewrite <- Hb. apply run_self_rel; assumption.
    - intros. eapply bind_rel; [apply incs_rel; eassumption|]. intros. apply IHn; assumption.
  Qed.

  Lemma with_window_rel st dom l l' m m' : Forall2 wrel l l' -> mrel m m' ->
    orel mrel (with_window st dom l m) (with_window st dom l' m').
  Proof.
    intros Hl Hm. unfold with_window. apply bind_same. intros sz. apply bind_same. intros w.
    assert (H1 : forallb rhs_number l = forallb rhs_number l').
    { clear Hm. induction Hl as [|a b l l' Ha Hl IH]; [reflexivity|]. cbn [forallb]. rewrite IH. f_equal.
      destruct Ha as [i r r' H|i j r r' H|x p p' H]; try destruct H; reflexivity. }
    assert (H2 : forallb self_assign l = forallb self_assign l').
    { clear Hm H1. induction Hl as [|a b l l' Ha Hl IH]; [reflexivity|]. cbn [forallb]. rewrite IH. f_equal.
      destruct Ha; reflexivity. }
    assert (Hits : orel (Forall2 (Forall2 irel)) (mapM (fun a => wa_iters a dom) l) (mapM (fun a => wa_iters a dom) l')).
    { eapply mapM_rel; [exact Hl|]. intros. apply wa_iters_rel. assumption. }
    cbv zeta. rewrite <- H1, <- H2. destruct (forallb rhs_number l); [apply loop_number_rel; assumption|].
    destruct (forallb self_assign l).
    - eapply (bind_rel eq).
      + apply orel_mono with (Forall2 eq).
        * eapply mapM_rel; [exact Hl|]. intros a b Hab. destruct Hab; cbn [lhs_iter]; try constructor.
          destruct (call_helper false x dom); constructor; reflexivity.
        * intros a b Hab. induction Hab; congruence.
      + intros lhs ? <-. eapply bind_rel; [exact Hits|]. intros. apply loop_self_rel; assumption.
    - eapply bind_rel; [exact Hits|]. intros. apply loop_general_rel; assumption.
  Qed.
End Rel.
