(** * [int] execution of window assignments agrees with the exact one *)

From Coq Require Import ZifyBool ZifyNat Permutation.
From Verif Require Import Base ModelBounds ModelMatrix ModelIters ModelSpan ModelProxy ModelInt ModelIntProxy
  Spec SpecWindow SpecInt LemBase LemMatrix LemFsi LemDomain LemExpr LemAssign LemWindow LemInt LemIntSpan
  LemIntExpr LemIntExec.
Import ListNotations.
Open Scope Z_scope.

Section Window.
  Context {S : Scalar}.
  Context (T : list (list Z)).
  Notation iter := (@iter S).
  Notation wassign := (@wassign S).

  Definition good (it : iter) : Prop := forall m, ints m = T -> it_deref32 it m = it_deref it m.
  Definition good_entry (en : @entry S) : Prop := match en with EVal _ => True | ERef it => good it end.

  Lemma tup_deref32_ok l (m : mem S) : ints m = T -> Forall good l ->
    tup_deref32 l m = tup_deref l m /\ forall t, tup_deref l m = Some t -> Forall good_entry t.
  Proof.
    intros Hm H. unfold tup_deref32, tup_deref. induction H as [|it l Hit Hl [IH1 IH2]]; cbn [mapM].
    - split; [reflexivity|]. intros t E. injection E as <-. constructor.
    - split.
      + unfold tup_entry32 at 1, tup_entry at 1. rewrite (Hit m Hm). apply bind_ext. intros en _. rewrite IH1. reflexivity.
      + intros t E. apply bind_Some_inv in E as (en & E1 & E). apply bind_Some_inv in E as (t' & E2 & E).
        injection E as <-. constructor; [|apply IH2; exact E2].
        unfold tup_entry in E1. destruct (is_ref it); [injection E1 as <-; exact Hit|].
        apply bind_Some_inv in E1 as (v & _ & E1). injection E1 as <-. exact I.
  Qed.

  Lemma tups_deref32_ok ls (m : mem S) : ints m = T -> Forall (Forall good) ls ->
    mapM (fun i => tup_deref32 i m) ls = mapM (fun i => tup_deref i m) ls /\
    forall ts, mapM (fun i => tup_deref i m) ls = Some ts -> Forall (Forall good_entry) ts.
  Proof.
    intros Hm H. induction H as [|l ls Hl Hls [IH1 IH2]]; cbn [mapM].
    - split; [reflexivity|]. intros t E. injection E as <-. constructor.
    - destruct (tup_deref32_ok l m Hm Hl) as [E1 G1]. split.
      + rewrite E1, IH1. reflexivity.
      + intros t E. apply bind_Some_inv in E as (t1 & E2 & E). apply bind_Some_inv in E as (t' & E3 & E).
        injection E as <-. constructor; auto.
  Qed.

  Lemma entry_val32_ok en (m : mem S) : ints m = T -> good_entry en -> entry_val32 en m = entry_val en m.
  Proof. intros Hm H. destruct en; [reflexivity|]. apply H. exact Hm. Qed.

  Lemma nth_good t n en : Forall good_entry t -> nth_error t n = Some en -> good_entry en.
  Proof. intros H E. rewrite Forall_forall in H. apply H. eapply nth_error_In; eauto. Qed.

  Lemma invoke32_ok p w t (m : mem S) : ints m = T -> Forall good_entry t -> invoke32 p w t m = invoke p w t m.
  Proof.
    intros Hm Ht. induction p as [x|e|i|o p IHp q IHq]; cbn [invoke invoke32]; try reflexivity.
    assert (forall n, (en <- nth_error t n ;; entry_val32 en m) = (en <- nth_error t n ;; entry_val en m)) as HN.
    { intros n. apply bind_ext. intros en E. apply entry_val32_ok; [exact Hm|]. eapply nth_good; eauto. }
    set (N := proxy_index (POp o p q)). clearbody N.
    assert (forall u : proxy, (is_proxy u = true -> invoke32 u w t m = invoke u w t m) ->
      match u with PNum x => Some (VNum x)
      | PVec _ => match N with O => None | Datatypes.S n => en <- nth_error t n ;; entry_val32 en m end
      | PSt _ | POp _ _ _ => invoke32 u w t m end =
      match u with PNum x => Some (VNum x)
      | PVec _ => match N with O => None | Datatypes.S n => en <- nth_error t n ;; entry_val en m end
      | PSt _ | POp _ _ _ => invoke u w t m end) as HA.
    { intros u Hu. destruct u; try (apply Hu; reflexivity); [reflexivity|]. destruct N; [reflexivity|]. apply HN. }
    rewrite (HA p (fun _ => IHp)). apply bind_ext. intros u _. rewrite (HA q (fun _ => IHq)). reflexivity.
  Qed.

  Lemma run_general32_ok a w t (m : mem S) : ints m = T -> Forall good_entry t ->
    run_general32 a w t m = run_general a w t m.
  Proof.
    intros Hm Ht. destruct a as [i r|i j r|x p]; [| |reflexivity].
    - destruct r; cbn [run_general run_general32]; try (rewrite (invoke32_ok _ w t m Hm Ht)); try reflexivity.
      apply bind_ext. intros en E. rewrite entry_val32_ok by (eauto using nth_good). reflexivity.
    - destruct r; cbn [run_general run_general32]; try reflexivity.
      apply bind_ext. intros en E. pose proof (nth_good _ _ _ Ht E) as He.
      rewrite entry_val32_ok by assumption. apply bind_ext. intros v _. destruct v; try reflexivity.
      apply bind_ext. intros m' Em. rewrite entry_val32_ok; [reflexivity| |exact He].
      rewrite (store_ints _ _ _ _ Em). exact Hm.
  Qed.

  Lemma run_self32_ok a l w t (m : mem S) : ints m = T -> Forall good_entry t ->
    mti_addr32 l = Some (mti_addr l) -> run_self32 a l w t m = run_self a l w t m.
  Proof.
    intros Hm Ht E. destruct a; try reflexivity. cbn [run_self run_self32].
    rewrite (invoke32_ok _ w t m Hm Ht). apply bind_ext. intros v _. rewrite E. reflexivity.
  Qed.

  Lemma elem_number32_ok l w (m : mem S) : mti_addr32 w = Some (mti_addr w) ->
    elem_number32 l w m = elem_number l w m.
  Proof. intros E. unfold elem_number32. rewrite E. reflexivity. Qed.

  Lemma elem_general32_ok l w its (m : mem S) : mti_addr32 w = Some (mti_addr w) -> ints m = T ->
    Forall (Forall good) its -> elem_general32 l w its m = elem_general l w its m.
  Proof.
    intros E Hm Hg. unfold elem_general32, elem_general. rewrite E. cbn [bind]. destruct (m_ptr w); [|reflexivity].
    destruct (tups_deref32_ok its m Hm Hg) as [E1 G]. rewrite E1. apply bind_ext. intros ts E2. specialize (G ts E2).
    apply (forM_eq_inv (fun m' => ints m' = T)); [exact Hm|]. intros [a t] m' Hin Hm'. cbn [fst snd]. split.
    - apply run_general32_ok; [exact Hm'|]. rewrite Forall_forall in G. apply G. eapply in_combine_r; eauto.
    - intros m'' E'. rewrite (run_general_ints _ _ _ _ _ E'). exact Hm'.
  Qed.

  Lemma elem_self32_ok l lhs w its (m : mem S) : mti_addr32 w = Some (mti_addr w) -> ints m = T ->
    Forall (fun x => mti_addr32 x = Some (mti_addr x)) lhs ->
    Forall (Forall good) its -> elem_self32 l lhs w its m = elem_self l lhs w its m.
  Proof.
    intros E Hm HL Hg. unfold elem_self32, elem_self. rewrite E. cbn [bind]. destruct (m_ptr w); [|reflexivity].
    destruct (tups_deref32_ok its m Hm Hg) as [E1 G]. rewrite E1. apply bind_ext. intros ts E2. specialize (G ts E2).
    apply (forM_eq_inv (fun m' => ints m' = T)); [exact Hm|]. intros [[a x] t] m' Hin Hm'. cbn [fst snd]. split.
    - apply run_self32_ok; [exact Hm'| |].
      + rewrite Forall_forall in G. apply G. eapply in_combine_r; eauto.
      + rewrite Forall_forall in HL. apply HL. apply in_combine_l in Hin. eapply in_combine_r; eauto.
    - intros m'' E'. rewrite (run_self_ints _ _ _ _ _ _ E'). exact Hm'.
  Qed.

  Lemma elem_number_ints l w (m m' : mem S) : elem_number l w m = Some m' -> ints m' = ints m.
  Proof.
    unfold elem_number. destruct (m_ptr w); [|discriminate]. intros E.
    revert m E; induction l as [|a l IH]; cbn [forM]; intros m E; [congruence|].
    apply bind_Some_inv in E as (m1 & E1 & E2). rewrite (IH _ E2).
    destruct a as [i r|i j r|x p]; destruct r || idtac; cbn [run_number] in E1; try discriminate.
    - apply (store_ints _ _ _ _ E1).
    - apply bind_Some_inv in E1 as (m2 & E1 & E3). rewrite (store_ints _ _ _ _ E3). apply (store_ints _ _ _ _ E1).
  Qed.

  Lemma elem_general_ints l w its (m m' : mem S) : elem_general l w its m = Some m' -> ints m' = ints m.
  Proof.
    unfold elem_general. destruct (m_ptr w); [|discriminate]. intros E. apply bind_Some_inv in E as (ts & _ & E).
    revert m E; induction (combine l ts) as [|a q IH]; cbn [forM]; intros m E; [congruence|].
    apply bind_Some_inv in E as (m1 & E1 & E2). rewrite (IH _ E2). eapply run_general_ints; eauto.
  Qed.

  Lemma elem_self_ints l lhs w its (m m' : mem S) : elem_self l lhs w its m = Some m' -> ints m' = ints m.
  Proof.
    unfold elem_self. destruct (m_ptr w); [|discriminate]. intros E. apply bind_Some_inv in E as (ts & _ & E).
    revert m E; induction (combine (combine l lhs) ts) as [|a q IH]; cbn [forM]; intros m E; [congruence|].
    apply bind_Some_inv in E as (m1 & E1 & E2). rewrite (IH _ E2). eapply run_self_ints; eauto.
  Qed.

  (** ** The iterators *)

  Lemma get_iterators32_ok (p : @proxy S) dom : Forall (fun e => eval32 e dom = eval e dom) (pvecs p) ->
    get_iterators32 p dom = get_iterators p dom.
  Proof.
    induction p as [x|e|i|o p IHp q IHq]; cbn [pvecs]; intros H; try reflexivity.
    apply Forall_app in H as [Hp Hq]. specialize (IHp Hp). specialize (IHq Hq).
    destruct p, q; cbn [pvecs] in *; 
      repeat match goal with H : Forall _ [_] |- _ => apply Forall_inv in H end;
      cbn [get_iterators get_iterators32] in *; rewrite ?IHp, ?IHq, ?Hp, ?Hq; reflexivity.
  Qed.

  Lemma rhs_iters32_ok (r : @proxy S) dom : Forall (fun e => eval32 e dom = eval e dom) (pvecs r) ->
    rhs_iters32 r dom = rhs_iters r dom.
  Proof.
    intros H. destruct r as [x|e|i|o p q]; cbn [rhs_iters rhs_iters32]; try reflexivity.
    - apply Forall_inv in H. rewrite H. reflexivity.
    - rewrite (get_iterators32_ok _ dom H). reflexivity.
  Qed.

  Lemma wa_iters32_ok (a : wassign) dom : Forall (fun e => eval32 e dom = eval e dom) (all_vecs a) ->
    wa_iters32 a dom = wa_iters a dom.
  Proof.
    intros H. destruct a as [i r|i j r|x p]; cbn [all_vecs wa_vecs wa_iters wa_iters32] in *.
    - apply rhs_iters32_ok; exact H.
    - rewrite rhs_iters32_ok by exact H. reflexivity.
    - rewrite rhs_iters32_ok; [reflexivity|]. unfold wsub_rhs, PNeg. cbn [pvecs app]. exact H.
  Qed.

  Definition its_delivers (dom : list dbnd) (a : wassign) (TF : Z -> list iter) : Prop :=
    wa_iters a dom = Some (TF 0) /\ wa_iters32 a dom = Some (TF 0) /\
    (forall p, 0 <= p < prodZ (counts dom) ->
       mapM it_inc (TF p) = Some (TF (p + 1)) /\ mapM it_inc32 (TF p) = Some (TF (p + 1))) /\
    (forall p, 0 <= p < prodZ (counts dom) -> Forall good (TF p)).

  Lemma vecs_int (es : list (@expr S)) dom : Forall (fun e => int_delivers T e dom) es ->
    exists TF : Z -> list iter,
      mapM (fun e => eval e dom) es = Some (TF 0) /\
      (forall p, 0 <= p < prodZ (counts dom) ->
         mapM it_inc (TF p) = Some (TF (p + 1)) /\ mapM it_inc32 (TF p) = Some (TF (p + 1))) /\
      (forall p, 0 <= p < prodZ (counts dom) -> Forall good (TF p)).
  Proof.
    induction 1 as [|e es (F & E1 & _ & H1 & _ & H3) Hes (TF & G1 & G2 & G3)].
    - exists (fun _ => []). cbn [mapM]. repeat split; auto.
    - exists (fun p => F p :: TF p). cbn [mapM]. rewrite E1, G1. split; [reflexivity|]. split.
      + intros p Hp. destruct (H1 p Hp) as [-> ->], (G2 p Hp) as [-> ->]. split; reflexivity.
      + intros p Hp. constructor; [intros m Hm; apply H3; assumption|apply G3; assumption].
  Qed.

  Lemma wa_int dom (a : wassign) : wf_dom dom -> Forall (fun x => 1 <= x) (counts dom) -> wa_ok dom a ->
    Forall (fun e => wf_expr e dom) (wa_vecs a) ->
    match a with WSub x _ => int_array x /\ inside dom x | _ => True end ->
    Forall (fun e => int_expr T e dom) (wa_vecs a) -> exists TF, its_delivers dom a TF.
  Proof.
    intros Hd Hc Hok Hv Hx Hi.
    assert (Forall (fun e => int_delivers T e dom) (all_vecs a)) as HD.
    { pose proof (all_vecs_wf dom a Hok Hv) as Hv'.
      assert (Forall (fun e => int_expr T e dom) (all_vecs a)) as Hi'.
      { destruct a as [i r|i j r|x p]; cbn [all_vecs wa_vecs] in *; [exact Hi|exact Hi|]. apply Forall_app. split; [exact Hi|]. constructor; [exact Hx|constructor]. }
      rewrite Forall_forall in Hv', Hi'. apply Forall_forall. intros e He. apply expr_int; auto. }
    assert (wa_iters32 a dom = wa_iters a dom) as E32.
    { apply wa_iters32_ok. eapply Forall_impl; [|exact HD]. intros e (F & E1 & E2 & _). congruence. }
    pose proof (wa_iters_vecs dom a Hok) as E.
    destruct (vecs_int (all_vecs a) dom HD) as (TF & G1 & G2 & G3).
    destruct (all_vecs a) as [|e es] eqn:EV.
    - exists (fun _ => [IConst (lit 0)]). split; [exact E|]. split; [congruence|]. split.
      + intros p Hp. split; reflexivity.
      + intros p Hp. constructor; [|constructor]. intros m Hm. reflexivity.
    - exists TF. rewrite G1 in E. split; [exact E|]. split; [congruence|]. split; assumption.
  Qed.

  Lemma was_int dom (l : list wassign) : wf_dom dom -> Forall (fun x => 1 <= x) (counts dom) -> Forall (wa_ok dom) l ->
    Forall (fun a => Forall (fun e => wf_expr e dom) (wa_vecs a)) l ->
    Forall (fun a => match a with WSub x _ => int_array x /\ inside dom x | _ => True end /\
                     Forall (fun e => int_expr T e dom) (wa_vecs a)) l ->
    exists TFs, mapM (fun a => wa_iters a dom) l = Some (at_pos 0 TFs) /\
      mapM (fun a => wa_iters32 a dom) l = Some (at_pos 0 TFs) /\
      (forall p, 0 <= p < prodZ (counts dom) ->
        incs (at_pos p TFs) = Some (at_pos (p + 1) TFs) /\ incs32 (at_pos p TFs) = Some (at_pos (p + 1) TFs)) /\
      (forall p, 0 <= p < prodZ (counts dom) -> Forall (Forall good) (at_pos p TFs)).
  Proof.
    intros Hd Hc. induction l as [|a l IH]; intros Hok Hv Hi.
    - exists []. cbn. repeat split; auto.
    - apply Forall_cons_iff in Hok as [O1 O2]. apply Forall_cons_iff in Hv as [V1 V2].
      apply Forall_cons_iff in Hi as [[I1 I2] I3].
      destruct (wa_int dom a Hd Hc O1 V1 I1 I2) as (TF & E1 & E2 & E3 & E4).
      destruct (IH O2 V2 I3) as (TFs & G1 & G2 & G3 & G4). exists (TF :: TFs).
      change (at_pos ?p (TF :: TFs)) with (TF p :: at_pos p TFs). cbn [mapM].
      rewrite E1, E2, G1, G2. split; [reflexivity|]. split; [reflexivity|]. split.
      + intros p Hp. unfold incs, incs32 in *. cbn [mapM]. destruct (E3 p Hp) as [-> ->], (G3 p Hp) as [-> ->].
        split; reflexivity.
      + intros p Hp. constructor; [apply E4; exact Hp|apply G4; exact Hp].
  Qed.

  Lemma lhss_int dom (l : list wassign) : wf_dom dom -> Forall (wa_ok dom) l -> Forall (fun a => self_assign a = true) l ->
    Forall (fun a => match a with WSub x _ => int_array x /\ inside dom x | _ => True end) l ->
    exists Ls, mapM (lhs_iter dom) l = Some (at_pos 0 Ls) /\ mapM (lhs_iter32 dom) l = Some (at_pos 0 Ls) /\
      (forall p, 0 <= p < prodZ (counts dom) ->
        map mti_inc (at_pos p Ls) = at_pos (p + 1) Ls /\ mapM mti_inc32 (at_pos p Ls) = Some (at_pos (p + 1) Ls)) /\
      (forall p, 0 <= p < prodZ (counts dom) -> Forall (fun x => mti_addr32 x = Some (mti_addr x)) (at_pos p Ls)).
  Proof.
    intros Hd. induction l as [|a l IH]; intros Hok Hs Hi.
    - exists []. cbn. repeat split; auto.
    - apply Forall_cons_iff in Hok as [O1 O2]. apply Forall_cons_iff in Hs as [S1 S2].
      apply Forall_cons_iff in Hi as [I1 I2]. destruct a as [i r|i j r|x p]; try discriminate.
      destruct O1 as (_ & _ & _ & Hx & HP). destruct I1 as [I1 I3].
      destruct (array_int x (sp_b x) [] dom Hx ltac:(rewrite app_nil_r; reflexivity) Hd HP I1 I3)
        as (D & E1 & E2 & E3 & _ & E4 & _).
      destruct (IH O2 S2 I2) as (Ls & G1 & G2 & G3 & G4). exists (D :: Ls).
      change (at_pos ?p (D :: Ls)) with (D p :: at_pos p Ls). cbn [mapM lhs_iter lhs_iter32].
      rewrite E1, E2, G1, G2. split; [reflexivity|]. split; [reflexivity|]. split.
      + intros q Hq. cbn [map mapM]. destruct (E3 q Hq) as [-> ->], (G3 q Hq) as [-> ->]. split; reflexivity.
      + intros q Hq. constructor; [apply E4; exact Hq|apply G4; exact Hq].
  Qed.

  Lemma bounds_sz32_ok s hd tl dom : wf_span s -> sp_b s = hd ++ tl -> wf_dom dom ->
    Permutation (map fst dom) (map fst hd) -> int_array s -> inside dom s ->
    bounds_sz32 dom = bounds_sz dom.
  Proof.
    intros Hw Es Hd HP Hi Hin.
    destruct (counts_int s hd tl dom Hw Es Hd HP Hi Hin) as [Hc HM].
    pose proof (array_cells s Hi) as [_ HC].
    assert (forall b, In b dom -> b_size32 (snd b) = Some (extent (snd b) / stride (snd b)) /\
                                  0 <= extent (snd b) / stride (snd b) <= count (snd b)) as HB.
    { intros [d b] Hb. cbn [snd].
      destruct (dom_in s dom Hd Hi Hin d b Hb) as (b' & Hb' & H2 & H3 & H4 & H5 & H6 & H7).
      pose proof (floor_count b H4 ltac:(lia)) as [H8 _]. split; [|exact H8].
      unfold b_size32, idiv, cdiv, extent, int_range, b_ub, b_lb in *. rewrite isub_ok by ilia. cbn [bind].
      destruct (Z.eqb_spec (stride b) 0); [lia|]. rewrite Z.quot_div_nonneg by lia. cbn [bind].
      replace (last b - first b) with (last b - 1 - first b + 1) by lia. apply ck_ok.
      assert ((last b - 1 - first b + 1) / stride b <= last b - 1 - first b + 1) by (apply Z.div_le_upper_bound; nia).
      ilia. }
    assert (bounds_sz dom = Some (prodZ (floors dom))) as E by (apply window_size_ok; exact Hd). rewrite E.
    assert (prodZ (counts dom) <= int_max) as HM' by lia.
    clear -HB Hc HM' Hd. destruct Hd as (Hne & _ & _). induction dom as [|b dom IH]; [congruence|]. clear Hne.
    destruct (HB b (or_introl eq_refl)) as [E1 R1]. cbn [bounds_sz32]. inversion Hc; subst.
    destruct dom as [|b' dom].
    - rewrite E1. unfold prodZ; cbn. f_equal. lia.
    - change (prodZ (counts (b :: b' :: dom))) with (count (snd b) * prodZ (counts (b' :: dom))) in HM'.
      pose proof (prodZ_pos _ H2) as HP. change (map (fun b : dbnd => count (snd b)) (b' :: dom)) with (counts (b' :: dom)) in HP.
      assert (prodZ (counts (b' :: dom)) <= int_max) as H3 by nia.
      rewrite IH; [|discriminate|exact H2|intros c H4; apply HB; right; exact H4|exact H3].
      rewrite E1. cbn [bind].
      assert (0 <= prodZ (floors (b' :: dom)) <= prodZ (counts (b' :: dom))) as H4.
      { clear -HB. assert (forall c, In c (b' :: dom) -> 0 <= extent (snd c) / stride (snd c) <= count (snd c)) as H.
        { intros c Hc. apply HB. right. exact Hc. }
        clear HB. generalize dependent (b' :: dom). intros l H. induction l as [|c l IH]; [unfold prodZ; cbn; lia|].
        pose proof (H c (or_introl eq_refl)) as H1. specialize (IH ltac:(intros; apply H; right; assumption)).
        change (prodZ (floors (c :: l))) with (extent (snd c) / stride (snd c) * prodZ (floors l)).
        change (prodZ (counts (c :: l))) with (count (snd c) * prodZ (counts l)). nia. }
      change (prodZ (floors (b :: b' :: dom))) with (extent (snd b) / stride (snd b) * prodZ (floors (b' :: dom))).
      apply imul_ok.
      assert (0 <= extent (snd b) / stride (snd b) * prodZ (floors (b' :: dom)) <= count (snd b) * prodZ (counts (b' :: dom))) by nia.
      ilia.
  Qed.

  Lemma window_int st dom l (m : mem S) : ints m = T -> window_ok st dom l -> int_window T st dom l ->
    with_window32 st dom l m = with_window st dom l m.
  Proof.
    intros Hm (Hd & Hs & (hd & w & wb & Es & HP) & Hok & Hv & _) (Hi & Hin & Hl).
    destruct (counts_int st hd [(w, wb)] dom Hs Es Hd HP Hi Hin) as [Hc HM].
    destruct (array_int st hd [(w, wb)] dom Hs Es Hd HP Hi Hin) as (W & E1 & E2 & WI & _ & WA & _ & _).
    unfold with_window32, with_window, window_size.
    rewrite (bounds_sz32_ok st hd [(w, wb)] dom Hs Es Hd HP Hi Hin).
    assert (bounds_sz dom = Some (prodZ (floors dom))) as E by (apply window_size_ok; exact Hd). rewrite E.
    rewrite E1, E2. cbn [bind]. pose proof (floors_le dom Hd) as Hfl.
    assert (Z.of_nat (Z.to_nat (prodZ (floors dom))) <= prodZ (counts dom)) as HN by lia.
    set (n := Z.to_nat (prodZ (floors dom))) in *. clearbody n.
    destruct (was_int dom l Hd Hc Hok Hv Hl) as (TFs & F1 & F2 & F3 & F4).
    destruct (forallb rhs_number l); [|destruct (forallb self_assign l) eqn:EF].
    - assert (forall k p (m : mem S), 0 <= p -> p + Z.of_nat k <= prodZ (counts dom) ->
        loop_number32 k l (W p) m = loop_number k l (W p) m) as HL; [|apply HL; lia].
      induction k as [|k IH]; intros p m0 H0 H1; cbn [loop_number loop_number32]; [reflexivity|].
      rewrite elem_number32_ok by (apply WA; lia). apply bind_ext. intros m' _.
      destruct (WI p ltac:(lia)) as [-> ->]. cbn [bind]. apply IH; lia.
    - destruct (lhss_int dom l Hd Hok ltac:(apply forallb_Forall; exact EF)
        ltac:(eapply Forall_impl; [|exact Hl]; intros a Ha; apply Ha)) as (Ls & L1 & L2 & L3 & L4).
      rewrite L1, L2, F1, F2. cbn [bind].
      assert (forall k p (m : mem S), ints m = T -> 0 <= p -> p + Z.of_nat k <= prodZ (counts dom) ->
        loop_self32 k l (at_pos p Ls) (W p) (at_pos p TFs) m = loop_self k l (at_pos p Ls) (W p) (at_pos p TFs) m)
        as HL; [|apply HL; auto; lia].
      induction k as [|k IH]; intros p m0 Hm0 H0 H1; cbn [loop_self loop_self32]; [reflexivity|].
      rewrite elem_self32_ok by (try apply WA; try apply L4; try apply F4; auto; lia).
      apply bind_ext. intros m' Em. destruct (F3 p ltac:(lia)) as [-> ->], (L3 p ltac:(lia)) as [-> ->], (WI p ltac:(lia)) as [-> ->].
      cbn [bind]. apply IH; try lia. rewrite (elem_self_ints _ _ _ _ _ _ Em). exact Hm0.
    - rewrite F1, F2. cbn [bind].
      assert (forall k p (m : mem S), ints m = T -> 0 <= p -> p + Z.of_nat k <= prodZ (counts dom) ->
        loop_general32 k l (W p) (at_pos p TFs) m = loop_general k l (W p) (at_pos p TFs) m)
        as HL; [|apply HL; auto; lia].
      induction k as [|k IH]; intros p m0 Hm0 H0 H1; cbn [loop_general loop_general32]; [reflexivity|].
      rewrite elem_general32_ok by (try apply WA; try apply F4; auto; lia).
      apply bind_ext. intros m' Em. destruct (F3 p ltac:(lia)) as [-> ->], (WI p ltac:(lia)) as [-> ->].
      cbn [bind]. apply IH; try lia. rewrite (elem_general_ints _ _ _ _ _ Em). exact Hm0.
  Qed.
End Window.
