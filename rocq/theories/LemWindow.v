(** * Window assignments equal loops over the points *)

From Coq Require Import ZifyBool ZifyNat Permutation.
From Verif Require Import Base ModelBounds ModelMatrix ModelIters ModelSpan ModelProxy Spec SpecIter ModelSched
  SpecAssign SpecWindow LemBase LemMatrix LemFsi LemDomain LemExpr LemExec LemSched LemAssign LemProps LemProps2
  ModelVector LemVector LemProps4.
Import ListNotations.
Open Scope Z_scope.

Lemma Forall2_app_split {A B} (R : A -> B -> Prop) l1 l2 r :
  Forall2 R (l1 ++ l2) r -> exists r1 r2, r = r1 ++ r2 /\ Forall2 R l1 r1 /\ Forall2 R l2 r2.
Proof. intros H. apply Forall2_app_inv_l in H as (r1 & r2 & H1 & H2 & ->). eauto. Qed.

Lemma Forall2_len {A B} (R : A -> B -> Prop) l r : Forall2 R l r -> length l = length r.
Proof. induction 1; simpl; congruence. Qed.

Section Window.
  Context {S : Scalar}.
  Notation iter := (@iter S).
  Notation expr := (@expr S).
  Notation proxy := (@proxy S).
  Notation wassign := (@wassign S).

  (** ** Proxies *)

  Definition inv_arg (N : nat) (u : proxy) (w : ptr) (t : list entry) (m : mem S) : option val :=
    match u with
    | PNum x => Some (VNum x)
    | PVec _ => match N with O => None | Datatypes.S n => en <- nth_error t n ;; entry_val en m end
    | PSt _ | POp _ _ _ => invoke u w t m
    end.

  Lemma invoke_op o p q w t (m : mem S) :
    invoke (POp o p q) w t m =
    (u <- inv_arg (proxy_index (POp o p q)) p w t m ;;
     v <- inv_arg (proxy_index (POp o p q)) q w t m ;; app_op o u v).
  Proof. destruct p, q; reflexivity. Qed.

  Lemma supported_index (p : proxy) : compiles p = true -> supported_proxy p -> is_proxy p = true ->
    proxy_index p = length (pvecs p).
  Proof.
    induction p as [t|e|i|o p IHp q IHq]; intros Hc Hs Hp; try reflexivity; try discriminate.
    cbn [compiles] in Hc. apply andb_prop in Hc as [Hc Ho]. apply andb_prop in Hc as [Hc Hcq].
    apply andb_prop in Hc as [Hpq Hcp]. cbn [supported_proxy] in Hs. destruct Hs as (Hsp & Hsq & Hs).
    specialize (IHp Hcp Hsp). specialize (IHq Hcq Hsq).
    destruct p as [t|e|i|o' p1 p2].
    - cbn [is_proxy orb] in Hpq. specialize (IHq Hpq). cbn [proxy_index pvecs app]. exact IHq.
    - cbn [is_proxy orb] in Hpq. specialize (IHq Hpq). cbn [proxy_index pvecs app length]. rewrite Hs in *.
      rewrite IHq. reflexivity.
    - destruct q as [t|e|j|o2 q1 q2]; try reflexivity.
      specialize (IHq eq_refl). change (proxy_index (POp o (PSt i) (POp o2 q1 q2)))
        with (Nat.max 0 (proxy_index (POp o2 q1 q2))). rewrite IHq. reflexivity.
    - specialize (IHp eq_refl). set (p := POp o' p1 p2) in *.
      destruct q as [t|e|j|o2 q1 q2].
      + change (proxy_index (POp o p (PNum t))) with (proxy_index p). cbn [pvecs]. fold (pvecs p).
        rewrite IHp, app_nil_r. reflexivity.
      + change (proxy_index (POp o p (PVec e))) with (Datatypes.S (proxy_index p)).
        change (pvecs (POp o p (PVec e))) with (pvecs p ++ [e]). rewrite app_length, IHp. simpl. lia.
      + change (proxy_index (POp o p (PSt j))) with (Nat.max (proxy_index p) 0).
        change (pvecs (POp o p (PSt j))) with (pvecs p ++ []). rewrite app_nil_r, IHp. lia.
      + specialize (IHq eq_refl). set (q := POp o2 q1 q2) in *.
        change (proxy_index (POp o p q)) with (Nat.max (proxy_index p) (proxy_index q)).
        change (pvecs (POp o p q)) with (pvecs p ++ pvecs q). rewrite app_length, IHp, IHq.
        destruct Hs as [-> | ->]; simpl; lia.
  Qed.

  Lemma get_iterators_vecs (p : proxy) dom : compiles p = true -> is_proxy p = true ->
    get_iterators p dom = mapM (fun e => eval e dom) (pvecs p).
  Proof.
    assert (forall (l1 l2 : list expr), mapM (fun e => eval e dom) (l1 ++ l2) =
              (a <- mapM (fun e => eval e dom) l1 ;; b <- mapM (fun e => eval e dom) l2 ;; Some (a ++ b))) as HA.
    { induction l1 as [|e l1 IH]; intros l2; cbn [mapM app bind].
      - destruct (mapM _ l2); reflexivity.
      - destruct (eval e dom); [|reflexivity]. cbn [bind]. rewrite IH, bind_assoc.
        destruct (mapM _ l1); [|reflexivity]. cbn [bind]. rewrite bind_assoc.
        destruct (mapM _ l2); reflexivity. }
    induction p as [t|e|i|o p IHp q IHq]; intros Hc Hp; try reflexivity; try discriminate.
    cbn [compiles] in Hc. apply andb_prop in Hc as [Hc Ho]. apply andb_prop in Hc as [Hc Hcq].
    apply andb_prop in Hc as [Hpq Hcp].
    specialize (IHp Hcp). specialize (IHq Hcq).
    change (pvecs (POp o p q)) with (pvecs p ++ pvecs q). rewrite HA.
    assert (get_iterators (POp o p q) dom =
      match is_proxy p, is_proxy q with
      | true, true => l <- get_iterators p dom ;; r <- get_iterators q dom ;; Some (l ++ r)
      | true, false => match q with PVec e => l <- get_iterators p dom ;; i <- eval e dom ;; Some (l ++ [i])
                       | _ => get_iterators p dom end
      | false, true => match p with PVec e => i <- eval e dom ;; r <- get_iterators q dom ;; Some (i :: r)
                       | _ => get_iterators q dom end
      | false, false => get_iterators (POp o p q) dom
      end) as ->.
    { destruct p, q; reflexivity. }
    destruct (is_proxy p) eqn:Ep, (is_proxy q) eqn:Eq.
    - rewrite IHp, IHq by reflexivity. reflexivity.
    - rewrite IHp by reflexivity. destruct q; try discriminate; cbn [pvecs mapM bind].
      + destruct (mapM _ (pvecs p)); cbn [bind]; [rewrite app_nil_r|]; reflexivity.
      + destruct (mapM _ (pvecs p)); cbn [bind]; [|reflexivity]. destruct (eval _ _); reflexivity.
    - rewrite IHq by reflexivity. destruct p; try discriminate; cbn [pvecs mapM bind].
      + destruct (mapM _ (pvecs q)); reflexivity.
      + destruct (eval _ _); [|reflexivity]. cbn [bind]. destruct (mapM _ (pvecs q)); reflexivity.
    - discriminate.
  Qed.

  (** ** One element *)
  Section Element.
    Context (st : span) (pt : point) (w : ptr).
    Context (Hw : forall i, padd w i = entry_at st pt i).

    (** The tuple entry represents the vector in memory [m]. *)
    Definition en_rep (m : mem S) (e : expr) (en : entry) : Prop :=
      if deferred e
      then exists it, en = ERef it /\ (forall m, it_deref it m = denote e pt m) /\
                      forall I, it_reads it I = reads e pt I
      else exists v, en = EVal v /\ denote e pt m = Some v.

    Lemma en_rep_val m e en : en_rep m e en -> entry_val en m = denote e pt m.
    Proof.
      unfold en_rep. destruct (deferred e).
      - intros (it & -> & H & _). apply H.
      - intros (v & -> & H). symmetry. exact H.
    Qed.

    Lemma invoke_value (m : mem S) p t1 rest :
      compiles p = true -> supported_proxy p -> is_proxy p = true ->
      Forall2 (en_rep m) (pvecs p) t1 -> invoke p w (t1 ++ rest) m = pvalue st p pt m.
    Proof.
      revert t1 rest. induction p as [t|e|i|o p IHp q IHq]; intros t1 rest Hc Hs Hp HF;
        try discriminate.
      - cbn [invoke pvalue]. rewrite Hw. reflexivity.
      - pose proof (supported_index _ Hc Hs Hp) as HN.
        cbn [compiles] in Hc. apply andb_prop in Hc as [Hc Ho]. apply andb_prop in Hc as [Hc Hcq].
        apply andb_prop in Hc as [Hpq Hcp]. cbn [supported_proxy] in Hs. destruct Hs as (Hsp & Hsq & Hs).
        rewrite invoke_op, HN. cbn [pvalue].
        change (pvecs (POp o p q)) with (pvecs p ++ pvecs q) in *.
        apply Forall2_app_split in HF as (tp & tq & -> & Fp & Fq).
        assert (inv_arg (length (pvecs p ++ pvecs q)) p w ((tp ++ tq) ++ rest) m = pvalue st p pt m /\
                inv_arg (length (pvecs p ++ pvecs q)) q w ((tp ++ tq) ++ rest) m = pvalue st q pt m) as [-> ->];
          [|reflexivity].
        split.
        + destruct p as [t|e|i|o' p1 p2].
          * reflexivity.
          * cbn [inv_arg pvecs app length pvalue]. rewrite Hs in *. inversion Fq; subst.
            cbn [pvecs] in Fp. inversion Fp as [|? en ? ? He Hn]; subst. inversion Hn; subst.
            cbn [length app nth_error bind]. apply en_rep_val. exact He.
          * rewrite <- app_assoc. cbn [inv_arg]. apply IHp; auto.
          * rewrite <- app_assoc. cbn [inv_arg]. apply IHp; auto.
        + destruct q as [t|e|i|o' q1 q2].
          * reflexivity.
          * cbn [pvecs] in *. inversion Fq as [|? en ? ? He Hn]; subst. inversion Hn; subst.
            cbn [inv_arg pvalue]. rewrite app_length. cbn [length]. rewrite Nat.add_1_r.
            rewrite (Forall2_len _ _ _ Fp), <- app_assoc, nth_error_app2 by lia.
            rewrite Nat.sub_diag. cbn [app nth_error bind]. apply en_rep_val. exact He.
          * cbn [inv_arg]. inversion Fq; subst. apply (IHq [] ((tp ++ []) ++ rest)); auto.
          * cbn [inv_arg].
            assert (pvecs p = [] \/ pvecs (POp o' q1 q2) = []) as [E|E].
            { destruct p; auto. }
            -- rewrite E in Fp. inversion Fp; subst. cbn [app]. apply IHq; auto.
            -- rewrite E in Fq. inversion Fq; subst. apply (IHq [] ((tp ++ []) ++ rest)); auto.
               rewrite E. constructor.
    Qed.

    (** Vectors of an assignment, including the left-hand side of [-=]. *)
    Definition all_vecs (a : wassign) : list expr :=
      match a with WSub x p => pvecs p ++ [ESpan x] | _ => wa_vecs a end.

    (** What an assignment changes. *)
    Lemma wassign_at_frame (a : wassign) (m m' : mem S) :
      wassign_at st a pt m = Some m' ->
      shape m' = shape m /\ ints m' = ints m /\
      forall p, ~ In p (wwrites st pt a) -> load m' p = load m p.
    Proof.
      assert (forall (m m' : mem S) p x, store m p x = Some m' ->
        shape m' = shape m /\ ints m' = ints m /\ forall q, q <> p -> load m' q = load m q) as HS.
      { intros n n' p x E. split; [apply (store_shape _ _ _ _ E)|]. split; [apply (store_ints _ _ _ _ E)|].
        intros q Hq. rewrite (load_store _ _ _ _ _ E). destruct (ptr_dec p q); congruence. }
      destruct a as [i r|i j r|x p]; cbn [wassign_at wwrites]; intros E;
        try apply bind_Some_inv in E as (v & _ & E).
      - destruct v as [x|? ?|?]; try discriminate. destruct (HS _ _ _ _ E) as (H1 & H2 & H3).
        split; [exact H1|]. split; [exact H2|]. intros p Hp. apply H3. intros ->. apply Hp. left; reflexivity.
      - assert (exists x y m1, store m (entry_at st pt i) x = Some m1 /\ store m1 (entry_at st pt j) y = Some m')
          as (x & y & m1 & E1 & E2).
        { destruct r; apply bind_Some_inv in E as (v & E1 & E); eauto; destruct v as [x|x y|?]; try discriminate;
            apply bind_Some_inv in E as (m1 & E2 & E3); eauto. }
          destruct (HS _ _ _ _ E1) as (H1 & H2 & H3); destruct (HS _ _ _ _ E2) as (H4 & H5 & H6);
          (split; [congruence|]); (split; [congruence|]); intros p Hp; rewrite H6, H3; auto;
          intros ->; apply Hp; simpl; auto.
      - apply bind_Some_inv in E as (x0 & _ & E). destruct v as [y|? ?|?]; try discriminate.
        destruct (HS _ _ _ _ E) as (H1 & H2 & H3).
        split; [exact H1|]. split; [exact H2|]. intros q Hq. apply H3. intros ->. apply Hq. left; reflexivity.
    Qed.

    Lemma entry_at_block pt' i : fst (entry_at st pt' i) = fst (sp_ptr st).
    Proof. unfold entry_at. destruct (rev (sp_b st)) as [|[w' wb] l]; reflexivity. Qed.

    Lemma wwrites_block (a : wassign) p : In p (wwrites st pt a) -> fst p = wa_block st a.
    Proof.
      destruct a as [i r|i j r|x q]; cbn [wwrites wa_block].
      - intros [<-|[]]. apply entry_at_block.
      - intros [<-|[<-|[]]]; apply entry_at_block.
      - intros [<-|[]]. reflexivity.
    Qed.

    (** An assignment does not change a vector that avoids its allocation. *)
    Lemma wassign_at_keeps (b : wassign) (m m' : mem S) e :
      wassign_at st b pt m = Some m' -> avoids (wa_block st b) e -> denote e pt m' = denote e pt m.
    Proof.
      intros E HA. destruct (wassign_at_frame b m m' E) as (_ & HI & HL).
      apply reads_sound; [exact HI|]. intros p Hp. apply HL. intros Hin.
      apply (avoids_reads _ _ _ _ _ HA Hp). apply wwrites_block. exact Hin.
    Qed.

    Lemma en_rep_keeps b (m m' : mem S) e en :
      wassign_at st b pt m = Some m' -> deferred e = true \/ avoids (wa_block st b) e ->
      en_rep m e en -> en_rep m' e en.
    Proof.
      intros E Hd. unfold en_rep. destruct (deferred e); [auto|].
      intros (v & -> & Hv). exists v. split; [reflexivity|].
      rewrite (wassign_at_keeps b m m' e E) by (destruct Hd; [discriminate|assumption]). exact Hv.
    Qed.

    (** Strictness: an assignment fails when one of its vectors has no value. *)
    Lemma pvalue_strict (p : proxy) (m : mem S) e : In e (pvecs p) -> denote e pt m = None -> pvalue st p pt m = None.
    Proof.
      induction p as [t|e'|i|o p IHp q IHq]; cbn [pvecs pvalue].
      - intros [].
      - intros [->|[]] H. exact H.
      - intros [].
      - intros Hin HN. apply in_app_or in Hin as [Hin|Hin].
        + rewrite IHp by assumption. reflexivity.
        + rewrite IHq by assumption. destruct (pvalue st p pt m); reflexivity.
    Qed.

    Lemma wassign_strict (a : wassign) (m : mem S) e : In e (wa_vecs a) -> denote e pt m = None -> wassign_at st a pt m = None.
    Proof.
      destruct a as [i r|i j r|x p]; cbn [wa_vecs wassign_at]; intros Hin HN;
        rewrite (pvalue_strict _ m e Hin HN); [reflexivity| |reflexivity].
      destruct r; [destruct Hin|reflexivity..].
    Qed.

    Lemma point_spec_strict (l : list wassign) (m : mem S) a e :
      ForallOrdPairs (fetched_ok st) l -> In a l -> In e (wa_vecs a) -> deferred e = false ->
      denote e pt m = None -> point_spec st l pt m = None.
    Proof.
      unfold point_spec. revert m; induction l as [|b l IH]; intros m HO Ha He Hd HN; [destruct Ha|].
      inversion HO as [|? ? Hb Hl]; subst. cbn [forM]. destruct Ha as [->|Ha].
      - rewrite (wassign_strict a m e He HN). reflexivity.
      - destruct (wassign_at st b pt m) as [m'|] eqn:E; [|reflexivity]. cbn [bind]. apply IH; auto.
        rewrite Forall_forall in Hb. specialize (Hb a Ha). unfold fetched_ok in Hb. rewrite Forall_forall in Hb.
        destruct (Hb e He) as [H|H]; [congruence|].
        rewrite (wassign_at_keeps b m m' e E H). exact HN.
    Qed.

    (** The tuple of the assignment, possibly followed by unused entries. *)
    Definition tup_rep (m : mem S) (a : wassign) (t : list entry) : Prop :=
      exists t1 rest, t = t1 ++ rest /\ Forall2 (en_rep m) (all_vecs a) t1.

    Lemma tup_rep_keeps b a (m m' : mem S) t :
      wassign_at st b pt m = Some m' -> fetched_ok st b a -> tup_rep m a t -> tup_rep m' a t.
    Proof.
      intros E Hf (t1 & rest & -> & HF). exists t1, rest. split; [reflexivity|].
      assert (forall e, In e (all_vecs a) -> deferred e = true \/ avoids (wa_block st b) e) as HV.
      { unfold fetched_ok in Hf. rewrite Forall_forall in Hf. intros e He.
        destruct a as [i r|i j r|x p]; cbn [all_vecs wa_vecs] in *; auto.
        apply in_app_or in He as [He|[<-|[]]]; [auto|left; reflexivity]. }
      revert HV HF. generalize (all_vecs a) as es. intros es HV HF. induction HF as [|e en es ens He HF IH]; constructor.
      - eapply en_rep_keeps; [exact E| |exact He]. apply HV. left; reflexivity.
      - apply IH. intros e' He'. apply HV. right; exact He'.
    Qed.

    Definition pair_ok (a : wassign) : Prop :=
      match a with
      | WSet2 _ _ (PVec e) => deferred e = false \/ avoids (fst (sp_ptr st)) e
      | _ => True
      end.

    Lemma run_general_at dom a (m : mem S) t :
      wa_ok dom a -> self_assign a = false -> match a with WSet2 _ _ (PNum _) => False | _ => True end ->
      pair_ok a -> tup_rep m a t -> run_general a w t m = wassign_at st a pt m.
    Proof.
      intros Hok Hs Hn Hpr (t1 & rest & -> & HF).
      destruct a as [i r|i j r|x p]; [| |discriminate]; cbn [all_vecs wa_vecs] in HF.
      - cbn [wa_ok] in Hok. destruct r as [x|e|k|o p q]; cbn [run_general wassign_at].
        + cbn [pvalue bind]. rewrite Hw. reflexivity.
        + cbn [pvecs] in HF. inversion HF as [|? en ? ? He Hn']; subst. inversion Hn'; subst.
          cbn [app nth_error bind pvalue]. rewrite (en_rep_val m e en He). apply bind_ext. intros v _.
          unfold put. rewrite Hw. reflexivity.
        + destruct Hok.
        + destruct Hok as [Hc Hsp]. rewrite (invoke_value m _ t1 rest Hc Hsp eq_refl HF).
          apply bind_ext. intros v _. unfold put. rewrite Hw. reflexivity.
      - destruct r as [x|e|k|o p q]; try contradiction. cbn [run_general wassign_at].
        cbn [pvecs] in HF. inversion HF as [|? en ? ? He Hn']; subst. inversion Hn'; subst.
        cbn [app nth_error bind pvalue]. rewrite (en_rep_val m e en He). apply bind_ext. intros v Hv.
        destruct v as [x|x y|pp].
        + reflexivity.
        + rewrite !Hw. apply bind_ext. intros m' Em.
          assert (entry_val en m' = Some (VSt x y)) as ->; [|reflexivity].
          unfold en_rep in He. cbn [pair_ok] in Hpr. destruct (deferred e).
          * destruct He as (it & -> & Hd & _). cbn [entry_val]. rewrite Hd. rewrite <- Hv.
            destruct Hpr as [H|H]; [discriminate|].
            apply reads_sound; [apply (store_ints _ _ _ _ Em)|]. intros q Hq.
            rewrite (load_store _ _ _ _ _ Em). destruct (ptr_dec _ q) as [<-|]; [|reflexivity].
            exfalso. apply (avoids_reads _ _ _ _ _ H Hq). apply entry_at_block.
          * destruct He as (v & -> & Hd). cbn [entry_val]. congruence.
        + reflexivity.
    Qed.

    Lemma run_self_at dom a (m : mem S) t (lh : mti) :
      wa_ok dom a -> self_assign a = true -> m_ptr lh = false ->
      (forall x p, a = WSub x p -> mti_addr lh = addr x pt) ->
      tup_rep m a t -> run_self a lh w t m = wassign_at st a pt m.
    Proof.
      intros Hok Hs Hp Hl (t1 & rest & -> & HF).
      destruct a as [i r|i j r|x p]; try discriminate. destruct Hok as (Hpr & Hc & Hsp & _).
      cbn [run_self wassign_at all_vecs] in *.
      rewrite (invoke_value m (wsub_rhs x p) t1 rest).
      - unfold wsub_rhs, PNeg. cbn [pvalue bind denote]. rewrite Hp, (Hl x p eq_refl).
        destruct (pvalue st p pt m) as [v|]; [|reflexivity]. cbn [bind].
        destruct (load m (addr x pt)) as [x0|]; cbn [bind]; destruct v; try reflexivity;
          destruct (app_op _ _ _); reflexivity.
      - unfold wsub_rhs, PNeg. cbn [compiles is_proxy]. rewrite Hpr, Hc. reflexivity.
      - unfold wsub_rhs, PNeg. cbn [supported_proxy pvecs]. destruct p; auto 10.
      - reflexivity.
      - exact HF.
    Qed.

    Lemma run_number_at a (m : mem S) : rhs_number a = true -> run_number a w m = wassign_at st a pt m.
    Proof.
      destruct a as [i r|i j r|x p]; try discriminate; destruct r; try discriminate; intros _;
        cbn [run_number wassign_at pvalue bind]; rewrite !Hw; reflexivity.
    Qed.

    (** The iterator stands on the vector's value at the point. *)
    Definition it_rep (e : expr) (it : iter) : Prop :=
      is_ref it = deferred e /\ (forall m, it_deref it m = denote e pt m) /\
      forall I, it_reads it I = reads e pt I.

    Definition its_rep (a : wassign) (its : list iter) : Prop :=
      exists i1 rest, its = i1 ++ rest /\ Forall2 it_rep (all_vecs a) i1 /\
                      Forall (fun it => exists x, it = IConst x) rest.

    Lemma tup_deref_rep a its (m : mem S) : its_rep a its ->
      match tup_deref its m with
      | Some t => tup_rep m a t
      | None => exists e, In e (wa_vecs a) /\ deferred e = false /\ denote e pt m = None
      end.
    Proof.
      intros (i1 & rest & -> & HF & Hr).
      assert (exists r, tup_deref rest m = Some r) as [r Er].
      { clear -Hr. unfold tup_deref. induction Hr as [|it l [x ->] _ [r IH]]; cbn [mapM]; [eauto|].
        cbn [tup_entry is_ref it_deref bind]. rewrite IH. cbn [bind]. eauto. }
      assert (forall e, In e (all_vecs a) -> deferred e = false -> In e (wa_vecs a)) as HV.
      { intros e He Hd. destruct a; cbn [all_vecs wa_vecs] in *; auto.
        apply in_app_or in He as [He|[<-|[]]]; [exact He|discriminate]. }
      unfold tup_rep.
      revert HV HF. generalize (all_vecs a) as es. intros es HV HF.
      assert (match tup_deref (i1 ++ rest) m with
              | Some t => exists t1, t = t1 ++ r /\ Forall2 (en_rep m) es t1
              | None => exists e, In e (wa_vecs a) /\ deferred e = false /\ denote e pt m = None
              end) as H.
      { unfold tup_deref in *. induction HF as [|e it es i1 (H1 & H2 & H3) HF IH]; cbn [mapM app].
        - rewrite Er. exists []. split; [reflexivity|constructor].
        - assert (match tup_entry it m with
                  | Some en => en_rep m e en
                  | None => deferred e = false /\ denote e pt m = None
                  end) as HE.
          { unfold tup_entry, en_rep. rewrite H1. destruct (deferred e); [eauto|].
            rewrite H2. destruct (denote e pt m); cbn [bind]; eauto. }
          destruct (tup_entry it m) as [en|]; cbn [bind].
          + specialize (IH ltac:(intros; apply HV; [right|]; assumption)).
            destruct (mapM (fun it => tup_entry it m) (i1 ++ rest)) as [t|]; cbn [bind]; [|exact IH].
            destruct IH as (t1 & -> & Ht). exists (en :: t1). split; [reflexivity|]. constructor; assumption.
          + exists e. split; [|exact HE]. apply HV; [left; reflexivity|apply HE]. }
      destruct (tup_deref (i1 ++ rest) m); [|exact H]. destruct H as (t1 & -> & Ht). eauto.
    Qed.

    Lemma tups_rep l its (m : mem S) : Forall2 its_rep l its ->
      match mapM (fun i => tup_deref i m) its with
      | Some ts => Forall2 (tup_rep m) l ts
      | None => exists a e, In a l /\ In e (wa_vecs a) /\ deferred e = false /\ denote e pt m = None
      end.
    Proof.
      induction 1 as [|a i l its Ha HF IH]; cbn [mapM]; [constructor|].
      pose proof (tup_deref_rep a i m Ha) as Ht. destruct (tup_deref i m) as [t|]; cbn [bind].
      - destruct (mapM _ its) as [ts|]; cbn [bind].
        + constructor; assumption.
        + destruct IH as (b & e & Hb & H). exists b, e. split; [right|]; assumption.
      - destruct Ht as (e & H). exists a, e. split; [left; reflexivity|exact H].
    Qed.

    Lemma elem_general_point dom l its (m : mem S) :
      Forall (wa_ok dom) l ->
      Forall (fun a => self_assign a = false /\ match a with WSet2 _ _ (PNum _) => False | _ => True end) l ->
      window_indep st l -> Forall2 its_rep l its ->
      (ts <- mapM (fun i => tup_deref i m) its ;;
       forM (combine l ts) (fun p => run_general (fst p) w (snd p)) m) = point_spec st l pt m.
    Proof.
      intros Hok Hg [HO HP] HF. pose proof (tups_rep l its m HF) as Ht.
      destruct (mapM _ its) as [ts|]; cbn [bind].
      2:{ destruct Ht as (a & e & Ha & He & Hd & HN). symmetry. eapply point_spec_strict; eauto. }
      clear HF. unfold point_spec. revert ts m Ht. induction l as [|a l IH]; intros ts m Ht; [reflexivity|].
      inversion Ht as [|? t ? ts' Ha Hts]; subst. inversion Hok; subst. inversion Hg as [|? ? [Hg1 Hg2] Hg']; subst.
      inversion HO as [|? ? HOa HOl]; subst. inversion HP; subst. cbn [combine forM fst snd].
      rewrite (run_general_at dom a m t) by assumption.
      destruct (wassign_at st a pt m) as [m'|] eqn:E; [|reflexivity]. cbn [bind].
      apply IH; auto. clear -E HOa Hts. revert HOa. induction Hts as [|b tb l ts Hb Hts IH]; intros HOa; constructor.
      - inversion HOa; subst. eapply tup_rep_keeps; eauto.
      - inversion HOa; subst. apply IH. assumption.
    Qed.

    Lemma elem_self_point dom l its lhs (m : mem S) :
      Forall (wa_ok dom) l -> Forall (fun a => self_assign a = true) l ->
      window_indep st l -> Forall2 its_rep l its ->
      Forall2 (fun a lh => m_ptr lh = false /\ forall x p, a = WSub x p -> mti_addr lh = addr x pt) l lhs ->
      (ts <- mapM (fun i => tup_deref i m) its ;;
       forM (combine (combine l lhs) ts) (fun p => run_self (fst (fst p)) (snd (fst p)) w (snd p)) m)
      = point_spec st l pt m.
    Proof.
      intros Hok Hg [HO HP] HF HL. pose proof (tups_rep l its m HF) as Ht.
      destruct (mapM _ its) as [ts|]; cbn [bind].
      2:{ destruct Ht as (a & e & Ha & He & Hd & HN). symmetry. eapply point_spec_strict; eauto. }
      clear HF. unfold point_spec. revert ts m Ht. induction HL as [|a lh l lhs [Hl1 Hl2] HL IH]; intros ts m Ht; [reflexivity|].
      inversion Ht as [|? t ? ts' Ha Hts]; subst. inversion Hok; subst. inversion Hg as [|? ? Hg1 Hg']; subst.
      inversion HO as [|? ? HOa HOl]; subst. inversion HP; subst. cbn [combine forM fst snd].
      rewrite (run_self_at dom a m t lh) by assumption.
      destruct (wassign_at st a pt m) as [m'|] eqn:E; [|reflexivity]. cbn [bind].
      apply IH; auto. clear -E HOa Hts. revert HOa. induction Hts as [|b tb l ts Hb Hts IH]; intros HOa; constructor.
      - inversion HOa; subst. eapply tup_rep_keeps; eauto.
      - inversion HOa; subst. apply IH. assumption.
    Qed.

    Lemma elem_number_point l (m : mem S) : Forall (fun a => rhs_number a = true) l ->
      forM l (fun a => run_number a w) m = point_spec st l pt m.
    Proof.
      intros H. apply forM_ext_in. intros a m' Ha. apply run_number_at.
      rewrite Forall_forall in H. auto.
    Qed.
  End Element.

  (** ** Families *)

  (** At every position the iterators represent the vectors of the assignment. *)
  Definition afam (dom : list dbnd) (a : wassign) (TF : Z -> list iter) : Prop :=
    wa_iters a dom = Some (TF 0) /\
    (forall p, 0 <= p < prodZ (counts dom) -> mapM it_inc (TF p) = Some (TF (p + 1))) /\
    (forall p d, 0 <= p -> 0 <= d -> p + d < prodZ (counts dom) ->
       mapM (fun it => it_adv it d) (TF p) = Some (TF (p + d))) /\
    (forall p pt0, 0 <= p < prodZ (counts dom) ->
       its_rep (pt_at dom (unrav (counts dom) p) pt0) a (TF p)).

  Lemma is_ref_inc (it it' : iter) : it_inc it = Some it' -> is_ref it' = is_ref it.
  Proof.
    destruct it; cbn [it_inc]; intros E; try (apply bind_Some_inv in E as (? & ? & E));
      try (apply bind_Some_inv in E as (? & ? & E)); injection E as <-; reflexivity.
  Qed.

  Lemma is_ref_eval (e : expr) dom it : eval e dom = Some it -> is_ref it = deferred e.
  Proof.
    revert dom it; induction e as [s|o t e IH|o e IH t|o e1 IH1 e2 IH2|sh s d|d z e IH|st u o|s r cb];
      intros dom it E; cbn [eval deferred] in *.
    - apply bind_Some_inv in E as (? & ? & E). injection E as <-. reflexivity.
    - apply bind_Some_inv in E as (? & ? & E). injection E as <-. reflexivity.
    - apply bind_Some_inv in E as (? & ? & E). injection E as <-. reflexivity.
    - apply bind_Some_inv in E as (? & ? & E). apply bind_Some_inv in E as (? & ? & E). injection E as <-. reflexivity.
    - apply bind_Some_inv in E as (? & ? & E). injection E as <-. reflexivity.
    - eapply IH; eassumption.
    - repeat (apply bind_Some_inv in E as (? & ? & E)). injection E as <-. reflexivity.
    - apply bind_Some_inv in E as (? & ? & E). injection E as <-. reflexivity.
  Qed.

  Definition efam (dom : list dbnd) (e : expr) (F : Z -> iter) : Prop :=
    eval e dom = Some (F 0) /\ iter_family F (prodZ (counts dom)) /\
    forall p pt0, 0 <= p < prodZ (counts dom) ->
      it_rep (pt_at dom (unrav (counts dom) p) pt0) e (F p).

  Lemma eval_efam (e : expr) dom : wf_dom dom -> wf_expr e dom -> 0 < prodZ (counts dom) ->
    exists F, efam dom e F.
  Proof.
    intros Hd He H0. destruct (eval_family e dom Hd (wf_counts_pos dom Hd H0) He) as (F & EF & HF & HD).
    exists F. split; [exact EF|]. split; [exact HF|]. intros p pt0 Hp. split; [|split].
    - pose proof (is_ref_eval e dom _ EF) as HR. rewrite <- HR.
      assert (forall n, Z.of_nat n < prodZ (counts dom) -> is_ref (F (Z.of_nat n)) = is_ref (F 0)) as H.
      { induction n as [|n IH]; intros Hn; [reflexivity|]. rewrite <- IH by lia.
        apply is_ref_inc. rewrite (fam_inc _ _ HF) by lia. do 2 f_equal. lia. }
      rewrite <- (H (Z.to_nat p)) by lia. do 2 f_equal. lia.
    - intros m. apply (proj1 (HD p m pt0 Hp)).
    - intros I. apply (proj2 (HD p (mkMem [] I) pt0 Hp)).
  Qed.

  Lemma evals_fam es dom : wf_dom dom -> Forall (fun e => wf_expr e dom) es -> 0 < prodZ (counts dom) ->
    exists Fs, Forall2 (efam dom) es Fs.
  Proof.
    intros Hd He H0. induction He as [|e es He Hes [Fs IH]]; [exists []; constructor|].
    destruct (eval_efam e dom Hd He H0) as [F HF]. exists (F :: Fs). constructor; assumption.
  Qed.

  Lemma evals_total es dom : wf_dom dom -> Forall (fun e => wf_expr e dom) es ->
    exists r, mapM (fun e => @eval S e dom) es = Some r.
  Proof.
    intros Hd He. induction He as [|e es He Hes [r IH]]; cbn [mapM]; [eauto|].
    destruct (eval_total e dom Hd He) as [it ->]. cbn [bind]. rewrite IH. cbn [bind]. eauto.
  Qed.

  (** The iterators of an assignment are those of its vectors. *)
  Lemma wa_iters_vecs dom a : wa_ok dom a ->
    wa_iters a dom =
    match all_vecs a with [] => Some [IConst (lit 0)] | _ => mapM (fun e => eval e dom) (all_vecs a) end.
  Proof.
    assert (forall r : proxy, compiles r = true -> supported_proxy r -> is_proxy r = true ->
      rhs_iters r dom = match r with PSt _ => None | _ =>
      match pvecs r with [] => Some [IConst (lit 0)] | _ => mapM (fun e => eval e dom) (pvecs r) end end) as HR.
    { intros r Hc Hs Hp. destruct r as [x|e|k|o p q]; try discriminate; [reflexivity|].
      cbn [rhs_iters]. rewrite Hc. rewrite (supported_index _ Hc Hs Hp), (get_iterators_vecs _ dom Hc Hp).
      destruct (pvecs (POp o p q)); reflexivity. }
    intros Hok. destruct a as [i r|i j r|x p]; cbn [wa_iters all_vecs wa_vecs wa_ok] in *.
    - destruct r as [x|e|k|o p q]; cbn [rhs_ok] in Hok.
      + reflexivity.
      + cbn [rhs_iters pvecs mapM]. destruct (eval e dom); reflexivity.
      + destruct Hok.
      + rewrite HR; tauto.
    - destruct r as [x|e|k|o p q]; try contradiction.
      + reflexivity.
      + cbn [is_proxy rhs_iters pvecs mapM]. destruct (eval e dom); reflexivity.
    - destruct Hok as (Hp & Hc & Hs & _). rewrite Hp. rewrite HR.
      + unfold wsub_rhs, PNeg. cbn [pvecs app]. destruct (pvecs p ++ [ESpan x]) eqn:E; [|reflexivity].
        destruct (pvecs p); discriminate.
      + unfold wsub_rhs, PNeg. cbn [compiles is_proxy]. rewrite Hp, Hc. reflexivity.
      + unfold wsub_rhs, PNeg. cbn [supported_proxy pvecs]. destruct p; auto 10.
      + reflexivity.
  Qed.

  Lemma all_vecs_wf dom a : wa_ok dom a -> Forall (fun e => wf_expr e dom) (wa_vecs a) ->
    Forall (fun e => wf_expr e dom) (all_vecs a).
  Proof.
    intros Hok H. destruct a as [i r|i j r|x p]; cbn [all_vecs wa_vecs] in *; auto.
    apply Forall_app. split; [exact H|]. constructor; [|constructor]. cbn [wf_expr].
    destruct Hok as (_ & _ & _ & H1 & H2). auto.
  Qed.

  Lemma wa_family dom a : wf_dom dom -> 0 < prodZ (counts dom) -> wa_ok dom a ->
    Forall (fun e => wf_expr e dom) (wa_vecs a) -> exists TF, afam dom a TF.
  Proof.
    intros Hd H0 Hok Hv. pose proof (wa_iters_vecs dom a Hok) as EI. pose proof (all_vecs_wf dom a Hok Hv) as Hav.
    unfold afam, its_rep. rewrite EI. revert Hav. generalize (all_vecs a) as es. intros es Hav.
    destruct es as [|e0 es0].
    { exists (fun _ => [IConst (lit 0)]). repeat split; try reflexivity.
      intros p pt0 Hp. exists [], [IConst (lit 0)]. split; [reflexivity|]. split; [constructor|]. repeat constructor. eauto. }
    set (es := e0 :: es0) in *. destruct (evals_fam es dom Hd Hav H0) as [Fs HF].
    exists (fun p => map (fun F => F p) Fs).
    split; [|split; [|split]].
    - clearbody es. clear -HF. induction HF as [|e F es Fs (E & _ & _) HF IH]; cbn [mapM map]; [reflexivity|].
      rewrite E. cbn [bind]. rewrite IH. reflexivity.
    - intros p Hp. clearbody es. clear -HF Hp. induction HF as [|e F es Fs (_ & E & _) HF IH]; cbn [mapM map]; [reflexivity|].
      rewrite (fam_inc _ _ E) by exact Hp. cbn [bind]. rewrite IH. reflexivity.
    - intros p d Hp Hd' Hs. clearbody es. clear -HF Hp Hd' Hs. induction HF as [|e F es Fs (_ & E & _) HF IH]; cbn [mapM map]; [reflexivity|].
      rewrite (fam_adv _ _ E) by assumption. cbn [bind]. rewrite IH. reflexivity.
    - intros p pt0 Hp. exists (map (fun F => F p) Fs), []. rewrite app_nil_r. split; [reflexivity|]. split; [|constructor].
      clearbody es. clear -HF Hp. induction HF as [|e F es Fs (_ & _ & E) HF IH]; cbn [map]; constructor; [apply E; exact Hp|exact IH].
  Qed.

  Lemma was_family dom l : wf_dom dom -> 0 < prodZ (counts dom) -> Forall (wa_ok dom) l ->
    Forall (fun a => Forall (fun e => wf_expr e dom) (wa_vecs a)) l ->
    exists TFs, Forall2 (afam dom) l TFs.
  Proof.
    intros Hd H0 Hok. induction Hok as [|a l Ha Hl IH]; intros Hv; [exists []; constructor|].
    inversion Hv; subst. destruct IH as [TFs HT]; [assumption|].
    destruct (wa_family dom a Hd H0 Ha) as [TF HF]; [assumption|]. exists (TF :: TFs). constructor; assumption.
  Qed.

  Definition at_pos {A} (p : Z) (TFs : list (Z -> A)) : list A := map (fun F => F p) TFs.

  Lemma afams_start dom l TFs : Forall2 (afam dom) l TFs ->
    mapM (fun a => wa_iters a dom) l = Some (at_pos 0 TFs).
  Proof.
    induction 1 as [|a TF l TFs (E & _) HF IH]; cbn [mapM at_pos map]; [reflexivity|].
    rewrite E. cbn [bind]. rewrite IH. reflexivity.
  Qed.

  Lemma afams_inc dom l TFs p : Forall2 (afam dom) l TFs -> 0 <= p < prodZ (counts dom) ->
    incs (at_pos p TFs) = Some (at_pos (p + 1) TFs).
  Proof.
    intros HF Hp. unfold incs. induction HF as [|a TF l TFs (_ & E & _) HF IH]; cbn [mapM at_pos map]; [reflexivity|].
    rewrite E by exact Hp. cbn [bind]. unfold at_pos in IH. rewrite IH. reflexivity.
  Qed.

  Lemma afams_adv dom l TFs p d : Forall2 (afam dom) l TFs -> 0 <= p -> 0 <= d -> p + d < prodZ (counts dom) ->
    mapM (mapM (fun it => it_adv it d)) (at_pos p TFs) = Some (at_pos (p + d) TFs).
  Proof.
    intros HF Hp Hd Hs. induction HF as [|a TF l TFs (_ & _ & E & _) HF IH]; cbn [mapM at_pos map]; [reflexivity|].
    rewrite E by assumption. cbn [bind]. unfold at_pos in IH. rewrite IH. reflexivity.
  Qed.

  Lemma afams_rep dom l TFs p pt0 : Forall2 (afam dom) l TFs -> 0 <= p < prodZ (counts dom) ->
    Forall2 (its_rep (pt_at dom (unrav (counts dom) p) pt0)) l (at_pos p TFs).
  Proof.
    intros HF Hp. induction HF as [|a TF l TFs (_ & _ & _ & E) HF IH]; cbn [at_pos map]; constructor; auto.
  Qed.

  (** Left-hand sides of [-=]. *)
  Definition lfam (dom : list dbnd) (a : wassign) (L : Z -> mti) : Prop :=
    lhs_iter dom a = Some (L 0) /\
    (forall p, 0 <= p < prodZ (counts dom) -> mti_inc (L p) = L (p + 1)) /\
    (forall p d, 0 <= p <= prodZ (counts dom) -> 0 <= p + d <= prodZ (counts dom) -> mti_adv (L p) d = Some (L (p + d))) /\
    (forall p pt0, 0 <= p < prodZ (counts dom) -> m_ptr (L p) = false /\
       forall x q, a = WSub x q -> mti_addr (L p) = addr x (pt_at dom (unrav (counts dom) p) pt0)).

  Lemma lhs_family dom a : wf_dom dom -> 0 < prodZ (counts dom) -> wa_ok dom a -> self_assign a = true ->
    exists L, lfam dom a L.
  Proof.
    intros Hd H0 Hok Hs. destruct a as [i r|i j r|x q]; try discriminate.
    destruct Hok as (_ & _ & _ & Hx & HP). pose proof (wf_counts_pos dom Hd H0) as Hc.
    destruct (call_helper_family false x (sp_b x) [] dom Hx ltac:(rewrite app_nil_r; reflexivity) Hd HP Hc)
      as (base & E & HA).
    cbn [length Nat.eqb negb orb lbs] in E, HA.
    exists (mt_at base (strides_of (sp_b x) dom) (counts dom) false).
    split; [exact E|]. split; [|split].
    - intros p Hp. apply mti_inc_at; auto. apply counts_ne; assumption.
    - intros p d Hp Hd'. apply mti_adv_at; auto. apply counts_ne; assumption.
    - intros p pt0 Hp. split; [reflexivity|]. intros x' q' Ex. injection Ex as <- <-. apply HA. exact Hp.
  Qed.

  Lemma lhss_family dom l : wf_dom dom -> 0 < prodZ (counts dom) -> Forall (wa_ok dom) l ->
    Forall (fun a => self_assign a = true) l -> exists Ls, Forall2 (lfam dom) l Ls.
  Proof.
    intros Hd H0 Hok. induction Hok as [|a l Ha Hl IH]; intros Hv; [exists []; constructor|].
    inversion Hv; subst. destruct IH as [Ls HT]; [assumption|].
    destruct (lhs_family dom a Hd H0 Ha) as [L HF]; [assumption|]. exists (L :: Ls). constructor; assumption.
  Qed.

  Lemma lfams_start dom l Ls : Forall2 (lfam dom) l Ls -> mapM (lhs_iter dom) l = Some (at_pos 0 Ls).
  Proof.
    induction 1 as [|a TF l TFs (E & _) HF IH]; cbn [mapM at_pos map]; [reflexivity|].
    rewrite E. cbn [bind]. rewrite IH. reflexivity.
  Qed.

  Lemma lfams_inc dom l Ls p : Forall2 (lfam dom) l Ls -> 0 <= p < prodZ (counts dom) ->
    map mti_inc (at_pos p Ls) = at_pos (p + 1) Ls.
  Proof.
    intros HF Hp. induction HF as [|a TF l TFs (_ & E & _) HF IH]; cbn [at_pos map]; [reflexivity|].
    rewrite E by exact Hp. f_equal. exact IH.
  Qed.

  Lemma lfams_adv dom l Ls p d : Forall2 (lfam dom) l Ls ->
    0 <= p <= prodZ (counts dom) -> 0 <= p + d <= prodZ (counts dom) ->
    mapM (fun x => mti_adv x d) (at_pos p Ls) = Some (at_pos (p + d) Ls).
  Proof.
    intros HF Hp Hd. induction HF as [|a TF l TFs (_ & _ & E & _) HF IH]; cbn [mapM at_pos map]; [reflexivity|].
    rewrite E by assumption. cbn [bind]. unfold at_pos in IH. rewrite IH. reflexivity.
  Qed.

  Lemma lfams_rep dom l Ls p pt0 : Forall2 (lfam dom) l Ls -> 0 <= p < prodZ (counts dom) ->
    Forall2 (fun a lh => m_ptr lh = false /\ forall x q, a = WSub x q -> mti_addr lh = addr x (pt_at dom (unrav (counts dom) p) pt0))
      l (at_pos p Ls).
  Proof.
    intros HF Hp. induction HF as [|a TF l TFs (_ & _ & _ & E) HF IH]; cbn [at_pos map]; constructor; auto.
  Qed.

  (** The window iterator. *)
  Definition wfam (st : span) (dom : list dbnd) (W : Z -> mti) : Prop :=
    call_helper false st dom = Some (W 0) /\
    (forall p, 0 <= p < prodZ (counts dom) -> mti_inc (W p) = W (p + 1)) /\
    (forall p d, 0 <= p <= prodZ (counts dom) -> 0 <= p + d <= prodZ (counts dom) -> mti_adv (W p) d = Some (W (p + d))) /\
    (forall p pt0, 0 <= p < prodZ (counts dom) -> m_ptr (W p) = true /\
       forall i, padd (mti_addr (W p)) i = entry_at st (pt_at dom (unrav (counts dom) p) pt0) i).

  Lemma window_family st dom : wf_dom dom -> wf_span st -> 0 < prodZ (counts dom) ->
    (exists hd w wb, sp_b st = hd ++ [(w, wb)] /\ Permutation (map fst dom) (map fst hd)) ->
    exists W, wfam st dom W.
  Proof.
    intros Hd Hs H0 (hd & w & wb & Eb & HP). pose proof (wf_counts_pos dom Hd H0) as Hc.
    destruct (call_helper_family false st hd [(w, wb)] dom Hs Eb Hd HP Hc) as (base & E & HA).
    cbn [length Nat.eqb negb orb lbs] in E, HA.
    exists (mt_at base (strides_of (sp_b st) dom) (counts dom) true).
    split; [exact E|]. split; [|split].
    - intros p Hp. apply mti_inc_at; auto. apply counts_ne; assumption.
    - intros p d Hp Hd'. apply mti_adv_at; auto. apply counts_ne; assumption.
    - intros p pt0 Hp. split; [reflexivity|]. intros i. rewrite (HA p pt0 Hp).
      unfold entry_at. rewrite Eb, rev_app_distr. cbn [rev app].
      set (pt := pt_at dom (unrav (counts dom) p) pt0).
      assert (~ In w (map fst hd)) as Hnw.
      { destruct Hs as [Hn _]. unfold sp_order in Hn. rewrite Eb, map_app in Hn. simpl in Hn.
        apply NoDup_remove in Hn. rewrite app_nil_r in Hn. apply Hn. }
      assert (peq (pt_at dom (unrav (counts dom) p) (pset pt0 w (b_lb wb))) (pset pt w (b_lb wb))) as Hpq.
      { apply pt_at_pset. rewrite HP. exact Hnw. }
      rewrite (addr_peq st _ _ Hpq).
      rewrite (addr_peq st (pset pt w (b_lb wb + i)) (pset (pset pt w (b_lb wb)) w (b_lb wb + i))).
      2:{ intros d. symmetry. apply pset_pset. }
      rewrite (addr_pset st (pset pt w (b_lb wb))) by apply Hs. rewrite pset_same.
      assert (sstride (sp_b st) w = 1) as ->; [|f_equal; lia].
      rewrite Eb. apply sstride_last. exact Hnw.
  Qed.

  (** ** Loops *)

  Lemma loop_number_family st dom W l k p (m : mem S) :
    wfam st dom W -> 0 <= p -> p + Z.of_nat k <= prodZ (counts dom) ->
    loop_number k l (W p) m = forM (seqZ (Z.of_nat k)) (fun j => elem_number l (W (p + j))) m.
  Proof.
    intros (_ & HI & _). revert p m; induction k as [|k IH]; intros p m Hp Hk; [reflexivity|].
    replace (Z.of_nat (Datatypes.S k)) with (Z.of_nat k + 1) by lia.
    rewrite forM_seqZ_S by lia. cbn [loop_number]. rewrite Z.add_0_r.
    apply bind_ext. intros m' _. rewrite HI by lia. rewrite IH by lia.
    apply forM_ext_in. intros j m'' _. f_equal. f_equal. lia.
  Qed.

  Lemma loop_general_family st dom W l TFs k p (m : mem S) :
    wfam st dom W -> Forall2 (afam dom) l TFs -> 0 <= p -> p + Z.of_nat k <= prodZ (counts dom) ->
    loop_general k l (W p) (at_pos p TFs) m =
    forM (seqZ (Z.of_nat k)) (fun j => elem_general l (W (p + j)) (at_pos (p + j) TFs)) m.
  Proof.
    intros (_ & HI & _) HF. revert p m; induction k as [|k IH]; intros p m Hp Hk; [reflexivity|].
    replace (Z.of_nat (Datatypes.S k)) with (Z.of_nat k + 1) by lia.
    rewrite forM_seqZ_S by lia. cbn [loop_general]. rewrite Z.add_0_r.
    apply bind_ext. intros m' _. rewrite (afams_inc dom l) by (auto; lia). cbn [bind].
    rewrite HI by lia. rewrite IH by lia.
    apply forM_ext_in. intros j m'' _. replace (p + 1 + j) with (p + (j + 1)) by lia. reflexivity.
  Qed.

  Lemma loop_self_family st dom W l TFs Ls k p (m : mem S) :
    wfam st dom W -> Forall2 (afam dom) l TFs -> Forall2 (lfam dom) l Ls ->
    0 <= p -> p + Z.of_nat k <= prodZ (counts dom) ->
    loop_self k l (at_pos p Ls) (W p) (at_pos p TFs) m =
    forM (seqZ (Z.of_nat k)) (fun j => elem_self l (at_pos (p + j) Ls) (W (p + j)) (at_pos (p + j) TFs)) m.
  Proof.
    intros (_ & HI & _) HF HL. revert p m; induction k as [|k IH]; intros p m Hp Hk; [reflexivity|].
    replace (Z.of_nat (Datatypes.S k)) with (Z.of_nat k + 1) by lia.
    rewrite forM_seqZ_S by lia. cbn [loop_self]. rewrite Z.add_0_r.
    apply bind_ext. intros m' _. rewrite (afams_inc dom l) by (auto; lia). cbn [bind].
    rewrite HI by lia. rewrite (lfams_inc dom l) by (auto; lia). rewrite IH by lia.
    apply forM_ext_in. intros j m'' _. replace (p + 1 + j) with (p + (j + 1)) by lia. reflexivity.
  Qed.

  (** ** The number of elements processed *)

  Lemma window_size_ok dom : wf_dom dom -> window_size dom = Some (prodZ (floors dom)).
  Proof.
    intros (_ & _ & Hf). unfold window_size, bounds_sz.
    rewrite (mapM_map _ (fun b => extent (snd b) / stride (snd b))); [reflexivity|].
    intros b Hb. rewrite Forall_forall in Hf. destruct (Hf b Hb) as [H1 H2].
    unfold b_size, cdiv, extent, b_ub, b_lb in *. destruct (Z.eqb_spec (stride (snd b)) 0); [lia|].
    f_equal. rewrite Z.quot_div_nonneg by lia. f_equal. lia.
  Qed.

  Lemma floor_count b : 1 <= stride b -> b_lb b <= b_ub b + 1 ->
    0 <= extent b / stride b <= count b /\ ((stride b | extent b) -> extent b / stride b = count b).
  Proof.
    intros H1 H2. unfold extent, count in *. set (x := b_ub b - b_lb b) in *.
    assert (0 <= x + 1) by lia. clearbody x. split.
    - split; [apply Z.div_pos; lia|]. apply Z.div_le_mono; lia.
    - intros [k Hk]. rewrite Hk, Z.div_mul by lia.
      replace (x + stride b) with (stride b - 1 + k * stride b) by lia.
      rewrite Z.div_add by lia. rewrite Z.div_small by lia. lia.
  Qed.

  Lemma floors_le dom : wf_dom dom -> 0 <= prodZ (floors dom) <= prodZ (counts dom).
  Proof.
    intros (_ & _ & Hf). induction Hf as [|b dom [H1 H2] Hf IH]; [unfold prodZ; simpl; lia|].
    destruct (floor_count (snd b) H1 H2) as [H3 _].
    change (prodZ (floors (b :: dom))) with (extent (snd b) / stride (snd b) * prodZ (floors dom)).
    change (prodZ (counts (b :: dom))) with (count (snd b) * prodZ (counts dom)). nia.
  Qed.

  Lemma floors_divide dom : wf_dom dom -> strides_divide dom -> floors dom = counts dom.
  Proof.
    intros (_ & _ & Hf) Hs. unfold floors, counts. apply map_ext_in. intros b Hb.
    unfold strides_divide in Hs. rewrite Forall_forall in Hf, Hs. destruct (Hf b Hb) as [H1 H2].
    apply (floor_count (snd b) H1 H2). apply Hs. exact Hb.
  Qed.

  Lemma firstn_seqZ a b : 0 <= a <= b -> firstn (Z.to_nat a) (seqZ b) = seqZ a.
  Proof.
    intros H. replace b with (a + (b - a)) by lia. rewrite seqZ_app by lia.
    rewrite firstn_app. rewrite firstn_all2; [|unfold seqZ; rewrite map_length, seq_length; lia].
    replace (Z.to_nat a - length (seqZ a))%nat with 0%nat; [rewrite firstn_O, app_nil_r; reflexivity|].
    unfold seqZ; rewrite map_length, seq_length; lia.
  Qed.

  Lemma window_loop_points dom (f : point -> mem S -> option (mem S)) (g : Z -> mem S -> option (mem S)) m :
    wf_dom dom ->
    (forall p m, 0 <= p < prodZ (counts dom) -> g p m = f (pt_at dom (unrav (counts dom) p) origin) m) ->
    forM (seqZ (prodZ (floors dom))) g m =
    forM (firstn (Z.to_nat (prodZ (floors dom))) (domain_points dom origin)) f m.
  Proof.
    intros Hd Hg. pose proof (floors_le dom Hd) as Hle.
    rewrite domain_points_seqZ by (apply wf_counts; exact Hd).
    rewrite firstn_map, firstn_seqZ by exact Hle. rewrite forM_map.
    apply forM_ext_in. intros p m' Hp. apply in_seqZ in Hp. apply Hg. lia.
  Qed.

  Lemma forallb_Forall {A} (f : A -> bool) l : forallb f l = true <-> Forall (fun a => f a = true) l.
  Proof. rewrite forallb_forall, Forall_forall. reflexivity. Qed.

  (** The loop actually executed: the points of the domain in order, but only as
      many as [sz] (the product of the truncated quotients). *)
  Theorem with_window_points st dom l (m : mem S) :
    window_ok st dom l -> window_indep st l ->
    with_window st dom l m =
    forM (firstn (Z.to_nat (prodZ (floors dom))) (domain_points dom origin)) (point_spec st l) m.
  Proof.
    intros (Hd & Hs & Hwin & Hok & Hv & Hshape) Hind.
    unfold with_window. rewrite window_size_ok by exact Hd. cbn [bind].
    pose proof (floors_le dom Hd) as Hle.
    assert (Forall (fun a => rhs_number a = true) l /\ forallb rhs_number l = true \/
            forallb rhs_number l = false /\
            (Forall (fun a => self_assign a = true) l /\ forallb self_assign l = true \/
             forallb self_assign l = false /\
             Forall (fun a => self_assign a = false /\ match a with WSet2 _ _ (PNum _) => False | _ => True end) l))
      as Hcase.
    { destruct (forallb rhs_number l) eqn:E1.
      - left. split; [apply forallb_Forall; exact E1|reflexivity].
      - right. split; [reflexivity|]. destruct (forallb self_assign l) eqn:E2.
        + left. split; [apply forallb_Forall; exact E2|reflexivity].
        + right. split; [reflexivity|]. destruct Hshape as [H|[H|H]]; [| |exact H].
          * apply forallb_Forall in H. congruence.
          * apply forallb_Forall in H. congruence. }
    clear Hshape.
    destruct (Z.le_gt_cases (prodZ (counts dom)) 0) as [H0|H0].
    - rewrite empty_points by assumption. rewrite firstn_nil. cbn [forM].
      replace (Z.to_nat (prodZ (floors dom))) with 0%nat by lia.
      destruct Hwin as (hd & w & wb & Eb & HP).
      rewrite (call_helper_ok false st hd [(w, wb)] dom origin Hs Eb Hd HP). cbn [bind].
      assert (exists its, mapM (fun a => wa_iters a dom) l = Some its) as [its EI].
      { clear -Hok Hv Hd. induction Hok as [|a l Ha Hl IH]; cbn [mapM]; [eauto|]. inversion Hv; subst.
        destruct (IH H2) as [its ->]. rewrite (wa_iters_vecs dom a Ha).
        destruct (evals_total (all_vecs a) dom Hd (all_vecs_wf dom a Ha H1)) as [r Er]. rewrite Er.
        destruct (all_vecs a); cbn [bind]; eauto. }
      destruct Hcase as [[_ ->]|[-> [[Hself ->]|[-> _]]]].
      + reflexivity.
      + assert (exists lhs, mapM (lhs_iter dom) l = Some lhs) as [lhs EL].
        { clear -Hok Hself Hd. induction Hok as [|a l Ha Hl IH]; cbn [mapM]; [eauto|]. inversion Hself; subst.
          destruct (IH H2) as [its ->]. destruct a as [i r|i j r|x p]; try discriminate. cbn [lhs_iter].
          destruct Ha as (_ & _ & _ & Hx & HP).
          rewrite (call_helper_ok false x (sp_b x) [] dom origin Hx ltac:(rewrite app_nil_r; reflexivity) Hd HP).
          cbn [bind]. eauto. }
        rewrite EL, EI. reflexivity.
      + rewrite EI. reflexivity.
    - destruct (window_family st dom Hd Hs H0 Hwin) as [W HW].
      destruct (was_family dom l Hd H0 Hok Hv) as [TFs HF].
      rewrite (proj1 HW). cbn [bind].
      pose proof (fun p Hp => proj2 (proj2 (proj2 HW)) p origin Hp) as HWp.
      destruct Hcase as [[Hnum ->]|[-> [[Hself ->]|[-> Hgen]]]].
      + rewrite (loop_number_family st dom W) by (auto; lia).
        rewrite Z2Nat.id by lia. apply window_loop_points; [exact Hd|].
        intros p m' Hp. rewrite Z.add_0_l. unfold elem_number. destruct (HWp p Hp) as [-> HA].
        apply elem_number_point; assumption.
      + destruct (lhss_family dom l Hd H0 Hok Hself) as [Ls HL].
        rewrite (lfams_start dom l Ls HL), (afams_start dom l TFs HF). cbn [bind].
        rewrite (loop_self_family st dom W) by (auto; lia).
        rewrite Z2Nat.id by lia. apply window_loop_points; [exact Hd|].
        intros p m' Hp. rewrite Z.add_0_l. unfold elem_self. destruct (HWp p Hp) as [-> HA].
        apply (elem_self_point st _ _ HA dom); auto.
        * apply afams_rep; assumption.
        * apply lfams_rep; assumption.
      + rewrite (afams_start dom l TFs HF). cbn [bind].
        rewrite (loop_general_family st dom W) by (auto; lia).
        rewrite Z2Nat.id by lia. apply window_loop_points; [exact Hd|].
        intros p m' Hp. rewrite Z.add_0_l. unfold elem_general. destruct (HWp p Hp) as [-> HA].
        apply (elem_general_point st _ _ HA dom); auto. apply afams_rep; assumption.
  Qed.

  Lemma floors_all dom : wf_dom dom -> strides_divide dom ->
    firstn (Z.to_nat (prodZ (floors dom))) (domain_points dom origin) = domain_points dom origin.
  Proof.
    intros Hd Hs. rewrite floors_divide by assumption. apply firstn_all2.
    rewrite domain_points_seqZ by (apply wf_counts; exact Hd). unfold seqZ. rewrite !map_length, seq_length. lia.
  Qed.

  Theorem with_window_spec st dom l (m : mem S) :
    window_ok st dom l -> window_indep st l -> strides_divide dom ->
    with_window st dom l m = window_spec st dom l m.
  Proof.
    intros Hok Hi Hs. rewrite with_window_points by assumption.
    rewrite floors_all; [reflexivity|apply Hok|exact Hs].
  Qed.

  (** ** Threads *)

  Lemma entry_rd_val en I k (m : mem S) : ints m = I ->
    run_alone (entry_rd en I k) m = (v <- entry_val en m ;; run_alone (k v) m).
  Proof. intros HI. destruct en; [reflexivity|]. apply it_rd_deref. exact HI. Qed.

  Lemma tup_rd_deref l I k (m : mem S) : ints m = I ->
    run_alone (tup_rd l I k) m = (t <- tup_deref l m ;; run_alone (k t) m).
  Proof.
    intros HI. unfold tup_deref. revert k; induction l as [|it l IH]; intros k; cbn [tup_rd mapM]; [reflexivity|].
    unfold tup_entry at 1. destruct (is_ref it); cbn [bind].
    - rewrite IH, bind_assoc. apply bind_ext. intros; reflexivity.
    - rewrite it_rd_deref by exact HI. rewrite !bind_assoc. apply bind_ext. intros v _. cbn [bind].
      rewrite IH, bind_assoc. apply bind_ext. intros; reflexivity.
  Qed.

  Lemma tups_rd_deref ls I k (m : mem S) : ints m = I ->
    run_alone (tups_rd ls I k) m = (ts <- mapM (fun l => tup_deref l m) ls ;; run_alone (k ts) m).
  Proof.
    intros HI. revert k; induction ls as [|l ls IH]; intros k; cbn [tups_rd mapM]; [reflexivity|].
    rewrite tup_rd_deref by exact HI. rewrite bind_assoc. apply bind_ext. intros t _.
    rewrite IH, bind_assoc. apply bind_ext. intros; reflexivity.
  Qed.

  Definition arg_rd (N : nat) (u : proxy) (w : ptr) (t : list entry) (I : list (list Z)) (k : val -> @tprog S) : tprog :=
    match u with
    | PNum x => k (VNum x)
    | PVec _ => match N with
                | O => TFail
                | Datatypes.S n => match nth_error t n with Some en => entry_rd en I k | None => TFail end
                end
    | PSt _ | POp _ _ _ => inv_rd u w t I k
    end.

  Lemma inv_rd_op o p q w t I k :
    inv_rd (POp o p q) w t I k =
    arg_rd (proxy_index (POp o p q)) p w t I (fun u =>
    arg_rd (proxy_index (POp o p q)) q w t I (fun v => match app_op o u v with Some x => k x | None => TFail end)).
  Proof. destruct p, q; reflexivity. Qed.

  Lemma inv_rd_val p w t I k (m : mem S) : ints m = I ->
    run_alone (inv_rd p w t I k) m = (v <- invoke p w t m ;; run_alone (k v) m).
  Proof.
    intros HI. revert k; induction p as [x|e|i|o p IHp q IHq]; intros k.
    - reflexivity.
    - reflexivity.
    - cbn [inv_rd invoke run_alone]. destruct (load m _); reflexivity.
    - rewrite inv_rd_op, invoke_op. generalize (proxy_index (POp o p q)) as N. intros N.
      assert (forall u, (forall k, run_alone (inv_rd u w t I k) m = (v <- invoke u w t m ;; run_alone (k v) m)) ->
                forall k, run_alone (arg_rd N u w t I k) m = (v <- inv_arg N u w t m ;; run_alone (k v) m)) as HA.
      { intros u Hu k'. destruct u; cbn [arg_rd inv_arg]; auto.
        destruct N as [|n]; [reflexivity|]. destruct (nth_error t n); [|reflexivity]. cbn [bind].
        apply entry_rd_val. exact HI. }
      rewrite (HA p IHp), bind_assoc. apply bind_ext. intros u _.
      rewrite (HA q IHq), bind_assoc. apply bind_ext. intros v _.
      destruct (app_op o u v); reflexivity.
  Qed.

  Lemma put_rd_val p v k (m : mem S) : run_alone (put_rd p v k) m = (m' <- put p v m ;; run_alone k m').
  Proof. destruct v; reflexivity. Qed.

  Lemma number_rd_val a w k (m : mem S) :
    run_alone (number_rd a w k) m = (m' <- run_number a w m ;; run_alone k m').
  Proof.
    destruct a as [i r|i j r|x p]; cbn [number_rd run_number]; try reflexivity; destruct r; try reflexivity; cbn [run_alone].
    rewrite bind_assoc. reflexivity.
  Qed.

  Lemma general_rd_val a w t I k (m : mem S) : ints m = I ->
    run_alone (general_rd a w t I k) m = (m' <- run_general a w t m ;; run_alone k m').
  Proof.
    intros HI. destruct a as [i r|i j r|x p]; cbn [general_rd run_general]; try reflexivity; destruct r as [x|e|z|o p q]; try reflexivity.
    - destruct (nth_error t 0); [|reflexivity]. cbn [bind]. rewrite entry_rd_val, bind_assoc by exact HI.
      apply bind_ext. intros v _. apply put_rd_val.
    - rewrite inv_rd_val, bind_assoc by exact HI. apply bind_ext. intros v _. apply put_rd_val.
    - rewrite inv_rd_val, bind_assoc by exact HI. apply bind_ext. intros v _. apply put_rd_val.
    - destruct (nth_error t 0); [|reflexivity]. cbn [bind]. rewrite entry_rd_val, bind_assoc by exact HI.
      apply bind_ext. intros v _. destruct v as [x|x y|q]; try reflexivity. cbn [run_alone].
      destruct (store m (padd w i) x) as [m1|] eqn:E1; [|reflexivity]. cbn [bind].
      rewrite entry_rd_val by (rewrite (store_ints _ _ _ _ E1); exact HI). rewrite bind_assoc.
      apply bind_ext. intros v' _. destruct v'; reflexivity.
  Qed.

  Lemma self_rd_val a lh w t I k (m : mem S) : ints m = I ->
    run_alone (self_rd a lh w t I k) m = (m' <- run_self a lh w t m ;; run_alone k m').
  Proof.
    intros HI. destruct a as [i r|i j r|x p]; cbn [self_rd run_self]; try reflexivity.
    rewrite inv_rd_val, bind_assoc by exact HI. apply bind_ext. intros v _.
    destruct (m_ptr lh); [reflexivity|]. apply put_rd_val.
  Qed.

  Lemma put_ints p v (m m' : mem S) : put p v m = Some m' -> ints m' = ints m.
  Proof. destruct v; try discriminate. apply store_ints. Qed.

  Lemma run_general_ints a w t (m m' : mem S) : run_general a w t m = Some m' -> ints m' = ints m.
  Proof.
    intros E. destruct a as [i r|i j r|x p]; cbn [run_general] in E; try discriminate; destruct r as [x|e|z|o p q]; try discriminate.
    - apply (store_ints _ _ _ _ E).
    - apply bind_Some_inv in E as (? & _ & E). apply bind_Some_inv in E as (? & _ & E). apply (put_ints _ _ _ _ E).
    - apply bind_Some_inv in E as (? & _ & E). apply (put_ints _ _ _ _ E).
    - apply bind_Some_inv in E as (? & _ & E). apply (put_ints _ _ _ _ E).
    - apply bind_Some_inv in E as (? & _ & E). apply bind_Some_inv in E as (v & _ & E). destruct v; try discriminate.
      apply bind_Some_inv in E as (m1 & E1 & E). apply bind_Some_inv in E as (v & _ & E). destruct v; try discriminate.
      rewrite (store_ints _ _ _ _ E). apply (store_ints _ _ _ _ E1).
  Qed.

  Lemma run_self_ints a lh w t (m m' : mem S) : run_self a lh w t m = Some m' -> ints m' = ints m.
  Proof.
    intros E. destruct a as [i r|i j r|x p]; cbn [run_self] in E; try discriminate.
    apply bind_Some_inv in E as (? & _ & E). destruct (m_ptr lh); [discriminate|]. apply (put_ints _ _ _ _ E).
  Qed.

  Lemma fold_rd {A} (f : A -> @tprog S -> tprog) (g : A -> mem S -> option (mem S)) I l (m : mem S) :
    (forall a k m, ints m = I -> run_alone (f a k) m = (m' <- g a m ;; run_alone k m')) ->
    (forall a m m', ints m = I -> g a m = Some m' -> ints m' = I) ->
    ints m = I -> run_alone (fold_right f TDone l) m = forM l g m.
  Proof.
    intros Hf Hg. revert m; induction l as [|a l IH]; intros m HI; cbn [fold_right forM]; [reflexivity|].
    rewrite Hf by exact HI. apply bind_ext. intros m' E. apply IH. eapply Hg; eassumption.
  Qed.

  (** What a thread may access. *)
  Lemma entry_rd_within en I (k : val -> @tprog S) (R W : ptr -> Prop) :
    match en with ERef it => forall p, In p (it_reads it I) -> R p | EVal _ => True end ->
    (forall v, within R W (k v)) -> within R W (entry_rd en I k).
  Proof. destruct en; cbn [entry_rd]; [auto|]. apply it_rd_within. Qed.

  Definition entries_in (I : list (list Z)) (R : ptr -> Prop) (t : list (@entry S)) : Prop :=
    Forall (fun en => match en with ERef it => forall p, In p (it_reads it I) -> R p | EVal _ => True end) t.

  Lemma entries_nth I R t n en : entries_in I R t -> nth_error t n = Some en ->
    match en with ERef it => forall p, In p (it_reads it I) -> R p | EVal _ => True end.
  Proof. unfold entries_in. rewrite Forall_forall. intros H E. apply H. eapply nth_error_In; eassumption. Qed.

  Lemma tup_rd_within l I (k : list entry -> @tprog S) (R W : ptr -> Prop) :
    (forall it, In it l -> forall p, In p (it_reads it I) -> R p) ->
    (forall t, entries_in I R t -> within R W (k t)) -> within R W (tup_rd l I k).
  Proof.
    revert k; induction l as [|it l IH]; intros k Hl Hk; cbn [tup_rd].
    - apply Hk. constructor.
    - destruct (is_ref it).
      + apply IH; [intros; eapply Hl; [right|]; eassumption|]. intros t Ht. apply Hk. constructor; [|exact Ht].
        apply Hl. left; reflexivity.
      + apply it_rd_within; [apply Hl; left; reflexivity|]. intros v.
        apply IH; [intros; eapply Hl; [right|]; eassumption|]. intros t Ht. apply Hk. constructor; [exact Logic.I|exact Ht].
  Qed.

  Lemma tups_rd_within ls I (k : list (list entry) -> @tprog S) (R W : ptr -> Prop) :
    (forall l it, In l ls -> In it l -> forall p, In p (it_reads it I) -> R p) ->
    (forall ts, length ts = length ls -> Forall (entries_in I R) ts -> within R W (k ts)) -> within R W (tups_rd ls I k).
  Proof.
    revert k; induction ls as [|l ls IH]; intros k Hl Hk; cbn [tups_rd].
    - apply Hk; [reflexivity|constructor].
    - apply tup_rd_within; [intros; eapply Hl; [left; reflexivity| |]; eassumption|]. intros t Ht.
      apply IH; [intros; eapply Hl; [right| |]; eassumption|]. intros ts HL Hts. apply Hk.
      + simpl; congruence.
      + constructor; assumption.
  Qed.

  Lemma inv_rd_within p w t I (k : val -> @tprog S) (R W : ptr -> Prop) :
    (forall i, In i (st_indices p) -> R (padd w i)) ->
    entries_in I R t -> (forall v, within R W (k v)) -> within R W (inv_rd p w t I k).
  Proof.
    intros Hi Ht. revert k Hi; induction p as [x|e|i|o p IHp q IHq]; intros k Hi Hk.
    - exact Logic.I.
    - exact Logic.I.
    - cbn [inv_rd within]. split; [apply Hi; left; reflexivity|auto].
    - rewrite inv_rd_op. generalize (proxy_index (POp o p q)) as N. intros N.
      assert (forall u, (forall k, (forall v, within R W (k v)) -> within R W (inv_rd u w t I k)) ->
                forall k, (forall v, within R W (k v)) -> within R W (arg_rd N u w t I k)) as HA.
      { intros u Hu k' Hk'. destruct u; cbn [arg_rd]; auto.
        destruct N as [|n]; [exact Logic.I|]. destruct (nth_error t n) eqn:En; [|exact Logic.I].
        apply entry_rd_within; [|exact Hk']. eapply entries_nth; eassumption. }
      apply (HA p).
      + intros k' Hk'. apply IHp; [|exact Hk']. intros i Hin. apply Hi. apply in_or_app; auto.
      + intros u. apply (HA q).
        * intros k' Hk'. apply IHq; [|exact Hk']. intros i Hin. apply Hi. apply in_or_app; auto.
        * intros v. destruct (app_op o u v); [apply Hk|exact Logic.I].
  Qed.

  Section Thread.
    Context (st : span) (pt : point) (w : ptr).
    Hypothesis Hw : forall i, padd w i = entry_at st pt i.

    Lemma st_indices_reads (p : proxy) I i : In i (st_indices p) -> In (entry_at st pt i) (preads st p pt I).
    Proof.
      induction p as [x|e|k|o p IHp q IHq]; cbn [st_indices preads]; intros H; try contradiction.
      - destruct H as [->|[]]. left; reflexivity.
      - apply in_app_or in H. apply in_or_app. tauto.
    Qed.

    Lemma pvecs_reads (p : proxy) I e x : In e (pvecs p) -> In x (reads e pt I) -> In x (preads st p pt I).
    Proof.
      induction p as [y|e'|k|o p IHp q IHq]; cbn [pvecs preads]; intros H Hx; try contradiction.
      - destruct H as [->|[]]. exact Hx.
      - apply in_app_or in H. apply in_or_app. tauto.
    Qed.

    Lemma all_vecs_reads (a : wassign) I e x : In e (all_vecs a) -> In x (reads e pt I) -> In x (wreads st pt I a).
    Proof.
      destruct a as [i r|i j r|y p]; cbn [all_vecs wa_vecs wreads]; intros H Hx;
        try (eapply pvecs_reads; eassumption).
      apply in_app_or in H as [H|[<-|[]]].
      - right. eapply pvecs_reads; eassumption.
      - left. cbn [reads] in Hx. destruct Hx as [Hx|[]]. exact Hx.
    Qed.

    Lemma its_rep_reads (a : wassign) its I it x :
      its_rep pt a its -> In it its -> In x (it_reads it I) -> In x (wreads st pt I a).
    Proof.
      intros (i1 & rest & -> & H1 & H2) Hin Hx. apply in_app_or in Hin as [Hin|Hin].
      - clear H2. assert (exists e, In e (all_vecs a) /\ it_rep pt e it) as (e & He & _ & _ & HR).
        { clear Hx. induction H1 as [|e i' es is Hr H1 IH]; [destruct Hin|]. destruct Hin as [->|Hin].
          - exists e. split; [left; reflexivity|exact Hr].
          - destruct (IH Hin) as (e' & ? & ?). exists e'. split; [right; assumption|assumption]. }
        rewrite HR in Hx. eapply all_vecs_reads; eassumption.
      - rewrite Forall_forall in H2. destruct (H2 it Hin) as [y ->]. destruct Hx.
    Qed.

    Context (I : list (list Z)) (R W : ptr -> Prop).

    Lemma put_rd_within p v (k : @tprog S) : W p -> within R W k -> within R W (put_rd p v k).
    Proof. destruct v; cbn [put_rd within]; auto. Qed.

    Lemma number_rd_within a (k : @tprog S) : (forall p, In p (wwrites st pt a) -> W p) ->
      within R W k -> within R W (number_rd a w k).
    Proof.
      intros HW Hk. destruct a as [i r|i j r|x p]; cbn [number_rd]; try exact Logic.I;
        destruct r; try exact Logic.I; cbn [within]; rewrite ?Hw.
      - split; [apply HW; left; reflexivity|exact Hk].
      - split; [apply HW; left; reflexivity|]. split; [apply HW; right; left; reflexivity|exact Hk].
    Qed.

    Lemma general_rd_within a t (k : @tprog S) :
      (forall p, In p (wreads st pt I a) -> R p) -> (forall p, In p (wwrites st pt a) -> W p) ->
      entries_in I R t -> within R W k -> within R W (general_rd a w t I k).
    Proof.
      intros HR HW Ht Hk. destruct a as [i r|i j r|x p]; cbn [general_rd]; try exact Logic.I.
      - assert (W (padd w i)) as Hi by (rewrite Hw; apply HW; left; reflexivity).
        assert (forall v, within R W (put_rd (padd w i) v k)) as Hp by (intros v; apply put_rd_within; assumption).
        assert (forall j, In j (st_indices r) -> R (padd w j)) as Hj.
        { intros j Hj. rewrite Hw. apply HR. apply st_indices_reads. exact Hj. }
        destruct r as [x|e|z|o p q].
        + cbn [within]. auto.
        + destruct (nth_error t 0) eqn:E; [|exact Logic.I]. apply entry_rd_within; [|exact Hp].
          eapply entries_nth; eassumption.
        + apply inv_rd_within; assumption.
        + apply inv_rd_within; assumption.
      - destruct r as [x|e|z|o p q]; try exact Logic.I.
        destruct (nth_error t 0) eqn:E; [|exact Logic.I].
        pose proof (entries_nth _ _ _ _ _ Ht E) as He. apply entry_rd_within; [exact He|].
        intros v. destruct v as [x|x y|q]; try exact Logic.I. cbn [within].
        split; [rewrite Hw; apply HW; left; reflexivity|]. apply entry_rd_within; [exact He|].
        intros v. destruct v as [x'|x' y'|q]; try exact Logic.I. cbn [within].
        split; [rewrite Hw; apply HW; right; left; reflexivity|exact Hk].
    Qed.

    Lemma self_rd_within a lh t (k : @tprog S) :
      (forall p, In p (wreads st pt I a) -> R p) -> (forall p, In p (wwrites st pt a) -> W p) ->
      (forall x p, a = WSub x p -> mti_addr lh = addr x pt) ->
      entries_in I R t -> within R W k -> within R W (self_rd a lh w t I k).
    Proof.
      intros HR HW Hl Ht Hk. destruct a as [i r|i j r|x p]; cbn [self_rd]; try exact Logic.I.
      apply inv_rd_within; [|exact Ht|].
      - intros j Hj. rewrite Hw. apply HR. right. apply st_indices_reads.
        unfold wsub_rhs, PNeg in Hj. cbn [st_indices] in Hj. rewrite app_nil_r in Hj. exact Hj.
      - intros v. destruct (m_ptr lh); [exact Logic.I|]. apply put_rd_within; [|exact Hk].
        rewrite (Hl x p eq_refl). apply HW. left; reflexivity.
    Qed.

    Lemma fold_within {A} (f : A -> @tprog S -> tprog) l :
      (forall a k, In a l -> within R W k -> within R W (f a k)) -> within R W (fold_right f TDone l).
    Proof.
      induction l as [|a l IH]; intros H; cbn [fold_right]; [exact Logic.I|].
      apply H; [left; reflexivity|]. apply IH. intros; apply H; [right|]; assumption.
    Qed.
  End Thread.

  Definition wworks (st : span) (l : list wassign) (I : list (list Z)) (t : tprog) (pt : point) : Prop :=
    within (fun p => In p (flat_map (wreads st pt I) l)) (fun p => In p (flat_map (wwrites st pt) l)) t /\
    forall m : mem S, ints m = I -> run_alone t m = point_spec st l pt m.

  Lemma in_flat_reads {A B} (f : A -> list B) l a x : In a l -> In x (f a) -> In x (flat_map f l).
  Proof. intros. apply in_flat_map. eauto. Qed.

  Lemma window_case l :
    (Forall (fun a => rhs_number a = true) l \/
     Forall (fun a => self_assign a = true) l \/
     Forall (fun a : wassign => self_assign a = false /\
                      match a with WSet2 _ _ (PNum _) => False | _ => True end) l) ->
    Forall (fun a => rhs_number a = true) l /\ forallb rhs_number l = true \/
    forallb rhs_number l = false /\
    (Forall (fun a => self_assign a = true) l /\ forallb self_assign l = true \/
     forallb self_assign l = false /\
     Forall (fun a => self_assign a = false /\ match a with WSet2 _ _ (PNum _) => False | _ => True end) l).
  Proof.
    intros Hshape. destruct (forallb rhs_number l) eqn:E1.
    - left. split; [apply forallb_Forall; exact E1|reflexivity].
    - right. split; [reflexivity|]. destruct (forallb self_assign l) eqn:E2.
      + left. split; [apply forallb_Forall; exact E2|reflexivity].
      + right. split; [reflexivity|]. destruct Hshape as [H|[H|H]]; [| |exact H].
        * apply forallb_Forall in H. congruence.
        * apply forallb_Forall in H. congruence.
  Qed.

  Lemma Forall2_nth {A B} (P : A -> B -> Prop) l r i a : Forall2 P l r -> nth_error l i = Some a ->
    exists b, nth_error r i = Some b /\ P a b.
  Proof.
    intros H. revert i; induction H; intros [|i] E; simpl in *; try discriminate.
    - injection E as ->. eauto.
    - eauto.
  Qed.

  Lemma Forall2_in_r {A B} (P : A -> B -> Prop) l r b : Forall2 P l r -> In b r -> exists a, In a l /\ P a b.
  Proof.
    induction 1 as [|a b' l r H HF IH]; intros Hin; [destruct Hin|]. destruct Hin as [->|Hin].
    - exists a. split; [left; reflexivity|exact H].
    - destruct (IH Hin) as (a' & ? & ?). exists a'. split; [right|]; assumption.
  Qed.

  Lemma in_combine_Forall2 {A B} (P : A -> B -> Prop) l r p : Forall2 P l r -> In p (combine l r) -> P (fst p) (snd p).
  Proof.
    induction 1 as [|a b l r H HF IH]; intros Hin; [destruct Hin|]. destruct Hin as [<-|Hin]; [exact H|auto].
  Qed.

  Theorem window_thread_works st dom l I k :
    window_ok st dom l -> window_indep st l -> 0 <= k < prodZ (counts dom) ->
    exists t, window_thread st dom l I k = Some t /\
              wworks st l I t (pt_at dom (unrav (counts dom) k) origin).
  Proof.
    intros (Hd & Hs & Hwin & Hok & Hv & Hshape) Hind Hk.
    apply window_case in Hshape. assert (0 < prodZ (counts dom)) as H0 by lia.
    destruct (window_family st dom Hd Hs H0 Hwin) as [W HW].
    destruct (was_family dom l Hd H0 Hok Hv) as [TFs HF].
    unfold window_thread. rewrite (proj1 HW). cbn [bind].
    rewrite (proj1 (proj2 (proj2 HW))) by lia. cbn [bind]. rewrite Z.add_0_l.
    destruct (proj2 (proj2 (proj2 HW)) k origin Hk) as [-> HA]. cbn [negb].
    set (pt := pt_at dom (unrav (counts dom) k) origin) in *. set (w := mti_addr (W k)) in *.
    pose proof (afams_rep dom l TFs k origin HF Hk) as HR. fold pt in HR.
    destruct Hshape as [[Hnum ->]|[-> Hrest]].
    { eexists; split; [reflexivity|]. split.
      - apply fold_within. intros a k' Ha Hk'. apply (number_rd_within st pt w HA); [|exact Hk'].
        intros p. apply in_flat_reads. exact Ha.
      - intros m HI. rewrite (fold_rd _ (fun a => run_number a w) I).
        + apply elem_number_point; assumption.
        + intros a k' m' _. apply number_rd_val.
        + intros a m1 m2 HI' E. rewrite <- HI'. destruct a as [i r|i j r|x p]; cbn [run_number] in E; try discriminate;
            destruct r; try discriminate.
          * apply (store_ints _ _ _ _ E).
          * apply bind_Some_inv in E as (m3 & E3 & E). rewrite (store_ints _ _ _ _ E). apply (store_ints _ _ _ _ E3).
        + exact HI. }
    rewrite (afams_start dom l TFs HF). cbn [bind].
    rewrite (afams_adv dom l TFs 0 k HF) by lia. cbn [bind]. rewrite Z.add_0_l.
    assert (forall its it, In its (at_pos k TFs) -> In it its ->
              forall p, In p (it_reads it I) -> In p (flat_map (wreads st pt I) l)) as Hreads.
    { intros its it H1 H2 p Hp. destruct (Forall2_in_r _ _ _ _ HR H1) as (a & Ha & Hr).
      eapply in_flat_reads; [exact Ha|]. eapply its_rep_reads; eassumption. }
    destruct Hrest as [[Hself ->]|[-> Hgen]].
    - destruct (lhss_family dom l Hd H0 Hok Hself) as [Ls HL].
      rewrite (lfams_start dom l Ls HL). cbn [bind].
      rewrite (lfams_adv dom l Ls 0 k HL) by lia. cbn [bind]. rewrite Z.add_0_l.
      pose proof (lfams_rep dom l Ls k origin HL Hk) as HLR. fold pt in HLR.
      eexists; split; [reflexivity|]. split.
      + apply tups_rd_within; [exact Hreads|]. intros ts HLen Hts.
        apply fold_within. intros [[a lh] t] k' Hin Hk'. cbn [fst snd].
        pose proof (in_combine_l _ _ _ _ Hin) as Hin1. pose proof (in_combine_r _ _ _ _ Hin) as Hin2.
        pose proof (in_combine_l _ _ _ _ Hin1) as Hal.
        apply (self_rd_within st pt w HA).
        * intros p. apply in_flat_reads. exact Hal.
        * intros p. apply in_flat_reads. exact Hal.
        * apply (in_combine_Forall2 _ _ _ _ HLR Hin1).
        * rewrite Forall_forall in Hts. apply Hts. exact Hin2.
        * exact Hk'.
      + intros m HI. rewrite tups_rd_deref by exact HI.
        rewrite <- (elem_self_point st pt w HA dom l (at_pos k TFs) (at_pos k Ls) m); try assumption.
        apply bind_ext. intros ts _.
        apply (fold_rd _ _ I); [| |exact HI].
        * intros a k' m' HI'. apply self_rd_val. exact HI'.
        * intros a m1 m2 HI' E. rewrite <- HI'. apply (run_self_ints _ _ _ _ _ _ E).
    - eexists; split; [reflexivity|]. split.
      + apply tups_rd_within; [exact Hreads|]. intros ts HLen Hts.
        apply fold_within. intros [a t] k' Hin Hk'. cbn [fst snd].
        pose proof (in_combine_l _ _ _ _ Hin) as Hal. pose proof (in_combine_r _ _ _ _ Hin) as Hin2.
        apply (general_rd_within st pt w HA).
        * intros p. apply in_flat_reads. exact Hal.
        * intros p. apply in_flat_reads. exact Hal.
        * rewrite Forall_forall in Hts. apply Hts. exact Hin2.
        * exact Hk'.
      + intros m HI. rewrite tups_rd_deref by exact HI.
        rewrite <- (elem_general_point st pt w HA dom l (at_pos k TFs) m); try assumption.
        apply bind_ext. intros ts _.
        apply (fold_rd _ _ I); [| |exact HI].
        * intros a k' m' HI'. apply general_rd_val. exact HI'.
        * intros a m1 m2 HI' E. rewrite <- HI'. apply (run_general_ints _ _ _ _ _ E).
  Qed.

  Theorem window_launch_works st dom l I : window_ok st dom l -> window_indep st l ->
    exists ts, window_launch st dom l I = Some ts /\
      Forall2 (wworks st l I) ts (firstn (Z.to_nat (prodZ (floors dom))) (domain_points dom origin)).
  Proof.
    intros Hok Hind. pose proof (proj1 Hok) as Hd. pose proof (floors_le dom Hd) as Hle.
    unfold window_launch. rewrite window_size_ok by exact Hd. cbn [bind].
    rewrite domain_points_seqZ by (apply wf_counts; exact Hd).
    rewrite firstn_map, firstn_seqZ by exact Hle. unfold seqZ. rewrite map_map.
    apply mapM_Forall2. intros k Hk. apply in_seq in Hk.
    apply window_thread_works; try assumption. lia.
  Qed.

  Lemma wassign_at_ints st (a : wassign) pt (m m' : mem S) : wassign_at st a pt m = Some m' -> ints m' = ints m.
  Proof. intros E. apply (wassign_at_frame st pt a m m' E). Qed.

  Lemma point_spec_frame st l pt (m m' : mem S) : point_spec st l pt m = Some m' ->
    shape m' = shape m /\ ints m' = ints m /\
    forall x, ~ In x (flat_map (wwrites st pt) l) -> load m' x = load m x.
  Proof.
    unfold point_spec. revert m; induction l as [|a l IH]; intros m E; cbn [forM flat_map] in *.
    - injection E as ->. auto.
    - apply bind_Some_inv in E as (m1 & E1 & E). destruct (IH m1 E) as (H1 & H2 & H3).
      destruct (wassign_at_frame st pt a m m1 E1) as (F1 & F2 & F3).
      split; [congruence|]. split; [congruence|]. intros x Hx. rewrite H3, F3; [reflexivity| |];
        intros Hin; apply Hx; apply in_or_app; auto.
  Qed.

  Lemma points_frame st l pts (m m' : mem S) : forM pts (point_spec st l) m = Some m' ->
    shape m' = shape m /\ ints m' = ints m /\
    forall x, ~ In x (flat_map (fun pt => flat_map (wwrites st pt) l) pts) -> load m' x = load m x.
  Proof.
    revert m; induction pts as [|pt pts IH]; intros m E; cbn [forM flat_map] in *.
    - injection E as ->. auto.
    - apply bind_Some_inv in E as (m1 & E1 & E). destruct (IH m1 E) as (H1 & H2 & H3).
      destruct (point_spec_frame st l pt m m1 E1) as (F1 & F2 & F3).
      split; [congruence|]. split; [congruence|]. intros x Hx. rewrite H3, F3; [reflexivity| |];
        intros Hin; apply Hx; apply in_or_app; auto.
  Qed.

  Lemma wworks_forM st l I ts pts (m : mem S) : Forall2 (wworks st l I) ts pts -> ints m = I ->
    forM ts run_alone m = forM pts (point_spec st l) m.
  Proof.
    intros H. revert m; induction H as [|t pt ts pts [_ Hw] Hr IH]; intros m HI; [reflexivity|].
    cbn [forM]. rewrite Hw by exact HI. destruct (point_spec st l pt m) as [m1|] eqn:E; [|reflexivity].
    cbn [bind]. apply IH. destruct (point_spec_frame _ _ _ _ _ E) as (_ & -> & _). exact HI.
  Qed.

  Lemma nth_error_firstn {A} n (l : list A) i x : nth_error (firstn n l) i = Some x -> nth_error l i = Some x.
  Proof.
    revert l i; induction n; intros [|y l] [|i]; simpl; intros E; try discriminate; auto.
  Qed.

  Theorem window_schedule st dom l (m : mem S) :
    window_ok st dom l -> window_indep st l -> window_disjoint_elems st dom l (ints m) ->
    exists ts, window_launch st dom l (ints m) = Some ts /\
      (forall sch ts' m', run_schedule sch (ts, m) = Some (ts', m') -> all_done ts' ->
         with_window st dom l m = Some m') /\
      (forall sch, with_window st dom l m <> None -> run_schedule sch (ts, m) <> None) /\
      (forall m', with_window st dom l m = Some m' ->
         exists sch ts', run_schedule sch (ts, m) = Some (ts', m') /\ all_done ts').
  Proof.
    intros Hok Hind Hdis. destruct (window_launch_works st dom l (ints m) Hok Hind) as (ts & El & HF).
    exists ts. split; [exact El|]. rewrite with_window_points by assumption.
    rewrite <- (wworks_forM st l (ints m) ts _ m HF eq_refl).
    set (pts := firstn _ _) in *.
    set (R := fun (i : nat) (p : ptr) => match nth_error pts i with Some pt => In p (flat_map (wreads st pt (ints m)) l) | None => False end).
    set (W := fun (i : nat) (p : ptr) => match nth_error pts i with Some pt => In p (flat_map (wwrites st pt) l) | None => False end).
    assert (fits R W ts) as Hfit.
    { intros i t Ht. destruct (Forall2_nth _ _ _ _ _ HF Ht) as (pt & Ei & Hwi & _).
      eapply within_mono; [| |exact Hwi]; intros p Hp; unfold R, W; rewrite Ei; exact Hp. }
    assert (forall i j p, i <> j -> W i p -> ~ R j p /\ ~ W j p) as Hi.
    { intros i j p Hij HWi. unfold R, W in *.
      destruct (nth_error pts i) as [x|] eqn:Ei; [|destruct HWi].
      destruct (nth_error pts j) as [y|] eqn:Ej; [|tauto].
      apply (Hdis i j x y p); auto; eapply nth_error_firstn; eassumption. }
    assert (forall i p, W i p \/ ~ W i p) as Hdec.
    { intros i p. unfold W. destruct (nth_error pts i); [|tauto].
      destruct (in_dec ptr_dec p (flat_map (wwrites st p0) l)); auto. }
    split; [|split].
    - intros sch. exact (proj1 (schedule_independent R W Hi ts m sch Hdec Hfit)).
    - intros sch. exact (proj2 (schedule_independent R W Hi ts m sch Hdec Hfit)).
    - intros m' E. apply schedule_exists. exact E.
  Qed.

  (** Every location that is not a named entry at a point of the domain is left alone. *)
  Theorem window_frame st dom l (m m' : mem S) :
    window_ok st dom l -> window_indep st l -> with_window st dom l m = Some m' ->
    shape m' = shape m /\ ints m' = ints m /\
    forall x, (forall pt a, In pt (domain_points dom origin) -> In a l -> ~ In x (wwrites st pt a)) ->
      load m' x = load m x.
  Proof.
    intros Hok Hind E. rewrite with_window_points in E by assumption.
    destruct (points_frame _ _ _ _ _ E) as (H1 & H2 & H3). split; [exact H1|]. split; [exact H2|].
    intros x Hx. apply H3. intros Hin. apply in_flat_map in Hin as (pt & Hpt & Hin).
    apply in_flat_map in Hin as (a & Ha & Hin). eapply Hx; [|exact Ha|exact Hin].
    revert Hpt. generalize (domain_points dom origin) (Z.to_nat (prodZ (floors dom))). clear.
    intros l n. revert l; induction n; intros [|y l]; simpl; try tauto. intros [->|H]; auto.
  Qed.

  Lemma preads_cases st (p : proxy) pt I x : In x (preads st p pt I) ->
    (exists i, In i (st_indices p) /\ x = entry_at st pt i) \/ (exists e, In e (pvecs p) /\ In x (reads e pt I)).
  Proof.
    induction p as [y|e|k|o p IHp q IHq]; cbn [preads st_indices pvecs]; intros H.
    - destruct H.
    - right. exists e. split; [left; reflexivity|exact H].
    - left. destruct H as [<-|[]]. exists k. split; [left; reflexivity|reflexivity].
    - apply in_app_or in H as [H|H].
      + destruct (IHp H) as [(i & ? & ?)|(e & ? & ?)]; [left; exists i|right; exists e]; (split; [apply in_or_app|]; auto).
      + destruct (IHq H) as [(i & ? & ?)|(e & ? & ?)]; [left; exists i|right; exists e]; (split; [apply in_or_app|]; auto).
  Qed.

  Theorem window_local_disjoint st dom (l : list wassign) I :
    window_ok st dom l -> window_local st dom l -> window_disjoint_elems st dom l I.
  Proof.
    intros (Hd & Hs & Hwin & Hok & _) (hd & w & wb & Eb & Hin & Hidx & Hsub & Hav).
    assert (Permutation (map fst dom) (map fst hd)) as HP.
    { destruct Hwin as (hd' & w' & wb' & Eb' & HP'). rewrite Eb in Eb'.
      apply app_inj_tail in Eb' as [-> _]. exact HP'. }
    intros i j p q x Ep Eq Hij Hx. apply in_flat_map in Hx as (a & Ha & Hx).
    assert (forall n n', In n (flat_map wa_indices l) -> In n' (flat_map wa_indices l) ->
              entry_at st p n <> entry_at st q n') as Hent.
    { intros n n' H1 H2. apply in_flat_map in H1 as (a1 & Ha1 & H1). apply in_flat_map in H2 as (a2 & Ha2 & H2).
      unfold entry_at. rewrite Eb, rev_app_distr. cbn [rev app].
      apply (window_disjoint st hd w wb dom i j); eauto. }
    assert (forall b n, In b l -> In n (wa_indices b) -> In n (flat_map wa_indices l)) as Hfl.
    { intros b n Hb Hn. apply in_flat_map. eauto. }
    (* x is either an entry of the window at p, or x(p) of a WSub *)
    assert ((exists n, In n (wa_indices a) /\ x = entry_at st p n /\ wa_block st a = fst (sp_ptr st)) \/
            (exists y pr, a = WSub y pr /\ x = addr y p)) as Hcase.
    { destruct a as [n r|n n' r|y pr]; cbn [wwrites] in Hx.
      - destruct Hx as [<-|[]]. left. exists n. split; [left; reflexivity|]. auto.
      - destruct Hx as [<-|[<-|[]]]; left; [exists n|exists n']; cbn [wa_indices In]; auto.
      - destruct Hx as [<-|[]]. right. eauto. }
    assert (forall y pr b n, a = WSub y pr -> x = addr y p -> In b l -> x <> entry_at st q n) as Hsubent.
    { intros y pr b n -> -> Hb E. destruct (Hsub y pr Ha) as (_ & Hne & _). apply Hne.
      change (fst (sp_ptr y)) with (fst (addr y p)). rewrite E. apply entry_at_block. }
    assert (forall y pr z pr', a = WSub y pr -> x = addr y p -> In (WSub z pr') l -> x <> addr z q) as Hsubsub.
    { intros y pr z pr' -> -> Hz E. destruct (Hsub y pr Ha) as (Hdw & _ & Hyz).
      destruct (Hyz z pr' Hz) as [->|Hne].
      - assert (wf_span y /\ Permutation (map fst dom) (map fst (sp_b y))) as [Hy HPy].
        { rewrite Forall_forall in Hok. destruct (Hok _ Ha) as (_ & _ & _ & H1 & H2). auto. }
        assert (NoDup (map (addr y) (domain_points dom origin))) as HN.
        { apply domain_addr_nodup; [exact Hd|exact HPy|]. intros q0 Hq0.
          eapply dom_within_points; try eassumption. apply Hy. }
        rewrite NoDup_nth_error in HN. apply Hij. apply HN.
        + rewrite map_length. apply nth_error_Some. congruence.
        + rewrite !nth_error_map, Ep, Eq. simpl. congruence.
      - apply Hne. change (fst (sp_ptr z)) with (fst (addr z q)). rewrite <- E. reflexivity. }
    assert (forall y pr n, In (WSub y pr) l -> entry_at st p n <> addr y q) as Hentsub.
    { intros y pr n Hy E. destruct (Hsub y pr Hy) as (_ & Hne & _). apply Hne.
      change (fst (sp_ptr y)) with (fst (addr y q)). rewrite <- E. apply entry_at_block. }
    assert (fst x = wa_block st a) as Hbx by (eapply wwrites_block; exact Hx).
    assert (forall b e, In b l -> In e (wa_vecs b) -> ~ In x (reads e q I)) as Hvec.
    { intros b e Hb He Hr. pose proof (Hav b a Hb Ha) as H. rewrite Forall_forall in H.
      apply (avoids_reads _ _ _ _ _ (H e He) Hr). exact Hbx. }
    assert (forall b r, In b l -> (forall n, In n (st_indices r) -> In n (wa_indices b)) ->
              (forall e, In e (pvecs r) -> In e (wa_vecs b)) -> ~ In x (preads st r q I)) as Hpr.
    { intros b r Hb H1 H2 Hr. apply preads_cases in Hr as [(n & Hn & E)|(e & He & Hr)].
      - destruct Hcase as [(n' & Hn' & Ex & _)|(y & pr & Ey & Ex)].
        + apply (Hent n' n); [eauto| |congruence]. eapply Hfl; [exact Hb|auto].
        + eapply Hsubent; eauto.
      - eapply Hvec; eauto. }
    split; intros Hr; apply in_flat_map in Hr as (b & Hb & Hr).
    - destruct b as [n r|n n' r|y pr]; cbn [wreads] in Hr.
      + revert Hr. apply (Hpr (WSet1 n r)); auto. intros; right; assumption.
      + revert Hr. apply (Hpr (WSet2 n n' r)); auto. intros; right; right; assumption.
      + destruct Hr as [Hr|Hr].
        * destruct Hcase as [(n' & Hn' & Ex & _)|(y' & pr' & Ey & Ex)].
          -- apply (Hentsub y pr n' Hb). congruence.
          -- apply (Hsubsub y' pr' y pr Ey Ex Hb). congruence.
        * revert Hr. apply (Hpr (WSub y pr)); auto.
    - destruct Hcase as [(n1 & Hn1 & Ex & _)|(y1 & pr1 & Ey & Ex)].
      + destruct b as [n r|n n' r|y pr]; cbn [wwrites] in Hr.
        * destruct Hr as [Hr|[]]. apply (Hent n1 n); [eauto| |congruence]. apply (Hfl (WSet1 n r)); [exact Hb|left; reflexivity].
        * destruct Hr as [Hr|[Hr|[]]]; [apply (Hent n1 n)|apply (Hent n1 n')]; try congruence; eauto;
            apply (Hfl (WSet2 n n' r)); try exact Hb; cbn [wa_indices In]; auto.
        * destruct Hr as [Hr|[]]. apply (Hentsub y pr n1 Hb). congruence.
      + destruct b as [n r|n n' r|y pr]; cbn [wwrites] in Hr.
        * destruct Hr as [Hr|[]]. eapply Hsubent; eauto.
        * destruct Hr as [Hr|[Hr|[]]]; eapply Hsubent; eauto.
        * destruct Hr as [Hr|[]]. apply (Hsubsub y1 pr1 y pr Ey Ex Hb). congruence.
  Qed.
End Window.
